(* Printed trees: the drawing determines the tree; the tree without prune. *)
From Coq Require Import NArith List Bool Arith Lia.
From Verif Require Import TreModel TreSpec.
Import ListNotations.
Open Scope list_scope.

Scheme Shows_mut := Minimality for Shows Sort Prop with ShowsAll_mut := Minimality for ShowsAll Sort Prop.
Combined Scheme Shows_both from Shows_mut, ShowsAll_mut.

Definition shallow (d : nat) (r : list (nat * bool * str)) : Prop := match r with [] => True | (k, _, _) :: _ => k < d end.
Lemma shallow_le : forall d r, shallow d r -> shallow (S d) r.
Proof. intros d [|[[k b] n] r] H; cbn in *; [exact Logic.I | lia]. Qed.
Lemma shallow_app : forall d ts l r, ShowsAll d ts l -> shallow (S d) r -> shallow (S d) (l ++ r).
Proof. intros d ts l r H R. destruct H as [d | d t ts l1 l2 H1 H2]; [exact R|]. destruct H1 as [d n b ts' l H1]. cbn. lia. Qed.
Lemma unique : (forall d t1 l1, Shows d t1 l1 -> forall t2 l2 r1 r2, Shows d t2 l2 -> l1 ++ r1 = l2 ++ r2 -> shallow (S d) r1 -> shallow (S d) r2 -> t1 = t2 /\ r1 = r2) /\
  (forall d ts1 l1, ShowsAll d ts1 l1 -> forall ts2 l2 r1 r2, ShowsAll d ts2 l2 -> l1 ++ r1 = l2 ++ r2 -> shallow d r1 -> shallow d r2 -> ts1 = ts2 /\ r1 = r2).
Proof.
  apply Shows_both.
  - intros d n b ts l H1 IH t2 l2 r1 r2 H2 E R1 R2. destruct H2 as [d n2 b2 ts2 l2 H2]. cbn in E. injection E as <- <- E. destruct (IH _ _ _ _ H2 E R1 R2) as [-> ->]. split; reflexivity.
  - intros d ts2 l2 r1 r2 H2 E R1 R2. destruct H2 as [d | d t ts l1 l2 H2 H3]; [split; [reflexivity | exact E]|]. destruct H2 as [d n b ts' l H2]. cbn in E. rewrite E in R1. cbn in R1. lia.
  - intros d t ts l1 l2 H1 IH1 H2 IH2 ts2 l3 r1 r2 H3 E R1 R2. destruct H3 as [d | d t' ts' l3 l4 H3 H4].
    + exfalso. destruct H1 as [d n b ts' l H1]. cbn in E. rewrite <- E in R2. cbn in R2. lia.
    + rewrite <- !app_assoc in E. destruct (IH1 _ _ _ _ H3 E) as [-> E']; [exact (shallow_app _ _ _ _ H2 (shallow_le _ _ R1)) | exact (shallow_app _ _ _ _ H4 (shallow_le _ _ R2))|].
      destruct (IH2 _ _ _ _ H4 E' R1 R2) as [-> ->]. split; reflexivity.
Qed.
(* one drawing shows one tree *)
Lemma shows_one : forall d t1 t2 l, Shows d t1 l -> Shows d t2 l -> t1 = t2.
Proof. intros d t1 t2 l H1 H2. exact (proj1 (proj1 unique d t1 l H1 t2 l [] [] H2 eq_refl Logic.I Logic.I)). Qed.

Lemma mem_spec : forall s l, mem s l = true <-> In s l.
Proof.
  assert (E : forall a b, str_eqb a b = true <-> a = b).
  { induction a as [|x a IH]; intros [|y b]; cbn; try (split; [discriminate | discriminate]); [split; reflexivity|]. rewrite andb_true_iff, N.eqb_eq, IH.
    split; [intros [-> ->]; reflexivity | intros H; injection H as -> ->; split; reflexivity]. }
  intros s l. unfold mem. rewrite existsb_exists. split; [intros [x [I H]]; apply E in H; subst x; exact I | intros I; exists s; split; [exact I | apply E; reflexivity]].
Qed.

Section Drawing.
Context {node : Type} (g : graph node) (o : options).
Notation kids := (children g o).
Definition sight (l : @line node) : nat * bool * str := (length (margins l), bracket l, name g (who l)).

Lemma print_whole : prune o = false -> forall fuel above own last v n ls v', print g o fuel above own last v n = Some (ls, v') ->
  exists t, Unfolds g kids n t /\ Shows (length above) t (map sight ls).
Proof.
  intros P. induction fuel as [|fuel IH]; intros above own last v n ls v' H; [discriminate H|]. cbn [print] in H. rewrite P in H. cbn [andb] in H.
  destruct (each _ _ _) as [[l w]|] eqn:E in H; [|discriminate H]. injection H as <- <-.
  assert (A : forall ch v0 l w, each (fun more visited c => print g o fuel (above ++ [own]) more (negb more) visited c) v0 ch = Some (l, w) ->
    exists ts, UnfoldsAll g kids ch ts /\ ShowsAll (S (length above)) ts (map sight l)).
  { clear E v l w. induction ch as [|c r IHr]; intros v0 l w E; cbn [each] in E.
    - injection E as <- _. exists []. split; constructor.
    - destruct (print g o fuel (above ++ [own]) (nonempty r) (negb (nonempty r)) v0 c) as [[l1 v1]|] eqn:E1; [|discriminate E]. destruct (each _ _ r) as [[l2 v2]|] eqn:E2; [|discriminate E]. injection E as <- _.
      destruct (IH _ _ _ _ _ _ _ E1) as [t [U1 S1]]. destruct (IHr _ _ _ E2) as [ts [U2 S2]]. rewrite app_length, Nat.add_comm in S1. exists (t :: ts). split; [constructor; assumption|].
      rewrite map_app. constructor; assumption. }
  destruct (A _ _ _ _ E) as [ts [U0 S0]]. exists (T (name g n) false ts). split; [constructor; exact U0|]. cbn [map]. unfold sight at 1. cbn. constructor. exact S0.
Qed.
(* C84a: without prune, the lines show the whole tree of dependencies *)
Theorem C84a_whole : forall fuel root ls, prune o = false -> display g o fuel root = Some ls -> exists t, Unfolds g kids root t /\ Shows 0 t (map sight ls).
Proof.
  intros fuel root ls P H. unfold display in H. destruct (print g o fuel [] false true [] root) as [[l v]|] eqn:E; [|discriminate H]. injection H as ->. exact (print_whole P _ _ _ _ _ _ _ _ E).
Qed.

(* C84b: which is printed whole exactly if no node depends on itself: endless if it leads to dependencies that never end *)
Lemma each_none : forall p v l c, In c l -> (forall more w, p more w c = None) -> each (node := node) p v l = None.
Proof.
  intros p v l c. revert v. induction l as [|d l IH]; intros v I H; [contradiction|]. cbn [each]. destruct I as [-> | I]; [rewrite H; reflexivity|].
  destruct (p _ _ d) as [[l1 w]|]; [|reflexivity]. rewrite (IH w I H). reflexivity.
Qed.
Lemma each_some : forall p l, (forall c, In c l -> forall more w, exists r, p more w c = Some r) -> forall v, exists r, each (node := node) p v l = Some r.
Proof.
  intros p. induction l as [|d l IH]; intros H v; cbn [each]; [eexists; reflexivity|]. destruct (H d (or_introl eq_refl) (nonempty l) v) as [[l1 w] ->].
  destruct (IH (fun c I => H c (or_intror I)) w) as [[l2 w2] ->]. eexists. reflexivity.
Qed.
Theorem C84b_ends : prune o = false ->
  (forall rank : node -> nat, (forall n c, In c (kids n) -> rank c < rank n) -> forall root fuel, rank root < fuel -> exists ls, display g o fuel root = Some ls) /\
  (forall (Endless : node -> Prop), (forall n, Endless n -> exists c, In c (kids n) /\ Endless c) -> forall root fuel, Endless root -> display g o fuel root = None).
Proof.
  intros P. split.
  - intros rank R. assert (A : forall fuel n above own last v, rank n < fuel -> exists r, print g o fuel above own last v n = Some r).
    { induction fuel as [|fuel IH]; intros n above own last v L; [lia|]. cbn [print]. rewrite P. cbn [andb].
      destruct (each_some (fun more visited c => print g o fuel (above ++ [own]) more (negb more) visited c) (kids n)) with (v := name g n :: v) as [[l w] ->]; [|eexists; reflexivity].
      intros c I more w. apply IH. pose proof (R n c I). lia. }
    intros root fuel L. unfold display. destruct (A fuel root [] false true [] L) as [[l v] ->]. eexists. reflexivity.
  - intros Endless D. assert (A : forall fuel n above own last v, Endless n -> print g o fuel above own last v n = None).
    { induction fuel as [|fuel IH]; intros n above own last v L; [reflexivity|]. cbn [print]. rewrite P. cbn [andb]. destruct (D n L) as [c [I C]].
      rewrite (each_none _ _ _ c I); [reflexivity|]. intros more w. apply IH. exact C. }
    intros root fuel L. unfold display. rewrite (A fuel root _ _ _ _ L). reflexivity.
Qed.
End Drawing.
Print Assumptions C84a_whole.
Print Assumptions C84b_ends.
