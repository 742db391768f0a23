(* C65: a project that meets the hypotheses of the theorems, and sessions in it; what happens in projects that do not *)
From Coq Require Import List Bool Arith Lia.
Import ListNotations.
From Verif Require Import IntModel IntSpec IntProps IntProps2 IntProps3.

(* ---- a closure: the nodes of U found from l ---- *)
Section Closure.
Variable U : list node.
Definition hit (i : node -> list node) (l c : list node) (m : node) : bool := existsb (fun x => mem m (i x)) (l ++ c).
Fixpoint rounds (k : nat) (i : node -> list node) (l : list node) : list node := match k with 0 => [] | S k => filter (hit i l (rounds k i l)) U end.
Definition closure_of (i : node -> list node) (l : list node) : list node := rounds (S (length U)) i l.
Lemma hit_In : forall i l c m, hit i l c m = true <-> exists x, (In x l \/ In x c) /\ In m (i x).
Proof. intros i l c m. unfold hit. rewrite existsb_exists. split; intros (x & H1 & H2); exists x; rewrite in_app_iff, mem_In in *; auto. Qed.
Lemma rounds_found : forall k i l m, In m (rounds k i l) -> found i l m.
Proof.
  induction k as [|k IH]; intros i l m Hm; [destruct Hm|]. cbn [rounds] in Hm. apply filter_In in Hm as [_ Hm]. apply hit_In in Hm as (x & [Hx|Hx] & Hi); [apply (found_first i l x m Hx Hi) | apply (found_next i l x m (IH _ _ _ Hx) Hi)].
Qed.
Lemma rounds_grow : forall k i l, incl (rounds k i l) (rounds (S k) i l).
Proof.
  induction k as [|k IH]; intros i l m Hm; [destruct Hm|]. cbn [rounds] in Hm |- *. apply filter_In in Hm as [H1 H2]. apply filter_In. split; [exact H1|]. apply hit_In in H2 as (x & H2 & H3). apply hit_In. exists x. split; [|exact H3].
  destruct H2 as [H2|H2]; [left; exact H2 | right; apply IH, H2].
Qed.
Lemma filter_eq : forall (A : Type) (p q : A -> bool) (l : list A), (forall x, In x l -> p x = q x) -> filter p l = filter q l.
Proof. intros A p q l. induction l as [|a l IH]; intros Hpq; [reflexivity|]. cbn [filter]. rewrite (Hpq a (or_introl eq_refl)), IH; [reflexivity | intros x Hx; apply Hpq; right; exact Hx]. Qed.
Lemma rounds_stop : forall k i l, rounds (S k) i l = rounds k i l \/ k <= length (rounds k i l).
Proof.
  induction k as [|k IH]; intros i l; [right; cbn; lia|]. destruct (IH i l) as [E|L].
  - left. change (rounds (S (S k)) i l) with (filter (hit i l (rounds (S k) i l)) U). rewrite E. exact E.
  - destruct (existsb (fun x => negb (mem x (rounds k i l))) (rounds (S k) i l)) eqn:Ex.
    + right. apply existsb_exists in Ex as (x & H1 & H2). destruct k as [|k]; [destruct (rounds 1 i l); [destruct H1 | cbn; lia]|].
      assert (H : length (rounds (S k) i l) < length (rounds (S (S k)) i l)); [|lia].
      change (length (filter (hit i l (rounds k i l)) U) < length (filter (hit i l (rounds (S k) i l)) U)). change (In x (filter (hit i l (rounds (S k) i l)) U)) in H1. apply filter_In in H1 as [H0 H1].
      apply (filter_strict _ _ _ U x); [|exact H0 | | exact H1].
      * intros y _ Hy. apply hit_In in Hy as (z & [Hz|Hz] & Hi); apply hit_In; exists z; (split; [|exact Hi]); [left; exact Hz | right; apply rounds_grow, Hz].
      * apply negb_true_iff, mem_false in H2. destruct (hit i l (rounds k i l) x) eqn:Eh; [|reflexivity]. exfalso. apply H2. cbn [rounds]. apply filter_In. auto.
    + left. change (filter (hit i l (rounds (S k) i l)) U = filter (hit i l (rounds k i l)) U). apply filter_eq. intros y _. apply eq_true_iff_eq. rewrite !hit_In.
      split; intros (x & [H1|H1] & H2); exists x; (split; [|exact H2]); [left; exact H1 | right | left; exact H1 | right; apply rounds_grow, H1].
      destruct (mem x (rounds k i l)) eqn:Em; [apply mem_In, Em|]. exfalso. assert (X : existsb (fun x => negb (mem x (rounds k i l))) (rounds (S k) i l) = true) by (apply existsb_exists; exists x; rewrite Em; auto). rewrite X in Ex. discriminate.
Qed.
Lemma rounds_length : forall k i l, length (rounds k i l) <= length U.
Proof. intros [|k] i l; [cbn; lia|]. cbn [rounds]. assert (G : forall V, length (filter (hit i l (rounds k i l)) V) <= length V) by (induction V as [|a V IH]; [cbn; lia | cbn [filter]; destruct (hit i l (rounds k i l) a); cbn [length]; lia]). apply G. Qed.
Lemma closure_all : forall i l m, (forall x, incl (i x) U) -> found i l m -> In m (closure_of i l).
Proof.
  intros i l m HU Hf. unfold closure_of. destruct (rounds_stop (S (length U)) i l) as [E|L]; [|pose proof (rounds_length (S (length U)) i l); lia].
  set (R := rounds (S (length U)) i l) in *. change (rounds (S (S (length U))) i l) with (filter (hit i l R) U) in E. rewrite <- E.
  induction Hf as [x m Hx Hm|x m Hx IH Hm]; apply filter_In; (split; [apply (HU x m Hm)|]); apply hit_In; exists x; (split; [|exact Hm]); [left; exact Hx | right; rewrite <- E; exact IH].
Qed.
Lemma closure_ext : forall i j l, (forall x, In x l \/ found i l x -> i x = j x) -> closure_of i l = closure_of j l.
Proof.
  intros i j l H. unfold closure_of. generalize (S (length U)) as k. induction k as [|k IH]; [reflexivity|]. cbn [rounds]. apply filter_eq. intros y _. rewrite <- IH. apply eq_true_iff_eq. rewrite !hit_In.
  split; intros (x & H1 & H2); exists x; (split; [exact H1|]); [rewrite <- (H x) | rewrite (H x)]; try exact H2; (destruct H1 as [H1|H1]; [left; exact H1 | right; apply (rounds_found k i l x H1)]).
Qed.
End Closure.

(* ---- a project: 0 prog, made from 1 prog.c; 2 a.h; 3 gen.h, made from 4 gen.in; 5 b.h; 6 another target ---- *)
Definition U6 : list node := [0; 1; 2; 3; 4; 5; 6].
(* contents: 1 includes a.h and gen.h, 2 includes b.h, 3 includes a.h, 4 includes gen.h, anything else includes nothing *)
Definition inc6 (c : content) : list node := match c with 1 => [2; 3] | 2 => [5] | 3 => [2] | 4 => [3] | _ => [] end.
Fixpoint total (l : list (option content)) : nat := match l with [] => 0 | Some c :: l => c + total l | None :: l => 1 + total l end.
Definition mk (src dep pre peer : node -> list node) (r : sig -> list (option content) -> bool * (node -> option content)) : project :=
  {| sources := src; depends := dep; prereq := pre; peers := peer; cmd := fun n => n; inc := inc6; closure := closure_of U6; run := r |}.
Definition from1 (n : node) : list node := match n with 0 => [1] | 6 => [1] | 3 => [4] | _ => [] end.
Definition none (n : node) : list node := [].
Definition alone (n : node) : list node := match n with 0 => [0] | 3 => [3] | 6 => [6] | _ => [] end.
(* the commands put together what they read *)
Definition join (c : sig) (args : list (option content)) : bool * (node -> option content) := (true, fun _ => Some (100 + total args)).
Definition P6 : project := mk from1 none none alone join.
Definition H6 (c : option content) : sig := match c with Some x => S x | None => 0 end.
Definition f6 (a b d : content) : disk := fun n => match n with 1 => Some a | 2 => Some b | 4 => Some d | 5 => Some 50 | _ => None end.
Definition w6 : world := {| files := f6 1 2 40; store := fun _ => None |}.

Lemma inc6_U : forall c, incl (inc6 c) U6.
Proof. intros [|[|[|[|[|c]]]]] x Hx; cbn in Hx |- *; intuition. Qed.
Lemma sound_mk : forall src dep pre peer r, (forall n, peer n <> [] -> In n (peer n)) -> (forall n t, In t (peer n) -> peer t = peer n /\ src t = src n) -> sound (mk src dep pre peer r) U6.
Proof.
  intros src dep pre peer r H1 H2. constructor; [exact H1 | exact H2 | apply inc6_U | | |].
  - intros i l m Hm. apply (rounds_found U6 _ i l m Hm).
  - intros i l m HU Hf. left. apply (closure_all U6 i l m HU Hf).
  - intros i j l Hij. apply (closure_ext U6 i j l Hij).
Qed.
Ltac nodes n := destruct n as [|[|[|[|[|[|[|n]]]]]]].
Lemma sound6 : sound P6 U6.
Proof.
  apply sound_mk.
  - intros n Hn. nodes n; cbn in *; auto; contradiction.
  - intros n t Ht. nodes n; cbn in Ht; (destruct Ht as [<- |[]] || destruct Ht); split; reflexivity.
Qed.
Lemma steady6 : steady P6 none.
Proof. intros n args ok out Hd Hr t Ht. cbn in Hr. injection Hr as <- <-. split; [|intros _]; intros x Hx; destruct Hx. Qed.
(* an editor that leaves the generated files alone, or writes there something without includes *)
Lemma steady_f6 : forall f, (forall n, derived P6 n = true -> match f n with Some c => inc6 c = [] | None => True end) -> steady_files P6 none f.
Proof. intros f Hf n Hd x Hx. specialize (Hf n Hd). unfold includes in Hx. destruct (f n) as [c|]; [|destruct Hx]. cbn in Hx. rewrite Hf in Hx. destruct Hx. Qed.
Lemma fits6 : forall w es, (forall n, derived P6 n = true -> match files w n with Some c => inc6 c = [] | None => True end) ->
  (forall f n, In (Edit f) es -> derived P6 n = true -> match f n with Some c => inc6 c = [] | None => True end) -> fits P6 H6 none w es.
Proof.
  intros w es H1 H2. split; [apply steady_f6, H1|]. split; [intros f Hf; apply steady_f6; intros n Hn; apply (H2 f n Hf Hn)|].
  intros es1 ts es2 trs w1 _ _ p q _ [Hq|[Hq Hn]]; [destruct Hq|]. exfalso. nodes p; cbn in Hq; (destruct Hq as [<- |[]] || destruct Hq); apply Hn; reflexivity.
Qed.
