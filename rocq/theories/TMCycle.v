(* find_cycle and cleanup.  Proof file. *)
From Coq Require Import List Arith ZArith Bool Lia Permutation.
Import ListNotations.
From Verif Require Import TMModel TMBase TMSpec TMSafe TMSafe2 TMStatic TMStatic2 TMStatic3 TMFinal.

Definition fresh (U visited : list node) : nat := length (filter (fun x => negb (mem x visited)) U).
Lemma fresh_mono U v v' : incl v v' -> fresh U v' <= fresh U v.
Proof.
  intros H. unfold fresh. induction U as [|x U IH]; simpl; [lia|].
  destruct (mem x v') eqn:A; destruct (mem x v) eqn:B; simpl; try lia.
  apply mem_In in B. apply mem_nIn in A. elim A; apply H; exact B.
Qed.
Lemma fresh_add U v x : In x U -> ~ In x v -> fresh U (x :: v) < fresh U v.
Proof.
  intros H N. unfold fresh. induction U as [|y U IH]; [elim H|].
  destruct (Nat.eq_dec y x) as [->|Ny].
  - simpl. rewrite Nat.eqb_refl. simpl. apply mem_nIn in N. rewrite N. simpl.
    assert (fresh U (x :: v) <= fresh U v) as Q by (apply fresh_mono; intros z Hz; right; exact Hz). unfold fresh in Q. simpl in Q. lia.
  - destruct H as [H|H]; [contradiction|]. specialize (IH H). simpl. apply Nat.eqb_neq in Ny. rewrite Ny. cbn [orb].
    simpl in IH. unfold mem in *. destruct (existsb (Nat.eqb y) v); simpl; lia.
Qed.

Lemma find_cycle_total e s U first : env_wf e -> (forall k p, In (k, p) (wpE s) -> In p U) ->
  forall fuel last st visited, In last U -> fresh U visited < fuel ->
  exists r v, find_cycle fuel s e first (last :: st) visited = Some (r, v) /\ incl visited v.
Proof.
  intros We HU. induction fuel as [|fuel IH]; intros last st visited Hl Hf; [lia|].
  simpl. destruct (mem last visited) eqn:M; [exists None, visited; split; [reflexivity | intros x H; exact H]|].
  apply mem_nIn in M.
  assert (Hps : forall p, In p (e_iter e (wp s last)) -> In p U).
  { intros p Hp. rewrite iter_in in Hp by exact We. apply wp_in in Hp. eapply HU; exact Hp. }
  assert (Hf' : fresh U (last :: visited) < fuel) by (pose proof (fresh_add U visited last Hl M); lia).
  assert (Inc : incl visited (last :: visited)) by (intros x H; right; exact H).
  revert Hf' Inc. generalize (last :: visited) as v. induction (e_iter e (wp s last)) as [|p ps IHps]; intros v Hv Inc.
  - exists None, v; auto.
  - destruct (p =? first); [eexists _, v; split; [reflexivity | exact Inc]|].
    destruct (IH p (last :: st) v (Hps p (or_introl eq_refl)) Hv) as (r & v' & E & Iv). rewrite E.
    assert (incl visited v') as Iv' by (intros x H; apply Iv, Inc; exact H).
    destruct r as [st'|]; [exists (Some st'), v'; auto|].
    apply IHps; [intros q Hq; apply Hps; right; exact Hq | | exact Iv'].
    pose proof (fresh_mono U v v' Iv); lia.
Qed.

(* what is reported as a cycle is a closed walk in the waiting graph *)
Fixpoint walk (E : list (node * node)) (l : list node) : Prop :=
  match l with a :: ((b :: _) as r) => In (a, b) E /\ walk E r | _ => True end.
Lemma walk_snoc E l a b : walk E (l ++ [a]) -> In (a, b) E -> walk E (l ++ [a; b]).
Proof.
  induction l as [|x l IH]; simpl; intros H Hab; [auto|].
  destruct l as [|y l]; simpl in *; [tauto|]. destruct H as [H1 H2]. split; [exact H1 | apply IH; assumption].
Qed.
Lemma find_cycle_sound e s first : env_wf e ->
  forall fuel st visited r v, find_cycle fuel s e first st visited = Some (Some r, v) ->
  walk (wpE s) (rev st) -> (exists l, rev st = first :: l) ->
  walk (wpE s) r /\ (exists l, r = first :: l) /\ (exists l, r = l ++ [first]) /\ length r > length st.
Proof.
  intros We. induction fuel as [|fuel IH]; intros st visited r v H Hw Hfirst; [discriminate|].
  destruct st as [|last st]; [discriminate|]. simpl in H.
  destruct (mem last visited); [discriminate|].
  assert (Hps : forall p, In p (e_iter e (wp s last)) -> In (last, p) (wpE s)).
  { intros p Hp. rewrite iter_in in Hp by exact We. apply wp_in in Hp. exact Hp. }
  revert H. generalize (last :: visited) as v0. induction (e_iter e (wp s last)) as [|p ps IHps]; intros v0 H; [discriminate|].
  assert (Hw' : walk (wpE s) (rev (p :: last :: st))).
  { cbn [rev]. rewrite <- app_assoc. apply walk_snoc; [exact Hw | apply Hps; left; reflexivity]. }
  assert (Hf' : exists l, rev (p :: last :: st) = first :: l).
  { destruct Hfirst as [l Hl]. exists (l ++ [p]). cbn [rev]. cbn [rev] in Hl. rewrite Hl. reflexivity. }
  destruct (p =? first) eqn:E.
  - injection H as <- <-. apply Nat.eqb_eq in E. subst p.
    split; [exact Hw'|]. split; [exact Hf'|]. split; [exists (rev (last :: st)); reflexivity|].
    change (length (rev (first :: last :: st)) > length (last :: st)). rewrite rev_length. simpl; lia.
  - destruct (find_cycle fuel s e first (p :: last :: st) v0) as [[[st'|] v']|] eqn:Ef; [| |discriminate].
    + injection H as <- <-. destruct (IH _ _ _ _ Ef Hw' Hf') as (A & B & C & D). simpl in *. repeat split; auto; lia.
    + apply (IHps (fun q Hq => Hps q (or_intror Hq)) v' H).
Qed.

Lemma walk_depends kids E a l b : (forall k p, In (k, p) E -> In k (kids p)) -> walk E (a :: l ++ [b]) -> depends kids b a.
Proof.
  intros H. revert a. induction l as [|x l IH]; intros a; cbn [app].
  - intros [Q _]. apply dep1, H; exact Q.
  - intros [Q1 Q2]. specialize (IH x Q2). eapply (depends_trans kids); [exact IH | apply dep1, H; exact Q1].
Qed.

Definition cleanup_go (fuel : nat) (e : env) (s : tm) : list node -> option bool :=
  fix go (l : list node) : option bool :=
     match l with
     | [] => Some false
     | n :: r =>
       match find_cycle fuel s e n [n] [] with
       | None => None
       | Some (cyc, _) =>
         match go r with
         | None => None
         | Some b => Some (b || match cyc with Some _ => true | None => false end
                             || negb (nstate_eqb (nst s n) Executed))
         end
       end
     end.
Lemma cleanup_eq fuel e s : cleanup_raises fuel e s = cleanup_go fuel e s (pend s).
Proof. reflexivity. Qed.
Lemma cleanup_total e s : env_wf e -> exists F, forall fuel, fuel >= F -> forall l, incl l (pend s) -> exists b, cleanup_go fuel e s l = Some b.
Proof.
  intros We. set (U := pend s ++ map snd (wpE s)).
  exists (S (length U)). intros fuel Hf l. induction l as [|n l IH]; intros Hl; [exists false; reflexivity|].
  destruct (find_cycle_total e s U n We (fun k p H => in_or_app _ _ _ (or_intror (in_map snd _ _ H))) fuel n [] []) as (r & v & E & _).
  - apply in_or_app; left; apply Hl; left; reflexivity.
  - unfold fresh. pose proof (len_filter (fun x => negb (mem x [])) U). lia.
  - cbn [cleanup_go]. rewrite E. destruct IH as [b Eb]; [intros x Hx; apply Hl; right; exact Hx|]. rewrite Eb. eexists; reflexivity.
Qed.
Lemma cleanup_raise_head fuel e s n l : nst s n <> Executed -> cleanup_go fuel e s (n :: l) <> Some false.
Proof.
  intros Hn. cbn [cleanup_go]. destruct (find_cycle fuel s e n [n] []) as [[r v]|]; [|discriminate].
  destruct (cleanup_go fuel e s l); [|discriminate]. 
  assert (nstate_eqb (nst s n) Executed = false) as -> by (apply not_true_is_false; rewrite nstate_eqb_eq; exact Hn).
  cbn. rewrite orb_true_r. discriminate.
Qed.
