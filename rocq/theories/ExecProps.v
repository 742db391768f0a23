(* C49: the lists of targets and sources of an executor with several batches (SCons/Executor.py). *)
From Coq Require Import List Arith Bool Lia Permutation.
Import ListNotations.
From Verif Require Import ActionModel.

Lemma mem_in n l : mem n l = true <-> In n l.
Proof. unfold mem. rewrite existsb_exists. split; [intros (x & H & E); apply Nat.eqb_eq in E; subst; exact H | intros H; exists n; rewrite Nat.eqb_refl; auto]. Qed.

(* C49.  $CHANGED_TARGETS/$CHANGED_SOURCES are the targets/sources of the batches that are out of date, $UNCHANGED_... those of the
   others, in order; together they are $TARGETS/$SOURCES. *)
Theorem C49_changed_lists : forall utd x, let '(cs, ct, (us, ut)) := get_changes utd (x_batches x) in
  let old b := utd (hd 0 (fst b)) in
  ct = concat (map fst (filter (fun b => negb (old b)) (x_batches x))) /\ cs = concat (map snd (filter (fun b => negb (old b)) (x_batches x)))
  /\ ut = concat (map fst (filter old (x_batches x))) /\ us = concat (map snd (filter old (x_batches x)))
  /\ Permutation (ct ++ ut) (all_targets x) /\ Permutation (cs ++ us) (all_sources x).
Proof.
  intros utd x. unfold all_targets, all_sources. induction (x_batches x) as [|[t s] r IH]; [cbn; repeat split; apply perm_nil|]. cbn [get_changes]. destruct (get_changes utd r) as [[cs ct] [us ut]].
  cbv zeta in IH. destruct IH as (A & B & C & D & P & Q). cbv zeta. cbn [filter fst map concat]. destruct (utd (hd 0 t)); cbn [negb map concat fst snd]; rewrite <- A, <- B, <- C, <- D.
  - repeat split; rewrite Permutation_app_comm, <- app_assoc; apply Permutation_app_head; rewrite Permutation_app_comm; assumption.
  - repeat split; rewrite <- app_assoc; apply Permutation_app_head; assumption.
Qed.
Print Assumptions C49_changed_lists.

(* C49b.  Adding sources to a multi-step target: old sources stay in front, in order; the new ones that were not there follow. *)
Theorem C49b_add_sources : forall l x x', add_sources l x = Some x' ->
  all_targets x' = all_targets x /\ action_list x' = action_list x
  /\ (exists new, all_sources x' = all_sources x ++ new /\ forall n, In n new <-> In n l /\ ~ In n (all_sources x))
  /\ (NoDup (all_sources x) -> NoDup l -> NoDup (all_sources x')).
Proof.
  intros l x x' H. unfold add_sources in H. destruct (x_batches x) as [|[t s] [|b r]] eqn:E; try discriminate. injection H as <-.
  unfold all_targets, all_sources, action_list. cbn [x_batches x_pre x_acts x_post map concat fst snd]. rewrite E. cbn [map concat fst snd]. rewrite !app_nil_r.
  assert (F : forall n, In n (filter (fun n => negb (mem n s)) l) <-> In n l /\ ~ In n s).
  { intros n. rewrite filter_In, negb_true_iff. split; intros [A B]; (split; [exact A|]); [intros Q; apply mem_in in Q; congruence | destruct (mem n s) eqn:M; [apply mem_in in M; contradiction | reflexivity]]. }
  split; [reflexivity|]. split; [reflexivity|]. split; [exists (filter (fun n => negb (mem n s)) l); split; [reflexivity | exact F]|].
  intros N1 N2. clear E. induction s as [|a s IHs] in N1, F |- *.
  - cbn. apply NoDup_filter, N2.
  - apply NoDup_cons_iff in N1. destruct N1 as [Na N1]. assert (NoDup (filter (fun n => negb (mem n (a :: s))) l)) by (apply NoDup_filter, N2).
    cbn [app]. constructor.
    + rewrite in_app_iff. intros [Q|Q]; [exact (Na Q)|]. apply F in Q. apply (proj2 Q). left; reflexivity.
    + clear IHs. assert (G : forall u v : list nat, NoDup u -> NoDup v -> (forall n, In n v -> ~ In n u) -> NoDup (u ++ v)).
      { clear. induction u as [|y u IH]; intros v Hu Hv D; [exact Hv|]. apply NoDup_cons_iff in Hu. destruct Hu as [Hy Hu]. cbn. constructor; [rewrite in_app_iff; intros [Q|Q]; [exact (Hy Q) | apply (D y Q); left; reflexivity] | apply IH; auto; intros n Hn Q; apply (D n Hn); right; exact Q]. }
      apply G; [exact N1 | exact H|]. intros n Hn Q. apply F in Hn. apply (proj2 Hn). right; exact Q.
Qed.
Print Assumptions C49b_add_sources.
(* refuted: duplicates within one call are kept *)
Theorem C49_add_sources_refuted : exists l x x', NoDup (all_sources x) /\ add_sources l x = Some x' /\ ~ NoDup (all_sources x').
Proof.
  exists [2; 2], {| x_pre := []; x_acts := []; x_post := []; x_batches := [([0], [1])] |}. eexists. split; [repeat constructor; cbn; tauto|]. split; [reflexivity|].
  intros H. cbn in H. apply NoDup_cons_iff in H. destruct H as [_ H]. apply NoDup_cons_iff in H. apply (proj1 H). left; reflexivity.
Qed.
Print Assumptions C49_add_sources_refuted.

(* C49c.  The sources recorded for one target of a batch executor are those of its own batch, without the ignored ones. *)
Theorem C49c_sources_of_target : forall x n bs1 t s bs2 ignore, NoDup (all_targets x) -> x_batches x = bs1 ++ (t, s) :: bs2 -> In n t ->
  unignored_sources x (Some n) ignore = filter (fun y => negb (mem y ignore)) s.
Proof.
  intros x n bs1 t s bs2 ignore N E Hn. unfold unignored_sources. unfold all_targets in N. rewrite E in *. clear E. f_equal.
  rewrite map_app, concat_app in N. cbn [map concat fst] in N. induction bs1 as [|[t1 s1] bs1 IH].
  - cbn [app find fst]. rewrite (proj2 (mem_in n t) Hn). reflexivity.
  - cbn [app find fst]. cbn [map concat fst] in N. destruct (mem n t1) eqn:M.
    + exfalso. apply mem_in in M. rewrite <- app_assoc in N. clear -N M Hn. induction t1 as [|y t1 IH]; [elim M|]. cbn [app] in N. apply NoDup_cons_iff in N. destruct N as [Ny N].
      destruct M as [->|M]; [|apply IH; assumption]. apply Ny. apply in_or_app. right. apply in_or_app. right. apply in_or_app. left. exact Hn.
    + apply IH. rewrite <- app_assoc in N. clear -N. induction t1 as [|y t1 IH]; [exact N|]. apply NoDup_cons_iff in N. apply IH, (proj2 N).
Qed.
Print Assumptions C49c_sources_of_target.

(* C49d.  What the build engine waits for before running the executor: every dependency of every target, once. *)
Theorem C49d_all_children : forall kids x, NoDup (all_children kids x) /\ forall n, In n (all_children kids x) <-> exists t, In t (all_targets x) /\ In n (kids t).
Proof.
  intros kids x. unfold all_children.
  assert (G : forall l seen, NoDup (uniq seen l) /\ forall n, In n (uniq seen l) <-> In n l /\ ~ In n seen).
  { induction l as [|y l IH]; intros seen; cbn [uniq]; [split; [constructor | cbn; tauto]|]. destruct (mem y seen) eqn:M.
    - apply mem_in in M. destruct (IH seen) as [A B]. split; [exact A|]. intros n. rewrite B. cbn. split; [tauto|]. intros [[->|H] H2]; [contradiction | auto].
    - assert (My : ~ In y seen) by (rewrite <- mem_in; congruence). destruct (IH (y :: seen)) as [A B]. split.
      + constructor; [rewrite B; cbn; tauto | exact A].
      + intros n. cbn. rewrite B. cbn. destruct (Nat.eq_dec y n) as [->|Ne]; [tauto|]. tauto. }
  destruct (G (concat (map kids (all_targets x))) []) as [A B]. split; [exact A|]. intros n. rewrite B. rewrite in_concat. split.
  - intros [(l & Hl & Hn) _]. apply in_map_iff in Hl. destruct Hl as (t & <- & Ht). eauto.
  - intros (t & Ht & Hn). split; [exists (kids t); split; [apply in_map, Ht | exact Hn] | intros []].
Qed.
Print Assumptions C49d_all_children.

(* C49e.  A build is refused exactly when some source is missing, and the one reported is missing. *)
Theorem C49e_prepare : forall missing x, match prepare missing x with
  | Some s => In s (all_sources x) /\ missing s = true
  | None => forall s, In s (all_sources x) -> missing s = false end.
Proof.
  intros missing x. unfold prepare. destruct (find missing (all_sources x)) as [s|] eqn:E; [apply find_some, E|]. intros s H. apply (find_none _ _ E s H).
Qed.
Print Assumptions C49e_prepare.

Example C49_witness : let x := add_batch [20; 21] [2] (add_batch [30] [3] {| x_pre := []; x_acts := []; x_post := []; x_batches := [([10], [1; 9])] |}) in
  get_changes (fun n => n =? 30) (x_batches x) = ([1; 9; 2], [10; 20; 21], ([3], [30])) /\ NoDup (all_targets x) /\ unignored_sources x (Some 21) [] = [2]
  /\ all_children (fun n => [n / 10; 7]) x = [1; 7; 3; 2] /\ prepare (fun s => s =? 9) x = Some 9.
Proof. cbn. repeat split; try reflexivity. repeat constructor; cbn; intuition discriminate. Qed.
