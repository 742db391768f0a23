(* C35: the lock file gives mutual exclusion *)
From Coq Require Import List Arith Bool Lia.
From Verif Require Import LockModel.
Import ListNotations.
(* ---- specification: the code between acquire and release of a writer is `Inside` ---- *)
Definition reachable (s : sys) : Prop := exists s0 l, initial s0 /\ s = run s0 l.
Definition inside (s : sys) (i : nat) : Prop := at_ (procs s i) = Inside.
(* i has the lock file and is in release_lock, before the unlink *)
Definition releasing (s : sys) (i : nat) : Prop := at_ (procs s i) = Closing \/ at_ (procs s i) = Unlinking.
(* no process was killed, and the system gave nobody descriptor 0 *)
Definition healthy (s : sys) : Prop := forall i, at_ (procs s i) <> Dead /\ lock (procs s i) <> Some 0.

(* ---- proofs ---- *)
Definition owns (p : proc) : bool :=
  match at_ p with
  | Inside | Closing | Unlinking => true
  | Idle | Trying => match lock p with Some _ => true | None => false end
  | Clearing | Dead => false
  end.
Definition okp (p : proc) : Prop :=
  match at_ p with
  | Inside => lock p <> None
  | Closing | Unlinking | Clearing => lock p <> None /\ lock p <> Some 0
  | Idle | Trying => lock p = None \/ lock p = Some 0
  | Dead => True
  end.
Record inv (s : sys) : Prop := {
  i_one : forall i j, owns (procs s i) = true -> owns (procs s j) = true -> i = j;
  i_file : forall i, owns (procs s i) = true -> lockfile s = true;
  i_ok : forall i, okp (procs s i);
  i_back : lockfile s = true -> exists i, owns (procs s i) = true \/ at_ (procs s i) = Dead }.
Lemma inv_initial s : initial s -> inv s.
Proof.
  intros (Fl & Fr). assert (O : forall i, owns (procs s i) = false) by (intros i; destruct (Fr i) as (A & B & _); unfold owns; rewrite A, B; reflexivity).
  split; [intros i j H; rewrite O in H; discriminate | intros i H; rewrite O in H; discriminate | | rewrite Fl; discriminate]. intros i. destruct (Fr i) as (A & B & _). unfold okp. rewrite A. left. exact B.
Qed.
Lemma same_owner s i p' : inv s -> owns p' = owns (procs s i) -> okp p' -> (at_ (procs s i) = Dead -> at_ p' = Dead) -> inv (set_proc s i p').
Proof.
  intros [A B C D] O K Dd. assert (Ow : forall j, owns (procs (set_proc s i p') j) = owns (procs s j)) by (intros j; cbn; destruct (Nat.eqb_spec j i); [subst; exact O | reflexivity]).
  split.
  - intros j k. rewrite !Ow. apply A.
  - intros j. rewrite Ow. apply B.
  - intros j. cbn. destruct (j =? i); [exact K | apply C].
  - cbn [lockfile set_proc]. intros F. destruct (D F) as (j & [H|H]); exists j; [left; rewrite Ow; exact H|]. right. cbn. destruct (Nat.eqb_spec j i); [subst; apply Dd, H | exact H].
Qed.
Lemma begin_release_ok p : lock p <> None -> owns (begin_release p) = true /\ okp (begin_release p) /\ at_ (begin_release p) <> Dead.
Proof. intros L. unfold begin_release, owns, okp. destruct (lock p) as [[|n]|] eqn:E; [|  | contradiction]; cbn; rewrite E; (split; [reflexivity|]); (split; [|discriminate]); [right; reflexivity | split; discriminate]. Qed.
Lemma step_inv s a : inv s -> inv (step s a).
Proof.
  intros V. destruct a as [i|i|i fd e|i|i|i|]; cbn [step].
  - destruct (at_ (procs s i)) eqn:P; try exact V. apply same_owner; [exact V | unfold owns; rewrite P; reflexivity | pose proof (i_ok _ V i) as K; unfold okp in *; rewrite P in K; exact K | congruence].
  - destruct (at_ (procs s i)) eqn:P; try exact V. pose proof (i_ok _ V i) as K. unfold okp in K. rewrite P in K. destruct (lock (procs s i)) as [n|] eqn:L; apply same_owner; try exact V; try congruence; unfold owns, okp; cbn; rewrite ?P, ?L; try reflexivity; [discriminate | left; reflexivity].
  - destruct (at_ (procs s i)) eqn:P; try exact V. pose proof (i_ok _ V i) as K. unfold okp in K. rewrite P in K. destruct (lockfile s || e) eqn:Fe.
    + assert (G : forall o, inv (set_proc s i {| at_ := Idle; lock := lock (procs s i); writer := writer (procs s i); timeout := timeout (procs s i); start := start (procs s i); last := o |})).
      { intros o. apply same_owner; [exact V | unfold owns; cbn; rewrite P; reflexivity | exact K | congruence]. }
      destruct (timeout (procs s i)) as [t|] eqn:T; [destruct (t <? now s - start (procs s i)); [apply G | exact V] | apply G].
    + apply orb_false_iff in Fe. destruct Fe as [Fl _]. assert (No : forall j, owns (procs s j) = false) by (intros j; destruct (owns (procs s j)) eqn:O; [rewrite (i_file _ V j O) in Fl; discriminate | reflexivity]).
      set (q := {| at_ := Inside; lock := Some fd; writer := writer (procs s i); timeout := timeout (procs s i); start := start (procs s i); last := Acquired |}).
      assert (Q : exists q', (if writer (procs s i) then q else begin_release q) = q' /\ owns q' = true /\ okp q') by (destruct (writer (procs s i)); [exists q; repeat split; discriminate | destruct (begin_release_ok q) as (A & B & _); [discriminate | exists (begin_release q); auto]]).
      destruct Q as (q' & Eq & Oq & Kq). fold q. rewrite Eq. clear Eq. split; cbn [procs set_file set_proc lockfile].
      * intros j k. destruct (Nat.eqb_spec j i), (Nat.eqb_spec k i); subst; try reflexivity; rewrite ?No; discriminate.
      * reflexivity.
      * intros j. destruct (j =? i); [exact Kq | apply (i_ok _ V j)].
      * intros _. exists i. left. rewrite Nat.eqb_refl. exact Oq.
  - destruct (at_ (procs s i)) eqn:P; try exact V. pose proof (i_ok _ V i) as K. unfold okp in K. rewrite P in K. destruct (begin_release_ok (procs s i) K) as (A & B & _). apply same_owner; [exact V | rewrite A; unfold owns; rewrite P; reflexivity | exact B | congruence].
  - pose proof (i_ok _ V i) as K. unfold okp in K. destruct (at_ (procs s i)) eqn:P; try exact V.
    + apply same_owner; [exact V | unfold owns; cbn; rewrite P; reflexivity | exact K | congruence].
    + split; cbn [procs set_file set_proc lockfile].
      * intros j k. destruct (Nat.eqb_spec j i), (Nat.eqb_spec k i); subst; try reflexivity; try (cbn; discriminate). apply (i_one _ V).
      * intros j. destruct (Nat.eqb_spec j i) as [->|Ne]; [cbn; discriminate|]. intros O. elim Ne. apply (i_one _ V); [exact O | unfold owns; rewrite P; reflexivity].
      * intros j. destruct (j =? i); [exact K | apply (i_ok _ V j)].
      * discriminate.
    + apply same_owner; [exact V | unfold owns; cbn; rewrite P; reflexivity | left; reflexivity | congruence].
  - destruct V as [A B C D]. split; cbn [procs set_proc lockfile].
    + intros j k. destruct (Nat.eqb_spec j i), (Nat.eqb_spec k i); subst; try reflexivity; try (cbn; discriminate). apply A.
    + intros j. destruct (j =? i); [discriminate | apply B].
    + intros j. destruct (j =? i); [exact I | apply C].
    + intros F. exists i. rewrite Nat.eqb_refl. right. reflexivity.
  - destruct V as [A B C D]. split; assumption.
Qed.
Lemma reach_inv s : reachable s -> inv s.
Proof.
  intros (s0 & l & I0 & ->). assert (G : forall l s, inv s -> inv (run s l)). { clear. induction l as [|a l IH]; intros s V; [exact V|]. cbn. apply IH, step_inv, V. } apply G, inv_initial, I0.
Qed.
(* C35: whatever the interleaving, and whoever is killed when, at most one writer is between acquire and release, and the lock file exists all the time *)
Theorem C35_mutual_exclusion s i j : reachable s -> inside s i -> inside s j -> i = j.
Proof. intros R A B. apply (i_one _ (reach_inv s R)); unfold owns; [rewrite A | rewrite B]; reflexivity. Qed.
Theorem C35b_lock_file_present s i : reachable s -> inside s i \/ releasing s i -> lockfile s = true.
Proof. intros R H. apply (i_file _ (reach_inv s R) i). unfold owns. destruct H as [H|[H|H]]; rewrite H; reflexivity. Qed.
(* an attempt succeeds exactly when nobody is inside or releasing (no process killed, no descriptor 0); a writer is then inside *)
Theorem C35c_acquirable s i fd : reachable s -> healthy s -> at_ (procs s i) = Trying -> writer (procs s i) = true ->
  (inside (step s (Attempt i fd false)) i <-> forall j, ~ inside s j /\ ~ releasing s j).
Proof.
  intros R H T W. pose proof (reach_inv s R) as V. unfold inside. cbn [step]. rewrite T, orb_false_r. split.
  - destruct (lockfile s) eqn:F.
    + destruct (timeout (procs s i)); [destruct (_ <? _); [cbn; rewrite Nat.eqb_refl; discriminate | rewrite T; discriminate] | cbn; rewrite Nat.eqb_refl; discriminate].
    + intros _ j. assert (O : owns (procs s j) = false) by (destruct (owns (procs s j)) eqn:O; [rewrite (i_file _ V j O) in F; discriminate | reflexivity]). unfold owns in O. split; [intros Q; unfold inside in Q; rewrite Q in O; discriminate | intros [Q|Q]; rewrite Q in O; discriminate].
  - intros No. assert (F : lockfile s = false).
    { destruct (lockfile s) eqn:F; [|reflexivity]. exfalso. destruct (i_back _ V F) as (j & [O|D]); [|apply (proj1 (H j)), D]. destruct (No j) as [N1 N2]. destruct (H j) as [D Z]. pose proof (i_ok _ V j) as K. unfold owns in O. unfold okp in K. unfold inside, releasing in *. destruct (at_ (procs s j)) eqn:P; try (discriminate || tauto); destruct K as [K|K]; [rewrite K in O; discriminate | contradiction | rewrite K in O; discriminate | contradiction]. }
    rewrite F, W. cbn. rewrite Nat.eqb_refl. reflexivity.
Qed.
(* a release makes it acquirable again: after the three steps the file is gone and the object is ready to be used again *)
Theorem C35d_release s i : reachable s -> inside s i -> lock (procs s i) <> Some 0 ->
  let s' := run s [Release i; Step i; Step i; Step i] in lockfile s' = false /\ at_ (procs s' i) = Idle /\ lock (procs s' i) = None /\ forall j, j <> i -> procs s' j = procs s j.
Proof.
  intros R A Z. pose proof (i_ok _ (reach_inv s R) i) as K. unfold okp in K. unfold inside in A. rewrite A in K. cbv zeta. unfold run. cbn [fold_left step]. rewrite A. unfold begin_release. destruct (lock (procs s i)) as [[|n]|] eqn:L; [contradiction | | contradiction].
  cbn. rewrite !Nat.eqb_refl. cbn. rewrite !Nat.eqb_refl. cbn. rewrite !Nat.eqb_refl. cbn. rewrite !Nat.eqb_refl. cbn. repeat split. intros j Ne. rewrite (proj2 (Nat.eqb_neq j i) Ne). reflexivity.
Qed.
(* errors are reported only when they are true: without a timeout at once, with one only after it has passed, and never when the lock was free *)
Theorem C35e_errors s i fd e : at_ (procs s i) = Trying -> last (procs s i) = NoOutcome -> let p := procs (step s (Attempt i fd e)) i in
  (last p = AlreadyLocked -> (lockfile s = true \/ e = true) /\ timeout (procs s i) = None) /\
  (last p = LockTimeout -> (lockfile s = true \/ e = true) /\ exists t, timeout (procs s i) = Some t /\ t < now s - start (procs s i)) /\
  (timeout (procs s i) = None -> at_ p <> Trying).
Proof.
  intros T L. cbv zeta. cbn [step]. rewrite T. destruct (lockfile s || e) eqn:F.
  - apply orb_true_iff in F. destruct (timeout (procs s i)) as [t|] eqn:Tm; [destruct (Nat.ltb_spec t (now s - start (procs s i)))|]; cbn; rewrite ?Nat.eqb_refl; cbn.
    + split; [discriminate|]. split; [|discriminate]. intros _. split; [exact F|]. exists t. auto.
    + rewrite L. repeat split; discriminate.
    + split; [auto|]. split; [discriminate|]. discriminate.
  - cbn. rewrite Nat.eqb_refl. destruct (writer (procs s i)); cbn; [repeat split; discriminate|]. unfold begin_release. cbn. destruct fd; cbn; repeat split; discriminate.
Qed.
(* descriptor 0 (standard input closed): release_lock does nothing; the lock stays for ever *)
Definition writer_at (t : option nat) : proc := {| at_ := Idle; lock := None; writer := true; timeout := t; start := 0; last := NoOutcome |}.
Definition two : sys := {| lockfile := false; procs := fun _ => writer_at None; now := 0 |}.
Theorem C35_refuted_descriptor_zero : exists s, reachable s /\ (forall i, at_ (procs s i) <> Dead) /\ (forall i, ~ inside s i /\ ~ releasing s i) /\ lockfile s = true /\ last (procs (step s (Attempt 1 3 false)) 1) = AlreadyLocked.
Proof.
  exists (run two [Acquire 0; Attempt 0 0 false; Release 0; Acquire 1]). split; [exists two; eexists; split; [|reflexivity]; split; [reflexivity | intros i; repeat split]|]. unfold inside, releasing.
  split; [intros [|[|i]]; cbn; discriminate|]. split; [intros [|[|i]]; cbn; split; try discriminate; intros [H|H]; discriminate|]. split; reflexivity.
Qed.
(* a killed holder blocks everybody for ever *)
Theorem C35_refuted_killed : exists s, reachable s /\ (forall i, ~ inside s i /\ ~ releasing s i) /\ lockfile s = true.
Proof.
  exists (run two [Acquire 0; Attempt 0 3 false; Kill 0]). split; [exists two; eexists; split; [|reflexivity]; split; [reflexivity | intros i; repeat split]|]. unfold inside, releasing. split; [intros [|[|i]]; cbn; split; try discriminate; intros [H|H]; discriminate | reflexivity].
Qed.
Example C35_witness : let s := run two [Acquire 0; Acquire 1; Attempt 0 3 false] in reachable s /\ inside s 0 /\ healthy s /\ at_ (procs s 1) = Trying /\ last (procs (step s (Attempt 1 4 false)) 1) = AlreadyLocked /\ inside (run s [Release 0; Step 0; Step 0; Attempt 1 4 false]) 1.
Proof. cbv zeta. split; [exists two; eexists; split; [|reflexivity]; split; [reflexivity | intros i; repeat split]|]. split; [reflexivity|]. split; [intros [|[|i]]; cbn; split; discriminate|]. repeat split. Qed.
Print Assumptions C35_mutual_exclusion. Print Assumptions C35b_lock_file_present. Print Assumptions C35c_acquirable. Print Assumptions C35d_release. Print Assumptions C35e_errors. Print Assumptions C35_refuted_descriptor_zero. Print Assumptions C35_refuted_killed.
