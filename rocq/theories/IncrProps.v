(* C41: incremental builds give the same files as a clean build.  Vocabulary in IncrSpec.v. *)
From Coq Require Import List Arith ZArith Bool Lia.
Import ListNotations.
From Verif Require Import DecModel DecSpec DecProofs DecProps IncrModel IncrSpec IncrProofs.

(* C41.  Take any history of edits, deletions, waiting and (complete, partial or failing) runs of SCons, starting from
   a directory without signature database.  If then a run succeeds in all its targets, every file
   on disk is what a build from scratch, without any database, would have produced. *)
Theorem C41_incremental_equals_clean : forall S N disk ops drift items,
  hash_injective S -> legal S N (fresh disk) ops ->
  ordered items -> timestamps_honest (world_of S drift (after S N disk ops)) -> all_ok items ->
  forall n, i_disk (apply S N (after S N disk ops) (Run drift items)) n = clean_build S items (i_disk (after S N disk ops)) n.
Proof.
  intros S N disk ops drift items Inj L O H A n.
  destruct (history_ok S N Inj ops (fresh disk) (proj1 (fresh_ok S disk)) (proj2 (fresh_ok S disk)) L) as [Db Ts]. fold (after S N disk ops) in *.
  destruct (run_rinv S N Inj drift (after S N disk ops) Db items [] items _ O eq_refl (start_rinv S Inj drift _ Ts H) (start_pinv _)) as [_ D].
  specialize (D A n). cbn [apply]. unfold run_items. destruct (fold_left _ items _) as [[s st] dn]. exact D.
Qed.
Print Assumptions C41_incremental_equals_clean.

(* C41b.  The trust in timestamps is justified if every run uses all the sources it visits and max_drift is not 0. *)
Theorem C41b_full_runs : forall S N disk ops drift items,
  hash_injective S -> legal_full S N (fresh disk) (ops ++ [Run drift items]) -> all_ok items ->
  forall n, i_disk (after S N disk (ops ++ [Run drift items])) n = clean_build S items (i_disk (after S N disk ops)) n.
Proof.
  intros S N disk ops drift items Inj L A n.
  assert (Sp : forall ops s, legal_full S N s (ops ++ [Run drift items]) -> legal_full S N s ops /\ legal_full1 (fold_left (apply S N) ops s) (Run drift items)).
  { clear. induction ops as [|o ops IH]; intros s H; [destruct H as [H _]; split; [exact Logic.I | exact H]|].
    destruct H as [H1 H2]. destruct (IH _ H2) as [X Y]. split; [split; assumption | exact Y]. }
  destruct (Sp ops _ L) as [L1 L2].
  destruct (history_full S N Inj ops (fresh disk) (proj1 (fresh_ok S disk)) (proj2 (fresh_ok S disk)) (fresh_hon S disk) L1) as [L3 Hn].
  destruct L2 as (O & U & D). unfold after at 1. rewrite fold_left_app. cbn [fold_left]. fold (after S N disk ops) in *.
  apply C41_incremental_equals_clean; auto. apply hon_honest; assumption.
Qed.
Print Assumptions C41b_full_runs.

(* C41c.  With a negative max_drift (SetOption('max_drift', -1)) no condition on timestamps or visited sources is needed. *)
Theorem C41c_no_drift : forall S N disk ops drift items,
  hash_injective S -> (drift < 0)%Z -> (forall d its, In (Run d its) ops -> (d < 0)%Z) ->
  legal_no_drift S N (fresh disk) (ops ++ [Run drift items]) -> all_ok items ->
  forall n, i_disk (after S N disk (ops ++ [Run drift items])) n = clean_build S items (i_disk (after S N disk ops)) n.
Proof.
  intros S N disk ops drift items Inj D Ds L A n.
  assert (Neg : forall d s, (d < 0)%Z -> timestamps_honest (world_of S d s)) by (intros d s Hd; split; cbn; [lia | intros X; lia]).
  assert (Sp : forall ops s, (forall d its, In (Run d its) ops -> (d < 0)%Z) -> legal_no_drift S N s (ops ++ [Run drift items]) -> legal S N s ops /\ ordered items).
  { clear - Neg. induction ops as [|o ops IH]; intros s Hd H; [destruct H as [H _]; split; [exact Logic.I | exact H]|].
    destruct H as [H1 H2]. destruct (IH _ (fun d its X => Hd d its (or_intror X)) H2) as [X Y]. split; [split; [|exact X] | exact Y].
    destruct o as [m c|m|k|d its|d its]; cbn [legal1 legal_no_drift1] in *; auto. split; [exact H1 | apply Neg, (Hd d its), or_introl, eq_refl]. }
  destruct (Sp ops _ Ds L) as [L1 O]. unfold after at 1. rewrite fold_left_app. cbn [fold_left]. fold (after S N disk ops).
  apply C41_incremental_equals_clean; auto.
Qed.
Print Assumptions C41c_no_drift.

(* ---- concrete project: object 10 from source 1 and header 2; program 11 from object 10 and source 3 ---- *)
Definition tgt (n : node) (srcs imp : list node) (act : sig) : target :=
  {| t_node := n; t_sources := srcs; t_specific := true; t_batch := []; t_depends := []; t_implicit := imp; t_ignore := []; t_builder := true; t_action := act |}.
Definition pS : sem := {| s_act := fun a cs => a + fold_right (fun c x => match c with Some k => k | None => 0 end + 2 * x) 0 cs;
                          s_hash := fun c => match c with None => 1 | Some k => S (S k) end |}.
Definition pN : names := {| n_str := fun n => n; n_path := fun n => n; n_rfile := fun n => n |}.
Definition pdisk (n : node) : option nat := if n =? 1 then Some 5 else if n =? 2 then Some 6 else if n =? 3 then Some 7 else None.
Definition pitems : list item := [Src 1; Src 2; Tgt (tgt 10 [1] [2] 100) true; Src 3; Tgt (tgt 11 [10; 3] [] 200) true].
Lemma pS_inj : hash_injective pS.
Proof. intros [a|] [b|]; cbn; congruence. Qed.

Lemma in_list2 {A} (x a b : A) (P : Prop) : In x [a; b] -> (x = a -> P) -> (x = b -> P) -> P.
Proof. intros [<-|[<-|[]]] H1 H2; auto. Qed.
Lemma pitems_ordered : ordered pitems.
Proof.
  intros l1 t b l2 E. unfold pitems in E.
  assert (W : forall n s i a, NoDup s -> target_wf (tgt n s i a)) by (intros n s i a H; split; [exact H | split; [intros k [] | discriminate]]).
  do 2 (destruct l1 as [|? l1]; [discriminate|]; injection E as <- E). destruct l1 as [|? l1].
  - injection E as <- <- <-. split; [apply W; repeat constructor; cbn; tauto|]. split; [intros k []|]. split; [reflexivity|].
    split; [cbn; intuition discriminate|]. split; [intros t' b' [H|[H|[]]]; [discriminate | injection H as <- _; cbn; intuition discriminate]|].
    split; [intros t' b' [H|[H|[H|[H|[]]]]]; try discriminate; injection H as <- _; discriminate|]. cbn; intuition discriminate.
  - injection E as <- E. do 1 (destruct l1 as [|? l1]; [discriminate|]; injection E as <- E). destruct l1 as [|? l1].
    + injection E as <- <- <-. split; [apply W; repeat constructor; cbn; intuition discriminate|]. split; [intros k []|]. split; [reflexivity|].
      split; [cbn; intuition discriminate|]. split; [intros t' b' []|].
      split; [intros t' b' [H|[H|[H|[H|[]]]]]; try discriminate; injection H as <- _; discriminate|]. cbn; intuition discriminate.
    + injection E as _ E. destruct l1; discriminate.
Qed.
Lemma pitems_used : sources_used pitems.
Proof.
  intros n H. cbn in H. destruct H as [H|[H|[H|[H|[H|[]]]]]]; try discriminate; injection H as <-.
  - exists (tgt 10 [1] [2] 100), true. cbn; auto.
  - exists (tgt 10 [1] [2] 100), true. cbn; auto.
  - exists (tgt 11 [10; 3] [] 200), true. cbn; auto 10.
Qed.
Definition phist : list uop := [Run 2 pitems; Edit 2 8; Wait 100; Run 2 pitems; Edit 2 6; Delete 10; Run 2 pitems; Wait 50].
Example C41_witness : hash_injective pS /\ legal_full pS pN (fresh pdisk) (phist ++ [Run 2%Z pitems]) /\ all_ok pitems
  /\ i_disk (after pS pN pdisk (phist ++ [Run 2%Z pitems])) 11 = Some 331.
Proof.
  split; [apply pS_inj|]. split.
  - assert (R : ordered pitems /\ sources_used pitems /\ 2%Z <> 0%Z) by (split; [apply pitems_ordered | split; [apply pitems_used | discriminate]]).
    unfold phist. cbn [app legal_full]. repeat (split; [first [exact R | exact Logic.I | reflexivity]|]). exact Logic.I.
  - split; [|vm_compute; reflexivity]. intros t H. cbn in H. intuition discriminate.
Qed.

(* ---- where the property fails in the code ---- *)

(* A run that is killed before it writes its signature database: undo the edit afterwards, and the target built from
   the edited source is taken for up to date. *)
Theorem C41_killed_refuted : exists S N disk ops drift items,
  hash_injective S /\ ordered items /\ all_ok items /\ (drift < 0)%Z
  /\ ops = [Run drift items; Edit 1 8; Killed drift items; Edit 1 5]
  /\ i_disk (apply S N (after S N disk ops) (Run drift items)) 11 <> clean_build S items (i_disk (after S N disk ops)) 11.
Proof.
  exists pS, pN, pdisk, [Run (-1) pitems; Edit 1 8; Killed (-1) pitems; Edit 1 5], (-1)%Z, pitems.
  split; [apply pS_inj|]. split; [apply pitems_ordered|]. split; [intros t H; cbn in H; intuition discriminate|]. split; [lia|]. split; [reflexivity|]. vm_compute. discriminate.
Qed.
Print Assumptions C41_killed_refuted.

(* Visiting an edited source without using it ("scons source", a build stopped by an error) stores the new timestamp
   beside the old signature; once the file is older than max_drift (two days by default) the
   edit is not seen any more. *)
Theorem C41_max_drift_refuted : exists S N disk ops items,
  hash_injective S /\ ordered items /\ all_ok items /\ sources_used items
  /\ ops = [Run 2 items; Edit 2 8; Run 2 [Src 2]; Wait 10]
  /\ ordered [Src 2] /\ bactsig (i_db (after S N disk [Run 2%Z items]) 2) = None
  /\ i_disk (apply S N (after S N disk ops) (Run 2 items)) 10 <> clean_build S items (i_disk (after S N disk ops)) 10.
Proof.
  exists pS, pN, pdisk, [Run 2 pitems; Edit 2 8; Run 2 [Src 2]; Wait 10], pitems.
  split; [apply pS_inj|]. split; [apply pitems_ordered|]. split; [intros t H; cbn in H; intuition discriminate|]. split; [apply pitems_used|]. split; [reflexivity|].
  split; [intros l1 t b l2 E; destruct l1 as [|? [|? ?]]; discriminate|]. split; [reflexivity|]. vm_compute. discriminate.
Qed.
Print Assumptions C41_max_drift_refuted.
