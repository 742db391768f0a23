(* C70: --debug=explain: cases. *)
From Coq Require Import List Arith ZArith Bool Lia.
Import ListNotations.
From Verif Require Import DecModel DecSpec DecProofs DecProps DecProps2 WhyModel WhySpec WhyProps.

(* object file 0 from source 1 with headers 2 and 3; now source 1 was edited, header 2 is no longer and header 4 is newly included *)
Definition mkt (imp : list node) (act : nat) : target := {| t_node := 0; t_sources := [1]; t_specific := true; t_batch := []; t_depends := []; t_implicit := imp; t_ignore := []; t_builder := true; t_action := act |}.
Definition w70 (h1 : nat) : world := {| w_exists := fun _ => true; w_mtime := fun n => 100 + n; w_hash := fun n => if n =? 1 then h1 else 50 + n; w_now := 500; w_drift := (-1)%Z; w_stored := fun _ => empty_ninfo |}.
Definition st70 (n : node) : ninfo := NI (Some (50 + n)) (Some (90 + n)).
Definition none : node -> ninfo := fun _ => empty_ninfo.
Lemma mkt_wf : forall imp act, target_wf (mkt imp act).
Proof. intros imp act. split; [repeat constructor; cbn; tauto | split; [intros n [] | discriminate]]. Qed.
Lemma mkt_ig : forall imp act, ignore_not_depends (mkt imp act).
Proof. intros imp act n []. Qed.
Lemma w70_honest : forall h, timestamps_honest (w70 h).
Proof. intros h. split; [discriminate | intros H; cbn in H; lia]. Qed.
Definition why (dec : node -> decider) (h1 : nat) (imp0 imp : list node) (act0 act b0 b : nat) : bool * explanation :=
  (fst (is_up_to_date wN (w70 h1) (saved wN (mkt imp0 act0) st70) None dec none (mkt imp act)), explain wN (w70 h1) (fun n => n) false (left_by wN (mkt imp0 act0) st70 b0) b dec none (mkt imp act)).
(* the hypotheses of C70a and C70b can be met; each kind of reason *)
Theorem C70_case :
  (forall n, (fun n : nat => n) (n_str wN n) = n) /\ (forall imp act, target_wf (mkt imp act) /\ ignore_not_depends (mkt imp act)) /\ (forall h, timestamps_honest (w70 h)) /\ (forall w dec st0, computed_so_far w dec st0 none) /\ names_ok wN /\
  why content_decider 99 [2; 3] [3; 4] 7 7 1 1 = (false, Reasons [Gone 2; Changed 1; Fresh 4]) /\
  why md5_timestamp_decider 99 [2; 3] [3; 4] 7 7 1 1 = (false, Reasons [Gone 2; Changed 1; Fresh 4]) /\
  why content_decider 51 [2; 3] [3; 2] 7 7 1 1 = (false, Reasons [Order]) /\
  why content_decider 51 [2; 3] [2; 3] 7 8 1 1 = (false, Reasons [ActContents]) /\
  why content_decider 51 [2; 3] [2; 3] 7 8 1 2 = (false, Reasons [ActText]).
Proof.
  split; [reflexivity|]. split; [intros imp act; split; [apply mkt_wf | apply mkt_ig]|]. split; [apply w70_honest|]. split; [intros w dec st0 m s _ X; discriminate|]. split; [split; auto|].
  repeat split; vm_compute; reflexivity.
Qed.
(* an explicit dependency that is also ignored: the target is rebuilt in every run, for unknown reasons *)
Definition tig : target := {| t_node := 0; t_sources := [1]; t_specific := true; t_batch := []; t_depends := [2]; t_implicit := []; t_ignore := [2]; t_builder := true; t_action := 7 |}.
Theorem C70_unknown_refuted : target_wf tig /\ fst (is_up_to_date wN (w70 51) (saved wN tig st70) None content_decider none tig) = false /\ explain wN (w70 51) (fun n => n) false (left_by wN tig st70 1) 1 content_decider none tig = Unknown.
Proof. split; [split; [repeat constructor; cbn; tauto | split; [intros n [] | discriminate]] | split; vm_compute; reflexivity]. Qed.
(* a file that was a source in the last run and is now a target without dependencies: there is no explanation but an AttributeError *)
Definition tsrc (builder : bool) : target := {| t_node := 0; t_sources := []; t_specific := true; t_batch := []; t_depends := []; t_implicit := []; t_ignore := []; t_builder := builder; t_action := 7 |}.
Theorem C70_crash_refuted : target_wf (tsrc true) /\ target_wf (tsrc false) /\ fst (is_up_to_date wN (w70 51) (saved wN (tsrc false) st70) None content_decider none (tsrc true)) = false /\
  explain wN (w70 51) (fun n => n) false (left_by wN (tsrc false) st70 1) 1 content_decider none (tsrc true) = Crash.
Proof. split; [split; [constructor | split; [intros n [] | discriminate]]|]. split; [split; [constructor | split; [intros n [] | discriminate]]|]. split; vm_compute; reflexivity. Qed.
Print Assumptions C70_case.
Print Assumptions C70_unknown_refuted.
Print Assumptions C70_crash_refuted.
