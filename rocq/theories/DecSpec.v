(* Vocabulary for the rebuild-decision properties C12-C15. *)
From Coq Require Import List Arith ZArith Bool.
Import ListNotations.
From Verif Require Import DecModel.

(* The stored signature shortcut is honest: a source file whose recorded timestamp is its current one still has the
   recorded content, and the shortcut is not forced (max_drift is not 0).  Always true if max_drift is negative. *)
Definition timestamps_honest (w : world) : Prop :=
  w_drift w <> 0%Z /\ ((0 < w_drift w)%Z -> forall n c t, w_stored w n = NI (Some c) (Some t) -> t = w_mtime w n -> c = w_hash w n).
(* Signatures already computed in this run are those of the current contents. *)
Definition computed_ok (w : world) (st : node -> ninfo) : Prop := forall n s, ni_csig (st n) = Some s -> s = w_hash w n.

(* Targets as built by SCons: self.sources has no duplicates and comes from the executor's source list. *)
Definition target_wf (t : target) : Prop :=
  NoDup (t_sources t) /\ (forall n, In n (t_batch t) -> In n (t_sources t)) /\ (t_specific t = false -> t_sources t = dedupe [] (t_batch t)).
(* no node is both an explicit dependency and ignored *)
Definition ignore_not_depends (t : target) : Prop := forall n, In n (t_depends t) -> ~ In n (t_ignore t).

Definition content_decider (n : node) : decider := DContent.
Definition md5_timestamp_decider (n : node) : decider := DTimestampContent.
Definition timestamp_match_decider (n : node) : decider := DTimestampMatch.

(* the recorded signatures, in the order in which they were recorded *)
Definition recorded (b : binfo) : list ninfo := bsourcesigs b ++ bdependsigs b ++ bimplicitsigs b.

(* What the database holds for target t at the end of a run whose node infos are st. *)
Definition saved (N : names) (t : target) (st : node -> ninfo) : binfo := convert_to_sconsign (n_str N) (get_binfo t st).

(* Different nodes have different path strings, and get_path() of a node is never the string of another one. *)
Definition names_ok (N : names) : Prop :=
  (forall m n, n_str N m = n_str N n -> m = n) /\ (forall m n, n_path N n = n_str N m -> m = n).

(* node infos are only completed, never changed, during the rest of the run *)
Definition keeps (st st' : node -> ninfo) : Prop := forall n s, ni_csig (st n) = Some s -> ni_csig (st' n) = Some s.

(* the target without the node x *)
Definition without (x : node) (t : target) : target :=
  let rm l := filter (fun n => negb (n =? x)) l in
  {| t_node := t_node t; t_sources := rm (t_sources t); t_specific := t_specific t; t_batch := rm (t_batch t); t_depends := rm (t_depends t);
     t_implicit := rm (t_implicit t); t_ignore := rm (t_ignore t); t_builder := t_builder t; t_action := t_action t |}.
