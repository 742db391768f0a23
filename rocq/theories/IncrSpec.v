(* Vocabulary for C41: which histories of edits and runs are considered. *)
From Coq Require Import List Arith ZArith Bool.
Import ListNotations.
From Verif Require Import DecModel DecSpec IncrModel.

(* Orders in which the build engine may process the targets (consequences of C01 and C02): every node at most
   once, dependencies first. *)
Definition ordered (items : list item) : Prop :=
  forall l1 t b l2, items = l1 ++ Tgt t b :: l2 ->
    target_wf t /\ ignore_not_depends t /\ t_builder t = true /\ ~ In (t_node t) (children t)
    /\ (forall t' b', In (Tgt t' b') l2 -> ~ In (t_node t') (children t))
    /\ (forall t' b', In (Tgt t' b') (l1 ++ l2) -> t_node t' <> t_node t)
    /\ ~ In (Src (t_node t)) items.

(* The content signature distinguishes different contents. *)
Definition hash_injective (S : sem) : Prop := forall a b, s_hash S a = s_hash S b -> a = b.

(* A step of the history is legal: the user does not write into files built by SCons (but may delete them), every
   run processes its items in a legal order, stored timestamps can be trusted (see DecSpec.timestamps_honest; nothing
   to check when max_drift is negative), and SCons is not killed. *)
Definition legal1 (S : sem) (s : istate) (o : uop) : Prop :=
  match o with
  | Edit n _ => bactsig (i_db s n) = None
  | Delete _ | Wait _ => True
  | Run drift items => ordered items /\ timestamps_honest (world_of S drift s)
  | Killed _ _ => False
  end.
Fixpoint legal (S : sem) (N : names) (s : istate) (ops : list uop) : Prop :=
  match ops with [] => True | o :: r => legal1 S s o /\ legal S N (apply S N s o) r end.
Definition after (S : sem) (N : names) (disk : node -> option nat) (ops : list uop) : istate := fold_left (apply S N) ops (fresh disk).
Definition all_ok (items : list item) : Prop := forall t, ~ In (Tgt t false) items.

(* Hypotheses that only mention what the user does: every run is given targets that use all the source files it
   visits (true of a normal build; not of "scons some_source_file" or of a build that stops early), and
   max_drift is not 0. *)
Definition sources_used (items : list item) : Prop := forall n, In (Src n) items -> exists t b, In (Tgt t b) items /\ In n (children t).
Definition legal_full1 (s : istate) (o : uop) : Prop :=
  match o with
  | Edit n _ => bactsig (i_db s n) = None
  | Delete _ | Wait _ => True
  | Run drift items => ordered items /\ sources_used items /\ drift <> 0%Z
  | Killed _ _ => False
  end.
Fixpoint legal_full (S : sem) (N : names) (s : istate) (ops : list uop) : Prop :=
  match ops with [] => True | o :: r => legal_full1 s o /\ legal_full S N (apply S N s o) r end.

(* Nothing about timestamps or visited sources. *)
Definition legal_no_drift1 (s : istate) (o : uop) : Prop :=
  match o with
  | Edit n _ => bactsig (i_db s n) = None
  | Delete _ | Wait _ => True
  | Run _ items => ordered items
  | Killed _ _ => False
  end.
Fixpoint legal_no_drift (S : sem) (N : names) (s : istate) (ops : list uop) : Prop :=
  match ops with [] => True | o :: r => legal_no_drift1 s o /\ legal_no_drift S N (apply S N s o) r end.
