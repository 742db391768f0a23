(* Vocabulary for C16-C18. *)
From Coq Require Import List Arith Bool.
Import ListNotations.
From Verif Require Import DbModel.

(* What is assumed of pickle: loading what was dumped gives it back; a dump is not empty. *)
Definition codec_ok {V} (C : codec V) : Prop := (forall d, dec C (enc C d) = Some d) /\ (forall d, enc C d <> []).
(* ... and a truncated dump is rejected (a pickle ends with its STOP opcode). *)
Definition truncation_detected {V} (C : codec V) : Prop := forall d p q, enc C d = p ++ q -> q <> [] -> dec C p = None.

(* a splitting of the data into write() calls *)
Definition chunked (data : list byte) (chunks : list (list byte)) : Prop := concat chunks = data.

(* The database a run started now would see (missing file = empty database). *)
Definition seen {V} (C : codec (dict V)) (file : fname) (f : fs) : option (dict V) :=
  match fst (open_db C true file f FC) with Some h => Some (d_dict h) | None => None end.

(* Two dictionaries with the same content *)
Definition same {V} (a b : dict V) : Prop := forall k, dget a k = dget b k.

(* A history of runs: what each run does with the database, and after how many steps it dies (None: it does not). *)
Definition history V := list ((dict V -> dict V) * (list byte -> list (list byte)) * option nat).
Fixpoint after_history {V} (C : codec (dict V)) (file tmp : fname) (h : history V) (f : fs) : fs :=
  match h with
  | [] => f
  | (work, split, crash) :: r =>
    let steps := run_steps C true file tmp f work split in
    after_history C file tmp r (exec f (match crash with Some k => firstn k steps | None => steps end))
  end.
(* Specification: every run either replaces the whole database or leaves it; a run that does not die replaces it. *)
Inductive replaced {V} : history V -> dict V -> dict V -> Prop :=
  | r_nil d : replaced [] d d
  | r_done work split crash r d d' : replaced r (work d) d' -> replaced ((work, split, crash) :: r) d d'
  | r_lost work split k r d d' : replaced r d d' -> replaced ((work, split, Some k) :: r) d d'.

(* The mapping described by a sequence of operations on a dictionary. *)
Definition spec_op {V} (m : nat -> option V) (o : @dop V) : nat -> option V :=
  match o with
  | DSet k v => fun x => if x =? k then Some v else m x
  | DDel k => fun x => if x =? k then None else m x
  | _ => m
  end.
Definition spec_ops {V} (l : list (@dop V)) (m : nat -> option V) : nat -> option V := fold_left spec_op l m.
(* every deletion is followed, sooner or later, by an assignment or an explicit sync *)
Definition deletions_followed {V} (l : list (@dop V)) : Prop :=
  forall l1 k l2, l = l1 ++ DDel k :: l2 -> exists o, In o l2 /\ match o with DSet _ _ | DSync => True | _ => False end.
