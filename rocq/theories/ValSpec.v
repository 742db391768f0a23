(* What a user relies on of Value nodes. *)
From Coq Require Import List Bool Arith.
From Verif Require Import ValModel.
Import ListNotations.
Open Scope list_scope.

(* values with the same hash (with their names) have the same text *)
Definition Faithful {V K letter : Type} (text : V -> list letter) (key : V -> option (list letter) -> option K) : Prop :=
  forall v1 n1 v2 n2 k, key v1 n1 = Some k -> key v2 n2 = Some k -> text v1 = text v2.

(* what a script does with the values themselves *)
Inductive op (V : Type) := Write (i : nat) (v : V) | Read (i : nat).
(* the last value written to node i, if any *)
Inductive Last {V : Type} (i : nat) : list (op V) -> option V -> Prop :=
| last_none : forall l, (forall v, ~ In (Write V i v) l) -> Last i l None
| last_write : forall l1 v l2, (forall w, ~ In (Write V i w) l2) -> Last i (l1 ++ Write V i v :: l2) (Some v).
