(* What splitting into words and flattening mean (C91). *)
From Coq Require Import List Bool.
Import ListNotations.
From Verif Require Import SplModel.
Open Scope list_scope.

Section Spec.
Context {C : Type} (blank : C -> bool).
Definition Blanks (s : list C) : Prop := forall c, In c s -> blank c = true.
Definition Word (w : list C) : Prop := w <> [] /\ forall c, In c w -> blank c = false.
(* s consists of the words ws, in this order, with white space around and at least one blank between them *)
Inductive Splits : list C -> list (list C) -> Prop :=
  | no_word s : Blanks s -> Splits s []
  | last_word b w : Blanks b -> Word w -> Splits (b ++ w) [w]
  | word b w c r ws : Blanks b -> Word w -> blank c = true -> Splits r ws -> Splits (b ++ w ++ c :: r) (w :: ws).
(* the values that are not sequences, from left to right *)
Inductive Leaves : value C -> list (value C) -> Prop :=
  | leaf x : (forall l, x <> Seq l) -> Leaves x [x]
  | branch l rs : Forall2 Leaves l rs -> Leaves (Seq l) (concat rs).
End Spec.
