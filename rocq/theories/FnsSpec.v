(* Which files FindSourceFiles should return. *)
From Coq Require Import List Bool Arith.
Import ListNotations.
From Verif Require Import FnsModel.

Section Spec.
Context {node : Type}.
Variables (cls : node -> class) (has_builder : node -> bool) (sources all_children : node -> list node) (srcnode : node -> node).

(* what a node is *)
Definition Directory (n : node) : Prop := cls n = IsDir \/ cls n = IsEntry true.
Definition File (n : node) : Prop := cls n = IsFile \/ cls n = IsEntry false.
(* what is looked at from n: what is in a directory, the sources of anything else that is built *)
Definition Step (n c : node) : Prop := (Directory n /\ In c (all_children n)) \/ (~ Directory n /\ has_builder n = true /\ In c (sources n)).
(* f is a source of n: a file that is not built, some steps away *)
Inductive SourceOf : node -> node -> Prop :=
| so_here : forall f, File f -> has_builder f = false -> SourceOf f f
| so_step : forall n c f, Step n c -> SourceOf c f -> SourceOf n f.
(* where a file in variant directories comes from *)
Inductive Origin : node -> node -> Prop :=
| or_here : forall n, srcnode n = n -> Origin n n
| or_step : forall n x, srcnode n <> n -> Origin (srcnode n) x -> Origin n x.
(* what FindSourceFiles(n) is to return *)
Definition Wanted (n x : node) : Prop := exists c f, In c (all_children n) /\ SourceOf c f /\ Origin f x.
(* it is known of every directory that it is one *)
Definition Known : Prop := forall n, cls n <> IsEntry true.
(* nothing that looks at things ends up in itself: there is no endless chain *)
Definition Ends (n : node) : Prop := Acc (fun c n => Step n c) n.
Definition EndsOrigin (n : node) : Prop := exists x, Origin n x.
End Spec.
