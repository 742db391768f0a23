(* What preparing a task may and must do, independently of the model's functions *)
From Coq Require Import List Bool Arith.
From Verif Require Import PrepModel.
Import ListNotations.

(* p is a directory above q (paths have their last name first) *)
Definition Above (p q : list nat) : Prop := exists a l, q = a :: l ++ p.
(* what is there has a directory, or a link to one, above it; the root is a directory *)
Definition Tree (d : fsys) : Prop :=
  d [] = Some EDir /\ (forall a p, d (a :: p) <> None -> d p = Some EDir \/ d p = Some (ELink ToDir)).
(* something can be reached at p *)
Definition There (d : fsys) (p : list nat) : Prop := exists e, d p = Some e /\ e <> ELink Dangling.
