(* What a user relies on of versioned shared libraries, without the model's functions. *)
From Coq Require Import Ascii String List Bool Arith.
From Verif Require Import NameModel VslModel.
Import ListNotations.
Open Scope list_scope.

(* m is the first part of the version v: 1 of 1.2.3, and all of a version without dots *)
Definition FirstPart (v m : str) : Prop := ~ In DOT m /\ (v = m \/ exists r, v = m ++ DOT :: r).

(* the library is asked for with version v *)
Definition Version (e : settings) (v : str) : Prop := version e = Some v /\ v <> [].

(* plain is the name without version (libfoo.so); n the one by which programs will look for the library *)
Inductive Soname (e : settings) (v plain : str) : str -> Prop :=
| by_version : forall m, soname e = None -> soversion e = None -> FirstPart v m -> Soname e v plain (plain ++ DOT :: m)
| by_soversion : forall s, soname e = None -> soversion e = Some s -> Soname e v plain (plain ++ DOT :: s)
| by_soname : forall n, soname e = Some n -> soversion e = None -> Soname e v plain n.

(* SHLIBNOVERSIONSYMLINKS turns links off *)
Definition Off (s : str) : Prop := s = lit "1" \/ s = lit "True" \/ s = lit "true".

(* two settings that differ in the version only *)
Definition SameBut (e1 e2 : settings) : Prop :=
  prefix e1 = prefix e2 /\ suffix e1 = suffix e2 /\ soname e1 = soname e2 /\ soversion e1 = soversion e2 /\ noversionsymlinks e1 = noversionsymlinks e2.

(* opening the path gives this content, following links (a link names something in its own directory) *)
Inductive Leads {dirs content : Type} (f : fs dirs content) : path dirs -> content -> Prop :=
| leads_file : forall p c, f p = Some (File content c) -> Leads f p c
| leads_link : forall d l n c, f (d, l) = Some (Link content n) -> Leads f (d, n) c -> Leads f (d, l) c.

(* nothing that a link could not replace *)
Definition Free {dirs content : Type} (f : fs dirs content) (p : path dirs) : Prop := f p = None \/ exists n, f p = Some (Link content n).
