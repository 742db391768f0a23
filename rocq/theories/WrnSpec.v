(* What a user relies on of --warn and SetOption('warn'), without the model's functions. *)
From Coq Require Import Ascii String List Bool Arith.
From Verif Require Import NameModel.
Import ListNotations.
Open Scope list_scope.

(* the last directive (class, on or off) that covers class c says f *)
Definition Decides (sub : str -> str -> bool) (dirs : list (str * bool)) (c : str) (f : bool) : Prop :=
  exists l1 k l2, dirs = l1 ++ (k, f) :: l2 /\ sub c k = true /\ forall k' f', In (k', f') l2 -> sub c k' = false.

Definition Lower (w : str) : Prop := w <> [] /\ forall c, In c w -> 97 <= nat_of_ascii c /\ nat_of_ascii c <= 122.
(* a word in the name of a class: first letter in upper case; SCons is spelled like this *)
Inductive Camel : str -> str -> Prop :=
| camel_scons : forall r, Camel (lit "scons" ++ r) (lit "SCons" ++ r)
| camel_other : forall c u r, ~ (exists s, c :: r = lit "scons" ++ s) -> nat_of_ascii c = nat_of_ascii u + 32 -> Camel (c :: r) (u :: r).
(* the class of a type: some-type is SomeTypeWarning, all is SConsWarning *)
Inductive Names : str -> str -> Prop :=
| names_all : Names (lit "all") (lit "SConsWarning")
| names_words : forall ws cs, ws <> [] -> (forall w, In w ws -> Lower w) -> Forall2 Camel ws cs -> join_with "-"%char ws <> lit "all" -> Names (join_with "-"%char ws) (concat cs ++ lit "Warning").

(* two types begin with no- themselves *)
Definition Special (arg : str) : Prop := arg = lit "no-object-count" \/ arg = lit "no-parallel-support".
Inductive Says (sub : str -> str -> bool) (known : str -> bool) : str -> str -> bool -> Prop :=
| says_on : forall arg k, (forall t, arg = lit "no-" ++ t -> Special arg) -> Names arg k -> known k = true -> Says sub known arg k true
| says_off : forall t k, ~ Special (lit "no-" ++ t) -> Names t k -> known k = true -> sub k (lit "MandatoryDeprecatedWarning") = false -> Says sub known (lit "no-" ++ t) k false.
