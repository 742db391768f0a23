(* What a package variable means (C90). *)
From Coq Require Import Ascii String List Bool.
Import ListNotations.
From Verif Require Import VarModel VarSpec.
Open Scope string_scope.
Open Scope list_scope.

(* the words, in any case *)
Definition Enabling (t : string) : Prop := In (lower t) ["1"; "yes"; "true"; "on"; "enable"; "search"].
Definition Disabling (t : string) : Prop := In (lower t) ["0"; "no"; "false"; "off"; "disable"].
(* the words, in lower case *)
Definition Word (t : string) : Prop := In t ["1"; "yes"; "true"; "on"; "enable"; "search"; "0"; "no"; "false"; "off"; "disable"].
(* what the variable is when its text is t and its default d *)
Inductive PackageValue (d t : string) : val -> Prop :=
  | disabled : Disabling t -> PackageValue d t (VBool false)
  | enabled : Enabling t -> Word d -> PackageValue d t (VBool true)
  | the_default : Enabling t -> ~ Word d -> PackageValue d t (VStr d)
  | a_path : ~ Enabling t -> ~ Disabling t -> PackageValue d t (VStr t).
(* a path must exist; the empty one need not *)
Definition Acceptable (exists_ : string -> bool) (norm : string -> string) (v : val) : Prop := match v with VStr s => s = "" \/ exists_ (norm s) = true | _ => True end.
(* env.subst() brings no dollar signs into a text without them *)
Definition norm_stable (norm : string -> string) : Prop := forall s, no_dollar s = true -> no_dollar (norm s) = true.
