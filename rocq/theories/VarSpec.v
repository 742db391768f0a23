(* Vocabulary for C54 (build variables). *)
From Coq Require Import Ascii String List Bool Permutation.
Import ListNotations.
From Verif Require Import VarModel.
Open Scope string_scope.
Open Scope list_scope.

(* the names under which a variable can be given *)
Definition name_of (o : variable) (a : string) : Prop := a = v_key o \/ In a (v_aliases o).
(* no name belongs to two variables *)
Definition names_distinct (os : list variable) : Prop :=
  NoDup (map v_key os) /\ forall o o' a, In o os -> In o' os -> name_of o a -> name_of o' a -> o = o'.
(* l gives a value to o; the last one given counts *)
Definition not_given (o : variable) (l : dict) : Prop := forall a v, In (a, v) l -> ~ name_of o a.
Definition last_given (o : variable) (l : dict) (v : val) : Prop := exists l1 a l2, l = l1 ++ (a, v) :: l2 /\ name_of o a /\ not_given o l2.
(* The setting of a variable: the command line counts before the files (later ones before earlier ones), and these count before the default. *)
Inductive setting (files : list dict) (args : dict) (o : variable) : option val -> Prop :=
  | from_command_line v : last_given o args v -> setting files args o (Some v)
  | from_file v : not_given o args -> last_given o (concat files) v -> setting files args o (Some v)
  | from_default v : not_given o args -> not_given o (concat files) -> v_default o = Some v -> setting files args o (Some v)
  | not_set : not_given o args -> not_given o (concat files) -> v_default o = None -> setting files args o None.

(* strings without a dollar sign *)
Fixpoint no_dollar (s : string) : bool := match s with EmptyString => true | String c r => negb (Ascii.eqb c "$"%char) && no_dollar r end.
Definition plain (v : val) : Prop := match v with VStr s => no_dollar s = true | VBool _ => True | VList d _ => no_dollar (join " " d) = true end.
(* env.subst() does the same with a string without a dollar sign in every environment (it may remove surplus white space); booleans have no dollar sign *)
Definition subst_ok (expand : venv -> string -> string) (norm : string -> string) : Prop :=
  forall e s, no_dollar s = true -> expand e s = norm s.
(* the text of a value, and what the converter is given and makes of it *)
Definition text (norm : string -> string) (v : val) : string := match v with VStr s => norm s | VBool b => bool_str b | VList d _ => norm (join " " d) end.
Definition converted (norm : string -> string) (o : variable) (v : val) : option val :=
  match v_conv o with None => Some v | Some f => f (if v_subst o then VStr (text norm v) else v) end.

(* equal values; the order of the elements of a list variable does not matter *)
Definition same_value (a b : val) : Prop := match a, b with VList d x, VList d' x' => Permutation d d' /\ x = x' | _, _ => a = b end.
(* What saving and loading a variable needs: the value found in the environment is not changed by being written, read and converted again ... *)
Definition restorable (norm : string -> string) (o : variable) (v : val) : Prop :=
  exists w, converted norm o (stored v) = Some w /\ same_value w v.
(* ... and it is the default value if it looks like the default value *)
Definition saved_default (norm : string -> string) (o : variable) : option val :=
  let d := VStr (norm (match v_default o with None => "None" | Some d => str d end)) in match v_conv o with None => Some d | Some f => f d end.
Definition default_faithful (norm : string -> string) (o : variable) (v : val) : Prop :=
  (exists d', saved_default norm o = Some d' /\ text norm v = str d') -> exists d w, v_default o = Some d /\ converted norm o d = Some w /\ same_value w v.
