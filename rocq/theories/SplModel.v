(* Model of Split, CLVar and Flatten: SCons/Util/__init__.py do_flatten (453-464), flatten (467-488), Split (850-869), class CLVar (872-918).  No proofs.

   A value is a string, a sequence (list, tuple or UserList: everything in SequenceTypes), or some other object, a number here.  A character is white space for str.split() if blank says so.
   Not modelled: sets and dictionaries (they are other objects), recursion through a list that contains itself. *)
From Coq Require Import List Bool.
Import ListNotations.
Open Scope list_scope.

Section Split.
Context {C : Type} (blank : C -> bool) (sp : C).
Notation str := (list C).
Inductive value := Str (s : str) | Seq (l : list value) | Obj (n : nat).

(* str.split(): cur is the word that is being read, the last letter first *)
Fixpoint words (cur s : str) : list str :=
  match s with
  | [] => match cur with [] => [] | _ => [rev cur] end
  | c :: r => if blank c then match cur with [] => words [] r | _ => rev cur :: words [] r end else words (c :: cur) r
  end.
(* 850-869 *)
Definition Split (arg : value) : list value := match arg with Seq l => l | Str s => map Str (words [] s) | Obj n => [arg] end.

(* 453-464: the loop over the items of a sequence *)
Fixpoint do_flatten (item : value) (result : list value) : list value := match item with Seq l => fold_left (fun r i => do_flatten i r) l result | _ => result ++ [item] end.
(* 467-488 *)
Definition flatten (obj : value) : list value := match obj with Seq l => fold_left (fun r i => do_flatten i r) l [] | _ => [obj] end.

(* 903-913: None is no value *)
Definition clvar (initlist : option value) : list value := match initlist with None => [] | Some x => Split x end.
Definition add (self : list value) (other : value) : list value := self ++ clvar (Some other).
Definition radd (self : list value) (other : value) : list value := clvar (Some other) ++ self.
(* 915-918, for a list of strings: ' '.join *)
Fixpoint text (self : list str) : str := match self with [] => [] | [x] => x | x :: r => x ++ sp :: text r end.
End Split.
Arguments value : clear implicits.
