(* What the attributes of file nodes should be. *)
From Coq Require Import Ascii String List Bool Arith.
Import ListNotations.
From Verif Require Import NameModel NameProps2 AttModel.
Open Scope list_scope.

(* names that files have: not empty, not . or .., no slash (NameProps2.good) *)
Definition Named (p : place) : Prop := forall n, In n p -> good n.
(* a text, read as a path from the directory cwd, leads to the place (NameProps2.walk keeps the innermost name first) *)
Definition Leads (cwd : place) (text : str) (p : place) : Prop := walk (rev cwd) text = rev p.

(* the suffix of a name: from its last dot on, unless only digits (at least one) follow it *)
Definition Digit (c : ascii) : Prop := In c (list_ascii_of_string "0123456789").
Definition Number (w : str) : Prop := w <> [] /\ forall c, In c w -> Digit c.
Definition HasSuffix (name stem suffix : str) : Prop :=
  (exists w, name = stem ++ DOT :: w /\ suffix = DOT :: w /\ ~ In DOT w /\ ~ Number w) \/
  (suffix = [] /\ stem = name /\ forall a w, name = a ++ DOT :: w -> ~ In DOT w -> Number w).

(* the link of a variant directory that is in force: the last one made for it *)
Definition Linked (ls : links) (v s : place) : Prop := exists a b, ls = a ++ (v, s) :: b /\ forall s', ~ In (v, s') b.
Definition Unlinked (ls : links) (v : place) : Prop := forall s, ~ In (v, s) ls.
(* v is a directory p is in, or, if p is a directory, p itself; r are the names from there on *)
Definition Above (isdir : bool) (v r p : place) : Prop := p = v ++ r /\ (isdir = true \/ r <> []).
