(* Where a run of scons should start. *)
From Coq Require Import Ascii String List Bool Arith.
Import ListNotations.
From Verif Require Import NameModel NameProps2.
Open Scope string_scope.
Open Scope list_scope.

Section Spec.
(* the files there are; a directory is the list of the names down to it, the innermost first, so that u ++ d is inside d *)
Variable isfile : list str -> bool.
(* the files that are looked for *)
Definition Wanted (file : list str) (f : str) : Prop := (file <> [] /\ In f file) \/ (file = [] /\ In f (map lit ["SConstruct"; "Sconstruct"; "sconstruct"; "SConstruct.py"; "Sconstruct.py"; "sconstruct.py"])).
Definition HasSConstruct (file : list str) (d : list str) : Prop := exists f, Wanted file f /\ isfile (walk d f) = true.
(* the nearest directory at or above start that has one *)
Definition Nearest (file : list str) (start below top : list str) : Prop :=
  start = below ++ top /\ HasSConstruct file top /\ forall b t, start = b ++ t -> length top < length t -> ~ HasSConstruct file t.
Definition Nowhere (file : list str) (start : list str) : Prop := forall b t, start = b ++ t -> ~ HasSConstruct file t.
(* f is there for the directory d: in it, or, if it is a relative path, at the same place in a repository *)
Definition There (d : list str) (repositories : list str) (f : str) : Prop :=
  isfile (walk d f) = true \/ (forall r, f <> "/"%char :: r) /\ exists rep, In rep repositories /\ isfile (walk (walk d rep) f) = true.
(* the first of the names that is there *)
Definition FirstThere (d : list str) (repositories names : list str) (f : str) : Prop :=
  exists a b, names = a ++ f :: b /\ There d repositories f /\ forall g, In g a -> ~ There d repositories g.
End Spec.
(* the directory that several -C options lead to, from cwd *)
Fixpoint Led (cwd : list str) (dirs : list str) : list str := match dirs with [] => cwd | d :: r => Led (walk cwd d) r end.
