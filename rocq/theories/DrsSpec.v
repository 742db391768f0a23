(* What is below a directory. *)
From Coq Require Import Ascii String List Bool Arith.
From Verif Require Import DrsModel.
Import ListNotations.
Open Scope list_scope.

(* files of the signature database, and . and .. *)
Definition stems : list string := [".sconsign"; ".sconsign_md5"; ".sconsign_sha1"; ".sconsign_sha256"]%string.
Definition exts : list string := [""; ".dblite"; ".dir"; ".pag"; ".dat"; ".bak"; ".db"]%string.
Definition Database (n : text) : Prop := exists stem ext, In stem stems /\ In ext exts /\ n = list_ascii_of_string stem ++ list_ascii_of_string ext.
Definition Special (n : text) : Prop := n = list_ascii_of_string "." \/ n = list_ascii_of_string ".." \/ Database n.
Section Below.
Variable listing : path -> option (list text).
Variable known : path -> list text.
Variable isdir : path -> bool.
(* the directory can be listed, and the name is on disk or known *)
Definition Entry (p : path) (n : text) : Prop := exists l, listing p = Some l /\ (In n l \/ In n (known p)) /\ ~ Special n.
Inductive Below : path -> Prop :=
| B_here n : Entry [] n -> Below [n]
| B_deeper p n : Below p -> isdir p = true -> Entry p n -> Below (p ++ [n]).
End Below.
(* what a tree has at a path *)
Inductive At : tree -> path -> tree -> Prop :=
| At_here t : At t [] t
| At_below l n t p s : In (n, t) l -> At t p s -> At (Dir l) (n :: p) s.
(* names are not used twice in a directory, and are lines *)
Inductive Proper : tree -> Prop :=
| P_file c : Proper (File c)
| P_dir l : NoDup (map fst l) -> (forall n t, In (n, t) l -> ~ In (ascii_of_nat 10) n /\ Proper t) -> Proper (Dir l).
(* the same tree up to the order in directories *)
Inductive Same : tree -> tree -> Prop :=
| S_file c : Same (File c) (File c)
| S_dir l l' : (forall n t, In (n, t) l -> exists t', In (n, t') l' /\ Same t t') -> (forall n t', In (n, t') l' -> exists t, In (n, t) l /\ Same t t') -> Same (Dir l) (Dir l').
