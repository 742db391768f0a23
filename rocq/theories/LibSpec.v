(* C69: what the linker is told about the libraries in LIBS, and which files the program depends on for them. *)
From Coq Require Import Ascii String List Bool Arith.
Import ListNotations.
From Verif Require Import NameModel NameProps NameProps2 LibModel.
From Verif Require CscModel CscSpec FlagModel.
Open Scope list_scope.
Notation text := (list ascii).

(* ---- the bare name of a library: without one prefix and one suffix ---- *)
(* the first of the prefixes that begins the name is cut off *)
Inductive cut_front (ps : list text) (n : text) : text -> Prop :=
| cut_front_yes a p b r : ps = a ++ p :: b -> n = p ++ r -> (forall q, In q a -> ~ begins n q) -> cut_front ps n r
| cut_front_no : (forall p, In p ps -> ~ begins n p) -> cut_front ps n n.
(* the first of the suffixes (that are not empty) that ends the name is cut off *)
Inductive cut_back (ss : list text) (n : text) : text -> Prop :=
| cut_back_yes a s b r : ss = a ++ s :: b -> s <> [] -> n = r ++ s -> (forall q, In q a -> q <> [] -> ~ ends n q) -> cut_back ss n r
| cut_back_no : (forall s, In s ss -> s <> [] -> ~ ends n s) -> cut_back ss n n.
(* a name with the literal prefix is left as it is *)
Definition bare (ps ss : list text) (literal n stem : text) : Prop :=
  (literal <> [] /\ begins n literal /\ stem = n) \/ (~ (literal <> [] /\ begins n literal) /\ exists m, cut_front ps n m /\ cut_back ss m stem).

Section Lib.
Variable node : Type.
Variable is_file : node -> bool.
Variable name_of : node -> text.
(* the item is a File node; otherwise it has a name *)
Definition called (x : item node) (n : text) : Prop := match x with Name s => n = s | Obj o => is_file o = false /\ n = name_of o end.
Definition a_file (x : item node) (o : node) : Prop := x = Obj o /\ is_file o = true.
(* the option for a bare name: -l is not put before a name that has it already *)
Definition dash_l (stem w : text) : Prop := (begins stem (lit "-l") /\ w = stem) \/ (~ begins stem (lit "-l") /\ w = lit "-l" ++ stem).
(* the words for a list of items, in their order *)
Inductive told (ps ss : list text) (literal : text) : list (item node) -> list (word node) -> Prop :=
| told_nil : told ps ss literal [] []
| told_file x o l ws : a_file x o -> told ps ss literal l ws -> told ps ss literal (x :: l) (F o :: ws)
| told_name x n stem w l ws : called x n -> bare ps ss literal n stem -> stem <> [] -> dash_l stem w -> told ps ss literal l ws -> told ps ss literal (x :: l) (W w :: ws)
| told_lost x n l ws : called x n -> bare ps ss literal n [] -> told ps ss literal l ws -> told ps ss literal (x :: l) ws.

(* the names and nodes in LIBS: strings are cut at white space *)
Definition wanted_name (l : libs node) (n : text) : Prop := match l with One s => In n (FlagModel.py_split s) | Many its => exists s, In (Name s) its /\ In n (FlagModel.py_split s) end.
Definition wanted_node (l : libs node) (n : node) : Prop := match l with One _ => False | Many its => In (Obj n) its end.

(* ---- what the linker does with -lNAME: it goes along the directories and takes a library PREFIX NAME SUFFIX from the first one that has any; which one, if there is more than one, is left open ---- *)
Section Linker.
Variable dir : Type.
Variable here : dir -> text -> option node.
Definition has_lib (pre : text) (ss : list text) (stem : text) (d : dir) (n : node) : Prop := exists s, In s ss /\ here d (pre ++ stem ++ s) = Some n.
Definition picks (pre : text) (ss : list text) (path : list dir) (stem : text) (n : node) : Prop :=
  exists a d b, path = a ++ d :: b /\ has_lib pre ss stem d n /\ forall x, In x a -> forall n2, ~ has_lib pre ss stem x n2.
(* the library a word makes the linker read *)
Definition linked (pre : text) (ss : list text) (path : list dir) (w : word node) (n : node) : Prop :=
  match w with F o => n = o | W w => exists stem, w = lit "-l" ++ stem /\ picks pre ss path stem n end.
End Linker.

(* ---- ordinary settings and names ---- *)
(* .a, .so *)
Definition lib_suffix (s : text) : Prop := exists t, s = DOT :: t /\ ~ In DOT t /\ ~ In SLASH t /\ Exists (fun c => is_digit c = false) t.
(* lib *)
Definition lib_prefix (p : text) : Prop := ~ In DOT p /\ ~ In SLASH p.
(* foo, libfoo, foo.1 *)
Definition plain_name (pre literal n : text) : Prop :=
  good n /\ ~ has_ext n /\ n <> pre /\ ~ (literal <> [] /\ begins n literal) /\ ~ begins n (lit "-l") /\ ~ begins n (pre ++ lit "-l") /\ forall c, In c n -> FlagModel.is_space c = false.
Definition plain_item (pre literal : text) (x : item node) : Prop := match x with Name s => plain_name pre literal s | Obj o => is_file o = true end.
Definition plain_libs (pre literal : text) (l : libs node) : Prop :=
  match l with One s => plain_name pre literal s /\ ~ In ":"%char s | Many l => forall x, In x l -> plain_item pre literal x end.
End Lib.
