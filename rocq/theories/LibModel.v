(* Model of what LIBS does to a program: SCons/Defaults.py (_concat_ixes 431-466, _stripixes 469-550), SCons/PathList.py (_PathList 95-141), SCons/Scanner/Prog.py (_subst_libs 42-57, scan 59-110),
   and the settings of SCons/Tool/link.py 58-60, SCons/Tool/gnulink.py 55, SCons/Platform/posix.py 92-98.  No proofs.

   Simplified: names without $, so that env.subst() does not change them; LIBS is a string or a flat list; LIBPREFIXES and LIBSUFFIXES are lists after substitution; no user-defined _concat; POSIX (os.pathsep is a colon).
   find_file is that of CscModel.v, adjustixes that of NameModel.v. *)
From Coq Require Import Ascii String List Bool Arith.
Import ListNotations.
From Verif Require Import NameModel.
From Verif Require CscModel FlagModel.
Open Scope list_scope.

Section Lib.
Variable node : Type.
Variable is_file : node -> bool.            (* isinstance(x, SCons.Node.FS.File) *)
Variable name_of : node -> list ascii.      (* str(x) *)

Inductive item := Name (s : list ascii) | Obj (n : node).
Inductive libs := One (s : list ascii) | Many (l : list item).
Inductive word := W (s : list ascii) | F (n : node).

(* ---- PathList.py 95-141; Defaults.py 522: strings are not split if the literal prefix is a colon ---- *)
Definition empty_item (x : item) : bool := match x with Name [] => true | _ => false end.
Definition path_list (split : bool) (l : libs) : list item :=
  filter (fun x => negb (empty_item x)) (match l with One s => map Name (if split then split_on ":" s else [s]) | Many l => l end).

(* ---- Defaults.py 535-548: at most one prefix and one suffix are taken away ---- *)
Fixpoint strip_prefix (ps : list (list ascii)) (l : list ascii) : list ascii :=
  match ps with [] => l | p :: r => if startswith l p then skipn (length p) l else strip_prefix r l end.
Fixpoint strip_suffix (ss : list (list ascii)) (l : list ascii) : list ascii :=
  match ss with [] => l | s :: r => if str_eqb (last_n l (length s)) s then but_last_n l (length s) else strip_suffix r l end.
Definition strip (ps ss : list (list ascii)) (l : list ascii) : list ascii := strip_suffix ss (strip_prefix ps l).
Definition nonempty (s : list ascii) : bool := match s with [] => false | _ => true end.
Definition stripped (ps ss : list (list ascii)) (literal : list ascii) (x : item) : item :=
  match x with
  | Obj n => if is_file n then x else let l := name_of n in Name (if nonempty literal && startswith l literal then l else strip ps ss l)
  | Name l => Name (if nonempty literal && startswith l literal then l else strip ps ss l)
  end.

(* ---- 431-466 ---- *)
Definition concat_one (prefix suffix : list ascii) (x : item) : list word :=
  match x with
  | Obj n => [F n]                          (* only File nodes are left *)
  | Name [] => []
  | Name x =>
    let '(before, x) := if nonempty prefix then
                          if endswith prefix [" "%char] then ([W (removelast prefix)], x)
                          else if startswith x prefix then ([], x) else ([], prefix ++ x)
                        else ([], x) in
    before ++ (if nonempty suffix then
                 if startswith suffix [" "%char] then [W x; W (tl suffix)]
                 else if str_eqb (last_n x (length suffix)) suffix then [W x] else [W (x ++ suffix)]
               else [W x])
  end.
Definition concat_ixes (prefix : list ascii) (items : list item) (suffix : list ascii) : list word := flat_map (concat_one prefix suffix) items.
(* 469-550 *)
Definition colon : list ascii := [":"%char].
Definition stripixes (prefix : list ascii) (l : libs) (suffix : list ascii) (ps ss : list (list ascii)) (literal : list ascii) : list word :=
  concat_ixes prefix (map (stripped ps ss literal) (path_list (negb (str_eqb literal colon)) l)) suffix.
(* Tool/link.py 58-60 *)
Definition lib_flags (l : libs) (ps ss : list (list ascii)) (literal : list ascii) : list word := stripixes (lit "-l") l [] ps ss literal.

(* ---- Scanner/Prog.py ---- *)
Definition subst_item (x : item) : list item := match x with Name s => map Name (FlagModel.py_split s) | Obj _ => [x] end.
Definition subst_libs (l : libs) : list item := match l with One s => map Name (FlagModel.py_split s) | Many l => flat_map subst_item l end.
Definition pairs (ps ss : list (list ascii)) : list (list ascii * list ascii) := flat_map (fun s => map (fun p => (p, s)) ps) ss.
Definition or_empty (o : option (list (list ascii))) : list (list ascii) := match o with Some l => l | None => [[]] end.
Section Find.
Variable dir : Type.
Variable root : dir.
Variable enter : dir -> list ascii -> option dir.
Variable here : dir -> list ascii -> option node.
Variable dir_eqb : dir -> dir -> bool.
Notation memory := (CscModel.memory dir node).
Fixpoint find_pairs (m : memory) (path : list dir) (lib : list ascii) (prs : list (list ascii * list ascii)) : list node * memory :=
  match prs with
  | [] => ([], m)
  | (pref, suf) :: r =>
    let '(x, m) := CscModel.find_file dir node root enter here dir_eqb m (adjustixes lib pref suf false) path in
    let '(l, m) := find_pairs m path lib r in
    (match x with Some n => n :: l | None => l end, m)
  end.
Fixpoint find_libs (m : memory) (path : list dir) (prs : list (list ascii * list ascii)) (l : list item) : list node * memory :=
  match l with
  | [] => ([], m)
  | Name s :: r => let '(a, m) := find_pairs m path s prs in let '(b, m) := find_libs m path prs r in (a ++ b, m)
  | Obj n :: r => let '(b, m) := find_libs m path prs r in (n :: b, m)
  end.
Definition scan (m : memory) (l : option libs) (ps ss : option (list (list ascii))) (path : list dir) : list node * memory :=
  match l with None => ([], m) | Some l => find_libs m path (pairs (or_empty ps) (or_empty ss)) (subst_libs l) end.
End Find.
End Lib.
Arguments Name {node} s.
Arguments Obj {node} n.
Arguments One {node} s.
Arguments Many {node} l.
Arguments W {node} s.
Arguments F {node} n.
