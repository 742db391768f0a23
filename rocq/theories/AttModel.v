(* Model of the attributes of file nodes that command lines use, like ${TARGET.base}: SCons/Node/FS.py EntryProxy, Base and Dir get_path, get_abspath, get_relpath, get_path_elements, srcnode, srcdir_list,
   Dir.rel_path, RootDir, and SCons/Util/__init__.py splitext (NameModel.splitext).  No proofs.

   POSIX: one root, separator /.  There is one node for each place (C26), so a node is a place: the names from the root down.  Not modelled: Windows drives, what str(node) itself is (_get_str: the path, or that
   of the source, C57), repositories (rfile; rsrcpath and rsrcdir are as srcpath and srcdir without them), memos, for_signature. *)
From Coq Require Import Ascii String List Bool Arith.
Import ListNotations.
From Verif Require Import NameModel.
Open Scope string_scope.
Open Scope list_scope.
Open Scope nat_scope.

Definition place := list str.
Definition place_dec : forall a b : place, {a = b} + {a <> b} := list_eq_dec (list_eq_dec ascii_dec).
Definition same (a b : place) : bool := if place_dec a b then true else false.

(* FS.py 2373-2376, Base.name: the name of the root is / *)
Definition nname (p : place) : str := match p with [] => [SLASH] | _ => last p [] end.
(* Dir._morph 1685, RootDir 2376 *)
Definition dirname (p : place) : str := match p with [] => [SLASH] | _ => nname p ++ [SLASH] end.
(* node.dir: the root is its own directory (2392) *)
Definition dir (p : place) : place := removelast p.
(* _path_elements (1675, 2391), get_path_elements (900-901): from the root to the node *)
Fixpoint elements (up p : place) : list place := match p with [] => [up] | n :: r => up :: elements (up ++ [n]) r end.
Definition path_elements (p : place) : list place := elements [] p.

(* list.index *)
Fixpoint index (d : place) (l : list place) : option nat := match l with [] => None | x :: r => if same x d then Some 0 else match index d r with Some i => Some (S i) | None => None end end.

(* Base.get_path, 838-854 *)
Definition get_path (p cwd : place) : str :=
  if same p cwd then lit "." else
  let es := path_elements p in
  let rest := match index cwd es with Some i => skipn (i + 1) es | None => es end in
  concat (map dirname (removelast rest)) ++ nname p.

(* Dir.__init__ with entry_abspath (2026, 2517): _abspath, built from the directory above *)
Fixpoint abspath_from (up : str) (isroot : bool) (p : place) : str :=
  match p with [] => up | n :: r => abspath_from (if isroot then up ++ n else up ++ [SLASH] ++ n) false r end.
Definition get_abspath (p : place) : str := abspath_from [SLASH] true p.

(* os.path.relpath (Python's posixpath) on two normalized absolute paths, as get_relpath (884-885) calls it: the paths are split at the separators, empty parts dropped *)
Definition nonempty (w : str) : bool := match w with [] => false | _ => true end.
Fixpoint common (a b : place) : nat := match a, b with x :: a', y :: b' => if list_eq_dec ascii_dec x y then S (common a' b') else 0 | _, _ => 0 end.
Definition relpath (path start : str) : str :=
  let sl := filter nonempty (split_on SLASH start) in
  let pl := filter nonempty (split_on SLASH path) in
  let i := common sl pl in
  match repeat (lit "..") (length sl - i) ++ skipn i pl with [] => lit "." | l => join_with SLASH l end.
Definition get_relpath (p top : place) : str := relpath (get_abspath p) (get_abspath top).

(* Dir.rel_path, 1803-1848 (the memo only repeats results): from the directory d to p; the recursion is on the directory of other, until it is one of the directories above d (at the latest the root) *)
Definition rel_up (d other : place) (i : nat) : str := join_with SLASH (repeat (lit "..") (length (path_elements d) - (i + 1)) ++ map nname (skipn (i + 1) (path_elements other))).
Fixpoint rel_path (fuel : nat) (d other : place) : option str :=
  match fuel with
  | O => None
  | S k =>
    if same d other then Some (lit ".") else
    match index other (path_elements d) with
    | Some i => Some (rel_up d other i)
    | None => match rel_path k d (dir other) with
              | None => None
              | Some r => Some (if str_eqb r (lit ".") then nname other else r ++ [SLASH] ++ nname other)
              end
    end
  end.

(* ---- variant directories: the sources that were linked, the last link of a directory is in force (Dir.link 1745-1751) ---- *)
Definition links := list (place * place).
Fixpoint srcdir_of (ls : links) (d : place) : option place := match ls with [] => None | (v, s) :: r => match srcdir_of r d with Some s' => Some s' | None => if same v d then Some s else None end end.
(* srcdir_list (2097-2115) from the directory d, its first element; the names climbed are below *)
Fixpoint first_srcdir (fuel : nat) (ls : links) (d : place) (below : place) : option place :=
  match srcdir_of ls d with
  | Some s => Some (s ++ below)
  | None => match fuel with O => None | S k => match d with [] => None | _ => first_srcdir k ls (dir d) (last d [] :: below) end end
  end.
(* Base.srcnode (826-836) and Dir.srcnode (1994-1999); isdir tells which *)
Definition srcnode (ls : links) (isdir : bool) (p : place) : place :=
  match (if isdir then srcdir_of ls p else None) with
  | Some s => s
  | None => match first_srcdir (length p) ls (dir p) [] with Some d => match p with [] => d | _ => d ++ [last p []] end | None => p end
  end.

(* ---- EntryProxy: dictSpecialAttrs ---- *)
Inductive attr := Base | Posix | Windows | Win32 | Srcpath | Srcdir | Dir | Abspath | Relpath | Filebase | Suffix | File.
(* what an attribute gives: another node, or a text (SpecialAttrWrapper), which has no such attributes itself *)
Inductive value := VNode (p : place) (isdir : bool) | VText (s : str) | VError.
Definition to_windows (s : str) : str := map (fun c => if Ascii.eqb c SLASH then "\"%char else c) s.
(* cwd: fs.getcwd(), top: fs.SConstruct_dir *)
Definition get_attr (ls : links) (cwd top : place) (a : attr) (v : value) : value :=
  match v with
  | VNode p isdir =>
    match a with
    | Base => VText (fst (splitext (get_path p cwd)))
    | Posix => v
    | Windows | Win32 => VText (to_windows (get_path p cwd))
    | Srcpath => VNode (srcnode ls isdir p) isdir
    | Srcdir => VNode (dir (srcnode ls isdir p)) true
    | Dir => VNode (dir p) true
    | Abspath => VText (get_abspath p)
    | Relpath => VText (get_relpath p top)
    | Filebase => VText (fst (splitext (nname p)))
    | Suffix => VText (snd (splitext (nname p)))
    | File => VText (nname p)
    end
  | _ => VError
  end.
(* ${TARGET.a.b.c} *)
Definition get_attrs (ls : links) (cwd top : place) (l : list attr) (v : value) : value := fold_left (fun v a => get_attr ls cwd top a v) l v.
Definition text_of (cwd : place) (v : value) : option str := match v with VNode p _ => Some (get_path p cwd) | VText s => Some s | VError => None end.
