(* Model of file-system node lookup: SCons/Node/FS.py, needs_normpath_check (190-228), FS._lookup (1334-1468),
   RootDir._lookup_abs (2472-2512), must_be_same (660-668, 1115-1121, 2467-2470), Dir.rel_path (1802-1852), Base.get_path
   (838-854), get_labspath (880-882, 2013-2015, 2029-2030, 2520-2521).  No proofs.

   POSIX only: no drives (do_splitdrive is false), names are case-sensitive (_my_normcase is the identity) and the separator is '/'.
   A node is a number, its index in the list of created nodes; the same number is the same Python object.  Only the attributes
   needed here are kept: name, dir and the class.  Not modelled: arguments that are already nodes, entries of directories,
   variant directories and repositories (see RepoModel), memoisation of rel_path (the tree above a node never
   changes). *)
From Coq Require Import List Arith Bool.
From Verif Require Import PathsModel.
Import ListNotations.

Definition SL := 47. Definition DOT := 46. Definition HASH := 35. Definition NL := 10.
Definition dot : str := [DOT]. Definition dotdot : str := [DOT; DOT].

(* ---- needs_normpath_check.match, 190-228; `.` does not match a newline, `$` matches before a final one ---- *)
Fixpoint dotstar (f : str -> bool) (p : str) : bool := f p || match p with c :: r => negb (c =? NL) && dotstar f r | [] => false end.   (* .* followed by f *)
Definition at_end (p : str) : bool := match p with [] => true | [c] => c =? NL | _ => false end.                          (* $ *)
Definition slash_or_end (p : str) : bool := at_end p || match p with c :: _ => c =? SL | [] => false end.                 (* (?:/|$) *)
Definition starts2 (a b : nat) (f : str -> bool) (p : str) : bool := match p with x :: y :: r => (x =? a) && (y =? b) && f r | _ => false end.
Definition needs_norm (p : str) : bool :=
  dotstar (starts2 SL SL (fun _ => true)) p                                                                               (* .*//  *)
  || starts2 DOT DOT slash_or_end p || dotstar (fun q => match q with c :: r => (c =? SL) && starts2 DOT DOT slash_or_end r | [] => false end) p
  || starts2 DOT SL (fun _ => true) p                                                                                     (* \./  *)
  || dotstar (starts2 SL DOT slash_or_end) p.                                                                             (* .*/\.(?:/|$) *)

(* ---- nodes ---- *)
Inductive klass := KEntry | KFile | KDir.
Record node := { name : str; dir : nat; kind : klass }.      (* node 0 is the root directory, with dir = itself *)
Record fs := { nodes : list node; dict : list (str * nat); top : nat; cwd : nat }.
(* FS.__init__ before Top is known; RootDir: _lookupDict, 2425-2432 *)
Definition fs_root : fs := {| nodes := [{| name := [SL]; dir := 0; kind := KDir |}]; dict := [([], 0); ([SL], 0); ([SL; SL], 0)]; top := 0; cwd := 0 |}.
Fixpoint dict_get (d : list (str * nat)) (k : str) : option nat := match d with [] => None | (k', n) :: r => if str_eqb k k' then Some n else dict_get r k end.
Definition set_nodes (s : fs) (l : list node) : fs := {| nodes := l; dict := dict s; top := top s; cwd := cwd s |}.
Fixpoint upd_node (l : list node) (i : nat) (x : node) : list node := match l, i with [], _ => [] | _ :: r, O => x :: r | y :: r, S i => y :: upd_node r i x end.
(* _labspath: of the root '' (2407), of others dir._labspath + '/' + name; n bounds the depth (a node's number) *)
Fixpoint labspath (fuel : nat) (l : list node) (n : nat) : str :=
  match fuel with
  | O => []
  | S fuel => match n with O => [] | _ => match nth_error l n with Some x => labspath fuel l (dir x) ++ SL :: name x | None => [] end end
  end.
Definition get_labspath (s : fs) (n : nat) : str := labspath (S n) (nodes s) n.
Definition klass_eqb (a b : klass) : bool := match a, b with KEntry, KEntry | KFile, KFile | KDir, KDir => true | _, _ => false end.
(* must_be_same: None = TypeError *)
Definition must_be_same (s : fs) (n : nat) (k : klass) : option fs :=
  match nth_error (nodes s) n with
  | None => None
  | Some x => match kind x with
              | KEntry => Some (set_nodes s (upd_node (nodes s) n {| name := name x; dir := dir x; kind := k |}))     (* 1115-1121 *)
              | _ => if klass_eqb (kind x) k || klass_eqb k KEntry then Some s else None                              (* 660-668, 2467-2470 *)
              end
  end.
(* p.rsplit('/', 1) *)
Fixpoint rsplit (p : str) : option (str * str) :=
  match p with
  | [] => None
  | c :: r => match rsplit r with Some (a, b) => Some (c :: a, b) | None => if c =? SL then Some ([], r) else None end
  end.
(* _lookup_abs.  clash k p: the disk check (diskcheck_match) fails for a new node of class k at p.  The fuel bounds the depth
   of the recursion; None = an exception; the state may have changed (parent directories created). *)
Fixpoint lookup_abs (fuel : nat) (clash : klass -> str -> bool) (s : fs) (p : str) (k : klass) (create : bool) : fs * option nat :=
  match fuel with
  | O => (s, None)
  | S fuel =>
    match dict_get (dict s) p with
    | Some n => match must_be_same s n k with Some s' => (s', Some n) | None => (s, None) end
    | None =>
      if negb create then (s, None)
      else match rsplit p with
           | None => (s, None)
           | Some (dir_name, file_name) =>
             match lookup_abs fuel clash s dir_name KDir true with
             | (s1, None) => (s1, None)
             | (s1, Some d) =>
               let n := length (nodes s1) in
               if clash k p then (s1, None)                                              (* the new object is dropped *)
               else ({| nodes := nodes s1 ++ [{| name := file_name; dir := d; kind := k |}]; dict := (p, n) :: dict s1; top := top s1; cwd := cwd s1 |}, Some n)
             end
           end
    end
  end.
(* str.rstrip('/'), str.strip('/') *)
Fixpoint lstrip (p : str) : str := match p with c :: r => if c =? SL then lstrip r else p | [] => [] end.
Definition rstrip (p : str) : str := rev (lstrip (rev p)).
Definition strip (p : str) : str := rstrip (lstrip p).
(* the normalisation loop, 1454-1466 *)
Definition norm_step (outs : list str) (d : str) : list str :=
  if str_eqb d dotdot then removelast outs else if str_eqb d [] || str_eqb d dot then outs else outs ++ [d].
Definition normalise (p : str) : str := SL :: join SL (fold_left norm_step (tl (split SL p)) []).
(* _lookup for a string p; directory None = self._cwd *)
Definition lookup (clash : klass -> str -> bool) (s : fs) (p : str) (directory : option nat) (k : klass) (create : bool) : fs * option nat :=
  let finish (s : fs) (need : bool) (p : str) := let p := if need then normalise p else p in lookup_abs (S (length p)) clash s p k create in
  match p with
  | 35 :: q =>                                                               (* '#' *)
      let q := strip q in
      finish s (needs_norm q) (if str_eqb q [] || str_eqb q dot then get_labspath s (top s) else get_labspath s (top s) ++ SL :: q)
  | _ =>
      let p := if str_eqb p [SL] then p else rstrip p in
      match p with
      | 47 :: _ => finish s (needs_norm p) p                                 (* absolute *)
      | _ =>
        let d := match directory with Some d => d | None => cwd s end in
        match (match directory with Some d => must_be_same s d KDir | None => Some s end) with     (* self.Dir(directory), 1431-1432 *)
        | None => (s, None)
        | Some s => finish s (needs_norm p) (if str_eqb p [] || str_eqb p dot then get_labspath s d else get_labspath s d ++ SL :: p)
        end
      end
  end.

(* what can happen between lookups *)
Inductive fsop :=
| FLookup (clash : klass -> str -> bool) (p : str) (directory : option nat) (k : klass) (create : bool)   (* Entry, File, Dir *)
| FTop (n : nat)            (* __init__: self.Top = self.Dir(path); self._cwd = self.Top *)
| FChdir (n : nat)          (* chdir, 1301-1314 *)
| FMorph (n : nat) (k : klass).  (* Entry.disambiguate, Entry.rfile: an Entry becomes a File or Dir *)
Definition is_dir (s : fs) (n : nat) : bool := match nth_error (nodes s) n with Some x => klass_eqb (kind x) KDir | None => false end.
Definition fs_step (s : fs) (o : fsop) : fs :=
  match o with
  | FLookup c p d k b => fst (lookup c s p d k b)
  | FTop n => if is_dir s n then {| nodes := nodes s; dict := dict s; top := n; cwd := n |} else s
  | FChdir n => if is_dir s n then {| nodes := nodes s; dict := dict s; top := top s; cwd := n |} else s
  | FMorph n k => match nth_error (nodes s) n with Some x => match kind x with KEntry => set_nodes s (upd_node (nodes s) n {| name := name x; dir := dir x; kind := k |}) | _ => s end | None => s end
  end.

(* ---- relative paths ---- *)
(* _path_elements: the directories from the root to n, inclusive *)
Fixpoint path_elements (fuel : nat) (l : list node) (n : nat) : list nat :=
  match fuel with
  | O => []
  | S fuel => match n with O => [0] | _ => match nth_error l n with Some x => path_elements fuel l (dir x) ++ [n] | None => [] end end
  end.
Definition elems (s : fs) (n : nat) : list nat := path_elements (S n) (nodes s) n.
Definition node_name (s : fs) (n : nat) : str := match nth_error (nodes s) n with Some x => name x | None => [] end.
Fixpoint index (x : nat) (l : list nat) : option nat := match l with [] => None | y :: r => if x =? y then Some 0 else match index x r with Some i => Some (S i) | None => None end end.
(* rel_path, 1802-1852; the recursion is on the parent of other; RootDir.get_dir is None *)
Fixpoint rel_pathf (fuel : nat) (s : fs) (self other : nat) : str :=
  match fuel with
  | O => []
  | S fuel =>
    if self =? other then dot
    else match index other (elems s self) with
         | None => match other with
                   | O => node_name s 0
                   | _ => match nth_error (nodes s) other with
                          | None => []
                          | Some x => let r := rel_pathf fuel s self (dir x) in if str_eqb r dot then name x else r ++ SL :: name x
                          end
                   end
         | Some i => join SL (repeat dotdot (length (elems s self) - (i + 1)) ++ map (node_name s) (skipn (i + 1) (elems s other)))
         end
  end.
Definition rel_path (s : fs) (self other : nat) : str := rel_pathf (S other) s self other.
(* get_path(dir), 838-854; dirname is name + '/' (1677) except for the root, where it is '/' (2390) *)
Definition dirname (s : fs) (n : nat) : str := match n with O => [SL] | _ => node_name s n ++ [SL] end.
Definition get_path (s : fs) (n d : nat) : str :=
  if n =? d then dot
  else let es := elems s n in
       match index d es with
       | None => concat (map (dirname s) (removelast es)) ++ node_name s n
       | Some i => concat (map (dirname s) (removelast (skipn (i + 1) es))) ++ node_name s n
       end.
