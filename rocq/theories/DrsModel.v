(* Directories as sources: SCons/Scanner/Dir.py (only_dirs 27-29, do_not_scan and skip_entry_list 48-93, scan_on_disk 95-113, scan_in_memory 115-132),
   Node.get_implicit_deps, SCons/Node/__init__.py 987-1020, get_contents_dir 210-216, Dir.get_csig, SCons/Node/FS.py 1958-1967.
   Simplifications: nodes are named by their path below the directory that is the source; [listing] is listdir (None: OSError),
   [known] the names among a directory's in-memory entries (node.entries, a dict), [isdir] says of a path whether it is a directory after
   disambiguate(); the tree does not change while it is scanned. No other scanner is selected for a directory than the one given. *)
From Coq Require Import Ascii String List Bool Arith.
From Verif Require Import FtnModel.
From Verif Require CscModel.
Import ListNotations.
Open Scope list_scope.

Definition text := list ascii.
Definition path := list text.
(* 48-86 *)
Definition skip_list : list text := map lit
  ["."; ".."; ".sconsign"; ".sconsign.dblite"; ".sconsign.dir"; ".sconsign.pag"; ".sconsign.dat"; ".sconsign.bak"; ".sconsign.db";
   ".sconsign_md5.dblite"; ".sconsign_sha1.dblite"; ".sconsign_sha256.dblite";
   ".sconsign_md5"; ".sconsign_md5.dir"; ".sconsign_md5.pag"; ".sconsign_md5.dat"; ".sconsign_md5.bak"; ".sconsign_md5.db";
   ".sconsign_sha1"; ".sconsign_sha1.dir"; ".sconsign_sha1.pag"; ".sconsign_sha1.dat"; ".sconsign_sha1.bak"; ".sconsign_sha1.db";
   ".sconsign_sha256"; ".sconsign_sha256.dir"; ".sconsign_sha256.pag"; ".sconsign_sha256.dat"; ".sconsign_sha256.bak"; ".sconsign_sha256.db"]%string.
(* 93 *)
Definition do_not_scan (n : text) : bool := negb (mem n skip_list).
(* sorted() of names, all different *)
Definition sort_names (l : list text) : list text := map fst (CscModel.sort unit (map (fun n => (n, tt)) l)).
(* 115-132 *)
Definition in_memory (entries : list text) (p : path) : list path := map (fun n => p ++ [n]) (sort_names (filter do_not_scan entries)).
Definition scan_in_memory (known : path -> list text) (p : path) : list path := in_memory (unique (known p)) p.
(* 95-113: e('./' + f) puts the name into the entries *)
Definition scan_on_disk (listing : path -> option (list text)) (known : path -> list text) (p : path) : list path :=
  match listing p with
  | None => []
  | Some l => in_memory (unique (known p ++ filter do_not_scan l)) p
  end.
Fixpoint path_eqb (p q : path) : bool := match p, q with [], [] => true | x :: p, y :: q => SubstModel.str_eqb x y && path_eqb p q | _, _ => false end.
Definition memp (p : path) (l : list path) : bool := existsb (path_eqb p) l.
(* Node/__init__.py 1001-1020; fuel: how many nodes are taken from the list *)
Fixpoint walk (scan : path -> list path) (recurse : list path -> list path) (fuel : nat) (nodes seen deps : list path) : option (list path) :=
  match nodes with
  | [] => Some deps
  | n :: rest =>
      match fuel with
      | O => None
      | S fuel =>
          let included := filter (fun x => negb (memp x seen)) (scan n) in
          walk scan recurse fuel (rest ++ recurse included) (included ++ seen) (deps ++ included)
      end
  end.
(* the source itself is the path []; DirScanner recurses into directories, DirEntryScanner into nothing *)
Definition dir_scanner listing known (isdir : path -> bool) fuel : option (list path) := walk (scan_on_disk listing known) (filter isdir) fuel [[]] [[]] [].
Definition entry_scanner known fuel : option (list path) := walk (scan_in_memory known) (fun _ => []) fuel [[]] [[]] [].

(* signatures of directories; a tree gives the children of every directory node in any order *)
Inductive tree := File (content : text) | Dir (children : list (text * tree)).
Definition line (x : text * text) : text := snd x ++ " "%char :: fst x ++ [newline].
Definition contents_dir (l : list (text * text)) : text := flat_map line (CscModel.sort text l).
Fixpoint csig (hash : text -> text) (t : tree) : text :=
  match t with
  | File c => hash c
  | Dir l => hash (contents_dir (map (fun x => (fst x, csig hash (snd x))) l))
  end.
