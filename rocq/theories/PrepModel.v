(* What is done before the command of a task is run: SCons/Taskmaster/__init__.py 160-206 (Task.prepare), SCons/Executor.py 413-421
   (Executor.prepare), SCons/Node/__init__.py 728-759 (Node.prepare), 1286-1289 (missing), SCons/Node/FS.py 346-376 (UnlinkFunc,
   MkdirFunc), 1890-1891 (Dir.prepare), 1903-1933 (Dir._create), 2996-2999, 3145-3151 (_rmv_existing), 3161-3176 (File.prepare),
   SCons/Action.py 667-740 (actions are not executed under -n).
   Simplifications: a path is the list of its names, the last name first; the file system is a table of paths; a symbolic link is
   known to lead to a file, a directory or nowhere, and what is below a link to a directory is in the table too; the
   answers that nodes remember about the disk (File.exists, stat) are taken to be right; BuildInfo, the copying of sources to variant
   directories (C57) and drives are omitted; permissions always suffice. *)
From Coq Require Import List Bool Arith.
Import ListNotations.

Notation path := (list nat) (only parsing).
Inductive leads := Dangling | ToFile | ToDir.
Inductive entry := EFile (content : nat) | EDir | ELink (to : leads).
Definition fsys := path -> option entry.
Fixpoint peq (p q : path) : bool :=
  match p, q with [], [] => true | a :: p', b :: q' => (a =? b) && peq p' q' | _, _ => false end.
Definition set (d : fsys) (p : path) (e : option entry) : fsys := fun q => if peq q p then e else d q.

(* os.stat succeeds; os.path.islink *)
Definition exists_ (d : fsys) (p : path) : bool := match d p with None => false | Some (ELink Dangling) => false | Some _ => true end.
Definition islink (d : fsys) (p : path) : bool := match d p with Some (ELink _) => true | _ => false end.

Inductive error := MissingSource (s : path) | MissingDepend (x : path) | MissingImplicit (x : path) | BuildError.
Definition outcome := (fsys * option error)%type.

(* os.unlink in UnlinkFunc, FS.py 346-353: a file that is not there is no error; a directory is *)
Definition unlink (d : fsys) (p : path) : outcome :=
  match d p with
  | None => (d, None)
  | Some EDir => (d, Some BuildError)
  | Some _ => (set d p None, None)
  end.
(* MkdirFunc, FS.py 357-375 *)
Definition mkdir (d : fsys) (p : path) : outcome :=
  if exists_ d p then (d, None)
  else match d p with
       | Some _ => (d, None)                                       (* FileExistsError *)
       | None => match p with
                 | [] => (d, Some BuildError)
                 | _ :: up => match d up with
                              | Some EDir | Some (ELink ToDir) => (set d p (Some EDir), None)
                              | _ => (d, Some BuildError)          (* ENOENT, ENOTDIR *)
                              end
                 end
       end.

Section Prepare.
(* the kinds of node: files, directories, and others (aliases, values) *)
Inductive kind := KFile | KDir | KOther.
Variable kind_of : path -> kind.
Variables derived linked precious : path -> bool.     (* is_derived(): has a builder or is a side effect; linked; Precious *)
Variable in_repository : path -> bool.                (* rfile() exists in a repository *)
Variables depends implicit side_effects : path -> list path.
Variable uptodate : path -> bool.                     (* the state of the node is up_to_date *)
Variable no_exec : bool.                              (* -n *)

(* Node/__init__.py 1286-1289 *)
Definition missing (d : fsys) (n : path) : bool :=
  negb (derived n) && negb (linked n) && negb (exists_ d n || in_repository n).

(* Dir._create, FS.py 1903-1933: the directories that are not there, this one first *)
Fixpoint missing_dirs (d : fsys) (p : path) : list path :=
  match p with [] => [] | _ :: up => if exists_ d p then [] else p :: missing_dirs d up end.
Fixpoint build_dirs (d : fsys) (l : list path) : outcome :=
  match l with
  | [] => (d, None)
  | p :: r => match (if no_exec then (d, None) else mkdir d p) with
              | (d', None) => build_dirs d' r
              | (d', Some e) => (d', Some e)
              end
  end.
Definition create (d : fsys) (p : path) : outcome := build_dirs d (rev (missing_dirs d p)).

(* Node.prepare: Node/__init__.py 749-758 *)
Definition check (d : fsys) (n : path) : option error :=
  match find (missing d) (depends n) with
  | Some x => Some (MissingDepend x)
  | None => match find (missing d) (implicit n) with Some x => Some (MissingImplicit x) | None => None end
  end.
(* File.prepare, FS.py 3161-3176; Dir.prepare *)
Definition prepare_node (d : fsys) (n : path) : outcome :=
  match kind_of n with
  | KDir => (d, None)
  | KOther => (d, check d n)
  | KFile =>
      match check d n with
      | Some e => (d, Some e)
      | None =>
          if uptodate n then (d, None)
          else if exists_ d n || islink d n
               then if derived n && negb (precious n) then (if no_exec then (d, None) else unlink d n) else (d, None)
               else create d (tl n)
      end
  end.
Fixpoint prepare_all (d : fsys) (l : list path) : outcome :=
  match l with
  | [] => (d, None)
  | n :: r => match prepare_node d n with (d', None) => prepare_all d' r | (d', Some e) => (d', Some e) end
  end.
(* Task.prepare, Taskmaster/__init__.py 184-206: [sources], [targets] of the executor (get_all_sources, get_action_targets) *)
Definition prepare (d : fsys) (sources targets : list path) : outcome :=
  match find (missing d) sources with                              (* Executor.py 418-421 *)
  | Some s => (d, Some (MissingSource s))
  | None => prepare_all d (flat_map (fun t => t :: side_effects t) targets)
  end.
End Prepare.
