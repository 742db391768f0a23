(* Model of where a run of scons starts: SCons/Script/Main.py _create_path (778-785), _SConstruct_exists (693-719) and the part of _main that handles -C, -u, -D, -U, -f and -Y (982-1033).  No proofs.

   POSIX; no symbolic links, so that os.path.abspath, os.chdir and os.path.isfile all follow a path as NameProps2.walk does (C56); a directory is the list of the names down to it, the innermost first.
   Not modelled: -h without an SConstruct, -f - (standard input; the dash is a name here), what is done with target_top later (C62). *)
From Coq Require Import Ascii String List Bool Arith.
Import ListNotations.
From Verif Require Import NameModel NameProps2.
Open Scope string_scope.
Open Scope list_scope.

Definition directory := list str.
Definition isabs (p : str) : bool := match p with c :: _ => Ascii.eqb c SLASH | [] => false end.
(* os.path.join (posixpath) *)
Definition ends_slash (p : str) : bool := match rev p with c :: _ => Ascii.eqb c SLASH | [] => false end.
Definition path_join (a b : str) : str := if isabs b then b else match a with [] => b | _ => if ends_slash a then a ++ b else a ++ [SLASH] ++ b end.
(* Main.py 74-81 *)
Definition KNOWN : list str := map lit ["SConstruct"; "Sconstruct"; "sconstruct"; "SConstruct.py"; "Sconstruct.py"; "sconstruct.py"].

Section Start.
(* os.path.isfile, and whether os.chdir to the directory succeeds *)
Variables (isfile enter : directory -> bool).

(* 778-785 *)
Definition create_path (plist : list str) : str := fold_left (fun path d => if isabs d then d else path ++ [SLASH] ++ d) plist (lit ".").

(* 693-719 with an absolute dirname, given as the directory: the path looked at is then absolute, and no repository is searched *)
Definition exists_in (d : directory) (filelist : list str) : bool := existsb (fun file => isfile (walk d file)) (match filelist with [] => KNOWN | _ => filelist end).
(* 693-719 with the dirname "", in the current directory *)
Fixpoint first_of (cwd : directory) (repositories files : list str) : option str :=
  match files with
  | [] => None
  | file :: r => if isfile (walk cwd file) then Some file
                 else if negb (isabs file) && existsb (fun rep => isfile (walk cwd (path_join rep file))) repositories then Some file
                 else first_of cwd repositories r
  end.
Definition exists_here (cwd : directory) (repositories filelist : list str) : option str := first_of cwd repositories (match filelist with [] => KNOWN | _ => filelist end).

(* 989-998, the loop: the script directory (None: the empty string) and target_top.  The root has an empty last part *)
Fixpoint climb (script_dir : directory) (target_top : str) (file : list str) : option directory * str :=
  if exists_in script_dir file then (Some script_dir, target_top)
  else match script_dir with [] => (None, target_top) | last_part :: up => climb up (path_join last_part target_top) file end.

(* what is then the current directory, target_top, the scripts; complained: Could not change directory *)
Inductive outcome := Started (cwd : directory) (target_top : option str) (scripts : list str) (complained : bool) | NoSConstruct.
Definition main (cwd : directory) (dirs : list str) (climb_up : bool) (repository file : list str) : outcome :=
  let script_dir := match dirs with [] => cwd | _ => walk cwd (create_path dirs) end in                               (* 982-985 *)
  let '(script_dir, target_top) := if climb_up then (let '(d, t) := climb script_dir (lit ".") file in (d, Some t)) else (Some script_dir, None) in   (* 987-998 *)
  let '(now, complained) := match script_dir with                                                                     (* 1000-1007 *)
                            | None => (cwd, false)
                            | Some d => if list_eq_dec (list_eq_dec ascii_dec) d cwd then (cwd, false) else if enter d then (d, false) else (cwd, true)
                            end in
  match (match file with [] => match exists_here now repository file with Some s => [s] | None => [] end | _ => file end) with    (* 1018-1024 *)
  | [] => NoSConstruct
  | scripts => Started now target_top scripts complained
  end.
End Start.
