(* Model of versioned shared libraries and loadable modules: SCons/Tool/linkCommon/SharedLibrary.py (shlib_symlink_emitter, _soversion, _soname, _get_shlib_stem, the variables of
   setup_shared_lib_logic), SCons/Tool/linkCommon/LoadableModule.py (the same for modules), SCons/Tool/linkCommon/__init__.py (EmitLibSymlinks, CreateLibSymlinks, LibSymlinksActionFunction),
   SCons/Defaults.py (__libversionflags) and SCons/Tool/install.py (copyFuncVersionedLib, listShlibLinksToInstall, installShlibLinks).  GNU linker conventions.  No proofs.

   Texts are those of NameModel.v.  A path is a directory and a name in it; how directories are called is only needed for loadable modules.  Not modelled: substitution (values of the
   variables are given after substitution and contain no $ and no double blanks), libraries with several targets, names of links with slashes (a SONAME with a slash), file modes,
   the link command except for its option -soname. *)
From Coq Require Import Ascii String List Bool Arith.
From Verif Require Import NameModel.
Import ListNotations.
Open Scope list_scope.

Record settings := { prefix : str; suffix : str;          (* SHLIBPREFIX, SHLIBSUFFIX *)
                     version : option str;                (* SHLIBVERSION; None: not in the environment *)
                     soname : option str; soversion : option str;
                     noversionsymlinks : str }.

(* SharedLibrary.py 205: the dot and the version, if it is not empty *)
Definition dot_version (e : settings) : str := match version e with Some (c :: v) => DOT :: c :: v | _ => [] end.
(* 212 *)
Definition full_suffix (e : settings) : str := suffix e ++ dot_version e.
(* Tool/__init__.py 403-408 with Builder.py 476-494: the name of the library *)
Definition library_name (e : settings) (given : str) : str := adjustixes given (prefix e) (full_suffix e) false.

(* SharedLibrary.py 117-155 *)
Definition without_suffix (name suf : str) : str := match suf with [] => name | _ => if endswith name suf then but_last_n name (length suf) else name end.
Definition without_prefix (name pre : str) : str := match pre with [] => name | _ => if startswith name pre then if str_eqb name pre then name else skipn (length pre) name else name end.
Definition stem (e : settings) (name : str) : str := without_prefix (without_suffix name (full_suffix e)) (prefix e).

(* str.split(".")[0] *)
Definition major (v : str) : str := match split_on DOT v with w :: _ => w | [] => [] end.
(* SharedLibrary.py 89-99 *)
Definition so_version (e : settings) : str :=
  match soversion e with
  | Some v => DOT :: v
  | None => match version e with Some v => DOT :: major v | None => [] end
  end.
(* 102-114; None: UserError *)
Definition so_name (e : settings) (stem : str) : option str :=
  match soname e with
  | Some n => match soversion e with Some _ => None | None => Some n end
  | None => Some (prefix e ++ stem ++ suffix e ++ so_version e)
  end.
(* 198 *)
Definition noversion_name (e : settings) (stem : str) : str := prefix e ++ stem ++ suffix e.

Definition truthy (s : str) : bool := str_eqb s (lit "1") || str_eqb s (lit "True") || str_eqb s (lit "true").
Definition versioned (e : settings) : bool := match version e with Some (_ :: _) => true | _ => false end.
(* Defaults.py 686-702 and SharedLibrary.py 206: the name in the option -soname of the link command; None: no such option, or the UserError *)
Definition recorded (e : settings) (name : str) : option str := if versioned e then so_name e (stem e name) else None.

(* SharedLibrary.py 31-86, given the stem; names of links, all to the library.  None: UserError *)
Definition links_with (e : settings) (stem name : str) : option (list str) :=
  if truthy (noversionsymlinks e) then Some []
  else if versioned e then
    match so_name e stem with
    | None => None
    | Some s => Some ((if str_eqb s name then [] else [s]) ++ [noversion_name e stem])
    end
  else Some [].
Definition links (e : settings) (name : str) : option (list str) := links_with e (stem e name) name.

(* LoadableModule.py 34-53 and 100-118: what is stripped is the path of the module as text; prefix first *)
Definition module_stem (e : settings) (path : str) : str :=
  let p := if startswith path (prefix e) then skipn (length (prefix e)) path else path in
  if endswith p (full_suffix e) then but_last_n p (length (full_suffix e)) else p.
Definition module_path (dir name : str) : str := match dir with [] => name | _ => dir ++ SLASH :: name end.
Definition module_links (e : settings) (dir name : str) : option (list str) := links_with e (module_stem e (module_path dir name)) name.
(* LoadableModule.py 70-74: both SONAME and SOVERSION are accepted; not distinguished here *)

Section Files.
Variable dirs : Type.
Variable dir_eqb : dirs -> dirs -> bool.
Variable inside : dirs -> str -> dirs.                    (* the directory of that name in a directory *)
Variable content : Type.
Definition path := (dirs * str)%type.
Inductive entry := File (c : content) | Link (name : str) | Dir.            (* a link to a name in its own directory *)
Definition fs := path -> option entry.
Definition path_eqb (p q : path) : bool := dir_eqb (fst p) (fst q) && str_eqb (snd p) (snd q).
Definition set (f : fs) (p : path) (x : option entry) : fs := fun q => if path_eqb p q then x else f q.
Inductive result := Done (f : fs) | Failed (f : fs).

(* __init__.py 76-100; link.get_dir().rel_path(library) is the name of the library, both being in one directory *)
Fixpoint create_links (d : dirs) (lib : str) (ls : list str) (f : fs) : result :=
  match ls with
  | [] => Done f
  | l :: r =>
    let f := match f (d, l) with Some (Link _) => set f (d, l) None | _ => f end in
    match f (d, l) with
    | Some _ => Failed f
    | None => create_links d lib r (set f (d, l) (Some (Link lib)))
    end
  end.

(* __init__.py 51-73: what scons -c removes beside the library *)
Definition cleaned (ls : list str) (lib : str) : list str := filter (fun l => negb (str_eqb l lib)) ls.
Definition clean_library (d : dirs) (lib : str) (ls : list str) (f : fs) : fs := fold_left (fun f l => set f (d, l) None) (lib :: cleaned ls lib) f.

(* the build of a library: what was there was removed (FS.py 3170), the link command has written c, then LibSymlinksAction *)
Definition build_library (e : settings) (d : dirs) (name : str) (c : content) (f : fs) : option result :=
  match links e name with
  | None => None
  | Some ls => Some (create_links d name ls (set f (d, name) (Some (File c))))
  end.

(* install.py 171-196 and 198-222: dest is (d, name), name the name of the library too (350-360), c its content; ls: the links of the source.  shutil.copy2 writes
   into a directory, and through a link (one step here; there is none after os.remove) *)
Definition install_library (d : dirs) (name : str) (c : content) (ls : list str) (f : fs) : result :=
  let f := match f (d, name) with Some Dir | None => f | _ => set f (d, name) None end in
  let f := match f (d, name) with Some Dir => set f (inside d name, name) (Some (File c)) | Some (Link n) => set f (d, n) (Some (File c)) | _ => set f (d, name) (Some (File c)) end in
  create_links d name ls f.
End Files.
