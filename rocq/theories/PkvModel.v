(* Model of SCons/Variables/PackageVariable.py and PathVariable.py, as variables for VarModel.  No proofs.

   The file system is given by what os.path.isdir, isfile and exists say.  Not modelled: the undocumented searchfunc of PackageVariable, PathVariable.PathIsDirCreate (it changes the file system), the
   help texts; a value that is neither a string nor a boolean is refused (lower(), or os.path.exists(), raises). *)
From Coq Require Import Ascii String List Bool.
Import ListNotations.
From Verif Require Import VarModel.
Open Scope string_scope.
Open Scope list_scope.

(* PackageVariable.py 63-64 *)
Definition ENABLE_STRINGS := ["1"; "yes"; "true"; "on"; "enable"; "search"].
Definition DISABLE_STRINGS := ["0"; "no"; "false"; "off"; "disable"].
(* 66-93 _converter *)
Definition default_is_word (default : val) : bool := match default with VStr s => mem s (ENABLE_STRINGS ++ DISABLE_STRINGS) | _ => false end.
Definition package_conv (default v : val) : option val :=
  match v with
  | VList _ _ => None
  | _ =>
    let lval := lower (match v with VStr s => s | VBool b => bool_str b | VList _ _ => "" end) in
    if mem lval DISABLE_STRINGS then Some (VBool false)
    else if mem lval ENABLE_STRINGS then (if default_is_word default then Some (VBool true) else Some default)
    else Some v
  end.
Section Checks.
Variables (isdir isfile exists_ : string -> bool).
(* 96-108 _validator; false: it raises *)
Definition truthy (v : val) : bool := match v with VBool b => b | VStr s => negb (String.eqb s "") | VList d _ => match d with [] => false | _ => true end end.
Definition package_valid (key : string) (v : val) (e : venv) : bool :=
  match e key with
  | Some (VBool true) => true
  | Some w => if truthy w then match v with VStr s => exists_ s | _ => false end else true
  | None => false
  end.
(* 112-130 PackageVariable *)
Definition package_variable (key : string) (aliases : list string) (default : val) : variable :=
  {| v_key := key; v_aliases := aliases; v_default := Some default; v_conv := Some (package_conv default); v_valid := Some package_valid; v_subst := true |}.

(* PathVariable.py 96-142: PathAccept, PathIsDir, PathIsFile, PathExists *)
Inductive check := PathAccept | PathIsDir | PathIsFile | PathExists.
Definition path_valid (c : check) (key : string) (v : val) (e : venv) : bool :=
  match c, v with
  | PathAccept, _ => true
  | PathIsDir, VStr s => isdir s
  | PathIsFile, VStr s => isfile s
  | PathExists, VStr s => exists_ s
  | _, _ => false
  end.
(* 144-165 *)
Definition path_variable (key : string) (aliases : list string) (default : option val) (validator : option check) : variable :=
  {| v_key := key; v_aliases := aliases; v_default := default; v_conv := None; v_valid := Some (path_valid (match validator with None => PathExists | Some c => c end)); v_subst := true |}.
End Checks.
