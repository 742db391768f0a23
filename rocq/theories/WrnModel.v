(* Model of the warning options: SCons/Warnings.py (_enabled, warn, process_warn_strings), SCons/Script/SConsOptions.py (opt_warn 1171-1174, SConsValues.__getattr__ 103-121, set_option 217-222),
   SCons/Script/Main.py 942-953 and 1148.  No proofs.

   Classes are their names.  sub: issubclass; known: a class of that name is in Warnings.py.  Text is ASCII.  Not modelled: warnings as exceptions, what is printed. *)
From Coq Require Import Ascii String List Bool Arith.
From Verif Require Import NameModel.
Import ListNotations.
Open Scope list_scope.

Definition letter_in (a b : nat) (c : ascii) : bool := (a <=? nat_of_ascii c) && (nat_of_ascii c <=? b).
Definition is_upper (c : ascii) : bool := letter_in 65 90 c.
Definition is_lower (c : ascii) : bool := letter_in 97 122 c.
Definition upper1 (c : ascii) : ascii := if is_lower c then ascii_of_nat (nat_of_ascii c - 32) else c.
Definition lower1 (c : ascii) : ascii := if is_upper c then ascii_of_nat (nat_of_ascii c + 32) else c.
(* str.title() *)
Fixpoint title (after : bool) (s : str) : str :=
  match s with
  | [] => []
  | c :: r => if is_upper c || is_lower c then (if after then lower1 c else upper1 c) :: title true r else c :: title false r
  end.
Definition SPACE : ascii := " "%char.
Definition HYPHEN : ascii := "-"%char.
Definition spaces (s : str) : str := map (fun c => if Ascii.eqb c HYPHEN then SPACE else c) s.
Definition no_spaces (s : str) : str := filter (fun c => negb (Ascii.eqb c SPACE)) s.
(* .replace('Scons', 'SCons'): another one cannot begin before this one ends *)
Fixpoint scons (s : str) : str :=
  match s with
  | [] => []
  | c :: r => if startswith s (lit "Scons") then match r with _ :: r' => c :: "C"%char :: scons r' | [] => s end else c :: scons r
  end.
(* Warnings.py 260-267 *)
Definition classmunge (s : str) : str := scons (no_spaces (title false (spaces s))).

Section Warnings.
Context (sub : str -> str -> bool) (known : str -> bool).

Definition enabled := list (str * bool).
(* 268-292: the class and the flag that are inserted, if any *)
Definition class_name (arg : str) : str := if str_eqb arg (lit "all") then lit "SConsWarning" else classmunge arg ++ lit "Warning".
Definition meaning (arg : str) : option (str * bool) :=
  if startswith arg (lit "no-") && negb (str_eqb arg (lit "no-object-count") || str_eqb arg (lit "no-parallel-support")) then
    let k := class_name (skipn 3 arg) in
    if known k then (if sub k (lit "MandatoryDeprecatedWarning") then None else Some (k, false)) else None
  else let k := class_name arg in if known k then Some (k, true) else None.
Definition process_warn_strings (e : enabled) (args : list str) : enabled := fold_left (fun e a => match meaning a with Some d => d :: e | None => e end) args e.
(* 218-236 *)
Fixpoint shown (e : enabled) (c : str) : bool := match e with [] => false | (k, f) :: r => if sub c k then f else shown r c end.

(* the arguments of the --warn options, in order (those of $SCONSFLAGS first); the calls of SetOption('warn', ...) *)
Inductive value := Text (s : str) | Listed (l : list str).
Definition values (v : value) : list str := match v with Text s => [s] | Listed l => l end.
(* opt_warn: the default list itself is extended, not a list of the command line *)
Definition command_line (opts : list str) : list str := flat_map (split_on ","%char) opts.
(* set_option *)
Definition set_option (st : list str * enabled) (v : value) : list str * enabled :=
  let l := fst st ++ values v in (l, process_warn_strings (snd st) l).
(* Main.py 946-953 *)
Definition started (opts : list str) : enabled :=
  process_warn_strings [(lit "DeprecatedWarning", true); (lit "WarningOnByDefault", true)] (command_line opts).
(* while the scripts are read, after these calls *)
Definition reading (opts : list str) (calls : list value) : enabled := snd (fold_left set_option calls ([], started opts)).
(* 1148: options.warn is what SetOption has set, if it was called, else the list with those of the command line *)
Definition building (opts : list str) (calls : list value) : enabled :=
  process_warn_strings (reading opts calls) (match calls with [] => command_line opts | _ => fst (fold_left set_option calls ([], started opts)) end).
End Warnings.

(* the classes of Warnings.py with their base classes *)
Definition bases : list (str * str) := map (fun p => (lit (fst p), lit (snd p)))
  [("WarningOnByDefault", "SConsWarning"); ("LinkWarning", "WarningOnByDefault"); ("CacheVersionWarning", "WarningOnByDefault"); ("CacheWriteErrorWarning", "SConsWarning");
   ("CacheCleanupErrorWarning", "SConsWarning"); ("CorruptSConsignWarning", "WarningOnByDefault"); ("DependencyWarning", "SConsWarning"); ("DevelopmentVersionWarning", "WarningOnByDefault");
   ("DuplicateEnvironmentWarning", "WarningOnByDefault"); ("FortranCxxMixWarning", "LinkWarning"); ("FutureReservedVariableWarning", "WarningOnByDefault");
   ("MisleadingKeywordsWarning", "WarningOnByDefault"); ("MissingSConscriptWarning", "WarningOnByDefault"); ("NoObjectCountWarning", "WarningOnByDefault"); ("NoParallelSupportWarning", "WarningOnByDefault");
   ("ReservedVariableWarning", "WarningOnByDefault"); ("StackSizeWarning", "WarningOnByDefault"); ("TargetNotBuiltWarning", "SConsWarning"); ("VisualCMissingWarning", "WarningOnByDefault");
   ("VisualVersionMismatch", "WarningOnByDefault"); ("VisualStudioMissingWarning", "SConsWarning"); ("FutureDeprecatedWarning", "SConsWarning"); ("DeprecatedWarning", "SConsWarning");
   ("MandatoryDeprecatedWarning", "DeprecatedWarning"); ("PythonVersionWarning", "DeprecatedWarning"); ("DeprecatedOptionsWarning", "MandatoryDeprecatedWarning");
   ("DeprecatedDebugOptionsWarning", "MandatoryDeprecatedWarning")]%string.
Definition base_of (c : str) : option str := match find (fun p => str_eqb (fst p) c) bases with Some (_, b) => Some b | None => None end.
Fixpoint subclass (fuel : nat) (c k : str) : bool :=
  str_eqb c k || match fuel with 0 => false | S fuel => match base_of c with Some b => subclass fuel b k | None => false end end.
Definition sub_py : str -> str -> bool := subclass 9.
Definition known_py (c : str) : bool := str_eqb c (lit "SConsWarning") || match base_of c with Some _ => true | None => false end.
