(* Model of build variables: SCons/Variables/__init__.py (class Variables: Add, Update, Save), BoolVariable.py, EnumVariable.py, ListVariable.py.  No proofs.

   A value is a string, a boolean or a _ListVariable.  A construction environment is a partial map from names to values (reserved names and the special
   treatment of BUILDERS and SCANNERS in Environment.__setitem__ are not modelled).  env.subst() is the parameter [expand]: what it makes of a string in an
   environment; the properties quantify over it and assume only what they say they assume.
   Not modelled: a converter with a second parameter env; converters that raise TypeError; validators that change the environment; objects whose repr cannot
   be evaluated; the saved-variables file is taken to be the list of assignments it makes (exec), and repr() of a string or boolean evaluates to that value. *)
From Coq Require Import List Ascii String Bool.
Import ListNotations.
Open Scope string_scope.

(* _ListVariable (ListVariable.py 66-121) holds the values given and the allowed ones *)
Inductive val := VStr (s : string) | VBool (b : bool) | VList (data allowed : list string).
Definition venv := string -> option val.
Definition vset (e : venv) (k : string) (v : val) : venv := fun x => if String.eqb x k then Some v else e x.

(* Variables/__init__.py 62-93: class Variable.  v_conv returns None if the converter raises ValueError; v_valid is false if the validator raises. *)
Record variable := {
  v_key : string; v_aliases : list string; v_default : option val;
  v_conv : option (val -> option val); v_valid : option (string -> val -> venv -> bool); v_subst : bool }.
Definition dict := list (string * val).        (* a dictionary, in order of insertion *)
(* 129-146: the state of a Variables object.  The files are given by what they assign. *)
Record variables := { vs_options : list variable; vs_files : list dict; vs_args : dict; vs_unknown : venv; vs_defaulted : list string }.

Definition mem (a : string) (l : list string) : bool := existsb (String.eqb a) l.
Definition matches (a : string) (o : variable) : bool := mem a (v_aliases o ++ [v_key o]).
Fixpoint remove_first (a : string) (l : list string) : list string :=
  match l with [] => [] | x :: r => if String.eqb a x then r else x :: remove_first a r end.

(* 159-194 _do_add (None: the name is not an identifier; the test isidentifier() is a parameter) *)
Definition add (isident : string -> bool) (o : variable) (vs : variables) : option variables :=
  if isident (v_key o) then
    Some {| vs_options := vs_options vs ++ [o]; vs_files := vs_files vs; vs_args := vs_args vs;
            vs_unknown := fun x => if matches x o then None else vs_unknown vs x; vs_defaulted := vs_defaulted vs |}
  else None.

(* the local state of Update: values, self.defaulted, self.unknown *)
Record ust := { u_values : venv; u_defaulted : list string; u_unknown : venv }.
(* 272-273 *)
Fixpoint defaults (os : list variable) (u : ust) : ust :=
  match os with
  | [] => u
  | o :: r =>
    defaults r (match v_default o with
                | None => u
                | Some d => {| u_values := vset (u_values u) (v_key o) d;
                               u_defaulted := if mem (v_key o) (u_defaulted u) then u_defaulted u else u_defaulted u ++ [v_key o];
                               u_unknown := u_unknown u |}
                end)
  end.
(* 299-307 and 313-322: one name and value from a file or the command line *)
Definition assign1 (os : list variable) (u : ust) (kv : string * val) : ust :=
  let hits := filter (matches (fst kv)) os in
  let u1 := fold_left (fun u o => {| u_values := vset (u_values u) (v_key o) (snd kv); u_defaulted := remove_first (v_key o) (u_defaulted u); u_unknown := u_unknown u |}) hits u in
  match hits with
  | [] => {| u_values := u_values u1; u_defaulted := u_defaulted u1; u_unknown := vset (u_unknown u1) (fst kv) (snd kv) |}
  | _ => u1
  end.

(* ' '.join, ','.join *)
Fixpoint join (sep : string) (l : list string) : string :=
  match l with [] => "" | [x] => x | x :: r => x ++ sep ++ join sep r end.
(* list.sort() *)
Fixpoint insert (x : string) (l : list string) : list string :=
  match l with [] => [x] | y :: r => match String.compare x y with Gt => y :: insert x r | _ => x :: l end end.
Definition sort (l : list string) : list string := fold_right insert [] l.
Fixpoint list_eqb (a b : list string) : bool :=
  match a, b with [], [] => true | x :: a, y :: b => String.eqb x y && list_eqb a b | _, _ => false end.
(* ListVariable.py 108-114 _ListVariable.__str__ *)
Definition list_str (data allowed : list string) : string :=
  match data with
  | [] => "none"
  | _ => if list_eqb (sort data) (sort allowed) then "all" else join "," (sort data)
  end.
Definition bool_str (b : bool) : string := if b then "True" else "False".
(* str(v) *)
Definition str (v : val) : string := match v with VStr s => s | VBool b => bool_str b | VList d a => list_str d a end.

Section Subst.
Context (expand : venv -> string -> string).
(* env.subst('${KEY}') where v is the value of KEY: booleans become their name, list elements are joined by blanks (Subst.py to_String_for_subst) *)
Definition subst_val (e : venv) (v : val) : string :=
  match v with VStr s => expand e s | VBool b => bool_str b | VList d _ => expand e (join " " d) end.

(* 338-342 *)
Definition put_values (os : list variable) (vals e : venv) : venv :=
  fold_left (fun e o => match vals (v_key o) with Some v => vset e (v_key o) v | None => e end) os e.
(* 345-362; None: UserError *)
Fixpoint convert (os : list variable) (vals e : venv) : option venv :=
  match os with
  | [] => Some e
  | o :: r =>
    match v_conv o, vals (v_key o), e (v_key o) with
    | Some f, Some _, Some v =>
        match f (if v_subst o then VStr (subst_val e v) else v) with
        | Some w => convert r vals (vset e (v_key o) w)
        | None => None
        end
    | _, _, _ => convert r vals e
    end
  end.
(* 365-378; false: a validator raised an exception *)
Definition validate (os : list variable) (vals e : venv) : bool :=
  forallb (fun o =>
    match v_valid o, vals (v_key o), e (v_key o) with
    | Some f, Some _, Some v => f (v_key o) (if v_subst o then match v with VStr _ => VStr (subst_val e v) | _ => v end else v) e
    | _, _, _ => true
    end) os.

(* 249-378 Update; args = None: self.args.  None: an exception *)
Definition update (vs : variables) (e : venv) (args : option dict) : option (venv * variables) :=
  let os := vs_options vs in
  let u0 := defaults os {| u_values := fun _ => None; u_defaulted := []; u_unknown := vs_unknown vs |} in
  let u1 := fold_left (fun u f => fold_left (assign1 os) f u) (vs_files vs) u0 in
  let u2 := fold_left (assign1 os) (match args with None => vs_args vs | Some a => a end) u1 in
  match convert os (u_values u2) (put_values os (u_values u2) e) with
  | None => None
  | Some e' =>
    if validate os (u_values u2) e' then
      Some (e', {| vs_options := os; vs_files := vs_files vs; vs_args := vs_args vs; vs_unknown := u_unknown u2; vs_defaulted := u_defaulted u2 |})
    else None
  end.

(* 400-425: the value written for a variable *)
Definition stored (v : val) : val := match v with VList d a => VStr (list_str d a) | _ => v end.
(* 387-428 Save: the assignments written; None: the converter raised ValueError.  str(None) is "None". *)
Fixpoint save (os : list variable) (e : venv) : option dict :=
  match os with
  | [] => Some []
  | o :: r =>
    match e (v_key o) with
    | None => save r e
    | Some v =>
      let d := VStr (expand e (match v_default o with None => "None" | Some d => str d end)) in
      match (match v_conv o with None => Some d | Some f => f d end) with
      | None => None
      | Some d' =>
        match save r e with
        | None => None
        | Some l => Some (if String.eqb (subst_val e v) (str d') then l else (v_key o, stored v) :: l)
        end
      end
    end
  end.
End Subst.

(* str.lower() for ASCII letters *)
Definition lower1 (c : ascii) : ascii := let n := nat_of_ascii c in if (Nat.leb 65 n && Nat.leb n 90)%bool then ascii_of_nat (n + 32) else c.
Fixpoint lower (s : string) : string := match s with EmptyString => EmptyString | String c r => String (lower1 c) (lower r) end.
(* BoolVariable.py 43-44 *)
Definition TRUE_STRINGS := ["y"; "yes"; "true"; "t"; "1"; "on"; "all"].
Definition FALSE_STRINGS := ["n"; "no"; "false"; "f"; "0"; "off"; "none"].
(* 47-66 _text2bool *)
Definition text2bool (v : val) : option val :=
  match v with
  | VBool b => Some (VBool b)
  | VStr s => if mem (lower s) TRUE_STRINGS then Some (VBool true) else if mem (lower s) FALSE_STRINGS then Some (VBool false) else None
  | VList _ _ => None
  end.
(* 69-83 _validator *)
Definition bool_valid (key : string) (v : val) (e : venv) : bool := match e key with Some (VBool _) => true | _ => false end.
(* 86-99 BoolVariable *)
Definition bool_variable (key : string) (aliases : list string) (default : option val) : variable :=
  {| v_key := key; v_aliases := aliases; v_default := default; v_conv := Some text2bool; v_valid := Some bool_valid; v_subst := true |}.

(* EnumVariable.py 54-142; ic = ignorecase *)
Definition mget (m : list (string * string)) (k d : string) : string :=
  match find (fun kv => String.eqb (fst kv) k) m with Some kv => snd kv | None => d end.
Definition enum_conv (m : list (string * string)) (ic : nat) (v : val) : option val :=
  match v with
  | VStr s => Some (VStr (match ic with 0 => mget m s s | 2 => lower (mget m (lower s) s) | 1 => mget m (lower s) s | _ => mget m s s end))
  | _ => None
  end.
Definition enum_valid (allowed : list string) (ic : nat) (key : string) (v : val) (e : venv) : bool :=
  match v with VStr s => mem (match ic with 0 => s | _ => lower s end) allowed | _ => false end.
Definition enum_variable key aliases default allowed m ic : variable :=
  {| v_key := key; v_aliases := aliases; v_default := default; v_conv := Some (enum_conv m ic); v_valid := Some (enum_valid allowed ic); v_subst := true |}.

(* str.split(sep) for one character *)
Fixpoint split_on (c : ascii) (s : string) : list string :=
  match s with
  | EmptyString => [""]
  | String a r => if Ascii.eqb a c then "" :: split_on c r
                  else match split_on c r with [] => [String a ""] | x :: l => String a x :: l end
  end.
Definition comma : ascii := ","%char.
Definition nonempty (s : string) : bool := negb (String.eqb s "").
(* ListVariable.py 80-89: None and empty strings are dropped *)
Definition mk_list (data allowed : list string) : val := VList (filter nonempty data) (sort allowed).
(* 123-140 _converter *)
Definition list_conv (names : list string) (m : list (string * string)) (v : val) : option val :=
  match v with
  | VStr s =>
    Some (mk_list (if String.eqb s "none" then [] else if String.eqb s "all" then names
                   else map (fun x => mget m x x) (filter nonempty (split_on comma s))) names)
  | _ => None
  end.
(* 143-179 _validator: env[key] is a _ListVariable, which is what is passed (Update 368-373) *)
Definition list_valid (key : string) (v : val) (e : venv) : bool :=
  match v with VList d a => forallb (fun x => mem x a) d | _ => false end.
(* 184-231; the default, if a list, is joined with commas *)
Definition list_variable key aliases default names m : variable :=
  {| v_key := key; v_aliases := aliases; v_default := default; v_conv := Some (list_conv names m); v_valid := Some list_valid; v_subst := true |}.
