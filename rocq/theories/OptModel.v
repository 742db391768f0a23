(* Model of command-line options: SCons/Script/SConsOptions.py (SConsValues 71-233, SConsOption 236-290, SConsOptionParser._process_long_opt 347-420, _process_short_opts 422-477,
   reparse_local_options 479-538, add_local_option 540-582), SCons/Script/Main.py (AddOption 527-555, GetOption 557-559, SetOption 561-563, ValidateOptions 590-612, _exec_main 1419-1423,
   _main 1042-1043, 1083-1094, 1174-1177, 1201) and, of the standard library, optparse.py (parse_args, _process_args, take_action, ensure_value).  No proofs.

   Simplified: the type of an option is a function from words to values (failing: the program ends with status 2), values are opaque but for lists and numbers; an option with
   nargs='?' has its const converted already; messages are not modelled. *)
From Coq Require Import Ascii String List Bool Arith.
Import ListNotations. Open Scope list_scope.
From Verif Require Import NameModel.

Notation word := (list ascii).
Notation name := (list ascii).
Inductive val := VNone | VBool (b : bool) | VNum (n : nat) | VStr (w : word) | VList (l : list val).
Inductive arity := NoArg | Maybe (const : val) | Args (more : nat).       (* nargs = more + 1 *)
(* optparse.py take_action and the callbacks of SConsOptions.py *)
Inductive action := AStore | AConst (v : val) | AAppend | AAppendConst (v : val) | ACount
| AExtend                                                    (* 1171-1174 opt_warn *)
| AAlso (d : name)                                           (* 1026-1028 opt_implicit_deps *)
| ANothing                                                   (* 771-772 opt_ignore, 1194 opt_not_yet *)
| AExit.                                                     (* -H, -v *)
Record opt := { o_long : list word; o_short : list ascii; o_dest : name; o_arity : arity; o_act : action; o_conv : word -> option val; o_default : val; o_settable : bool }.

Definition map_ (A : Type) := name -> option A.
Definition put {A} (m : map_ A) (d : name) (v : A) : map_ A := fun e => if str_eqb e d then Some v else m e.
(* 101-103 *)
Record values := { cmd : map_ val; scr : map_ val; defs : map_ val }.
(* 105-123 __getattr__ *)
Definition getattr (vs : values) (d : name) : option val :=
  match cmd vs d with Some v => Some v | None => match scr vs d with Some v => Some v | None => defs vs d end end.
Definition setattr (vs : values) (d : name) (v : val) : values := {| cmd := put (cmd vs) d v; scr := scr vs; defs := defs vs |}.
(* a list that is changed in place, wherever __getattr__ has found it *)
Definition mutate (vs : values) (d : name) (v : val) : values :=
  match cmd vs d with
  | Some _ => setattr vs d v
  | None => match scr vs d with
            | Some _ => {| cmd := cmd vs; scr := put (scr vs) d v; defs := defs vs |}
            | None => {| cmd := cmd vs; scr := scr vs; defs := put (defs vs) d v |}
            end
  end.
(* optparse.py 882-885 ensure_value, with the append or extend that follows *)
Definition ensure_append (vs : values) (d : name) (l : list val) : option values :=
  match getattr vs d with
  | None | Some VNone => Some (setattr vs d (VList l))
  | Some (VList l0) => Some (mutate vs d (VList (l0 ++ l)))
  | Some _ => None
  end.
(* optparse.py take_action: the new values; or the program ends, with this status *)
Definition take_action (o : opt) (v : val) (vs : values) : values + nat :=
  let d := o_dest o in
  match o_act o with
  | AStore => inl (setattr vs d v)
  | AConst c => inl (setattr vs d c)
  | AAppend => match ensure_append vs d [v] with Some vs => inl vs | None => inr 2 end
  | AAppendConst c => match ensure_append vs d [c] with Some vs => inl vs | None => inr 2 end
  | ACount => match getattr vs d with
              | None | Some VNone => inl (setattr vs d (VNum 1))
              | Some (VNum n) => inl (setattr vs d (VNum (S n)))
              | Some _ => inr 2
              end
  | AExtend => match getattr vs d, v with Some (VList l0), VList l => inl (mutate vs d (VList (l0 ++ l))) | _, _ => inr 2 end
  | AAlso d2 => inl (setattr (setattr vs d2 (VBool true)) d (VBool true))
  | ANothing => inl vs
  | AExit => inr 0
  end.
(* 256-261 convert_value *)
Fixpoint conv_all (f : word -> option val) (ws : list word) : option (list val) :=
  match ws with [] => Some [] | w :: r => match f w, conv_all f r with Some v, Some l => Some (v :: l) | _, _ => None end end.
Definition convert (o : opt) (ws : list word) : option val :=
  match ws with [w] => o_conv o w | _ => match conv_all (o_conv o) ws with Some l => Some (VList l) | None => None end end.
(* 263-277 process *)
Definition process_opt (o : opt) (v : option val) (vs : values) : values + nat := match v with Some v => take_action o v vs | None => inr 2 end.

Definition mem (w : word) (l : list word) : bool := existsb (str_eqb w) l.
Definition memc (c : ascii) (l : list ascii) : bool := existsb (Ascii.eqb c) l.
Definition find_long (T : list opt) (n : word) : option opt := find (fun o => mem n (o_long o)) T.
Definition find_short (T : list opt) (c : ascii) : option opt := find (fun o => memc c (o_short o)) T.

(* arg.split("=", 1) *)
Fixpoint split_eq (w : word) : word * option word :=
  match w with [] => ([], None) | c :: r => if Ascii.eqb c "=" then ([], Some r) else let '(n, v) := split_eq r in (c :: n, v) end.
Inductive kind := KStop | KLong (n : word) (v : option word) | KShort (cs : list ascii) | KWord.
(* optparse.py 1407-1434 _process_args: the tests; names of options are kept without the dashes *)
Definition classify (w : word) : kind :=
  match w with
  | a :: r => if Ascii.eqb a "-" then
                match r with
                | [] => KWord
                | b :: r2 => if Ascii.eqb b "-" then match r2 with [] => KStop | _ => let '(n, v) := split_eq r2 in KLong n v end else KShort r
                end
              else KWord
  | [] => KWord
  end.
Definition opt_list (v : option word) : list word := match v with Some w => [w] | None => [] end.

(* what is left: arguments, words not read yet, values; or the status *)
Definition pres := (list word * list word * values + nat)%type.
(* 347-420 _process_long_opt *)
Definition process_long (T : list opt) (keep : bool) (arg n : word) (v : option word) (rargs largs : list word) (vs : values) : pres :=
  match find_long T n with
  | None => if keep then inl (largs ++ [arg], rargs, vs) else inr 2                                   (* 372-384 *)
  | Some o =>
    match o_arity o with
    | NoArg => match v with Some _ => inr 2 | None => match process_opt o (Some VNone) vs with inl vs => inl (largs, rargs, vs) | inr e => inr e end end
    | Maybe c => match process_opt o (match v with Some w => convert o [w] | None => Some c end) vs with inl vs => inl (largs, rargs, vs) | inr e => inr e end       (* 389-394 *)
    | Args k => let av := opt_list v ++ rargs in
                if length av <? S k then inr 2
                else match process_opt o (convert o (firstn (S k) av)) vs with inl vs => inl (largs, skipn (S k) av, vs) | inr e => inr e end
    end
  end.
(* 422-477 _process_short_opts *)
Fixpoint process_short (T : list opt) (keep : bool) (arg : word) (cs : list ascii) (rargs largs : list word) (vs : values) : pres :=
  match cs with
  | [] => inl (largs, rargs, vs)
  | c :: r =>
    match find_short T c with
    | None => if keep then inl (largs ++ [arg], rargs, vs) else inr 2
    | Some o =>
      match o_arity o with
      | NoArg => match process_opt o (Some VNone) vs with inl vs => process_short T keep arg r rargs largs vs | inr e => inr e end
      | Maybe _ => inr 2                                                                              (* 279-283: not with short options *)
      | Args k => let av := match r with [] => rargs | _ => r :: rargs end in
                  if length av <? S k then inr 2
                  else match process_opt o (convert o (firstn (S k) av)) vs with inl vs => inl (largs, skipn (S k) av, vs) | inr e => inr e end
      end
    end
  end.
(* optparse.py 1407-1434 _process_args *)
Fixpoint process_args (fuel : nat) (T : list opt) (keep : bool) (rargs largs : list word) (vs : values) : pres :=
  match fuel with
  | 0 => inr 99
  | S f =>
    match rargs with
    | [] => inl (largs, [], vs)
    | arg :: r =>
      match classify arg with
      | KStop => inl (largs, r, vs)
      | KLong n v => match process_long T keep arg n v r largs vs with inl (l, r, vs) => process_args f T keep r l vs | inr e => inr e end
      | KShort cs => match process_short T keep arg cs r largs vs with inl (l, r, vs) => process_args f T keep r l vs | inr e => inr e end
      | KWord => process_args f T keep r (largs ++ [arg]) vs
      end
    end
  end.
Definition parse_args (T : list opt) (keep : bool) (args : list word) (vs : values) : pres := process_args (S (length args)) T keep args [] vs.

(* 479-533: the arguments to read again, and those to keep as they are *)
Fixpoint to_reparse (T : list opt) (largs : list word) : list word * list word :=
  match largs with
  | [] => ([], [])
  | a :: r =>
    match classify a with
    | KLong n _ => let '(x, y) := to_reparse T r in match find_long T n with Some _ => (a :: x, y) | None => (x, a :: y) end
    | KStop => ([], largs)
    | _ => if str_eqb a (lit "-"%string) then ([], largs) else let '(x, y) := to_reparse T r in (a :: x, y)
    end
  end.
(* the parser between two calls of the scripts *)
Record parser := { table : list opt; settable : list name; vals : values; largs : list word }.
Definition reparse_local_options (p : parser) : parser + nat :=
  let '(rargs, restore) := to_reparse (table p) (largs p) in
  match parse_args (table p) true rargs (vals p) with
  | inl (l, _, vs) => inl {| table := table p; settable := settable p; vals := vs; largs := l ++ restore |}
  | inr e => inr e
  end.
Definition conflict (T : list opt) (o : opt) : bool :=
  existsb (fun n => match find_long T n with Some _ => true | None => false end) (o_long o) || existsb (fun c => match find_short T c with Some _ => true | None => false end) (o_short o).
Inductive res := RVal (v : val) | RDone | RError.            (* RError: an exception, in the script *)
(* 540-582 add_local_option *)
Definition add_option (p : parser) (o : opt) : (parser * res) + nat :=
  if conflict (table p) o || match o_arity o, o_short o with Maybe _, _ :: _ => true | _, _ => false end then inl (p, RError)
  else
    let vs := vals p in
    let p1 := {| table := table p ++ [o]; settable := settable p; vals := {| cmd := cmd vs; scr := scr vs; defs := put (defs vs) (o_dest o) (o_default o) |}; largs := largs p |} in
    match reparse_local_options p1 with
    | inr e => inr e
    | inl p2 => inl (if o_settable o then {| table := table p2; settable := settable p2 ++ [o_dest o]; vals := vals p2; largs := largs p2 |} else p2, RDone)
    end.
(* how SetOption treats a name: its value converted (and stored under another name, or added to a list, or setting another option as well) *)
Inductive setkind := KAs (conv : val -> option val) | KRename (d : name) (conv : val -> option val) | KAccum | KImplies (d : name).
Definition truthy (v : val) : bool := match v with VNone | VBool false | VNum 0 | VStr [] | VList [] => false | _ => true end.
Definition set_scr (vs : values) (d : name) (v : val) : values := {| cmd := cmd vs; scr := put (scr vs) d v; defs := defs vs |}.
Definition set_vals (p : parser) (vs : values) : parser := {| table := table p; settable := settable p; vals := vs; largs := largs p |}.
(* 149-233 set_option; for the kinds of the settable options *)
Definition set_option (kinds : name -> option setkind) (p : parser) (d : name) (v : val) : parser * res :=
  if negb (mem d (settable p)) then (p, RError)
  else match kinds d with
       | None => (set_vals p (set_scr (vals p) d v), RDone)
       | Some (KAs f) => match f v with Some v => (set_vals p (set_scr (vals p) d v), RDone) | None => (p, RError) end
       | Some (KRename d2 f) => match f v with Some v => (set_vals p (set_scr (vals p) d2 v), RDone) | None => (p, RError) end
       | Some KAccum =>
         match (match scr (vals p) d with None => Some [] | Some (VList l) => Some l | Some _ => None end), (match v with VStr _ => Some [v] | VList l => Some l | _ => None end) with
         | Some a, Some b => (set_vals p (set_scr (vals p) d (VList (a ++ b))), RDone)
         | _, _ => (p, RError)
         end
       | Some (KImplies d2) => let vs := if truthy v then set_scr (vals p) d2 (VBool true) else vals p in (set_vals p (set_scr vs d v), RDone)
       end.
Definition get_option (p : parser) (d : name) : res := match getattr (vals p) d with Some v => RVal v | None => RError end.

Inductive op := OAdd (o : opt) | OSet (d : name) (v : val) | OGet (d : name).
Section Run.
Variable B : list opt.                                       (* 736-1270 Parser: the options of SCons *)
Variable defs0 : map_ val.                                   (* get_default_values *)
Variable settable0 : list name.                              (* 127-147 *)
Variable kinds : name -> option setkind.
(* Main.py 1419-1423 *)
Definition start (argv : list word) : (parser * list word) + nat :=
  match parse_args B true argv {| cmd := fun _ => None; scr := fun _ => None; defs := defs0 |} with
  | inl (l, r, vs) => inl ({| table := B; settable := settable0; vals := vs; largs := l |}, r)
  | inr e => inr e
  end.
Definition step (p : parser) (c : op) : (parser * res) + nat :=
  match c with
  | OAdd o => add_option p o
  | OSet d v => inl (set_option kinds p d v)
  | OGet d => inl (p, get_option p d)
  end.
Fixpoint steps (p : parser) (h : list op) : (parser * list res) + nat :=
  match h with
  | [] => inl (p, [])
  | c :: h => match step p c with inr e => inr e | inl (p, r) => match steps p h with inl (p, l) => inl (p, r :: l) | inr e => inr e end end
  end.
(* Main.py 1174-1177 and ValidateOptions 610-612: what is left is read again, nothing may be unknown *)
Definition validate (p : parser) : parser + nat :=
  match parse_args (table p) false (largs p) (vals p) with
  | inl (l, _, vs) => inl {| table := table p; settable := settable p; vals := vs; largs := l |}
  | inr e => inr e
  end.
(* Main.py 1083-1094: the targets and the variables of the command line *)
Definition blank (w : word) : bool := str_eqb w [] || str_eqb w (lit """"""%string) || str_eqb w (lit "''"%string).
Definition is_arg (w : word) : bool := negb (startswith w (lit "-"%string)) && negb (blank w).
Definition has_eq (w : word) : bool := match split_eq w with (_, Some _) => true | _ => false end.
Definition cl_targets (largs rargs : list word) : list word := filter (fun w => is_arg w && negb (has_eq w)) largs ++ rargs.
Definition cl_args (largs : list word) : list word := filter (fun w => is_arg w && has_eq w) largs.
(* Main.py 1042-1043: set before the scripts are read, and not set again after them; 1201: set again *)
Definition engine_deps (before : parser) (d : name) : option val := getattr (vals before) d.
Definition engine_cache (after : parser) (d : name) : option val := getattr (vals after) d.
End Run.
