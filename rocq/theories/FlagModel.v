(* Model of ParseFlags, MergeFlags and the handling of CPPDEFINES: SCons/Environment.py (_add_cppdefines 222-418, ParseFlags 1005-1203, MergeFlags 1205-1283,
   the CPPDEFINES branch of Append/Prepend/AppendUnique/PrependUnique 1612-1615, 1733-1736, 2120-2123, 2230-2233), SCons/Util/__init__.py (Split, CLVar 850-918),
   SCons/Defaults.py (processDefines 553-622) and the part of Python's shlex.split they use (posix mode, no comments).  No proofs.

   A string is a list of characters.  Names of files are not looked up: fs.File(name) is PFile name, and its errors are not modelled.  The command run for an
   argument beginning with ! is a parameter.  Comparison of values is structural (Python also has 1 == True, dictionaries equal up to order, CLVar equal to list). *)
From Coq Require Import Ascii String List Bool Arith ZArith.
From Coq Require DecimalString.
Import ListNotations.
From Verif Require Import NameModel.
Open Scope list_scope.

(* the Python values met here *)
Inductive pv :=
| PNone | PStr (s : str) | PInt (z : Z) | PFile (s : str)                           (* scalars; PFile: a File node *)
| PTuple (l : list pv) | PList (l : list pv) | PCL (l : list pv) | PDeque (l : list pv)     (* PCL: a CLVar *)
| PDict (d : list (str * pv)).

Definition str_eq_dec : forall a b : str, {a = b} + {a <> b} := list_eq_dec ascii_dec.
Definition pv_eq_dec : forall a b : pv, {a = b} + {a <> b}.
Proof.
  fix IH 1. intros a b. decide equality; try apply str_eq_dec; try apply Z.eq_dec; try apply (list_eq_dec IH).
  apply list_eq_dec. intros [k x] [k2 y]. destruct (str_eq_dec k k2) as [-> | H]; [|right; congruence].
  destruct (IH x y) as [-> | H]; [left; reflexivity | right; congruence].
Defined.
Definition pv_eqb (a b : pv) : bool := if pv_eq_dec a b then true else false.
Definition pv_in (x : pv) (l : list pv) : bool := existsb (fun y => pv_eqb x y) l.

(* bool(x) *)
Definition truthy (v : pv) : bool :=
  match v with
  | PNone => false | PInt z => negb (Z.eqb z 0) | PFile _ => true
  | PStr [] | PTuple [] | PList [] | PCL [] | PDeque [] | PDict [] => false
  | _ => true
  end.

Inductive exn := UserError | IndexError | TypeError | AttributeError | ValueError | OSError | NotModelled.
Inductive res (A : Type) := Ok (a : A) | Err (e : exn).
Arguments Ok {A} _. Arguments Err {A} _.
Definition bind {A B} (x : res A) (f : A -> res B) : res B := match x with Ok a => f a | Err e => Err e end.

(* str.split() with no argument, on ASCII: \t \n \v \f \r, \x1c to \x1f and space separate words *)
Definition is_space (c : ascii) : bool := let n := nat_of_ascii c in ((9 <=? n) && (n <=? 13)) || ((28 <=? n) && (n <=? 32)).
Fixpoint words_acc (cur : str) (s : str) : list str :=      (* cur: the word being read, in order *)
  match s with
  | [] => match cur with [] => [] | _ => [cur] end
  | c :: r => if is_space c then match cur with [] => words_acc [] r | _ => cur :: words_acc [] r end else words_acc (cur ++ [c]) r
  end.
Definition py_split (s : str) : list str := words_acc [] s.

(* shlex.shlex.read_token with posix=True, whitespace_split=True, commenters='': the tokens of the whole string *)
Definition SQ : ascii := "'"%char.
Definition DQ : ascii := ascii_of_nat 34.
Definition BSL : ascii := "\"%char.
Definition shlex_space (c : ascii) : bool := existsb (Ascii.eqb c) [" "%char; ascii_of_nat 9; ascii_of_nat 13; ascii_of_nat 10].
Inductive lstate := LSpace | LWord | LSingle | LDouble | LEscWord | LEscDouble.
Fixpoint shlex_lex (st : lstate) (tok : str) (quoted : bool) (s : str) : res (list str) :=
  match s with
  | [] =>
    match st with
    | LSpace => Ok []
    | LWord => Ok (match tok, quoted with [], false => [] | _, _ => [tok] end)
    | LSingle | LDouble | LEscWord | LEscDouble => Err ValueError       (* No closing quotation, No escaped character *)
    end
  | c :: r =>
    match st with
    | LSpace =>
      if shlex_space c then shlex_lex LSpace [] false r
      else if Ascii.eqb c BSL then shlex_lex LEscWord [] false r
      else if Ascii.eqb c SQ then shlex_lex LSingle [] false r
      else if Ascii.eqb c DQ then shlex_lex LDouble [] false r
      else shlex_lex LWord [c] false r
    | LSingle => if Ascii.eqb c SQ then shlex_lex LWord tok true r else shlex_lex LSingle (tok ++ [c]) true r
    | LDouble => if Ascii.eqb c DQ then shlex_lex LWord tok true r
                 else if Ascii.eqb c BSL then shlex_lex LEscDouble tok true r else shlex_lex LDouble (tok ++ [c]) true r
    | LEscWord => shlex_lex LWord (tok ++ [c]) quoted r
    | LEscDouble => shlex_lex LDouble (if negb (Ascii.eqb c BSL) && negb (Ascii.eqb c DQ) then tok ++ [BSL; c] else tok ++ [c]) quoted r
    | LWord =>
      if shlex_space c then match tok, quoted with [], false => shlex_lex LSpace [] false r | _, _ => bind (shlex_lex LSpace [] false r) (fun l => Ok (tok :: l)) end
      else if Ascii.eqb c SQ then shlex_lex LSingle tok quoted r
      else if Ascii.eqb c DQ then shlex_lex LDouble tok quoted r
      else if Ascii.eqb c BSL then shlex_lex LEscWord tok quoted r
      else shlex_lex LWord (tok ++ [c]) quoted r
    end
  end.
Definition shlex_split (s : str) : res (list str) := shlex_lex LSpace [] false s.

(* Environment.py 1022-1036: the variables of the result of ParseFlags, all empty at first *)
Inductive var := ASFLAGS | CFLAGS | CCFLAGS | CXXFLAGS | CPPDEFINES | CPPFLAGS | CPPPATH | FRAMEWORKPATH | FRAMEWORKS | LIBPATH | LIBS | LINKFLAGS | RPATH.
Definition var_eq_dec : forall a b : var, {a = b} + {a <> b}. Proof. decide equality. Defined.
Definition mapping := var -> list pv.
Definition empty_mapping : mapping := fun _ => [].
Definition madd (v : var) (x : pv) (m : mapping) : mapping := fun w => if var_eq_dec w v then m w ++ [x] else m w.

(* str.split('=') ; '='.join *)
Definition EQC : ascii := "="%char.
(* Environment.py 1055-1061 append_define *)
Definition define_entry (name : str) : pv :=
  match split_on EQC name with
  | d0 :: ((_ :: _) as rest) => PList [PStr d0; PStr (join_with EQC rest)]
  | _ => PStr name
  end.
Definition append_define (name : str) (m : mapping) : mapping := madd CPPDEFINES (define_entry name) m.

(* append_next_arg_to, 1081-1117: the name of a variable, or of an option *)
Inductive next := NVar (v : var) | NOpt (o : str).
Definition is_opt (o : str) (s : string) : bool := str_eqb o (lit s).
(* 1083-1117 *)
Definition second_word (nx : next) (arg : str) (m : mapping) : mapping :=
  match nx with
  | NVar CPPDEFINES => append_define arg m
  | NVar v => madd v (PStr arg) m
  | NOpt o =>
    if is_opt o "-include" || is_opt o "-imacros" then madd CCFLAGS (PTuple [PStr o; PFile arg]) m
    else if is_opt o "-isysroot" || is_opt o "-arch" then madd LINKFLAGS (PTuple [PStr o; PStr arg]) (madd CCFLAGS (PTuple [PStr o; PStr arg]) m)
    else madd CCFLAGS (PTuple [PStr o; PStr arg]) m          (* -isystem -iquote -idirafter --param *)
  end.
(* '++' in s *)
Fixpoint has_plusplus (s : str) : bool :=
  match s with c :: r => (match r with d :: _ => Ascii.eqb c "+"%char && Ascii.eqb d "+"%char | [] => false end) || has_plusplus r | [] => false end.
Definition attached (n : nat) (v : var) (arg : str) (m : mapping) : mapping * option next :=
  match skipn n arg with [] => (m, Some (NVar v)) | rest => (madd v (PStr rest) m, None) end.
Definition both (v w : var) (arg : str) (m : mapping) : mapping := madd w (PStr arg) (madd v (PStr arg) m).
(* 1118-1199; arg[:n] == p is startswith arg p *)
Definition first_word (arg : str) (m : mapping) : res (mapping * option next) :=
  match arg with
  | [] => Err IndexError                                                            (* arg[0] *)
  | c :: _ =>
    if negb (Ascii.eqb c "-"%char || Ascii.eqb c "+"%char) then Ok (madd LIBS (PFile arg) m, None)
    else if is_opt arg "-dylib_file" then Ok (madd LINKFLAGS (PStr arg) m, Some (NVar LINKFLAGS))
    else if startswith arg (lit "-L") then Ok (attached 2 LIBPATH arg m)
    else if startswith arg (lit "-l") then Ok (attached 2 LIBS arg m)
    else if startswith arg (lit "-I") then Ok (attached 2 CPPPATH arg m)
    else if startswith arg (lit "-Wa,") then Ok (madd CCFLAGS (PStr arg) (madd ASFLAGS (PStr (skipn 4 arg)) m), None)
    else if startswith arg (lit "-Wl,") then
      if startswith arg (lit "-Wl,-rpath=") then Ok (madd RPATH (PStr (skipn 11 arg)) m, None)
      else if startswith arg (lit "-Wl,-R,") then Ok (madd RPATH (PStr (skipn 7 arg)) m, None)
      else if startswith arg (lit "-Wl,-R") then Ok (madd RPATH (PStr (skipn 6 arg)) m, None)
      else Ok (madd LINKFLAGS (PStr arg) m, None)
    else if startswith arg (lit "-Wp,") then Ok (madd CPPFLAGS (PStr arg) m, None)
    else if startswith arg (lit "-D") then
      match skipn 2 arg with [] => Ok (m, Some (NVar CPPDEFINES)) | rest => Ok (append_define rest m, None) end
    else if is_opt arg "-framework" then Ok (m, Some (NVar FRAMEWORKS))
    else if startswith arg (lit "-frameworkdir=") then Ok (madd FRAMEWORKPATH (PStr (skipn 14 arg)) m, None)
    else if startswith arg (lit "-F") then Ok (attached 2 FRAMEWORKPATH arg m)
    else if is_opt arg "-mno-cygwin" || is_opt arg "-pthread" || is_opt arg "-openmp" || is_opt arg "-fmerge-all-constants" || is_opt arg "-fopenmp"
            || startswith arg (lit "-fsanitize") then Ok (both CCFLAGS LINKFLAGS arg m, None)
    else if is_opt arg "-mwindows" then Ok (madd LINKFLAGS (PStr arg) m, None)
    else if startswith arg (lit "-std=") then Ok (madd (if has_plusplus (skipn 5 arg) then CXXFLAGS else CFLAGS) (PStr arg) m, None)
    else if startswith arg (lit "-stdlib=") then Ok (madd CXXFLAGS (PStr arg) m, None)
    else if Ascii.eqb c "+"%char then Ok (both CCFLAGS LINKFLAGS arg m, None)
    else if is_opt arg "-include" || is_opt arg "-imacros" || is_opt arg "-isysroot" || is_opt arg "-isystem" || is_opt arg "-iquote"
            || is_opt arg "-idirafter" || is_opt arg "-arch" || is_opt arg "--param" then Ok (m, Some (NOpt arg))
    else Ok (madd CCFLAGS (PStr arg) m, None)
  end.
(* 1080-1199: the loop over the words of one string; a pending option at the end is forgotten *)
Fixpoint parse_words (m : mapping) (nx : option next) (params : list str) : res mapping :=
  match params with
  | [] => Ok m
  | arg :: r =>
    match nx with
    | Some n => parse_words (second_word n arg m) None r
    | None => bind (first_word arg m) (fun p => parse_words (fst p) (snd p) r)
    end
  end.
(* the arguments of ParseFlags: strings, and sequences of arguments *)
Inductive farg := FStr (s : str) | FSeq (l : list farg).
Section Parse.
Variable backtick : str -> res str.       (* the output of a command *)
(* 1038-1079 do_parse *)
Definition parse_string (m : mapping) (s : str) : res mapping :=
  match s with
  | [] => Ok m
  | c :: cmd =>
    bind (if Ascii.eqb c "!"%char then backtick cmd else Ok s) (fun s => bind (shlex_split s) (parse_words m None))
  end.
Fixpoint do_parse (m : mapping) (a : farg) {struct a} : res mapping :=
  match a with
  | FStr s => parse_string m s
  | FSeq l => (fix each (m : mapping) (l : list farg) : res mapping := match l with [] => Ok m | x :: r => bind (do_parse m x) (fun m => each m r) end) m l
  end.
(* 1201-1203 *)
Definition ParseFlags (flags : list farg) : res mapping := do_parse empty_mapping (FSeq flags).
End Parse.

(* Util/__init__.py 850-868 Split *)
Definition Split (v : pv) : pv := match v with PList _ | PCL _ | PDeque _ | PTuple _ => v | PStr s => PList (map PStr (py_split s)) | _ => PList [v] end.
Definition elems (v : pv) : list pv := match v with PList l | PCL l | PDeque l | PTuple l => l | _ => [] end.
(* orig + value, value a list, tuple, deque or CLVar; None for TypeError.  CLVar.__add__ and __radd__ (902-906) pass the other operand through CLVar(), i.e. Split *)
Definition py_add (orig value : pv) : option pv :=
  match orig, value with
  | PCL a, _ => Some (PCL (a ++ elems (Split value)))
  | _, PCL b => Some (PCL (elems (Split orig) ++ b))
  | PList a, PList b => Some (PList (a ++ b))
  | PTuple a, PTuple b => Some (PTuple (a ++ b))
  | PDeque a, PDeque b => Some (PDeque (a ++ b))
  | _, _ => None
  end.

(* Environment.py 278-297 _is_in and _macro_conv; the result is used as a truth value and as the argument of deque.remove *)
Definition macro_conv (v : pv) : pv :=
  match v with
  | PTuple l => PList l
  | PStr s => match split_on EQC s with [_] => PList [PStr s; PNone] | parts => PList (map PStr parts) end
  | _ => v
  end.
Definition is_in (item : pv) (defines : list pv) : option pv :=
  if pv_in item defines then Some item else find (fun d => pv_eqb (macro_conv item) (macro_conv d)) defines.
Fixpoint remove_first (x : pv) (l : list pv) : list pv := match l with [] => [] | y :: r => if pv_eqb y x then r else y :: remove_first x r end.
Definition dict_items (d : list (str * pv)) : list pv := map (fun kv => PTuple [PStr (fst kv); snd kv]) d.
(* 255-263, 350-360: one item is added to the deque *)
Definition add_define (prepend : bool) (item : pv) (defines : list pv) : list pv := if prepend then item :: defines else defines ++ [item].
Definition add_item (prepend unique delete_existing : bool) (defines : list pv) (item : pv) : list pv :=
  if unique then
    match is_in item defines with
    | Some m => if truthy m then if delete_existing then add_define prepend item (remove_first m defines) else defines
                else add_define prepend item defines
    | None => add_define prepend item defines
    end
  else add_define prepend item defines.
(* 401-418: for a list the matches are removed first, one after the other, and the items kept are added at the end *)
Fixpoint add_list (unique delete_existing : bool) (defines tmp : list pv) (val : list pv) : list pv * list pv :=
  match val with
  | [] => (defines, tmp)
  | item :: r =>
    if unique then
      match is_in item defines with
      | Some m => if truthy m then if delete_existing then add_list unique delete_existing (remove_first m defines) (tmp ++ [item]) r
                                   else add_list unique delete_existing defines tmp r
                  else add_list unique delete_existing defines (tmp ++ [item]) r
      | None => add_list unique delete_existing defines (tmp ++ [item]) r
      end
    else add_list unique delete_existing defines (tmp ++ [item]) r
  end.
(* 315-347: the existing value as a deque *)
Definition to_deque (defines : pv) : res (list pv) :=
  match defines with
  | PDeque l => Ok l
  | PStr s => Ok (map PStr (py_split s))
  | PTuple l => if 2 <? length l then Err UserError else Ok [PTuple l]
  | PList l | PCL l => Ok (flat_map (fun x => match x with PDict d => dict_items d | _ => [x] end) l)
  | PDict d => Ok (dict_items d)
  | PNone | PInt _ | PFile _ => Err TypeError
  end.
Definition is_scalar (v : pv) : bool := match v with PNone | PStr _ | PInt _ | PFile _ => true | _ => false end.
(* 222-418 _add_cppdefines: cur is the value of CPPDEFINES before, None when there is none; the result is the value after *)
Definition add_cppdefines (cur : option pv) (val : pv) (prepend unique delete_existing : bool) : res pv :=
  match cur with
  | None => Ok (match val with PStr s => PList (map PStr (py_split s)) | _ => val end)
  | Some defines =>
    bind (to_deque defines) (fun q =>
      match val with
      | PDict d => Ok (PDeque (fold_left (add_item prepend unique delete_existing) (dict_items d) q))
      | PStr s => Ok (PDeque (fold_left (add_item prepend unique delete_existing) (map PStr (py_split s)) q))
      | PTuple l =>
        match (match l with [x] => [x; PNone] | _ => l end) with
        | [a; b] => if is_scalar a && is_scalar b then Ok (PDeque (add_item prepend unique delete_existing q (PTuple [a; b]))) else Err UserError
        | _ => Err UserError
        end
      | PList l | PCL l | PDeque l =>
        let '(q, tmp) := add_list unique delete_existing q [] l in
        Ok (PDeque (if prepend then rev tmp ++ q else q ++ tmp))
      | PNone | PInt _ | PFile _ => Ok (PDeque q)
      end)
  end.

(* str(x), of scalars *)
Definition py_str (v : pv) : res str :=
  match v with
  | PStr s | PFile s => Ok s
  | PInt z => Ok (lit (DecimalString.NilZero.string_of_int (Z.to_int z)))
  | PNone => Ok (lit "None")
  | _ => Err NotModelled
  end.
(* Defaults.py 571-583, 598-606: one macro from a sequence of one or two elements *)
Definition macro_of_seq (l : list pv) : res str :=
  match l with
  | [] => Err ValueError
  | [a] | [a; PNone] => py_str a
  | [a; b] => bind (py_str a) (fun a => bind (py_str b) (fun b => Ok (a ++ EQC :: b)))
  | _ => Err UserError
  end.
Definition macro_of_item (kv : str * pv) : res str := match snd kv with PNone => Ok (fst kv) | v => bind (py_str v) (fun b => Ok (fst kv ++ EQC :: b)) end.
Fixpoint mapM {A B} (f : A -> res B) (l : list A) : res (list B) := match l with [] => Ok [] | x :: r => bind (f x) (fun y => bind (mapM f r) (fun ys => Ok (y :: ys))) end.
(* 569-596 *)
Definition macros_of_entry (e : pv) : res (list str) :=
  match e with
  | PNone => Ok []
  | PTuple l | PList l | PCL l | PDeque l => bind (macro_of_seq l) (fun s => Ok [s])
  | PDict d => mapM macro_of_item d
  | PStr s => Ok [s]
  | PInt _ | PFile _ => Err UserError
  end.
(* 553-622 *)
Definition processDefines (defs : pv) : res (list str) :=
  match defs with
  | PList l | PCL l | PDeque l => bind (mapM macros_of_entry l) (fun ll => Ok (concat ll))
  | PTuple l => bind (macro_of_seq l) (fun s => Ok [s])
  | PDict d => mapM macro_of_item d
  | PStr s => Ok (py_split s)
  | PNone | PInt _ | PFile _ => bind (py_str defs) (fun s => Ok [s])
  end.

(* a construction environment: only its variables *)
Definition env := str -> option pv.
Definition upd (e : env) (k : str) (v : pv) : env := fun k' => if str_eqb k' k then Some v else e k'.
Definition CPPDEFINES_key : str := lit "CPPDEFINES".
(* 1271-1281: the loops that keep the left-most or the right-most of equal elements *)
Definition keep_left (l : list pv) : list pv := fold_left (fun t v => if pv_in v t then t else t ++ [v]) l [].
Definition keep_right (l : list pv) : list pv := fold_left (fun t v => if pv_in v t then t else v :: t) (rev l) [].
Definition dedup (key : str) (orig : pv) : res pv :=
  if str_eqb (last_n key 4) (lit "PATH") then Ok (PList (keep_left (elems orig)))
  else match orig with PDeque _ => Err TypeError | _ => Ok (PList (keep_right (elems orig))) end.    (* a deque has no slices *)
(* 1233-1283: one variable.  The second result is what has become of the value given: value.insert() changes a list of the caller *)
Definition merge_one (e : env) (key : str) (value0 : pv) : res (env * pv) :=
  if negb (truthy value0) then Ok (e, value0)
  else
    let value := Split value0 in
    let finish orig after := bind (dedup key orig) (fun t => Ok (upd e key t, after)) in
    match e key with
    | None => finish value value0
    | Some orig =>
      if negb (truthy orig) then finish value value0
      else if negb (truthy value) then finish orig value0
      else
        match py_add orig value with
        | Some s => finish s value0
        | None =>
          match orig with
          | PDeque q =>
            let e1 := upd e key (PDeque q) in
            bind (add_cppdefines (e1 CPPDEFINES_key) value false true true) (fun d => Ok (upd e1 CPPDEFINES_key d, value0))
          | PList l => finish (PList (l ++ [value])) value0                                (* orig.append(value) *)
          | _ =>
            match value with                                                               (* value.insert(0, orig) *)
            | PList l => finish (PList (orig :: l)) (match value0 with PList _ => PList (orig :: l) | _ => value0 end)
            | PDeque l => finish (PDeque (orig :: l)) (PDeque (orig :: l))
            | _ => Err AttributeError
            end
          end
        end
    end.
(* 1233 the loop over args.items() *)
Fixpoint merge_items (e : env) (args : list (str * pv)) : res (env * list (str * pv)) :=
  match args with
  | [] => Ok (e, [])
  | (k, v) :: r => bind (merge_one e k v) (fun p => bind (merge_items (fst p) r) (fun q => Ok (fst q, (k, snd p) :: snd q)))
  end.
(* the dictionary ParseFlags returns, 1022-1036 *)
Definition var_name (v : var) : str :=
  lit match v with ASFLAGS => "ASFLAGS" | CFLAGS => "CFLAGS" | CCFLAGS => "CCFLAGS" | CXXFLAGS => "CXXFLAGS" | CPPDEFINES => "CPPDEFINES" | CPPFLAGS => "CPPFLAGS"
    | CPPPATH => "CPPPATH" | FRAMEWORKPATH => "FRAMEWORKPATH" | FRAMEWORKS => "FRAMEWORKS" | LIBPATH => "LIBPATH" | LIBS => "LIBS" | LINKFLAGS => "LINKFLAGS" | RPATH => "RPATH" end.
Definition all_vars : list var := [ASFLAGS; CFLAGS; CCFLAGS; CXXFLAGS; CPPDEFINES; CPPFLAGS; CPPPATH; FRAMEWORKPATH; FRAMEWORKS; LIBPATH; LIBS; LINKFLAGS; RPATH].
Definition var_value (m : mapping) (v : var) : pv :=
  match v with CPPDEFINES | CPPPATH | LIBPATH | LIBS | RPATH => PList (m v) | _ => PCL (m v) end.
Definition dict_of (m : mapping) : list (str * pv) := map (fun v => (var_name v, var_value m v)) all_vars.
(* 1205-1283 with unique true *)
Definition MergeFlags_dict (e : env) (args : list (str * pv)) : res (env * list (str * pv)) := merge_items e args.
Definition MergeFlags (backtick : str -> res str) (e : env) (args : farg) : res env :=
  bind (ParseFlags backtick [args]) (fun m => bind (merge_items e (dict_of m)) (fun p => Ok (fst p))).
