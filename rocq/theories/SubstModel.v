(* Model of SCons/Subst.py: scons_subst with StringSubber, scons_subst_list with ListSubber.  No proofs.

   Strings are lists of ASCII characters (characters >= 128 are neither word characters nor white space here).
   Construction variable values are strings, None, sequences, callables and other objects (Nodes, Literals: what is
   observable of them is str() and for_signature()).  eval() of a ${...} expression that is not a variable name, and the
   user's callables, are parameters of the environment.  Python's recursion is modelled with fuel: running out of fuel is [Timeout]
   (in Python a RecursionError).  Not modelled: CmdStringHolder/UserString inputs, the conv argument, the escape/quote machinery,
   gvars['__builtins__'] (set during the call and deleted afterwards). *)
From Coq Require Import Ascii String List Arith Bool.
Import ListNotations.
Local Open Scope list_scope.

Definition str := list ascii.
Inductive res (A : Type) := Ok (a : A) | Err | Timeout.
Arguments Ok {A}. Arguments Err {A}. Arguments Timeout {A}.
Definition bind {A B} (r : res A) (f : A -> res B) : res B := match r with Ok a => f a | Err => Err | Timeout => Timeout end.
Fixpoint mapM {A B} (f : A -> res B) (l : list A) : res (list B) :=
  match l with [] => Ok [] | x :: r => bind (f x) (fun y => bind (mapM f r) (fun ys => Ok (y :: ys))) end.

Fixpoint str_eqb (a b : str) : bool :=
  match a, b with [], [] => true | x :: a, y :: b => Ascii.eqb x y && str_eqb a b | _, _ => false end.

(* character classes of the regular expressions: \s, [_a-zA-Z], \w and . *)
Definition dollar : ascii := "$"%char.
Definition is_space (c : ascii) : bool := let n := nat_of_ascii c in ((9 <=? n) && (n <=? 13)) || ((28 <=? n) && (n <=? 32)).
Definition is_alpha_ (c : ascii) : bool :=
  let n := nat_of_ascii c in ((65 <=? n) && (n <=? 90)) || ((97 <=? n) && (n <=? 122)) || (n =? 95).
Definition is_digit (c : ascii) : bool := let n := nat_of_ascii c in (48 <=? n) && (n <=? 57).
Definition is_name_char (c : ascii) : bool := is_alpha_ c || is_digit c || Ascii.eqb c "."%char.

Fixpoint span (p : ascii -> bool) (s : str) : str * str :=
  match s with c :: r => if p c then let (a, b) := span p r in (c :: a, b) else ([], s) | [] => ([], []) end.

(* Tokens of _dollar_exps, lines 882-883: matches, and single characters not part of a match *)
Inductive tok := TChar (c : ascii) | TDollar | TOpen | TClose | TRef (key : str).
Fixpoint lex_f (fuel : nat) (s : str) : list tok :=
  match fuel with
  | O => []
  | S fuel =>
    match s with
    | [] => []
    | c :: r =>
      if Ascii.eqb c dollar then
        match r with
        | d :: r' =>
          if Ascii.eqb d dollar then TDollar :: lex_f fuel r'
          else if Ascii.eqb d "("%char then TOpen :: lex_f fuel r'
          else if Ascii.eqb d ")"%char then TClose :: lex_f fuel r'
          else if is_alpha_ d then let (n, rest) := span is_name_char r' in TRef (d :: n) :: lex_f fuel rest
          else if Ascii.eqb d "{"%char then
            match span (fun x => negb (Ascii.eqb x "}"%char)) r' with
            | (key, _ :: rest) => TRef key :: lex_f fuel rest
            | (_, []) => TChar c :: lex_f fuel r          (* no closing brace: a lone dollar *)
            end
          else TChar c :: lex_f fuel r
        | [] => [TChar c]
        end
      else TChar c :: lex_f fuel r
    end
  end.
Definition lex (s : str) : list tok := lex_f (S (List.length s)) s.

(* values and environments *)
Inductive val := VStr (s : str) | VNone | VSeq (l : list val) | VFun (f : nat) | VObj (plain forsig : str).
Definition dict := list (str * val).
Fixpoint dget (d : dict) (k : str) : option val := match d with [] => None | (k', v) :: r => if str_eqb k k' then Some v else dget r k end.
Inductive evres := EVal (v : val) | EAllowed | EFatal.     (* value, exception in AllowableExceptions, other exception *)
Inductive mode := CMD | RAW | SIG.                          (* SUBST_CMD, SUBST_RAW, SUBST_SIG, lines 825-827 *)
Definition mode_eqb (a b : mode) : bool := match a, b with CMD, CMD | RAW, RAW | SIG, SIG => true | _, _ => false end.
Record senv := {
  gv : dict;                                                (* gvars *)
  ev : str -> dict -> evres;                                (* eval(key, gvars, lvars) *)
  strict : bool;                                            (* NameError not in AllowableExceptions *)
  f_ok : nat -> bool;                                       (* _callable_matches_subst_args *)
  f_call : nat -> dict -> bool -> val;                      (* s(target=lvars[..], source=lvars[..], env, for_signature) *)
  f_str : nat -> bool -> str }.                             (* str(s) or s.for_signature() *)

Definition has_dollar (s : str) : bool := existsb (fun c => Ascii.eqb c dollar) s.
Fixpoint join (sep : str) (l : list str) : str := match l with [] => [] | [x] => x | x :: r => x ++ sep ++ join sep r end.
Definition space : str := [" "%char].

(* Util/sctypes.py 250-270 to_String_for_subst, 273-290 to_String_for_signature (dicts omitted) *)
Fixpoint to_str (E : senv) (v : val) : str :=
  match v with
  | VStr s => s
  | VSeq l => join space (map (to_str E) l)
  | VNone => list_ascii_of_string "None"
  | VFun f => f_str E f false
  | VObj p _ => p
  end.
Definition conv (E : senv) (m : mode) (v : val) : str :=
  match m, v with
  | SIG, VObj _ s => s
  | SIG, VFun f => f_str E f true
  | _, _ => to_str E v
  end.

(* key.partition('.')[0] *)
Definition var_of (key : str) : str := fst (span (fun c => negb (Ascii.eqb c "."%char)) key).

(* lines 446-466 / 618-638: the value a $-token refers to; None = expands to nothing *)
Definition lookup (E : senv) (lv : dict) (key : str) : res (option val) :=
  let found v := match v with VNone => if strict E then Err else Ok None | _ => Ok (Some v) end in
  match dget lv key with
  | Some v => found v
  | None => match dget (gv E) key with
            | Some v => found v
            | None => match ev E key lv with EVal v => found v | EAllowed => Ok None | EFatal => Err end
            end
  end.
Definition plain (v : val) : option str := match v with VStr s => if has_dollar s then None else Some s | _ => None end.

(* StringSubber, lines 418-546: substitute(args, lvars) *)
Fixpoint expand (fuel : nat) (m : mode) (E : senv) (lv : dict) (v : val) : res val :=
  match fuel with
  | O => Timeout
  | S fuel =>
    match v with
    | VStr s =>
        bind (mapM (fun t => match t with
                             | TChar c => Ok [c]
                             | TDollar => Ok [dollar; dollar]
                             | TOpen => Ok [dollar; "("%char]
                             | TClose => Ok [dollar; ")"%char]
                             | TRef key =>
                                 bind (lookup E lv key) (fun o =>
                                   match o with
                                   | None => Ok []
                                   | Some w => match plain w with
                                               | Some s => Ok s                                  (* 471-472 *)
                                               | None => bind (expand fuel m E ((var_of key, VStr []) :: lv) w) (fun r => Ok (conv E m r))  (* 479-482 *)
                                               end
                                   end)
                             end) (lex s)) (fun ps => Ok (VStr (List.concat ps)))
    | VSeq l => bind (mapM (fun w => bind (expand fuel m E lv w) (fun r => Ok (VStr (conv E m r)))) l) (fun ws => Ok (VSeq ws))   (* 484-489 *)
    | VFun f => if f_ok E f then expand fuel m E lv (f_call E f lv (mode_eqb m SIG))             (* 491-513 *)
                else if mode_eqb m RAW then Ok v else expand fuel m E lv (VStr (conv E m v))
    | VNone => Ok (VStr [])
    | VObj _ _ => Ok v
    end
  end.

(* ---- post-processing, lines 830-858, 886-890, 959-991 ---- *)
(* _rm.sub('', result) *)
Fixpoint rm (s : str) : str :=
  match s with
  | c :: r => match r with
              | d :: r' => if Ascii.eqb c dollar && (Ascii.eqb d "("%char || Ascii.eqb d ")"%char) then rm r' else c :: rm r
              | [] => [c]
              end
  | [] => []
  end.
(* _rm_split.split(result): texts and markers; [prev]: the previous character is a dollar; [acc]: current text, reversed *)
Inductive piece := PcText (s : str) | PcOpen | PcClose.
Fixpoint split_sig (prev : bool) (acc : str) (s : str) : list piece :=
  match s with
  | [] => [PcText (rev acc)]
  | c :: r =>
      match r with
      | d :: r' =>
          if negb prev && Ascii.eqb c dollar && (Ascii.eqb d "("%char || Ascii.eqb d ")"%char)
          then PcText (rev acc) :: (if Ascii.eqb d "("%char then PcOpen else PcClose) :: split_sig false [] r'
          else split_sig (Ascii.eqb c dollar) (c :: acc) r
      | [] => [PcText (rev (c :: acc))]
      end
  end.
(* _remove_list, lines 841-855; [d] is depth; None = unbalanced *)
Fixpoint remove_list (d : nat) (l : list piece) : option (list str) :=
  match l with
  | [] => if d =? 0 then Some [] else None
  | PcOpen :: r => remove_list (S d) r
  | PcClose :: r => match d with O => None | S d' => remove_list d' r end
  | PcText s :: r => if d =? 0 then match remove_list d r with Some x => Some (s :: x) | None => None end else remove_list d r
  end.
(* _space_sep.sub(' ', s): runs of blanks and tabs, unless a closing brace follows before any opening one *)
Definition is_blank (c : ascii) : bool := Ascii.eqb c " "%char || Ascii.eqb c (ascii_of_nat 9).
Fixpoint in_braces (s : str) : bool :=
  match s with [] => false | c :: r => if Ascii.eqb c "}"%char then true else if Ascii.eqb c "{"%char then false else in_braces r end.
Fixpoint compress (prev : bool) (s : str) : str :=
  match s with
  | [] => []
  | c :: r => if is_blank c && negb (in_braces r) then (if prev then compress true r else " "%char :: compress true r) else c :: compress false r
  end.
(* str.strip() *)
Fixpoint lstrip (s : str) : str := match s with c :: r => if is_space c then lstrip r else s | [] => [] end.
Definition strip (s : str) : str := rev (lstrip (rev (lstrip s))).
(* str.replace('$$', '$') *)
Fixpoint undouble (s : str) : str :=
  match s with
  | c :: r => match r with d :: r' => if Ascii.eqb c dollar && Ascii.eqb d dollar then dollar :: undouble r' else c :: undouble r | [] => [c] end
  | [] => []
  end.
Definition finish (m : mode) (s : str) : res str :=
  match m with
  | RAW => Ok (undouble s)
  | CMD => Ok (undouble (strip (compress false (rm s))))
  | SIG => match remove_list 0 (split_sig false [] s) with
           | None => Err                                     (* UserError: Unbalanced $(/$) *)
           | Some l => Ok (undouble (strip (compress false (join space l))))
           end
  end.
(* the same for a list result, lines 985-990 *)
Definition open_s : str := [dollar; "("%char].
Definition close_s : str := [dollar; ")"%char].
Definition to_piece (s : str) : piece := if str_eqb s open_s then PcOpen else if str_eqb s close_s then PcClose else PcText s.
Definition finish_list (m : mode) (l : list str) : res (list str) :=
  match m with
  | RAW => Ok l
  | CMD => Ok (filter (fun s => negb (str_eqb s open_s || str_eqb s close_s)) l)
  | SIG => match remove_list 0 (map to_piece l) with None => Err | Some l => Ok l end
  end.

(* scons_subst, lines 893-993, for a string and for a list of strings *)
Definition subst (fuel : nat) (m : mode) (E : senv) (lv : dict) (s : str) : res str :=
  if has_dollar s then bind (expand fuel m E lv (VStr s)) (fun v => finish m (conv E m v)) else Ok s.
Definition subst_seq (fuel : nat) (m : mode) (E : senv) (lv : dict) (l : list val) : res (list str) :=
  bind (expand fuel m E lv (VSeq l)) (fun v => match v with VSeq ws => finish_list m (map (conv E m) ws) | _ => Err end).

(* ---- ListSubber, lines 548-818 ---- *)
(* What ListSubber.expand/substitute do to the list being built does not depend on the list: a sequence of calls *)
Inductive levent := LAppend (v : val) | LNextWord | LNextLine | LThisWord | LOpenStrip | LCloseStrip.
(* _separate_args.findall, line 884 *)
Inductive ltok := LTExp (t : tok) | LTSpace (s : str) | LTText (s : str).
Fixpoint group (l : list tok) : list ltok :=
  match l with
  | [] => []
  | TChar c :: r =>
      if Ascii.eqb c dollar then LTText [c] :: group r
      else if is_space c then match group r with LTSpace s :: g => LTSpace (c :: s) :: g | g => LTSpace [c] :: g end
      else match group r with
           | LTText (d :: s) :: g => if Ascii.eqb d dollar then LTText [c] :: LTText (d :: s) :: g else LTText (c :: d :: s) :: g
           | g => LTText [c] :: g end
  | t :: r => LTExp t :: group r
  end.
(* lines 577-595 expanded *)
Definition expanded (v : val) : bool :=
  match v with VStr [] => false | VStr s => negb (existsb (fun c => is_space c || Ascii.eqb c dollar) s) | _ => false end.
Definition newline : ascii := ascii_of_nat 10.
(* a[0] in ' \t\n\r\f\v', line 718 *)
Definition is_space0 (c : ascii) : bool := let n := nat_of_ascii c in ((9 <=? n) && (n <=? 13)) || (n =? 32).

Fixpoint lexpand (fuel : nat) (m : mode) (E : senv) (lv : dict) (within : bool) (v : val) : res (list levent) :=
  match fuel with
  | O => Timeout
  | S fuel =>
    match v with
    | VStr s =>                                              (* substitute, 706-729 *)
        bind (mapM (fun t => match t with
                             | LTSpace w => if negb (match w with c :: _ => is_space0 c | [] => false end) then Ok [LAppend (VStr w)]
                                            else if existsb (Ascii.eqb newline) w then Ok [LNextLine] else if within then Ok [LAppend (VStr w)] else Ok [LNextWord]
                             | LTText w => Ok [LAppend (VStr w)]
                             | LTExp (TChar c) => Ok [LAppend (VStr [c])]
                             | LTExp TDollar => Ok [LAppend (VStr [dollar])]
                             | LTExp TOpen => Ok [LOpenStrip]
                             | LTExp TClose => Ok [LCloseStrip]
                             | LTExp (TRef key) =>
                                 bind (lookup E lv key) (fun o =>
                                   match o with
                                   | None => Ok []
                                   | Some w => if expanded w then Ok [LAppend w]
                                               else bind (lexpand fuel m E ((var_of key, VStr []) :: lv) false w) (fun es => Ok (es ++ [LThisWord]))
                                   end)
                             end) (group (lex s))) (fun es => Ok (List.concat es))
    | VSeq l => bind (mapM (fun w => bind (lexpand fuel m E lv true w) (fun es => Ok (es ++ [LNextWord]))) l) (fun es => Ok (List.concat es))   (* 672-675 *)
    | VFun f => if f_ok E f then lexpand fuel m E lv within (f_call E f lv (mode_eqb m SIG))
                else if mode_eqb m RAW then Ok [LAppend v] else lexpand fuel m E lv within (VStr (conv E m v))
    | VNone => Ok [LThisWord]
    | VObj _ _ => Ok [LAppend v]
    end
  end.

(* the list being built: lines of words, last first, each word as a string; and what self.append is *)
Record lstate := { l_lines : list (list str); l_new : bool; l_strip : bool }.
Definition linit : lstate := {| l_lines := [[]]; l_new := true; l_strip := false |}.          (* 572-575 *)
Definition last_char_special (w : str) : bool :=
  match rev w with c :: _ => Ascii.eqb c "<"%char || Ascii.eqb c ">"%char || Ascii.eqb c "|"%char | [] => false end.
(* 793-800 add_new_word, 748-791 add_to_current_word; the words of a line are kept in reverse *)
Definition add_new (E : senv) (m : mode) (v : val) (s : lstate) : lstate :=
  {| l_lines := if l_strip s && mode_eqb m SIG then l_lines s
                else match l_lines s with ws :: ls => (conv E m v :: ws) :: ls | [] => [[conv E m v]] end;
     l_new := false; l_strip := l_strip s |}.
Definition add_cur (E : senv) (m : mode) (v : val) (s : lstate) : lstate :=
  if l_strip s && mode_eqb m SIG then s
  else match l_lines s with
       | (w :: ws) :: ls => if last_char_special w then add_new E m v s
                            else {| l_lines := ((w ++ to_str E v) :: ws) :: ls;   (* str(x), also for signatures *)
                                    l_new := l_new s; l_strip := l_strip s |}
       | _ => add_new E m v s
       end.
Definition lappend (E : senv) (m : mode) (v : val) (s : lstate) : lstate := if l_new s then add_new E m v s else add_cur E m v s.
Definition lstep (E : senv) (m : mode) (s : lstate) (e : levent) : lstate :=
  match e with
  | LAppend v => lappend E m v s
  | LNextWord => {| l_lines := l_lines s; l_new := true; l_strip := l_strip s |}
  | LThisWord => {| l_lines := l_lines s; l_new := false; l_strip := l_strip s |}
  | LNextLine => {| l_lines := [] :: l_lines s; l_new := true; l_strip := l_strip s |}
  | LOpenStrip => let s' := if mode_eqb m RAW then lappend E m (VStr open_s) s else s in {| l_lines := l_lines s'; l_new := l_new s'; l_strip := true |}
  | LCloseStrip => let s' := if mode_eqb m RAW then lappend E m (VStr close_s) s else s in {| l_lines := l_lines s'; l_new := l_new s'; l_strip := false |}
  end.
Definition lrun (E : senv) (m : mode) (es : list levent) (s : lstate) : lstate := fold_left (lstep E m) es s.
Definition ldata (s : lstate) : list (list str) := rev (map (@rev str) (l_lines s)).
(* scons_subst_list, lines 995-1055, for a string *)
Definition subst_list (fuel : nat) (m : mode) (E : senv) (lv : dict) (s : str) : res (list (list str)) :=
  bind (lexpand fuel m E lv false (VStr s)) (fun es => Ok (ldata (lrun E m es linit))).
