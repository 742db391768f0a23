(* SCons/Tool/textfile.py: Textfile and Substfile, and the signature of their action.
   Not modelled: LINESEPARATOR given as a Value node, the TEXTFILE_FILE_WRITE_MODE with 'b', the open() error.
   Characters are 8-bit here.  Text is encoded by [encode] (the codec named by FILE_ENCODING), a parameter. *)
From Coq Require Import Ascii String List Bool Arith.
From Verif Require Import SubstModel.
Import ListNotations.
Open Scope list_scope.

(* str.replace(k, v) of Python, as used at textfile.py 68: leftmost occurrences, not overlapping; an empty [k]
   is found before every character and at the end *)
Fixpoint starts (k s : str) : bool :=
  match k, s with
  | [], _ => true
  | a :: k', b :: s' => Ascii.eqb a b && starts k' s'
  | _ :: _, [] => false
  end.
Fixpoint rep (k v : str) (skip : nat) (s : str) : str :=
  match s with
  | [] => []
  | c :: r => match skip with
              | S n => rep k v n r
              | O => if starts k s then v ++ rep k v (List.length k - 1) r else c :: rep k v 0 r
              end
  end.
Fixpoint interleave (v s : str) : str := match s with [] => v | c :: r => v ++ c :: interleave v r end.
Definition replace (k v s : str) : str := match k with [] => interleave v s | _ => rep k v 0 s end.

(* _do_subst, lines 56-68 *)
Definition do_subst (subs : list (str * str)) (contents : str) : str :=
  fold_left (fun c kv => replace (fst kv) (snd kv) c) subs contents.

(* the values of SUBST_DICT: strings, callables (their repr, and what they return: a string or the str() of another
   object), other objects (str() and repr() taken to be the same text) *)
Inductive tval := TvStr (s : str) | TvFun (r : str) (is_string : bool) (result : str) | TvObj (s : str).
Inductive sdict := SDict (l : list (str * tval)) | SSeq (l : list (str * tval)) | SBad.
Definition pairs (d : sdict) : option (list (str * tval)) := match d with SDict l => Some l | SSeq l => Some l | SBad => None end.

(* what the environment of the builder call holds *)
Record tenv := {
  te_env : senv;                  (* the other construction variables *)
  te_dict : option sdict;         (* SUBST_DICT *)
  te_sep : option str;            (* LINESEPARATOR: None or a string *)
  te_enc : str }.                 (* FILE_ENCODING *)

(* ---- how the variables look to Subst ---- *)
(* repr() of a str, 8-bit: quotes, backslash, \n \r \t and \xNN *)
Definition q1 : ascii := "'"%char.
Definition q2 : ascii := ascii_of_nat 34.
Definition bsl : ascii := "\"%char.
Definition hexd (n : nat) : ascii := nth n (list_ascii_of_string "0123456789abcdef") "0"%char.
Definition printable (c : ascii) : bool := let n := nat_of_ascii c in ((32 <=? n) && (n <=? 126)) || ((161 <=? n) && negb (n =? 173)).
Definition esc (q c : ascii) : str :=
  if Ascii.eqb c bsl || Ascii.eqb c q then [bsl; c]
  else if Ascii.eqb c (ascii_of_nat 9) then [bsl; "t"%char]
  else if Ascii.eqb c (ascii_of_nat 10) then [bsl; "n"%char]
  else if Ascii.eqb c (ascii_of_nat 13) then [bsl; "r"%char]
  else if printable c then [c]
  else [bsl; "x"%char; hexd (nat_of_ascii c / 16); hexd (nat_of_ascii c mod 16)].
Definition has (c : ascii) (s : str) : bool := existsb (Ascii.eqb c) s.
Definition repr (s : str) : str :=
  let q := if has q1 s && negb (has q2 s) then q2 else q1 in
  q :: flat_map (esc q) s ++ [q].
Definition vrepr (v : tval) : str := match v with TvStr s => repr s | TvFun r _ _ => r | TvObj s => s end.

(* pprint.pformat(d, width=1000000), Util/sctypes.py 284-290: the entries sorted by key, on one line; texts of a million
   characters and more, which pprint breaks into lines, are not modelled *)
Fixpoint key_leb (a b : str) : bool :=
  match a, b with
  | [], _ => true
  | _ :: _, [] => false
  | x :: a', y :: b' => if Ascii.eqb x y then key_leb a' b' else nat_of_ascii x <=? nat_of_ascii y
  end.
Fixpoint insert (p : str * tval) (l : list (str * tval)) : list (str * tval) :=
  match l with [] => [p] | q :: r => if key_leb (fst p) (fst q) then p :: l else q :: insert p r end.
Definition sort (l : list (str * tval)) : list (str * tval) := fold_right insert [] l.
Definition entry (p : str * tval) : str := repr (fst p) ++ list_ascii_of_string ": " ++ vrepr (snd p).
Definition pformat (l : list (str * tval)) : str :=
  "{"%char :: join (list_ascii_of_string ", ") (map entry (sort l)) ++ ["}"%char].
(* str(d) is the same with the entries in their order; it is not used in signatures *)
Definition pystr (l : list (str * tval)) : str :=
  "{"%char :: join (list_ascii_of_string ", ") (map entry l) ++ ["}"%char].

(* the construction variable as Subst sees it: a dict is neither a string, nor a sequence, nor callable, and is returned by
   expand() as it is (Subst.py 518-519); a sequence is expanded element by element (484-489).  A callable in a sequence
   is not called (it takes no arguments), 505-512 *)
Definition val_of (v : tval) : val := match v with TvStr s => VStr s | TvFun r _ _ => VObj r r | TvObj s => VObj s s end.
Definition dict_val (d : sdict) : val :=
  match d with
  | SDict l => VObj (pystr l) (pformat l)
  | SSeq l => VSeq (map (fun kv => VSeq [VStr (fst kv); val_of (snd kv)]) l)
  | SBad => VObj [] []
  end.
Definition nm_dict : str := list_ascii_of_string "SUBST_DICT".
Definition nm_sep : str := list_ascii_of_string "LINESEPARATOR".
Definition nm_enc : str := list_ascii_of_string "FILE_ENCODING".
(* all construction variables *)
Definition full_env (T : tenv) : senv :=
  let E := te_env T in
  {| gv := (match te_dict T with None => [] | Some d => [(nm_dict, dict_val d)] end)
           ++ (nm_sep, match te_sep T with None => VNone | Some s => VStr s end)
           :: (nm_enc, VStr (te_enc T)) :: gv E;
     ev := ev E; strict := strict E; f_ok := f_ok E; f_call := f_call E; f_str := f_str E |}.
(* ---- the action ---- *)
(* env.subst(value, raw=1), lines 110-113; without targets and sources the names TARGET(S), SOURCE(S) expand to nothing,
   Subst.py 338-365 *)
Definition lv0 : dict := map (fun k => (list_ascii_of_string k, VStr []))
  ["TARGET"; "TARGETS"; "SOURCE"; "SOURCES"]%string.
Definition value_text (fuel : nat) (E : senv) (v : tval) : res str :=
  match v with
  | TvStr s => subst fuel RAW E lv0 s
  | TvFun _ true s => subst fuel RAW E lv0 s
  | TvFun _ false s => Ok s
  | TvObj s => Ok s
  end.
(* lines 96-114 *)
Definition make_subs (fuel : nat) (T : tenv) : res (list (str * str)) :=
  match te_dict T with
  | None => Ok []
  | Some d => match pairs d with
              | None => Err                                        (* UserError *)
              | Some l => mapM (fun kv => bind (value_text fuel (full_env T) (snd kv)) (fun v => Ok (fst kv, v))) l
              end
  end.
(* lines 79-87; LINESEP, line 53 *)
Definition newline : ascii := ascii_of_nat 10.
Definition line_sep (T : tenv) : str := match te_sep T with None => [newline] | Some s => s end.
(* lines 125-134; [lsep] is what is written before the next source *)
Fixpoint write_lines (sep lsep : str) (lines : list str) : str :=
  match lines with [] => [] | x :: r => lsep ++ x ++ write_lines sep sep r end.
(* _action, lines 76-134: the text written, for the contents of the sources *)
Definition action_text (fuel : nat) (T : tenv) (srcs : list str) : res str :=
  bind (make_subs fuel T) (fun subs => Ok (write_lines (line_sep T) [] (map (do_subst subs) srcs))).
Definition action_bytes (encode : str -> str -> str) (fuel : nat) (T : tenv) (srcs : list str) : res str :=
  bind (action_text fuel T srcs) (fun t => Ok (encode (te_enc T) t)).

(* The sources of a Textfile call: strings, nested lists, nodes (given by their contents).
   arg2nodes, Environment.py 713-750: lists are flattened; a string that is the name of an Alias becomes the Alias
   node, which has no get_text_contents; other strings are expanded and become Value nodes.
   _convert_list, textfile.py 141-158: exactly one target. *)
Inductive src := SrcStr (s : str) | SrcList (l : list src) | SrcNode (contents : str).
Fixpoint flat (x : src) : list src := match x with SrcList l => flat_map flat l | _ => [x] end.
Definition mem (s : str) (l : list str) : bool := existsb (str_eqb s) l.
Definition src_text (fuel : nat) (E : senv) (aliases : list str) (x : src) : res str :=
  match x with
  | SrcStr s => if mem s aliases then Err else subst fuel RAW E lv0 s
  | SrcNode c => Ok c
  | SrcList _ => Err
  end.
Definition textfile (fuel : nat) (T : tenv) (aliases : list str) (targets : nat) (srcs : list src) : res str :=
  if targets =? 1
  then bind (mapM (src_text fuel (full_env T) aliases) (flat_map flat srcs)) (action_text fuel T)
  else Err.

(* ---- the signature ---- *)
(* '${' + v + '}' *)
Definition ref (v : str) : str := dollar :: "{"%char :: v ++ ["}"%char].
(* lines 161-183: _text_varlist, _subst_varlist *)
Definition text_varlist : list str := [nm_dict; nm_sep; list_ascii_of_string "TEXTFILEPREFIX"; list_ascii_of_string "TEXTFILESUFFIX"].
Definition subst_varlist : list str := [nm_dict; nm_sep; list_ascii_of_string "SUBSTFILEPREFIX"; list_ascii_of_string "SUBSTFILESUFFIX"].
(* Action.py 555-585 get_contents; [presig]: the code of _action; [lv]: TARGET, SOURCE and their like *)
Definition signature (fuel : nat) (presig : str) (varlist : list str) (lv : dict) (T : tenv) : res str :=
  bind (mapM (fun v => subst fuel SIG (full_env T) lv (ref v)) varlist) (fun l => Ok (presig ++ List.concat l)).
