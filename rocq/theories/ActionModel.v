(* Model of actions and executors: SCons/Action.py (Action, _do_create_action, _do_create_list_action, _actionAppend, get_contents,
   get_presig, get_varlist, CommandAction.process/execute, FunctionAction, CommandGeneratorAction, LazyAction, ListAction) and
   SCons/Executor.py (execute_action_list, get_contents, add_pre_action, add_post_action, batches).  No proofs.

   Characters are numbers.  The construction environment is the record [senv]: how it expands strings (Subst.py is modelled in
   SubstModel.v) is left arbitrary.  Not modelled: printing (show, presub, cmdstr, strfunction), chdir, SPAWN/SHELL/ESCAPE
   lookup, ENV conversion, execute=False (-n), exceptions of callables other than through their status (Errors.py
   convert_to_BuildError is modelled in ExitModel.v). *)
From Coq Require Import List Arith Bool.
Import ListNotations.

Definition str := list nat.
Definition SP := 32. Definition NL := 10. Definition DOLLAR := 36. Definition LB := 123. Definition RB := 125. Definition AT := 64. Definition DASH := 45.

(* [A-Za-z_] and \w (ASCII) *)
Definition alpha (c : nat) : bool := ((65 <=? c) && (c <=? 90)) || ((97 <=? c) && (c <=? 122)) || (c =? 95).
Definition word (c : nat) : bool := alpha c || ((48 <=? c) && (c <=? 57)).
Definition is_name (s : str) : bool := match s with c :: r => alpha c && forallb word r | [] => false end.

(* Util/sctypes.py 371-389 get_environment_var (the regular expression also accepts a final newline; omitted) *)
Definition get_environment_var (s : str) : option str :=
  match s with
  | d :: r => if d =? DOLLAR then
                if is_name r then Some r
                else match r with
                     | b :: r' => if (b =? LB) && (last r' 0 =? RB) && is_name (removelast r') then Some (removelast r') else None
                     | [] => None
                     end
              else None
  | [] => None
  end.

(* str.split(sep) for a one-character separator: never empty *)
Fixpoint split_on (sep : nat) (s : str) : list str :=
  match s with
  | [] => [[]]
  | c :: r => if c =? sep then [] :: split_on sep r
              else match split_on sep r with w :: ws => (c :: w) :: ws | [] => [[c]] end
  end.
(* ' '.join(words) *)
Fixpoint join_sp (ws : list str) : str := match ws with [] => [] | [w] => w | w :: r => w ++ SP :: join_sp r end.

(* A command: one string, or a list of words (Action.py 979-996) *)
Inductive cmd := CStr (s : str) | CWords (ws : list str).
(* Action.py 1112-1116: the text whose expansion is the signature *)
Definition cmd_text (c : cmd) : str := match c with CStr s => s | CWords ws => join_sp ws end.

(* A Python callable used as an action: its identity, the bytes _function_contents computes from its code, defaults and
   closure (for a callable object: from the code of its class's __call__ method, lines 153-171), and the state of the object. *)
Record pyfun := { f_code : str; f_state : nat }.

(* Keyword arguments kept by every action (lines 617-645) *)
Record kw := { k_varlist : list str; k_stat : nat -> nat }.       (* exitstatfunc; default: identity *)

(* Action objects *)
Inductive action :=
| ACommand (c : cmd) (k : kw)
| AFunction (f : pyfun) (k : kw)
| AGenerator (g : pyfun) (k : kw)        (* CommandGeneratorAction *)
| ALazy (v : str) (k : kw)               (* LazyAction: also CommandAction('${v}') *)
| AList (l : list action).

(* What Action() may be given: one item or a list of items *)
Inductive item := IStr (s : str) | IWords (ws : list str) | IFun (f : pyfun) | IAct (a : action) | INone.
Inductive arg := One (i : item) | Many (l : list item).

(* Action.py 440-483 _do_create_action on one line (no newline inside) *)
Definition create_line (k : kw) (s : str) : action :=
  match get_environment_var s with Some v => ALazy v k | None => ACommand (CStr s) k end.
(* Action.py 494-504: the tail of _do_create_list_action *)
Definition wrap (l : list action) : action := match l with [a] => a | _ => AList l end.
(* Action.py 440-483 _do_create_action.  INone stands for anything else ("fail silently"); numbers (TypeError) are omitted. *)
Definition create_item (k : kw) (gen : bool) (i : item) : option action :=      (* gen: kw has generator=True *)
  match i with
  | IAct a => Some a
  | IStr s => Some (match get_environment_var s with
                    | Some v => ALazy v k
                    | None => match split_on NL s with
                              | [l] => ACommand (CStr l) k
                              | ls => wrap (map (create_line k) ls)
                              end
                    end)
  | IWords ws => Some (ACommand (CWords ws) k)
  | IFun f => Some (if gen then AGenerator f k else AFunction f k)
  | INone => None
  end.
Fixpoint somes {A} (l : list (option A)) : list A := match l with [] => [] | Some x :: r => x :: somes r | None :: r => somes r end.
(* Action.py 495-499: the loop of _do_create_list_action; kw.pop('generator') at the first callable also affects the rest *)
Definition is_fun (i : item) : bool := match i with IFun _ => true | _ => false end.
Fixpoint create_items (k : kw) (gen : bool) (l : list item) : list (option action) :=
  match l with [] => [] | i :: r => create_item k gen i :: create_items k (gen && negb (is_fun i)) r end.
(* Action.py 486-513 Action(x, generator=gen, **k) *)
Definition mk_action_g (k : kw) (gen : bool) (x : arg) : option action :=
  match x with
  | One i => create_item k gen i
  | Many l => Some (wrap (somes (create_items k gen l)))
  end.
Definition mk_action (k : kw) (x : arg) : option action := mk_action_g k false x.

(* Action.py 390-409 _actionAppend *)
Definition dkw : kw := {| k_varlist := []; k_stat := fun s => s |}.
Definition as_list (a : action) : list action := match a with AList l => l | _ => [a] end.
Definition append (x y : arg) : option action :=
  match mk_action dkw x, mk_action dkw y with
  | None, b => b
  | a, None => a
  | Some a, Some b => Some (AList (as_list a ++ as_list b))
  end.

(* The environment an action is used with *)
Record senv := {
  e_sig : str -> str;                         (* env.subst_target_source(s, SUBST_SIG, target, source) *)
  e_lines : cmd -> list (list str);           (* env.subst_list(c, SUBST_CMD, ...): command lines, each a list of words *)
  e_get : str -> option arg;                  (* env.get(v); None when unset *)
  e_gen : pyfun -> bool -> arg }.               (* what generator g returns, for_signature or not *)
(* Action.py 1322-1326 get_parent_class: a plain one-line string *)
Definition plain_string (e : senv) (v : str) : bool :=
  match e_get e v with Some (One (IStr s)) => negb (existsb (Nat.eqb NL) s) | _ => false end.
Definition braces (v : str) : str := DOLLAR :: LB :: v ++ [RB].
(* Action.py 1328-1339 LazyAction._generate_cache: env.get(var, '') made into an action *)
Definition lazy_value (e : senv) (v : str) : arg := match e_get e v with Some x => x | None => One (IStr []) end.

(* Action.py 1525-1530 / 604-605 / 1289-1290 / 1353-1355 get_varlist.  [fuel] bounds the nesting of lazily evaluated
   variables and generators (Python's recursion limit); None: exhausted, or UserError (not an action). *)
Fixpoint mem_str (s : str) (l : list str) : bool :=
  match l with [] => false | x :: r => (if list_eq_dec Nat.eq_dec s x then true else false) || mem_str s r end.
Fixpoint union_keys (seen : list str) (l : list str) : list str :=       (* OrderedDict: first occurrences *)
  match l with [] => [] | x :: r => if mem_str x seen then union_keys seen r else x :: union_keys (x :: seen) r end.
Fixpoint all_some {A} (l : list (option A)) : option (list A) :=
  match l with [] => Some [] | Some x :: r => option_map (cons x) (all_some r) | None :: _ => None end.

(* presig: Action.py 1105-1118, 1278-1284, 1345-1347, 1462-1467, 1500-1505; contents: 555-584.  [sig_of fuel] gives
   (get_presig, get_varlist). *)
Definition vars_text (e : senv) (vl : list str) : str := concat (map (fun v => e_sig e (braces v)) vl).
Fixpoint sig_of (fuel : nat) (e : senv) (a : action) {struct fuel} : option (str * list str) :=
  match fuel with
  | 0 => None
  | S fu =>
    match a with
    | ACommand c k => Some (e_sig e (cmd_text c), k_varlist k)
    | AFunction f k => Some (f_code f, k_varlist k)
    | AGenerator g k => match mk_action k (e_gen e g true) with Some b => sig_of fu e b | None => None end
    | ALazy v k => if plain_string e v then Some (e_sig e (braces v), k_varlist k)
                   else match mk_action k (lazy_value e v) with Some b => sig_of fu e b | None => None end
    | AList l => match all_some (map (sig_of fu e) l) with
                 | Some ps => Some (concat (map (fun p => fst p ++ vars_text e (snd p)) ps), union_keys [] (concat (map snd ps)))
                 | None => None
                 end
    end
  end.
Definition contents (fuel : nat) (e : senv) (a : action) : option str :=
  option_map (fun p => fst p ++ vars_text e (snd p)) (sig_of fuel e a).

(* Execution.  An event is a program started or a Python function called; the world answers with a status, which may depend
   on everything that happened before. *)
Inductive event := Spawn (line : list str) | Call (f : pyfun).
Record world := { w_status : list event -> event -> nat }.      (* history so far, oldest first *)

(* Action.py 1007-1026 process: '@' and '-' in front of the first word of the first line *)
Fixpoint strip_prefix (w : str) (ignore : bool) : str * bool :=
  match w with
  | c :: r => if c =? AT then strip_prefix r ignore else if c =? DASH then strip_prefix r true else (w, ignore)
  | [] => ([], ignore)
  end.
Definition process (lines : list (list str)) : list (list str) * bool :=
  match lines with
  | (w :: ws) :: r => let (w', ig) := strip_prefix w false in ((match w' with [] => ws | _ => w' :: ws end) :: r, ig)
  | _ => (lines, false)
  end.
Definition nonempty {A} (l : list A) : bool := match l with [] => false | _ => true end.

(* Action.py 1091-1103: the loop over the lines; result: status, new history *)
Fixpoint run_lines (W : world) (ignore : bool) (ls : list (list str)) (h : list event) : nat * list event :=
  match ls with
  | [] => (0, h)
  | l :: r => let st := w_status W h (Spawn l) in
              let h' := h ++ [Spawn l] in
              if negb ignore && negb (st =? 0) then (st, h') else run_lines W ignore r h'
  end.
(* Action.py 655-734 __call__ (status handling) with 1043-1103 and 1431-1460 *)
Definition run_command (W : world) (e : senv) (c : cmd) (k : kw) (h : list event) : nat * list event :=
  let (ls, ig) := process (e_lines e c) in
  let (st, h') := run_lines W ig (filter nonempty ls) h in (k_stat k st, h').
Definition run_function (W : world) (f : pyfun) (k : kw) (h : list event) : nat * list event :=
  (k_stat k (w_status W h (Call f)), h ++ [Call f]).

(* Action.py 1507-1517 ListAction.__call__ *)
Fixpoint run_list (run : action -> list event -> option (nat * list event)) (l : list action) (h : list event) : option (nat * list event) :=
  match l with
  | [] => Some (0, h)
  | a :: r => match run a h with
              | Some (0, h') => run_list run r h'
              | Some (st, h') => Some (st, h')
              | None => None
              end
  end.
Fixpoint run_action (fuel : nat) (W : world) (e : senv) (a : action) (h : list event) {struct fuel} : option (nat * list event) :=
  match fuel with
  | 0 => None
  | S fu =>
    match a with
    | ACommand c k => Some (run_command W e c k h)
    | AFunction f k => Some (run_function W f k h)
    | AGenerator g k => match mk_action k (e_gen e g false) with Some b => run_action fu W e b h | None => None end
    | ALazy v k => if plain_string e v then Some (run_command W e (CStr (braces v)) k h)
                   else match mk_action k (lazy_value e v) with Some b => run_action fu W e b h | None => None end
    | AList l => run_list (run_action fu W e) l h
    end
  end.

(* Executor.py: an executor holds pre-actions, actions, post-actions and batches (targets, sources) *)
Record executor := { x_pre : list action; x_acts : list action; x_post : list action; x_batches : list (list nat * list nat) }.
(* Executor.py 269-272 get_action_list *)
Definition action_list (x : executor) : list action := x_pre x ++ x_acts x ++ x_post x.
Definition add_pre_action (a : action) (x : executor) : executor := {| x_pre := x_pre x ++ [a]; x_acts := x_acts x; x_post := x_post x; x_batches := x_batches x |}.
Definition add_post_action (a : action) (x : executor) : executor := {| x_pre := x_pre x; x_acts := x_acts x; x_post := x_post x ++ [a]; x_batches := x_batches x |}.
(* Executor.py 111-130 execute_action_list: a BuildError is raised for the first non-zero status (inl) *)
Definition execute (fuel : nat) (W : world) (e : senv) (x : executor) (h : list event) : option (nat * list event) :=
  run_list (run_action fuel W e) (action_list x) h.
(* Executor.py 449-474 get_contents (without the memo) *)
Definition executor_contents (fuel : nat) (e : senv) (x : executor) : option str :=
  option_map (@concat nat) (all_some (map (contents fuel e) (action_list x))).

(* Executor.py 274-286 get_all_targets, get_all_sources; 386-394 add_sources; 399-405 add_batch *)
Definition all_targets (x : executor) : list nat := concat (map fst (x_batches x)).
Definition all_sources (x : executor) : list nat := concat (map snd (x_batches x)).
Definition mem (n : nat) (l : list nat) : bool := existsb (Nat.eqb n) l.
Definition add_sources (l : list nat) (x : executor) : option executor :=        (* None: AssertionError *)
  match x_batches x with
  | [(t, s)] => Some {| x_pre := x_pre x; x_acts := x_acts x; x_post := x_post x; x_batches := [(t, s ++ filter (fun n => negb (mem n s)) l)] |}
  | _ => None
  end.
Definition add_batch (t s : list nat) (x : executor) : executor :=
  {| x_pre := x_pre x; x_acts := x_acts x; x_post := x_post x; x_batches := x_batches x ++ [(t, s)] |}.
(* Executor.py 190-220 _get_changes: (changed sources, changed targets, unchanged sources, unchanged targets); [utd n]: not
   always_build and is_up_to_date; rfile is the identity here *)
Fixpoint get_changes (utd : nat -> bool) (bs : list (list nat * list nat)) : list nat * list nat * (list nat * list nat) :=
  match bs with
  | [] => ([], [], ([], []))
  | (t, s) :: r => let '(cs, ct, (us, ut)) := get_changes utd r in
      if utd (hd 0 t) then (cs, ct, (s ++ us, t ++ ut)) else (s ++ cs, t ++ ct, (us, ut))
  end.
(* Executor.py 527-556 get_unignored_sources (without the memo) *)
Definition unignored_sources (x : executor) (node : option nat) (ignore : list nat) : list nat :=
  let l := match node with
           | Some n => match find (fun b => mem n (fst b)) (x_batches x) with Some b => snd b | None => [] end
           | None => all_sources x
           end in
  filter (fun s => negb (mem s ignore)) l.
(* Executor.py 285-303 get_all_children (children of each target given) *)
Fixpoint uniq (seen : list nat) (l : list nat) : list nat :=
  match l with [] => [] | x :: r => if mem x seen then uniq seen r else x :: uniq (x :: seen) r end.
Definition all_children (kids : nat -> list nat) (x : executor) : list nat := uniq [] (concat (map kids (all_targets x))).
(* Executor.py 407-415 prepare: the first missing source *)
Definition prepare (missing : nat -> bool) (x : executor) : option nat := find missing (all_sources x).
