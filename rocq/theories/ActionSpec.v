(* Vocabulary for C47-C49: what an action consists of, and what executing it means. *)
From Coq Require Import List Arith Bool.
Import ListNotations.
From Verif Require Import ActionModel.

(* The elementary steps of an action: the programs (or the function) run by one command or function action, whether failures are
   ignored ('-'), and the exit-status function. *)
Record leaf := { l_events : list event; l_ignore : bool; l_stat : nat -> nat }.
Definition command_leaf (e : senv) (c : cmd) (k : kw) : leaf :=
  let (ls, ig) := process (e_lines e c) in {| l_events := map Spawn (filter nonempty ls); l_ignore := ig; l_stat := k_stat k |}.
(* in order; variables holding actions and generators are resolved in the environment *)
Fixpoint leaves (fuel : nat) (e : senv) (a : action) {struct fuel} : option (list leaf) :=
  match fuel with
  | 0 => None
  | S fu =>
    match a with
    | ACommand c k => Some [command_leaf e c k]
    | AFunction f k => Some [{| l_events := [Call f]; l_ignore := false; l_stat := k_stat k |}]
    | AGenerator g k => match mk_action k (e_gen e g false) with Some b => leaves fu e b | None => None end
    | ALazy v k => if plain_string e v then Some [command_leaf e (CStr (braces v)) k]
                   else match mk_action k (lazy_value e v) with Some b => leaves fu e b | None => None end
    | AList l => option_map (@concat leaf) (all_some (map (leaves fu e) l))
    end
  end.
Definition flag (l : leaf) : list (event * bool) := map (fun ev => (ev, l_ignore l)) (l_events l).

(* the i-th step did not fail, or its failure is ignored; what the world answers depends on all that happened before *)
Definition fine (W : world) (h : list event) (fl : list (event * bool)) (i : nat) : Prop :=
  forall ev ig, nth_error fl i = Some (ev, ig) -> ig = true \/ w_status W (h ++ map fst (firstn i fl)) ev = 0.
(* Executing the steps fl after history h: either all were executed in order and none failed (status 0), or they
   were executed in order up to and including the first failing one, whose status is the result. *)
Definition outcome (W : world) (h : list event) (fl : list (event * bool)) (st : nat) (h' : list event) : Prop :=
  (st = 0 /\ h' = h ++ map fst fl /\ forall i, fine W h fl i)
  \/ (exists i ev, nth_error fl i = Some (ev, false) /\ w_status W (h ++ map fst (firstn i fl)) ev = st /\ st <> 0
        /\ h' = h ++ map fst (firstn (S i) fl) /\ forall j, j < i -> fine W h fl j).
(* With exit-status functions: the status of each command or function is passed through its exit-status function, and the
   list stops at the first one where the result is not 0. *)
Inductive runs (W : world) : list leaf -> list event -> nat -> list event -> Prop :=
| runs_nil h : runs W [] h 0 h
| runs_stop l r h st0 h' : outcome W h (flag l) st0 h' -> l_stat l st0 <> 0 -> runs W (l :: r) h (l_stat l st0) h'
| runs_go l r h st0 h' st h'' : outcome W h (flag l) st0 h' -> l_stat l st0 = 0 -> runs W r h' st h'' -> runs W (l :: r) h st h''.

(* What the signature of an action is made of, in order: fixed bytes (code of functions) and expanded strings *)
Inductive piece := Fixed (b : str) | Expanded (s : str).
Definition piece_text (e : senv) (p : piece) : str := match p with Fixed b => b | Expanded s => e_sig e s end.
(* (pieces, variables named in varlist) *)
Fixpoint pieces (fuel : nat) (e : senv) (a : action) {struct fuel} : option (list piece * list str) :=
  let vars vl := map (fun v => Expanded (braces v)) vl in
  match fuel with
  | 0 => None
  | S fu =>
    match a with
    | ACommand c k => Some ([Expanded (cmd_text c)], k_varlist k)
    | AFunction f k => Some ([Fixed (f_code f)], k_varlist k)
    | AGenerator g k => match mk_action k (e_gen e g true) with Some b => pieces fu e b | None => None end
    | ALazy v k => if plain_string e v then Some ([Expanded (braces v)], k_varlist k)
                   else match mk_action k (lazy_value e v) with Some b => pieces fu e b | None => None end
    | AList l => match all_some (map (pieces fu e) l) with
                 | Some ps => Some (concat (map (fun p => fst p ++ vars (snd p)) ps), union_keys [] (concat (map snd ps)))
                 | None => None
                 end
    end
  end.
(* the strings whose expansion goes into the signature of a: command texts and the variables of varlist *)
Definition signature_uses (fuel : nat) (e : senv) (a : action) (s : str) : Prop :=
  exists ps vl, pieces fuel e a = Some (ps, vl) /\ (In (Expanded s) ps \/ exists v, In v vl /\ s = braces v).
(* two environments with the same actions in their variables, which expand every string but s in the same way *)
Definition differ_only_in (s : str) (e e' : senv) : Prop :=
  (forall v, e_get e v = e_get e' v) /\ (forall g b, e_gen e g b = e_gen e' g b) /\ (forall x, x <> s -> e_sig e x = e_sig e' x) /\ e_sig e s <> e_sig e' s.
