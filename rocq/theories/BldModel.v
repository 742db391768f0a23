(* Model of Builder calls and what they record about targets: SCons/Builder.py (_node_errors, BuilderBase._execute), SCons/Node/__init__.py (get_executor, builder_set,
   add_source ...), SCons/Executor.py (Executor, Null), SCons/Environment.py (AddPreAction, AddPostAction, SideEffect).  No proofs.

   Target and source lists are the lists of nodes after suffixes and emitters have been applied (Builder.py 496-557, see also SrcModel.v); the temporary builder set around
   the emitter call (529-548) is not modelled.  Warnings and messages are not modelled.  Builders are equal if all their attributes are (Builder.py 459); b_id stands for
   the attributes that are not modelled.  Not modelled: set_specific_source (tests of SConf only), chdir, target_peers. *)
From Coq Require Import List Bool Arith.
Import ListNotations.

Definition node := nat.
Definition act := nat.
(* an environment: its identity, and, if it is an OverrideEnvironment, the identity of the environment below and its overrides *)
Record envr := { e_id : nat; e_over : option (nat * nat) }.
Record builder := { b_id : nat; b_action : act; b_multi : bool; b_explicit : bool; b_single : bool }.
Record nd := { n_side : bool; n_builder : option builder; n_explicit : bool; n_env : option envr; n_sources : list node; n_exec : option nat; n_effects : list node }.
(* Executor.py 171-183; x_null: the object is a Null (582) *)
Record exec := { x_null : bool; x_actions : list act; x_env : option envr; x_pre : list act; x_post : list act; x_batches : list (list node * list node) }.
Record bst := { nodes : node -> nd; execs : nat -> exec; next : nat; keys : list (nat * nat) }.

Definition mem (n : node) (l : list node) : bool := existsb (Nat.eqb n) l.
Fixpoint leqb (a b : list node) : bool := match a, b with [], [] => true | x :: a, y :: b => Nat.eqb x y && leqb a b | _, _ => false end.
(* Builder.py 459-460 *)
Definition builder_eqb (a b : builder) : bool :=
  Nat.eqb (b_id a) (b_id b) && Nat.eqb (b_action a) (b_action b) && eqb (b_multi a) (b_multi b) && eqb (b_explicit a) (b_explicit b) && eqb (b_single a) (b_single b).
Definition upd {A} (f : nat -> A) (k : nat) (v : A) : nat -> A := fun x => if Nat.eqb x k then v else f x.
(* Node/__init__.py 1340-1350 _add_child *)
Definition add_child (l new : list node) : list node := fold_left (fun l c => if mem c l then l else l ++ [c]) new l.
(* Executor.py 287-292 *)
Definition all_targets (x : exec) : list node := concat (map fst (x_batches x)).

Definition with_exec (n : nd) (x : nat) : nd :=
  {| n_side := n_side n; n_builder := n_builder n; n_explicit := n_explicit n; n_env := n_env n; n_sources := n_sources n; n_exec := Some x; n_effects := n_effects n |}.
Definition set_nodes (s : bst) (f : node -> nd) : bst := {| nodes := f; execs := execs s; next := next s; keys := keys s |}.
Definition set_exec (s : bst) (i : nat) (x : exec) : bst := {| nodes := nodes s; execs := upd (execs s) i x; next := next s; keys := keys s |}.
Definition new_exec (s : bst) (x : exec) : bst := {| nodes := nodes s; execs := upd (execs s) (next s) x; next := S (next s); keys := keys s |}.
Definition bld_exec (a : act) (e : option envr) (tl sl : list node) : exec :=
  {| x_null := false; x_actions := [a]; x_env := e; x_pre := []; x_post := []; x_batches := match tl, sl with [], [] => [] | _, _ => [(tl, sl)] end |}.
(* Node/__init__.py 660-679 get_executor(); Executor.py 609 *)
Definition get_executor (s : bst) (t : node) : bst * nat :=
  match n_exec (nodes s t) with
  | Some x => (s, x)
  | None =>
    let x := match n_builder (nodes s t) with
             | Some b => bld_exec (b_action b) (n_env (nodes s t)) [t] (n_sources (nodes s t))
             | None => {| x_null := true; x_actions := []; x_env := None; x_pre := []; x_post := []; x_batches := [([t], [])] |}
             end in
    (set_nodes (new_exec s x) (upd (nodes s) t (with_exec (nodes s t) (next s))), next s)
  end.

Record call := { c_b : builder; c_env : envr; c_tl : list node; c_sl : list node }.
Inductive op := Call (c : call) | Pre (ns : list node) (a : act) | Post (ns : list node) (a : act) | SideEffect (ses ts : list node).

Section B.
(* get_contents() of an action for targets and sources in an environment; batch_key() of an action *)
Context (contents : act -> list node -> list node -> envr -> nat) (batch_key : act -> envr -> list node -> list node -> option nat).

(* Builder.py 291-294: no complaint about the environment *)
Definition same_env (te e : envr) (multi : bool) : bool :=
  Nat.eqb (e_id te) (e_id e)
  || match e_over te, e_over e with Some (s1, o1), Some (s2, o2) => Nat.eqb s1 s2 && Nat.eqb o1 o2 && negb multi | _, _ => false end.
(* Builder.py 282-326 _node_errors: one target *)
Definition node_ok (s : bst) (c : call) (t : node) : bool :=
  let n := nodes s t in
  negb (n_side n) &&
  (if n_explicit n then
     match n_env n with
     | None => true
     | Some te => same_env te (c_env c) (b_multi (c_b c))
                  || match n_builder n with
                     | Some tb => Nat.eqb (contents (b_action tb) (c_tl c) (c_sl c) te) (contents (b_action (c_b c)) (c_tl c) (c_sl c) (c_env c))
                     | None => false
                     end
     end
     && (if b_multi (c_b c)
         then match n_builder n with Some tb => builder_eqb tb (c_b c) | None => false end
              && leqb (match n_exec n with Some x => all_targets (execs s x) | None => [t] end) (c_tl c)
         else leqb (n_sources n) (c_sl c))
   else true).
(* 328-330 *)
Definition errors_free (s : bst) (c : call) : bool :=
  forallb (node_ok s c) (c_tl c) && (negb (b_single (c_b c)) || Nat.leb (length (c_sl c)) 1).

Fixpoint lookup (k : nat) (l : list (nat * nat)) : option nat := match l with [] => None | (k', x) :: r => if Nat.eqb k k' then Some x else lookup k r end.
(* Executor.py 392-400 add_sources; None: not a single batch (assert), or a Null, which has no such method *)
Definition add_sources (x : exec) (sl : list node) : option exec :=
  match x_null x, x_batches x with
  | false, [(ts, ss)] => Some {| x_null := false; x_actions := x_actions x; x_env := x_env x; x_pre := x_pre x; x_post := x_post x; x_batches := [(ts, ss ++ filter (fun y => negb (mem y ss)) sl)] |}
  | _, _ => None
  end.
(* Executor.py 405-411 *)
Definition add_batch (x : exec) (tl sl : list node) : exec :=
  {| x_null := x_null x; x_actions := x_actions x; x_env := x_env x; x_pre := x_pre x; x_post := x_post x; x_batches := x_batches x ++ [(tl, sl)] |}.
(* Builder.py 586-618: the executor for the call *)
Definition find_executor (s : bst) (c : call) : option (bst * nat) :=
  match (if b_multi (c_b c) then match c_tl c with t :: _ => n_exec (nodes s t) | [] => None end else None) with
  | Some i => match add_sources (execs s i) (c_sl c) with Some x => Some (set_exec s i x, i) | None => None end
  | None =>
    let fresh := new_exec s (bld_exec (b_action (c_b c)) (Some (c_env c)) (c_tl c) (c_sl c)) in
    match batch_key (b_action (c_b c)) (c_env c) (c_tl c) (c_sl c) with
    | None => Some (fresh, next s)
    | Some k =>
      match lookup k (keys s) with
      | Some i => Some (set_exec s i (add_batch (execs s i) (c_tl c) (c_sl c)), i)
      | None => Some ({| nodes := nodes fresh; execs := execs fresh; next := next fresh; keys := (k, next s) :: keys fresh |}, next s)
      end
    end
  end.
(* 621-627 *)
Definition set_target (c : call) (x : nat) (n : nd) : nd :=
  {| n_side := n_side n; n_builder := Some (c_b c); n_explicit := b_explicit (c_b c); n_env := Some (c_env c); n_sources := add_child (n_sources n) (c_sl c);
     n_exec := Some x; n_effects := n_effects n |}.
(* 559-633 _execute, with target and source lists; None: an exception *)
Definition do_call (s : bst) (c : call) : option bst :=
  if errors_free s c then
    match find_executor s c with
    | None => None
    | Some (s1, x) => Some (set_nodes s1 (fold_left (fun f t => upd f t (set_target c x (f t))) (c_tl c) (nodes s1)))
    end
  else None.

(* Environment.py 2428-2456; Executor.py 423-427, 638-653 (pre: a pre-action) *)
Definition add_action (pre : bool) (a : act) (x : exec) : exec :=
  let y := if x_null x then {| x_null := false; x_actions := []; x_env := None; x_pre := []; x_post := []; x_batches := x_batches x |} else x in
  {| x_null := false; x_actions := x_actions y; x_env := x_env y; x_pre := if pre then x_pre y ++ [a] else x_pre y; x_post := if pre then x_post y else x_post y ++ [a]; x_batches := x_batches y |}.
Fixpoint executors (s : bst) (ns : list node) : bst * list nat :=
  match ns with [] => (s, []) | n :: r => let (s1, x) := get_executor s n in let (s2, l) := executors s1 r in (s2, x :: l) end.
Definition do_action (pre : bool) (s : bst) (ns : list node) (a : act) : bst :=
  let (s1, l) := executors s ns in fold_left (fun s i => set_exec s i (add_action pre a (execs s i))) (nodup Nat.eq_dec l) s1.

(* Environment.py 2897-2920: one side effect *)
Definition add_effect (se : node) (n : nd) : nd :=
  {| n_side := n_side n; n_builder := n_builder n; n_explicit := n_explicit n; n_env := n_env n; n_sources := n_sources n; n_exec := n_exec n;
     n_effects := if mem se (n_effects n) then n_effects n else n_effects n ++ [se] |}.
Definition mark_side (ts : list node) (n : nd) : nd :=
  {| n_side := true; n_builder := n_builder n; n_explicit := n_explicit n; n_env := n_env n; n_sources := add_child (n_sources n) ts; n_exec := n_exec n; n_effects := n_effects n |}.
Fixpoint do_side (f : node -> nd) (ses ts : list node) : option (node -> nd) :=
  match ses with
  | [] => Some f
  | se :: r =>
    match n_builder (f se) with
    | Some _ => None
    | None => do_side (fold_left (fun f t => upd f t (add_effect se (f t))) ts (upd f se (mark_side ts (f se)))) r ts
    end
  end.

Definition step (s : bst) (o : op) : option bst :=
  match o with
  | Call c => do_call s c
  | Pre ns a => Some (do_action true s ns a)
  | Post ns a => Some (do_action false s ns a)
  | SideEffect ses ts => match do_side (nodes s) ses ts with Some f => Some (set_nodes s f) | None => None end
  end.
(* reading the SConscript files: the calls they make, one after the other *)
Fixpoint run (s : bst) (h : list op) : option bst := match h with [] => Some s | o :: r => match step s o with Some s' => run s' r | None => None end end.
Definition empty : bst :=
  {| nodes := fun _ => {| n_side := false; n_builder := None; n_explicit := false; n_env := None; n_sources := []; n_exec := None; n_effects := [] |};
     execs := fun _ => {| x_null := true; x_actions := []; x_env := None; x_pre := []; x_post := []; x_batches := [] |}; next := 0; keys := [] |}.
End B.
