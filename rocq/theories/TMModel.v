(* Model of SCons/Taskmaster/__init__.py : class Task (state changes) and class Taskmaster,
   together with the per-task protocol of the job loops in SCons/Taskmaster/Job.py.
   No proofs in this file.

   Representation.
   - A node is a number (node identity).  [Entry.disambiguate] morphs an object in place and
     returns the same object, hence the identity here (SCons/Node/FS.py 1036-1078).
   - Python sets (waiting_parents, waiting_s_e, pending_children) are lists; every iteration over
     a Python set goes through the oracle [e_iter], an arbitrary reordering, because the iteration
     order of a Python set is unspecified.
   - The attribute [waiting_parents] of all nodes is one list of edges (child, parent).
   - The stack [candidates] has its top at the head of the list (Python: at the end).
   - Tracing, statistics and display hooks are omitted. *)
From Coq Require Import List Arith ZArith Bool.
Import ListNotations.

Notation node := nat (only parsing).

(* SCons/Node/__init__.py 78-83 and Taskmaster/__init__.py 62-67: node states, in the numeric
   order used by the comparisons [state > NODE_PENDING] and [childstate <= NODE_EXECUTING]. *)
Inductive nstate := NoState | Pending | Executing | UpToDate | Executed | Failed.
Definition rank (s : nstate) : nat :=
  match s with NoState => 0 | Pending => 1 | Executing => 2 | UpToDate => 3 | Executed => 4 | Failed => 5 end.
Definition nstate_eqb (a b : nstate) : bool := rank a =? rank b.

(* What is fixed during a run.
   all_targets n   : Executor.get_all_targets()  of the executor of n  (Executor.py 287-292, 624-625)
   action_targets n: Executor.get_action_targets() (Executor.py 267-273, 620-621).  Simplification:
                     fixed during a run (with $CHANGED_TARGETS it may vary).
   side_effects n  : the attribute Node.side_effects (Node/__init__.py 562, Environment.py SideEffect)
   alter n         : Node.alter_targets() (Node/__init__.py 1688-1692, FS.py 3138-3143), without the message
   tops            : the list of requested targets. *)
Record cfg := {
  all_targets : node -> list node;
  action_targets : node -> list node;
  side_effects : node -> list node;
  alter : node -> list node;
  tops : list node }.

(* Result of Task.make_ready (Taskmaster/__init__.py 369-430): some target out of date, all up to
   date, or an exception (recorded, lines 1032-1041). *)
Inductive ready := ROutOfDate | RUpToDate | RExc.

(* How the job loop ends a task: Task.executed, Task.fail_continue or Task.fail_stop
   (Script/Main.py 239-253 BuildTask.do_failed: --ignore-errors / --keep-going / neither). *)
Inductive outcome := OOk | OFailContinue | OFailStop.

(* What the outside world answers during one step.
   e_kids n  : chain(executor.get_all_prerequisites(), executor.get_all_children()) of n's executor at
               that moment (re-scanned at each consideration); None = the scan raised an exception.
   e_order   : Taskmaster.order (identity by default, shuffling with --random).
   e_ready n : result of make_ready for the task of n.
   e_now     : how the job loop ends a task that is not executed (exception in prepare, or
               needs_execute() false; BuildTask.executed may turn the latter into a failure).
   e_iter    : iteration order of Python sets. *)
Record env := {
  e_kids : node -> option (list node);
  e_order : list node -> list node;
  e_ready : node -> ready;
  e_now : outcome;
  e_iter : list node -> list node }.

(* Observable events, newest first in [trace].
   EStart ts    : the task with targets ts is handed to execute()
   ECurrent ts  : the task was found up to date (or had nothing to build) and ended at once
   EFinish ts   : an executing task ended through executed()
   EFail ts     : a task ended through fail_continue / fail_stop
   EIgnored ts  : a task whose preparation raised an exception was ended through executed()
                  (--ignore-errors)
   EStop        : Taskmaster.stop() was called. *)
Inductive event :=
  | EStart (ts : list node) | ECurrent (ts : list node) | EFinish (ts : list node)
  | EFail (ts : list node) | EIgnored (ts : list node) | EStop.

(* Taskmaster.__init__ (lines 618-636) and the Node attributes state, ref_count, waiting_parents,
   waiting_s_e (Node/__init__.py 546-585). [running] is the list of tasks given to the job loop and not
   yet retired; [seen] (the "Considering node" lines of --taskmastertrace, first occurrence only)
   and [trace] are ghosts. *)
Record tm := {
  nst : node -> nstate;
  refc : node -> Z;
  wpE : list (node * node);        (* (child, waiting parent) *)
  wse : node -> list node;
  pend : list node;                (* pending_children *)
  cands : list node;
  topsleft : list node;
  curtop : option node;
  stopped : bool;                  (* next_candidate == no_next_candidate *)
  running : list (list node);
  seen : list node;                (* ghost: nodes considered at least once, newest first *)
  trace : list event }.

Definition upd {A} (f : node -> A) (n : node) (v : A) : node -> A :=
  fun m => if m =? n then v else f m.

Definition set_nst (s : tm) f := {| nst := f; refc := refc s; wpE := wpE s; wse := wse s; pend := pend s;
  cands := cands s; topsleft := topsleft s; curtop := curtop s; stopped := stopped s; running := running s; seen := seen s; trace := trace s |}.
Definition set_refc (s : tm) f := {| nst := nst s; refc := f; wpE := wpE s; wse := wse s; pend := pend s;
  cands := cands s; topsleft := topsleft s; curtop := curtop s; stopped := stopped s; running := running s; seen := seen s; trace := trace s |}.
Definition set_wpE (s : tm) f := {| nst := nst s; refc := refc s; wpE := f; wse := wse s; pend := pend s;
  cands := cands s; topsleft := topsleft s; curtop := curtop s; stopped := stopped s; running := running s; seen := seen s; trace := trace s |}.
Definition set_wse (s : tm) f := {| nst := nst s; refc := refc s; wpE := wpE s; wse := f; pend := pend s;
  cands := cands s; topsleft := topsleft s; curtop := curtop s; stopped := stopped s; running := running s; seen := seen s; trace := trace s |}.
Definition set_pend (s : tm) f := {| nst := nst s; refc := refc s; wpE := wpE s; wse := wse s; pend := f;
  cands := cands s; topsleft := topsleft s; curtop := curtop s; stopped := stopped s; running := running s; seen := seen s; trace := trace s |}.
Definition set_cands (s : tm) f := {| nst := nst s; refc := refc s; wpE := wpE s; wse := wse s; pend := pend s;
  cands := f; topsleft := topsleft s; curtop := curtop s; stopped := stopped s; running := running s; seen := seen s; trace := trace s |}.
Definition set_tops (s : tm) f c := {| nst := nst s; refc := refc s; wpE := wpE s; wse := wse s; pend := pend s;
  cands := cands s; topsleft := f; curtop := c; stopped := stopped s; running := running s; seen := seen s; trace := trace s |}.
Definition set_stopped (s : tm) b := {| nst := nst s; refc := refc s; wpE := wpE s; wse := wse s; pend := pend s;
  cands := cands s; topsleft := topsleft s; curtop := curtop s; stopped := b; running := running s; seen := seen s; trace := trace s |}.
Definition set_running (s : tm) r := {| nst := nst s; refc := refc s; wpE := wpE s; wse := wse s; pend := pend s;
  cands := cands s; topsleft := topsleft s; curtop := curtop s; stopped := stopped s; running := r; seen := seen s; trace := trace s |}.
Definition set_seen (s : tm) l := {| nst := nst s; refc := refc s; wpE := wpE s; wse := wse s; pend := pend s;
  cands := cands s; topsleft := topsleft s; curtop := curtop s; stopped := stopped s; running := running s; seen := l; trace := trace s |}.
Definition emit (s : tm) e := {| nst := nst s; refc := refc s; wpE := wpE s; wse := wse s; pend := pend s;
  cands := cands s; topsleft := topsleft s; curtop := curtop s; stopped := stopped s; running := running s; seen := seen s; trace := e :: trace s |}.

Definition set1 (s : tm) (n : node) (v : nstate) : tm := set_nst s (upd (nst s) n v).

(* Membership in a Python set/list of nodes. *)
Definition mem (n : node) (l : list node) : bool := existsb (Nat.eqb n) l.
Definition set_add (n : node) (l : list node) : list node := if mem n l then l else n :: l.
Definition remove (n : node) (l : list node) : list node := filter (fun m => negb (m =? n)) l.
Fixpoint dedup (l : list node) : list node :=
  match l with [] => [] | x :: r => x :: remove x (dedup r) end.

(* node.waiting_parents *)
Definition wp (s : tm) (c : node) : list node := map snd (filter (fun e => fst e =? c) (wpE s)).
Definition clear_wp (s : tm) (c : node) : tm := set_wpE s (filter (fun e => negb (fst e =? c)) (wpE s)).
Definition edge_eqb (a b : node * node) : bool := (fst a =? fst b) && (snd a =? snd b).

(* Node/__init__.py 849-861 add_to_waiting_parents; the reference count of the parent is adjusted
   by the caller (Taskmaster/__init__.py 985) with the value returned. *)
Definition wait_for (s : tm) (parent child : node) : tm :=
  if existsb (edge_eqb (child, parent)) (wpE s) then s
  else set_refc (set_wpE s ((child, parent) :: wpE s)) (upd (refc s) parent (refc s parent + 1)%Z).

(* lines 618-636: Taskmaster.__init__ *)
Definition init (c : cfg) : tm :=
  {| nst := fun _ => NoState; refc := fun _ => 0%Z; wpE := []; wse := fun _ => []; pend := [];
     cands := []; topsleft := tops c; curtop := None; stopped := false; running := []; seen := []; trace := [] |}.

(* lines 1050-1093: Taskmaster.will_not_build.  [setfail] is node_func: true for
   [lambda n: n.set_state(NODE_FAILED)], false for the default no-op.  Fuel: see
   TMProofs.wnb_total.  [to_visit.pop()] takes an arbitrary element (head after reordering). *)
Fixpoint wnb (fuel : nat) (e : env) (setfail : bool) (s : tm) (to_visit : list node) : option tm :=
  match e_iter e to_visit with
  | [] => Some s
  | n :: rest =>
    match fuel with
    | O => None
    | S fuel' =>
      let s1 := if setfail then set1 s n Failed else s in
      let parents := wp s1 n in
      let s2 := clear_wp s1 n in
      let s3 := set_pend s2 (filter (fun m => negb (mem m parents)) (pend s2)) in
      let s4 := fold_left (fun s p => set_refc s (upd (refc s) p (refc s p - 1)%Z)) (e_iter e parents) s3 in
      wnb fuel' e setfail s4 (fold_right set_add rest parents)
    end
  end.
Definition will_not_build (fuel : nat) (e : env) (setfail : bool) (s : tm) (nodes : list node) : option tm :=
  wnb fuel e setfail (set_pend s (filter (fun m => negb (mem m nodes)) (pend s))) (dedup nodes).

(* One iteration of the [while True] loop of _find_next_ready_node (lines 836-1012) for a candidate. *)
Inductive considered :=
  | Continue (s : tm)
  | Return (s : tm) (n : node) (exc : bool).

Definition consider (c : cfg) (e : env) (s : tm) (n : node) : considered :=
  (* 866-875: already evaluated nodes are skipped, new ones become pending *)
  if 1 <? rank (nst s n) then Continue s
  else
    let s0 := match nst s n with NoState => set1 s n Pending | _ => s end in
    let s1 := set_seen s0 (set_add n (seen s0)) in
    (* 877-897: children; an exception is recorded and the node returned *)
    match e_kids e n with
    | None => Return s1 n true
    | Some ch =>
      (* 899-921: classification of the children by state *)
      let not_visited := filter (fun k => nstate_eqb (nst s1 k) NoState) ch in
      let pending := filter (fun k => nstate_eqb (nst s1 k) Pending) ch in
      let failed := existsb (fun k => nstate_eqb (nst s1 k) Failed) ch in
      let not_ready := filter (fun k => rank (nst s1 k) <=? 2) ch in
      (* 923-929 *)
      let s2 := set_cands s1 (rev (e_order e (rev not_visited)) ++ cands s1) in
      (* 935-964 *)
      if failed then
        Continue (fold_left (fun s t => set1 s t Failed) (action_targets c n) s2)
      else if negb (match not_ready with [] => true | _ => false end) then
        (* 966-989 *)
        let s3 := fold_left (fun s k => wait_for s n k) not_ready s2 in
        Continue (set_pend s3 (fold_right set_add (pend s3) pending))
      else
        (* 991-1002: executor.get_action_side_effects() (Executor.py 327-335) *)
        let ses := filter (fun se => nstate_eqb (nst s2 se) Executing) (flat_map (side_effects c) (action_targets c n)) in
        match ses with
        | [] => Return s2 n false
        | _ => Continue (fold_left (fun s se => set_wse s (upd (wse s) se (set_add n (wse s se)))) ses s2)
        end
    end.

(* lines 679-713 find_next_candidate, lines 715-726 no_next_candidate: the next candidate if any.
   will_not_build never adds candidates, so the loop of no_next_candidate runs at most once. *)
Inductive candidate := NoFuelC | NoCand (s : tm) | Cand (s : tm) (n : node).
Definition next_candidate (fuel : nat) (c : cfg) (e : env) (s : tm) : candidate :=
  if stopped s then
    match cands s with
    | [] => NoCand s
    | cs => match will_not_build fuel e false (set_cands s []) cs with
            | Some s' => NoCand s' | None => NoFuelC end
    end
  else
    match cands s with
    | n :: rest => Cand (set_cands s rest) n
    | [] =>
      match topsleft s with
      | [] => NoCand s
      | n :: rest =>
        let s1 := set_tops s rest (Some n) in
        match alter c n with
        | [] => Cand s1 n
        | alt => match rev (e_order e alt) ++ [n] with
                 | m :: r => Cand (set_cands s1 r) m
                 | [] => NoCand s1 (* impossible: the list ends with n *)
                 end
        end
      end
    end.

(* lines 811-1013 _find_next_ready_node *)
Inductive found := NoFuel | NoneLeft (s : tm) | Ready (s : tm) (n : node) (exc : bool).
Fixpoint find_ready (fuel : nat) (c : cfg) (e : env) (s : tm) : found :=
  match fuel with
  | O => NoFuel
  | S fuel' =>
    match next_candidate fuel c e s with
    | NoFuelC => NoFuel
    | NoCand s' => NoneLeft s'
    | Cand s' n =>
      match consider c e s' n with
      | Continue s'' => find_ready fuel' c e s''
      | Return s'' m exc => Ready s'' m exc
      end
    end
  end.

(* lines 369-430 make_ready_all / make_ready_current, as far as states are concerned *)
Definition make_ready (c : cfg) (r : ready) (s : tm) (targets : list node) : tm :=
  match r with
  | ROutOfDate =>
      fold_left (fun s t => fold_left (fun s se => set1 s se Executing) (side_effects c t) (set1 s t Executing)) targets s
  | RUpToDate => fold_left (fun s t => set1 s t UpToDate) targets s
  | RExc => s
  end.

(* lines 265-279 / 281-312 executed_with{out}_callbacks: state changes *)
Definition executed (c : cfg) (s : tm) (targets : list node) : tm :=
  fold_left (fun s t =>
    match nst s t with
    | Executing => set1 (fold_left (fun s se => set1 s se NoState) (side_effects c t) s) t Executed
    | _ => s
    end) targets s.

(* lines 434-510 postprocess.  [parents] is the dictionary of the code as a list of keys with
   multiplicity. *)
Definition post1 (e : env) (a : tm * list node) (t : node) : tm * list node :=
  let (s, parents) := a in
  match wp s t with
  | [] => (s, parents)
  | ps => (clear_wp (set_pend s (remove t (pend s))) t, parents ++ e_iter e ps)
  end.
Definition post2 (e : env) (a : tm * list node) (se : node) : tm * list node :=
  let (s, parents) := a in
  let s1 := match nst s se with Executing => set1 s se NoState | _ => s end in
  let (s2, parents2) :=
    match nst s1 se, wp s1 se with
    | NoState, ((_ :: _) as ps) => (clear_wp (set_pend s1 (remove se (pend s1))) se, parents ++ e_iter e ps)
    | _, _ => (s1, parents)
    end in
  let s3 := fold_left (fun s p => if (refc s p =? 0)%Z then set_cands s (p :: cands s) else s) (e_iter e (wse s2 se)) s2 in
  (s3, parents2).
Definition post3 (parents : list node) (s : tm) (p : node) : tm :=
  let r := (refc s p - Z.of_nat (count_occ Nat.eq_dec parents p))%Z in
  let s1 := set_refc s (upd (refc s) p r) in
  if (r =? 0)%Z then set_cands s1 (p :: cands s1) else s1.
Definition postprocess (c : cfg) (e : env) (s : tm) (targets : list node) : tm :=
  let ts := e_iter e (dedup targets) in
  let (s1, ps1) := fold_left (post1 e) ts (s, []) in
  let (s2, ps2) := fold_left (post2 e) (flat_map (side_effects c) ts) (s1, ps1) in
  fold_left (post3 ps2) (dedup ps2) s2.

(* Ending a task: Task.executed / fail_continue (352-367) / fail_stop (324-350), then postprocess.
   Job.py 204-231 (Serial), 366-430 (LegacyParallel), 627-700 (NewParallel): the two calls are made back
   to back by the thread that owns the taskmaster. *)
Definition retire (fuel : nat) (c : cfg) (e : env) (o : outcome) (s : tm) (targets : list node) : option tm :=
  match o with
  | OOk => Some (postprocess c e (executed c s targets) targets)
  | OFailContinue =>
      match will_not_build fuel e true s targets with
      | Some s1 => Some (postprocess c e s1 targets)
      | None => None
      end
  | OFailStop =>
      match will_not_build fuel e true s targets with
      | Some s1 => Some (postprocess c e (emit (set_stopped s1 true) EStop) (match curtop s1 with Some t => [t] | None => [] end))
      | None => None
      end
  end.

(* lines 1015-1048 next_task followed by what the job loops do with a task before giving it to
   execute() (Job.py 197-213 Serial.start, 374-396 LegacyParallel.start, 640-700 NewParallel._work):
   prepare() raises the recorded exception -> failed(); needs_execute() false -> executed(); both
   immediately followed by postprocess().
   Result: [None] = out of fuel; [Some (s, false)] = there was no next task. *)
Definition next_task (fuel : nat) (c : cfg) (e : env) (s : tm) : option (tm * bool) :=
  match find_ready fuel c e s with
  | NoFuel => None
  | NoneLeft s' => Some (s', false)
  | Ready s' n exc =>
    let targets := all_targets c n in
    let s1 := make_ready c (e_ready e n) s' targets in
    let exc := exc || match e_ready e n with RExc => true | _ => false end in
    if exc then
      let ev := match e_now e with OOk => EIgnored targets | _ => EFail targets end in
      option_map (fun s => (s, true)) (retire fuel c e (e_now e) (emit s1 ev) targets)
    else if match targets with t :: _ => nstate_eqb (nst s1 t) Executing | [] => false end then
      Some (emit (set_running s1 (targets :: running s1)) (EStart targets), true)
    else
      let ev := match e_now e with OOk => ECurrent targets | _ => EFail targets end in
      option_map (fun s => (s, true)) (retire fuel c e (e_now e) (emit s1 ev) targets)
  end.

(* The job loop's view: ask for a task, retire one of the running tasks, or stop because of a signal (Job.py 142-147: the handler calls
   Taskmaster.stop(), 1095-1099; it is taken here between two calls of the taskmaster).  The argument of Stop is not used: it makes every
   operation carry an environment. *)
Inductive op :=
  | Next (e : env)
  | Done (i : nat) (o : outcome) (e : env)
  | Stop (e : env).

Fixpoint take_nth (i : nat) (l : list (list node)) : option (list node * list (list node)) :=
  match l, i with
  | [], _ => None
  | x :: r, O => Some (x, r)
  | x :: r, S i => match take_nth i r with Some (y, r') => Some (y, x :: r') | None => None end
  end.

Definition step (fuel : nat) (c : cfg) (s : tm) (o : op) : option tm :=
  match o with
  | Next e => option_map fst (next_task fuel c e s)
  | Done i out e =>
    match take_nth i (running s) with
    | None => Some s
    | Some (ts, rest) =>
      let ev := match out with OOk => EFinish ts | _ => EFail ts end in
      retire fuel c e out (emit (set_running s rest) ev) ts
    end
  | Stop _ => Some (emit (set_stopped s true) EStop)
  end.

Fixpoint run (fuel : nat) (c : cfg) (s : tm) (ops : list op) : option tm :=
  match ops with
  | [] => Some s
  | o :: r => match step fuel c s o with Some s' => run fuel c s' r | None => None end
  end.

(* lines 590-602 find_cycle(stack, visited), following waiting_parents.  The stack is kept with its
   last element at the head; [first] is stack[0].  Returns the final visited set and whether a
   cycle was found, with the stack.  [visited] is shared by all recursive calls. *)
Fixpoint find_cycle (fuel : nat) (s : tm) (e : env) (first : node) (stack visited : list node)
  : option (option (list node) * list node) :=
  match fuel, stack with
  | O, _ => None
  | _, [] => None
  | S fuel', last :: _ =>
    if mem last visited then Some (None, visited)
    else
      (fix loop (ps : list node) (visited : list node) : option (option (list node) * list node) :=
         match ps with
         | [] => Some (None, visited)
         | p :: ps' =>
           let stack' := p :: stack in
           if p =? first then Some (Some (rev stack'), visited)
           else match find_cycle fuel' s e first stack' visited with
                | None => None
                | Some (Some st, v) => Some (Some st, v)
                | Some (None, v) => loop ps' v
                end
         end) (e_iter e (wp s last)) (last :: visited)
  end.

(* lines 1101-1128 cleanup: does it raise "Found dependency cycle(s)"? *)
Definition cleanup_raises (fuel : nat) (e : env) (s : tm) : option bool :=
  (fix go (l : list node) : option bool :=
     match l with
     | [] => Some false
     | n :: r =>
       match find_cycle fuel s e n [n] [] with
       | None => None
       | Some (cyc, _) =>
         match go r with
         | None => None
         | Some b => Some (b || match cyc with Some _ => true | None => false end
                             || negb (nstate_eqb (nst s n) Executed))
         end
       end
     end) (pend s).
