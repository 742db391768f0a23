(* Model of SCons/Taskmaster/Job.py, class NewParallel (lines 435-759): the leader/follower parallel
   scheduler, driving the Taskmaster model of TMModel.v.  No proofs.

   A thread is a program counter; one label = one atomic action of one thread, chosen by an arbitrary
   scheduler.  The code between acquiring and releasing tm_lock is split into several actions; the lock is
   held exactly while the program counter is Drain, Retiring or Searching.
   Simplifications: tracing and stack sizes are omitted; Condition.wait has no spurious
   wake-ups; the exceptions that _work itself does not catch (raised by the taskmaster's own callbacks)
   are not modelled.  Whether execute() succeeds is arbitrary, and so is what failed() amounts to (fail_stop, fail_continue or, with
   --ignore-errors, executed()).  A signal (SIGINT, SIGTERM, SIGHUP: Jobs._setup_sig_handler, 113-157) may arrive between any two actions; its
   handler stops the taskmaster and sets `interrupted'. *)
From Coq Require Import List Arith ZArith Bool.
Import ListNotations.
From Verif Require Import TMModel.

Notation task := (list nat) (only parsing).   (* a task is identified by its targets *)

(* lines 437-441 State *)
Inductive pstate := Ready_ | Searching_ | Stalled_ | Completed_.

(* Where a thread is in _work (lines 565-759).
   Top b      : top of the loop, about to acquire tm_lock; b = (task is not None)
   Waiting    : in can_search_cv.wait() (line 603)
   Woken      : notified, about to re-acquire tm_lock
   Drain      : state was set to SEARCHING, about to swap the results queue (lines 612-628)
   Retiring q : processing the swapped results (lines 631-647)
   Searching  : in the loop of lines 658-726
   Start t    : has task t and released the lock, about to look at `interrupted' (lines 731-738)
   Exec t     : past the test of `interrupted', in t.execute() (line 739)
   Enq t ok   : t executed (ok: without exception) or not executed because interrupted (ok = false), about to
                append it to the results queue (lines 752-753)
   Exited     : _work returned *)
Inductive pc :=
  | Top (completed : bool) | Waiting | Woken | Drain | Retiring (q : list (task * bool)) | Searching
  | Start (t : task) | Exec (t : task) | Enq (t : task) (ok : bool) | Exited.

Record np := {
  p_tm : tm;                    (* the taskmaster *)
  p_ops : list op;              (* ghost: requests and completions made so far, oldest first *)
  p_ths : list pc;              (* worker threads, in order of creation *)
  p_state : pstate;
  p_jobs : Z;
  p_queue : list (task * bool);  (* results_queue *)
  p_joined : nat;               (* workers joined and popped by start() (lines 527-529) *)
  p_exec : list task;           (* ghost: tasks whose execute() was called, newest first *)
  p_ret : list task;            (* ghost: tasks that were retired, newest first *)
  p_int : bool;                 (* interrupted *)
  p_skip : list task;           (* ghost: tasks not executed because of an interrupt, newest first *)
  p_hist : list (task * bool * outcome);   (* ghost: retired tasks with the result recorded for them and what was made of it, newest first *)
  p_done : list (task * bool) }.           (* ghost: calls of execute() that returned (true) or raised an exception (false), newest first *)

Definition holds (p : pc) : bool := match p with Drain | Retiring _ | Searching => true | _ => false end.
Definition locked (ths : list pc) : bool := existsb holds ths.
Fixpoint set_nth {A} (i : nat) (v : A) (l : list A) : list A :=
  match l, i with [], _ => [] | _ :: r, O => v :: r | x :: r, S i => x :: set_nth i v r end.
Definition waiting (p : pc) : bool := match p with Waiting => true | _ => false end.
(* Condition.notify(): wakes one waiting thread, if any.  [w] selects which. *)
Definition notify (w : nat) (ths : list pc) : list pc :=
  match nth_error ths w with
  | Some Waiting => set_nth w Woken ths
  | _ => (fix first l := match l with [] => [] | Waiting :: r => Woken :: r | p :: r => p :: first r end) ths
  end.
Definition notify_all (ths : list pc) : list pc := map (fun p => match p with Waiting => Woken | p => p end) ths.

(* lines 532-535 _maybe_start_worker *)
Definition maybe_start (n : nat) (jobs : Z) (joined : nat) (ths : list pc) : list pc :=
  let len := length ths - joined in
  if (1 <? n) && (len <? n) && (Z.of_nat len <=? jobs)%Z then ths ++ [Top false] else ths.

Fixpoint task_eqb (a b : task) : bool :=
  match a, b with [], [] => true | x :: a, y :: b => (x =? y) && task_eqb a b | _, _ => false end.
(* position of a task among the outstanding ones *)
Fixpoint index_of (t : task) (l : list task) : nat :=
  match l with [] => 0 | x :: r => if task_eqb t x then 0 else S (index_of t r) end.

Definition put (x : np) i p st : np :=
  {| p_tm := p_tm x; p_ops := p_ops x; p_ths := set_nth i p (p_ths x); p_state := st; p_jobs := p_jobs x;
     p_queue := p_queue x; p_joined := p_joined x; p_exec := p_exec x; p_ret := p_ret x; p_int := p_int x; p_skip := p_skip x; p_hist := p_hist x; p_done := p_done x |}.

(* lines 600-619: decide, with the lock held, whether to wait, leave, or search *)
Definition enter (x : np) (i : nat) (st : pstate) : np :=
  match st with
  | Searching_ | Stalled_ => put x i Waiting st
  | Completed_ => put x i Exited st
  | Ready_ => put x i Drain Searching_
  end.

Inductive label :=
  | Act (i : nat) (fuel : nat) (e : env) (out : outcome) (w : nat)   (* one action of thread i *)
  | Join                                                              (* main thread: workers[0].join(); pop(0) *)
  | Signal (e : env).                                                 (* the signal handler runs (e is not used) *)

(* None: the action is not possible in this state *)
Definition np_step (c : cfg) (n : nat) (x : np) (l : label) : option np :=
  match l with
  | Join =>
    match nth_error (p_ths x) (p_joined x) with
    | Some Exited => Some {| p_tm := p_tm x; p_ops := p_ops x; p_ths := p_ths x; p_state := p_state x; p_jobs := p_jobs x;
                             p_queue := p_queue x; p_joined := S (p_joined x); p_exec := p_exec x; p_ret := p_ret x; p_int := p_int x; p_skip := p_skip x; p_hist := p_hist x; p_done := p_done x |}
    | _ => None
    end
  | Signal e =>
    (* 142-147: taskmaster.stop(); interrupted.set() *)
    match step 0 c (p_tm x) (Stop e) with
    | Some s => Some {| p_tm := s; p_ops := p_ops x ++ [Stop e]; p_ths := p_ths x; p_state := p_state x; p_jobs := p_jobs x;
                        p_queue := p_queue x; p_joined := p_joined x; p_exec := p_exec x; p_ret := p_ret x; p_int := true; p_skip := p_skip x; p_hist := p_hist x; p_done := p_done x |}
    | None => None
    end
  | Act i fuel e out w =>
    match nth_error (p_ths x) i with
    | None | Some Waiting | Some Exited => None
    | Some (Top b) =>
        (* 572-609 *)
        if locked (p_ths x) then None
        else Some (enter x i (match p_state x, b with Stalled_, true => Ready_ | st, _ => st end))
    | Some Woken => if locked (p_ths x) then None else Some (enter x i (p_state x))
    | Some Drain =>
        Some {| p_tm := p_tm x; p_ops := p_ops x; p_ths := set_nth i (Retiring (p_queue x)) (p_ths x); p_state := p_state x; p_jobs := p_jobs x;
                p_queue := []; p_joined := p_joined x; p_exec := p_exec x; p_ret := p_ret x; p_int := p_int x; p_skip := p_skip x; p_hist := p_hist x; p_done := p_done x |}
    | Some (Retiring []) => Some (put x i Searching (p_state x))
    | Some (Retiring ((t, ok) :: q)) =>
        (* 631-645: executed() if ok, else failed() *)
        let res := if ok then OOk else out in
        let o := Done (index_of t (running (p_tm x))) res e in
        match step fuel c (p_tm x) o with
        | None => None
        | Some s => Some {| p_tm := s; p_ops := p_ops x ++ [o]; p_ths := set_nth i (Retiring q) (p_ths x); p_state := p_state x; p_jobs := p_jobs x - 1;
                            p_queue := p_queue x; p_joined := p_joined x; p_exec := p_exec x; p_ret := t :: p_ret x; p_int := p_int x; p_skip := p_skip x; p_hist := (t, ok, res) :: p_hist x; p_done := p_done x |}
        end
    | Some Searching =>
        match next_task fuel c e (p_tm x) with
        | None => None
        | Some (s, found) =>
          let mk ths st jobs := Some {| p_tm := s; p_ops := p_ops x ++ [Next e]; p_ths := ths; p_state := st; p_jobs := jobs;
                   p_queue := p_queue x; p_joined := p_joined x; p_exec := p_exec x; p_ret := p_ret x; p_int := p_int x; p_skip := p_skip x; p_hist := p_hist x; p_done := p_done x |} in
          if found then
            if length (running (p_tm x)) <? length (running s) then
              (* the task needs execution: 683-694 *)
              match running s with
              | t :: _ => mk (maybe_start n (p_jobs x + 1) (p_joined x) (notify w (set_nth i (Start t) (p_ths x)))) Ready_ (p_jobs x + 1)%Z
              | [] => None
              end
            else mk (p_ths x) Searching_ (p_jobs x)     (* 668-682: finished at once, search on *)
          else if (p_jobs x =? 0)%Z then mk (notify_all (set_nth i (Top false) (p_ths x))) Completed_ (p_jobs x)   (* 714-726 *)
          else mk (set_nth i (Top false) (p_ths x)) Stalled_ (p_jobs x)                                             (* 700-712 *)
        end
    | Some (Start t) =>
        if p_int x then
          Some {| p_tm := p_tm x; p_ops := p_ops x; p_ths := set_nth i (Enq t false) (p_ths x); p_state := p_state x; p_jobs := p_jobs x;
                  p_queue := p_queue x; p_joined := p_joined x; p_exec := p_exec x; p_ret := p_ret x; p_int := p_int x; p_skip := t :: p_skip x; p_hist := p_hist x; p_done := p_done x |}
        else
          Some {| p_tm := p_tm x; p_ops := p_ops x; p_ths := set_nth i (Exec t) (p_ths x); p_state := p_state x; p_jobs := p_jobs x;
                  p_queue := p_queue x; p_joined := p_joined x; p_exec := t :: p_exec x; p_ret := p_ret x; p_int := p_int x; p_skip := p_skip x; p_hist := p_hist x; p_done := p_done x |}
    | Some (Exec t) =>
        let ok := match out with OOk => true | _ => false end in
        Some {| p_tm := p_tm x; p_ops := p_ops x; p_ths := set_nth i (Enq t ok) (p_ths x); p_state := p_state x; p_jobs := p_jobs x;
                p_queue := p_queue x; p_joined := p_joined x; p_exec := p_exec x; p_ret := p_ret x; p_int := p_int x; p_skip := p_skip x; p_hist := p_hist x; p_done := (t, ok) :: p_done x |}
    | Some (Enq t ok) =>
        Some {| p_tm := p_tm x; p_ops := p_ops x; p_ths := set_nth i (Top true) (p_ths x); p_state := p_state x; p_jobs := p_jobs x;
                p_queue := p_queue x ++ [(t, ok)]; p_joined := p_joined x; p_exec := p_exec x; p_ret := p_ret x; p_int := p_int x; p_skip := p_skip x; p_hist := p_hist x; p_done := p_done x |}
    end
  end.

(* start() with its first (or only) worker: lines 475-507, 522-530 *)
Definition np_init (c : cfg) : np :=
  {| p_tm := init c; p_ops := []; p_ths := [Top false]; p_state := Ready_; p_jobs := 0; p_queue := []; p_joined := 0; p_exec := []; p_ret := [];
     p_int := false; p_skip := []; p_hist := []; p_done := [] |}.

Fixpoint np_run (c : cfg) (n : nat) (x : np) (ls : list label) : option np :=
  match ls with [] => Some x | l :: r => match np_step c n x l with Some y => np_run c n y r | None => None end end.
