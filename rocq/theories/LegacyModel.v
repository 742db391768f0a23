(* Model of the old scheduler of SCons/Taskmaster/Job.py (used with --experimental=legacy_sched_deprecated): class LegacyParallel (343-432) with
   Worker (234-267) and ThreadPool (270-341), driving the Taskmaster model of TMModel.v.  No proofs.

   One label = one atomic action of the main thread, of a worker, or a signal.  queue.Queue is an unbounded FIFO queue whose get() blocks while it is
   empty.  Simplifications as in JobModel.v: stack sizes are omitted, and so are exceptions that escape from the taskmaster's callbacks. *)
From Coq Require Import List Arith ZArith Bool.
Import ListNotations.
From Verif Require Import TMModel JobModel.

(* Where the main thread is in LegacyParallel.start (371-432) and ThreadPool.cleanup (314-341).
   MSearch    : at the test jobs < self.maxjobs (line 382)
   MWait      : about to take a result (line 409: self.tp.get())
   MGot t ok  : has taken the result of t
   MTest      : about to look whether there are more results (line 428)
   MPut k     : in cleanup, k sentinels still to be put on the request queue
   MJoin k    : in cleanup, k workers joined so far
   MDone      : start() has returned *)
Inductive mpc := MSearch | MWait | MGot (t : task) (ok : bool) | MTest | MPut (k : nat) | MJoin (k : nat) | MDone.
(* Where a worker is in Worker.run (246-267).
   WGet : waits for a request     WStart t : about to look at `interrupted'     WExec t : past that test, in t.execute()
   WPut t ok : about to post the result     WExit : run() has returned *)
Inductive wpc := WGet | WStart (t : task) | WExec (t : task) | WPut (t : task) (ok : bool) | WExit.

Record lp := {
  l_tm : tm; l_ops : list op;                      (* as p_tm, p_ops *)
  l_main : mpc; l_ths : list wpc; l_jobs : nat;
  l_req : list (option task);                      (* requestQueue; None is the sentinel *)
  l_res : list (task * bool);                      (* resultsQueue *)
  l_int : bool;
  l_exec : list task; l_skip : list task; l_done : list (task * bool); l_hist : list (task * bool * outcome) }.   (* ghosts, as in JobModel.np *)

Inductive llabel := Main (fuel : nat) (e : env) (out : outcome) | Work (i : nat) (out : outcome) | LSignal (e : env).

Definition set_main (x : lp) (m : mpc) : lp :=
  {| l_tm := l_tm x; l_ops := l_ops x; l_main := m; l_ths := l_ths x; l_jobs := l_jobs x; l_req := l_req x; l_res := l_res x; l_int := l_int x;
     l_exec := l_exec x; l_skip := l_skip x; l_done := l_done x; l_hist := l_hist x |}.

(* None: the action is not possible (the thread is blocked or has returned) *)
Definition main_step (c : cfg) (n : nat) (x : lp) (fuel : nat) (e : env) (out : outcome) : option lp :=
  match l_main x with
  | MSearch =>
    if l_jobs x <? n then
      match next_task fuel c e (l_tm x) with
      | None => None
      | Some (s, found) =>
        let mk m jobs req := Some {| l_tm := s; l_ops := l_ops x ++ [Next e]; l_main := m; l_ths := l_ths x; l_jobs := jobs; l_req := req; l_res := l_res x;
            l_int := l_int x; l_exec := l_exec x; l_skip := l_skip x; l_done := l_done x; l_hist := l_hist x |} in
        if found then
          if length (running (l_tm x)) <? length (running s) then
            match running s with
            | t :: _ => mk MSearch (S (l_jobs x)) (l_req x ++ [Some t])      (* 395-398: dispatch *)
            | [] => None
            end
          else mk MSearch (l_jobs x) (l_req x)                               (* 390-393, 399-401: ended at once, search on *)
        else mk (if l_jobs x =? 0 then MPut n else MWait) (l_jobs x) (l_req x)   (* 384-385, 403-404 *)
      end
    else Some (set_main x MWait)                                             (* maxjobs reached; task is not None *)
  | MWait =>
    match l_res x with
    | [] => None
    | (t, ok) :: r => Some {| l_tm := l_tm x; l_ops := l_ops x; l_main := MGot t ok; l_ths := l_ths x; l_jobs := l_jobs x - 1; l_req := l_req x; l_res := r; l_int := l_int x;
         l_exec := l_exec x; l_skip := l_skip x; l_done := l_done x; l_hist := l_hist x |}
    end
  | MGot t ok =>
    let res := if ok then OOk else out in
    let o := Done (index_of t (running (l_tm x))) res e in
    match step fuel c (l_tm x) o with
    | None => None
    | Some s => Some {| l_tm := s; l_ops := l_ops x ++ [o]; l_main := MTest; l_ths := l_ths x; l_jobs := l_jobs x; l_req := l_req x; l_res := l_res x; l_int := l_int x;
         l_exec := l_exec x; l_skip := l_skip x; l_done := l_done x; l_hist := (t, ok, res) :: l_hist x |}
    end
  | MTest => Some (set_main x (match l_res x with [] => MSearch | _ => MWait end))
  | MPut 0 => Some (set_main x (MJoin 0))
  | MPut (S k) => Some {| l_tm := l_tm x; l_ops := l_ops x; l_main := MPut k; l_ths := l_ths x; l_jobs := l_jobs x; l_req := l_req x ++ [None]; l_res := l_res x; l_int := l_int x;
         l_exec := l_exec x; l_skip := l_skip x; l_done := l_done x; l_hist := l_hist x |}
  | MJoin k => Some (set_main x (if k <? n then MJoin (S k) else MDone))      (* join(1.0): returns when the worker is done, or after a second *)
  | MDone => None
  end.

Definition set_worker (x : lp) (i : nat) (w : wpc) (req : list (option task)) (res : list (task * bool)) (ex sk : list task) (dn : list (task * bool)) : lp :=
  {| l_tm := l_tm x; l_ops := l_ops x; l_main := l_main x; l_ths := set_nth i w (l_ths x); l_jobs := l_jobs x; l_req := req; l_res := res; l_int := l_int x;
     l_exec := ex; l_skip := sk; l_done := dn; l_hist := l_hist x |}.
Definition worker_step (x : lp) (i : nat) (out : outcome) : option lp :=
  match nth_error (l_ths x) i with
  | None | Some WExit => None
  | Some WGet =>
    match l_req x with
    | [] => None
    | None :: r => Some (set_worker x i WExit r (l_res x) (l_exec x) (l_skip x) (l_done x))
    | Some t :: r => Some (set_worker x i (WStart t) r (l_res x) (l_exec x) (l_skip x) (l_done x))
    end
  | Some (WStart t) =>
    if l_int x then Some (set_worker x i (WPut t false) (l_req x) (l_res x) (l_exec x) (t :: l_skip x) (l_done x))
    else Some (set_worker x i (WExec t) (l_req x) (l_res x) (t :: l_exec x) (l_skip x) (l_done x))
  | Some (WExec t) =>
    let ok := match out with OOk => true | _ => false end in
    Some (set_worker x i (WPut t ok) (l_req x) (l_res x) (l_exec x) (l_skip x) ((t, ok) :: l_done x))
  | Some (WPut t ok) => Some (set_worker x i WGet (l_req x) (l_res x ++ [(t, ok)]) (l_exec x) (l_skip x) (l_done x))
  end.

Definition lp_step (c : cfg) (n : nat) (x : lp) (l : llabel) : option lp :=
  match l with
  | Main fuel e out => main_step c n x fuel e out
  | Work i out => worker_step x i out
  | LSignal e =>
    match step 0 c (l_tm x) (Stop e) with
    | Some s => Some {| l_tm := s; l_ops := l_ops x ++ [Stop e]; l_main := l_main x; l_ths := l_ths x; l_jobs := l_jobs x; l_req := l_req x; l_res := l_res x; l_int := true;
         l_exec := l_exec x; l_skip := l_skip x; l_done := l_done x; l_hist := l_hist x |}
    | None => None
    end
  end.
(* __init__ (350-369): n workers *)
Definition lp_init (c : cfg) (n : nat) : lp :=
  {| l_tm := init c; l_ops := []; l_main := MSearch; l_ths := repeat WGet n; l_jobs := 0; l_req := []; l_res := []; l_int := false; l_exec := []; l_skip := []; l_done := []; l_hist := [] |}.
Fixpoint lp_run (c : cfg) (n : nat) (x : lp) (ls : list llabel) : option lp :=
  match ls with [] => Some x | l :: r => match lp_step c n x l with Some y => lp_run c n y r | None => None end end.
