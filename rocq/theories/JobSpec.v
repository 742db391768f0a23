(* Vocabulary for the parallel scheduler properties C09-C11. *)
From Coq Require Import List Arith ZArith Bool.
Import ListNotations.
From Verif Require Import TMModel TMSpec JobModel.

(* x is a state of the scheduler with -j n after some interleaving of thread actions; the answers of the
   outside world are well formed (TMSpec.env_ok). *)
Definition label_ok (c : cfg) (l : label) : Prop := match l with Act _ _ e _ _ => env_ok c e | Join => True | Signal e => env_ok c e end.
Definition np_reachable (c : cfg) (n : nat) (ls : list label) (x : np) : Prop :=
  Forall (label_ok c) ls /\ np_run c n (np_init c) ls = Some x.

(* tasks being executed right now (a worker is inside task.execute()) *)
Definition executing (x : np) : list task := flat_map (fun p => match p with Exec t => [t] | _ => [] end) (p_ths x).
(* handed to a worker, which has not yet begun to execute it *)
Definition starting (x : np) : list task := flat_map (fun p => match p with Start t => [t] | _ => [] end) (p_ths x).
(* executed, or passed over because of a signal; result not yet handed to the taskmaster *)
Definition enqueueing (x : np) : list task := flat_map (fun p => match p with Enq t _ => [t] | _ => [] end) (p_ths x).
Definition enqueued (x : np) : list task := map fst (p_queue x).
Definition retiring (x : np) : list task := flat_map (fun p => match p with Retiring q => map fst q | _ => [] end) (p_ths x).
(* tasks handed out for execution by the taskmaster, newest first *)
Definition handed (tr : list event) : list task := flat_map (fun e => match e with EStart ts => [ts] | _ => [] end) tr.
(* threads inside the region protected by the taskmaster lock *)
Definition in_critical_section (x : np) : list pc := filter holds (p_ths x).
(* some worker has not returned from its work function *)
Definition unfinished (x : np) : Prop := exists p, In p (p_ths x) /\ p <> Exited.
(* The engine had no task left when it was last asked, nothing being outstanding; only signals arrived since. *)
Inductive over (c : cfg) : list op -> tm -> Prop :=
  | over_ended ops s : ended c ops s -> over c ops s
  | over_signal ops s e : over c ops s -> over c (ops ++ [Stop e]) (emit (set_stopped s true) EStop).
(* the answers of the outside world used by an action *)
Definition label_env (l : label) : option env := match l with Act _ _ e _ _ => Some e | Signal e => Some e | Join => None end.

(* ---- C53: signals ---- *)
(* results on their way to the taskmaster: about to be enqueued, in the results queue, being retired *)
Definition in_transit (x : np) : list (task * bool) :=
  flat_map (fun p => match p with Enq t ok => [(t, ok)] | _ => [] end) (p_ths x) ++ p_queue x
  ++ flat_map (fun p => match p with Retiring q => q | _ => [] end) (p_ths x).
Definition not_executed (t : task) : task * bool := (t, false).
Definition is_signal (l : label) : bool := match l with Signal _ => true | _ => false end.
(* actions of workers and of the main thread *)
Definition actions (ls : list label) : list label := filter (fun l => negb (is_signal l)) ls.
(* nothing is left to do: all workers returned and were joined *)
Definition all_joined (x : np) : Prop := ~ unfinished x /\ p_joined x = length (p_ths x).
