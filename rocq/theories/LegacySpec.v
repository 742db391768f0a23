(* Vocabulary for the properties of the old scheduler (LegacyParallel) (C09c, C10d, C11c, C53g). *)
From Coq Require Import List Arith ZArith Bool.
Import ListNotations.
From Verif Require Import TMModel TMSpec JobModel JobSpec LegacyModel.

Definition llabel_ok (c : cfg) (l : llabel) : Prop := match l with Main _ e _ => env_ok c e | Work _ _ => True | LSignal e => env_ok c e end.
Definition llabel_env (l : llabel) : option env := match l with Main _ e _ => Some e | Work _ _ => None | LSignal e => Some e end.
(* x is a state of LegacyParallel with -j n after some interleaving of the main thread, the workers and signals *)
Definition lp_reachable (c : cfg) (n : nat) (ls : list llabel) (x : lp) : Prop :=
  Forall (llabel_ok c) ls /\ lp_run c n (lp_init c n) ls = Some x.
(* a worker is inside task.execute() *)
Definition l_executing (x : lp) : list task := flat_map (fun w => match w with WExec t => [t] | _ => [] end) (l_ths x).
(* on the request queue, or taken by a worker that has not begun to execute it *)
Definition l_waiting (x : lp) : list task :=
  flat_map (fun r => match r with Some t => [t] | None => [] end) (l_req x) ++ flat_map (fun w => match w with WStart t => [t] | _ => [] end) (l_ths x).
(* results on their way to the taskmaster *)
Definition l_transit (x : lp) : list (task * bool) :=
  flat_map (fun w => match w with WPut t ok => [(t, ok)] | _ => [] end) (l_ths x) ++ l_res x ++ match l_main x with MGot t ok => [(t, ok)] | _ => [] end.
(* what the taskmaster was told *)
Definition l_told (x : lp) : list (task * bool) := map fst (l_hist x).
Definition l_returned (x : lp) : Prop := l_main x = MDone.
Definition l_unfinished (x : lp) : Prop := l_main x <> MDone \/ exists w, In w (l_ths x) /\ w <> WExit.
