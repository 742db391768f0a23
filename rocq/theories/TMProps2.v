(* Build-engine properties C06, C08 (SCons/Taskmaster) and counterexamples.  Vocabulary in TMSpec.v. *)
From Coq Require Import List Arith ZArith Bool Lia Permutation.
Import ListNotations.
From Verif Require Import TMModel TMSpec TMSafe TMEnd TMTerm TMSide TMProps.

(* C06.  Finite graph: all answers stay inside the list [U] (cycles allowed).  In every reachable state
   every request (and every completion) returns: the same result for every sufficiently large
   number of loop iterations. *)
Theorem C06_requests_terminate : forall c U ops s o,
  cfg_wf c -> incl (tops c) U -> (forall n, In n U -> incl (alter c n) U) ->
  (forall o' n ch, In o' (o :: ops) -> In n U -> e_kids (op_env o') n = Some ch -> incl ch U) ->
  reachable c ops s -> env_ok c (op_env o) ->
  exists F s', forall fuel, fuel >= F -> step fuel c s o = Some s'.
Proof.
  intros c U ops s o W HT HA HK R Eo. apply (request_terminates c U HT HA ops s o W R); [|exact Eo|].
  - apply Forall_forall. intros o' Ho n ch Hn Hk. apply (HK o' n ch); [right; exact Ho | exact Hn | exact Hk].
  - intros n ch Hn Hk. apply (HK o n ch); [left; reflexivity | exact Hn | exact Hk].
Qed.
Print Assumptions C06_requests_terminate.

(* C06b.  And at most |U| tasks are ever handed out in a run (no side effects). *)
Theorem C06b_tasks_bounded : forall c U ops s,
  cfg_wf c -> (forall n, ~ is_side_effect c n) -> reachable c ops s ->
  (forall ts, In (EStart ts) (trace s) \/ In (ECurrent ts) (trace s) -> incl ts U) ->
  length (filter (fun ev => match ev with EStart _ | ECurrent _ => true | _ => false end) (trace s)) <= length U.
Proof.
  intros c U ops s W N R H. pose proof (reachable_dinv c ops s W R) as D.
  apply (once_count c U (trace s) (di_once _ _ D) N). intros ts Ht. split; [|apply H; exact Ht].
  destruct (di_tgt _ _ D ts Ht) as [m ->]. intros E. pose proof (cw_self c W m) as X. rewrite E in X. exact X.
Qed.
Print Assumptions C06b_tasks_bounded.

Example C06_witness : incl (tops dc) [0; 1; 2] /\ (forall n ch, In n [0; 1; 2] -> e_kids ce n = Some ch -> incl ch [0; 1; 2]) /\ depends ck 1 1.
Proof.
  split; [intros x [<-|[]]; simpl; auto|]. split.
  - intros n ch [<-|[<-|[<-|[]]]] H; cbn in H; injection H as <-; intros x [<-|[]]; simpl; auto.
  - apply depS with 2; [simpl; auto | apply dep1; simpl; auto].
Qed.

(* C08.  Without --keep-going (and no swallowed exceptions) two outstanding tasks never share a side
   effect.  The graph is fixed. *)
Theorem C08_side_effects_exclusive : forall c kids ops s a b t u x,
  cfg_wf c -> graph_wf c kids -> side_effects_on_action c -> reachable c ops s -> static kids ops -> stops_on_failure ops ->
  (forall ts, ~ In (EIgnored ts) (trace s)) ->
  outstanding_pair s a b -> In t a -> In u b -> In x (side_effects c t) -> In x (side_effects c u) -> False.
Proof.
  intros c kids ops s a b t u x W G SA R St Sf Ni P Ht Hu Hxt Hxu.
  apply (side_exclusive c kids W G SA ops s a b x R St Sf Ni P); apply in_flat_map; eauto.
Qed.
Print Assumptions C08_side_effects_exclusive.

Section Witness2.
Ltac xok := repeat (constructor; [cbn; do 2 eexists; reflexivity|]); constructor.
(* 1, 2 and 3 all write the log file 0, which therefore depends on them; 2 also needs 4 *)
Definition lk (n : node) : list node := match n with 0 => [1; 2; 3] | 2 => [4] | _ => [] end.
Definition lse (n : node) : list node := match n with 1 | 2 | 3 => [0] | _ => [] end.
Definition le_ := xenv lk (fun _ => ROutOfDate) OOk.
Definition lc (tp : list node) := xcfg lse tp.
Lemma lc_wf tp : cfg_wf (lc tp).
Proof. apply xcfg_wf. intros n t H. destruct t as [|[|[|[|t]]]]; simpl in H; intuition subst; reflexivity. Qed.
Lemma lg_wf tp : graph_wf (lc tp) lk.
Proof.
  constructor; cbn; [intros n t [->|[]]; reflexivity|].
  intros s t H. destruct t as [|[|[|[|t]]]]; simpl in H; intuition subst; simpl; auto.
Qed.
Lemma l_acyclic : acyclic lk.
Proof.
  assert (H : forall n m, depends lk n m -> n < m).
  { intros n m H. induction H as [n m H|n k m H _ IH]; [|assert (n < k); [|lia]]; revert H; destruct n as [|[|[|n]]]; simpl; intuition lia. }
  intros n Hn. apply H in Hn. lia.
Qed.
Lemma lc_action tp : side_effects_on_action (lc tp).
Proof. intros n t H _; exact H. Qed.

Lemma run_some2 c ops (P : tm -> Prop) : match run 50 c (init c) ops with Some s => P s | None => False end ->
  exists s, run 50 c (init c) ops = Some s /\ P s.
Proof. destruct (run 50 c (init c) ops) as [s|]; [|tauto]. intros H; exists s; auto. Qed.

(* hypotheses of C08 met while two tasks are outstanding: 4 and one of the writers *)
Example C08_witness : exists s, reachable (lc [0]) [Next le_; Next le_] s /\ static lk [Next le_; Next le_] /\ stops_on_failure [Next le_; Next le_]
  /\ trace s = [EStart [4]; EStart [1]] /\ running s = [[4]; [1]] /\ side_effects (lc [0]) 1 = [0].
Proof.
  destruct (run_some2 (lc [0]) [Next le_; Next le_] (fun s => trace s = [EStart [4]; EStart [1]] /\ running s = [[4]; [1]])) as (s & Hs & T & R); [vm_compute; auto|].
  destruct (xreach (lc [0]) lk [Next le_; Next le_]) as [A B]; [xok | apply xenv_ok|].
  exists s. split; [split; [exact A | exists 50; exact Hs]|]. split; [exact B|]. split; [repeat constructor; discriminate|]. auto.
Qed.

(* C08 refuted with --keep-going: node 4 fails while 1 (which writes 0) is running; the failure of 2 propagates to the log file 0,
   which loses its "executing" mark, and 3 (which writes 0 as well) is started beside 1. *)
Theorem C08_keep_going_refuted : exists c kids ops s a b x,
  cfg_wf c /\ graph_wf c kids /\ side_effects_on_action c /\ acyclic kids /\ reachable c ops s /\ static kids ops
  /\ (forall ts, ~ In (EIgnored ts) (trace s))
  /\ running s = [[a]; [b]] /\ In x (side_effects c a) /\ In x (side_effects c b).
Proof.
  pose (ops := [Next le_; Next le_; Done 0 OFailContinue le_; Next le_]).
  exists (lc [0]), lk, ops.
  destruct (run_some2 (lc [0]) ops (fun s => trace s = [EStart [3]; EFail [4]; EStart [4]; EStart [1]] /\ running s = [[3]; [1]])) as (s & Hs & T & R); [vm_compute; auto|].
  destruct (xreach (lc [0]) lk ops) as [A B]; [unfold ops; xok | apply xenv_ok|].
  exists s, 3, 1, 0. split; [apply lc_wf|]. split; [apply lg_wf|]. split; [apply lc_action|]. split; [apply l_acyclic|].
  split; [split; [exact A | exists 50; exact Hs]|]. split; [exact B|].
  split; [intros ts; rewrite T; simpl; intuition discriminate|]. split; [exact R|]. split; simpl; auto.
Qed.
Print Assumptions C08_keep_going_refuted.

(* C05 refuted when a requested target is itself a side effect of a running task: targets 1 and then 0, asked for while
   1 is running.  0 is skipped as "executing", 2 and 3 are never built. *)
Theorem C05_side_effect_target_refuted : exists c kids ops s t n,
  cfg_wf c /\ graph_wf c kids /\ acyclic kids /\ ended c ops s /\ static kids ops /\ no_failure (trace s)
  /\ In t (tops c) /\ depends0 kids t n /\ ~ finished (trace s) n /\ ~ finished (trace s) t.
Proof.
  pose (ops := [Next le_; Next le_; Done 0 OOk le_]).
  exists (lc [1; 0]), lk, (ops ++ [Next le_]).
  destruct (ended_ex (lc [1; 0]) ops le_ [EFinish [1]; EStart [1]]) as (s & He & T);
    [apply xenv_ok | apply (xreach (lc [1; 0]) lk ops); [unfold ops; xok | apply xenv_ok] | vm_compute; auto|].
  exists s, 0, 2. split; [apply lc_wf|]. split; [apply lg_wf|]. split; [apply l_acyclic|]. split; [exact He|].
  split; [apply (xreach (lc [1; 0]) lk (ops ++ [Next le_])); [unfold ops; xok | apply xenv_ok]|].
  assert (F : forall q, finished (trace s) q -> q = 1).
  { intros q (ts & Q1 & Q2). rewrite T in Q2. simpl in Q2. destruct Q2 as [[Q|[Q|[]]]|[[Q|[Q|[]]]|[Q|[Q|[]]]]]; try discriminate.
    injection Q as <-. destruct Q1 as [<-|[]]; reflexivity. }
  split; [rewrite T; split; [simpl; intuition discriminate | intros ts; simpl; split; intuition discriminate]|].
  split; [simpl; auto|]. split; [apply d1 with 2; [simpl; auto | apply d0]|]. split; intros X; apply F in X; discriminate.
Qed.
Print Assumptions C05_side_effect_target_refuted.
End Witness2.
