(* Specification vocabulary for the build-engine properties.  It mentions only the events a user can
   observe (a task starts, ends, fails, is found up to date) and the dependency graph. *)
From Coq Require Import List Arith Permutation.
Import ListNotations.
From Verif Require Import TMModel.

(* Observations about a trace (newest event first). *)
Definition handed_out (tr : list event) (n : node) : Prop :=   (* a task for n was issued *)
  exists ts, In n ts /\ (In (EStart ts) tr \/ In (ECurrent ts) tr).
Definition finished (tr : list event) (n : node) : Prop :=     (* n was built successfully or found up to date *)
  exists ts, In n ts /\ (In (EFinish ts) tr \/ In (ECurrent ts) tr \/ In (EIgnored ts) tr).
Definition failed (tr : list event) (n : node) : Prop :=       (* a task with target n failed *)
  exists ts, In n ts /\ In (EFail ts) tr.

(* n depends on m through one or more / zero or more dependency edges *)
Inductive depends (kids : node -> list node) : node -> node -> Prop :=
  | dep1 n m : In m (kids n) -> depends kids n m
  | depS n k m : In k (kids n) -> depends kids k m -> depends kids n m.
Inductive depends0 (kids : node -> list node) : node -> node -> Prop :=
  | d0 n : depends0 kids n n
  | d1 n k m : In k (kids n) -> depends0 kids k m -> depends0 kids n m.

(* Well-formed configurations, as built by SCons: a node is among the targets of its own executor, all
   targets of an executor share it, the targets an action really updates are among them; a side-effect
   node has an executor of its own and declares no side effects itself. *)
Definition is_side_effect (c : cfg) (n : node) : Prop := exists t, In n (side_effects c t).
Record cfg_wf (c : cfg) : Prop := {
  cw_self : forall n, In n (all_targets c n);
  cw_share : forall n t, In t (all_targets c n) -> all_targets c t = all_targets c n;
  cw_action : forall n t, In t (action_targets c n) -> In t (all_targets c n);
  cw_se1 : forall n, is_side_effect c n -> all_targets c n = [n];
  cw_se2 : forall n, is_side_effect c n -> side_effects c n = [] }.

(* The world's answers are reorderings of what was given; the targets of one executor have the same
   children. *)
Record env_ok (c : cfg) (e : env) : Prop := {
  eo_iter : forall l, Permutation l (e_iter e l);
  eo_order : forall l, Permutation l (e_order e l);
  eo_kids : forall n t, In t (all_targets c n) -> e_kids e t = e_kids e n }.

Definition op_env (o : op) : env := match o with Next e => e | Done _ _ e => e | Stop e => e end.
Definition ops_ok (c : cfg) (ops : list op) : Prop := Forall (fun o => env_ok c (op_env o)) ops.

(* s is the engine state after some finite history of requests and completions *)
Definition reachable (c : cfg) (ops : list op) (s : tm) : Prop :=
  ops_ok c ops /\ exists fuel, run fuel c (init c) ops = Some s.

(* the dependency graph does not change during the run *)
Definition static (kids : node -> list node) (ops : list op) : Prop :=
  Forall (fun o => forall n, e_kids (op_env o) n = Some (kids n)) ops.

(* Facts about the graph built by the SConscript files: the targets of one executor have the same
   children, and a declared side effect has the targets it is attached to among its own
   dependencies (Environment.py SideEffect: side_effect.add_source(targets)). *)
Record graph_wf (c : cfg) (kids : node -> list node) : Prop := {
  gw_share : forall n t, In t (all_targets c n) -> kids t = kids n;
  gw_se : forall s t, In s (side_effects c t) -> In t (kids s) }.
(* n is affected by a failure: a task of n, or of something n depends on, failed *)
Definition tainted (kids : node -> list node) (tr : list event) (n : node) : Prop :=
  exists m, depends0 kids n m /\ failed tr m.
Definition acyclic (kids : node -> list node) : Prop := forall n, ~ depends kids n n.
(* n is reached from t through dependency edges, all nodes on the way (t and n included) being
   ordinary targets, not declared side effects *)
Inductive reaches (c : cfg) (kids : node -> list node) : node -> node -> Prop :=
  | re0 n : ~ is_side_effect c n -> reaches c kids n n
  | re1 n k m : ~ is_side_effect c n -> In k (kids n) -> reaches c kids k m -> reaches c kids n m.
(* The engine has nothing more to do: it was asked for a task, had none, and nothing is outstanding. *)
Definition ended (c : cfg) (ops : list op) (s : tm) : Prop :=
  exists ops0 e s0 fuel, ops = ops0 ++ [Next e] /\ reachable c ops0 s0 /\ env_ok c e /\ running s0 = []
    /\ next_task fuel c e s0 = Some (s, false).
Definition no_failure (tr : list event) : Prop :=
  ~ In EStop tr /\ forall ts, ~ In (EFail ts) tr /\ ~ In (EIgnored ts) tr.
(* Default failure handling: neither --keep-going nor --ignore-errors (BuildTask.do_failed, Script/Main.py 239-253). *)
Definition stops_on_failure (ops : list op) : Prop :=
  Forall (fun o => match o with Next e => e_now e <> OFailContinue | Done _ out e => out <> OFailContinue | Stop _ => True end) ops.
(* side effects are attached to targets the action really updates *)
Definition side_effects_on_action (c : cfg) : Prop :=
  forall n t, In t (all_targets c n) -> side_effects c t <> [] -> In t (action_targets c n).
(* two different outstanding tasks *)
Definition outstanding_pair (s : tm) (a b : list node) : Prop :=
  exists l1 l2 l3, running s = l1 ++ a :: l2 ++ b :: l3.
