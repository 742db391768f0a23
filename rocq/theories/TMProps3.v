(* Build-engine properties C07, C08 with --keep-going and with side effects.  Vocabulary in TMSpec.v. *)
From Coq Require Import List Arith ZArith Bool Lia Permutation.
Import ListNotations.
From Verif Require Import TMModel TMSpec TMSafe TMEnd TMTerm TMProps TMProps2 TMSide TMSide2 TMLast.

(* C08b.  In every run, also with --keep-going: two outstanding tasks share a side-effect file only if
   that file is behind a failure (a task it depends on, itself through any number of steps, has failed). *)
Theorem C08b_side_effects_exclusive_keep_going : forall c kids ops s a b t u x,
  cfg_wf c -> graph_wf c kids -> side_effects_on_action c -> reachable c ops s -> static kids ops ->
  (forall ts, ~ In (EIgnored ts) (trace s)) ->
  outstanding_pair s a b -> In t a -> In u b -> In x (side_effects c t) -> In x (side_effects c u) -> tainted kids (trace s) x.
Proof.
  intros c kids ops s a b t u x W G SA R St Ni P Ht Hu Hxt Hxu.
  apply (side_exclusive_keep c kids W G SA ops s a b x R St Ni P); apply in_flat_map; eauto.
Qed.
Print Assumptions C08b_side_effects_exclusive_keep_going.

(* C07d.  With side effects and with --keep-going: a run that was not stopped and in which some requested target leads,
   through ordinary targets, to a node which is not behind a failure and has a cycle among its dependencies, ends with an error. *)
Theorem C07d_cycle_reported_keep_going : forall c kids ops s e,
  cfg_wf c -> graph_wf c kids -> side_effects_on_action c -> ended c ops s -> static kids ops -> env_ok c e ->
  ~ In EStop (trace s) -> (forall ts, ~ In (EIgnored ts) (trace s)) ->
  (exists t n m, In t (tops c) /\ reaches c kids t n /\ ~ tainted kids (trace s) n /\ depends0 kids n m /\ depends kids m m) ->
  exists F, forall fuel, fuel >= F -> cleanup_raises fuel e s = Some true.
Proof. intros c kids ops s e W G SA. exact (cycle_reported2 c kids W G SA ops s e). Qed.
Print Assumptions C07d_cycle_reported_keep_going.

(* C07e.  On an acyclic graph no cycle is ever printed, whatever failed. *)
Theorem C07e_acyclic_no_cycle_printed : forall c kids ops s e fuel n r v,
  cfg_wf c -> graph_wf c kids -> reachable c ops s -> static kids ops -> ~ In EStop (trace s) -> (forall ts, ~ In (EIgnored ts) (trace s)) ->
  env_ok c e -> acyclic kids -> find_cycle fuel s e n [n] [] = Some (r, v) -> r = None.
Proof.
  intros c kids ops s e fuel n r v W G R St Ns Ni Eo Ac H. destruct r as [r|]; [|reflexivity].
  elim (Ac n). exact (proj2 (proj2 (C07c_reported_cycle_genuine c kids ops s e fuel n r v W G R St Ns Ni Eo H))).
Qed.
Print Assumptions C07e_acyclic_no_cycle_printed.

Section Witness3.
Ltac xok := repeat (constructor; [cbn; do 2 eexists; reflexivity|]); constructor.
(* requested: 6 and 5.  6 fails; 5 depends on 1 and on the cycle 2 -> 3 -> 2; 1 writes the log file 0 as a side effect *)
Definition wk (n : node) : list node := match n with 0 => [1] | 5 => [1; 2] | 2 => [3] | 3 => [2] | _ => [] end.
Definition wse (n : node) : list node := match n with 1 => [0] | _ => [] end.
Definition we := xenv wk (fun _ => ROutOfDate) OOk.
Definition wc := xcfg wse [6; 5].
Definition wops := [Next we; Done 0 OFailContinue we; Next we; Done 0 OOk we].
Example C07d_witness : exists s, cfg_wf wc /\ graph_wf wc wk /\ side_effects_on_action wc /\ ended wc (wops ++ [Next we]) s /\ static wk (wops ++ [Next we])
  /\ trace s = [EFinish [1]; EStart [1]; EFail [6]; EStart [6]]
  /\ In 5 (tops wc) /\ reaches wc wk 5 2 /\ ~ tainted wk (trace s) 2 /\ depends0 wk 2 2 /\ depends wk 2 2 /\ is_side_effect wc 0.
Proof.
  destruct (ended_ex wc wops we [EFinish [1]; EStart [1]; EFail [6]; EStart [6]]) as (s & He & T);
    [apply xenv_ok | apply (xreach wc wk wops); [unfold wops; xok | apply xenv_ok] | vm_compute; auto|].
  exists s.
  assert (D : forall a b, depends0 wk a b -> a = 2 \/ a = 3 -> b = 2 \/ b = 3).
  { intros a b H. induction H as [n|n k m H _ IH]; [auto|]. intros [->| ->]; apply IH; simpl in H; destruct H as [<-|[]]; auto. }
  split; [apply xcfg_wf; intros n t H; destruct t as [|[|t]]; simpl in H; intuition subst; reflexivity|].
  split; [constructor; cbn; [intros n t [->|[]]; reflexivity | intros x t H; destruct t as [|[|t]]; simpl in H; intuition subst; simpl; auto]|].
  split; [intros n t H _; exact H|]. split; [exact He|].
  split; [apply (xreach wc wk (wops ++ [Next we])); [unfold wops; xok | apply xenv_ok]|]. split; [exact T|].
  assert (Ns : forall n, n <> 0 -> ~ is_side_effect wc n) by (intros n Hn [t Ht]; destruct t as [|[|t]]; simpl in Ht; intuition congruence).
  split; [simpl; auto|]. split; [apply re1 with 2; [apply Ns; discriminate | simpl; auto | apply re0, Ns; discriminate]|].
  split.
  { intros (m & Hm & ts & Ht & Hf). rewrite T in Hf. simpl in Hf. destruct Hf as [Q|[Q|[Q|[Q|[]]]]]; try discriminate. injection Q as <-.
    destruct Ht as [<-|[]]. destruct (D 2 6 Hm); auto; discriminate. }
  split; [apply d0|]. split; [apply depS with 3; [simpl; auto | apply dep1; simpl; auto]|]. exists 1; simpl; auto.
Qed.
End Witness3.
