(* Build-engine properties C01-C05, C07 (SCons/Taskmaster).  Statements only; vocabulary in TMSpec.v. *)
From Coq Require Import List Arith ZArith Bool Lia Permutation.
Import ListNotations.
From Verif Require Import TMModel TMSpec TMSafe TMSafe2 TMStatic TMStatic3 TMEnd.

(* C01.  Any history [ops] of requests and completions leads to [s]; a further request hands out the
   task [ts].  Then every dependency of every target of that task was finished before.  The graph may
   change between requests (implicit dependencies): [e_kids e] is the answer at this request. *)
Theorem C01_dependencies_first : forall c ops s fuel e s' l ts t,
  cfg_wf c -> reachable c ops s -> env_ok c e -> step fuel c s (Next e) = Some s' ->
  trace s' = l ++ trace s -> In (EStart ts) l \/ In (ECurrent ts) l -> In t ts ->
  exists deps, e_kids e t = Some deps /\ forall k, In k deps -> finished (trace s) k.
Proof. exact (fun c ops s fuel e s' l ts t W => deps_first c W ops s fuel e s' l ts t). Qed.
Print Assumptions C01_dependencies_first.

(* C02.  In the event history of any run, a target of a task that was handed out is handed out by no
   other event.  Arbitrary, changing graphs; side-effect nodes excluded (see C02b). *)
Theorem C02_at_most_once : forall c ops s l1 ev l2 ts n,
  cfg_wf c -> reachable c ops s -> trace s = l1 ++ ev :: l2 -> ev = EStart ts \/ ev = ECurrent ts ->
  In n ts -> ~ is_side_effect c n -> ~ handed_out (l1 ++ l2) n.
Proof. exact (fun c ops s l1 ev l2 ts n W R => once_twice c (trace s) (di_once c s (reachable_dinv c ops s W R)) l1 ev l2 ts n). Qed.
Print Assumptions C02_at_most_once.

Lemma ordered_once kids l1 ev l2 ts n : ordered kids (l1 ++ ev :: l2) -> ev = EStart ts \/ ev = ECurrent ts ->
  In n ts -> ~ handed_out (l1 ++ l2) n.
Proof.
  induction l1 as [|x l1 IH]; cbn [app]; intros O Hev Hn Hh.
  - destruct Hh as (q & Hq & Hh). destruct Hev as [-> | ->]; destruct O as [[_ O] _]; apply (O n Hn); exists q; tauto.
  - apply handed_cons in Hh. destruct Hh as [Hh|(q & Hq & Hx)].
    + apply IH; auto. destruct x; cbn in O; tauto.
    + assert (T : tasked (l1 ++ ev :: l2) n).
      { exists ts; split; [exact Hn|]. rewrite !in_app_iff. destruct Hev as [-> | ->]; simpl; auto. }
      destruct Hx as [-> | ->]; destruct O as [[_ O] _]; exact (O n Hq T).
Qed.
(* C02b.  For a fixed graph whose side effects depend on the targets they are attached to (as SCons
   declares them) the same holds for every node, side effects included. *)
Theorem C02b_at_most_once_with_side_effects : forall c kids ops s l1 ev l2 ts n,
  cfg_wf c -> graph_wf c kids -> reachable c ops s -> static kids ops ->
  ~ In EStop (trace s) -> (forall ts, ~ In (EIgnored ts) (trace s)) ->
  trace s = l1 ++ ev :: l2 -> ev = EStart ts \/ ev = ECurrent ts -> In n ts -> ~ handed_out (l1 ++ l2) n.
Proof.
  intros c kids ops s l1 ev l2 ts n W G R St Ns Ni E. eapply ordered_once with (kids := kids). rewrite <- E.
  apply (F_ord c kids [] s). apply (reachable_sinv c kids W G ops s R St). split; [apply (stop_iff c W ops s R); exact Ns | exact Ni].
Qed.
Print Assumptions C02b_at_most_once_with_side_effects.

(* C03.  When a task is handed out, nothing its targets transitively depend on has failed. *)
Theorem C03_nothing_on_failed : forall c kids ops s fuel e s' l ts t m,
  cfg_wf c -> graph_wf c kids -> reachable c ops s -> static kids (ops ++ [Next e]) -> env_ok c e ->
  (forall ts, ~ In (EIgnored ts) (trace s)) -> step fuel c s (Next e) = Some s' ->
  trace s' = l ++ trace s -> In (EStart ts) l \/ In (ECurrent ts) l -> In t ts -> depends kids t m -> ~ failed (trace s) m.
Proof. exact (fun c kids ops s fuel e s' l ts t m W G => no_failed_below c kids W G ops s fuel e s' l ts t m). Qed.
Print Assumptions C03_nothing_on_failed.

(* C04.  After a stopping failure a request never adds anything to the history: no task is handed
   out, none found up to date, none failed. *)
Theorem C04_stop_is_final : forall c ops s fuel e s',
  cfg_wf c -> reachable c ops s -> env_ok c e -> In EStop (trace s) -> step fuel c s (Next e) = Some s' -> trace s' = trace s.
Proof. exact (fun c ops s fuel e s' W => stop_final c W ops s fuel e s'). Qed.
Print Assumptions C04_stop_is_final.
(* ... and a stopping failure is recorded as such, whatever the state was. *)
Theorem C04b_failure_stops : forall c ops s i fuel e s' ts rest,
  cfg_wf c -> reachable c ops s -> env_ok c e -> take_nth i (running s) = Some (ts, rest) ->
  step fuel c s (Done i OFailStop e) = Some s' -> trace s' = EStop :: EFail ts :: trace s.
Proof.
  intros c ops s i fuel e s' ts rest W R Eo Ht H. cbn in H. rewrite Ht in H.
  pose proof (reachable_dinv c ops s W R) as D. pose proof (di_ref _ _ D) as Rf.
  destruct (retire_trace fuel c e OFailStop (emit (set_running s rest) (EFail ts)) ts s' (env_ok_wf c e Eo) Rf H) as (Y & _). exact Y.
Qed.
Print Assumptions C04b_failure_stops.

(* C05.  A run that ended without failures on an acyclic graph has finished every requested target and
   everything it transitively depends on. *)
Theorem C05_complete : forall c kids ops s t n,
  cfg_wf c -> graph_wf c kids -> ended c ops s -> static kids ops -> acyclic kids -> no_failure (trace s) ->
  In t (tops c) -> ~ is_side_effect c t -> depends0 kids t n -> finished (trace s) n.
Proof. exact (fun c kids ops s t n W G => complete_all c kids W G ops s t n). Qed.
Print Assumptions C05_complete.
(* C05b.  With --keep-going: everything needed that does not itself depend on a failed task is
   finished too. *)
Theorem C05b_complete_keep_going : forall c kids ops s t n,
  cfg_wf c -> graph_wf c kids -> ended c ops s -> static kids ops -> acyclic kids ->
  ~ In EStop (trace s) -> (forall ts, ~ In (EIgnored ts) (trace s)) ->
  In t (tops c) -> reaches c kids t n -> ~ tainted kids (trace s) n -> finished (trace s) n.
Proof. exact (fun c kids ops s t n W G => complete_keep_going c kids W G ops s t n). Qed.
Print Assumptions C05b_complete_keep_going.

(* C07.  No error on an acyclic graph (no failed task); an error when the requested targets
   transitively include a cycle; what is printed as a cycle is one. *)
Theorem C07_acyclic_silent : forall c kids ops s e fuel,
  cfg_wf c -> graph_wf c kids -> ended c ops s -> static kids ops -> acyclic kids -> no_failure (trace s) ->
  cleanup_raises fuel e s = Some false.
Proof. exact (fun c kids ops s e fuel W G H1 H2 H3 H4 => cycle_silent c kids W G ops s e H1 H2 H3 H4 fuel). Qed.
Print Assumptions C07_acyclic_silent.
Theorem C07b_cycle_reported : forall c kids ops s e,
  cfg_wf c -> graph_wf c kids -> ended c ops s -> static kids ops -> env_ok c e -> (forall n, ~ is_side_effect c n) -> no_failure (trace s) ->
  (exists t n, In t (tops c) /\ depends0 kids t n /\ depends kids n n) ->
  exists F, forall fuel, fuel >= F -> cleanup_raises fuel e s = Some true.
Proof. exact (fun c kids ops s e W G => cycle_reported c kids W G ops s e). Qed.
Print Assumptions C07b_cycle_reported.
Theorem C07c_reported_cycle_genuine : forall c kids ops s e fuel n r v,
  cfg_wf c -> graph_wf c kids -> reachable c ops s -> static kids ops -> ~ In EStop (trace s) -> (forall ts, ~ In (EIgnored ts) (trace s)) ->
  env_ok c e -> find_cycle fuel s e n [n] [] = Some (Some r, v) ->
  (exists l, r = n :: l ++ [n]) /\ (forall l1 a b l2, r = l1 ++ a :: b :: l2 -> In a (kids b)) /\ depends kids n n.
Proof.
  exact (fun c kids ops s e fuel n r v W G R St Ns Ni => cycle_genuine c kids W G ops s e fuel n r v R St (conj (proj2 (stop_iff c W ops s R) Ns) Ni)).
Qed.
Print Assumptions C07c_reported_cycle_genuine.

(* ------------------------------------------------------------------------------------------------
   Witnesses: the hypotheses above are met by non-trivial runs, and the restrictions are needed. *)
Section Witness.
Definition xcfg (se : node -> list node) (tp : list node) : cfg :=
  {| all_targets := fun n => [n]; action_targets := fun n => [n]; side_effects := se; alter := fun _ => []; tops := tp |}.
Definition xenv (kids : node -> list node) (r : node -> ready) (o : outcome) : env :=
  {| e_kids := fun n => Some (kids n); e_order := fun l => l; e_ready := r; e_now := o; e_iter := fun l => l |}.
Lemma xenv_ok se tp kids r o : env_ok (xcfg se tp) (xenv kids r o).
Proof. constructor; cbn; intros; [apply Permutation_refl | apply Permutation_refl | destruct H as [->|[]]; reflexivity]. Qed.
Lemma xcfg_wf se tp : (forall n t, In n (se t) -> se n = []) -> cfg_wf (xcfg se tp).
Proof.
  intros H. constructor; cbn; auto; [intros n t [->|[]]; reflexivity | intros n [t Ht]; exact (H n t Ht)].
Qed.

(* diamond 0 -> 1,2 -> 3 ; 3 is up to date, the others are rebuilt *)
Definition dk (n : node) : list node := match n with 0 => [1; 2] | 1 => [3] | 2 => [3] | _ => [] end.
Definition dr (n : node) : ready := match n with 3 => RUpToDate | _ => ROutOfDate end.
Definition de := xenv dk dr OOk.
Definition dc := xcfg (fun _ => []) [0].
Definition dops := [Next de; Next de; Next de; Done 1 OOk de; Done 0 OOk de; Next de; Done 0 OOk de].
Lemma dc_wf : cfg_wf dc. Proof. apply xcfg_wf; intros n t []. Qed.
Lemma dg_wf : graph_wf dc dk. Proof. constructor; cbn; [intros n t [->|[]]; reflexivity | intros s t []]. Qed.
Lemma xreach c kids : forall ops : list op, Forall (fun o => exists r out, op_env o = xenv kids r out) ops ->
  (forall r o, env_ok c (xenv kids r o)) -> ops_ok c ops /\ static kids ops.
Proof.
  intros ops H E. split; apply Forall_forall; intros o Ho; apply (proj1 (Forall_forall _ _) H) in Ho; destruct Ho as (r & out & ->);
    [apply E | reflexivity].
Qed.
Lemma run_some c ops tr : option_map trace (run 50 c (init c) ops) = Some tr ->
  exists s, run 50 c (init c) ops = Some s /\ trace s = tr.
Proof. destruct (run 50 c (init c) ops) as [s|]; [|discriminate]. intros H; injection H as <-. exists s; auto. Qed.
Ltac xok := repeat (constructor; [cbn; do 2 eexists; reflexivity|]); constructor.

Definition dtrace := [EFinish [0]; EStart [0]; EFinish [2]; EFinish [1]; EStart [2]; EStart [1]; ECurrent [3]].
(* the run above: 3 is found current, 1 and 2 run concurrently, 0 comes last *)
Example C01_witness : exists s, reachable dc dops s /\ static dk dops /\ trace s = dtrace
  /\ handed_out (trace s) 0 /\ ~ is_side_effect dc 0.
Proof.
  destruct (run_some dc dops dtrace) as (s & Hs & Ht); [vm_compute; reflexivity|].
  destruct (xreach dc dk dops) as [A B]; [unfold dops; xok | apply xenv_ok|].
  exists s. repeat split; auto; [exists 50; exact Hs | exists [0]; rewrite Ht; simpl; auto 10 | intros [t []]].
Qed.
(* C05, C07: that run, asked once more, has ended without failure on an acyclic graph *)
Lemma dk_acyclic : acyclic dk.
Proof.
  assert (H : forall n m, depends dk n m -> n < m).
  { intros n m H. induction H as [n m H|n k m H _ IH]; [|assert (n < k); [|lia]]; revert H; destruct n as [|[|[|n]]]; simpl; intuition lia. }
  intros n Hn. apply H in Hn. lia.
Qed.
Lemma ended_ex c ops e tr : env_ok c e -> ops_ok c ops ->
  match run 50 c (init c) ops with Some s0 => running s0 = [] /\ option_map (fun q => (trace (fst q), snd q)) (next_task 50 c e s0) = Some (tr, false) | None => False end ->
  exists s, ended c (ops ++ [Next e]) s /\ trace s = tr.
Proof.
  intros Eo Oo H. destruct (run 50 c (init c) ops) as [s0|] eqn:E; [|tauto]. destruct H as [H1 H2].
  destruct (next_task 50 c e s0) as [[s b]|] eqn:En; [|discriminate]. injection H2 as H2 H3. cbn in H2, H3. subst b.
  exists s; split; [|exact H2]. exists ops, e, s0, 50. repeat split; auto; try apply Eo. exists 50; exact E.
Qed.
Example C05_witness : exists s, ended dc (dops ++ [Next de]) s /\ static dk (dops ++ [Next de]) /\ acyclic dk /\ no_failure (trace s) /\ depends0 dk 0 3.
Proof.
  destruct (ended_ex dc dops de dtrace) as (s & H & Ht); [apply xenv_ok | apply (xreach dc dk dops); [unfold dops; xok | apply xenv_ok] | vm_compute; auto|].
  exists s. split; [exact H|]. split; [apply (xreach dc dk (dops ++ [Next de])); [unfold dops; xok | apply xenv_ok]|].
  split; [apply dk_acyclic|]. split.
  - rewrite Ht; unfold no_failure, dtrace; simpl. split; [intuition discriminate|]. intros ts; split; intuition discriminate.
  - apply d1 with 1; [simpl; auto|]. apply d1 with 3; [simpl; auto|]. apply d0.
Qed.

(* C03, C05b with a failure: 1 fails with --keep-going; 0 is never handed out, 2 is finished *)
Definition kops := [Next de; Next de; Next de; Done 1 OFailContinue de; Done 0 OOk de].
Example C03_C05b_witness : exists s, ended dc (kops ++ [Next de]) s /\ static dk (kops ++ [Next de])
  /\ trace s = [EFinish [2]; EFail [1]; EStart [2]; EStart [1]; ECurrent [3]]
  /\ failed (trace s) 1 /\ reaches dc dk 0 2 /\ tainted dk (trace s) 0 /\ ~ tainted dk (trace s) 2.
Proof.
  destruct (ended_ex dc kops de [EFinish [2]; EFail [1]; EStart [2]; EStart [1]; ECurrent [3]]) as (s & H & Ht);
    [apply xenv_ok | apply (xreach dc dk kops); [unfold kops; xok | apply xenv_ok] | vm_compute; auto|].
  exists s. split; [exact H|]. split; [apply (xreach dc dk (kops ++ [Next de])); [unfold kops; xok | apply xenv_ok]|].
  split; [exact Ht|]. rewrite Ht. assert (failed [EFinish [2]; EFail [1]; EStart [2]; EStart [1]; ECurrent [3]] 1) as F by (exists [1]; simpl; auto 10).
  split; [exact F|]. assert (N : forall n, ~ is_side_effect dc n) by (intros n [t []]).
  split; [apply re1 with 2; [apply N | simpl; auto | apply re0, N]|].
  split; [exists 1; split; [apply d1 with 1; [simpl; auto | apply d0] | exact F]|].
  intros (m & A & ts & B & C). simpl in C. destruct C as [C|[C|[C|[C|[C|[]]]]]]; try discriminate. injection C as <-. destruct B as [<-|[]].
  clear - A. inversion A as [|a k b E A1]; subst. simpl in E. destruct E as [<-|[]]. inversion A1 as [|a k b E A2]; subst. elim E.
Qed.

(* C04: the same failure without --keep-going *)
Lemma run_last c ops o tr tr' : option_map trace (run 50 c (init c) ops) = Some tr ->
  option_map trace (run 50 c (init c) (ops ++ [o])) = Some tr' ->
  exists s s', run 50 c (init c) ops = Some s /\ trace s = tr /\ step 50 c s o = Some s'.
Proof.
  assert (Rapp : forall l1 l2 z z', run 50 c z l1 = Some z' -> run 50 c z (l1 ++ l2) = run 50 c z' l2).
  { induction l1 as [|a l1 IH]; intros l2 z z' H; [injection H as <-; reflexivity|]. cbn [run app] in *. destruct (step 50 c z a); [apply IH; exact H | discriminate]. }
  destruct (run 50 c (init c) ops) as [s|] eqn:E; [|discriminate]. intros H; injection H as <-.
  rewrite (Rapp _ _ _ _ E). cbn [run]. destruct (step 50 c s o) as [s'|] eqn:Es; [|discriminate]. intros _. exists s, s'; auto.
Qed.
Example C04_witness : exists s s', reachable dc [Next de; Next de; Next de; Done 1 OFailStop de] s /\ In EStop (trace s)
  /\ step 50 dc s (Next de) = Some s'.
Proof.
  destruct (run_last dc [Next de; Next de; Next de; Done 1 OFailStop de] (Next de) [EStop; EFail [1]; EStart [2]; EStart [1]; ECurrent [3]]
    [EStop; EFail [1]; EStart [2]; EStart [1]; ECurrent [3]]) as (s & s' & A & B & C); [vm_compute; reflexivity | vm_compute; reflexivity|].
  exists s, s'. split; [split; [apply (xreach dc dk); [xok | apply xenv_ok] | exists 50; exact A]|]. split; [rewrite B; left; reflexivity | exact C].
Qed.

(* C07b: the cycle 1 -> 2 -> 1 below the requested target 0 *)
Definition ck (n : node) : list node := match n with 0 => [1] | 1 => [2] | 2 => [1] | _ => [] end.
Definition ce := xenv ck (fun _ => ROutOfDate) OOk.
Example C07b_witness : exists s, ended dc ([Next ce] ++ [Next ce]) s /\ static ck ([Next ce] ++ [Next ce]) /\ no_failure (trace s)
  /\ depends0 ck 0 1 /\ depends ck 1 1 /\ graph_wf dc ck.
Proof.
  destruct (ended_ex dc [Next ce] ce []) as (s & H & Ht);
    [apply xenv_ok | apply (xreach dc ck); [xok | apply xenv_ok] | vm_compute; auto|].
  exists s. split; [exact H|]. split; [apply (xreach dc ck); [xok | apply xenv_ok]|]. rewrite Ht.
  split; [split; [intros [] | intros ts; split; intros []]|]. split; [apply d1 with 1; [simpl; auto | apply d0]|].
  split; [apply depS with 2; [simpl; auto | apply dep1; simpl; auto]|]. constructor; cbn; [intros n t [->|[]]; reflexivity | intros a t []].
Qed.

(* C07 refuted with --keep-going: on the acyclic graph 0 -> 1 -> 2 -> 3, 4 -> 1 (requested 3, 0, 4) the failure of 3
   makes the engine report a dependency cycle at the end of the run. *)
Definition rk (n : node) : list node := match n with 0 => [1] | 1 => [2] | 2 => [3] | 4 => [1] | _ => [] end.
Definition re := xenv rk (fun _ => ROutOfDate) OOk.
Definition rc := xcfg (fun _ => []) [3; 0; 4].
Definition rops := [Next re; Done 0 OFailContinue re].
Lemma ended_ex2 c ops e tr f : env_ok c e -> ops_ok c ops ->
  match run 50 c (init c) ops with
  | Some s0 => running s0 = [] /\ option_map (fun q => (trace (fst q), snd q, cleanup_raises 50 f (fst q))) (next_task 50 c e s0) = Some (tr, false, Some true)
  | None => False end ->
  exists s, ended c (ops ++ [Next e]) s /\ trace s = tr /\ cleanup_raises 50 f s = Some true.
Proof.
  intros Eo Oo H. destruct (run 50 c (init c) ops) as [s0|] eqn:E; [|tauto]. destruct H as [H1 H2].
  destruct (next_task 50 c e s0) as [[s b]|] eqn:En; [|discriminate]. cbn [option_map fst snd] in H2.
  assert (H3 : (trace s, b, cleanup_raises 50 f s) = (tr, false, Some true)) by (revert H2; generalize (trace s, b, cleanup_raises 50 f s); intros q Q; injection Q as ->; reflexivity).
  clear H2. apply pair_equal_spec in H3. destruct H3 as [H2 H4]. apply pair_equal_spec in H2. destruct H2 as [H2 ->].
  exists s; split; [|split; assumption]. exists ops, e, s0, 50. repeat split; auto; try apply Eo. exists 50; exact E.
Qed.
Theorem C07_keep_going_refuted : exists c kids ops e s,
  cfg_wf c /\ graph_wf c kids /\ ended c ops s /\ static kids ops /\ acyclic kids /\ env_ok c e
  /\ ~ In EStop (trace s) /\ (forall ts, ~ In (EIgnored ts) (trace s)) /\ (forall n, ~ is_side_effect c n)
  /\ cleanup_raises 50 e s = Some true.
Proof.
  exists rc, rk, (rops ++ [Next re]), re.
  assert (Oo : ops_ok rc rops) by (apply (xreach rc rk); [unfold rops; xok | apply xenv_ok]).
  destruct (ended_ex2 rc rops re [EFail [3]; EStart [3]] re) as (s & He & T & Cl); [apply xenv_ok | exact Oo | vm_compute; auto|].
  exists s. split; [apply xcfg_wf; intros n t []|]. split; [constructor; cbn; [intros n t [->|[]]; reflexivity | intros q t []]|].
  split; [exact He|].
  split; [apply (xreach rc rk); [unfold rops; xok | apply xenv_ok]|].
  split.
  { assert (H : forall n m, depends rk n m -> (if n =? 4 then 0 else S n) < (if m =? 4 then 0 else S m)).
    { intros n m H. induction H as [n m H|n k m H _ IH]; [|assert ((if n =? 4 then 0 else S n) < (if k =? 4 then 0 else S k)); [|lia]];
        revert H; destruct n as [|[|[|[|[|n]]]]]; simpl; intros [<-|[]] || intros []; simpl; lia. }
    intros n Hn. apply H in Hn. lia. }
  split; [apply xenv_ok|]. rewrite T. split; [simpl; intuition discriminate|]. split; [intros ts; simpl; intuition discriminate|].
  split; [intros n [t []] | exact Cl].
Qed.
Print Assumptions C07_keep_going_refuted.
End Witness.
