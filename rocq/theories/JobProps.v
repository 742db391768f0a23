(* Parallel scheduler properties C09-C11 (SCons/Taskmaster/Job.py NewParallel).  Vocabulary in JobSpec.v. *)
From Coq Require Import List Arith ZArith Bool Lia Permutation.
Import ListNotations.
From Verif Require Import TMModel TMSpec TMSafe TMTerm TMEnd TMProps JobModel JobSpec JobProofs.

Lemma execs_split x : Permutation (execs (p_ths x)) (starting x ++ executing x ++ enqueueing x).
Proof.
  unfold execs, starting, executing, enqueueing. induction (p_ths x) as [|p l IH]; cbn; [constructor|].
  destruct p; cbn; try exact IH; [apply perm_skip; exact IH | rewrite IH; apply Permutation_middle |].
  rewrite IH. rewrite app_assoc, (app_assoc (flat_map _ l)). apply Permutation_middle.
Qed.
Lemma wrk_split x : Permutation (wrk (p_ths x)) (executing x ++ enqueueing x).
Proof.
  unfold wrk, executing, enqueueing. induction (p_ths x) as [|p l IH]; cbn; [constructor|].
  destruct p; cbn; try exact IH; [apply perm_skip; exact IH | rewrite IH; apply Permutation_middle].
Qed.

(* The history of requests seen by the taskmaster uses only answers found in the labels. *)
Lemma ops_labels c n ls x : np_run c n (np_init c) ls = Some x ->
  forall o, In o (p_ops x) -> exists l, In l ls /\ label_env l = Some (op_env o).
Proof.
  assert (G : forall ls x y, np_run c n x ls = Some y ->
    forall o, In o (p_ops y) -> In o (p_ops x) \/ exists l, In l ls /\ label_env l = Some (op_env o)).
  { induction ls0 as [|l ls0 IH]; intros a b H o Ho; cbn in H; [injection H as ->; auto|].
    destruct (np_step c n a l) as [z|] eqn:E; [|discriminate].
    destruct (IH z b H o Ho) as [Q|(l0 & Q1 & Q2)]; [|right; exists l0; split; [right; exact Q1 | exact Q2]].
    assert (Z : p_ops z = p_ops a \/ exists o', label_env l = Some (op_env o') /\ p_ops z = p_ops a ++ [o']).
    { destruct l as [i fu e out w| |e]; cbn [np_step] in E.
      - destruct (nth_error (p_ths a) i) as [p|]; [|discriminate]. destruct p as [b'| | | |q| |t|t|t ok|]; try discriminate.
        + destruct (locked (p_ths a)); [discriminate|]. injection E as <-. left. destruct (match p_state a with Stalled_ => _ | st => st end); reflexivity.
        + destruct (locked (p_ths a)); [discriminate|]. injection E as <-. left. destruct (p_state a); reflexivity.
        + injection E as <-; auto.
        + destruct q as [|[t ok] q]; [injection E as <-; auto|]. cbn zeta in E. destruct (step _ _ _ _) as [s|]; [|discriminate]. injection E as <-. right.
          exists (Done (index_of t (running (p_tm a))) (if ok then OOk else out) e). auto.
        + destruct (next_task fu c e (p_tm a)) as [[s found]|]; [|discriminate].
          right. exists (Next e). split; [reflexivity|].
          destruct found; [destruct (_ <? _); [destruct (running s) as [|t r]; [discriminate|]|]|destruct (_ =? _)%Z]; injection E as <-; reflexivity.
        + destruct (p_int a); injection E as <-; auto.
        + injection E as <-; auto.
        + injection E as <-; auto.
      - destruct (nth_error _ _) as [[]|]; try discriminate. injection E as <-; auto.
      - cbn [step] in E. injection E as <-. right. exists (Stop e). auto. }
    destruct Z as [Z|(o' & Ee & Z)]; rewrite Z in Q; [auto|].
    apply in_app_iff in Q. destruct Q as [Q|[<-|[]]]; [auto|]. right. exists l. split; [left; reflexivity | exact Ee]. }
  intros H o Ho. destruct (G ls (np_init c) x H o Ho) as [[]|Q]; exact Q.
Qed.
Lemma over_ended_inv c ops s : over c ops s -> ~ In EStop (trace s) -> ended c ops s.
Proof. intros [ops' s' H|ops' s' e H] N; [exact H | elim N; left; reflexivity]. Qed.

(* C09.  At most N tasks execute at once; indeed there are never more than N worker threads. *)
Theorem C09_at_most_n_running : forall c n ls x,
  cfg_wf c -> n >= 1 -> np_reachable c n ls x -> length (executing x) <= length (p_ths x) <= n.
Proof. intros c n ls x W Hn R. split; [apply len_executing | apply (ni_len c n x), (reach_ninv c n W ls x Hn R)]. Qed.
Print Assumptions C09_at_most_n_running.

(* At most one worker at a time talks to the taskmaster, and the taskmaster sees a legal history of
   requests: everything proved about reachable taskmaster states (C01-C08) holds under the parallel scheduler. *)
Theorem C09b_taskmaster_serialised : forall c n ls x,
  cfg_wf c -> n >= 1 -> np_reachable c n ls x ->
  length (in_critical_section x) <= 1 /\ reachable c (p_ops x) (p_tm x)
  /\ (forall o, In o (p_ops x) -> exists l, In l ls /\ label_env l = Some (op_env o)).
Proof.
  intros c n ls x W Hn R. pose proof (reach_ninv c n W ls x Hn R) as N. split; [|split; [apply (ni_reach _ _ _ N) | apply (ops_labels c n ls x (proj2 R))]].
  pose proof (ni_lock _ _ _ N) as L. unfold nholds in L. unfold in_critical_section. rewrite L. destruct (p_state x); auto.
Qed.
Print Assumptions C09b_taskmaster_serialised.

(* C10.  At every moment, the tasks handed out are exactly (as multisets): those just given to a worker, those executing, those executed
   and about to be enqueued, those in the results queue, those being retired, and those retired.  Those past the first of these stages are exactly the
   tasks whose execute() was called and those passed over because of a signal. *)
Theorem C10_no_task_lost : forall c n ls x,
  cfg_wf c -> n >= 1 -> np_reachable c n ls x ->
  Permutation (handed (trace (p_tm x))) (starting x ++ executing x ++ enqueueing x ++ enqueued x ++ retiring x ++ p_ret x)
  /\ Permutation (p_exec x ++ p_skip x) (executing x ++ enqueueing x ++ enqueued x ++ retiring x ++ p_ret x).
Proof.
  intros c n ls x W Hn R. pose proof (reach_ninv c n W ls x Hn R) as N. split.
  - rewrite (ni_handed _ _ _ N), execs_split. rewrite <- !app_assoc. reflexivity.
  - rewrite (ni_exec _ _ _ N), wrk_split. rewrite <- !app_assoc. reflexivity.
Qed.
Print Assumptions C10_no_task_lost.

(* C10b.  When a worker leaves, nothing is outstanding: every task handed out was executed exactly once (or passed over because of a signal) and
   retired exactly once, and the taskmaster had been asked for a task and had none. *)
Theorem C10b_completion_not_early : forall c n ls x,
  cfg_wf c -> n >= 1 -> np_reachable c n ls x -> In Exited (p_ths x) ->
  starting x = [] /\ executing x = [] /\ enqueueing x = [] /\ enqueued x = [] /\ retiring x = []
  /\ Permutation (p_exec x ++ p_skip x) (handed (trace (p_tm x))) /\ Permutation (p_ret x) (handed (trace (p_tm x)))
  /\ over c (p_ops x) (p_tm x).
Proof.
  intros c n ls x W Hn R He. pose proof (reach_ninv c n W ls x Hn R) as N.
  assert (Cs : p_state x = Completed_).
  { destruct (p_state x) eqn:E; try reflexivity; (assert (X : p_state x <> Completed_) by congruence); elim (proj2 (ni_exit _ _ _ N X) He). }
  destruct (ni_comp _ _ _ N Cs) as (_ & Z & En).
  pose proof (ni_run _ _ _ N) as P. rewrite Z, execs_split in P. apply Permutation_nil in P.
  apply app_eq_nil in P. destruct P as [P1 P2]. apply app_eq_nil in P1, P2. destruct P1 as [A0 P1], P2 as [C D]. apply app_eq_nil in P1. destruct P1 as [A B].
  change (rets (p_ths x)) with (retiring x) in D. change (map fst (p_queue x)) with (enqueued x) in C.
  destruct (C10_no_task_lost c n ls x W Hn R) as [H1 H2]. rewrite A0, A, B, C, D in H1. rewrite A, B, C, D in H2. cbn in H1, H2.
  repeat (split; [assumption|]). split; [rewrite H2, H1; reflexivity|]. split; [rewrite H1; reflexivity | exact En].
Qed.
Print Assumptions C10b_completion_not_early.

(* C10c.  A parallel build of an acyclic graph in which nothing fails and no signal arrives is complete when a worker leaves (C05 lifted). *)
Theorem C10c_parallel_complete : forall c n kids ls x t m,
  cfg_wf c -> graph_wf c kids -> n >= 1 -> np_reachable c n ls x -> In Exited (p_ths x) ->
  (forall l e k, In l ls -> label_env l = Some e -> e_kids e k = Some (kids k)) -> acyclic kids -> no_failure (trace (p_tm x)) ->
  In t (tops c) -> ~ is_side_effect c t -> depends0 kids t m -> finished (trace (p_tm x)) m.
Proof.
  intros c n kids ls x t m W G Hn R He St Ac Nf Ht Hs Hm.
  destruct (C10b_completion_not_early c n ls x W Hn R He) as (_ & _ & _ & _ & _ & _ & _ & En). apply over_ended_inv in En; [|apply Nf].
  apply (C05_complete c kids (p_ops x) (p_tm x) t m); auto.
  apply Forall_forall. intros o Ho k. destruct (ops_labels c n ls x (proj2 R) o Ho) as (l & Q1 & Q2). eapply St; eassumption.
Qed.
Print Assumptions C10c_parallel_complete.

(* C11.  Finite graph (all answers stay in U).  In every reachable state in which some worker has not returned, some worker
   can take a step; and when all have returned the main thread can join all the workers. *)
Theorem C11_no_deadlock : forall c n U ls x e,
  cfg_wf c -> n >= 1 -> incl (tops c) U -> (forall k, In k U -> incl (alter c k) U) ->
  (forall l e k ch, In l ls -> label_env l = Some e -> In k U -> e_kids e k = Some ch -> incl ch U) ->
  env_ok c e -> (forall k ch, In k U -> e_kids e k = Some ch -> incl ch U) ->
  np_reachable c n ls x ->
  (unfinished x -> exists i fuel out w y, np_step c n x (Act i fuel e out w) = Some y)
  /\ (~ unfinished x -> p_joined x < length (p_ths x) -> exists y, np_step c n x Join = Some y).
Proof.
  intros c n U ls x e W Hn HT HA HK Eo He R. pose proof (reach_ninv c n W ls x Hn R) as N. split.
  - apply progress; [exact W | exact N | exact Eo |].
    intros o Eq. apply (request_terminates c U HT HA (p_ops x) (p_tm x) o W (ni_reach _ _ _ N)); [|rewrite Eq; exact Eo | rewrite Eq; exact He].
    apply Forall_forall. intros o' Ho k ch Hk Hc. destruct (ops_labels c n ls x (proj2 R) o' Ho) as (l & Q1 & Q2). eapply HK; eassumption.
  - intros Nu Hj. cbn. destruct (nth_error (p_ths x) (p_joined x)) as [p|] eqn:E.
    + assert (p = Exited) as ->; [|eexists; reflexivity].
      destruct p; try reflexivity; elim Nu; eexists; (split; [eapply nth_error_In; exact E | discriminate]).
    + apply nth_error_None in E. lia.
Qed.
Print Assumptions C11_no_deadlock.

(* C11b.  With a single worker (which uses the FakeLock/FakeCondition of lines 443-465) the worker never has to wait. *)
Theorem C11b_single_worker_never_waits : forall c ls x, cfg_wf c -> np_reachable c 1 ls x -> ~ In Waiting (p_ths x).
Proof. intros c ls x W R. apply (ni_one _ _ _ (reach_ninv c 1 W ls x (le_n _) R) eq_refl). Qed.
Print Assumptions C11b_single_worker_never_waits.

Section Witness.
(* 0 depends on 1 and 2; two workers; 1 and 2 execute at the same time, then 0 is built and both leave *)
Definition jk (n : node) : list node := match n with 0 => [1; 2] | _ => [] end.
Definition je := xenv jk (fun _ => ROutOfDate) OOk.
Definition jc := xcfg (fun _ => []) [0].
Definition A i := Act i 50 je OOk 0.
Definition jl1 := [A 0; A 0; A 0; A 0; A 1; A 1; A 1; A 1; A 0; A 1].
Definition jl2 := jl1 ++ [A 1; A 1; A 1; A 1; A 1; A 1; A 1; A 1;      (* 2 done, its worker stalls and waits *)
   A 0; A 0; A 0; A 0; A 0; A 0; A 0; A 0; A 0; A 0; A 0; A 0; A 0; A 0; A 0; A 0; A 1; Join; Join].
Lemma jok ls : Forall (fun l => match l with Act _ _ e _ _ => e = je | Signal e => e = je | Join => True end) ls -> Forall (label_ok jc) ls.
Proof. intros H. eapply Forall_impl; [|exact H]. intros [i f e o w| |e]; [|exact (fun x => x)|]; intros ->; apply xenv_ok. Qed.
Lemma jsome c n ls v : option_map (fun x => (p_ths x, p_exec x, p_joined x)) (np_run c n (np_init c) ls) = Some v ->
  exists x, np_run c n (np_init c) ls = Some x /\ (p_ths x, p_exec x, p_joined x) = v.
Proof. destruct (np_run c n (np_init c) ls) as [x|]; [|discriminate]. intros H. injection H as <-. eauto. Qed.

Example C09_witness : exists x, np_reachable jc 2 jl1 x /\ executing x = [[1]; [2]].
Proof.
  destruct (jsome jc 2 jl1 ([Exec [1]; Exec [2]], [[2]; [1]], 0)) as (x & R & E); [vm_compute; reflexivity|].
  exists x. split; [split; [apply jok; repeat constructor | exact R]|]. injection E as E _ _. unfold executing. rewrite E. reflexivity.
Qed.
Example C10_witness : exists x, np_reachable jc 2 jl2 x /\ p_ths x = [Exited; Exited] /\ p_exec x = [[0]; [2]; [1]] /\ p_joined x = 2.
Proof.
  destruct (jsome jc 2 jl2 ([Exited; Exited], [[0]; [2]; [1]], 2)) as (x & R & E); [vm_compute; reflexivity|].
  exists x. split; [split; [apply jok; repeat constructor | exact R]|]. injection E as E1 E2 E3. auto.
Qed.
End Witness.
