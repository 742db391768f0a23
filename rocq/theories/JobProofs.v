(* Invariant of the parallel scheduler.  Proof file. *)
From Coq Require Import List Arith ZArith Bool Lia Permutation.
Import ListNotations.
From Verif Require Import TMModel TMBase TMSpec TMSafe TMSafe2 TMTerm JobModel JobSpec.

Lemma set_nth_split {A} i (v p : A) l : nth_error l i = Some p -> exists l1 l2, l = l1 ++ p :: l2 /\ set_nth i v l = l1 ++ v :: l2 /\ length l1 = i.
Proof.
  revert i. induction l as [|x l IH]; intros [|i] H; simpl in H; try discriminate.
  - injection H as ->. exists [], l; auto.
  - destruct (IH i H) as (l1 & l2 & -> & E & L). exists (x :: l1), l2. simpl. rewrite E, L. auto.
Qed.
Lemma task_eqb_eq a b : task_eqb a b = true <-> a = b.
Proof.
  revert b. induction a as [|x a IH]; intros [|y b]; simpl; split; intros H; try discriminate; auto.
  - apply andb_true_iff in H. destruct H as [H1 H2]. apply Nat.eqb_eq in H1. apply IH in H2. congruence.
  - injection H as -> ->. rewrite Nat.eqb_refl. apply IH; reflexivity.
Qed.
Lemma index_take t l : In t l -> exists l1 l2, l = l1 ++ t :: l2 /\ take_nth (index_of t l) l = Some (t, l1 ++ l2).
Proof.
  induction l as [|x l IH]; intros H; [elim H|]. simpl. destruct (task_eqb t x) eqn:E.
  - apply task_eqb_eq in E. subst. exists [], l; auto.
  - destruct H as [->|H]; [assert (task_eqb t t = true) by (apply task_eqb_eq; reflexivity); congruence|].
    destruct (IH H) as (l1 & l2 & E1 & T). exists (x :: l1), l2. cbn [take_nth app]. rewrite T, E1. auto.
Qed.

(* ---- fuel ---- *)
Lemma next_candidate_mono c e f1 f2 s : f1 <= f2 -> next_candidate f1 c e s <> NoFuelC -> next_candidate f2 c e s = next_candidate f1 c e s.
Proof.
  intros L H. unfold next_candidate in *. destruct (stopped s); [|reflexivity]. destruct (cands s); [reflexivity|].
  destruct (will_not_build f1 e false _ _) as [z|] eqn:E; [|congruence]. unfold will_not_build in *. rewrite (wnb_mono _ _ _ f2 _ _ _ L E). reflexivity.
Qed.
Lemma find_ready_mono c e : forall f1 f2 s, f1 <= f2 -> find_ready f1 c e s <> NoFuel -> find_ready f2 c e s = find_ready f1 c e s.
Proof.
  induction f1 as [|f1 IH]; intros [|f2] s L H; [reflexivity | elim H; reflexivity | lia|]. cbn [find_ready] in *.
  assert (N : next_candidate (S f1) c e s <> NoFuelC) by (intros E; rewrite E in H; congruence).
  rewrite (next_candidate_mono c e (S f1) (S f2) s L N).
  destruct (next_candidate (S f1) c e s) as [|z|z n]; [congruence | reflexivity|].
  destruct (consider c e z n); [|reflexivity]. apply IH; [lia | exact H].
Qed.
Lemma retire_mono c e o f1 f2 s ts s' : f1 <= f2 -> retire f1 c e o s ts = Some s' -> retire f2 c e o s ts = Some s'.
Proof.
  intros L H. unfold retire in *. destruct o; [exact H| |];
  (destruct (will_not_build f1 e true s ts) as [z|] eqn:E; [|discriminate]; unfold will_not_build in *; rewrite (wnb_mono _ _ _ f2 _ _ _ L E); exact H).
Qed.
Lemma next_task_mono c e f1 f2 s r : f1 <= f2 -> next_task f1 c e s = Some r -> next_task f2 c e s = Some r.
Proof.
  intros L H. unfold next_task in *.
  assert (N : find_ready f1 c e s <> NoFuel) by (intros E; rewrite E in H; discriminate).
  rewrite (find_ready_mono c e f1 f2 s L N). destruct (find_ready f1 c e s) as [|z|z m exc]; [congruence | exact H|].
  destruct (exc || _).
  - destruct (retire f1 c e (e_now e) _ _) as [y|] eqn:E; [|discriminate]. rewrite (retire_mono _ _ _ f1 f2 _ _ _ L E). exact H.
  - destruct (match all_targets c m with t :: _ => nstate_eqb (nst (make_ready c (e_ready e m) z (all_targets c m)) t) Executing | [] => false end); [exact H|].
    destruct (retire f1 c e (e_now e) _ _) as [y|] eqn:E; [|discriminate]. rewrite (retire_mono _ _ _ f1 f2 _ _ _ L E). exact H.
Qed.
Lemma step_mono c o f1 f2 s s' : f1 <= f2 -> step f1 c s o = Some s' -> step f2 c s o = Some s'.
Proof.
  intros L H. destruct o as [e|i out e|e]; cbn in *.
  - destruct (next_task f1 c e s) as [r|] eqn:E; [|discriminate]. rewrite (next_task_mono _ _ f1 f2 _ _ L E). exact H.
  - destruct (take_nth i (running s)) as [[ts rest]|]; [|exact H]. eapply retire_mono; eassumption.
  - exact H.
Qed.
Lemma run_mono c f1 f2 ops : forall s s', f1 <= f2 -> run f1 c s ops = Some s' -> run f2 c s ops = Some s'.
Proof.
  induction ops as [|o ops IH]; intros s s' L H; cbn in *; [exact H|].
  destruct (step f1 c s o) as [z|] eqn:E; [|discriminate]. rewrite (step_mono _ _ f1 f2 _ _ L E). apply IH; assumption.
Qed.
Lemma run_app c f ops1 : forall ops2 s s', run f c s ops1 = Some s' -> run f c s (ops1 ++ ops2) = run f c s' ops2.
Proof.
  induction ops1 as [|o ops IH]; intros ops2 s s' H; cbn in *; [injection H as <-; reflexivity|].
  destruct (step f c s o); [apply IH; exact H | discriminate].
Qed.
Lemma reachable_step c ops s o fuel s' : reachable c ops s -> env_ok c (op_env o) -> step fuel c s o = Some s' -> reachable c (ops ++ [o]) s'.
Proof.
  intros [A [f B]] Eo H. split; [apply Forall_app; split; [exact A | constructor; [exact Eo | constructor]]|].
  exists (f + fuel). rewrite (run_app c (f + fuel) ops [o] (init c) s) by (apply (run_mono c f); [lia | exact B]).
  cbn. rewrite (step_mono c o fuel (f + fuel) s s'); [reflexivity | lia | exact H].
Qed.

(* ---- what the taskmaster does to the list of outstanding tasks ---- *)
Lemma next_running c e fuel s s' b : cfg_wf c -> env_ok c e -> dinv c s -> next_task fuel c e s = Some (s', b) ->
  (running s' = running s /\ handed (trace s') = handed (trace s))
  \/ exists t, b = true /\ running s' = t :: running s /\ handed (trace s') = t :: handed (trace s).
Proof.
  intros W Eo D H. pose proof (env_ok_wf c e Eo) as We. pose proof (search_dinv c e W We fuel s D) as S0.
  unfold next_task in H. destruct (find_ready fuel c e s) as [|z|z m exc]; [discriminate| |].
  - injection H as <- <-. left. destruct S0 as [(_ & T & R) _]. rewrite T, R; auto.
  - destruct S0 as [(Dz & _ & T & R & _) _].
    destruct (make_ready_rest c (e_ready e m) z (all_targets c m)) as (M1 & M2 & _ & _ & _ & [_ _ _ M9 _ M11]).
    set (z1 := make_ready c (e_ready e m) z (all_targets c m)) in *.
    assert (R1 : refok z1) by (destruct (di_ref _ _ Dz) as [Da Db]; split; [rewrite M2; exact Da | intros p; rewrite M1, M2; apply Db]).
    assert (Ret : forall ev y, (forall ts, ev <> EStart ts) -> retire fuel c e (e_now e) (emit z1 ev) (all_targets c m) = Some y ->
       running y = running s /\ handed (trace y) = handed (trace s)).
    { intros ev y Hev Hy. destruct (retire_trace _ _ _ _ (emit z1 ev) _ _ We R1 Hy) as (Y1 & Y2 & _). cbn in Y1, Y2. split; [congruence|].
      rewrite Y1, M11, T. destruct (e_now e); destruct ev; try reflexivity; elim (Hev ts); reflexivity. }
    destruct (exc || _).
    + destruct (retire _ _ _ _ _ _) as [y|] eqn:Hy; [|discriminate]. injection H as <- <-. left. eapply Ret; [|exact Hy]. destruct (e_now e); discriminate.
    + destruct (match all_targets c m with t :: _ => nstate_eqb (nst z1 t) Executing | [] => false end).
      * injection H as <- <-. right. exists (all_targets c m). cbn. rewrite M9, M11, R, T. auto.
      * destruct (retire _ _ _ _ _ _) as [y|] eqn:Hy; [|discriminate]. injection H as <- <-. left. eapply Ret; [|exact Hy]. destruct (e_now e); discriminate.
Qed.
Lemma done_running c e fuel s t out s' : env_ok c e -> dinv c s -> In t (running s) ->
  step fuel c s (Done (index_of t (running s)) out e) = Some s' ->
  Permutation (running s) (t :: running s') /\ handed (trace s') = handed (trace s).
Proof.
  intros Eo D Ht H. destruct (index_take t (running s) Ht) as (l1 & l2 & E & T). cbn in H. rewrite T in H.
  destruct (retire_trace _ _ _ _ (emit (set_running s (l1 ++ l2)) (match out with OOk => EFinish t | _ => EFail t end)) _ _ (env_ok_wf c e Eo) (di_ref _ _ D) H) as (Y1 & Y2 & _). cbn in Y1, Y2.
  rewrite Y2, E, Y1. split; [apply Permutation_sym, Permutation_middle|]. destruct out; reflexivity.
Qed.

(* ---- counting program counters ---- *)
Definition execs (ths : list pc) : list task := flat_map (fun p => match p with Start t | Exec t | Enq t _ => [t] | _ => [] end) ths.
Definition wrk (ths : list pc) : list task := flat_map (fun p => match p with Exec t | Enq t _ => [t] | _ => [] end) ths.
Definition rets (ths : list pc) : list task := flat_map (fun p => match p with Retiring q => map fst q | _ => [] end) ths.
Definition nholds (ths : list pc) : nat := length (filter holds ths).
Definition isdone (p : pc) : bool := match p with Top true => true | _ => false end.
Definition isdrain (p : pc) : bool := match p with Drain => true | _ => false end.
Definition ndone (ths : list pc) : nat := length (filter isdone ths).
Definition live (p : pc) : bool := match p with Waiting | Exited => false | _ => true end.

Lemma filter_mid {A} (f : A -> bool) l1 p l2 : length (filter f (l1 ++ p :: l2)) = length (filter f (l1 ++ l2)) + (if f p then 1 else 0).
Proof. rewrite !filter_app, !app_length. cbn. destruct (f p); cbn; lia. Qed.
Lemma flat_mid {A B} (f : A -> list B) l1 p l2 : Permutation (flat_map f (l1 ++ p :: l2)) (f p ++ flat_map f (l1 ++ l2)).
Proof.
  rewrite !flat_map_app. cbn. rewrite app_assoc. eapply Permutation_trans; [apply Permutation_app_tail, Permutation_app_comm|]. rewrite <- app_assoc. reflexivity.
Qed.

(* changing waiting threads into woken ones *)
Definition wakes (a b : list pc) : Prop := Forall2 (fun p q => p = q \/ (p = Waiting /\ q = Woken)) a b.
Lemma wakes_refl a : wakes a a. Proof. induction a; constructor; auto. Qed.
Lemma wakes_notify_all a : wakes a (notify_all a).
Proof. induction a as [|p a IH]; constructor; [destruct p; auto | exact IH]. Qed.
Lemma wakes_notify w a : wakes a (notify w a).
Proof.
  unfold notify.
  assert (F : wakes a ((fix first l := match l with [] => [] | Waiting :: r => Woken :: r | p :: r => p :: first r end) a)).
  { induction a as [|p a IH]; [constructor|]. destruct p; constructor; auto; apply wakes_refl. }
  destruct (nth_error a w) as [p|] eqn:E; [|exact F]. destruct p; try exact F.
  destruct (set_nth_split w Woken Waiting a E) as (l1 & l2 & -> & -> & _). clear.
  induction l1 as [|p l1 IH]; constructor; auto. apply wakes_refl.
Qed.
Lemma wakes_flat {B} (f : pc -> list B) a b : (f Waiting = f Woken) -> wakes a b -> flat_map f b = flat_map f a.
Proof. intros E H. induction H as [|p q a b [->|[-> ->]] _ IH]; cbn; congruence. Qed.
Lemma wakes_filter (f : pc -> bool) a b : (f Waiting = f Woken) -> wakes a b -> length (filter f b) = length (filter f a).
Proof. intros E H. induction H as [|p q a b [->|[-> ->]] _ IH]; cbn; [reflexivity | destruct (f q); cbn; congruence | rewrite E; destruct (f Woken); cbn; congruence]. Qed.
Lemma wakes_length a b : wakes a b -> length b = length a.
Proof. intros H; induction H; cbn; congruence. Qed.
Lemma wakes_in a b p : wakes a b -> p <> Waiting -> p <> Woken -> (In p b <-> In p a).
Proof. intros H N1 N2. induction H as [|x y a b [->|[-> ->]] _ IH]; cbn; [tauto | tauto | intuition congruence]. Qed.
Lemma wakes_live a b p : wakes a b -> In p a -> live p = true -> exists q, In q b /\ live q = true.
Proof.
  intros H. induction H as [|x y a b Hxy _ IH]; [intros []|]. intros [->|Hp] Hl.
  - destruct Hxy as [<-|[-> ->]]; [|discriminate]. exists p; cbn; auto.
  - destruct (IH Hp Hl) as (q & A & B). exists q; cbn; auto.
Qed.

Record ninv (c : cfg) (n : nat) (x : np) : Prop := {
  ni_reach : reachable c (p_ops x) (p_tm x);
  ni_run : Permutation (running (p_tm x)) (execs (p_ths x) ++ map fst (p_queue x) ++ rets (p_ths x));
  ni_jobs : p_jobs x = Z.of_nat (length (running (p_tm x)));
  ni_lock : nholds (p_ths x) = match p_state x with Searching_ => 1 | _ => 0 end;
  ni_queue : In Drain (p_ths x) \/ length (p_queue x) <= ndone (p_ths x);
  ni_stall : p_state x = Stalled_ -> running (p_tm x) <> [] /\ n <> 1;
  ni_ready : p_state x = Ready_ -> exists p, In p (p_ths x) /\ live p = true;
  ni_comp : p_state x = Completed_ -> ~ In Waiting (p_ths x) /\ running (p_tm x) = [] /\ over c (p_ops x) (p_tm x);
  ni_len : 1 <= length (p_ths x) <= n;
  ni_exit : p_state x <> Completed_ -> p_joined x = 0 /\ ~ In Exited (p_ths x);
  ni_one : n = 1 -> ~ In Waiting (p_ths x);
  ni_handed : Permutation (handed (trace (p_tm x))) (execs (p_ths x) ++ map fst (p_queue x) ++ rets (p_ths x) ++ p_ret x);
  ni_exec : Permutation (p_exec x ++ p_skip x) (wrk (p_ths x) ++ map fst (p_queue x) ++ rets (p_ths x) ++ p_ret x) }.

Lemma init_ninv c n : n >= 1 -> ninv c n (np_init c).
Proof.
  intros Hn. constructor; cbn; auto; try discriminate; try lia.
  - split; [constructor | exists 0; reflexivity].
  - intros _; exists (Top false); auto.
  - intros _; split; [reflexivity | intros [|[]]; discriminate].
  - intros _ [|[]]; discriminate.
Qed.

Lemma holds_le1 l1 p l2 (k : nat) : nholds (l1 ++ p :: l2) = k -> holds p = true -> nholds (l1 ++ l2) = k - 1 /\ k >= 1.
Proof. unfold nholds. intros H E. rewrite filter_mid, E in H. lia. Qed.

Lemma nholds_rets ths : nholds ths = 0 -> rets ths = [] /\ ~ In Drain ths /\ ~ In Searching ths.
Proof.
  unfold nholds, rets. induction ths as [|p ths IH]; cbn; [auto|]. intros H. destruct (holds p) eqn:E; [discriminate|].
  destruct (IH H) as (A & B & C). rewrite A. destruct p; try discriminate; (split; [reflexivity|]); split; intros [Q|Q]; try discriminate; tauto.
Qed.
Lemma locked_false ths : locked ths = false <-> nholds ths = 0.
Proof.
  unfold locked, nholds. induction ths as [|p ths IH]; cbn; [tauto|]. destruct (holds p); cbn; [split; discriminate | exact IH].
Qed.

Lemma in_mid {A} (q : A) l1 p l2 : In q (l1 ++ p :: l2) <-> p = q \/ In q (l1 ++ l2).
Proof. rewrite !in_app_iff. cbn. tauto. Qed.

Section Step.
Context (c : cfg) (n : nat) (W : cfg_wf c).

Lemma step_ninv x l y : label_ok c l -> ninv c n x -> np_step c n x l = Some y -> ninv c n y.
Proof.
  intros Lo I H. assert (D : dinv c (p_tm x)) by (eapply reachable_dinv; [exact W | apply (ni_reach c n x I)]).
  destruct I as [I1 I2 I3 I4 I5 I6 I7 I8 I9 I10 I11 I12 I13].
  destruct l as [i fuel e out w| |e].
  3:{ (* signal *)
    cbn [np_step step] in H. injection H as <-. cbn in Lo.
    assert (Re : reachable c (p_ops x ++ [Stop e]) (emit (set_stopped (p_tm x) true) EStop)) by (eapply (reachable_step c _ _ (Stop e) 0); [exact I1 | exact Lo | reflexivity]).
    constructor; cbn [p_tm p_ops p_ths p_state p_jobs p_queue p_joined p_exec p_ret p_int p_skip p_hist p_done]; auto.
    intros E. destruct (I8 E) as (A & B & C). split; [exact A|]. split; [exact B|]. apply over_signal; exact C. }
  2:{ (* join *)
    cbn in H. destruct (nth_error (p_ths x) (p_joined x)) as [[]|] eqn:E; try discriminate. injection H as <-.
    constructor; cbn; auto. intros N. destruct (I10 N) as [_ B]. apply nth_error_In in E. contradiction. }
  cbn in Lo. cbn [np_step] in H. destruct (nth_error (p_ths x) i) as [p|] eqn:Ep; [|discriminate].
  (* entering the critical section *)
  assert (Enter : forall st, locked (p_ths x) = false -> (p = Top true \/ p = Top false \/ p = Woken) ->
     (st = p_state x \/ (st = Ready_ /\ p_state x = Stalled_)) -> (p = Top true -> st <> Stalled_) -> ninv c n (enter x i st)).
  { intros st Lk Hp Hst Hnst. apply locked_false in Lk.
    assert (Ns : p_state x <> Searching_) by (intros E; rewrite E, Lk in I4; discriminate).
    assert (P : forall v, exists l1 l2, p_ths x = l1 ++ p :: l2 /\ set_nth i v (p_ths x) = l1 ++ v :: l2) by
      (intros v; destruct (set_nth_split i v p (p_ths x) Ep) as (l1 & l2 & A & B & _); exists l1, l2; auto).
    destruct (nholds_rets _ Lk) as (Nr & Nd & _).
    assert (Q5 : length (p_queue x) <= ndone (p_ths x)) by (destruct I5; [contradiction | assumption]).
    destruct st; cbn [enter].
    - (* Ready: search *)
      destruct (P Drain) as (l1 & l2 & E1 & E2). unfold put.
      rewrite E1 in *.
      assert (Ex : execs (l1 ++ Drain :: l2) = execs (l1 ++ p :: l2)) by (unfold execs; rewrite !flat_map_app; cbn; destruct Hp as [->|[->| ->]]; reflexivity).
      assert (Rx : rets (l1 ++ Drain :: l2) = rets (l1 ++ p :: l2)) by (unfold rets; rewrite !flat_map_app; cbn; destruct Hp as [->|[->| ->]]; reflexivity).
      assert (Qx : wrk (l1 ++ Drain :: l2) = wrk (l1 ++ p :: l2))
        by (unfold wrk; rewrite !flat_map_app; cbn; destruct Hp as [->|[->| ->]]; reflexivity).
      constructor; cbn [p_tm p_ops p_ths p_state p_jobs p_queue p_joined p_exec p_ret p_int p_skip p_hist p_done]; rewrite ?E2, ?Ex, ?Rx; auto; try discriminate.
      + unfold nholds in *. rewrite filter_mid in *. cbn. destruct (holds p) eqn:Hh; [destruct Hp as [->|[->| ->]]; discriminate | lia].
      + left. apply in_mid; left; reflexivity.
      + rewrite app_length in *. cbn in *. exact I9.
      + intros _. destruct (I10 ltac:(destruct Hst as [<-|[_ ->]]; discriminate)) as [A B]. split; [exact A|].
        rewrite in_mid in *. intros [Q|Q]; [discriminate | tauto].
      + intros E. specialize (I11 E). rewrite in_mid in *. intros [Q|Q]; [discriminate | tauto].
      + rewrite ?Qx. exact I13.
    - destruct Hst as [E|[E _]]; congruence.
    - (* Stalled: wait *)
      destruct Hst as [Hst|[E _]]; [|discriminate].
      destruct (P Waiting) as (l1 & l2 & E1 & E2). unfold put. rewrite E1 in *.
      assert (Hp' : p = Top false \/ p = Woken) by (destruct Hp as [->|Hp]; [elim (Hnst eq_refl); reflexivity | exact Hp]).
      assert (Ex : execs (l1 ++ Waiting :: l2) = execs (l1 ++ p :: l2)) by (unfold execs; rewrite !flat_map_app; cbn; destruct Hp as [->|[->| ->]]; reflexivity).
      assert (Rx : rets (l1 ++ Waiting :: l2) = rets (l1 ++ p :: l2)) by (unfold rets; rewrite !flat_map_app; cbn; destruct Hp as [->|[->| ->]]; reflexivity).
      assert (Qx : wrk (l1 ++ Waiting :: l2) = wrk (l1 ++ p :: l2))
        by (unfold wrk; rewrite !flat_map_app; cbn; destruct Hp as [->|[->| ->]]; reflexivity).
      constructor; cbn [p_tm p_ops p_ths p_state p_jobs p_queue p_joined p_exec p_ret p_int p_skip p_hist p_done]; rewrite ?E2, ?Ex, ?Rx; auto; try discriminate.
      + unfold nholds in *. rewrite filter_mid in *. cbn. destruct (holds p) eqn:Hh; [destruct Hp as [->|[->| ->]]; discriminate | lia].
      + right. unfold ndone in *. rewrite filter_mid in *. cbn. destruct Hp' as [-> | ->]; cbn in Q5; lia.
      + rewrite app_length in *. cbn in *. exact I9.
      + intros _. destruct (I10 ltac:(congruence)) as [A B]. split; [exact A|]. rewrite in_mid in *. intros [Q|Q]; [discriminate | tauto].
      + intros E. destruct (I6 (eq_sym Hst)) as [_ X]. contradiction.
      + rewrite ?Qx. exact I13.
    - (* Completed: leave *)
      destruct Hst as [Hst|[E _]]; [|discriminate]. destruct (I8 (eq_sym Hst)) as (C1 & C2 & C3).
      destruct (P Exited) as (l1 & l2 & E1 & E2). unfold put. rewrite E1 in *.
      assert (Ex : execs (l1 ++ Exited :: l2) = execs (l1 ++ p :: l2)) by (unfold execs; rewrite !flat_map_app; cbn; destruct Hp as [->|[->| ->]]; reflexivity).
      assert (Rx : rets (l1 ++ Exited :: l2) = rets (l1 ++ p :: l2)) by (unfold rets; rewrite !flat_map_app; cbn; destruct Hp as [->|[->| ->]]; reflexivity).
      assert (Qx : wrk (l1 ++ Exited :: l2) = wrk (l1 ++ p :: l2))
        by (unfold wrk; rewrite !flat_map_app; cbn; destruct Hp as [->|[->| ->]]; reflexivity).
      assert (Qe : p_queue x = []).
      { rewrite C2 in I2. apply Permutation_nil in I2. apply app_eq_nil in I2. destruct I2 as [_ I2]. apply app_eq_nil in I2. destruct I2 as [I2 _]. apply map_eq_nil in I2. exact I2. }
      constructor; cbn [p_tm p_ops p_ths p_state p_jobs p_queue p_joined p_exec p_ret p_int p_skip p_hist p_done]; rewrite ?E2, ?Ex, ?Rx; auto; try discriminate.
      + unfold nholds in *. rewrite filter_mid in *. cbn. destruct (holds p) eqn:Hh; [destruct Hp as [->|[->| ->]]; discriminate | rewrite <- Hst in I4; lia].
      + right. rewrite Qe. cbn. lia.
      + intros _. split; [|auto]. rewrite in_mid in *. intros [Q|Q]; [discriminate | tauto].
      + rewrite app_length in *. cbn in *. exact I9.
      + congruence.
      + intros _. rewrite in_mid in *. intros [Q|Q]; [discriminate | tauto].
      + rewrite ?Qx. exact I13. }
  assert (P : forall v, exists l1 l2, p_ths x = l1 ++ p :: l2 /\ set_nth i v (p_ths x) = l1 ++ v :: l2) by
      (intros v; destruct (set_nth_split i v p (p_ths x) Ep) as (l1 & l2 & A & B & _); exists l1, l2; auto).
  destruct p as [b| | | |q| |t|t|t ok|]; try discriminate.
  - (* Top *)
    destruct (locked (p_ths x)) eqn:Lk; [discriminate|]. injection H as <-.
    apply Enter; auto.
    + destruct b; auto.
    + destruct (p_state x), b; auto.
    + intros E; injection E as ->. destruct (p_state x); discriminate.
  - (* Woken *)
    destruct (locked (p_ths x)) eqn:Lk; [discriminate|]. injection H as <-. apply Enter; auto. discriminate.
  - (* Drain *)
    injection H as <-. destruct (P (Retiring (p_queue x))) as (l1 & l2 & E1 & E2). rewrite E1 in *.
    assert (Hc : p_state x = Searching_ /\ nholds (l1 ++ l2) = 0).
    { destruct (holds_le1 l1 Drain l2 _ I4 eq_refl) as [A B]. destruct (p_state x); try lia. split; [reflexivity | exact A]. }
    destruct Hc as [Hc Hn]. destruct (nholds_rets _ Hn) as (Nr & Nd & _).
    assert (Ex : execs (l1 ++ Retiring (p_queue x) :: l2) = execs (l1 ++ Drain :: l2)) by (unfold execs; rewrite !flat_map_app; reflexivity).
    assert (Rx : rets (l1 ++ Drain :: l2) = [] /\ rets (l1 ++ Retiring (p_queue x) :: l2) = map fst (p_queue x)).
    { unfold rets in *. rewrite !flat_map_app in *. cbn. apply app_eq_nil in Nr. destruct Nr as [-> ->]. cbn. rewrite app_nil_r. auto. }
    destruct Rx as [Rx1 Rx2]. rewrite Rx1 in *.
    constructor; cbn [p_tm p_ops p_ths p_state p_jobs p_queue p_joined p_exec p_ret p_int p_skip p_hist p_done]; rewrite ?E2, ?Ex, ?Rx2; auto; try congruence.
    + cbn. rewrite app_nil_r in I2. exact I2.
    + unfold nholds in *. rewrite filter_mid in *. exact I4.
    + right; cbn; lia.
    + rewrite app_length in *. cbn in *. exact I9.
    + intros N. destruct (I10 N) as [A B]. split; [exact A|]. rewrite in_mid in *. intros [Q|Q]; [discriminate | tauto].
    + intros E. specialize (I11 E). rewrite in_mid in *. intros [Q|Q]; [discriminate | tauto].
    + unfold wrk in *. rewrite flat_map_app in *. exact I13.
  - (* Retiring *)
    assert (Hc : p_state x = Searching_).
    { apply nth_error_In in Ep. destruct (p_state x); try reflexivity; apply in_split in Ep; destruct Ep as (l1 & l2 & E); rewrite E in I4;
        destruct (holds_le1 l1 (Retiring q) l2 _ I4 eq_refl); lia. }
    destruct q as [|[t ok] q].
    + injection H as <-. destruct (P Searching) as (l1 & l2 & E1 & E2). unfold put. rewrite E1 in *.
      assert (Ex : execs (l1 ++ Searching :: l2) = execs (l1 ++ Retiring [] :: l2)) by (unfold execs; rewrite !flat_map_app; reflexivity).
      assert (Rx : rets (l1 ++ Searching :: l2) = rets (l1 ++ Retiring [] :: l2)) by (unfold rets; rewrite !flat_map_app; reflexivity).
      constructor; cbn [p_tm p_ops p_ths p_state p_jobs p_queue p_joined p_exec p_ret p_int p_skip p_hist p_done]; rewrite ?E2, ?Ex, ?Rx; auto; try congruence.
      * unfold nholds in *. rewrite filter_mid in *. exact I4.
      * unfold ndone in *. rewrite filter_mid in *. rewrite in_mid in *. destruct I5 as [[Q|Q]|Q]; [discriminate | left; auto | right; exact Q].
      * rewrite app_length in *. cbn in *. exact I9.
      * intros N. destruct (I10 N) as [A B]. split; [exact A|]. rewrite in_mid in *. intros [Q|Q]; [discriminate | tauto].
      * intros E. specialize (I11 E). rewrite in_mid in *. intros [Q|Q]; [discriminate | tauto].
      * unfold wrk in *. rewrite flat_map_app in *. exact I13.
    + destruct (step fuel c (p_tm x) _) as [s|] eqn:Hs; [|discriminate]. injection H as <-.
      destruct (P (Retiring q)) as (l1 & l2 & E1 & E2). rewrite E1 in *.
      assert (Rx : Permutation (rets (l1 ++ Retiring ((t, ok) :: q) :: l2)) (t :: rets (l1 ++ Retiring q :: l2))).
      { unfold rets. rewrite (flat_mid _ l1 (Retiring ((t, ok) :: q)) l2), (flat_mid _ l1 (Retiring q) l2). reflexivity. }
      assert (Ex : execs (l1 ++ Retiring q :: l2) = execs (l1 ++ Retiring ((t, ok) :: q) :: l2)) by (unfold execs; rewrite !flat_map_app; reflexivity).
      assert (Ht : In t (running (p_tm x))).
      { eapply Permutation_in; [apply Permutation_sym; exact I2|]. rewrite !in_app_iff. right; right. eapply Permutation_in; [apply Permutation_sym; exact Rx | left; reflexivity]. }
      destruct (done_running c e fuel (p_tm x) t (if ok then OOk else out) s Lo D Ht Hs) as [R1 R2].
      constructor; cbn [p_tm p_ops p_ths p_state p_jobs p_queue p_joined p_exec p_ret p_int p_skip p_hist p_done]; rewrite ?E2, ?Ex; auto; try congruence.
      * eapply reachable_step; [exact I1 | exact Lo | exact Hs].
      * apply (Permutation_cons_inv (a := t)). rewrite <- R1, I2, Rx. rewrite !app_assoc. apply Permutation_sym, Permutation_middle.
      * rewrite I3. apply Permutation_length in R1. cbn in R1. lia.
      * unfold nholds in *. rewrite filter_mid in *. exact I4.
      * unfold ndone in *. rewrite filter_mid in *. rewrite in_mid in *. destruct I5 as [[Q|Q]|Q]; [discriminate | left; auto | right; exact Q].
      * rewrite app_length in *. cbn in *. exact I9.
      * intros N. destruct (I10 N) as [A B]. split; [exact A|]. rewrite in_mid in *. intros [Q|Q]; [discriminate | tauto].
      * intros E. specialize (I11 E). rewrite in_mid in *. intros [Q|Q]; [discriminate | tauto].
      * rewrite R2, I12. apply Permutation_app_head, Permutation_app_head. rewrite Rx. cbn. apply Permutation_middle.
      * assert (Wx : wrk (l1 ++ Retiring q :: l2) = wrk (l1 ++ Retiring ((t, ok) :: q) :: l2)) by (unfold wrk; rewrite !flat_map_app; reflexivity).
        rewrite Wx, I13. apply Permutation_app_head, Permutation_app_head. rewrite Rx. cbn. apply Permutation_middle.
  - (* Searching *)
    assert (Hc : p_state x = Searching_).
    { apply nth_error_In in Ep. destruct (p_state x); try reflexivity; apply in_split in Ep; destruct Ep as (l1 & l2 & E); rewrite E in I4;
        destruct (holds_le1 l1 Searching l2 _ I4 eq_refl); lia. }
    destruct (next_task fuel c e (p_tm x)) as [[s found]|] eqn:Hs; [|discriminate].
    assert (Hst : step fuel c (p_tm x) (Next e) = Some s) by (cbn; rewrite Hs; reflexivity).
    assert (Re : reachable c (p_ops x ++ [Next e]) s) by (eapply reachable_step; [exact I1 | exact Lo | exact Hst]).
    pose proof (next_running c e fuel (p_tm x) s found W Lo D Hs) as Rn.
    assert (Nh : forall l1 l2, p_ths x = l1 ++ Searching :: l2 -> nholds (l1 ++ l2) = 0).
    { intros l1 l2 E. rewrite E, Hc in I4. destruct (holds_le1 l1 Searching l2 _ I4 eq_refl) as [A _]. exact A. }
    destruct found.
    + destruct (length (running (p_tm x)) <? length (running s)) eqn:El.
      * (* a task to execute *)
        apply Nat.ltb_lt in El. destruct Rn as [[Rn _]|(t & _ & Rn & Rh)]; [rewrite Rn in El; lia|].
        rewrite Rn in H. injection H as <-.
        destruct (P (Start t)) as (l1 & l2 & E1 & E2). rewrite E2 in *. rewrite E1 in *. specialize (Nh l1 l2 eq_refl).
        destruct (nholds_rets _ Nh) as (Nr & Nd & _).
        set (a := notify w (l1 ++ Start t :: l2)). assert (Wk : wakes (l1 ++ Start t :: l2) a) by apply wakes_notify.
        assert (Jz : p_joined x = 0 /\ ~ In Exited (l1 ++ Searching :: l2)) by (apply I10; congruence). destruct Jz as [Jz Nex].
        assert (Ms : maybe_start n (p_jobs x + 1) (p_joined x) a = a \/ (maybe_start n (p_jobs x + 1) (p_joined x) a = a ++ [Top false] /\ 1 < n /\ length a < n)).
        { unfold maybe_start. rewrite Jz, Nat.sub_0_r. destruct ((1 <? n) && (length a <? n) && _)%bool eqn:B; [|left; reflexivity]. right. split; [reflexivity|].
          apply andb_true_iff in B. destruct B as [B _]. apply andb_true_iff in B. destruct B as [B1 B2]. apply Nat.ltb_lt in B1, B2. auto. }
        set (m := maybe_start n (p_jobs x + 1) (p_joined x) a) in *.
        assert (Hexec : Permutation (execs m) (t :: execs (l1 ++ Searching :: l2))).
        { assert (execs m = execs a) as ->. { destruct Ms as [->|(-> & _)]; [reflexivity|]. unfold execs. rewrite flat_map_app. cbn. apply app_nil_r. }
          unfold execs. rewrite (fun B (f : pc -> list B) H => @wakes_flat B f _ _ H Wk) by reflexivity. rewrite (flat_mid _ l1 (Start t) l2), (flat_mid _ l1 Searching l2). reflexivity. }
        assert (Hrets : rets m = rets (l1 ++ Searching :: l2)).
        { assert (rets m = rets a) as ->. { destruct Ms as [->|(-> & _)]; [reflexivity|]. unfold rets. rewrite flat_map_app. cbn. apply app_nil_r. }
          unfold rets. rewrite (fun B (f : pc -> list B) H => @wakes_flat B f _ _ H Wk) by reflexivity; rewrite !flat_map_app. reflexivity. }
        assert (Henq : wrk m = wrk (l1 ++ Searching :: l2)).
        { unfold wrk. destruct Ms as [->|(-> & _)]; rewrite ?flat_map_app, (fun B (f : pc -> list B) H => @wakes_flat B f _ _ H Wk) by reflexivity; rewrite !flat_map_app; cbn; rewrite ?app_nil_r; reflexivity. }
        assert (Hn0 : forall f : pc -> bool, f Waiting = f Woken -> f (Top false) = false -> length (filter f m) = length (filter f (l1 ++ Start t :: l2))).
        { intros f F1 F2. destruct Ms as [->|(-> & _)]; [apply (wakes_filter f _ _ F1 Wk)|]. rewrite filter_app, app_length. cbn. rewrite F2. cbn.
          rewrite (wakes_filter f _ _ F1 Wk). lia. }
        assert (Hin : forall p, p <> Waiting -> p <> Woken -> p <> Top false -> (In p m <-> In p (l1 ++ Start t :: l2))).
        { intros p N1 N2 N3. rewrite <- (wakes_in _ _ p Wk N1 N2). destruct Ms as [->|(-> & _)]; [tauto|]. rewrite in_app_iff. cbn. intuition congruence. }
        constructor; cbn [p_tm p_ops p_ths p_state p_jobs p_queue p_joined p_exec p_ret p_int p_skip p_hist p_done]; fold m; auto; try congruence; try discriminate.
        -- rewrite Rn, Hrets. eapply Permutation_trans; [apply perm_skip; exact I2|]. rewrite Hexec. reflexivity.
        -- rewrite I3, Rn. cbn [length]. lia.
        -- unfold nholds. rewrite Hn0 by reflexivity. rewrite filter_mid. unfold nholds in Nh. rewrite Nh. reflexivity.
        -- right. unfold ndone. rewrite Hn0 by reflexivity. destruct I5 as [Q|Q]; [rewrite in_mid in Q; destruct Q; [discriminate | contradiction]|].
           unfold ndone in Q. rewrite filter_mid in *. exact Q.
        -- intros _. exists (Start t). split; [|reflexivity]. apply Hin; try discriminate. apply in_mid; left; reflexivity.
        -- assert (length a = length (l1 ++ Searching :: l2)) as La by (rewrite (wakes_length _ _ Wk), !app_length; reflexivity).
           destruct Ms as [->|(-> & M1 & M2)]; [lia | rewrite app_length; cbn; lia].
        -- intros _. split; [exact Jz|]. rewrite Hin by discriminate. rewrite in_mid in *. intros [Q|Q]; [discriminate | tauto].
        -- intros E. specialize (I11 E). intros Q. destruct Ms as [Ms|(_ & M & _)]; [rewrite Ms in Q | lia].
           assert (Wn : ~ In Waiting (l1 ++ Start t :: l2)) by (rewrite in_mid in *; intros [X|X]; [discriminate | tauto]).
           clear - Wk Wn Q. induction Wk as [|p q a b Hpq _ IH]; [elim Q|]. cbn in Wn. destruct Q as [->|Q]; [destruct Hpq as [->|[_ E]]; [tauto | discriminate] | apply IH; tauto].
        -- rewrite Rh, Hrets. eapply Permutation_trans; [apply perm_skip; exact I12|]. rewrite Hexec. reflexivity.
      * (* internal task *)
        apply Nat.ltb_ge in El. destruct Rn as [[Rn Rh]|(t & _ & Rn & _)]; [|rewrite Rn in El; cbn in El; lia].
        injection H as <-. constructor; cbn; rewrite ?Rn, ?Rh; auto; try discriminate.
        -- rewrite Hc in I4. exact I4.
        -- intros _; apply I10; congruence.
    + destruct Rn as [[Rn Rh]|(t & Q & _)]; [|discriminate].
      destruct (P (Top false)) as (l1 & l2 & E1 & E2). rewrite E2 in *. rewrite E1 in *. specialize (Nh l1 l2 eq_refl).
      destruct (nholds_rets _ Nh) as (Nr & Nd & _).
      assert (Rz : rets (l1 ++ Searching :: l2) = []) by (unfold rets in *; rewrite flat_map_app in *; cbn; exact Nr).
      assert (Qd : length (p_queue x) <= ndone (l1 ++ Searching :: l2)).
      { destruct I5 as [Q|Q]; [rewrite in_mid in Q; destruct Q; [discriminate | contradiction] | exact Q]. }
      destruct (p_jobs x =? 0)%Z eqn:Ej; injection H as <-.
      * (* completed *)
        apply Z.eqb_eq in Ej. rewrite Ej in I3.
        assert (Z0 : running (p_tm x) = []) by (destruct (running (p_tm x)); [reflexivity | cbn in I3; lia]).
        assert (Wk := wakes_notify_all (l1 ++ Top false :: l2)). set (a := notify_all (l1 ++ Top false :: l2)) in *.
        assert (Ex : execs a = execs (l1 ++ Searching :: l2)) by (unfold execs; rewrite (fun B (f : pc -> list B) H => @wakes_flat B f _ _ H Wk) by reflexivity; rewrite !flat_map_app; reflexivity).
        assert (Rx : rets a = rets (l1 ++ Searching :: l2)) by (unfold rets; rewrite (fun B (f : pc -> list B) H => @wakes_flat B f _ _ H Wk) by reflexivity; rewrite !flat_map_app; reflexivity).
        assert (Qe : p_queue x = []).
        { rewrite Z0 in I2. apply Permutation_nil in I2. apply app_eq_nil in I2. destruct I2 as [_ I2]. apply app_eq_nil in I2. destruct I2 as [I2 _]. apply map_eq_nil in I2. exact I2. }
        assert (Nw : ~ In Waiting a).
        { unfold a, notify_all. rewrite in_map_iff. intros (q & Q & _). destruct q; discriminate. }
        constructor; cbn [p_tm p_ops p_ths p_state p_jobs p_queue p_joined p_exec p_ret p_int p_skip p_hist p_done]; fold a; rewrite ?Ex, ?Rx, ?Rn, ?Rh; auto; try congruence; try discriminate.
        -- unfold nholds. rewrite (wakes_filter holds _ _ eq_refl Wk), filter_mid. unfold nholds in Nh. rewrite Nh. reflexivity.
        -- right. rewrite Qe. cbn. lia.
        -- intros _. split; [exact Nw|]. split; [exact Z0|]. apply over_ended. exists (p_ops x), e, (p_tm x), fuel. auto 10.
        -- rewrite (wakes_length _ _ Wk). rewrite app_length in *. cbn in *. exact I9.
        -- unfold wrk in *. rewrite (fun B (f : pc -> list B) H => @wakes_flat B f _ _ H Wk) by reflexivity. rewrite flat_map_app in *. exact I13.
      * (* stalled *)
        apply Z.eqb_neq in Ej.
        assert (Ex : execs (l1 ++ Top false :: l2) = execs (l1 ++ Searching :: l2)) by (unfold execs; rewrite !flat_map_app; reflexivity).
        assert (Rx : rets (l1 ++ Top false :: l2) = rets (l1 ++ Searching :: l2)) by (unfold rets; rewrite !flat_map_app; reflexivity).
        assert (Nz : running (p_tm x) <> []) by (intros Z; rewrite Z in I3; cbn in I3; lia).
        constructor; cbn [p_tm p_ops p_ths p_state p_jobs p_queue p_joined p_exec p_ret p_int p_skip p_hist p_done]; rewrite ?Ex, ?Rx, ?Rn, ?Rh; auto; try congruence; try discriminate.
        -- unfold nholds in *. rewrite filter_mid. rewrite Nh. reflexivity.
        -- right. unfold ndone in *. rewrite filter_mid in *. exact Qd.
        -- intros _. split; [exact Nz|]. intros ->. apply Nz.
           assert (l1 = [] /\ l2 = []) as [-> ->] by (rewrite app_length in I9; cbn in I9; destruct l1, l2; cbn in I9; try lia; auto).
           cbn in Qd. assert (Qe : p_queue x = []) by (destruct (p_queue x); [reflexivity | cbn in Qd; lia]). rewrite Qe in I2. cbn in I2.
           apply Permutation_sym, Permutation_nil in I2. exact I2.
        -- rewrite app_length in *. cbn in *. exact I9.
        -- intros _. destruct (I10 ltac:(congruence)) as [A B]. split; [exact A|]. rewrite in_mid in *. intros [Q|Q]; [discriminate | tauto].
        -- intros E. specialize (I11 E). rewrite in_mid in *. intros [Q|Q]; [discriminate | tauto].
        -- unfold wrk in *. rewrite flat_map_app in *. exact I13.
  - (* Start *)
    assert (G : forall v ex sk, (v = Exec t \/ v = Enq t false) -> Permutation (ex ++ sk) (t :: p_exec x ++ p_skip x) ->
      ninv c n {| p_tm := p_tm x; p_ops := p_ops x; p_ths := set_nth i v (p_ths x); p_state := p_state x; p_jobs := p_jobs x;
                  p_queue := p_queue x; p_joined := p_joined x; p_exec := ex; p_ret := p_ret x; p_int := p_int x; p_skip := sk; p_hist := p_hist x; p_done := p_done x |}).
    { intros v ex sk Hv Hp. destruct (P v) as (l1 & l2 & E1 & E2). rewrite E1 in *.
      assert (Ex : execs (l1 ++ v :: l2) = execs (l1 ++ Start t :: l2)) by (unfold execs; rewrite !flat_map_app; destruct Hv as [-> | ->]; reflexivity).
      assert (Rx : rets (l1 ++ v :: l2) = rets (l1 ++ Start t :: l2)) by (unfold rets; rewrite !flat_map_app; destruct Hv as [-> | ->]; reflexivity).
      assert (Wx : Permutation (wrk (l1 ++ v :: l2)) (t :: wrk (l1 ++ Start t :: l2))).
      { unfold wrk. rewrite (flat_mid _ l1 v l2), (flat_mid _ l1 (Start t) l2). destruct Hv as [-> | ->]; reflexivity. }
      constructor; cbn [p_tm p_ops p_ths p_state p_jobs p_queue p_joined p_exec p_ret p_int p_skip p_hist p_done]; rewrite ?E2, ?Ex, ?Rx; auto.
      + unfold nholds in *. rewrite filter_mid in *. destruct Hv as [-> | ->]; exact I4.
      + unfold ndone in *. rewrite filter_mid in *. rewrite in_mid in *. destruct I5 as [[Q|Q]|Q]; [discriminate | left; auto | right; destruct Hv as [-> | ->]; exact Q].
      + intros E. exists v. split; [apply in_mid; left; reflexivity | destruct Hv as [-> | ->]; reflexivity].
      + intros E. destruct (I8 E) as (A & B & C). split; [|auto]. rewrite in_mid in *. intros [Q|Q]; [destruct Hv; congruence | tauto].
      + rewrite app_length in *. cbn in *. exact I9.
      + intros N. destruct (I10 N) as [A B]. split; [exact A|]. rewrite in_mid in *. intros [Q|Q]; [destruct Hv; congruence | tauto].
      + intros E. specialize (I11 E). rewrite in_mid in *. intros [Q|Q]; [destruct Hv; congruence | tauto].
      + rewrite Hp, Wx. cbn. apply perm_skip. exact I13. }
    destruct (p_int x) eqn:Ei; injection H as <-; (apply G; [auto|]); [apply Permutation_sym, Permutation_middle | reflexivity].
  - (* Exec *)
    injection H as <-. unfold put. set (ok := match out with OOk => true | _ => false end). destruct (P (Enq t ok)) as (l1 & l2 & E1 & E2). rewrite E1 in *.
    assert (Ex : execs (l1 ++ Enq t ok :: l2) = execs (l1 ++ Exec t :: l2)) by (unfold execs; rewrite !flat_map_app; reflexivity).
    assert (Rx : rets (l1 ++ Enq t ok :: l2) = rets (l1 ++ Exec t :: l2)) by (unfold rets; rewrite !flat_map_app; reflexivity).
    assert (Wx : wrk (l1 ++ Enq t ok :: l2) = wrk (l1 ++ Exec t :: l2)) by (unfold wrk; rewrite !flat_map_app; reflexivity).
    constructor; cbn [p_tm p_ops p_ths p_state p_jobs p_queue p_joined p_exec p_ret p_int p_skip p_hist p_done]; rewrite ?E2, ?Ex, ?Rx, ?Wx; auto.
    + unfold nholds in *. rewrite filter_mid in *. exact I4.
    + unfold ndone in *. rewrite filter_mid in *. rewrite in_mid in *. destruct I5 as [[Q|Q]|Q]; [discriminate | left; auto | right; exact Q].
    + intros E. exists (Enq t ok). split; [apply in_mid; left; reflexivity | reflexivity].
    + intros E. destruct (I8 E) as (A & B & C). split; [|auto]. rewrite in_mid in *. intros [Q|Q]; [discriminate | tauto].
    + rewrite app_length in *. cbn in *. exact I9.
    + intros N. destruct (I10 N) as [A B]. split; [exact A|]. rewrite in_mid in *. intros [Q|Q]; [discriminate | tauto].
    + intros E. specialize (I11 E). rewrite in_mid in *. intros [Q|Q]; [discriminate | tauto].
  - (* Enq *)
    injection H as <-. destruct (P (Top true)) as (l1 & l2 & E1 & E2). rewrite E1 in *.
    assert (Ex : Permutation (execs (l1 ++ Enq t ok :: l2)) (t :: execs (l1 ++ Top true :: l2))).
    { unfold execs. rewrite (flat_mid _ l1 (Enq t ok) l2), (flat_mid _ l1 (Top true) l2). reflexivity. }
    assert (Rx : rets (l1 ++ Top true :: l2) = rets (l1 ++ Enq t ok :: l2)) by (unfold rets; rewrite !flat_map_app; reflexivity).
    assert (Mv : forall (A B C : list task), Permutation A (t :: B) -> Permutation (A ++ map fst (p_queue x) ++ C) (B ++ map fst (p_queue x ++ [(t, ok)]) ++ C)).
    { intros A B C H. rewrite map_app. cbn [map fst]. rewrite H. cbn. rewrite <- !app_assoc. cbn. set (Q := map fst (p_queue x)). rewrite (app_assoc B Q C), (app_assoc B Q (t :: C)). apply Permutation_middle. }
    constructor; cbn [p_tm p_ops p_ths p_state p_jobs p_queue p_joined p_exec p_ret p_int p_skip p_hist p_done]; rewrite ?E2, ?Rx; auto.
    + rewrite I2. apply Mv. exact Ex.
    + unfold nholds in *. rewrite filter_mid in *. exact I4.
    + unfold ndone in *. rewrite filter_mid in *. rewrite in_mid in *. cbn in *. rewrite app_length. cbn. destruct I5 as [[Q|Q]|Q]; [discriminate | left; auto | right; lia].
    + intros E. exists (Top true). split; [apply in_mid; left; reflexivity | reflexivity].
    + intros E. destruct (I8 E) as (A & B & C). split; [|auto]. rewrite in_mid in *. intros [Q|Q]; [discriminate | tauto].
    + rewrite app_length in *. cbn in *. exact I9.
    + intros N. destruct (I10 N) as [A B]. split; [exact A|]. rewrite in_mid in *. intros [Q|Q]; [discriminate | tauto].
    + intros E. specialize (I11 E). rewrite in_mid in *. intros [Q|Q]; [discriminate | tauto].
    + rewrite I12. apply Mv. exact Ex.
    + rewrite I13. apply Mv. unfold wrk. rewrite (flat_mid _ l1 (Enq t ok) l2), (flat_mid _ l1 (Top true) l2). reflexivity.
Qed.

Lemma run_ninv ls : forall x y, Forall (label_ok c) ls -> ninv c n x -> np_run c n x ls = Some y -> ninv c n y.
Proof.
  induction ls as [|l ls IH]; intros x y Ho I H; cbn in H; [injection H as <-; exact I|].
  inversion Ho as [|a b Ha Hb]; subst. destruct (np_step c n x l) as [z|] eqn:E; [|discriminate].
  eapply IH; [exact Hb | eapply step_ninv; eassumption | exact H].
Qed.
Lemma reach_ninv ls x : n >= 1 -> np_reachable c n ls x -> ninv c n x.
Proof. intros Hn [A B]. eapply run_ninv; [exact A | apply init_ninv; exact Hn | exact B]. Qed.

Lemma len_executing x : length (executing x) <= length (p_ths x).
Proof. unfold executing. induction (p_ths x) as [|p l IH]; cbn; [lia|]. rewrite app_length. destruct p; cbn; lia. Qed.

(* some action is possible as long as a thread has not finished *)
Lemma progress x e : ninv c n x -> env_ok c e ->
  (forall o, op_env o = e -> exists F s', forall fuel, fuel >= F -> step fuel c (p_tm x) o = Some s') ->
  (exists p, In p (p_ths x) /\ p <> Exited) ->
  exists i fuel out w y, np_step c n x (Act i fuel e out w) = Some y.
Proof.
  intros I Eo Tot (p & Hp & Np). pose proof I as I'. destruct I as [I1 I2 I3 I4 I5 I6 I7 I8 I9 I10 I11 I12 I13].
  assert (D : dinv c (p_tm x)) by (eapply reachable_dinv; [exact W | exact I1]).
  destruct (existsb holds (p_ths x)) eqn:Lk.
  - apply existsb_exists in Lk. destruct Lk as (h & Hh & Eh). apply In_nth_error in Hh. destruct Hh as [i Hi].
    destruct h as [b| | | |q| |t|t|t ok|]; try discriminate.
    + exists i, 0, OOk, 0. eexists. cbn [np_step]. rewrite Hi. reflexivity.
    + destruct q as [|[t ok] q].
      * exists i, 0, OOk, 0. eexists. cbn [np_step]. rewrite Hi. reflexivity.
      * destruct (Tot (Done (index_of t (running (p_tm x))) OOk e) eq_refl) as (F & s' & HF).
        exists i, F, OOk, 0. eexists. cbn [np_step]. rewrite Hi. cbn zeta. replace (if ok then OOk else OOk) with OOk by (destruct ok; reflexivity). rewrite (HF F (le_n _)). reflexivity.
    + destruct (Tot (Next e) eq_refl) as (F & s' & HF). specialize (HF F (le_n _)). cbn in HF.
      destruct (next_task F c e (p_tm x)) as [[s found]|] eqn:E; [|discriminate].
      pose proof (next_running c e F (p_tm x) s found W Eo D E) as Rn.
      exists i, F, OOk, 0. cbn [np_step]. rewrite Hi, E. destruct found.
      * destruct (length (running (p_tm x)) <? length (running s)) eqn:El; [|eexists; reflexivity].
        apply Nat.ltb_lt in El. destruct (running s) as [|t r]; [cbn in El; lia | eexists; reflexivity].
      * destruct (p_jobs x =? 0)%Z; eexists; reflexivity.
  - assert (Nh : nholds (p_ths x) = 0) by (apply locked_false; exact Lk).
    destruct (existsb live (p_ths x)) eqn:Lv.
    + apply existsb_exists in Lv. destruct Lv as (h & Hh & Eh).
      assert (Hnh : holds h = false).
      { destruct (holds h) eqn:E; [|reflexivity]. exfalso. assert (existsb holds (p_ths x) = true) by (apply existsb_exists; exists h; auto). congruence. }
      apply In_nth_error in Hh. destruct Hh as [i Hi]. exists i, 0, OOk, 0. cbn [np_step]. rewrite Hi. unfold locked. rewrite Lk.
      destruct h as [b| | | |q| |t|t|t ok|]; try discriminate; try (eexists; reflexivity). destruct (p_int x); eexists; reflexivity.
    + exfalso.
      assert (Nl : forall q, In q (p_ths x) -> live q = false).
      { intros q Hq. destruct (live q) eqn:E; [|reflexivity]. assert (existsb live (p_ths x) = true) by (apply existsb_exists; exists q; auto). congruence. }
      assert (Pw : p = Waiting) by (specialize (Nl p Hp); destruct p; try discriminate; congruence). subst p.
      destruct (p_state x) eqn:Es.
      * destruct (I7 eq_refl) as (q & Q1 & Q2). rewrite (Nl q Q1) in Q2. discriminate.
      * rewrite Nh in I4. discriminate.
      * destruct (I6 eq_refl) as [Nz _]. apply Nz.
        destruct (nholds_rets _ Nh) as (Nr & Nd & _). destruct I5 as [Q|Q]; [contradiction|].
        assert (Z1 : ndone (p_ths x) = 0 /\ execs (p_ths x) = []).
        { clear - Nl. unfold ndone, execs. induction (p_ths x) as [|q l IH]; [auto|]. destruct IH as [A B]; [intros r Hr; apply Nl; right; exact Hr|].
          cbn. specialize (Nl q (or_introl eq_refl)). destruct q as [[|]| | | | | | | | |]; try discriminate; auto. }
        destruct Z1 as [Z1 Z2]. rewrite Z1 in Q. rewrite Z2, Nr in I2. destruct (p_queue x); [|cbn in Q; lia].
        apply Permutation_sym, Permutation_nil in I2. exact I2.
      * destruct (I8 eq_refl) as (Q & _). contradiction.
Qed.
End Step.
