(* C55e-h: repeated calls, multi builders, pre- and post-actions; exceptions and witnesses.  Vocabulary in BldProps.v and BldProps2.v. *)
From Coq Require Import List Bool Arith Lia.
Import ListNotations.
From Verif Require Import BldModel BldProps BldProps2.

(* ---- Specification ---- *)
(* the actions added to t, in order *)
Definition added (pre : bool) (t : node) (o : op) : list act :=
  match pre, o with true, Pre ns a => if mem t ns then [a] else [] | false, Post ns a => if mem t ns then [a] else [] | _, _ => [] end.
Inductive subseq {A} : list A -> list A -> Prop :=
  | ss_nil l : subseq [] l
  | ss_skip x l m : subseq l m -> subseq l (x :: m)
  | ss_take x l m : subseq l m -> subseq (x :: l) (x :: m).
Lemma subseq_refl {A} (l : list A) : subseq l l.
Proof. induction l; constructor; assumption. Qed.
Lemma subseq_app {A} (a b c d : list A) : subseq a b -> subseq c d -> subseq (a ++ c) (b ++ d).
Proof. intros H K. induction H; cbn; [|constructor; assumption|constructor; assumption]. induction l; [exact K | cbn; constructor; assumption]. Qed.
Lemma subseq_trans_app {A} (a b c : list A) : subseq a b -> subseq a (b ++ c).
Proof. intros H. rewrite <- (app_nil_r a). apply subseq_app; [exact H | constructor]. Qed.

Lemma once_nodup l : NoDup l -> once l = l.
Proof.
  induction l as [|x l IH]; intros H; [reflexivity|]. inversion H as [|y ys Hx Hl]; subst. cbn. rewrite IH by exact Hl. f_equal. clear - Hx. induction l as [|y l IH]; [reflexivity|]. cbn.
  destruct (Nat.eqb_spec x y) as [->|N]; [elim Hx; left; reflexivity|]. cbn. f_equal. apply IH. intros Q. apply Hx. right. exact Q.
Qed.

Section P.
Context (contents : act -> list node -> list node -> envr -> nat) (batch_key : act -> envr -> list node -> list node -> option nat).
Local Notation run := (run contents batch_key).
Local Notation step := (step contents batch_key).

(* C55e.  The same call, made twice, is accepted (for an ordinary builder, targets not defined before, and sources that are not named twice). *)
Theorem C55e_repeated_call : forall h s c, run empty (h ++ [Call c]) = Some s -> b_multi (c_b c) = false -> NoDup (c_sl c) -> (forall t, In t (c_tl c) -> calls_on h t = []) ->
  exists s', run empty (h ++ [Call c; Call c]) = Some s'.
Proof.
  intros h s c H M Nd Hf. change [Call c; Call c] with ([Call c] ++ [Call c]). rewrite app_assoc, run_app, H. cbn [BldModel.run BldModel.step]. pose proof (inv_core_run contents batch_key _ _ H) as Ic.
  assert (Ef : errors_free contents s c = true).
  { unfold errors_free. apply run_snoc in H. destruct H as (s0 & _ & H1). cbn in H1. apply do_call_inv in H1. destruct H1 as (Ef & _). unfold errors_free in Ef. apply andb_true_iff in Ef. destruct Ef as [_ Ef]. rewrite Ef, andb_true_r.
    apply forallb_forall. intros t Ht. destruct (Ic t) as (I1 & I2 & I3). assert (Y : calls_on (h ++ [Call c]) t = [c]) by (rewrite calls_on_snoc, (Hf t Ht); apply mem_In in Ht; rewrite Ht; reflexivity).
    rewrite Y in I3. cbn [rev app] in I3. destruct I3 as (B1 & B2 & B3 & B4). unfold node_ok. rewrite B1, B2, B3, B4, M.
    assert (Sd : n_side (nodes s t) = false) by (destruct (n_side (nodes s t)); [specialize (I2 eq_refl); congruence | reflexivity]). rewrite Sd. cbn [negb andb]. destruct (b_explicit (c_b c)); [|reflexivity].
    unfold same_env. rewrite Nat.eqb_refl. cbn [orb andb]. apply leqb_eq. unfold sources_given. rewrite Y. cbn. rewrite app_nil_r. apply once_nodup. exact Nd. }
  unfold do_call. rewrite Ef. unfold find_executor. rewrite M. destruct (batch_key _ _ _ _) as [k|]; [destruct (lookup k (keys s))|]; eauto.
Qed.

(* executors have one batch if there are no batch keys *)
Lemma single_batch h : forall s, run empty h = Some s -> (forall c, In (Call c) h -> key_of batch_key c = None) -> forall x, length (x_batches (execs s x)) <= 1.
Proof.
  induction h as [|o h IH] using rev_ind; intros s H K x; [cbn in H; injection H as <-; cbn; lia|]. apply run_snoc in H. destruct H as (s0 & H0 & H1).
  specialize (IH s0 H0). assert (IH' : forall x, length (x_batches (execs s0 x)) <= 1) by (apply IH; intros c Hc; apply K; apply in_or_app; left; exact Hc). clear IH.
  assert (Ex : forall ns s, (forall x, length (x_batches (execs s x)) <= 1) -> forall x, length (x_batches (execs (fst (executors s ns)) x)) <= 1).
  { induction ns as [|n ns IHn]; intros s1 H2 y; [apply H2|]. cbn [executors]. destruct (get_executor s1 n) as [s2 i] eqn:G. assert (H3 : forall x, length (x_batches (execs s2 x)) <= 1).
    { intros z. unfold get_executor in G. destruct (n_exec (nodes s1 n)); [injection G as <- _; apply H2|]. injection G as <- _. cbn [set_nodes new_exec execs]. unfold upd. destruct (Nat.eqb z (next s1)); [|apply H2].
      destruct (n_builder (nodes s1 n)); [|cbn; lia]. cbn. lia. }
    specialize (IHn s2 H3 y). destruct (executors s2 ns). exact IHn. }
  assert (Ac : forall pre ns a, length (x_batches (execs (do_action pre s0 ns a) x)) <= 1).
  { intros pre ns a. unfold do_action. specialize (Ex ns s0 IH'). destruct (executors s0 ns) as [s1 l]. cbn [fst] in Ex. clear - Ex. revert s1 Ex. induction (nodup Nat.eq_dec l) as [|i m IHm]; intros s1 Ex; [apply Ex|]. cbn [fold_left].
    apply IHm. intros z. cbn [set_exec execs]. unfold upd. destruct (Nat.eqb z i); [|apply Ex]. unfold add_action. cbn [x_batches]. destruct (x_null (execs s1 i)); apply Ex. }
  destruct o as [c|ns a|ns a|ses ts]; cbn in H1.
  - apply do_call_inv in H1. destruct H1 as (_ & s1 & y & F & -> & _). assert (Kc : key_of batch_key c = None) by (apply K; apply in_or_app; right; left; reflexivity). apply find_executor_cases in F.
    destruct F as [(_ & _ & z & A & ->)|(_ & [(_ & -> & ->)|[(k & K' & _)|(k & K' & _)]])]; try congruence; cbn [set_exec new_exec execs]; unfold upd.
    + destruct (Nat.eqb x y); [|apply IH']. apply add_sources_inv in A. destruct A as (_ & ts & ss & _ & _ & _ & _ & -> & _). cbn. lia.
    + destruct (Nat.eqb x (next s0)); [|apply IH']. unfold bld_exec. cbn [x_batches]. destruct (c_tl c), (c_sl c); cbn; lia.
  - injection H1 as <-. apply Ac.
  - injection H1 as <-. apply Ac.
  - destruct (do_side (nodes s0) ses ts); [|discriminate]. injection H1 as <-. apply IH'.
Qed.

(* C55f.  Calls of a multi builder for a common target are accepted only if the target lists are equal ... *)
Theorem C55f_multi_targets : keys_ok batch_key -> forall h c s t c0 r, run empty (h ++ [Call c]) = Some s -> late h -> explicit h -> (forall c, In (Call c) h -> key_of batch_key c = None) ->
  In t (c_tl c) -> rev (calls_on h t) = c0 :: r -> b_multi (c_b c) = true -> c_tl c = c_tl c0.
Proof.
  intros Kok h c s t c0 r H L X K Ht R M. apply run_snoc in H. destruct H as (s0 & H0 & H1). cbn in H1. apply do_call_inv in H1. destruct H1 as (Ef & _). pose proof (inv_core_run contents batch_key h s0 H0) as Ic.
  destruct (ie_called _ _ _ (inv_exec_run contents batch_key Kok h s0 H0 L X) t c0 r R) as (x & E & _ & _ & _ & _ & ss & B & _). destruct (last_In _ _ _ _ R) as [Hc _].
  destruct (node_ok_multi contents h s0 c t c0 r Ic Ef Ht R (X c0 Hc) M) as [_ Q]. specialize (Q x E). pose proof (single_batch h s0 H0 K x) as Sb. unfold all_targets in Q.
  destruct (x_batches (execs s0 x)) as [|b [|b' l]]; [destruct B | | cbn in Sb; lia]. destruct B as [->|[]]. cbn in Q. rewrite app_nil_r in Q. congruence.
Qed.

(* what a step does to the executor of a node it does not define *)
Lemma step_keeps (Kok : keys_ok batch_key) h s o s' t x : run empty h = Some s -> step s o = Some s' -> late (h ++ [o]) -> explicit h -> n_exec (nodes s t) = Some x -> (forall c, o = Call c -> ~ In t (c_tl c)) ->
  n_exec (nodes s' t) = Some x /\ grows (execs s x) (execs s' x)
  /\ (exists l, x_pre (execs s' x) = x_pre (execs s x) ++ l /\ subseq (added true t o) l) /\ (exists l, x_post (execs s' x) = x_post (execs s x) ++ l /\ subseq (added false t o) l).
Proof.
  intros H0 H1 L X E Nc. pose proof (inv_exec_run contents batch_key Kok h s H0 (late_snoc _ _ L) X) as Ie.
  assert (Act : forall pre ns a, (forall n, In n ns -> calls_on h n <> []) -> let s' := do_action pre s ns a in
     n_exec (nodes s' t) = Some x /\ grows (execs s x) (execs s' x) /\ (if pre then exists l, x_pre (execs s' x) = x_pre (execs s x) ++ l /\ subseq (if mem t ns then [a] else []) l else x_pre (execs s' x) = x_pre (execs s x))
     /\ (if pre then x_post (execs s' x) = x_post (execs s x) else exists l, x_post (execs s' x) = x_post (execs s x) ++ l /\ subseq (if mem t ns then [a] else []) l)).
  { intros pre ns a Hn s1. destruct (do_action_late pre s ns a) as (A & _ & _ & D & E1 & E2).
    - intros n Hi. destruct (rev (calls_on h n)) as [|c1 r1] eqn:R1; [elim (Hn n Hi); apply calls_nil_rev; exact R1|]. destruct (ie_called _ _ _ Ie n c1 r1 R1) as (y & F1 & F2 & F3 & _). eauto.
    - subst s1. split; [rewrite A; exact E|]. split.
      { destruct (xcore_inv _ _ (D x)) as (Q1 & Q2 & Q3 & Q4). repeat split; try assumption. intros ts ss Hs. exists ss. rewrite Q4. split; [exact Hs | apply incl_refl]. }
      assert (Dec : (exists n, In n ns /\ n_exec (nodes s n) = Some x) \/ ~ (exists n, In n ns /\ n_exec (nodes s n) = Some x)).
      { destruct (existsb (fun n => match n_exec (nodes s n) with Some y => Nat.eqb y x | None => false end) ns) eqn:B.
        - left. apply existsb_exists in B. destruct B as (n & Hn1 & Hn2). exists n. split; [exact Hn1|]. destruct (n_exec (nodes s n)); [apply Nat.eqb_eq in Hn2; congruence | discriminate].
        - right. intros (n & Hn1 & Hn2). assert (T : existsb (fun n => match n_exec (nodes s n) with Some y => Nat.eqb y x | None => false end) ns = true); [|congruence].
          apply existsb_exists. exists n. rewrite Hn2. split; [exact Hn1 | apply Nat.eqb_refl]. }
      destruct Dec as [Hd|Hd].
      + destruct (E1 x Hd) as [P1 P2]. destruct pre; rewrite P1, P2; rewrite app_nil_r; cbv iota.
        * split; [|reflexivity]. exists [a]. split; [reflexivity|]. destruct (mem t ns); [apply subseq_refl | apply ss_nil].
        * split; [reflexivity|]. exists [a]. split; [reflexivity|]. destruct (mem t ns); [apply subseq_refl | apply ss_nil].
      + destruct (E2 x Hd) as [P1 P2]. assert (Mt : mem t ns = false) by (apply mem_false; intros Hi; apply Hd; exists t; auto). rewrite Mt. destruct pre; rewrite P1, P2; cbv iota.
        * split; [|reflexivity]. exists []. split; [rewrite app_nil_r; reflexivity | apply ss_nil].
        * split; [reflexivity|]. exists []. split; [rewrite app_nil_r; reflexivity | apply ss_nil]. }
  destruct o as [c|ns a|ns a|ses ts]; cbn in H1.
  - apply do_call_inv in H1. destruct H1 as (Ef & s1 & y & F & E1 & _ & _ & _ & N2). specialize (Nc c eq_refl). rewrite (N2 t Nc), E1. split; [exact E|].
    destruct (exec_called _ h s t x Ie E) as (c0 & r & R & G). split; [apply (find_executor_grows _ _ _ _ _ F); apply G|].
    assert (Pp : x_pre (execs s1 x) = x_pre (execs s x) /\ x_post (execs s1 x) = x_post (execs s x)).
    { destruct (Nat.eq_dec x y) as [->|N]; [|rewrite (all_targets_grows _ _ _ _ _ F x) by (apply G || exact N); auto].
      destruct G as (G & _). apply find_executor_cases in F. destruct F as [(_ & _ & z & A & ->)|(_ & [(_ & -> & ->)|[(k & _ & _ & ->)|(k & _ & _ & -> & ->)]])]; cbn [set_exec new_exec execs]; try lia; rewrite upd_same.
      - apply add_sources_inv in A. destruct A as (_ & ? & ? & _ & _ & _ & _ & _ & -> & ->). auto.
      - auto. }
    destruct Pp as [-> ->]. split; exists []; (split; [rewrite app_nil_r; reflexivity | constructor]).
  - injection H1 as <-. destruct (Act true ns a (late_last h ns a _ (or_introl eq_refl) L)) as (A1 & A2 & A3 & A4). split; [exact A1|]. split; [exact A2|]. split; [exact A3|]. rewrite A4. exists []. split; [rewrite app_nil_r; reflexivity | constructor].
  - injection H1 as <-. destruct (Act false ns a (late_last h ns a _ (or_intror eq_refl) L)) as (A1 & A2 & A3 & A4). split; [exact A1|]. split; [exact A2|]. split; [|exact A4]. rewrite A3. exists []. split; [rewrite app_nil_r; reflexivity | constructor].
  - destruct (do_side (nodes s) ses ts) as [f|] eqn:D; [|discriminate]. injection H1 as <-. cbn [set_nodes nodes execs]. split; [rewrite <- E; apply (do_side_spec _ _ _ _ D t)|]. split; [apply grows_refl|].
    split; exists []; (split; [rewrite app_nil_r; reflexivity | constructor]).
Qed.

(* ... and all sources given in any of the calls are used. *)
Theorem C55g_multi_sources : keys_ok batch_key -> forall h s t c r, run empty h = Some s -> late h -> explicit h -> consistent batch_key h ->
  rev (calls_on h t) = c :: r -> (forall c', In c' (calls_on h t) -> b_multi (c_b c') = true) ->
  exists x ss, n_exec (nodes s t) = Some x /\ In (c_tl c, ss) (x_batches (execs s x)) /\ forall c', In c' (calls_on h t) -> incl (c_sl c') ss.
Proof.
  intros Kok h. induction h as [|o h IH] using rev_ind; intros s t c r H L X Co R M; [discriminate|]. pose proof H as Hs. apply run_snoc in H. destruct H as (s0 & H0 & H1).
  pose proof (late_snoc _ _ L) as L0. pose proof (explicit_snoc _ _ X) as X0. pose proof (consistent_snoc _ _ _ Co) as Co0.
  assert (Dec : (exists c1, o = Call c1 /\ In t (c_tl c1)) \/ forall c1, o = Call c1 -> ~ In t (c_tl c1)).
  { destruct o as [c1|ns a|ns a|ses ts]; try (right; discriminate). destruct (in_dec Nat.eq_dec t (c_tl c1)); [left; eauto | right; intros c2 Q; injection Q as <-; assumption]. }
  destruct Dec as [(c1 & -> & Hi)|Hn].
  - apply mem_In in Hi as Hm. assert (Ec : calls_on (h ++ [Call c1]) t = calls_on h t ++ [c1]) by (rewrite calls_on_snoc, Hm; reflexivity). rewrite Ec in *. rewrite rev_app_distr in R. cbn in R. injection R as -> Er.
    pose proof (inv_exec_run contents batch_key Kok h s0 H0 L0 X0) as Ie. pose proof (inv_core_run contents batch_key h s0 H0) as Ic. pose proof (inv_one_run contents batch_key Kok h s0 H0 L0 X0 Co0) as Io.
    assert (Mc : b_multi (c_b c) = true) by (apply M; apply in_or_app; right; left; reflexivity). cbn in H1. apply do_call_inv in H1. destruct H1 as (Ef & s1 & y & F & E1 & _ & _ & N1 & _).
    rewrite (N1 t Hi). cbn [set_target n_exec]. rewrite E1. destruct (rev (calls_on h t)) as [|c0 r0] eqn:R0.
    + apply calls_nil_rev in R0. rewrite R0. cbn [app]. destruct (found_good contents batch_key Kok h s0 c s1 y t Ic Ie X0 Ef F Hi) as (_ & _ & _ & _ & ss & B1 & B2). exists y, ss. split; [reflexivity|]. split; [exact B1|]. intros c' [<-|[]]. exact B2.
    + destruct (IH s0 t c0 r0 H0 L0 X0 Co0 R0 ltac:(intros c' Hc; apply M; apply in_or_app; left; exact Hc)) as (x & ss & J2 & J3 & J4). destruct (last_In _ _ _ _ R0) as [Hc0 Ht0].
      destruct (Co c0 c t) as [Et _]; [apply in_or_app; left; exact Hc0 | apply in_or_app; right; left; reflexivity | exact Ht0 | exact Hi |].
      assert (Nf : forall t0 tl, c_tl c = t0 :: tl -> n_exec (nodes s0 t0) = Some x).
      { intros t0 tl T. apply (io_all _ _ _ Io t x t0 J2). eapply in_all; [exact J3|]. rewrite Et, T. left. reflexivity. }
      apply find_executor_cases in F. destruct F as [(_ & (t0 & tl & T & N) & z & A & ->)|(Nn & _)].
      * rewrite (Nf t0 tl T) in N. injection N as <-. apply add_sources_inv in A. destruct A as (A1 & ts & ss' & A2 & A3 & A4 & A5 & A6 & _). rewrite A2 in J3. destruct J3 as [J3|[]]. injection J3 as -> ->.
        exists x. eexists. split; [reflexivity|]. cbn [set_exec execs]. rewrite upd_same, A6. split; [left; rewrite Et; reflexivity|]. intros c' Hc. apply in_app_iff in Hc. destruct Hc as [Hc|[<-|[]]]; [|apply add_sources_incl].
        intros z1 Hz. apply add_sources_incl. exact (J4 c' Hc z1 Hz).
      * exfalso. destruct (c_tl c) as [|t0 tl] eqn:T; [destruct Hi|]. specialize (Nn Mc t0 tl eq_refl). rewrite (Nf t0 tl eq_refl) in Nn. discriminate.
  - assert (Ec : calls_on (h ++ [o]) t = calls_on h t) by (apply calls_same; exact Hn). rewrite Ec in *. destruct (IH s0 t c r H0 L0 X0 Co0 R M) as (x & ss & J2 & J3 & J4).
    destruct (step_keeps Kok h s0 o s t x H0 H1 L X0 J2 Hn) as (S1 & (_ & _ & _ & S2) & _). destruct (S2 _ _ J3) as (ss' & Q1 & Q2). exists x, ss'. split; [exact S1|]. split; [exact Q1|].
    intros c' Hc z Hz. apply Q2. exact (J4 c' Hc z Hz).
Qed.

(* C55h.  Every pre- and post-action added to t after the last Builder call for t is performed when t is built, in the order in which they were added. *)
Theorem C55h_added_actions : keys_ok batch_key -> forall h1 h2 s t, run empty (h1 ++ h2) = Some s -> late (h1 ++ h2) -> explicit (h1 ++ h2) -> calls_on h1 t <> [] -> calls_on h2 t = [] ->
  exists x, n_exec (nodes s t) = Some x /\ subseq (flat_map (added true t) h2) (x_pre (execs s x)) /\ subseq (flat_map (added false t) h2) (x_post (execs s x)).
Proof.
  intros Kok h1 h2. induction h2 as [|o h2 IH] using rev_ind; intros s t H L X C1 C2.
  - rewrite app_nil_r in *. destruct (rev (calls_on h1 t)) as [|c r] eqn:R; [apply calls_nil_rev in R; contradiction|].
    destruct (ie_called _ _ _ (inv_exec_run contents batch_key Kok h1 s H L X) t c r R) as (x & E & _). exists x. split; [exact E|]. split; constructor.
  - rewrite app_assoc in *. apply run_snoc in H. destruct H as (s0 & H0 & H1). rewrite calls_on_snoc in C2. apply app_eq_nil in C2. destruct C2 as [C2 C3].
    destruct (IH s0 t H0 (late_snoc _ _ L) (explicit_snoc _ _ X) C1 C2) as (x & E & P & Q).
    destruct (step_keeps Kok (h1 ++ h2) s0 o s t x H0 H1 L (explicit_snoc _ _ X) E) as (S1 & _ & (l & S2 & S3) & (m & S4 & S5)).
    { intros c -> Hi. apply mem_In in Hi. rewrite Hi in C3. discriminate. }
    exists x. split; [exact S1|]. rewrite !flat_map_app. cbn [flat_map]. rewrite !app_nil_r, S2, S4. split; apply subseq_app; assumption.
Qed.
End P.
Print Assumptions C55e_repeated_call.
Print Assumptions C55f_multi_targets.
Print Assumptions C55g_multi_sources.
Print Assumptions C55h_added_actions.

(* ---- exceptions and witnesses ---- *)
Definition xcont (a : act) (tl sl : list node) (e : envr) : nat := a.
Definition env0 := {| e_id := 0; e_over := None |}.
Definition bld (i a : nat) (multi : bool) := {| b_id := i; b_action := a; b_multi := multi; b_explicit := true; b_single := false |}.
Definition cl (b : builder) (tl sl : list node) : call := {| c_b := b; c_env := env0; c_tl := tl; c_sl := sl |}.
Definition nokey (a : act) (e : envr) (tl sl : list node) : option nat := None.

(* a history that meets the hypotheses of C55b-C55h: an ordinary builder with two targets, repeated; a multi builder called twice; added actions; a side effect *)
Definition xh : list op :=
  [Call (cl (bld 0 10 false) [1; 2] [100; 101]); Call (cl (bld 1 11 true) [3] [1]); Pre [1] 20; Call (cl (bld 1 11 true) [3] [2; 1]); Post [3; 2] 21; SideEffect [9] [1]; Call (cl (bld 0 10 false) [1; 2] [100; 101]); Pre [2] 22].
Example C55_witness : late xh /\ explicit xh /\ consistent nokey xh /\ keys_ok nokey /\
  match run xcont nokey empty xh with
  | Some s => n_exec (nodes s 1) = n_exec (nodes s 2) /\ n_exec (nodes s 1) <> n_exec (nodes s 3)
      /\ option_map (fun x => (x_pre (execs s x), x_actions (execs s x), x_post (execs s x), x_batches (execs s x))) (n_exec (nodes s 1)) = Some ([22], [10], [], [([1; 2], [100; 101])])
      /\ option_map (fun x => (x_pre (execs s x), x_actions (execs s x), x_post (execs s x), x_batches (execs s x))) (n_exec (nodes s 3)) = Some ([], [11], [21], [([3], [1; 2])])
      /\ n_side (nodes s 9) = true
  | None => False
  end.
Proof.
  split; [|split; [|split; [|split]]].
  - intros h1 h2 ns a H n Hn. unfold xh in H. destruct H as [H|H];
      repeat (destruct h1 as [|? h1]; cbn in H; [try discriminate; injection H as <- <- _; cbn in Hn; repeat (destruct Hn as [<-|Hn]; [cbn; discriminate|]); destruct Hn | injection H as <- H]); destruct h1; discriminate.
  - intros c H. cbn in H. repeat (destruct H as [H|H]; [try discriminate; injection H as <-; reflexivity|]). destruct H.
  - intros c c' t H H' Ht Ht'. cbn in H, H'. split; [|reflexivity].
    repeat (destruct H as [H|H]; [try discriminate; injection H as <-; repeat (destruct H' as [H'|H']; [try discriminate; injection H' as <-; try reflexivity; cbn in Ht, Ht'; intuition (subst; discriminate)|]); destruct H'|]). destruct H.
  - intros a e tl sl a' e' tl' sl' k Hk. discriminate.
  - vm_compute. repeat split. discriminate.
Qed.
(* refused: other sources; another action in another environment; another builder; another target list for a multi builder; a side effect *)
Example C55_refusals :
  run xcont nokey empty [Call (cl (bld 0 10 false) [1] [100]); Call (cl (bld 0 10 false) [1] [101])] = None
  /\ run xcont nokey empty [Call (cl (bld 0 10 false) [1] [100]); Call {| c_b := bld 1 11 false; c_env := {| e_id := 1; e_over := None |}; c_tl := [1]; c_sl := [100] |}] = None
  /\ run xcont nokey empty [Call (cl (bld 0 10 true) [1] [100]); Call (cl (bld 1 10 true) [1] [100])] = None
  /\ run xcont nokey empty [Call (cl (bld 0 10 true) [1; 2] [100]); Call (cl (bld 0 10 true) [1] [100])] = None
  /\ run xcont nokey empty [SideEffect [1] [2]; Call (cl (bld 0 10 false) [1] [100])] = None
  /\ run xcont nokey empty [Call (cl (bld 0 10 false) [1] [100]); SideEffect [1] [2]] = None.
Proof. repeat split. Qed.

(* Finding: in one environment, a second call with the same sources and another action is accepted silently (the later one counts). *)
Theorem C55_same_env_refuted : exists c1 c2 s, c_tl c1 = c_tl c2 /\ c_sl c1 = c_sl c2 /\ b_action (c_b c1) <> b_action (c_b c2)
  /\ run xcont nokey empty [Call c1; Call c2] = Some s /\ exists x, n_exec (nodes s 1) = Some x /\ x_actions (execs s x) = [b_action (c_b c2)].
Proof. exists (cl (bld 0 10 false) [1] [100]), (cl (bld 1 11 false) [1] [100]). eexists. repeat (split; [first [reflexivity | discriminate]|]). exists 1. split; reflexivity. Qed.
(* Finding: Command(['a', 'b'], 's', ...) and Command('a', 's', ...) are accepted together: a is then built by two commands. *)
Theorem C55_overlap_refuted : exists c1 c2 s x y, run xcont nokey empty [Call c1; Call c2] = Some s /\ n_exec (nodes s 1) = Some x /\ n_exec (nodes s 2) = Some y /\ x <> y
  /\ In 1 (all_targets (execs s x)) /\ In 1 (all_targets (execs s y)).
Proof. exists (cl (bld 0 10 false) [1; 2] [100]), (cl (bld 1 11 false) [1] [100]). eexists. exists 1, 0. repeat (split; [first [reflexivity | discriminate]|]). cbn. auto. Qed.
(* Finding: a pre-action (or post-action) added before the Builder call is lost ... *)
Theorem C55_early_action_refuted : exists c s, run xcont nokey empty [Pre [1] 20; Call c] = Some s /\ In 1 (c_tl c) /\ exists x, n_exec (nodes s 1) = Some x /\ x_pre (execs s x) = [].
Proof. exists (cl (bld 0 10 false) [1] [100]). eexists. split; [reflexivity|]. split; [left; reflexivity|]. exists 1. split; reflexivity. Qed.
(* ... and if the builder is a multi builder without emitter (for instance Tar), its own action is lost instead. *)
Theorem C55_early_action_multi_refuted : exists c s, run xcont nokey empty [Post [1] 20; Call c] = Some s /\ In 1 (c_tl c) /\ b_multi (c_b c) = true
  /\ exists x, n_exec (nodes s 1) = Some x /\ x_actions (execs s x) = [] /\ x_post (execs s x) = [20].
Proof. exists (cl (bld 0 10 true) [1] [100]). eexists. split; [reflexivity|]. split; [left; reflexivity|]. split; [reflexivity|]. exists 0. repeat split. Qed.
(* Finding: a call that names a source twice is accepted once, but refused when it is repeated. *)
Theorem C55_repeated_source_refuted : exists c s, run xcont nokey empty [Call c] = Some s /\ run xcont nokey empty [Call c; Call c] = None.
Proof. exists (cl (bld 0 10 false) [1] [100; 100]). eexists. split; reflexivity. Qed.
Print Assumptions C55_same_env_refuted.
Print Assumptions C55_overlap_refuted.
Print Assumptions C55_early_action_multi_refuted.
