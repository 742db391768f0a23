(* C55b, c, e: the executors made by Builder calls.  Vocabulary in BldProps.v. *)
From Coq Require Import List Bool Arith Lia.
Import ListNotations.
From Verif Require Import BldModel BldProps.

(* ---- Specification ---- *)
(* pre- and post-actions are added only to nodes that are targets already; builders are explicit (all builders made by Builder() are) *)
Definition late (h : list op) : Prop := forall h1 h2 ns a, (h = h1 ++ Pre ns a :: h2 \/ h = h1 ++ Post ns a :: h2) -> forall n, In n ns -> calls_on h1 n <> [].
Definition explicit (h : list op) : Prop := forall c, In (Call c) h -> b_explicit (c_b c) = true.
(* a batch key stands for one action in one environment (the default key contains both identities) *)
Definition keys_ok (batch_key : act -> envr -> list node -> list node -> option nat) : Prop :=
  forall a e tl sl a' e' tl' sl' k, batch_key a e tl sl = Some k -> batch_key a' e' tl' sl' = Some k -> a = a' /\ e = e'.
(* calls with a common target have the same target list (and belong to the same batch) *)
Definition key_of (batch_key : act -> envr -> list node -> list node -> option nat) (c : call) : option nat := batch_key (b_action (c_b c)) (c_env c) (c_tl c) (c_sl c).
Definition consistent batch_key (h : list op) : Prop :=
  forall c c' t, In (Call c) h -> In (Call c') h -> In t (c_tl c) -> In t (c_tl c') -> c_tl c = c_tl c' /\ key_of batch_key c = key_of batch_key c'.

Lemma late_snoc h o : late (h ++ [o]) -> late h.
Proof.
  intros L h1 h2 ns a H n Hn. apply (L h1 (h2 ++ [o]) ns a); [|exact Hn]. destruct H as [-> | ->]; [left | right]; rewrite <- app_assoc; reflexivity.
Qed.
Lemma late_last h ns a o : o = Pre ns a \/ o = Post ns a -> late (h ++ [o]) -> forall n, In n ns -> calls_on h n <> [].
Proof. intros E L n Hn. apply (L h [] ns a); [destruct E as [-> | ->]; auto | exact Hn]. Qed.
Lemma explicit_snoc h o : explicit (h ++ [o]) -> explicit h.
Proof. intros E c H. apply E. apply in_or_app. left. exact H. Qed.
Lemma consistent_snoc bk h o : consistent bk (h ++ [o]) -> consistent bk h.
Proof. intros E c c' t H H'. apply E; apply in_or_app; left; assumption. Qed.
Lemma calls_on_In h t c : In c (calls_on h t) <-> In (Call c) h /\ In t (c_tl c).
Proof.
  unfold calls_on. rewrite filter_In, in_flat_map, mem_In. split; intros [H1 H2]; split; try exact H2.
  - destruct H1 as (o & Ho & Hc). destruct o as [c'|ns a|ns a|ses ts]; cbn in Hc; try destruct Hc as []; subst; [exact Ho | contradiction].
  - exists (Call c). split; [exact H1 | left; reflexivity].
Qed.
Lemma last_In h t c r : rev (calls_on h t) = c :: r -> In (Call c) h /\ In t (c_tl c).
Proof. intros H. apply calls_on_In. apply in_rev. rewrite H. left. reflexivity. Qed.

Section P.
Context (contents : act -> list node -> list node -> envr -> nat) (batch_key : act -> envr -> list node -> list node -> option nat) (Kok : keys_ok batch_key).
Local Notation run := (run contents batch_key).
Local Notation step := (step contents batch_key).

Definition xcore (x : exec) := (x_null x, x_actions x, x_env x, x_batches x).
Lemma xcore_inv x y : xcore x = xcore y -> x_null x = x_null y /\ x_actions x = x_actions y /\ x_env x = x_env y /\ x_batches x = x_batches y.
Proof. unfold xcore. intros H. injection H as A B C D. auto. Qed.

Lemma executors_there ns : forall s, (forall n, In n ns -> n_exec (nodes s n) <> None) -> exists l, executors s ns = (s, l) /\ forall x, In x l <-> exists n, In n ns /\ n_exec (nodes s n) = Some x.
Proof.
  induction ns as [|n ns IH]; intros s H; [exists []; split; [reflexivity|]; intros x; split; [intros [] | intros (m & [] & _)]|].
  cbn [executors]. unfold get_executor at 1. destruct (n_exec (nodes s n)) as [x|] eqn:E; [|elim (H n (or_introl eq_refl) E)].
  destruct (IH s) as (l & L1 & L2); [intros m Hm; apply H; right; exact Hm|]. rewrite L1. exists (x :: l). split; [reflexivity|]. intros y. cbn [In]. rewrite L2. split.
  - intros [<-|(m & Hm & Em)]; [exists n; auto | exists m; auto].
  - intros (m & [<-|Hm] & Em); [left; congruence | right; exists m; auto].
Qed.
Lemma add_actions pre a l : forall s, NoDup l -> (forall i, In i l -> x_null (execs s i) = false) ->
  let s' := fold_left (fun s i => set_exec s i (add_action pre a (execs s i))) l s in
  nodes s' = nodes s /\ next s' = next s /\ keys s' = keys s /\ (forall i, xcore (execs s' i) = xcore (execs s i))
  /\ (forall i, x_pre (execs s' i) = x_pre (execs s i) ++ (if pre then if mem i l then [a] else [] else []))
  /\ (forall i, x_post (execs s' i) = x_post (execs s i) ++ (if pre then [] else if mem i l then [a] else [])).
Proof.
  induction l as [|i l IH]; intros s Nd H s'; [subst s'; cbn; repeat split; intros i; destruct pre; rewrite app_nil_r; reflexivity|].
  inversion Nd as [|z zs Nz Nd']; subst. set (s1 := set_exec s i (add_action pre a (execs s i))). assert (X : forall j, j <> i -> execs s1 j = execs s j) by (intros j Hj; apply upd_other; exact Hj).
  assert (Y : execs s1 i = add_action pre a (execs s i)) by apply upd_same.
  destruct (IH s1 Nd') as (I1 & I2 & I3 & I4 & I5 & I6); [intros j Hj; rewrite X; [apply H; right; exact Hj | intros ->; contradiction]|].
  subst s'. cbn [fold_left]. fold s1. split; [exact I1|]. split; [exact I2|]. split; [exact I3|]. assert (Ni : mem i l = false) by (apply mem_false; exact Nz).
  specialize (H i (or_introl eq_refl)). unfold add_action in Y. rewrite H in Y.
  split; [|split]; intros j; destruct (Nat.eq_dec j i) as [->|N].
  - rewrite I4, Y. unfold xcore. cbn. rewrite H. reflexivity.
  - rewrite I4, X by exact N. reflexivity.
  - rewrite I5, Y. cbn [x_pre mem existsb]. rewrite Nat.eqb_refl. cbn [orb]. rewrite Ni. destruct pre; rewrite app_nil_r; reflexivity.
  - rewrite I5, X by exact N. cbn [mem existsb]. apply Nat.eqb_neq in N. rewrite N. reflexivity.
  - rewrite I6, Y. cbn [x_post mem existsb]. rewrite Nat.eqb_refl. cbn [orb]. rewrite Ni. destruct pre; rewrite app_nil_r; reflexivity.
  - rewrite I6, X by exact N. cbn [mem existsb]. apply Nat.eqb_neq in N. rewrite N. reflexivity.
Qed.
Lemma do_action_late pre s ns a : (forall n, In n ns -> exists x, n_exec (nodes s n) = Some x /\ x_null (execs s x) = false) ->
  let s' := do_action pre s ns a in
  nodes s' = nodes s /\ next s' = next s /\ keys s' = keys s /\ (forall i, xcore (execs s' i) = xcore (execs s i))
  /\ (forall i, (exists n, In n ns /\ n_exec (nodes s n) = Some i) -> x_pre (execs s' i) = x_pre (execs s i) ++ (if pre then [a] else []) /\ x_post (execs s' i) = x_post (execs s i) ++ (if pre then [] else [a]))
  /\ (forall i, ~ (exists n, In n ns /\ n_exec (nodes s n) = Some i) -> x_pre (execs s' i) = x_pre (execs s i) /\ x_post (execs s' i) = x_post (execs s i)).
Proof.
  intros H s'. destruct (executors_there ns s) as (l & L1 & L2); [intros n Hn; destruct (H n Hn) as (x & -> & _); discriminate|].
  subst s'. unfold do_action. rewrite L1. destruct (add_actions pre a (nodup Nat.eq_dec l) s) as (A & B & C & D & E & F); [apply NoDup_nodup | |].
  - intros i Hi. apply nodup_In in Hi. apply L2 in Hi. destruct Hi as (n & Hn & En). destruct (H n Hn) as (x & Ex & Nx). congruence.
  - split; [exact A|]. split; [exact B|]. split; [exact C|]. split; [exact D|]. split; intros i Hi; rewrite E, F; rewrite <- L2, <- (nodup_In Nat.eq_dec) in Hi.
    + apply mem_In in Hi. rewrite Hi. destruct pre; auto.
    + apply mem_false in Hi. rewrite Hi. destruct pre; rewrite !app_nil_r; auto.
Qed.

(* ---- invariant of executors ---- *)
Definition good_exec (s : bst) (c : call) (x : nat) : Prop :=
  x < next s /\ x_null (execs s x) = false /\ x_actions (execs s x) = [b_action (c_b c)] /\ (b_multi (c_b c) = false -> x_env (execs s x) = Some (c_env c))
  /\ exists ss, In (c_tl c, ss) (x_batches (execs s x)) /\ incl (c_sl c) ss.
Definition good_key (s : bst) (k x : nat) : Prop :=
  x < next s /\ exists a e tl sl, batch_key a e tl sl = Some k /\ x_actions (execs s x) = [a] /\ x_env (execs s x) = Some e /\ x_null (execs s x) = false.
Record inv_exec (h : list op) (s : bst) : Prop := {
  ie_called : forall t c r, rev (calls_on h t) = c :: r -> exists x, n_exec (nodes s t) = Some x /\ good_exec s c x;
  ie_none : forall t, calls_on h t = [] -> n_exec (nodes s t) = None;
  ie_keys : forall k x, lookup k (keys s) = Some x -> good_key s k x }.

Lemma good_exec_same s s' c x : xcore (execs s' x) = xcore (execs s x) -> next s <= next s' -> good_exec s c x -> good_exec s' c x.
Proof. intros E N (A & B & C & D & ss & F & G). apply xcore_inv in E. destruct E as (E1 & E2 & E3 & E4). unfold good_exec. rewrite E1, E2, E3, E4. split; [lia|]. eauto 8. Qed.
Lemma good_key_same s s' k x : xcore (execs s' x) = xcore (execs s x) -> next s <= next s' -> good_key s k x -> good_key s' k x.
Proof. intros E N (A & a & e & tl & sl & B & C & D & F). apply xcore_inv in E. destruct E as (E1 & E2 & E3 & E4). unfold good_key. rewrite E1, E2, E3. split; [lia|]. exists a, e, tl, sl. auto. Qed.

Lemma calls_nil_rev h t : rev (calls_on h t) = [] -> calls_on h t = [].
Proof. intros H. apply (f_equal (@rev call)) in H. rewrite rev_involutive in H. exact H. Qed.
Lemma exec_called h s t x : inv_exec h s -> n_exec (nodes s t) = Some x -> exists c r, rev (calls_on h t) = c :: r /\ good_exec s c x.
Proof.
  intros Iv E. destruct (rev (calls_on h t)) as [|c r] eqn:R; [apply calls_nil_rev in R; rewrite (ie_none _ _ Iv t R) in E; discriminate|].
  destruct (ie_called _ _ Iv t c r R) as (y & Ey & G). exists c, r. split; [reflexivity|]. congruence.
Qed.

(* what find_executor does *)
Lemma find_executor_cases s c s1 x : find_executor batch_key s c = Some (s1, x) ->
  (b_multi (c_b c) = true /\ (exists t0 tl, c_tl c = t0 :: tl /\ n_exec (nodes s t0) = Some x) /\ exists y, add_sources (execs s x) (c_sl c) = Some y /\ s1 = set_exec s x y)
  \/ ((b_multi (c_b c) = true -> forall t0 tl, c_tl c = t0 :: tl -> n_exec (nodes s t0) = None) /\
      ((key_of batch_key c = None /\ x = next s /\ s1 = new_exec s (bld_exec (b_action (c_b c)) (Some (c_env c)) (c_tl c) (c_sl c)))
       \/ (exists k, key_of batch_key c = Some k /\ lookup k (keys s) = Some x /\ s1 = set_exec s x (add_batch (execs s x) (c_tl c) (c_sl c)))
       \/ (exists k, key_of batch_key c = Some k /\ lookup k (keys s) = None /\ x = next s
            /\ s1 = let f := new_exec s (bld_exec (b_action (c_b c)) (Some (c_env c)) (c_tl c) (c_sl c)) in {| nodes := nodes f; execs := execs f; next := next f; keys := (k, next s) :: keys f |}))).
Proof.
  unfold find_executor. fold (key_of batch_key c). destruct (b_multi (c_b c)) eqn:M.
  - destruct (c_tl c) as [|t0 tl] eqn:T; [|destruct (n_exec (nodes s t0)) as [i|] eqn:N].
    + intros H. right. split; [discriminate|]. destruct (key_of batch_key c) as [k|]; [destruct (lookup k (keys s)) as [i|] eqn:L|]; injection H as <- <-; eauto 9.
    + destruct (add_sources (execs s i) (c_sl c)) as [y|] eqn:A; [|discriminate]. intros H. injection H as <- <-. left. split; [reflexivity|]. split; eauto.
    + intros H. right. split; [intros _ t1 tl1 E; injection E as <- <-; exact N|]. destruct (key_of batch_key c) as [k|]; [destruct (lookup k (keys s)) as [i|] eqn:L|]; injection H as <- <-; eauto 9.
  - intros H. right. split; [discriminate|]. destruct (key_of batch_key c) as [k|]; [destruct (lookup k (keys s)) as [i|] eqn:L|]; injection H as <- <-; eauto 9.
Qed.
Lemma add_sources_inv x sl y : add_sources x sl = Some y -> x_null x = false /\ exists ts ss, x_batches x = [(ts, ss)] /\ x_null y = false /\ x_actions y = x_actions x /\ x_env y = x_env x
  /\ x_batches y = [(ts, ss ++ filter (fun z => negb (mem z ss)) sl)] /\ x_pre y = x_pre x /\ x_post y = x_post x.
Proof.
  unfold add_sources. destruct (x_null x); [discriminate|]. destruct (x_batches x) as [|[ts ss] [|]]; try discriminate. intros H. injection H as <-. split; [reflexivity|]. exists ts, ss. cbn. auto 8.
Qed.
Lemma add_sources_incl ss sl : incl sl (ss ++ filter (fun z => negb (mem z ss)) sl) /\ incl ss (ss ++ filter (fun z => negb (mem z ss)) sl).
Proof.
  split; [|apply incl_appl; apply incl_refl]. intros z Hz. apply in_or_app. destruct (mem z ss) eqn:E; [left; apply mem_In; exact E|]. right. apply filter_In. rewrite E. auto.
Qed.
Lemma bld_exec_batches a e tl sl t : In t tl -> x_batches (bld_exec a e tl sl) = [(tl, sl)].
Proof. destruct tl; [intros []|]. reflexivity. Qed.

(* executors only grow *)
Definition grows (x y : exec) : Prop := x_null y = x_null x /\ x_actions y = x_actions x /\ x_env y = x_env x /\ forall ts ss, In (ts, ss) (x_batches x) -> exists ss', In (ts, ss') (x_batches y) /\ incl ss ss'.
Lemma grows_refl x : grows x x.
Proof. repeat split. intros ts ss H. exists ss. split; [exact H | apply incl_refl]. Qed.
Lemma good_exec_grows s s' c x : grows (execs s x) (execs s' x) -> next s <= next s' -> good_exec s c x -> good_exec s' c x.
Proof.
  intros (G1 & G2 & G3 & G4) N (A & B & C & D & ss & F & G). unfold good_exec. rewrite G1, G2, G3. split; [lia|]. split; [exact B|]. split; [exact C|]. split; [exact D|].
  destruct (G4 _ _ F) as (ss' & H1 & H2). exists ss'. split; [exact H1|]. intros z Hz. apply H2, G, Hz.
Qed.
Lemma good_key_grows s s' k x : grows (execs s x) (execs s' x) -> next s <= next s' -> good_key s k x -> good_key s' k x.
Proof. intros (G1 & G2 & G3 & _) N (A & a & e & tl & sl & B & C & D & F). unfold good_key. rewrite G1, G2, G3. split; [lia|]. exists a, e, tl, sl. auto. Qed.
Lemma find_executor_grows s c s1 x : find_executor batch_key s c = Some (s1, x) -> next s <= next s1 /\ forall i, i < next s -> grows (execs s i) (execs s1 i).
Proof.
  intros F. apply find_executor_cases in F. destruct F as [(_ & _ & y & A & ->)|(_ & [(_ & -> & ->)|[(k & _ & L & ->)|(k & _ & L & -> & ->)]])]; cbn [set_exec new_exec next execs]; (split; [lia|]); intros i Hi.
  - destruct (Nat.eq_dec i x) as [->|N]; [rewrite upd_same | rewrite upd_other by exact N; apply grows_refl]. apply add_sources_inv in A. destruct A as (A1 & ts & ss & A2 & A3 & A4 & A5 & A6 & _).
    repeat split; [congruence | exact A4 | exact A5 |]. intros ts' ss' H. rewrite A2 in H. destruct H as [H|[]]. injection H as <- <-. eexists. rewrite A6. split; [left; reflexivity | apply add_sources_incl].
  - rewrite upd_other by lia. apply grows_refl.
  - destruct (Nat.eq_dec i x) as [->|N]; [rewrite upd_same | rewrite upd_other by exact N; apply grows_refl]. repeat split. intros ts ss H. exists ss. split; [apply in_or_app; left; exact H | apply incl_refl].
  - rewrite upd_other by lia. apply grows_refl.
Qed.

(* the checks made for an explicit target *)
Lemma node_ok_multi h s c t c0 r : inv_core h s -> errors_free contents s c = true -> In t (c_tl c) -> rev (calls_on h t) = c0 :: r -> b_explicit (c_b c0) = true -> b_multi (c_b c) = true ->
  c_b c0 = c_b c /\ forall x, n_exec (nodes s t) = Some x -> all_targets (execs s x) = c_tl c.
Proof.
  intros Iv Ef Hi R Ex M. destruct (Iv t) as (_ & _ & I3). rewrite R in I3. destruct I3 as (B1 & B2 & B3 & _). unfold errors_free in Ef. apply andb_true_iff in Ef. destruct Ef as [Ef _].
  rewrite forallb_forall in Ef. specialize (Ef t Hi). unfold node_ok in Ef. rewrite B1, B2, Ex, M in Ef. apply andb_true_iff in Ef. destruct Ef as [_ Ef]. apply andb_true_iff in Ef. destruct Ef as [_ E2].
  apply andb_true_iff in E2. destruct E2 as [E2 E3]. split; [apply builder_eqb_eq; exact E2|]. intros x Ex'. rewrite Ex' in E3. apply leqb_eq. exact E3.
Qed.

(* the executor a call finds or makes is good for it *)
Lemma found_good h s c s1 x t : inv_core h s -> inv_exec h s -> explicit h -> errors_free contents s c = true -> find_executor batch_key s c = Some (s1, x) -> In t (c_tl c) -> good_exec s1 c x.
Proof.
  intros Ic Ie Xp Ef F Ht. apply find_executor_cases in F. destruct F as [(M & (t0 & tl & T & N) & y & A & ->)|(_ & [(_ & -> & ->)|[(k & K & L & ->)|(k & K & L & -> & ->)]])].
  - destruct (exec_called h s t0 x Ie N) as (c0 & r & R & (G1 & G2 & G3 & G4 & _)). pose proof (last_In _ _ _ _ R) as [Hc _].
    assert (H0 : In t0 (c_tl c)) by (rewrite T; left; reflexivity). destruct (node_ok_multi h s c t0 c0 r Ic Ef H0 R (Xp c0 Hc) M) as [Eb Ea]. specialize (Ea x N).
    apply add_sources_inv in A. destruct A as (A1 & ts & ss & A2 & A3 & A4 & A5 & A6 & _). unfold all_targets in Ea. rewrite A2 in Ea. cbn in Ea. rewrite app_nil_r in Ea. subst ts.
    unfold good_exec. cbn [set_exec next execs]. rewrite upd_same, A3, A4, A5, A6. split; [exact G1|]. split; [reflexivity|]. split; [congruence|]. split; [congruence|].
    eexists. split; [left; reflexivity | apply add_sources_incl].
  - unfold good_exec. cbn [new_exec next execs]. rewrite upd_same, (bld_exec_batches _ _ _ _ t Ht). cbn [bld_exec x_null x_actions x_env]. split; [lia|]. repeat (split; [reflexivity|]).
    exists (c_sl c). split; [left; reflexivity | apply incl_refl].
  - destruct (ie_keys _ _ Ie k x L) as (G1 & a & e & tl & sl & G2 & G3 & G4 & G5). destruct (Kok _ _ _ _ _ _ _ _ _ K G2) as [<- <-]. unfold good_exec. cbn [set_exec next execs]. rewrite upd_same.
    cbn [add_batch x_null x_actions x_env x_batches]. split; [exact G1|]. split; [exact G5|]. split; [exact G3|]. split; [intros _; exact G4|]. exists (c_sl c). split; [apply in_or_app; right; left; reflexivity | apply incl_refl].
  - unfold good_exec. cbn [new_exec next execs]. rewrite upd_same, (bld_exec_batches _ _ _ _ t Ht). cbn [bld_exec x_null x_actions x_env]. split; [lia|]. repeat (split; [reflexivity|]).
    exists (c_sl c). split; [left; reflexivity | apply incl_refl].
Qed.

Lemma inv_exec_run h : forall s, run empty h = Some s -> late h -> explicit h -> inv_exec h s.
Proof.
  induction h as [|o h IH] using rev_ind; intros s H L X.
  - cbn in H. injection H as <-. constructor; cbn; [discriminate | reflexivity | discriminate].
  - apply run_snoc in H. destruct H as (s0 & H0 & H1). specialize (IH s0 H0 (late_snoc _ _ L) (explicit_snoc _ _ X)). pose proof (inv_core_run contents batch_key h s0 H0) as Ic.
    assert (Act : forall pre ns a, (forall n, In n ns -> calls_on h n <> []) -> (forall t, calls_on (h ++ [o]) t = calls_on h t) -> inv_exec (h ++ [o]) (do_action pre s0 ns a)).
    { intros pre ns a Hn Hc. destruct (do_action_late pre s0 ns a) as (A & B & C & D & _).
      - intros n Hi. destruct (rev (calls_on h n)) as [|c r] eqn:R; [elim (Hn n Hi); apply calls_nil_rev; exact R|]. destruct (ie_called _ _ IH n c r R) as (x & E1 & E2 & E3 & _). eauto.
      - constructor.
        + intros t c r R. rewrite Hc in R. destruct (ie_called _ _ IH t c r R) as (x & E1 & E2). exists x. rewrite A. split; [exact E1|]. eapply good_exec_same; [apply D | rewrite B; lia | exact E2].
        + intros t Ht. rewrite Hc in Ht. rewrite A. apply (ie_none _ _ IH t Ht).
        + intros k x Hk. rewrite C in Hk. eapply good_key_same; [apply D | rewrite B; lia | apply (ie_keys _ _ IH k x Hk)]. }
    destruct o as [c|ns a|ns a|ses ts]; cbn in H1.
    + apply do_call_inv in H1. destruct H1 as (Ef & s1 & x & F & E1 & E2 & E3 & N1 & N2). destruct (find_executor_grows _ _ _ _ F) as [Gn Gg]. pose proof (explicit_snoc _ _ X) as X0.
      assert (Gr : forall i, i < next s0 -> grows (execs s0 i) (execs s i)) by (rewrite E1; exact Gg). assert (Gl : next s0 <= next s) by (rewrite E2; exact Gn).
      constructor.
      * intros t c0 r R. destruct (in_dec Nat.eq_dec t (c_tl c)) as [Hi|Hi].
        -- rewrite calls_on_snoc in R. apply mem_In in Hi as Hm. rewrite Hm, rev_app_distr in R. cbn in R. injection R as <- <-. rewrite N1 by exact Hi. exists x. split; [reflexivity|].
           pose proof (found_good h s0 c s1 x t Ic IH X0 Ef F Hi) as G. unfold good_exec in *. rewrite E1, E2. exact G.
        -- rewrite calls_same in R by (intros c1 Q; injection Q as <-; exact Hi). rewrite N2 by exact Hi. destruct (ie_called _ _ IH t c0 r R) as (y & Y1 & Y2). exists y. split; [exact Y1|].
           eapply good_exec_grows; [apply Gr, Y2 | exact Gl | exact Y2].
      * intros t Ht. rewrite calls_on_snoc in Ht. apply app_eq_nil in Ht. destruct Ht as [Ht1 Ht2]. destruct (mem t (c_tl c)) eqn:Em; [discriminate|]. apply mem_false in Em. rewrite N2 by exact Em. apply (ie_none _ _ IH t Ht1).
      * intros k y Hk. rewrite E3 in Hk. pose proof F as F'. apply find_executor_cases in F'.
        assert (Old : lookup k (keys s0) = Some y -> good_key s k y) by (intros Hy; pose proof (ie_keys _ _ IH k y Hy) as G; eapply good_key_grows; [apply Gr, G | exact Gl | exact G]).
        destruct F' as [(_ & _ & z & A & ->)|(_ & [(_ & -> & ->)|[(k' & K & Lk & ->)|(k' & K & Lk & -> & ->)]])]; try (apply Old; exact Hk).
        cbn [keys lookup new_exec] in Hk. destruct (Nat.eqb_spec k k') as [->|Nk]; [|apply Old; exact Hk]. injection Hk as <-.
        unfold good_key. rewrite E1, E2. cbn [new_exec next execs]. rewrite upd_same. split; [lia|]. exists (b_action (c_b c)), (c_env c), (c_tl c), (c_sl c). split; [exact K|]. cbn. auto.
    + injection H1 as <-. apply Act; [apply (late_last h ns a _ (or_introl eq_refl) L) | intros t; apply calls_same; discriminate].
    + injection H1 as <-. apply Act; [apply (late_last h ns a _ (or_intror eq_refl) L) | intros t; apply calls_same; discriminate].
    + destruct (do_side (nodes s0) ses ts) as [f|] eqn:D; [|discriminate]. injection H1 as <-. assert (N : forall t, n_exec (f t) = n_exec (nodes s0 t)) by (intros t; apply (do_side_spec _ _ _ _ D t)).
      constructor; cbn [set_nodes nodes execs next keys].
      * intros t c r R. rewrite calls_same in R by discriminate. rewrite N. exact (ie_called _ _ IH t c r R).
      * intros t Ht. rewrite calls_same in Ht by discriminate. rewrite N. exact (ie_none _ _ IH t Ht).
      * exact (ie_keys _ _ IH).
Qed.

(* C55b.  After the scripts have been read, every target is built by the action of the last Builder call that names it (in the environment of that call, if the builder is not a
   multi builder), for exactly the targets of that call, from (at least) its sources. *)
Theorem C55b_recipe : forall h s t c r, run empty h = Some s -> late h -> explicit h -> rev (calls_on h t) = c :: r ->
  exists x, n_exec (nodes s t) = Some x /\ x_actions (execs s x) = [b_action (c_b c)] /\ (b_multi (c_b c) = false -> x_env (execs s x) = Some (c_env c))
    /\ exists ss, In (c_tl c, ss) (x_batches (execs s x)) /\ incl (c_sl c) ss.
Proof.
  intros h s t c r H L X R. destruct (ie_called _ _ (inv_exec_run h s H L X) t c r R) as (x & E & _ & _ & A & B & C). exists x. auto.
Qed.

(* ---- one command per target ---- *)
Record inv_one (h : list op) (s : bst) : Prop := {
  io_key : forall t c r x, rev (calls_on h t) = c :: r -> n_exec (nodes s t) = Some x ->
    match key_of batch_key c with None => (exists ss, x_batches (execs s x) = [(c_tl c, ss)]) /\ (forall k, lookup k (keys s) <> Some x) | Some k => lookup k (keys s) = Some x end;
  io_all : forall t x t', n_exec (nodes s t) = Some x -> In t' (all_targets (execs s x)) -> n_exec (nodes s t') = Some x;
  io_keys : forall k x t', lookup k (keys s) = Some x -> In t' (all_targets (execs s x)) -> n_exec (nodes s t') = Some x }.

Lemma in_all x ts ss t : In (ts, ss) (x_batches x) -> In t ts -> In t (all_targets x).
Proof. intros H Ht. unfold all_targets. apply in_concat. exists ts. split; [apply in_map_iff; exists (ts, ss); auto | exact Ht]. Qed.
Lemma own_target h s t x : inv_exec h s -> n_exec (nodes s t) = Some x -> In t (all_targets (execs s x)).
Proof.
  intros Ie E. destruct (exec_called h s t x Ie E) as (c & r & R & _ & _ & _ & _ & ss & B & _). eapply in_all; [exact B|]. apply (last_In _ _ _ _ R).
Qed.

(* a node of the call that had an executor y before: the call finds y again, unless y was made for this target list only *)
Lemma found_same h s c s1 x t y : inv_core h s -> inv_exec h s -> inv_one h s -> consistent batch_key (h ++ [Call c]) -> find_executor batch_key s c = Some (s1, x) -> In t (c_tl c) ->
  n_exec (nodes s t) = Some y -> (all_targets (execs s y) = c_tl c /\ (forall k, lookup k (keys s) <> Some y)) \/ x = y.
Proof.
  intros Ic Ie Io Co F Ht Ey. destruct (exec_called h s t y Ie Ey) as (c0 & r & R & G). destruct (last_In _ _ _ _ R) as [Hc Ht0].
  destruct (Co c0 c t) as [Et Ek]; [apply in_or_app; left; exact Hc | apply in_or_app; right; left; reflexivity | exact Ht0 | exact Ht |].
  pose proof (io_key _ _ Io t c0 r y R Ey) as K. rewrite Ek in K. destruct (key_of batch_key c) as [k|] eqn:Ec.
  - right. apply find_executor_cases in F. destruct F as [(M & (t0 & tl & T & N) & _)|(_ & [(Q & _)|[(k' & K' & L & _)|(k' & K' & L & _)]])]; try congruence.
    assert (H0 : n_exec (nodes s t0) = Some y); [|congruence]. apply (io_all _ _ Io t y t0 Ey). destruct G as (_ & _ & _ & _ & ss & B & _). eapply in_all; [exact B|]. rewrite Et, T. left. reflexivity.
  - left. destruct K as [(ss & B) N]. split; [|exact N]. unfold all_targets. rewrite B. cbn. rewrite app_nil_r. exact Et.
Qed.
Lemma all_targets_grows s c s1 x : find_executor batch_key s c = Some (s1, x) -> forall i, i < next s -> i <> x -> execs s1 i = execs s i.
Proof.
  intros F i Hi N. apply find_executor_cases in F. destruct F as [(_ & _ & y & A & ->)|(_ & [(_ & -> & ->)|[(k & _ & L & ->)|(k & _ & L & -> & ->)]])]; cbn [set_exec new_exec execs]; apply upd_other; lia || exact N.
Qed.
Lemma found_targets h s c s1 x t : inv_core h s -> inv_exec h s -> explicit h -> errors_free contents s c = true -> find_executor batch_key s c = Some (s1, x) -> In t (c_tl c) ->
  forall t', In t' (all_targets (execs s1 x)) -> In t' (c_tl c) \/ (exists k, lookup k (keys s) = Some x /\ In t' (all_targets (execs s x))).
Proof.
  intros Ic Ie Xp Ef F Ht t' H. pose proof F as F0. apply find_executor_cases in F. destruct F as [(M & (t0 & tl & T & N) & y & A & ->)|(_ & [(_ & -> & ->)|[(k & K & L & ->)|(k & K & L & -> & ->)]])]; cbn [set_exec new_exec execs] in H; rewrite upd_same in H.
  - left. destruct (exec_called h s t0 x Ie N) as (c0 & r & R & _). pose proof (last_In _ _ _ _ R) as [Hc _].
    assert (H0 : In t0 (c_tl c)) by (rewrite T; left; reflexivity). destruct (node_ok_multi h s c t0 c0 r Ic Ef H0 R (Xp c0 Hc) M) as [_ Ea]. specialize (Ea x N).
    apply add_sources_inv in A. destruct A as (A1 & ts & ss & A2 & A3 & A4 & A5 & A6 & _). unfold all_targets in Ea, H. rewrite A2 in Ea. rewrite A6 in H. cbn in Ea, H. rewrite Ea in H. exact H.
  - left. unfold all_targets in H. rewrite (bld_exec_batches _ _ _ _ t Ht) in H. cbn in H. rewrite app_nil_r in H. exact H.
  - unfold all_targets, add_batch in H. cbn [x_batches] in H. rewrite map_app, concat_app, in_app_iff in H. cbn in H. rewrite app_nil_r in H. destruct H as [H|H]; [right; exists k; auto | left; exact H].
  - left. unfold all_targets in H. rewrite (bld_exec_batches _ _ _ _ t Ht) in H. cbn in H. rewrite app_nil_r in H. exact H.
Qed.

Lemma all_targets_xcore x y : xcore x = xcore y -> all_targets x = all_targets y.
Proof. intros E. apply xcore_inv in E. unfold all_targets. destruct E as (_ & _ & _ & ->). reflexivity. Qed.

Lemma inv_one_run h : forall s, run empty h = Some s -> late h -> explicit h -> consistent batch_key h -> inv_one h s.
Proof.
  induction h as [|o h IH] using rev_ind; intros s H L X Co.
  - cbn in H. injection H as <-. constructor; cbn; discriminate.
  - apply run_snoc in H. destruct H as (s0 & H0 & H1). pose proof (late_snoc _ _ L) as L0. pose proof (explicit_snoc _ _ X) as X0. specialize (IH s0 H0 L0 X0 (consistent_snoc _ _ _ Co)).
    pose proof (inv_core_run contents batch_key h s0 H0) as Ic. pose proof (inv_exec_run h s0 H0 L0 X0) as Ie.
    assert (Act : forall pre ns a, (forall n, In n ns -> calls_on h n <> []) -> (forall t, calls_on (h ++ [o]) t = calls_on h t) -> inv_one (h ++ [o]) (do_action pre s0 ns a)).
    { intros pre ns a Hn Hc. destruct (do_action_late pre s0 ns a) as (A & B & C & D & _).
      - intros n Hi. destruct (rev (calls_on h n)) as [|c r] eqn:R; [elim (Hn n Hi); apply calls_nil_rev; exact R|]. destruct (ie_called _ _ Ie n c r R) as (x & E1 & E2 & E3 & _). eauto.
      - constructor; intros t; rewrite ?Hc, ?A, ?C.
        + intros c r x R E. destruct (xcore_inv _ _ (D x)) as (_ & _ & _ & ->). exact (io_key _ _ IH t c r x R E).
        + intros x t'. rewrite (all_targets_xcore _ _ (D x)). exact (io_all _ _ IH t x t').
        + intros x t'. rewrite (all_targets_xcore _ _ (D x)). exact (io_keys _ _ IH t x t'). }
    destruct o as [c|ns a|ns a|ses ts]; cbn in H1.
    + apply do_call_inv in H1. destruct H1 as (Ef & s1 & x & F & E1 & E2 & E3 & N1 & N2).
      assert (Nx : forall n y, n_exec (nodes s0 n) = Some y -> y < next s0) by (intros n y Hy; destruct (exec_called h s0 n y Ie Hy) as (? & ? & _ & G); apply G).
      assert (Ky : forall k y, lookup k (keys s0) = Some y -> y < next s0) by (intros k y Hy; apply (ie_keys _ _ Ie k y Hy)).
      (* executors other than x: nobody who points there is renamed *)
      assert (Keep : forall y t', y <> x -> n_exec (nodes s0 t') = Some y -> (all_targets (execs s0 y) = c_tl c -> (forall k, lookup k (keys s0) <> Some y) -> False) -> n_exec (nodes s t') = Some y).
      { intros y t' Ny E Hf. destruct (in_dec Nat.eq_dec t' (c_tl c)) as [Hi|Hi]; [|rewrite N2 by exact Hi; exact E]. exfalso.
        destruct (found_same h s0 c s1 x t' y Ic Ie IH Co F Hi E) as [[A B]|A]; [exact (Hf A B) | congruence]. }
      assert (Mine : forall t t', In t (c_tl c) -> In t' (all_targets (execs s1 x)) -> n_exec (nodes s t') = Some x).
      { intros t t' Ht Ht'. destruct (in_dec Nat.eq_dec t' (c_tl c)) as [Hi|Hi]; [rewrite N1 by exact Hi; reflexivity|]. rewrite N2 by exact Hi.
        destruct (found_targets h s0 c s1 x t Ic Ie X0 Ef F Ht t' Ht') as [Q|(k & Q1 & Q2)]; [contradiction|]. exact (io_keys _ _ IH k x t' Q1 Q2). }
      assert (Empty : c_tl c = [] -> forall n, nodes s n = nodes s0 n) by (intros Z n; apply N2; rewrite Z; intros []).
      constructor.
      * intros t c0 r y R E. destruct (in_dec Nat.eq_dec t (c_tl c)) as [Hi|Hi].
        -- rewrite calls_on_snoc in R. apply mem_In in Hi as Hm. rewrite Hm, rev_app_distr in R. cbn in R. injection R as <- <-. rewrite N1 in E by exact Hi. cbn in E. injection E as <-. rewrite E1, E3.
           pose proof F as F'. apply find_executor_cases in F'. destruct F' as [(M & (t0 & tl & T & N) & z & A & ->)|(_ & [(K & -> & ->)|[(k & K & Lk & ->)|(k & K & Lk & -> & ->)]])]; cbn [set_exec new_exec execs keys]; rewrite ?upd_same.
           ++ destruct (exec_called h s0 t0 x Ie N) as (c1 & r1 & R1 & _). destruct (last_In _ _ _ _ R1) as [Hc1 Ht1]. assert (H0c : In t0 (c_tl c)) by (rewrite T; left; reflexivity).
              destruct (Co c1 c t0) as [Et Ek]; [apply in_or_app; left; exact Hc1 | apply in_or_app; right; left; reflexivity | exact Ht1 | exact H0c |].
              pose proof (io_key _ _ IH t0 c1 r1 x R1 N) as K. rewrite Ek in K. destruct (key_of batch_key c); [exact K|]. destruct K as [(ss & B) K2]. split; [|exact K2].
              apply add_sources_inv in A. destruct A as (A1 & ts & ss' & A2 & A3 & A4 & A5 & A6 & _). rewrite A6. rewrite B in A2. injection A2 as <- <-. rewrite Et. eauto.
           ++ rewrite K. split; [rewrite (bld_exec_batches _ _ _ _ t Hi); eauto|]. intros k Q. apply Ky in Q. lia.
           ++ rewrite K. exact Lk.
           ++ rewrite K. cbn [lookup]. rewrite Nat.eqb_refl. reflexivity.
        -- rewrite calls_same in R by (intros c1 Q; injection Q as <-; exact Hi). rewrite N2 in E by exact Hi. pose proof (io_key _ _ IH t c0 r y R E) as K. pose proof (Nx t y E) as Ly. rewrite E1, E3.
           pose proof F as F'. apply find_executor_cases in F'. destruct (key_of batch_key c0) as [k0|] eqn:K0.
           ++ destruct F' as [(M & _ & z & A & ->)|(_ & [(_ & -> & ->)|[(k & _ & Lk & ->)|(k & _ & Lk & -> & ->)]])]; cbn [set_exec new_exec keys]; try exact K.
              cbn [lookup]. destruct (Nat.eqb_spec k0 k) as [->|_]; [congruence | exact K].
           ++ destruct K as [(ss & B) K]. split.
              ** destruct (Nat.eq_dec y x) as [->|Ny]; [|rewrite (all_targets_grows _ _ _ _ F y Ly Ny); eauto].
                 destruct F' as [(M & _ & z & A & ->)|(_ & [(_ & -> & ->)|[(k & _ & Lk & ->)|(k & _ & Lk & -> & ->)]])]; cbn [set_exec new_exec execs]; [|lia | elim (K k Lk) | lia].
                 rewrite upd_same. apply add_sources_inv in A. destruct A as (A1 & ts & ss' & A2 & A3 & A4 & A5 & A6 & _). rewrite A6. rewrite B in A2. injection A2 as <- <-. eauto.
              ** intros k'. destruct F' as [(M & _ & z & A & ->)|(_ & [(_ & -> & ->)|[(k & _ & Lk & ->)|(k & _ & Lk & -> & ->)]])]; cbn [set_exec new_exec keys]; try apply K.
                 cbn [lookup]. destruct (Nat.eqb k' k); [intros Q; injection Q as Q; lia | apply K].
      * intros t y t' E Ht'. rewrite E1 in Ht'. destruct (c_tl c) as [|t0 tl0] eqn:T.
        -- rewrite (Empty eq_refl) in *. destruct (Nat.eq_dec y x) as [->|Ny]; [|rewrite (all_targets_grows _ _ _ _ F y (Nx _ _ E) Ny) in Ht'; exact (io_all _ _ IH t y t' E Ht')].
           pose proof (Nx _ _ E) as Ly. apply find_executor_cases in F. destruct F as [(M & (t1 & tl & T1 & _) & _)|(_ & [(_ & -> & _)|[(k & _ & Lk & ->)|(k & _ & Lk & -> & ->)]])]; try lia; [rewrite T in T1; discriminate|].
           cbn [set_exec execs] in Ht'. rewrite upd_same in Ht'. unfold all_targets, add_batch in Ht'. cbn [x_batches] in Ht'. rewrite map_app, concat_app, in_app_iff, T in Ht'. cbn in Ht'. destruct Ht' as [Ht'|[]]. exact (io_all _ _ IH t x t' E Ht').
        -- rewrite <- T in *. assert (H0c : In t0 (c_tl c)) by (rewrite T; left; reflexivity). destruct (Nat.eq_dec y x) as [->|Ny]; [exact (Mine t0 t' H0c Ht')|].
           destruct (in_dec Nat.eq_dec t (c_tl c)) as [Hi|Hi]; [rewrite N1 in E by exact Hi; cbn in E; congruence|]. rewrite N2 in E by exact Hi.
           rewrite (all_targets_grows _ _ _ _ F y (Nx _ _ E) Ny) in Ht'. apply Keep; [exact Ny | exact (io_all _ _ IH t y t' E Ht')|].
           intros A _. apply Hi. rewrite <- A. exact (own_target h s0 t y Ie E).
      * intros k y t' Hk Ht'. rewrite E1 in Ht'. rewrite E3 in Hk. destruct (c_tl c) as [|t0 tl0] eqn:T.
        -- rewrite (Empty eq_refl). pose proof F as F'. apply find_executor_cases in F'. destruct F' as [(M & (t1 & tl & T1 & _) & _)|(_ & [(_ & -> & ->)|[(k' & _ & Lk & ->)|(k' & _ & Lk & -> & ->)]])].
           ++ rewrite T in T1. discriminate.
           ++ cbn [new_exec keys execs] in *. rewrite upd_other in Ht' by (apply Ky in Hk; lia). exact (io_keys _ _ IH k y t' Hk Ht').
           ++ cbn [set_exec keys execs] in *. destruct (Nat.eq_dec y x) as [->|Ny]; [rewrite upd_same in Ht' | rewrite upd_other in Ht' by exact Ny; exact (io_keys _ _ IH k y t' Hk Ht')].
              unfold all_targets, add_batch in Ht'. cbn [x_batches] in Ht'. rewrite map_app, concat_app, in_app_iff, T in Ht'. cbn in Ht'. destruct Ht' as [Ht'|[]]. exact (io_keys _ _ IH k x t' Hk Ht').
           ++ cbn [new_exec keys execs lookup] in *. destruct (Nat.eqb k k'); [injection Hk as <-; rewrite upd_same in Ht'; unfold all_targets, bld_exec in Ht'; cbn [x_batches] in Ht'; rewrite T in Ht'; destruct (c_sl c); cbn in Ht'; contradiction|].
              rewrite upd_other in Ht' by (apply Ky in Hk; lia). exact (io_keys _ _ IH k y t' Hk Ht').
        -- rewrite <- T in *. assert (H0c : In t0 (c_tl c)) by (rewrite T; left; reflexivity). destruct (Nat.eq_dec y x) as [->|Ny]; [exact (Mine t0 t' H0c Ht')|].
           assert (Old : lookup k (keys s0) = Some y).
           { pose proof F as F'. apply find_executor_cases in F'. destruct F' as [(M & _ & z & A & ->)|(_ & [(_ & -> & ->)|[(k' & _ & Lk & ->)|(k' & _ & Lk & -> & ->)]])]; cbn [set_exec new_exec keys] in Hk; try exact Hk.
             cbn [lookup] in Hk. destruct (Nat.eqb k k'); [congruence | exact Hk]. }
           rewrite (all_targets_grows _ _ _ _ F y (Ky _ _ Old) Ny) in Ht'. apply Keep; [exact Ny | exact (io_keys _ _ IH k y t' Old Ht')|]. intros _ A. exact (A k Old).
    + injection H1 as <-. apply Act; [apply (late_last h ns a _ (or_introl eq_refl) L) | intros t; apply calls_same; discriminate].
    + injection H1 as <-. apply Act; [apply (late_last h ns a _ (or_intror eq_refl) L) | intros t; apply calls_same; discriminate].
    + destruct (do_side (nodes s0) ses ts) as [f|] eqn:D; [|discriminate]. injection H1 as <-. assert (N : forall t, n_exec (f t) = n_exec (nodes s0 t)) by (intros t; apply (do_side_spec _ _ _ _ D t)).
      constructor; cbn [set_nodes nodes execs keys].
      * intros t c r x R. rewrite calls_same in R by discriminate. rewrite N. exact (io_key _ _ IH t c r x R).
      * intros t x t'. rewrite !N. exact (io_all _ _ IH t x t').
      * intros k x t'. rewrite N. exact (io_keys _ _ IH k x t').
Qed.

(* C55c.  One command per target.  If calls that have a target in common have the same target list (and the same batch key), no target is built by two executors: everything
   that the executor of a target builds has that executor. *)
Theorem C55c_one_command : forall h s t x t', run empty h = Some s -> late h -> explicit h -> consistent batch_key h ->
  n_exec (nodes s t) = Some x -> In t' (all_targets (execs s x)) -> n_exec (nodes s t') = Some x.
Proof. intros h s t x t' H L X Co. apply (io_all _ _ (inv_one_run h s H L X Co)). Qed.
End P.
Print Assumptions C55b_recipe.
Print Assumptions C55c_one_command.
