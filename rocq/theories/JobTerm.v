(* C11d, C11e: a build comes to an end, under both parallel schedulers.  Vocabulary: TMSpec.v, JobSpec.v, LegacySpec.v and the definitions marked "Specification". *)
From Coq Require Import List Arith ZArith Bool Lia Permutation.
Import ListNotations.
From Verif Require Import TMModel TMBase TMSpec TMSafe TMSafe2 TMTerm TMMeasure TMEnd TMProps JobModel JobSpec JobProofs JobProps JobInt LegacyModel LegacySpec LegacyProps.

(* Specification.  The build graph is finite: U contains the requested targets and everything they lead to, whatever the scanners answer. *)
Definition finite_graph (c : cfg) (U : list node) : Prop :=
  incl (tops c) U /\ (forall k, In k U -> incl (alter c k) U) /\ (forall k, In k U -> incl (all_targets c k) U).
Definition answers_within (U : list node) (e : env) : Prop := forall k ch, In k U -> e_kids e k = Some ch -> incl ch U.
(* Specification.  An endless run of the scheduler: state i is followed by state i+1 by the action l i. *)
Definition endless (c : cfg) (n : nat) (U : list node) (x : nat -> np) (l : nat -> label) : Prop :=
  x 0 = np_init c /\ forall i, label_ok c (l i) /\ (forall e, label_env (l i) = Some e -> answers_within U e) /\ np_step c n (x i) (l i) = Some (x (S i)).
Definition l_is_signal (l : llabel) : bool := match l with LSignal _ => true | _ => false end.
Definition l_endless (c : cfg) (n : nat) (U : list node) (x : nat -> lp) (l : nat -> llabel) : Prop :=
  x 0 = lp_init c n /\ forall i, llabel_ok c (l i) /\ (forall e, llabel_env (l i) = Some e -> answers_within U e) /\ lp_step c n (x i) (l i) = Some (x (S i)).

(* ---- proofs ---- *)
Lemma f2_lex a b : Forall2 le a b -> a = b \/ lexlt a b.
Proof. intros H. induction H as [|x y a b L _ IH]; [auto|]. cbn. destruct (Nat.eq_dec x y) as [->|N]; [destruct IH as [->|IH]; auto | right; left; lia]. Qed.

(* no endless descent with infinitely many strict steps *)
Lemma no_descent (k : nat) (m : nat -> list nat) (b : nat -> bool) :
  (forall i, length (m i) = k) -> (forall i, lexlt (m (S i)) (m i) \/ (b i = true /\ m (S i) = m i)) -> ~ (forall i, exists j, i <= j /\ b j = false).
Proof.
  intros Hl Hd Inf.
  assert (G : forall v, Acc (fun a b => length a = k /\ lexlt a b) v -> forall i, m i = v -> False).
  { intros v Hv. induction Hv as [v _ IH].
    assert (Lt : forall i, m i = v -> lexlt (m (S i)) (m i) -> False) by (intros i E L; apply (IH (m (S i))) with (i := S i); [split; [apply Hl | rewrite <- E; exact L] | reflexivity]).
    assert (In' : forall d i, m i = v -> b (d + i) = false -> False).
    { induction d as [|d IHd]; intros i E Hb; destruct (Hd i) as [L|[B L]]; try (eapply Lt; eassumption).
      - cbn in Hb. congruence.
      - apply (IHd (S i)); [congruence|]. rewrite Nat.add_succ_r. exact Hb. }
    intros i E. destruct (Inf i) as (j & Lj & Bj). apply (In' (j - i) i E). replace (j - i + i) with j by lia. exact Bj. }
  eapply (G (m 0)); [apply lex_wf, Hl | reflexivity].
Qed.

Section New.
Context (c : cfg) (n : nat) (U : list node) (W : cfg_wf c) (Hn : n >= 1).
Context (HT : incl (tops c) U) (HA : forall k, In k U -> incl (alter c k) U) (HU : forall k, In k U -> incl (all_targets c k) U).

Definition wq (p : pc) : nat := match p with Start _ => 9 | _ => JobInt.wpc p end.
Definition wqs (ths : list pc) : nat := list_sum (map wq ths).
Definition wt (x : np) : nat :=
  wqs (p_ths x) + length (p_queue x) + match p_state x with Ready_ => 4 | _ => 0 end + match p_state x with Completed_ => 0 | _ => length (p_ths x) end
  + (length (p_ths x) - p_joined x).
Lemma wqs_mid l1 p l2 : wqs (l1 ++ p :: l2) = wq p + wqs (l1 ++ l2).
Proof. unfold wqs. rewrite !map_app, !list_sum_app. cbn [map]. change (list_sum (wq p :: map wq l2)) with (wq p + list_sum (map wq l2)). lia. Qed.
Lemma wqs_wakes a b : wakes a b -> wqs a <= wqs b <= wqs a + length (filter waiting a).
Proof.
  assert (C : forall p l, wqs (p :: l) = wq p + wqs l) by reflexivity.
  intros H. induction H as [|p q a b Hpq _ IH]; [cbn; lia|]. rewrite !C. cbn [filter]. destruct Hpq as [->|[-> ->]]; cbn [waiting wq JobInt.wpc length]; [destruct (waiting q); cbn [length]; lia | lia].
Qed.
Definition mn (x : np) : list nat := mu c U (p_tm x) ++ [wt x].

Lemma new_step x l y : label_ok c l -> (forall e, label_env l = Some e -> kids_in U e) -> ninv c n x -> uinv U (p_tm x) -> runin c U (p_tm x) ->
  (forall ts, ~ In (EIgnored ts) (trace (p_tm y))) -> np_step c n x l = Some y ->
  runin c U (p_tm y) /\ (lexlt (mn y) (mn x) \/ (is_signal l = true /\ mn y = mn x)).
Proof.
  intros Lo Lk N Hu Hr Ni H. pose proof N as [I1 I2 I3 I4 I5 I6 I7 I8 I9 I10 I11 I12 I13].
  assert (D : dinv c (p_tm x)) by (eapply reachable_dinv; [exact W | exact I1]).
  assert (Same : p_tm y = p_tm x -> wt y < wt x -> runin c U (p_tm y) /\ (lexlt (mn y) (mn x) \/ (is_signal l = true /\ mn y = mn x))).
  { intros E L. rewrite E. split; [exact Hr|]. left. unfold mn. rewrite E. apply lexle_app; [|left; exact L]. clear. induction (mu c U (p_tm x)); constructor; auto. }
  destruct l as [i fuel e out w| |e].
  3:{ cbn [np_step step] in H. injection H as <-. cbn [p_tm]. split; [exact Hr|]. cbn [is_signal].
      assert (Ew : forall z, wt z = wt z) by reflexivity. unfold mn. cbn [p_tm]. unfold wt. cbn [p_ths p_queue p_state p_joined].
      destruct (stop_mu c U (p_tm x)) as [F|F]; [apply f2_lex in F; destruct F as [->|F]; [right; auto|]|];
        left; (apply lexlt_app; [rewrite !mu_length; reflexivity | exact F]). }
  2:{ cbn [np_step] in H. destruct (nth_error (p_ths x) (p_joined x)) as [[]|] eqn:E; try discriminate. injection H as <-. apply Same; [reflexivity|].
      unfold wt. cbn [p_ths p_queue p_state p_joined]. assert (p_joined x < length (p_ths x)) by (apply nth_error_Some; congruence). lia. }
  cbn in Lo. specialize (Lk e eq_refl). cbn [np_step] in H. destruct (nth_error (p_ths x) i) as [p|] eqn:Ep; [|discriminate].
  assert (P : forall v, exists l1 l2, p_ths x = l1 ++ p :: l2 /\ set_nth i v (p_ths x) = l1 ++ v :: l2) by
      (intros v; destruct (set_nth_split i v p (p_ths x) Ep) as (l1 & l2 & A & B & _); exists l1, l2; auto).
  assert (Enter : forall st, locked (p_ths x) = false -> p = Top true \/ p = Top false \/ p = Woken -> 
     (st = p_state x \/ (st = Ready_ /\ p_state x = Stalled_ /\ p = Top true)) -> p_tm (enter x i st) = p_tm x /\ wt (enter x i st) < wt x).
  { intros st Lck Hp Hst. apply locked_false in Lck.
    assert (Ns : p_state x <> Searching_) by (intros E; rewrite E, Lck in I4; discriminate).
    assert (G : forall v st', length (p_ths (put x i v st')) = length (p_ths x) /\ exists k, wqs (p_ths (put x i v st')) = wq v + k /\ wqs (p_ths x) = wq p + k).
    { intros v st'. destruct (P v) as (l1 & l2 & E1 & E2). unfold put. cbn [p_ths]. rewrite E2, E1, !app_length. split; [reflexivity|]. exists (wqs (l1 ++ l2)). rewrite !wqs_mid. auto. }
    assert (Wp : wq p >= 1) by (destruct Hp as [-> | [-> | ->]]; cbn; lia).
    destruct st; cbn [enter]; (split; [reflexivity|]).
    - destruct (G Drain Searching_) as (L & k & G1 & G2). unfold wt. rewrite L, G1, G2. cbn [put p_queue p_state p_joined wq JobInt.wpc].
      destruct Hst as [<-|(_ & -> & ->)]; [lia|]. cbn [wq JobInt.wpc]. lia.
    - destruct Hst as [E|[E _]]; congruence.
    - destruct (G Waiting Stalled_) as (L & k & G1 & G2). unfold wt. rewrite L, G1, G2. cbn [put p_queue p_state p_joined wq JobInt.wpc].
      destruct Hst as [<-|(E & _)]; [lia | discriminate].
    - destruct (G Exited Completed_) as (L & k & G1 & G2). unfold wt. rewrite L, G1, G2. cbn [put p_queue p_state p_joined wq JobInt.wpc].
      destruct Hst as [<-|(E & _)]; [lia | discriminate]. }
  destruct p as [b| | | |q| |t|t|t ok|]; try discriminate.
  - destruct (locked (p_ths x)) eqn:Lck; [discriminate|]. injection H as <-. apply Same; apply Enter; auto; try (destruct b; auto); destruct (p_state x); auto.
  - destruct (locked (p_ths x)) eqn:Lck; [discriminate|]. injection H as <-. apply Same; apply Enter; auto.
  - injection H as <-. apply Same; [reflexivity|]. destruct (P (Retiring (p_queue x))) as (l1 & l2 & E1 & E2).
    unfold wt. cbn [p_ths p_queue p_state p_joined]. rewrite ?E2, ?E1, !wqs_mid, !app_length. cbn [wq JobInt.wpc length]. lia.
  - destruct q as [|[t ok] q].
    + injection H as <-. apply Same; [reflexivity|]. destruct (P Searching) as (l1 & l2 & E1 & E2). unfold put.
      unfold wt. cbn [p_ths p_queue p_state p_joined]. rewrite ?E2, ?E1, !wqs_mid, !app_length. cbn [wq JobInt.wpc length]. lia.
    + cbn zeta in H. destruct (step fuel c (p_tm x) _) as [s|] eqn:Hst; [|discriminate]. injection H as <-. cbn [p_tm].
      assert (Ht : In t (running (p_tm x))).
      { eapply Permutation_in; [apply Permutation_sym, I2|]. rewrite !in_app_iff. right. right. apply nth_error_In in Ep. unfold rets. apply in_flat_map. eexists. split; [exact Ep | left; reflexivity]. }
      destruct (index_take t _ Ht) as (l1 & l2 & E & T).
      destruct (done_mu c U W HU fuel e (p_tm x) _ (if ok then OOk else out) s t (l1 ++ l2) Lo D Hr T) as [A B]; [rewrite E; apply Permutation_sym, Permutation_middle | exact Hst|].
      split; [exact A|]. left. apply lexlt_app; [rewrite !mu_length; reflexivity | exact B].
  - destruct (next_task fuel c e (p_tm x)) as [[s found]|] eqn:En; [|discriminate].
    assert (Ey : p_tm y = s).
    { destruct found; [destruct (_ <? _); [destruct (running s) as [|t r]; [discriminate|]|]|destruct (_ =? _)%Z]; injection H as <-; reflexivity. }
    rewrite Ey in Ni. destruct (next_mu c U W HA HU fuel e (p_tm x) s found Lo Lk D Hu Hr Ni En) as [A B]. rewrite Ey. split; [exact A|]. left. unfold mn. rewrite Ey.
    destruct found; [apply lexlt_app; [rewrite !mu_length; reflexivity | exact B]|]. apply lexle_app; [exact B|]. left. clear B A Ey.
    assert (Ec : p_state x = Searching_).
    { apply nth_error_In in Ep. destruct (p_state x); try reflexivity; apply in_split in Ep; destruct Ep as (l1 & l2 & E); rewrite E in I4;
        destruct (holds_le1 l1 Searching l2 _ I4 eq_refl); lia. }
    destruct (P (Top false)) as (l1 & l2 & E1 & E2). rewrite E2 in H.
    destruct (p_jobs x =? 0)%Z; injection H as <-.
    + pose proof (wakes_notify_all (l1 ++ Top false :: l2)) as Wk. set (a := notify_all (l1 ++ Top false :: l2)) in *.
      assert (La : length a = length (p_ths x)) by (rewrite (wakes_length _ _ Wk), E1, !app_length; reflexivity).
      unfold wt. cbn [p_ths p_queue p_state p_joined]. rewrite La, Ec. apply wqs_wakes in Wk. rewrite wqs_mid in Wk. rewrite E1, wqs_mid, app_length. cbn [wq JobInt.wpc length] in *.
      assert (length (filter waiting (l1 ++ Top false :: l2)) <= length l1 + length l2).
      { rewrite filter_app, app_length. cbn. assert (F : forall l, length (filter waiting l) <= length l) by (induction l as [|z l IH]; cbn; [lia | destruct (waiting z); cbn; lia]). specialize (F l1) as F1. specialize (F l2). lia. }
      lia.
    + unfold wt. cbn [p_ths p_queue p_state p_joined]. rewrite Ec, ?E1, !wqs_mid, !app_length. cbn [wq JobInt.wpc length]. lia.
  - destruct (p_int x); injection H as <-; (apply Same; [reflexivity|]); [destruct (P (Enq t false)) as (l1 & l2 & E1 & E2) | destruct (P (Exec t)) as (l1 & l2 & E1 & E2)];
      unfold wt; cbn [p_ths p_queue p_state p_joined]; rewrite ?E2, ?E1, !wqs_mid, !app_length; cbn [wq JobInt.wpc length]; lia.
  - cbn zeta in H. injection H as <-. apply Same; [reflexivity|]. set (ok := match out with OOk => true | _ => false end). destruct (P (Enq t ok)) as (l1 & l2 & E1 & E2).
    unfold wt. cbn [p_ths p_queue p_state p_joined]. rewrite ?E2, ?E1, !wqs_mid, !app_length. cbn [wq JobInt.wpc length]. lia.
  - injection H as <-. apply Same; [reflexivity|]. destruct (P (Top true)) as (l1 & l2 & E1 & E2).
    unfold wt. cbn [p_ths p_queue p_state p_joined]. rewrite ?E2, ?E1, !wqs_mid, !app_length. cbn [wq JobInt.wpc length]. lia.
Qed.
End New.

(* C11d.  A build of a finite graph comes to an end: there is no endless run of the scheduler in which the workers or the main thread act again and again
   (signals may arrive for ever).  Tasks whose preparation fails are not considered when --ignore-errors is in effect (EIgnored). *)
Theorem C11d_build_terminates : forall c n U x l,
  cfg_wf c -> n >= 1 -> finite_graph c U -> endless c n U x l -> (forall i ts, ~ In (EIgnored ts) (trace (p_tm (x i)))) ->
  ~ (forall i, exists j, i <= j /\ is_signal (l j) = false).
Proof.
  intros c n U x l W Hn (HT & HA & HU) (E0 & Hs) Ni.
  assert (R : forall i, np_reachable c n (map l (seq 0 i)) (x i)).
  { induction i as [|i IH]; [split; [constructor | cbn; rewrite E0; reflexivity]|].
    rewrite seq_S, map_app. destruct (Hs i) as (A & _ & B). eapply np_reachable_app; [exact IH | repeat constructor; exact A |]. cbn [plus map np_run]. rewrite B. reflexivity. }
  assert (Un : forall i, uinv U (p_tm (x i))).
  { intros i. pose proof (reach_ninv c n W _ _ Hn (R i)) as N. eapply (reachable_uinv c U HT HA); [exact W | exact (ni_reach _ _ _ N)|].
    apply Forall_forall. intros o Ho. destruct (ops_labels c n _ _ (proj2 (R i)) o Ho) as (l0 & Q1 & Q2). apply in_map_iff in Q1. destruct Q1 as (j & <- & _).
    destruct (Hs j) as (_ & B & _). exact (B _ Q2). }
  assert (St : forall i, runin c U (p_tm (x i)) -> runin c U (p_tm (x (S i))) /\ (lexlt (mn c U (x (S i))) (mn c U (x i)) \/ (is_signal (l i) = true /\ mn c U (x (S i)) = mn c U (x i)))).
  { intros i Hr. destruct (Hs i) as (A & B & C). eapply (new_step c n U W Hn HA HU); [exact A | exact B | exact (reach_ninv c n W _ _ Hn (R i)) | apply Un | exact Hr | apply Ni | exact C]. }
  assert (Rn : forall i, runin c U (p_tm (x i))).
  { induction i as [|i IH]; [rewrite E0; intros ts [] | apply St, IH]. }
  apply (no_descent 6 (fun i => mn c U (x i))).
  - intros i. unfold mn. rewrite app_length, mu_length. reflexivity.
  - intros i. apply St, Rn.
Qed.
Print Assumptions C11d_build_terminates.

Section Legacy.
Context (c : cfg) (n : nat) (U : list node) (W : cfg_wf c) (Hn : n >= 1).
Context (HT : incl (tops c) U) (HA : forall k, In k U -> incl (alter c k) U) (HU : forall k, In k U -> incl (all_targets c k) U).

Definition lw (w : LegacyModel.wpc) : nat := match w with WGet | WExit => 0 | WStart _ => 3 | WExec _ => 2 | WPut _ _ => 1 end.
Definition lws (ths : list LegacyModel.wpc) : nat := list_sum (map lw ths).
Definition lmw (m : mpc) : nat :=
  match m with MSearch => 8 * n + 10 | MTest => 8 * n + 11 | MWait => 1 | MGot _ _ => 0 | MPut k => n + 2 + 5 * k | MJoin k => 1 + (n - k) | MDone => 0 end.
Definition lwt (x : lp) : nat := lws (l_ths x) + 4 * length (l_req x) + lmw (l_main x).
Lemma lws_mid l1 p l2 : lws (l1 ++ p :: l2) = lw p + lws (l1 ++ l2).
Proof. unfold lws. rewrite !map_app, !list_sum_app. cbn [map]. change (list_sum (lw p :: map lw l2)) with (lw p + list_sum (map lw l2)). lia. Qed.
Definition ml (x : lp) : list nat := mu c U (l_tm x) ++ [lwt x].

Lemma legacy_step x l y : llabel_ok c l -> (forall e, llabel_env l = Some e -> kids_in U e) -> linv c n x -> uinv U (l_tm x) -> runin c U (l_tm x) ->
  (forall ts, ~ In (EIgnored ts) (trace (l_tm y))) -> lp_step c n x l = Some y ->
  runin c U (l_tm y) /\ (lexlt (ml y) (ml x) \/ (l_is_signal l = true /\ ml y = ml x)).
Proof.
  intros Lo Lk N Hu Hr Ni H. pose proof N as [I1 I2 I3 I4 I5 I6 I7 I8 I9 I10 I11 I12 I13].
  assert (D : dinv c (l_tm x)) by (eapply reachable_dinv; [exact W | exact I1]).
  assert (Same : l_tm y = l_tm x -> lwt y < lwt x -> runin c U (l_tm y) /\ (lexlt (ml y) (ml x) \/ (l_is_signal l = true /\ ml y = ml x))).
  { intros E L. rewrite E. split; [exact Hr|]. left. unfold ml. rewrite E. apply lexle_app; [|left; exact L]. clear. induction (mu c U (l_tm x)); constructor; auto. }
  destruct l as [fuel e out|i out|e].
  3:{ cbn [lp_step step] in H. injection H as <-. cbn [l_tm]. split; [exact Hr|]. cbn [l_is_signal].
      unfold ml. cbn [l_tm]. unfold lwt. cbn [l_ths l_req l_main].
      destruct (stop_mu c U (l_tm x)) as [F|F]; [apply f2_lex in F; destruct F as [->|F]; [right; auto|]|];
        left; (apply lexlt_app; [rewrite !mu_length; reflexivity | exact F]). }
  - cbn in Lo. specialize (Lk e eq_refl). cbn [lp_step] in H. unfold main_step in H. destruct (l_main x) as [| |t ok| |k|k|] eqn:Em.
    + destruct (l_jobs x <? n).
      * destruct (next_task fuel c e (l_tm x)) as [[s found]|] eqn:En; [|discriminate].
        assert (Ey : l_tm y = s).
        { destruct found; [destruct (_ <? _); [destruct (running s) as [|t r]; [discriminate|]|]|]; injection H as <-; reflexivity. }
        rewrite Ey in Ni. destruct (next_mu c U W HA HU fuel e (l_tm x) s found Lo Lk D Hu Hr Ni En) as [A B]. rewrite Ey. split; [exact A|]. left. unfold ml. rewrite Ey.
        destruct found; [apply lexlt_app; [rewrite !mu_length; reflexivity | exact B]|]. apply lexle_app; [exact B|]. left. clear B A Ey.
        cbn zeta in H. injection H as <-. unfold lwt. cbn [l_ths l_req l_main]. rewrite Em. destruct (l_jobs x =? 0); cbn [lmw]; lia.
      * injection H as <-. apply Same; [reflexivity|]. unfold lwt, set_main. cbn [l_ths l_req l_main]. rewrite Em. cbn [lmw]. lia.
    + destruct (l_res x) as [|[t ok] r]; [discriminate|]. injection H as <-. apply Same; [reflexivity|]. unfold lwt. cbn [l_ths l_req l_main]. rewrite Em. cbn [lmw]. lia.
    + cbn zeta in H. destruct (step fuel c (l_tm x) _) as [s|] eqn:Hst; [|discriminate]. injection H as <-. cbn [l_tm].
      assert (Ht : In t (running (l_tm x))).
      { eapply Permutation_in; [apply Permutation_sym, I2|]. rewrite !in_app_iff. cbn. tauto. }
      destruct (index_take t _ Ht) as (l1 & l2 & E & T).
      destruct (done_mu c U W HU fuel e (l_tm x) _ (if ok then OOk else out) s t (l1 ++ l2) Lo D Hr T) as [A B]; [rewrite E; apply Permutation_sym, Permutation_middle | exact Hst|].
      split; [exact A|]. left. apply lexlt_app; [rewrite !mu_length; reflexivity | exact B].
    + injection H as <-. apply Same; [reflexivity|]. unfold lwt, set_main. cbn [l_ths l_req l_main]. rewrite Em. destruct (l_res x); cbn [lmw]; lia.
    + destruct k; injection H as <-; (apply Same; [reflexivity|]); unfold lwt, set_main; cbn [l_ths l_req l_main]; rewrite Em, ?app_length; cbn [lmw length]; lia.
    + injection H as <-. apply Same; [reflexivity|]. unfold lwt, set_main. cbn [l_ths l_req l_main]. rewrite Em. destruct (k <? n) eqn:Ek; [apply Nat.ltb_lt in Ek|]; cbn [lmw]; lia.
    + discriminate.
  - cbn [lp_step] in H. unfold worker_step in H. destruct (nth_error (l_ths x) i) as [w|] eqn:Ew; [|discriminate].
    assert (P : forall v req res ex sk dn, lw v + 4 * length req < lw w + 4 * length (l_req x) -> lwt (set_worker x i v req res ex sk dn) < lwt x).
    { intros v req res ex sk dn L. destruct (set_nth_split i v w (l_ths x) Ew) as (l1 & l2 & A & B & _). unfold lwt, set_worker. cbn [l_ths l_req l_main]. rewrite B, A, !lws_mid. lia. }
    destruct w as [|t|t|t ok|]; try discriminate.
    + destruct (l_req x) as [|[t|] r] eqn:Er; [discriminate| |]; injection H as <-; (apply Same; [reflexivity|]); apply P; rewrite ?Er; cbn [lw length]; lia.
    + destruct (l_int x); injection H as <-; (apply Same; [reflexivity|]); apply P; cbn [lw]; lia.
    + cbn zeta in H. injection H as <-. apply Same; [reflexivity|]. apply P; cbn [lw]; lia.
    + injection H as <-. apply Same; [reflexivity|]. apply P; cbn [lw]; lia.
Qed.
End Legacy.

Lemma lp_reachable_app c n ls ls' x y : lp_reachable c n ls x -> Forall (llabel_ok c) ls' -> lp_run c n x ls' = Some y -> lp_reachable c n (ls ++ ls') y.
Proof.
  intros [A B] L H. split; [apply Forall_app; auto|]. revert B. generalize (lp_init c n). clear A. induction ls as [|l ls IH]; intros a B; cbn [lp_run app] in *; [injection B as ->; exact H|].
  destruct (lp_step c n a l); [apply IH; exact B | discriminate].
Qed.

(* C11e.  The same for the old scheduler. *)
Theorem C11e_legacy_terminates : forall c n U x l,
  cfg_wf c -> n >= 1 -> finite_graph c U -> l_endless c n U x l -> (forall i ts, ~ In (EIgnored ts) (trace (l_tm (x i)))) ->
  ~ (forall i, exists j, i <= j /\ l_is_signal (l j) = false).
Proof.
  intros c n U x l W Hn (HT & HA & HU) (E0 & Hs) Ni.
  assert (R : forall i, lp_reachable c n (map l (seq 0 i)) (x i)).
  { induction i as [|i IH]; [split; [constructor | cbn; rewrite E0; reflexivity]|].
    rewrite seq_S, map_app. destruct (Hs i) as (A & _ & B). eapply lp_reachable_app; [exact IH | repeat constructor; exact A |]. cbn [plus map lp_run]. rewrite B. reflexivity. }
  assert (Un : forall i, uinv U (l_tm (x i))).
  { intros i. pose proof (reach_linv c n W _ _ Hn (R i)) as N. eapply (reachable_uinv c U HT HA); [exact W | exact (li_reach _ _ _ N)|].
    apply Forall_forall. intros o Ho. destruct (lops_labels c n _ _ (proj2 (R i)) o Ho) as (l0 & Q1 & Q2). apply in_map_iff in Q1. destruct Q1 as (j & <- & _).
    destruct (Hs j) as (_ & B & _). exact (B _ Q2). }
  assert (St : forall i, runin c U (l_tm (x i)) -> runin c U (l_tm (x (S i))) /\ (lexlt (ml c n U (x (S i))) (ml c n U (x i)) \/ (l_is_signal (l i) = true /\ ml c n U (x (S i)) = ml c n U (x i)))).
  { intros i Hr. destruct (Hs i) as (A & B & C). eapply (legacy_step c n U W Hn HA HU); [exact A | exact B | exact (reach_linv c n W _ _ Hn (R i)) | apply Un | exact Hr | apply Ni | exact C]. }
  assert (Rn : forall i, runin c U (l_tm (x i))).
  { induction i as [|i IH]; [rewrite E0; intros ts [] | apply St, IH]. }
  apply (no_descent 6 (fun i => ml c n U (x i))).
  - intros i. unfold ml. rewrite app_length, mu_length. reflexivity.
  - intros i. apply St, Rn.
Qed.
Print Assumptions C11e_legacy_terminates.

Section Witness.
(* the run of JobProps.C10_witness (0 depends on 1 and 2, all are built), then signals for ever *)
Definition tl (i : nat) : label := nth i jl2 (Signal je).
Fixpoint tx (i : nat) : np := match i with 0 => np_init jc | S i => match np_step jc 2 (tx i) (tl i) with Some y => y | None => tx i end end.
Lemma tl_env i : forall e, label_env (tl i) = Some e -> e = je.
Proof.
  assert (F : Forall (fun l => forall e, label_env l = Some e -> e = je) jl2) by (repeat constructor; intros e E; try discriminate; injection E as <-; reflexivity).
  intros e E. unfold tl in E. destruct (nth_in_or_default i jl2 (Signal je)) as [Hi|Hi]; [eapply (proj1 (Forall_forall _ _) F); eassumption|].
  rewrite Hi in E. injection E as <-. reflexivity.
Qed.
Lemma tx_step i : exists y, np_step jc 2 (tx i) (tl i) = Some y.
Proof.
  destruct (le_lt_dec (length jl2) i) as [L|L].
  - unfold tl. rewrite nth_overflow by exact L. cbn. eexists; reflexivity.
  - assert (B : forallb (fun i => match np_step jc 2 (tx i) (tl i) with Some _ => true | None => false end) (seq 0 (length jl2)) = true) by (vm_compute; reflexivity).
    rewrite forallb_forall in B. specialize (B i). destruct (np_step jc 2 (tx i) (tl i)) as [y|]; [eauto|]. discriminate B. apply in_seq. cbn [length jl2 jl1 app] in *. lia.
Qed.
Example C11d_witness : finite_graph jc [0; 1; 2] /\ endless jc 2 [0; 1; 2] tx tl /\ (forall i ts, ~ In (EIgnored ts) (trace (p_tm (tx i)))).
Proof.
  split; [|split].
  - split; [intros k [<-|[]]; left; reflexivity|]. split; [intros k _ m [] | intros k Hk m [<-|[]]; exact Hk].
  - split; [reflexivity|]. intros i. split; [|split].
    + assert (Q := tl_env i). destruct (tl i) as [j f e o w| |e]; [|exact I|]; rewrite (Q e eq_refl); apply xenv_ok.
    + intros e E. rewrite (tl_env i e E). intros k ch Hk Ek. destruct Hk as [<-|[<-|[<-|[]]]]; vm_compute in Ek; injection Ek as <-; intros m Hm; cbn in *; tauto.
    + cbn [tx]. destruct (tx_step i) as [y Hy]. rewrite Hy. reflexivity.
  - assert (B : forallb (fun i => forallb (fun ev => match ev with EIgnored _ => false | _ => true end) (trace (p_tm (tx i)))) (seq 0 (S (length jl2))) = true) by (vm_compute; reflexivity).
    rewrite forallb_forall in B.
    assert (G : forall i, i <= length jl2 -> forall ts, ~ In (EIgnored ts) (trace (p_tm (tx i)))).
    { intros i L ts H. specialize (B i). rewrite forallb_forall in B. assert (Q : false = true); [|discriminate]. apply (B) with (x := EIgnored ts); [apply in_seq; lia | exact H]. }
    intros i. destruct (le_lt_dec i (length jl2)) as [L|L]; [apply G, L|]. replace i with (i - length jl2 + length jl2) by lia. generalize (i - length jl2). clear i L. intros d ts.
    induction d as [|d IH]; [apply G; lia|]. change (S d + length jl2) with (S (d + length jl2)). cbn [tx]. unfold tl. rewrite nth_overflow by lia. cbn [np_step step p_tm trace emit set_stopped]. intros [Q|Q]; [discriminate | exact (IH Q)].
Qed.
End Witness.
