(* Invariants for a fixed dependency graph: issuing and retiring tasks.  Proof file. *)
From Coq Require Import List Arith ZArith Bool Lia Permutation.
Import ListNotations.
From Verif Require Import TMModel TMBase TMSpec TMSafe TMSafe2 TMStatic.

Definition is_fail (o : outcome) : Prop := o <> OOk.

Record retired (c : cfg) (o : outcome) (z : tm) (ts : list node) (s' : tm) : Prop := {
  rt_in_ok : o = OOk -> forall n, In n ts -> nst s' n = match nst z n with Executing => Executed | x => x end;
  rt_in_fail : o <> OOk -> forall n, In n ts -> nst s' n = Failed;
  rt_out : forall n, ~ In n ts ->
     (nst s' n = nst z n /\ ~ (In n (ses_of c ts) /\ nst z n = Executing) /\ (o <> OOk -> ~ wreach (wpE z) ts n))
     \/ (In n (ses_of c ts) /\ nst s' n = NoState)
     \/ (o <> OOk /\ wreach (wpE z) ts n /\ nst s' n = Failed);
  rt_wp : forall x p, In (x, p) (wpE s') <->
     In (x, p) (wpE z) /\ ~ In x ts /\ ~ (In x (ses_of c ts) /\ nst s' x = NoState) /\ (o <> OOk -> ~ wreach (wpE z) ts x);
  rt_c1 : forall x, In x (cands z) -> In x (cands s');
  rt_c2 : forall x p, In (x, p) (wpE z) -> (o <> OOk -> ~ wreach (wpE z) ts x) -> ~ In (x, p) (wpE s') ->
            In p (cands s') \/ exists k, In (k, p) (wpE s');
  rt_c3 : forall se p, In se (ses_of c ts) -> In p (wse z se) -> In p (cands s') \/ exists k, In (k, p) (wpE s');
  rt_p : forall x, In x (pend s') <-> In x (pend z) /\ (o <> OOk -> ~ wreach (wpE z) ts x)
            /\ ~ (In x ts /\ exists p, In (x, p) (wpE z)) /\ ~ (In x (ses_of c ts) /\ nst s' x = NoState /\ exists p, In (x, p) (wpE z)) }.

Lemma retire_full fuel c e o z m s' :
  cfg_wf c -> env_wf e -> refok z -> o <> OFailStop -> retire fuel c e o z (all_targets c m) = Some s' ->
  retired c o z (all_targets c m) s'.
Proof.
  intros W We Rz Ho H. unfold retire in H.
  set (ts := all_targets c m) in *.
  assert (Ns : forall x, In x ts -> ~ In x (ses_of c ts)) by (apply targets_not_ses; exact W).
  destruct o; [| |congruence].
  - injection H as <-.
    pose proof (executed_spec c ts z Ns) as E. cbn zeta in E. set (z1 := executed c z ts) in *.
    destruct E as (E1 & E2 & E3 & E4 & E5 & E6 & E7).
    assert (R1 : refok z1) by (destruct Rz as [Ha Hb]; split; [rewrite E3; exact Ha | intros p; rewrite E2, E3; apply Hb]).
    destruct (postprocess_spec c e z1 ts We R1) as [O1 O2 O3 O4 O5 O6 O7 O8 O9 O10].
    set (s' := postprocess c e z1 ts) in *.
    assert (Out : forall n, ~ In n ts -> (nst s' n = nst z n /\ ~ (In n (ses_of c ts) /\ nst z n = Executing)) \/ (In n (ses_of c ts) /\ nst s' n = NoState)).
    { intros n Hn. apply mem_nIn in Hn. pose proof (E1 n) as Q. rewrite Hn in Q.
      destruct (O4 n) as [(A1 & A2 & A3)|(A1 & A2)]; [right; auto|].
      destruct (existsb _ ts) eqn:X.
      - right. apply existsb_exists in X. destruct X as (t & T1 & T2). apply andb_true_iff in T2. destruct T2 as [_ T2].
        apply mem_In in T2. split; [apply in_flat_map; exists t; auto | congruence].
      - left. rewrite Q in *. split; [congruence | exact A2]. }
    assert (In' : forall n, In n ts -> nst s' n = match nst z n with Executing => Executed | x => x end).
    { intros n Hn. destruct (O4 n) as [(A1 & _)|(A1 & _)]; [elim (Ns n Hn A1)|]. rewrite A1, E1. apply mem_In in Hn. rewrite Hn; reflexivity. }
    constructor.
    + intros _; exact In'.
    + congruence.
    + intros n Hn. destruct (Out n Hn) as [[A A']|A]; [left; repeat split; auto; congruence | auto].
    + intros x p. rewrite O5, E3. split; [intros (A & B & C) | intros (A & B & C & _)]; repeat split; try assumption; congruence.
    + intros x Hx; apply O6; rewrite E6; exact Hx.
    + intros x p Hx _ Hn. rewrite <- E3 in Hx. destruct (cnt_edge p (wpE s')) as [Q|Q]; [left; eapply O7; eassumption | right; exact Q].
    + intros se p Hse Hp. rewrite <- E4 in Hp. destruct (cnt_edge p (wpE s')) as [Q|Q]; [left; eapply O8; eassumption | right; exact Q].
    + intros x. rewrite O10, E3, E5. split; [intros (A & B & C) | intros (A & _ & B & C)]; repeat split; try assumption; congruence.
  - destruct (will_not_build fuel e true z ts) as [z1|] eqn:Ew; [|discriminate]. injection H as <-.
    destruct (will_not_build_spec _ _ _ _ _ _ We Rz Ew) as (W1 & W2 & W3 & W4 & W5 & W6 & W7).
    destruct (postprocess_spec c e z1 ts We W1) as [O1 O2 O3 O4 O5 O6 O7 O8 O9 O10].
    set (s' := postprocess c e z1 ts) in *.
    constructor.
    + discriminate.
    + intros _ n Hn. destruct (W2 n) as [(_ & _ & A)|[_ B]]; [|elim (B eq_refl); apply wr0; exact Hn].
      destruct (O4 n) as [(_ & B & _)|[B _]]; congruence.
    + intros n Hn. destruct (O4 n) as [(A1 & A2 & A3)|(A1 & A2)]; [auto|].
      destruct (W2 n) as [(B1 & _ & B3)|[B1 B2]].
      * right; right; split; [discriminate|]. split; [exact B1 | congruence].
      * left. rewrite B1 in *. split; [assumption|]. split; [assumption|]. intros _; apply B2; reflexivity.
    + intros x p. rewrite O5, W3. split; [intros ((A & A') & B & C) | intros (A & B & C & D)]; repeat split; try assumption; auto.
      intros Hw; apply D; [discriminate | exact Hw].
    + intros x Hx; apply O6; rewrite W6; exact Hx.
    + intros x p Hx Hw Hn. assert (In (x, p) (wpE z1)) as Hx' by (apply W3; split; [exact Hx | apply Hw; discriminate]).
      destruct (cnt_edge p (wpE s')) as [Q|Q]; [left; eapply O7; eassumption | right; exact Q].
    + intros se p Hse Hp. rewrite <- W5 in Hp. destruct (cnt_edge p (wpE s')) as [Q|Q]; [left; eapply O8; eassumption | right; exact Q].
    + intros x. rewrite O10, W4. split.
      * intros ((A & A') & B & C). split; [exact A|]. split; [auto|].
        split; [intros [Q1 (p & Q2)]; apply B; split; [exact Q1|]; exists p; apply W3; auto |
                intros (Q1 & Q2 & (p & Q3)); apply C; split; [exact Q1|]; split; [exact Q2|]; exists p; apply W3; auto].
      * intros (A & A' & B & C). split; [split; [exact A | apply A'; discriminate]|].
        split; [intros [Q1 (p & Q2)]; apply B; split; [exact Q1|]; exists p; apply W3 in Q2; tauto |
                intros (Q1 & Q2 & (p & Q3)); apply C; split; [exact Q1|]; split; [exact Q2|]; exists p; apply W3 in Q3; tauto].
Qed.

(* the waiting graph is part of the dependency graph *)
Lemma wreach_dep kids E ts x : (forall k p, In (k, p) E -> In k (kids p)) -> wreach E ts x ->
  exists t, In t ts /\ depends0 kids x t.
Proof.
  intros H; induction 1 as [y Hy|k p Hk IH Hp].
  - exists y; split; [exact Hy | apply d0].
  - destruct IH as (t & A & B). exists t; split; [exact A | eapply d1; [apply (H k p Hp) | exact B]].
Qed.

Lemma retire_sinv c kids e fuel o z0 z ev m X s' :
  cfg_wf c -> graph_wf c kids -> env_wf e ->
  sinv c kids X z0 -> dinv c z0 -> (forall x, In x X -> In x (all_targets c m)) ->
  let ts := all_targets c m in
  o <> OFailStop -> retire fuel c e o (emit z ev) ts = Some s' ->
  (o = OOk -> (ev = EFinish ts \/ ev = ECurrent ts) /\ forall t, In t ts -> nst z t = Executing \/ nst z t = UpToDate) ->
  (o <> OOk -> ev = EFail ts) ->
  (* the task: not finished before, its dependencies finished *)
  (forall t, In t ts -> ~ is_side_effect c t -> covered c z0 t) -> (forall t, In t ts -> done (nst z0 t) = false /\ ~ failed (trace z0) t /\ ~ finished (trace z0) t) ->
  (ev = EFinish ts -> In (EStart ts) (trace z0)) ->
  (ev = ECurrent ts -> forall t, In t ts -> ~ tasked (trace z0) t) ->
  (forall t k, In t ts -> In k (kids t) -> done (nst z0 k) = true) ->
  (* z and z0 agree outside ts *)
  (forall n, ~ In n ts -> nst z n = nst z0 n) -> refok z -> wpE z = wpE z0 -> wse z = wse z0 -> pend z = pend z0 ->
  cands z = cands z0 -> seen z = seen z0 -> topsleft z = topsleft z0 -> trace z = trace z0 ->
  (forall x, In x (running z0) -> x = ts \/ In x (running z)) -> (forall x, In x (running z) -> In x (running z0)) ->
  alldisj (running z) -> (forall x, In x (running z) -> disj ts x) ->
  sinv c kids [] s'.
Proof.
  intros W G We S D HX ts Ho Hr Hok Hfail Hm Hts Hstart Hcur Hkids Hn Rz E1 E2 E3 E4 E5 E6 E7 R1 R2 R3 R4.
  assert (S0 := S). destruct S0 as [F1 F2 F3 F4 F5 F6 F7 F8 F9 F10 F11 F12 F13 F14 F15 F16 F17 F18 F19 F20 F21 F22 F23 F24 F25].
  assert (Re : refok (emit z ev)) by exact Rz.
  destruct (retire_trace _ _ _ _ _ _ _ We Re Hr) as (Y1 & Y2 & Y3 & Y4 & Y5 & Y6 & Y7 & Y8). cbn in Y1, Y2, Y4, Y5, Y8.
  pose proof (retire_full _ _ _ _ _ _ _ W We Re Ho Hr) as [T1 T2 T3 T4 T5 T6 T7 T8]. cbn [nst wpE cands wse pend emit] in T1, T2, T3, T4, T5, T6, T7, T8.
  fold ts in T1, T2, T3, T4, T6, T7, T8.
  assert (Tr : trace s' = ev :: trace z0) by (rewrite Y1, E7; destruct o; [reflexivity | reflexivity | congruence]).
  rewrite E1 in T3, T4, T6, T8. rewrite E2 in T7. rewrite E3 in T8. rewrite E4 in T5. clear Y1.
  assert (Od : o = OOk \/ o <> OOk) by (destruct o; [left; reflexivity | right; discriminate | right; discriminate]).
  assert (NT : forall x, In x (ses_of c ts) -> ~ tasked (trace z0) x).
  { intros x Hx Tx. apply in_flat_map in Hx. destruct Hx as (t & A & B).
    pose proof (F2 x Tx t (gw_se c kids G x t B)) as Q. destruct (Hts t A) as [Q' _]. congruence. }
  assert (Wk : forall x, tasked (trace z0) x -> ~ In x ts -> ~ wreach (wpE z0) ts x).
  { intros x Tx Nx Hw. inversion Hw as [y Hy|k p Hk Hp]; subst; [contradiction|].
    destruct (F11 k x Hp) as (A & B & _). rewrite (F2 x Tx k A) in B; discriminate. }
  assert (Keep : forall x, tasked (trace z0) x -> ~ In x ts -> nst s' x = nst z0 x).
  { intros x Tx Nx. destruct (T3 x Nx) as [(A & _)|[(A & _)|(_ & A & _)]].
    - rewrite A; apply Hn; exact Nx.
    - elim (NT x A Tx).
    - elim (Wk x Tx Nx A). }
  assert (DK : forall x, done (nst z0 x) = true -> done (nst s' x) = true).
  { intros x Hx. assert (~ In x ts) as Nx by (intros Q; destruct (Hts x Q); congruence). rewrite Keep; auto. }
  assert (Tin : forall x, In x ts -> tasked (trace s') x /\ (o = OOk -> finished (trace s') x /\ done (nst s' x) = true) /\ (o <> OOk -> failed (trace s') x /\ nst s' x = Failed)).
  { intros x Hx. rewrite Tr. destruct Od as [Oo|Oo].
    - destruct (Hok Oo) as [Hev Hst]. split; [|split; [|congruence]].
      + exists ts; split; [exact Hx|]. destruct Hev as [Hev|Hev].
        * left; right; apply Hstart; exact Hev.
        * right; left; left; exact Hev.
      + intros _. split; [exists ts; split; [exact Hx|]; destruct Hev as [-> | ->]; simpl; auto|].
        rewrite (T1 Oo x Hx). destruct (Hst x Hx) as [-> | ->]; reflexivity.
    - rewrite (Hfail Oo). split; [|split; [congruence|]].
      + exists ts; split; [exact Hx|]; right; right; left; reflexivity.
      + intros _; split; [exists ts; split; [exact Hx | left; reflexivity] | apply T2; assumption]. }
  assert (Told : forall x, tasked (trace s') x -> tasked (trace z0) x \/ In x ts).
  { intros x (q & Hq & Hi). rewrite Tr in Hi. destruct Od as [Oo|Oo].
    - destruct (Hok Oo) as [[Hev|Hev] _]; rewrite Hev in Hi; destruct Hi as [[A|A]|[[A|A]|[A|A]]]; try discriminate; try (left; exists q; tauto).
      injection A as <-; right; exact Hq.
    - rewrite (Hfail Oo) in Hi; destruct Hi as [[A|A]|[[A|A]|[A|A]]]; try discriminate; try (left; exists q; tauto).
      injection A as <-; right; exact Hq. }
  assert (Fold : forall x, failed (trace s') x -> failed (trace z0) x \/ (In x ts /\ o <> OOk)).
  { intros x (q & Hq & Hi). rewrite Tr in Hi. destruct Hi as [A|A]; [|left; exists q; auto].
    destruct Od as [Oo|Oo]; [destruct (Hok Oo) as [[Hev|Hev] _]; congruence | right].
    rewrite (Hfail Oo) in A. injection A as <-. auto. }
  assert (Fiold : forall x, finished (trace s') x -> finished (trace z0) x \/ (In x ts /\ o = OOk)).
  { intros x (q & Hq & Hi). rewrite Tr in Hi. destruct Od as [Oo|Oo].
    - destruct (Hok Oo) as [[Hev|Hev] _]; rewrite Hev in Hi; destruct Hi as [[A|A]|[[A|A]|[A|A]]]; try discriminate; try (left; exists q; tauto);
      injection A as <-; right; auto.
    - rewrite (Hfail Oo) in Hi; destruct Hi as [[A|A]|[[A|A]|[A|A]]]; try discriminate; left; exists q; tauto. }
  assert (Tm : forall x, tasked (trace z0) x -> tasked (trace s') x) by (intros x; rewrite Tr; apply tasked_cons).
  assert (Tam : forall x, tainted kids (trace z0) x -> tainted kids (trace s') x) by (intros x; rewrite Tr; apply taint_cons).
  assert (Wt : forall x, o <> OOk -> wreach (wpE z0) ts x -> tainted kids (trace s') x).
  { intros x Oo Hw. destruct (wreach_dep kids _ _ _ (fun k p H => proj1 (F11 k p H)) Hw) as (t & A & B).
    exists t; split; [exact B | apply Tin; assumption]. }
  assert (Seen : seen s' = seen z0) by congruence.
  assert (Cov : forall x, covered c z0 x -> covered c s' x) by (intros x; apply covered_mono; rewrite Seen; auto).
  assert (Ft : forall x, nst s' x = Failed -> tainted kids (trace s') x).
  { intros x Hx. destruct (in_dec Nat.eq_dec x ts) as [I|I].
    - destruct (Tin x I) as (_ & A & B). destruct Od as [Oo|Oo]; [destruct (A Oo) as [_ Q]; rewrite Hx in Q; discriminate|].
      exists x; split; [apply d0 | apply B; exact Oo].
    - destruct (T3 x I) as [(A & _)|[(_ & A)|(A & B & _)]]; [|congruence | apply Wt; assumption].
      apply Tam, F5. rewrite <- Hn, <- A by exact I. exact Hx. }
  assert (Dt : forall x, done (nst s' x) = true -> tasked (trace s') x).
  { intros x Hx. destruct (in_dec Nat.eq_dec x ts) as [I|I]; [apply Tin; exact I|].
    destruct (T3 x I) as [(A & _)|[(_ & A)|(_ & _ & A)]]; try (rewrite A in Hx; discriminate).
    apply Tm, F17. rewrite <- Hn, <- A by exact I; exact Hx. }
  assert (Nex : forall x, nst s' x = Executing -> ~ In x ts /\ nst z0 x = Executing /\ ~ In x (ses_of c ts)).
  { intros x Hx. assert (~ In x ts) as I.
    { intros I. destruct (Tin x I) as (_ & A & B). destruct Od as [Oo|Oo]; [destruct (A Oo) as [_ Q] | destruct (B Oo) as [_ Q]]; rewrite Hx in Q; discriminate. }
    destruct (T3 x I) as [(A & A' & _)|[(_ & A)|(_ & _ & A)]]; try congruence. rewrite Hn in * by exact I.
    split; [exact I|]. split; [congruence|]. intros Q; apply A'; split; congruence. }
  constructor.
  - intros x Hx. destruct (Fiold x Hx) as [A|[A B]]; [apply DK, F1; exact A | apply Tin; assumption].
  - intros x Hx k Hk. destruct (Told x Hx) as [A|A]; [eapply DK, F2; eassumption | eapply DK, Hkids; eassumption].
  - intros x Hx. destruct (in_dec Nat.eq_dec x ts) as [I|I].
    + destruct (Tin x I) as (_ & A & B). destruct Od as [Oo|Oo].
      * destruct (A Oo) as [_ Q]. destruct (nst s' x); simpl in *; try discriminate; lia.
      * destruct (B Oo) as [_ Q]. rewrite Q; simpl; lia.
    + destruct (Told x Hx) as [A|A]; [|contradiction]. rewrite Keep by assumption. apply F3; exact A.
  - intros x Hx. destruct (Fold x Hx) as [A|[A B]]; [|apply Tin; assumption].
    assert (~ In x ts) as I by (intros Q; destruct (Hts x Q) as (_ & Q' & _); contradiction).
    rewrite Keep by (try apply failed_tasked; assumption). apply F4; exact A.
  - exact Ft.
  - intros x Hx. destruct (Nex x Hx) as (I & A & B). destruct (F6 x A) as (q & Q1 & Q2).
    rewrite Y2. destruct (R1 q Q1) as [->|Q]; [tauto | exists q; auto].
  - intros q Hq t Ht. rewrite Y2 in Hq. assert (Hq0 := R2 q Hq).
    rewrite Keep; [apply (F7 q Hq0 t Ht) | | intros I; exact (R4 q Hq t I Ht)].
    exists q; split; [exact Ht | left; apply (di_run _ _ D); exact Hq0].
  - rewrite Y2; exact R3.
  - intros x Hx. rewrite Seen. assert (~ In x ts) as I.
    { intros I. destruct (Tin x I) as (_ & A & B). destruct Od as [Oo|Oo]; [destruct (A Oo) as [_ Q] | destruct (B Oo) as [_ Q]]; rewrite Hx in Q; discriminate. }
    destruct (T3 x I) as [(A & _)|[(_ & A)|(_ & _ & A)]]; try congruence. apply F9. rewrite <- Hn by exact I. congruence.
  - intros x Hs Hx. destruct (in_dec Nat.eq_dec x ts) as [I|I].
    + apply Cov, Hm; assumption.
    + destruct (T3 x I) as [(A & _)|[(_ & A)|(Oo & A & _)]].
      * apply Cov, F10; [exact Hs|]. rewrite <- Hn, <- A by exact I; exact Hx.
      * rewrite A in Hx; simpl in Hx; lia.
      * inversion A as [y Hy|k p Hk Hp]; subst; [contradiction|]. destruct (F11 k x Hp) as (_ & _ & Q).
        exists x; rewrite Seen; split; [apply cw_self; exact W | exact Q].
  - intros k p H. apply T4 in H. destruct H as (A & B & C & Q). destruct (F11 k p A) as (Q1 & Q2 & Q3).
    rewrite Seen. split; [exact Q1|]. split; [|exact Q3].
    destruct (T3 k B) as [(K & _)|[(_ & K)|(_ & _ & K)]]; rewrite K; try reflexivity. rewrite Hn by exact B; exact Q2.
  - intros k p H. apply T4 in H. destruct H as (A & B & C & Q). rewrite Seen, Y2.
    destruct (F12 k p A) as [K|[K|[K|[K|(q & K1 & K2)]]]]; auto 10.
    destruct (R1 q K1) as [->|K]; [|right; right; right; right; exists q; auto].
    destruct (nst s' k) eqn:Ek.
    + elim C; auto.
    + right; left. destruct (T3 k B) as [(K & _)|[(_ & K)|(_ & _ & K)]]; try congruence. apply F9. rewrite <- Hn by exact B. congruence.
    + destruct (Nex k Ek) as (_ & _ & K). contradiction.
    + right; right; left; apply Dt; rewrite Ek; reflexivity.
    + right; right; left; apply Dt; rewrite Ek; reflexivity.
    + right; right; right; left; apply Ft; exact Ek.
  - intros n H1 _ H3 H4. rewrite Seen in H1. rewrite Y2, Y8, E2.
    assert (~ In n ts) as I by (intros I; apply H4, Tin; exact I).
    destruct (F13 n H1) as [K|[(k & K)|(se & q & K1 & K2 & K3)]].
    + intros Q; apply I, HX; exact Q.
    + intros Q; apply H3, Tam; exact Q.
    + intros Q; apply H4, Tm; exact Q.
    + left; apply T5; exact K.
    + destruct (cnt_edge n (wpE s')) as [Z|Z]; [|right; left; exact Z].
      assert (Hnw : o <> OOk -> ~ wreach (wpE z0) ts k).
      { intros Oo Hw. apply H3. apply (Wt n Oo). eapply wr1; eassumption. }
      destruct (T6 k n K Hnw) as [Q|Q]; [|left; exact Q | right; left; exact Q].
      intros Q. assert (cnt n (wpE s') > 0) as Z' by (apply cnt_pos; exists k; exact Q). lia.
    + destruct (R1 q K2) as [->|Q]; [|right; right; exists se, q; auto].
      destruct (T7 se n K3 K1) as [Q|Q]; auto.
  - intros n k H1 H2 H3. rewrite Seen in H1. destruct (F14 n k H1 H2 H3) as [K|[K|K]]; [left; apply DK; exact K | | right; right; apply Tam; exact K].
    destruct (in_dec Nat.eq_dec k ts) as [I|I].
    + destruct (Tin k I) as (_ & A & B). destruct Od as [Oo|Oo]; [left; apply A; exact Oo|].
      right; right. apply (taint_kid kids _ n k H2). exists k; split; [apply d0 | apply B; exact Oo].
    + assert (Ns : ~ In k (ses_of c ts)).
      { intros Q. apply in_flat_map in Q. destruct Q as (t & _ & Q). apply H3; exists t; exact Q. }
      destruct Od as [Oo|Oo]; [right; left; apply T4; repeat split; try assumption; try tauto; congruence|].
      destruct (T3 k I) as [(_ & _ & Hw)|[(K1 & _)|(_ & K1 & _)]]; [|contradiction | right; right; eapply taint_kid; [exact H2 | apply Wt; assumption]].
      right; left; apply T4; repeat split; try assumption; tauto.
  - intros n k H1 H2 H3. rewrite Seen in H1. destruct (F15 n k H1 H2 H3) as [K|K]; [left; apply T5; exact K | right; apply Cov; exact K].
  - intros t H1 H2. rewrite Y5, E6. destruct (F16 t H1 H2) as [K|[K|K]]; auto.
  - exact Dt.
  - intros x Hx. rewrite Y2. destruct (in_dec Nat.eq_dec x ts) as [I|I].
    + destruct (Tin x I) as (_ & A & B). destruct Od as [Oo|Oo]; [left; apply A; exact Oo | right; left; apply B; exact Oo].
    + destruct (Told x Hx) as [A|A]; [|contradiction]. destruct (F18 x A) as [Q|[Q|(q & Q1 & Q2)]].
      * left; rewrite Tr; apply finished_cons; exact Q.
      * right; left; rewrite Tr; apply failed_cons; exact Q.
      * right; right. destruct (R1 q Q1) as [->|Q]; [contradiction | exists q; auto].
  - intros x Hx. apply T8 in Hx. destruct Hx as (A & B & C & Q). destruct (F19 x A) as [p K]. exists p. apply T4.
    split; [exact K|]. split; [intros I; apply C; eauto|]. split; [intros [I1 I2]; apply Q; eauto | exact B].
  - rewrite Tr. destruct Od as [Oo|Oo]; [|rewrite (Hfail Oo); exact F20].
    destruct (Hok Oo) as [[Hev | ->] _]; [rewrite Hev; split; [apply Hstart; exact Hev | exact F20]|]. split; [|exact F20]. split; [|apply Hcur; reflexivity].
    intros t k Ht Hk. apply (di_done _ _ D). eapply Hkids; eassumption.
  - intros n n' Hn1 Hn2. destruct (Told n Hn1) as [A|A]; [eapply Tm, F21; eassumption|].
    apply Tin. rewrite (cw_share c W m n A) in Hn2. exact Hn2.
  - intros k p H. rewrite Y2, Seen. assert (H' := H). apply T4 in H. destruct H as (A & B & C & Q).
    destruct (F22 k p A) as [K|[K|[(q & K1 & K2)|K]]]; auto.
    + left. apply T8. split; [exact K|]. split; [exact Q|]. split; [tauto|]. intros (I1 & I2 & _); apply C; auto.
    + destruct (R1 q K1) as [->|K]; [contradiction|]. right; right; left; exists q; auto.
  - intros n H. rewrite Seen in H. destruct (in_dec Nat.eq_dec n ts) as [I|I].
    + right. destruct (Tin n I) as (_ & A & B). destruct Od as [Oo|Oo].
      * destruct (A Oo) as [_ Q]. destruct (nst s' n); simpl in *; try discriminate; lia.
      * destruct (B Oo) as [_ Q]. rewrite Q; simpl; lia.
    + destruct (F23 n H) as [K|K]; [left; exact K|].
      destruct (T3 n I) as [(K1 & _)|[(K1 & _)|(_ & _ & K1)]].
      * right. rewrite K1, Hn by exact I. exact K.
      * left. apply in_flat_map in K1. destruct K1 as (t & _ & K1). exists t; exact K1.
      * right; rewrite K1; simpl; lia.
  - intros n n' H1 H2. destruct (Fold n H1) as [A|[A B]].
    + rewrite Tr. apply failed_cons. eapply F24; eassumption.
    + apply Tin; [|exact B]. rewrite (cw_share c W m n A) in H2; exact H2.
  - rewrite Seen; exact F25.
Qed.
