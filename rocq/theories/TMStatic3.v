(* The fixed-graph invariant holds in every reachable state.  Proof file. *)
From Coq Require Import List Arith ZArith Bool Lia Permutation.
Import ListNotations.
From Verif Require Import TMModel TMBase TMSpec TMSafe TMSafe2 TMStatic TMStatic2.

Lemma alldisj_take i : forall l x r, alldisj l -> take_nth i l = Some (x, r) ->
  alldisj r /\ (forall y, In y r -> disj x y) /\ (forall y, In y l -> y = x \/ In y r) /\ (forall y, In y r -> In y l).
Proof.
  induction i as [|i IH]; intros [|a l] x r H E; simpl in E; try discriminate; destruct H as [H1 H2].
  - injection E as <- <-. split; [exact H2|]. split; [exact H1|]. split; intros y Hy; [destruct Hy; auto | right; exact Hy].
  - destruct (take_nth i l) as [[y r']|] eqn:Et; [|discriminate]. injection E as <- <-.
    destruct (IH l y r' H2 Et) as (A & B & C & D).
    split; [split; [intros z Hz; apply H1, D; exact Hz | exact A]|].
    split; [|split].
    + intros z [<-|Hz]; [|apply B; exact Hz]. intros q Q1 Q2. apply (H1 y (proj1 (take_nth_In _ _ _ _ Et)) q); assumption.
    + intros z [->|Hz]; [right; left; reflexivity|]. destruct (C z Hz) as [->|Q]; [left; reflexivity | right; right; exact Q].
    + intros z [->|Hz]; [left; reflexivity | right; apply D; exact Hz].
Qed.

Lemma init_sinv c kids : sinv c kids [] (init c).
Proof.
  assert (T : forall n, ~ tasked (@nil event) n) by (intros n (ts & _ & [[]|[[]|[]]])).
  constructor; cbn; try (intros; tauto); try discriminate; try (intros n H; elim (T n H)).
  all: try (intros n (ts & _ & H); cbn in H; tauto).
  all: try (intros n _ H; simpl in H; lia).
  all: try (intros n n' H; elim (T n H)).
  all: try (intros n n' H; elim (T n (failed_tasked _ _ H))).
  all: constructor.
Qed.

Section Steps.
Context (c : cfg) (kids : node -> list node).
Context (W : cfg_wf c) (G : graph_wf c kids).

Lemma search_sinv e (Eo : env_ok c e) (Kd : forall m, e_kids e m = Some (kids m)) fuel s :
  sinv c kids [] s -> dinv c s -> stopped s = false ->
  match find_ready fuel c e s with
  | NoFuel => True
  | NoneLeft s' => sinv c kids [] s' /\ dinv c s' /\ trace s' = trace s /\ running s' = running s /\ cands s' = [] /\ topsleft s' = [] /\ stopped s' = false
  | Ready s' m exc => exc = false /\ sinv c kids [m] s' /\ dinv c s' /\ nst s' m = Pending /\ In m (seen s') /\ trace s' = trace s /\ running s' = running s
      /\ (forall k, In k (kids m) -> done (nst s' k) = true)
      /\ (forall se, In se (ses_of c (action_targets c m)) -> nst s' se <> Executing)
  end.
Proof.
  intros S D St. pose proof (env_ok_wf c e Eo) as We.
  pose proof (search_dinv c e W We fuel s D) as SD.
  pose proof (find_ready_ind c e We
    (fun z => sinv c kids [] z /\ dinv c z /\ stopped z = false)
    (fun z m exc => exc = false /\ sinv c kids [m] z /\ In m (seen z) /\ (forall k, In k (kids m) -> done (nst z k) = true)
      /\ (forall se, In se (ses_of c (action_targets c m)) -> nst z se <> Executing))) as Ind.
  assert (I : match find_ready fuel c e s with
  | NoFuel => True
  | NoneLeft s' => (sinv c kids [] s' /\ dinv c s' /\ stopped s' = false) /\ (stopped s' = false -> cands s' = [] /\ topsleft s' = [])
  | Ready s' m exc => (exc = false /\ sinv c kids [m] s' /\ In m (seen s') /\ (forall k, In k (kids m) -> done (nst s' k) = true)
      /\ (forall se, In se (ses_of c (action_targets c m)) -> nst s' se <> Executing)) /\ stopped s' = false end).
  { apply Ind; [| | |auto].
    - intros z z' n z'' (A & B & C) Pp Cs.
      assert (dinv c z'') as Dz by (eapply (consider_dinv c e We); eassumption).
      split; [eapply consider_sinv; eassumption|]. split; [exact Dz|].
      assert (stopped z' = false) by (destruct Pp; congruence).
      assert (stopped (visited1 z' n) = false) by (destruct (visited1_rest z' n) as (_ & _ & _ & _ & _ & _ & _ & V & _); congruence).
      remember (Continue z'') as q eqn:Eq.
      destruct Cs as [I1|I1 I2|ch y I1 I2 I3 I4 I5 I6 I7 I8 I9 [J1 J2 J3 J4 J5 J6]|ch y I1 I2 I3 I4 I5 I6 I7 I8 I9 I10 [J1 J2 J3 J4 J5 J6]
        |ch y I1 I2 I3 I4 I5 I6 I7 I8 I9 I10 [J1 J2 J3 J4 J5 J6]|ch I1 I2 I3 I4]; try discriminate; injection Eq as <-; congruence.
    - intros z fl z' (_ & _ & C) C'. congruence.
    - intros z z' n z'' m exc (A & B & C) Pp Cs.
      destruct (return_sinv c kids e W G Kd _ _ _ _ _ _ A B Pp Cs) as (-> & -> & Q1 & Q2 & _ & _ & Q3 & Q4). auto 10. }
  destruct (find_ready fuel c e s) as [|s'|s' m exc]; [exact Logic.I | |].
  - destruct I as [(A & B & C) E]. destruct (E C) as [E1 E2]. destruct SD as [(_ & T & R) _]. auto 10.
  - destruct I as [(A & B & C & E & E') _]. destruct SD as [(D1 & D2 & D3 & D4 & _) _]. auto 12.
Qed.

Lemma untasked_ts X z m t : sinv c kids X z -> nst z m = Pending -> In t (all_targets c m) -> ~ tasked (trace z) t.
Proof. intros S P. apply (untasked_target c kids W X z m t S). rewrite P; simpl; lia. Qed.

Lemma finished_tasked X s : sinv c kids X s -> forall n, finished (trace s) n -> tasked (trace s) n.
Proof. intros S n H. apply (F_dtask _ _ _ _ S), (F_fin _ _ _ _ S); exact H. Qed.

(* a task is handed to execute() *)
Lemma issue_sinv z m y :
  sinv c kids [m] z -> dinv c z -> nst z m = Pending -> In m (seen z) ->
  (forall k, In k (kids m) -> done (nst z k) = true) ->
  let ts := all_targets c m in
  (forall n, nst y n = if mem n ts || mem n (ses_of c ts) then Executing else nst z n) ->
  refc y = refc z -> wpE y = wpE z -> wse y = wse z -> pend y = pend z -> cands y = cands z ->
  topsleft y = topsleft z -> seen y = seen z -> running y = ts :: running z -> trace y = EStart ts :: trace z ->
  sinv c kids [] y.
Proof.
  intros S D P Hm Hk ts Hn E1 E2 E3 E4 E5 E6 E7 E8 E9.
  assert (S0 := S). destruct S0 as [F1 F2 F3 F4 F5 F6 F7 F8 F9 F10 F11 F12 F13 F14 F15 F16 F17 F18 F19 F20 F21 F22 F23 F24 F25].
  assert (Ut : forall t, In t ts -> ~ tasked (trace z) t) by (intros t; apply (untasked_ts [m] z m t S P)).
  assert (Us : forall t, In t (ses_of c ts) -> ~ tasked (trace z) t).
  { intros t; apply (untasked_se c kids W G [m] z m t S). rewrite P; simpl; lia. }
  assert (Keep : forall x, tasked (trace z) x -> nst y x = nst z x).
  { intros x Hx. rewrite Hn. destruct (mem x ts) eqn:M1; [apply mem_In in M1; elim (Ut x M1 Hx)|].
    destruct (mem x (ses_of c ts)) eqn:M2; [apply mem_In in M2; elim (Us x M2 Hx) | reflexivity]. }
  assert (DK : forall x, done (nst z x) = true -> done (nst y x) = true) by (intros x Hx; rewrite Keep; auto).
  assert (Ch : forall x, nst y x = nst z x \/ (nst y x = Executing /\ (In x ts \/ In x (ses_of c ts)))).
  { intros x. rewrite Hn. destruct (mem x ts) eqn:M1; [right; split; [reflexivity | left; apply mem_In; exact M1]|].
    destruct (mem x (ses_of c ts)) eqn:M2; [right; split; [reflexivity | right; apply mem_In; exact M2] | left; reflexivity]. }
  assert (Kts : forall t k, In t ts -> In k (kids t) -> done (nst z k) = true).
  { intros t k Ht Hkk. apply Hk. rewrite <- (gw_share c kids G m t Ht). exact Hkk. }
  assert (Told : forall x, tasked (trace y) x -> tasked (trace z) x \/ In x ts).
  { intros x (q & Hq & Hi). rewrite E9 in Hi. destruct Hi as [[A|A]|[[A|A]|[A|A]]]; try discriminate; try (left; exists q; tauto).
    injection A as <-; right; exact Hq. }
  assert (Tnew : forall x, In x ts -> tasked (trace y) x) by (intros x Hx; exists ts; rewrite E9; simpl; auto).
  assert (Tm : forall x, tasked (trace z) x -> tasked (trace y) x) by (intros x; rewrite E9; apply tasked_cons).
  assert (Fi : forall x, finished (trace y) x -> finished (trace z) x).
  { intros x (q & Hq & Hi). rewrite E9 in Hi. exists q; split; [exact Hq|]. simpl in Hi. intuition discriminate. }
  assert (Fa : forall x, failed (trace y) x -> failed (trace z) x).
  { intros x (q & Hq & Hi). rewrite E9 in Hi. exists q; split; [exact Hq|]. simpl in Hi. intuition discriminate. }
  assert (Tai : forall x, tainted kids (trace y) x <-> tainted kids (trace z) x).
  { intros x; split; [intros (q & A & B); exists q; split; [exact A | apply Fa; exact B] | rewrite E9; apply taint_cons]. }
  assert (Cov : forall x, covered c z x -> covered c y x) by (intros x; apply covered_mono; rewrite E7; auto).
  constructor.
  - intros x Hx; apply DK, F1, Fi; exact Hx.
  - intros x Hx k Hkk. destruct (Told x Hx) as [A|A]; [eapply DK, F2; eassumption | eapply DK, Kts; eassumption].
  - intros x Hx. destruct (Told x Hx) as [A|A]; [rewrite Keep by exact A; apply F3; exact A|].
    rewrite Hn. apply mem_In in A. rewrite A; simpl; lia.
  - intros x Hx. apply Fa in Hx. rewrite Keep by (apply failed_tasked; exact Hx). apply F4; exact Hx.
  - intros x Hx. apply Tai, F5. destruct (Ch x) as [A|[A _]]; congruence.
  - intros x Hx. rewrite E8. destruct (Ch x) as [A|[_ A]]; [|exists ts; split; [left; reflexivity | exact A]].
    rewrite A in Hx. destruct (F6 x Hx) as (q & Q1 & Q2). exists q; split; [right; exact Q1 | exact Q2].
  - intros q Hq t Ht. rewrite E8 in Hq. destruct Hq as [<-|Hq].
    + rewrite Hn. apply mem_In in Ht; rewrite Ht; reflexivity.
    + rewrite Keep; [apply (F7 q Hq t Ht)|]. exists q; split; [exact Ht | left; apply (di_run _ _ D); exact Hq].
  - rewrite E8. split; [|exact F8]. intros q Hq x Q1 Q2. apply (Ut x Q1). exists q; split; [exact Q2 | left; apply (di_run _ _ D); exact Hq].
  - intros x Hx. rewrite E7. destruct (Ch x) as [A|[A _]]; [|congruence]. apply F9; congruence.
  - intros x Hs Hx. destruct (Ch x) as [A|[_ [A|A]]].
    + apply Cov, F10; [exact Hs | congruence].
    + exists m; rewrite E7; split; [rewrite (cw_share c W m x A); apply cw_self; exact W | exact Hm].
    + elim Hs. apply in_flat_map in A. destruct A as (t & _ & A); exists t; exact A.
  - intros k p H. rewrite E2 in H. destruct (F11 k p H) as (A & B & C). rewrite E7. split; [exact A|]. split; [|exact C].
    destruct (Ch k) as [Q|[Q _]]; rewrite Q; [exact B | reflexivity].
  - intros k p H. rewrite E2 in H. rewrite E5, E7, E8. destruct (F12 k p H) as [K|[K|[K|[K|(q & K1 & K2)]]]]; auto.
    + right; right; right; left; apply Tai; exact K.
    + right; right; right; right; exists q; split; [right; exact K1 | exact K2].
  - intros n H1 _ H3 H4. rewrite E7 in H1. rewrite E5, E2, E3, E8. destruct (F13 n H1) as [K|[K|(se & q & K1 & K2 & K3)]]; auto.
    + intros [->|[]]. apply H4, Tnew, cw_self; exact W.
    + intros Q; apply H3, Tai; exact Q.
    + right; right; exists se, q; simpl; auto.
  - intros n k H1 H2 H3. rewrite E7 in H1. rewrite E2. destruct (F14 n k H1 H2 H3) as [K|[K|K]]; auto.
    right; right; apply Tai; exact K.
  - intros n k H1 H2 H3. rewrite E7 in H1. rewrite E5. destruct (F15 n k H1 H2 H3) as [K|K]; auto.
  - intros t H1 H2. rewrite E5, E6. destruct (F16 t H1 H2) as [K|[K|K]]; auto.
  - intros x Hx. destruct (Ch x) as [A|[A _]]; [|rewrite A in Hx; discriminate]. apply Tm, F17; congruence.
  - intros x Hx. rewrite E8. destruct (Told x Hx) as [A|A]; [|right; right; exists ts; split; [left; reflexivity | exact A]].
    destruct (F18 x A) as [Q|[Q|(q & Q1 & Q2)]].
    + left; rewrite E9; apply finished_cons; exact Q.
    + right; left; rewrite E9; apply failed_cons; exact Q.
    + right; right; exists q; simpl; auto.
  - intros x Hx. rewrite E4 in Hx. rewrite E2. apply F19; exact Hx.
  - rewrite E9. split; [|exact F20]. split; [|exact Ut]. intros t k Ht Hkk. apply (di_done _ _ D). eapply Kts; eassumption.
  - intros n n' H1 H2. destruct (Told n H1) as [A|A]; [eapply Tm, F21; eassumption|]. apply Tnew.
    rewrite (cw_share c W m n A) in H2; exact H2.
  - intros k p H. rewrite E2 in H. rewrite E4, E7, E8. destruct (F22 k p H) as [K|[K|[(q & K1 & K2)|K]]]; auto.
    right; right; left; exists q; simpl; auto.
  - intros n H. rewrite E7 in H. destruct (F23 n H) as [K|K]; [left; exact K|]. right.
    destruct (Ch n) as [A|[A _]]; rewrite A; [exact K | simpl; lia].
  - intros n n' H1 H2. apply Fa in H1. rewrite E9. apply failed_cons. eapply F24; eassumption.
  - rewrite E7; exact F25.
Qed.

Lemma stop_mono fuel e s s' b : env_ok c e -> dinv c s -> next_task fuel c e s = Some (s', b) ->
  stopped s' = false -> stopped s = false.
Proof.
  intros Eo D H Hs. destruct (stopped s) eqn:E; [|reflexivity]. exfalso.
  unfold next_task in H. destruct fuel as [|fuel]; [discriminate|]. simpl in H. unfold next_candidate in H. rewrite E in H.
  destruct (cands s); [injection H as <- _; congruence|].
  destruct (will_not_build (S fuel) e false (set_cands s []) (n :: l)) as [z|] eqn:Ew; [|discriminate]. injection H as <- _.
  assert (R0 : refok (set_cands s [])) by exact (di_ref _ _ D).
  destruct (will_not_build_spec _ _ _ _ _ _ (env_ok_wf c e Eo) R0 Ew) as (_ & _ & _ & _ & _ & _ & [_ _ Q _ _ _]). cbn in Q. congruence.
Qed.

Lemma next_sinv fuel e s s' b :
  env_ok c e -> (forall m, e_kids e m = Some (kids m)) -> dinv c s -> (clean s -> sinv c kids [] s) ->
  next_task fuel c e s = Some (s', b) -> clean s' -> sinv c kids [] s'.
Proof.
  intros Eo Kd D S H [C1 C2]. pose proof (env_ok_wf c e Eo) as We.
  pose proof (stop_mono _ _ _ _ _ Eo D H C1) as St.
  assert (Cs : clean s).
  { split; [exact St|]. intros q Hq. destruct (next_events _ _ _ _ _ _ W Eo D H) as [E|(m & ev & l & E & _)]; apply (C2 q); rewrite E; [exact Hq|].
    apply in_or_app; right; right; exact Hq. }
  specialize (S Cs). pose proof (search_sinv e Eo Kd fuel s S D St) as Q. unfold next_task in H.
  destruct (find_ready fuel c e s) as [|z|z m exc]; [discriminate | injection H as <- _; tauto |].
  destruct Q as (-> & Sz & Dz & Pm & Hm & T & R & Kk & _).
  set (ts := all_targets c m) in *.
  set (z1 := make_ready c (e_ready e m) z ts) in *.
  destruct (make_ready_rest c (e_ready e m) z ts) as (M1 & M2 & M3 & M4 & M5 & [M6 M7 M8 M9 M10 M11]). fold z1 in M1, M2, M3, M4, M5, M6, M7, M8, M9, M10, M11.
  assert (Mn := make_ready_nst c (e_ready e m) z ts). fold z1 in Mn.
  assert (R1 : refok z1) by (destruct (di_ref _ _ Dz) as [Da Db]; split; [rewrite M2; exact Da | intros p; rewrite M1, M2; apply Db]).
  assert (Ut : forall t, In t ts -> ~ tasked (trace z) t) by (intros t; apply (untasked_ts [m] z m t Sz Pm)).
  (* the immediate retirements *)
  assert (Ret : forall ev y, retire fuel c e (e_now e) (emit z1 ev) ts = Some y -> clean y ->
     e_ready e m <> ROutOfDate ->
     (e_now e = OOk -> ev = ECurrent ts /\ forall t, In t ts -> nst z1 t = UpToDate) -> (e_now e <> OOk -> ev = EFail ts) ->
     sinv c kids [] y).
  { intros ev y Hy [Q1 Q2] Er Hok Hf.
    assert (Re : refok (emit z1 ev)) by exact R1.
    destruct (retire_trace _ _ _ _ _ _ _ We Re Hy) as (_ & _ & _ & _ & _ & _ & Y7 & _). cbn in Y7.
    assert (No : e_now e <> OFailStop) by (intros X; rewrite X in Y7; congruence).
    apply (retire_sinv c kids e fuel (e_now e) z z1 ev m [m] y); try assumption; auto.
    - intros x [<-|[]]; apply cw_self; exact W.
    - intros Ho; destruct (Hok Ho) as [A B]; split; auto.
    - intros t Ht _. exists m; split; [rewrite (cw_share c W m t Ht); apply cw_self; exact W | exact Hm].
    - intros t Ht; split; [|split].
      + destruct (done (nst z t)) eqn:E; [|reflexivity]. elim (Ut t Ht). apply (F_dtask _ _ _ _ Sz); exact E.
      + intros X; apply (Ut t Ht), failed_tasked; exact X.
      + intros X; apply (Ut t Ht), (finished_tasked [m] z Sz); exact X.
    - intros X. exfalso. destruct (e_now e) eqn:En.
      + destruct (Hok eq_refl) as [A _]; congruence.
      + rewrite Hf in X by discriminate; discriminate.
      + congruence.
    - intros t k Ht Hkk. apply Kk. rewrite <- (gw_share c kids G m t Ht); exact Hkk.
    - intros n Hn. destruct (Mn n) as [[A _]|[(A & _)|(_ & _ & A)]]; [exact A | congruence | contradiction].
    - intros x Hx; right; rewrite M9; exact Hx.
    - intros x Hx; rewrite <- M9; exact Hx.
    - rewrite M9. apply (F_disj _ _ _ _ Sz).
    - intros q Hq x X1 X2. rewrite M9 in Hq. apply (Ut x X1). exists q; split; [exact X2 | left; apply (di_run _ _ Dz); exact Hq]. }
  cbn [orb] in H.
  destruct (match e_ready e m with RExc => true | _ => false end) eqn:Ex.
  - destruct (e_ready e m) eqn:Er; try discriminate.
    destruct (retire fuel c e (e_now e) _ ts) as [y|] eqn:Hy; [|discriminate]. injection H as <- _.
    assert (Re : refok (emit z1 (match e_now e with OOk => EIgnored ts | _ => EFail ts end))) by exact R1.
    destruct (retire_trace _ _ _ _ _ _ _ We Re Hy) as (Y1 & _). cbn in Y1.
    apply (Ret _ y Hy); [split; assumption | congruence | | ].
    + intros Ho. exfalso. rewrite Ho in Y1. apply (C2 ts). rewrite Y1. left; reflexivity.
    + intros Ho. destruct (e_now e); congruence.
  - destruct (match ts with t :: _ => nstate_eqb (nst z1 t) Executing | [] => false end) eqn:Ee.
    + injection H as <- _.
      assert (Or : e_ready e m = ROutOfDate).
      { destruct (e_ready e m) eqn:Er; [reflexivity | | discriminate]. exfalso.
        destruct ts as [|t tl]; [discriminate|]. apply nstate_eqb_eq in Ee.
        destruct (Mn t) as [[_ B]|[(B & _)|(_ & B & _)]]; [apply B; [discriminate | left; reflexivity] | discriminate | congruence]. }
      eapply (issue_sinv z m); try eassumption; cbn.
      * intros n. fold ts. unfold z1. rewrite Or. destruct (make_ready_out c ts z) as (A & _). apply A.
      * fold ts. rewrite M9; reflexivity.
      * fold ts. rewrite M11; reflexivity.
    + destruct (retire fuel c e (e_now e) _ ts) as [y|] eqn:Hy; [|discriminate]. injection H as <- _.
      assert (Ou : e_ready e m = RUpToDate).
      { destruct (e_ready e m) eqn:Er; [|reflexivity|discriminate]. exfalso.
        destruct ts as [|t tl] eqn:Ets; [pose proof (cw_self c W m) as X; unfold ts in Ets; rewrite Ets in X; exact X|].
        destruct (Mn t) as [[_ B]|[(_ & B & _)|(B & _)]]; [apply B; [discriminate | left; reflexivity] | rewrite B in Ee; discriminate | discriminate]. }
      apply (Ret _ y Hy); [split; assumption | congruence | |].
      * intros Ho. rewrite Ho. split; [reflexivity|]. intros t Ht. destruct (Mn t) as [[_ B]|[(B & _)|(_ & B & _)]]; [|congruence|exact B].
        elim B; [congruence | exact Ht].
      * intros Ho. destruct (e_now e); congruence.
Qed.

Lemma done_sinv fuel e i out s s' :
  env_ok c e -> dinv c s -> (clean s -> sinv c kids [] s) ->
  step fuel c s (Done i out e) = Some s' -> clean s' -> sinv c kids [] s'.
Proof.
  intros Eo D S H [C1 C2]. pose proof (env_ok_wf c e Eo) as We.
  assert (H' := H). cbn in H. destruct (take_nth i (running s)) as [[ts rest]|] eqn:Et.
  2:{ injection H as <-. apply S. split; assumption. }
  set (ev := match out with OOk => EFinish ts | _ => EFail ts end) in *.
  assert (Re : refok (emit (set_running s rest) ev)) by exact (di_ref _ _ D).
  destruct (retire_trace _ _ _ _ _ _ _ We Re H) as (Y1 & _ & _ & _ & _ & _ & Y7 & _). cbn in Y1, Y7.
  assert (No : out <> OFailStop) by (intros X; rewrite X in Y7; congruence).
  assert (Cs : clean s).
  { split; [destruct out; congruence|]. intros q Hq. apply (C2 q). rewrite Y1. apply in_or_app; right; right; exact Hq. }
  specialize (S Cs).
  destruct (take_nth_In _ _ _ _ Et) as [Ht _].
  pose proof (di_run _ _ D ts Ht) as Hst. destruct (di_tgt _ _ D ts (or_introl Hst)) as [m Em].
  destruct (alldisj_take i _ _ _ (F_disj _ _ _ _ S) Et) as (A1 & A2 & A3 & A4).
  assert (Hex : forall t, In t ts -> nst s t = Executing) by (apply (F_run _ _ _ _ S); exact Ht).
  assert (Htk : forall t, In t ts -> tasked (trace s) t) by (intros t Q; exists ts; auto).
  subst ts.
  apply (retire_sinv c kids e fuel out s (set_running s rest) ev m [] s'); try assumption; try reflexivity; auto.
  - intros x [].
  - intros Ho; split; [left; unfold ev; rewrite Ho; reflexivity | intros t Q; left; apply Hex; exact Q].
  - intros Ho; unfold ev; destruct out; congruence.
  - intros t Q Ns. apply (F_cov _ _ _ _ S t Ns). rewrite (Hex t Q); simpl; lia.
  - intros t Q. pose proof (Hex t Q) as E. split; [rewrite E; reflexivity|]. split; intros X.
    + apply (F_fail _ _ _ _ S) in X. congruence.
    + apply (F_fin _ _ _ _ S) in X. rewrite E in X; discriminate.
  - intros X. exfalso. unfold ev in X. destruct out; discriminate.
  - intros t k Q Hkk. apply (F_task _ _ _ _ S t (Htk t Q) k Hkk).
Qed.

Lemma step_sinv fuel o s s' :
  env_ok c (op_env o) -> (forall m, e_kids (op_env o) m = Some (kids m)) ->
  dinv c s -> (clean s -> sinv c kids [] s) -> step fuel c s o = Some s' -> clean s' -> sinv c kids [] s'.
Proof.
  intros Eo Kd D S H C. destruct o as [e|i out e|e].
  - cbn in *. destruct (next_task fuel c e s) as [[z b]|] eqn:E; [|discriminate]. injection H as <-. eapply next_sinv; eassumption.
  - eapply done_sinv; eassumption.
  - cbn in H. injection H as <-. destruct C as [C _]. discriminate.
Qed.

Lemma reachable_sinv ops s : reachable c ops s -> static kids ops -> clean s -> sinv c kids [] s.
Proof.
  intros [Ho [fuel H]] St.
  apply (run_inv (fun s => dinv c s /\ (clean s -> sinv c kids [] s))
    (fun o => env_ok c (op_env o) /\ forall n, e_kids (op_env o) n = Some (kids n)) c) with (ops := ops) (fuel := fuel) (s := init c) (s' := s).
  - intros fl z o z' [A B] [D S] E. split; [eapply step_dinv; eassumption | eapply step_sinv; eassumption].
  - apply Forall_forall. intros o Hi. split; [apply (proj1 (Forall_forall _ _) Ho o Hi) | apply (proj1 (Forall_forall _ _) St o Hi)].
  - split; [apply init_dinv | intros _; apply init_sinv].
  - exact H.
Qed.
End Steps.
