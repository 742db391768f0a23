(* Side effects are exclusive as long as nothing failed.  Proof file. *)
From Coq Require Import List Arith ZArith Bool Lia Permutation.
Import ListNotations.
From Verif Require Import TMModel TMBase TMSpec TMSafe TMSafe2 TMStatic TMStatic2 TMStatic3 TMFinal.

Section Side.
Context (c : cfg) (kids : node -> list node).
Context (W : cfg_wf c) (G : graph_wf c kids) (SA : side_effects_on_action c).

Definition sedisj (r : list (list node)) : Prop := alldisj (map (ses_of c) r).
Definition seexec (s : tm) : Prop := forall ts x, In ts (running s) -> In x (ses_of c ts) -> nst s x = Executing.
Definition inv8 (s : tm) : Prop := noign (trace s) -> sedisj (running s) /\ (stopped s = false -> seexec s).

Lemma take_map i : forall l x r, take_nth i l = Some (x, r) -> take_nth i (map (ses_of c) l) = Some (ses_of c x, map (ses_of c) r).
Proof.
  induction i as [|i IH]; intros [|a l] x r H; simpl in *; try discriminate.
  - injection H as <- <-; reflexivity.
  - destruct (take_nth i l) as [[y r']|] eqn:E; [|discriminate]. injection H as <- <-. rewrite (IH _ _ _ E). reflexivity.
Qed.

Lemma ses_action m x : In x (ses_of c (all_targets c m)) -> In x (ses_of c (action_targets c m)).
Proof.
  intros H. apply in_flat_map in H. destruct H as (t & A & B). apply in_flat_map. exists t; split; [|exact B].
  apply SA; [exact A|]. intros E; rewrite E in B; exact B.
Qed.
Lemma ses_se ts x : In x (ses_of c ts) -> is_side_effect c x.
Proof. intros H; apply in_flat_map in H; destruct H as (t & _ & H); exists t; exact H. Qed.

Lemma search_exec e (Eo : env_ok c e) fuel s x :
  is_side_effect c x -> nst s x = Executing -> stopped s = false ->
  match find_ready fuel c e s with
  | NoFuel => True
  | NoneLeft s' => nst s' x = Executing
  | Ready s' m exc => nst s' x = Executing
  end.
Proof.
  intros Sx Hx St. pose proof (env_ok_wf c e Eo) as We.
  assert (Vx : forall z n, nst z x = Executing -> rank (nst z n) <= 1 -> nst (visited1 z n) x = Executing).
  { intros z n Q R. rewrite visited1_nst by exact R. destruct (x =? n) eqn:E; [apply Nat.eqb_eq in E; subst; rewrite Q in R; simpl in R; lia | exact Q]. }
  pose proof (find_ready_ind c e We (fun z => nst z x = Executing /\ stopped z = false) (fun z m exc => nst z x = Executing)) as Ind.
  assert (I : match find_ready fuel c e s with
    | NoFuel => True
    | NoneLeft s' => (nst s' x = Executing /\ stopped s' = false) /\ (stopped s' = false -> cands s' = [] /\ topsleft s' = [])
    | Ready s' m exc => nst s' x = Executing /\ stopped s' = false end).
  { apply Ind; [| | |auto].
    - intros z z' n z'' [Q S] Pp Cs. assert (Q' : nst z' x = Executing) by (destruct Pp; congruence).
      assert (S' : stopped z' = false) by (destruct Pp; congruence).
      assert (S'' : stopped (visited1 z' n) = false) by (destruct (visited1_rest z' n) as (_ & _ & _ & _ & _ & _ & _ & V & _); congruence).
      remember (Continue z'') as q eqn:Eq.
      destruct Cs as [I1|I1 I2|ch y I1 I2 I3 I4 I5 I6 I7 I8 I9 [J1 J2 J3 J4 J5 J6]|ch y I1 I2 I3 I4 I5 I6 I7 I8 I9 I10 [J1 J2 J3 J4 J5 J6]
        |ch y I1 I2 I3 I4 I5 I6 I7 I8 I9 I10 [J1 J2 J3 J4 J5 J6]|ch I1 I2 I3 I4]; try discriminate; injection Eq as <-.
      + auto.
      + split; [|congruence]. rewrite I4. destruct (mem x (action_targets c n)) eqn:M; [|apply Vx; assumption].
        apply mem_In in M. apply (cw_action c W) in M. rewrite (exec_single c n x W Sx M) in I1. rewrite Q' in I1; simpl in I1; lia.
      + split; [|congruence]. rewrite I5. apply Vx; assumption.
      + split; [|congruence]. rewrite I5. apply Vx; assumption.
    - intros z fl z' [_ C] C'. congruence.
    - intros z z' n z'' m exc [Q S] Pp Cs. assert (Q' : nst z' x = Executing) by (destruct Pp; congruence).
      remember (Return z'' m exc) as q eqn:Eq.
      destruct Cs as [I1|I1 I2|ch y I1 I2 I3 I4 I5 I6 I7 I8 I9 _|ch y I1 I2 I3 I4 I5 I6 I7 I8 I9 I10 _
      |ch y I1 I2 I3 I4 I5 I6 I7 I8 I9 I10 _|ch I1 I2 I3 I4]; try discriminate; injection Eq as <- _ _; apply Vx; assumption. }
  destruct (find_ready fuel c e s); tauto.
Qed.

Lemma next_inv8 fuel e s s' b :
  env_ok c e -> (forall m, e_kids e m = Some (kids m)) -> e_now e <> OFailContinue ->
  dinv c s -> (clean s -> sinv c kids [] s) -> inv8 s -> next_task fuel c e s = Some (s', b) -> inv8 s'.
Proof.
  intros Eo Kd En D Sv I H Ni. pose proof (env_ok_wf c e Eo) as We.
  assert (Ni0 : noign (trace s)).
  { intros q Hq. destruct (next_events _ _ _ _ _ _ W Eo D H) as [E|(m & ev & l & E & _)]; apply (Ni q); rewrite E; [exact Hq|].
    apply in_or_app; right; right; exact Hq. }
  destruct (I Ni0) as [I1 I2].
  destruct (stopped s) eqn:St.
  { (* already stopped: nothing is issued *)
    unfold next_task in H. destruct fuel as [|fuel]; [discriminate|]. simpl in H. unfold next_candidate in H. rewrite St in H.
    destruct (cands s) as [|n l]; [injection H as <- _; split; [exact I1 | congruence]|].
    destruct (will_not_build (S fuel) e false (set_cands s []) (n :: l)) as [z|] eqn:Ew; [|discriminate]. injection H as <- _.
    assert (R0 : refok (set_cands s [])) by exact (di_ref _ _ D).
    destruct (will_not_build_spec _ _ _ _ _ _ We R0 Ew) as (_ & _ & _ & _ & _ & _ & [_ _ Q R _ _]). cbn in Q, R.
    split; [rewrite R; exact I1 | congruence]. }
  specialize (I2 eq_refl). specialize (Sv (conj St Ni0)).
  pose proof (search_sinv c kids W G e Eo Kd fuel s Sv D St) as Q.
  assert (Ex : forall x, is_side_effect c x -> nst s x = Executing -> match find_ready fuel c e s with
    | NoFuel => True | NoneLeft s' => nst s' x = Executing | Ready s' m exc => nst s' x = Executing end)
    by (intros x Hx1 Hx2; apply search_exec; assumption).
  unfold next_task in H.
  destruct (find_ready fuel c e s) as [|z|z m exc]; [discriminate | |].
  { injection H as <- _. destruct Q as (_ & _ & _ & R & _). rewrite R. split; [exact I1|].
    intros _ ts x Ht Hx. rewrite R in Ht. apply Ex; [apply (ses_se ts); exact Hx | apply (I2 ts); assumption]. }
  destruct Q as (-> & Sz & Dz & Pm & Hm & T & R & Kk & Nx).
  set (ts := all_targets c m) in *.
  assert (Old : forall q x, In q (running z) -> In x (ses_of c q) -> nst z x = Executing).
  { intros q x Hq Hx. rewrite R in Hq. apply Ex; [apply (ses_se q); exact Hx | apply (I2 q); assumption]. }
  assert (Fresh : forall q x, In q (running z) -> In x (ses_of c q) -> ~ In x (ses_of c ts)).
  { intros q x Hq Hx Hx'. apply (Nx x); [apply ses_action; exact Hx' | apply (Old q); assumption]. }
  set (z1 := make_ready c (e_ready e m) z ts) in *.
  destruct (make_ready_rest c (e_ready e m) z ts) as (M1 & M2 & M3 & M4 & M5 & [M6 M7 M8 M9 M10 M11]). fold z1 in M1, M2, M3, M4, M5, M6, M7, M8, M9, M10, M11.
  assert (Mn := make_ready_nst c (e_ready e m) z ts). fold z1 in Mn.
  assert (R1 : refok z1) by (destruct (di_ref _ _ Dz) as [Da Db]; split; [rewrite M2; exact Da | intros p; rewrite M1, M2; apply Db]).
  assert (Nts : forall q x, In q (running z) -> In x (ses_of c q) -> ~ In x ts).
  { intros q x Hq Hx Hx'. pose proof (Old q x Hq Hx) as E. rewrite (exec_single c m x W (ses_se q x Hx) Hx') in Pm. congruence. }
  assert (Old1 : forall q x, In q (running z) -> In x (ses_of c q) -> nst z1 x = Executing).
  { intros q x Hq Hx. destruct (Mn x) as [[A _]|[(_ & A & _)|(_ & _ & A)]]; [rewrite A; apply (Old q); assumption | exact A | elim (Nts q x Hq Hx A)]. }
  assert (Ret : forall ev y, retire fuel c e (e_now e) (emit z1 ev) ts = Some y -> sedisj (running y) /\ (stopped y = false -> seexec y)).
  { intros ev y Hy. assert (Re : refok (emit z1 ev)) by exact R1.
    destruct (retire_trace _ _ _ _ _ _ _ We Re Hy) as (_ & Y2 & _ & _ & _ & _ & Y7 & _). cbn in Y2, Y7.
    split; [rewrite Y2, M9, R; exact I1|]. intros Hst q x Hq Hx. rewrite Y2, M9 in Hq.
    assert (Ho : e_now e = OOk) by (destruct (e_now e); congruence). rewrite Ho in Hy.
    pose proof (retire_full fuel c e OOk (emit z1 ev) m y W We Re ltac:(discriminate) Hy) as Rt.
    destruct (rt_out _ _ _ _ _ Rt x (Nts q x Hq Hx)) as [(A & _)|[(A & _)|(A & _)]]; [|elim (Fresh q x Hq Hx A)|congruence].
    rewrite A. apply (Old1 q); assumption. }
  cbn [orb] in H.
  destruct (match e_ready e m with RExc => true | _ => false end) eqn:Er.
  - destruct (retire fuel c e (e_now e) _ ts) as [y|] eqn:Hy; [|discriminate]. injection H as <- _. exact (Ret _ y Hy).
  - destruct (match ts with t :: _ => nstate_eqb (nst z1 t) Executing | [] => false end) eqn:Ee.
    + injection H as <- _. cbn [running set_running emit stopped].
      assert (Or : e_ready e m = ROutOfDate).
      { destruct (e_ready e m) eqn:Er'; [reflexivity | | discriminate]. exfalso.
        destruct ts as [|t tl]; [discriminate|]. apply nstate_eqb_eq in Ee.
        destruct (Mn t) as [[_ B]|[(B & _)|(_ & B & _)]]; [apply B; [discriminate | left; reflexivity] | discriminate | congruence]. }
      rewrite M9. split.
      * split; [|rewrite R; exact I1]. intros y Hy x X1 X2. apply in_map_iff in Hy. destruct Hy as (q & <- & Hq). exact (Fresh q x Hq X2 X1).
      * intros _ q x Hq Hx. cbn [running set_running emit nst] in *. destruct Hq as [<-|Hq]; [|apply (Old1 q); assumption].
        unfold z1. rewrite Or. destruct (make_ready_out c ts z) as (A & _). rewrite A.
        apply mem_In in Hx. rewrite Hx, orb_true_r. reflexivity.
    + destruct (retire fuel c e (e_now e) _ ts) as [y|] eqn:Hy; [|discriminate]. injection H as <- _. exact (Ret _ y Hy).
Qed.

Lemma done_inv8 fuel e i out s s' :
  env_ok c e -> out <> OFailContinue ->
  dinv c s -> (clean s -> sinv c kids [] s) -> inv8 s -> step fuel c s (Done i out e) = Some s' -> inv8 s'.
Proof.
  intros Eo En D Sv I H Ni. pose proof (env_ok_wf c e Eo) as We.
  assert (Ni0 : noign (trace s)).
  { intros q Hq. destruct (done_events _ _ _ _ _ _ _ Eo D H) as (l & E & _). apply (Ni q); rewrite E. apply in_or_app; right; exact Hq. }
  destruct (I Ni0) as [I1 I2]. cbn in H.
  destruct (take_nth i (running s)) as [[ts rest]|] eqn:Et; [|injection H as <-; auto].
  set (ev := match out with OOk => EFinish ts | _ => EFail ts end) in *.
  assert (Re : refok (emit (set_running s rest) ev)) by exact (di_ref _ _ D).
  destruct (retire_trace _ _ _ _ _ _ _ We Re H) as (_ & Y2 & _ & _ & _ & _ & Y7 & _). cbn in Y2, Y7.
  destruct (alldisj_take i _ _ _ I1 (take_map i _ _ _ Et)) as (A1 & A2 & A3 & A4).
  rewrite Y2. split; [exact A1|]. intros Hst q x Hq Hx. rewrite Y2 in Hq.
  assert (Ho : out = OOk) by (destruct out; congruence). subst out.
  assert (St0 : stopped s = false) by congruence. specialize (I2 St0). specialize (Sv (conj St0 Ni0)).
  destruct (take_nth_In _ _ _ _ Et) as [Ht Hr].
  pose proof (di_run _ _ D ts Ht) as Hs. destruct (di_tgt _ _ D ts (or_introl Hs)) as [m ->].
  pose proof (retire_full fuel c e OOk _ m s' W We Re ltac:(discriminate) H) as Rt.
  assert (Nts : ~ In x (all_targets c m)).
  { intros Hx'. assert (Tx : tasked (trace s) x) by (exists (all_targets c m); auto).
    apply in_flat_map in Hx. destruct Hx as (t & Hq1 & Hx).
    pose proof (F_task _ _ _ _ Sv x Tx t (gw_se c kids G x t Hx)) as Dn.
    rewrite (F_run _ _ _ _ Sv q (Hr q Hq) t Hq1) in Dn. discriminate. }
  destruct (rt_out _ _ _ _ _ Rt x Nts) as [(A & _)|[(A & _)|(A & _)]]; [| |congruence].
  - rewrite A. cbn. apply (I2 q); [apply Hr; exact Hq | exact Hx].
  - elim (A2 (ses_of c q) (in_map _ _ _ Hq) x A Hx).
Qed.

Lemma reachable_inv8 ops s : reachable c ops s -> static kids ops -> stops_on_failure ops -> inv8 s.
Proof.
  intros [Ho [fuel H]] St Sf.
  apply (run_inv (fun s => dinv c s /\ (clean s -> sinv c kids [] s) /\ inv8 s)
    (fun o => env_ok c (op_env o) /\ (forall n, e_kids (op_env o) n = Some (kids n))
      /\ match o with Next e => e_now e <> OFailContinue | Done _ out e => out <> OFailContinue | Stop _ => True end) c) with (ops := ops) (fuel := fuel) (s := init c) (s' := s).
  - intros fl z o z' (A & B & C) (D & Sv & I) E. split; [eapply step_dinv; eassumption|]. split; [eapply step_sinv; eassumption|].
    destruct o as [e|i out e|e]; cbn in A, B.
    + cbn in E. destruct (next_task fl c e z) as [[y b]|] eqn:En; [|discriminate]. injection E as <-. eapply next_inv8; eassumption.
    + eapply done_inv8; eassumption.
    + injection E as <-. intros N. destruct (I (fun q Hq => N q (or_intror Hq))) as [I1 _]. split; [exact I1 | discriminate].
  - apply Forall_forall. intros o Hi. split; [apply (proj1 (Forall_forall _ _) Ho o Hi)|].
    split; [apply (proj1 (Forall_forall _ _) St o Hi) | apply (proj1 (Forall_forall _ _) Sf o Hi)].
  - split; [apply init_dinv|]. split; [intros _; apply init_sinv|]. intros _; split; [exact Logic.I | intros _ q x []].
  - exact H.
Qed.

Lemma alldisj_pair l1 a l2 b l3 : alldisj (l1 ++ a :: l2 ++ b :: l3) -> disj a b.
Proof.
  induction l1 as [|x l1 IH]; cbn; intros [H1 H2]; [|apply IH; exact H2].
  apply H1, in_or_app; right; left; reflexivity.
Qed.
Lemma side_exclusive ops s a b x : reachable c ops s -> static kids ops -> stops_on_failure ops -> noign (trace s) ->
  outstanding_pair s a b -> In x (ses_of c a) -> In x (ses_of c b) -> False.
Proof.
  intros R St Sf Ni (l1 & l2 & l3 & E) Ha Hb.
  destruct (reachable_inv8 ops s R St Sf Ni) as [I1 _]. unfold sedisj in I1. rewrite E in I1.
  rewrite map_app in I1. cbn [map] in I1. rewrite map_app in I1. cbn [map] in I1.
  exact (alldisj_pair _ _ _ _ _ I1 x Ha Hb).
Qed.
End Side.
