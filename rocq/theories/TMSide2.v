(* Side effects are exclusive with --keep-going too, for side-effect files that no failed task is behind.  Proof file. *)
From Coq Require Import List Arith ZArith Bool Lia Permutation.
Import ListNotations.
From Verif Require Import TMModel TMBase TMSpec TMSafe TMSafe2 TMStatic TMStatic2 TMStatic3 TMFinal TMSide.

Section Side2.
Context (c : cfg) (kids : node -> list node).
Context (W : cfg_wf c) (G : graph_wf c kids) (SA : side_effects_on_action c).

Definition tdisj1 (tr : list event) (a b : list node) : Prop :=
  forall x, In x (ses_of c a) -> In x (ses_of c b) -> tainted kids tr x.
Fixpoint tdisj (tr : list event) (r : list (list node)) : Prop :=
  match r with [] => True | a :: r' => (forall b, In b r' -> tdisj1 tr a b) /\ tdisj tr r' end.
Definition seexec2 (s : tm) : Prop :=
  forall ts x, In ts (running s) -> In x (ses_of c ts) -> nst s x = Executing \/ tainted kids (trace s) x.
Definition inv8k (s : tm) : Prop := noign (trace s) -> tdisj (trace s) (running s) /\ (stopped s = false -> seexec2 s).

Lemma taint_app l tr x : tainted kids tr x -> tainted kids (l ++ tr) x.
Proof. intros H; induction l as [|e l IH]; [exact H | apply taint_cons; exact IH]. Qed.
Lemma tdisj_mono l tr r : tdisj tr r -> tdisj (l ++ tr) r.
Proof.
  induction r as [|a r IH]; [auto|]. intros [A B]. split; [|apply IH; exact B].
  intros b Hb x X1 X2. apply taint_app, (A b Hb x X1 X2).
Qed.
Lemma tdisj_take tr i : forall r a r', take_nth i r = Some (a, r') -> tdisj tr r -> tdisj tr r' /\ forall b, In b r' -> tdisj1 tr a b.
Proof.
  induction i as [|i IH]; intros [|y r] a r' H D; simpl in H; try discriminate.
  - injection H as <- <-. destruct D as [D1 D2]. auto.
  - destruct (take_nth i r) as [[z r'']|] eqn:E; [|discriminate]. injection H as <- <-.
    destruct D as [D1 D2]. destruct (IH _ _ _ E D2) as [A B]. destruct (take_nth_In _ _ _ _ E) as [H1 H2].
    split; [split; [intros b Hb; apply D1, H2, Hb | exact A]|].
    intros b [<-|Hb]; [intros x X1 X2; apply (D1 z H1 x X2 X1) | apply B; exact Hb].
Qed.

Lemma next_inv8k fuel e s s' b :
  env_ok c e -> (forall m, e_kids e m = Some (kids m)) ->
  dinv c s -> (clean s -> sinv c kids [] s) -> (clean s' -> sinv c kids [] s') -> inv8k s -> next_task fuel c e s = Some (s', b) -> inv8k s'.
Proof.
  intros Eo Kd D Sv Sv' I H Ni. pose proof (env_ok_wf c e Eo) as We.
  assert (Tp : exists l, trace s' = l ++ trace s).
  { destruct (next_events _ _ _ _ _ _ W Eo D H) as [E|(m & ev & l & E & _)]; [exists []; exact E|].
    exists (l ++ [ev]). rewrite E, <- app_assoc. reflexivity. }
  destruct Tp as [lt Tp].
  assert (Ni0 : noign (trace s)) by (intros q Hq; apply (Ni q); rewrite Tp; apply in_or_app; right; exact Hq).
  destruct (I Ni0) as [I1 I2]. rewrite Tp.
  destruct (stopped s) eqn:St.
  { unfold next_task in H. destruct fuel as [|fuel]; [discriminate|]. simpl in H. unfold next_candidate in H. rewrite St in H.
    destruct (cands s) as [|n l]; [injection H as <- _; split; [apply tdisj_mono; exact I1 | congruence]|].
    destruct (will_not_build (S fuel) e false (set_cands s []) (n :: l)) as [z|] eqn:Ew; [|discriminate]. injection H as <- _.
    assert (R0 : refok (set_cands s [])) by exact (di_ref _ _ D).
    destruct (will_not_build_spec _ _ _ _ _ _ We R0 Ew) as (_ & _ & _ & _ & _ & _ & [_ _ Q R _ _]). cbn in Q, R.
    split; [rewrite R; apply tdisj_mono; exact I1 | congruence]. }
  specialize (I2 eq_refl). specialize (Sv (conj St Ni0)).
  pose proof (search_sinv c kids W G e Eo Kd fuel s Sv D St) as Q.
  assert (Ex : forall x, is_side_effect c x -> nst s x = Executing -> match find_ready fuel c e s with
    | NoFuel => True | NoneLeft s' => nst s' x = Executing | Ready s' m exc => nst s' x = Executing end)
    by (intros x Hx1 Hx2; apply search_exec; assumption).
  unfold next_task in H.
  destruct (find_ready fuel c e s) as [|z|z m exc]; [discriminate | |].
  { injection H as <- _. destruct Q as (_ & _ & _ & R & _). rewrite R. split; [apply tdisj_mono; exact I1|].
    intros _ ts x Ht Hx. rewrite R in Ht. destruct (I2 ts x Ht Hx) as [A|A].
    - left. apply Ex; [apply (ses_se c ts); exact Hx | exact A].
    - right. rewrite Tp. apply taint_app; exact A. }
  destruct Q as (-> & Sz & Dz & Pm & Hm & T & R & Kk & Nx).
  set (ts := all_targets c m) in *.
  assert (Old : forall q x, In q (running z) -> In x (ses_of c q) -> nst z x = Executing \/ tainted kids (trace s) x).
  { intros q x Hq Hx. rewrite R in Hq. destruct (I2 q x Hq Hx) as [A|A]; [left; apply Ex; [apply (ses_se c q); exact Hx | exact A] | right; exact A]. }
  assert (Fresh : forall q x, In q (running z) -> In x (ses_of c q) -> In x (ses_of c ts) -> tainted kids (trace s) x).
  { intros q x Hq Hx Hx'. destruct (Old q x Hq Hx) as [A|A]; [|exact A]. elim (Nx x); [apply (ses_action c SA); exact Hx' | exact A]. }
  set (z1 := make_ready c (e_ready e m) z ts) in *.
  destruct (make_ready_rest c (e_ready e m) z ts) as (M1 & M2 & M3 & M4 & M5 & [M6 M7 M8 M9 M10 M11]). fold z1 in M1, M2, M3, M4, M5, M6, M7, M8, M9, M10, M11.
  assert (Mn := make_ready_nst c (e_ready e m) z ts). fold z1 in Mn.
  assert (R1 : refok z1) by (destruct (di_ref _ _ Dz) as [Da Db]; split; [rewrite M2; exact Da | intros p; rewrite M1, M2; apply Db]).
  assert (Nts : forall q x, In q (running z) -> In x (ses_of c q) -> nst z x = Executing -> ~ In x ts).
  { intros q x Hq Hx E Hx'. rewrite (exec_single c m x W (ses_se c q x Hx) Hx') in Pm. congruence. }
  assert (Old1 : forall q x, In q (running z) -> In x (ses_of c q) -> (nst z1 x = Executing /\ ~ In x ts) \/ tainted kids (trace s) x).
  { intros q x Hq Hx. destruct (Old q x Hq Hx) as [E|E]; [|right; exact E]. left. split; [|apply (Nts q x Hq Hx E)].
    destruct (Mn x) as [[A _]|[(_ & A & _)|(_ & _ & A)]]; [rewrite A; exact E | exact A | elim (Nts q x Hq Hx E A)]. }
  assert (Ret : forall ev y, retire fuel c e (e_now e) (emit z1 ev) ts = Some y -> y = s' -> tdisj (lt ++ trace s) (running y) /\ (stopped y = false -> seexec2 y)).
  { intros ev y Hy Ey. assert (Re : refok (emit z1 ev)) by exact R1.
    destruct (retire_trace _ _ _ _ _ _ _ We Re Hy) as (_ & Y2 & _ & _ & _ & _ & Y7 & _). cbn in Y2, Y7.
    split; [rewrite Y2, M9, R; apply tdisj_mono; exact I1|]. intros Hst q x Hq Hx. rewrite Y2, M9 in Hq.
    assert (Ho : e_now e <> OFailStop) by (intros Ho; rewrite Ho in Y7; congruence).
    pose proof (retire_full fuel c e (e_now e) (emit z1 ev) m y W We Re Ho Hy) as Rt.
    destruct (Old1 q x Hq Hx) as [[E1 E2]|E]; [|right; rewrite Ey, Tp; apply taint_app; exact E].
    destruct (rt_out _ _ _ _ _ Rt x E2) as [(A & _)|[(A & _)|(_ & _ & A)]].
    - left. rewrite A. exact E1.
    - right. rewrite Ey, Tp. apply taint_app, (Fresh q x Hq Hx A).
    - right. rewrite Ey in *. apply (F_taint _ _ _ _ (Sv' (conj Hst Ni))). exact A. }
  cbn [orb] in H.
  destruct (match e_ready e m with RExc => true | _ => false end) eqn:Er.
  - destruct (retire fuel c e (e_now e) _ ts) as [y|] eqn:Hy; [|discriminate]. injection H as Ey _. rewrite <- Ey. exact (Ret _ y Hy Ey).
  - destruct (match ts with t :: _ => nstate_eqb (nst z1 t) Executing | [] => false end) eqn:Ee.
    + injection H as Ey _. rewrite <- Ey. cbn [running set_running emit stopped].
      assert (Or : e_ready e m = ROutOfDate).
      { destruct (e_ready e m) eqn:Er'; [reflexivity | | discriminate]. exfalso.
        destruct ts as [|t tl]; [discriminate|]. apply nstate_eqb_eq in Ee.
        destruct (Mn t) as [[_ B]|[(B & _)|(_ & B & _)]]; [apply B; [discriminate | left; reflexivity] | discriminate | congruence]. }
      rewrite M9. split.
      * split; [|rewrite R; apply tdisj_mono; exact I1]. intros y Hy x X1 X2. apply taint_app, (Fresh y x Hy X2 X1).
      * intros _ q x Hq Hx. cbn [running set_running emit nst trace] in *. destruct Hq as [<-|Hq].
        -- left. unfold z1. rewrite Or. destruct (make_ready_out c ts z) as (A & _). rewrite A.
           apply mem_In in Hx. rewrite Hx, orb_true_r. reflexivity.
        -- destruct (Old1 q x Hq Hx) as [[E1 _]|E]; [left; exact E1 | right].
           assert (Tz : trace (emit (set_running z1 (ts :: running z1)) (EStart ts)) = lt ++ trace s) by (rewrite Ey; exact Tp).
           cbn [trace emit set_running] in Tz. cbn [trace emit set_running]. rewrite ?M9 in Tz. rewrite ?M9, Tz. apply taint_app; exact E.
    + destruct (retire fuel c e (e_now e) _ ts) as [y|] eqn:Hy; [|discriminate]. injection H as Ey _. rewrite <- Ey. exact (Ret _ y Hy Ey).
Qed.

Lemma done_inv8k fuel e i out s s' :
  env_ok c e ->
  dinv c s -> (clean s -> sinv c kids [] s) -> (clean s' -> sinv c kids [] s') -> inv8k s -> step fuel c s (Done i out e) = Some s' -> inv8k s'.
Proof.
  intros Eo D Sv Sv' I H Ni. pose proof (env_ok_wf c e Eo) as We.
  destruct (done_events _ _ _ _ _ _ _ Eo D H) as (lt & Tp & _).
  assert (Ni0 : noign (trace s)) by (intros q Hq; apply (Ni q); rewrite Tp; apply in_or_app; right; exact Hq).
  destruct (I Ni0) as [I1 I2]. cbn in H. rewrite Tp.
  destruct (take_nth i (running s)) as [[ts rest]|] eqn:Et.
  2:{ injection H as <-. split; [apply tdisj_mono; exact I1 | exact I2]. }
  set (ev := match out with OOk => EFinish ts | _ => EFail ts end) in *.
  assert (Re : refok (emit (set_running s rest) ev)) by exact (di_ref _ _ D).
  destruct (retire_trace _ _ _ _ _ _ _ We Re H) as (_ & Y2 & _ & _ & _ & _ & Y7 & _). cbn in Y2, Y7.
  destruct (tdisj_take _ i _ _ _ Et I1) as (A1 & A2).
  rewrite Y2. split; [apply tdisj_mono; exact A1|]. intros Hst q x Hq Hx. rewrite Y2 in Hq.
  assert (Ho : out <> OFailStop) by (intros Ho; rewrite Ho in Y7; congruence).
  assert (St0 : stopped s = false) by (destruct out; congruence). specialize (I2 St0). specialize (Sv (conj St0 Ni0)).
  destruct (take_nth_In _ _ _ _ Et) as [Ht Hr].
  pose proof (di_run _ _ D ts Ht) as Hs. destruct (di_tgt _ _ D ts (or_introl Hs)) as [m ->].
  pose proof (retire_full fuel c e out _ m s' W We Re Ho H) as Rt.
  assert (Nts : ~ In x (all_targets c m)).
  { intros Hx'. assert (Tx : tasked (trace s) x) by (exists (all_targets c m); auto).
    apply in_flat_map in Hx. destruct Hx as (t & Hq1 & Hx).
    pose proof (F_task _ _ _ _ Sv x Tx t (gw_se c kids G x t Hx)) as Dn.
    rewrite (F_run _ _ _ _ Sv q (Hr q Hq) t Hq1) in Dn. discriminate. }
  destruct (rt_out _ _ _ _ _ Rt x Nts) as [(A & _)|[(A & _)|(_ & _ & A)]].
  - destruct (I2 q x (Hr q Hq) Hx) as [E|E]; [left; rewrite A; exact E | right; rewrite Tp; apply taint_app; exact E].
  - right. rewrite Tp. apply taint_app, (A2 q Hq x A Hx).
  - right. apply (F_taint _ _ _ _ (Sv' (conj Hst Ni))). exact A.
Qed.

Lemma reachable_inv8k ops s : reachable c ops s -> static kids ops -> inv8k s.
Proof.
  intros [Ho [fuel H]] St.
  apply (run_inv (fun s => dinv c s /\ (clean s -> sinv c kids [] s) /\ inv8k s)
    (fun o => env_ok c (op_env o) /\ (forall n, e_kids (op_env o) n = Some (kids n))) c) with (ops := ops) (fuel := fuel) (s := init c) (s' := s).
  - intros fl z o z' (A & B) (D & Sv & I) E.
    assert (Sv' : clean z' -> sinv c kids [] z') by (eapply step_sinv; eassumption).
    split; [eapply step_dinv; eassumption|]. split; [exact Sv'|].
    destruct o as [e|i out e|e]; cbn in A, B.
    + cbn in E. destruct (next_task fl c e z) as [[y b]|] eqn:En; [|discriminate]. injection E as <-. eapply next_inv8k; eassumption.
    + eapply done_inv8k; eassumption.
    + injection E as <-. intros N. destruct (I (fun q Hq => N q (or_intror Hq))) as [I1 _]. split; [exact (tdisj_mono [EStop] _ _ I1) | discriminate].
  - apply Forall_forall. intros o Hi. split; [apply (proj1 (Forall_forall _ _) Ho o Hi) | apply (proj1 (Forall_forall _ _) St o Hi)].
  - split; [apply init_dinv|]. split; [intros _; apply init_sinv|]. intros _; split; [exact Logic.I | intros _ q x []].
  - exact H.
Qed.
Lemma side_exclusive_keep ops s a b x : reachable c ops s -> static kids ops -> noign (trace s) ->
  outstanding_pair s a b -> In x (ses_of c a) -> In x (ses_of c b) -> tainted kids (trace s) x.
Proof.
  intros R St Ni (l1 & l2 & l3 & E) Ha Hb.
  destruct (reachable_inv8k ops s R St Ni) as [I1 _]. rewrite E in I1. clear -I1 Ha Hb.
  induction l1 as [|y l1 IH]; [|apply IH; exact (proj2 I1)].
  destruct I1 as [I1 _]. apply (I1 b); [apply in_or_app; right; left; reflexivity | exact Ha | exact Hb].
Qed.
End Side2.
