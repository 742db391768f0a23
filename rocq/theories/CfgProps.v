(* C64: proofs *)
From Coq Require Import List Bool Arith Lia.
Import ListNotations.
From Verif Require Import CfgModel CfgSpec.

Lemma sigs_eqb_eq : forall a b, sigs_eqb a b = true <-> a = b.
Proof.
  induction a as [|x a IH]; intros [|y b]; cbn [sigs_eqb]; split; intros E; try reflexivity; try discriminate.
  - apply andb_true_iff in E. destruct E as (E1 & E2). apply Nat.eqb_eq in E1. apply IH in E2. congruence.
  - injection E as -> ->. rewrite Nat.eqb_refl. apply IH. reflexivity.
Qed.
Lemma upd_same : forall A (f : node -> A) n a, upd f n a n = a.
Proof. intros. unfold upd. rewrite Nat.eqb_refl. reflexivity. Qed.
Lemma upd_other : forall A (f : node -> A) n a m, m <> n -> upd f n a m = f m.
Proof. intros A f n a m N. unfold upd. apply Nat.eqb_neq in N. rewrite N. reflexivity. Qed.
Lemma map_inj : forall A B (f : A -> B) a b, (forall x y, f x = f y -> x = y) -> map f a = map f b -> a = b.
Proof. intros A B f a. induction a as [|x a IH]; intros [|y b] F E; try reflexivity; try discriminate. cbn in E. injection E as E1 E2. f_equal; [apply F; exact E1 | apply IH; assumption]. Qed.

Section Proofs.
Variable H : option content -> sig.
Variable run : sig -> list (option content) -> bool * option content.
Variable own : node -> Prop.
Hypothesis inj : forall a b, H a = H b -> a = b.
Notation fresh := (fresh run).
Notation plan_ok := (plan_ok own).
Notation current := (current H own).

(* what is recorded is true, and of files of the configure directory only *)
Definition Inv (st : state) : Prop := forall t e, store st t = Some e -> own t /\ exists cs, map H cs = esigs e /\ run (ecmd e) cs = (negb (efail e), files st t).
Definition in_place (st : state) (l : list node) : Prop := forall n, In n l -> exists e, store st n = Some e.

Lemma step_sigs : forall rec st s l, Inv st -> current rec (files st) -> in_place st l -> (forall d n, In n (kids s d) -> ~ own n \/ In n l) -> sigs H rec st s = map H (map (files st) (kids s (files st))).
Proof.
  intros rec st s l IV CU IP KS. unfold sigs. rewrite map_map. apply map_ext_in. intros n Hn. unfold csig. destruct (KS _ _ Hn) as [N|N].
  - destruct (store st n) as [e|] eqn:E; [destruct (IV n e E) as (X & _); contradiction|]. destruct (rec n) as [x|] eqn:R; [apply (CU n x R N) | reflexivity].
  - destruct (IP n N) as (e & ->). reflexivity.
Qed.
(* a step, in any mode but cache and not with -n *)
Lemma exec_ok : forall m rec st s l, m <> CACHE -> Inv st -> current rec (files st) -> in_place st l -> own (tgt s) -> (forall d n, In n (kids s d) -> ~ own n \/ In n l) ->
  exists ok out st2 ran e, run (cmd s) (map (files st) (kids s (files st))) = (ok, out) /\ exec_step H run rec m false st s = ((if ok then Done else Failed), st2, ran) /\ (m = FORCE -> ran = [tgt s]) /\ (ran = [] \/ ran = [tgt s]) /\
    files st2 (tgt s) = out /\ (forall n, n <> tgt s -> files st2 n = files st n) /\ store st2 (tgt s) = Some e /\ esigs e = map H (map (files st) (kids s (files st))) /\ ecmd e = cmd s /\ efail e = negb ok /\ (forall n, n <> tgt s -> store st2 n = store st n).
Proof.
  intros m rec st s l NC IV CU IP OT KS. assert (SG := step_sigs rec st s l IV CU IP KS). set (cs := map (files st) (kids s (files st))) in *.
  destruct (run (cmd s) cs) as [ok out] eqn:R.
  assert (RUN : let st1 := prepare H rec m false st s in
     forall n, n <> tgt s -> files st1 n = files st n /\ store st1 n = store st n).
  { cbn zeta. intros n N. unfold prepare. destruct (_ || _); [auto|]. cbn [files store]. rewrite upd_other by exact N. auto. }
  destruct (match m with FORCE => true | _ => changed H rec m st s end) eqn:GO.
  - (* the command is run *)
    set (e := {| esigs := sigs H rec st s; ecmd := cmd s; efail := negb ok |}). set (st1 := prepare H rec m false st s) in *.
    set (st2 := {| files := upd (files st1) (tgt s) out; store := upd (store st1) (tgt s) (Some e) |}).
    exists ok, out, st2, [tgt s], e. split; [reflexivity|]. split.
    { unfold exec_step. destruct m; [|destruct (collect H rec FORCE st s) as [[chg err] ca]|congruence].
      - assert (C : exists err ca, collect H rec AUTO st s = (true, err, ca)).
        { unfold collect. rewrite GO. assert (U : uptodate H rec AUTO st s = false) by (unfold uptodate; rewrite GO; apply andb_false_r). rewrite U. destruct (store st (tgt s)); eauto. }
        destruct C as (err & ca & ->). cbn [negb]. rewrite andb_false_r. fold cs. rewrite R. reflexivity.
      - rewrite andb_false_r. fold cs. rewrite R. destruct ca; reflexivity. }
    split; [reflexivity|]. split; [right; reflexivity|]. split; [apply upd_same|]. split; [intros n N; cbn [st2 files]; rewrite upd_other by exact N; apply RUN; exact N|]. split; [apply upd_same|].
    split; [exact SG|]. split; [reflexivity|]. split; [reflexivity|]. intros n N. cbn [st2 store]. rewrite upd_other by exact N. apply RUN. exact N.
  - (* it is not *)
    destruct m; [|discriminate|congruence]. unfold changed in GO. apply orb_false_iff in GO. destruct GO as (_ & GO). destruct (store st (tgt s)) as [e|] eqn:E; [|discriminate].
    apply orb_false_iff in GO. destruct GO as (G1 & G2). apply negb_false_iff in G1. apply negb_false_iff in G2. apply sigs_eqb_eq in G1. apply Nat.eqb_eq in G2.
    assert (CH : changed H rec AUTO st s = false). { unfold changed. rewrite E. assert (X : sigs_eqb (sigs H rec st s) (esigs e) = true) by (apply sigs_eqb_eq; exact G1). rewrite X, G2, Nat.eqb_refl. reflexivity. }
    destruct (IV _ _ E) as (_ & cs2 & M & RR). rewrite <- G1, SG in M. apply map_inj in M; [|exact inj]. subst cs2. rewrite G2, R in RR. injection RR as EK EO.
    set (st1 := prepare H rec AUTO false st s) in *.
    exists ok, out, st1, [], e. split; [reflexivity|].
    assert (F1 : files st1 (tgt s) = out).
    { unfold st1, prepare. destruct (uptodate H rec AUTO st s) eqn:U; cbn [orb]; [symmetry; exact EO|]. cbn [files]. rewrite upd_same. unfold uptodate in U. rewrite CH, andb_true_r in U. unfold exists_ in U. destruct (files st (tgt s)); [discriminate | symmetry; exact EO]. }
    assert (S1 : store st1 (tgt s) = Some e) by (unfold st1, prepare; destruct (_ || _); exact E).
    split.
    { unfold exec_step, collect. rewrite E, CH, andb_false_r. fold st1. cbn [negb]. rewrite andb_true_r. rewrite EK. destruct (efail e); reflexivity. }
    split; [discriminate|]. split; [left; reflexivity|]. split; [exact F1|]. split; [intros n N; apply RUN; exact N|]. split; [exact S1|]. split; [rewrite <- SG; symmetry; exact G1|]. split; [exact G2|]. split; [rewrite EK, negb_involutive; reflexivity|].
    intros n N. apply RUN. exact N.
Qed.
(* every step is recorded as it is now, up to the first failure *)
Inductive settled (st : state) : list step -> bool -> Prop :=
| set_nil : settled st [] true
| set_ok s r e b : store st (tgt s) = Some e -> efail e = false -> ecmd e = cmd s -> esigs e = map H (map (files st) (kids s (files st))) -> settled st r b -> settled st (s :: r) b
| set_fail s r e : store st (tgt s) = Some e -> efail e = true -> ecmd e = cmd s -> esigs e = map H (map (files st) (kids s (files st))) -> settled st (s :: r) false.

Lemma build_ok : forall m rec plan l st d, m <> CACHE -> plan_ok l plan -> Inv st -> current rec (files st) -> in_place st l -> (forall n, ~ own n \/ In n l -> files st n = d n) ->
  exists b d2 made st2 ran, fresh d plan b d2 made /\ build H run rec m false st plan = ((if b then Done else Failed), st2, ran) /\ Inv st2 /\ settled st2 plan b /\ (m = FORCE -> ran = made) /\ incl ran made /\
    (forall n, ~ own n \/ In n l \/ In n made -> files st2 n = d2 n) /\ (forall n, ~ own n \/ In n l -> files st2 n = files st n /\ store st2 n = store st n) /\ (forall n, In n made -> own n).
Proof.
  intros m rec plan. induction plan as [|s r IH]; intros l st d NC PO IV CU IP AG.
  - exists true, d, [], st, []. split; [constructor|]. split; [reflexivity|]. split; [exact IV|]. split; [constructor|]. split; [reflexivity|]. split; [intros x Hx; exact Hx|]. split; [intros n [N|[N|[]]]; apply AG; auto|]. split; [auto | intros n []].
  - inversion PO as [|l' s' r' P1 P2 P3 P4 P5]; subst l' s' r'.
    destruct (exec_ok m rec st s l NC IV CU IP P1 P3) as (ok & out & st1 & ran1 & e & R & X & FO & RA & F1 & F2 & S1 & S2 & S3 & S4 & S5).
    assert (KD : kids s (files st) = kids s d) by (apply P4; exact AG).
    assert (CD : map (files st) (kids s (files st)) = map d (kids s d)) by (rewrite <- KD; apply map_ext_in; intros n Hn; apply AG; apply (P3 _ _ Hn)).
    set (d1 := fun n => if n =? tgt s then out else d n).
    assert (WR : written d (tgt s) out d1) by (split; [unfold d1; rewrite Nat.eqb_refl; reflexivity | intros n N; unfold d1; apply Nat.eqb_neq in N; rewrite N; reflexivity]).
    assert (IV1 : Inv st1).
    { intros t e' E. destruct (Nat.eq_dec t (tgt s)) as [->|N].
      - rewrite S1 in E. injection E as <-. split; [exact P1|]. exists (map (files st) (kids s (files st))). split; [symmetry; exact S2|]. rewrite S3, S4, negb_involutive, F1. exact R.
      - rewrite (S5 t N) in E. destruct (IV t e' E) as (O & cs & C1 & C2). split; [exact O|]. exists cs. split; [exact C1|]. rewrite (F2 t N). exact C2. }
    assert (AGn : forall n, ~ own n \/ In n l -> n <> tgt s) by (intros n [N|N] ->; contradiction).
    rewrite CD in R. cbn [build]. rewrite X. destruct ok.
    + assert (CU1 : current rec (files st1)) by (intros n x RE NO; rewrite (F2 n (AGn n (or_introl NO))); apply CU; assumption).
      assert (IP1 : in_place st1 (tgt s :: l)) by (intros n [<-|N]; [eauto | rewrite (S5 n (AGn n (or_intror N))); apply IP; exact N]).
      destruct (IH (tgt s :: l) st1 d1 NC P5 IV1 CU1 IP1) as (b & d2 & made & st2 & ran & Y1 & Y2 & Y3 & Y4 & Y5 & Y6 & Y7 & Y8 & Y9).
      { intros n N. unfold d1. destruct (n =? tgt s) eqn:Q; [apply Nat.eqb_eq in Q; subst n; exact F1|]. apply Nat.eqb_neq in Q. rewrite (F2 n Q). apply AG. destruct N as [N|[N|N]]; [auto | congruence | auto]. }
      exists b, d2, (tgt s :: made), st2, (ran1 ++ ran). split; [eapply fresh_ok; eassumption|]. split; [rewrite Y2; reflexivity|]. split; [exact Y3|]. split.
      { assert (K2 : kids s (files st2) = kids s (files st)) by (apply P4; intros n N; destruct (Y8 n) as (Z & _); [destruct N as [N|N]; [left; exact N | right; right; exact N]|]; rewrite Z; apply F2, AGn, N).
        eapply set_ok with (e := e); [|exact S4|exact S3| |exact Y4].
        - destruct (Y8 (tgt s)) as (_ & ->); [right; left; reflexivity | exact S1].
        - rewrite S2, K2. f_equal. apply map_ext_in. intros n Hn. apply P3 in Hn. destruct (Y8 n) as (-> & _); [destruct Hn as [N|N]; [left; exact N | right; right; exact N]|]. symmetry. apply F2, AGn, Hn. }
      split; [intros ->; rewrite (FO eq_refl), (Y5 eq_refl); reflexivity|]. split; [apply incl_app; [destruct RA as [-> | ->]; intros z Hz; cbn in *; tauto | apply incl_tl; exact Y6]|].
      split; [intros n N; apply Y7; cbn [In] in *; tauto|]. split; [|intros n [<-|N]; [exact P1 | apply Y9; exact N]].
      intros n N. destruct (Y8 n) as (Z1 & Z2); [destruct N as [N|N]; [left; exact N | right; right; exact N]|]. rewrite Z1, Z2. split; [apply F2, AGn, N | apply S5, AGn, N].
    + exists false, d1, [tgt s], st1, ran1. split; [eapply fresh_fail; eassumption|]. split; [reflexivity|]. split; [exact IV1|]. split.
      { assert (K2 : kids s (files st1) = kids s (files st)) by (apply P4; intros n N; apply F2, AGn, N).
        eapply set_fail with (e := e); [exact S1 | exact S4 | exact S3|]. rewrite S2, K2. f_equal. apply map_ext_in. intros n Hn. apply P3 in Hn. symmetry. apply F2, AGn, Hn. }
      split; [exact FO|]. split; [destruct RA as [-> | ->]; intros z Hz; [destruct Hz | exact Hz]|]. split.
      { intros n N. unfold d1. destruct (n =? tgt s) eqn:Q; [apply Nat.eqb_eq in Q; subst n; exact F1|]. apply Nat.eqb_neq in Q. rewrite (F2 n Q). apply AG. destruct N as [N|[N|[N|[]]]]; [auto | auto | congruence]. }
      split; [|intros n [<-|[]]; exact P1]. intros n N. split; [apply F2, AGn, N | apply S5, AGn, N].
Qed.
(* -n changes nothing *)
Lemma dry_same : forall rec m plan st, exists o, build H run rec m true st plan = (o, st, []).
Proof.
  intros rec m plan. induction plan as [|s r IH]; intros st; [exists Done; reflexivity|]. cbn [build].
  assert (P : prepare H rec m true st s = st) by (unfold prepare; rewrite orb_true_r; reflexivity).
  assert (X : exists o, exec_step H run rec m true st s = (o, st, [])).
  { unfold exec_step. rewrite P. destruct (collect H rec m st s) as [[chg err] ca]. destruct m, ca; eauto; destruct (err && _); eauto; destruct chg; cbn [negb]; eauto. }
  destruct X as (o & ->). destruct o; eauto. destruct (IH st) as (o & ->). eauto.
Qed.
Lemma quiet_inv : forall f h st, quiet H run own f h st -> Inv st.
Proof.
  intros f h st Q. induction Q as [f|f h st f2 Q IH E|f h st l Q IH|f h st m dry rec plan Q IH NC PO CU].
  - intros t e E. discriminate.
  - intros t e E2. cbn in E2. destruct (IH t e E2) as (O & cs & C1 & C2). split; [exact O|]. exists cs. split; [exact C1|]. cbn. rewrite (E t O). exact C2.
  - intros t e E. cbn in E. destruct (existsb (Nat.eqb t) l); [discriminate|]. apply (IH t e E).
  - cbn. destruct dry; [destruct (dry_same rec m plan st) as (o & ->); exact IH|].
    destruct (build_ok m rec plan [] st (files st) NC PO IH CU) as (b & d2 & made & st2 & ran & Y1 & Y2 & Y3 & _); [intros n [] | reflexivity | rewrite Y2; exact Y3].
Qed.
Lemma settled_ext : forall plan l st st1 b, plan_ok l plan -> (forall n, files st1 n = files st n) -> (forall n, store st1 n = store st n) -> settled st plan b -> settled st1 plan b.
Proof.
  intros plan. induction plan as [|s r IH]; intros l st st1 b PO F G SE; [inversion SE; constructor|]. inversion PO as [|l' s' r' P1 P2 P3 P4 P5]; subst l' s' r'.
  assert (K : kids s (files st1) = kids s (files st)) by (apply P4; intros n _; apply F).
  assert (M : map (files st1) (kids s (files st1)) = map (files st) (kids s (files st))) by (rewrite K; apply map_ext; exact F).
  inversion SE as [|s' r' e b' E1 E2 E3 E4 E5|s' r' e E1 E2 E3 E4]; subst.
  - eapply set_ok with (e := e); [rewrite G; exact E1 | exact E2 | exact E3 | rewrite M; exact E4 | eapply IH; eassumption].
  - eapply set_fail with (e := e); [rewrite G; exact E1 | exact E2 | exact E3 | rewrite M; exact E4].
Qed.
Lemma settled_build : forall rec dry plan l st b, plan_ok l plan -> Inv st -> current rec (files st) -> in_place st l -> settled st plan b -> exists st2, build H run rec AUTO dry st plan = ((if b then Done else Failed), st2, []) /\ (forall n, files st2 n = files st n) /\ (forall n, store st2 n = store st n).
Proof.
  intros rec dry plan. induction plan as [|s r IH]; intros l st b PO IV CU IP SE; [inversion SE; exists st; auto|]. cbn [build]. inversion PO as [|l' s' r' P1 P2 P3 P4 P5]; subst l' s' r'.
  assert (SG := step_sigs rec st s l IV CU IP P3).
  assert (COM : forall e, store st (tgt s) = Some e -> ecmd e = cmd s -> esigs e = map H (map (files st) (kids s (files st))) ->
     let st1 := prepare H rec AUTO dry st s in exec_step H run rec AUTO dry st s = ((if efail e then Failed else Done), st1, []) /\ (forall n, files st1 n = files st n) /\ (forall n, store st1 n = store st n)).
  { intros e E C1 C2. assert (CH : changed H rec AUTO st s = false). { unfold changed. rewrite E, C1, Nat.eqb_refl. assert (X : sigs_eqb (sigs H rec st s) (esigs e) = true) by (apply sigs_eqb_eq; rewrite SG; symmetry; exact C2). rewrite X. reflexivity. }
    cbn zeta. split; [unfold exec_step, collect; rewrite E, CH, andb_false_r; cbn [negb]; rewrite andb_true_r; destruct (efail e); reflexivity|].
    unfold prepare. destruct (uptodate H rec AUTO st s || dry) eqn:U; [auto|]. cbn [files store]. split; [|reflexivity]. apply orb_false_iff in U. destruct U as (U & _). unfold uptodate in U. rewrite CH, andb_true_r in U. unfold exists_ in U.
    intros n. unfold upd. destruct (n =? tgt s) eqn:Q; [apply Nat.eqb_eq in Q; subst n; destruct (files st (tgt s)); [discriminate | reflexivity] | reflexivity]. }
  inversion SE as [|s' r' e b' E1 E2 E3 E4 E5|s' r' e E1 E2 E3 E4]; subst.
  - destruct (COM e E1 E3 E4) as (X & F & G). rewrite X, E2. set (st1 := prepare H rec AUTO dry st s) in *.
    assert (IV1 : Inv st1) by (intros t e' E; rewrite G in E; destruct (IV t e' E) as (O & cs & C1 & C2); split; [exact O|]; exists cs; split; [exact C1 | rewrite F; exact C2]).
    assert (CU1 : current rec (files st1)) by (intros n x RE NO; rewrite F; apply CU; assumption).
    assert (IP1 : in_place st1 (tgt s :: l)) by (intros n [<-|N]; [exists e; rewrite G; exact E1 | rewrite G; apply IP; exact N]).
    destruct (IH (tgt s :: l) st1 b P5 IV1 CU1 IP1 (settled_ext _ _ _ _ _ P5 F G E5)) as (st2 & X2 & F2 & G2). rewrite X2. exists st2. split; [reflexivity|]. split; intros n; [rewrite F2; apply F | rewrite G2; apply G].
  - destruct (COM e E1 E3 E4) as (X & F & G). rewrite X, E2. eexists. split; [reflexivity | auto].
Qed.
End Proofs.
