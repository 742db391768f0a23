(* C64: the theorems *)
From Coq Require Import List Bool Arith Lia.
Import ListNotations.
From Verif Require Import CfgModel CfgSpec CfgProps.

Definition one_to_one (H : option content -> sig) : Prop := forall a b, H a = H b -> a = b.
(* running the commands gives one result *)
Theorem C64_fresh_one : forall run d plan b d2 made, fresh run d plan b d2 made -> forall e b' e2 made', (forall own l, plan_ok own l plan -> (forall n, d n = e n) -> fresh run e plan b' e2 made' -> b' = b /\ made' = made /\ forall n, e2 n = d2 n).
Proof.
  intros run d plan b d2 made F. induction F as [d|d s r out d1 d2 b made R W F IH|d s r out d1 R W]; intros e b' e2 made' own l PO E F2; (inversion PO as [|l' s' r' P1 P2 P3 P4 P5]; subst); try (inversion F2; subst; auto; fail).
  - assert (K : map e (kids s e) = map d (kids s d)) by (rewrite (P4 e d (fun n _ => eq_sym (E n))); apply map_ext; intros n; symmetry; apply E).
    inversion F2 as [|x s' r' out' x1 x2 bb ll R' W' F'|x s' r' out' x1 R' W']; subst; rewrite K, R in R'; [|discriminate]. injection R' as <-.
    destruct (IH x1 b' e2 ll own (tgt s :: l) P5) as (-> & -> & Z); [|exact F'|auto]. intros n. destruct W as (W1 & W2), W' as (W1' & W2'). destruct (Nat.eq_dec n (tgt s)) as [->|N]; [congruence|]. rewrite (W2 n N), (W2' n N). apply E.
  - assert (K : map e (kids s e) = map d (kids s d)) by (rewrite (P4 e d (fun n _ => eq_sym (E n))); apply map_ext; intros n; symmetry; apply E).
    inversion F2 as [|x s' r' out' x1 x2 bb ll R' W' F'|x s' r' out' x1 R' W']; subst; rewrite K, R in R'; [discriminate|]. injection R' as <-. split; [reflexivity|]. split; [reflexivity|].
    intros n. destruct W as (W1 & W2), W' as (W1' & W2'). destruct (Nat.eq_dec n (tgt s)) as [->|N]; [congruence|]. rewrite (W2 n N), (W2' n N). symmetry. apply E.
Qed.
(* C64a: a configure test gives what it gives when all its commands are run on the files of the project as they are, with nothing in the configure directory: the same result, and the same files *)
Theorem C64a_result : forall H run own f h st, one_to_one H -> quiet H run own f h st -> forall m rec plan d, m <> CACHE -> plan_ok own [] plan -> current H own rec (files st) -> scratch own st d ->
  exists b d2 made st2 ran, fresh run d plan b d2 made /\ build H run rec m false st plan = ((if b then Done else Failed), st2, ran) /\ (forall n, In n made -> files st2 n = d2 n) /\ (forall n, ~ own n -> files st2 n = files st n) /\ incl ran made.
Proof.
  intros H run own f h st J Q m rec plan d NC PO CU SC. assert (IV := quiet_inv H run own J f h st Q).
  destruct (build_ok H run own J m rec plan [] st d NC PO IV CU) as (b & d2 & made & st2 & ran & Y1 & Y2 & Y3 & Y4 & Y5 & Y6 & Y7 & Y8 & Y9); [intros n [] | intros n [N|[]]; symmetry; apply SC; exact N|].
  exists b, d2, made, st2, ran. split; [exact Y1|]. split; [exact Y2|]. split; [intros n N; apply Y7; auto|]. split; [intros n N; apply Y8; auto | exact Y6].
Qed.
(* C64b: a test that was made before is not made again: no command is run and no file changes while the test is recorded and its files are the same, whatever has happened to the rest *)
Theorem C64b_once : forall H run own f h st, one_to_one H -> quiet H run own f h st -> forall m rec plan o st2 ran, m <> CACHE -> plan_ok own [] plan -> current H own rec (files st) -> build H run rec m false st plan = (o, st2, ran) ->
  forall f3 h3 st3 rec3 dry, quiet H run own f3 h3 st3 -> current H own rec3 (files st3) ->
    (forall s, In s plan -> store st3 (tgt s) = store st2 (tgt s) /\ kids s (files st3) = kids s (files st2) /\ forall n, In n (kids s (files st2)) -> files st3 n = files st2 n) ->
    exists st4, build H run rec3 AUTO dry st3 plan = (o, st4, []) /\ (forall n, files st4 n = files st3 n) /\ (forall n, store st4 n = store st3 n).
Proof.
  intros H run own f h st J Q m rec plan o st2 ran NC PO CU B f3 h3 st3 rec3 dry Q3 CU3 SAME. assert (IV := quiet_inv H run own J f h st Q). assert (IV3 := quiet_inv H run own J f3 h3 st3 Q3).
  destruct (build_ok H run own J m rec plan [] st (files st) NC PO IV CU) as (b & d2 & made & st2' & ran' & Y1 & Y2 & Y3 & Y4 & _); [intros n [] | reflexivity|].
  rewrite B in Y2. injection Y2 as -> <- <-.
  assert (SE : settled H st3 plan b).
  { clear - Y4 SAME. induction Y4 as [|s r e b E1 E2 E3 E4 E5 IH|s r e E1 E2 E3 E4]; [constructor | |].
    - destruct (SAME s (or_introl eq_refl)) as (A1 & A2 & A3). eapply set_ok with (e := e); [rewrite A1; exact E1 | exact E2 | exact E3 | | apply IH; intros x Hx; apply SAME; right; exact Hx].
      rewrite E4, A2. f_equal. apply map_ext_in. intros n Hn. symmetry. apply A3. exact Hn.
    - destruct (SAME s (or_introl eq_refl)) as (A1 & A2 & A3). eapply set_fail with (e := e); [rewrite A1; exact E1 | exact E2 | exact E3 |]. rewrite E4, A2. f_equal. apply map_ext_in. intros n Hn. symmetry. apply A3. exact Hn. }
  apply (settled_build H run own J rec3 dry plan [] st3 b PO IV3 CU3); [intros n [] | exact SE].
Qed.
(* C64c: --config=force runs every command, up to the first that fails *)
Theorem C64c_force : forall H run own f h st, one_to_one H -> quiet H run own f h st -> forall rec plan d, plan_ok own [] plan -> current H own rec (files st) -> scratch own st d ->
  exists b d2 made st2, fresh run d plan b d2 made /\ build H run rec FORCE false st plan = ((if b then Done else Failed), st2, made).
Proof.
  intros H run own f h st J Q rec plan d PO CU SC. assert (IV := quiet_inv H run own J f h st Q).
  destruct (build_ok H run own J FORCE rec plan [] st d ltac:(discriminate) PO IV CU) as (b & d2 & made & st2 & ran & Y1 & Y2 & Y3 & Y4 & Y5 & _); [intros n [] | intros n [N|[]]; symmetry; apply SC; exact N|].
  exists b, d2, made, st2. split; [exact Y1|]. rewrite Y2, (Y5 eq_refl). reflexivity.
Qed.
(* C64d: --config=cache runs no command and gives what is recorded, or an error at the first step that is not; whatever the files are *)
Theorem C64d_cache : forall H run rec dry plan st, exists o st2, recorded st plan o /\ build H run rec CACHE dry st plan = (o, st2, []) /\ store st2 = store st.
Proof.
  intros H run rec dry plan. induction plan as [|s r IH]; intros st; [exists Done, st; repeat split; constructor|]. cbn [build].
  set (st1 := prepare H rec CACHE dry st s). assert (S1 : store st1 = store st) by (unfold st1, prepare; destruct (_ || _); reflexivity).
  destruct (store st (tgt s)) as [e|] eqn:E.
  - destruct (efail e) eqn:X.
    + exists Failed, st1. split; [eapply rec_fail; eassumption|]. split; [|exact S1]. unfold exec_step, collect. rewrite E, X. reflexivity.
    + destruct (IH st1) as (o & st2 & R & B & S2). exists o, st2. split; [|split; [|congruence]].
      * eapply rec_ok; [exact E | exact X|]. clear - R S1. induction R; [constructor | eapply rec_ok; try eassumption; congruence | eapply rec_fail; try eassumption; congruence | apply rec_none; congruence].
      * assert (Y : exec_step H run rec CACHE dry st s = (Done, st1, [])) by (unfold exec_step, collect; rewrite E, X; reflexivity). rewrite Y, B. reflexivity.
  - exists CacheErr, st1. split; [apply rec_none; exact E|]. split; [|exact S1]. unfold exec_step, collect. rewrite E. reflexivity.
Qed.
(* C64e: -n runs no command and changes nothing, and gives the right result or an error *)
Theorem C64e_dry : forall H run own f h st, one_to_one H -> quiet H run own f h st -> forall m rec plan d, m <> CACHE -> plan_ok own [] plan -> current H own rec (files st) -> scratch own st d ->
  exists o, build H run rec m true st plan = (o, st, []) /\ (o = DryErr \/ exists b d2 made, fresh run d plan b d2 made /\ o = if b then Done else Failed).
Proof.
  intros H run own f h st J Q m rec plan d NC PO CU SC. assert (IV := quiet_inv H run own J f h st Q).
  assert (AG : forall n, ~ own n \/ In n [] -> files st n = d n) by (intros n [N|[]]; symmetry; apply SC; exact N). assert (IP : in_place st []) by (intros n []). clear SC Q.
  assert (IP0 := IP). revert d PO AG IP.
  assert (G : forall l d, plan_ok own l plan -> (forall n, ~ own n \/ In n l -> files st n = d n) -> in_place st l -> exists o, build H run rec m true st plan = (o, st, []) /\ (o = DryErr \/ exists b d2 made, fresh run d plan b d2 made /\ o = if b then Done else Failed)); [|exact (G [])].
  induction plan as [|s r IH]; intros l d PO AG IP; [exists Done; split; [reflexivity|]; right; exists true, d, []; split; [constructor | reflexivity]|].
  inversion PO as [|l' s' r' P1 P2 P3 P4 P5]; subst l' s' r'. cbn [build]. assert (SG := step_sigs H run own rec st s l IV CU IP P3).
  assert (P : prepare H rec m true st s = st) by (unfold prepare; rewrite orb_true_r; reflexivity).
  destruct (match m with FORCE => true | _ => changed H rec m st s end) eqn:GO.
  - exists DryErr. split; [|left; reflexivity]. unfold exec_step. rewrite P. destruct m; [|destruct (collect H rec FORCE st s) as [[chg err] ca]; rewrite andb_false_r; destruct ca; reflexivity|congruence].
    assert (C : exists err ca, collect H rec AUTO st s = (true, err, ca)).
    { unfold collect. rewrite GO. assert (U : uptodate H rec AUTO st s = false) by (unfold uptodate; rewrite GO; apply andb_false_r). rewrite U. destruct (store st (tgt s)); eauto. }
    destruct C as (err & ca & ->). cbn [negb]. rewrite andb_false_r. reflexivity.
  - destruct m; [|discriminate|congruence]. assert (CH := GO). unfold changed in GO. apply orb_false_iff in GO. destruct GO as (_ & GO). destruct (store st (tgt s)) as [e|] eqn:E; [|discriminate].
    apply orb_false_iff in GO. destruct GO as (G1 & G2). apply negb_false_iff in G1. apply negb_false_iff in G2. apply sigs_eqb_eq in G1. apply Nat.eqb_eq in G2.
    destruct (IV _ _ E) as (_ & cs2 & M & RR). rewrite <- G1, SG in M. apply map_inj in M; [|exact J]. subst cs2. rewrite G2 in RR.
    assert (KD : kids s (files st) = kids s d) by (apply P4; exact AG).
    assert (CD : map (files st) (kids s (files st)) = map d (kids s d)) by (rewrite <- KD; apply map_ext_in; intros n Hn; apply AG; apply (P3 _ _ Hn)). rewrite CD in RR.
    set (d1 := fun n => if n =? tgt s then files st (tgt s) else d n).
    assert (WR : written d (tgt s) (files st (tgt s)) d1) by (split; [unfold d1; rewrite Nat.eqb_refl; reflexivity | intros n N; unfold d1; apply Nat.eqb_neq in N; rewrite N; reflexivity]).
    assert (X : exec_step H run rec AUTO true st s = ((if efail e then Failed else Done), st, [])) by (unfold exec_step, collect; rewrite E, CH, andb_false_r, P; cbn [negb]; rewrite andb_true_r; destruct (efail e); reflexivity).
    rewrite X. destruct (efail e) eqn:F; cbn [negb] in RR.
    + exists Failed. split; [reflexivity|]. right. exists false, d1, [tgt s]. split; [eapply fresh_fail; eassumption | reflexivity].
    + destruct (IH (tgt s :: l) d1 P5) as (o & B & D).
      * intros n N. unfold d1. destruct (n =? tgt s) eqn:Q; [apply Nat.eqb_eq in Q; subst n; reflexivity|]. apply Nat.eqb_neq in Q. apply AG. destruct N as [N|[N|N]]; [auto | congruence | auto].
      * intros n [<-|N]; [eauto | apply IP; exact N].
      * rewrite B. exists o. split; [reflexivity|]. destruct D as [D|(b & d2 & made & D1 & D2)]; [left; exact D|]. right. exists b, d2, (tgt s :: made). split; [eapply fresh_ok; eassumption | exact D2].
Qed.
Lemma build_app : forall H run rec m dry a b st, build H run rec m dry st (a ++ b) = match build H run rec m dry st a with (Done, st, x) => let '(o, st, y) := build H run rec m dry st b in (o, st, x ++ y) | p => p end.
Proof.
  intros H run rec m dry a b. induction a as [|s a IH]; intros st; cbn [build app]; [destruct (build H run rec m dry st b) as [[o st2] y]; reflexivity|].
  destruct (exec_step H run rec m dry st s) as [[[] st1] x]; try reflexivity. rewrite IH. destruct (build H run rec m dry st1 a) as [[[] st2] y]; try reflexivity.
  destruct (build H run rec m dry st2 b) as [[o st3] z]. rewrite app_assoc. reflexivity.
Qed.
Lemma fresh_all : forall run d plan d2 made, fresh run d plan true d2 made -> made = map tgt plan.
Proof. intros run d plan d2 made F. remember true as b eqn:E. induction F as [d|d s r out d1 d2 b made R W F IH|d s r out d1 R W]; [reflexivity | cbn [map]; rewrite (IH E); reflexivity | discriminate]. Qed.
(* C64f: TryRun: the output the program gives when all is made anew *)
Theorem C64f_try_run : forall H run own f h st, one_to_one H -> quiet H run own f h st -> forall m rec link output d, m <> CACHE -> plan_ok own [] (link ++ [output]) -> current H own rec (files st) -> scratch own st d ->
  exists b d2 made st2, fresh run d (link ++ [output]) b d2 made /\ try_run H run rec m false st link output = (if b then (Done, Some (d2 (tgt output)), st2) else (Failed, None, st2)).
Proof.
  intros H run own f h st J Q m rec link output d NC PO CU SC. assert (IV := quiet_inv H run own J f h st Q).
  destruct (build_ok H run own J m rec (link ++ [output]) [] st d NC PO IV CU) as (b & d2 & made & st2 & ran & Y1 & Y2 & Y3 & Y4 & Y5 & Y6 & Y7 & Y8 & Y9); [intros n [] | intros n [N|[]]; symmetry; apply SC; exact N|].
  exists b, d2, made, st2. split; [exact Y1|]. unfold try_run. rewrite build_app in Y2. destruct (build H run rec m false st link) as [[o1 st1] x]. destruct o1.
  - destruct (build H run rec m false st1 [output]) as [[o2 st3] y]. injection Y2 as -> -> _. destruct b; [|reflexivity]. rewrite (Y7 (tgt output)); [reflexivity|]. right. right. rewrite (fresh_all _ _ _ _ _ Y1), map_app. apply in_or_app. right. left. reflexivity.
  - injection Y2 as Y2 -> _. destruct b; [discriminate | reflexivity].
  - injection Y2 as Y2 -> _. destruct b; discriminate.
  - injection Y2 as Y2 -> _. destruct b; discriminate.
Qed.
Print Assumptions C64_fresh_one.
Print Assumptions C64a_result.
Print Assumptions C64b_once.
Print Assumptions C64c_force.
Print Assumptions C64d_cache.
Print Assumptions C64e_dry.
Print Assumptions C64f_try_run.
