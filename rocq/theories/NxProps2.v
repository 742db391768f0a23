(* C66: the theorems; real runs *)
From Coq Require Import List Bool Arith Lia.
Import ListNotations.
From Verif Require Import IntModel IntSpec IntProps IntProps2 NxModel NxSpec NxProps.

(* -n changes no file and no entry of .sconsign *)
Theorem C66a_changes_nothing : forall P H ts s tr s2, psteps P H (flags_of true) ts s tr s2 -> forall n, files (wd s2) n = files (wd s) n /\ store (wd s2) n = store (wd s) n.
Proof.
  intros P H ts s tr s2 Hs n. induction Hs as [s|s l s1 l1 s2 H1 H2 IH]; [auto|]. destruct IH as [-> ->].
  destruct H1 as [m H1 H3|m H1 H3 H4|m H1 H3 H4|m H1 H3 H4|m H1 H3 H4|m H1 H3]; auto.
  unfold perform, call, stored, flags_of. cbn [execute_actions do_store_info negb wd files store]. split; [destruct (mem n (task P m)); reflexivity | reflexivity].
Qed.
(* it lists exactly the commands of what is missing or not current in the present files, each once *)
Theorem C66b_lists : forall P H U ts s tr s2, sound P U -> (forall m, mm s m = fresh) -> psteps P H (flags_of true) ts s tr s2 -> succeeded ts s2 ->
  (forall n, listed P tr n <-> involved P (wd s) ts n /\ outdated P H (wd s) n) /\ once P tr.
Proof.
  intros P H U ts s tr s2 SO Hf Hs Hok. assert (T : told P H (wd s) ts tr s2) by (apply (told_psteps P H U SO (wd s) ts s tr s2 Hs []), told_start; [exact Hf | reflexivity]).
  split; [apply (lists P H U SO (wd s) ts tr s2 T Hok) | apply (t_once P H (wd s) ts tr s2 T)].
Qed.
(* without -n: the build of C65 *)
Theorem C66_flags_off : forall P H ts s tr s2, psteps P H (flags_of false) ts s tr s2 <-> steps P H ts s tr s2.
Proof.
  assert (E : forall P H s n, perform P H (flags_of false) s n = execute P H s n) by reflexivity.
  intros P H ts s tr s2. split; intros Hs.
  - induction Hs as [s|s l s1 l1 s2 H1 H2 IH]; [constructor|]. apply (steps_cons P H ts s l s1 l1 s2); [|exact IH].
    destruct H1; [apply step_consider | apply step_source | apply step_nosource | apply step_uptodate | rewrite E; apply step_execute | apply step_failed]; assumption.
  - induction Hs as [s|s l s1 l1 s2 H1 H2 IH]; [constructor|]. apply (psteps_cons P H _ ts s l s1 l1 s2); [|exact IH].
    destruct H1; [apply p_consider | apply p_source | apply p_nosource | apply p_uptodate | rewrite <- E; apply p_execute | apply p_failed]; assumption.
Qed.

(* ---- -q ---- *)
Section Question.
Variables (P : project) (H : option content -> sig) (U : list node).
Hypothesis SO : sound P U.
Variables (w : world) (ts : list node).
Definition wrong : Prop := (exists n, involved P w ts n /\ outdated P H w n) \/ (exists t, In t ts /\ derived P t = false /\ files w t = None).
Lemma task_plain_hd : forall n, derived P n = false -> hd n (task P n) = n.
Proof. intros n Hd. rewrite (plain_task P n Hd). reflexivity. Qed.
Lemma made_ready_st : forall s n m, st (mm (made_ready P H s n) m) = if (negb (derived P n) || forallb (uptodate P H s) (task P n)) && mem m (task P n) then UpToDate else st (mm s m).
Proof. intros s n m. unfold made_ready. destruct (negb (derived P n) || forallb (uptodate P H s) (task P n)); [rewrite set_done_st; cbn [andb]; reflexivity | reflexivity]. Qed.
Lemma hd_task : forall n, In (hd n (task P n)) (task P n).
Proof. intros n. unfold task. destruct (peers P n) as [|a l]; left; reflexivity. Qed.
Lemma question_ok : forall s n, told P H w ts [] s -> ready P s n = true -> question P ts (made_ready P H s n) n = false ->
  (derived P n = true -> forallb (uptodate P H s) (task P n) = true) /\ (derived P n = false -> In n ts -> files w n <> None) /\ made_ready P H s n = set_done H s (task P n).
Proof.
  intros s n T Hr Hq. unfold question in Hq. apply orb_false_iff in Hq as [Q1 Q2]. apply negb_false_iff in Q1. rewrite made_ready_st, (mem_in n (task P n)) in Q1 by apply (self_task P U SO). rewrite andb_true_r in Q1.
  destruct (negb (derived P n) || forallb (uptodate P H s) (task P n)) eqn:E; [|rewrite (ready_pending P s n Hr) in Q1; discriminate].
  split; [intros Hd; rewrite Hd in E; exact E|]. split; [|unfold made_ready; rewrite E; reflexivity].
  intros Hd Hi. unfold made_ready in Q2. rewrite E in Q2. unfold top in Q2. rewrite (mem_in n ts Hi), (task_plain_hd n Hd) in Q2. unfold missing in Q2. cbn [set_done wd andb] in Q2.
  rewrite (r_files P H w All s (t_right P H w ts [] s T) n Logic.I) in Q2. destruct (files w n); [discriminate | discriminate Q2].
Qed.
Lemma question_bad : forall s n, told P H w ts [] s -> ready P s n = true -> question P ts (made_ready P H s n) n = true -> wrong.
Proof.
  intros s n T Hr Hq. pose proof (t_right P H w ts [] s T) as R. assert (V : involved P w ts n) by (apply (t_within P H w ts [] s T); rewrite (ready_pending P s n Hr); discriminate).
  unfold question in Hq. rewrite made_ready_st, (mem_in n (task P n)), andb_true_r in Hq by apply (self_task P U SO).
  destruct (negb (derived P n) || forallb (uptodate P H s) (task P n)) eqn:E.
  - cbn [done negb orb] in Hq. apply andb_true_iff in Hq as [Q1 Q2]. unfold top in Q1. apply mem_In in Q1. unfold made_ready in Q2. rewrite E in Q2. unfold missing in Q2. cbn [set_done wd] in Q2.
    rewrite (r_files P H w All s R _ Logic.I) in Q2. destruct (files w (hd n (task P n))) as [c|] eqn:Ef; [discriminate|]. destruct (derived P n) eqn:Hd.
    + cbn [negb orb] in E. exfalso. assert (X : outdated P H w n).
      { exists (hd n (task P n)). split; [|left; exact Ef]. pose proof (hd_task n) as X. unfold task in X |- *. unfold derived in Hd. destruct (peers P n); [discriminate | exact X]. }
      apply (outdated_task P H U SO w s n R Hd) in X. congruence.
    + right. exists n. split; [exact Q1|]. split; [exact Hd|]. rewrite (task_plain_hd n Hd) in Ef. exact Ef.
  - apply orb_false_iff in E as [E1 E2]. apply negb_false_iff in E1. left. exists n. split; [exact V | apply (outdated_task P H U SO w s n R E1), E2].
Qed.
Lemma question_answer : forall s r, qsteps P H ts s r -> told P H w ts [] s -> match r with Some true => wrong | Some false => ~ wrong | None => True end.
Proof.
  intros s r Hq. induction Hq as [s Hok|s|s n r H1 H2 H3 IH|s n r H1 H2 H3 IH|s n H1 H2]; intros T.
  - intros [(n & V & O)|(t & T1 & T2 & T3)].
    + destruct (lists P H U SO w ts [] s T Hok n) as [_ X]. destruct X as (m & X & _); [auto | destruct X].
    + apply (t_src P H w ts [] s T t T2 (Hok t T1) T1 T3).
  - exact Logic.I.
  - apply IH, told_consider with (U := U); assumption.
  - destruct (question_ok s n T H1 H2) as (A & B & C). rewrite C in IH. apply IH. apply (done_n P H U SO w ts [] s n T H1 A B).
  - apply (question_bad s n T H1 H2).
Qed.
End Question.
(* -q: the exit status is 1 exactly if something the targets need is missing or not current, or a target that cannot be built does not exist *)
Theorem C66c_question : forall P H U ts s r, sound P U -> (forall m, mm s m = fresh) -> qsteps P H ts s (Some r) ->
  (r = true <-> (exists n, involved P (wd s) ts n /\ outdated P H (wd s) n) \/ (exists t, In t ts /\ derived P t = false /\ files (wd s) t = None)).
Proof.
  intros P H U ts s r SO Hf Hq. pose proof (question_answer P H U SO (wd s) ts s (Some r) Hq (told_start P H (wd s) ts s Hf eq_refl)) as X. unfold wrong in X.
  destruct r; [split; [intros _; exact X | reflexivity] | split; [discriminate | intros Y; destruct (X Y)]].
Qed.

(* ---- a real run ---- *)
Section Real.
Variables (P : project) (H : option content -> sig) (U : list node).
Hypothesis SO : sound P U.
Variable w : world.
Section First.
Variable ts : list node.
Notation V := (involved P w ts).
Lemma within_all_consider : forall s n, right P H w All s -> within V s -> wanted P ts s n -> within V (consider P s n).
Proof.
  intros s n R W Hw. apply (within_consider P H U SO w All ts V); [intros t Ht; apply inv_target, Ht | intros p q; apply inv_child | intros p q; apply inv_require | intros p q; apply inv_peer | intros p _; apply all_over | exact R | exact W | exact Hw].
Qed.
Lemma within_step : forall s s2 n, within V s -> st (mm s n) = Pending -> (forall m, ~ In m (task P n) -> st (mm s2 m) = st (mm s m)) -> within V s2.
Proof. intros s s2 n W Hn E. apply (within_set P V) with (s := s) (n := n); [intros p q; apply inv_peer | exact W | rewrite Hn; discriminate | exact E]. Qed.
Lemma first_command : forall s tr s2, steps P H ts s tr s2 -> right P H w All s -> within V s -> match tr with [] => True | n :: _ => V n /\ derived P n = true /\ outdated P H w n end.
Proof.
  intros s tr s2 Hs. induction Hs as [s|s l s1 l1 s2 H1 H2 IH]; intros R W; [exact Logic.I|]. destruct H1 as [n H1 H3|n H1 H3 H4|n H1 H3 H4|n H1 H3 H4|n H1 H3 H4|n H1 H3]; cbn [app].
  - apply IH; [apply right_consider with (U := U); assumption | apply within_all_consider; assumption].
  - apply IH; [apply right_done, R|]. apply (within_step s _ n W (ready_pending P s n H1)). intros m Hm. rewrite set_done_st. rewrite (plain_task P n H3) in Hm. rewrite mem_out by exact Hm. reflexivity.
  - apply IH; [apply right_failed, R|]. apply (within_step s _ n W (ready_pending P s n H1)). intros m Hm. rewrite set_failed_st. rewrite (plain_task P n H3) in Hm. rewrite mem_out by exact Hm. reflexivity.
  - apply IH; [apply right_done, R|]. apply (within_step s _ n W (ready_pending P s n H1)). intros m Hm. rewrite set_done_st, mem_out by exact Hm. reflexivity.
  - split; [apply W; rewrite (ready_pending P s n H1); discriminate|]. split; [exact H3 | apply (outdated_task P H U SO w s n R H3), H4].
  - apply IH; [apply right_failed, R|]. apply (within_step s _ n W H1). intros m Hm. rewrite set_failed_st, mem_out by exact Hm. reflexivity.
Qed.
End First.
(* an action with a target to be made, below which everything is current *)
Variable a : node.
Hypothesis Oa : outdated P H w a.
Hypothesis Bel : forall m, below_ P w a m -> ~ outdated P H w m.
Notation D := (below_ P w a).
Lemma da : derived P a = true.
Proof. destruct Oa as (t & Ht & _). unfold derived. destruct (peers P a); [destruct Ht | reflexivity]. Qed.
Lemma ta : task P a = peers P a.
Proof. pose proof da as X. unfold task, derived in *. destruct (peers P a); [discriminate | reflexivity]. Qed.
Lemma D_task : forall n t, D n -> In t (task P n) -> D t.
Proof. intros n t Hn Ht. destruct (task_derived P n t Ht) as [-> |[Hp _]]; [exact Hn | apply (below_next_ P w a n t Hn); auto]. Qed.
Lemma D_over : forall n, D n -> over P w D n.
Proof. intros n Hn x Hx. apply (below_next_ P w a n x Hn). auto. Qed.
Lemma a_over : forall t, In t (task P a) -> over P w D t.
Proof. intros t Ht x Hx. rewrite ta in Ht. apply (below_child_ P w a t x Ht). auto. Qed.
Lemma a_out : forall t, In t (task P a) -> ~ D t.
Proof. intros t Ht Hd. apply (Bel t Hd). rewrite (outdated_same P H U SO w a t Ht). exact Oa. Qed.
Record held (tr : list node) (s : state) : Prop := {
  h_right : right P H w D s;
  h_a : (exists m, In m tr /\ In m (task P a)) \/ forall t, In t (task P a) -> files (wd s) t = files w t /\ store (wd s) t = store w t /\ done (st (mm s t)) = false }.
Lemma D_uptodate : forall s n, right P H w D s -> D n -> derived P n = true -> forallb (uptodate P H s) (task P n) = true.
Proof.
  intros s n R Hn Hd. apply forallb_forall. intros t Ht. pose proof (D_task n t Hn Ht) as Dt. apply (right_uptodate P H U SO w D s t R (D_over t Dt) (r_files P H w D s R t Dt) (r_store P H w D s R t Dt)).
  assert (X : ~ outdated P H w n) by apply (Bel n Hn). assert (Tp : In t (peers P n)) by (unfold task, derived in *; destruct (peers P n); [discriminate | exact Ht]). split.
  - intros Y. apply X. exists t. auto.
  - unfold current. destruct (store w t) as [e|] eqn:Es.
    + destruct (entry_eq e (map (fun k => H (files w k)) (children P w t), cmd P t)) as [-> |Ne]; [reflexivity|]. exfalso. apply X. exists t. split; [exact Tp|]. right. unfold current. rewrite Es. intros Y. injection Y as Y. contradiction.
    + exfalso. apply X. exists t. split; [exact Tp|]. right. unfold current. rewrite Es. discriminate.
Qed.
Lemma held_step : forall ts tr s l s2, held tr s -> step P H ts s l s2 -> held (tr ++ l) s2.
Proof.
  intros ts tr s l s2 Hv Hs. destruct Hv as [R Ha].
  destruct Hs as [n H1 H2|n H1 H2 H3|n H1 H2 H3|n H1 H2 H3|n H1 H2 H3|n H1 H2]; rewrite ?app_nil_r.
  - constructor; [apply right_consider with (U := U); assumption|]. destruct Ha as [Ha|Ha]; [left; exact Ha | right]. intros t Ht. destruct (Ha t Ht) as (F1 & F2 & F3). split; [exact F1|]. split; [exact F2|].
    rewrite consider_st. destruct (Nat.eqb_spec t n) as [-> |Hne]; [|exact F3]. destruct H2 as [E|E]; rewrite E; reflexivity.
  - assert (X : ~ In n (task P a)) by (intros X; destruct (task_same P U SO a n X) as (_ & Y & _); rewrite da in Y; congruence).
    constructor; [apply right_done, R|]. destruct Ha as [Ha|Ha]; [left; exact Ha | right]. intros t Ht. destruct (Ha t Ht) as (F1 & F2 & F3). split; [exact F1|]. split; [exact F2|].
    rewrite set_done_st. rewrite mem_out; [exact F3|]. intros [<- |[]]. contradiction.
  - constructor; [apply right_failed, R|]. destruct Ha as [Ha|Ha]; [left; exact Ha | right]. intros t Ht. destruct (Ha t Ht) as (F1 & F2 & F3). split; [exact F1|]. split; [exact F2|].
    rewrite set_failed_st. destruct (mem t [n]); [reflexivity | exact F3].
  - constructor; [apply right_done, R|]. destruct Ha as [Ha|Ha]; [left; exact Ha | right]. intros t Ht. destruct (Ha t Ht) as (F1 & F2 & F3). split; [exact F1|]. split; [exact F2|].
    rewrite set_done_st. rewrite mem_out; [exact F3|]. intros X. exfalso.
    assert (E : task P n = task P a) by (destruct (task_same P U SO n t X) as (E1 & _); destruct (task_same P U SO a t Ht) as (E2 & _); congruence). rewrite E in H3. rewrite forallb_forall in H3.
    destruct Oa as (y & Y1 & Y2). rewrite <- ta in Y1. specialize (H3 y Y1). destruct (Ha y Y1) as (G1 & G2 & _). apply (right_uptodate P H U SO w D s y R (a_over y Y1) G1 G2) in H3. destruct H3 as [Z1 Z2]. destruct Y2; contradiction.
  - assert (Nd : forall t, In t (task P n) -> ~ D t).
    { intros t Ht Hd. assert (Dn : D n) by (apply (D_task t n Hd), (task_sym P U SO n t Ht)). rewrite (D_uptodate s n R Dn H2) in H3. discriminate. }
    constructor; [apply right_execute; assumption|]. destruct Ha as [(m & M1 & M2)|Ha]; [left; exists m; split; [apply in_app_iff; left; exact M1 | exact M2]|].
    destruct (in_dec Nat.eq_dec n (task P a)) as [Hi|Hi]; [left; exists n; split; [apply in_app_iff; right; left; reflexivity | exact Hi]|]. right. intros t Ht. destruct (Ha t Ht) as (F1 & F2 & F3).
    assert (X : mem t (task P n) = false).
    { apply mem_false. intros X. apply Hi. destruct (task_same P U SO a t Ht) as (E2 & _). rewrite <- E2. apply (task_sym P U SO n t X). }
    unfold execute. destruct (run P (cmd P n) (map (files (wd s)) (kids P s n))) as [ok out]. destruct ok; cbn [wd mm files store set_failed]; rewrite X; auto.
  - constructor; [apply right_failed, R|]. destruct Ha as [Ha|Ha]; [left; exact Ha | right]. intros t Ht. destruct (Ha t Ht) as (F1 & F2 & F3). split; [exact F1|]. split; [exact F2|].
    rewrite set_failed_st. destruct (mem t (task P n)); [reflexivity | exact F3].
Qed.
Lemma held_steps : forall ts s l s2, steps P H ts s l s2 -> forall tr, held tr s -> held (tr ++ l) s2.
Proof. intros ts s l s2 Hs. induction Hs as [s|s l s1 l1 s2 H1 H2 IH]; intros tr T; [rewrite app_nil_r; exact T|]. rewrite app_assoc. apply IH, (held_step ts tr s l s1 T H1). Qed.
End Real.
