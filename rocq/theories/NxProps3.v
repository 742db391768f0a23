(* C66: -n and -q compared with a real run; cases *)
From Coq Require Import List Bool Arith Lia.
Import ListNotations.
From Verif Require Import IntModel IntSpec IntProps IntProps2 IntProps4 IntProps5 IntProps6 NxModel NxSpec NxProps NxProps2.

Lemma fresh_within : forall (V : node -> Prop) s, (forall m, mm s m = fresh) -> within V s.
Proof. intros V s Hf n Hn. rewrite Hf in Hn. contradiction. Qed.
(* the first command a real run gives is one that -n lists *)
Theorem C66d_first_command : forall P H U ts s n tr s2, sound P U -> (forall m, mm s m = fresh) -> steps P H ts s (n :: tr) s2 -> involved P (wd s) ts n /\ outdated P H (wd s) n.
Proof.
  intros P H U ts s n tr s2 SO Hf Hs. destruct (first_command P H U SO (wd s) ts s (n :: tr) s2 Hs) as (X & _ & Y); [apply right_start; [exact Hf | reflexivity] | apply fresh_within, Hf | auto].
Qed.
(* a command -n lists is run if its target is needed whatever generated files include, and -n lists nothing that it depends on *)
Theorem C66e_certain : forall P H U ts s n tr s2, sound P U -> (forall m, mm s m = fresh) -> steps P H ts s tr s2 -> succeeded ts s2 ->
  fixed P ts n -> outdated P H (wd s) n -> (forall m, below_ P (wd s) n m -> ~ outdated P H (wd s) m) -> listed P tr n.
Proof.
  intros P H U ts s n tr s2 SO Hf Hs Hok Hn On Bel.
  assert (V : inv2 P H U s2) by (apply (inv2_steps P H U SO ts s tr s2 Hs), inv2_start, Hf).
  assert (D : forall m, fixed P ts m -> done (st (mm s2 m)) = true).
  { intros m Hm. induction Hm as [t Ht|p q Hp IH Hq]; [apply Hok, Ht|]. pose proof (j_done P H U s2 V p IH) as G. destruct Hq as [Hq|[Hq|[Hq|Hq]]].
    - apply (g_kids P H s2 p G). unfold kids. rewrite !in_app_iff. auto.
    - apply (g_kids P H s2 p G). unfold kids. rewrite !in_app_iff. auto.
    - apply (g_pre P H s2 p G), Hq.
    - assert (Hi : In q (task P p)) by (unfold task; destruct (peers P p); [destruct Hq | exact Hq]). destruct (j_late P H U s2 V p q Hi (done_late _ IH)) as [_ ->]. exact IH. }
  assert (HD : held P H (wd s) n ([] ++ tr) s2).
  { apply (held_steps P H U SO (wd s) n On Bel ts s tr s2 Hs). constructor; [apply right_start; [exact Hf | reflexivity]|]. right. intros t Ht. rewrite Hf. auto. }
  cbn [app] in HD. destruct (h_a P H (wd s) n tr s2 HD) as [(m & M1 & M2)|X].
  - exists m. split; [exact M1|]. destruct (task_derived P n m M2) as [-> |[Y _]]; auto.
  - destruct (X n (self_task P U SO n)) as (_ & _ & Y). rewrite (D n Hn) in Y. discriminate.
Qed.
Lemma no_commands : forall P H ts s tr s2, steps P H ts s tr s2 -> tr = [] -> psteps P H (flags_of true) ts s [] s2.
Proof.
  intros P H ts s tr s2 Hs. induction Hs as [s|s l s1 l1 s2 H1 H2 IH]; intros E; [constructor|]. apply app_eq_nil in E as [-> ->]. change (@nil node) with (@nil node ++ @nil node).
  apply (psteps_cons P H _ ts s [] s1 [] s2); [|apply IH; reflexivity].
  inversion H1; subst; [apply p_consider | apply p_source | apply p_nosource | apply p_uptodate | apply p_failed]; assumption.
Qed.
(* -q answers whether there is anything to do *)
Theorem C66f_answer : forall P H U ts s r tr s2, sound P U -> (forall m, mm s m = fresh) -> qsteps P H ts s (Some r) -> steps P H ts s tr s2 -> (r = false -> tr = []) /\ (succeeded ts s2 -> tr = [] -> r = false).
Proof.
  intros P H U ts s r tr s2 SO Hf Hq Hs. pose proof (C66c_question P H U ts s r SO Hf Hq) as Q. split.
  - intros ->. destruct tr as [|n tr]; [reflexivity|]. exfalso. assert (X : false = true); [|discriminate]. apply Q. left. exists n. apply (C66d_first_command P H U ts s n tr s2 SO Hf Hs).
  - intros Hok ->. destruct r; [|reflexivity]. exfalso. destruct Q as [Q _]. pose proof (no_commands P H ts s [] s2 Hs eq_refl) as Ps. destruct (Q eq_refl) as [(n & X)|(t & T1 & T2 & T3)].
    + destruct (C66b_lists P H U ts s [] s2 SO Hf Ps Hok) as [L _]. destruct (proj2 (L n) X) as (m & M & _). destruct M.
    + assert (T : told P H (wd s) ts [] s2) by (apply (told_psteps P H U SO (wd s) ts s [] s2 Ps []), told_start; [exact Hf | reflexivity]). apply (t_src P H (wd s) ts [] s2 T t T2 (Hok t T1) T1 T3).
Qed.
(* and -n lists nothing exactly if there is nothing to do *)
Theorem C66g_nothing : forall P H U ts s l s1 tr s2, sound P U -> (forall m, mm s m = fresh) -> psteps P H (flags_of true) ts s l s1 -> succeeded ts s1 -> steps P H ts s tr s2 -> succeeded ts s2 -> (l = [] <-> tr = []).
Proof.
  intros P H U ts s l s1 tr s2 SO Hf Hn Hok1 Hr Hok2. destruct (C66b_lists P H U ts s l s1 SO Hf Hn Hok1) as [L _]. split.
  - intros ->. destruct tr as [|n tr]; [reflexivity|]. exfalso. destruct (proj2 (L n) (C66d_first_command P H U ts s n tr s2 SO Hf Hr)) as (m & M & _). destruct M.
  - intros ->. destruct l as [|n l]; [reflexivity|]. exfalso. assert (X : listed P (n :: l) n) by (exists n; split; [left; reflexivity | auto]). apply L in X.
    destruct (C66b_lists P H U ts s [] s2 SO Hf (no_commands P H ts s [] s2 Hr eq_refl) Hok2) as [L2 _]. destruct (proj2 (L2 n) X) as (m & M & _). destruct M.
Qed.

(* ---- runs of -n by tables ---- *)
Section Tables.
Variables (P : project) (H : option content -> sig) (U : list node).
Hypothesis SO : sound P U.
Lemma e_perform : forall s s2 n, eqs s s2 -> eqs (perform P H (flags_of true) s n) (perform P H (flags_of true) s2 n).
Proof.
  intros s s2 n E. unfold perform, call, stored, flags_of. cbn [execute_actions do_store_info negb]. constructor; intros m; cbn [wd files store mm andb].
  - rewrite (eq_files s s2 E). reflexivity.
  - apply (eq_store s s2 E).
  - rewrite (eq_mm s s2 E), (e_waiting P U SO s s2 E), (eq_files s s2 E). reflexivity.
Qed.
Lemma e_pstep : forall ts s s2 tr s1, eqs s s2 -> pstep P H (flags_of true) ts s tr s1 -> exists s3, pstep P H (flags_of true) ts s2 tr s3 /\ eqs s1 s3.
Proof.
  intros ts s s2 tr s1 E Hs. pose proof (eq_mm s s2 E) as Em. destruct Hs as [n H1 H2|n H1 H2 H3|n H1 H2 H3|n H1 H2 H3|n H1 H2 H3|n H1 H2].
  - eexists. split; [apply p_consider; [apply (e_wanted P U SO s s2 E), H1 | rewrite <- Em; exact H2] | apply (e_consider P U SO s s2 E)].
  - eexists. split; [apply p_source; [rewrite <- (e_ready P U SO s s2 E); exact H1 | exact H2 | rewrite <- (e_missing s s2 E); exact H3] | apply (e_done H s s2 E)].
  - eexists. split; [apply p_nosource; [rewrite <- (e_ready P U SO s s2 E); exact H1 | exact H2 | rewrite <- (e_missing s s2 E); exact H3] | apply (e_failed s s2 E)].
  - eexists. split; [apply p_uptodate; [rewrite <- (e_ready P U SO s s2 E); exact H1 | exact H2 | rewrite <- H3; apply forallb_ext; intros x; symmetry; apply (e_uptodate P H U SO s s2 E)] | apply (e_done H s s2 E)].
  - eexists. split; [apply p_execute; [rewrite <- (e_ready P U SO s s2 E); exact H1 | exact H2 | rewrite <- H3; apply forallb_ext; intros x; symmetry; apply (e_uptodate P H U SO s s2 E)] | apply (e_perform s s2 n E)].
  - eexists. split; [apply p_failed; [rewrite <- Em; exact H1 | rewrite <- (e_waits P U SO s s2 E), <- (e_bad s s2 E); exact H2] | apply (e_failed s s2 E)].
Qed.
Definition pgoes (ts : list node) (t : tab) (tr : list node) (t2 : tab) : Prop := forall s, eqs (state_of t) s -> exists s2, psteps P H (flags_of true) ts s tr s2 /\ eqs (state_of t2) s2.
Lemma pgoes_nil : forall ts t, pgoes ts t [] t.
Proof. intros ts t s E. exists s. split; [constructor | exact E]. Qed.
Lemma pgoes_cons : forall ts t tr1 s1 t1 tr2 t2, pstep P H (flags_of true) ts (state_of t) tr1 s1 -> eqs s1 (state_of t1) -> pgoes ts t1 tr2 t2 -> pgoes ts t (tr1 ++ tr2) t2.
Proof.
  intros ts t tr1 s1 t1 tr2 t2 H1 E1 H2 s E. destruct (e_pstep ts (state_of t) s tr1 s1 E H1) as (s3 & H3 & E3). destruct (H2 s3) as (s4 & H4 & E4).
  - apply (eqs_trans _ s1); [apply eqs_sym, E1 | exact E3].
  - exists s4. split; [apply (psteps_cons P H _ ts s tr1 s3 tr2 s4 H3 H4) | exact E4].
Qed.
End Tables.
Ltac pone P H U SO ts t s1 := norm (table 7 s1) ltac:(fun t1 => eapply (pgoes_cons P H U SO ts t _ s1 t1); [|same|]).
Ltac pcon n := match goal with |- pgoes ?P ?H ?ts ?t _ _ => match goal with SO : sound P ?U |- _ => pone P H U SO ts t (consider P (state_of t) n); [apply p_consider; [want | vm_compute; tauto]|] end end.
Ltac psrc n := match goal with |- pgoes ?P ?H ?ts ?t _ _ => match goal with SO : sound P ?U |- _ => pone P H U SO ts t (set_done H (state_of t) [n]); [apply p_source; vm_compute; reflexivity|] end end.
Ltac pupt n := match goal with |- pgoes ?P ?H ?ts ?t _ _ => match goal with SO : sound P ?U |- _ => pone P H U SO ts t (set_done H (state_of t) (task P n)); [apply p_uptodate; vm_compute; reflexivity|] end end.
Ltac pexe n := match goal with |- pgoes ?P ?H ?ts ?t _ _ => match goal with SO : sound P ?U |- _ => pone P H U SO ts t (perform P H (flags_of true) (state_of t) n); [apply p_execute; vm_compute; reflexivity|] end end.

(* gen.in was changed: -n lists the command for gen.h; the real run then compiles prog, too *)
Definition s_fewer : state := {| wd := {| files := at_ [Some 293; Some 1; Some 2; Some 140; Some 41; Some 50] None; store := at_ [Some ([2; 3; 141; 51], 0); None; None; Some ([41], 3)] None |}; mm := fun _ => fresh |}.
Theorem C66_fewer_refuted : (exists s2, psteps P6 H6 (flags_of true) [0] s_fewer [3] s2 /\ succeeded [0] s2) /\ (exists s2, steps P6 H6 [0] s_fewer [3; 0] s2 /\ succeeded [0] s2).
Proof.
  pose proof sound6 as SO. assert (E : eqs (state_of (table 7 s_fewer)) s_fewer) by same. revert E. norm (table 7 s_fewer) ltac:(fun t => change (table 7 s_fewer) with t). intros E. split.
  - match type of E with eqs (state_of ?t) _ => assert (G : exists tr t2, pgoes P6 H6 [0] t tr t2 /\ tr = [3] /\ succeeded [0] (state_of t2)) end.
    { eexists _, _. split; [pcon 0; pcon 1; pcon 2; pcon 3; pcon 4; pcon 5; psrc 4; psrc 2; psrc 1; psrc 5; pexe 3; pcon 0; pupt 0; apply pgoes_nil|]. split; [reflexivity | okay2]. }
    destruct G as (tr & t2 & G & -> & Hok). destruct (G s_fewer E) as (s2 & G1 & E2). exists s2. split; [exact G1 | apply (e_succeeded _ s2 E2), Hok].
  - match type of E with eqs (state_of ?t) _ => assert (G : exists tr t2, goes P6 H6 [0] t tr t2 /\ tr = [3; 0] /\ succeeded [0] (state_of t2)) end.
    { eexists _, _. split; [con 0; con 1; con 2; con 3; con 4; con 5; src 4; src 2; src 1; src 5; exe 3; con 0; exe 0; apply goes_nil|]. split; [reflexivity | okay2]. }
    destruct G as (tr & t2 & G & -> & Hok). destruct (G s_fewer E) as (s2 & G1 & E2). exists s2. split; [exact G1 | apply (e_succeeded _ s2 E2), Hok].
Qed.
(* gen.h was made alone from another gen.in: -n lists both commands; the real run makes gen.h as prog was compiled with, and stops there *)
Definition s_more : state := {| wd := {| files := at_ [Some 293; Some 1; Some 2; Some 141; Some 40; Some 50] None; store := at_ [Some ([2; 3; 141; 51], 0); None; None; Some ([42], 3)] None |}; mm := fun _ => fresh |}.
Theorem C66_more_refuted : (exists s2, psteps P6 H6 (flags_of true) [0] s_more [3; 0] s2 /\ succeeded [0] s2) /\ (exists s2, steps P6 H6 [0] s_more [3] s2 /\ succeeded [0] s2).
Proof.
  pose proof sound6 as SO. assert (E : eqs (state_of (table 7 s_more)) s_more) by same. revert E. norm (table 7 s_more) ltac:(fun t => change (table 7 s_more) with t). intros E. split.
  - match type of E with eqs (state_of ?t) _ => assert (G : exists tr t2, pgoes P6 H6 [0] t tr t2 /\ tr = [3; 0] /\ succeeded [0] (state_of t2)) end.
    { eexists _, _. split; [pcon 0; pcon 1; pcon 2; pcon 3; pcon 4; pcon 5; psrc 4; psrc 2; psrc 1; psrc 5; pexe 3; pcon 0; pexe 0; apply pgoes_nil|]. split; [reflexivity | okay2]. }
    destruct G as (tr & t2 & G & -> & Hok). destruct (G s_more E) as (s2 & G1 & E2). exists s2. split; [exact G1 | apply (e_succeeded _ s2 E2), Hok].
  - match type of E with eqs (state_of ?t) _ => assert (G : exists tr t2, goes P6 H6 [0] t tr t2 /\ tr = [3] /\ succeeded [0] (state_of t2)) end.
    { eexists _, _. split; [con 0; con 1; con 2; con 3; con 4; con 5; src 4; src 2; src 1; src 5; exe 3; con 0; upt 0; apply goes_nil|]. split; [reflexivity | okay2]. }
    destruct G as (tr & t2 & G & -> & Hok). destruct (G s_more E) as (s2 & G1 & E2). exists s2. split; [exact G1 | apply (e_succeeded _ s2 E2), Hok].
Qed.
(* -q in the same project: 1 *)
Theorem C66_case_question : qsteps P6 H6 [4] s_more (Some false) /\ qsteps P6 H6 [3] s_more (Some true).
Proof.
  split.
  - apply q_consider with (n := 4); [left; left; reflexivity | left; reflexivity|]. apply q_task with (n := 4); [vm_compute; reflexivity | vm_compute; reflexivity|]. apply q_end. okay2.
  - apply q_consider with (n := 3); [left; left; reflexivity | left; reflexivity|]. apply q_consider with (n := 4); [want | left; vm_compute; reflexivity|].
    apply q_task with (n := 4); [vm_compute; reflexivity | vm_compute; reflexivity|]. apply q_stop with (n := 3); vm_compute; reflexivity.
Qed.
(* C66e applies: gen.h has to be made, nothing below it *)
Theorem C66_case_certain : fixed P6 [3] 3 /\ outdated P6 H6 (wd s_fewer) 3 /\ forall m, below_ P6 (wd s_fewer) 3 m -> ~ outdated P6 H6 (wd s_fewer) m.
Proof.
  split; [apply fixed_target; left; reflexivity|]. split; [exists 3; split; [left; reflexivity|]; right; intros X; vm_compute in X; discriminate|].
  assert (B : forall m, below_ P6 (wd s_fewer) 3 m -> m = 4).
  { intros m Hm. induction Hm as [t q Ht Hq|p q Hp IH Hq].
    - destruct Ht as [<- |[]]. vm_compute in Hq. destruct Hq as [[X|[]]|[]]. congruence.
    - subst p. vm_compute in Hq. destruct Hq as [[]|[[]|[]]]. }
  intros m Hm (t & Ht & _). rewrite (B m Hm) in Ht. destruct Ht.
Qed.
Print Assumptions C66a_changes_nothing. Print Assumptions C66b_lists. Print Assumptions C66_flags_off. Print Assumptions C66c_question. Print Assumptions C66d_first_command. Print Assumptions C66e_certain. Print Assumptions C66f_answer.
Print Assumptions C66g_nothing. Print Assumptions C66_fewer_refuted. Print Assumptions C66_more_refuted. Print Assumptions C66_case_question. Print Assumptions C66_case_certain.
