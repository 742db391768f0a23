(* C65: sessions *)
From Coq Require Import List Bool Arith Lia.
Import ListNotations.
From Verif Require Import IntModel IntSpec IntProps IntProps2 IntProps3 IntProps4 IntProps5.

Ltac same := constructor; (let m := fresh in intros m; nodes m; vm_compute; reflexivity).
Ltac norm t k := let t1 := eval vm_compute in t in k t1.
Ltac member := repeat first [left; reflexivity | right].
Ltac want := first [left; vm_compute; solve [member] | right; first [exists 0; vm_compute; split; [reflexivity | split; [solve [member] | reflexivity]] | exists 3; vm_compute; split; [reflexivity | split; [solve [member] | reflexivity]] | exists 6; vm_compute; split; [reflexivity | split; [solve [member] | reflexivity]]]].
Ltac one P H U SO ts t s1 := norm (table 7 s1) ltac:(fun t1 => eapply (goes_cons P H U SO ts t _ s1 t1); [|same|]).
Ltac con n := match goal with |- goes ?P ?H ?ts ?t _ _ => match goal with SO : sound P ?U |- _ => one P H U SO ts t (consider P (state_of t) n); [apply step_consider; [want | vm_compute; tauto]|] end end.
Ltac src n := match goal with |- goes ?P ?H ?ts ?t _ _ => match goal with SO : sound P ?U |- _ => one P H U SO ts t (set_done H (state_of t) [n]); [apply step_source; vm_compute; reflexivity|] end end.
Ltac upt n := match goal with |- goes ?P ?H ?ts ?t _ _ => match goal with SO : sound P ?U |- _ => one P H U SO ts t (set_done H (state_of t) (task P n)); [apply step_uptodate; vm_compute; reflexivity|] end end.
Ltac exe n := match goal with |- goes ?P ?H ?ts ?t _ _ => match goal with SO : sound P ?U |- _ => one P H U SO ts t (execute P H (state_of t) n); [apply step_execute; vm_compute; reflexivity|] end end.
Ltac edits := match goal with |- lasts ?P ?H ?t (Edit ?f :: _) _ _ => norm (table 7 (edit f (state_of t))) ltac:(fun t1 => eapply (lasts_edit P H t f t1); [same|]) end.

Ltac okay := left; let t := fresh in let Ht := fresh in intros t Ht; repeat (destruct Ht as [<- |Ht]; [vm_compute; reflexivity|]); destruct Ht.
Ltac walking := repeat first [apply walk_end | apply walk_up | apply walk_cycle; [vm_compute; reflexivity|] | apply walk_down; [vm_compute; reflexivity|]; match goal with |- walk _ _ ((_, ?w) :: _) _ _ => norm w ltac:(fun v => change w with v) end].
Ltac walksing := repeat first [apply walks_nil | eapply walks_cons; [match goal with |- walk _ _ [(_, ?w)] _ _ => norm w ltac:(fun v => change w with v) end; walking|]].
Ltac cleared := match goal with |- eqs (clear ?s ?l) (state_of ?t2) => norm (table 7 (clear s l)) ltac:(fun t => unify t2 t); same end.
Ltac building P H U SO := eapply (lasts_build P H U SO).
Definition disk_of (l : list (option content)) : disk := at_ l None.
Definition t0 : tab := {| tf := [None; Some 1; Some 2; None; Some 40; Some 50; None]; tst := []; tm := [] |}.
Definition run1 : list event := [Build [0]; Edit (disk_of [Some 293; Some 1; Some 2; Some 140; Some 40; Some 51; None]); Build [0]; Build [0]].
Lemma try1 : exists trs t2, lasts P6 H6 t0 run1 trs t2 /\ trs = [[3; 0]; [0]; []].
Proof.
  pose proof sound6 as SO. eexists _, _. split; [building P6 H6 U6 SO|].
  { con 0. con 1. con 2. con 3. con 4. con 5. src 4. exe 3. src 1. src 2. src 5. con 0. exe 0. apply goes_nil. }
  { okay. } { walksing. } { cleared. }
  edits. building P6 H6 U6 SO.
  { con 0. con 1. con 2. con 3. con 4. con 5. src 4. upt 3. src 1. src 2. src 5. exe 0. apply goes_nil. }
  { okay. } { walksing. } { cleared. }
  building P6 H6 U6 SO.
  { con 0. con 1. con 2. con 3. con 4. con 5. src 4. upt 3. src 1. src 2. src 5. upt 0. apply goes_nil. }
  { okay. } { walksing. } { cleared. }
  apply lasts_nil. cbn. reflexivity.
Qed.
(* everything that was said above holds of this session: the header b.h is changed, and the second build compiles again; the third does nothing *)
Theorem C65_case : sound P6 U6 /\ steady P6 none /\ fits P6 H6 none w6 run1 /\ exists s, session P6 H6 (start w6) run1 [[3; 0]; [0]; []] s.
Proof.
  split; [exact sound6|]. split; [exact steady6|]. split.
  - apply fits6; [intros n Hn; nodes n; vm_compute in Hn; try discriminate; exact Logic.I|]. intros f n [X|[X|[X|[X|[]]]]] Hn; try discriminate. injection X as <-. nodes n; vm_compute in Hn; try discriminate; vm_compute; auto.
  - destruct try1 as (trs & t2 & L & ->). destruct (L (start w6)) as (s & S1 & _); [constructor; intros m; nodes m; reflexivity | exists s; exact S1].
Qed.

(* ---- what is not cleared ---- *)
Section Agree.
Variables (P : project) (H : option content -> sig) (U : list node) (SO : sound P U) (s s2 : state) (E : eqs s s2).
Lemma children_eqs : forall n, children P (wd s) n = children P (wd s2) n.
Proof. intros n. unfold children. do 2 f_equal. destruct (derived P n); [|reflexivity]. apply (s_ext P U SO). intros x _. unfold includes. rewrite (eq_files s s2 E). reflexivity. Qed.
Lemma needed_eqs : forall ts n, needed P (wd s) ts n -> needed P (wd s2) ts n.
Proof. intros ts n Hn. induction Hn as [t Ht|p q Hp IH Hq|p q Hp IH Hq]; [apply needed_target, Ht | apply (needed_child P _ ts p q IH); rewrite <- children_eqs; exact Hq | apply (needed_require P _ ts p q IH Hq)]. Qed.
Lemma current_eqs : forall n, current P H (wd s2) n -> current P H (wd s) n.
Proof. intros n Hn. unfold current in *. rewrite children_eqs, (eq_store s s2 E), Hn. do 2 f_equal. apply map_ext. intros k. rewrite (eq_files s s2 E). reflexivity. Qed.
End Agree.
(* a build command of a session leaves something it needs out of date *)
Definition stale (P : project) (H : option content -> sig) (w : world) (es : list event) : Prop :=
  exists trs s ts tr s2 m, session P H (start w) es trs s /\ steps P H ts s tr s2 /\ succeeded ts s2 /\ needed P (wd s2) ts m /\ derived P m = true /\ ~ current P H (wd s2) m.
Lemma stale_by : forall P H U w t es trs t1 ts tr t2 m, sound P U -> eqs (state_of t) (start w) -> lasts P H t es trs t1 -> goes P H ts t1 tr t2 -> succeeded ts (state_of t2) ->
  needed P (wd (state_of t2)) ts m -> derived P m = true -> ~ current P H (wd (state_of t2)) m -> stale P H w es.
Proof.
  intros P H U w t es trs t1 ts tr t2 m SO E L G S1 N D C. destruct (L (start w) E) as (s & L1 & E1). destruct (G s E1) as (s2 & G1 & E2). exists trs, s, ts, tr, s2, m.
  split; [exact L1|]. split; [exact G1|]. split; [apply (e_succeeded (state_of t2) s2 E2), S1|]. split; [apply (needed_eqs P U SO (state_of t2) s2 E2), N|]. split; [exact D|].
  intros X. apply C, (current_eqs P H U SO (state_of t2) s2 E2), X.
Qed.
Ltac okay2 := let t := fresh in let Ht := fresh in intros t Ht; repeat (destruct Ht as [<- |Ht]; [vm_compute; reflexivity|]); destruct Ht.
Ltac steady_ := intros n args ok out Hd Hr t Ht; cbn in Hr; injection Hr as <- <-; split; [|intros _]; intros x Hx; destruct Hx.
Ltac sound_ := apply sound_mk; [intros n Hn; nodes n; cbn in *; auto; contradiction | intros n t Ht; nodes n; cbn in Ht; repeat (destruct Ht as [<- |Ht]; [split; reflexivity|]); destruct Ht].
(* 1. Requires: gen.h is only a prerequisite of prog.  It is not a child, and so not cleared: after gen.in has changed it is not made again *)
Definition P_req : project := mk from1 none (fun n => match n with 0 => [3] | _ => [] end) alone join.
Definition w_req : world := {| files := disk_of [None; Some 10; None; None; Some 40]; store := fun _ => None |}.
Definition es_req : list event := [Build [0]; Edit (disk_of [Some 110; Some 10; None; Some 140; Some 41])].
Theorem C65_requires_refuted : sound P_req U6 /\ steady P_req none /\ stale P_req H6 w_req es_req.
Proof.
  assert (SO : sound P_req U6) by sound_. split; [exact SO|]. split; [steady_|].
  eapply (stale_by P_req H6 U6 w_req {| tf := [None; Some 10; None; None; Some 40]; tst := []; tm := [] |} es_req _ _ [0] _ _ 3 SO).
  - same.
  - building P_req H6 U6 SO; [con 0; con 1; con 3; con 4; src 4; exe 3; src 1; con 0; exe 0; apply goes_nil | okay | walksing | cleared|]. edits. apply lasts_nil.
  - con 0. con 1. src 1. upt 0. apply goes_nil.
  - okay2.
  - apply (needed_require P_req _ [0] 0 3); [apply needed_target; left; reflexivity | left; reflexivity].
  - reflexivity.
  - intros X. vm_compute in X. discriminate.
Qed.
(* 2. an action with two targets: build the one, edit the source, build the other: nothing happens *)
Definition P_two : project := mk from1 none none (fun n => match n with 0 => [0; 6] | 6 => [0; 6] | 3 => [3] | _ => [] end) join.
Definition w_two : world := {| files := disk_of [None; Some 10]; store := fun _ => None |}.
Definition es_two : list event := [Build [0]; Edit (disk_of [Some 110; Some 11; None; None; None; None; Some 110])].
Theorem C65_siblings_refuted : sound P_two U6 /\ steady P_two none /\ stale P_two H6 w_two es_two.
Proof.
  assert (SO : sound P_two U6) by sound_. split; [exact SO|]. split; [steady_|].
  eapply (stale_by P_two H6 U6 w_two {| tf := [None; Some 10]; tst := []; tm := [] |} es_two _ _ [6] _ _ 6 SO).
  - same.
  - building P_two H6 U6 SO; [con 0; con 1; src 1; exe 0; apply goes_nil | okay | walksing | cleared|]. edits. apply lasts_nil.
  - apply goes_nil.
  - okay2.
  - apply needed_target. left. reflexivity.
  - reflexivity.
  - intros X. vm_compute in X. discriminate.
Qed.
(* 3. a generated file that no longer includes a.h: a.h was looked at, but is not found by the walk; another target that includes it is then taken for up to date *)
Definition P_drop : project := mk (fun n => match n with 0 => [1] | 6 => [5] | 3 => [4] | _ => [] end) none none alone join.
Definition w_drop : world := {| files := disk_of [None; Some 4; Some 20; Some 3; Some 40; Some 3]; store := fun _ => None |}.
Definition es_drop : list event := [Build [6]; Build [0]; Edit (disk_of [Some 244; Some 4; Some 21; Some 140; Some 40; Some 3; Some 123])].
Theorem C65_dropped_refuted : sound P_drop U6 /\ (forall f ts, covered P_drop none f ts) /\ stale P_drop H6 w_drop es_drop.
Proof.
  assert (SO : sound P_drop U6) by sound_. split; [exact SO|]. split.
  { intros f ts p q _ [Hq|[Hq Hn]]; [destruct Hq|]. exfalso. nodes p; cbn in Hq; (destruct Hq as [<- |[]] || destruct Hq); apply Hn; reflexivity. }
  eapply (stale_by P_drop H6 U6 w_drop {| tf := [None; Some 4; Some 20; Some 3; Some 40; Some 3]; tst := []; tm := [] |} es_drop _ _ [6] _ _ 6 SO).
  - same.
  - building P_drop H6 U6 SO; [con 6; con 5; con 2; src 5; src 2; exe 6; apply goes_nil | okay | walksing | cleared|].
    building P_drop H6 U6 SO; [con 0; con 1; con 2; con 3; con 4; src 4; src 2; src 1; exe 3; con 0; exe 0; apply goes_nil | okay | walksing | cleared|].
    edits. apply lasts_nil.
  - con 6. con 5. src 5. upt 6. apply goes_nil.
  - okay2.
  - apply needed_target. left. reflexivity.
  - reflexivity.
  - intros X. vm_compute in X. discriminate.
Qed.
Print Assumptions C65_case. Print Assumptions C65_requires_refuted. Print Assumptions C65_siblings_refuted. Print Assumptions C65_dropped_refuted.
