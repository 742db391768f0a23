(* C67: a history that meets the hypotheses of the theorems; what happens when they are not met; a mistake *)
From Coq Require Import List Bool Arith Lia.
Import ListNotations.
From Verif Require IntSpec IntProps4.
From Verif Require Import ImcModel ImcSpec ImcProps ImcProps2 ImcProps3.

(* ---- 0 prog.o, made from 1 prog.c; 2 b/a.h; 3 gen.h, made from 4 gen.in; 5 b.h; 6 a/a.h, searched for before b/a.h ---- *)
Definition U7 : list node := [0; 1; 2; 3; 4; 5; 6].
(* contents: 1 includes a.h (as b/a.h) and gen.h, 2 includes b.h, 3 includes gen.h, 7 includes a.h as found along the search path *)
Definition look7 (e : node -> bool) (c : content) : list node :=
  match c with 1 => filter e [2; 3] | 2 => filter e [5] | 3 => filter e [3] | 7 => if e 6 then [6] else filter e [2] | _ => [] end.
Fixpoint total (l : list (option content)) : nat := match l with [] => 0 | Some c :: l => c + total l | None :: l => 1 + total l end.
(* the commands put together what they read; command 99 fails *)
Definition run7 (c : sig) (args : list (option content)) : bool * disk := match c with 99 => (false, fun _ => None) | _ => (true, fun _ => Some (100 + total args)) end.
Definition T7 : tools := {| look := look7; closure := IntProps4.closure_of U7; run := run7 |}.
Definition H7 (c : option content) : sig := match c with Some x => S x | None => 0 end.
Definition from7 (n : node) : list node := match n with 0 => [1] | 3 => [4] | _ => [] end.
Definition alone7 (n : node) : list node := match n with 0 => [0] | 3 => [3] | _ => [] end.
Definition project7 (gen : sig) : project := {| sources := from7; depends := fun _ => []; peers := alone7; cmd := fun n => match n with 3 => gen | _ => n end |}.
Definition P7 : project := project7 3.
Definition P9 : project := project7 99.
Definition disk_of (l : list (option content)) : disk := at_ l None.
Ltac nodes n := destruct n as [|[|[|[|[|[|[|n]]]]]]].
Lemma found_same : forall i l m, IntSpec.found i l m <-> found i l m.
Proof.
  intros i l m. split; intros X; induction X as [x m H1 H2|x m H1 IH H2].
  - apply (found_first i l x m H1 H2).
  - apply (found_next i l x m IH H2).
  - apply (IntSpec.found_first i l x m H1 H2).
  - apply (IntSpec.found_next i l x m IH H2).
Qed.
Lemma sound7 : sound T7 H7 U7.
Proof.
  constructor.
  - intros [a|] [b|] E; cbn in E; try discriminate; [injection E as ->|]; reflexivity.
  - intros e c x Hx. cbn in Hx. unfold U7. destruct c as [|[|[|[|[|[|[|[|c]]]]]]]]; cbn in Hx; try (destruct Hx; fail).
    + destruct (e 2), (e 3); cbn in Hx |- *; intuition.
    + destruct (e 5); cbn in Hx |- *; intuition.
    + destruct (e 3); cbn in Hx |- *; intuition.
    + destruct (e 6), (e 2); cbn in Hx |- *; intuition.
  - intros e1 e2 c E. cbn [look T7]. destruct c as [|[|[|[|[|[|[|[|c]]]]]]]]; cbn; rewrite ?E; reflexivity.
  - intros i l m Hm. apply found_same. apply (IntProps4.rounds_found U7 _ i l m Hm).
  - intros i l m HU Hf. left. apply (IntProps4.closure_all U7 i l m HU), found_same, Hf.
  - intros i j l Hij. apply (IntProps4.closure_ext U7 i j l). intros x [Hx|Hx]; apply Hij; [left; exact Hx | right; apply found_same, Hx].
  - intros c args out n E. cbn [run T7] in E. unfold run7 in E. do 99 (destruct c as [|c]; [discriminate|]). destruct c as [|c]; [injection E as <-; reflexivity | discriminate].
Qed.
Lemma proper7 : forall g, proper (project7 g).
Proof.
  intros g. constructor.
  - intros n Hn. nodes n; cbn in *; auto; contradiction.
  - intros n t Ht. nodes n; cbn in Ht; (destruct Ht as [<- |[]] || destruct Ht); repeat split; reflexivity.
Qed.
Definition src7 (n : node) (_ : sig) : list node := from7 n.
Lemma names7 : forall g, names_sources src7 (project7 g).
Proof. intros g n. reflexivity. Qed.
(* a/a.h is never there, b/a.h and b.h always are *)
Definition find7 : content -> list node := look7 (fun m => negb (m =? 6)).
Lemma search7 : forall g f, f 2 <> None -> f 5 <> None -> f 6 = None -> steady_search T7 find7 (project7 g) f.
Proof.
  intros g f H2 H5 H6 c. cbn [look T7]. assert (E : forall m, In m [2; 3; 5; 6] -> is_there (project7 g) f m = negb (m =? 6)).
  { intros m Hm. cbn in Hm. destruct Hm as [<- |[<- |[<- |[<- |[]]]]]; unfold is_there, derived; cbn; [destruct (f 2) | | destruct (f 5) | rewrite H6]; reflexivity || contradiction. }
  unfold find7. destruct c as [|[|[|[|[|[|[|[|c]]]]]]]]; cbn [look7 filter]; rewrite ?E; try (cbn; tauto); reflexivity.
Qed.

(* ---- runs step by step ---- *)
Ltac same := constructor; (let m := fresh in intros m; nodes m; vm_compute; reflexivity).
Ltac norm t k := let t1 := eval vm_compute in t in k t1.
Ltac member := repeat first [left; reflexivity | right].
Ltac want := first [left; vm_compute; solve [member] | right; first [exists 0; vm_compute; split; [reflexivity | split; [solve [member] | reflexivity]] | exists 3; vm_compute; split; [reflexivity | split; [solve [member] | reflexivity]]]].
Ltac one P mo ts t s1 := norm (table 7 s1) ltac:(fun t1 => eapply (goes_cons T7 H7 U7 sound7 P mo ts t _ s1 t1); [|same|]).
Ltac con n := match goal with |- goes _ _ ?P ?mo ?ts ?t _ _ => one P mo ts t (consider T7 H7 P mo (state_of t) n); [apply step_consider; [want | vm_compute; tauto]|] end.
Ltac src n := match goal with |- goes _ _ ?P ?mo ?ts ?t _ _ => one P mo ts t (set_done H7 P (state_of t) [n]); [apply step_source; vm_compute; reflexivity|] end.
Ltac upt n := match goal with |- goes _ _ ?P ?mo ?ts ?t _ _ => one P mo ts t (set_done H7 P (state_of t) (task P n)); [apply step_uptodate; vm_compute; reflexivity|] end.
Ltac exe n := match goal with |- goes _ _ ?P ?mo ?ts ?t _ _ => one P mo ts t (execute T7 H7 P (state_of t) n); [apply step_execute; vm_compute; reflexivity|] end.
Ltac fai n := match goal with |- goes _ _ ?P ?mo ?ts ?t _ _ => one P mo ts t (set_failed (state_of t) (task P n)); [apply step_failed; vm_compute; reflexivity|] end.
Ltac edits := match goal with |- lasts _ _ _ ?t (Edit ?P1 ?f :: _) _ _ => norm (table 7 (anew f (state_of t))) ltac:(fun t1 => eapply (lasts_edit T7 H7 _ t P1 f t1); [intros n Hn; nodes n; vm_compute in Hn; try discriminate; vm_compute; auto | same|]) end.
Ltac runs := eapply (lasts_run T7 H7).
Ltac ends := match goal with |- eqs (again ?s) (state_of ?t2) => norm (table 7 (again s)) ltac:(fun t => unify t2 t); same end.
Ltac begins := let m := fresh in intros m; nodes m; reflexivity.
Ltac okay := let t := fresh in let Ht := fresh in intros t Ht; repeat (destruct Ht as [<- |Ht]; [vm_compute; reflexivity|]); destruct Ht.

(* a run after a history, from tables *)
Definition table_of (l : list (option content)) : tab := {| tf := l; tst := []; tm := [] |}.
Definition clean (t : tab) : tab := {| tf := tf t; tst := tst t; tm := [] |}.
Lemma lasts_start : forall P l es P2 t2, lasts T7 H7 P (table_of l) es P2 t2 -> exists w, history T7 H7 P (new_disk (disk_of l)) es P2 w /\ eqs (again (state_of t2)) {| wd := w; mm := fun _ => fresh |}.
Proof. intros P l es P2 t2 L. apply L. constructor; intros n; [reflexivity | destruct n; reflexivity | reflexivity]. Qed.
Lemma goes_from : forall P mo ts t tr t2 w, (forall n, mm (state_of t) n = fresh) -> goes T7 H7 P mo ts t tr t2 -> eqs (again (state_of t)) {| wd := w; mm := fun _ => fresh |} ->
  exists s, steps T7 H7 P mo ts {| wd := w; mm := fun _ => fresh |} tr s /\ eqs (state_of t2) s.
Proof. intros P mo ts t tr t2 w Ht G [E1 E2 E3]. apply G. constructor; intros n; [apply E1 | apply E2 | apply Ht]. Qed.

(* ---- b/a.h is edited and now includes b.h: the second run scans again and compiles again; the third scans nothing ---- *)
Definition l7 : list (option content) := [None; Some 1; Some 20; None; Some 40; Some 50].
Definition es7 : list event := [Run Cached [0]; Edit P7 (disk_of [Some 261; Some 1; Some 2; Some 140; Some 40; Some 50])].
Lemma try7 : exists t2, lasts T7 H7 P7 (table_of l7) es7 P7 t2 /\ (forall n, mm (state_of t2) n = fresh) /\ exists tr t3, goes T7 H7 P7 Cached [0] t2 tr t3 /\ tr = [Scanned 1; Scanned 2; Scanned 3; Scanned 5; Ran 0] /\ succeeded [0] (state_of t3) /\
  tf t3 = [Some 293; Some 1; Some 2; Some 140; Some 40; Some 50; None] /\ exists tr4 t4, goes T7 H7 P7 Cached [0] (clean t3) tr4 t4 /\ tr4 = [] /\ succeeded [0] (state_of t4).
Proof.
  eexists. split.
  { runs; [con 0; con 1; con 2; con 3; con 4; src 4; exe 3; src 1; src 2; con 0; exe 0; apply goes_nil | begins | ends|]. edits. apply lasts_nil. }
  split. { begins. }
  eexists _, _. split. { con 0; con 1; con 2; con 3; con 4; con 5; src 4; upt 3; src 1; src 2; src 5; exe 0; apply goes_nil. }
  split. { vm_compute. reflexivity. } split. { okay. } split. { vm_compute. reflexivity. }
  eexists _, _. split. { con 0; con 1; con 2; con 3; con 4; con 5; src 4; upt 3; src 1; src 2; src 5; upt 0; apply goes_nil. }
  split. { vm_compute. reflexivity. } okay.
Qed.
Lemma clean_again : forall t, eqs (again (state_of (clean t))) (again (state_of t)).
Proof. intros t. constructor; reflexivity. Qed.
Lemma needed7 : forall f, (forall n, f n = disk_of [Some 293; Some 1; Some 2; Some 140; Some 40; Some 50; None] n) -> forall m, needed T7 P7 f [0] m -> f m <> None.
Proof.
  intros f E m Hn. apply (needed_eqs T7 H7 U7 sound7 P7 f _ E) in Hn. rewrite E. assert (In m [0; 1; 2; 3; 4; 5]).
  { induction Hn as [t [<- |[]]|p q Hp IH Hq|p q Hp IH Hq]; [left; reflexivity | |].
    - cbn in IH. repeat (destruct IH as [<- |IH]; [vm_compute in Hq; cbn; tauto|]). destruct IH.
    - cbn in IH. repeat (destruct IH as [<- |IH]; [vm_compute in Hq; cbn; tauto|]). destruct IH. }
  cbn in H. repeat (destruct H as [<- |H]; [vm_compute; discriminate|]). destruct H.
Qed.
Lemma fits7 : fits T7 P7 (disk_of l7) es7 src7 find7.
Proof.
  split.
  - intros P2 f2 Hi. cbn in Hi. destruct Hi as [E|[E|[]]]; injection E as <- <-; (split; [apply proper7|]; split; [apply names7|]; apply search7; vm_compute; try discriminate; reflexivity).
  - intros mo ts Hi. cbn in Hi. destruct Hi as [E|[E|[]]]; [injection E as <- <- | discriminate]. discriminate.
Qed.
Theorem C67_case : sound T7 H7 U7 /\ fits T7 P7 (disk_of l7) es7 src7 find7 /\ exists w s0 s s1 s2,
  history T7 H7 P7 (new_disk (disk_of l7)) es7 P7 w /\ began w s0 /\ steps T7 H7 P7 Cached [0] s0 [Scanned 1; Scanned 2; Scanned 3; Scanned 5; Ran 0] s /\ succeeded [0] s /\
  (forall m, needed T7 P7 (files (wd s)) [0] m -> derived P7 m = true -> files (wd s) m <> None) /\ began (wd s) s1 /\ steps T7 H7 P7 Cached [0] s1 [] s2 /\ succeeded [0] s2.
Proof.
  split; [exact sound7|]. split; [exact fits7|]. destruct try7 as (t2 & L & F & tr & t3 & G & -> & S1 & Ef & tr4 & t4 & G2 & -> & S2).
  destruct (lasts_start _ _ _ _ _ L) as (w & Hh & E). destruct (goes_from _ _ _ _ _ _ _ F G E) as (s & Hs & Es).
  destruct (goes_from P7 Cached [0] (clean t3) [] t4 (wd s)) as (s2 & Hs2 & Es2); [intros n; destruct n; reflexivity | exact G2 | destruct Es as [A1 A2 A3]; constructor; intros n; [apply A1 | apply A2 | reflexivity]|].
  exists w, {| wd := w; mm := fun _ => fresh |}, s, {| wd := wd s; mm := fun _ => fresh |}, s2.
  split; [exact Hh|]. split; [split; reflexivity|]. split; [exact Hs|]. split; [apply (e_succeeded _ s Es), S1|]. split; [|split; [split; reflexivity|]; split; [exact Hs2 | apply (e_succeeded _ s2 Es2), S2]].
  intros m Hn _. apply (needed7 (files (wd s))); [|exact Hn]. intros n. rewrite <- (eq_files _ _ Es). cbn [state_of wd files]. rewrite Ef. reflexivity.
Qed.

(* ---- what goes wrong ---- *)
(* after a history a run without a failure leaves something it needs out of date *)
Definition stale (P : project) (f : disk) (es : list event) (mo : mode) : Prop :=
  exists P2 w s0 ts tr s m, history T7 H7 P (new_disk f) es P2 w /\ began w s0 /\ steps T7 H7 P2 mo ts s0 tr s /\ succeeded ts s /\ needed T7 P2 (files (wd s)) ts m /\ derived P2 m = true /\ ~ current T7 P2 (files (wd s)) m.
Lemma stale_by : forall P l es mo P2 t2 ts tr t3 m, lasts T7 H7 P (table_of l) es P2 t2 -> (forall n, mm (state_of t2) n = fresh) -> goes T7 H7 P2 mo ts t2 tr t3 -> succeeded ts (state_of t3) ->
  In m ts -> derived P2 m = true -> ~ current T7 P2 (files (wd (state_of t3))) m -> stale P (disk_of l) es mo.
Proof.
  intros P l es mo P2 t2 ts tr t3 m L F G S1 Hm Hd C. destruct (lasts_start _ _ _ _ _ L) as (w & Hh & E). destruct (goes_from _ _ _ _ _ _ _ F G E) as (s & Hs & Es).
  exists P2, w, {| wd := w; mm := fun _ => fresh |}, ts, tr, s, m. split; [exact Hh|]. split; [split; reflexivity|]. split; [exact Hs|]. split; [apply (e_succeeded _ s Es), S1|]. split; [apply needed_target, Hm|]. split; [exact Hd|].
  intros X. apply C. apply (current_eqs T7 H7 U7 sound7 P2 _ (files (wd s)) (eq_files _ _ Es) m X).
Qed.
Ltac notcur := intros (out & X1 & X2); vm_compute in X1; injection X1 as <-; vm_compute in X2; discriminate.
(* 1. a/a.h appears, which is searched for before b/a.h: a run with --implicit-cache does not look for it, one without does *)
Definition l_sh : list (option content) := [None; Some 7; Some 20; None; Some 40; Some 50].
Definition es_sh : list event := [Run Cached [0]; Edit P7 (disk_of [Some 127; Some 7; Some 20; None; Some 40; Some 50; Some 60])].
Theorem C67_shadow_refuted : (forall P f, In (P, f) (versions P7 (disk_of l_sh) es_sh) -> proper P /\ names_sources src7 P) /\ stale P7 (disk_of l_sh) es_sh Cached.
Proof.
  split.
  { intros P f Hi. cbn in Hi. destruct Hi as [E|[E|[]]]; injection E as <- <-; (split; [apply proper7 | apply names7]). }
  eapply (stale_by P7 l_sh es_sh Cached _ _ [0] _ _ 0).
  - runs; [con 0; con 1; con 2; src 1; src 2; exe 0; apply goes_nil | begins | ends|]. edits. apply lasts_nil.
  - begins.
  - con 0. con 1. con 2. src 1. src 2. upt 0. apply goes_nil.
  - okay.
  - left. reflexivity.
  - reflexivity.
  - notcur.
Qed.
(* 2. prog.c is edited and now includes a.h; a run with --implicit-deps-unchanged compiles it, and records that there are no implicit dependencies.  After a.h has changed, --implicit-cache is wrong, too *)
Definition l_un : list (option content) := [None; Some 10; Some 20; None; Some 40; Some 50].
Definition es_un : list event := [Run Cached [0]; Edit P7 (disk_of [Some 110; Some 7; Some 20; None; Some 40; Some 50]); Run Unchanged [0]; Edit P7 (disk_of [Some 107; Some 7; Some 21; None; Some 40; Some 50])].
Theorem C67_unchanged_refuted : (forall P f, In (P, f) (versions P7 (disk_of l_un) es_un) -> proper P /\ names_sources src7 P /\ steady_search T7 find7 P f) /\ stale P7 (disk_of l_un) es_un Cached.
Proof.
  split.
  { intros P f Hi. cbn in Hi. destruct Hi as [E|[E|[E|[]]]]; injection E as <- <-; (split; [apply proper7|]; split; [apply names7|]; apply search7; vm_compute; try discriminate; reflexivity). }
  eapply (stale_by P7 l_un es_un Cached _ _ [0] _ _ 0).
  - runs; [con 0; con 1; src 1; exe 0; apply goes_nil | begins | ends|]. edits. runs; [con 0; con 1; src 1; exe 0; apply goes_nil | begins | ends|]. edits. apply lasts_nil.
  - begins.
  - con 0. con 1. src 1. upt 0. apply goes_nil.
  - okay.
  - left. reflexivity.
  - reflexivity.
  - notcur.
Qed.
(* 3. prog.c no longer includes gen.h, and gen.h can no longer be made.  All hypotheses hold; a run without --implicit-cache compiles prog.c; a run with --implicit-cache still wants to make gen.h first, which nothing needs, and fails *)
Definition l_lo : list (option content) := [None; Some 3; Some 20; None; Some 40; Some 50].
Definition es_lo : list event := [Run Cached [0]; Edit P9 (disk_of [Some 243; Some 10; Some 20; Some 140; Some 40; Some 50])].
Theorem C67_leftover_refuted : fits T7 P7 (disk_of l_lo) es_lo src7 find7 /\ exists w s0, history T7 H7 P7 (new_disk (disk_of l_lo)) es_lo P9 w /\ began w s0 /\
  (exists s tr, steps T7 H7 P9 Off [0] s0 tr s /\ succeeded [0] s /\ ~ In (Ran 3) tr) /\
  (exists s tr, steps T7 H7 P9 Cached [0] s0 tr s /\ st (mm s 0) = Failed /\ In (Ran 3) tr) /\ ~ needed T7 P9 (files w) [0] 3.
Proof.
  split.
  { split.
    - intros P2 f2 Hi. cbn in Hi. destruct Hi as [E|[E|[]]]; injection E as <- <-; (split; [apply proper7|]; split; [apply names7|]; apply search7; vm_compute; try discriminate; reflexivity).
    - intros mo ts Hi. cbn in Hi. destruct Hi as [E|[E|[]]]; [injection E as <- <- | discriminate]. discriminate. }
  assert (X : exists t2, lasts T7 H7 P7 (table_of l_lo) es_lo P9 t2 /\ (forall n, mm (state_of t2) n = fresh) /\ tf t2 = [Some 243; Some 10; Some 20; Some 140; Some 40; Some 50; None] /\
    (exists tr t3, goes T7 H7 P9 Off [0] t2 tr t3 /\ tr = [Scanned 1; Ran 0] /\ succeeded [0] (state_of t3)) /\ exists tr t4, goes T7 H7 P9 Cached [0] t2 tr t4 /\ tr = [Scanned 1; Scanned 4; Ran 3] /\ st (mm (state_of t4) 0) = Failed).
  { eexists. split. { runs; [con 0; con 1; con 3; con 4; src 4; exe 3; con 0; src 1; exe 0; apply goes_nil | begins | ends|]. edits. apply lasts_nil. }
    split. { begins. } split. { vm_compute. reflexivity. } split.
    - eexists _, _. split. { con 0. con 1. src 1. exe 0. apply goes_nil. } split; [vm_compute; reflexivity | okay].
    - eexists _, _. split. { con 0. con 1. con 3. con 4. src 1. src 4. exe 3. fai 0. apply goes_nil. } split; vm_compute; reflexivity. }
  destruct X as (t2 & L & F & Ef & (tr & t3 & G & -> & S1) & tr2 & t4 & G2 & -> & S2). destruct (lasts_start _ _ _ _ _ L) as (w & Hh & E).
  exists w, {| wd := w; mm := fun _ => fresh |}. split; [exact Hh|]. split; [split; reflexivity|]. split; [|split].
  - destruct (goes_from _ _ _ _ _ _ _ F G E) as (s & Hs & Es). exists s, [Scanned 1; Ran 0]. split; [exact Hs|]. split; [apply (e_succeeded _ s Es), S1|]. cbn. intros [X|[X|[]]]; discriminate.
  - destruct (goes_from _ _ _ _ _ _ _ F G2 E) as (s & Hs & Es). exists s, [Scanned 1; Scanned 4; Ran 3]. split; [exact Hs|]. split; [rewrite <- (eq_mm _ _ Es); exact S2 | right; right; left; reflexivity].
  - intros Hn. assert (Ew : forall n, files w n = disk_of [Some 243; Some 10; Some 20; Some 140; Some 40; Some 50; None] n) by (intros n; pose proof (eq_files _ _ E n) as Y; cbn [again wd state_of files] in Y; rewrite Ef in Y; symmetry; exact Y).
    apply (needed_eqs T7 H7 U7 sound7 P9 _ _ Ew) in Hn. assert (K : forall m, needed T7 P9 (disk_of [Some 243; Some 10; Some 20; Some 140; Some 40; Some 50; None]) [0] m -> In m [0; 1]).
    { intros m Hm. induction Hm as [t [<- |[]]|p q Hp IH Hq|p q Hp IH Hq]; [left; reflexivity | |];
        (cbn in IH; repeat (destruct IH as [<- |IH]; [vm_compute in Hq; cbn; tauto|]); destruct IH). }
    specialize (K 3 Hn). cbn in K. destruct K as [K|[K|[]]]; discriminate.
Qed.
Print Assumptions C67_case. Print Assumptions C67_shadow_refuted. Print Assumptions C67_unchanged_refuted. Print Assumptions C67_leftover_refuted.
