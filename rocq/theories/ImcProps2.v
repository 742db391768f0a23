(* C67: histories *)
From Coq Require Import List Bool Arith Lia.
Import ListNotations.
From Verif Require Import ImcModel ImcSpec ImcProps.

Section Hist.
Variable T : tools.
Variable H : option content -> sig.
Variable U : list node.
Hypothesis SO : sound T H U.
Variable src_of : node -> sig -> list node.
Variable find : content -> list node.
Definition honest (P : project) (w : world) : Prop := proper P /\ names_sources src_of P /\ steady_search T find P (files w) /\ forall t e, store w t = Some e -> truth T H src_of find P (files w) t e.
Lemma run_honest : forall P w mo ts s0 tr s, honest P w -> mo <> Unchanged -> began w s0 -> steps T H P mo ts s0 tr s -> inv T H U src_of find P s /\ honest P (wd s).
Proof.
  intros P w mo ts s0 tr s (H1 & H2 & H3 & H4) Hm Hb Hs.
  assert (V : inv T H U src_of find P s) by (apply (inv_steps T H U SO src_of find P H1 H2 mo Hm ts s0 tr s Hs), (inv_start T H U src_of find P w); assumption).
  split; [exact V|]. split; [exact H1|]. split; [exact H2|]. split; [intros c; apply (j_find _ _ _ _ _ _ _ V) | apply (j_rec _ _ _ _ _ _ _ V)].
Qed.
Lemma history_honest : forall P w es P2 w2, history T H P w es P2 w2 -> honest P w ->
  (forall P3 f3, In (Edit P3 f3) es -> proper P3 /\ names_sources src_of P3 /\ steady_search T find P3 f3) -> (forall mo ts, In (Run mo ts) es -> mo <> Unchanged) -> honest P2 w2.
Proof.
  intros P w es P2 w2 Hh. induction Hh as [P w|P w P2 f es P3 w3 Al Hh IH|P w mo ts es s0 tr s P3 w3 Hb Hs Hh IH]; intros Hon Hv Hr; [exact Hon | |].
  - apply IH.
    + destruct (Hv P2 f (or_introl eq_refl)) as (V1 & V2 & V3). split; [exact V1|]. split; [exact V2|]. split; [exact V3|]. cbn [files store]. intros t e Ht.
      destruct Hon as (_ & _ & _ & H4). destruct (H4 t e Ht) as [X|(c & f0 & out & X1 & X2 & X3 & X4 & X5 & X6)]; [left; exact X|]. right. exists c, f0, out. do 5 (split; [assumption|]).
      intros Hd x Hx.
      destruct (Al t Hd) as [Y|[Y1 Y2]]; [congruence|]. apply (X6 Y1). congruence.
    + intros P4 f4 Hi. apply Hv. right. exact Hi.
    + intros mo ts Hi. apply (Hr mo ts). right. exact Hi.
  - apply IH.
    + apply (run_honest P w mo ts s0 tr s Hon (Hr mo ts (or_introl eq_refl)) Hb Hs).
    + intros P4 f4 Hi. apply Hv. right. exact Hi.
    + intros mo2 ts2 Hi. apply (Hr mo2 ts2). right. exact Hi.
Qed.
End Hist.

(* C67a: whatever has been done before, with or without --implicit-cache: a run that ends without a failure leaves every target it needs current, with the right record *)
Theorem C67a_current : forall T H U src_of find P f es P2 w mo ts s0 tr s,
  sound T H U -> fits T P f es src_of find -> history T H P (new_disk f) es P2 w -> mo <> Unchanged -> began w s0 -> steps T H P2 mo ts s0 tr s -> succeeded ts s ->
  forall m, needed T P2 (files (wd s)) ts m -> derived P2 m = true -> current T P2 (files (wd s)) m /\ recorded T H P2 (wd s) m.
Proof.
  intros T H U src_of find P f es P2 w mo ts s0 tr s SO (F1 & F4) Hh Hm Hb Hs Hok.
  assert (Hon : honest T H src_of find P2 w).
  { apply (history_honest T H U SO src_of find P (new_disk f) es P2 w Hh); [|intros P3 f3 Hi; apply F1; right; apply in_flat_map; exists (Edit P3 f3); split; [exact Hi | left; reflexivity] | exact F4].
    destruct (F1 P f (or_introl eq_refl)) as (V1 & V2 & V3). split; [exact V1|]. split; [exact V2|]. split; [exact V3|]. intros t e He. discriminate. }
  destruct (run_honest T H U SO src_of find P2 w mo ts s0 tr s Hon Hm Hb Hs) as [V _].
  destruct Hon as (H1 & _). intros m Hn Hd. apply (inv_current T H U SO src_of find P2 ts s V Hok m Hn Hd).
Qed.

(* ---- a second run ---- *)
Section Again.
Variable T : tools.
Variable H : option content -> sig.
Variable U : list node.
Hypothesis SO : sound T H U.
Variable P : project.
Hypothesis PP : proper P.
Variable mo : mode.
Variable ts : list node.
Variable w : world.
Notation f0 := (files w).
Notation Fl s := (files (wd s)).
Hypothesis REC : forall m, needed T P f0 ts m -> derived P m = true -> recorded T H P w m /\ f0 m <> None.
Record inv2 (s : state) : Prop := {
  k_files : Fl s = f0;
  k_store : forall m, needed T P f0 ts m -> derived P m = true -> store (wd s) m = store w m;
  k_csig : forall m x, csig (mm s m) = Some x -> x = H (f0 m);
  k_inc : forall m l, incs (mm s m) = Some l -> l = includes T P f0 m;
  k_impl : forall m i, needed T P f0 ts m -> impl (mm s m) = Some i -> i = (implicit_deps T P f0 m, implicit_deps T P f0 m);
  k_state : forall m, st (mm s m) <> NoState -> needed T P f0 ts m;
  k_failed : forall m, st (mm s m) <> Failed }.
Lemma csig2 : forall s m, inv2 s -> csig_now H s m = H (f0 m).
Proof. intros s m Hv. unfold csig_now. destruct (csig (mm s m)) as [x|] eqn:E; [apply (k_csig s Hv m x E) | rewrite (k_files s Hv); reflexivity]. Qed.
Lemma inc2 : forall s m, inv2 s -> incs_now T P s m = includes T P f0 m.
Proof. intros s m Hv. unfold incs_now. destruct (incs (mm s m)) as [l|] eqn:E; [apply (k_inc s Hv m l E) | rewrite (k_files s Hv); reflexivity]. Qed.
Lemma task_need : forall n t, needed T P f0 ts n -> In t (task P n) -> needed T P f0 ts t.
Proof. intros n t Hn Ht. destruct (task_peer P n t Ht) as [-> |[Hp _]]; [exact Hn | apply (needed_peer T P f0 ts n t Hn Hp)]. Qed.
Lemma same2 : forall s t, inv2 s -> needed T P f0 ts t -> derived P t = true -> same H P s t (implicit_deps T P f0 t) = true.
Proof.
  intros s t Hv Hn Hd. destruct (REC t Hn Hd) as [R1 R2]. unfold same. rewrite (k_files s Hv), (k_store s Hv t Hn Hd). destruct (f0 t); [|contradiction]. rewrite R1. cbn [e_sigs e_cmd]. rewrite Nat.eqb_refl, andb_true_r. apply list_eqb_eq.
  fold (children T P f0 t). apply map_ext. intros k. symmetry. apply csig2, Hv.
Qed.
Lemma full2 : forall s n, inv2 s -> derived P n = true -> full T P s n = implicit_deps T P f0 n.
Proof. intros s n Hv Hd. unfold full, implicit_deps. rewrite Hd. apply (s_ext T H U SO). intros x _. apply (inc2 s x Hv). Qed.
Lemma stored2 : forall s n l, inv2 s -> needed T P f0 ts n -> derived P n = true -> stored mo s (first_target P n) = Some l -> l = implicit_deps T P f0 n /\ use_stored H P mo s (first_target P n) l = true.
Proof.
  intros s n l Hv Hn Hd E. pose proof (first_in P PP n) as Fi. destruct (task_same P PP n _ Fi) as (_ & E1 & E2 & _). pose proof (task_need n _ Hn Fi) as Nf. assert (Df : derived P (first_target P n) = true) by congruence.
  assert (El : l = implicit_deps T P f0 (first_target P n)).
  { unfold stored in E. rewrite (k_store s Hv _ Nf Df) in E. destruct (REC _ Nf Df) as [R1 _]. unfold recorded in R1. destruct mo; try discriminate; rewrite R1 in E; cbn [e_imp] in E; congruence. }
  assert (Ei : implicit_deps T P f0 (first_target P n) = implicit_deps T P f0 n) by (unfold implicit_deps; rewrite E1, E2; reflexivity).
  split; [congruence|]. unfold use_stored. destruct mo; try reflexivity; rewrite El; apply (same2 s _ Hv Nf Df).
Qed.
Lemma new2 : forall s n t, inv2 s -> needed T P f0 ts n -> In t (task P n) -> new_impl T H P mo s n t = (implicit_deps T P f0 t, implicit_deps T P f0 t).
Proof.
  intros s n t Hv Hn Ht. destruct (task_same P PP n t Ht) as (_ & E1 & E2 & _). assert (Ei : implicit_deps T P f0 t = implicit_deps T P f0 n) by (unfold implicit_deps; rewrite E1, E2; reflexivity). rewrite Ei.
  unfold new_impl. destruct (derived P n) eqn:Hd; [|unfold implicit_deps; rewrite Hd; reflexivity]. cbv zeta. destruct (stored mo s (first_target P n)) as [l|] eqn:E.
  - destruct (stored2 s n l Hv Hn Hd E) as [-> ->]. reflexivity.
  - rewrite (full2 s n Hv Hd). reflexivity.
Qed.
Lemma kids2 : forall s n k, inv2 s -> needed T P f0 ts n -> In k (waits_for P s n) -> all_scanned P s n = true -> needed T P f0 ts k.
Proof.
  intros s n k Hv Hn Hk Ha. unfold waits_for in Hk. apply in_flat_map in Hk. destruct Hk as (t & Ht & Hk). pose proof (task_need n t Hn Ht) as Nt. apply (needed_child T P f0 ts t k Nt). unfold kids, child_implicit in Hk. unfold children.
  destruct (impl (mm s t)) as [i|] eqn:E; [rewrite (k_impl s Hv t i Nt E) in Hk; exact Hk|]. unfold all_scanned in Ha. apply negb_true_iff in Ha. exfalso.
  assert (X : needs_scan s (task P n) = true) by (unfold needs_scan; apply existsb_exists; exists t; rewrite E; auto). congruence.
Qed.
Lemma wanted2 : forall s n, inv2 s -> wanted P ts s n -> needed T P f0 ts n.
Proof. intros s n Hv [Hn|(p & Hp & Hn & Ha)]; [apply needed_target, Hn|]. apply (kids2 s p n Hv); [apply (k_state s Hv p); rewrite Hp; discriminate | exact Hn | exact Ha]. Qed.
Lemma step2 : forall s tr s2, step T H P mo ts s tr s2 -> inv2 s -> inv2 s2 /\ (forall n, ~ In (Ran n) tr) /\ (mo = Cached \/ mo = Unchanged -> tr = []).
Proof.
  intros s tr s2 Hst Hv. destruct Hst as [n Hw Hn|n Hr Hd|n Hr Hd Hu|n Hr Hd Hu Hl|n Hr Hd Hu Hl|n Hp Hf].
  - pose proof (wanted2 s n Hv Hw) as Nn. split; [|split].
    + constructor; cbn [wd mm consider].
      * apply (k_files s Hv).
      * apply (k_store s Hv).
      * intros m x. cbn [csig]. destruct (needs_scan s (task P n) && mem m (signed P mo s n)); [|apply (k_csig s Hv m x)]. intros E. injection E as <-. apply csig2, Hv.
      * intros m l. cbn [incs]. destruct (needs_scan s (task P n) && mem m (scanned T H P mo s n)); [|apply (k_inc s Hv m l)]. intros E. injection E as <-. apply inc2, Hv.
      * intros m i Nm. cbn [impl]. destruct (needs_scan s (task P n) && mem m (task P n)) eqn:Eb; [|apply (k_impl s Hv m i Nm)]. intros E. injection E as <-. apply andb_true_iff in Eb. destruct Eb as [_ Eb]. apply mem_In in Eb. apply new2; assumption.
      * intros m. cbn [st]. destruct (m =? n) eqn:Em; [apply Nat.eqb_eq in Em; subst m; intros _; exact Nn | apply (k_state s Hv m)].
      * intros m. cbn [st]. pose proof (k_failed s Hv m) as X. destruct (m =? n); [destruct (st (mm s m)); congruence | exact X].
    + intros k Hk. unfold reads in Hk. destruct (needs_scan s (task P n)); [|destruct Hk]. apply in_map_iff in Hk. destruct Hk as (x & X & _). discriminate.
    + intros Hm. unfold reads. destruct (needs_scan s (task P n)); [|reflexivity]. unfold scanned. destruct (derived P n) eqn:Hd; [|reflexivity]. cbv zeta. destruct (stored mo s (first_target P n)) as [l|] eqn:E.
      * destruct (stored2 s n l Hv Nn Hd E) as [_ ->]. reflexivity.
      * exfalso. pose proof (first_in P PP n) as Fi. destruct (task_same P PP n _ Fi) as (_ & E1 & _). pose proof (task_need n _ Nn Fi) as Nf. assert (Df : derived P (first_target P n) = true) by congruence.
        unfold stored in E. rewrite (k_store s Hv _ Nf Df) in E. destruct (REC _ Nf Df) as [R1 _]. unfold recorded in R1. destruct Hm as [X|X]; rewrite X, R1 in E; discriminate.
  - split; [|split; [intros k []|reflexivity]]. pose proof (ready_pending P s n Hr) as Hp. constructor; cbn [wd mm set_done files store].
    + apply (k_files s Hv).
    + intros m Nm Hdm. destruct (mem m [n]) eqn:E; [|apply (k_store s Hv m Nm Hdm)]. apply mem_In in E. destruct E as [<- |[]]. congruence.
    + intros m x. destruct (mem m [n]); [|apply (k_csig s Hv m x)]. cbn [csig]. intros E. injection E as <-. apply csig2, Hv.
    + intros m l. destruct (mem m [n]); apply (k_inc s Hv m l).
    + intros m i Nm. destruct (mem m [n]); apply (k_impl s Hv m i Nm).
    + intros m. destruct (mem m [n]) eqn:E; [|apply (k_state s Hv m)]. apply mem_In in E. destruct E as [<- |[]]. intros _. apply (k_state s Hv n). rewrite Hp. discriminate.
    + intros m. destruct (mem m [n]); [discriminate | apply (k_failed s Hv m)].
  - split; [|split; [intros k []|reflexivity]]. pose proof (ready_pending P s n Hr) as Hp. assert (Nn : needed T P f0 ts n) by (apply (k_state s Hv n); rewrite Hp; discriminate). constructor; cbn [wd mm set_done files store].
    + apply (k_files s Hv).
    + intros m Nm Hdm. destruct (mem m (task P n)) eqn:E; [|apply (k_store s Hv m Nm Hdm)]. apply mem_In in E. rewrite Hdm. destruct (ready_kids P s n m Hr E) as [(i & Ei) _]. destruct (REC m Nm Hdm) as [R1 _]. rewrite R1.
      rewrite (k_impl s Hv m i Nm Ei) in Ei. unfold record, deps, implicit. rewrite Ei. do 2 f_equal. fold (children T P f0 m). apply map_ext. intros k. apply csig2, Hv.
    + intros m x. destruct (mem m (task P n)); [|apply (k_csig s Hv m x)]. cbn [csig]. intros E. injection E as <-. apply csig2, Hv.
    + intros m l. destruct (mem m (task P n)); apply (k_inc s Hv m l).
    + intros m i Nm. destruct (mem m (task P n)); apply (k_impl s Hv m i Nm).
    + intros m. destruct (mem m (task P n)) eqn:E; [|apply (k_state s Hv m)]. apply mem_In in E. intros _. apply (task_need n m Nn E).
    + intros m. destruct (mem m (task P n)); [discriminate | apply (k_failed s Hv m)].
  - exfalso. apply not_true_iff_false in Hu. apply Hu. apply forallb_forall. intros t Ht. pose proof (ready_pending P s n Hr) as Hp. assert (Nn : needed T P f0 ts n) by (apply (k_state s Hv n); rewrite Hp; discriminate). pose proof (task_need n t Nn Ht) as Nt.
    destruct (ready_kids P s n t Hr Ht) as [(i & Ei) _]. unfold uptodate, child_implicit. rewrite Ei, (k_impl s Hv t i Nt Ei). apply (same2 s t Hv Nt (task_derived P PP n t Hd Ht)).
  - exfalso. apply not_true_iff_false in Hu. apply Hu. apply forallb_forall. intros t Ht. pose proof (ready_pending P s n Hr) as Hp. assert (Nn : needed T P f0 ts n) by (apply (k_state s Hv n); rewrite Hp; discriminate). pose proof (task_need n t Nn Ht) as Nt.
    destruct (ready_kids P s n t Hr Ht) as [(i & Ei) _]. unfold uptodate, child_implicit. rewrite Ei, (k_impl s Hv t i Nt Ei). apply (same2 s t Hv Nt (task_derived P PP n t Hd Ht)).
  - exfalso. apply existsb_exists in Hf. destruct Hf as (k & _ & Hk). apply (k_failed s Hv k). destruct (st (mm s k)); try discriminate. reflexivity.
Qed.
Lemma steps2 : forall s tr s2, steps T H P mo ts s tr s2 -> inv2 s -> inv2 s2 /\ (forall n, ~ In (Ran n) tr) /\ (mo = Cached \/ mo = Unchanged -> tr = []).
Proof.
  intros s tr s2 Hs. induction Hs as [s|s tr s1 tr1 s2 H1 H2 IH]; intros Hv; [split; [exact Hv | split; [intros n [] | reflexivity]]|].
  destruct (step2 s tr s1 H1 Hv) as (A1 & A2 & A3). destruct (IH A1) as (B1 & B2 & B3). split; [exact B1|]. split; [intros n Hn; apply in_app_iff in Hn; destruct Hn; [apply (A2 n) | apply (B2 n)]; assumption|].
  intros Hm. rewrite (A3 Hm), (B3 Hm). reflexivity.
Qed.
End Again.
(* C67b: a run in which everything needed is recorded as it is runs no command, and changes no file; with --implicit-cache (or --implicit-deps-unchanged) it does not even scan a file *)
Theorem C67b_nothing : forall T H U P mo ts w s0 tr s, sound T H U -> proper P -> (forall m, needed T P (files w) ts m -> derived P m = true -> recorded T H P w m /\ files w m <> None) ->
  began w s0 -> steps T H P mo ts s0 tr s -> (forall n, ~ In (Ran n) tr) /\ (mo = Cached \/ mo = Unchanged -> tr = []) /\ files (wd s) = files w /\ forall m, st (mm s m) <> Failed.
Proof.
  intros T H U P mo ts w s0 tr s SO PP REC [Hw Hm] Hs. destruct (steps2 T H U SO P PP mo ts w REC s0 tr s Hs) as (V & A & B).
  - constructor.
    + rewrite Hw. reflexivity.
    + rewrite Hw. reflexivity.
    + intros m x E. rewrite Hm in E. discriminate.
    + intros m l E. rewrite Hm in E. discriminate.
    + intros m i _ E. rewrite Hm in E. discriminate.
    + intros m E. rewrite Hm in E. exfalso. apply E. reflexivity.
    + intros m. rewrite Hm. discriminate.
  - split; [exact A|]. split; [exact B|]. split; [apply (k_files _ _ _ _ _ _ V) | apply (k_failed _ _ _ _ _ _ V)].
Qed.
(* C67c: in particular the second of two runs, when the commands have made all their targets *)
Theorem C67c_second : forall T H U src_of find P f es P2 w mo ts s0 tr s mo2 s1 tr2 s2,
  sound T H U -> fits T P f es src_of find -> history T H P (new_disk f) es P2 w -> mo <> Unchanged -> began w s0 -> steps T H P2 mo ts s0 tr s -> succeeded ts s ->
  (forall m, needed T P2 (files (wd s)) ts m -> derived P2 m = true -> files (wd s) m <> None) ->
  began (wd s) s1 -> steps T H P2 mo2 ts s1 tr2 s2 -> (forall n, ~ In (Ran n) tr2) /\ (mo2 = Cached \/ mo2 = Unchanged -> tr2 = []) /\ files (wd s2) = files (wd s).
Proof.
  intros T H U src_of find P f es P2 w mo ts s0 tr s mo2 s1 tr2 s2 SO F Hh Hm Hb Hs Hok Hex Hb2 Hs2.
  assert (PP : proper P2).
  { destruct F as (F1 & F4). assert (Hon : honest T H src_of find P2 w).
    { apply (history_honest T H U SO src_of find P (new_disk f) es P2 w Hh); [|intros P3 f3 Hi; apply F1; right; apply in_flat_map; exists (Edit P3 f3); split; [exact Hi | left; reflexivity] | exact F4].
      destruct (F1 P f (or_introl eq_refl)) as (V1 & V2 & V3). split; [exact V1|]. split; [exact V2|]. split; [exact V3|]. intros t e He. discriminate. }
    apply Hon. }
  destruct (C67b_nothing T H U P2 mo2 ts (wd s) s1 tr2 s2 SO PP) as (A & B & C & _); [|exact Hb2 | exact Hs2 | auto].
  intros m Nm Hd. split; [|apply (Hex m Nm Hd)]. apply (C67a_current T H U src_of find P f es P2 w mo ts s0 tr s SO F Hh Hm Hb Hs Hok m Nm Hd).
Qed.
(* C67d: with --implicit-deps-unchanged files are scanned only for targets about which nothing is recorded *)
Theorem C67d_unchanged : forall T H P ts w s0 tr s x, proper P -> began w s0 -> steps T H P Unchanged ts s0 tr s -> In (Scanned x) tr -> exists n, derived P n = true /\ store w (first_target P n) = None.
Proof.
  intros T H P ts w s0 tr s x PP [Hw _] Hs. rewrite <- Hw. clear Hw. induction Hs as [s|s tr s1 tr1 s2 H1 H2 IH]; intros Hx; [destruct Hx|]. apply in_app_iff in Hx. destruct Hx as [Hx|Hx].
  - clear IH H2. destruct H1 as [n Hwn Hn|n Hr Hd|n Hr Hd Hu|n Hr Hd Hu Hl|n Hr Hd Hu Hl|n Hp Hf]; try (destruct Hx; fail); [|destruct Hx as [X|[]]; discriminate].
    unfold reads in Hx. destruct (needs_scan s (task P n)); [|destruct Hx]. apply in_map_iff in Hx. destruct Hx as (y & E & Hy). unfold scanned in Hy. destruct (derived P n) eqn:Hd; [|destruct Hy]. cbv zeta in Hy.
    exists n. split; [exact Hd|]. unfold stored in Hy. destruct (store (wd s) (first_target P n)) as [e|]; [destruct Hy | reflexivity].
  - destruct (IH Hx) as (n & N1 & N2). exists n. split; [exact N1|]. destruct (store (wd s) (first_target P n)) as [e|] eqn:E; [|reflexivity]. exfalso.
    assert (K : forall m e, store (wd s) m = Some e -> store (wd s1) m <> None).
    { clear - H1. destruct H1 as [k Hwk Hk|k Hr Hd|k Hr Hd Hu|k Hr Hd Hu Hl|k Hr Hd Hu Hl|k Hp Hf]; intros m e Em; cbn [wd consider set_done set_failed store]; try congruence.
      - destruct (mem m [k]); congruence.
      - destruct (mem m (task P k)); congruence.
      - unfold execute. destruct (run T (cmd P k) (map (files (wd s)) (deps P s k))) as [ok out]. destruct ok; cbn [wd store set_failed]; [destruct (mem m (task P k)); congruence | congruence]. }
    apply (K _ e E), N2.
Qed.
Print Assumptions C67a_current.
Print Assumptions C67b_nothing.
Print Assumptions C67c_second.
Print Assumptions C67d_unchanged.
