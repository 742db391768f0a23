(* C65: after a build that starts with nothing remembered everything is current *)
From Coq Require Import List Bool Arith Lia.
Import ListNotations.
From Verif Require Import IntModel IntSpec IntProps.

Section Current.
Variable P : project.
Variable H : option content -> sig.
Variable U : list node.
Hypothesis SO : sound P U.
Notation Fl s := (files (wd s)).
Record good (s : state) (n : node) : Prop := {
  g_impl : exists l, impl (mm s n) = Some l;
  g_kids : forall k, In k (kids P s n) -> done (st (mm s k)) = true;
  g_pre : forall k, In k (prereq P n) -> done (st (mm s k)) = true;
  g_store : derived P n = true -> store (wd s) n = Some (map (fun k => H (Fl s k)) (kids P s n), cmd P n);
  g_there : derived P n = false -> Fl s n <> None }.
Record inv2 (s : state) : Prop := {
  j_inc : forall x l, incs (mm s x) = Some l -> l = includes P (Fl s) x \/ st (mm s x) = Failed;
  j_U : forall x l, incs (mm s x) = Some l -> incl l U;
  j_impl : forall n l, derived P n = true -> impl (mm s n) = Some l ->
    l = closure P (includes P (Fl s)) (sources P n) \/ (exists x, In x (sources P n ++ l) /\ st (mm s x) = Failed) \/ st (mm s n) = Failed;
  j_plain : forall n l, derived P n = false -> impl (mm s n) = Some l -> l = [];
  j_started : forall n l, impl (mm s n) = Some l -> exists q, In q (task P n) /\ st (mm s q) <> NoState;
  j_csig : forall n x, csig (mm s n) = Some x -> x = H (Fl s n) /\ done (st (mm s n)) = true;
  j_late : forall n t, In t (task P n) -> late (st (mm s n)) -> late (st (mm s t)) /\ done (st (mm s t)) = done (st (mm s n));
  j_done : forall n, done (st (mm s n)) = true -> good s n }.
Lemma includes_U : forall f x, incl (includes P f x) U.
Proof. intros f x. unfold includes. destruct (f x) as [c|]; [apply (s_inc P U SO) | intros y Hy; destruct Hy]. Qed.
Lemma done_late : forall x, done x = true -> late x.
Proof. intros []; cbn; intros; try discriminate; exact Logic.I. Qed.
Lemma task_sym : forall n t, In t (task P n) -> In n (task P t).
Proof. intros n t Ht. destruct (task_same P U SO n t Ht) as (E & _). rewrite E. apply (self_task P U SO). Qed.
Lemma not_late2 : forall s n t, inv2 s -> st (mm s n) = Pending -> In t (task P n) -> ~ late (st (mm s t)).
Proof. intros s n t Hv Hn Ht Hl. destruct (j_late s Hv t n (task_sym n t Ht) Hl) as [X _]. rewrite Hn in X. exact X. Qed.
Lemma kids_same : forall s s2 t l, impl (mm s t) = Some l -> impl (mm s2 t) = Some l -> kids P s2 t = kids P s t.
Proof. intros s s2 t l H1 H2. unfold kids, scan. rewrite H1, H2. reflexivity. Qed.
Lemma csig_ok : forall s n, inv2 s -> csig_now H s n = H (Fl s n).
Proof. intros s n Hv. unfold csig_now. destruct (csig (mm s n)) as [x|] eqn:E; [apply (j_csig s Hv n x E) | reflexivity]. Qed.
Lemma info_ok : forall s n, inv2 s -> info P H s n = (map (fun k => H (Fl s k)) (kids P s n), cmd P n).
Proof. intros s n Hv. unfold info. f_equal. apply map_ext. intros k. apply csig_ok, Hv. Qed.
Lemma now_ok : forall s x, inv2 s -> st (mm s x) <> Failed -> incs_now P s x = includes P (Fl s) x.
Proof. intros s x Hv Hx. unfold incs_now. destruct (incs (mm s x)) as [l|] eqn:E; [|reflexivity]. destruct (j_inc s Hv x l E); [assumption | contradiction]. Qed.
Lemma failed_dec : forall s l, (exists x, In x l /\ st (mm s x) = Failed) \/ (forall x, In x l -> st (mm s x) <> Failed).
Proof.
  intros s l. induction l as [|a l IH]; [right; intros x Hx; destruct Hx|]. destruct (st (mm s a)) eqn:E; try (left; exists a; split; [left; reflexivity | exact E]);
    (destruct IH as [(x & Hx & Hf)|IH]; [left; exists x; split; [right; exact Hx | exact Hf] | right; intros x [<- |Hx]; [congruence | apply IH, Hx]]).
Qed.
(* done tasks stay as they are when states of others change *)
Lemma good_same : forall s s2 n, good s n -> impl (mm s2 n) = impl (mm s n) -> (forall k, done (st (mm s k)) = true -> done (st (mm s2 k)) = true /\ Fl s2 k = Fl s k) -> store (wd s2) n = store (wd s) n ->
  Fl s2 n = Fl s n -> good s2 n.
Proof.
  intros s s2 n [(l & G1) G2 G3 G4 G5] Hi Hd Hst Hf. assert (K : kids P s2 n = kids P s n) by (apply (kids_same s s2 n l); congruence). constructor.
  - exists l. congruence.
  - intros k Hk. rewrite K in Hk. apply Hd, G2, Hk.
  - intros k Hk. apply Hd, G3, Hk.
  - intros Dn. rewrite Hst, K, (G4 Dn). do 2 f_equal. apply map_ext_in. intros k Hk. destruct (Hd k (G2 k Hk)) as [_ ->]. reflexivity.
  - intros Dn. rewrite Hf. apply G5, Dn.
Qed.
Lemma inv2_start : forall s, (forall m, mm s m = fresh) -> inv2 s.
Proof. intros s Hm. constructor; try (intros; rewrite Hm in *; discriminate). intros n t Ht Hl. rewrite Hm in Hl. destruct Hl. Qed.

Lemma inv2_consider : forall s n, inv2 s -> st (mm s n) = NoState \/ st (mm s n) = Pending -> inv2 (consider P s n).
Proof.
  intros s n Hv Hn.
  assert (S1 : forall m, late (st (mm (consider P s n) m)) <-> late (st (mm s m))) by (intros m; rewrite consider_st; destruct (m =? n); [destruct (st (mm s m)); reflexivity | reflexivity]).
  assert (S2 : forall m, done (st (mm (consider P s n) m)) = done (st (mm s m))) by (intros m; rewrite consider_st; destruct (m =? n); [destruct (st (mm s m)); reflexivity | reflexivity]).
  assert (S3 : forall m, st (mm (consider P s n) m) = Failed <-> st (mm s m) = Failed) by (intros m; rewrite consider_st; destruct (m =? n); [destruct (st (mm s m)); split; congruence | reflexivity]).
  assert (S4 : forall m, st (mm s m) <> NoState -> st (mm (consider P s n) m) <> NoState) by (intros m Hm; rewrite consider_st; destruct (m =? n); [destruct (st (mm s m)); congruence | exact Hm]).
  assert (K : forall m l, impl (mm s m) = Some l -> impl (mm (consider P s n) m) = Some l) by (intros m l Hl; rewrite consider_impl; unfold scan; rewrite Hl; destruct (mem m (task P n)); reflexivity).
  constructor.
  - intros x l Hl. rewrite consider_incs in Hl. rewrite S3. change (Fl (consider P s n)) with (Fl s). destruct (sc P s n x); [|apply (j_inc s Hv x l Hl)]. injection Hl as <-. unfold incs_now.
    destruct (incs (mm s x)) as [l|] eqn:E; [apply (j_inc s Hv x l E) | left; reflexivity].
  - intros x l Hl. rewrite consider_incs in Hl. destruct (sc P s n x); [|apply (j_U s Hv x l Hl)]. injection Hl as <-. apply (now_U P U SO s (j_U s Hv)).
  - intros m l Hd Hl. change (Fl (consider P s n)) with (Fl s).
    assert (X : l = closure P (includes P (Fl s)) (sources P m) \/ (exists x, In x (sources P m ++ l) /\ st (mm s x) = Failed) \/ st (mm s m) = Failed).
    { rewrite consider_impl in Hl. destruct (mem m (task P n)); [|apply (j_impl s Hv m l Hd Hl)]. injection Hl as <-. unfold scan. destruct (impl (mm s m)) as [l|] eqn:E; [apply (j_impl s Hv m l Hd E)|]. rewrite Hd.
      destruct (failed_dec s (sources P m ++ closure P (incs_now P s) (sources P m))) as [X|X]; [right; left; exact X|]. left. apply (s_ext P U SO). intros x Hx. apply now_ok; [exact Hv|]. apply X, in_app_iff.
      destruct Hx as [Hx|Hx]; [left; exact Hx|]. destruct (s_all P U SO _ _ _ (now_U P U SO s (j_U s Hv)) Hx); auto. }
    destruct X as [X|[(x & X1 & X2)|X]]; [left; exact X | right; left; exists x; split; [exact X1 | apply S3, X2] | right; right; apply S3, X].
  - intros m l Hd Hl. rewrite consider_impl in Hl. destruct (mem m (task P n)); [|apply (j_plain s Hv m l Hd Hl)]. injection Hl as <-. unfold scan. destruct (impl (mm s m)) as [l|] eqn:E; [apply (j_plain s Hv m l Hd E)|]. rewrite Hd. reflexivity.
  - intros m l Hl. destruct (in_dec Nat.eq_dec m (task P n)) as [Ht|Ht].
    + exists n. split; [apply task_sym, Ht|]. rewrite consider_st, Nat.eqb_refl. destruct Hn as [-> | ->]; discriminate.
    + rewrite consider_impl in Hl. apply mem_false in Ht. rewrite Ht in Hl. destruct (j_started s Hv m l Hl) as (q & Q1 & Q2). exists q. split; [exact Q1 | apply S4, Q2].
  - intros m x Hx. rewrite consider_csig in Hx. rewrite S2. apply (j_csig s Hv m x Hx).
  - intros m t Ht Hl. rewrite S1 in *. rewrite !S2. apply (j_late s Hv m t Ht Hl).
  - intros m Hm. rewrite S2 in Hm. pose proof (j_done s Hv m Hm) as G. apply (good_same s); [exact G | | | reflexivity | reflexivity].
    + destruct (g_impl s m G) as (l & E). rewrite E. apply K, E.
    + intros k Hk. rewrite S2. auto.
Qed.
(* the states of a task change *)
Lemma inv2_state : forall s s2 n, inv2 s -> st (mm s n) = Pending -> wd s2 = wd s -> (forall m, incs (mm s2 m) = incs (mm s m)) -> (forall m, impl (mm s2 m) = impl (mm s m)) ->
  (forall m, ~ In m (task P n) -> mm s2 m = mm s m) -> (forall m, In m (task P n) -> late (st (mm s2 m))) ->
  ((forall m, In m (task P n) -> st (mm s2 m) = Failed /\ csig (mm s2 m) = csig (mm s m)) \/
   (forall m, In m (task P n) -> st (mm s2 m) = UpToDate /\ csig (mm s2 m) = Some (csig_now H s m) /\ good s m)) -> inv2 s2.
Proof.
  intros s s2 n Hv Hn Hw Hi Hp Hs Hla Hc.
  assert (NL : forall m, In m (task P n) -> ~ late (st (mm s m))) by (intros m; apply not_late2; assumption).
  assert (D1 : forall k, done (st (mm s k)) = true -> st (mm s2 k) = st (mm s k)).
  { intros k Hk. destruct (in_dec Nat.eq_dec k (task P n)) as [Hm|Hm]; [exfalso; apply (NL k Hm), done_late, Hk | rewrite (Hs k Hm); reflexivity]. }
  assert (F1 : forall k, st (mm s k) = Failed -> st (mm s2 k) = Failed).
  { intros k Hk. destruct (in_dec Nat.eq_dec k (task P n)) as [Hm|Hm]; [exfalso; apply (NL k Hm); rewrite Hk; exact Logic.I | rewrite (Hs k Hm); exact Hk]. }
  assert (Gs : forall m, good s m -> good s2 m).
  { intros m G. apply (good_same s); [exact G | apply Hp | | rewrite Hw; reflexivity | rewrite Hw; reflexivity]. intros k Hk. rewrite (D1 k Hk), Hw. auto. }
  constructor.
  - intros x l Hl. rewrite Hi in Hl. rewrite Hw. destruct (j_inc s Hv x l Hl) as [X|X]; [left; exact X | right; apply F1, X].
  - intros x l Hl. rewrite Hi in Hl. apply (j_U s Hv x l Hl).
  - intros m l Hd Hl. rewrite Hp in Hl. rewrite Hw. destruct (j_impl s Hv m l Hd Hl) as [X|[(x & X1 & X2)|X]]; [left; exact X | right; left; exists x; auto | right; right; auto].
  - intros m l Hd Hl. rewrite Hp in Hl. apply (j_plain s Hv m l Hd Hl).
  - intros m l Hl. rewrite Hp in Hl. destruct (j_started s Hv m l Hl) as (q & Q1 & Q2). exists q. split; [exact Q1|].
    destruct (in_dec Nat.eq_dec q (task P n)) as [Hm|Hm]; [specialize (Hla q Hm); destruct (st (mm s2 q)); [destruct Hla | | | |]; discriminate | rewrite (Hs q Hm); exact Q2].
  - intros m x Hx. destruct (in_dec Nat.eq_dec m (task P n)) as [Hm|Hm].
    + rewrite Hw. destruct Hc as [Hc|Hc].
      * destruct (Hc m Hm) as [_ E]. rewrite E in Hx. destruct (j_csig s Hv m x Hx) as [_ X]. exfalso. apply (NL m Hm), done_late, X.
      * destruct (Hc m Hm) as (E1 & E2 & _). rewrite E2 in Hx. injection Hx as <-. split; [apply csig_ok, Hv | rewrite E1; reflexivity].
    + rewrite (Hs m Hm) in *. rewrite Hw. apply (j_csig s Hv m x Hx).
  - intros m t Ht Hl. destruct (in_dec Nat.eq_dec m (task P n)) as [Hm|Hm].
    + assert (Ht2 : In t (task P n)) by (destruct (task_same P U SO n m Hm) as (E & _); rewrite <- E; exact Ht). split; [apply Hla, Ht2|].
      destruct Hc as [Hc|Hc]; [destruct (Hc m Hm) as [-> _]; destruct (Hc t Ht2) as [-> _]; reflexivity | destruct (Hc m Hm) as (-> & _); destruct (Hc t Ht2) as (-> & _); reflexivity].
    + assert (Ht2 : ~ In t (task P n)).
      { intros X. apply Hm. destruct (task_same P U SO n t X) as (E & _). rewrite <- E. apply task_sym, Ht. }
      rewrite (Hs m Hm), (Hs t Ht2) in *. apply (j_late s Hv m t Ht Hl).
  - intros m Hm. destruct (in_dec Nat.eq_dec m (task P n)) as [Hi2|Hi2].
    + destruct Hc as [Hc|Hc]; [destruct (Hc m Hi2) as [E _]; rewrite E in Hm; discriminate|]. apply Gs, (Hc m Hi2).
    + rewrite (Hs m Hi2) in Hm. apply Gs, (j_done s Hv m Hm).
Qed.
Lemma ready_kids : forall s n t, ready P s n = true -> In t (task P n) -> (exists l, impl (mm s t) = Some l) /\ (forall k, In k (kids P s t) -> done (st (mm s k)) = true) /\ (forall k, In k (prereq P t) -> done (st (mm s k)) = true).
Proof.
  intros s n t Hr Ht. unfold ready in Hr. destruct (st (mm s n)); try discriminate. apply andb_true_iff in Hr. destruct Hr as [R1 R2]. split; [apply (all_scanned_impl P s n t R1 Ht)|].
  rewrite forallb_forall in R2. split; intros k Hk; apply R2; unfold waits_for; apply in_app_iff; [right | left]; apply in_flat_map; exists t; auto.
Qed.
Lemma inv2_failed : forall s n, inv2 s -> st (mm s n) = Pending -> inv2 (set_failed s (task P n)).
Proof.
  intros s n Hv Hn. apply (inv2_state s _ n Hv Hn); cbn [wd mm set_failed].
  - reflexivity.
  - intros m. destruct (mem m (task P n)); reflexivity.
  - intros m. destruct (mem m (task P n)); reflexivity.
  - intros m Hm. apply mem_false in Hm. rewrite Hm. reflexivity.
  - intros m Hm. apply mem_In in Hm. rewrite Hm. exact Logic.I.
  - left. intros m Hm. apply mem_In in Hm. rewrite Hm. split; reflexivity.
Qed.
Lemma inv2_done : forall s n, inv2 s -> ready P s n = true -> (forall t, In t (task P n) -> if derived P t then uptodate P H s t = true else missing s t = false) -> inv2 (set_done H s (task P n)).
Proof.
  intros s n Hv Hr Hu. apply (inv2_state s _ n Hv (ready_pending P s n Hr)); cbn [wd mm set_done].
  - reflexivity.
  - intros m. destruct (mem m (task P n)); reflexivity.
  - intros m. destruct (mem m (task P n)); reflexivity.
  - intros m Hm. apply mem_false in Hm. rewrite Hm. reflexivity.
  - intros m Hm. apply mem_In in Hm. rewrite Hm. exact Logic.I.
  - right. intros m Hm. destruct (ready_kids s n m Hr Hm) as (R1 & R2 & R3). specialize (Hu m Hm). assert (Hb := Hm). apply mem_In in Hb. rewrite Hb. cbn [st csig]. split; [reflexivity|]. split; [reflexivity|].
    constructor; [exact R1 | exact R2 | exact R3 | |]; intros Hd; rewrite Hd in Hu.
    + unfold uptodate in Hu. destruct (Fl s m); [|discriminate]. destruct (store (wd s) m) as [e|]; [|discriminate]. destruct (entry_eq e (info P H s m)) as [E|]; [|discriminate]. rewrite E, (info_ok s m Hv). reflexivity.
    + unfold missing in Hu. destruct (Fl s m); [discriminate | discriminate].
Qed.
Lemma waits_kid : forall s n t k, In t (task P n) -> In k (kids P s t) -> In k (waits_for P s n).
Proof. intros s n t k Ht Hk. unfold waits_for. apply in_app_iff. right. apply in_flat_map. exists t. auto. Qed.
Lemma inv2_execute : forall s n, inv2 s -> ready P s n = true -> derived P n = true -> inv2 (execute P H s n).
Proof.
  intros s n Hv Hr Hd. assert (Hn := ready_pending P s n Hr). unfold execute. destruct (run P (cmd P n) (map (Fl s) (kids P s n))) as [ok out]. cbv zeta. set (f := fun m => if mem m (task P n) then out m else Fl s m).
  assert (NL : forall m, In m (task P n) -> ~ late (st (mm s m))) by (intros m; apply not_late2; assumption).
  assert (Ff : forall m, ~ In m (task P n) -> f m = Fl s m) by (intros m Hm; apply mem_false in Hm; unfold f; rewrite Hm; reflexivity).
  assert (Fi : forall m, ~ In m (task P n) -> includes P f m = includes P (Fl s) m) by (intros m Hm; unfold includes; rewrite (Ff m Hm); reflexivity).
  assert (Dn : forall k, done (st (mm s k)) = true -> ~ In k (task P n)) by (intros k Hk Hm; apply (NL k Hm), done_late, Hk).
  (* the includes of m are still right unless m waits for the task *)
  assert (Ext : forall m l, l = closure P (includes P (Fl s)) (sources P m) -> (forall x, In x (sources P m ++ l) -> ~ In x (task P n)) -> l = closure P (includes P f) (sources P m)).
  { intros m l -> Hx. apply (s_ext P U SO). intros x Hf. symmetry. apply Fi, Hx, in_app_iff. destruct Hf as [Hf|Hf]; [left; exact Hf|]. destruct (s_all P U SO _ _ _ (fun y => includes_U (Fl s) y) Hf); auto. }
  assert (Cut : forall l : list node, (exists x, In x l /\ In x (task P n)) \/ (forall x, In x l -> ~ In x (task P n))).
  { intros l. induction l as [|a l IH]; [right; intros x Hx; destruct Hx|]. destruct (in_dec Nat.eq_dec a (task P n)) as [Ha|Ha]; [left; exists a; split; [left; reflexivity | exact Ha]|].
    destruct IH as [(x & X1 & X2)|IH]; [left; exists x; split; [right; exact X1 | exact X2] | right; intros x [<- |Hx]; [exact Ha | apply IH, Hx]]. }
  assert (Self : forall m l, In m (task P n) -> impl (mm s m) = Some l -> forall x, In x (sources P m ++ l) -> ~ In x (task P n)).
  { intros m l Hm Hl x Hx. apply Dn. destruct (ready_kids s n m Hr Hm) as (_ & R2 & _). apply R2. unfold kids, scan. rewrite Hl. apply in_app_iff in Hx. rewrite !in_app_iff. tauto. }
  destruct ok.
  - set (s2 := {| wd := _; mm := _ |}).
    assert (M1 : forall m, In m (task P n) -> mm s2 m = {| st := Executed; csig := Some (H (f m)); incs := None; impl := impl (mm s m) |}) by (intros m Hm; apply mem_In in Hm; unfold s2, f; cbn [mm]; rewrite Hm; reflexivity).
    assert (M2 : forall m, ~ In m (task P n) -> mm s2 m = {| st := st (mm s m); csig := csig (mm s m); incs := incs (mm s m); impl := if waiting P s (task P n) m then None else impl (mm s m) |})
      by (intros m Hm; apply mem_false in Hm; unfold s2; cbn [mm]; rewrite Hm; reflexivity).
    assert (Wd : forall m, done (st (mm s m)) = true -> waiting P s (task P n) m = false).
    { intros m Hm. unfold waiting. apply andb_false_iff. left. apply not_true_iff_false. intros X. apply existsb_exists in X. destruct X as (q & Q1 & Q2). unfold pending in Q2.
      destruct (j_late s Hv m q Q1 (done_late _ Hm)) as [X _]. destruct (st (mm s q)); try discriminate. exact X. }
    assert (D2 : forall k, done (st (mm s k)) = true -> done (st (mm s2 k)) = true /\ Fl s2 k = Fl s k).
    { intros k Hk. rewrite (M2 k (Dn k Hk)). cbn [st]. split; [exact Hk | apply (Ff k (Dn k Hk))]. }
    assert (Fa : forall x, st (mm s x) = Failed -> st (mm s2 x) = Failed).
    { intros x Hx. rewrite M2; [exact Hx|]. intros X. apply (NL x X). rewrite Hx. exact Logic.I. }
    assert (Hfresh : forall m, In m (task P n) -> exists l, impl (mm s m) = Some l /\ impl (mm s2 m) = Some l).
    { intros m Hm. destruct (ready_kids s n m Hr Hm) as ((l & R1) & _). exists l. split; [exact R1|]. rewrite (M1 m Hm). exact R1. }
    constructor.
    + intros x l Hl. destruct (in_dec Nat.eq_dec x (task P n)) as [Hm|Hm]; [rewrite (M1 x Hm) in Hl; discriminate|]. rewrite (M2 x Hm) in Hl. cbn [incs] in Hl. change (Fl s2) with f. rewrite (Fi x Hm).
      destruct (j_inc s Hv x l Hl) as [X|X]; [left; exact X | right; apply Fa, X].
    + intros x l Hl. destruct (in_dec Nat.eq_dec x (task P n)) as [Hm|Hm]; [rewrite (M1 x Hm) in Hl; discriminate|]. rewrite (M2 x Hm) in Hl. apply (j_U s Hv x l Hl).
    + intros m l Hdm Hl. change (Fl s2) with f. destruct (in_dec Nat.eq_dec m (task P n)) as [Hm|Hm].
      * rewrite (M1 m Hm) in Hl. cbn [impl] in Hl. destruct (j_impl s Hv m l Hdm Hl) as [X|[(x & X1 & X2)|X]].
        -- left. apply Ext; [exact X | apply (Self m l Hm Hl)].
        -- right; left. exists x. auto.
        -- exfalso. apply (NL m Hm). rewrite X. exact Logic.I.
      * rewrite (M2 m Hm) in Hl. cbn [impl] in Hl. destruct (waiting P s (task P n) m) eqn:Ew; [discriminate|]. destruct (j_impl s Hv m l Hdm Hl) as [X|[(x & X1 & X2)|X]].
        -- destruct (Cut (sources P m ++ l)) as [(x & X1 & X2)|C]; [|left; apply Ext; assumption].
           assert (Hk : In x (kids P s m)) by (unfold kids, scan; rewrite Hl; apply in_app_iff in X1; rewrite !in_app_iff; tauto).
           destruct (j_started s Hv m l Hl) as (q & Q1 & Q2). destruct (st (mm s q)) eqn:Eq; [contradiction| | | |].
           ++ exfalso. unfold waiting in Ew. apply andb_false_iff in Ew. destruct Ew as [Ew|Ew]; apply not_true_iff_false in Ew; apply Ew, existsb_exists.
              ** exists q. unfold pending. rewrite Eq. auto.
              ** exists x. split; [exact X2|]. apply mem_In, (waits_kid s m m x); [apply (self_task P U SO) | exact Hk].
           ++ assert (Lq : late (st (mm s q))) by (rewrite Eq; exact Logic.I). destruct (j_late s Hv q m (task_sym m q Q1) Lq) as [_ Dm]. rewrite Eq in Dm. exfalso. apply (Dn x); [apply (g_kids s m (j_done s Hv m Dm) x Hk) | exact X2].
           ++ assert (Lq : late (st (mm s q))) by (rewrite Eq; exact Logic.I). destruct (j_late s Hv q m (task_sym m q Q1) Lq) as [_ Dm]. rewrite Eq in Dm. exfalso. apply (Dn x); [apply (g_kids s m (j_done s Hv m Dm) x Hk) | exact X2].
           ++ assert (Lq : late (st (mm s q))) by (rewrite Eq; exact Logic.I). destruct (j_late s Hv q m (task_sym m q Q1) Lq) as [Lm Dm]. rewrite Eq in Dm. right; right. apply Fa. destruct (st (mm s m)); try (destruct Lm; fail); try discriminate. reflexivity.
        -- right; left. exists x. auto.
        -- right; right. auto.
    + intros m l Hdm Hl. destruct (in_dec Nat.eq_dec m (task P n)) as [Hm|Hm]; [rewrite (M1 m Hm) in Hl; apply (j_plain s Hv m l Hdm Hl)|]. rewrite (M2 m Hm) in Hl. cbn [impl] in Hl.
      destruct (waiting P s (task P n) m); [discriminate | apply (j_plain s Hv m l Hdm Hl)].
    + intros m l Hl. assert (Hl2 : impl (mm s m) = Some l).
      { destruct (in_dec Nat.eq_dec m (task P n)) as [Hm|Hm]; [rewrite (M1 m Hm) in Hl; exact Hl|]. rewrite (M2 m Hm) in Hl. cbn [impl] in Hl. destruct (waiting P s (task P n) m); [discriminate | exact Hl]. }
      destruct (j_started s Hv m l Hl2) as (q & Q1 & Q2). exists q. split; [exact Q1|]. destruct (in_dec Nat.eq_dec q (task P n)) as [Hm|Hm]; [rewrite (M1 q Hm); discriminate | rewrite (M2 q Hm); exact Q2].
    + intros m x Hx. change (Fl s2) with f. destruct (in_dec Nat.eq_dec m (task P n)) as [Hm|Hm]; [rewrite (M1 m Hm) in *; cbn [csig st] in *; injection Hx as <-; split; reflexivity|].
      rewrite (M2 m Hm) in *. cbn [csig st] in *. rewrite (Ff m Hm). apply (j_csig s Hv m x Hx).
    + intros m t Ht Hl. destruct (in_dec Nat.eq_dec m (task P n)) as [Hm|Hm].
      * assert (Ht2 : In t (task P n)) by (destruct (task_same P U SO n m Hm) as (E & _); rewrite <- E; exact Ht). rewrite (M1 m Hm), (M1 t Ht2). split; [exact Logic.I | reflexivity].
      * assert (Ht2 : ~ In t (task P n)) by (intros X; apply Hm; destruct (task_same P U SO n t X) as (E & _); rewrite <- E; apply task_sym, Ht).
        rewrite (M2 m Hm), (M2 t Ht2) in *. apply (j_late s Hv m t Ht Hl).
    + intros m Hm. destruct (in_dec Nat.eq_dec m (task P n)) as [Hi|Hi].
      * destruct (ready_kids s n m Hr Hi) as (_ & R2 & R3). destruct (Hfresh m Hi) as (l & L1 & L2). assert (K : kids P s2 m = kids P s m) by (apply (kids_same s s2 m l); assumption). constructor.
        -- exists l. exact L2.
        -- intros k Hk. rewrite K in Hk. apply D2, R2, Hk.
        -- intros k Hk. apply D2, R3, Hk.
        -- intros _. rewrite K. apply mem_In in Hi. unfold s2. cbn [wd store]. rewrite Hi. rewrite (info_ok s m Hv). do 2 f_equal. apply map_ext_in. intros k Hk. destruct (D2 k (R2 k Hk)) as [_ E]. change (Fl s2) with f in E. cbn [files]. fold f. rewrite E. reflexivity.
        -- intros X. pose proof (task_all_derived P U SO n m Hd Hi). congruence.
      * rewrite (M2 m Hi) in Hm. cbn [st] in Hm. apply (good_same s); [apply (j_done s Hv m Hm) | rewrite (M2 m Hi); cbn [impl]; rewrite (Wd m Hm); reflexivity | exact D2 | | apply (Ff m Hi)].
        unfold s2. cbn [wd store]. apply mem_false in Hi. rewrite Hi. reflexivity.
  - set (s1 := {| wd := {| files := f; store := store (wd s) |}; mm := mm s |}).
    assert (M1 : forall m, In m (task P n) -> mm (set_failed s1 (task P n)) m = {| st := Failed; csig := csig (mm s m); incs := incs (mm s m); impl := impl (mm s m) |}) by (intros m Hm; apply mem_In in Hm; unfold set_failed; cbn [mm]; rewrite Hm; reflexivity).
    assert (M2 : forall m, ~ In m (task P n) -> mm (set_failed s1 (task P n)) m = mm s m) by (intros m Hm; apply mem_false in Hm; unfold set_failed; cbn [mm]; rewrite Hm; reflexivity).
    assert (M3 : forall m, impl (mm (set_failed s1 (task P n)) m) = impl (mm s m)) by (intros m; unfold set_failed; cbn [mm]; destruct (mem m (task P n)); reflexivity).
    assert (M4 : forall m, incs (mm (set_failed s1 (task P n)) m) = incs (mm s m)) by (intros m; unfold set_failed; cbn [mm]; destruct (mem m (task P n)); reflexivity).
    assert (Fa : forall x, st (mm s x) = Failed -> st (mm (set_failed s1 (task P n)) x) = Failed).
    { intros x Hx. rewrite M2; [exact Hx|]. intros X. apply (NL x X). rewrite Hx. exact Logic.I. }
    set (s2 := set_failed s1 (task P n)) in *.
    assert (D2 : forall k, done (st (mm s k)) = true -> done (st (mm s2 k)) = true /\ Fl s2 k = Fl s k).
    { intros k Hk. rewrite (M2 k (Dn k Hk)). split; [exact Hk | apply (Ff k (Dn k Hk))]. }
    constructor.
    + intros x l Hl. rewrite M4 in Hl. change (Fl s2) with f. destruct (in_dec Nat.eq_dec x (task P n)) as [Hm|Hm]; [right; rewrite (M1 x Hm); reflexivity|]. rewrite (Fi x Hm).
      destruct (j_inc s Hv x l Hl) as [X|X]; [left; exact X | right; apply Fa, X].
    + intros x l Hl. rewrite M4 in Hl. apply (j_U s Hv x l Hl).
    + intros m l Hdm Hl. rewrite M3 in Hl. change (Fl s2) with f. destruct (j_impl s Hv m l Hdm Hl) as [X|[(x & X1 & X2)|X]]; [|right; left; exists x; auto | right; right; auto].
      destruct (Cut (sources P m ++ l)) as [(x & X1 & X2)|C]; [|left; apply Ext; assumption]. right; left. exists x. split; [exact X1 | rewrite (M1 x X2); reflexivity].
    + intros m l Hdm Hl. rewrite M3 in Hl. apply (j_plain s Hv m l Hdm Hl).
    + intros m l Hl. rewrite M3 in Hl. destruct (j_started s Hv m l Hl) as (q & Q1 & Q2). exists q. split; [exact Q1|]. destruct (in_dec Nat.eq_dec q (task P n)) as [Hm|Hm]; [rewrite (M1 q Hm); discriminate | rewrite (M2 q Hm); exact Q2].
    + intros m x Hx. change (Fl s2) with f. destruct (in_dec Nat.eq_dec m (task P n)) as [Hm|Hm].
      * rewrite (M1 m Hm) in Hx. destruct (j_csig s Hv m x Hx) as [_ X]. exfalso. apply (Dn m X Hm).
      * rewrite (M2 m Hm) in *. rewrite (Ff m Hm). apply (j_csig s Hv m x Hx).
    + intros m t Ht Hl. destruct (in_dec Nat.eq_dec m (task P n)) as [Hm|Hm].
      * assert (Ht2 : In t (task P n)) by (destruct (task_same P U SO n m Hm) as (E & _); rewrite <- E; exact Ht). rewrite (M1 m Hm), (M1 t Ht2). split; [exact Logic.I | reflexivity].
      * assert (Ht2 : ~ In t (task P n)) by (intros X; apply Hm; destruct (task_same P U SO n t X) as (E & _); rewrite <- E; apply task_sym, Ht).
        rewrite (M2 m Hm), (M2 t Ht2) in *. apply (j_late s Hv m t Ht Hl).
    + intros m Hm. destruct (in_dec Nat.eq_dec m (task P n)) as [Hi|Hi]; [rewrite (M1 m Hi) in Hm; discriminate|]. rewrite (M2 m Hi) in Hm. apply (good_same s); [apply (j_done s Hv m Hm) | apply M3 | exact D2 | reflexivity | apply (Ff m Hi)].
Qed.
Lemma inv2_step : forall ts s tr s2, step P H ts s tr s2 -> inv2 s -> inv2 s2.
Proof.
  intros ts s tr s2 Hst Hv. destruct Hst as [n Hw Hn|n Hr Hd Hm|n Hr Hd Hm|n Hr Hd Hu|n Hr Hd Hu|n Hp Hf].
  - apply inv2_consider; assumption.
  - rewrite <- (plain_task P n Hd). apply inv2_done; [exact Hv | exact Hr|]. intros t Ht. rewrite (plain_task P n Hd) in Ht. destruct Ht as [<- |[]]. rewrite Hd. exact Hm.
  - rewrite <- (plain_task P n Hd). apply inv2_failed; [exact Hv | apply (ready_pending P s n Hr)].
  - apply inv2_done; [exact Hv | exact Hr|]. intros t Ht. rewrite (task_all_derived P U SO n t Hd Ht). rewrite forallb_forall in Hu. apply Hu, Ht.
  - apply inv2_execute; assumption.
  - apply inv2_failed; assumption.
Qed.
Lemma inv2_steps : forall ts s tr s2, steps P H ts s tr s2 -> inv2 s -> inv2 s2.
Proof. intros ts s tr s2 Hs. induction Hs as [s|s tr s1 tr1 s2 H1 H2 IH]; intros Hv; [exact Hv | apply IH, (inv2_step ts s tr s1 H1 Hv)]. Qed.
Lemma kids_children : forall s n, inv2 s -> done (st (mm s n)) = true -> kids P s n = children P (wd s) n.
Proof.
  intros s n Hv Hn. destruct (j_done s Hv n Hn) as [(l & G1) G2 _ _ _]. unfold kids, children, scan. rewrite G1. do 2 f_equal. destruct (derived P n) eqn:Hd; [|apply (j_plain s Hv n l Hd G1)].
  destruct (j_impl s Hv n l Hd G1) as [X|[(x & X1 & X2)|X]]; [exact X | | rewrite X in Hn; discriminate]. exfalso.
  assert (In x (kids P s n)) by (unfold kids, scan; rewrite G1; apply in_app_iff in X1; rewrite !in_app_iff; tauto). specialize (G2 x H0). rewrite X2 in G2. discriminate.
Qed.
Lemma needed_done : forall ts s, inv2 s -> succeeded ts s -> forall m, needed P (wd s) ts m -> done (st (mm s m)) = true.
Proof.
  intros ts s Hv Hs m Hm. induction Hm as [t Ht|p q Hp IH Hq|p q Hp IH Hq]; [apply Hs, Ht | |].
  - apply (g_kids s p (j_done s Hv p IH)). rewrite (kids_children s p Hv IH). exact Hq.
  - apply (g_pre s p (j_done s Hv p IH)), Hq.
Qed.
End Current.
(* a run of scons that ends without a failure leaves everything its targets need current *)
Theorem C65_run_current : forall P H U ts s tr s2, sound P U -> (forall m, mm s m = fresh) -> steps P H ts s tr s2 -> succeeded ts s2 ->
  forall m, needed P (wd s2) ts m -> (derived P m = true -> current P H (wd s2) m) /\ (derived P m = false -> files (wd s2) m <> None).
Proof.
  intros P H U ts s tr s2 SO Hf Hs Hok m Hm. assert (V : inv2 P H U s2) by (apply (inv2_steps P H U SO ts s tr s2 Hs), inv2_start, Hf).
  pose proof (needed_done P H U ts s2 V Hok m Hm) as D. destruct (j_done P H U s2 V m D) as [_ _ _ G4 G5]. split; [|exact G5]. intros Hd. unfold current. rewrite <- (kids_children P H U s2 m V D). apply G4, Hd.
Qed.
(* and so does every build command of a session *)
Theorem C65b_current : forall P H U g w es trs s ts tr s2, sound P U -> steady P g -> fits P H g w es -> session P H (start w) es trs s -> steps P H ts s tr s2 -> succeeded ts s2 ->
  forall m, needed P (wd s2) ts m -> (derived P m = true -> current P H (wd s2) m) /\ (derived P m = false -> files (wd s2) m <> None).
Proof.
  intros P H U g w es trs s ts tr s2 SO ST F S Hs Hok. apply (C65_run_current P H U ts s tr s2 SO); [|exact Hs | exact Hok].
  apply (session_runs P H g U SO ST (start w) es trs s S); [intros m; reflexivity | exact F].
Qed.
Print Assumptions C65b_current.
