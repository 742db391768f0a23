(* C67: the invariant of a run with --implicit-cache *)
From Coq Require Import List Bool Arith Lia.
Import ListNotations.
From Verif Require Import ImcModel ImcSpec.

Lemma mem_In : forall n l, mem n l = true <-> In n l.
Proof.
  intros n l. unfold mem. rewrite existsb_exists. split; [intros (x & Hx & E); apply Nat.eqb_eq in E; subst; exact Hx | intros Hx; exists n; split; [exact Hx | apply Nat.eqb_refl]].
Qed.
Lemma mem_false : forall n l, mem n l = false <-> ~ In n l.
Proof. intros n l. rewrite <- mem_In. destruct (mem n l); split; intros; congruence. Qed.
Definition late (x : nstate) : Prop := match x with NoState | Pending => False | _ => True end.
Lemma done_late : forall x, done x = true -> late x.
Proof. intros []; cbn; intros; try discriminate; exact Logic.I. Qed.
Lemma map_app_eq : forall A B (g h : A -> B) a b b2, map g (a ++ b) = map h (a ++ b2) -> map g a = map h a /\ map g b = map h b2.
Proof. intros A B g h a. induction a as [|x a IH]; intros b b2 E; [auto|]. cbn in E. injection E as E1 E2. destruct (IH b b2 E2) as [I1 I2]. cbn. split; [congruence | exact I2]. Qed.
Lemma map_app_tail : forall A B (g h : A -> B) a a2 c, map g (a ++ c) = map h (a2 ++ c) -> map g c = map h c.
Proof.
  intros A B g h a. induction a as [|x a IH]; intros [|y a2] c E; cbn in E.
  - exact E.
  - apply (f_equal (@length B)) in E. cbn in E. rewrite !map_length, app_length in E. lia.
  - apply (f_equal (@length B)) in E. cbn in E. rewrite !map_length, app_length in E. lia.
  - injection E as E1 E2. apply (IH a2 c E2).
Qed.
Lemma map_eq_in : forall A B (g h : A -> B) l, map g l = map h l -> forall x, In x l -> g x = h x.
Proof. intros A B g h l. induction l as [|y l IH]; intros E x Hx; [destruct Hx|]. cbn in E. injection E as E1 E2. destruct Hx as [<- |Hx]; [exact E1 | apply (IH E2 x Hx)]. Qed.
Lemma list_eqb_eq : forall a b, list_eqb a b = true <-> a = b.
Proof. intros a b. unfold list_eqb. destruct (list_eq_dec Nat.eq_dec a b); split; intros; congruence. Qed.

Section Run.
Variable T : tools.
Variable H : option content -> sig.
Variable U : list node.
Hypothesis SO : sound T H U.
Variable src_of : node -> sig -> list node.
Variable find : content -> list node.
Variable P : project.
Hypothesis PP : proper P.
Hypothesis NS : names_sources src_of P.
Variable mo : mode.
Hypothesis MO : mo <> Unchanged.
Notation Fl s := (files (wd s)).

Definition inc (f : disk) (x : node) : list node := match f x with Some c => find c | None => [] end.
Definition names (e : entry) : list node := e_src e ++ e_dep e ++ e_imp e.
Definition truth (f : disk) (t : node) (e : entry) : Prop := e_cmd e = None \/
  exists c f0 out, e_cmd e = Some c /\ e_src e = src_of t c /\ e_imp e = closure T (inc f0) (e_src e) /\ e_sigs e = map (fun k => H (f0 k)) (names e) /\
    run T c (map f0 (names e)) = (true, out) /\ (derived P t = true -> forall x, f t = Some x -> out t = Some x).
Record good (s : state) (n : node) : Prop := {
  g_impl : exists l, impl (mm s n) = Some (l, l);
  g_kids : forall k, In k (kids P s n) -> done (st (mm s k)) = true;
  g_store : derived P n = true -> store (wd s) n = Some {| e_src := sources P n; e_dep := depends P n; e_imp := implicit s n; e_sigs := map (fun k => H (Fl s k)) (deps P s n); e_cmd := Some (cmd P n) |};
  g_cur : derived P n = true -> exists out, run T (cmd P n) (map (Fl s) (deps P s n)) = (true, out) /\ Fl s n = out n }.
Record inv (s : state) : Prop := {
  j_find : forall c, look T (is_there P (Fl s)) c = find c;
  j_inc : forall x l, incs (mm s x) = Some l -> l = inc (Fl s) x \/ st (mm s x) = Failed;
  j_U : forall x l, incs (mm s x) = Some l -> incl l U;
  j_impl : forall n l k, derived P n = true -> impl (mm s n) = Some (l, k) ->
    l = closure T (inc (Fl s)) (sources P n) \/ (exists x, In x (sources P n ++ l) /\ st (mm s x) = Failed) \/ st (mm s n) = Failed;
  j_memo : forall n l k, impl (mm s n) = Some (l, k) -> k = l \/ (l = [] /\ exists e, store (wd s) n = Some e /\ k = e_imp e);
  j_plain : forall n i, derived P n = false -> impl (mm s n) = Some i -> i = ([], []);
  j_started : forall n i, impl (mm s n) = Some i -> exists q, In q (task P n) /\ st (mm s q) <> NoState;
  j_csig : forall n x, csig (mm s n) = Some x -> x = H (Fl s n) \/ st (mm s n) = Failed;
  j_late : forall n t, In t (task P n) -> late (st (mm s n)) -> late (st (mm s t)) /\ done (st (mm s t)) = done (st (mm s n));
  j_done : forall n, done (st (mm s n)) = true -> good s n;
  j_rec : forall t e, store (wd s) t = Some e -> truth (Fl s) t e }.
Lemma find_U : forall s, inv s -> forall c, incl (find c) U.
Proof. intros s Hv c. rewrite <- (j_find s Hv c). apply (s_look T H U SO). Qed.
Lemma inc_U : forall s f x, inv s -> incl (inc f x) U.
Proof. intros s f x Hv. unfold inc. destruct (f x) as [c|]; [apply (find_U s Hv) | intros y Hy; destruct Hy]. Qed.
Lemma includes_inc : forall s x, inv s -> includes T P (Fl s) x = inc (Fl s) x.
Proof. intros s x Hv. unfold includes, inc. destruct (Fl s x) as [c|]; [apply (j_find s Hv) | reflexivity]. Qed.
Lemma self_task : forall n, In n (task P n).
Proof. intros n. unfold task. destruct (peers P n) as [|a l] eqn:E; [left; reflexivity|]. rewrite <- E. apply (p_self P PP). congruence. Qed.
Lemma task_peer : forall n t, In t (task P n) -> t = n \/ (In t (peers P n) /\ derived P n = true).
Proof. intros n t Ht. unfold task, derived in *. destruct (peers P n) as [|a l] eqn:E; [destruct Ht as [<- |[]]; left; reflexivity | right; split; [exact Ht | reflexivity]]. Qed.
Lemma task_same : forall n t, In t (task P n) -> task P t = task P n /\ derived P t = derived P n /\ sources P t = sources P n /\ depends P t = depends P n /\ cmd P t = cmd P n.
Proof.
  intros n t Ht. destruct (task_peer n t Ht) as [-> |[Hp Hd]]; [repeat split|]. destruct (p_peers P PP n t Hp) as (E1 & E2 & E3 & E4). unfold task, derived in *. rewrite E1. destruct (peers P n); [discriminate|]. auto.
Qed.
Lemma task_sym : forall n t, In t (task P n) -> In n (task P t).
Proof. intros n t Ht. destruct (task_same n t Ht) as (E & _). rewrite E. apply self_task. Qed.
Lemma task_derived : forall n t, derived P n = true -> In t (task P n) -> derived P t = true.
Proof. intros n t Hd Ht. destruct (task_same n t Ht) as (_ & E & _). congruence. Qed.
Lemma plain_task : forall n, derived P n = false -> task P n = [n].
Proof. intros n Hd. unfold derived, task in *. destruct (peers P n); [reflexivity | discriminate]. Qed.
Lemma first_in : forall n, In (first_target P n) (task P n).
Proof. intros n. unfold first_target. destruct (task P n) as [|a l] eqn:E; [pose proof (self_task n) as X; rewrite E in X; destruct X | left; reflexivity]. Qed.
Lemma not_late : forall s n t, inv s -> ~ late (st (mm s n)) -> In t (task P n) -> ~ late (st (mm s t)).
Proof. intros s n t Hv Hn Ht Hl. apply Hn. apply (j_late s Hv t n (task_sym n t Ht) Hl). Qed.
Lemma csig_ok : forall s n, inv s -> st (mm s n) <> Failed -> csig_now H s n = H (Fl s n).
Proof. intros s n Hv Hn. unfold csig_now. destruct (csig (mm s n)) as [x|] eqn:E; [|reflexivity]. destruct (j_csig s Hv n x E) as [X|X]; [exact X | contradiction]. Qed.
Lemma now_ok : forall s x, inv s -> st (mm s x) <> Failed -> incs_now T P s x = inc (Fl s) x.
Proof. intros s x Hv Hx. unfold incs_now. destruct (incs (mm s x)) as [l|] eqn:E; [|apply (includes_inc s x Hv)]. destruct (j_inc s Hv x l E); [assumption | contradiction]. Qed.
Lemma now_U : forall s, inv s -> forall x, incl (incs_now T P s x) U.
Proof. intros s Hv x. unfold incs_now. destruct (incs (mm s x)) as [l|] eqn:E; [apply (j_U s Hv x l E)|]. rewrite (includes_inc s x Hv). apply (inc_U s _ _ Hv). Qed.
Lemma failed_dec : forall s l, (exists x, In x l /\ st (mm s x) = Failed) \/ (forall x, In x l -> st (mm s x) <> Failed).
Proof.
  intros s l. induction l as [|a l IH]; [right; intros x Hx; destruct Hx|]. destruct (st (mm s a)) eqn:E; try (left; exists a; split; [left; reflexivity | exact E]);
    (destruct IH as [(x & Hx & Hf)|IH]; [left; exists x; split; [right; exact Hx | exact Hf] | right; intros x [<- |Hx]; [congruence | apply IH, Hx]]).
Qed.
Lemma full_right : forall s n, inv s -> full T P s n = closure T (inc (Fl s)) (sources P n) \/ exists x, In x (sources P n ++ full T P s n) /\ st (mm s x) = Failed.
Proof.
  intros s n Hv. destruct (failed_dec s (sources P n ++ full T P s n)) as [X|X]; [right; exact X|]. left. unfold full. apply (s_ext T H U SO). intros x Hx. apply now_ok; [exact Hv|]. apply X, in_app_iff. unfold full.
  destruct Hx as [Hx|Hx]; [left; exact Hx|]. destruct (s_all T H U SO _ _ _ (now_U s Hv) Hx); auto.
Qed.
(* the stored list is the right one if nothing has changed *)
Lemma stored_right : forall s t e, inv s -> derived P t = true -> store (wd s) t = Some e -> same H P s t (e_imp e) = true ->
  e_imp e = closure T (inc (Fl s)) (sources P t) \/ exists x, In x (sources P t ++ e_imp e) /\ st (mm s x) = Failed.
Proof.
  intros s t e Hv Hd Hs Hq. unfold same in Hq. rewrite Hs in Hq. destruct (Fl s t) as [c0|]; [|discriminate]. apply andb_true_iff in Hq. destruct Hq as [Q1 Q2]. apply list_eqb_eq in Q1.
  destruct (e_cmd e) as [c|] eqn:Ec; [|discriminate]. apply Nat.eqb_eq in Q2. subst c. destruct (j_rec s Hv t e Hs) as [X|(c & f0 & out & X1 & X2 & X3 & X4 & _)]; [congruence|].
  assert (c = cmd P t) by congruence. subst c. rewrite <- NS in X2. rewrite X4 in Q1. unfold names in Q1. rewrite X2 in Q1, X3. apply map_app_eq in Q1. destruct Q1 as [A1 A2]. apply map_app_tail in A2.
  destruct (failed_dec s (sources P t ++ e_imp e)) as [X|X]; [right; exact X|]. left. rewrite X3. apply (s_ext T H U SO). intros x Hx.
  assert (Hi : In x (sources P t ++ e_imp e)). { apply in_app_iff. destruct Hx as [Hx|Hx]; [left; exact Hx|]. destruct (s_all T H U SO _ _ _ (fun y => inc_U s f0 y Hv) Hx) as [Y|Y]; [right; rewrite X3; exact Y | left; exact Y]. }
  assert (E : H (f0 x) = csig_now H s x). { apply in_app_iff in Hi. destruct Hi as [Hi|Hi]; [exact (map_eq_in _ _ _ _ _ A1 x Hi) | exact (map_eq_in _ _ _ _ _ A2 x Hi)]. }
  rewrite (csig_ok s x Hv (X x Hi)) in E. apply (s_hash T H U SO) in E. unfold inc. rewrite E. reflexivity.
Qed.
Lemma good_same : forall s s2 n, good s n -> impl (mm s2 n) = impl (mm s n) -> (forall k, done (st (mm s k)) = true -> done (st (mm s2 k)) = true /\ Fl s2 k = Fl s k) -> store (wd s2) n = store (wd s) n ->
  Fl s2 n = Fl s n -> good s2 n.
Proof.
  intros s s2 n [(l & G1) G2 G3 G4] Hi Hd Hst Hf.
  assert (K : kids P s2 n = kids P s n) by (unfold kids, child_implicit; rewrite Hi; reflexivity). assert (D : deps P s2 n = deps P s n) by (unfold deps, implicit; rewrite Hi; reflexivity).
  assert (E : deps P s n = kids P s n) by (unfold deps, kids, implicit, child_implicit; rewrite G1; reflexivity).
  assert (F : forall k, In k (deps P s n) -> Fl s2 k = Fl s k) by (intros k Hk; rewrite E in Hk; apply Hd, G2, Hk).
  constructor.
  - exists l. congruence.
  - intros k Hk. rewrite K in Hk. apply Hd, G2, Hk.
  - intros Dn. rewrite Hst, D, (G3 Dn). unfold implicit. rewrite Hi. do 2 f_equal. apply map_ext_in. intros k Hk. rewrite (F k Hk). reflexivity.
  - intros Dn. destruct (G4 Dn) as (out & O1 & O2). exists out. rewrite D, Hf. split; [|exact O2]. rewrite <- O1. f_equal. apply map_ext_in. exact F.
Qed.
Lemma inv_start : forall w s, began w s -> (forall c, look T (is_there P (files w)) c = find c) -> (forall t e, store w t = Some e -> truth (files w) t e) -> inv s.
Proof. intros w s [Hw Hm] Hf Hr. constructor; try (intros; rewrite Hm in *; discriminate); try (rewrite Hw; assumption). intros n t Ht Hl. rewrite Hm in Hl. destruct Hl. Qed.

Lemma inv_consider : forall s n, inv s -> st (mm s n) = NoState \/ st (mm s n) = Pending -> inv (consider T H P mo s n).
Proof.
  intros s n Hv Hn. set (s2 := consider T H P mo s n).
  assert (NL : ~ late (st (mm s n))) by (destruct Hn as [-> | ->]; intros X; exact X).
  assert (S0 : forall m, st (mm s2 m) = if m =? n then match st (mm s m) with NoState => Pending | y => y end else st (mm s m)) by reflexivity.
  assert (S1 : forall m, late (st (mm s2 m)) <-> late (st (mm s m))) by (intros m; rewrite S0; destruct (m =? n); [destruct (st (mm s m)); reflexivity | reflexivity]).
  assert (S2 : forall m, done (st (mm s2 m)) = done (st (mm s m))) by (intros m; rewrite S0; destruct (m =? n); [destruct (st (mm s m)); reflexivity | reflexivity]).
  assert (S3 : forall m, st (mm s2 m) = Failed <-> st (mm s m) = Failed) by (intros m; rewrite S0; destruct (m =? n); [destruct (st (mm s m)); split; congruence | reflexivity]).
  assert (S4 : forall m, st (mm s m) <> NoState -> st (mm s2 m) <> NoState) by (intros m Hm; rewrite S0; destruct (m =? n); [destruct (st (mm s m)); congruence | exact Hm]).
  assert (W : wd s2 = wd s) by reflexivity.
  assert (C : forall m, csig (mm s2 m) = if needs_scan s (task P n) && mem m (signed P mo s n) then Some (csig_now H s m) else csig (mm s m)) by reflexivity.
  assert (I1 : forall m, incs (mm s2 m) = if needs_scan s (task P n) && mem m (scanned T H P mo s n) then Some (incs_now T P s m) else incs (mm s m)) by reflexivity.
  assert (I2 : forall m, impl (mm s2 m) = if needs_scan s (task P n) && mem m (task P n) then Some (new_impl T H P mo s n m) else impl (mm s m)) by reflexivity.
  clearbody s2.
  (* what the scan gives *)
  assert (R : forall m l k, In m (task P n) -> derived P m = true -> new_impl T H P mo s n m = (l, k) ->
    (l = closure T (inc (Fl s)) (sources P m) \/ (exists x, In x (sources P m ++ l) /\ st (mm s x) = Failed)) /\ (k = l \/ (l = [] /\ exists e, store (wd s) m = Some e /\ k = e_imp e))).
  { intros m l k Hm Hd E. destruct (task_same n m Hm) as (_ & Ed & Es & _ & _). assert (Hdn : derived P n = true) by congruence. rewrite Es. unfold new_impl in E. rewrite Hdn in E. cbv zeta in E.
    destruct (stored mo s (first_target P n)) as [l0|] eqn:E0.
    - unfold stored in E0. assert (Ei : exists e, store (wd s) (first_target P n) = Some e /\ l0 = e_imp e).
      { destruct mo; try discriminate; destruct (store (wd s) (first_target P n)) as [e|]; try discriminate; injection E0 as <-; exists e; auto. }
      destruct Ei as (e & Ee & ->). destruct (use_stored H P mo s (first_target P n) (e_imp e)) eqn:Eu.
      + injection E as <- <-. split; [|left; reflexivity]. assert (Q : same H P s (first_target P n) (e_imp e) = true) by (unfold use_stored in Eu; destruct mo; try exact Eu; exfalso; apply MO; reflexivity).
        destruct (task_same n _ (first_in n)) as (_ & D1 & D2 & _). assert (Df : derived P (first_target P n) = true) by congruence. pose proof (stored_right s _ e Hv Df Ee Q) as X. rewrite D2 in X. exact X.
      + injection E as <- <-. split; [apply (full_right s n Hv)|]. destruct (m =? first_target P n) eqn:Em; cbn [andb]; [|left; reflexivity]. apply Nat.eqb_eq in Em. subst m.
        destruct (full T P s n) as [|a r]; [right; split; [reflexivity | exists e; auto] | left; reflexivity].
    - injection E as <- <-. split; [apply (full_right s n Hv) | left; reflexivity]. }
  constructor.
  - rewrite W. apply (j_find s Hv).
  - intros x l Hl. rewrite I1 in Hl. rewrite S3, W. destruct (needs_scan s (task P n) && mem x (scanned T H P mo s n)); [|apply (j_inc s Hv x l Hl)]. injection Hl as <-. unfold incs_now.
    destruct (incs (mm s x)) as [l|] eqn:E; [apply (j_inc s Hv x l E) | left; apply (includes_inc s x Hv)].
  - intros x l Hl. rewrite I1 in Hl. destruct (needs_scan s (task P n) && mem x (scanned T H P mo s n)); [|apply (j_U s Hv x l Hl)]. injection Hl as <-. apply (now_U s Hv).
  - intros m l k Hd Hl. rewrite W.
    assert (X : l = closure T (inc (Fl s)) (sources P m) \/ (exists x, In x (sources P m ++ l) /\ st (mm s x) = Failed) \/ st (mm s m) = Failed).
    { rewrite I2 in Hl. destruct (needs_scan s (task P n) && mem m (task P n)) eqn:Eb; [|apply (j_impl s Hv m l k Hd Hl)]. apply andb_true_iff in Eb. destruct Eb as [_ Eb]. apply mem_In in Eb. injection Hl as Hl.
      destruct (R m l k Eb Hd Hl) as [[X|X] _]; auto. }
    destruct X as [X|[(x & X1 & X2)|X]]; [left; exact X | right; left; exists x; split; [exact X1 | apply S3, X2] | right; right; apply S3, X].
  - intros m l k Hl. rewrite W. rewrite I2 in Hl. destruct (needs_scan s (task P n) && mem m (task P n)) eqn:Eb; [|apply (j_memo s Hv m l k Hl)]. apply andb_true_iff in Eb. destruct Eb as [_ Eb]. apply mem_In in Eb. injection Hl as Hl.
    destruct (derived P m) eqn:Hd; [apply (R m l k Eb Hd Hl)|]. destruct (task_same n m Eb) as (_ & Ed & _). unfold new_impl in Hl. rewrite <- Ed, Hd in Hl. injection Hl as <- <-. left. reflexivity.
  - intros m i Hd Hl. rewrite I2 in Hl. destruct (needs_scan s (task P n) && mem m (task P n)) eqn:Eb; [|apply (j_plain s Hv m i Hd Hl)]. apply andb_true_iff in Eb. destruct Eb as [_ Eb]. apply mem_In in Eb. injection Hl as <-.
    destruct (task_same n m Eb) as (_ & Ed & _). unfold new_impl. rewrite <- Ed, Hd. reflexivity.
  - intros m i Hl. destruct (in_dec Nat.eq_dec m (task P n)) as [Ht|Ht].
    + exists n. split; [apply task_sym, Ht|]. rewrite S0, Nat.eqb_refl. destruct Hn as [-> | ->]; discriminate.
    + rewrite I2 in Hl. apply mem_false in Ht. rewrite Ht, andb_false_r in Hl. destruct (j_started s Hv m i Hl) as (q & Q1 & Q2). exists q. split; [exact Q1 | apply S4, Q2].
  - intros m x Hx. rewrite C in Hx. rewrite S3, W. destruct (needs_scan s (task P n) && mem m (signed P mo s n)); [|apply (j_csig s Hv m x Hx)]. injection Hx as <-. unfold csig_now.
    destruct (csig (mm s m)) as [x|] eqn:E; [apply (j_csig s Hv m x E) | left; reflexivity].
  - intros m t Ht Hl. rewrite S1 in *. rewrite !S2. apply (j_late s Hv m t Ht Hl).
  - intros m Hm. rewrite S2 in Hm. apply (good_same s); [apply (j_done s Hv m Hm) | | | rewrite W; reflexivity | rewrite W; reflexivity].
    + rewrite I2. destruct (mem m (task P n)) eqn:E; [|rewrite andb_false_r; reflexivity]. apply mem_In in E. exfalso. apply (not_late s n m Hv NL E), done_late, Hm.
    + intros k Hk. rewrite S2, W. auto.
  - rewrite W. apply (j_rec s Hv).
Qed.
Lemma ready_pending : forall s n, ready P s n = true -> st (mm s n) = Pending.
Proof. intros s n Hr. unfold ready in Hr. destruct (st (mm s n)); try discriminate. reflexivity. Qed.
Lemma ready_not_late : forall s n t, inv s -> st (mm s n) = Pending -> In t (task P n) -> ~ late (st (mm s t)).
Proof. intros s n t Hv Hn. apply not_late; [exact Hv|]. rewrite Hn. intros X; exact X. Qed.
Lemma ready_kids : forall s n t, ready P s n = true -> In t (task P n) -> (exists i, impl (mm s t) = Some i) /\ (forall k, In k (kids P s t) -> done (st (mm s k)) = true).
Proof.
  intros s n t Hr Ht. unfold ready in Hr. destruct (st (mm s n)); try discriminate. apply andb_true_iff in Hr. destruct Hr as [R1 R2]. split.
  - unfold all_scanned in R1. apply negb_true_iff in R1. unfold needs_scan in R1. destruct (impl (mm s t)) as [i|] eqn:E; [exists i; reflexivity|]. exfalso.
    assert (X : existsb (fun t => match impl (mm s t) with None => true | Some _ => false end) (task P n) = true) by (apply existsb_exists; exists t; rewrite E; auto). congruence.
  - intros k Hk. rewrite forallb_forall in R2. apply R2. unfold waits_for. apply in_flat_map. exists t. auto.
Qed.
Lemma deps_kids : forall s t, inv s -> (exists i, impl (mm s t) = Some i) -> incl (deps P s t) (kids P s t).
Proof.
  intros s t Hv ((l & k) & Ei) x Hx. unfold deps, kids, implicit, child_implicit in *. rewrite Ei in *. destruct (j_memo s Hv t l k Ei) as [-> |[-> _]]; [exact Hx|]. rewrite !in_app_iff in *. cbn [In] in Hx. tauto.
Qed.
Lemma done_not_failed : forall x, done x = true -> x <> Failed.
Proof. intros [] X; cbn in X; discriminate. Qed.
(* the implicit dependencies of a target whose children are done *)
Lemma impl_done : forall s t l k, inv s -> derived P t = true -> st (mm s t) <> Failed -> impl (mm s t) = Some (l, k) -> (forall x, In x (kids P s t) -> done (st (mm s x)) = true) -> l = closure T (inc (Fl s)) (sources P t).
Proof.
  intros s t l k Hv Hd Ht Hi Hk. destruct (j_impl s Hv t l k Hd Hi) as [X|[(x & X1 & X2)|X]]; [exact X | | contradiction]. exfalso. apply (done_not_failed (st (mm s x))); [apply Hk | exact X2].
  apply (deps_kids s t Hv); [exists (l, k); exact Hi|]. unfold deps, implicit. rewrite Hi. apply in_app_iff in X1. rewrite !in_app_iff. tauto.
Qed.
Lemma map_inj : forall A B (h : A -> B), (forall a b, h a = h b -> a = b) -> forall l l2, map h l = map h l2 -> l = l2.
Proof. intros A B h Hi l. induction l as [|a l IH]; intros [|b l2] E; try discriminate; [reflexivity|]. cbn in E. injection E as E1 E2. rewrite (Hi _ _ E1), (IH _ E2). reflexivity. Qed.
(* a target that is found to be up to date is current *)
Lemma uptodate_right : forall s t, inv s -> derived P t = true -> st (mm s t) <> Failed -> (exists i, impl (mm s t) = Some i) -> (forall x, In x (kids P s t) -> done (st (mm s x)) = true) -> uptodate H P s t = true ->
  (exists l, impl (mm s t) = Some (l, l)) /\ exists out, run T (cmd P t) (map (Fl s) (deps P s t)) = (true, out) /\ Fl s t = out t.
Proof.
  intros s t Hv Hd Ht ((l & k) & Hi) Hk Hu. pose proof (impl_done s t l k Hv Hd Ht Hi Hk) as L. unfold uptodate in Hu. assert (Ck : child_implicit s t = k) by (unfold child_implicit; rewrite Hi; reflexivity).
  assert (Ek : k = l).
  { destruct (j_memo s Hv t l k Hi) as [X|(X & e & Ee & Ek)]; [exact X|]. rewrite Ck, Ek in Hu. destruct (stored_right s t e Hv Hd Ee Hu) as [Y|(x & X1 & X2)]; [congruence|]. exfalso. apply (done_not_failed (st (mm s x))); [apply Hk | exact X2].
    unfold kids. rewrite Ck, Ek. apply in_app_iff in X1. rewrite !in_app_iff. tauto. }
  rewrite Ek in Hi. split; [exists l; exact Hi|]. assert (Dk : deps P s t = kids P s t) by (unfold deps, kids, implicit, child_implicit; rewrite Hi; reflexivity). rewrite Dk.
  unfold same in Hu. destruct (Fl s t) as [c0|] eqn:Ef; [|discriminate]. destruct (store (wd s) t) as [e|] eqn:Ee; [|discriminate]. apply andb_true_iff in Hu. destruct Hu as [U1 U2]. apply list_eqb_eq in U1.
  destruct (e_cmd e) as [c|] eqn:Ec; [|discriminate]. apply Nat.eqb_eq in U2. subst c. destruct (j_rec s Hv t e Ee) as [X|(c & f0 & out & X1 & X2 & X3 & X4 & X5 & X6)]; [congruence|]. assert (c = cmd P t) by congruence. subst c.
  fold (kids P s t) in U1. assert (E : map f0 (names e) = map (Fl s) (kids P s t)).
  { apply (map_inj _ _ H (s_hash T H U SO)). rewrite !map_map, <- X4, U1. apply map_ext_in. intros x Hx. apply csig_ok; [exact Hv | apply done_not_failed, Hk, Hx]. }
  exists out. rewrite <- E. split; [exact X5|]. symmetry. apply (X6 Hd c0). exact Ef.
Qed.
Lemma truth_new : forall f s t l out, inv s -> implicit s t = l -> l = closure T (inc f) (sources P t) -> run T (cmd P t) (map f (deps P s t)) = (true, out) -> f t = out t ->
  (forall k, In k (deps P s t) -> csig_now H s k = H (f k)) -> truth f t (record H P s t).
Proof.
  intros f s t l out Hv Hl Hc Hr Hf Hs. right. exists (cmd P t), f, out. unfold record, names. cbn [e_cmd e_src e_dep e_imp e_sigs]. split; [reflexivity|]. split; [apply NS|]. split; [rewrite Hl; exact Hc|].
  split; [apply map_ext_in; exact Hs|]. split; [exact Hr|]. intros _ x Hx. congruence.
Qed.
Lemma deps_csig : forall s n t, inv s -> ready P s n = true -> In t (task P n) -> forall k, In k (deps P s t) -> csig_now H s k = H (Fl s k) /\ done (st (mm s k)) = true.
Proof.
  intros s n t Hv Hr Ht k Hk. destruct (ready_kids s n t Hr Ht) as [R1 R2]. pose proof (R2 k (deps_kids s t Hv R1 k Hk)) as D. split; [apply csig_ok; [exact Hv | apply done_not_failed, D] | exact D].
Qed.

(* the states of a task change *)
Lemma inv_failed : forall s n, inv s -> st (mm s n) = Pending -> inv (set_failed s (task P n)).
Proof.
  intros s n Hv Hn. set (s2 := set_failed s (task P n)).
  assert (W : wd s2 = wd s) by reflexivity.
  assert (M1 : forall m, In m (task P n) -> st (mm s2 m) = Failed) by (intros m Hm; apply mem_In in Hm; unfold s2, set_failed; cbn [mm]; rewrite Hm; reflexivity).
  assert (M2 : forall m, ~ In m (task P n) -> mm s2 m = mm s m) by (intros m Hm; apply mem_false in Hm; unfold s2, set_failed; cbn [mm]; rewrite Hm; reflexivity).
  assert (M3 : forall m, csig (mm s2 m) = csig (mm s m) /\ incs (mm s2 m) = incs (mm s m) /\ impl (mm s2 m) = impl (mm s m)) by (intros m; unfold s2, set_failed; cbn [mm]; destruct (mem m (task P n)); auto).
  clearbody s2.
  assert (NL : forall m, In m (task P n) -> ~ late (st (mm s m))) by (intros m; apply ready_not_late; assumption).
  assert (D1 : forall k, done (st (mm s k)) = true -> mm s2 k = mm s k) by (intros k Hk; apply M2; intros Hm; apply (NL k Hm), done_late, Hk).
  assert (F1 : forall k, st (mm s k) = Failed -> st (mm s2 k) = Failed) by (intros k Hk; destruct (in_dec Nat.eq_dec k (task P n)) as [Hm|Hm]; [apply M1, Hm | rewrite (M2 k Hm); exact Hk]).
  constructor.
  - rewrite W. apply (j_find s Hv).
  - intros x l Hl. destruct (M3 x) as (_ & E & _). rewrite E in Hl. rewrite W. destruct (j_inc s Hv x l Hl) as [X|X]; auto.
  - intros x l Hl. destruct (M3 x) as (_ & E & _). rewrite E in Hl. apply (j_U s Hv x l Hl).
  - intros m l k Hd Hl. destruct (M3 m) as (_ & _ & E). rewrite E in Hl. rewrite W. destruct (j_impl s Hv m l k Hd Hl) as [X|[(x & X1 & X2)|X]]; [left; exact X | right; left; exists x; auto | right; right; auto].
  - intros m l k Hl. destruct (M3 m) as (_ & _ & E). rewrite E in Hl. rewrite W. apply (j_memo s Hv m l k Hl).
  - intros m i Hd Hl. destruct (M3 m) as (_ & _ & E). rewrite E in Hl. apply (j_plain s Hv m i Hd Hl).
  - intros m i Hl. destruct (M3 m) as (_ & _ & E). rewrite E in Hl. destruct (j_started s Hv m i Hl) as (q & Q1 & Q2). exists q. split; [exact Q1|].
    destruct (in_dec Nat.eq_dec q (task P n)) as [Hm|Hm]; [rewrite (M1 q Hm); discriminate | rewrite (M2 q Hm); exact Q2].
  - intros m x Hx. destruct (M3 m) as (E & _). rewrite E in Hx. rewrite W. destruct (j_csig s Hv m x Hx) as [X|X]; auto.
  - intros m t Ht Hl. destruct (in_dec Nat.eq_dec m (task P n)) as [Hm|Hm].
    + assert (Ht2 : In t (task P n)) by (destruct (task_same n m Hm) as (E & _); rewrite <- E; exact Ht). rewrite (M1 m Hm), (M1 t Ht2). split; [exact Logic.I | reflexivity].
    + assert (Ht2 : ~ In t (task P n)) by (intros X; apply Hm; destruct (task_same n t X) as (E & _); rewrite <- E; apply task_sym, Ht). rewrite (M2 m Hm), (M2 t Ht2) in *. apply (j_late s Hv m t Ht Hl).
  - intros m Hm. destruct (in_dec Nat.eq_dec m (task P n)) as [Hi|Hi]; [rewrite (M1 m Hi) in Hm; discriminate|]. rewrite (M2 m Hi) in Hm.
    apply (good_same s); [apply (j_done s Hv m Hm) | rewrite (M2 m Hi); reflexivity | | rewrite W; reflexivity | rewrite W; reflexivity]. intros k Hk. rewrite (D1 k Hk), W. auto.
  - rewrite W. apply (j_rec s Hv).
Qed.
Lemma inv_done : forall s n, inv s -> ready P s n = true -> (derived P n = true -> forallb (uptodate H P s) (task P n) = true) -> inv (set_done H P s (task P n)).
Proof.
  intros s n Hv Hr Hu. pose proof (ready_pending s n Hr) as Hn. set (s2 := set_done H P s (task P n)).
  assert (W : Fl s2 = Fl s) by reflexivity.
  assert (M1 : forall m, In m (task P n) -> st (mm s2 m) = UpToDate /\ csig (mm s2 m) = Some (csig_now H s m)) by (intros m Hm; apply mem_In in Hm; unfold s2, set_done; cbn [mm]; rewrite Hm; auto).
  assert (M2 : forall m, ~ In m (task P n) -> mm s2 m = mm s m /\ store (wd s2) m = store (wd s) m) by (intros m Hm; apply mem_false in Hm; unfold s2, set_done; cbn [mm wd store]; rewrite Hm; auto).
  assert (M3 : forall m, incs (mm s2 m) = incs (mm s m) /\ impl (mm s2 m) = impl (mm s m)) by (intros m; unfold s2, set_done; cbn [mm]; destruct (mem m (task P n)); auto).
  assert (M4 : forall m, In m (task P n) -> store (wd s2) m = Some (if derived P m then record H P s m else match store (wd s) m with Some e => e | None => blank end)) by (intros m Hm; apply mem_In in Hm; unfold s2, set_done; cbn [wd store]; rewrite Hm; reflexivity).
  clearbody s2.
  assert (NL : forall m, In m (task P n) -> ~ late (st (mm s m))) by (intros m; apply ready_not_late; assumption).
  assert (NF : forall m, In m (task P n) -> st (mm s m) <> Failed) by (intros m Hm X; apply (NL m Hm); rewrite X; exact Logic.I).
  assert (D1 : forall k, done (st (mm s k)) = true -> mm s2 k = mm s k) by (intros k Hk; apply M2; intros Hm; apply (NL k Hm), done_late, Hk).
  assert (F1 : forall k, st (mm s k) = Failed -> st (mm s2 k) = Failed) by (intros k Hk; destruct (in_dec Nat.eq_dec k (task P n)) as [Hm|Hm]; [exfalso; apply (NF k Hm Hk) | destruct (M2 k Hm) as [-> _]; exact Hk]).
  assert (D2 : forall k, done (st (mm s k)) = true -> done (st (mm s2 k)) = true /\ Fl s2 k = Fl s k) by (intros k Hk; rewrite (D1 k Hk), W; auto).
  assert (R : forall m, In m (task P n) -> derived P m = true -> (exists l, impl (mm s m) = Some (l, l)) /\ exists out, run T (cmd P m) (map (Fl s) (deps P s m)) = (true, out) /\ Fl s m = out m).
  { intros m Hm Hd. destruct (ready_kids s n m Hr Hm) as [R1 R2]. apply uptodate_right; auto. assert (Hdn : derived P n = true) by (destruct (task_same n m Hm) as (_ & E & _); congruence). specialize (Hu Hdn). rewrite forallb_forall in Hu. apply Hu, Hm. }
  constructor.
  - rewrite W. apply (j_find s Hv).
  - intros x l Hl. destruct (M3 x) as (E & _). rewrite E in Hl. rewrite W. destruct (j_inc s Hv x l Hl) as [X|X]; auto.
  - intros x l Hl. destruct (M3 x) as (E & _). rewrite E in Hl. apply (j_U s Hv x l Hl).
  - intros m l k Hd Hl. destruct (M3 m) as (_ & E). rewrite E in Hl. rewrite W. destruct (j_impl s Hv m l k Hd Hl) as [X|[(x & X1 & X2)|X]]; [left; exact X | right; left; exists x; auto | right; right; auto].
  - intros m l k Hl. destruct (M3 m) as (_ & E). rewrite E in Hl. destruct (in_dec Nat.eq_dec m (task P n)) as [Hm|Hm].
    + left. destruct (derived P m) eqn:Hd; [destruct (R m Hm Hd) as [(l2 & E2) _]; congruence|]. pose proof (j_plain s Hv m _ Hd Hl) as X. congruence.
    + destruct (M2 m Hm) as [_ ->]. apply (j_memo s Hv m l k Hl).
  - intros m i Hd Hl. destruct (M3 m) as (_ & E). rewrite E in Hl. apply (j_plain s Hv m i Hd Hl).
  - intros m i Hl. destruct (M3 m) as (_ & E). rewrite E in Hl. destruct (j_started s Hv m i Hl) as (q & Q1 & Q2). exists q. split; [exact Q1|].
    destruct (in_dec Nat.eq_dec q (task P n)) as [Hm|Hm]; [destruct (M1 q Hm) as [-> _]; discriminate | destruct (M2 q Hm) as [-> _]; exact Q2].
  - intros m x Hx. rewrite W. destruct (in_dec Nat.eq_dec m (task P n)) as [Hm|Hm].
    + destruct (M1 m Hm) as [_ E]. rewrite E in Hx. injection Hx as <-. left. apply csig_ok; [exact Hv | apply NF, Hm].
    + destruct (M2 m Hm) as [E _]. rewrite E in *. apply (j_csig s Hv m x Hx).
  - intros m t Ht Hl. destruct (in_dec Nat.eq_dec m (task P n)) as [Hm|Hm].
    + assert (Ht2 : In t (task P n)) by (destruct (task_same n m Hm) as (E & _); rewrite <- E; exact Ht). destruct (M1 m Hm) as [-> _]. destruct (M1 t Ht2) as [-> _]. split; [exact Logic.I | reflexivity].
    + assert (Ht2 : ~ In t (task P n)) by (intros X; apply Hm; destruct (task_same n t X) as (E & _); rewrite <- E; apply task_sym, Ht). destruct (M2 m Hm) as [E1 _]. destruct (M2 t Ht2) as [E2 _]. rewrite E1, E2 in *. apply (j_late s Hv m t Ht Hl).
  - intros m Hm. destruct (in_dec Nat.eq_dec m (task P n)) as [Hi|Hi].
    + destruct (ready_kids s n m Hr Hi) as [R1 R2]. destruct (M3 m) as (_ & Ei).
      assert (K : kids P s2 m = kids P s m) by (unfold kids, child_implicit; rewrite Ei; reflexivity). assert (D : deps P s2 m = deps P s m) by (unfold deps, implicit; rewrite Ei; reflexivity).
      constructor.
      * rewrite Ei. destruct (derived P m) eqn:Hd; [apply (R m Hi Hd)|]. destruct R1 as (i & E). rewrite E. rewrite (j_plain s Hv m i Hd E). exists []. reflexivity.
      * intros k Hk. rewrite K in Hk. apply D2, R2, Hk.
      * intros Hd. rewrite (M4 m Hi), Hd, D, W. unfold record, implicit. rewrite Ei. do 2 f_equal. apply map_ext_in. intros k Hk. apply (deps_csig s n m Hv Hr Hi k Hk).
      * intros Hd. rewrite D, W. apply (R m Hi Hd).
    + destruct (M2 m Hi) as [E1 E2]. rewrite E1 in Hm. apply (good_same s); [apply (j_done s Hv m Hm) | rewrite E1; reflexivity | exact D2 | exact E2 | rewrite W; reflexivity].
  - intros t e He. rewrite W. destruct (in_dec Nat.eq_dec t (task P n)) as [Hi|Hi].
    + rewrite (M4 t Hi) in He. injection He as <-. destruct (derived P t) eqn:Hd.
      * destruct (R t Hi Hd) as [(l & E) (out & O1 & O2)]. destruct (ready_kids s n t Hr Hi) as [R1 R2].
        apply (truth_new (Fl s) s t l out Hv); [unfold implicit; rewrite E; reflexivity | apply (impl_done s t l l Hv Hd (NF t Hi) E R2) | exact O1 | exact O2 | intros k Hk; apply (deps_csig s n t Hv Hr Hi k Hk)].
      * destruct (store (wd s) t) as [e|] eqn:Es; [apply (j_rec s Hv t e Es) | left; reflexivity].
    + destruct (M2 t Hi) as [_ E]. rewrite E in He. apply (j_rec s Hv t e He).
Qed.
Lemma there_same : forall f1 f2 m, (derived P m = false -> f1 m = f2 m) -> is_there P f1 m = is_there P f2 m.
Proof. intros f1 f2 m Hm. unfold is_there. destruct (derived P m); [reflexivity|]. rewrite (Hm eq_refl). reflexivity. Qed.
Lemma inv_execute : forall s n, inv s -> ready P s n = true -> derived P n = true -> inv (execute T H P s n).
Proof.
  intros s n Hv Hr Hd. pose proof (ready_pending s n Hr) as Hn. unfold execute. destruct (run T (cmd P n) (map (Fl s) (deps P s n))) as [ok out] eqn:Er. cbv zeta.
  set (f := fun m => if mem m (task P n) then out m else Fl s m).
  assert (NL : forall m, In m (task P n) -> ~ late (st (mm s m))) by (intros m; apply ready_not_late; assumption).
  assert (NF : forall m, In m (task P n) -> st (mm s m) <> Failed) by (intros m Hm X; apply (NL m Hm); rewrite X; exact Logic.I).
  assert (Ff : forall m, ~ In m (task P n) -> f m = Fl s m) by (intros m Hm; apply mem_false in Hm; unfold f; rewrite Hm; reflexivity).
  assert (Fo : forall m, In m (task P n) -> f m = out m) by (intros m Hm; apply mem_In in Hm; unfold f; rewrite Hm; reflexivity).
  assert (Fi : forall m, ~ In m (task P n) -> inc f m = inc (Fl s) m) by (intros m Hm; unfold inc; rewrite (Ff m Hm); reflexivity).
  assert (Fd : forall m, derived P m = false -> f m = Fl s m) by (intros m Hm; apply Ff; intros X; pose proof (task_derived n m Hd X); congruence).
  assert (Fj : forall c, look T (is_there P f) c = find c) by (intros c; rewrite <- (j_find s Hv c); apply (s_same T H U SO); intros m; apply there_same, Fd).
  assert (Dn : forall k, done (st (mm s k)) = true -> ~ In k (task P n)) by (intros k Hk Hm; apply (NL k Hm), done_late, Hk).
  assert (Ext : forall m l, l = closure T (inc (Fl s)) (sources P m) -> (forall x, In x (sources P m ++ l) -> ~ In x (task P n)) -> l = closure T (inc f) (sources P m)).
  { intros m l -> Hx. apply (s_ext T H U SO). intros x Hf. symmetry. apply Fi, Hx, in_app_iff. destruct Hf as [Hf|Hf]; [left; exact Hf|]. destruct (s_all T H U SO _ _ _ (fun y => inc_U s (Fl s) y Hv) Hf); auto. }
  assert (Cut : forall l : list node, (exists x, In x l /\ In x (task P n)) \/ (forall x, In x l -> ~ In x (task P n))).
  { intros l. induction l as [|a l IH]; [right; intros x Hx; destruct Hx|]. destruct (in_dec Nat.eq_dec a (task P n)) as [Ha|Ha]; [left; exists a; split; [left; reflexivity | exact Ha]|].
    destruct IH as [(x & X1 & X2)|IH]; [left; exists x; split; [right; exact X1 | exact X2] | right; intros x [<- |Hx]; [exact Ha | apply IH, Hx]]. }
  assert (Sl : forall m l k, impl (mm s m) = Some (l, k) -> incl (sources P m ++ l) (deps P s m)) by (intros m l k Hl x Hx; unfold deps, implicit; rewrite Hl; apply in_app_iff in Hx; rewrite !in_app_iff; tauto).
  assert (Self : forall m l k, In m (task P n) -> impl (mm s m) = Some (l, k) -> forall x, In x (deps P s m) -> ~ In x (task P n)).
  { intros m l k Hm Hl x Hx. apply Dn. apply (deps_csig s n m Hv Hr Hm x Hx). }
  assert (Kd : forall m, In m (task P n) -> exists l, (exists k, impl (mm s m) = Some (l, k)) /\ l = closure T (inc (Fl s)) (sources P m) /\ deps P s m = deps P s n).
  { assert (X : forall m, In m (task P n) -> exists l k, impl (mm s m) = Some (l, k) /\ l = closure T (inc (Fl s)) (sources P m)).
    { intros m Hm. destruct (ready_kids s n m Hr Hm) as [((l & k) & Ei) R2]. exists l, k. split; [exact Ei|]. apply (impl_done s m l k Hv (task_derived n m Hd Hm) (NF m Hm) Ei R2). }
    intros m Hm. destruct (X m Hm) as (l & k & E1 & E2). destruct (X n (self_task n)) as (ln & kn & E3 & E4). exists l. split; [exists k; exact E1|]. split; [exact E2|].
    destruct (task_same n m Hm) as (_ & _ & Es & Ed & _). unfold deps, implicit. rewrite E1, E3, Es, Ed, E2, E4, Es. reflexivity. }
  destruct ok.
  - set (s2 := {| wd := _; mm := _ |}).
    assert (M1 : forall m, In m (task P n) -> mm s2 m = {| st := Executed; csig := Some (H (f m)); incs := None; impl := match impl (mm s m) with Some (i, _) => Some (i, i) | None => None end |}) by (intros m Hm; apply mem_In in Hm; unfold s2, f; cbn [mm]; rewrite Hm; reflexivity).
    assert (M2 : forall m, ~ In m (task P n) -> mm s2 m = {| st := st (mm s m); csig := csig (mm s m); incs := incs (mm s m); impl := if waiting P s (task P n) m then None else impl (mm s m) |})
      by (intros m Hm; apply mem_false in Hm; unfold s2; cbn [mm]; rewrite Hm; reflexivity).
    assert (W : Fl s2 = f) by reflexivity.
    assert (W1 : forall m, In m (task P n) -> store (wd s2) m = Some (record H P s m)) by (intros m Hm; apply mem_In in Hm; unfold s2; cbn [wd store]; rewrite Hm; reflexivity).
    assert (W2 : forall m, ~ In m (task P n) -> store (wd s2) m = store (wd s) m) by (intros m Hm; apply mem_false in Hm; unfold s2; cbn [wd store]; rewrite Hm; reflexivity).
    clearbody s2.
    assert (Wd : forall m, done (st (mm s m)) = true -> waiting P s (task P n) m = false).
    { intros m Hm. unfold waiting. apply andb_false_iff. left. apply not_true_iff_false. intros X. apply existsb_exists in X. destruct X as (q & Q1 & Q2). unfold pending in Q2.
      destruct (j_late s Hv m q Q1 (done_late _ Hm)) as [X _]. destruct (st (mm s q)); try discriminate. exact X. }
    assert (D2 : forall k, done (st (mm s k)) = true -> done (st (mm s2 k)) = true /\ Fl s2 k = Fl s k).
    { intros k Hk. rewrite (M2 k (Dn k Hk)), W. cbn [st]. split; [exact Hk | apply (Ff k (Dn k Hk))]. }
    assert (Fa : forall x, st (mm s x) = Failed -> st (mm s2 x) = Failed).
    { intros x Hx. rewrite M2; [exact Hx|]. intros X. apply (NF x X Hx). }
    constructor.
    + rewrite W. exact Fj.
    + intros x l Hl. destruct (in_dec Nat.eq_dec x (task P n)) as [Hm|Hm]; [rewrite (M1 x Hm) in Hl; discriminate|]. rewrite (M2 x Hm) in Hl. cbn [incs] in Hl. rewrite W, (Fi x Hm).
      destruct (j_inc s Hv x l Hl) as [X|X]; [left; exact X | right; apply Fa, X].
    + intros x l Hl. destruct (in_dec Nat.eq_dec x (task P n)) as [Hm|Hm]; [rewrite (M1 x Hm) in Hl; discriminate|]. rewrite (M2 x Hm) in Hl. apply (j_U s Hv x l Hl).
    + intros m l k Hdm Hl. rewrite W. destruct (in_dec Nat.eq_dec m (task P n)) as [Hm|Hm].
      * rewrite (M1 m Hm) in Hl. cbn [impl] in Hl. destruct (Kd m Hm) as (l2 & (k2 & E1) & E2 & _). rewrite E1 in Hl. injection Hl as <- <-.
        left. apply Ext; [exact E2|]. intros x Hx. apply (Self m l2 k2 Hm E1). apply (Sl m l2 k2 E1), Hx.
      * rewrite (M2 m Hm) in Hl. cbn [impl] in Hl. destruct (waiting P s (task P n) m) eqn:Ew; [discriminate|]. destruct (j_impl s Hv m l k Hdm Hl) as [X|[(x & X1 & X2)|X]].
        -- destruct (Cut (sources P m ++ l)) as [(x & X1 & X2)|C]; [|left; apply Ext; assumption].
           assert (Hk : In x (kids P s m)) by (apply (deps_kids s m Hv); [exists (l, k); exact Hl | apply (Sl m l k Hl), X1]).
           destruct (j_started s Hv m _ Hl) as (q & Q1 & Q2).
           assert (Done : done (st (mm s q)) = true -> False).
           { intros Dq. destruct (j_late s Hv q m (task_sym m q Q1) (done_late _ Dq)) as [_ Dm]. rewrite Dq in Dm. apply (Dn x); [apply (g_kids s m (j_done s Hv m Dm) x Hk) | exact X2]. }
           destruct (st (mm s q)) eqn:Eq; [contradiction| | exfalso; apply Done; reflexivity | exfalso; apply Done; reflexivity |].
           ++ exfalso. unfold waiting in Ew. apply andb_false_iff in Ew. destruct Ew as [Ew|Ew]; apply not_true_iff_false in Ew; apply Ew, existsb_exists.
              ** exists q. unfold pending. rewrite Eq. auto.
              ** exists x. split; [exact X2|]. apply mem_In. unfold waits_for. apply in_flat_map. exists m. split; [apply self_task | exact Hk].
           ++ assert (Lq : late (st (mm s q))) by (rewrite Eq; exact Logic.I). destruct (j_late s Hv q m (task_sym m q Q1) Lq) as [Lm Dm]. rewrite Eq in Dm. right; right. apply Fa. destruct (st (mm s m)); try (destruct Lm; fail); try discriminate. reflexivity.
        -- right; left. exists x. auto.
        -- right; right. auto.
    + intros m l k Hl. destruct (in_dec Nat.eq_dec m (task P n)) as [Hm|Hm].
      * rewrite (M1 m Hm) in Hl. cbn [impl] in Hl. destruct (impl (mm s m)) as [[a b]|]; [|discriminate]. injection Hl as <- <-. left. reflexivity.
      * rewrite (M2 m Hm) in Hl. cbn [impl] in Hl. destruct (waiting P s (task P n) m); [discriminate|]. rewrite (W2 m Hm). apply (j_memo s Hv m l k Hl).
    + intros m i Hdm Hl. destruct (in_dec Nat.eq_dec m (task P n)) as [Hm|Hm]; [pose proof (task_derived n m Hd Hm); congruence|]. rewrite (M2 m Hm) in Hl. cbn [impl] in Hl.
      destruct (waiting P s (task P n) m); [discriminate | apply (j_plain s Hv m i Hdm Hl)].
    + intros m i Hl. assert (Hl2 : exists i2, impl (mm s m) = Some i2).
      { destruct (in_dec Nat.eq_dec m (task P n)) as [Hm|Hm]; [rewrite (M1 m Hm) in Hl; cbn [impl] in Hl; destruct (impl (mm s m)) as [i2|]; [exists i2; reflexivity | discriminate]|].
        rewrite (M2 m Hm) in Hl. cbn [impl] in Hl. destruct (waiting P s (task P n) m); [discriminate | exists i; exact Hl]. }
      destruct Hl2 as (i2 & Hl2). destruct (j_started s Hv m i2 Hl2) as (q & Q1 & Q2). exists q. split; [exact Q1|]. destruct (in_dec Nat.eq_dec q (task P n)) as [Hm|Hm]; [rewrite (M1 q Hm); discriminate | rewrite (M2 q Hm); exact Q2].
    + intros m x Hx. rewrite W. destruct (in_dec Nat.eq_dec m (task P n)) as [Hm|Hm]; [rewrite (M1 m Hm) in *; cbn [csig st] in *; injection Hx as <-; left; reflexivity|].
      rewrite (M2 m Hm) in *. cbn [csig st] in *. rewrite (Ff m Hm). apply (j_csig s Hv m x Hx).
    + intros m t Ht Hl. destruct (in_dec Nat.eq_dec m (task P n)) as [Hm|Hm].
      * assert (Ht2 : In t (task P n)) by (destruct (task_same n m Hm) as (E & _); rewrite <- E; exact Ht). rewrite (M1 m Hm), (M1 t Ht2). split; [exact Logic.I | reflexivity].
      * assert (Ht2 : ~ In t (task P n)) by (intros X; apply Hm; destruct (task_same n t X) as (E & _); rewrite <- E; apply task_sym, Ht).
        rewrite (M2 m Hm), (M2 t Ht2) in *. apply (j_late s Hv m t Ht Hl).
    + intros m Hm. destruct (in_dec Nat.eq_dec m (task P n)) as [Hi|Hi].
      * destruct (Kd m Hi) as (l & (k & E1) & E2 & E3). destruct (task_same n m Hi) as (_ & _ & _ & _ & Ec).
        assert (Ei : impl (mm s2 m) = Some (l, l)) by (rewrite (M1 m Hi); cbn [impl]; rewrite E1; reflexivity).
        assert (D : deps P s2 m = deps P s m) by (unfold deps, implicit; rewrite Ei, E1; reflexivity). assert (K : kids P s2 m = deps P s m) by (unfold kids, child_implicit, deps, implicit; rewrite Ei, E1; reflexivity).
        assert (Ef : forall x, In x (deps P s m) -> f x = Fl s x) by (intros x Hx; apply Ff, (Self m l k Hi E1 x Hx)).
        constructor.
        -- exists l. exact Ei.
        -- intros x Hx. rewrite K in Hx. apply D2. apply (deps_csig s n m Hv Hr Hi x Hx).
        -- intros _. rewrite (W1 m Hi), D, W. unfold record, implicit. rewrite E1, Ei. do 2 f_equal. apply map_ext_in. intros x Hx. rewrite (Ef x Hx). apply (deps_csig s n m Hv Hr Hi x Hx).
        -- intros _. rewrite D, W. exists out. split; [|apply Fo, Hi]. rewrite Ec. rewrite <- Er. f_equal. rewrite <- E3. apply map_ext_in. exact Ef.
      * rewrite (M2 m Hi) in Hm. cbn [st] in Hm. apply (good_same s); [apply (j_done s Hv m Hm) | rewrite (M2 m Hi); cbn [impl]; rewrite (Wd m Hm); reflexivity | exact D2 | apply (W2 m Hi) | rewrite W; apply (Ff m Hi)].
    + intros t e He. rewrite W. destruct (in_dec Nat.eq_dec t (task P n)) as [Hi|Hi].
      * rewrite (W1 t Hi) in He. injection He as <-. destruct (Kd t Hi) as (l & (k & E1) & E2 & E3). destruct (task_same n t Hi) as (_ & _ & _ & _ & Ec).
        assert (Ef : forall x, In x (deps P s t) -> f x = Fl s x) by (intros x Hx; apply Ff, (Self t l k Hi E1 x Hx)).
        apply (truth_new f s t l out Hv).
        -- unfold implicit. rewrite E1. reflexivity.
        -- apply Ext; [exact E2|]. intros x Hx. apply (Self t l k Hi E1), (Sl t l k E1), Hx.
        -- rewrite Ec, <- Er. f_equal. rewrite <- E3. apply map_ext_in. exact Ef.
        -- apply Fo, Hi.
        -- intros x Hx. rewrite (Ef x Hx). apply (deps_csig s n t Hv Hr Hi x Hx).
      * rewrite (W2 t Hi) in He. destruct (j_rec s Hv t e He) as [X|(c & f0 & o0 & X1 & X2 & X3 & X4 & X5 & X6)]; [left; exact X|]. right. exists c, f0, o0. rewrite (Ff t Hi). auto 10.
  - assert (I1 : inv {| wd := {| files := Fl s; store := store (wd s) |}; mm := mm s |}).
    { destruct Hv as [V1 V2 V3 V4 V5 V6 V7 V8 V9 V10 V11]. constructor; cbn [wd mm files store]; auto. intros m Hm. destruct (V10 m Hm) as [G1 G2 G3 G4]. constructor; cbn [wd mm files store]; auto. }
    set (s1 := {| wd := {| files := f; store := store (wd s) |}; mm := mm s |}). set (s2 := set_failed s1 (task P n)).
    assert (M1 : forall m, In m (task P n) -> mm s2 m = {| st := Failed; csig := csig (mm s m); incs := incs (mm s m); impl := impl (mm s m) |}) by (intros m Hm; apply mem_In in Hm; unfold s2, set_failed; cbn [mm]; rewrite Hm; reflexivity).
    assert (M2 : forall m, ~ In m (task P n) -> mm s2 m = mm s m) by (intros m Hm; apply mem_false in Hm; unfold s2, set_failed; cbn [mm]; rewrite Hm; reflexivity).
    assert (M3 : forall m, impl (mm s2 m) = impl (mm s m)) by (intros m; unfold s2, set_failed; cbn [mm]; destruct (mem m (task P n)); reflexivity).
    assert (M4 : forall m, incs (mm s2 m) = incs (mm s m)) by (intros m; unfold s2, set_failed; cbn [mm]; destruct (mem m (task P n)); reflexivity).
    assert (Fa : forall x, st (mm s x) = Failed -> st (mm s2 x) = Failed).
    { intros x Hx. rewrite M2; [exact Hx|]. intros X. apply (NF x X Hx). }
    assert (W : Fl s2 = f) by reflexivity. assert (W2 : store (wd s2) = store (wd s)) by reflexivity.
    clearbody s2. clear I1.
    assert (D2 : forall k, done (st (mm s k)) = true -> done (st (mm s2 k)) = true /\ Fl s2 k = Fl s k).
    { intros k Hk. rewrite (M2 k (Dn k Hk)), W. split; [exact Hk | apply (Ff k (Dn k Hk))]. }
    constructor.
    + rewrite W. exact Fj.
    + intros x l Hl. rewrite M4 in Hl. rewrite W. destruct (in_dec Nat.eq_dec x (task P n)) as [Hm|Hm]; [right; rewrite (M1 x Hm); reflexivity|]. rewrite (Fi x Hm).
      destruct (j_inc s Hv x l Hl) as [X|X]; [left; exact X | right; apply Fa, X].
    + intros x l Hl. rewrite M4 in Hl. apply (j_U s Hv x l Hl).
    + intros m l k Hdm Hl. rewrite M3 in Hl. rewrite W. destruct (j_impl s Hv m l k Hdm Hl) as [X|[(x & X1 & X2)|X]]; [|right; left; exists x; auto | right; right; auto].
      destruct (Cut (sources P m ++ l)) as [(x & X1 & X2)|C]; [|left; apply Ext; assumption]. right; left. exists x. split; [exact X1 | rewrite (M1 x X2); reflexivity].
    + intros m l k Hl. rewrite M3 in Hl. rewrite W2. apply (j_memo s Hv m l k Hl).
    + intros m i Hdm Hl. rewrite M3 in Hl. apply (j_plain s Hv m i Hdm Hl).
    + intros m i Hl. rewrite M3 in Hl. destruct (j_started s Hv m i Hl) as (q & Q1 & Q2). exists q. split; [exact Q1|]. destruct (in_dec Nat.eq_dec q (task P n)) as [Hm|Hm]; [rewrite (M1 q Hm); discriminate | rewrite (M2 q Hm); exact Q2].
    + intros m x Hx. rewrite W. destruct (in_dec Nat.eq_dec m (task P n)) as [Hm|Hm]; [right; rewrite (M1 m Hm); reflexivity|]. rewrite (M2 m Hm) in *. rewrite (Ff m Hm). apply (j_csig s Hv m x Hx).
    + intros m t Ht Hl. destruct (in_dec Nat.eq_dec m (task P n)) as [Hm|Hm].
      * assert (Ht2 : In t (task P n)) by (destruct (task_same n m Hm) as (E & _); rewrite <- E; exact Ht). rewrite (M1 m Hm), (M1 t Ht2). split; [exact Logic.I | reflexivity].
      * assert (Ht2 : ~ In t (task P n)) by (intros X; apply Hm; destruct (task_same n t X) as (E & _); rewrite <- E; apply task_sym, Ht).
        rewrite (M2 m Hm), (M2 t Ht2) in *. apply (j_late s Hv m t Ht Hl).
    + intros m Hm. destruct (in_dec Nat.eq_dec m (task P n)) as [Hi|Hi]; [rewrite (M1 m Hi) in Hm; discriminate|]. rewrite (M2 m Hi) in Hm. apply (good_same s); [apply (j_done s Hv m Hm) | apply M3 | exact D2 | rewrite W2; reflexivity | rewrite W; apply (Ff m Hi)].
    + intros t e He. rewrite W2 in He. rewrite W. destruct (j_rec s Hv t e He) as [X|(c & f0 & o0 & X1 & X2 & X3 & X4 & X5 & X6)]; [left; exact X|]. right. exists c, f0, o0. do 5 (split; [assumption|]).
      intros Hdt x Hx. destruct (in_dec Nat.eq_dec t (task P n)) as [Hi|Hi]; [|rewrite (Ff t Hi) in Hx; apply (X6 Hdt x Hx)]. rewrite (Fo t Hi), (s_failed T H U SO _ _ _ t Er) in Hx. discriminate.
Qed.
Lemma inv_step : forall ts s tr s2, step T H P mo ts s tr s2 -> inv s -> inv s2.
Proof.
  intros ts s tr s2 Hst Hv. destruct Hst as [n Hw Hn|n Hr Hd|n Hr Hd Hu|n Hr Hd Hu Hl|n Hr Hd Hu Hl|n Hp Hf].
  - apply inv_consider; assumption.
  - rewrite <- (plain_task n Hd). apply inv_done; [exact Hv | exact Hr | intros X; congruence].
  - apply inv_done; auto.
  - apply inv_failed; [exact Hv | apply (ready_pending s n Hr)].
  - apply inv_execute; assumption.
  - apply inv_failed; assumption.
Qed.
Lemma inv_steps : forall ts s tr s2, steps T H P mo ts s tr s2 -> inv s -> inv s2.
Proof. intros ts s tr s2 Hs. induction Hs as [s|s tr s1 tr1 s2 H1 H2 IH]; intros Hv; [exact Hv | apply IH, (inv_step ts s tr s1 H1 Hv)]. Qed.
Lemma done_children : forall s n, inv s -> done (st (mm s n)) = true -> kids P s n = children T P (Fl s) n /\ deps P s n = children T P (Fl s) n /\ (derived P n = true -> implicit s n = implicit_deps T P (Fl s) n).
Proof.
  intros s n Hv Hn. pose proof (j_done s Hv n Hn) as G. destruct G as [(l & G1) G2 _ _].
  assert (E : l = implicit_deps T P (Fl s) n).
  { unfold implicit_deps. destruct (derived P n) eqn:Hd; [|pose proof (j_plain s Hv n _ Hd G1); congruence]. rewrite (impl_done s n l l Hv Hd (done_not_failed _ Hn) G1 G2). apply (s_ext T H U SO). intros x _. symmetry. apply (includes_inc s x Hv). }
  unfold kids, deps, children, child_implicit, implicit. rewrite G1. rewrite E. auto.
Qed.
Lemma needed_done : forall ts s, inv s -> succeeded ts s -> forall m, needed T P (Fl s) ts m -> done (st (mm s m)) = true.
Proof.
  intros ts s Hv Hs m Hm. induction Hm as [t Ht|p q Hp IH Hq|p q Hp IH Hq]; [apply Hs, Ht | |].
  2: { assert (Ht : In q (task P p)) by (unfold task; destruct (peers P p); [destruct Hq | exact Hq]). destruct (j_late s Hv p q Ht (done_late _ IH)) as [_ E]. congruence. }
  apply (g_kids s p (j_done s Hv p IH)). destruct (done_children s p Hv IH) as [-> _]. exact Hq.
Qed.
Lemma inv_current : forall ts s, inv s -> succeeded ts s -> forall m, needed T P (Fl s) ts m -> derived P m = true -> current T P (Fl s) m /\ recorded T H P (wd s) m.
Proof.
  intros ts s Hv Hs m Hm Hd. pose proof (needed_done ts s Hv Hs m Hm) as D. pose proof (j_done s Hv m D) as G. destruct (done_children s m Hv D) as (_ & E & E2). split.
  - unfold current. rewrite <- E. apply (g_cur s m G Hd).
  - unfold recorded. rewrite (g_store s m G Hd), E, (E2 Hd). reflexivity.
Qed.
End Run.
