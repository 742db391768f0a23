(* C65: what a build remembers is within what is cleared after it *)
From Coq Require Import List Bool Arith Lia.
Import ListNotations.
From Verif Require Import IntModel IntSpec.

Lemma mem_In : forall n l, mem n l = true <-> In n l.
Proof.
  intros n l. unfold mem. rewrite existsb_exists. split; [intros (x & Hx & E); apply Nat.eqb_eq in E; subst; exact Hx | intros Hx; exists n; split; [exact Hx | apply Nat.eqb_refl]].
Qed.
Lemma mem_false : forall n l, mem n l = false <-> ~ In n l.
Proof. intros n l. rewrite <- mem_In. destruct (mem n l); split; intros; congruence. Qed.
Lemma found_mono : forall i j l, (forall x, incl (i x) (j x)) -> forall m, found i l m -> found j l m.
Proof. intros i j l Hi m Hf. induction Hf as [x m Hx Hm|x m Hx IH Hm]; [apply (found_first _ _ x); [exact Hx | apply Hi, Hm] | apply (found_next _ _ x); [exact IH | apply Hi, Hm]]. Qed.
Lemma found_mono_on : forall i j l, (forall x, In x l \/ found i l x -> incl (i x) (j x)) -> forall m, found i l m -> found j l m.
Proof.
  intros i j l Hi m Hf. induction Hf as [x m Hx Hm|x m Hx IH Hm].
  - apply (found_first _ _ x); [exact Hx | apply (Hi x (or_introl Hx)), Hm].
  - apply (found_next _ _ x); [exact IH | apply (Hi x (or_intror Hx)), Hm].
Qed.

(* the walk ends with a set that is closed *)
Section Walk.
Variable P : project.
Variable s : state.
Definition closed_ (stk : list (node * list node)) (seen : list node) : Prop :=
  (forall n k, In n seen -> In k (kids P s n) -> In k seen \/ In k (map fst stk)) /\
  (forall n w k, In (n, w) stk -> In k (kids P s n) -> In k seen \/ In k w \/ In k (map fst stk)).
Lemma walk_closed : forall stk seen r, walk P s stk seen r -> closed_ stk seen -> incl seen r /\ incl (map fst stk) r /\ forall n k, In n r -> In k (kids P s n) -> In k r.
Proof.
  intros stk seen r Hw. induction Hw as [seen|n k w stk seen r Hm Hw IH|n k w stk seen r Hm Hw IH|n stk seen r Hw IH]; intros [C1 C2].
  - split; [apply incl_refl|]. split; [intros x Hx; destruct Hx|]. intros n k Hn Hk. destruct (C1 n k Hn Hk) as [X|X]; [exact X | contradiction].
  - apply mem_In in Hm. apply IH. split; [exact C1|]. intros n2 w2 k2 [E|Hi] Hk2.
    + injection E as <- <-. destruct (C2 n (k :: w) k2 (or_introl eq_refl) Hk2) as [X|[[<- |X]|X]]; auto.
    + destruct (C2 n2 w2 k2 (or_intror Hi) Hk2) as [X|[X|X]]; auto.
  - destruct IH as (A1 & A2 & A3).
    + split.
      * intros n2 k2 Hn2 Hk2. destruct (C1 n2 k2 Hn2 Hk2) as [X|X]; [left; exact X | right; right; exact X].
      * intros n2 w2 k2 [E|[E|Hi]] Hk2.
        -- injection E as <- <-. destruct (mem k2 seen) eqn:Es; [left; apply mem_In, Es|]. right; left. unfold unseen. apply filter_In. rewrite Es. auto.
        -- injection E as <- <-. destruct (C2 n (k :: w) k2 (or_introl eq_refl) Hk2) as [X|[[<- |X]|X]]; [left; exact X | right; right; left; reflexivity | right; left; exact X | right; right; right; exact X].
        -- destruct (C2 n2 w2 k2 (or_intror Hi) Hk2) as [X|[X|X]]; [left; exact X | right; left; exact X | right; right; right; exact X].
    + split; [exact A1|]. split; [|exact A3]. intros x Hx. apply A2. right. exact Hx.
  - destruct IH as (A1 & A2 & A3).
    + split.
      * intros n2 k2 [<- |Hn2] Hk2.
        -- destruct (C2 n [] k2 (or_introl eq_refl) Hk2) as [X|[X|[X|X]]]; [left; right; exact X | contradiction | left; left; exact X | right; exact X].
        -- destruct (C1 n2 k2 Hn2 Hk2) as [X|[X|X]]; [left; right; exact X | left; left; exact X | right; exact X].
      * intros n2 w2 k2 Hi Hk2. destruct (C2 n2 w2 k2 (or_intror Hi) Hk2) as [X|[X|[X|X]]]; [left; right; exact X | right; left; exact X | left; left; exact X | right; right; exact X].
    + split; [intros x Hx; apply A1; right; exact Hx|]. split; [|exact A3]. intros x [<- |Hx]; [apply A1; left; reflexivity | apply A2, Hx].
Qed.
Lemma walks_closed : forall ts seen r, walks P s ts seen r -> (forall n k, In n seen -> In k (kids P s n) -> In k seen) ->
  incl seen r /\ incl ts r /\ forall n k, In n r -> In k (kids P s n) -> In k r.
Proof.
  intros ts seen r Hw. induction Hw as [seen|t ts seen seen1 seen2 H1 H2 IH]; intros C.
  - split; [apply incl_refl|]. split; [intros x Hx; destruct Hx | exact C].
  - destruct (walk_closed _ _ _ H1) as (A1 & A2 & A3).
    + split; [intros n k Hn Hk; left; apply (C n k Hn Hk)|]. intros n w k [E|[]] Hk. injection E as <- <-.
      destruct (mem k seen) eqn:Es; [left; apply mem_In, Es|]. right; left. unfold unseen. apply filter_In. rewrite Es. auto.
    + destruct (IH A3) as (B1 & B2 & B3). split; [intros x Hx; apply B1, A1, Hx|]. split; [|exact B3].
      intros x [<- |Hx]; [apply B1, A2; left; reflexivity | apply B2, Hx].
Qed.
End Walk.

Section Touch.
Variable P : project.
Variable H : option content -> sig.
Variable g : node -> list node.
Variable U : list node.
Hypothesis SO : sound P U.
Hypothesis ST : steady P g.
Variable ts : list node.
Variable d0 : disk.
Hypothesis CO : covered P g d0 ts.

Definition late (x : nstate) : Prop := match x with NoState | Pending => False | _ => True end.
(* what a later scan will find for certain *)
Definition sinc (s : state) (x : node) : list node :=
  match incs (mm s x) with Some l => l | None => match st (mm s x) with Executed => includes P (files (wd s)) x | _ => [] end end.
Inductive edge (s : state) (p : node) : node -> Prop :=
| edge_explicit q : In q (sources P p) \/ In q (depends P p) -> edge s p q
| edge_impl l q : derived P p = true -> impl (mm s p) = Some l -> In q l -> edge s p q
| edge_scan q : derived P p = true -> impl (mm s p) = None -> found (sinc s) (sources P p) q -> edge s p q.
Inductive TR (s : state) : node -> Prop :=
| TR_target t : In t ts -> TR s t
| TR_edge p q : TR s p -> edge s p q -> TR s q.
Record inv (s : state) : Prop := {
  i_touch : forall m, mm s m <> fresh -> TR s m /\ could P g d0 ts m;
  i_impl : forall p l, derived P p = true -> impl (mm s p) = Some l -> forall q, In q l -> found (sinc s) (sources P p) q;
  i_U : forall x l, incs (mm s x) = Some l -> incl l U;
  i_files : steady_files P g (files (wd s));
  i_source : forall x, derived P x = false -> files (wd s) x = d0 x;
  i_incs : forall x l, incs (mm s x) = Some l -> if derived P x then incl l (g x) else l = includes P d0 x;
  i_exec : forall x, st (mm s x) = Executed -> derived P x = true /\ incl (g x) (includes P (files (wd s)) x);
  i_plain : forall p l, derived P p = false -> impl (mm s p) = Some l -> l = [];
  i_late : forall n t, In t (peers P n) -> late (st (mm s n)) -> late (st (mm s t)) }.

Lemma below_TR : forall s m, below P ts m -> TR s m.
Proof. intros s m Hb. induction Hb as [t Ht|p q Hp IH Hq]; [apply TR_target, Ht | apply (TR_edge s p); [exact IH | apply edge_explicit, Hq]]. Qed.
Lemma below_could : forall m, below P ts m -> could P g d0 ts m.
Proof. intros m Hb. induction Hb as [t Ht|p q Hp IH Hq]; [apply could_target, Ht | apply (could_child _ _ _ _ p); assumption]. Qed.
Lemma TR_mono : forall s s2, (forall p q, edge s p q -> edge s2 p q \/ below P ts q) -> forall m, TR s m -> TR s2 m.
Proof.
  intros s s2 He m Ht. induction Ht as [t Ht|p q Hp IH Hq]; [apply TR_target, Ht|]. destruct (He p q Hq) as [X|X]; [apply (TR_edge s2 p); assumption | apply below_TR, X].
Qed.
Lemma incs_sinc : forall s x, inv s -> incl (sinc s x) (incs_now P s x).
Proof.
  intros s x Hv. unfold sinc, incs_now. destruct (incs (mm s x)) as [l|] eqn:E; [apply incl_refl|]. destruct (st (mm s x)); try (intros y Hy; destruct Hy). apply incl_refl.
Qed.
Lemma now_U : forall s, (forall x l, incs (mm s x) = Some l -> incl l U) -> forall x, incl (incs_now P s x) U.
Proof. intros s Hs x. unfold incs_now. destruct (incs (mm s x)) as [l|] eqn:E; [apply (Hs x l E)|]. unfold includes. destruct (files (wd s) x) as [c|]; [apply (s_inc P U SO) | intros y Hy; destruct Hy]. Qed.
Lemma task_derived : forall n t, In t (task P n) -> t = n \/ (In t (peers P n) /\ derived P n = true).
Proof. intros n t Ht. unfold task, derived in *. destruct (peers P n) as [|a l] eqn:E; [destruct Ht as [<- |[]]; left; reflexivity | right; split; [exact Ht | reflexivity]]. Qed.
Lemma self_task : forall n, In n (task P n).
Proof. intros n. unfold task. destruct (peers P n) as [|a l] eqn:E; [left; reflexivity|]. rewrite <- E. apply (s_self P U SO). congruence. Qed.
Lemma task_same : forall n t, In t (task P n) -> task P t = task P n /\ derived P t = derived P n /\ (derived P n = true -> sources P t = sources P n).
Proof.
  intros n t Ht. destruct (task_derived n t Ht) as [-> |[Hp Hd]]; [repeat split|]. destruct (s_peers P U SO n t Hp) as [E1 E2]. unfold task, derived in *. rewrite E1. destruct (peers P n); [discriminate|]. split; [reflexivity|]. split; [reflexivity | intros _; exact E2].
Qed.
Lemma task_reach : forall s n t, TR s n -> could P g d0 ts n -> In t (task P n) -> TR s t /\ could P g d0 ts t.
Proof.
  intros s n t H1 H2 Ht. destruct (task_derived n t Ht) as [-> |[Hp Hd]]; [auto|]. split; [|apply (could_peer _ _ _ _ n); assumption].
  destruct (Nat.eq_dec t n) as [-> |Hne]; [exact H1|]. apply below_TR. apply (CO n t H2). right. split; assumption.
Qed.
Lemma could_found : forall i l, (forall x, could P g d0 ts x -> forall q, In q (i x) -> could P g d0 ts q) -> (forall x, In x l -> could P g d0 ts x) -> forall m, found i l m -> could P g d0 ts m.
Proof. intros i l Hi Hl m Hf. induction Hf as [x m Hx Hm|x m Hx IH Hm]; [apply (Hi x (Hl x Hx)), Hm | apply (Hi x IH), Hm]. Qed.
Lemma could_now : forall s x q, inv s -> could P g d0 ts x -> In q (incs_now P s x) -> could P g d0 ts q.
Proof.
  intros s x q Hv Hx Hq. unfold incs_now in Hq. destruct (incs (mm s x)) as [l|] eqn:E.
  - pose proof (i_incs s Hv x l E) as X. destruct (derived P x) eqn:Ed; [apply (could_generated _ _ _ _ x); auto | subst l; apply (could_include _ _ _ _ x); auto].
  - destruct (derived P x) eqn:Ed; [apply (could_generated _ _ _ _ x); [exact Hx | exact Ed | apply (i_files s Hv x Ed), Hq]|].
    apply (could_include _ _ _ _ x); [exact Hx|]. unfold includes in *. rewrite <- (i_source s Hv x Ed). exact Hq.
Qed.
Lemma could_kid : forall s p q, inv s -> could P g d0 ts p -> In q (kids P s p) -> could P g d0 ts q.
Proof.
  intros s p q Hv Hp Hq. unfold kids in Hq. rewrite !in_app_iff in Hq. destruct Hq as [Hq|[Hq|Hq]]; [apply (could_child _ _ _ _ p); auto | apply (could_child _ _ _ _ p); auto|].
  unfold scan in Hq. destruct (derived P p) eqn:Ed.
  - assert (X : found (incs_now P s) (sources P p) q).
    { destruct (impl (mm s p)) as [l|] eqn:Ei.
      - apply (found_mono (sinc s)); [intros x; apply incs_sinc, Hv|]. apply (i_impl s Hv p l Ed Ei), Hq.
      - apply (s_found P U SO), Hq. }
    revert X. apply could_found; [intros x Hx q2 Hq2; apply (could_now s x q2 Hv Hx Hq2)|]. intros x Hx. apply (could_child _ _ _ _ p); auto.
  - destruct (impl (mm s p)) as [l|] eqn:Ei; [|contradiction]. rewrite (i_plain s Hv p l Ed Ei) in Hq. contradiction.
Qed.
Lemma kid_edge : forall s p q, In q (kids P s p) -> (exists l, impl (mm s p) = Some l) -> inv s -> edge s p q.
Proof.
  intros s p q Hq (l & El) Hv. unfold kids in Hq. rewrite !in_app_iff in Hq. destruct Hq as [Hq|[Hq|Hq]]; [apply edge_explicit; auto | apply edge_explicit; auto|].
  unfold scan in Hq. rewrite El in Hq. destruct (derived P p) eqn:Ed; [apply (edge_impl s p l q Ed El Hq)|]. rewrite (i_plain s Hv p l Ed El) in Hq. contradiction.
Qed.
Lemma all_scanned_impl : forall s p t, all_scanned P s p = true -> In t (task P p) -> exists l, impl (mm s t) = Some l.
Proof. intros s p t Ha Ht. unfold all_scanned in Ha. rewrite forallb_forall in Ha. specialize (Ha t Ht). destruct (impl (mm s t)) as [l|]; [exists l; reflexivity | discriminate]. Qed.
Lemma waits_reach : forall s p q, inv s -> TR s p -> could P g d0 ts p -> all_scanned P s p = true -> In q (waits_for P s p) -> TR s q /\ could P g d0 ts q.
Proof.
  intros s p q Hv H1 H2 Ha Hq. unfold waits_for in Hq. apply in_app_iff in Hq. destruct Hq as [Hq|Hq]; apply in_flat_map in Hq; destruct Hq as (t & Ht & Hq); destruct (task_reach s p t H1 H2 Ht) as [T1 T2].
  - assert (B : below P ts q) by (apply (CO t q T2); left; exact Hq). split; [apply below_TR, B | apply below_could, B].
  - split; [|apply (could_kid s t q Hv T2 Hq)]. apply (TR_edge s t); [exact T1|]. apply kid_edge; [exact Hq | apply (all_scanned_impl s p t Ha Ht) | exact Hv].
Qed.
Lemma wanted_reach : forall s n, inv s -> wanted P ts s n -> TR s n /\ could P g d0 ts n.
Proof.
  intros s n Hv [Hn|(p & Hp & Hn & Ha)]; [split; [apply TR_target, Hn | apply could_target, Hn]|].
  destruct (i_touch s Hv p) as [T1 T2]; [intros X; rewrite X in Hp; discriminate|]. apply (waits_reach s p n); assumption.
Qed.
(* ---- steps ---- *)
Definition sc (s : state) (n m : node) : bool := needs_scan s (task P n) && mem m (scanned P s n).
Lemma consider_incs : forall s n m, incs (mm (consider P s n) m) = if sc s n m then Some (incs_now P s m) else incs (mm s m).
Proof. intros s n m. unfold consider, sc. cbn [mm]. destruct (m =? n), (mem m (task P n)), (needs_scan s (task P n) && mem m (scanned P s n)); reflexivity. Qed.
Lemma consider_impl : forall s n m, impl (mm (consider P s n) m) = if mem m (task P n) then Some (scan P s m) else impl (mm s m).
Proof. intros s n m. unfold consider, sc. cbn [mm]. destruct (m =? n), (mem m (task P n)), (needs_scan s (task P n) && mem m (scanned P s n)); reflexivity. Qed.
Lemma consider_st : forall s n m, st (mm (consider P s n) m) = if m =? n then match st (mm s m) with NoState => Pending | y => y end else st (mm s m).
Proof. intros s n m. unfold consider, sc. cbn [mm]. destruct (m =? n), (mem m (task P n)), (needs_scan s (task P n) && mem m (scanned P s n)); reflexivity. Qed.
Lemma consider_csig : forall s n m, csig (mm (consider P s n) m) = csig (mm s m).
Proof. intros s n m. unfold consider, sc. cbn [mm]. destruct (m =? n), (mem m (task P n)), (needs_scan s (task P n) && mem m (scanned P s n)); reflexivity. Qed.
Lemma consider_same : forall s n m, sc s n m = false -> ~ In m (task P n) -> mm (consider P s n) m = mm s m.
Proof.
  intros s n m H1 H2. assert (m <> n) by (intros ->; apply H2, self_task). unfold consider. cbn [mm]. fold (sc s n m). rewrite H1. apply mem_false in H2. rewrite H2. destruct (Nat.eqb_spec m n); [contradiction | reflexivity].
Qed.
Lemma consider_sinc : forall s n, inv s -> forall x, incl (sinc s x) (sinc (consider P s n) x).
Proof.
  intros s n Hv x. unfold sinc at 2. rewrite consider_incs, consider_st. destruct (sc s n x); [apply incs_sinc, Hv|]. unfold sinc. destruct (incs (mm s x)) as [l|]; [apply incl_refl|].
  destruct (x =? n), (st (mm s x)); apply incl_refl.
Qed.
Lemma scanned_scan : forall s n t, (forall x l, incs (mm s x) = Some l -> incl l U) -> In t (task P n) -> derived P n = true -> impl (mm s t) = None -> forall x, In x (sources P t) \/ found (incs_now P s) (sources P t) x -> sc s n x = true.
Proof.
  intros s n t HU Ht Hd Hi x Hx. destruct (task_same n t Ht) as (_ & _ & E). rewrite (E Hd) in Hx. unfold sc. apply andb_true_iff. split.
  - unfold needs_scan. apply existsb_exists. exists t. rewrite Hi. auto.
  - apply mem_In. unfold scanned. rewrite Hd. apply in_app_iff. destruct Hx as [Hx|Hx]; [left; exact Hx|]. destruct (s_all P U SO _ _ _ (now_U s HU) Hx); auto.
Qed.
Lemma inv_consider : forall s n, inv s -> wanted P ts s n -> inv (consider P s n).
Proof.
  intros s n Hv Hw. destruct (wanted_reach s n Hv Hw) as [T1 T2]. pose proof (consider_sinc s n Hv) as Hm.
  assert (He : forall p q, edge s p q -> edge (consider P s n) p q \/ below P ts q).
  { intros p q [q' Hq|l q' Hd Hl Hq|q' Hd Hl Hq]; left.
    - apply edge_explicit, Hq.
    - apply (edge_impl _ p l); [exact Hd | | exact Hq]. rewrite consider_impl. unfold scan. rewrite Hl. destruct (mem p (task P n)); reflexivity.
    - destruct (mem p (task P n)) eqn:Ep.
      + assert (X : found (incs_now P s) (sources P p) q') by (revert Hq; apply found_mono; intros x; apply incs_sinc, Hv).
        destruct (s_all P U SO _ _ _ (now_U s (i_U s Hv)) X) as [Y|Y]; [|apply edge_explicit; auto].
        apply (edge_impl _ p (closure P (incs_now P s) (sources P p))); [exact Hd | | exact Y]. rewrite consider_impl, Ep. unfold scan. rewrite Hl, Hd. reflexivity.
      + apply edge_scan; [exact Hd | rewrite consider_impl, Ep; exact Hl | revert Hq; apply found_mono, Hm]. }
  assert (Tm : forall m, TR s m -> TR (consider P s n) m) by (apply TR_mono, He).
  constructor.
  - intros m Hf. destruct (in_dec Nat.eq_dec m (task P n)) as [Ht|Ht].
    + destruct (task_reach s n m T1 T2 Ht) as [A B]. auto.
    + destruct (sc s n m) eqn:Es.
      * unfold sc in Es. apply andb_true_iff in Es. destruct Es as [E1 E2]. unfold needs_scan in E1. apply existsb_exists in E1. destruct E1 as (t & Ht2 & Hi). destruct (impl (mm s t)) as [l|] eqn:Ei; [discriminate|].
        apply mem_In in E2. unfold scanned in E2. destruct (derived P n) eqn:Ed; [|contradiction]. destruct (task_reach s n t T1 T2 Ht2) as [A B]. destruct (task_same n t Ht2) as (_ & Ed2 & Es2). specialize (Es2 Ed). rewrite <- Es2 in E2.
        assert (C : could P g d0 ts m).
        { apply in_app_iff in E2. destruct E2 as [E2|E2]; [apply (could_child _ _ _ _ t); auto|]. apply (s_found P U SO) in E2. revert E2.
          apply could_found; [intros x Hx q Hq; apply (could_now s x q Hv Hx Hq)|]. intros x Hx. apply (could_child _ _ _ _ t); auto. }
        split; [|exact C]. apply (TR_edge _ t); [apply Tm, A|]. apply in_app_iff in E2. destruct E2 as [E2|E2]; [apply edge_explicit; auto|].
        apply (edge_impl _ t (closure P (incs_now P s) (sources P t))); [congruence | | exact E2]. rewrite consider_impl. apply mem_In in Ht2. rewrite Ht2. unfold scan. rewrite Ei, Ed2, Ed. reflexivity.
      * rewrite (consider_same s n m Es Ht) in Hf. destruct (i_touch s Hv m Hf) as [A B]. auto.
  - intros p l Hd Hl q Hq. rewrite consider_impl in Hl. destruct (mem p (task P n)) eqn:Ep.
    + injection Hl as <-. unfold scan in Hq. destruct (impl (mm s p)) as [l|] eqn:Ei.
      * apply (found_mono (sinc s)); [exact Hm | apply (i_impl s Hv p l Hd Ei q Hq)].
      * rewrite Hd in Hq. apply (s_found P U SO) in Hq. apply mem_In in Ep. destruct (task_same n p Ep) as (_ & Ed2 & _). rewrite Hd in Ed2. symmetry in Ed2.
        revert Hq. apply found_mono_on. intros x Hx. unfold sinc. rewrite consider_incs, (scanned_scan s n p (i_U s Hv) Ep Ed2 Ei x Hx). apply incl_refl.
    + apply (found_mono (sinc s)); [exact Hm | apply (i_impl s Hv p l Hd Hl q Hq)].
  - intros x l Hl. rewrite consider_incs in Hl. destruct (sc s n x); [|apply (i_U s Hv x l Hl)]. injection Hl as <-. apply (now_U s (i_U s Hv)).
  - apply (i_files s Hv).
  - apply (i_source s Hv).
  - intros x l Hl. rewrite consider_incs in Hl. destruct (sc s n x); [|apply (i_incs s Hv x l Hl)]. injection Hl as <-. unfold incs_now. destruct (incs (mm s x)) as [l|] eqn:E; [apply (i_incs s Hv x l E)|].
    destruct (derived P x) eqn:Ed; [apply (i_files s Hv x Ed)|]. unfold includes. rewrite (i_source s Hv x Ed). reflexivity.
  - intros x Hx. rewrite consider_st in Hx. apply (i_exec s Hv). destruct (x =? n); [|exact Hx]. destruct (st (mm s x)); try discriminate; reflexivity.
  - intros p l Hd Hl. rewrite consider_impl in Hl. destruct (mem p (task P n)); [|apply (i_plain s Hv p l Hd Hl)]. injection Hl as <-. unfold scan. destruct (impl (mm s p)) as [l|] eqn:E; [apply (i_plain s Hv p l Hd E)|]. rewrite Hd. reflexivity.
  - intros a t Ht Ha. rewrite consider_st in *. assert (late (st (mm s a))) by (destruct (a =? n); [destruct (st (mm s a)); try exact Ha; contradiction | exact Ha]).
    pose proof (i_late s Hv a t Ht H0) as X. destruct (t =? n); [destruct (st (mm s t)); try exact X; contradiction | exact X].
Qed.
(* states and signatures of a whole task change; what was scanned does not *)
Lemma inv_state : forall s s2 l, inv s -> wd s2 = wd s -> (forall m, incs (mm s2 m) = incs (mm s m)) -> (forall m, impl (mm s2 m) = impl (mm s m)) ->
  (forall m, ~ In m l -> mm s2 m = mm s m) -> (forall m, In m l -> TR s m /\ could P g d0 ts m) ->
  (forall m, In m l -> late (st (mm s2 m)) /\ st (mm s2 m) <> Executed /\ ~ late (st (mm s m))) -> (forall n t, In n l -> In t (peers P n) -> In t l) -> inv s2.
Proof.
  intros s s2 l Hv Hw Hi Hp Hs Ht Hst Hl.
  assert (Si : forall x, incl (sinc s x) (sinc s2 x)).
  { intros x. unfold sinc. rewrite Hi, Hw. destruct (incs (mm s x)); [apply incl_refl|]. destruct (in_dec Nat.eq_dec x l) as [Hx|Hx]; [|rewrite (Hs x Hx); apply incl_refl].
    destruct (Hst x Hx) as (_ & _ & X). destruct (st (mm s x)); try (exfalso; apply X; exact Logic.I); intros y Hy; destruct Hy. }
  assert (He : forall p q, edge s p q -> edge s2 p q \/ below P ts q).
  { intros p q [q' Hq|l' q' Hd Hl' Hq|q' Hd Hl' Hq]; left; [apply edge_explicit, Hq | apply (edge_impl _ p l'); [exact Hd | rewrite Hp; exact Hl' | exact Hq]|].
    apply edge_scan; [exact Hd | rewrite Hp; exact Hl' | revert Hq; apply found_mono, Si]. }
  pose proof (TR_mono s s2 He) as Tm. constructor.
  - intros m Hf. destruct (in_dec Nat.eq_dec m l) as [Hm|Hm]; [destruct (Ht m Hm); auto|]. rewrite (Hs m Hm) in Hf. destruct (i_touch s Hv m Hf); auto.
  - intros p l' Hd Hl' q Hq. rewrite Hp in Hl'. apply (found_mono (sinc s)); [exact Si | apply (i_impl s Hv p l' Hd Hl' q Hq)].
  - intros x l' Hx. rewrite Hi in Hx. apply (i_U s Hv x l' Hx).
  - rewrite Hw. apply (i_files s Hv).
  - rewrite Hw. apply (i_source s Hv).
  - intros x l' Hx. rewrite Hi in Hx. apply (i_incs s Hv x l' Hx).
  - intros x Hx. rewrite Hw. destruct (in_dec Nat.eq_dec x l) as [Hm|Hm]; [destruct (Hst x Hm) as (_ & X & _); contradiction|]. rewrite (Hs x Hm) in Hx. apply (i_exec s Hv x Hx).
  - intros p l' Hd Hl'. rewrite Hp in Hl'. apply (i_plain s Hv p l' Hd Hl').
  - intros n t Hn Hla. destruct (in_dec Nat.eq_dec t l) as [Hm|Hm]; [apply Hst, Hm|]. rewrite (Hs t Hm). apply (i_late s Hv n t Hn). destruct (in_dec Nat.eq_dec n l) as [Hn2|Hn2]; [exfalso; apply Hm, (Hl n t Hn2 Hn)|].
    rewrite (Hs n Hn2) in Hla. exact Hla.
Qed.
Lemma task_peers : forall n a t, In a (task P n) -> In t (peers P a) -> In t (task P n).
Proof. intros n a t Ha Ht. destruct (task_same n a Ha) as (E & _). rewrite <- E. unfold task. destruct (peers P a); [contradiction | exact Ht]. Qed.
Lemma not_late : forall s n t, inv s -> st (mm s n) = Pending -> In t (task P n) -> ~ late (st (mm s t)).
Proof.
  intros s n t Hv Hn Ht Hl. destruct (task_derived n t Ht) as [-> |[Hp Hd]]; [rewrite Hn in Hl; exact Hl|].
  assert (X : In n (peers P t)) by (destruct (s_peers P U SO n t Hp) as [-> _]; apply (s_self P U SO); unfold derived in Hd; destruct (peers P n); discriminate).
  pose proof (i_late s Hv t n X Hl) as Y. rewrite Hn in Y. exact Y.
Qed.
Lemma pending_reach : forall s n t, inv s -> st (mm s n) = Pending -> In t (task P n) -> TR s t /\ could P g d0 ts t.
Proof. intros s n t Hv Hn Ht. destruct (i_touch s Hv n) as [A B]; [intros X; rewrite X in Hn; discriminate|]. apply (task_reach s n t A B Ht). Qed.
Lemma inv_done : forall s n, inv s -> st (mm s n) = Pending -> inv (set_done H s (task P n)).
Proof.
  intros s n Hv Hn. apply (inv_state s _ (task P n) Hv); cbn [wd mm set_done].
  - reflexivity.
  - intros m. destruct (mem m (task P n)); reflexivity.
  - intros m. destruct (mem m (task P n)); reflexivity.
  - intros m Hm. apply mem_false in Hm. rewrite Hm. reflexivity.
  - intros m Hm. apply (pending_reach s n m Hv Hn Hm).
  - intros m Hm. pose proof (not_late s n m Hv Hn Hm) as X. apply mem_In in Hm. rewrite Hm. cbn [st]. split; [exact Logic.I|]. split; [discriminate | exact X].
  - apply task_peers.
Qed.
Lemma inv_failed : forall s n, inv s -> (forall t, In t (task P n) -> TR s t /\ could P g d0 ts t) -> (forall t, In t (task P n) -> ~ late (st (mm s t))) -> inv (set_failed s (task P n)).
Proof.
  intros s n Hv Hn Hl. apply (inv_state s _ (task P n) Hv); cbn [wd mm set_failed].
  - reflexivity.
  - intros m. destruct (mem m (task P n)); reflexivity.
  - intros m. destruct (mem m (task P n)); reflexivity.
  - intros m Hm. apply mem_false in Hm. rewrite Hm. reflexivity.
  - exact Hn.
  - intros m Hm. pose proof (Hl m Hm) as X. apply mem_In in Hm. rewrite Hm. cbn [st]. split; [exact Logic.I|]. split; [discriminate | exact X].
  - apply task_peers.
Qed.
Lemma inv_disk : forall s f, inv s -> steady_files P g f -> (forall x, derived P x = false -> f x = files (wd s) x) -> (forall x, late (st (mm s x)) -> f x = files (wd s) x) ->
  inv {| wd := {| files := f; store := store (wd s) |}; mm := mm s |} /\ forall m, TR s m -> TR {| wd := {| files := f; store := store (wd s) |}; mm := mm s |} m.
Proof.
  intros s f Hv Hf Hs Hl. set (s2 := {| wd := _; mm := _ |}).
  assert (Si : forall x, incl (sinc s x) (sinc s2 x)).
  { intros x. unfold sinc, s2. cbn [mm wd files]. destruct (incs (mm s x)); [apply incl_refl|]. destruct (st (mm s x)) eqn:E; try apply incl_refl. unfold includes. rewrite Hl; [apply incl_refl | rewrite E; exact Logic.I]. }
  assert (He : forall p q, edge s p q -> edge s2 p q \/ below P ts q).
  { intros p q [q' Hq|l' q' Hd Hl' Hq|q' Hd Hl' Hq]; left; [apply edge_explicit, Hq | apply (edge_impl _ p l'); [exact Hd | exact Hl' | exact Hq]|].
    apply edge_scan; [exact Hd | exact Hl' | revert Hq; apply found_mono, Si]. }
  pose proof (TR_mono s s2 He) as Tm. split; [|exact Tm]. constructor; cbn [s2 wd mm files].
  - intros m Hm. destruct (i_touch s Hv m Hm); auto.
  - intros p l' Hd Hl' q Hq. apply (found_mono (sinc s)); [exact Si | apply (i_impl s Hv p l' Hd Hl' q Hq)].
  - apply (i_U s Hv).
  - exact Hf.
  - intros x Hx. rewrite (Hs x Hx). apply (i_source s Hv x Hx).
  - apply (i_incs s Hv).
  - intros x Hx. destruct (i_exec s Hv x Hx) as [A B]. split; [exact A|]. unfold includes in *. rewrite Hl; [exact B | rewrite Hx; exact Logic.I].
  - apply (i_plain s Hv).
  - apply (i_late s Hv).
Qed.
Lemma run_steady : forall s n ok out, derived P n = true -> run P (cmd P n) (map (files (wd s)) (kids P s n)) = (ok, out) -> steady_files P g (files (wd s)) ->
  let f := fun m => if mem m (task P n) then out m else files (wd s) m in
  steady_files P g f /\ forall t, In t (task P n) -> ok = true -> incl (g t) (includes P f t).
Proof.
  intros s n ok out Hd Hr Hf f. assert (X : forall t, In t (task P n) -> In t (peers P n)) by (intros t Ht; unfold task, derived in *; destruct (peers P n); [discriminate | exact Ht]). split.
  - intros x Hx. unfold f, includes. destruct (mem x (task P n)) eqn:E; [|apply (Hf x Hx)]. apply mem_In in E. pose proof (ST n _ ok out Hd Hr x (X x E)) as Y. destruct (out x) as [c|]; [apply Y | intros y Hy; destruct Hy].
  - intros t Ht ->. pose proof (ST n _ true out Hd Hr t (X t Ht)) as Y. unfold f, includes. apply mem_In in Ht. rewrite Ht. destruct (out t) as [c|]; [apply Y; reflexivity | rewrite (Y eq_refl); intros y Hy; destruct Hy].
Qed.
Lemma task_all_derived : forall n t, derived P n = true -> In t (task P n) -> derived P t = true.
Proof. intros n t Hd Ht. destruct (task_same n t Ht) as (_ & E & _). congruence. Qed.
Lemma inv_execute : forall s n, inv s -> st (mm s n) = Pending -> derived P n = true -> inv (execute P H s n).
Proof.
  intros s n Hv Hn Hd. unfold execute. destruct (run P (cmd P n) (map (files (wd s)) (kids P s n))) as [ok out] eqn:Er. cbv zeta.
  set (f := fun m => if mem m (task P n) then out m else files (wd s) m).
  destruct (run_steady s n ok out Hd Er (i_files s Hv)) as [F1 F2]. fold f in F1, F2.
  assert (Fs : forall x, derived P x = false -> f x = files (wd s) x).
  { intros x Hx. unfold f. destruct (mem x (task P n)) eqn:E; [|reflexivity]. apply mem_In in E. pose proof (task_all_derived n x Hd E). congruence. }
  assert (Fl : forall x, late (st (mm s x)) -> f x = files (wd s) x).
  { intros x Hx. unfold f. destruct (mem x (task P n)) eqn:E; [|reflexivity]. apply mem_In in E. exfalso. apply (not_late s n x Hv Hn E Hx). }
  destruct ok.
  - set (s2 := {| wd := _; mm := _ |}).
    assert (M1 : forall m, In m (task P n) -> mm s2 m = {| st := Executed; csig := Some (H (f m)); incs := None; impl := impl (mm s m) |}) by (intros m Hm; apply mem_In in Hm; unfold s2, f; cbn [mm]; rewrite Hm; reflexivity).
    assert (M2 : forall m, ~ In m (task P n) -> mm s2 m = {| st := st (mm s m); csig := csig (mm s m); incs := incs (mm s m); impl := if waiting P s (task P n) m then None else impl (mm s m) |})
      by (intros m Hm; apply mem_false in Hm; unfold s2; cbn [mm]; rewrite Hm; reflexivity).
    assert (M3 : forall m, impl (mm s2 m) = impl (mm s m) \/ impl (mm s2 m) = None).
    { intros m. destruct (in_dec Nat.eq_dec m (task P n)) as [Hm|Hm]; [rewrite (M1 m Hm); auto|]. rewrite (M2 m Hm). cbn [impl]. destruct (waiting P s (task P n) m); auto. }
    assert (Si : forall x, incl (sinc s x) (sinc s2 x)).
    { intros x. unfold sinc. destruct (in_dec Nat.eq_dec x (task P n)) as [Hm|Hm].
      - rewrite (M1 x Hm). cbn [st incs]. change (files (wd s2)) with f. pose proof (task_all_derived n x Hd Hm) as Hdx. pose proof (F2 x Hm eq_refl) as F3. destruct (incs (mm s x)) as [l|] eqn:E.
        + pose proof (i_incs s Hv x l E) as X. rewrite Hdx in X. intros y Hy. apply F3, X, Hy.
        + pose proof (not_late s n x Hv Hn Hm) as X. destruct (st (mm s x)); try (intros y Hy; destruct Hy); exfalso; apply X; exact Logic.I.
      - rewrite (M2 x Hm). cbn [st incs]. destruct (incs (mm s x)); [apply incl_refl|]. destruct (st (mm s x)) eqn:E; try apply incl_refl. change (files (wd s2)) with f. unfold includes.
        rewrite Fl; [apply incl_refl | rewrite E; exact Logic.I]. }
    assert (He : forall p q, edge s p q -> edge s2 p q \/ below P ts q).
    { intros p q [q' Hq|l' q' Hd' Hl' Hq|q' Hd' Hl' Hq]; left; [apply edge_explicit, Hq| |].
      - destruct (M3 p) as [E|E]; [apply (edge_impl _ p l'); [exact Hd' | rewrite E; exact Hl' | exact Hq]|].
        apply edge_scan; [exact Hd' | exact E|]. apply (found_mono (sinc s)); [exact Si | apply (i_impl s Hv p l' Hd' Hl' q' Hq)].
      - apply edge_scan; [exact Hd' | destruct (M3 p) as [E|E]; [rewrite E; exact Hl' | exact E] | revert Hq; apply found_mono, Si]. }
    pose proof (TR_mono s s2 He) as Tm. constructor.
    + intros m Hm. destruct (in_dec Nat.eq_dec m (task P n)) as [Hi|Hi]; [destruct (pending_reach s n m Hv Hn Hi); auto|].
      assert (X : mm s m <> fresh). { intros X. apply Hm. rewrite (M2 m Hi), X. cbn [st csig incs impl fresh]. destruct (waiting P s (task P n) m); reflexivity. }
      destruct (i_touch s Hv m X); auto.
    + intros p l' Hd' Hl' q Hq. destruct (M3 p) as [E|E]; [|congruence]. rewrite E in Hl'. apply (found_mono (sinc s)); [exact Si | apply (i_impl s Hv p l' Hd' Hl' q Hq)].
    + intros x l Hx. destruct (in_dec Nat.eq_dec x (task P n)) as [Hi|Hi]; [rewrite (M1 x Hi) in Hx; discriminate|]. rewrite (M2 x Hi) in Hx. apply (i_U s Hv x l Hx).
    + exact F1.
    + intros x Hx. change (f x = d0 x). rewrite (Fs x Hx). apply (i_source s Hv x Hx).
    + intros x l Hx. destruct (in_dec Nat.eq_dec x (task P n)) as [Hi|Hi]; [rewrite (M1 x Hi) in Hx; discriminate|]. rewrite (M2 x Hi) in Hx. apply (i_incs s Hv x l Hx).
    + intros x Hx. change (files (wd s2)) with f. destruct (in_dec Nat.eq_dec x (task P n)) as [Hi|Hi]; [split; [apply (task_all_derived n x Hd Hi) | apply (F2 x Hi eq_refl)]|].
      rewrite (M2 x Hi) in Hx. cbn [st] in Hx. destruct (i_exec s Hv x Hx) as [A B]. split; [exact A|]. unfold includes in *. rewrite Fl; [exact B | rewrite Hx; exact Logic.I].
    + intros p l Hd' Hl. destruct (M3 p) as [E|E]; [|congruence]. rewrite E in Hl. apply (i_plain s Hv p l Hd' Hl).
    + intros a t Ht Ha. destruct (in_dec Nat.eq_dec t (task P n)) as [Hi|Hi]; [rewrite (M1 t Hi); exact Logic.I|]. rewrite (M2 t Hi). cbn [st]. apply (i_late s Hv a t Ht).
      destruct (in_dec Nat.eq_dec a (task P n)) as [Hia|Hia]; [exfalso; apply Hi, (task_peers n a t Hia Ht)|]. rewrite (M2 a Hia) in Ha. exact Ha.
  - destruct (inv_disk s f Hv F1 Fs Fl) as [I1 I2]. apply inv_failed; [exact I1 | |].
    + intros t Ht. destruct (pending_reach s n t Hv Hn Ht) as [A B]. auto.
    + intros t Ht. cbn [mm]. apply (not_late s n t Hv Hn Ht).
Qed.
Lemma ready_pending : forall s n, ready P s n = true -> st (mm s n) = Pending.
Proof. intros s n Hr. unfold ready in Hr. destruct (st (mm s n)); try discriminate. reflexivity. Qed.
Lemma plain_task : forall n, derived P n = false -> task P n = [n].
Proof. intros n Hd. unfold derived, task in *. destruct (peers P n); [reflexivity | discriminate]. Qed.
Lemma inv_step : forall s tr s2, step P H ts s tr s2 -> inv s -> inv s2.
Proof.
  intros s tr s2 Hst Hv. destruct Hst as [n Hw Hn|n Hr Hd Hm|n Hr Hd Hm|n Hr Hd Hu|n Hr Hd Hu|n Hp Hf].
  - apply inv_consider; assumption.
  - rewrite <- (plain_task n Hd). apply inv_done; [exact Hv | apply ready_pending, Hr].
  - rewrite <- (plain_task n Hd). apply inv_failed; [exact Hv | intros t Ht; apply (pending_reach s n t Hv (ready_pending s n Hr) Ht) | intros t Ht; apply (not_late s n t Hv (ready_pending s n Hr) Ht)].
  - apply inv_done; [exact Hv | apply ready_pending, Hr].
  - apply inv_execute; [exact Hv | apply ready_pending, Hr | exact Hd].
  - apply inv_failed; [exact Hv | intros t Ht; apply (pending_reach s n t Hv Hp Ht) | intros t Ht; apply (not_late s n t Hv Hp Ht)].
Qed.
Lemma inv_steps : forall s tr s2, steps P H ts s tr s2 -> inv s -> inv s2.
Proof. intros s tr s2 Hs. induction Hs as [s|s tr s1 tr1 s2 H1 H2 IH]; intros Hv; [exact Hv | apply IH, (inv_step s tr s1 H1 Hv)]. Qed.
Lemma inv_start : forall s, (forall m, mm s m = fresh) -> files (wd s) = d0 -> steady_files P g d0 -> inv s.
Proof.
  intros s Hm Hw Hf. constructor; try (intros; rewrite Hm in *; discriminate).
  - intros m Hx. exfalso. apply Hx, Hm.
  - rewrite Hw. exact Hf.
  - intros x Hx. rewrite Hw. reflexivity.
  - intros n t Ht Hl. rewrite Hm in Hl. destruct Hl.
Qed.
(* what is remembered is what will be cleared *)
Lemma edge_kid : forall s p q, inv s -> edge s p q -> In q (kids P s p).
Proof.
  intros s p q Hv He. unfold kids. rewrite !in_app_iff. destruct He as [q Hq|l q Hd Hl Hq|q Hd Hl Hq].
  - tauto.
  - right; right. unfold scan. rewrite Hl. exact Hq.
  - assert (X : found (incs_now P s) (sources P p) q) by (revert Hq; apply found_mono; intros x; apply incs_sinc, Hv).
    destruct (s_all P U SO _ _ _ (now_U s (i_U s Hv)) X) as [Y|Y]; [right; right; unfold scan; rewrite Hl, Hd; exact Y | left; exact Y].
Qed.
Lemma clean : forall s seen, inv s -> walks P s ts [] seen -> forall m, mm (clear s seen) m = fresh.
Proof.
  intros s seen Hv Hw m. unfold clear. cbn [mm]. destruct (mem m seen) eqn:E; [reflexivity|]. apply mem_false in E.
  assert (D : {mm s m = fresh} + {mm s m <> fresh}) by (unfold fresh; repeat decide equality). destruct D as [D|D]; [exact D|]. exfalso. apply E.
  destruct (walks_closed P s ts [] seen Hw) as (_ & W2 & W3); [intros n k Hn; destruct Hn|]. destruct (i_touch s Hv m D) as [T _]. clear D E.
  induction T as [t Ht|p q Hp IH Hq]; [apply W2, Ht | apply (W3 p q IH), edge_kid; assumption].
Qed.
End Touch.

(* ---- sessions ---- *)
Section Session.
Variable P : project.
Variable H : option content -> sig.
Variable g : node -> list node.
Variable U : list node.
Hypothesis SO : sound P U.
Hypothesis ST : steady P g.
Lemma session_runs : forall s es trs s2, session P H s es trs s2 -> (forall m, mm s m = fresh) -> fits P H g (wd s) es -> runs P H (wd s) es trs (wd s2) /\ forall m, mm s2 m = fresh.
Proof.
  intros s es trs s2 Hs. induction Hs as [s|s f es trs s2 Hs IH|s ts es tr s1 seen trs s2 H1 H2 H3 H4 IH]; intros Hm (F1 & F2 & F3).
  - split; [constructor | exact Hm].
  - destruct IH as [A B]; [exact Hm | | split; [constructor; exact A | exact B]]. split; [apply F2; left; reflexivity|]. split; [intros f2 Hf2; apply F2; right; exact Hf2|].
    intros es1 ts es2 trs1 w1 E R. apply (F3 (Edit f :: es1) ts es2 trs1 w1); [rewrite E; reflexivity | constructor; exact R].
  - assert (C : covered P g (files (wd s)) ts) by (apply (F3 [] ts es [] (wd s)); [reflexivity | constructor]).
    assert (V : inv P g U ts (files (wd s)) s1) by (apply (inv_steps P H g U SO ST ts (files (wd s)) C s tr s1 H1); apply inv_start; auto).
    pose proof (clean P g U SO ts (files (wd s)) s1 seen V H3) as K. destruct (IH K) as [A B].
    + split; [apply (i_files _ _ _ _ _ _ V)|]. split; [intros f2 Hf2; apply F2; right; exact Hf2|].
      intros es1 ts1 es2 trs1 w1 E R. apply (F3 (Build ts :: es1) ts1 es2 (tr :: trs1) w1); [rewrite E; reflexivity|]. apply (runs_build P H (wd s) s ts es1 tr s1); auto.
    + split; [|exact B]. apply (runs_build P H (wd s) s ts es tr s1); auto.
Qed.
End Session.
(* a session does what separate runs of scons do *)
Theorem C65a_session : forall P H U g w es trs s, sound P U -> steady P g -> fits P H g w es -> session P H (start w) es trs s -> runs P H w es trs (wd s).
Proof. intros P H U g w es trs s SO ST F S. apply (session_runs P H g U SO ST (start w) es trs s S); [intros m; reflexivity | exact F]. Qed.
Print Assumptions C65a_session.
