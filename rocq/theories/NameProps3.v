(* Names of targets: the action of a builder with an action for each suffix. *)
From Coq Require Import Ascii String List Bool Arith Lia.
Import ListNotations.
From Verif Require Import NameModel NameProps.
Open Scope list_scope.

Section D.
Context {V : Type} (subst : str -> str).
Implicit Types d : @dict V.

(* ---------- specification ---------- *)
Definition is_dict d : Prop := NoDup (map fst d).
(* the keys differ after substitution *)
Definition distinct_suffixes d : Prop := NoDup (map subst (keys d)).
(* the entry for an extension: the key itself, else the key that stands for it after substitution, else the default *)
Definition entry d (ext : str) (v : V) : Prop :=
  In (Some ext, v) d \/
  ((forall v', ~ In (Some ext, v') d) /\ distinct_suffixes d /\
   ((exists k, subst k = ext /\ In (Some k, v) d) \/ (forall k v', In (Some k, v') d -> subst k <> ext) /\ In (None, v) d)).

Lemma okey_spec : forall a b, okey_eqb a b = true <-> a = b.
Proof. intros [a|] [b|]; cbn [okey_eqb]; rewrite ?str_eqb_spec; split; intros H; try congruence; inversion H; auto. Qed.
Lemma dget_in : forall d k v, dget d k = Some v -> In (k, v) d.
Proof.
  induction d as [|[k' v'] d IH]; intros k v; cbn [dget]; [discriminate|]. destruct (okey_eqb k' k) eqn:E.
  - intros H. inversion H; subst. apply okey_spec in E. subst. left; reflexivity.
  - intros H. right. apply IH; exact H.
Qed.
Lemma dget_none : forall d k, dget d k = None <-> forall v, ~ In (k, v) d.
Proof.
  induction d as [|[k' v'] d IH]; intros k; cbn [dget].
  - split; [intros _ v [] | reflexivity].
  - destruct (okey_eqb k' k) eqn:E.
    + split; [discriminate|]. intros H. exfalso. apply okey_spec in E. subst. apply (H v'). left; reflexivity.
    + rewrite IH. split; intros H v.
      * intros [X | X]; [|exact (H v X)]. inversion X; subst. assert (okey_eqb k k = true) by (apply okey_spec; reflexivity). congruence.
      * intros X. apply (H v). right; exact X.
Qed.
Lemma dget_dict : forall d k v, is_dict d -> (dget d k = Some v <-> In (k, v) d).
Proof.
  intros d k v ND. split; [apply dget_in|]. induction d as [|[k' v'] d IH]; intros H; [destruct H|]. cbn [dget]. unfold is_dict in ND. cbn [map fst] in ND. apply NoDup_cons_iff in ND. destruct ND as [N1 N2].
  destruct H as [H | H].
  - inversion H; subst. assert (okey_eqb k k = true) as -> by (apply okey_spec; reflexivity). reflexivity.
  - destruct (okey_eqb k' k) eqn:E; [|apply IH; assumption]. exfalso. apply okey_spec in E. subst. apply N1. apply (in_map fst) in H. exact H.
Qed.
Lemma keys_in : forall d k, In k (keys d) <-> exists v, In (Some k, v) d.
Proof.
  intros d k. unfold keys. rewrite in_flat_map. split.
  - intros [[[k'|] v] [IN H]]; cbn in H; [destruct H as [<- | []]; exists v; exact IN | destruct H].
  - intros [v IN]. exists (Some k, v). split; [exact IN | left; reflexivity].
Qed.
(* the substituted dict *)
Lemma s_dict_spec : forall d acc, is_dict acc ->
  match s_dict subst d acc with
  | None => ~ (NoDup (map subst (keys d)) /\ forall k, In k (keys d) -> dget acc (Some (subst k)) = None)
  | Some sd => is_dict sd /\ (NoDup (map subst (keys d)) /\ forall k, In k (keys d) -> dget acc (Some (subst k)) = None) /\
               forall e v, In (Some e, v) sd <-> In (Some e, v) acc \/ exists k, subst k = e /\ In (Some k, v) d
  end.
Proof.
  induction d as [|[[k|] v] d IH]; intros acc DA; cbn [s_dict].
  - split; [exact DA|]. split; [split; [constructor | intros k []]|]. intros e v. split; [auto | intros [H | [k [_ []]]]; exact H].
  - change (keys ((Some k, v) :: d)) with (k :: keys d). destruct (dget acc (Some (subst k))) as [v0|] eqn:G.
    + intros [_ H]. specialize (H k (or_introl eq_refl)). congruence.
    + assert (is_dict (acc ++ [(Some (subst k), v)])) as DA2.
      { unfold is_dict. rewrite map_app. cbn [map fst]. apply (NoDup_Add (a := Some (subst k)) (l := map fst acc)).
        - rewrite <- (app_nil_r (map fst acc)) at 1. apply Add_app.
        - split; [exact DA|]. intros IN. apply in_map_iff in IN. destruct IN as [[x y] [E IN]]. cbn in E. subst x. rewrite dget_none in G. exact (G _ IN). }
      specialize (IH _ DA2).
      assert ((NoDup (map subst (keys d)) /\ forall k', In k' (keys d) -> dget (acc ++ [(Some (subst k), v)]) (Some (subst k')) = None) <->
              (NoDup (map subst (k :: keys d)) /\ forall k', In k' (k :: keys d) -> dget acc (Some (subst k')) = None)) as EQ.
      { cbn [map]. rewrite NoDup_cons_iff. split.
        - intros [ND H]. split; [split; [|exact ND]|].
          + intros IN. apply in_map_iff in IN. destruct IN as [k' [E IN]]. specialize (H _ IN). rewrite E in H. rewrite dget_none in H. apply (H v). apply in_or_app; right; left; reflexivity.
          + intros k' [<- | IN]; [exact G|]. apply dget_none. intros v' X. specialize (H _ IN). rewrite dget_none in H. apply (H v'). apply in_or_app; left; exact X.
        - intros [[NI ND] H]. split; [exact ND|]. intros k' IN. apply dget_none. intros v' X. apply in_app_or in X. destruct X as [X | [X | []]].
          + specialize (H k' (or_intror IN)). rewrite dget_none in H. exact (H _ X).
          + inversion X as [[E1 E2]]. apply NI. rewrite E1. apply in_map. exact IN. }
      destruct (s_dict subst d (acc ++ [(Some (subst k), v)])) as [sd|].
      * destruct IH as [DS [H1 H2]]. split; [exact DS|]. split; [apply EQ; exact H1|]. intros e v'. rewrite H2. rewrite in_app_iff. cbn [In]. split.
        -- intros [[X | [X | []]] | [k' [E X]]]; [left; exact X | right; exists k; inversion X; subst; auto | right; exists k'; auto].
        -- intros [X | [k' [E [X | X]]]]; [left; left; exact X | left; right; left; inversion X; subst; reflexivity | right; exists k'; auto].
      * intros H. apply IH, EQ, H.
  - specialize (IH acc DA). change (keys ((None, v) :: d)) with (keys d). destruct (s_dict subst d acc) as [sd|]; [|exact IH]. destruct IH as [DS [H1 H2]]. split; [exact DS|]. split; [exact H1|].
    intros e v'. rewrite H2. split; (intros [X | [k [E X]]]; [left; exact X|]); right; exists k; (split; [exact E|]); [right; exact X | destruct X as [X | X]; [discriminate X | exact X]].
Qed.
Lemma select_spec : forall d ext, is_dict d ->
  match select subst d ext with
  | Found v => entry d ext v
  | Ambiguous => (forall v, ~ In (Some ext, v) d) /\ ~ distinct_suffixes d
  | NotFound => (forall v, ~ entry d ext v) /\ distinct_suffixes d
  end.
Proof.
  intros d ext ND. unfold select. destruct (dget d (Some ext)) as [v|] eqn:G; [left; apply dget_in; exact G|]. rewrite dget_none in G.
  pose proof (s_dict_spec d [] (NoDup_nil _)) as S0. destruct (s_dict subst d []) as [sd|].
  - destruct S0 as [DS [[DD _] H2]]. destruct (dget sd (Some ext)) as [v|] eqn:G2.
    + right. split; [exact G|]. split; [exact DD|]. left. apply dget_in in G2. apply H2 in G2. destruct G2 as [[] | X]. exact X.
    + rewrite dget_none in G2. assert (forall k v', In (Some k, v') d -> subst k <> ext) as NK. { intros k v' IN E. apply (G2 v'). apply H2. right. exists k; auto. }
      destruct (dget d None) as [v|] eqn:G3.
      * right. split; [exact G|]. split; [exact DD|]. right. split; [exact NK | apply dget_in; exact G3].
      * split; [|exact DD]. rewrite dget_none in G3. intros v [X | [_ [_ [[k [E X]] | [_ X]]]]]; [exact (G _ X) | exact (NK _ _ X E) | exact (G3 _ X)].
  - split; [exact G|]. intros DD. apply S0. split; [exact DD | intros k _; reflexivity].
Qed.
Lemma entry_unique : forall d ext v v', is_dict d -> entry d ext v -> entry d ext v' -> v = v'.
Proof.
  intros d ext v v' ND [A | [A1 [A2 A3]]] [B | [B1 [B2 B3]]].
  - apply (dget_dict d _ _ ND) in A. apply (dget_dict d _ _ ND) in B. congruence.
  - exfalso; exact (B1 _ A).
  - exfalso; exact (A1 _ B).
  - destruct A3 as [[k [E X]] | [NK X]]; destruct B3 as [[k' [E' X']] | [NK' X']].
    + assert (k = k') as ->.
      { assert (forall l a b, NoDup (map subst l) -> In a l -> In b l -> subst a = subst b -> a = b) as INJ.
        { induction l as [|c l IH]; intros a b N IA IB E0; [destruct IA|]. cbn [map] in N. apply NoDup_cons_iff in N. destruct N as [N1 N2]. destruct IA as [-> | IA]; destruct IB as [-> | IB].
          - reflexivity.
          - exfalso; apply N1. rewrite E0. apply in_map; exact IB.
          - exfalso; apply N1. rewrite <- E0. apply in_map; exact IA.
          - apply IH; assumption. }
        apply (INJ (keys d)); [exact A2 | apply keys_in; exists v; exact X | apply keys_in; exists v'; exact X' | congruence]. }
      apply (dget_dict d _ _ ND) in X. apply (dget_dict d _ _ ND) in X'. congruence.
    + exfalso; exact (NK' _ _ X E).
    + exfalso; exact (NK _ _ X' E').
    + apply (dget_dict d _ _ ND) in X. apply (dget_dict d _ _ ND) in X'. congruence.
Qed.

(* the extensions of the sources *)
Definition exts d (source : list str) : list str := map (ext_of d) source.
Lemma same_ext_spec : forall d source ext, ext <> [] -> same_ext d ext source = if forallb (fun e => str_eqb e ext) (exts d source) then Some ext else None.
Proof.
  intros d. induction source as [|s r IH]; intros ext NE; [reflexivity|]. cbn [same_ext]. change (exts d (s :: r)) with (ext_of d s :: exts d r). cbn [forallb]. destruct ext as [|c e]; [congruence|].
  destruct (str_eqb (ext_of d s) (c :: e)) eqn:E; cbn [andb]; [|reflexivity]. apply str_eqb_spec in E. rewrite E. apply IH. discriminate.
Qed.
Lemma same_ext_start : forall d source, same_ext d [] source = Some [] /\ (forall s, In s source -> ext_of d s = []) \/
  exists pre s post, source = pre ++ s :: post /\ (forall s', In s' pre -> ext_of d s' = []) /\ ext_of d s <> [] /\
    same_ext d [] source = if forallb (fun e => str_eqb e (ext_of d s)) (exts d post) then Some (ext_of d s) else None.
Proof.
  intros d. induction source as [|s r IH]; [left; split; [reflexivity | intros s []]|]. cbn [same_ext]. destruct (str_dec (ext_of d s) []) as [E | NE].
  - rewrite E. destruct IH as [[H1 H2] | [pre [s1 [post [E1 [H1 [H2 H3]]]]]]].
    + left. split; [exact H1 | intros x [<- | IN]; [exact E | apply H2; exact IN]].
    + right. exists (s :: pre), s1, post. split; [rewrite E1; reflexivity|]. split; [intros x [<- | IN]; [exact E | apply H1; exact IN]|]. split; [exact H2 | exact H3].
  - right. exists [], s, r. split; [reflexivity|]. split; [intros x []|]. split; [exact NE|]. apply same_ext_spec. exact NE.
Qed.
Lemma forallb_exts : forall d post ext, forallb (fun e => str_eqb e ext) (exts d post) = true <-> forall s, In s post -> ext_of d s = ext.
Proof.
  intros d post ext. rewrite forallb_forall. unfold exts. split.
  - intros H s IN. apply str_eqb_spec. apply H. apply in_map; exact IN.
  - intros H x IN. apply in_map_iff in IN. destruct IN as [s [<- IN]]. apply str_eqb_spec. apply H; exact IN.
Qed.

(* C56e: a builder with an action for each suffix uses the action for the extension of its sources, whatever the order the actions were given in, and refuses sources with
   different extensions *)
Theorem C56e_action_for_suffix : forall d match_ext source v, is_dict d -> dict_cmd subst d match_ext source = Act v ->
  exists ext, ext <> [] /\ entry d ext v /\ (forall v', entry d ext v' -> v' = v) /\
    (match_ext = true -> (exists s, In s source /\ ext_of d s = ext) /\ forall s, In s source -> ext_of d s = ext \/ ext_of d s = []) /\
    (match_ext = false -> exists s r, source = s :: r /\ ext_of d s = ext).
Proof.
  intros d m source v ND H. unfold dict_cmd in H. destruct source as [|s0 r0]; [discriminate|].
  destruct (if m then same_ext d [] (s0 :: r0) else Some (ext_of d s0)) as [[|c e]|] eqn:X; try discriminate H. set (ext := c :: e) in *.
  pose proof (select_spec d ext ND) as SL. destruct (select subst d ext) as [v0| |]; inversion H; subst v0. exists ext. split; [discriminate|]. split; [exact SL|].
  split; [intros v' E'; exact (entry_unique _ _ _ _ ND E' SL)|]. split; intros ->.
  - change (same_ext d [] (s0 :: r0) = Some ext) in X. destruct (same_ext_start d (s0 :: r0)) as [[H1 _] | [pre [s [post [E1 [H1 [H2 H3]]]]]]]; [rewrite H1 in X; discriminate X|]. rewrite X in H3.
    destruct (forallb (fun e0 => str_eqb e0 (ext_of d s)) (exts d post)) eqn:F; [|discriminate]. injection H3 as H3. rewrite E1. split.
    + exists s. split; [apply in_or_app; right; left; reflexivity | symmetry; exact H3].
    + intros s' IN. apply in_app_or in IN. destruct IN as [IN | [<- | IN]]; [right; apply H1; exact IN | left; symmetry; exact H3 | left].
      rewrite H3. apply (proj1 (forallb_exts d post (ext_of d s)) F); exact IN.
  - exists s0, r0. split; [reflexivity|]. injection X as X. exact X.
Qed.
Theorem C56f_refused_suffixes : forall d source s1 s2, In s1 source -> In s2 source -> ext_of d s1 <> [] -> ext_of d s2 <> [] -> ext_of d s1 <> ext_of d s2 -> dict_cmd subst d true source = DifferentExts.
Proof.
  intros d source s1 s2 I1 I2 N1 N2 DF. unfold dict_cmd. destruct source as [|s0 r0]; [destruct I1|].
  destruct (same_ext_start d (s0 :: r0)) as [[_ H] | [pre [s [post [E1 [H1 [H2 H3]]]]]]]; [exfalso; exact (N1 (H _ I1))|]. rewrite H3.
  destruct (forallb (fun e0 => str_eqb e0 (ext_of d s)) (exts d post)) eqn:F; [exfalso | reflexivity]. pose proof (proj1 (forallb_exts d post (ext_of d s)) F) as FA.
  assert (forall x, In x (s0 :: r0) -> ext_of d x <> [] -> ext_of d x = ext_of d s) as SAME.
  { intros x IN NX. rewrite E1 in IN. apply in_app_or in IN. destruct IN as [IN | [<- | IN]]; [exfalso; exact (NX (H1 _ IN)) | reflexivity | apply FA; exact IN]. }
  apply DF. rewrite (SAME _ I1 N1), (SAME _ I2 N2). reflexivity.
Qed.
(* the sources all have the extension of an entry: that is the action *)
Theorem C56g_action_found : forall d match_ext source ext v, is_dict d -> source <> [] -> ext <> [] -> (forall s, In s source -> ext_of d s = ext) -> entry d ext v -> dict_cmd subst d match_ext source = Act v.
Proof.
  intros d m source ext v ND NS NE H EN. unfold dict_cmd. destruct source as [|s0 r0]; [congruence|].
  assert ((if m then same_ext d [] (s0 :: r0) else Some (ext_of d s0)) = Some ext) as ->.
  { destruct m; [|rewrite (H s0 (or_introl eq_refl)); reflexivity]. cbn [same_ext]. rewrite (H s0 (or_introl eq_refl)). rewrite same_ext_spec by exact NE.
    assert (forallb (fun e => str_eqb e ext) (exts d r0) = true) as -> by (apply forallb_exts; intros s IN; apply H; right; exact IN). reflexivity. }
  destruct ext as [|c e]; [congruence|]. pose proof (select_spec d (c :: e) ND) as SL. destruct (select subst d (c :: e)) as [v0| |].
  - rewrite (entry_unique _ _ _ _ ND SL EN). reflexivity.
  - exfalso. exact (proj1 SL _ EN).
  - exfalso. destruct SL as [S1 S2]. destruct EN as [EN | [_ [EN _]]]; [exact (S1 _ EN) | exact (S2 EN)].
Qed.
(* add_action() for a suffix: that action is used for it from then on, and the other suffixes keep theirs *)
Lemma dset_in : forall d k v x, is_dict d -> (In x (dset d k v) <-> x = (k, v) \/ In x d /\ fst x <> k).
Proof.
  induction d as [|[k' v'] d IH]; intros k v x ND; cbn [dset].
  - cbn [In]. split; [intros [<- | []]; left; reflexivity | intros [-> | [[] _]]; left; reflexivity].
  - unfold is_dict in ND. cbn [map fst] in ND. apply NoDup_cons_iff in ND. destruct ND as [N1 N2]. destruct (okey_eqb k' k) eqn:E.
    + apply okey_spec in E. subst k'. cbn [In]. split.
      * intros [<- | IN]; [left; reflexivity|]. right. split; [right; exact IN|]. intros E. apply N1. rewrite <- E. apply in_map; exact IN.
      * intros [-> | [[<- | IN] NE]]; [left; reflexivity | cbn in NE; congruence | right; exact IN].
    + assert (k' <> k) as NE by (intros ->; assert (okey_eqb k k = true) by (apply okey_spec; reflexivity); congruence). cbn [In]. rewrite (IH k v x N2). split.
      * intros [<- | [-> | [IN NX]]]; [right; split; [left; reflexivity | exact NE] | left; reflexivity | right; split; [right; exact IN | exact NX]].
      * intros [-> | [[<- | IN] NX]]; [right; left; reflexivity | left; reflexivity | right; right; auto].
Qed.
Lemma dset_dict : forall d k v, is_dict d -> is_dict (dset d k v).
Proof.
  induction d as [|[k' v'] d IH]; intros k v ND; cbn [dset].
  - unfold is_dict. cbn. constructor; [intros [] | constructor].
  - pose proof ND as ND0. unfold is_dict in ND. cbn [map fst] in ND. apply NoDup_cons_iff in ND. destruct ND as [N1 N2]. destruct (okey_eqb k' k) eqn:E; [exact ND0|].
    unfold is_dict. cbn [map fst]. apply NoDup_cons_iff. split; [|apply IH; exact N2]. intros IN. apply in_map_iff in IN. destruct IN as [[x y] [E2 IN]]. cbn in E2. subst x. apply (dset_in d k v _ N2) in IN.
    destruct IN as [IN | [IN _]]; [inversion IN; subst; assert (okey_eqb k k = true) by (apply okey_spec; reflexivity); congruence | apply N1; apply (in_map fst) in IN; exact IN].
Qed.
Theorem C56h_add_action : forall d suffix v, is_dict d -> is_dict (add_action d suffix v) /\ entry (add_action d suffix v) suffix v /\
  forall ext v', ext <> suffix -> In (Some ext, v') d -> entry (add_action d suffix v) ext v'.
Proof.
  intros d suf v ND. unfold add_action. split; [apply dset_dict; exact ND|]. split.
  - left. apply (dset_in d _ _ _ ND). left; reflexivity.
  - intros ext v' NE IN. left. apply (dset_in d _ _ _ ND). right. split; [exact IN | cbn; congruence].
Qed.
End D.

Definition d1 : @dict nat := [(Some (lit ".c"), 1); (Some (lit "$CXXSUFFIX"), 2); (Some (lit ".tab.c"), 3)].
Definition subst1 (s : str) : str := if str_eqb s (lit "$CXXSUFFIX") then lit ".cc" else s.
(* the order of the sources matters when one has no extension *)
Theorem C56_source_order_refuted : exists (d : @dict nat) s1 s2, is_dict d /\ dict_cmd subst1 d true [s1; s2] = Act 1 /\ dict_cmd subst1 d true [s2; s1] = DifferentExts.
Proof.
  exists d1, (lit "README"), (lit "a.c"). split; [|split; reflexivity]. unfold is_dict, d1. cbn [map fst].
  repeat (apply NoDup_cons_iff; split; [cbn; intros H; repeat (destruct H as [H | H]; [discriminate|]); exact H|]). constructor.
Qed.
Example C56e_witness : is_dict d1 /\ dict_cmd subst1 d1 true [lit "a.c"; lit "b.c"] = Act 1 /\ dict_cmd subst1 d1 true [lit "a.tab.c"] = Act 3 /\ dict_cmd subst1 d1 true [lit "a.cc"] = Act 2 /\
  dict_cmd subst1 d1 true [lit "a.cc"; lit "a.c"] = DifferentExts /\ dict_cmd subst1 d1 false [lit "a.cc"; lit "a.c"] = Act 2 /\ dict_cmd subst1 d1 true [lit "a.f"] = NoAction /\
  dict_cmd subst1 d1 true [lit "Makefile"] = NoExt /\ dict_cmd subst1 (add_action d1 (lit ".cc") 4) true [lit "a.cc"] = Act 4 /\
  dict_cmd subst1 (add_action d1 (lit ".cc") 4) true [lit "a.f"] = AmbiguousSuffixes.
Proof.
  split; [|repeat split; reflexivity]. unfold is_dict, d1. cbn [map fst].
  repeat (apply NoDup_cons_iff; split; [cbn; intros H; repeat (destruct H as [H | H]; [discriminate|]); exact H|]). constructor.
Qed.
Print Assumptions C56e_action_for_suffix.
