(* C58, third part: quoting of words, and MergeFlags. *)
From Coq Require Import Ascii String List Bool Arith Lia.
Import ListNotations.
From Verif Require Import NameModel NameProps FlagModel FlagSpec FlagProps FlagProps2.
Open Scope list_scope.

(* ---- words and quoting ---- *)
(* how a word may be written in a string: letters as they are, anything after a backslash, anything but a single quote between single quotes, and between double
   quotes anything, with a backslash before every double quote and backslash (a backslash before another character stands for itself) *)
Definition harmless (c : ascii) : Prop :=
  let n := nat_of_ascii c in 48 <= n <= 57 \/ 65 <= n <= 90 \/ 97 <= n <= 122 \/ In c (list_ascii_of_string "_@%+=:,./-").
Definition ordinary (c : ascii) : Prop := ~ In c [SQ; DQ; BSL; " "%char; ascii_of_nat 9; ascii_of_nat 13; ascii_of_nat 10].
Inductive between_double : str -> str -> Prop :=
| bd_nil : between_double [] []
| bd_char c s t : c <> DQ -> c <> BSL -> between_double s t -> between_double (c :: s) (c :: t)
| bd_escaped c s t : c = DQ \/ c = BSL -> between_double s t -> between_double (c :: s) (BSL :: c :: t)
| bd_backslash c s t : c <> DQ -> c <> BSL -> between_double s t -> between_double (BSL :: c :: s) (BSL :: c :: t).
Inductive piece : str -> str -> Prop :=
| piece_plain c : ordinary c -> piece [c] [c]
| piece_escaped c : piece [c] [BSL; c]
| piece_single s : ~ In SQ s -> piece s (SQ :: s ++ [SQ])
| piece_double s t : between_double s t -> piece s (DQ :: t ++ [DQ]).
Inductive quotes : str -> str -> Prop :=
| quotes_one w t : piece w t -> quotes w t
| quotes_more w t w2 t2 : piece w t -> quotes w2 t2 -> quotes (w ++ w2) (t ++ t2).
Lemma eqb_neq : forall a b, a <> b -> Ascii.eqb a b = false.
Proof. intros a b H. destruct (Ascii.eqb_spec a b); [contradiction | reflexivity]. Qed.
Lemma ordinary_ok : forall c, ordinary c -> shlex_space c = false /\ Ascii.eqb c SQ = false /\ Ascii.eqb c DQ = false /\ Ascii.eqb c BSL = false.
Proof.
  intros c H. assert (N : forall k, In k [SQ; DQ; BSL; " "%char; ascii_of_nat 9; ascii_of_nat 13; ascii_of_nat 10] -> Ascii.eqb c k = false).
  { intros k Hk. apply eqb_neq. intros ->. exact (H Hk). }
  split; [|split; [|split]]; try (apply N; cbn; tauto).
  unfold shlex_space. cbn [existsb]. rewrite !N by (cbn; tauto). reflexivity.
Qed.
Lemma harmless_ordinary : forall c, harmless c -> ordinary c.
Proof.
  intros c H Hi. cbn [In] in Hi. unfold harmless in H. repeat (destruct Hi as [<- | Hi]; [cbn in H; repeat (destruct H as [H | H]; [try lia; try discriminate H |]); try contradiction H |]); contradiction.
Qed.
Lemma quotes_plain : forall s, s <> [] -> Forall harmless s -> quotes s s.
Proof.
  induction s as [|c s IH]; intros Hn H; [congruence|]. inversion H as [|? ? Hc Hs]. subst. destruct s as [|d s].
  - apply quotes_one, piece_plain, harmless_ordinary, Hc.
  - apply (quotes_more [c] [c] (d :: s) (d :: s)); [apply piece_plain, harmless_ordinary, Hc | apply IH; [discriminate | exact Hs]].
Qed.
Lemma sq_body : forall s tok q rest, ~ In SQ s -> shlex_lex LSingle tok q (s ++ SQ :: rest) = shlex_lex LWord (tok ++ s) true rest.
Proof.
  induction s as [|c s IH]; intros tok q rest H; cbn [app shlex_lex].
  - rewrite Ascii.eqb_refl, app_nil_r. reflexivity.
  - rewrite eqb_neq by (intros ->; apply H; left; reflexivity). rewrite IH by (intros Hi; apply H; right; exact Hi). rewrite <- app_assoc. reflexivity.
Qed.
Lemma dq_body : forall s t tok q rest, between_double s t -> shlex_lex LDouble tok q (t ++ DQ :: rest) = shlex_lex LWord (tok ++ s) true rest.
Proof.
  intros s t tok q rest H. revert tok q. induction H as [|c s t H1 H2 H IH|c s t H1 H IH|c s t H1 H2 H IH]; intros tok q; cbn [app shlex_lex].
  - rewrite Ascii.eqb_refl, app_nil_r. reflexivity.
  - rewrite !eqb_neq by assumption. rewrite IH, <- app_assoc. reflexivity.
  - rewrite (eqb_neq BSL DQ) by discriminate. rewrite Ascii.eqb_refl. cbn [shlex_lex].
    replace (negb (Ascii.eqb c BSL) && negb (Ascii.eqb c DQ)) with false by (destruct H1 as [-> | ->]; reflexivity). rewrite IH, <- app_assoc. reflexivity.
  - rewrite (eqb_neq BSL DQ) by discriminate. rewrite Ascii.eqb_refl. cbn [shlex_lex]. rewrite !eqb_neq by assumption. cbn [negb andb]. rewrite IH, <- app_assoc. reflexivity.
Qed.
Lemma piece_word : forall w t tok q rest, piece w t -> exists q2, (q = true \/ w = [] -> q2 = true) /\ shlex_lex LWord tok q (t ++ rest) = shlex_lex LWord (tok ++ w) q2 rest.
Proof.
  intros w t tok q rest H. destruct H as [c Hc|c|s Hs|s t Ht].
  - exists q. split; [intros [E | E]; [exact E | discriminate]|]. destruct (ordinary_ok c Hc) as (H1 & H2 & H3 & H4). cbn [app shlex_lex]. rewrite H1, H2, H3, H4. reflexivity.
  - exists q. split; [intros [E | E]; [exact E | discriminate]|]. reflexivity.
  - exists true. split; [reflexivity|]. cbn [app]. rewrite <- app_assoc. rewrite <- (sq_body s tok q rest Hs). reflexivity.
  - exists true. split; [reflexivity|]. cbn [app]. rewrite <- app_assoc. rewrite <- (dq_body s t tok q rest Ht). reflexivity.
Qed.
Lemma first_piece : forall w t rest, piece w t -> shlex_lex LSpace [] false (t ++ rest) = shlex_lex LWord [] false (t ++ rest).
Proof.
  intros w t rest H. destruct H as [c Hc|c|s Hs|s t Ht]; try reflexivity.
  destruct (ordinary_ok c Hc) as (H1 & H2 & H3 & H4). cbn [app shlex_lex]. rewrite H1, H2, H3, H4. reflexivity.
Qed.
Lemma quotes_word : forall w t, quotes w t -> forall tok q rest, exists q2, (q = true \/ w = [] -> q2 = true) /\ shlex_lex LWord tok q (t ++ rest) = shlex_lex LWord (tok ++ w) q2 rest.
Proof.
  induction 1 as [w t H|w t w2 t2 H H2 IH]; intros tok q rest; [apply piece_word; exact H|].
  destruct (piece_word w t tok q (t2 ++ rest) H) as (q1 & Q1 & E1). destruct (IH (tok ++ w) q1 rest) as (q2 & Q2 & E2). exists q2. split.
  - intros [E | E]; apply Q2; left; apply Q1; [left; exact E | right; destruct w; [reflexivity | discriminate]].
  - rewrite <- !app_assoc in *. rewrite E1, E2. reflexivity.
Qed.
Lemma quoted_word : forall s t rest, quotes s t -> exists q, (s = [] -> q = true) /\ shlex_lex LSpace [] false (t ++ rest) = shlex_lex LWord s q rest.
Proof.
  intros s t rest H. destruct (quotes_word s t H [] false rest) as (q & Q & E). exists q. split; [intros Hs; apply Q; right; exact Hs|].
  change s with ([] ++ s); rewrite <- E. destruct H as [w t Hp|w t w2 t2 Hp _]; [|rewrite <- app_assoc]; apply (first_piece w t _ Hp).
Qed.
(* C58d: every list of words can be given in one string *)
Theorem C58d_quoted_words_arrive : forall ws ts, Forall2 quotes ws ts -> shlex_split (join_with " "%char ts) = Ok ws.
Proof.
  unfold shlex_split. intros ws ts H. induction H as [|w t ws ts Hq H IH]; [reflexivity|].
  destruct ts as [|t2 ts].
  - inversion H. subst. cbn [join_with]. destruct (quoted_word w t [] Hq) as (q & Hn & E). rewrite app_nil_r in E. rewrite E. cbn [shlex_lex].
    destruct w; [rewrite (Hn eq_refl); reflexivity | reflexivity].
  - change (join_with " "%char (t :: t2 :: ts)) with (t ++ " "%char :: join_with " "%char (t2 :: ts)).
    destruct (quoted_word w t (" "%char :: join_with " "%char (t2 :: ts)) Hq) as (q & Hn & ->). remember (join_with " "%char (t2 :: ts)) as j eqn:Ej.
    cbn [shlex_lex]. change (shlex_space " "%char) with true. cbn [shlex_lex]. rewrite IH. destruct w; [rewrite (Hn eq_refl); reflexivity | reflexivity].
Qed.
Lemma lex_app : forall s st tok q l s2, shlex_lex st tok q s = Ok l -> shlex_lex st tok q (s ++ " "%char :: s2) = bind (shlex_split s2) (fun l2 => Ok (l ++ l2)).
Proof.
  induction s as [|c s IH]; intros st tok q l s2 H.
  - cbn [app]. destruct st; cbn [shlex_lex] in H; try discriminate; injection H as <-; cbn [shlex_lex]; change (shlex_space " "%char) with true; cbn [app].
    + unfold shlex_split. destruct (shlex_lex LSpace [] false s2); reflexivity.
    + unfold shlex_split. destruct tok as [|x tok]; [destruct q|]; destruct (shlex_lex LSpace [] false s2); reflexivity.
  - cbn [app]. destruct st; cbn [shlex_lex] in H |- *.
    + repeat match goal with |- context [if ?b then _ else _] => destruct b end; apply IH; exact H.
    + destruct (shlex_space c).
      * assert (G : forall x, bind (shlex_lex LSpace [] false s) (fun k => Ok (x :: k)) = Ok l ->
          bind (shlex_lex LSpace [] false (s ++ " "%char :: s2)) (fun k => Ok (x :: k)) = bind (shlex_split s2) (fun l2 => Ok (l ++ l2))).
        { intros x Hx. destruct (shlex_lex LSpace [] false s) as [k|e] eqn:E; [|discriminate]. cbn [bind] in Hx. injection Hx as <-.
          rewrite (IH _ _ _ _ s2 E). destruct (shlex_split s2); reflexivity. }
        destruct tok as [|x tok]; [destruct q; [apply G; exact H | apply IH; exact H] | apply G; exact H].
      * repeat match goal with |- context [if ?b then _ else _] => destruct b end; apply IH; exact H.
    + destruct (Ascii.eqb c SQ); apply IH; exact H.
    + repeat match goal with |- context [if ?b then _ else _] => destruct b end; apply IH; exact H.
    + apply IH. exact H.
    + apply IH. exact H.
Qed.
Lemma split_app_words : forall s1 s2 l1 l2, shlex_split s1 = Ok l1 -> shlex_split s2 = Ok l2 -> shlex_split (s1 ++ " "%char :: s2) = Ok (l1 ++ l2).
Proof. intros s1 s2 l1 l2 H1 H2. unfold shlex_split in *. rewrite (lex_app _ _ _ _ _ s2 H1). unfold shlex_split. rewrite H2. reflexivity. Qed.
(* C58e: two strings, or one string with a space between *)
Theorem C58e_one_string_or_two : forall bt s1 s2 ws1 ws2 cs1 cs2,
  s1 <> [] -> s2 <> [] -> (forall c, s1 <> "!"%char :: c) -> (forall c, s2 <> "!"%char :: c) ->
  shlex_split s1 = Ok ws1 -> shlex_split s2 = Ok ws2 -> reads ws1 cs1 [] -> reads ws2 cs2 [] ->
  ParseFlags bt [FStr (s1 ++ lit " " ++ s2)] = ParseFlags bt [FStr s1; FStr s2].
Proof.
  intros bt s1 s2 ws1 ws2 cs1 cs2 N1 N2 B1 B2 S1 S2 R1 R2.
  apply (C58c_words_may_be_split bt _ (s1 ++ " "%char :: s2) [s1; s2] (ws1 ++ ws2) [(ws1, cs1); (ws2, cs2)] [] []).
  - reflexivity.
  - right. right. split; [destruct s1; discriminate|]. split; [|apply split_app_words; assumption].
    intros c E. destruct s1 as [|x s1]; [congruence|]. cbn in E. injection E as -> _. apply (B1 s1). reflexivity.
  - repeat constructor; try assumption; right; right; auto.
  - cbn. rewrite app_nil_r. reflexivity.
Qed.
Lemma no_empty_reads : forall n ws, length ws <= n -> ~ In [] ws -> exists cs l, reads ws cs l.
Proof.
  induction n as [|n IH]; intros [|w ws] L Hn; cbn in L; try (exists [], []; constructor); [lia|].
  assert (Hnw : ~ In [] ws) by (intros H; apply Hn; right; exact H). assert (Hw : w <> []) by (intros ->; apply Hn; left; reflexivity).
  destruct (is_option_dec w) as [Ho | Ho].
  - assert (B := rw_best w Ho). destruct (takes (rw w) w) eqn:T.
    + destruct ws as [|x ws]; [exists (dangling (rw w) w), [w]; apply reads_dangling with (r := rw w); [exact Ho | exact B | apply takes_spec; exact T]|]. cbn in L.
      destruct (IH ws) as (cs & l & H); [lia | intros H; apply Hnw; right; exact H |].
      exists (contrib (rw w) w x ++ cs), l. apply reads_flag_next with (r := rw w); [exact Ho | exact B | apply takes_spec; exact T | apply contrib_spec | exact H].
    + destruct (IH ws) as (cs & l & H); [lia | exact Hnw |].
      exists (contrib (rw w) w [] ++ cs), l. apply reads_flag with (r := rw w); [exact Ho | exact B | intros H2; apply takes_spec in H2; congruence | apply contrib_spec | exact H].
  - destruct (IH ws) as (cs & l & H); [lia | exact Hnw |]. exists ((LIBS, PFile w) :: cs), l. apply reads_library; assumption.
Qed.
(* C58f: what can go wrong: a string that is badly quoted, a command that fails, or an empty word; a list of flags without those is always accepted *)
Theorem C58f_accepted : forall bt flags,
  (forall s, In s (flat_map leaves flags) -> exists ws, words_of bt s ws /\ ~ In [] ws) -> exists m, ParseFlags bt flags = Ok m.
Proof.
  intros bt flags H. rewrite parse_leaves. generalize empty_mapping as m0. revert H. generalize (flat_map leaves flags) as ss. clear flags.
  induction ss as [|s ss IH]; intros H m0; [exists m0; reflexivity|]. destruct (H s (or_introl eq_refl)) as (ws & Hw & Hn). cbn [run_leaves].
  rewrite (parse_string_words bt s ws m0 Hw). destruct (no_empty_reads (length ws) ws (le_n _) Hn) as (cs & l & R). rewrite (reads_parse ws cs l R). cbn [bind].
  apply IH. intros s2 Hs. apply H. right. exact Hs.
Qed.

(* ---- duplicates ---- *)
Definition addl (t : list pv) (v : pv) : list pv := if pv_in v t then t else v :: t.
Lemma keep_right_in : forall l x, In x (keep_right l) <-> In x l.
Proof.
  unfold keep_right. change (fun t v => if pv_in v t then t else v :: t) with addl. intros l x. rewrite (in_rev l x). generalize (rev l) as r. clear l.
  assert (G : forall r t, In x (fold_left addl r t) <-> In x r \/ In x t); [|intros r; rewrite G; cbn; tauto].
  induction r as [|v r IH]; intros t; cbn [fold_left]; [cbn; tauto|]. rewrite IH. unfold addl. destruct (pv_in v t) eqn:E; cbn [In].
  - apply pv_in_spec in E. split; [tauto|]. intros [[-> | H] | H]; auto.
  - tauto.
Qed.
Lemma keep_right_spec : forall l, keep_right l = right_most l.
Proof.
  unfold right_most. induction l as [|x l IH]; [reflexivity|]. cbn [nodup]. unfold keep_right. cbn [rev]. rewrite fold_left_app. cbn [fold_left]. fold (keep_right l).
  destruct (in_dec pv_eq_dec x l) as [H | H].
  - replace (pv_in x (keep_right l)) with true by (symmetry; apply pv_in_spec, keep_right_in; exact H). exact IH.
  - destruct (pv_in x (keep_right l)) eqn:E; [apply pv_in_spec in E; rewrite keep_right_in in E; contradiction|]. rewrite IH. reflexivity.
Qed.
Lemma keep_left_spec : forall l, keep_left l = left_most l.
Proof.
  intros l. unfold left_most. fold (right_most (rev l)). rewrite <- keep_right_spec. unfold keep_left, keep_right. rewrite rev_involutive.
  change (fun t v => if pv_in v t then t else v :: t) with addl.
  assert (G : forall t, fold_left (fun t v => if pv_in v t then t else t ++ [v]) l (rev t) = rev (fold_left addl l t)); [|apply (G [])].
  induction l as [|x l IH]; intros t; cbn [fold_left]; [reflexivity|]. rewrite <- IH. f_equal. unfold addl.
  replace (pv_in x (rev t)) with (pv_in x t); [destruct (pv_in x t); reflexivity|].
  apply eq_true_iff_eq. rewrite !pv_in_spec. apply in_rev.
Qed.
Lemma path_key : forall key, str_eqb (last_n key 4) (lit "PATH") = true <-> is_path key.
Proof.
  intros key. rewrite str_eqb_spec. unfold last_n, is_path. cbn [Nat.eqb]. split.
  - intros H. exists (firstn (length key - 4) key). rewrite <- H. symmetry. apply firstn_skipn.
  - intros (p & ->). rewrite app_length. change (length (lit "PATH")) with 4. replace (length p + 4 - 4) with (length p) by lia. rewrite skipn_app, skipn_all, Nat.sub_diag. reflexivity.
Qed.
Lemma dedup_spec : forall key o, (forall q, o <> PDeque q) -> exists t, dedup key o = Ok (PList t) /\ unique_of key (elems o) t.
Proof.
  intros key o Hq. unfold dedup, unique_of. destruct (str_eqb (last_n key 4) (lit "PATH")) eqn:E.
  - exists (keep_left (elems o)). split; [reflexivity|]. apply path_key in E. split; [intros _; apply keep_left_spec | contradiction].
  - exists (keep_right (elems o)). split; [destruct o; try reflexivity; exfalso; eapply Hq; reflexivity|].
    split; [intros H; apply path_key in H; congruence | intros _; apply keep_right_spec].
Qed.
Lemma unique_of_unique : forall key l a b, unique_of key l a -> unique_of key l b -> a = b.
Proof.
  intros key l a b [A1 A2] [B1 B2]. destruct (str_eqb (last_n key 4) (lit "PATH")) eqn:E.
  - apply path_key in E. rewrite (A1 E), (B1 E). reflexivity.
  - assert (~ is_path key) by (intros H; apply path_key in H; congruence). rewrite (A2 H), (B2 H). reflexivity.
Qed.
Lemma upd_same : forall e k v, upd e k v k = Some v.
Proof. intros. unfold upd. rewrite str_eqb_refl. reflexivity. Qed.
Lemma upd_other : forall e k v k2, k2 <> k -> upd e k v k2 = e k2.
Proof. intros e k v k2 H. unfold upd. apply str_eqb_neq in H. rewrite H. reflexivity. Qed.
Lemma items_split : forall v l, items v l -> elems (Split v) = l /\ (forall q, Split v <> PDeque q).
Proof. intros v l H. inversion H; subst; cbn; split; try reflexivity; discriminate. Qed.
Lemma merge_one_spec : forall e k v l, truthy v = true -> merged (e k) v l -> exists t v', merge_one e k v = Ok (upd e k (PList t), v') /\ unique_of k l t.
Proof.
  intros e k v l Tv H. unfold merge_one. rewrite Tv. cbn [negb].
  assert (G : forall o (a : pv), (forall q, o <> PDeque q) -> elems o = l -> exists t v', bind (dedup k o) (fun t => Ok (upd e k t, a)) = Ok (upd e k (PList t), v') /\ unique_of k l t).
  { intros o a Ho El. destruct (dedup_spec k o Ho) as (t & -> & Ht). cbn [bind]. exists t, a. split; [reflexivity|]. rewrite <- El. exact Ht. }
  inversion H as [o v2 l2 Ho Hi E1 E2 E3|a v2 l2 Ha Hi Hn E1 E2 E3|a v2 l2 Ha Hi E1 E2 E3|a l2 Ha E1 E2 E3|s l2 Hs E1 E2 E3|s v2 l2 Hs Hi Hl Hn E1 E2 E3]; subst.
  - destruct (items_split v l Hi) as [I1 I2]. destruct Ho as [-> | (x & -> & Hx)]; [|apply nothing_truthy in Hx; rewrite Hx]; cbn [negb]; apply G; assumption.
  - destruct (items_split v l2 Hi) as [I1 I2]. replace (truthy (PList a)) with true by (destruct a; [congruence | reflexivity]). cbn [negb].
    destruct (truthy (Split v)) eqn:Ts; cbn [negb].
    + inversion Hi; subst; cbn [Split py_add elems]; try (exfalso; eapply Hn; reflexivity); apply G; cbn [elems]; try discriminate; reflexivity.
    + assert (l2 = []) by (inversion Hi; subst; cbn in Ts, Tv; try discriminate; try (match goal with |- ?x = [] => destruct x end; cbn in *; congruence)).
      subst l2. apply G; [discriminate | cbn [elems]; rewrite H0, app_nil_r; reflexivity].
  - destruct (items_split v l2 Hi) as [I1 I2]. replace (truthy (PCL a)) with true by (destruct a; [congruence | reflexivity]). cbn [negb].
    destruct (truthy (Split v)) eqn:Ts; cbn [negb].
    + cbn [py_add]. apply G; [discriminate|]. cbn [elems]. replace (Split (Split v)) with (Split v) by (destruct v; reflexivity). rewrite I1. reflexivity.
    + assert (l2 = []) by (inversion Hi; subst; cbn in Ts, Tv; try discriminate; try (match goal with |- ?x = [] => destruct x end; cbn in *; congruence)).
      subst l2. apply G; [discriminate | cbn [elems]; rewrite H0, app_nil_r; reflexivity].
  - replace (truthy (PTuple a)) with true by (destruct a; [congruence | reflexivity]). cbn [negb Split]. rewrite Tv. cbn [negb py_add]. apply G; [discriminate | reflexivity].
  - replace (truthy (PStr s)) with true by (destruct s; [congruence | reflexivity]). cbn [negb Split]. rewrite Tv. cbn [negb py_add Split elems]. apply G; [discriminate | reflexivity].
  - replace (truthy (PStr s)) with true by (destruct s; [congruence | reflexivity]). cbn [negb].
    assert (S2 : Split v = PList l2) by (inversion Hi; subst; try reflexivity; exfalso; destruct (Hn l2); congruence).
    rewrite S2. replace (truthy (PList l2)) with true by (destruct l2; [congruence | reflexivity]). cbn [negb py_add]. apply G; [discriminate | reflexivity].
Qed.
Lemma merge_removes_duplicates : forall args e,
  NoDup (map fst args) -> (forall k v, In (k, v) args -> truthy v = true -> exists l, merged (e k) v l) ->
  exists e' args', MergeFlags_dict e args = Ok (e', args') /\
    (forall k v l, In (k, v) args -> truthy v = true -> merged (e k) v l -> exists t, e' k = Some (PList t) /\ unique_of k l t) /\
    (forall k, (forall v, In (k, v) args -> truthy v = false) -> e' k = e k).
Proof.
  unfold MergeFlags_dict. induction args as [|[k v] args IH]; intros e N H.
  - exists e, []. cbn. split; [reflexivity|]. split; [intros k v l []|]. reflexivity.
  - cbn in N. inversion N as [|? ? Hk N2]. subst. cbn [merge_items].
    assert (G : exists e1 v1, merge_one e k v = Ok (e1, v1) /\ (forall k2, k2 <> k -> e1 k2 = e k2) /\
      (truthy v = false -> e1 k = e k) /\ (forall l, truthy v = true -> merged (e k) v l -> exists t, e1 k = Some (PList t) /\ unique_of k l t)).
    { destruct (truthy v) eqn:Tv.
      - destruct (H k v (or_introl eq_refl) Tv) as (l & Hm). destruct (merge_one_spec e k v l Tv Hm) as (t & v1 & -> & Ht).
        exists (upd e k (PList t)), v1. split; [reflexivity|]. split; [intros k2 H2; apply upd_other; exact H2|]. split; [discriminate|].
        intros l2 _ H2. destruct (merge_one_spec e k v l2 Tv H2) as (t2 & v2 & E & Ht2). destruct (merge_one_spec e k v l Tv Hm) as (t3 & v3 & E3 & Ht3).
        exists t2. split; [|exact Ht2]. rewrite upd_same. f_equal. f_equal.
        assert (M : merge_one e k v = merge_one e k v) by reflexivity. rewrite E in M at 1. rewrite E3 in M. injection M as M _.
        assert (M2 : upd e k (PList t2) k = upd e k (PList t3) k) by (rewrite M; reflexivity). rewrite !upd_same in M2. injection M2 as ->.
        apply (unique_of_unique k l); assumption.
      - exists e, v. unfold merge_one. rewrite Tv. cbn [negb]. split; [reflexivity|]. split; [reflexivity|]. split; [reflexivity|]. discriminate. }
    destruct G as (e1 & v1 & -> & G1 & G2 & G3). cbn [bind fst snd].
    assert (Hne : forall k2 v2, In (k2, v2) args -> k2 <> k) by (intros k2 v2 H2 ->; apply Hk; apply in_map_iff; exists (k, v2); split; [reflexivity | exact H2]).
    destruct (IH e1 N2) as (e' & a' & E & I1 & I2).
    { intros k2 v2 H2 T2. rewrite (G1 k2 (Hne _ _ H2)). apply (H k2 v2); [right; exact H2 | exact T2]. }
    rewrite E. cbn [bind fst snd]. exists e', ((k, v1) :: a'). split; [reflexivity|]. split.
    + intros k2 v2 l [E2 | H2] T2 M2.
      * injection E2 as <- <-. rewrite I2; [apply (G3 l T2 M2)|]. intros v3 H3. exfalso. exact (Hne _ _ H3 eq_refl).
      * apply (I1 k2 v2 l H2 T2). rewrite (G1 k2 (Hne _ _ H2)). exact M2.
    + intros k2 Hf. rewrite I2; [|intros v2 H2; apply Hf; right; exact H2]. destruct (str_eq_dec k2 k) as [-> | Hk2]; [apply G2, Hf; left; reflexivity | apply G1; exact Hk2].
Qed.
(* C58g: MergeFlags of a dictionary *)
Theorem C58g_merge_removes_duplicates : forall args e,
  NoDup (map fst args) -> (forall k v, In (k, v) args -> ~ nothing v -> exists l, merged (e k) v l) ->
  exists e' args', MergeFlags_dict e args = Ok (e', args') /\
    (forall k v l, In (k, v) args -> ~ nothing v -> merged (e k) v l -> exists t, e' k = Some (PList t) /\ unique_of k l t) /\
    (forall k, (forall v, In (k, v) args -> nothing v) -> e' k = e k).
Proof.
  intros args e Hn H. destruct (merge_removes_duplicates args e Hn) as (e2 & args2 & E & H1 & H2).
  - intros k v Hi T. apply (H k v Hi). apply something_truthy. exact T.
  - exists e2, args2. split; [exact E|]. split.
    + intros k v l Hi Hs. apply (H1 k v l Hi). apply something_truthy. exact Hs.
    + intros k Hk. apply H2. intros v Hi. apply nothing_truthy. apply Hk. exact Hi.
Qed.
Print Assumptions C58d_quoted_words_arrive.
Print Assumptions C58e_one_string_or_two.
Print Assumptions C58f_accepted.
Print Assumptions C58g_merge_removes_duplicates.
