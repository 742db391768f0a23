(* C76: ParseDepends *)
From Coq Require Import Ascii String List Bool Arith Lia.
From Verif Require Import SubstModel PdModel PdSpec.
Import ListNotations.
Open Scope list_scope.

Lemma space_white c : is_space c = true <-> White c.
Proof.
  unfold is_space, White. cbn zeta. rewrite orb_true_iff, !andb_true_iff, !Nat.leb_le. tauto.
Qed.
Lemma space_not c : is_space c = false <-> ~ White c.
Proof. rewrite <- space_white. destruct (is_space c); split; congruence. Qed.
Lemma words_white acc s : Forall White s -> words acc s = match acc with [] => [] | _ => [rev acc] end.
Proof.
  intros H. revert acc. induction H as [|c s Hc H IH]; intros acc; [reflexivity|]. cbn [words].
  apply space_white in Hc. rewrite Hc. destruct acc as [|x acc]; rewrite IH; reflexivity.
Qed.
Lemma words_skip b s : Forall White b -> words [] (b ++ s) = words [] s.
Proof.
  induction 1 as [|c b Hc H IH]; [reflexivity|]. cbn [app words]. apply space_white in Hc. rewrite Hc. exact IH.
Qed.
Lemma words_word w : forall acc s, Forall (fun c => ~ White c) w -> (s = [] \/ exists c r, s = c :: r /\ White c) -> rev w ++ acc <> [] ->
  words acc (w ++ s) = rev (rev w ++ acc) :: words [] s.
Proof.
  induction w as [|c w IH]; intros acc s Hw Hs Hn.
  - cbn [app rev] in *. destruct Hs as [-> | [c [r [-> Hc]]]]; cbn [words].
    + destruct acc; [congruence | reflexivity].
    + apply space_white in Hc. rewrite Hc. destruct acc; [congruence|]. reflexivity.
  - inversion Hw as [|x l Hc Hw']; subst. cbn [app words]. apply space_not in Hc. rewrite Hc.
    rewrite IH; [|exact Hw' | exact Hs | destruct (rev w); discriminate].
    cbn [rev]. rewrite <- app_assoc. reflexivity.
Qed.
Theorem words_spec : forall s l, Words s l -> words [] s = l.
Proof.
  intros s l H. induction H as [s H | b w s l Hb Hn Hw Hs H IH].
  - apply words_white. exact H.
  - rewrite words_skip by exact Hb. rewrite words_word; [|exact Hw|exact Hs|].
    + rewrite app_nil_r, rev_involutive, IH. reflexivity.
    + rewrite app_nil_r. intros E. apply Hn. rewrite <- (rev_involutive w), E. reflexivity.
Qed.
(* and every text has its words, so this is what str.split() means *)
Lemma words_total s : exists l, Words s l.
Proof.
  remember (List.length s) as n eqn:En. assert (Hn : List.length s <= n) by lia. clear En. revert s Hn.
  induction n as [|n IH]; intros s Hn.
  - destruct s; [exists []; apply W_end; constructor | cbn in Hn; lia].
  - assert (Q : Forall White s \/ exists b w r, Forall White b /\ w <> [] /\ Forall (fun c => ~ White c) w /\ (r = [] \/ exists c q, r = c :: q /\ White c) /\ s = b ++ w ++ r).
    { clear. induction s as [|c s IH]; [left; constructor|]. destruct (is_space c) eqn:E.
      - apply space_white in E. destruct IH as [IH|[b [w [r [A [B [C [D ->]]]]]]]].
        + left. constructor; assumption.
        + right. exists (c :: b), w, r. repeat split; try assumption. constructor; assumption.
      - apply space_not in E. right. clear IH.
        assert (Z : exists w r, Forall (fun c => ~ White c) w /\ (r = [] \/ exists c q, r = c :: q /\ White c) /\ s = w ++ r).
        { induction s as [|d s IH]; [exists [], []; split; [constructor|]; split; [left; reflexivity | reflexivity]|].
          destruct (is_space d) eqn:Ed.
          - exists [], (d :: s). split; [constructor|]. split; [right; exists d, s; split; [reflexivity | apply space_white; exact Ed] | reflexivity].
          - destruct IH as [w [r [A [B ->]]]]. exists (d :: w), r. split; [constructor; [apply space_not; exact Ed | exact A]|]. split; [exact B | reflexivity]. }
        destruct Z as [w [r [A [B ->]]]]. exists [], (c :: w), r. split; [constructor|]. split; [discriminate|]. split; [constructor; assumption|]. split; [exact B | reflexivity]. }
    destruct Q as [Q|[b [w [r [A [B [C [D ->]]]]]]]]; [exists []; apply W_end; exact Q|].
    destruct (IH r) as [l Hl]; [rewrite !app_length in Hn; destruct w; [congruence|]; cbn in Hn; lia|].
    exists (w :: l). apply W_word; assumption.
Qed.
Lemma words_app_white s l c : Words s l -> White c -> Words (s ++ [c]) l.
Proof.
  intros H Hc. induction H as [s H | b w s l Hb Hn Hw Hs H IH].
  - apply W_end. apply Forall_app. split; [exact H | constructor; [exact Hc | constructor]].
  - rewrite <- !app_assoc. apply W_word; try assumption. right.
    destruct Hs as [-> | [x [r [-> Hx]]]]; cbn [app]; [exists c, []; split; [reflexivity | exact Hc] | exists x, (r ++ [c]); split; [reflexivity | exact Hx]].
Qed.

(* ---- lines ---- *)
Lemma lines_line s : forall acc r, ~ In newline s -> lines acc (s ++ newline :: r) = (rev acc ++ s ++ [newline]) :: lines [] r.
Proof.
  induction s as [|c s IH]; intros acc r H.
  - cbn [app lines]. unfold nl, newline. rewrite Ascii.eqb_refl. cbn [rev]. reflexivity.
  - cbn [app lines]. assert (E : Ascii.eqb c nl = false) by (apply Ascii.eqb_neq; intros E; apply H; left; exact E). rewrite E.
    rewrite IH by (intros Q; apply H; right; exact Q). cbn [rev]. rewrite <- app_assoc. reflexivity.
Qed.
Lemma lstrip_white a c b : Forall White a -> ~ White c -> lstrip (a ++ c :: b) = c :: b.
Proof.
  intros Ha Hc. induction Ha as [|x a Hx Ha IH]; cbn [app lstrip].
  - apply space_not in Hc. rewrite Hc. reflexivity.
  - apply space_white in Hx. rewrite Hx. exact IH.
Qed.
Lemma not_white_bslash : ~ White backslash.
Proof. intros [H|H]; vm_compute in H; destruct H as [H1 H2]; lia. Qed.
Lemma white_newline : White newline. Proof. left. vm_compute. lia. Qed.
Lemma forall_rev {A} (P : A -> Prop) l : Forall P l -> Forall P (rev l).
Proof. intros H. rewrite Forall_forall in *. intros x Hx. apply H. apply in_rev. exact Hx. Qed.
Lemma rstrip_cont s b : Forall White b -> rstrip (s ++ backslash :: b) = s ++ [backslash].
Proof.
  intros Hb. unfold rstrip. rewrite rev_app_distr. cbn [rev]. rewrite <- app_assoc. cbn [app].
  rewrite lstrip_white; [|apply forall_rev; exact Hb | exact not_white_bslash]. cbn [rev]. rewrite rev_involutive. reflexivity.
Qed.
Lemma lstrip_split s : exists a, s = a ++ lstrip s /\ Forall White a.
Proof.
  induction s as [|c s [a [E H]]]; [exists []; split; [reflexivity | constructor]|]. cbn [lstrip]. destruct (is_space c) eqn:X.
  - exists (c :: a). split; [cbn [app]; f_equal; exact E | constructor; [apply space_white; exact X | exact H]].
  - exists []. split; [reflexivity | constructor].
Qed.
Lemma rstrip_split s : exists b, s = rstrip s ++ b /\ Forall White b.
Proof.
  destruct (lstrip_split (rev s)) as [a [E H]]. exists (rev a). split; [|apply forall_rev; exact H].
  unfold rstrip. rewrite <- rev_app_distr, <- E, rev_involutive. reflexivity.
Qed.
Lemma ends_last s : (forall a b, s = a ++ backslash :: b -> ~ Forall White b) -> ends_bslash (rstrip (s ++ [newline])) = false.
Proof.
  intros H. destruct (rstrip_split (s ++ [newline])) as [b [E Hb]]. unfold ends_bslash.
  destruct (rev (rstrip (s ++ [newline]))) as [|c z] eqn:R; [reflexivity|].
  destruct (Ascii.eqb c bslash) eqn:X; [|reflexivity]. exfalso. apply Ascii.eqb_eq in X. subst c.
  assert (Z : rstrip (s ++ [newline]) = rev z ++ [backslash]) by (rewrite <- (rev_involutive (rstrip (s ++ [newline]))), R; reflexivity).
  rewrite Z in E. rewrite <- app_assoc in E. cbn [app] in E.
  destruct (@exists_last _ b) as [b' [x Eb]].
  { intros ->. apply app_inj_tail in E. destruct E as [_ E]. discriminate E. }
  subst b. change (backslash :: b' ++ [x]) with ((backslash :: b') ++ [x]) in E. rewrite app_assoc in E. apply app_inj_tail in E. destruct E as [E _].
  apply (H (rev z) b' E). apply Forall_app in Hb. exact (proj1 Hb).
Qed.
Lemma logical_rendered segs t : Rendered segs t -> forall acc b rest,
  logical acc b (lines [] (t ++ rest)) = (acc ++ List.concat segs ++ [newline]) :: logical [] false (lines [] rest).
Proof.
  induction 1 as [s Hn Hr He | s w segs t Hn Hr Hw Hwn Hwr R IH]; intros acc b rest.
  - rewrite <- app_assoc. cbn [app]. rewrite lines_line by exact Hn. cbn [rev app logical].
    rewrite (ends_last s He). cbn [List.concat]. rewrite app_nil_r. reflexivity.
  - assert (E : (s ++ backslash :: w ++ newline :: t) ++ rest = (s ++ backslash :: w) ++ newline :: (t ++ rest)).
    { rewrite <- !app_assoc. cbn [app]. rewrite <- app_assoc. reflexivity. }
    rewrite E. rewrite lines_line.
    2:{ intros Q. apply in_app_or in Q. destruct Q as [Q|[Q|Q]]; [exact (Hn Q) | discriminate Q | exact (Hwn Q)]. }
    cbn [rev app logical]. rewrite <- app_assoc. cbn [app].
    rewrite rstrip_cont by (apply Forall_app; split; [exact Hw | constructor; [exact white_newline | constructor]]).
    assert (X : ends_bslash (s ++ [backslash]) = true) by (unfold ends_bslash; rewrite rev_app_distr; reflexivity).
    rewrite X, removelast_last, IH. cbn [List.concat]. rewrite <- !app_assoc. reflexivity.
Qed.
Lemma split_colon_at a b : ~ In ":"%char a -> split_colon (a ++ ":"%char :: b) = Some (a, b).
Proof.
  induction a as [|c a IH]; intros H; [reflexivity|]. cbn [app split_colon].
  assert (E : Ascii.eqb c ":"%char = false) by (apply Ascii.eqb_neq; intros E; apply H; left; exact E).
  rewrite E, IH by (intros Q; apply H; right; exact Q). reflexivity.
Qed.
Lemma split_colon_none s : ~ In ":"%char s -> split_colon s = None.
Proof.
  induction s as [|c s IH]; intros H; [reflexivity|]. cbn [split_colon].
  assert (E : Ascii.eqb c ":"%char = false) by (apply Ascii.eqb_neq; intros E; apply H; left; exact E).
  rewrite E, IH by (intros Q; apply H; right; exact Q). reflexivity.
Qed.
Lemma universal_id s : ~ In return_ s -> universal s = s.
Proof.
  induction s as [|c s IH]; intros H; [reflexivity|]. cbn [universal].
  assert (E : Ascii.eqb c cr = false) by (apply Ascii.eqb_neq; intros E; apply H; left; exact E).
  rewrite E, IH by (intros Q; apply H; right; exact Q). reflexivity.
Qed.
Lemma rendered_cr segs t : Rendered segs t -> ~ In return_ t.
Proof.
  induction 1 as [s Hn Hr He | s w segs t Hn Hr Hw Hwn Hwr R IH]; intros Q; apply in_app_or in Q; destruct Q as [Q|Q]; try contradiction.
  - destruct Q as [Q|[]]; discriminate Q.
  - destruct Q as [Q|Q]; [discriminate Q|]. apply in_app_or in Q. destruct Q as [Q|[Q|Q]]; [exact (Hwr Q) | discriminate Q | exact (IH Q)].
Qed.
Lemma file_cr t items : File t items -> ~ In return_ t.
Proof.
  induction 1 as [|segs c t rest items R E F IH|segs t rest items R E F IH|segs t a b ts ds rest items R E Ha Hc W1 W2 F IH]; [intros []| | |];
    intros Q; apply in_app_or in Q; destruct Q as [Q|Q]; try contradiction; exact (rendered_cr _ _ R Q).
Qed.

(* C76a: the rules of a file are found, with all their words *)
Theorem C76a_rules : forall text items, File text items -> tdlist text = items.
Proof.
  intros text items F. unfold tdlist. rewrite (universal_id text (file_cr text items F)).
  induction F as [|segs c t rest items R E F IH|segs t rest items R E F IH|segs t a b ts ds rest items R E Ha Hc W1 W2 F IH].
  - reflexivity.
  - rewrite (logical_rendered segs t R). cbn [app filter]. rewrite E. cbn [app comment]. rewrite Ascii.eqb_refl. cbn [negb]. exact IH.
  - rewrite (logical_rendered segs t R). cbn [app filter].
    assert (N : split_colon (List.concat segs ++ [newline]) = None).
    { apply split_colon_none. intros Q. apply in_app_or in Q. destruct Q as [Q|[Q|[]]]; [exact (E Q) | discriminate Q]. }
    destruct (negb (comment (List.concat segs ++ [newline]))); [cbn [flat_map]; rewrite N; exact IH | exact IH].
  - rewrite (logical_rendered segs t R). cbn [app filter]. rewrite E.
    assert (C : comment ((a ++ ":"%char :: b) ++ [newline]) = false).
    { destruct a as [|x a]; [reflexivity|]. cbn [app comment]. apply Ascii.eqb_neq. intros ->. exact (Hc a eq_refl). }
    rewrite C. cbn [negb flat_map]. rewrite <- app_assoc. cbn [app]. rewrite split_colon_at by exact Ha. cbn [app].
    rewrite (words_spec a ts W1), (words_spec (b ++ [newline]) ds (words_app_white b ds newline W2 white_newline)), IH. reflexivity.
Qed.
(* C76b: with CR LF line ends too *)
Definition crlf (s : text) : text := flat_map (fun c => if Ascii.eqb c newline then [return_; newline] else [c]) s.
Lemma universal_crlf s : ~ In return_ s -> universal (crlf s) = s.
Proof.
  induction s as [|c s IH]; intros H; [reflexivity|]. unfold crlf. cbn [flat_map]. fold (crlf s).
  assert (Hs : universal (crlf s) = s) by (apply IH; intros Q; apply H; right; exact Q).
  destruct (Ascii.eqb c newline) eqn:E.
  - apply Ascii.eqb_eq in E. subst c. cbn [app]. change (universal (return_ :: newline :: crlf s)) with (nl :: universal (crlf s)). rewrite Hs. reflexivity.
  - cbn [app universal]. assert (E2 : Ascii.eqb c cr = false) by (apply Ascii.eqb_neq; intros E2; apply H; left; exact E2). rewrite E2, Hs. reflexivity.
Qed.
Theorem C76b_line_ends : forall text items, File text items -> tdlist (crlf text) = items.
Proof.
  intros text items F. rewrite <- (C76a_rules text items F). unfold tdlist.
  rewrite (universal_crlf text (file_cr text items F)), (universal_id text (file_cr text items F)). reflexivity.
Qed.

(* ---- what is added ---- *)
Lemma str_eqb_spec a : forall b, str_eqb a b = true <-> a = b.
Proof.
  induction a as [|x a IH]; intros [|y b]; cbn [str_eqb]; split; intros H; try discriminate; try reflexivity.
  - apply andb_true_iff in H. destruct H as [H1 H2]. apply Ascii.eqb_eq in H1. apply IH in H2. congruence.
  - injection H as <- <-. rewrite Ascii.eqb_refl. cbn [andb]. apply IH. reflexivity.
Qed.
Lemma str_dec (a b : str) : a = b \/ a <> b.
Proof. destruct (str_eqb a b) eqn:E; [left; apply str_eqb_spec; exact E | right; intros H; apply str_eqb_spec in H; congruence]. Qed.
Lemma mem_in s l : mem s l = true <-> In s l.
Proof.
  unfold mem. rewrite existsb_exists. split; [intros [x [H E]]; apply str_eqb_spec in E; subst; exact H | intros H; exists s; split; [exact H | apply str_eqb_spec; reflexivity]].
Qed.
Lemma add_child_in l x y : In y (add_child l x) <-> In y l \/ y = x.
Proof.
  unfold add_child. destruct (mem x l) eqn:M.
  - apply mem_in in M. split; [left; assumption | intros [H | ->]; assumption].
  - rewrite in_app_iff. cbn [In]. intuition congruence.
Qed.
Lemma nodup_snoc {A} (l : list A) x : NoDup l -> ~ In x l -> NoDup (l ++ [x]).
Proof.
  intros D H. induction D as [|y l Hy D IH]; [constructor; [intros []|constructor]|].
  cbn [app]. constructor; [|apply IH; intros Q; apply H; right; exact Q].
  intros Q. apply in_app_or in Q. destruct Q as [Q|[Q|[]]]; [exact (Hy Q)|]. apply H. left. symmetry. exact Q.
Qed.
Lemma add_child_nodup l x : NoDup l -> NoDup (add_child l x).
Proof.
  intros D. unfold add_child. destruct (mem x l) eqn:M; [exact D|]. apply nodup_snoc; [exact D|].
  intros H. apply mem_in in H. congruence.
Qed.
(* D' has at least D, in its order, and ... *)
Definition Extends (D D' : deps_of) : Prop := forall t, exists more, D' t = D t ++ more.
Lemma add_all_in ds : forall l y, In y (fold_left add_child ds l) <-> In y l \/ In y ds.
Proof.
  induction ds as [|x ds IH]; intros l y; cbn [fold_left In]; [tauto|]. rewrite IH, add_child_in. intuition congruence.
Qed.
Lemma add_all_more ds : forall l, exists more, fold_left add_child ds l = l ++ more.
Proof.
  induction ds as [|x ds IH]; intros l; [exists []; cbn; rewrite app_nil_r; reflexivity|]. cbn [fold_left].
  destruct (IH (add_child l x)) as [m E]. rewrite E. unfold add_child. destruct (mem x l); [exists m; reflexivity|].
  exists ([x] ++ m). rewrite <- app_assoc. reflexivity.
Qed.
Lemma add_all_nodup ds : forall l, NoDup l -> NoDup (fold_left add_child ds l).
Proof. induction ds as [|x ds IH]; intros l H; [exact H|]. cbn [fold_left]. apply IH, add_child_nodup, H. Qed.
Lemma depends_spec ds ts : forall D,
  (forall t x, In x (depends ts ds D t) <-> In x (D t) \/ In t ts /\ In x ds)
  /\ (forall t, exists more, depends ts ds D t = D t ++ more) /\ ((forall t, NoDup (D t)) -> forall t, NoDup (depends ts ds D t)).
Proof.
  unfold depends. induction ts as [|u ts IH]; intros D; cbn [fold_left].
  - split; [intros t x; cbn [In]; tauto|]. split; [intros t; exists []; rewrite app_nil_r; reflexivity | intros H; exact H].
  - destruct (IH (add_dependency ds D u)) as [A [B C]].
    assert (Q : forall t, (add_dependency ds D u t = fold_left add_child ds (D t) /\ t = u) \/ (add_dependency ds D u t = D t /\ t <> u)).
    { intros t. unfold add_dependency. destruct (str_eqb t u) eqn:E; [left | right].
      - apply str_eqb_spec in E. subst. split; reflexivity.
      - split; [reflexivity|]. intros ->. assert (str_eqb u u = true) by (apply str_eqb_spec; reflexivity). congruence. }
    split; [|split].
    + intros t x. rewrite A. cbn [In]. destruct (Q t) as [[-> ->]|[-> N]]; [rewrite add_all_in; tauto|]. split; [tauto|].
      intros [H|[[H|H] H']]; [left; exact H | exfalso; apply N; symmetry; exact H | right; split; assumption].
    + intros t. destruct (B t) as [m E]. rewrite E. destruct (Q t) as [[-> ->]|[-> N]]; [|exists m; reflexivity].
      destruct (add_all_more ds (D u)) as [m' E']. exists (m' ++ m). rewrite E', <- app_assoc. reflexivity.
    + intros H. apply C. intros t. destruct (Q t) as [[-> ->]|[-> N]]; [apply add_all_nodup|]; apply H.
Qed.
(* C76c: what ParseDepends adds *)
Theorem C76c_added : forall text items must_exist only_one D D', tdlist text = items -> parse_depends (Some text) must_exist only_one D = Done D' ->
  (forall t x, In x (D' t) <-> In x (D t) \/ exists ts ds, In (ts, ds) items /\ In t ts /\ In x ds)
  /\ Extends D D' /\ ((forall t, NoDup (D t)) -> forall t, NoDup (D' t)).
Proof.
  intros text items me oo D D' E H. unfold parse_depends in H. rewrite E in H. clear E.
  destruct (oo && (1 <? List.length (flat_map fst items))); [discriminate|]. injection H as <-. unfold Extends.
  revert D. induction items as [|[ts ds] items IH]; intros D; cbn [fold_left fst snd].
  - split; [intros t x; split; [tauto | intros [H|[ts [ds [[] _]]]]; exact H]|]. split; [intros t; exists []; rewrite app_nil_r; reflexivity | intros H; exact H].
  - destruct (IH (depends ts ds D)) as [A [B C]]. destruct (depends_spec ds ts D) as [A1 [B1 C1]]. split; [|split].
    + intros t x. rewrite A, A1. split.
      * intros [[H|[H1 H2]]|[ts' [ds' [H1 H2]]]]; [left; exact H | right; exists ts, ds; split; [left; reflexivity | split; assumption] | right; exists ts', ds'; split; [right; exact H1 | exact H2]].
      * intros [H|[ts' [ds' [[H|H] [H1 H2]]]]]; [left; left; exact H | injection H as -> ->; left; right; split; assumption | right; exists ts', ds'; split; [exact H | split; assumption]].
    + intros t. destruct (B t) as [m E]. rewrite E. destruct (B1 t) as [m' E']. rewrite E'. exists (m' ++ m). rewrite <- app_assoc. reflexivity.
    + intros H. apply C. apply C1. exact H.
Qed.
(* C76d: when it fails, and that nothing is read then *)
Theorem C76d_errors : forall file must_exist only_one D,
  (parse_depends file must_exist only_one D = NotFound <-> file = None /\ must_exist = true)
  /\ (parse_depends file must_exist only_one D = TooMany <-> only_one = true /\ exists text, file = Some text /\ 1 < List.length (flat_map fst (tdlist text)))
  /\ (file = None -> must_exist = false -> parse_depends file must_exist only_one D = Done D).
Proof.
  intros file me oo D. unfold parse_depends. destruct file as [text|].
  - split; [|split; [|discriminate]].
    + split; [destruct (oo && _); discriminate | intros [H _]; discriminate].
    + destruct (oo && (1 <? List.length (flat_map fst (tdlist text)))) eqn:X.
      * apply andb_true_iff in X. destruct X as [X1 X2]. apply Nat.ltb_lt in X2. split; [|reflexivity]. intros _. split; [exact X1|]. exists text. split; [reflexivity | exact X2].
      * split; [discriminate|]. intros [-> [t [E L]]]. injection E as <-. apply Nat.ltb_lt in L. rewrite L in X. discriminate.
  - destruct me; (split; [|split]).
    + split; [intros _; split; reflexivity | reflexivity].
    + split; [discriminate | intros [_ [t [E _]]]; discriminate].
    + discriminate.
    + split; [discriminate | intros [_ E]; discriminate].
    + split; [discriminate | intros [_ [t [E _]]]; discriminate].
    + reflexivity.
Qed.
Print Assumptions C76a_rules.
Print Assumptions C76b_line_ends.
Print Assumptions C76c_added.
Print Assumptions C76d_errors.
