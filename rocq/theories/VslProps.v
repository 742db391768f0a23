(* Names of versioned shared libraries. *)
From Coq Require Import Ascii String List Bool Arith Lia.
From Verif Require Import NameModel NameProps NameProps2 VslModel VslSpec.
Import ListNotations.
Open Scope list_scope.

Lemma but_last_app : forall a b : str, b <> [] -> but_last_n (a ++ b) (length b) = a.
Proof.
  intros a b N. unfold but_last_n. destruct (length b =? 0) eqn:E; [destruct b; [congruence | discriminate]|].
  rewrite app_length. replace (length a + length b - length b) with (length a) by lia. apply (nth_firstn_app a b). reflexivity.
Qed.
Lemma ends_app : forall a b : str, endswith (a ++ b) b = true.
Proof. intros a b. apply endswith_spec. exists a. reflexivity. Qed.
Lemma starts_app : forall a b : str, startswith (a ++ b) a = true.
Proof. intros a b. apply startswith_spec. exists b. reflexivity. Qed.

Lemma full_suffix_eq : forall e v, Version e v -> full_suffix e = suffix e ++ DOT :: v.
Proof. intros e v [V N]. unfold full_suffix, dot_version. rewrite V. destruct v; [congruence | reflexivity]. Qed.
Lemma version_true : forall e v, Version e v -> versioned e = true.
Proof. intros e v [V N]. unfold versioned. rewrite V. destruct v; [congruence | reflexivity]. Qed.

Lemma stem_eq : forall e v base, Version e v -> base <> [] -> stem e (prefix e ++ base ++ suffix e ++ DOT :: v) = base.
Proof.
  intros e v base V N. unfold stem. rewrite (full_suffix_eq _ _ V). set (s := suffix e ++ DOT :: v).
  assert (s <> []) as NS by (unfold s; destruct (suffix e); discriminate).
  assert (without_suffix (prefix e ++ base ++ s) s = prefix e ++ base) as ->.
  { rewrite app_assoc. unfold without_suffix. rewrite ends_app, but_last_app by exact NS. destruct s; [congruence | reflexivity]. }
  unfold without_prefix. destruct (prefix e) as [|c p] eqn:P; [reflexivity|]. rewrite starts_app.
  destruct (str_eqb ((c :: p) ++ base) (c :: p)) eqn:E.
  - exfalso. apply str_eqb_spec in E. apply N. rewrite <- (app_nil_r (c :: p)) in E at 2. apply app_inv_head in E. exact E.
  - apply (nth_firstn_app (c :: p) base). reflexivity.
Qed.

Lemma split_first : forall v, exists w l, split_on DOT v = w :: l /\ FirstPart v w.
Proof.
  induction v as [|x r [w [l [E [N H]]]]]; cbn [split_on].
  - exists [], []. split; [reflexivity|]. split; [intros []|left; reflexivity].
  - destruct (Ascii.eqb x DOT) eqn:D.
    + exists [], (split_on DOT r). split; [reflexivity|]. split; [intros []|]. right. apply Ascii.eqb_eq in D. subst x. exists r. reflexivity.
    + rewrite E. exists (x :: w), l. split; [reflexivity|]. split.
      * intros [H0 | H0]; [subst x; rewrite Ascii.eqb_refl in D; discriminate | exact (N H0)].
      * destruct H as [-> | [t ->]]; [left; reflexivity | right; exists t; reflexivity].
Qed.
Lemma first_unique : forall v m m', FirstPart v m -> FirstPart v m' -> m = m'.
Proof.
  intros v m m' [N H] [N' H'].
  assert (forall a b r : str, ~ In DOT a -> a = b ++ DOT :: r -> False) as X by (intros a b r NA ->; apply NA, in_or_app; right; left; reflexivity).
  destruct H as [-> | [r ->]], H' as [E | [r' E]].
  - exact E.
  - exfalso. exact (X _ _ _ N E).
  - exfalso. symmetry in E. exact (X _ _ _ N' E).
  - clear X. revert m' N' E. induction m as [|x m IH]; intros m' N' E; destruct m' as [|y m']; cbn in E.
    + reflexivity.
    + injection E as <- _. exfalso; apply N'; left; reflexivity.
    + injection E as -> _. exfalso; apply N; left; reflexivity.
    + injection E as -> E. f_equal. apply IH; [intros H; apply N; right; exact H | intros H; apply N'; right; exact H | exact E].
Qed.
Lemma major_eq : forall v m, FirstPart v m -> major v = m.
Proof. intros v m F. destruct (split_first v) as [w [l [E G]]]. unfold major. rewrite E. exact (first_unique _ _ _ G F). Qed.
Lemma first_exists : forall v, exists m, FirstPart v m.
Proof. intros v. destruct (split_first v) as [w [l [_ G]]]. exists w. exact G. Qed.

Lemma so_name_eq : forall e v base n, Version e v -> Soname e v (prefix e ++ base ++ suffix e) n -> so_name e base = Some n.
Proof.
  intros e v base n [V N] H. unfold so_name, so_version. destruct H as [m S1 S2 F | s S1 S2 | n S1 S2]; rewrite S1, S2; [rewrite V, (major_eq _ _ F) | | reflexivity];
    f_equal; rewrite <- !app_assoc; reflexivity.
Qed.

Lemma off_spec : forall s, truthy s = true <-> Off s.
Proof. intros s. unfold truthy, Off. rewrite !orb_true_iff, !str_eqb_spec. tauto. Qed.
Lemma not_off : forall s, ~ Off s -> truthy s = false.
Proof. intros s H. destruct (truthy s) eqn:E; [exfalso; apply H, off_spec, E | reflexivity]. Qed.
Lemma links_eq : forall e v base n, Version e v -> base <> [] -> truthy (noversionsymlinks e) = false -> Soname e v (prefix e ++ base ++ suffix e) n ->
  links e (prefix e ++ base ++ suffix e ++ DOT :: v) =
    Some ((if str_eqb n (prefix e ++ base ++ suffix e ++ DOT :: v) then [] else [n]) ++ [prefix e ++ base ++ suffix e]).
Proof.
  intros e v base n V N T H. unfold links, links_with. rewrite T, (version_true _ _ V), (stem_eq _ _ _ V N), (so_name_eq _ _ _ _ V H). reflexivity.
Qed.

(* C81a: the name recorded in the library; the links are exactly the plain name and, unless the library has it itself, the recorded name *)
Theorem C81a_names : forall e v base n, Version e v -> base <> [] -> Soname e v (prefix e ++ base ++ suffix e) n ->
  recorded e (prefix e ++ base ++ suffix e ++ DOT :: v) = Some n /\
  (~ Off (noversionsymlinks e) ->
   exists ls, links e (prefix e ++ base ++ suffix e ++ DOT :: v) = Some ls /\
     forall l, In l ls <-> l = prefix e ++ base ++ suffix e \/ l = n /\ n <> prefix e ++ base ++ suffix e ++ DOT :: v).
Proof.
  intros e v base n V N H. split; [unfold recorded; rewrite (version_true _ _ V), (stem_eq _ _ _ V N); exact (so_name_eq _ _ _ _ V H)|].
  intros T. apply not_off in T. eexists. split; [exact (links_eq _ _ _ _ V N T H)|]. intros l. rewrite in_app_iff.
  destruct (str_eqb n (prefix e ++ base ++ suffix e ++ DOT :: v)) eqn:E.
  - apply str_eqb_spec in E. cbn. split; [intros [[] | [H1 | []]]; left; congruence | intros [H1 | [_ H1]]; [right; left; congruence | contradiction]].
  - apply str_eqb_neq in E. cbn. split; [intros [[H1 | []] | [H1 | []]]; [right; split; [congruence | exact E] | left; congruence] | intros [H1 | [H1 _]]; [right; left; congruence | left; left; congruence]].
Qed.
Print Assumptions C81a_names.

(* C81b: how the library itself is called, and where: in the directory of the name that was given *)
Theorem C81b_library : forall e v given w base, Version e v -> ~ In SLASH (prefix e) -> ~ In SLASH (suffix e) -> ~ In SLASH v -> base <> [] -> file_called given w ->
  (w = base /\ ~ (begins base (prefix e) /\ base <> prefix e) \/ w = prefix e ++ base) -> ~ has_ext (prefix e ++ base) -> ~ ends (prefix e ++ base) (suffix e ++ DOT :: v) ->
  exists D, file_called (library_name e given) (prefix e ++ base ++ suffix e ++ DOT :: v) /\
    forall cwd, walk cwd given = w :: D cwd /\ walk cwd (library_name e given) = (prefix e ++ base ++ suffix e ++ DOT :: v) :: D cwd.
Proof.
  intros e v given w base V NP NS NV NB FC W NX NE. unfold library_name. rewrite (full_suffix_eq _ _ V).
  assert (~ In SLASH (suffix e ++ DOT :: v)) as NF by (rewrite in_app_iff; intros [H | [H | H]]; [exact (NS H) | discriminate H | exact (NV H)]).
  destruct (C56c_adjusted_name given w (prefix e) (suffix e ++ DOT :: v) false FC NP NF) as [w1 [w2 [D [P1 [S2 [F2 W2]]]]]].
  assert (w1 = prefix e ++ base) as ->.
  { destruct P1 as [[H ->] | [H [_ ->]]].
    - destruct W as [[-> W] | ->]; [|reflexivity]. destruct H as [H | ->]; [contradiction | reflexivity].
    - destruct W as [[-> W] | ->]; [reflexivity|]. exfalso. apply H. split; [exists base; reflexivity|]. intros E. apply NB. rewrite <- (app_nil_r (prefix e)) in E at 2. apply app_inv_head in E. exact E. }
  assert (w2 = prefix e ++ base ++ suffix e ++ DOT :: v) as <-.
  { destruct S2 as [[[H | [_ H]] _] | [_ ->]]; [contradiction | contradiction | rewrite <- app_assoc; reflexivity]. }
  exists D. split; [exact F2 | exact W2].
Qed.
Print Assumptions C81b_library.

(* C81c: two versions of a library have the same recorded name exactly when the first parts of the versions are the same *)
Theorem C81c_compatible : forall e1 e2 v1 v2 m1 m2 base, SameBut e1 e2 -> Version e1 v1 -> Version e2 v2 -> soname e1 = None -> soversion e1 = None -> base <> [] ->
  FirstPart v1 m1 -> FirstPart v2 m2 ->
  (recorded e1 (prefix e1 ++ base ++ suffix e1 ++ DOT :: v1) = recorded e2 (prefix e2 ++ base ++ suffix e2 ++ DOT :: v2) <-> m1 = m2).
Proof.
  intros e1 e2 v1 v2 m1 m2 base [P [SU [SO [SV T]]]] V1 V2 N1 N2 NB F1 F2.
  destruct (C81a_names e1 v1 base _ V1 NB (by_version _ _ _ _ N1 N2 F1)) as [-> _].
  destruct (C81a_names e2 v2 base _ V2 NB (by_version _ _ _ _ (eq_trans (eq_sym SO) N1) (eq_trans (eq_sym SV) N2) F2)) as [-> _].
  rewrite P, SU. split.
  - intros H. injection H as H. apply app_inv_head in H. injection H as H. exact H.
  - intros ->. reflexivity.
Qed.
Print Assumptions C81c_compatible.

(* C81d: without a version there are no links and no recorded name; links can be turned off; both SONAME and SOVERSION are an error *)
Theorem C81d_otherwise : forall e name,
  (version e = None \/ version e = Some [] -> recorded e name = None /\ links e name = Some []) /\
  (Off (noversionsymlinks e) -> links e name = Some []) /\
  (forall v n s, Version e v -> soname e = Some n -> soversion e = Some s -> ~ Off (noversionsymlinks e) -> recorded e name = None /\ links e name = None).
Proof.
  intros e name. split; [|split].
  - intros H. assert (versioned e = false) as W by (unfold versioned; destruct H as [-> | ->]; reflexivity). unfold recorded, links, links_with. rewrite W. destruct (truthy _); split; reflexivity.
  - intros T. apply off_spec in T. unfold links, links_with. rewrite T. reflexivity.
  - intros v n s V S1 S2 T. apply not_off in T. unfold recorded, links, links_with, so_name. rewrite T, (version_true _ _ V), S1, S2. split; reflexivity.
Qed.
Print Assumptions C81d_otherwise.
