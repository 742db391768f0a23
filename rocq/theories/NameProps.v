(* Names of targets: theorems about NameModel.v. *)
From Coq Require Import Ascii String List Bool Arith Lia.
Import ListNotations.
From Verif Require Import NameModel.
Open Scope list_scope.

(* ---------- specification ---------- *)
Definition ends (p s : str) : Prop := exists r, p = r ++ s.
Definition begins (p s : str) : Prop := exists r, p = s ++ r.
(* ext is the extension of path: from the last dot of the file name on, unless only digits follow *)
Definition ordinary_ext (path root ext : str) : Prop :=
  path = root ++ ext /\
  ((ext = [] /\ forall r t, path = r ++ DOT :: t -> ~ In DOT t -> ~ In SLASH t -> t <> [] /\ Forall (fun c => is_digit c = true) t) \/
   (exists t, ext = DOT :: t /\ ~ In DOT t /\ ~ In SLASH t /\ (t = [] \/ Exists (fun c => is_digit c = false) t))).
(* the longest of the suffixes that end the path *)
Definition longest_suffix (suffixes : list str) (path ext : str) : Prop :=
  In ext suffixes /\ ends path ext /\ forall s, In s suffixes -> ends path s -> length s <= length ext.

(* ---------- strings ---------- *)
Lemma str_eqb_spec : forall a b, str_eqb a b = true <-> a = b.
Proof.
  induction a as [|x a IH]; intros [|y b]; cbn [str_eqb]; try (split; [discriminate | discriminate]); try tauto.
  - rewrite andb_true_iff, Ascii.eqb_eq, IH. split; [intros [-> ->]; reflexivity | intros E; inversion E; auto].
Qed.
Lemma str_eqb_refl : forall a, str_eqb a a = true.
Proof. intros; apply str_eqb_spec; reflexivity. Qed.
Lemma str_eqb_neq : forall a b, str_eqb a b = false <-> a <> b.
Proof. intros a b. rewrite <- not_true_iff_false, str_eqb_spec. tauto. Qed.
Lemma str_dec : forall a b : str, {a = b} + {a <> b}.
Proof. apply list_eq_dec, ascii_dec. Defined.
Lemma startswith_spec : forall s p, startswith s p = true <-> begins s p.
Proof.
  intros s p; revert s; induction p as [|x p IH]; intros s.
  - split; [intros _; exists s; reflexivity | destruct s; reflexivity].
  - destruct s as [|y s].
    + split; [discriminate | intros [r E]; discriminate].
    + cbn [startswith]. rewrite andb_true_iff, Ascii.eqb_eq, IH. split.
      * intros [-> [r ->]]. exists r; reflexivity.
      * intros [r E]. cbn in E. inversion E; subst. split; [reflexivity | exists r; reflexivity].
Qed.
Lemma endswith_spec : forall s p, endswith s p = true <-> ends s p.
Proof.
  intros s p. unfold endswith. rewrite startswith_spec. split; intros [r E].
  - exists (rev r). apply (f_equal (@rev _)) in E. rewrite rev_app_distr, !rev_involutive in E. exact E.
  - exists (rev r). rewrite E, rev_app_distr. reflexivity.
Qed.
Lemma rfind_spec : forall c s, match rfind c s with
  | None => ~ In c s
  | Some i => exists a b, s = a ++ c :: b /\ ~ In c b /\ length a = i end.
Proof.
  induction s as [|x s IH]; cbn [rfind].
  - tauto.
  - destruct (rfind c s) as [i|].
    + destruct IH as [a [b [-> [NI L]]]]. exists (x :: a), b. cbn. auto.
    + destruct (Ascii.eqb_spec x c) as [-> | NE].
      * exists [], s. auto.
      * cbn. intros [E | H]; auto.
Qed.
Lemma last_n_ends : forall p s, s <> [] -> last_n p (length s) = s <-> ends p s.
Proof.
  intros p s NE. unfold last_n. destruct (length s) as [|n] eqn:L; [destruct s; [congruence | discriminate]|]. cbn [Nat.eqb]. rewrite <- L. clear n L. split.
  - intros E. exists (firstn (length p - length s) p). rewrite <- E at 2. symmetry. apply firstn_skipn.
  - intros [r ->]. rewrite app_length. replace (length r + length s - length s) with (length r) by lia. apply skipn_app_2 || idtac.
    rewrite skipn_app, Nat.sub_diag, skipn_all. reflexivity.
Qed.
Lemma last_n_nil : forall p, last_n p 0 = p.
Proof. reflexivity. Qed.
Lemma last_n_split : forall p n, n <> 0 -> but_last_n p n ++ last_n p n = p.
Proof. intros p n NE. unfold last_n, but_last_n. destruct (Nat.eqb_spec n 0); [lia|]. apply firstn_skipn. Qed.
Lemma ends_same_length : forall p a b, ends p a -> ends p b -> length a = length b -> a = b.
Proof. intros p a b [r1 E1] [r2 E2] L. rewrite E1 in E2. apply app_inv_head_iff || idtac.
  assert (length r1 = length r2) as LR. { apply (f_equal (@length _)) in E2. rewrite !app_length in E2. lia. }
  destruct (app_eq_app _ _ _ _ E2) as [m [[Ea Eb] | [Ea Eb]]]; subst; rewrite app_length in LR; destruct m; cbn in *; try lia; reflexivity.
Qed.

(* ---------- splitext ---------- *)
Lemma isdigit_spec : forall s, isdigit s = true <-> s <> [] /\ Forall (fun c => is_digit c = true) s.
Proof.
  intros [|x s]; cbn [isdigit].
  - split; [discriminate | intros [H _]; congruence].
  - rewrite forallb_forall, Forall_forall. split; [intros H; split; [discriminate | exact H] | intros [_ H]; exact H].
Qed.
Lemma isdigit_false : forall s, isdigit s = false -> s = [] \/ Exists (fun c => is_digit c = false) s.
Proof.
  intros s H. destruct s as [|x s]; [left; reflexivity | right]. cbn [isdigit] in H.
  apply Exists_exists. revert H. generalize (x :: s). induction l as [|y l IH]; cbn [forallb]; [discriminate|].
  destruct (is_digit y) eqn:D; cbn [andb].
  - intros H. destruct (IH H) as [z [I1 I2]]. exists z; split; [right; exact I1 | exact I2].
  - intros _. exists y; split; [left; reflexivity | exact D].
Qed.
Lemma last_occ_unique : forall (c : ascii) a b a' b', ~ In c b -> ~ In c b' -> a ++ c :: b = a' ++ c :: b' -> a = a' /\ b = b'.
Proof.
  intros c a b a' b' N N' E. destruct (app_eq_app _ _ _ _ E) as [m [[Ea Eb] | [Ea Eb]]].
  - destruct m as [|y m]; cbn in Eb.
    + inversion Eb; subst. rewrite app_nil_r. auto.
    + exfalso. apply N'. inversion Eb; subst. apply in_or_app; right; left; reflexivity.
  - destruct m as [|y m]; cbn in Eb.
    + inversion Eb; subst. rewrite app_nil_r. auto.
    + exfalso. apply N. inversion Eb; subst. apply in_or_app; right; left; reflexivity.
Qed.
Lemma nth_firstn_app : forall (a b : str) n, length a = n -> firstn n (a ++ b) = a /\ skipn n (a ++ b) = b.
Proof.
  intros a b n L. subst n. rewrite firstn_app, skipn_app, Nat.sub_diag, firstn_all, skipn_all. cbn. rewrite app_nil_r. auto.
Qed.
Lemma splitext_ordinary : forall p, ordinary_ext p (fst (splitext p)) (snd (splitext p)).
Proof.
  intros p. unfold splitext. pose proof (rfind_spec DOT p) as HD. destruct (rfind DOT p) as [dot|].
  2: { cbn [fst snd]. split; [rewrite app_nil_r; reflexivity|]. left; split; [reflexivity|]. intros r t -> _ _. exfalso; apply HD. apply in_or_app; right; left; reflexivity. }
  destruct HD as [a [b [E [NI L]]]].
  destruct (nth_firstn_app a (DOT :: b) dot L) as [F1 F2].
  assert (skipn (dot + 1) p = b) as SK.
  { rewrite E. replace (dot + 1) with (length (a ++ [DOT])) by (rewrite app_length; cbn; lia). replace (a ++ DOT :: b) with ((a ++ [DOT]) ++ b) by (rewrite <- app_assoc; reflexivity).
    apply nth_firstn_app. reflexivity. }
  rewrite SK.
  assert ((match rfind SLASH p with None => true | Some sep => sep <? dot end) = true <-> ~ In SLASH b) as SEP.
  { pose proof (rfind_spec SLASH p) as HS. destruct (rfind SLASH p) as [sep|].
    - destruct HS as [a' [b' [E' [NI' L']]]]. rewrite Nat.ltb_lt. split.
      + intros LT IN. apply in_split in IN. destruct IN as [x [y ->]]. rewrite E in E'.
        destruct (app_eq_app _ _ _ _ E') as [m [[Ea Eb] | [Ea Eb]]].
        * apply NI'. destruct m as [|z m]; cbn in Eb; [discriminate Eb|]. inversion Eb; subst. apply in_or_app; right; right; apply in_or_app; right; left; reflexivity.
        * subst a'. rewrite app_length in L'. lia.
      + intros NS. destruct (le_lt_dec dot sep) as [LE | LT]; [exfalso | exact LT]. apply NS. rewrite E in E'.
        destruct (app_eq_app _ _ _ _ E') as [m [[Ea Eb] | [Ea Eb]]].
        * subst a. rewrite app_length in L. destruct m as [|z m]; cbn in *; [discriminate Eb | lia].
        * subst a'. destruct m as [|z m]; cbn in Eb; [discriminate Eb|]. inversion Eb; subst. apply in_or_app; right; left; reflexivity.
    - split; [intros _ IN; apply HS; rewrite E; apply in_or_app; right; right; exact IN | reflexivity]. }
  destruct (match rfind SLASH p with None => true | Some sep => sep <? dot end) eqn:SB; cbn [andb].
  - destruct (isdigit b) eqn:DG; cbn [negb fst snd].
    + split; [rewrite app_nil_r; reflexivity|]. left; split; [reflexivity|]. intros r t E2 N1 N2. rewrite E in E2. destruct (last_occ_unique _ _ _ _ _ NI N1 E2) as [_ ->]. apply isdigit_spec; exact DG.
    + rewrite E, F1, F2. split; [reflexivity|]. right. exists b. split; [reflexivity|]. split; [exact NI|]. split; [apply SEP; reflexivity | apply isdigit_false; exact DG].
  - cbn [fst snd]. split; [rewrite app_nil_r; reflexivity|]. left; split; [reflexivity|]. intros r t E2 N1 N2. rewrite E in E2. destruct (last_occ_unique _ _ _ _ _ NI N1 E2) as [_ ->].
    exfalso. assert (false = true) by (apply SEP; exact N2). discriminate.
Qed.
(* the extension is determined *)
Lemma ordinary_unique : forall p r1 e1 r2 e2, ordinary_ext p r1 e1 -> ordinary_ext p r2 e2 -> r1 = r2 /\ e1 = e2.
Proof.
  assert (forall p r1 e1 r2 e2, ordinary_ext p r1 e1 -> ordinary_ext p r2 e2 -> e1 = e2) as H.
  { intros p r1 e1 r2 e2 [E1 [[-> N1] | [t1 [-> [D1 [S1 T1]]]]]] [E2 [[-> N2] | [t2 [-> [D2 [S2 T2]]]]]].
    - reflexivity.
    - exfalso. destruct (N1 _ _ E2 D2 S2) as [NE F]. destruct T2 as [-> | X]; [congruence|]. apply Exists_exists in X. destruct X as [c [IN C]]. rewrite Forall_forall in F. specialize (F c IN). congruence.
    - exfalso. destruct (N2 _ _ E1 D1 S1) as [NE F]. destruct T1 as [-> | X]; [congruence|]. apply Exists_exists in X. destruct X as [c [IN C]]. rewrite Forall_forall in F. specialize (F c IN). congruence.
    - rewrite E1 in E2. destruct (last_occ_unique _ _ _ _ _ D1 D2 E2) as [_ ->]. reflexivity. }
  intros p r1 e1 r2 e2 H1 H2. pose proof (H _ _ _ _ _ H1 H2) as ->. split; [|reflexivity]. destruct H1 as [E1 _]. destruct H2 as [E2 _]. rewrite E1 in E2. apply app_inv_tail in E2. exact E2.
Qed.

(* ---------- match_splitext ---------- *)
Lemma longest_in : forall l, l <> [] -> In (longest l) l /\ forall s, In s l -> length s <= length (longest l).
Proof.
  induction l as [|s l IH]; intros NE; [congruence|]. cbn [longest]. destruct l as [|s2 l2].
  - cbn. split; [left; reflexivity | intros x [<- | []]; lia].
  - destruct (IH ltac:(discriminate)) as [I1 I2]. destruct (Nat.leb_spec (length (longest (s2 :: l2))) (length s)) as [LE | LT].
    + split; [left; reflexivity | intros x [<- | IN]; [lia | specialize (I2 _ IN); lia]].
    + split; [right; exact I1 | intros x [<- | IN]; [lia | apply I2; exact IN]].
Qed.
Lemma matching : forall p sufs s, In s (filter (fun s => str_eqb (last_n p (length s)) s) sufs) <-> In s sufs /\ (s <> [] /\ ends p s \/ s = [] /\ p = []).
Proof.
  intros p sufs s. rewrite filter_In, str_eqb_spec. destruct s as [|c s].
  - cbn [length]. rewrite last_n_nil. split; intros [H1 H2]; split; auto; [destruct H2 as [[? _] | [_ ?]]; [congruence | auto]].
  - rewrite last_n_ends by discriminate. split; intros [H1 H2]; split; auto; [left; split; [discriminate | auto] | destruct H2 as [[_ ?] | [? _]]; [auto | discriminate]].
Qed.
(* the empty suffix is not a suffix of a name *)
Definition proper (sufs : list str) (p : str) : Prop := exists s, In s sufs /\ s <> [] /\ ends p s.
Lemma match_splitext_matched : forall p sufs, proper sufs p -> longest_suffix sufs p (snd (match_splitext p sufs)) /\ fst (match_splitext p sufs) ++ snd (match_splitext p sufs) = p.
Proof.
  intros p sufs [s [IN [NE EN]]]. unfold match_splitext.
  assert (In s (filter (fun s => str_eqb (last_n p (length s)) s) sufs)) as IF by (apply matching; auto).
  pose proof (matching p sufs) as MT. destruct (filter (fun s => str_eqb (last_n p (length s)) s) sufs) as [|m ms] eqn:F; [destruct IF|].
  destruct (longest_in (m :: ms) ltac:(discriminate)) as [LI LM]. set (suf := longest (m :: ms)) in *.
  assert (suf <> []) as SN. { intros Z. specialize (LM _ IF). rewrite Z in LM. cbn in LM. destruct s; [congruence | cbn in LM; lia]. }
  pose proof (proj1 (MT suf) LI) as [IS [[_ ES] | [Z _]]]; [|congruence]. cbn [fst snd].
  assert (last_n p (length suf) = suf) as LS by (apply last_n_ends; auto). split.
  - rewrite LS. split; [exact IS|]. split; [exact ES|]. intros s' IN' EN'. destruct s' as [|c s']; [cbn; lia|]. apply LM. apply MT. split; [exact IN' | left; split; [discriminate | exact EN']].
  - apply last_n_split. destruct suf; [congruence | discriminate].
Qed.
Lemma match_splitext_unmatched : forall p sufs, ~ proper sufs p -> match_splitext p sufs = splitext p.
Proof.
  intros p sufs NP. unfold match_splitext. pose proof (matching p sufs) as MT. destruct (filter (fun s => str_eqb (last_n p (length s)) s) sufs) as [|m ms] eqn:F; [reflexivity|].
  destruct (longest_in (m :: ms) ltac:(discriminate)) as [LI LM]. set (suf := longest (m :: ms)) in *.
  destruct (proj1 (MT suf) LI) as [IS [[SN ES] | [Z P]]]; [exfalso; apply NP; exists suf; auto|]. rewrite Z, P. reflexivity.
Qed.
Lemma proper_dec : forall sufs p, {proper sufs p} + {~ proper sufs p}.
Proof.
  intros sufs p. destruct (existsb (fun s => negb (str_eqb s []) && endswith p s) sufs) eqn:E.
  - left. apply existsb_exists in E. destruct E as [s [IN E]]. apply andb_true_iff in E. destruct E as [E1 E2]. apply negb_true_iff, str_eqb_neq in E1. apply endswith_spec in E2. exists s; auto.
  - right. intros [s [IN [NE EN]]]. assert (existsb (fun s => negb (str_eqb s []) && endswith p s) sufs = true) as T; [|congruence].
    apply existsb_exists. exists s. split; [exact IN|]. apply andb_true_iff. split; [apply negb_true_iff, str_eqb_neq; exact NE | apply endswith_spec; exact EN].
Qed.
Lemma match_splitext_app : forall p sufs, fst (match_splitext p sufs) ++ snd (match_splitext p sufs) = p.
Proof.
  intros p sufs. destruct (proper_dec sufs p) as [H | H].
  - apply match_splitext_matched; exact H.
  - rewrite match_splitext_unmatched by exact H. destruct (splitext_ordinary p) as [E _]. symmetry; exact E.
Qed.

(* C56: the name of a file is split into a root and an extension, the longest of the known suffixes it ends with, or else its ordinary extension; nothing of it is lost *)
Theorem C56_extension : forall suffixes name root ext, match_splitext name suffixes = (root, ext) ->
  name = root ++ ext /\
  ((exists s, In s suffixes /\ s <> [] /\ ends name s) -> longest_suffix suffixes name ext) /\
  (~ (exists s, In s suffixes /\ s <> [] /\ ends name s) -> ordinary_ext name root ext).
Proof.
  intros sufs p root ext E. pose proof (match_splitext_app p sufs) as A. rewrite E in A. cbn [fst snd] in A. split; [symmetry; exact A|]. split; intros H.
  - pose proof (match_splitext_matched p sufs H) as [LS _]. rewrite E in LS. exact LS.
  - rewrite (match_splitext_unmatched p sufs H) in E. pose proof (splitext_ordinary p) as O. rewrite E in O. exact O.
Qed.
(* the specification fixes the result, so the order of the suffixes does not matter *)
Theorem C56_extension_unique : forall suffixes suffixes' name, (forall s, In s suffixes <-> In s suffixes') -> match_splitext name suffixes = match_splitext name suffixes'.
Proof.
  intros l l' p SAME. destruct (proper_dec l p) as [H | H].
  - assert (proper l' p) as H' by (destruct H as [s [IN R]]; exists s; split; [apply SAME; exact IN | exact R]).
    destruct (match_splitext_matched p l H) as [[I1 [E1 M1]] A1]. destruct (match_splitext_matched p l' H') as [[I2 [E2 M2]] A2].
    assert (snd (match_splitext p l) = snd (match_splitext p l')) as SE.
    { apply (ends_same_length p); auto. apply SAME in I1. apply SAME in I2. specialize (M1 _ I2 E2). specialize (M2 _ I1 E1). lia. }
    rewrite SE in A1. pose proof (eq_trans A1 (eq_sym A2)) as A3. apply app_inv_tail in A3. destruct (match_splitext p l), (match_splitext p l'); cbn in *; congruence.
  - assert (~ proper l' p) as H' by (intros [s [IN R]]; apply H; exists s; split; [apply SAME; exact IN | exact R]). rewrite !match_splitext_unmatched by assumption. reflexivity.
Qed.

(* C56b: a target whose name is not given is called after its source: prefix, root, suffix.  Sources with the same extension give different targets *)
Theorem C56b_target_name : forall prefix suffix suffixes name name' root ext, match_splitext name suffixes = (root, ext) ->
  target_from_source prefix suffix suffixes name = prefix ++ root ++ suffix /\
  (name <> name' -> snd (match_splitext name' suffixes) = ext -> target_from_source prefix suffix suffixes name' <> target_from_source prefix suffix suffixes name).
Proof.
  intros pre suf sufs n n' root ext E. unfold target_from_source. rewrite E. cbn [fst]. split; [reflexivity|]. intros NE SE Z. apply NE.
  apply app_inv_head in Z. apply app_inv_tail in Z. pose proof (match_splitext_app n sufs) as A. rewrite E in A. cbn [fst snd] in A. rewrite <- A, <- SE, <- Z. apply match_splitext_app.
Qed.
