(* C63: matching of names, sorting, splitting of paths *)
From Coq Require Import Ascii String List Bool Arith Lia Permutation Sorted.
Import ListNotations. Open Scope list_scope.
From Verif Require Import NameModel OptModel TgtModel TgtSpec GlobModel GlobSpec.

Lemma ch_eq : forall a c, ch a c = true <-> c = a.
Proof. intros a c. unfold ch. apply Ascii.eqb_eq. Qed.
Lemma ch_neq : forall a c, ch a c = false <-> c <> a.
Proof. intros a c. rewrite <- ch_eq. destruct (ch a c); split; congruence. Qed.
Lemma until_some : forall l a b, until l = Some (a, b) <-> l = a ++ close_ :: b /\ ~ In close_ a.
Proof.
  intros l. induction l as [|c r IH]; intros a b; cbn [until]; [split; [discriminate | intros (E & _); destruct a; discriminate]|].
  destruct (ch "]" c) eqn:C; [apply ch_eq in C; subst c | apply ch_neq in C].
  - split; [intros E; injection E as <- <-; split; [reflexivity | intros []]|]. intros (E & N). destruct a as [|x a]; [injection E as <-; reflexivity|]. injection E as <- _. exfalso. apply N. left. reflexivity.
  - destruct (until r) as [[a' b']|] eqn:U.
    + assert (H : r = a' ++ close_ :: b' /\ ~ In close_ a') by (apply IH; reflexivity). destruct H as (-> & N). split.
      * intros E. injection E as <- <-. split; [reflexivity|]. intros [X|X]; [unfold close_ in X; congruence | contradiction].
      * intros (E & N2). destruct a as [|x a]; [injection E as X _; unfold close_ in X; congruence|]. injection E as -> E. assert (Y : Some (a', b') = Some (a, b)) by (apply IH; split; [exact E | intros X; apply N2; right; exact X]). congruence.
    + split; [discriminate|]. intros (E & N2). destruct a as [|x a]; [injection E as X _; unfold close_ in X; congruence|]. injection E as -> E. exfalso.
      assert (Y : None = Some (a, b)) by (apply IH; split; [exact E | intros X; apply N2; right; exact X]). discriminate.
Qed.
Lemma class_end_some : forall neg r neg' a b, class_end neg r = Some (neg', a, b) <-> neg' = neg /\ r = a ++ close_ :: b /\ inner a.
Proof.
  intros neg r neg' a b. unfold class_end. destruct r as [|c r2]; [split; [discriminate | intros (_ & E & _); destruct a; discriminate]|].
  destruct (ch "]" c) eqn:C; [apply ch_eq in C; subst c | apply ch_neq in C].
  - destruct (until r2) as [[a' b']|] eqn:U.
    + apply until_some in U. destruct U as (-> & N). split.
      * intros E. injection E as <- <- <-. split; [reflexivity|]. split; [reflexivity|]. exists "]"%char, a'. auto.
      * intros (-> & E & x & y & -> & N2). injection E as <- E. assert (Y : until (a' ++ close_ :: b') = Some (y, b)) by (apply until_some; auto).
        assert (Z : until (a' ++ close_ :: b') = Some (a', b')) by (apply until_some; auto). rewrite Y in Z. injection Z as -> ->. reflexivity.
    + split; [discriminate|]. intros (-> & E & x & y & -> & N2). injection E as <- E. assert (Y : until r2 = Some (y, b)) by (apply until_some; auto). congruence.
  - destruct (until (c :: r2)) as [[a' b']|] eqn:U.
    + apply until_some in U. destruct U as (E0 & N). rewrite E0. split.
      * intros E. injection E as <- <- <-. split; [reflexivity|]. split; [reflexivity|]. destruct a' as [|x y]; [cbn in E0; injection E0 as X _; unfold close_ in X; congruence|]. exists x, y. split; [reflexivity|]. intros X. apply N. right. exact X.
      * intros (-> & E & x & y & -> & N2). assert (Y : until (a' ++ close_ :: b') = Some (x :: y, b)). { apply until_some. split; [exact E|]. intros [X|X]; [|contradiction]. rewrite E in E0. injection E0 as X2 _. unfold close_ in X. congruence. }
        assert (Z : until (a' ++ close_ :: b') = Some (a', b')) by (apply until_some; auto). rewrite Y in Z. injection Z as <- ->. reflexivity.
    + split; [discriminate|]. intros (-> & E & x & y & -> & N2). injection E as <- E. assert (Y : until (c :: r2) = Some (c :: y, b)). { apply until_some. split; [rewrite E; reflexivity|]. intros [X|X]; [unfold close_ in X; congruence | contradiction]. } congruence.
Qed.
Lemma class_of_some : forall r neg a b, class_of r = Some (neg, a, b) <-> bracket r neg a b.
Proof.
  intros r neg a b. unfold class_of. destruct r as [|c r2].
  - split; [discriminate|]. intros H. inversion H as [l rest I E|l rest I N E]; subst. destruct I as (x & y & -> & _). discriminate.
  - destruct (ch "!" c) eqn:C; [apply ch_eq in C; subst c | apply ch_neq in C]; rewrite class_end_some.
    + split.
      * intros (-> & -> & I). apply br_not. exact I.
      * intros H. inversion H as [l rest I E|l rest I N E]; subst; [auto|]. destruct I as (x & y & -> & _). injection E as -> _. exfalso. apply (N y). reflexivity.
    + split.
      * intros (-> & E & I). rewrite E. apply br_pos; [exact I|]. intros r ->. cbn in E. injection E as X _. unfold bang in X. congruence.
      * intros H. inversion H as [l rest I E|l rest I N E]; subst; [unfold bang in C; congruence | auto].
Qed.
Lemma items_range : forall a b r, items (a :: dash :: b :: r) = Range a b :: items r.
Proof. reflexivity. Qed.
Lemma items_one : forall a r, (forall b r2, r <> dash :: b :: r2) -> items (a :: r) = One a :: items r.
Proof.
  intros a r H. cbn [items]. destruct r as [|d r2]; [reflexivity|]. destruct r2 as [|b r3]; [reflexivity|]. destruct (ch "-" d) eqn:C; [|reflexivity]. apply ch_eq in C. subst d. exfalso. apply (H b r3). reflexivity.
Qed.
Lemma range_dec : forall r : word, (exists b r2, r = dash :: b :: r2) \/ (forall b r2, r <> dash :: b :: r2).
Proof.
  intros [|d [|b r]]; [right; discriminate | right; discriminate|]. destruct (ascii_dec d dash) as [->|N]; [left; eauto | right; intros b' r' E; injection E as E _; contradiction].
Qed.
Lemma items_among : forall c l, existsb (in_item c) (items l) = true <-> among c l.
Proof.
  intros c l. remember (length l) as k eqn:K. assert (L : length l <= k) by lia. clear K. revert l L. induction k as [|k IH]; intros l L.
  - destruct l; [|cbn in L; lia]. cbn. split; [discriminate | intros H; inversion H].
  - destruct l as [|a r]; [cbn; split; [discriminate | intros H; inversion H]|]. destruct (range_dec r) as [(b & r2 & ->)|N].
    + rewrite items_range. cbn [existsb in_item]. rewrite orb_true_iff, andb_true_iff, !Nat.leb_le. cbn in L. rewrite (IH r2) by lia. split.
      * intros [H|H]; [apply am_range; exact H | apply am_range_later; exact H].
      * intros H. inversion H as [a' b' r' B E|a' b' r' B E|r' N E|a' r' N B E]; subst; [left; exact B | right; exact B | exfalso; apply (N b r2); reflexivity | exfalso; apply (N b r2); reflexivity].
    + rewrite items_one by exact N. cbn [existsb in_item]. rewrite orb_true_iff, Ascii.eqb_eq. cbn in L. rewrite (IH r) by lia. split.
      * intros [-> | H]; [apply am_one; exact N | apply am_later; assumption].
      * intros H. inversion H as [a' b' r' B E|a' b' r' B E|r' N' E|a' r' N' B E]; subst; [exfalso; eapply N; reflexivity | exfalso; eapply N; reflexivity | left; reflexivity | right; exact B].
Qed.
Lemma any_spec : forall (P : word -> bool) s, (fix any (s : word) : bool := P s || match s with [] => false | _ :: t => any t end) s = true <-> exists u v, s = u ++ v /\ P v = true.
Proof.
  intros P s. induction s as [|c s IH].
  - rewrite orb_false_r. split; [intros H; exists [], []; auto | intros (u & v & E & H); symmetry in E; apply app_eq_nil in E; destruct E as (_ & ->); exact H].
  - rewrite orb_true_iff, IH. split.
    + intros [H|(u & v & -> & H)]; [exists [], (c :: s); auto | exists (c :: u), v; auto].
    + intros (u & v & E & H). destruct u as [|x u]; [left; cbn in E; subst v; exact H | right; injection E as -> ->; exists u, v; auto].
Qed.
Lemma bracket_rest : forall p neg l rest, bracket p neg l rest -> length rest < length p.
Proof. intros p neg l rest H. inversion H; subst; cbn [length]; rewrite ?app_length; cbn [length]; lia. Qed.
Lemma bracket_one : forall p n1 l1 r1 n2 l2 r2, bracket p n1 l1 r1 -> bracket p n2 l2 r2 -> n1 = n2 /\ l1 = l2 /\ r1 = r2.
Proof. intros p n1 l1 r1 n2 l2 r2 H1 H2. apply class_of_some in H1. apply class_of_some in H2. rewrite H1 in H2. injection H2 as <- <- <-. auto. Qed.
Lemma fnm_fits : forall f p s, length p < f -> (fnm f p s = true <-> fits p s).
Proof.
  intros f. induction f as [|f IH]; intros p s L; [lia|]. cbn [fnm]. destruct p as [|c r].
  - destruct s; [split; [intros _; constructor | reflexivity] | split; [discriminate | intros H; inversion H]].
  - cbn [length] in L. destruct (ch "*" c) eqn:C1; [apply ch_eq in C1; subst c|].
    { rewrite (any_spec (fnm f r)). split.
      - intros (u & v & -> & H). apply fits_star. apply IH; [lia | exact H].
      - intros H. inversion H as [|p u v F|p x t F|p l rest x t B A F|p l rest x t B A F|p t N F|x p t N1 N2 N3 F]; subst; try (unfold star, quest, open_ in *; congruence). exists u, v. split; [reflexivity | apply IH; [lia | exact F]]. }
    apply ch_neq in C1. destruct s as [|x t].
    { split; [discriminate|]. intros H. inversion H; subst; try (unfold star, quest, open_ in *; congruence). }
    destruct (ch "?" c) eqn:C2; [apply ch_eq in C2; subst c|].
    { rewrite IH by lia. split; [intros H; apply fits_any; exact H|].
      intros H. inversion H as [|p u v F|p x' t' F|p l rest x' t' B A F|p l rest x' t' B A F|p t' N F|x' p t' N1 N2 N3 F]; subst; try (unfold star, quest, open_ in *; congruence); assumption. }
    apply ch_neq in C2. destruct (ch "[" c) eqn:C3; [apply ch_eq in C3; subst c|].
    { destruct (class_of r) as [[[neg body] rest]|] eqn:B.
      - apply class_of_some in B. rewrite andb_true_iff, (IH rest) by (apply bracket_rest in B; lia). split.
        + intros (H1 & H2). destruct neg; cbn [xorb] in H1.
          * apply (fits_out r body rest); auto. intros X. apply items_among in X. rewrite X in H1. discriminate.
          * apply (fits_in r body rest); auto. apply items_among. destruct (existsb (in_item x) (items body)); [reflexivity | discriminate].
        + intros H. inversion H as [|p u v F|p x' t' F|p l rest' x' t' B' A F|p l rest' x' t' B' A F|p t' N F|x' p t' N1 N2 N3 F]; subst; try (unfold star, quest, open_ in *; congruence).
          * destruct (bracket_one _ _ _ _ _ _ _ B B') as (-> & -> & ->). apply items_among in A. rewrite A. auto.
          * destruct (bracket_one _ _ _ _ _ _ _ B B') as (-> & -> & ->). destruct (existsb (in_item x) (items l)) eqn:X; [apply items_among in X; contradiction | auto].
          * exfalso. apply (N neg body rest). exact B.
      - assert (NB : forall neg l rest, ~ bracket r neg l rest) by (intros neg l rest X; apply class_of_some in X; congruence). rewrite andb_true_iff, Ascii.eqb_eq, IH by lia. split.
        + intros (-> & H). apply fits_open; assumption.
        + intros H. inversion H as [|p u v F|p x' t' F|p l rest' x' t' B' A F|p l rest' x' t' B' A F|p t' N F|x' p t' N1 N2 N3 F]; subst; try (unfold star, quest, open_ in *; congruence); try (exfalso; eapply NB; eassumption). auto. }
    apply ch_neq in C3. rewrite andb_true_iff, Ascii.eqb_eq, IH by lia. split.
    + intros (-> & H). apply fits_char; auto.
    + intros H. inversion H as [|p u v F|p x' t' F|p l rest' x' t' B' A F|p l rest' x' t' B' A F|p t' N F|x' p t' N1 N2 N3 F]; subst; try (unfold star, quest, open_ in *; congruence). auto.
Qed.
(* C63e: fnmatch decides whether a name fits a pattern *)
Theorem C63e_fnmatch : forall s p, fnmatch s p = true <-> fits p s.
Proof. intros s p. unfold fnmatch. apply fnm_fits. lia. Qed.
Lemma has_magic_spec : forall w, has_magic w = true <-> magic w.
Proof.
  intros w. unfold has_magic, magic. rewrite existsb_exists. split.
  - intros (c & H & E). rewrite !orb_true_iff, !ch_eq in E. destruct E as [[-> | ->]| ->]; auto.
  - intros [H|[H|H]]; eexists; (split; [exact H|]); reflexivity.
Qed.
(* ---- sorting ---- *)
Lemma wle_total : forall a b, wle a b = true \/ wle b a = true.
Proof.
  intros a. induction a as [|x a IH]; intros b; [auto|]. destruct b as [|y b]; [auto|]. cbn [wle]. destruct (Nat.ltb_spec (nat_of_ascii x) (nat_of_ascii y)); [auto|]. destruct (Nat.ltb_spec (nat_of_ascii y) (nat_of_ascii x)); auto.
Qed.
Lemma wle_trans : forall a b c, wle a b = true -> wle b c = true -> wle a c = true.
Proof.
  intros a. induction a as [|x a IH]; intros b c H1 H2; [reflexivity|]. destruct b as [|y b]; [discriminate|]. destruct c as [|z c]; [discriminate|]. cbn [wle] in *.
  destruct (Nat.ltb_spec (nat_of_ascii x) (nat_of_ascii y)); destruct (Nat.ltb_spec (nat_of_ascii y) (nat_of_ascii z)); destruct (Nat.ltb_spec (nat_of_ascii x) (nat_of_ascii z)); try reflexivity; try lia;
  destruct (Nat.ltb_spec (nat_of_ascii y) (nat_of_ascii x)); try discriminate; destruct (Nat.ltb_spec (nat_of_ascii z) (nat_of_ascii y)); try discriminate; destruct (Nat.ltb_spec (nat_of_ascii z) (nat_of_ascii x)); try lia; eauto.
Qed.
Lemma wle_antisym : forall a b, wle a b = true -> wle b a = true -> a = b.
Proof.
  intros a. induction a as [|x a IH]; intros b H1 H2; [destruct b; [reflexivity | discriminate]|]. destruct b as [|y b]; [discriminate|]. cbn [wle] in *.
  destruct (Nat.ltb_spec (nat_of_ascii x) (nat_of_ascii y)); destruct (Nat.ltb_spec (nat_of_ascii y) (nat_of_ascii x)); try lia; try discriminate.
  assert (E : nat_of_ascii x = nat_of_ascii y) by lia. f_equal; [|auto]. rewrite <- (ascii_nat_embedding x), <- (ascii_nat_embedding y), E. reflexivity.
Qed.
Section Sorting.
Context {A : Type}.
Variable key : A -> word.
Definition by_key (a b : A) : Prop := wle (key a) (key b) = true.
Lemma insert_perm : forall x l, Permutation (insert key x l) (x :: l).
Proof. intros x l. induction l as [|y l IH]; cbn [insert]; [apply Permutation_refl|]. destruct (wle (key x) (key y)); [apply Permutation_refl|]. eapply perm_trans; [apply perm_skip; exact IH | apply perm_swap]. Qed.
Lemma sort_perm : forall l, Permutation (sort_by key l) l.
Proof. intros l. induction l as [|x l IH]; cbn; [apply Permutation_refl|]. eapply perm_trans; [apply insert_perm | apply perm_skip; exact IH]. Qed.
Lemma insert_sorted : forall x l, StronglySorted by_key l -> StronglySorted by_key (insert key x l).
Proof.
  intros x l H. induction H as [|y l H IH F]; cbn [insert]; [constructor; constructor|]. destruct (wle (key x) (key y)) eqn:E.
  - constructor; [constructor; assumption|]. constructor; [exact E|]. eapply Forall_impl; [|exact F]. intros a Ha. unfold by_key in *. eapply wle_trans; eassumption.
  - constructor; [exact IH|]. eapply Permutation_Forall; [apply Permutation_sym, insert_perm|]. constructor; [|exact F]. unfold by_key. destruct (wle_total (key x) (key y)); congruence.
Qed.
Lemma sort_sorted : forall l, StronglySorted by_key (sort_by key l).
Proof. intros l. induction l as [|x l IH]; cbn; [constructor | apply insert_sorted; exact IH]. Qed.
Lemma sorted_one : forall l1 l2, StronglySorted by_key l1 -> StronglySorted by_key l2 -> Permutation l1 l2 -> (forall a b, In a l1 -> In b l1 -> key a = key b -> a = b) -> l1 = l2.
Proof.
  intros l1. induction l1 as [|x l1 IH]; intros l2 S1 S2 P I; [apply Permutation_nil in P; congruence|]. destruct l2 as [|y l2]; [apply Permutation_sym, Permutation_nil in P; discriminate|].
  inversion S1 as [|x' l1' S1' F1]; subst. inversion S2 as [|y' l2' S2' F2]; subst. assert (E : x = y).
  { assert (Hx : In x (y :: l2)) by (eapply Permutation_in; [exact P | left; reflexivity]). assert (Hy : In y (x :: l1)) by (eapply Permutation_in; [apply Permutation_sym; exact P | left; reflexivity]).
    destruct Hx as [E|Hx]; [symmetry; exact E|]. destruct Hy as [E|Hy]; [exact E|]. rewrite Forall_forall in F1, F2. apply I; [left; reflexivity | right; exact Hy|]. apply wle_antisym; [apply F1; exact Hy | apply F2; exact Hx]. }
  subst y. f_equal. apply IH; [assumption | assumption | eapply Permutation_cons_inv; exact P|]. intros a b Ha Hb. apply I; right; assumption.
Qed.
End Sorting.
(* ---- paths ---- *)
Lemma cut_last_app : forall t r, ~ In slash t -> cut_last (t ++ slash :: r) = (t, slash :: r).
Proof.
  intros t r H. induction t as [|c t IH]; [reflexivity|]. cbn [app cut_last]. destruct (ch "/" c) eqn:E; [apply ch_eq in E; subst c; exfalso; apply H; left; reflexivity|]. rewrite IH; [reflexivity|]. intros X. apply H. right. exact X.
Qed.
Lemma cut_last_none : forall t, ~ In slash t -> cut_last t = (t, []).
Proof.
  intros t H. induction t as [|c t IH]; [reflexivity|]. cbn [cut_last]. destruct (ch "/" c) eqn:E; [apply ch_eq in E; subst c; exfalso; apply H; left; reflexivity|]. rewrite IH; [reflexivity|]. intros X. apply H. right. exact X.
Qed.
Lemma split_name : forall c, ~ In slash c -> split_path c = ([], c).
Proof. intros c H. unfold split_path. rewrite cut_last_none; [cbn; rewrite rev_involutive; reflexivity|]. rewrite <- in_rev. exact H. Qed.
Lemma split_below : forall h c, h <> [] -> (forall w, h <> w ++ [slash]) -> ~ In slash c -> split_path (h ++ slash :: c) = (h, c).
Proof.
  intros h c N T H. unfold split_path. rewrite rev_app_distr. cbn [rev]. rewrite <- app_assoc. cbn [app]. rewrite cut_last_app by (rewrite <- in_rev; exact H).
  cbn [drop_slashes]. replace (ch "/" slash) with true by reflexivity. destruct h as [|x h _] using rev_ind; [congruence|]. rewrite rev_app_distr. cbn [rev app drop_slashes].
  destruct (ch "/" x) eqn:E; [apply ch_eq in E; subst x; exfalso; apply (T h); reflexivity|]. cbn [rev]. rewrite !rev_involutive. reflexivity.
Qed.
Lemma split_root : forall c, ~ In slash c -> split_path (slash :: c) = ([slash], c).
Proof. intros c H. unfold split_path. cbn [rev]. rewrite cut_last_app by (rewrite <- in_rev; exact H). cbn. rewrite rev_involutive. reflexivity. Qed.
Lemma joined_snoc : forall l c d, joined ((c :: l) ++ [d]) = joined (c :: l) ++ slash :: d.
Proof.
  intros l. induction l as [|x l IH]; intros c d; [reflexivity|]. change (joined ((c :: x :: l) ++ [d])) with (c ++ slash :: joined ((x :: l) ++ [d])). rewrite IH. change (joined (c :: x :: l)) with (c ++ slash :: joined (x :: l)). rewrite <- app_assoc. reflexivity.
Qed.
Lemma joined_end : forall l c, component c -> Forall component l -> joined (c :: l) <> [] /\ forall w, joined (c :: l) <> w ++ [slash].
Proof.
  intros l. induction l as [|x l IH] using rev_ind; intros c (Hc & Hs) F.
  - cbn [joined]. split; [exact Hc|]. intros w ->. apply Hs. apply in_or_app. right. left. reflexivity.
  - apply Forall_app in F. destruct F as (F1 & F2). inversion F2 as [|y l' (Hx & Hy) _]; subst. rewrite app_comm_cons, joined_snoc. split; [intros X; apply app_eq_nil in X; destruct X; discriminate|].
    intros w E. destruct x as [|z x _] using rev_ind; [congruence|]. rewrite app_comm_cons, app_assoc in E. apply app_inj_tail in E. destruct E as (_ & ->). apply Hy. apply in_or_app. right. left. reflexivity.
Qed.
Print Assumptions C63e_fnmatch.
