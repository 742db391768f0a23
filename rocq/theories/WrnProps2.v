(* Types of warnings: the class of a type; cases; what does not hold. *)
From Coq Require Import Ascii String List Bool Arith Lia.
From Verif Require Import NameModel NameProps WrnModel WrnSpec WrnProps.
Import ListNotations.
Open Scope string_scope.
Open Scope list_scope.
Open Scope nat_scope.

Lemma lower_is : forall c, 97 <= nat_of_ascii c /\ nat_of_ascii c <= 122 -> is_lower c = true /\ is_upper c = false.
Proof.
  intros c [A B]. unfold is_lower, is_upper, letter_in. split; [rewrite andb_true_iff, !Nat.leb_le; lia | rewrite andb_false_iff, !Nat.leb_gt; lia].
Qed.
Lemma low_not : forall c d, 97 <= nat_of_ascii c /\ nat_of_ascii c <= 122 -> nat_of_ascii d < 97 -> c <> d.
Proof. intros c d H1 H2 ->. lia. Qed.
Lemma title_rest : forall r s, (forall c, In c r -> 97 <= nat_of_ascii c /\ nat_of_ascii c <= 122) -> title true (r ++ s) = r ++ title true s.
Proof.
  induction r as [|c r IH]; intros s H; [reflexivity|]. cbn [app title]. destruct (lower_is c (H c (or_introl eq_refl))) as [L U]. rewrite U, L. cbn [orb]. unfold lower1. rewrite U. f_equal. apply IH. intros d I. exact (H d (or_intror I)).
Qed.
Definition capital (w : str) : str := match w with [] => [] | c :: r => upper1 c :: r end.
Lemma title_word : forall w s, Lower w -> title false (w ++ s) = capital w ++ title true s.
Proof.
  intros [|c r] s [N H]; [contradiction|]. cbn [app title capital]. destruct (lower_is c (H c (or_introl eq_refl))) as [L U]. rewrite U, L. cbn [orb]. f_equal. apply title_rest. intros d I. exact (H d (or_intror I)).
Qed.
Lemma spaces_word : forall w s, Lower w -> spaces (w ++ s) = w ++ spaces s.
Proof.
  intros w s [_ H]. unfold spaces. rewrite map_app. f_equal. rewrite <- (map_id w) at 2. apply map_ext_in. intros c I. destruct (Ascii.eqb_spec c HYPHEN) as [E | _]; [exfalso; exact (low_not c HYPHEN (H c I) ltac:(vm_compute; lia) E) | reflexivity].
Qed.
Lemma upper1_low : forall c, 97 <= nat_of_ascii c /\ nat_of_ascii c <= 122 -> nat_of_ascii (upper1 c) = nat_of_ascii c - 32.
Proof. intros c H. unfold upper1. rewrite (proj1 (lower_is c H)). apply nat_ascii_embedding. lia. Qed.
Lemma capital_no_spaces : forall w s, Lower w -> no_spaces (capital w ++ s) = capital w ++ no_spaces s.
Proof.
  intros w s [N H]. unfold no_spaces. rewrite filter_app. f_equal. assert (forall l : str, (forall c, In c l -> c <> SPACE) -> filter (fun c => negb (Ascii.eqb c SPACE)) l = l) as F.
  { induction l as [|c l IH]; intros X; [reflexivity|]. cbn [filter]. destruct (Ascii.eqb_spec c SPACE) as [E | _]; [exfalso; exact (X c (or_introl eq_refl) E)|]. cbn [negb]. f_equal. apply IH. intros d I. exact (X d (or_intror I)). }
  apply F. intros c I. destruct w as [|d r]; [contradiction|]. destruct I as [<- | I].
  - intros E. pose proof (upper1_low d (H d (or_introl eq_refl))) as X. rewrite E in X. pose proof (H d (or_introl eq_refl)). change (nat_of_ascii SPACE) with 32 in X. lia.
  - exact (low_not c SPACE (H c (or_intror I)) ltac:(vm_compute; lia)).
Qed.
Lemma munge_words : forall ws, ws <> [] -> (forall w, In w ws -> Lower w) -> no_spaces (title false (spaces (join_with HYPHEN ws))) = concat (map capital ws).
Proof.
  assert (T0 : forall b s, title b (SPACE :: s) = SPACE :: title false s) by (intros b s; reflexivity).
  induction ws as [|w ws IH]; intros N H; [contradiction|]. pose proof (H w (or_introl eq_refl)) as LW. destruct ws as [|v ws].
  - cbn [join_with map concat]. rewrite <- (app_nil_r w) at 1. rewrite (spaces_word _ _ LW), (title_word _ _ LW), (capital_no_spaces _ _ LW). reflexivity.
  - change (join_with HYPHEN (w :: v :: ws)) with (w ++ HYPHEN :: join_with HYPHEN (v :: ws)). rewrite (spaces_word _ _ LW), (title_word _ _ LW), (capital_no_spaces _ _ LW). cbn [map concat]. f_equal. change (spaces (HYPHEN :: join_with HYPHEN (v :: ws))) with (SPACE :: spaces (join_with HYPHEN (v :: ws))).
    rewrite T0. change (no_spaces (SPACE :: title false (spaces (join_with HYPHEN (v :: ws))))) with (no_spaces (title false (spaces (join_with HYPHEN (v :: ws))))).
    apply IH; [discriminate | intros u I; exact (H u (or_intror I))].
Qed.

(* SCons *)
Definition tail_ok (s : str) : Prop := match s with [] => True | c :: _ => nat_of_ascii c < 97 end.
Lemma begins_tail : forall p r s, (forall c, In c p -> 97 <= nat_of_ascii c) -> tail_ok s -> startswith (r ++ s) p = startswith r p.
Proof.
  induction p as [|x p IH]; intros r s H T0; [destruct (r ++ s), r; reflexivity|]. destruct r as [|c r].
  - destruct s as [|d s]; [reflexivity|]. cbn in T0. cbn [app startswith]. pose proof (H x (or_introl eq_refl)). destruct (Ascii.eqb_spec d x) as [-> | _]; [lia | reflexivity].
  - cbn [app startswith]. rewrite IH; [reflexivity | intros d I; exact (H d (or_intror I)) | exact T0].
Qed.
Lemma startswith_cons : forall s r x p, startswith (s :: r) (x :: p) = Ascii.eqb s x && startswith r p.
Proof. reflexivity. Qed.
Lemma scons_lower : forall r s, (forall c, In c r -> 97 <= nat_of_ascii c) -> scons (r ++ s) = r ++ scons s.
Proof.
  induction r as [|c r IH]; intros s H; [reflexivity|]. cbn [app scons]. change (lit "Scons") with ("S"%char :: lit "cons"). rewrite startswith_cons. destruct (Ascii.eqb_spec c "S") as [-> | _].
  - exfalso. pose proof (H "S"%char (or_introl eq_refl)) as X. change (nat_of_ascii "S") with 83 in X. lia.
  - cbn [andb]. f_equal. apply IH. intros d I. exact (H d (or_intror I)).
Qed.
Lemma up_ascii : forall c u, nat_of_ascii c = nat_of_ascii u + 32 -> 97 <= nat_of_ascii c /\ nat_of_ascii c <= 122 -> upper1 c = u.
Proof.
  intros c u E H. pose proof (upper1_low c H) as X. rewrite <- (ascii_nat_embedding (upper1 c)), <- (ascii_nat_embedding u), X. f_equal. lia.
Qed.
Lemma scons_word : forall w u s, Lower w -> Camel w u -> tail_ok s -> scons (capital w ++ s) = u ++ scons s.
Proof.
  intros w u s [_ H] C T0. destruct C as [r | c v r N E].
  - change (scons ("S"%char :: "c"%char :: (lit "ons" ++ r) ++ s) = ("S"%char :: "C"%char :: lit "ons" ++ r) ++ scons s).
    assert (startswith ("S"%char :: "c"%char :: (lit "ons" ++ r) ++ s) (lit "Scons") = true) as ST by (apply startswith_spec; exists (r ++ s); rewrite <- app_assoc; reflexivity).
    cbn [scons]. rewrite ST. cbn [app]. f_equal. f_equal. change ("o"%char :: "n"%char :: "s"%char :: r ++ scons s) with ((lit "ons" ++ r) ++ scons s). apply scons_lower.
    intros d I. apply (H d). change (lit "scons" ++ r) with ("s"%char :: "c"%char :: lit "ons" ++ r). right. right. exact I.
  - cbn [capital app]. rewrite (up_ascii c v E (H c (or_introl eq_refl))). cbn [scons]. change (lit "Scons") with ("S"%char :: lit "cons"). rewrite startswith_cons.
    assert (Ascii.eqb v "S" && startswith (r ++ s) (lit "cons") = false) as ->.
    { destruct (Ascii.eqb_spec v "S") as [-> | _]; [|reflexivity]. cbn [andb]. rewrite begins_tail; [|intros d I; vm_compute in I; repeat (destruct I as [<- | I]; [vm_compute; lia|]); contradiction | exact T0].
      destruct (startswith r (lit "cons")) eqn:B; [|reflexivity]. apply startswith_spec in B. destruct B as [q ->]. exfalso. apply N. exists q. change (lit "scons" ++ q) with ("s"%char :: lit "cons" ++ q). f_equal.
      rewrite <- (ascii_nat_embedding c), E. reflexivity. }
    f_equal. apply scons_lower. intros d I. exact (proj1 (H d (or_intror I))).
Qed.
Lemma capital_low : forall w ws, Lower w -> tail_ok (concat (map capital (w :: ws))).
Proof. intros [|c r] ws [N H]; [contradiction|]. cbn. pose proof (H c (or_introl eq_refl)) as X. pose proof (upper1_low c X). lia. Qed.
Lemma scons_words : forall ws cs, (forall w, In w ws -> Lower w) -> Forall2 Camel ws cs -> scons (concat (map capital ws)) = concat cs.
Proof.
  induction ws as [|w ws IH]; intros cs H F; inversion F as [|w' u ws' cs' C F' E1 E2]; [reflexivity|]. clear F. subst w' ws' cs. cbn [map concat].
  rewrite (scons_word w u); [f_equal; apply IH; [intros v I; exact (H v (or_intror I)) | exact F'] | exact (H w (or_introl eq_refl)) | exact C |].
  destruct ws as [|v ws]; [exact Logic.I|]. exact (capital_low v ws (H v (or_intror (or_introl eq_refl)))).
Qed.
Lemma camel_exists : forall w, Lower w -> exists u, Camel w u.
Proof.
  intros w [N H]. destruct (startswith w (lit "scons")) eqn:B.
  - apply startswith_spec in B. destruct B as [r ->]. eexists. apply camel_scons.
  - destruct w as [|c r]; [contradiction|]. exists (upper1 c :: r). apply camel_other.
    + intros [s E]. rewrite E in B. assert (startswith (lit "scons" ++ s) (lit "scons") = true) as X by (apply startswith_spec; exists s; reflexivity). pose proof (eq_trans (eq_sym B) X) as Z. discriminate Z.
    + pose proof (upper1_low c (H c (or_introl eq_refl))). pose proof (H c (or_introl eq_refl)). lia.
Qed.
Lemma split_word : forall w s, ~ In HYPHEN w -> split_on HYPHEN (w ++ HYPHEN :: s) = w :: split_on HYPHEN s.
Proof.
  induction w as [|c w IHw]; intros s N; cbn [app split_on]; [rewrite Ascii.eqb_refl; reflexivity|]. destruct (Ascii.eqb_spec c HYPHEN) as [-> | _]; [exfalso; apply N; left; reflexivity|].
  rewrite IHw; [reflexivity | intros I; apply N; right; exact I].
Qed.
Lemma split_last : forall w, ~ In HYPHEN w -> split_on HYPHEN w = [w].
Proof.
  induction w as [|c w IHw]; intros N; [reflexivity|]. cbn [split_on]. destruct (Ascii.eqb_spec c HYPHEN) as [-> | _]; [exfalso; apply N; left; reflexivity|]. rewrite IHw; [reflexivity | intros I; apply N; right; exact I].
Qed.
Lemma lower_hyphen : forall w, Lower w -> ~ In HYPHEN w.
Proof. intros w [_ L] I. pose proof (L _ I) as X. change (nat_of_ascii HYPHEN) with 45 in X. lia. Qed.
Lemma split_words : forall ws, ws <> [] -> (forall w, In w ws -> Lower w) -> split_on HYPHEN (join_with HYPHEN ws) = ws.
Proof.
  induction ws as [|w ws IH]; intros N H; [contradiction|]. pose proof (lower_hyphen w (H w (or_introl eq_refl))) as LW. destruct ws as [|v ws]; [exact (split_last w LW)|].
  change (join_with HYPHEN (w :: v :: ws)) with (w ++ HYPHEN :: join_with HYPHEN (v :: ws)). rewrite (split_word w _ LW). f_equal. apply IH; [discriminate | intros u I; exact (H u (or_intror I))].
Qed.
Lemma class_words : forall ws cs, ws <> [] -> (forall w, In w ws -> Lower w) -> join_with HYPHEN ws <> lit "all" -> Forall2 Camel ws cs -> class_name (join_with HYPHEN ws) = concat cs ++ lit "Warning".
Proof.
  intros ws cs N H A F. unfold class_name. assert (str_eqb (join_with HYPHEN ws) (lit "all") = false) as -> by (apply str_eqb_neq; exact A). unfold classmunge. rewrite (munge_words ws N H), (scons_words ws cs H F). reflexivity.
Qed.
Lemma names_class : forall t k, Names t k -> class_name t = k.
Proof. intros t k [|ws cs N H F A]; [reflexivity | exact (class_words ws cs N H A F)]. Qed.
Lemma class_names : forall ws, ws <> [] -> (forall w, In w ws -> Lower w) -> Names (join_with HYPHEN ws) (class_name (join_with HYPHEN ws)).
Proof.
  intros ws N H. destruct (str_dec (join_with HYPHEN ws) (lit "all")) as [E | A]; [rewrite E; exact names_all|].
  assert (exists cs, Forall2 Camel ws cs) as [cs F].
  { clear N A. induction ws as [|w ws IH]; [exists []; constructor|]. destruct (camel_exists w (H w (or_introl eq_refl))) as [u C]. destruct IH as [cs F]; [intros v I; exact (H v (or_intror I))|]. exists (u :: cs). constructor; assumption. }
  rewrite (class_words ws cs N H A F). exact (names_words ws cs N H F A).
Qed.
(* no-type, of words: the type is made from the words after no *)
Lemma after_no : forall ws t, ws <> [] -> (forall w, In w ws -> Lower w) -> join_with HYPHEN ws = lit "no-" ++ t -> exists ws', ws = lit "no" :: ws' /\ (ws' = [] \/ t = join_with HYPHEN ws') /\ ws' <> [].
Proof.
  intros ws t N H E. pose proof (split_words ws N H) as S0. rewrite E in S0. change (lit "no-" ++ t) with (lit "no" ++ HYPHEN :: t) in S0. rewrite split_word in S0; [|intros I; vm_compute in I; intuition discriminate].
  destruct ws as [|w ws]; [contradiction|]. injection S0 as <- S0. exists ws. split; [reflexivity|]. assert (ws <> []) as NW by (intros ->; clear - S0; destruct t as [|c t]; [discriminate S0 | cbn [split_on] in S0; destruct (Ascii.eqb c HYPHEN); [discriminate S0 | destruct (split_on HYPHEN t); discriminate S0]]).
  split; [right | exact NW]. destruct ws as [|v ws]; [contradiction|]. assert (join_with HYPHEN (lit "no" :: v :: ws) = lit "no-" ++ join_with HYPHEN (v :: ws)) as J by reflexivity.
  pose proof (eq_trans (eq_sym J) E) as Z. apply app_inv_head in Z. symmetry. exact Z.
Qed.

(* C85c: what a directive that is made from words says *)
Theorem C85c_meaning : forall sub known ws k f, ws <> [] -> (forall w, In w ws -> Lower w) ->
  (meaning sub known (join_with HYPHEN ws) = Some (k, f) <-> Says sub known (join_with HYPHEN ws) k f).
Proof.
  assert (SPEC : forall arg, str_eqb arg (lit "no-object-count") || str_eqb arg (lit "no-parallel-support") = true <-> Special arg) by (intros arg; rewrite orb_true_iff, !str_eqb_spec; reflexivity).
  intros sub known ws k f N H. set (arg := join_with HYPHEN ws). unfold meaning. split.
  - destruct (startswith arg (lit "no-") && negb (str_eqb arg (lit "no-object-count") || str_eqb arg (lit "no-parallel-support"))) eqn:NO.
    + apply andb_true_iff in NO. destruct NO as [B S0]. apply startswith_spec in B. destruct B as [t E]. rewrite E. change (skipn 3 (lit "no-" ++ t)) with t. intros M.
      destruct (known (class_name t)) eqn:K; [|discriminate M]. destruct (sub (class_name t) (lit "MandatoryDeprecatedWarning")) eqn:MD; [discriminate M|]. injection M as <- <-.
      destruct (after_no ws t N H E) as [ws' [-> [T0 NW]]]. destruct T0 as [T0 | ->]; [contradiction|]. apply says_off; [|apply class_names; [exact NW | intros w I; exact (H w (or_intror I))] | exact K | exact MD].
      rewrite <- E. intros X. apply SPEC in X. rewrite X in S0. discriminate S0.
    + intros M. destruct (known (class_name arg)) eqn:K; [|discriminate M]. injection M as <- <-. apply says_on; [|exact (class_names ws N H) | exact K].
      intros t E. apply SPEC. destruct (str_eqb arg _ || _) eqn:X; [reflexivity|]. cbn [negb] in NO. rewrite andb_true_r in NO. assert (startswith arg (lit "no-") = true) as B by (apply startswith_spec; exists t; exact E). rewrite B in NO. discriminate NO.
  - intros S0. assert (SAYS : forall arg k f, Says sub known arg k f -> meaning sub known arg = Some (k, f)); [|exact (SAYS arg k f S0)].
    clear. intros arg k f S0. unfold meaning. destruct S0 as [arg k ON NM K | t k NS NM K MD].
    + assert (startswith arg (lit "no-") && negb (str_eqb arg (lit "no-object-count") || str_eqb arg (lit "no-parallel-support")) = false) as ->.
      { destruct (startswith arg (lit "no-")) eqn:B; [|reflexivity]. apply startswith_spec in B. destruct B as [t E]. destruct (ON t E) as [X | X]; rewrite X; reflexivity. }
      rewrite (names_class _ _ NM), K. reflexivity.
    + assert (startswith (lit "no-" ++ t) (lit "no-") = true) as B by (apply startswith_spec; exists t; reflexivity). rewrite B.
      assert (str_eqb (lit "no-" ++ t) (lit "no-object-count") || str_eqb (lit "no-" ++ t) (lit "no-parallel-support") = false) as ->.
      { destruct (str_eqb (lit "no-" ++ t) (lit "no-object-count")) eqn:X; [exfalso; apply NS; left; apply str_eqb_spec; exact X|]. destruct (str_eqb (lit "no-" ++ t) (lit "no-parallel-support")) eqn:Y; [exfalso; apply NS; right; apply str_eqb_spec; exact Y | reflexivity]. }
      cbn [andb negb]. change (skipn 3 (lit "no-" ++ t)) with t. rewrite (names_class _ _ NM), K, MD. reflexivity.
Qed.
Print Assumptions C85c_meaning.
