(* C78: WhereIs finds the first program in the search path. *)
From Coq Require Import Ascii String List Bool Arith Lia.
From Verif Require Import SubstModel WhModel WhSpec.
From Verif Require NameModel NameProps2 PdModel PdSpec PdProps.
Import ListNotations.
Open Scope list_scope.
Notation split := (NameModel.split_on slash).

Lemma str_eqb_spec a : forall b, str_eqb a b = true <-> a = b.
Proof.
  induction a as [|x a IH]; intros [|y b]; cbn [str_eqb]; split; intros H; try discriminate; try reflexivity.
  - apply andb_true_iff in H. destruct H as [H1 H2]. apply Ascii.eqb_eq in H1. apply IH in H2. congruence.
  - injection H as <- <-. rewrite Ascii.eqb_refl. cbn [andb]. apply IH. reflexivity.
Qed.
Lemma str_eqb_neq a b : a <> b -> str_eqb a b = false.
Proof. intros H. destruct (str_eqb a b) eqn:E; [apply str_eqb_spec in E; congruence | reflexivity]. Qed.
Lemma str_eqb_no a b : str_eqb a b = false -> a <> b.
Proof. intros H ->. rewrite (proj2 (str_eqb_spec b b) eq_refl) in H. discriminate. Qed.

Section Walk.
Variable fs : fsys.
Lemma is_dir_spec d : is_dir fs d = true <-> Directory fs d.
Proof.
  unfold Directory. destruct d as [|c d]; cbn [is_dir]; [split; [left; reflexivity | reflexivity]|].
  destruct (fs (c :: d)) as [[|x|t]|]; split; try discriminate; try reflexivity; try (intros _; right; reflexivity); intros [H|H]; discriminate.
Qed.
Lemma leads_walk d l x : Leads fs d l x <-> walk fs d l = Some x.
Proof.
  split.
  - intros H. induction H as [d|d c l x D C H IH|n d l x D H IH|l x H IH|d c l e x D C1 C2 C3 E N H IH|d c l t x D C1 C2 C3 E H IH]; cbn [walk].
    + reflexivity.
    + rewrite (proj2 (is_dir_spec d) D). destruct C as [-> | ->]; exact IH.
    + rewrite (proj2 (is_dir_spec _) D). exact IH.
    + exact IH.
    + rewrite (proj2 (is_dir_spec d) D), (str_eqb_neq _ _ C1), (str_eqb_neq _ _ C2), (str_eqb_neq _ _ C3), E. cbn [orb].
      destruct e as [|y|t]; [exact IH | exact IH | exfalso; exact (N t eq_refl)].
    + rewrite (proj2 (is_dir_spec d) D), (str_eqb_neq _ _ C1), (str_eqb_neq _ _ C2), (str_eqb_neq _ _ C3), E. cbn [orb]. exact IH.
  - revert d. induction l as [|c l IH]; intros d H; cbn [walk] in H; [injection H as <-; constructor|].
    destruct (is_dir fs d) eqn:D; [|discriminate]. apply is_dir_spec in D.
    destruct (str_eqb c []) eqn:E1; [apply str_eqb_spec in E1; apply L_here; [exact D | left; exact E1 | apply IH; exact H]|].
    destruct (str_eqb c dot) eqn:E2; [apply str_eqb_spec in E2; apply L_here; [exact D | right; exact E2 | apply IH; exact H]|]. cbn [orb] in H.
    apply str_eqb_no in E1. apply str_eqb_no in E2.
    destruct (str_eqb c dotdot) eqn:E3.
    + apply str_eqb_spec in E3. subst c. destruct d as [|n d]; [apply L_root; apply IH; exact H | apply L_up; [exact D | apply IH; exact H]].
    + apply str_eqb_no in E3. destruct (fs (c :: d)) as [e|] eqn:F; [|discriminate]. destruct e as [|y|t].
      * apply (L_name fs d c l Dir); try assumption; [discriminate | apply IH; exact H].
      * apply (L_name fs d c l (File y)); try assumption; [discriminate | apply IH; exact H].
      * apply (L_link fs d c l t); try assumption. apply IH; exact H.
Qed.
Lemma walk_app a : forall d b, walk fs d (a ++ b) = match walk fs d a with Some y => walk fs y b | None => None end.
Proof.
  induction a as [|c a IH]; intros d b; [reflexivity|]. cbn [app walk]. destruct (is_dir fs d); [|reflexivity].
  destruct (str_eqb c [] || str_eqb c dot); [apply IH|]. destruct (str_eqb c dotdot); [apply IH|]. destruct (fs (c :: d)) as [[|y|t]|]; try apply IH. reflexivity.
Qed.
Lemma walk_dir d l x : l <> [] -> walk fs d l = Some x -> is_dir fs d = true.
Proof. destruct l as [|c l]; [congruence|]. intros _ H. cbn [walk] in H. destruct (is_dir fs d); [reflexivity | discriminate]. Qed.
Lemma split_nonempty s : split s <> [].
Proof. destruct s as [|c s]; cbn [NameModel.split_on]; [discriminate|]. destruct (Ascii.eqb c slash); [discriminate|]. destruct (split s); discriminate. Qed.

Lemma walk_snoc a d y c : walk fs d a = Some y -> walk fs d (a ++ [c]) = walk fs y [c].
Proof. intros H. rewrite walk_app, H. reflexivity. Qed.
Lemma walk_snoc_inv a d c x : walk fs d (a ++ [c]) = Some x -> exists y, walk fs d a = Some y /\ walk fs y [c] = Some x.
Proof. rewrite walk_app. destruct (walk fs d a) as [y|]; [|discriminate]. intros H. exists y. split; [reflexivity | exact H]. Qed.
(* posixpath.join *)
Lemma startswith_absolute b : NameModel.startswith b [slash] = absolute b.
Proof. destruct b as [|c b]; [reflexivity|]. cbn. unfold slash. destruct (Ascii.eqb c "/"%char) eqn:E; destruct b; reflexivity. Qed.
Lemma start_join a b cwd : absolute b = false -> a <> [] -> start cwd (NameModel.path_join a b) = start cwd a.
Proof.
  intros B A. unfold NameModel.path_join. change (NameModel.lit "/") with [slash]. rewrite startswith_absolute, B. destruct a as [|c a]; [congruence|].
  destruct (NameModel.endswith (c :: a) [slash]); reflexivity.
Qed.
Lemma endswith_slash a : NameModel.endswith a [slash] = true -> exists a', a = a' ++ [slash].
Proof.
  unfold NameModel.endswith. cbn [rev app]. rewrite startswith_absolute. intros H. destruct (rev a) as [|c r] eqn:R; [discriminate|]. cbn [absolute] in H. apply Ascii.eqb_eq in H. subst c.
  exists (rev r). rewrite <- (rev_involutive a), R. reflexivity.
Qed.
Lemma walk_join a b d : absolute b = false -> a <> [] -> walk fs d (split (NameModel.path_join a b)) = walk fs d (split a ++ split b).
Proof.
  intros B A. unfold NameModel.path_join. change (NameModel.lit "/") with [slash]. rewrite startswith_absolute, B. destruct a as [|c a]; [congruence|]. clear A.
  destruct (NameModel.endswith (c :: a) [slash]) eqn:E.
  - destruct (endswith_slash _ E) as [a' ->]. rewrite <- app_assoc. cbn [app].
    assert (E1 : split (a' ++ slash :: b) = split a' ++ split b) by exact (NameProps2.split_on_app a' b).
    assert (E2 : split (a' ++ [slash]) = split a' ++ [[]]) by exact (NameProps2.split_on_app a' []).
    rewrite E1, E2, <- app_assoc, !walk_app. destruct (walk fs d (split a')) as [y|]; [|reflexivity].
    cbn [app walk str_eqb orb]. destruct (is_dir fs y) eqn:D; [reflexivity|].
    destruct (walk fs y (split b)) as [z|] eqn:W; [|reflexivity]. rewrite (walk_dir y _ z (split_nonempty b) W) in D. discriminate.
  - assert (E1 : split ((c :: a) ++ slash :: b) = split (c :: a) ++ split b) by exact (NameProps2.split_on_app (c :: a) b).
    exact (f_equal (walk fs d) E1).
Qed.
Lemma base_start cwd s : base cwd s = start cwd s.
Proof. destruct s as [|c s]; reflexivity. Qed.
Lemma executable_names cwd f : executable fs cwd f = true <-> exists x, f <> [] /\ fs x = Some (File true) /\ Names fs cwd f x.
Proof.
  unfold executable, resolve, Names. destruct f as [|c f]; [split; [discriminate | intros [x [H _]]; destruct (H eq_refl)]|].
  rewrite base_start. split.
  - destruct (walk fs (start cwd (c :: f)) (split (c :: f))) as [x|] eqn:W; [|discriminate]. intros H. exists x. split; [discriminate|].
    split; [destruct (fs x) as [[|y|t]|]; try discriminate; destruct y; [reflexivity | discriminate] | apply leads_walk; exact W].
  - intros [x [_ [F L]]]. apply leads_walk in L. rewrite L, F. reflexivity.
Qed.
(* a file that can be executed is found through a directory of the search path if and only if the directory has it *)
Lemma has_names cwd p file x : fs [] = Some Dir -> (Has fs cwd p file x <-> NameModel.path_join p file <> [] /\ fs x = Some (File true) /\ Names fs cwd (NameModel.path_join p file) x).
Proof.
  intros Root. unfold Has. destruct (absolute file) eqn:B.
  - assert (J : NameModel.path_join p file = file) by (unfold NameModel.path_join; change (NameModel.lit "/") with [slash]; rewrite startswith_absolute, B; reflexivity).
    rewrite J. split; intros H; [split; [destruct file; [discriminate B | discriminate] | exact H] | exact (proj2 H)].
  - assert (S0 : forall d, start d file = d) by (intros d; destruct file as [|c file]; [reflexivity|]; cbn [absolute] in B; cbn [start]; rewrite B; reflexivity).
    assert (DD : forall d, Directory fs d -> fs d = Some Dir) by (intros d [-> | D]; assumption).
    destruct p as [|c p].
    + assert (J : NameModel.path_join [] file = file) by (unfold NameModel.path_join; destruct (NameModel.startswith file (NameModel.lit "/")); reflexivity).
      rewrite J. split.
      * intros [F [d [[[_ ->]|[N _]] [D L]]]]; [|congruence]. split; [|split; [exact F | exact L]]. intros ->.
        unfold Names in L. cbn in L. apply leads_walk in L. cbn [walk str_eqb orb] in L. destruct (is_dir fs cwd) eqn:Q; [|discriminate]. injection L as <-.
        rewrite (DD _ D) in F. discriminate.
      * intros [N [F L]]. split; [exact F|]. exists cwd. split; [left; split; reflexivity|].
        unfold Names in L |- *. rewrite S0 in L |- *. apply leads_walk in L. split; [apply is_dir_spec; exact (walk_dir _ _ _ (split_nonempty file) L) | apply leads_walk; exact L].
    + assert (NJ : NameModel.path_join (c :: p) file <> []).
      { unfold NameModel.path_join. destruct (NameModel.startswith file (NameModel.lit "/")) eqn:Q; [|destruct (NameModel.endswith (c :: p) (NameModel.lit "/")); discriminate].
        change (NameModel.lit "/") with [slash] in Q. rewrite startswith_absolute, B in Q. discriminate. }
      split.
      * intros [F [d [[[N _]|[_ Np]] [D L]]]]; [congruence|]. split; [exact NJ|]. split; [exact F|]. unfold Names. rewrite (start_join (c :: p) file cwd B) by discriminate. apply leads_walk. rewrite walk_join by (assumption || discriminate). rewrite walk_app.
        unfold Names in Np, L. apply leads_walk in Np. rewrite Np. apply leads_walk in L. rewrite S0 in L. exact L.
      * intros [_ [F L]]. unfold Names in L. rewrite (start_join (c :: p) file cwd B) in L by discriminate. apply leads_walk in L.
        rewrite walk_join in L by (assumption || discriminate). rewrite walk_app in L. destruct (walk fs (start cwd (c :: p)) (split (c :: p))) as [d|] eqn:W; [|discriminate].
        split; [exact F|]. exists d. split; [right; split; [discriminate | apply leads_walk; exact W]|].
        split; [apply is_dir_spec; exact (walk_dir _ _ _ (split_nonempty file) L) | unfold Names; rewrite S0; apply leads_walk; exact L].
Qed.

Lemma has_executable cwd p file : fs [] = Some Dir -> ((exists x, Has fs cwd p file x) <-> executable fs cwd (NameModel.path_join p file) = true).
Proof. intros Root. rewrite executable_names. split; intros [x H]; exists x; apply (has_names cwd p file x Root); exact H. Qed.

(* normpath: without links the normalized path names the same *)
Definition plain (w : str) : Prop := w <> [] /\ w <> dot /\ w <> dotdot.
Lemma walk_one d w x : plain w -> NoLinks fs -> walk fs d [w] = Some x -> x = w :: d.
Proof.
  intros [N1 [N2 N3]] NL H. cbn [walk] in H. destruct (is_dir fs d); [|discriminate]. rewrite (str_eqb_neq _ _ N1), (str_eqb_neq _ _ N2), (str_eqb_neq _ _ N3) in H. cbn [orb] in H.
  destruct (fs (w :: d)) as [[|y|t]|] eqn:E; try (injection H as <-; reflexivity); [exfalso; exact (NL _ _ E) | discriminate].
Qed.
Lemma walk_up d x : walk fs d [dotdot] = Some x -> x = tl d.
Proof. cbn [walk]. destruct (is_dir fs d); [|discriminate]. cbn. intros H. injection H as <-. reflexivity. Qed.
Lemma walk_stay d c x : c = [] \/ c = dot -> walk fs d [c] = Some x -> x = d.
Proof. intros C. cbn [walk]. destruct (is_dir fs d); [|discriminate]. destruct C as [-> | ->]; cbn; intros H; injection H as <-; reflexivity. Qed.
Lemma norm_step_walk (abs : bool) (s : path) (new : list str) (y : path) (c : str) (x : path) : (abs = true -> s = []) -> NoLinks fs ->
  walk fs s (rev new) = Some y -> (forall w, In w new -> w <> [] /\ w <> dot) -> walk fs y [c] = Some x ->
  walk fs s (rev (NameModel.norm_step abs new c)) = Some x /\ (forall w, In w (NameModel.norm_step abs new c) -> In w new \/ w = c /\ w <> [] /\ w <> dot).
Proof.
  intros A NL I1 I2 H.
  assert (Push : c <> [] -> c <> dot -> walk fs s (rev (c :: new)) = Some x /\ (forall w, In w (c :: new) -> In w new \/ w = c /\ w <> [] /\ w <> dot)).
  { intros C1 C2. split; [exact (eq_trans (walk_snoc _ _ _ _ I1) H)|]. intros w [<- | Hw]; [right; repeat split; assumption | left; exact Hw]. }
  unfold NameModel.norm_step. change (NameModel.str_eqb c []) with (str_eqb c []). change (NameModel.str_eqb c (NameModel.lit ".")) with (str_eqb c dot). change (NameModel.str_eqb c (NameModel.lit "..")) with (str_eqb c dotdot).
  destruct (str_eqb c [] || str_eqb c dot) eqn:E.
  - assert (C : c = [] \/ c = dot) by (apply orb_true_iff in E; destruct E as [E|E]; apply str_eqb_spec in E; [left | right]; exact E).
    rewrite (walk_stay y c x C H). split; [exact I1 | intros w Hw; left; exact Hw].
  - apply orb_false_iff in E. destruct E as [E1 E2]. apply str_eqb_no in E1. apply str_eqb_no in E2.
    destruct (str_eqb c dotdot) eqn:E3; [|cbn [negb orb]; apply Push; assumption]. apply str_eqb_spec in E3. cbn [negb orb].
    destruct new as [|w new'].
    + destruct abs; cbn [negb andb orb]; [|apply Push; assumption].
      split; [|intros w []]. rewrite (A eq_refl) in *. cbn [rev walk] in I1 |- *. injection I1 as <-. subst c. rewrite (walk_up [] x H). reflexivity.
    + rewrite andb_false_r. cbn [orb]. change (NameModel.str_eqb w (NameModel.lit "..")) with (str_eqb w dotdot). destruct (str_eqb w dotdot) eqn:Ew.
      * apply Push; assumption.
      * apply str_eqb_no in Ew. destruct (I2 w (or_introl eq_refl)) as [W1 W2].
        destruct (walk_snoc_inv _ _ _ _ I1) as [z [Z I1']].
        assert (y = w :: z) by (exact (walk_one z w y (conj W1 (conj W2 Ew)) NL I1')). subst y c.
        rewrite (walk_up _ x H). split; [exact Z | intros v Hv; left; right; exact Hv].
Qed.
Lemma norm_walk (abs : bool) (s : path) : (abs = true -> s = []) -> NoLinks fs -> forall (l : list str) x, walk fs s l = Some x ->
  walk fs s (rev (fold_left (NameModel.norm_step abs) l [])) = Some x /\ (forall w, In w (fold_left (NameModel.norm_step abs) l []) -> w <> [] /\ w <> dot /\ In w l).
Proof.
  intros A NL l. induction l as [|c l IH] using rev_ind; intros x H; [split; [exact H | intros w []]|].
  destruct (walk_snoc_inv l s c x H) as [y [W H']]. destruct (IH y W) as [I1 I2].
  rewrite fold_left_app. cbn [fold_left].
  destruct (norm_step_walk abs s (fold_left (NameModel.norm_step abs) l []) y c x A NL I1) as [J1 J2].
  - intros w Hw. destruct (I2 w Hw) as [K1 [K2 _]]. split; assumption.
  - exact H'.
  - split; [exact J1|]. intros w Hw. destruct (J2 w Hw) as [Q|[-> [Q1 Q2]]].
    + destruct (I2 w Q) as [K1 [K2 K3]]. repeat split; try assumption. apply in_or_app; left; exact K3.
    + repeat split; try assumption. apply in_or_app. right. left. reflexivity.
Qed.
Lemma slashes_absolute f : (NameModel.slashes f =? 0) = negb (absolute f).
Proof.
  unfold NameModel.slashes. change (NameModel.lit "/") with [slash]. rewrite startswith_absolute. destruct (absolute f); [|reflexivity].
  destruct (_ && _); reflexivity.
Qed.
Lemma nonempty_names cwd (j : str) c q : j = c :: q -> c <> slash ->
  walk fs (start cwd (match j with [] => NameModel.lit "." | a :: l => a :: l end)) (split (match j with [] => NameModel.lit "." | a :: l => a :: l end)) = walk fs cwd (split j).
Proof. intros -> H. cbn [start]. rewrite (proj2 (Ascii.eqb_neq c slash) H). reflexivity. Qed.
Lemma normpath_names cwd f x : f <> [] -> NoLinks fs -> Names fs cwd f x -> Names fs cwd (NameModel.normpath f) x.
Proof.
  intros Nf NL H. unfold Names in *. apply leads_walk in H. apply leads_walk.
  assert (Dst : is_dir fs (start cwd f) = true) by exact (walk_dir _ _ _ (split_nonempty f) H).
  assert (A : absolute f = true -> start cwd f = []) by (destruct f as [|c f]; [discriminate|]; cbn [absolute start]; intros ->; reflexivity).
  assert (A2 : absolute f = false -> start cwd f = cwd) by (destruct f as [|c f]; [reflexivity|]; cbn [absolute start]; intros ->; reflexivity).
  destruct (norm_walk (negb (NameModel.slashes f =? 0)) (start cwd f)) with (l := split f) (x := x) as [N1 N2].
  { rewrite slashes_absolute, negb_involutive. exact A. }
  { exact NL. }
  { exact H. }
  assert (Cm : walk fs (start cwd f) (NameModel.comps f) = Some x) by exact N1.
  assert (Cw : forall w, In w (NameModel.comps f) -> w <> [] /\ ~ In slash w).
  { intros w Hw. unfold NameModel.comps in Hw. apply in_rev in Hw. destruct (N2 w Hw) as [K1 [_ K3]]. split; [exact K1 | exact (NameProps2.split_on_elems f w K3)]. }
  clear N1 N2 H.
  assert (Jn : NameModel.comps f <> [] -> split (NameModel.join_with slash (NameModel.comps f)) = NameModel.comps f).
  { intros Hn. apply NameProps2.split_join; [intros w Hw; apply Cw; exact Hw | exact Hn]. }
  unfold NameModel.normpath. destruct f as [|c0 f0] eqn:Ef; [congruence|]. rewrite <- Ef in *. clear Ef c0 f0.
  assert (Sl := slashes_absolute f). destruct (absolute f) eqn:Ab; cbn [negb] in Sl.
  - apply Nat.eqb_neq in Sl. rewrite (A eq_refl) in *. clear A A2.
    assert (Z : forall k, walk fs [] (split (repeat NameModel.SLASH k ++ NameModel.join_with slash (NameModel.comps f))) = Some x).
    { induction k as [|k IH]; cbn [repeat app].
      - destruct (NameModel.comps f) as [|w l] eqn:Ec; [exact Cm|]. refine (eq_trans (f_equal (walk fs []) (Jn _)) Cm). discriminate.
      - exact IH. }
    specialize (Z (NameModel.slashes f)). destruct (NameModel.slashes f) as [|k]; [congruence|]. exact Z.
  - apply Nat.eqb_eq in Sl. rewrite Sl. cbn [repeat app]. rewrite (A2 eq_refl) in *. clear A A2 Sl.
    destruct (NameModel.comps f) as [|w l] eqn:Ec.
    + cbn [NameModel.join_with]. cbn [walk] in Cm. injection Cm as <-.
      cbn [NameModel.lit start NameModel.split_on list_ascii_of_string]. cbn. rewrite Dst. reflexivity.
    + destruct (Cw w (or_introl eq_refl)) as [W1 W2]. assert (S1 := Jn ltac:(discriminate)). clear Jn.
      destruct w as [|c w]; [congruence|].
      assert (Q : exists r, NameModel.join_with slash ((c :: w) :: l) = c :: r) by (destruct l; eexists; reflexivity).
      destruct Q as [r Q]. assert (Ne : c <> slash) by (intros ->; apply W2; left; reflexivity).
      exact (eq_trans (nonempty_names cwd _ c r Q Ne) (eq_trans (f_equal (walk fs cwd) S1) Cm)).
Qed.
End Walk.

(* C78a: the result is the path of the first directory of the search path that has the program, unless that path is rejected *)
Theorem C78a_first : forall fs cwd os_path file p reject r (dirs : list str), fs [] = Some Dir ->
  dirs = match p with Some (PText s) => NameModel.split_on ":"%char s | Some (PList l) => l | None => match os_path with Some s => NameModel.split_on ":"%char s | None => [] end end ->
  whereis fs cwd os_path file p reject = Some r <->
  exists before d after, dirs = before ++ d :: after
    /\ (exists x, Has fs cwd d file x) /\ ~ In (NameModel.path_join d file) reject
    /\ (forall d', In d' before -> (exists x, Has fs cwd d' file x) -> In (NameModel.path_join d' file) reject)
    /\ r = NameModel.normpath (NameModel.path_join d file).
Proof.
  intros fs cwd os_path file p reject r dirs Root Hd.
  assert (E : whereis fs cwd os_path file p reject = search fs cwd file reject dirs).
  { subst dirs. unfold whereis. destruct p as [[s|l]|]; [reflexivity | reflexivity|]. destruct os_path as [s|]; reflexivity. }
  rewrite E. clear E Hd p os_path.
  assert (Rej : forall f, existsb (str_eqb f) reject = true <-> In f reject).
  { intros f. rewrite existsb_exists. split; [intros [x [H Ex]]; apply str_eqb_spec in Ex; subst; exact H | intros H; exists f; split; [exact H | apply str_eqb_spec; reflexivity]]. }
  induction dirs as [|d dirs IH]; cbn [search].
  - split; [discriminate | intros [[|b before] [d [after [H _]]]]; discriminate].
  - destruct (executable fs cwd (NameModel.path_join d file)) eqn:X; [destruct (existsb (str_eqb (NameModel.path_join d file)) reject) eqn:Y|]; cbn [andb negb].
    + rewrite IH. split; intros [before [d0 [after [H1 [H2 [H3 [H4 H5]]]]]]].
      * exists (d :: before), d0, after. split; [rewrite H1; reflexivity|]. split; [exact H2|]. split; [exact H3|]. split; [|exact H5].
        intros d' [<- | Hd] Hx; [apply Rej; exact Y | exact (H4 d' Hd Hx)].
      * destruct before as [|b before]; [cbn [app] in H1; injection H1 as <- <-; exfalso; apply H3; apply Rej; exact Y|].
        cbn [app] in H1. injection H1 as <- ->. exists before, d0, after. split; [reflexivity|]. split; [exact H2|]. split; [exact H3|]. split; [|exact H5].
        intros d' Hd. apply H4. right. exact Hd.
    + split.
      * intros H. injection H as <-. exists [], d, dirs. split; [reflexivity|]. split; [apply (has_executable fs cwd d file Root); exact X|].
        split; [intros Q; apply Rej in Q; congruence|]. split; [intros d' [] | reflexivity].
      * intros [[|b before] [d0 [after [H1 [H2 [H3 [H4 H5]]]]]]]; cbn [app] in H1; injection H1 as H1 H1'; subst; [reflexivity|].
        exfalso. assert (Q : In (NameModel.path_join b file) reject) by (apply H4; [left; reflexivity | apply (has_executable fs cwd b file Root); exact X]). apply Rej in Q. congruence.
    + rewrite IH. split; intros [before [d0 [after [H1 [H2 [H3 [H4 H5]]]]]]].
      * exists (d :: before), d0, after. split; [rewrite H1; reflexivity|]. split; [exact H2|]. split; [exact H3|]. split; [|exact H5].
        intros d' [<- | Hd] Hx; [apply (has_executable fs cwd d file Root) in Hx; congruence | exact (H4 d' Hd Hx)].
      * destruct before as [|b before]; [cbn [app] in H1; injection H1 as <- <-; exfalso; apply (has_executable fs cwd d file Root) in H2; congruence|].
        cbn [app] in H1. injection H1 as <- ->. exists before, d0, after. split; [reflexivity|]. split; [exact H2|]. split; [exact H3|]. split; [|exact H5].
        intros d' Hd. apply H4. right. exact Hd.
Qed.
(* C78b: if there are no symbolic links the result names the program that was found *)
Theorem C78b_names : forall fs cwd d file x, fs [] = Some Dir -> NoLinks fs -> Has fs cwd d file x ->
  Names fs cwd (NameModel.normpath (NameModel.path_join d file)) x /\ fs x = Some (File true).
Proof.
  intros fs cwd d file x Root NL H. apply (has_names fs cwd d file x Root) in H. destruct H as [N [F L]].
  split; [apply normpath_names; assumption | exact F].
Qed.
(* C78c: Environment.WhereIs looks in the path given, else in ENV's, else in that of the process; it looks for the first word of the text *)
Theorem C78c_environment : forall fs cwd os_path env_path p prog ws reject, PdSpec.Words prog ws ->
  match ws with
  | [] => env_whereis fs cwd os_path env_path p prog reject = match prog with [] => NotFound | _ => IndexError end
  | w :: _ => forall dirs, dirs = match p with Some p => Some p | None => match env_path with Some e => Some e | None => match os_path with Some s => Some (PText s) | None => None end end end ->
      env_whereis fs cwd os_path env_path p prog reject = match whereis fs cwd None w dirs reject with Some s => Found s | None => NotFound end
  end.
Proof.
  intros fs cwd os_path env_path p prog ws reject H. assert (E := PdProps.words_spec prog ws H). unfold env_whereis.
  destruct ws as [|w more].
  - destruct prog as [|c prog]; [reflexivity|]. rewrite E. reflexivity.
  - intros dirs ->. destruct prog as [|c prog]; [inversion H as [|b w' s l Hb Hn Hw Hs Hl E1 E2]; destruct b; [destruct w; [congruence | discriminate] | discriminate]|].
    rewrite E. destruct p as [p|]; [reflexivity|]. destruct env_path as [e|]; [reflexivity|]. destruct os_path as [s|]; reflexivity.
Qed.
Lemma normpath_nonempty f : NameModel.normpath f <> [].
Proof. unfold NameModel.normpath. destruct f; [discriminate|]. destruct (_ ++ _); discriminate. Qed.
Lemma search_nonempty fs cwd file reject : forall dirs, search fs cwd file reject dirs <> Some [].
Proof.
  induction dirs as [|d dirs IH]; cbn [search]; [discriminate|]. destruct (_ && _); [|exact IH].
  intros H. injection H as H. exact (normpath_nonempty _ H).
Qed.
Lemma env_nonempty fs cwd os_path env_path p prog reject : env_whereis fs cwd os_path env_path p prog reject <> Found [].
Proof.
  unfold env_whereis. destruct prog as [|c prog]; [discriminate|]. destruct (PdModel.words [] (c :: prog)) as [|w l]; [discriminate|].
  unfold whereis. destruct (match match p with Some p => Some p | None => env_path end with Some p => Some p | None => _ end) as [q|]; [|discriminate].
  destruct (search fs cwd w reject (dirs_of q)) as [s|] eqn:E; [|discriminate]. intros H. injection H as ->. exact (search_nonempty _ _ _ _ _ E).
Qed.
(* C78d: Detect gives the first program that WhereIs finds *)
Theorem C78d_detect : forall fs cwd os_path env_path progs g,
  detect fs cwd os_path env_path progs = Found g <->
  exists before after, progs = before ++ g :: after /\ (exists s, env_whereis fs cwd os_path env_path None g [] = Found s)
    /\ forall g', In g' before -> env_whereis fs cwd os_path env_path None g' [] = NotFound.
Proof.
  intros fs cwd os_path env_path progs g. induction progs as [|h progs IH]; cbn [detect].
  - split; [discriminate | intros [[|b before] [after [H _]]]; discriminate].
  - assert (Ne := env_nonempty fs cwd os_path env_path None h []). destruct (env_whereis fs cwd os_path env_path None h []) as [s| |] eqn:E.
    + destruct s as [|c s]; [congruence|]. split.
      * intros H. injection H as <-. exists [], progs. split; [reflexivity|]. split; [exists (c :: s); exact E | intros g' []].
      * intros [[|b before] [after [H1 [H2 H3]]]]; cbn [app] in H1; injection H1 as H1 H1'; subst; [reflexivity|]. rewrite (H3 b (or_introl eq_refl)) in E. discriminate.
    + rewrite IH. split; intros [before [after [H1 [H2 H3]]]].
      * exists (h :: before), after. split; [rewrite H1; reflexivity|]. split; [exact H2|]. intros g' [<- | Hg]; [exact E | exact (H3 g' Hg)].
      * destruct before as [|b before]; cbn [app] in H1; injection H1 as H1 H1'; subst; [destruct H2 as [s H2]; congruence|].
        exists before, after. split; [reflexivity|]. split; [exact H2|]. intros g' Hg. apply H3. right. exact Hg.
    + split; [discriminate|]. intros [[|b before] [after [H1 [[s H2] H3]]]]; cbn [app] in H1; injection H1 as H1 H1'; subst; [congruence|].
      rewrite (H3 b (or_introl eq_refl)) in E. discriminate.
Qed.
Print Assumptions C78a_first.
Print Assumptions C78b_names.
Print Assumptions C78c_environment.
Print Assumptions C78d_detect.
