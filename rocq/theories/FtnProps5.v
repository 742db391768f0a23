(* C79: which files a Fortran source needs and makes. *)
From Coq Require Import Ascii String List Bool Arith Lia Sorted Permutation.
From Verif Require Import SubstModel FtnModel FtnSpec FtnProps FtnProps2 FtnProps3 FtnProps4.
From Verif Require CscModel CscProps2.
Import ListNotations.
Open Scope list_scope.

(* ---- the pieces of a text ---- *)
Section Pieces.
Variable semi : bool.
Definition parts (l : text) : list text := if semi then statements l else [l].
Fixpoint tag (x : option ascii) (ps : list text) : list (text * option ascii) :=
  match ps with [] => [] | [p] => [(p, x)] | p :: ps => (p, Some semicolon) :: tag x ps end.
Fixpoint items (ls : list text) : list (text * option ascii) :=
  match ls with [] => [] | [l] => tag None (parts l) | l :: ls => tag (Some newline) (parts l) ++ items ls end.
Lemma tag_fst x ps : map fst (tag x ps) = ps.
Proof. induction ps as [|p [|q ps] IH]; [reflexivity | reflexivity|]. cbn [tag map fst] in *. f_equal. exact IH. Qed.
Lemma items_fst ls : map fst (items ls) = flat_map parts ls.
Proof.
  induction ls as [|l [|k ls] IH]; [reflexivity | cbn [items flat_map]; rewrite tag_fst, app_nil_r; reflexivity|].
  change (items (l :: k :: ls)) with (tag (Some newline) (parts l) ++ items (k :: ls)). rewrite map_app, tag_fst, IH. reflexivity.
Qed.
Lemma tag_newline x ps p : In (p, Some newline) (tag x ps) -> p = last ps [] /\ x = Some newline.
Proof.
  induction ps as [|q [|r ps] IH].
  - intros [].
  - intros [E|[]]. injection E as -> ->. split; reflexivity.
  - cbn [tag]. intros [E|H]; [discriminate|]. exact (IH H).
Qed.
Lemma items_newline ls p : In (p, Some newline) (items ls) -> exists l, In l (removelast ls) /\ p = last (parts l) [].
Proof.
  induction ls as [|l [|k ls] IH].
  - intros [].
  - cbn [items]. intros H. apply tag_newline in H. destruct H as [_ H]. discriminate.
  - change (items (l :: k :: ls)) with (tag (Some newline) (parts l) ++ items (k :: ls)). intros H. apply in_app_or in H. destruct H as [H|H].
    + apply tag_newline in H. exists l. split; [left; reflexivity | exact (proj1 H)].
    + destruct (IH H) as [m [Hm E]]. exists m. split; [right; exact Hm | exact E].
Qed.
Lemma cut_ne s t : cut s t <> [].
Proof. destruct t as [|c t]; [discriminate|]. cbn [cut]. destruct (Ascii.eqb c s); [discriminate|]. destruct (cut s t); discriminate. Qed.
Lemma cut_cons c t p o l : ~ sep semi c -> Cut semi t ((p, o) :: l) -> Cut semi (c :: t) ((c :: p, o) :: l).
Proof.
  intros N C. inversion C as [p' Fp|p' d q l' Fp Sd C']; subst.
  - constructor. intros x [<- | H]; [exact N | exact (Fp x H)].
  - change (c :: p ++ d :: q) with ((c :: p) ++ d :: q). constructor; [intros x [<- | H]; [exact N | exact (Fp x H)] | exact Sd | exact C'].
Qed.
Lemma cut_items t : Cut semi t (items (lines t)).
Proof.
  induction t as [|c t IH].
  - unfold lines. cbn [cut items]. unfold parts, statements. destruct semi; (constructor; intros x []).
  - unfold lines. cbn [cut]. change (cut (ascii_of_nat 10) t) with (lines t). destruct (Ascii.eqb_spec c (ascii_of_nat 10)) as [E|E].
    + assert (Z : items ([] :: lines t) = ([], Some newline) :: items (lines t)).
      { destruct (lines t) as [|l ls] eqn:L; [exfalso; exact (cut_ne _ _ L)|]. change (items ([] :: l :: ls)) with (tag (Some newline) (parts []) ++ items (l :: ls)).
        unfold parts, statements. destruct semi; reflexivity. }
      rewrite Z, E. apply (C_more semi [] newline t); [intros x [] | left; reflexivity | exact IH].
    + destruct (lines t) as [|l ls] eqn:L; [exfalso; exact (cut_ne _ _ L)|].
      destruct (semi && Ascii.eqb c semicolon) eqn:Q.
      * apply andb_true_iff in Q. destruct Q as [Q1 Q2]. apply Ascii.eqb_eq in Q2.
        assert (P : parts (c :: l) = [] :: parts l) by (unfold parts, statements; rewrite Q1, Q2; reflexivity).
        assert (Z : items ((c :: l) :: ls) = ([], Some semicolon) :: items (l :: ls)).
        { assert (T : forall x, tag x (parts (c :: l)) = ([], Some semicolon) :: tag x (parts l)).
          { intros x. rewrite P. cbn [tag]. destruct (parts l) as [|a b] eqn:X; [|reflexivity]. exfalso. unfold parts in X. rewrite Q1 in X. exact (cut_ne _ _ X). }
          destruct ls as [|k ls]; [exact (T None)|]. change (items ((c :: l) :: k :: ls)) with (tag (Some newline) (parts (c :: l)) ++ items (k :: ls)). rewrite T. reflexivity. }
        rewrite Z, Q2. apply (C_more semi [] semicolon t); [intros x [] | right; split; [exact Q1 | reflexivity] | exact IH].
      * assert (P : exists p ps, parts l = p :: ps /\ parts (c :: l) = (c :: p) :: ps).
        { unfold parts. destruct semi eqn:Sm; [|exists l, []; split; reflexivity]. unfold statements. cbn [cut]. cbn [andb] in Q. unfold semicolon in Q. rewrite Q.
          destruct (cut ";"%char l) as [|p ps] eqn:X; [exfalso; exact (cut_ne _ _ X)|]. exists p, ps. split; reflexivity. }
        destruct P as [p [ps [P1 P2]]].
        assert (Z : exists o r, items (l :: ls) = (p, o) :: r /\ items ((c :: l) :: ls) = (c :: p, o) :: r).
        { destruct ls as [|k ls].
          - cbn [items]. rewrite P1, P2. destruct ps as [|q ps]; eexists; eexists; split; reflexivity.
          - change (items (l :: k :: ls)) with (tag (Some newline) (parts l) ++ items (k :: ls)). change (items ((c :: l) :: k :: ls)) with (tag (Some newline) (parts (c :: l)) ++ items (k :: ls)).
            rewrite P1, P2. destruct ps as [|q ps]; eexists; eexists; split; reflexivity. }
        destruct Z as [o [r [Z1 Z2]]]. rewrite Z2. rewrite Z1 in IH. apply cut_cons; [|exact IH].
        intros [-> | [Sm ->]]; [exact (E eq_refl)|]. rewrite Sm in Q. discriminate.
Qed.
End Pieces.

Lemma use_decide p : free true p -> (exists m, UseStatement p m) \/ (forall m, ~ UseStatement p m).
Proof.
  intros _. destruct (use p) as [[m r]|] eqn:E; [left; exists m; exact (proj1 (use_sound p m r E))|]. right. intros m H.
  destruct (use_complete true p m H) as [a [r [_ U]]]. specialize (U [] (or_introl eq_refl)). rewrite app_nil_r in U. rewrite U in E. discriminate.
Qed.
Lemma module_decide p : free false p -> (exists m, ModuleStatement p m) \/ (forall m, ~ ModuleStatement p m).
Proof.
  intros _. destruct (module p) as [[m r]|] eqn:E; [left; exists m; exact (proj1 (module_sound p m r E))|]. right. intros m H.
  destruct (module_complete false p m H) as [a [r [_ U]]]. specialize (U [] (or_introl eq_refl)). rewrite app_nil_r in U. rewrite U in E. discriminate.
Qed.
Lemma include_decide p : free false p -> (exists m, IncludeStatement p m) \/ (forall m, ~ IncludeStatement p m).
Proof.
  intros F. destruct (include p) as [[m r]|] eqn:E; [left; exists m; exact (proj1 (include_sound p m r E))|]. right. intros m H.
  destruct (include_complete p m H F) as [a [r [_ U]]]. specialize (U [] (or_introl eq_refl)). rewrite app_nil_r in U. rewrite U in E. discriminate.
Qed.

Theorem C79a_uses t : UsesFinished t -> Named UseStatement (flat_map statements (lines t)) (uses t).
Proof.
  intros H. change (flat_map statements (lines t)) with (flat_map (parts true) (lines t)). rewrite <- items_fst.
  refine (proj1 (scan_cut use true UseStatement UseBegun _ _ use_H3 use_H4 _ use_decide t (items true (lines t)) (cut_items true t) _)).
  - intros p m Hp _. exact (use_complete true p m Hp).
  - intros p rest _. exact (use_H2 true p rest).
  - intros m Hm. destruct (use_complete true [] m Hm) as [a [r [_ U]]]. specialize (U [] (or_introl eq_refl)). discriminate.
  - intros p Hp. destruct (items_newline true _ p Hp) as [l [Hl ->]]. exact (H l Hl).
Qed.
Lemma flat_one ls : flat_map (parts false) ls = ls.
Proof. induction ls as [|l ls IH]; [reflexivity|]. cbn [flat_map parts app]. f_equal. exact IH. Qed.
Theorem C79b_modules t : ModulesFinished t -> Named ModuleStatement (lines t) (modules t).
Proof.
  intros H. rewrite <- (flat_one (lines t)), <- items_fst.
  refine (proj1 (scan_cut module false ModuleStatement ModuleBegun _ _ module_H3 module_H4 _ module_decide t (items false (lines t)) (cut_items false t) _)).
  - intros p m Hp _. exact (module_complete false p m Hp).
  - intros p rest _. exact (module_H2 false p rest).
  - intros m Hm. destruct (module_complete false [] m Hm) as [a [r [_ U]]]. specialize (U [] (or_introl eq_refl)). discriminate.
  - intros p Hp. destruct (items_newline false _ p Hp) as [l [Hl ->]]. exact (H l Hl).
Qed.
Lemma include_suffix t m q : include t = Some (m, q) -> exists a, t = a ++ q.
Proof.
  rewrite include_unfold. destruct (ci (lit "include") (skip t)) as [r|] eqn:E; [|discriminate]. destruct (skip_split t) as [b [_ [T _]]].
  destruct (ci_sound _ low_lit_include _ _ E) as [u [E2 _]]. rewrite E2 in T. rewrite T. clear T E E2 t.
  destruct r as [|c r]; [discriminate|]. cbn [after_include]. destruct (is_space c); [|discriminate]. intros X.
  destruct (quoted_sound _ _ _ X) as [d [x [y [e [z [Y [_ [-> _]]]]]]]].
  destruct (skip_split (c :: r)) as [w [_ [W _]]]. destruct (kind_sound (skip (c :: r))) as [K|[n [_ K]]].
  - rewrite K in Y. rewrite Y in W. rewrite W. exists (b ++ u ++ w ++ d :: x :: y). repeat (rewrite <- ?app_assoc; cbn [app]). reflexivity.
  - rewrite K, Y in W. rewrite W. exists (b ++ u ++ w ++ (n ++ ["_"%char]) ++ d :: x :: y). repeat (rewrite <- ?app_assoc; cbn [app]). reflexivity.
Qed.
Lemma skip_in t c : In c (skip t) -> In c t.
Proof. intros H. destruct (skip_split t) as [w [_ [T _]]]. rewrite T. apply in_or_app. right. exact H. Qed.
Lemma at_include_plain bol t : ~ In semicolon t -> at_include bol t = at_line include bol t.
Proof.
  intros N. unfold at_include. destruct (at_line include bol t) as [x|]; [reflexivity|]. destruct t as [|c t]; [reflexivity|]. destruct (close_quote c); [|reflexivity].
  destruct (after_char semicolon (skip t)) as [r|] eqn:E; [|reflexivity]. exfalso. apply char_sound in E. apply N. right. apply skip_in. rewrite E. left. reflexivity.
Qed.
Lemma findall_plain f : forall bol t, ~ In semicolon t -> findall at_include f bol t = findall (at_line include) f bol t.
Proof.
  induction f as [|f IH]; intros bol t N; [reflexivity|]. cbn [findall]. rewrite (at_include_plain bol t N). destruct (at_line include bol t) as [[m q]|] eqn:E.
  - f_equal. apply IH. intros H. unfold at_line in E. destruct bol; [|discriminate]. destruct (include_suffix t m q E) as [a ->]. apply N. apply in_or_app. right. exact H.
  - destruct t as [|c t]; [reflexivity|]. apply IH. intros H. apply N. right. exact H.
Qed.
Theorem C79c_includes t : ~ In ";"%char t -> IncludesFinished t -> Named IncludeStatement (lines t) (includes t).
Proof.
  intros N H. unfold includes. rewrite (findall_plain _ true t N). rewrite <- (flat_one (lines t)), <- items_fst.
  refine (proj1 (scan_cut include false IncludeStatement IncludeBegun _ _ include_H3 include_H4 _ include_decide t (items false (lines t)) (cut_items false t) _)).
  - exact include_complete.
  - intros p rest _. exact (include_H2 p rest).
  - intros m Hm. assert (F : free false []) by (intros c []). destruct (include_complete [] m Hm F) as [a [r [_ U]]]. specialize (U [] (or_introl eq_refl)). discriminate.
  - intros p Hp. destruct (items_newline false _ p Hp) as [l [Hl ->]]. exact (H l Hl).
Qed.
Lemma named_in S ps l : Named S ps l -> (forall p m m', In p ps -> S p m -> S p m' -> m = m') -> forall m, In m l <-> exists p, In p ps /\ S p m.
Proof.
  intros H U. induction H as [|p ps m l Hp H IH|p ps l Hp H IH]; intros n.
  - split; [intros [] | intros [p [[] _]]].
  - assert (U2 : forall q x y, In q ps -> S q x -> S q y -> x = y) by (intros q x y Hq; apply U; right; exact Hq). specialize (IH U2). split.
    + intros [<- | Hn]; [exists p; split; [left; reflexivity | exact Hp]|]. apply IH in Hn. destruct Hn as [q [Hq Sq]]. exists q. split; [right; exact Hq | exact Sq].
    + intros [q [[<- | Hq] Sq]]; [left; exact (U p m n (or_introl eq_refl) Hp Sq)|]. right. apply IH. exists q. split; assumption.
  - assert (U2 : forall q x y, In q ps -> S q x -> S q y -> x = y) by (intros q x y Hq; apply U; right; exact Hq). specialize (IH U2). split.
    + intros Hn. apply IH in Hn. destruct Hn as [q [Hq Sq]]. exists q. split; [right; exact Hq | exact Sq].
    + intros [q [[<- | Hq] Sq]]; [exfalso; exact (Hp n Sq)|]. apply IH. exists q. split; assumption.
Qed.
Lemma use_one p m m' : UseStatement p m -> UseStatement p m' -> m = m'.
Proof.
  intros H H'. destruct (use_complete true p m H) as [a [r [_ U]]]. destruct (use_complete true p m' H') as [a' [r' [_ U']]].
  specialize (U [] (or_introl eq_refl)). specialize (U' [] (or_introl eq_refl)). rewrite U in U'. injection U' as E _. exact E.
Qed.
Lemma module_one p m m' : ModuleStatement p m -> ModuleStatement p m' -> m = m'.
Proof.
  intros H H'. destruct (module_complete true p m H) as [a [r [_ U]]]. destruct (module_complete true p m' H') as [a' [r' [_ U']]].
  specialize (U [] (or_introl eq_refl)). specialize (U' [] (or_introl eq_refl)). rewrite U in U'. injection U' as E _. exact E.
Qed.
Lemma include_one p m m' : free false p -> IncludeStatement p m -> IncludeStatement p m' -> m = m'.
Proof.
  intros F H H'. destruct (include_complete p m H F) as [a [r [_ U]]]. destruct (include_complete p m' H' F) as [a' [r' [_ U']]].
  specialize (U [] (or_introl eq_refl)). specialize (U' [] (or_introl eq_refl)). rewrite U in U'. injection U' as E _. exact E.
Qed.
Lemma line_free t l : In l (lines t) -> free false l.
Proof.
  intros H. pose proof (cut_items false t) as C. assert (G : forall t is_, Cut false t is_ -> forall p, In p (map fst is_) -> free false p).
  { clear. intros t is_ C. induction C as [p Fp|p c t is_ Fp Sc C IH]; intros q Hq; cbn [map fst] in Hq.
    - destruct Hq as [<- | []]. exact Fp.
    - destruct Hq as [<- | Hq]; [exact Fp | exact (IH q Hq)]. }
  apply (G t _ C). rewrite items_fst, flat_one. exact H.
Qed.
Lemma nat_char n : n <= 255 -> nat_of_ascii (ascii_of_nat n) = n.
Proof. intros L. apply nat_ascii_embedding. lia. Qed.
Lemma lower_Lower m l : Lower m l <-> l = lower m.
Proof.
  unfold Lower, lower. split.
  - intros H. induction H as [|c x m l E H IH]; [reflexivity|]. cbn [map]. f_equal; [|exact IH]. apply nat_ascii_inj. rewrite nat_lower1. exact E.
  - intros ->. induction m as [|c m IH]; [constructor|]. cbn [map]. constructor; [apply nat_lower1 | exact IH].
Qed.
Lemma str_eqb_spec (a b : str) : str_eqb a b = true <-> a = b.
Proof.
  revert b. induction a as [|x a IH]; intros [|y b]; cbn [str_eqb]; try (split; discriminate || reflexivity).
  rewrite andb_true_iff, Ascii.eqb_eq, IH. split; [intros [-> ->]; reflexivity | intros E; injection E as -> ->; split; reflexivity].
Qed.
Lemma mem_in s l : mem s l = true <-> In s l.
Proof.
  unfold mem. rewrite existsb_exists. split; [intros [x [Hx E]]; apply str_eqb_spec in E; rewrite E; exact Hx | intros H; exists s; split; [exact H | apply str_eqb_spec; reflexivity]].
Qed.
Lemma unique_from l : forall r, NoDup r -> NoDup (fold_left (fun r x => if mem x r then r else r ++ [x]) l r) /\
  forall x, In x (fold_left (fun r x => if mem x r then r else r ++ [x]) l r) <-> In x r \/ In x l.
Proof.
  induction l as [|y l IH]; intros r N; cbn [fold_left]; [split; [exact N | intros x; cbn [In]; tauto]|]. destruct (mem y r) eqn:E.
  - destruct (IH r N) as [N2 I]. split; [exact N2|]. intros x. rewrite I. apply mem_in in E. cbn [In]. split; [tauto|]. intros [H | [<- | H]]; tauto.
  - assert (Ny : ~ In y r) by (intros Q; apply mem_in in Q; rewrite Q in E; discriminate).
    assert (N1 : NoDup (r ++ [y])). { apply (Permutation_NoDup (l := y :: r)); [apply Permutation_cons_append | constructor; assumption]. }
    destruct (IH _ N1) as [N2 I]. split; [exact N2|]. intros x. rewrite I, in_app_iff. cbn [In]. tauto.
Qed.
Lemma unique_nodup l : NoDup (unique l).
Proof. exact (proj1 (unique_from l [] (NoDup_nil _))). Qed.
Lemma unique_in l x : In x (unique l) <-> In x l.
Proof. unfold unique. rewrite (proj2 (unique_from l [] (NoDup_nil _)) x). cbn [In]. tauto. Qed.

Lemma names_in suffix t n : UsesFinished t -> ModulesFinished t ->
  In n (names suffix t) <-> In n (includes t) \/
  exists p m b, In p (flat_map statements (lines t)) /\ UseStatement p m /\ Lower m b /\ n = b ++ suffix /\ (forall l d, In l (lines t) -> ModuleStatement l d -> ~ Lower d b).
Proof.
  intros HU HM. unfold names. cbn zeta. rewrite unique_in, in_app_iff, in_map_iff.
  assert (U : forall m, In m (uses t) <-> exists p, In p (flat_map statements (lines t)) /\ UseStatement p m).
  { apply (named_in UseStatement _ _ (C79a_uses t HU)). intros p m m' _. apply use_one. }
  assert (M : forall m, In m (modules t) <-> exists p, In p (lines t) /\ ModuleStatement p m).
  { apply (named_in ModuleStatement _ _ (C79b_modules t HM)). intros p m m' _. apply module_one. }
  split; (intros [H|H]; [left; exact H | right]).
  - destruct H as [m [<- H]]. apply filter_In in H. destruct H as [H D]. apply negb_true_iff in D. destruct (proj1 (U m) H) as [p [Hp S]].
    exists p, m, (lower m). split; [exact Hp|]. split; [exact S|]. split; [apply lower_Lower; reflexivity|]. split; [reflexivity|].
    intros l d Hl Sd L. apply lower_Lower in L. assert (Q : mem (lower m) (map lower (modules t)) = true); [|congruence].
    apply mem_in. rewrite L. apply in_map. apply M. exists l. split; assumption.
  - destruct H as [p [m [b [Hp [S [L [-> D]]]]]]]. apply lower_Lower in L. subst b. exists m. split; [reflexivity|]. apply filter_In. split; [apply U; exists p; split; assumption|].
    apply negb_true_iff. destruct (mem (lower m) (map lower (modules t))) eqn:Q; [|reflexivity]. exfalso. apply mem_in, in_map_iff in Q. destruct Q as [d [E Hd]].
    destruct (proj1 (M d) Hd) as [l [Hl Sd]]. apply (D l d Hl Sd). apply lower_Lower. symmetry. exact E.
Qed.
(* what a source needs: every file it includes, and the module file of every module it uses and does not define *)
Theorem C79d_needs suffix t n : ~ In ";"%char t -> UsesFinished t -> ModulesFinished t -> IncludesFinished t ->
  In n (names suffix t) <->
  (exists l, In l (lines t) /\ IncludeStatement l n) \/
  exists p m b, In p (flat_map statements (lines t)) /\ UseStatement p m /\ Lower m b /\ n = b ++ suffix /\ (forall l d, In l (lines t) -> ModuleStatement l d -> ~ Lower d b).
Proof.
  intros N HU HM HI. rewrite (names_in suffix t n HU HM).
  rewrite (named_in IncludeStatement _ _ (C79c_includes t N HI) (fun p m m' Hp => include_one p m m' (line_free t p Hp)) n). reflexivity.
Qed.
Theorem C79e_used suffix t p m b : UsesFinished t -> ModulesFinished t -> In p (flat_map statements (lines t)) -> UseStatement p m -> Lower m b ->
  (forall l d, In l (lines t) -> ModuleStatement l d -> ~ Lower d b) -> In (b ++ suffix) (names suffix t).
Proof. intros HU HM Hp S L D. apply (names_in suffix t _ HU HM). right. exists p, m, b. repeat split; assumption. Qed.
(* what a source makes *)
Theorem C79f_makes suffix t n : ModulesFinished t -> In n (emitted suffix t) <-> exists l m b, In l (lines t) /\ ModuleStatement l m /\ Lower m b /\ n = b ++ suffix.
Proof.
  intros HM. unfold emitted. rewrite in_map_iff.
  assert (M : forall m, In m (modules t) <-> exists p, In p (lines t) /\ ModuleStatement p m).
  { apply (named_in ModuleStatement _ _ (C79b_modules t HM)). intros p m m' _. apply module_one. }
  split.
  - intros [m [<- H]]. apply (proj1 (unique_in _ _)) in H. destruct (proj1 (M m) H) as [l [Hl S]]. exists l, m, (lower m). split; [exact Hl|]. split; [exact S|]. split; [apply lower_Lower; reflexivity | reflexivity].
  - intros [l [m [b [Hl [S [L ->]]]]]]. apply lower_Lower in L. subst b. exists m. split; [reflexivity|]. apply unique_in, M. exists l. split; assumption.
Qed.
Lemma leb_NotAfter a b : CscModel.leb a b = true <-> NotAfter a b.
Proof.
  split.
  - revert b. induction a as [|x a IH]; intros b H; [constructor|]. destruct b as [|y b]; [discriminate|]. cbn [CscModel.leb] in H.
    destruct (nat_of_ascii x =? nat_of_ascii y) eqn:E; [apply Nat.eqb_eq, nat_ascii_inj in E; subst y; apply A_same, IH, H | apply A_less, Nat.ltb_lt, H].
  - intros H. induction H as [b|x y a b L|x a b H IH]; [reflexivity | |]; cbn [CscModel.leb].
    + assert (E : nat_of_ascii x =? nat_of_ascii y = false) by (apply Nat.eqb_neq; lia). rewrite E. apply Nat.ltb_lt. exact L.
    + rewrite Nat.eqb_refl. exact IH.
Qed.
Lemma ordered_sorted node l : CscProps2.ordered node l -> StronglySorted (fun x y => NotAfter (fst x) (fst y)) l.
Proof.
  intros O. induction O as [|x l Hx O IH]; constructor; [exact IH|]. apply Forall_forall. intros y Hy. apply leb_NotAfter, Hx, Hy.
Qed.
Definition found_ {node} (find : str -> option node) (dep : str) : list (str * node) := match find dep with Some n => [(dep, n)] | None => [] end.
Lemma found_in node (find : str -> option node) l x : In x (flat_map (found_ find) l) <-> In (fst x) l /\ find (fst x) = Some (snd x).
Proof.
  rewrite in_flat_map. split.
  - intros [d [Hd H]]. unfold found_ in H. destruct (find d) as [n|] eqn:E; [|destruct H]. destruct H as [<- | []]. split; assumption.
  - intros [H E]. exists (fst x). split; [exact H|]. unfold found_. rewrite E. left. destruct x; reflexivity.
Qed.
Lemma found_nodup node (find : str -> option node) l : NoDup l -> NoDup (map fst (flat_map (found_ find) l)).
Proof.
  induction 1 as [|d l Hd Hl IH]; [constructor|]. cbn [flat_map]. rewrite map_app. unfold found_ at 1. destruct (find d) as [n|] eqn:E; [|exact IH].
  cbn [map app fst]. constructor; [|exact IH]. intros Q. apply in_map_iff in Q. destruct Q as [x [<- Hx]]. apply found_in in Hx. exact (Hd (proj1 Hx)).
Qed.
(* the files found, each name looked for once, in the order of the names *)
Theorem C79g_found node (find : text -> option node) suffix t : exists l : list (text * node),
  scan find suffix t = map snd l /\ NoDup (map fst l) /\ StronglySorted (fun x y => NotAfter (fst x) (fst y)) l /\
  forall n x, In (n, x) l <-> In n (names suffix t) /\ find n = Some x.
Proof.
  exists (CscModel.sort node (flat_map (found_ find) (names suffix t))). split; [reflexivity|].
  pose proof (CscProps2.sort_perm node (flat_map (found_ find) (names suffix t))) as P. split.
  - apply (Permutation_NoDup (Permutation_map fst P)). apply found_nodup. apply unique_nodup.
  - split; [apply ordered_sorted, CscProps2.sort_ordered|]. intros n x. rewrite <- (found_in node find (names suffix t) (n, x)). split.
    + apply Permutation_in. symmetry. exact P.
    + apply Permutation_in. exact P.
Qed.
(* a source that uses a module depends on the file that compiling the module's source makes *)
Theorem C79h_order suffix user maker l m p m' b : ModulesFinished maker -> UsesFinished user -> ModulesFinished user ->
  In l (lines maker) -> ModuleStatement l m -> Lower m b ->
  In p (flat_map statements (lines user)) -> UseStatement p m' -> Lower m' b ->
  (forall k d, In k (lines user) -> ModuleStatement k d -> ~ Lower d b) ->
  exists n, In n (emitted suffix maker) /\ In n (names suffix user) /\
  forall node (find : text -> option node) x, find n = Some x -> In x (scan find suffix user).
Proof.
  intros FM FU FU2 Hl S L Hp S' L' D. exists (b ++ suffix). split; [apply (C79f_makes suffix maker _ FM); exists l, m, b; repeat split; assumption|].
  assert (N : In (b ++ suffix) (names suffix user)) by exact (C79e_used suffix user p m' b FU FU2 Hp S' L' D).
  split; [exact N|]. intros node find x E. destruct (C79g_found node find suffix user) as [r [-> [_ [_ I]]]]. apply in_map_iff. exists (b ++ suffix, x). split; [reflexivity|].
  apply I. split; assumption.
Qed.
