(* Attributes of nodes: the paths. *)
From Coq Require Import Ascii String List Bool Arith Lia.
Import ListNotations.
From Verif Require Import NameModel NameProps NameProps2 AttModel AttSpec.
Open Scope string_scope.
Open Scope list_scope.
Open Scope nat_scope.

Lemma same_spec : forall a b, same a b = true <-> a = b.
Proof. intros a b. unfold same. destruct (place_dec a b); split; congruence. Qed.
Lemma same_refl : forall a, same a a = true.
Proof. intros a. apply same_spec. reflexivity. Qed.
Lemma same_false : forall a b, a <> b -> same a b = false.
Proof. intros a b N. unfold same. destruct (place_dec a b); congruence. Qed.

(* ---- the elements of a path ---- *)
Lemma elements_last : forall p up, last (elements up p) [] = up ++ p /\ elements up p <> [] /\ length (elements up p) = S (length p).
Proof.
  induction p as [|n p IH]; intros up; cbn [elements].
  - rewrite app_nil_r. split; [reflexivity|]. split; [discriminate | reflexivity].
  - destruct (IH (up ++ [n])) as [A [B C]]. split; [|split; [discriminate | cbn [length]; rewrite C; reflexivity]].
    destruct (elements (up ++ [n]) p) as [|x l]; [congruence|]. cbn [last] in *. rewrite A, <- app_assoc. reflexivity.
Qed.
Lemma index_some : forall c up r, index (up ++ c) (elements up (c ++ r)) = Some (length c).
Proof.
  induction c as [|n c IH]; intros up r.
  - rewrite app_nil_r. destruct r; cbn [app elements index]; rewrite same_refl; reflexivity.
  - cbn [app elements index]. rewrite same_false.
    2: { intros E. apply (f_equal (@length _)) in E. rewrite app_length in E. cbn [length] in E. lia. }
    replace (up ++ n :: c) with ((up ++ [n]) ++ c) by (rewrite <- app_assoc; reflexivity). rewrite IH. reflexivity.
Qed.
Lemma index_none : forall p up d, (forall c r, p = c ++ r -> d <> up ++ c) -> index d (elements up p) = None.
Proof.
  induction p as [|n p IH]; intros up d H; cbn [elements index].
  - rewrite same_false; [reflexivity|]. intros <-. apply (H [] []); [reflexivity | symmetry; apply app_nil_r].
  - rewrite same_false by (intros <-; apply (H [] (n :: p)); [reflexivity | symmetry; apply app_nil_r]). rewrite IH; [reflexivity|].
    intros c r -> E. apply (H (n :: c) r); [reflexivity|]. rewrite E, <- app_assoc. reflexivity.
Qed.
Lemma skip_elements : forall c up r, skipn (length c) (elements up (c ++ r)) = elements (up ++ c) r.
Proof.
  induction c as [|n c IH]; intros up r; [rewrite app_nil_r; reflexivity|]. cbn [app length skipn elements]. rewrite IH, <- app_assoc. reflexivity.
Qed.
Lemma skip_elements_S : forall c up n r, skipn (length c + 1) (elements up (c ++ n :: r)) = elements (up ++ c ++ [n]) r.
Proof.
  intros c up n r. replace (c ++ n :: r) with ((c ++ [n]) ++ r) by (rewrite <- app_assoc; reflexivity).
  replace (length c + 1) with (length (c ++ [n])) by (rewrite app_length; reflexivity). apply skip_elements.
Qed.
Lemma last_snoc : forall (A : Type) (l : list A) (x d : A), last (l ++ [x]) d = x.
Proof. intros A l x d. apply last_last. Qed.
Lemma nname_snoc : forall u n, nname (u ++ [n]) = n.
Proof. intros u n. unfold nname. destruct (u ++ [n]) as [|x l] eqn:E; [destruct u; discriminate|]. rewrite <- E. apply last_snoc. Qed.
Lemma dirname_snoc : forall u n, dirname (u ++ [n]) = n ++ [SLASH].
Proof. intros u n. unfold dirname. rewrite nname_snoc. destruct (u ++ [n]) as [|x l] eqn:E; [destruct u; discriminate | reflexivity]. Qed.

Lemma rest_path : forall r u n, concat (map dirname (removelast (elements (u ++ [n]) r))) ++ nname ((u ++ [n]) ++ r) = join_with SLASH (n :: r).
Proof.
  induction r as [|m r IH]; intros u n.
  - cbn [elements removelast map concat app join_with]. rewrite app_nil_r. apply nname_snoc.
  - cbn [elements]. specialize (IH (u ++ [n]) m). destruct (elements_last r ((u ++ [n]) ++ [m])) as [_ [NE _]].
    destruct (elements ((u ++ [n]) ++ [m]) r) as [|x l]; [congruence|].
    change (removelast ((u ++ [n]) :: x :: l)) with ((u ++ [n]) :: removelast (x :: l)). cbn [map concat]. rewrite dirname_snoc.
    change (join_with SLASH (n :: m :: r)) with (n ++ SLASH :: join_with SLASH (m :: r)). rewrite <- IH. rewrite <- !app_assoc. reflexivity.
Qed.
Definition abs_text (p : place) : str := SLASH :: join_with SLASH p.
(* what get_path gives *)
Lemma get_path_self : forall p, get_path p p = lit ".".
Proof. intros p. unfold get_path. rewrite same_refl. reflexivity. Qed.
Lemma get_path_under : forall cwd n r, get_path (cwd ++ n :: r) cwd = join_with SLASH (n :: r).
Proof.
  intros cwd n r. unfold get_path. rewrite same_false.
  2: { intros E. apply (f_equal (@length _)) in E. rewrite app_length in E. cbn [length] in E. lia. }
  unfold path_elements. pose proof (index_some cwd [] (n :: r)) as IX. cbn [app] in IX. rewrite IX, skip_elements_S. cbn [app].
  rewrite <- (rest_path r cwd n), <- app_assoc. reflexivity.
Qed.
Lemma get_path_outside : forall p cwd, (forall r, p <> cwd ++ r) -> get_path p cwd = abs_text p.
Proof.
  intros p cwd H. unfold get_path. rewrite same_false by (intros ->; apply (H []); symmetry; apply app_nil_r).
  unfold path_elements. rewrite index_none by (intros c r -> ->; exact (H r eq_refl)).
  destruct p as [|n p]; [reflexivity|]. cbn [elements]. destruct (elements_last p ([] ++ [n])) as [_ [NE _]]. pose proof (rest_path p [] n) as R.
  destruct (elements ([] ++ [n]) p) as [|x l]; [congruence|]. change (removelast ([] :: x :: l)) with (@nil str :: removelast (x :: l)). cbn [map concat].
  change (dirname []) with [SLASH]. unfold abs_text. rewrite <- R. reflexivity.
Qed.
Lemma under_or_not : forall (cwd p : place), (exists r, p = cwd ++ r) \/ (forall r, p <> cwd ++ r).
Proof.
  induction cwd as [|x cwd IH]; intros p; [left; exists p; reflexivity|]. destruct p as [|y p]; [right; intros r; discriminate|].
  destruct (list_eq_dec ascii_dec x y) as [-> | N]; [|right; intros r E; injection E as E1 _; congruence].
  destruct (IH p) as [[r ->] | H]; [left; exists r; reflexivity | right; intros r E; injection E as E; exact (H r E)].
Qed.

(* ---- the absolute path ---- *)
Lemma join_concat : forall r n, join_with SLASH (n :: r) = n ++ concat (map (cons SLASH) r).
Proof.
  induction r as [|m r IH]; intros n; [cbn [join_with map concat]; rewrite app_nil_r; reflexivity|].
  change (join_with SLASH (n :: m :: r)) with (n ++ SLASH :: join_with SLASH (m :: r)). rewrite IH. reflexivity.
Qed.
Lemma abspath_from_false : forall r up, abspath_from up false r = up ++ concat (map (cons SLASH) r).
Proof.
  induction r as [|m r IH]; intros up; cbn [abspath_from map concat]; [rewrite app_nil_r; reflexivity|]. rewrite IH. rewrite <- !app_assoc. reflexivity.
Qed.
Lemma get_abspath_text : forall p, get_abspath p = abs_text p.
Proof.
  intros [|n r]; [reflexivity|]. unfold get_abspath, abs_text. rewrite join_concat. cbn [abspath_from]. rewrite abspath_from_false. reflexivity.
Qed.

(* ---- where the texts lead ---- *)
Lemma named_app : forall a b, Named (a ++ b) <-> Named a /\ Named b.
Proof. intros a b. unfold Named. split; [intros H; split; intros n IN; apply H, in_or_app; auto | intros [A B] n IN; apply in_app_or in IN as [IN | IN]; auto]. Qed.
Lemma good_ordinary : forall w, good w -> ~ In SLASH w /\ ordinary w.
Proof. intros w [A [B [C D]]]. split; [exact D | split; assumption]. Qed.
Lemma fold_good : forall l c, Named l -> fold_left walk_step l c = rev l ++ c.
Proof.
  induction l as [|n l IH]; intros c H; [reflexivity|]. cbn [fold_left rev]. rewrite walk_good by (apply H; left; reflexivity). rewrite IH by (intros x IN; apply H; right; exact IN). rewrite <- app_assoc. reflexivity.
Qed.
Lemma walk_join : forall c l, (forall w, In w l -> ~ In SLASH w /\ ordinary w) -> l <> [] -> walk c (join_with SLASH l) = fold_left walk_step l c.
Proof. intros c l H NE. unfold walk. rewrite start_join by exact H. rewrite split_join; [reflexivity | intros w IN; apply (H w IN) | exact NE]. Qed.
Lemma walk_abs : forall c p, Named p -> walk c (abs_text p) = rev p.
Proof.
  intros c p H. unfold abs_text. change (SLASH :: join_with SLASH p) with (repeat SLASH 1 ++ join_with SLASH p). rewrite walk_slashes by discriminate.
  destruct p as [|n p]; [cbn [join_with split_on fold_left]; apply walk_noop, not_ord_nil|].
  rewrite split_join; [| intros w IN; apply good_ordinary, H, IN | discriminate]. rewrite fold_good by exact H. apply app_nil_r.
Qed.
Lemma walk_dot : forall c, walk c (lit ".") = c.
Proof. intros c. unfold walk. change (split_on SLASH (lit ".")) with [lit "."]. cbn [fold_left]. rewrite walk_noop by (intros [_ N]; apply N; reflexivity). reflexivity. Qed.

(* C86a: the path, the absolute path, the path relative to the top directory and the one relative to any directory lead to the node *)
Theorem C86a_path : forall p cwd, Named p -> Leads cwd (get_path p cwd) p.
Proof.
  intros p cwd H. unfold Leads. destruct (under_or_not cwd p) as [[r ->] | O].
  - destruct r as [|n r]; [rewrite app_nil_r, get_path_self; apply walk_dot|]. rewrite get_path_under. apply named_app in H as [_ H].
    rewrite walk_join; [| intros w IN; apply good_ordinary, H, IN | discriminate]. rewrite fold_good by exact H. symmetry. apply rev_app_distr.
  - rewrite get_path_outside by exact O. apply walk_abs; exact H.
Qed.
Theorem C86a_abspath : forall p cwd, Named p -> Leads cwd (get_abspath p) p.
Proof. intros p cwd H. rewrite get_abspath_text. apply walk_abs; exact H. Qed.

Lemma filter_named : forall p, Named p -> filter nonempty p = p.
Proof.
  induction p as [|n p IH]; intros H; [reflexivity|]. cbn [filter]. assert (nonempty n = true) as ->. { destruct (H n (or_introl eq_refl)) as [NE _]. destruct n; [congruence | reflexivity]. }
  rewrite IH; [reflexivity|]. intros x IN; apply H; right; exact IN.
Qed.
Lemma split_abs : forall p, Named p -> filter nonempty (split_on SLASH (abs_text p)) = p.
Proof.
  intros p H. unfold abs_text. cbn [split_on]. rewrite Ascii.eqb_refl. cbn [filter nonempty]. destruct p as [|n p]; [reflexivity|].
  rewrite split_join; [apply filter_named; exact H | intros w IN; apply good_ordinary, H, IN | discriminate].
Qed.
Lemma common_spec : forall a b, exists c x y, a = c ++ x /\ b = c ++ y /\ common a b = length c.
Proof.
  induction a as [|n a IH]; intros b; [exists [], [], b; auto|]. destruct b as [|m b]; [exists [], (n :: a), []; auto|]. cbn [common].
  destruct (list_eq_dec ascii_dec n m) as [-> | N]; [|exists [], (n :: a), (m :: b); auto]. destruct (IH b) as [c [x [y [-> [-> ->]]]]]. exists (m :: c), x, y. auto.
Qed.
Lemma fold_ups : forall x c, fold_left walk_step (repeat (lit "..") (length x)) (rev (c ++ x)) = rev c.
Proof.
  intros x c. rewrite rev_app_distr. rewrite <- (rev_length x). generalize (rev x). clear x. induction l as [|n l IH]; [reflexivity|].
  cbn [length repeat fold_left app]. rewrite walk_dotdot. exact IH.
Qed.
Lemma up_names : forall k y, Named y -> forall w, In w (repeat (lit "..") k ++ y) -> ~ In SLASH w /\ ordinary w.
Proof.
  intros k y H w IN. apply in_app_or in IN as [IN | IN]; [|apply good_ordinary, H, IN]. apply repeat_spec in IN. subst w. split; [|split; discriminate].
  intros [E | [E | []]]; discriminate E.
Qed.
Theorem C86a_relpath : forall p top, Named p -> Named top -> Leads top (get_relpath p top) p.
Proof.
  intros p top HP HT. unfold Leads, get_relpath, relpath. rewrite !get_abspath_text, !split_abs by assumption.
  destruct (common_spec top p) as [c [x [y [-> [-> ->]]]]]. apply named_app in HP as [_ HY].
  rewrite app_length. replace (length c + length x - length c) with (length x) by lia. rewrite skipn_app, skipn_all, Nat.sub_diag. cbn [app skipn].
  assert (fold_left walk_step (repeat (lit "..") (length x) ++ y) (rev (c ++ x)) = rev (c ++ y)) as F.
  { rewrite fold_left_app, fold_ups, fold_good by exact HY. symmetry. apply rev_app_distr. }
  destruct (repeat (lit "..") (length x) ++ y) as [|w l] eqn:E; [rewrite walk_dot; exact F|]. rewrite <- E in *. rewrite walk_join; [exact F | apply up_names; exact HY | rewrite E; discriminate].
Qed.
(* no detour: it goes up no more than needed *)
Lemma rel_up_text : forall o x, rel_up (o ++ x) o (length o) = join_with SLASH (repeat (lit "..") (length x)).
Proof.
  intros o x. unfold rel_up, path_elements. destruct (elements_last (o ++ x) []) as [_ [_ L1]]. destruct (elements_last o []) as [_ [_ L2]]. rewrite L1, app_length.
  replace (S (length o + length x) - (length o + 1)) with (length x) by lia. rewrite skipn_all2 by (rewrite L2; lia). cbn [map]. rewrite app_nil_r. reflexivity.
Qed.
Lemma dir_snoc : forall o n, dir (o ++ [n]) = o.
Proof. intros o n. unfold dir. apply removelast_last. Qed.
Lemma str_eqb_iff : forall a b, str_eqb a b = true <-> a = b.
Proof. intros a b. destruct (str_eqb a b) eqn:E; split; intros H; try reflexivity; try discriminate; [apply str_eqb_spec; exact E | subst; apply str_eqb_spec in E || (rewrite (proj2 (str_eqb_spec b b) eq_refl) in E; discriminate)]. Qed.
Theorem C86a_rel_path : forall fuel d p, Named p -> Named d -> length p < fuel -> exists text, rel_path fuel d p = Some text /\ Leads d text p.
Proof.
  assert (forall fuel d p, Named p -> Named d -> length p < fuel -> exists text, rel_path fuel d p = Some text /\ text <> [] /\ Leads d text p) as M.
  { induction fuel as [|k IH]; intros d p HP HD LT; [lia|]. cbn [rel_path]. destruct (same d p) eqn:SM.
    - apply same_spec in SM as ->. exists (lit "."). split; [reflexivity|]. split; [discriminate|]. apply walk_dot.
    - destruct (under_or_not p d) as [[x ->] | O].
      + unfold path_elements. pose proof (index_some p [] x) as IX. cbn [app] in IX. rewrite IX. exists (rel_up (p ++ x) p (length p)). split; [reflexivity|]. rewrite rel_up_text.
        destruct x as [|n x]; [rewrite app_nil_r, same_refl in SM; discriminate|]. split; [cbn [length repeat]; destruct (length x); discriminate|].
        unfold Leads. pose proof (up_names (length (n :: x)) [] (fun w F => match F with end)) as U. rewrite app_nil_r in U. rewrite walk_join; [apply fold_ups | exact U | discriminate].
      + unfold path_elements. rewrite index_none by (intros c r -> ->; exact (O r eq_refl)).
        destruct (rev p) as [|n o] eqn:RV.
        { assert (p = []) as -> by (rewrite <- (rev_involutive p), RV; reflexivity). exfalso. exact (O d eq_refl). }
        assert (p = rev o ++ [n]) as EP by (rewrite <- (rev_involutive p), RV; reflexivity). clear RV. revert EP. generalize (rev o). clear o. intros o ->.
        rewrite dir_snoc, nname_snoc. apply named_app in HP as [HO HN]. assert (good n) as GN by (apply HN; left; reflexivity).
        rewrite app_length in LT. cbn [length] in LT. destruct (IH d o HO HD) as [t [ET [NE LD]]]; [lia|]. rewrite ET. unfold Leads in *. rewrite rev_app_distr. cbn [rev app].
        destruct (str_eqb t (lit ".")) eqn:ED.
        * apply str_eqb_iff in ED. subst t. rewrite walk_dot in LD. exists n. split; [reflexivity|]. split; [apply GN|]. rewrite walk_name by exact GN. rewrite LD. reflexivity.
        * exists (t ++ [SLASH] ++ n). split; [reflexivity|]. split; [destruct t; discriminate|]. change (t ++ [SLASH] ++ n) with (t ++ SLASH :: n). rewrite walk_file by exact GN. f_equal.
          rewrite <- LD. unfold walk. rewrite split_on_app, fold_left_app. change (split_on SLASH []) with [@nil ascii]. cbn [fold_left]. rewrite walk_noop by apply not_ord_nil. destruct t; [congruence | reflexivity]. }
  intros fuel d p HP HD LT. destruct (M fuel d p HP HD LT) as [t [A [_ B]]]. exists t. split; assumption.
Qed.
(* C86b: different places have different paths, in whatever directory they are taken *)
Lemma leads_one : forall cwd t p q, Leads cwd t p -> Leads cwd t q -> p = q.
Proof. intros cwd t p q A B. unfold Leads in *. rewrite A in B. apply (f_equal (@rev _)) in B. rewrite !rev_involutive in B. exact B. Qed.
Theorem C86b_path : forall p q cwd, Named p -> Named q -> get_path p cwd = get_path q cwd -> p = q.
Proof. intros p q cwd HP HQ E. apply (leads_one cwd (get_path p cwd)); [|rewrite E]; apply C86a_path; assumption. Qed.
Theorem C86b_abspath : forall p q, Named p -> Named q -> get_abspath p = get_abspath q -> p = q.
Proof. intros p q HP HQ E. apply (leads_one [] (get_abspath p)); [|rewrite E]; apply C86a_abspath; assumption. Qed.
Theorem C86b_relpath : forall p q top, Named p -> Named q -> Named top -> get_relpath p top = get_relpath q top -> p = q.
Proof. intros p q top HP HQ HT E. apply (leads_one top (get_relpath p top)); [|rewrite E]; apply C86a_relpath; assumption. Qed.
