(* Attributes of nodes: the parts of a path, and variant directories. *)
From Coq Require Import Ascii String List Bool Arith Lia.
Import ListNotations.
From Verif Require Import NameModel NameProps NameProps2 AttModel AttSpec AttProps.
Open Scope string_scope.
Open Scope list_scope.
Open Scope nat_scope.

(* ---- suffixes ---- *)
Lemma digit_spec : forall c, is_digit c = true <-> Digit c.
Proof.
  assert (forall c, is_digit c = existsb (Ascii.eqb c) (list_ascii_of_string "0123456789")) as E by (intros [[] [] [] [] [] [] [] []]; vm_compute; reflexivity).
  intros c. rewrite E, existsb_exists. unfold Digit. split; [intros [x [IN EQ]]; apply Ascii.eqb_eq in EQ; subst; exact IN | intros IN; exists c; split; [exact IN | apply Ascii.eqb_refl]].
Qed.
Lemma number_spec : forall w, Number w <-> w <> [] /\ Forall (fun c => is_digit c = true) w.
Proof. intros w. unfold Number. rewrite Forall_forall. split; intros [A B]; (split; [exact A | intros c IN; apply digit_spec, B, IN]). Qed.
Lemma ordinary_suffix : forall n stem sfx, ~ In SLASH n -> ordinary_ext n stem sfx -> HasSuffix n stem sfx.
Proof.
  intros n stem sfx NS [E [[-> H] | [t [-> [ND [_ H]]]]]].
  - right. split; [reflexivity|]. rewrite app_nil_r in E. split; [symmetry; exact E|]. intros a w EW NW. apply number_spec. apply (H a w EW NW). intros IN. apply NS. rewrite EW. apply in_or_app. right. right. exact IN.
  - left. exists t. split; [exact E|]. split; [reflexivity|]. split; [exact ND|]. intros NB. apply number_spec in NB as [NE F]. destruct H as [-> | X]; [congruence|].
    apply Exists_exists in X as [c [IN C]]. rewrite Forall_forall in F. rewrite (F c IN) in C. discriminate.
Qed.
Lemma suffix_one : forall n s1 x1 s2 x2, HasSuffix n s1 x1 -> HasSuffix n s2 x2 -> s1 = s2 /\ x1 = x2.
Proof.
  intros n s1 x1 s2 x2 [[w [E1 [-> [N1 M1]]]] | [-> [-> H1]]] [[v [E2 [-> [N2 M2]]]] | [-> [-> H2]]].
  - rewrite E1 in E2. destruct (last_occ_unique _ _ _ _ _ N1 N2 E2) as [-> ->]. split; reflexivity.
  - exfalso. apply M1. apply (H2 s1 w E1 N1).
  - exfalso. apply M2. apply (H1 s2 v E2 N2).
  - split; reflexivity.
Qed.
(* the suffix of a path is that of its last name, the stem has the directories in front *)
Lemma splitext_app : forall D n, ~ In SLASH n -> (D = [] \/ exists d, D = d ++ [SLASH]) -> splitext (D ++ n) = (D ++ fst (splitext n), snd (splitext n)).
Proof.
  intros D n NS HD. pose proof (splitext_ordinary n) as SO. pose proof (splitext_ordinary (D ++ n)) as SP.
  assert (ordinary_ext (D ++ n) (D ++ fst (splitext n)) (snd (splitext n))) as OE.
  { destruct SO as [E H]. split; [rewrite <- app_assoc, <- E; reflexivity|]. destruct H as [[Z H] | H]; [left | right; exact H]. split; [exact Z|].
    intros r t ER N1 N2. destruct (app_eq_app _ _ _ _ ER) as [m [[EA EB] | [EA EB]]]; [|apply (H m t EB N1 N2)].
    destruct m as [|c m]; [cbn [app] in EB; apply (H [] t); [symmetry; exact EB | exact N1 | exact N2]|].
    cbn [app] in EB. injection EB as <- ET. exfalso. apply N2. rewrite ET. apply in_or_app. left.
    destruct HD as [-> | [d ED]]; [destruct r; discriminate EA|]. rewrite EA in ED. clear - ED.
    destruct (@exists_last _ (DOT :: m)) as [l [z EL]]; [discriminate|]. rewrite EL, app_assoc in ED. apply app_inj_tail in ED as [_ ->].
    destruct l as [|y l]; [discriminate EL|]. injection EL as _ ->. apply in_or_app. right. left. reflexivity. }
  destruct (ordinary_unique _ _ _ _ _ SP OE) as [A B]. rewrite <- A, <- B. destruct (splitext (D ++ n)); reflexivity.
Qed.

(* ---- the parts ---- *)
Lemma path_split : forall d n cwd, Named (d ++ [n]) -> d ++ [n] <> cwd -> exists D, get_path (d ++ [n]) cwd = D ++ n /\ (D = [] \/ exists d', D = d' ++ [SLASH]) /\
  (D = [] /\ d = cwd \/ D = get_path d cwd ++ [SLASH] \/ d = [] /\ D = [SLASH]).
Proof.
  intros d n cwd HN NE. destruct (under_or_not cwd (d ++ [n])) as [[r ER] | O].
  - destruct r as [|m r] using rev_ind; [rewrite app_nil_r in ER; congruence|]. clear IHr. rewrite app_assoc in ER. apply app_inj_tail in ER as [-> ->].
    rewrite <- app_assoc. destruct r as [|y r]; cbn [app].
    + exists []. rewrite app_nil_r. change [m] with (m :: []). rewrite get_path_under. split; [reflexivity|]. split; left; [reflexivity | split; reflexivity].
    + change (y :: r ++ [m]) with (y :: (r ++ [m])). rewrite !get_path_under. exists (join_with SLASH (y :: r) ++ [SLASH]).
      change (y :: r ++ [m]) with ((y :: r) ++ [m]). rewrite join_snoc. rewrite <- app_assoc. split; [reflexivity|]. split; right; [exists (join_with SLASH (y :: r)); reflexivity | left; reflexivity].
  - rewrite get_path_outside by exact O. unfold abs_text. rewrite join_snoc. destruct d as [|y d].
    + exists [SLASH]. split; [reflexivity|]. split; [right; exists []; reflexivity | right; right; split; reflexivity].
    + exists (SLASH :: join_with SLASH (y :: d) ++ [SLASH]). split; [cbn [app]; rewrite <- app_assoc; reflexivity|]. split; [right; exists (SLASH :: join_with SLASH (y :: d)); reflexivity|].
      right. left. rewrite get_path_outside; [reflexivity|]. intros r E. apply (O (r ++ [n])). rewrite E, app_assoc. reflexivity.
Qed.
(* C86c: of a file n in the directory d, in the scripts of directory cwd: file is n; filebase and suffix are its two parts, suffix being the text from the last dot on, unless only digits follow;
   base and suffix are the two parts of the path; dir is the directory, dir, a slash and file lead to the file, and so do base with suffix.  windows has the same names as the path *)
Section Parts.
Variables (ls : links) (cwd top : place).
Definition texts (v : value) (a : attr) (t : str) : Prop := text_of cwd (get_attr ls cwd top a v) = Some t.
Theorem C86c_parts : forall d n k, Named (d ++ [n]) ->
  let v := VNode (d ++ [n]) k in
  exists path base stem suffix dirtext, text_of cwd v = Some path /\ texts v Base base /\ texts v Filebase stem /\ texts v Suffix suffix /\ texts v File n /\ texts v Dir dirtext /\
    n = stem ++ suffix /\ HasSuffix n stem suffix /\ Leads cwd dirtext d /\ Leads cwd (dirtext ++ SLASH :: n) (d ++ [n]) /\
    (d ++ [n] <> cwd -> path = base ++ suffix /\ exists D, base = D ++ stem /\ (D = [] /\ d = cwd \/ D = dirtext ++ [SLASH] \/ d = [] /\ D = [SLASH])).
Proof.
  intros d n k HN v. pose proof (proj1 (named_app _ _) HN) as [HD Hn]. assert (good n) as GN by (apply Hn; left; reflexivity).
  exists (get_path (d ++ [n]) cwd), (fst (splitext (get_path (d ++ [n]) cwd))), (fst (splitext n)), (snd (splitext n)), (get_path d cwd).
  unfold texts, v. cbn [get_attr text_of]. rewrite nname_snoc, dir_snoc.
  split; [reflexivity|]. split; [reflexivity|]. split; [reflexivity|]. split; [reflexivity|]. split; [reflexivity|]. split; [reflexivity|].
  pose proof (splitext_ordinary n) as SO. split; [apply SO|]. split; [apply ordinary_suffix; [apply GN | exact SO]|]. split; [apply C86a_path; exact HD|]. split.
  - unfold Leads. rewrite walk_file by exact GN. rewrite rev_app_distr. cbn [rev app]. f_equal. rewrite <- (C86a_path d cwd HD). unfold walk.
    rewrite split_on_app, fold_left_app. change (split_on SLASH []) with [@nil ascii]. cbn [fold_left]. rewrite walk_noop by apply not_ord_nil.
    destruct (get_path d cwd) as [|c t] eqn:EP; [exfalso | reflexivity].
    destruct (under_or_not cwd d) as [[r ER] | O]; [|rewrite get_path_outside in EP by exact O; discriminate].
    destruct r as [|m r]; [rewrite app_nil_r in ER; subst d; rewrite get_path_self in EP; discriminate|]. subst d. rewrite get_path_under, join_concat in EP.
    apply named_app in HD as [_ HM]. destruct (HM m (or_introl eq_refl)) as [NM _]. destruct m; [congruence | discriminate].
  - intros NE. destruct (path_split d n cwd HN NE) as [D [EP [HD2 C]]]. rewrite EP. rewrite splitext_app by (try apply GN; exact HD2). cbn [fst].
    split; [rewrite <- app_assoc; f_equal; apply SO|]. exists D. split; [reflexivity | exact C].
Qed.
Lemma windows_split : forall s, ~ In "\"%char s -> split_on "\"%char (to_windows s) = split_on SLASH s.
Proof.
  unfold to_windows. induction s as [|c s IH]; intros NI; [reflexivity|]. cbn [map split_on]. rewrite IH by (intros IN; apply NI; right; exact IN). destruct (Ascii.eqb c SLASH) eqn:E.
  - rewrite Ascii.eqb_refl. reflexivity.
  - assert (Ascii.eqb c "\"%char = false) as ->; [|reflexivity]. apply Ascii.eqb_neq. intros ->. apply NI. left. reflexivity.
Qed.
Theorem C86c_windows : forall p k path, text_of cwd (VNode p k) = Some path -> texts (VNode p k) Posix path /\
  exists w, texts (VNode p k) Windows w /\ texts (VNode p k) Win32 w /\ length w = length path /\ ~ In SLASH w /\ (~ In "\"%char path -> split_on "\"%char w = split_on SLASH path).
Proof.
  intros p k path E. cbn [text_of] in E. injection E as <-. split; [reflexivity|]. exists (to_windows (get_path p cwd)). split; [reflexivity|]. split; [reflexivity|]. split; [apply map_length|].
  split; [|apply windows_split]. unfold to_windows. rewrite in_map_iff. intros [c [EC _]]. destruct (Ascii.eqb c SLASH) eqn:EQ; [discriminate EC|]. subst c. rewrite Ascii.eqb_refl in EQ. discriminate.
Qed.
End Parts.

(* ---- variant directories ---- *)
Lemma srcdir_spec : forall ls d, match srcdir_of ls d with Some s => Linked ls d s | None => Unlinked ls d end.
Proof.
  induction ls as [|[v s] ls IH]; intros d; cbn [srcdir_of]; [intros s []|]. specialize (IH d). destruct (srcdir_of ls d) as [s'|].
  - destruct IH as [a [b [-> H]]]. exists ((v, s) :: a), b. split; [reflexivity | exact H].
  - destruct (same v d) eqn:E.
    + apply same_spec in E. subst v. exists [], ls. split; [reflexivity | exact IH].
    + intros s' [EQ | IN]; [injection EQ as -> _; rewrite same_refl in E; discriminate | exact (IH s' IN)].
Qed.
Lemma linked_is : forall ls v s, Linked ls v s -> srcdir_of ls v = Some s.
Proof.
  intros ls v s [a [b [-> H]]]. induction a as [|[w t] a IH]; cbn [app srcdir_of]; [|rewrite IH; reflexivity].
  pose proof (srcdir_spec b v) as S1. destruct (srcdir_of b v) as [s1|]; [destruct S1 as [x [y [-> _]]]; exfalso; apply (H s1), in_or_app; right; left; reflexivity|]. rewrite same_refl. reflexivity.
Qed.
Lemma unlinked_is : forall ls v, Unlinked ls v -> srcdir_of ls v = None.
Proof. intros ls v H. pose proof (srcdir_spec ls v) as S1. destruct (srcdir_of ls v) as [s|]; [|reflexivity]. destruct S1 as [a [b [-> _]]]. exfalso. apply (H s), in_or_app. right. left. reflexivity. Qed.
Lemma first_found : forall ls v s r fuel below, Linked ls v s -> (forall v' r', v ++ r = v' ++ r' -> length v < length v' -> Unlinked ls v') -> length r <= fuel ->
  first_srcdir fuel ls (v ++ r) below = Some (s ++ r ++ below).
Proof.
  intros ls v s r. induction r as [|n r IH] using rev_ind; intros fuel below HL HU LE.
  - rewrite app_nil_r. destruct fuel; cbn [first_srcdir]; rewrite (linked_is _ _ _ HL); reflexivity.
  - rewrite app_length in LE. cbn [length] in LE. destruct fuel as [|k]; [lia|]. cbn [first_srcdir]. rewrite unlinked_is.
    2: { apply (HU _ []); [symmetry; apply app_nil_r | rewrite !app_length; cbn [length]; lia]. }
    rewrite app_assoc. rewrite dir_snoc, last_snoc. assert (match (v ++ r) ++ [n] with [] => None | _ :: _ => first_srcdir k ls (v ++ r) (n :: below) end = first_srcdir k ls (v ++ r) (n :: below)) as -> by (destruct ((v ++ r) ++ [n]) eqn:Z; [destruct (v ++ r); discriminate | reflexivity]).
    rewrite IH; [rewrite <- app_assoc; reflexivity | exact HL | | lia]. intros v' r' E LT. apply (HU v' (r' ++ [n])); [|exact LT]. rewrite app_assoc, E, <- app_assoc. reflexivity.
Qed.
Lemma first_none : forall ls fuel d below, (forall v r, d = v ++ r -> Unlinked ls v) -> first_srcdir fuel ls d below = None.
Proof.
  intros ls fuel. induction fuel as [|k IH]; intros d below H; cbn [first_srcdir]; rewrite (unlinked_is ls d) by (apply (H d []); symmetry; apply app_nil_r); [reflexivity|].
  destruct d as [|x d0] eqn:ED; [reflexivity|]. rewrite <- ED in *. apply IH. intros v r E. apply (H v (r ++ [last d []])). rewrite app_assoc, <- E. apply app_removelast_last. rewrite ED. discriminate.
Qed.
(* C86d: srcpath is the place in the source directory that the nearest directory with a link is linked to, with the same names from there on; without a link it is the place itself.  srcdir is its directory *)
Theorem C86d_srcpath : forall ls cwd top isdir p,
  let at_ := fun q => get_attr ls cwd top Srcpath (VNode p isdir) = VNode q isdir /\ get_attr ls cwd top Srcdir (VNode p isdir) = VNode (removelast q) true in
  (forall v r s, Above isdir v r p -> Linked ls v s -> (forall v' r', Above isdir v' r' p -> length v < length v' -> Unlinked ls v') -> at_ (s ++ r)) /\
  ((forall v r, Above isdir v r p -> Unlinked ls v) -> isdir = true \/ p <> [] -> at_ p).
Proof.
  intros ls cwd top isdir p at_.
  assert (forall q, srcnode ls isdir p = q -> at_ q) as M by (intros q <-; split; reflexivity). split.
  - intros v r s [-> AB] HL HU. apply M. unfold srcnode. destruct r as [|n r] using rev_ind.
    + destruct AB as [-> | NE]; [|congruence]. rewrite !app_nil_r. rewrite (linked_is _ _ _ HL). reflexivity.
    + clear IHr. assert ((if isdir then srcdir_of ls (v ++ r ++ [n]) else None) = None) as ->.
      { destruct isdir; [|reflexivity]. apply unlinked_is. apply (HU _ []); [split; [symmetry; apply app_nil_r | left; reflexivity] | rewrite !app_length; cbn [length]; lia]. }
      rewrite app_assoc. rewrite dir_snoc, last_snoc. rewrite (first_found ls v s r _ []).
      * destruct ((v ++ r) ++ [n]) eqn:Z; [destruct (v ++ r); discriminate|]. rewrite app_nil_r, app_assoc. reflexivity.
      * exact HL.
      * intros v' r' E LT. apply (HU v' (r' ++ [n])); [|exact LT]. split; [rewrite app_assoc, E, <- app_assoc; reflexivity | right; destruct r'; discriminate].
      * rewrite !app_length. lia.
  - intros H NR. apply M. unfold srcnode. assert ((if isdir then srcdir_of ls p else None) = None) as ->.
    { destruct isdir; [|reflexivity]. apply unlinked_is. apply (H p []). split; [symmetry; apply app_nil_r | left; reflexivity]. }
    destruct p as [|x p0] eqn:EP.
    + destruct NR as [-> | NR]; [|congruence]. cbn [length]. rewrite first_none; [reflexivity|]. intros v r E. apply (H v r). split; [exact E | left; reflexivity].
    + rewrite <- EP in *. rewrite first_none; [reflexivity|]. intros v r E. apply (H v (r ++ [last p []])). split; [|right; destruct r; discriminate].
      rewrite app_assoc, <- E. apply app_removelast_last. rewrite EP. discriminate.
Qed.
