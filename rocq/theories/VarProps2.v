(* C54f-i: saving and loading build variables, and the Bool, Enum and List variables.  Vocabulary in VarSpec.v. *)
From Coq Require Import Ascii String List Bool Permutation Lia Arith.
Import ListNotations.
From Verif Require Import VarModel VarSpec VarProps.
Open Scope string_scope.
Open Scope list_scope.

Section RoundTrip.
Context (expand : venv -> string -> string) (norm : string -> string) (So : subst_ok expand norm).

Lemma setting_some vs e args e' vs' o v : names_distinct (vs_options vs) -> In o (vs_options vs) -> setting (vs_files vs) (given_args vs args) o (Some v) ->
  update expand vs e args = Some (e', vs') -> e' (v_key o) <> None.
Proof.
  intros D Ho Hs H. apply update_inv in H. destruct H as (H & _ & _).
  pose proof (collected_setting vs args o _ D Ho Hs) as C. pose proof (convert_key expand _ _ (proj1 D) _ _ o H Ho) as K. rewrite put_key in K by exact Ho. rewrite C in K.
  destruct (v_conv o); [destruct K as (e1 & w & _ & ->); discriminate | rewrite K; discriminate].
Qed.

(* C54f.  Save and load.  The file written by Save from an environment made by Update, read by Update into the same initial environment (nothing being given on
   the command line), restores every variable, provided that each value survives being converted again, and is the default value if it looks like it
   (see C54g-C54i for variables where this is so). *)
Theorem C54f_save_load : forall vs e args e1 vs1 file vs2 e2 vs2',
  names_distinct (vs_options vs) ->
  update expand vs e args = Some (e1, vs1) -> save expand (vs_options vs) e1 = Some file ->
  vs_options vs2 = vs_options vs -> vs_files vs2 = [file] -> vs_args vs2 = [] -> update expand vs2 e None = Some (e2, vs2') ->
  (forall o d, In o (vs_options vs) -> v_default o = Some d -> plain d /\ no_dollar (str d) = true) ->
  (forall o v, In o (vs_options vs) -> e1 (v_key o) = Some v -> plain v /\ plain (stored v) /\ restorable norm o v /\ default_faithful norm o v) ->
  forall o, In o (vs_options vs) -> match e1 (v_key o), e2 (v_key o) with Some v, Some w => same_value w v | None, None => True | _, _ => False end.
Proof.
  intros vs e args e1 vs1 file vs2 e2 vs2' D U1 Sv Eo Ef Ea U2 Hd Hv o Ho.
  assert (D2 : names_distinct (vs_options vs2)) by (rewrite Eo; exact D). assert (Ho2 : In o (vs_options vs2)) by (rewrite Eo; exact Ho).
  destruct (save_spec expand _ _ _ Sv (proj1 D) o Ho) as (K1 & K2 & K3).
  assert (Na : not_given o (given_args vs2 None)) by (unfold given_args; rewrite Ea; intros a v []).
  assert (Keys : forall a v, In (a, v) file -> name_of o a -> a = v_key o).
  { intros a v Hin Nn. apply K1 in Hin. apply in_map_iff in Hin. destruct Hin as (p & <- & Hp). f_equal. apply (proj2 D p o (v_key p)); auto. left; reflexivity. }
  destruct (e1 (v_key o)) as [v|] eqn:E1.
  - destruct (Hv o v Ho E1) as (P1 & P2 & (w0 & R1 & R2) & Df). destruct K3 as (d' & J1 & J2).
    destruct (String.eqb_spec (subst_val expand e1 v) (str d')) as [Eq|Ne].
    + rewrite (text_subst expand norm) in Eq by assumption.
      assert (Nd : no_dollar (match v_default o with None => "None" | Some d => str d end) = true) by (destruct (v_default o) as [d|] eqn:E; [apply (Hd o d Ho E) | reflexivity]).
      rewrite So in J1 by exact Nd. destruct Df as (d & w & F1 & F2 & F3); [exists d'; auto|].
      pose proof (C54_update_precedence expand norm vs2 e None e2 vs2' o (Some d) So D2 Ho2) as Q.
      destruct Q as (w' & Q1 & Q2); [apply from_default; [exact Na | | exact F1] | intros v0 Q; injection Q as <-; apply (Hd o d Ho F1) | exact U2 |].
      * rewrite Ef. cbn. rewrite app_nil_r. intros a u Hin Nn. rewrite (Keys a u Hin Nn) in Hin. exact (J2 u Hin).
      * rewrite Q2. congruence.
    + pose proof (C54_update_precedence expand norm vs2 e None e2 vs2' o (Some (stored v)) So D2 Ho2) as Q.
      destruct Q as (w' & Q1 & Q2); [apply from_file; [exact Na|] | intros v0 Q; injection Q as <-; exact P2 | exact U2 |].
      * rewrite Ef. cbn. rewrite app_nil_r. apply in_split in J2. destruct J2 as (l1 & l2 & El). exists l1, (v_key o), l2. split; [exact El|]. split; [left; reflexivity|].
        intros a u Hin Nn. assert (X : a = v_key o) by (apply (Keys a u); [rewrite El; apply in_or_app; right; right; exact Hin | exact Nn]). subst a.
        rewrite El, map_app in K2. cbn in K2. apply NoDup_remove_2 in K2. apply K2. apply in_or_app. right. apply (in_map fst) in Hin. exact Hin.
      * rewrite Q2. congruence.
  - assert (N1 : not_given o (concat (vs_files vs2))).
    { rewrite Ef. cbn. rewrite app_nil_r. intros a u Hin Nn. rewrite (Keys a u Hin Nn) in Hin. exact (K3 u Hin). }
    destruct (setting_exists (vs_files vs) (given_args vs args) o) as [[v|] Hs]; [elim (setting_some vs e args e1 vs1 o v D Ho Hs U1); exact E1|].
    pose proof (C54_update_precedence expand norm vs e args e1 vs1 o None So D Ho Hs ltac:(discriminate) U1) as Q1. cbn in Q1.
    assert (Dn : v_default o = None) by (inversion Hs; assumption).
    pose proof (C54_update_precedence expand norm vs2 e None e2 vs2' o None So D2 Ho2 (not_set _ _ _ Na N1 Dn) ltac:(discriminate) U2) as Q2. cbn in Q2. rewrite Q2, <- Q1, E1. exact Logic.I.
Qed.
End RoundTrip.
Print Assumptions C54f_save_load.

(* Specification.  Text without white space is not changed by env.subst(). *)
Definition blank (c : ascii) : bool := match nat_of_ascii c with 9 | 10 | 11 | 12 | 13 | 32 => true | _ => false end.
Fixpoint no_blank (s : string) : bool := match s with EmptyString => true | String c r => negb (blank c) && no_blank r end.
Definition norm_ok (norm : string -> string) : Prop := forall s, no_blank s = true -> norm s = s.

(* C54g.  BoolVariable: the words for true and false, in any case, are accepted and nothing else is; the value is a boolean; it survives saving and loading if the
   variable has a (valid) default. *)
Theorem C54g_bool : forall expand norm vs e args e' vs' k al d o,
  subst_ok expand norm -> norm_ok norm -> names_distinct (vs_options vs) -> o = bool_variable k al d -> In o (vs_options vs) ->
  update expand vs e args = Some (e', vs') ->
  (forall v, setting (vs_files vs) (match args with None => vs_args vs | Some a => a end) o (Some v) -> plain v ->
     match v with
     | VBool b => e' k = Some (VBool b)
     | VStr s => (e' k = Some (VBool true) /\ In (lower (norm s)) TRUE_STRINGS) \/ (e' k = Some (VBool false) /\ In (lower (norm s)) FALSE_STRINGS)
     | VList _ _ => True
     end)
  /\ forall b, restorable norm o (VBool b) /\ (forall s, d = Some (VStr s) -> default_faithful norm o (VBool b)) /\ (forall b', d = Some (VBool b') -> default_faithful norm o (VBool b)).
Proof.
  intros expand norm vs e args e' vs' k al d o So Nm D -> Ho U. split.
  - intros v Hs Hp. destruct (C54_update_precedence expand norm vs e args e' vs' _ (Some v) So D Ho Hs ltac:(intros w Q; injection Q as <-; exact Hp) U) as (w & C & Ew).
    unfold converted in C. cbn [bool_variable v_conv v_subst v_key] in C, Ew. destruct v as [s|b|l a]; [| |exact Logic.I]; cbn [text text2bool] in C.
    + destruct (mem (lower (norm s)) TRUE_STRINGS) eqn:E1; [injection C as <-; left; split; [exact Ew | apply mem_In; exact E1]|].
      destruct (mem (lower (norm s)) FALSE_STRINGS) eqn:E2; [injection C as <-; right; split; [exact Ew | apply mem_In; exact E2] | discriminate].
    + destruct b; cbn in C; injection C as <-; exact Ew.
  - intros b. split; [|split].
    + exists (VBool b). split; [|reflexivity]. destruct b; reflexivity.
    + intros s -> (d' & S1 & S2). unfold saved_default in S1. cbn [bool_variable v_default v_conv str] in S1.
      exists (VStr s), d'. split; [reflexivity|]. split; [exact S1|]. cbn [text2bool] in S1.
      destruct (mem (lower (norm s)) TRUE_STRINGS); [injection S1 as <-|destruct (mem (lower (norm s)) FALSE_STRINGS); [injection S1 as <-|discriminate]]; destruct b; cbn in S2; try discriminate; reflexivity.
    + intros b' -> (d' & S1 & S2). unfold saved_default in S1. cbn [bool_variable v_default v_conv str] in S1.
      exists (VBool b'), d'. split; [reflexivity|]. assert (E : norm (bool_str b') = bool_str b') by (apply Nm; destruct b'; reflexivity). rewrite E in S1.
      split; [exact S1|]. destruct b'; cbn in S1; injection S1 as <-; destruct b; cbn in S2; try discriminate; reflexivity.
Qed.
Print Assumptions C54g_bool.

Lemma lower1_idem a : lower1 (lower1 a) = lower1 a.
Proof. destruct a as [[] [] [] [] [] [] [] []]; reflexivity. Qed.
Lemma lower_idem s : lower (lower s) = lower s.
Proof. induction s as [|a s IH]; [reflexivity|]. cbn. rewrite IH, lower1_idem. reflexivity. Qed.
Lemma mget_none m k d : (forall a b, In (a, b) m -> a <> k) -> mget m k d = d.
Proof.
  intros H. unfold mget. destruct (find _ m) as [[a b]|] eqn:E; [|reflexivity]. apply find_some in E. destruct E as [A B]. apply String.eqb_eq in B. elim (H a b A B).
Qed.

(* C54h.  EnumVariable: if Update returns, the value is one of the allowed ones (with ignorecase, in some case; with ignorecase 2, in lower case).  It survives saving
   and loading if no allowed value is renamed by the map and there is a default. *)
Theorem C54h_enum : forall expand norm vs e args e' vs' k al d allowed m ic o v,
  subst_ok expand norm -> norm_ok norm -> names_distinct (vs_options vs) -> o = enum_variable k al d allowed m ic -> In o (vs_options vs) -> ic <= 2 ->
  setting (vs_files vs) (match args with None => vs_args vs | Some a => a end) o (Some v) -> plain v ->
  update expand vs e args = Some (e', vs') -> (forall x, In x allowed -> no_blank x = true) ->
  exists s, e' k = Some (VStr s)
    /\ (no_dollar s = true -> In (match ic with 0 => norm s | _ => lower (norm s) end) allowed)
    /\ (ic = 2 -> lower s = s)
    /\ (no_blank s = true -> In (match ic with 0 => s | _ => lower s end) allowed -> (forall a b, In (a, b) m -> ~ In a allowed) ->
        restorable norm o (VStr s) /\ forall ds, d = Some (VStr ds) -> default_faithful norm o (VStr s)).
Proof.
  intros expand norm vs e args e' vs' k al d allowed m ic o v So Nm D -> Ho Hic Hs Hp U Hb.
  destruct (C54_update_precedence expand norm vs e args e' vs' _ (Some v) So D Ho Hs ltac:(intros w Q; injection Q as <-; exact Hp) U) as (w & C & Ew).
  unfold converted in C. cbn [enum_variable v_conv v_subst v_key] in C, Ew. cbn [enum_conv] in C. injection C as C.
  destruct w as [s|b|l a]; try discriminate. injection C as C. exists s. split; [exact Ew|].
  assert (L2 : ic = 2 -> lower s = s) by (intros ->; rewrite <- C; apply lower_idem). split; [|split; [exact L2|]].
  - intros Nd. pose proof (C54e_validated expand norm vs e args e' vs' _ v (enum_valid allowed ic) (VStr s) So D Ho Hs U eq_refl Ew Nd) as V.
    cbn [enum_variable v_subst] in V. cbn [enum_valid] in V. apply mem_In in V. destruct ic; exact V.
  - intros Nb Hin Hm.
    assert (R : enum_conv m ic (VStr s) = Some (VStr s)).
    { cbn [enum_conv]. f_equal. f_equal. destruct ic as [|[|[|ic]]]; [| | |lia].
      - apply mget_none. intros a b Hab ->. exact (Hm _ _ Hab Hin).
      - apply mget_none. intros a b Hab ->. exact (Hm _ _ Hab Hin).
      - rewrite mget_none; [apply L2; reflexivity|]. intros a b Hab ->. exact (Hm _ _ Hab Hin). }
    split.
    + exists (VStr s). split; [|reflexivity]. unfold converted. cbn [stored enum_variable v_conv v_subst text]. rewrite Nm by exact Nb. exact R.
    + intros ds -> (d' & S1 & S2). unfold saved_default in S1. cbn [enum_variable v_default v_conv str] in S1. cbn [text] in S2. rewrite Nm in S2 by exact Nb.
      exists (VStr ds), d'. split; [reflexivity|]. split; [exact S1|]. cbn [enum_conv] in S1. injection S1 as <-. cbn [str] in S2. cbn [same_value]. congruence.
Qed.
Print Assumptions C54h_enum.

(* --- list variables --- *)
Lemma insert_perm x l : Permutation (insert x l) (x :: l).
Proof.
  induction l as [|y l IH]; [reflexivity|]. cbn. destruct (String.compare x y); try reflexivity.
  rewrite IH. apply perm_swap.
Qed.
Lemma sort_perm l : Permutation (sort l) l.
Proof. induction l as [|x l IH]; [reflexivity|]. cbn. rewrite insert_perm. constructor. exact IH. Qed.
Lemma list_eqb_eq a : forall b, list_eqb a b = true -> a = b.
Proof. induction a as [|x a IH]; intros [|y b] H; try discriminate; [reflexivity|]. cbn in H. apply andb_true_iff in H. destruct H as [H1 H2]. apply String.eqb_eq in H1. f_equal; auto. Qed.

(* Specification: c does not occur in s *)
Fixpoint without (c : ascii) (s : string) : bool := match s with EmptyString => true | String a r => negb (Ascii.eqb a c) && without c r end.
Lemma split_without c s : without c s = true -> split_on c s = [s].
Proof. induction s as [|a s IH]; [reflexivity|]. cbn. intros H. apply andb_true_iff in H. destruct H as [H1 H2]. destruct (Ascii.eqb a c); [discriminate|]. rewrite IH by exact H2. reflexivity. Qed.
Lemma split_app c s t : without c s = true -> split_on c (s ++ String c t)%string = s :: split_on c t.
Proof.
  induction s as [|a s IH]; cbn; intros H; [rewrite Ascii.eqb_refl; reflexivity|]. apply andb_true_iff in H. destruct H as [H1 H2]. destruct (Ascii.eqb a c); [discriminate|].
  rewrite IH by exact H2. reflexivity.
Qed.
Lemma split_join c l : l <> [] -> (forall x, In x l -> without c x = true) -> split_on c (join (String c "") l) = l.
Proof.
  induction l as [|x l IH]; [congruence|]. intros _ H. destruct l as [|y l]; [cbn; apply split_without, H; left; reflexivity|].
  change (join (String c "") (x :: y :: l)) with (x ++ String c (join (String c "") (y :: l)))%string.
  rewrite split_app by (apply H; left; reflexivity). f_equal. apply IH; [discriminate | intros z Hz; apply H; right; exact Hz].
Qed.
Lemma without_app c s t : without c (s ++ t)%string = without c s && without c t.
Proof. induction s as [|a s IH]; [reflexivity|]. cbn. rewrite IH. apply andb_assoc. Qed.
Lemma join_without c sep l : without c sep = true -> (forall x, In x l -> without c x = true) -> without c (join sep l) = true.
Proof.
  intros Hs. induction l as [|x l IH]; [reflexivity|]. intros H. destruct l as [|y l]; [apply H; left; reflexivity|].
  change (join sep (x :: y :: l)) with (x ++ (sep ++ join sep (y :: l)))%string. rewrite !without_app, Hs, (H x), IH; [reflexivity | | left; reflexivity]. intros z Hz. apply H. right. exact Hz.
Qed.
Lemma join_has c x y l : without c (join (String c "") (x :: y :: l)) = false.
Proof.
  change (join (String c "") (x :: y :: l)) with (x ++ String c (join (String c "") (y :: l)))%string. rewrite without_app. cbn [without]. rewrite Ascii.eqb_refl. cbn. apply andb_false_r.
Qed.
Lemma filter_all {A} (f : A -> bool) l : (forall x, In x l -> f x = true) -> filter f l = l.
Proof. induction l as [|x l IH]; [reflexivity|]. intros H. cbn. rewrite (H x) by (left; reflexivity). f_equal. apply IH. intros y Hy. apply H. right. exact Hy. Qed.
Lemma mget_names m names l : (forall x, In x l -> In x names) -> (forall a b, In (a, b) m -> ~ In a names) -> map (fun x => mget m x x) l = l.
Proof.
  intros Hl Hm. induction l as [|x l IH]; [reflexivity|]. cbn. rewrite IH by (intros y Hy; apply Hl; right; exact Hy). f_equal. apply mget_none. intros a b Hab ->.
  apply (Hm x b Hab). apply Hl. left. reflexivity.
Qed.

(* Specification.  Names that can be told apart when written with commas: not empty, without comma or white space, not one of the two words with a meaning of their own. *)
Definition good_name (x : string) : Prop := x <> "" /\ without comma x = true /\ no_blank x = true /\ x <> "all" /\ x <> "none".
(* words separated by one blank are not changed by env.subst() *)
Definition norm_words (norm : string -> string) : Prop := forall l, (forall x, In x l -> x <> "" /\ no_blank x = true) -> norm (join " " l) = join " " l.
(* what the text given for a list variable stands for *)
Inductive list_denotes (names : list string) (m : list (string * string)) : string -> list string -> Prop :=
  | ld_none : list_denotes names m "none" []
  | ld_all : list_denotes names m "all" (filter nonempty names)
  | ld_words s ws : s <> "none" -> s <> "all" -> ws = split_on comma s -> list_denotes names m s (filter nonempty (map (fun w => mget m w w) (filter nonempty ws))).

Lemma no_blank_app s t : no_blank (s ++ t)%string = no_blank s && no_blank t.
Proof. induction s as [|a s IH]; [reflexivity|]. cbn. rewrite IH. apply andb_assoc. Qed.
Lemma no_blank_join l : (forall x, In x l -> no_blank x = true) -> no_blank (join "," l) = true.
Proof.
  induction l as [|x l IH]; [reflexivity|]. intros H. destruct l as [|y l]; [apply H; left; reflexivity|].
  change (join "," (x :: y :: l)) with (x ++ ("," ++ join "," (y :: l)))%string. rewrite !no_blank_app, (H x), IH; [reflexivity | | left; reflexivity]. intros z Hz. apply H. right. exact Hz.
Qed.
Lemma no_blank_list_str data a : (forall x, In x data -> no_blank x = true) -> no_blank (list_str data a) = true.
Proof.
  intros H. unfold list_str. destruct data as [|x l]; [reflexivity|]. destruct (list_eqb _ _); [reflexivity|]. apply no_blank_join. intros z Hz. apply H.
  apply (Permutation_in _ (sort_perm (x :: l))). exact Hz.
Qed.
Lemma nonempty_true x : x <> "" -> nonempty x = true.
Proof. intros H. unfold nonempty. destruct (String.eqb_spec x ""); [contradiction | reflexivity]. Qed.

(* writing the list and converting it again *)
Lemma list_round names m data : (forall x, In x names -> good_name x) -> (forall a b, In (a, b) m -> ~ In a names) -> (forall x, In x data -> In x names) ->
  exists data', list_conv names m (VStr (list_str data (sort names))) = Some (VList data' (sort names)) /\ Permutation data' data.
Proof.
  intros Hg Hm Hd. unfold list_str. destruct data as [|x l].
  - exists []. split; reflexivity.
  - destruct (list_eqb (sort (x :: l)) (sort (sort names))) eqn:E.
    + exists (filter nonempty names). split; [reflexivity|]. rewrite filter_all by (intros z Hz; apply nonempty_true, (Hg z Hz)). apply list_eqb_eq in E.
      rewrite <- (sort_perm (x :: l)), E, (sort_perm (sort names)), (sort_perm names). reflexivity.
    + set (s := sort (x :: l)) in *. assert (Ps : Permutation s (x :: l)) by apply sort_perm.
      assert (Hs : forall z, In z s -> In z names) by (intros z Hz; apply Hd; apply (Permutation_in _ Ps); exact Hz).
      assert (Ns : s <> []) by (intros X; rewrite X in Ps; apply Permutation_nil in Ps; discriminate).
      assert (Sp : split_on comma (join "," s) = s) by (apply split_join; [exact Ns | intros z Hz; apply (Hg z (Hs z Hz))]).
      assert (N1 : forall w, without comma w = true -> (forall z, In z names -> z <> w) -> String.eqb (join "," s) w = false).
      { intros w Hw Hz. destruct (String.eqb_spec (join "," s) w) as [Eq|]; [|reflexivity]. exfalso. rewrite Eq, split_without in Sp by exact Hw. apply (Hz w); [|reflexivity]. apply Hs. rewrite <- Sp. left. reflexivity. }
      exists s. split; [|exact Ps]. cbn [list_conv]. rewrite (N1 "none") by (try reflexivity; intros z Hz; apply (Hg z Hz)). rewrite (N1 "all") by (try reflexivity; intros z Hz; apply (Hg z Hz)).
      rewrite Sp. assert (Fs : filter nonempty s = s) by (apply filter_all; intros z Hz; apply nonempty_true, (Hg z (Hs z Hz))). unfold mk_list.
      rewrite Fs, (mget_names m names) by assumption. rewrite Fs. reflexivity.
Qed.

Lemma list_conv_denotes names m s w : list_conv names m (VStr s) = Some w -> exists data, w = VList data (sort names) /\ list_denotes names m s data.
Proof.
  cbn [list_conv]. intros H. injection H as <-. unfold mk_list. destruct (String.eqb_spec s "none") as [->|N1]; [exists []; split; [reflexivity | constructor]|].
  destruct (String.eqb_spec s "all") as [->|N2]; [exists (filter nonempty names); split; [reflexivity | constructor]|].
  eexists. split; [reflexivity|]. apply ld_words; auto.
Qed.

(* C54i.  ListVariable: the value is the list the text stands for, and all its elements are allowed names.  It survives saving and loading (up to the order of its elements)
   if names can be told apart and none of them is renamed by the map, and there is a valid default. *)
Theorem C54i_list : forall expand norm vs e args e' vs' k al d names m o v,
  subst_ok expand norm -> norm_words norm -> names_distinct (vs_options vs) -> o = list_variable k al d names m -> In o (vs_options vs) ->
  setting (vs_files vs) (match args with None => vs_args vs | Some a => a end) o (Some v) -> plain v ->
  update expand vs e args = Some (e', vs') ->
  exists data, e' k = Some (VList data (sort names))
    /\ list_denotes names m (text norm v) data
    /\ (forall x, In x data -> no_dollar (join " " data) = true -> In x names)
    /\ ((forall x, In x names -> good_name x) -> (forall a b, In (a, b) m -> ~ In a names) -> (forall x, In x data -> In x names) ->
        restorable norm o (VList data (sort names))
        /\ forall ds, d = Some (VStr ds) -> (forall dd x, list_denotes names m (norm ds) dd -> In x dd -> In x names) -> default_faithful norm o (VList data (sort names))).
Proof.
  intros expand norm vs e args e' vs' k al d names m o v So Nm D -> Ho Hs Hp U.
  destruct (C54_update_precedence expand norm vs e args e' vs' _ (Some v) So D Ho Hs ltac:(intros w Q; injection Q as <-; exact Hp) U) as (w & C & Ew).
  unfold converted in C. cbn [list_variable v_conv v_subst v_key] in C, Ew. apply list_conv_denotes in C. destruct C as (data & -> & Hden).
  assert (Nb : norm_ok norm).
  { intros s Hb. destruct (String.eqb_spec s "") as [->|N]; [apply (Nm []); intros x [] | apply (Nm [s]); intros x [<-|[]]; auto]. }
  exists data. split; [exact Ew|]. split; [exact Hden|]. split.
  - intros x Hx Hn. pose proof (C54e_validated expand norm vs e args e' vs' _ v list_valid (VList data (sort names)) So D Ho Hs U eq_refl Ew Hn) as V.
    cbn [list_variable v_subst list_valid] in V. rewrite forallb_forall in V. apply V in Hx. apply mem_In in Hx. apply (Permutation_in _ (sort_perm names)). exact Hx.
  - intros Hg Hm Hd. split.
    + destruct (list_round names m data Hg Hm Hd) as (data' & R1 & R2). exists (VList data' (sort names)). split; [|split; [exact R2 | reflexivity]].
      unfold converted. cbn [stored list_variable v_conv v_subst text]. rewrite Nb by (apply no_blank_list_str; intros x Hx; apply (Hg x (Hd x Hx))). exact R1.
    + intros ds -> Hok (d' & S1 & S2). unfold saved_default in S1. cbn [list_variable v_default v_conv str] in S1. exists (VStr ds), d'. split; [reflexivity|]. split; [exact S1|].
      apply list_conv_denotes in S1. destruct S1 as (dd & -> & Hdd). specialize (fun x => Hok dd x Hdd). cbn [text str] in S2. cbn [same_value]. split; [|reflexivity].
      rewrite Nm in S2 by (intros x Hx; destruct (Hg x (Hd x Hx)) as (G1 & _ & G2 & _); split; assumption).
      assert (Wc : without comma (join " " data) = true) by (apply join_without; [reflexivity | intros x Hx; apply (Hg x (Hd x Hx))]).
      assert (Ww : forall w, no_blank w = true -> w <> "" -> join " " data = w -> data = [w]).
      { intros w B1 B2 B3. destruct data as [|x [|y l]]; [elim B2; symmetry; exact B3 | cbn in B3; subst; reflexivity |]. exfalso.
        change (join " " (x :: y :: l)) with (x ++ (" " ++ join " " (y :: l)))%string in B3. rewrite <- B3, !no_blank_app in B1. cbn in B1. rewrite andb_false_r in B1. discriminate. }
      unfold list_str in S2. destruct dd as [|x l].
      * apply Ww in S2; [|reflexivity|discriminate]. exfalso. subst data. destruct (Hg "none") as (_ & _ & _ & _ & G); [apply Hd; left; reflexivity | congruence].
      * destruct (list_eqb _ _).
        -- apply Ww in S2; [|reflexivity|discriminate]. exfalso. subst data. destruct (Hg "all") as (_ & _ & _ & G & _); [apply Hd; left; reflexivity | congruence].
        -- pose proof (sort_perm (x :: l)) as Ps. set (s := sort (x :: l)) in *. destruct s as [|y [|z r]].
           ++ apply Permutation_nil in Ps. discriminate.
           ++ apply Permutation_length_1_inv in Ps. rewrite Ps in *. cbn [join] in S2. destruct (Hg y (Hok y (or_introl eq_refl))) as (G1 & _ & G2 & _).
              rewrite (Ww y G2 G1 S2). reflexivity.
           ++ exfalso. rewrite S2 in Wc. unfold comma in Wc. rewrite join_has in Wc. discriminate.
Qed.
Print Assumptions C54i_list.

(* --- witnesses and exceptions --- *)
Definition xexp (e : venv) (s : string) : string := s.
Definition xdebug := bool_variable "DEBUG" ["debug"] (Some (VBool false)).
Definition xopt := enum_variable "OPT" [] (Some (VStr "speed")) ["speed"; "size"] [("fast", "speed")] 2.
Definition xlibs := list_variable "LIBS" ["libs"; "l"] (Some (VStr "all")) ["x11"; "gl"; "qt"] [("opengl", "gl")].
Definition xvs := {| vs_options := [xdebug; xopt; xlibs]; vs_files := [[("debug", VStr "no"); ("OPT", VStr "FAST")]; [("l", VStr "qt,opengl")]]; vs_args := [("DEBUG", VStr "Yes"); ("foo", VStr "1")];
  vs_unknown := fun _ => None; vs_defaulted := [] |}.
Definition xvals (e : venv) := (e "DEBUG", e "OPT", e "LIBS", e "foo", e "CC").
Definition xe0 : venv := fun k => if String.eqb k "CC" then Some (VStr "gcc") else None.
(* the hypotheses of C54, C54b-C54f are met; DEBUG comes from the command line (before the file), OPT and LIBS from files, foo is unknown *)
Example C54_witness :
  subst_ok xexp (fun s => s) /\ norm_words (fun s => s) /\ names_distinct (vs_options xvs)
  /\ match update xexp xvs xe0 None with
     | Some (e1, vs1) =>
         xvals e1 = (Some (VBool true), Some (VStr "speed"), Some (VList ["qt"; "gl"] ["gl"; "qt"; "x11"]), None, Some (VStr "gcc"))
         /\ vs_unknown vs1 "foo" = Some (VStr "1") /\ vs_defaulted vs1 = []
         /\ match save xexp (vs_options xvs) e1 with
            | Some file => file = [("DEBUG", VBool true); ("LIBS", VStr "gl,qt")]
                /\ match update xexp {| vs_options := vs_options xvs; vs_files := [file]; vs_args := []; vs_unknown := fun _ => None; vs_defaulted := [] |} xe0 None with
                   | Some (e2, vs2) => xvals e2 = (Some (VBool true), Some (VStr "speed"), Some (VList ["gl"; "qt"] ["gl"; "qt"; "x11"]), None, Some (VStr "gcc")) /\ vs_defaulted vs2 = ["OPT"]
                   | None => False
                   end
            | None => False
            end
     | None => False
     end.
Proof.
  split; [intros e s _; reflexivity|]. split; [intros l _; reflexivity|]. split.
  - split; [repeat constructor; cbn; intuition discriminate|]. intros o o' a H1 H2 H3 H4. cbn in H1, H2.
    destruct H1 as [<-|[<-|[<-|[]]]]; destruct H2 as [<-|[<-|[<-|[]]]]; try reflexivity; exfalso; unfold name_of in H3, H4; cbn in H3, H4; intuition (subst; discriminate).
  - vm_compute. repeat split.
Qed.
(* an argument that is not allowed makes Update fail *)
Example C54_witness_invalid : update xexp xvs xe0 (Some [("OPT", VStr "tiny")]) = None /\ update xexp xvs xe0 (Some [("DEBUG", VStr "maybe")]) = None
  /\ update xexp xvs xe0 (Some [("libs", VStr "qt,motif")]) = None.
Proof. repeat split. Qed.

(* Finding: a BoolVariable without default that is set to False is not saved (the default None becomes the text "None", which counts as false), and is not set after loading. *)
Theorem C54_bool_none_refuted : exists vs e1 vs1 vs2 e2 vs2',
  vs_options vs = [bool_variable "DEBUG" [] None] /\ vs_options vs2 = vs_options vs /\ vs_args vs = [("DEBUG", VStr "no")] /\ vs_args vs2 = []
  /\ update xexp vs (fun _ => None) None = Some (e1, vs1) /\ save xexp (vs_options vs) e1 = Some [] /\ vs_files vs2 = [[]]
  /\ update xexp vs2 (fun _ => None) None = Some (e2, vs2') /\ e1 "DEBUG" = Some (VBool false) /\ e2 "DEBUG" = None.
Proof.
  set (o := bool_variable "DEBUG" [] None).
  exists {| vs_options := [o]; vs_files := []; vs_args := [("DEBUG", VStr "no")]; vs_unknown := fun _ => None; vs_defaulted := [] |}. eexists. eexists.
  exists {| vs_options := [o]; vs_files := [[]]; vs_args := []; vs_unknown := fun _ => None; vs_defaulted := [] |}. eexists. eexists.
  repeat (split; [first [reflexivity | vm_compute; reflexivity]|]). vm_compute. reflexivity.
Qed.
Print Assumptions C54_bool_none_refuted.

(* Finding: contrary to the docstring of Save, a list variable that has its default value is saved if the default has several elements: env.subst() joins them with blanks, str() with commas. *)
Theorem C54_list_default_refuted : exists o e1 vs1 file, let vs := {| vs_options := [o]; vs_files := []; vs_args := []; vs_unknown := fun _ => None; vs_defaulted := [] |} in
  v_default o = Some (VStr "gl,qt") /\ update xexp vs (fun _ => None) None = Some (e1, vs1) /\ vs_defaulted vs1 = ["LIBS"]
  /\ save xexp [o] e1 = Some file /\ file = [("LIBS", VStr "gl,qt")].
Proof.
  exists (list_variable "LIBS" [] (Some (VStr "gl,qt")) ["x11"; "gl"; "qt"] []). eexists. eexists. eexists. cbn zeta.
  repeat (split; [vm_compute; reflexivity|]). reflexivity.
Qed.
Print Assumptions C54_list_default_refuted.

(* Finding: Save raises an exception if the default cannot be converted ("a must-specify variable"), although the variable has a valid value. *)
Theorem C54_save_raises_refuted : exists o e1 vs1, let vs := {| vs_options := [o]; vs_files := []; vs_args := [("DEBUG", VStr "yes")]; vs_unknown := fun _ => None; vs_defaulted := [] |} in
  update xexp vs (fun _ => None) None = Some (e1, vs1) /\ e1 "DEBUG" = Some (VBool true) /\ save xexp [o] e1 = None.
Proof.
  exists (bool_variable "DEBUG" [] (Some (VStr "must-be-given"))). eexists. eexists. cbn zeta. repeat (split; [vm_compute; reflexivity|]). vm_compute. reflexivity.
Qed.
Print Assumptions C54_save_raises_refuted.

(* C54j.  Declaring a variable after Update: none of its names is reported as unknown any more, all others stay as they were. *)
Theorem C54j_add : forall isident o vs vs', add isident o vs = Some vs' ->
  vs_options vs' = vs_options vs ++ [o] /\ (forall a, name_of o a -> vs_unknown vs' a = None) /\ (forall a, ~ name_of o a -> vs_unknown vs' a = vs_unknown vs a)
  /\ vs_defaulted vs' = vs_defaulted vs.
Proof.
  intros isident o vs vs' H. unfold add in H. destruct (isident (v_key o)); [|discriminate]. injection H as <-. cbn [vs_options vs_unknown vs_defaulted].
  split; [reflexivity|]. split; [|split; [|reflexivity]].
  - intros a Ha. apply matches_name in Ha. rewrite Ha. reflexivity.
  - intros a Ha. destruct (matches a o) eqn:E; [apply matches_name in E; contradiction | reflexivity].
Qed.
Print Assumptions C54j_add.

Section Accepts.
Context (expand : venv -> string -> string) (norm : string -> string) (So : subst_ok expand norm).
Lemma convert_progress os vals : NoDup (map v_key os) -> forall e,
  (forall o v, In o os -> vals (v_key o) = Some v -> e (v_key o) = Some v) ->
  (forall o v, In o os -> vals (v_key o) = Some v -> plain v /\ converted norm o v <> None) -> exists e', convert expand os vals e = Some e'.
Proof.
  induction os as [|o os IH]; intros Nd e H1 H2; [eexists; reflexivity|]. cbn in Nd. inversion Nd as [|z zs Nz Nd' E]; subst. cbn [convert].
  assert (Rest : forall e', (forall k, k <> v_key o -> e' k = e k) -> exists e2, convert expand os vals e' = Some e2).
  { intros e' He. apply IH; [exact Nd' | | intros p v Hp; apply H2; right; exact Hp]. intros p v Hp Hv. rewrite He; [apply H1; [right; exact Hp | exact Hv]|].
    intros X. apply Nz. rewrite <- X. apply in_map. exact Hp. }
  destruct (v_conv o) as [f|] eqn:Ec; [|apply Rest; reflexivity]. destruct (vals (v_key o)) as [v|] eqn:Ev; [|apply Rest; reflexivity].
  rewrite (H1 o v (or_introl eq_refl) Ev). destruct (H2 o v (or_introl eq_refl) Ev) as [P C]. unfold converted in C. rewrite Ec in C.
  rewrite (text_subst expand norm) by assumption. destruct (f _) as [w|]; [|congruence]. apply Rest. intros k Hk. apply vset_other. exact Hk.
Qed.

(* C54k.  Update returns if every converter and every validator accepts. *)
Theorem C54k_accepts : forall vs e args,
  names_distinct (vs_options vs) ->
  (forall o v, In o (vs_options vs) -> setting (vs_files vs) (match args with None => vs_args vs | Some a => a end) o (Some v) ->
     plain v /\ exists w, converted norm o v = Some w /\ plain w
       /\ forall f e', v_valid o = Some f -> e' (v_key o) = Some w -> f (v_key o) (if v_subst o then match w with VStr s => VStr (norm s) | _ => w end else w) e' = true) ->
  exists e' vs', update expand vs e args = Some (e', vs').
Proof.
  intros vs e args D H. unfold update. rewrite assigns_concat. fold (given_args vs args). change (fold_left (assign1 (vs_options vs)) (given_args vs args)) with (assigns (vs_options vs) (given_args vs args)).
  unfold given_args. fold (collected vs args). assert (Hc : forall o v, In o (vs_options vs) -> u_values (collected vs args) (v_key o) = Some v -> setting (vs_files vs) (given_args vs args) o (Some v)).
  { intros o v Ho Hv. destruct (setting_exists (vs_files vs) (given_args vs args) o) as [r Hs]. rewrite (collected_setting vs args o r D Ho Hs) in Hv. subst r. exact Hs. }
  destruct (convert_progress (vs_options vs) (u_values (collected vs args)) (proj1 D) (put_values (vs_options vs) (u_values (collected vs args)) e)) as [e1 E1].
  - intros o v Ho Hv. rewrite put_key by exact Ho. rewrite Hv. reflexivity.
  - intros o v Ho Hv. destruct (H o v Ho (Hc o v Ho Hv)) as (P & w & C & _). split; [exact P | congruence].
  - match goal with |- context [convert expand ?o ?v ?x] => change (convert expand o v x) with (convert expand (vs_options vs) (u_values (collected vs args)) (put_values (vs_options vs) (u_values (collected vs args)) e)) end.
    rewrite E1. match goal with |- context [validate expand ?o ?v ?x] => change (validate expand o v x) with (validate expand (vs_options vs) (u_values (collected vs args)) e1) end. assert (V : validate expand (vs_options vs) (u_values (collected vs args)) e1 = true); [|rewrite V; eauto].
    unfold validate. apply forallb_forall. intros o Ho. destruct (v_valid o) as [f|] eqn:Ef; [|reflexivity]. destruct (u_values (collected vs args) (v_key o)) as [v|] eqn:Ev; [|reflexivity].
    destruct (e1 (v_key o)) as [x|] eqn:Ex; [|reflexivity]. destruct (H o v Ho (Hc o v Ho Ev)) as (P & w & C & Pw & Hf).
    pose proof (convert_key expand _ _ (proj1 D) _ _ o E1 Ho) as K. rewrite put_key in K by exact Ho. rewrite Ev in K.
    assert (X : x = w).
    { unfold converted in C. destruct (v_conv o) as [g|]; [|congruence]. destruct K as (e2 & y & K1 & K2). rewrite (text_subst expand norm) in K1 by assumption. congruence. }
    subst x. specialize (Hf f e1 Ef Ex). destruct (v_subst o); [|exact Hf]. destruct w as [s|b|d a]; try exact Hf. cbn [subst_val]. rewrite So by exact Pw. exact Hf.
Qed.
End Accepts.
Print Assumptions C54k_accepts.
