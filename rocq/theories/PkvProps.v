(* Package and path variables. *)
From Coq Require Import Ascii String List Bool Permutation Lia Arith.
Import ListNotations.
From Verif Require Import VarModel VarSpec VarProps VarProps2 PkvModel PkvSpec.
Open Scope string_scope.
Open Scope list_scope.

Lemma enabling_spec : forall t, mem (lower t) PkvModel.ENABLE_STRINGS = true <-> Enabling t.
Proof. intros t. apply mem_In. Qed.
Lemma disabling_spec : forall t, mem (lower t) PkvModel.DISABLE_STRINGS = true <-> Disabling t.
Proof. intros t. apply mem_In. Qed.
Lemma word_spec : forall s, default_is_word (VStr s) = true <-> Word s.
Proof. intros s. cbn [default_is_word]. rewrite mem_In. reflexivity. Qed.
Lemma not_both : forall t, Enabling t -> Disabling t -> False.
Proof. unfold Enabling, Disabling. intros t E D. generalize dependent (lower t). intros s E D. cbn [In] in E, D. repeat (destruct E as [<- | E]; [repeat (destruct D as [D | D]; [discriminate D|]); exact D|]). exact E. Qed.
Lemma conv_spec : forall d t w, package_conv (VStr d) (VStr t) = Some w <-> PackageValue d t w.
Proof.
  intros d t w. cbn [package_conv]. destruct (mem (lower t) PkvModel.DISABLE_STRINGS) eqn:D.
  - apply disabling_spec in D. split; [intros E; injection E as <-; apply disabled; exact D|]. intros H. destruct H as [_ | E _ | E _ | _ N]; [reflexivity | exfalso; exact (not_both t E D) | exfalso; exact (not_both t E D) | exfalso; exact (N D)].
  - assert (~ Disabling t) as ND by (intros X; apply disabling_spec in X; congruence). destruct (mem (lower t) PkvModel.ENABLE_STRINGS) eqn:E.
    + apply enabling_spec in E. destruct (default_is_word (VStr d)) eqn:W.
      * apply word_spec in W. split; [intros X; injection X as <-; apply enabled; assumption|]. intros H. destruct H as [X | _ _ | _ N | N _]; [exfalso; exact (ND X) | reflexivity | exfalso; exact (N W) | exfalso; exact (N E)].
      * assert (~ Word d) as NW by (intros X; apply word_spec in X; congruence). split; [intros X; injection X as <-; apply the_default; assumption|]. intros H. destruct H as [X | _ X | _ _ | N _]; [exfalso; exact (ND X) | exfalso; exact (NW X) | reflexivity | exfalso; exact (N E)].
    + assert (~ Enabling t) as NE by (intros X; apply enabling_spec in X; congruence). split; [intros X; injection X as <-; apply a_path; assumption|]. intros H. destruct H as [X | X _ | X _ | _ _]; [exfalso; exact (ND X) | exfalso; exact (NE X) | exfalso; exact (NE X) | reflexivity].
Qed.
Lemma value_total : forall d t, exists w, PackageValue d t w.
Proof.
  intros d t. assert (exists w, package_conv (VStr d) (VStr t) = Some w) as [w H]. { cbn [package_conv]. destruct (mem _ _); [eexists; reflexivity|]. destruct (mem _ _); [destruct (default_is_word _); eexists; reflexivity | eexists; reflexivity]. }
  exists w. apply conv_spec. exact H.
Qed.

Section Update.
Context (expand : venv -> string -> string) (norm : string -> string) (So : subst_ok expand norm) (St : norm_stable norm).
Variables (isdir isfile exists_ : string -> bool).
Notation package_variable := (package_variable exists_).
Notation path_variable := (path_variable isdir isfile exists_).

Lemma text_plain : forall v, plain v -> no_dollar (text norm v) = true.
Proof. intros [s|b|l a] P; cbn [text plain] in *; [apply St; exact P | destruct b; reflexivity | apply St; exact P]. Qed.
Lemma value_plain : forall d t w, no_dollar d = true -> no_dollar t = true -> PackageValue d t w -> plain w.
Proof. intros d t w Hd Ht H. destruct H; cbn [plain]; [exact Logic.I | exact Logic.I | exact Hd | exact Ht]. Qed.
Lemma valid_spec : forall k w e, e k = Some w -> (forall l a, w <> VList l a) ->
  (package_valid exists_ k (match w with VStr s => VStr (norm s) | _ => w end) e = true <-> Acceptable exists_ norm w).
Proof.
  intros k [s|[]|l a] e E NL; unfold package_valid; rewrite E; cbn [truthy Acceptable]; [|split; [intros _; exact Logic.I | reflexivity] | split; [intros _; exact Logic.I | reflexivity] | exfalso; exact (NL l a eq_refl)].
  destruct (String.eqb_spec s "") as [-> | N]; cbn [negb]; [split; [intros _; left; reflexivity | reflexivity]|]. split; [intros H; right; exact H | intros [H | H]; [contradiction | exact H]].
Qed.
Lemma value_no_list : forall d t w, PackageValue d t w -> forall l a, w <> VList l a.
Proof. intros d t w H l a E. destruct H; discriminate E. Qed.

(* C90a: after Update the variable is False for a disabling word, True or the default for an enabling one, and otherwise the path given; a path exists *)
Theorem C90a_package : forall vs e args e' vs' k al d v,
  names_distinct (vs_options vs) -> In (package_variable k al (VStr d)) (vs_options vs) -> no_dollar d = true ->
  setting (vs_files vs) (match args with None => vs_args vs | Some a => a end) (package_variable k al (VStr d)) (Some v) -> plain v ->
  update expand vs e args = Some (e', vs') ->
  exists w, e' k = Some w /\ PackageValue d (text norm v) w /\ Acceptable exists_ norm w.
Proof.
  intros vs e args e' vs' k al d v D Ho Hd Hs Hp U.
  destruct (C54_update_precedence expand norm vs e args e' vs' _ (Some v) So D Ho Hs ltac:(intros w Q; injection Q as <-; exact Hp) U) as (w & C & Ew).
  unfold converted in C. cbn [PkvModel.package_variable v_conv v_subst v_key] in C, Ew. apply (proj1 (conv_spec _ _ _)) in C. exists w. split; [exact Ew|]. split; [exact C|].
  pose proof (C54e_validated expand norm vs e args e' vs' _ v _ w So D Ho Hs U eq_refl Ew (value_plain _ _ _ Hd (text_plain v Hp) C)) as V.
  exact (proj1 (valid_spec _ _ _ Ew (value_no_list _ _ _ C)) V).
Qed.

Lemma update_eq : forall vs e args, update expand vs e args =
  match convert expand (vs_options vs) (u_values (collected vs args)) (put_values (vs_options vs) (u_values (collected vs args)) e) with
  | Some e' => if validate expand (vs_options vs) (u_values (collected vs args)) e' then Some (e', {| vs_options := vs_options vs; vs_files := vs_files vs; vs_args := vs_args vs; vs_unknown := u_unknown (collected vs args); vs_defaulted := u_defaulted (collected vs args) |}) else None
  | None => None
  end.
Proof. intros vs e args. unfold update. rewrite assigns_concat. reflexivity. Qed.
Lemma single : forall o, names_distinct [o].
Proof. intros o. split; [constructor; [intros [] | constructor]|]. intros x y a [<- | []] [<- | []] _ _. reflexivity. Qed.
(* C90b: and it is only refused if it would be a path that does not exist *)
Theorem C90b_accepts : forall vs e args k al d v,
  vs_options vs = [package_variable k al (VStr d)] -> no_dollar d = true ->
  setting (vs_files vs) (match args with None => vs_args vs | Some a => a end) (package_variable k al (VStr d)) (Some v) -> plain v ->
  (update expand vs e args <> None <-> forall w, PackageValue d (text norm v) w -> Acceptable exists_ norm w).
Proof.
  intros vs e args k al d v EO Hd Hs Hp. set (o := package_variable k al (VStr d)) in *.
  assert (names_distinct (vs_options vs)) as D by (rewrite EO; apply single). assert (In o (vs_options vs)) as Ho by (rewrite EO; left; reflexivity).
  split.
  - intros U w PV. destruct (update expand vs e args) as [[e' vs']|] eqn:EU; [|congruence]. destruct (C90a_package vs e args e' vs' k al d v D Ho Hd Hs Hp EU) as (w' & _ & PV' & A).
    assert (Some w = Some w') as Q by (rewrite <- (proj2 (conv_spec _ _ _) PV); exact (proj2 (conv_spec _ _ _) PV')). injection Q as ->. exact A.
  - intros H. destruct (value_total d (text norm v)) as [w PV]. specialize (H w PV).
    pose proof (collected_setting vs args o _ D Ho Hs) as C. rewrite update_eq. revert C. rewrite EO. generalize (collected vs args). intros u C. change (v_key o) with k in C.
    assert (put_values [o] (u_values u) e k = Some v) as P. { pose proof (put_key [o] (u_values u) e o (or_introl eq_refl)) as PK. change (v_key o) with k in PK. etransitivity; [exact PK|]. cbv beta. destruct (u_values u k); [exact C | discriminate C]. }
    cbn [convert]. change (v_conv o) with (Some (package_conv (VStr d))). change (v_key o) with k. change (v_subst o) with true. cbv iota. rewrite C, P.
    assert (subst_val expand (put_values [o] (u_values u) e) v = text norm v) as ST. { destruct v as [s|b|l a]; cbn [subst_val text plain] in *; [apply So; exact Hp | reflexivity | apply So; exact Hp]. }
    rewrite ST, (proj2 (conv_spec _ _ _) PV). cbn [validate forallb]. change (v_valid o) with (Some (package_valid exists_)). change (v_key o) with k. change (v_subst o) with true. cbv iota. rewrite C, vset_same.
    set (e1 := vset (put_values [o] (u_values u) e) k w).
    assert ((match w with VStr _ => VStr (subst_val expand e1 w) | _ => w end) = match w with VStr s => VStr (norm s) | _ => w end) as EW.
    { pose proof (value_plain _ _ _ Hd (text_plain v Hp) PV) as PW. destruct w as [s|b|l a]; [|reflexivity | reflexivity]. cbn [subst_val]. f_equal. apply So. exact PW. }
    rewrite EW, (proj2 (valid_spec k w e1 (vset_same _ _ _) (value_no_list _ _ _ PV)) H). discriminate.
Qed.

(* C90c: it survives saving and loading, if it is a path without white space, or the default is a word *)
Theorem C90c_save : forall k al d w, norm_ok norm -> no_blank d = true -> ~ (~ Word d /\ (Enabling d \/ Disabling d)) ->
  w = VBool false \/ (w = VBool true /\ Word d) \/ (exists t, w = VStr t /\ no_blank t = true /\ ~ Enabling t /\ ~ Disabling t) ->
  restorable norm (package_variable k al (VStr d)) w /\ default_faithful norm (package_variable k al (VStr d)) w.
Proof.
  intros k al d w Nm Bd PD H. split.
  - exists w. split; [|destruct w as [s|b|l a]; [reflexivity | reflexivity | exfalso; destruct H as [H | [[H _] | [t [H _]]]]; discriminate H]].
    destruct H as [-> | [[-> W] | [t [-> [B [NE ND]]]]]]; unfold converted; cbn [stored PkvModel.package_variable v_conv v_subst text]; apply conv_spec.
    + apply disabled. cbn. tauto.
    + apply enabled; [cbn; tauto | exact W].
    + rewrite Nm by exact B. apply a_path; assumption.
  - intros (d' & S1 & S2). unfold saved_default in S1. cbn [PkvModel.package_variable v_default v_conv str] in S1. rewrite Nm in S1 by exact Bd. exists (VStr d), d'. split; [reflexivity|]. split.
    { unfold converted. cbn [PkvModel.package_variable v_conv v_subst text]. rewrite Nm by exact Bd. exact S1. }
    apply (proj1 (conv_spec _ _ _)) in S1. destruct H as [-> | [[-> W] | [t [-> [B [NE ND]]]]]]; cbn [text bool_str] in S2.
    + destruct S1 as [X | X _ | X N | X Y]; cbn [str bool_str] in S2; [reflexivity | discriminate S2 | exfalso; apply PD; split; [exact N | left; exact X] | exfalso; apply Y; rewrite <- S2; cbn; tauto].
    + destruct S1 as [X | X _ | X N | X Y]; cbn [str bool_str] in S2; [discriminate S2 | reflexivity | contradiction | exfalso; apply X; rewrite <- S2; cbn; tauto].
    + rewrite Nm in S2 by exact B. destruct S1 as [X | X _ | X N | X Y]; cbn [str bool_str] in S2; [exfalso; apply ND; rewrite S2; cbn; tauto | exfalso; apply NE; rewrite S2; cbn; tauto | exfalso; apply PD; split; [exact N | left; exact X] | cbn [same_value]; congruence].
Qed.

(* C90d: a path variable is what is given, unchanged, and its expansion is what the validator asks for *)
Definition Checked (c : check) (p : string) : Prop := match c with PathAccept => True | PathIsDir => isdir p = true | PathIsFile => isfile p = true | PathExists => exists_ p = true end.
Lemma path_spec : forall c k s e, path_valid isdir isfile exists_ c k (VStr s) e = true <-> Checked c s.
Proof. intros [] k s e; cbn [path_valid Checked]; [split; [intros _; exact Logic.I | reflexivity] | reflexivity | reflexivity | reflexivity]. Qed.
Theorem C90d_path : forall vs e args e' vs' k al d c s,
  names_distinct (vs_options vs) -> In (path_variable k al d c) (vs_options vs) ->
  setting (vs_files vs) (match args with None => vs_args vs | Some a => a end) (path_variable k al d c) (Some (VStr s)) -> no_dollar s = true ->
  update expand vs e args = Some (e', vs') ->
  e' k = Some (VStr s) /\ Checked (match c with None => PathExists | Some c => c end) (norm s).
Proof.
  intros vs e args e' vs' k al d c s D Ho Hs Hp U.
  destruct (C54_update_precedence expand norm vs e args e' vs' _ (Some (VStr s)) So D Ho Hs ltac:(intros w Q; injection Q as <-; exact Hp) U) as (w & C & Ew).
  unfold converted in C. cbn [PkvModel.path_variable v_conv v_key] in C, Ew. injection C as <-. split; [exact Ew|].
  pose proof (C54e_validated expand norm vs e args e' vs' _ (VStr s) _ (VStr s) So D Ho Hs U eq_refl Ew Hp) as V. cbn [PkvModel.path_variable v_subst] in V. exact (proj1 (path_spec _ _ _ _) V).
Qed.
(* C90e: and it is refused only if it is not *)
Theorem C90e_path_accepts : forall vs e args k al d c s,
  vs_options vs = [path_variable k al d c] ->
  setting (vs_files vs) (match args with None => vs_args vs | Some a => a end) (path_variable k al d c) (Some (VStr s)) -> no_dollar s = true ->
  (update expand vs e args <> None <-> Checked (match c with None => PathExists | Some c => c end) (norm s)).
Proof.
  intros vs e args k al d c s EO Hs Hp. set (o := path_variable k al d c) in *.
  assert (names_distinct (vs_options vs)) as D by (rewrite EO; apply single). assert (In o (vs_options vs)) as Ho by (rewrite EO; left; reflexivity).
  split.
  - intros U. destruct (update expand vs e args) as [[e' vs']|] eqn:EU; [|congruence]. exact (proj2 (C90d_path vs e args e' vs' k al d c s D Ho Hs Hp EU)).
  - intros H. pose proof (collected_setting vs args o _ D Ho Hs) as C. rewrite update_eq. revert C. rewrite EO. generalize (collected vs args). intros u C. change (v_key o) with k in C.
    assert (put_values [o] (u_values u) e k = Some (VStr s)) as P. { pose proof (put_key [o] (u_values u) e o (or_introl eq_refl)) as PK. change (v_key o) with k in PK. etransitivity; [exact PK|]. cbv beta. destruct (u_values u k); [exact C | discriminate C]. }
    cbn [convert]. change (v_conv o) with (@None (val -> option val)). cbv iota. cbn [validate forallb].
    change (v_valid o) with (Some (path_valid isdir isfile exists_ (match c with None => PathExists | Some c => c end))). change (v_key o) with k. change (v_subst o) with true. cbv iota. rewrite C, P. cbn [subst_val]. rewrite (So _ _ Hp), (proj2 (path_spec _ k (norm s) _) H). discriminate.
Qed.
End Update.
