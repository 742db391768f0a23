(* Warnings: lists of directives on the command line; the classes of Warnings.py; what does not hold. *)
From Coq Require Import Ascii String List Bool Arith Lia.
From Verif Require Import NameModel NameProps WrnModel WrnSpec WrnProps WrnProps2.
Import ListNotations.
Open Scope string_scope.
Open Scope list_scope.
Open Scope nat_scope.

(* C85d: the directives of several --warn options, each with several separated by commas, are taken in that order *)
Lemma split_any : forall c w s, ~ In c w -> split_on c (w ++ c :: s) = w :: split_on c s.
Proof.
  intros c. induction w as [|x w IHw]; intros s N; cbn [app split_on]; [rewrite Ascii.eqb_refl; reflexivity|]. destruct (Ascii.eqb_spec x c) as [-> | _]; [exfalso; apply N; left; reflexivity|].
  rewrite IHw; [reflexivity | intros I; apply N; right; exact I].
Qed.
Lemma split_end : forall c w, ~ In c w -> split_on c w = [w].
Proof.
  intros c. induction w as [|x w IHw]; intros N; [reflexivity|]. cbn [split_on]. destruct (Ascii.eqb_spec x c) as [-> | _]; [exfalso; apply N; left; reflexivity|]. rewrite IHw; [reflexivity | intros I; apply N; right; exact I].
Qed.
Theorem C85d_commas : forall groups, (forall g, In g groups -> g <> [] /\ forall d, In d g -> ~ In ","%char d) -> command_line (map (join_with ","%char) groups) = concat groups.
Proof.
  assert (ONE : forall ds, ds <> [] -> (forall d, In d ds -> ~ In ","%char d) -> split_on ","%char (join_with ","%char ds) = ds).
  { induction ds as [|d ds IH]; intros N H; [contradiction|]. destruct ds as [|e ds]; [exact (split_end _ d (H d (or_introl eq_refl)))|].
    change (join_with ","%char (d :: e :: ds)) with (d ++ ","%char :: join_with ","%char (e :: ds)). rewrite (split_any _ d _ (H d (or_introl eq_refl))). f_equal. apply IH; [discriminate | intros u I; exact (H u (or_intror I))]. }
  induction groups as [|g groups IH]; intros H; [reflexivity|]. unfold command_line in *. cbn [map flat_map concat]. destruct (H g (or_introl eq_refl)) as [N C]. rewrite (ONE g N C). f_equal. apply IH. intros h I. exact (H h (or_intror I)).
Qed.
(* C85e: a directive that begins with no- and names a mandatory warning changes nothing *)
Theorem C85e_mandatory : forall sub known t k e, Names t k -> sub k (lit "MandatoryDeprecatedWarning") = true -> ~ Special (lit "no-" ++ t) -> process_warn_strings sub known e [lit "no-" ++ t] = e.
Proof.
  intros sub known t k e NM MD NS. unfold process_warn_strings. cbn [fold_left]. unfold meaning. assert (startswith (lit "no-" ++ t) (lit "no-") = true) as -> by (apply startswith_spec; exists t; reflexivity).
  assert (str_eqb (lit "no-" ++ t) (lit "no-object-count") || str_eqb (lit "no-" ++ t) (lit "no-parallel-support") = false) as ->.
  { destruct (str_eqb (lit "no-" ++ t) (lit "no-object-count")) eqn:X; [exfalso; apply NS; left; apply str_eqb_spec; exact X|]. destruct (str_eqb (lit "no-" ++ t) (lit "no-parallel-support")) eqn:Y; [exfalso; apply NS; right; apply str_eqb_spec; exact Y | reflexivity]. }
  cbn [andb negb]. change (skipn 3 (lit "no-" ++ t)) with t. rewrite (names_class _ _ NM), MD. destruct (known k); reflexivity.
Qed.

Definition on (opts : list string) (calls : list value) (c : string) : bool := shown sub_py (building sub_py known_py (map lit opts) calls) (lit c).
Definition says (arg : string) : option (str * bool) := meaning sub_py known_py (lit arg).
Theorem C85_case : on [] [] "LinkWarning" = true /\ on [] [] "DependencyWarning" = false /\ on [] [] "PythonVersionWarning" = true /\
  on ["dependency"] [] "DependencyWarning" = true /\ on ["all,no-dependency"] [] "DependencyWarning" = false /\ on ["no-dependency"; "all"] [] "DependencyWarning" = true /\
  on ["no-link"] [] "FortranCxxMixWarning" = false /\ on ["no-link"] [Text (lit "fortran-cxx-mix")] "FortranCxxMixWarning" = true /\ on ["no-link"] [Text (lit "fortran-cxx-mix")] "LinkWarning" = false /\
  on [] [Listed [lit "no-all"]; Text (lit "stack-size")] "StackSizeWarning" = true /\ on [] [Listed [lit "no-all"]; Text (lit "stack-size")] "LinkWarning" = false /\
  says "no-corrupt-sconsign" = Some (lit "CorruptSConsignWarning", false) /\ says "no-object-count" = Some (lit "NoObjectCountWarning", true) /\ says "no-deprecated-options" = None /\
  says "no-future-deprecated" = Some (lit "FutureDeprecatedWarning", false).
Proof. repeat split; vm_compute; reflexivity. Qed.
Theorem C85_case_names : (forall w, In w [lit "corrupt"; lit "sconsign"] -> Lower w) /\ Names (lit "corrupt-sconsign") (lit "CorruptSConsignWarning") /\
  Says sub_py known_py (lit "no-corrupt-sconsign") (lit "CorruptSConsignWarning") false /\ Names (lit "deprecated-options") (lit "DeprecatedOptionsWarning") /\
  sub_py (lit "DeprecatedOptionsWarning") (lit "MandatoryDeprecatedWarning") = true /\ ~ Special (lit "no-deprecated-options").
Proof.
  assert (LOW : forall ws, forallb (fun w => match w with [] => false | _ => forallb is_lower w end) ws = true -> forall w, In w ws -> Lower w).
  { intros ws B w I. rewrite forallb_forall in B. specialize (B w I). destruct w as [|c r]; [discriminate B|]. split; [discriminate|]. intros d J. rewrite forallb_forall in B. specialize (B d J). apply andb_true_iff in B. rewrite !Nat.leb_le in B. exact B. }
  split; [apply LOW; vm_compute; reflexivity|]. split; [exact (class_names [lit "corrupt"; lit "sconsign"] ltac:(discriminate) (LOW [lit "corrupt"; lit "sconsign"] ltac:(vm_compute; reflexivity)))|].
  split; [|split; [exact (class_names [lit "deprecated"; lit "options"] ltac:(discriminate) (LOW [lit "deprecated"; lit "options"] ltac:(vm_compute; reflexivity)))|]].
  - apply (proj1 (C85c_meaning sub_py known_py [lit "no"; lit "corrupt"; lit "sconsign"] (lit "CorruptSConsignWarning") false ltac:(discriminate) (LOW [lit "no"; lit "corrupt"; lit "sconsign"] ltac:(vm_compute; reflexivity)))). vm_compute. reflexivity.
  - split; [vm_compute; reflexivity|]. intros [H | H]; discriminate H.
Qed.

(* the manual: mandatory warnings are displayed in spite of no-deprecated; they are not *)
Theorem C85_mandatory_refuted : sub_py (lit "DeprecatedOptionsWarning") (lit "MandatoryDeprecatedWarning") = true /\ on [] [] "DeprecatedOptionsWarning" = true /\ on ["no-deprecated"] [] "DeprecatedOptionsWarning" = false /\
  on ["no-all"] [] "DeprecatedOptionsWarning" = false.
Proof. repeat split; vm_compute; reflexivity. Qed.
(* the command line does not have the last word: SetOption has, unlike for other options *)
Theorem C85_command_line_refuted : on ["no-duplicate-environment"] [Text (lit "duplicate-environment")] "DuplicateEnvironmentWarning" = true /\ on ["dependency"] [Text (lit "no-dependency")] "DependencyWarning" = false.
Proof. split; vm_compute; reflexivity. Qed.
(* SetOption does not split at commas *)
Theorem C85_set_commas_refuted : on ["no-link,no-stack-size"] [] "LinkWarning" = false /\ on [] [Text (lit "no-link,no-stack-size")] "LinkWarning" = true.
Proof. split; vm_compute; reflexivity. Qed.
(* a type in the manual that has no class; a class that no type names *)
Theorem C85_types_refuted : says "tool-qt-deprecated" = None /\ known_py (lit "VisualVersionMismatch") = true /\ forall t, class_name t <> lit "VisualVersionMismatch".
Proof.
  split; [vm_compute; reflexivity|]. split; [vm_compute; reflexivity|]. intros t E. unfold class_name in E. destruct (str_eqb t (lit "all")); [discriminate E|]. apply (f_equal (@rev ascii)) in E. rewrite rev_app_distr in E. discriminate E.
Qed.
Print Assumptions C85d_commas.
Print Assumptions C85e_mandatory.
Print Assumptions C85_case_names.
Print Assumptions C85_types_refuted.
