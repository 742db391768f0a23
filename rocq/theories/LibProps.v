(* C69: LIBS: theorems about LibModel.v. *)
From Coq Require Import Ascii String List Bool Arith Lia.
Import ListNotations.
From Verif Require Import NameModel NameProps NameProps2 LibModel LibSpec.
From Verif Require CscModel CscSpec CscProps2 FlagModel.
Open Scope list_scope.

(* ---- stripping ---- *)
Lemma strip_prefix_cut : forall ps n, cut_front ps n (strip_prefix ps n).
Proof.
  intros ps n. assert (G : forall a, (forall q, In q a -> ~ begins n q) -> forall r, cut_front (a ++ r) n (strip_prefix r n)).
  { intros a Ha r. revert a Ha. induction r as [|p r IH]; intros a Ha; cbn [strip_prefix].
    - apply cut_front_no. rewrite app_nil_r. exact Ha.
    - destruct (startswith n p) eqn:E.
      + apply startswith_spec in E as [t ->]. apply (cut_front_yes _ _ a p r); [reflexivity| |exact Ha]. rewrite skipn_app, skipn_all, Nat.sub_diag. reflexivity.
      + replace (a ++ p :: r) with ((a ++ [p]) ++ r) by (rewrite <- app_assoc; reflexivity). apply IH. intros q Hq. apply in_app_or in Hq as [Hq|[<- |[]]]; [apply Ha, Hq|]. intros B. apply startswith_spec in B. congruence. }
  apply (G [] (fun q H => match H with end) ps).
Qed.
Lemma back_test : forall n s, s <> [] -> (str_eqb (last_n n (length s)) s = true <-> ends n s).
Proof. intros n s Hs. rewrite str_eqb_spec. apply last_n_ends, Hs. Qed.
Lemma strip_suffix_cut : forall ss n, cut_back ss n (strip_suffix ss n).
Proof.
  intros ss n. assert (G : forall a, (forall q, In q a -> q <> [] -> ~ ends n q) -> forall r, cut_back (a ++ r) n (strip_suffix r n)).
  { intros a Ha r. revert a Ha. induction r as [|s r IH]; intros a Ha; cbn [strip_suffix].
    - apply cut_back_no. rewrite app_nil_r. exact Ha.
    - destruct (str_dec s []) as [-> |Hs].
      + destruct (str_eqb (last_n n (length (@nil ascii))) []) eqn:E.
        * apply str_eqb_spec in E. cbn in E. subst n. cbn. apply cut_back_no. intros s Hs Hn [t X]. symmetry in X. apply app_eq_nil in X as [_ X]. contradiction.
        * replace (a ++ [] :: r) with ((a ++ [[]]) ++ r) by (rewrite <- app_assoc; reflexivity). apply IH. intros q Hq Hn. apply in_app_or in Hq as [Hq|[<- |[]]]; [apply Ha; assumption | contradiction].
      + destruct (str_eqb (last_n n (length s)) s) eqn:E.
        * pose proof E as E2. apply back_test in E2; [|exact Hs]. apply (cut_back_yes _ _ a s r); [reflexivity | exact Hs | | exact Ha]. apply str_eqb_spec in E. rewrite <- E at 2. symmetry. apply last_n_split. destruct s; [contradiction | discriminate].
        * replace (a ++ s :: r) with ((a ++ [s]) ++ r) by (rewrite <- app_assoc; reflexivity). apply IH. intros q Hq Hn. apply in_app_or in Hq as [Hq|[<- |[]]]; [apply Ha; assumption|]. intros B. apply back_test in B; [congruence | exact Hn]. }
  apply (G [] (fun q H => match H with end) ss).
Qed.
Definition stem_of (ps ss : list text) (literal n : text) : text := if nonempty literal && startswith n literal then n else strip ps ss n.
Lemma stem_bare : forall ps ss literal n, bare ps ss literal n (stem_of ps ss literal n).
Proof.
  intros ps ss literal n. unfold stem_of. destruct (nonempty literal && startswith n literal) eqn:E.
  - left. apply andb_true_iff in E as [E1 E2]. apply startswith_spec in E2. split; [destruct literal; discriminate | split; [exact E2 | reflexivity]].
  - right. split; [|exists (strip_prefix ps n); split; [apply strip_prefix_cut | apply strip_suffix_cut]]. intros [H1 H2]. apply startswith_spec in H2. rewrite H2 in E. destruct literal; [contradiction | discriminate].
Qed.

Section Lib.
Variable node : Type.
Variable is_file : node -> bool.
Variable name_of : node -> text.
Notation told := (told node is_file name_of).
Notation flags := (lib_flags node is_file name_of).
Lemma concat_dash : forall stem, stem <> [] -> exists w, concat_one node (lit "-l") [] (Name stem) = [W w] /\ dash_l stem w.
Proof.
  intros [|c s] H; [contradiction|]. unfold concat_one. set (stem := c :: s) in *. change (nonempty (lit "-l")) with true. change (endswith (lit "-l") [" "%char]) with false. cbv iota. cbn [nonempty].
  destruct (startswith stem (lit "-l")) eqn:E; cbn [app].
  - exists stem. split; [reflexivity|]. left. split; [apply startswith_spec, E | reflexivity].
  - exists (lit "-l" ++ stem). split; [reflexivity|]. right. split; [|reflexivity]. intros B. apply startswith_spec in B. congruence.
Qed.
Lemma told_all : forall ps ss literal l, told ps ss literal l (flat_map (fun x => concat_one node (lit "-l") [] (stripped node is_file name_of ps ss literal x)) l).
Proof.
  intros ps ss literal. induction l as [|x l IH]; [constructor|]. cbn [flat_map].
  assert (G : forall n, called node is_file name_of x n -> told ps ss literal (x :: l) (concat_one node (lit "-l") [] (Name (stem_of ps ss literal n)) ++ flat_map (fun x => concat_one node (lit "-l") [] (stripped node is_file name_of ps ss literal x)) l)).
  { intros n C. pose proof (stem_bare ps ss literal n) as B. destruct (stem_of ps ss literal n) as [|c s] eqn:E.
    - apply (told_lost _ _ _ _ _ _ x n); [exact C | exact B | exact IH].
    - destruct (concat_dash (c :: s) ltac:(discriminate)) as (w & -> & D). apply (told_name _ _ _ _ _ _ x n (c :: s)); [exact C | exact B | discriminate | exact D | exact IH]. }
  destruct x as [n|o]; cbn [stripped].
  - apply (G n). reflexivity.
  - destruct (is_file o) eqn:E.
    + cbn [concat_one app]. apply told_file; [split; [reflexivity | exact E] | exact IH].
    + apply (G (name_of o)). split; [exact E | reflexivity].
Qed.
Lemma flags_eq : forall l ps ss literal, flags l ps ss literal = flat_map (fun x => concat_one node (lit "-l") [] (stripped node is_file name_of ps ss literal x)) (path_list node (negb (str_eqb literal colon)) l).
Proof. intros l ps ss literal. unfold lib_flags, stripixes, concat_ixes. rewrite !flat_map_concat_map, map_map. reflexivity. Qed.
Lemma told_filter : forall ps ss literal l, told ps ss literal l (flat_map (fun x => concat_one node (lit "-l") [] (stripped node is_file name_of ps ss literal x)) (filter (fun x => negb (empty_item node x)) l)).
Proof.
  intros ps ss literal l. replace (flat_map _ (filter _ l)) with (flat_map (fun x => concat_one node (lit "-l") [] (stripped node is_file name_of ps ss literal x)) l); [apply told_all|].
  induction l as [|x l IH]; [reflexivity|]. cbn [flat_map filter]. destruct x as [[|c n]|o]; cbn [empty_item negb]; [|cbn [flat_map]; f_equal; exact IH | cbn [flat_map]; f_equal; exact IH].
  rewrite IH. cbn [stripped]. fold (stem_of ps ss literal []). assert (E : stem_of ps ss literal [] = []).
  { pose proof (stem_bare ps ss literal []) as [(_ & _ & E)|(_ & m & C1 & C2)]; [exact E|]. assert (m = []) as -> by (destruct C1 as [a p b r _ X _|_]; [symmetry in X; apply app_eq_nil in X; apply X | reflexivity]). inversion C2 as [a s b r _ _ X _|_]; [symmetry in X; apply app_eq_nil in X as [X _]; congruence | reflexivity]. }
  rewrite E. reflexivity.
Qed.
Lemma split_colon : forall s, join_with ":" (split_on ":" s) = s /\ split_on ":" s <> [] /\ forall w, In w (split_on ":" s) -> ~ In ":"%char w.
Proof.
  induction s as [|c s (IH1 & IH2 & IH3)]; [split; [reflexivity | split; [discriminate | intros w [<- |[]] []]]|]. cbn [split_on]. destruct (Ascii.eqb c ":") eqn:E.
  - apply Ascii.eqb_eq in E as ->. split; [|split; [discriminate | intros w [<- |Hw]; [intros [] | apply IH3, Hw]]]. destruct (split_on ":" s) as [|w l]; [contradiction|]. cbn [join_with app] in *. f_equal. exact IH1.
  - destruct (split_on ":" s) as [|w l]; [contradiction|]. apply Ascii.eqb_neq in E. split; [|split; [discriminate|]].
    + destruct l; cbn [join_with] in *; rewrite <- IH1; reflexivity.
    + intros v [<- |Hv]; [|apply IH3; right; exact Hv]. intros [X|X]; [congruence | apply (IH3 w (or_introl eq_refl) X)].
Qed.
(* C69a: for a list, the linker is told each item in the order of the list: a File node itself, -lNAME for any other; a string is cut at the colons first (not if the colon is the literal prefix) *)
Theorem C69a_flags : forall l ps ss literal,
  match l with
  | Many items => told ps ss literal items (flags l ps ss literal)
  | One s => exists names, (literal = [":"%char] /\ names = [s] \/ literal <> [":"%char] /\ names <> [] /\ s = join_with ":" names /\ forall n, In n names -> ~ In ":"%char n) /\ told ps ss literal (map Name names) (flags l ps ss literal)
  end.
Proof.
  intros [s|items] ps ss literal; rewrite flags_eq; unfold path_list; [|apply told_filter]. destruct (str_eqb literal colon) eqn:E; cbn [negb].
  - apply str_eqb_spec in E. exists [s]. split; [left; split; [exact E | reflexivity]|]. apply told_filter.
  - apply str_eqb_neq in E. destruct (split_colon s) as (H1 & H2 & H3). exists (split_on ":" s). split; [right; split; [exact E | split; [exact H2 | split; [symmetry; exact H1 | exact H3]]]|]. apply told_filter.
Qed.
End Lib.
Print Assumptions C69a_flags.
