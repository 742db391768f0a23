(* C62: selection *)
From Coq Require Import Ascii String List Bool Arith Lia.
Import ListNotations. Open Scope list_scope.
From Verif Require Import NameModel OptModel OptSpec OptProps TgtModel TgtSpec TgtProps.

(* ---- names ---- *)
Lemma split_slash_ok : forall w, parts w (split_slash w).
Proof.
  intros w. unfold parts. induction w as [|c w (IH1 & IH2 & IH3)]; [repeat split; [discriminate | constructor; [intros [] | constructor]]|]. cbn [split_slash]. destruct (Ascii.eqb c "/") eqn:E.
  - apply Ascii.eqb_eq in E. subst c. split; [discriminate|]. split; [|constructor; [intros [] | exact IH3]]. cbn [joined]. destruct (split_slash w) as [|x l]; [contradiction|]. rewrite IH2 at 1. reflexivity.
  - apply Ascii.eqb_neq in E. destruct (split_slash w) as [|x l]; [contradiction|]. split; [discriminate|]. inversion IH3 as [|y l2 H1 H2 E1]; subst. split.
    + destruct l as [|y l]; reflexivity.
    + constructor; [intros [X|X]; [apply E; exact X | contradiction] | exact H2].
Qed.
Lemma walk_ok : forall l p, steps_to p l (walk p l).
Proof.
  intros l. induction l as [|c l IH]; intros p; [constructor|]. unfold walk. cbn [fold_left]. fold (walk (walk1 p c) l). unfold walk1. destruct (str_eqb c (lit ".."%string)) eqn:E1.
  - apply str_eqb_eq in E1. subst c. destruct p as [|x p] using rev_ind; [apply st_up_root, IH|]. rewrite removelast_last. apply st_up, IH.
  - destruct (str_eqb c []) eqn:E2; [apply str_eqb_eq in E2; subst c; apply st_stay; [left; reflexivity | apply IH]|]. destruct (str_eqb c (lit "."%string)) eqn:E3; [apply str_eqb_eq in E3; subst c; apply st_stay; [right; reflexivity | apply IH]|].
    cbn [orb]. apply st_down; [| | | apply IH]; intros X; subst c; discriminate.
Qed.
Lemma lookup_means : forall top dir w, means top dir w (lookup_path top dir w).
Proof.
  intros top dir w. unfold lookup_path. destruct w as [|c r].
  - apply (means_rel _ _ [] [[]]); [discriminate | discriminate | apply split_slash_ok | apply st_stay; [left; reflexivity | constructor]].
  - destruct (Ascii.eqb c "#") eqn:E1; [apply Ascii.eqb_eq in E1; subst c; apply (means_top _ _ r (split_slash r)); [apply split_slash_ok | apply walk_ok]|].
    destruct (Ascii.eqb c "/") eqn:E2; [apply Ascii.eqb_eq in E2; subst c; apply (means_abs _ _ r (split_slash r)); [apply split_slash_ok | apply walk_ok]|].
    apply Ascii.eqb_neq in E1. apply Ascii.eqb_neq in E2. apply (means_rel _ _ _ (split_slash (c :: r))); [| | apply split_slash_ok | apply walk_ok]; intros q X; injection X as X1 _; [apply E1 | apply E2]; exact X1.
Qed.
(* a name means one path *)
Lemma steps_one : forall p l q, steps_to p l q -> q = walk p l.
Proof.
  intros p l q H. induction H as [p|p c l q Hc H IH|p x l q H IH|l q H IH|p c l q H1 H2 H3 H IH]; [reflexivity | | | |].
  - rewrite IH. destruct Hc as [-> | ->]; reflexivity.
  - rewrite IH. unfold walk. cbn [fold_left]. f_equal. unfold walk1. change (str_eqb [".";"."]%char (lit ".."%string)) with true. cbv iota. symmetry. apply removelast_last.
  - rewrite IH. reflexivity.
  - rewrite IH. unfold walk. cbn [fold_left]. f_equal. unfold walk1. rewrite (str_eqb_neq c (lit ".."%string) H3), (str_eqb_neq c [] H1), (str_eqb_neq c (lit "."%string) H2). reflexivity.
Qed.
Lemma parts_one : forall l w, parts w l -> split_slash w = l.
Proof.
  assert (X : forall x w, ~ In slash x -> split_slash (x ++ slash :: w) = x :: split_slash w).
  { intros x w. induction x as [|c x IH]; intros H; [reflexivity|]. cbn [app split_slash]. destruct (Ascii.eqb c "/") eqn:E; [apply Ascii.eqb_eq in E; exfalso; apply H; left; exact E|]. rewrite IH by (intros Y; apply H; right; exact Y). reflexivity. }
  assert (X0 : forall x, ~ In slash x -> split_slash x = [x]).
  { intros x. induction x as [|c x IH]; intros H; [reflexivity|]. cbn [split_slash]. destruct (Ascii.eqb c "/") eqn:E; [apply Ascii.eqb_eq in E; exfalso; apply H; left; exact E|]. rewrite IH by (intros Y; apply H; right; exact Y). reflexivity. }
  intros l. induction l as [|x l IH]; intros w (H1 & H2 & H3); [contradiction|]. inversion H3 as [|y l2 H4 H5 E]; subst. destruct l as [|y l]; [apply X0; exact H4|]. change (joined (x :: y :: l)) with (x ++ slash :: joined (y :: l)). rewrite X by exact H4. f_equal. apply IH. repeat split; [discriminate | exact H5].
Qed.
Theorem C62_means_one : forall top dir w p q, means top dir w p -> means top dir w q -> p = q.
Proof.
  assert (X : forall top dir w p, means top dir w p -> p = lookup_path top dir w).
  { intros top dir w p H. destruct H as [r l p H1 H2|r l p H1 H2|w l p H1 H2 H3 H4].
    - rewrite <- (parts_one l r H1) in H2. apply steps_one. exact H2.
    - rewrite <- (parts_one l r H1) in H2. apply steps_one. exact H2.
    - rewrite <- (parts_one l w H3) in H4. unfold lookup_path. destruct w as [|c w]; [apply steps_one in H4; exact H4|]. destruct (Ascii.eqb c "#") eqn:E1; [apply Ascii.eqb_eq in E1; subst c; exfalso; apply (H1 w eq_refl)|].
      destruct (Ascii.eqb c "/") eqn:E2; [apply Ascii.eqb_eq in E2; subst c; exfalso; apply (H2 w eq_refl)|]. apply steps_one. exact H4. }
  intros top dir w p q H1 H2. rewrite (X _ _ _ _ H1), (X _ _ _ _ H2). reflexivity.
Qed.

(* ---- climbing ---- *)
Lemma climb_spec : forall has rdir ttop, (exists d rest, climb has rdir ttop = Some (d, rest ++ ttop) /\ nearest has (rev rdir) d rest) \/ (climb has rdir ttop = None /\ forall a b, rev rdir = a ++ b -> has a = false).
Proof.
  intros has rdir. induction rdir as [|c r IH]; intros ttop; cbn [climb rev].
  - destruct (has []) eqn:E; [left; exists [], []; split; [reflexivity|]; split; [reflexivity|]; split; [exact E|]; intros a b X N; symmetry in X; apply app_eq_nil in X; destruct X; congruence|]. right. split; [reflexivity|]. intros a b X. symmetry in X. apply app_eq_nil in X. destruct X as [-> _]. exact E.
  - destruct (has (rev r ++ [c])) eqn:E.
    + left. exists (rev r ++ [c]), []. split; [reflexivity|]. split; [rewrite app_nil_r; reflexivity|]. split; [exact E|]. intros a b X N. symmetry in X. apply app_eq_nil in X. destruct X. congruence.
    + destruct (IH (c :: ttop)) as [(d & rest & H1 & H2 & H3 & H4)|(H1 & H2)].
      * left. exists d, (rest ++ [c]). rewrite <- app_assoc. split; [exact H1|]. split; [rewrite app_assoc, <- H2; reflexivity|]. split; [exact H3|]. intros a b X N. destruct b as [|y b _] using rev_ind.
        -- rewrite app_nil_r in X. subst a. rewrite app_assoc, <- H2. exact E.
        -- rewrite app_assoc in X. apply app_inj_tail in X. destruct X as [X _]. apply (H4 a b); assumption.
      * right. split; [exact H1|]. intros a b X. destruct b as [|y b _] using rev_ind; [rewrite app_nil_r in X; subst a; exact E|]. rewrite app_assoc in X. apply app_inj_tail in X. destruct X as [X _]. apply (H2 a b X).
Qed.
(* C62b: the scripts are those of the nearest directory, at or above the one where scons was started, that has a SConstruct; target_top leads back; without any, there is none *)
Theorem C62b_climb : forall has start, match climb has (rev start) [] with Some (d, rest) => nearest has start d rest | None => forall a b, start = a ++ b -> has a = false end.
Proof.
  intros has start. destruct (climb_spec has (rev start) []) as [(d & rest & H1 & H2)|(H1 & H2)]; rewrite H1; rewrite rev_involutive in H2; [rewrite app_nil_r; exact H2 | exact H2].
Qed.
Lemma walk_real : forall rest top, real rest -> walk top rest = top ++ rest.
Proof.
  intros rest. induction rest as [|c r IH]; intros top H; [rewrite app_nil_r; reflexivity|]. inversion H as [|x l (H1 & H2 & H3) H4 E]; subst. unfold walk. cbn [fold_left]. fold (walk (walk1 top c) r). unfold walk1.
  rewrite (str_eqb_neq c (lit ".."%string) H3), (str_eqb_neq c [] H1), (str_eqb_neq c (lit "."%string) H2). cbn [orb]. rewrite IH by exact H4. rewrite <- app_assoc. reflexivity.
Qed.

(* ---- the nodes ---- *)
Section Sel.
Variable alias : word -> option tnode.
Variable entry : path -> tnode.
Variable srcnode : path -> path.
Variable top : path.
Notation build_targets := (build_targets alias entry srcnode top).
Notation to_node := (to_node alias entry top).
Lemma keep_some_app : forall A C (f : A -> option C) a l, keep_some f (a :: l) = (match f a with Some b => [b] | None => [] end) ++ keep_some f l.
Proof. reflexivity. Qed.
Lemma named_all : forall ltop l, Forall2 (stands_for alias entry top (match ltop with Some d => d | None => top end)) l (keep_some (to_node ltop None) l).
Proof.
  intros ltop l. induction l as [|t l IH]; [constructor|]. rewrite keep_some_app. unfold to_node at 1. destruct t as [w|n].
  - destruct (alias w) as [n|] eqn:E; constructor; try exact IH; [apply sf_alias; exact E | apply sf_file; [exact E | apply lookup_means]].
  - constructor; [apply sf_node | exact IH].
Qed.
Lemma keep_nodes : forall ltop l, keep_some (to_node ltop None) (map TNode l) = l.
Proof. intros ltop l. induction l as [|n l IH]; [reflexivity|]. cbn [map]. rewrite keep_some_app, IH. reflexivity. Qed.
Lemma prefixb_spec : forall a b, prefixb a b = true <-> exists r, b = a ++ r.
Proof.
  intros a. induction a as [|x a IH]; intros b; [split; [intros _; exists b; reflexivity | reflexivity]|]. destruct b as [|y b]; [split; [discriminate | intros (r & X); discriminate]|]. cbn [prefixb]. rewrite andb_true_iff, IH, str_eqb_eq. split.
  - intros (-> & r & ->). exists r. reflexivity.
  - intros (r & X). injection X as -> ->. split; [reflexivity | exists r; reflexivity].
Qed.
Lemma is_under_spec : forall n d, is_under n d = true <-> inside n d.
Proof. intros [p|p s|a] d; cbn [is_under inside]; try apply prefixb_spec. tauto. Qed.
Lemma keep_u : forall d ltop l, exists ps, Forall2 (kept d) l ps /\ keep_some (to_node ltop (Some d)) (map TNode l) = concat ps.
Proof.
  intros d ltop l. induction l as [|n l (ps & H1 & H2)]; [exists []; auto|]. cbn [map]. rewrite keep_some_app, H2. unfold to_node at 1. destruct (is_under n d) eqn:E.
  - exists ([n] :: ps). split; [constructor; [apply kept_inside, is_under_spec; exact E | exact H1] | reflexivity].
  - assert (N : ~ inside n d) by (rewrite <- is_under_spec; congruence). destruct n as [p|p s|a].
    + destruct (prefixb p d) eqn:Ep.
      * exists ([NDir d] :: ps). split; [constructor; [apply kept_above; [exact N | apply prefixb_spec; exact Ep] | exact H1] | reflexivity].
      * exists ([] :: ps). split; [constructor; [apply kept_not; [exact N|] | exact H1] | reflexivity]. intros p2 r X Y. injection X as <-. assert (Z : prefixb p d = true) by (apply prefixb_spec; exists r; exact Y). congruence.
    + exists ([] :: ps). split; [constructor; [apply kept_not; [exact N | discriminate] | exact H1] | reflexivity].
    + exists ([] :: ps). split; [constructor; [apply kept_not; [exact N | discriminate] | exact H1] | reflexivity].
Qed.
Lemma check_those : forall d l, those (of_scripts srcnode d) l (filter (check_dir srcnode d) l).
Proof.
  intros d l. induction l as [|n l IH]; [constructor|]. cbn [filter]. assert (X : check_dir srcnode d n = true <-> of_scripts srcnode d n).
  { destruct n as [p|p [s|]|a]; cbn [check_dir of_scripts]; try tauto; unfold path_eqb; destruct (dec_path _ d); split; congruence. }
  destruct (check_dir srcnode d n); [apply those_yes; [apply X; reflexivity | exact IH] | apply those_no; [intros Y; apply X in Y; discriminate | exact IH]].
Qed.
Lemma those_nil_inv : forall A (P : A -> Prop) l, those P l [] -> forall a, In a l -> ~ P a.
Proof. intros A P l H. remember [] as r eqn:E. induction H as [|a l r H1 H2 IH|a l r H1 H2 IH]; intros b Hb; [contradiction | discriminate|]. destruct Hb as [<-|Hb]; [exact H1 | apply IH; assumption]. Qed.
Lemma tgts_eqb_eq : forall a b, tgts_eqb a b = true <-> a = b.
Proof. intros a b. unfold tgts_eqb. destruct (list_eq_dec dec_tgt a b); split; congruence. Qed.
Lemma app_nil_match : forall (ts : list word), negb (match ts with [] => true | _ => false end) = true <-> ts <> [].
Proof. intros [|w l]; cbn; split; congruence. Qed.

(* the state when the scripts have been read *)
Variables (ts rs : list word) (h : list sop) (ns : list tnode).
Hypothesis D : default_targets h ns.
Notation s := (scripts h (started ts rs)).
Lemma plus_official : plus s = build (scripts (official h) (started ts rs)).
Proof.
  assert (DO : default_targets (official h) ns).
  { destruct D as (b & si & E & H). exists b, si. split; [|exact H]. rewrite <- E. clear. induction h as [|o l IH]; [reflexivity|]. destruct o as [d|f]; cbn [official filter]; [cbn [all_dargs flat_map]; f_equal; exact IH | exact IH]. }
  assert (NH : no_hand (official h)) by (intros f X; apply filter_In in X; destruct X; discriminate).
  destruct (C62a_lists ts rs (official h) ns DO) as (_ & _ & A & _). rewrite (A NH). destruct (C62a_lists ts rs h ns D) as (_ & Dn & _ & _). rewrite started_lists in *. destruct (ts ++ rs) as [|w l] eqn:E.
  - rewrite scripts_plus; [rewrite Dn; reflexivity | reflexivity | reflexivity].
  - destruct (scripts_frozen h {| cmdline := w :: l; build := map TName (w :: l); plus := map TName (w :: l); defaults := []; called := false; frozen := negb false |} eq_refl) as [_ B]. exact B.
Qed.
(* scons is asked for targets: on the command line, or by a script that changes BUILD_TARGETS *)
Definition asked : Prop := ts <> [] \/ build s <> build (scripts (official h) (started ts rs)).
Lemma asked_test : negb (match ts with [] => true | _ => false end) || negb (tgts_eqb (build s) (plus s)) = true <-> asked.
Proof.
  unfold asked. rewrite <- plus_official. rewrite orb_true_iff, app_nil_match. split; (intros [H|H]; [left; exact H|]; right).
  - intros X. apply tgts_eqb_eq in X. rewrite X in H. discriminate.
  - destruct (tgts_eqb (build s) (plus s)) eqn:E; [apply tgts_eqb_eq in E; contradiction | reflexivity].
Qed.
Lemma sel_asked : asked -> forall c tt, unless_empty (build s) (build_targets s ts c tt) (Forall2 (stands_for alias entry top (match tt with Some t => walk top t | None => top end)) (build s)).
Proof.
  intros A c tt. apply asked_test in A. unfold TgtModel.build_targets. rewrite A. unfold unless_empty. destruct (build s) as [|t l]; [left; auto|]. right. split; [discriminate|]. eexists. split; [reflexivity|]. destruct tt as [t0|]; [apply (named_all (Some (walk top t0))) | apply (named_all None)].
Qed.
Lemma called_dec : default_called h \/ ~ default_called h.
Proof. destruct (called s) eqn:E; [left | right; intros X; assert (Y : called s = true) by (apply scripts_called; right; exact X); congruence]. apply scripts_called in E. destruct E as [E|E]; [rewrite started_lists in E; discriminate | exact E]. Qed.
Lemma called_eq : called s = true <-> default_called h.
Proof. rewrite scripts_called, started_lists. cbn [called]. intuition discriminate. Qed.
Definition candidates (dl : list tnode) : Prop := (default_called h /\ dl = ns) \/ (~ default_called h /\ dl = [NDir top]).
Lemma sel_default : ~ asked -> forall dl, candidates dl ->
  (forall tt, unless_empty dl (build_targets s ts BigD tt) (fun r => r = dl)) /\ unless_empty dl (build_targets s ts NoClimb None) (fun r => r = dl) /\
  (forall t, unless_empty dl (build_targets s ts LittleU (Some t)) (fun r => exists ps, Forall2 (kept (walk top t)) dl ps /\ r = concat ps)).
Proof.
  intros A dl C. assert (T : negb (match ts with [] => true | _ => false end) || negb (tgts_eqb (build s) (plus s)) = false) by (destruct (_ || _) eqn:E; [exfalso; apply A, asked_test; exact E | reflexivity]).
  destruct (C62a_lists ts rs h ns D) as (_ & Dn & _ & _). unfold unless_empty.
  assert (X : (if called s then defaults s else [NDir top]) = dl). { destruct C as [(C & ->)|(C & ->)]; [apply called_eq in C; rewrite C; exact Dn|]. destruct (called s) eqn:E; [exfalso; apply C, called_eq; exact E | reflexivity]. }
  split; [|split].
  - intros tt. unfold TgtModel.build_targets. rewrite T. replace (match tt with Some _ => match BigD with LittleU => (None, Some (match tt with Some t => walk top t | None => top end), Some (match tt with Some t => walk top t | None => top end)) | BigU => (Some (filter (check_dir srcnode (match tt with Some t => walk top t | None => top end)) (defaults s)), None, None) | _ => (None, None, None) end | None => (None, None, None) end) with (@None (list tnode), @None path, @None path) by (destruct tt; reflexivity).
    rewrite X. destruct dl as [|n l]; [left; auto|]. right. split; [discriminate|]. eexists. split; [reflexivity | apply keep_nodes].
  - unfold TgtModel.build_targets. rewrite T, X. destruct dl as [|n l]; [left; auto|]. right. split; [discriminate|]. eexists. split; [reflexivity | apply keep_nodes].
  - intros t. unfold TgtModel.build_targets. rewrite T, X. destruct dl as [|n l]; [left; auto|]. right. split; [discriminate|]. destruct (keep_u (walk top t) (Some (walk top t)) (n :: l)) as (ps & P1 & P2). eexists. split; [reflexivity|]. exists ps. auto.
Qed.
Lemma sel_bigu : ~ asked -> forall t, exists l, those (of_scripts srcnode (walk top t)) ns l /\ unless_empty l (build_targets s ts BigU (Some t)) (fun r => r = l).
Proof.
  intros A t. assert (T : negb (match ts with [] => true | _ => false end) || negb (tgts_eqb (build s) (plus s)) = false) by (destruct (_ || _) eqn:E; [exfalso; apply A, asked_test; exact E | reflexivity]).
  destruct (C62a_lists ts rs h ns D) as (_ & Dn & _ & _). exists (filter (check_dir srcnode (walk top t)) ns). split; [apply check_those|]. unfold unless_empty, TgtModel.build_targets. rewrite T, Dn. replace (if called s then _ else _) with (filter (check_dir srcnode (walk top t)) ns) by (destruct (called s); reflexivity).
  destruct (filter (check_dir srcnode (walk top t)) ns) as [|n l]; [left; auto|]. right. split; [discriminate|]. eexists. split; [reflexivity | apply keep_nodes].
Qed.
End Sel.
Print Assumptions C62_means_one.
Print Assumptions C62b_climb.
