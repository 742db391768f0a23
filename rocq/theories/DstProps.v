(* Where a run starts. *)
From Coq Require Import Ascii String List Bool Arith Lia.
Import ListNotations.
From Verif Require Import NameModel NameProps NameProps2 DstModel DstSpec.
Open Scope string_scope.
Open Scope list_scope.
Open Scope nat_scope.

Lemma isabs_spec : forall p, isabs p = true <-> exists r, p = SLASH :: r.
Proof.
  intros [|c r]; cbn [isabs]; [split; [discriminate | intros [x E]; discriminate E]|]. rewrite Ascii.eqb_eq. split; [intros ->; exists r; reflexivity | intros [x E]; injection E as E _; exact E].
Qed.
Lemma isabs_false : forall p, isabs p = false <-> forall r, p <> SLASH :: r.
Proof. intros p. split; [intros H r E; assert (isabs p = true) by (apply isabs_spec; exists r; exact E); congruence | intros H; destruct (isabs p) eqn:E; [apply isabs_spec in E as [r E]; exfalso; exact (H r E) | reflexivity]]. Qed.
Lemma start_rel : forall c p, isabs p = false -> start c p = c.
Proof. intros c [|x p] H; [reflexivity|]. cbn [start]. destruct (ascii_dec x SLASH) as [-> | _]; [rewrite (proj2 (isabs_spec _)) in H; [discriminate | exists p; reflexivity] | reflexivity]. Qed.
Lemma start_abs : forall c p, isabs p = true -> start c p = [].
Proof. intros c p H. apply isabs_spec in H as [r ->]. cbn [start]. destruct (ascii_dec SLASH SLASH); [reflexivity | congruence]. Qed.
Lemma walk_any : forall c d p, isabs p = true -> walk c p = walk d p.
Proof. intros c d p H. unfold walk. rewrite !(start_abs _ p H). reflexivity. Qed.
Lemma walk_rel : forall c p, isabs p = false -> walk c p = fold_left walk_step (split_on SLASH p) c.
Proof. intros c p H. unfold walk. rewrite (start_rel c p H). reflexivity. Qed.
Lemma walk_sep : forall c a b, isabs b = false -> a <> [] -> walk c (a ++ SLASH :: b) = walk (walk c a) b.
Proof.
  intros c a b HB NE. rewrite (walk_rel (walk c a) b HB). unfold walk at 1. rewrite split_on_app, fold_left_app. destruct a as [|x a]; [congruence|]. reflexivity.
Qed.
Lemma walk_nil : forall c, walk c [] = c.
Proof. intros c. unfold walk. cbn [split_on fold_left start]. apply walk_noop, not_ord_nil. Qed.
Lemma walk_path_join : forall c a b, walk c (path_join a b) = walk (walk c a) b.
Proof.
  intros c a b. unfold path_join. destruct (isabs b) eqn:B; [apply walk_any; exact B|]. destruct a as [|x a0] eqn:EA; [rewrite walk_nil; reflexivity|]. rewrite <- EA in *.
  assert (a <> []) as NE by (rewrite EA; discriminate). clear EA x a0. unfold ends_slash. destruct (rev a) as [|y q] eqn:R; [apply walk_sep; assumption|].
  assert (a = rev q ++ [y]) as -> by (rewrite <- (rev_involutive a), R; reflexivity). clear R. destruct (Ascii.eqb_spec y SLASH) as [-> | N]; [|apply walk_sep; assumption].
  rewrite <- app_assoc. cbn [app]. generalize (rev q). clear q NE. intros q. rewrite (walk_rel (walk c (q ++ [SLASH])) b B). unfold walk at 1. rewrite split_on_app, fold_left_app.
  unfold walk. rewrite split_on_app, fold_left_app. change (split_on SLASH []) with [@nil ascii]. cbn [fold_left]. rewrite walk_noop by apply not_ord_nil.
  assert (start c (q ++ SLASH :: b) = start c (q ++ [SLASH])) as -> by (destruct q; reflexivity). reflexivity.
Qed.

(* C89a: several -C options lead where they lead one after the other: absolute ones anywhere, others from where the ones before led *)
Theorem C89a_directories : forall cwd dirs, walk cwd (create_path dirs) = Led cwd dirs.
Proof.
  assert (forall dirs cwd path, path <> [] -> walk cwd (fold_left (fun p d => if isabs d then d else p ++ [SLASH] ++ d) dirs path) = Led (walk cwd path) dirs) as H.
  { induction dirs as [|d dirs IH]; intros cwd path NE; [reflexivity|]. cbn [fold_left Led]. destruct (isabs d) eqn:A.
    - rewrite IH by (intros ->; discriminate A). rewrite (walk_any cwd (walk cwd path) d A). reflexivity.
    - rewrite IH by (destruct path; discriminate). change (path ++ [SLASH] ++ d) with (path ++ SLASH :: d). rewrite walk_sep by assumption. reflexivity. }
  intros cwd dirs. unfold create_path. rewrite H by discriminate. reflexivity.
Qed.

(* a path leads from names to names *)
Lemma split_noslash : forall p w, In w (split_on SLASH p) -> ~ In SLASH w.
Proof.
  induction p as [|c p IH]; intros w IN; cbn [split_on] in IN; [destruct IN as [<- | []]; intros []|]. destruct (Ascii.eqb_spec c SLASH) as [_ | N].
  - destruct IN as [<- | IN]; [intros [] | exact (IH w IN)].
  - destruct (split_on SLASH p) as [|x l] eqn:E.
    + destruct IN as [<- | []]. intros [X | []]. exact (N X).
    + destruct IN as [<- | IN]; [|exact (IH w (or_intror IN))]. intros [X | X]; [exact (N X) | exact (IH x (or_introl eq_refl) X)].
Qed.
Lemma walk_names : forall c p, (forall n, In n c -> good n) -> forall n, In n (walk c p) -> good n.
Proof.
  intros c p G. unfold walk. assert (forall n, In n (start c p) -> good n) as G0 by (destruct p as [|x p]; [exact G|]; cbn [start]; destruct (ascii_dec x SLASH); [intros n [] | exact G]). revert G0. generalize (start c p). clear G.
  pose proof (split_noslash p) as NS. revert NS. generalize (split_on SLASH p). induction l as [|w l IH]; intros NS d G; [exact G|]. cbn [fold_left]. apply IH; [intros x IN; exact (NS x (or_intror IN))|].
  intros n IN. unfold walk_step in IN. destruct (str_dec w []) as [_ | N1]; [exact (G n IN)|]. destruct (str_dec w (lit ".")) as [_ | N2]; [exact (G n IN)|]. destruct (str_dec w (lit "..")) as [_ | N3].
  - apply G. destruct d as [|x d]; [destruct IN | right; exact IN].
  - destruct IN as [<- | IN]; [|exact (G n IN)]. split; [exact N1|]. split; [exact N2|]. split; [exact N3|]. exact (NS w (or_introl eq_refl)).
Qed.
Lemma led_names : forall dirs c, (forall n, In n c -> good n) -> forall n, In n (Led c dirs) -> good n.
Proof. induction dirs as [|d dirs IH]; intros c G; [exact G|]. cbn [Led]. apply IH. apply walk_names. exact G. Qed.

Section Props.
Variables (isfile enter : directory -> bool).
Notation main := (main isfile enter).
Notation climb := (climb isfile).
Definition names_of (file : list str) : list str := match file with [] => KNOWN | _ => file end.

Lemma wanted_spec : forall file f, Wanted file f <-> In f (names_of file).
Proof. intros [|x l] f; unfold Wanted, names_of; [|split; [intros [[_ H] | [H _]]; [exact H | discriminate] | intros H; left; split; [discriminate | exact H]]]. split; [intros [[H _] | [_ H]]; [congruence | exact H] | intros H; right; split; [reflexivity | exact H]]. Qed.
Lemma exists_in_spec : forall d file, exists_in isfile d file = true <-> HasSConstruct isfile file d.
Proof.
  intros d file. unfold exists_in. fold (names_of file). rewrite existsb_exists. unfold HasSConstruct. split; intros [f [A B]]; exists f; (split; [apply wanted_spec; exact A | exact B]).
Qed.
Lemma there_dec : forall d reps f, (isfile (walk d f) || negb (isabs f) && existsb (fun rep => isfile (walk d (path_join rep f))) reps)%bool = true <-> There isfile d reps f.
Proof.
  intros d reps f. unfold There. rewrite orb_true_iff, andb_true_iff, negb_true_iff, isabs_false, existsb_exists. split; (intros [H | [A [rep [I0 H]]]]; [left; exact H | right; split; [exact A|]; exists rep; split; [exact I0|]]);
  [rewrite <- walk_path_join | rewrite walk_path_join]; exact H.
Qed.
Lemma first_of_spec : forall d reps names, match first_of isfile d reps names with Some f => FirstThere isfile d reps names f | None => forall g, In g names -> ~ There isfile d reps g end.
Proof.
  intros d reps. induction names as [|f names IH]; cbn [first_of]; [intros g []|]. pose proof (there_dec d reps f) as T.
  destruct (isfile (walk d f)); [exists [], names; split; [reflexivity|]; split; [apply T; reflexivity | intros g []]|]. cbn [orb] in T.
  destruct (negb (isabs f) && existsb (fun rep => isfile (walk d (path_join rep f))) reps)%bool; [exists [], names; split; [reflexivity|]; split; [apply T; reflexivity | intros g []]|].
  assert (~ There isfile d reps f) as NT by (intros X; apply T in X; discriminate). destruct (first_of isfile d reps names) as [g|].
  - destruct IH as [a [b [-> [TG H]]]]. exists (f :: a), b. split; [reflexivity|]. split; [exact TG|]. intros h [<- | IN]; [exact NT | exact (H h IN)].
  - intros g [<- | IN]; [exact NT | exact (IH g IN)].
Qed.

(* the scripts that are read in the directory now *)
Definition Reads (now : directory) (reps file : list str) (top : option str) (complained : bool) (r : outcome) : Prop :=
  (exists scripts, r = Started now top scripts complained /\ ((file <> [] /\ scripts = file) \/ (file = [] /\ exists f, scripts = [f] /\ FirstThere isfile now reps KNOWN f))) \/
  (r = NoSConstruct /\ file = [] /\ forall f, In f KNOWN -> ~ There isfile now reps f).
Lemma reads : forall now reps file top c, Reads now reps file top c
  (match (match file with [] => match exists_here isfile now reps file with Some s => [s] | None => [] end | _ => file end) with [] => NoSConstruct | scripts => Started now top scripts c end).
Proof.
  intros now reps [|f l] top c; [|left; exists (f :: l); split; [reflexivity | left; split; [discriminate | reflexivity]]].
  unfold exists_here. pose proof (first_of_spec now reps KNOWN) as F. destruct (first_of isfile now reps KNOWN) as [g|].
  - left. exists [g]. split; [reflexivity|]. right. split; [reflexivity|]. exists g. split; [reflexivity | exact F].
  - right. split; [reflexivity|]. split; [reflexivity | exact F].
Qed.
Lemma script_dir_is : forall cwd dirs, match dirs with [] => cwd | _ => walk cwd (create_path dirs) end = Led cwd dirs.
Proof. intros cwd [|d l]; [reflexivity | apply C89a_directories]. Qed.

(* C89b: without -u, -D, -U the run is in the directory the -C options lead to, and reads the files of -f, or else the first of the known names that is there, in this directory or in a repository; without one it is an error *)
Theorem C89b_directory : forall cwd dirs reps file, Led cwd dirs = cwd \/ enter (Led cwd dirs) = true -> Reads (Led cwd dirs) reps file None false (main cwd dirs false reps file).
Proof.
  intros cwd dirs reps file EN. unfold DstModel.main. rewrite script_dir_is. cbv zeta. cbn iota.
  destruct (list_eq_dec (list_eq_dec ascii_dec) (Led cwd dirs) cwd) as [E | N]; [rewrite E; apply reads|]. destruct EN as [E | ->]; [contradiction|]. apply reads.
Qed.

Lemma climb_spec : forall d t file whole, isabs t = false -> walk d t = whole -> (forall n, In n d -> good n) ->
  match climb d t file with
  | (Some top, t') => (exists below, Nearest isfile file d below top) /\ walk top t' = whole /\ isabs t' = false
  | (None, _) => Nowhere isfile file d
  end.
Proof.
  induction d as [|n up IH]; intros t file whole RT WT G; cbn [DstModel.climb]; destruct (exists_in isfile _ file) eqn:E.
  - apply exists_in_spec in E. split; [|split; assumption]. exists []. split; [reflexivity|]. split; [exact E|]. intros b u EQ LT. destruct b; destruct u; try discriminate EQ. cbn [length] in LT. lia.
  - intros b u EQ H. destruct b; destruct u; try discriminate EQ. apply exists_in_spec in H. congruence.
  - apply exists_in_spec in E. split; [|split; assumption]. exists []. split; [reflexivity|]. split; [exact E|]. intros b u EQ LT. apply (f_equal (@length _)) in EQ. rewrite app_length in EQ. lia.
  - assert (good n) as GN by (apply G; left; reflexivity). assert (isabs n = false) as RN. { apply isabs_false. intros r ->. destruct GN as [_ [_ [_ NS]]]. apply NS. left. reflexivity. }
    assert (isabs (path_join n t) = false) as RJ.
    { unfold path_join. rewrite RT. destruct n as [|c n']; [destruct GN as [NE _]; congruence|]. destruct (ends_slash (c :: n')); exact RN. }
    specialize (IH (path_join n t) file whole RJ). assert (walk up (path_join n t) = whole) as WJ by (rewrite walk_path_join, (walk_name up n GN); exact WT). specialize (IH WJ (fun x IN => G x (or_intror IN))).
    assert (~ HasSConstruct isfile file (n :: up)) as NH by (intros H; apply exists_in_spec in H; congruence).
    destruct (climb up (path_join n t) file) as [[top|] t'].
    + destruct IH as [[below [EQ [HT H]]] R]. split; [|exact R]. exists (n :: below). split; [rewrite EQ; reflexivity|]. split; [exact HT|]. intros b u EU LT HU. destruct b as [|y b]; cbn [app] in EU.
      * subst u. exact (NH HU).
      * injection EU as -> EU. exact (H b u EU LT HU).
    + intros b u EU HU. destruct b as [|y b]; cbn [app] in EU; [subst u; exact (NH HU)|]. injection EU as -> EU. exact (IH b u EU HU).
Qed.
(* C89c: with -u, -D or -U the run is in the nearest directory, at or above the one the -C options lead to, that has an SConstruct (or a file of -f), and target_top leads from there to where it would have been; one is found *)
Theorem C89c_climb : forall cwd dirs reps file below top, (forall n, In n cwd -> good n) -> Nearest isfile file (Led cwd dirs) below top -> top = cwd \/ enter top = true ->
  exists t, walk top t = Led cwd dirs /\ isabs t = false /\ Reads top reps file (Some t) false (main cwd dirs true reps file) /\ main cwd dirs true reps file <> NoSConstruct.
Proof.
  intros cwd dirs reps file below top G0 NR EN. pose proof (led_names dirs cwd G0) as G. unfold DstModel.main. rewrite script_dir_is. cbv zeta.
  assert (isabs (lit ".") = false) as RD by reflexivity. assert (walk (Led cwd dirs) (lit ".") = Led cwd dirs) as WD by exact (C89a_directories (Led cwd dirs) []).
  pose proof (climb_spec _ _ file _ RD WD G) as C. destruct (climb (Led cwd dirs) (lit ".") file) as [[top'|] t].
  - destruct C as [[below' [E2 [H2 N2]]] [W R]]. destruct NR as [E1 [H1 N1]].
    assert (length top = length top') as LN.
    { destruct (lt_eq_lt_dec (length top) (length top')) as [[L | L] | L]; [|exact L|]; exfalso; [exact (N1 _ _ E2 L H2) | exact (N2 _ _ E1 L H1)]. }
    assert (top' = top) as ->.
    { rewrite E1 in E2. clear - E2 LN. assert (length below = length below') as LB by (apply (f_equal (@length _)) in E2; rewrite !app_length in E2; lia). revert below' E2 LB. induction below as [|x b IH]; intros [|y b'] E2 LB; try discriminate; [symmetry; exact E2|]. injection E2 as _ E2. injection LB as LB. exact (IH b' E2 LB). }
    exists t. split; [exact W|]. split; [exact R|].
    assert (forall c, let r := (match (match file with [] => match exists_here isfile top reps file with Some s => [s] | None => [] end | _ => file end) with [] => NoSConstruct | scripts => Started top (Some t) scripts c end) in r <> NoSConstruct) as NN.
    { intros c. cbv zeta. destruct file as [|f l]; [|discriminate]. unfold exists_here. pose proof (first_of_spec top reps KNOWN) as F. destruct (first_of isfile top reps KNOWN); [discriminate|].
      destruct H1 as [f [WF IF]]. apply wanted_spec in WF. exfalso. apply (F f WF). left. exact IF. }
    destruct (list_eq_dec (list_eq_dec ascii_dec) top cwd) as [E | N].
    + rewrite <- E. split; [apply reads | apply NN].
    + destruct EN as [E | ->]; [contradiction|]. split; [apply reads | apply NN].
  - exfalso. destruct NR as [E1 [H1 _]]. exact (C _ _ E1 H1).
Qed.
(* C89d: if there is none, from the current directory and without repositories, that is an error *)
Theorem C89d_none : forall cwd, (forall n, In n cwd -> good n) -> Nowhere isfile [] cwd -> main cwd [] true [] [] = NoSConstruct.
Proof.
  intros cwd G NW. unfold DstModel.main. assert (isabs (lit ".") = false) as RD by reflexivity. assert (walk cwd (lit ".") = cwd) as WD by exact (C89a_directories cwd []).
  pose proof (climb_spec _ _ [] _ RD WD G) as C. destruct (climb cwd (lit ".") []) as [[top|] t].
  - exfalso. destruct C as [[below [E [H _]]] _]. exact (NW _ _ E H).
  - unfold exists_here. pose proof (first_of_spec cwd [] KNOWN) as F. destruct (first_of isfile cwd [] KNOWN) as [f|]; [|reflexivity]. exfalso. destruct F as [a [b [E [[T | [_ [rep [[] _]]]] _]]]].
    apply (NW [] cwd eq_refl). exists f. split; [apply wanted_spec; unfold names_of; rewrite E; apply in_or_app; right; left; reflexivity | exact T].
Qed.
(* C89e: if there is none from where the -C options lead upwards, the run stays in the current directory, and reads what is there (or the files of -f) *)
Theorem C89e_fallback : forall cwd dirs reps file, (forall n, In n cwd -> good n) -> Nowhere isfile file (Led cwd dirs) -> exists t, Reads cwd reps file (Some t) false (main cwd dirs true reps file).
Proof.
  intros cwd dirs reps file G0 NW. pose proof (led_names dirs cwd G0) as G. unfold DstModel.main. rewrite script_dir_is. cbv zeta.
  pose proof (climb_spec _ _ file _ (eq_refl : isabs (lit ".") = false) (C89a_directories (Led cwd dirs) []) G) as C. destruct (climb (Led cwd dirs) (lit ".") file) as [[top|] t].
  - exfalso. destruct C as [[below [E [H _]]] _]. exact (NW _ _ E H).
  - exists t. apply reads.
Qed.
End Props.
