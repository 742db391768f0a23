(* C58, first part: ParseFlags against the documented table. *)
From Coq Require Import Ascii String List Bool Arith Lia.
Import ListNotations.
From Verif Require Import NameModel NameProps FlagModel FlagSpec.
Open Scope list_scope.

Lemma pv_eqb_spec : forall a b, pv_eqb a b = true <-> a = b.
Proof. intros a b. unfold pv_eqb. destruct (pv_eq_dec a b); split; congruence. Qed.
Lemma pv_in_spec : forall x l, pv_in x l = true <-> In x l.
Proof.
  intros x l. unfold pv_in. rewrite existsb_exists. split.
  - intros (y & H & E). apply pv_eqb_spec in E. subst. exact H.
  - intros H. exists x. split; [exact H | apply pv_eqb_spec; reflexivity].
Qed.
Lemma starts : forall s p, startswith s p = true <-> exists r, s = p ++ r.
Proof. intros s p. rewrite startswith_spec. reflexivity. Qed.
Lemma is_opt_spec : forall w s, is_opt w s = true <-> w = lit s.
Proof. intros. apply str_eqb_spec. Qed.
Lemma plusplus : forall s, has_plusplus s = true <-> contains_plusplus s.
Proof.
  unfold contains_plusplus. induction s as [|c s IH]; [split; [discriminate | intros (a & b & E); destruct a; discriminate]|].
  cbn [has_plusplus]. rewrite orb_true_iff, IH. split.
  - intros [H | (a & b & E)].
    + destruct s as [|d s']; [discriminate|]. apply andb_true_iff in H. destruct H as [H1 H2]. apply Ascii.eqb_eq in H1, H2. subst. exists [], s'. reflexivity.
    + exists (c :: a), b. rewrite E. reflexivity.
  - intros (a & b & E). destruct a as [|x a].
    + left. cbn in E. injection E as -> ->. reflexivity.
    + right. cbn in E. injection E as _ ->. exists a, b. reflexivity.
Qed.

(* ---- the row the code uses ---- *)
Definition rw (w : str) : row :=
  if is_opt w "-dylib_file" then word "-dylib_file" [(LINKFLAGS, KeepNext)]
  else if startswith w (lit "-L") then prefix "-L" [(LIBPATH, Attached)]
  else if startswith w (lit "-l") then prefix "-l" [(LIBS, Attached)]
  else if startswith w (lit "-I") then prefix "-I" [(CPPPATH, Attached)]
  else if startswith w (lit "-Wa,") then prefix "-Wa," [(ASFLAGS, Strip); (CCFLAGS, Keep)]
  else if startswith w (lit "-Wl,") then
    if startswith w (lit "-Wl,-rpath=") then prefix "-Wl,-rpath=" [(RPATH, Strip)]
    else if startswith w (lit "-Wl,-R,") then prefix "-Wl,-R," [(RPATH, Strip)]
    else if startswith w (lit "-Wl,-R") then prefix "-Wl,-R" [(RPATH, Strip)]
    else prefix "-Wl," [(LINKFLAGS, Keep)]
  else if startswith w (lit "-Wp,") then prefix "-Wp," [(CPPFLAGS, Keep)]
  else if startswith w (lit "-D") then prefix "-D" [(CPPDEFINES, Attached)]
  else if is_opt w "-framework" then word "-framework" [(FRAMEWORKS, Next)]
  else if startswith w (lit "-frameworkdir=") then prefix "-frameworkdir=" [(FRAMEWORKPATH, Strip)]
  else if startswith w (lit "-F") then prefix "-F" [(FRAMEWORKPATH, Attached)]
  else if is_opt w "-mno-cygwin" then word "-mno-cygwin" [(CCFLAGS, Keep); (LINKFLAGS, Keep)]
  else if is_opt w "-pthread" then word "-pthread" [(CCFLAGS, Keep); (LINKFLAGS, Keep)]
  else if is_opt w "-openmp" then word "-openmp" [(CCFLAGS, Keep); (LINKFLAGS, Keep)]
  else if is_opt w "-fmerge-all-constants" then word "-fmerge-all-constants" [(CCFLAGS, Keep); (LINKFLAGS, Keep)]
  else if is_opt w "-fopenmp" then word "-fopenmp" [(CCFLAGS, Keep); (LINKFLAGS, Keep)]
  else if startswith w (lit "-fsanitize") then prefix "-fsanitize" [(CCFLAGS, Keep); (LINKFLAGS, Keep)]
  else if is_opt w "-mwindows" then word "-mwindows" [(LINKFLAGS, Keep)]
  else if startswith w (lit "-std=") then
    if has_plusplus (skipn 5 w) then mkrow (lit "-std=") false contains_plusplus [(CXXFLAGS, Keep)]
    else mkrow (lit "-std=") false (fun rest => ~ contains_plusplus rest) [(CFLAGS, Keep)]
  else if startswith w (lit "-stdlib=") then prefix "-stdlib=" [(CXXFLAGS, Keep)]
  else if startswith w (lit "+") then prefix "+" [(CCFLAGS, Keep); (LINKFLAGS, Keep)]
  else if is_opt w "-include" then word "-include" [(CCFLAGS, PairFile)]
  else if is_opt w "-imacros" then word "-imacros" [(CCFLAGS, PairFile)]
  else if is_opt w "-isysroot" then word "-isysroot" [(CCFLAGS, Pair); (LINKFLAGS, Pair)]
  else if is_opt w "-isystem" then word "-isystem" [(CCFLAGS, Pair)]
  else if is_opt w "-iquote" then word "-iquote" [(CCFLAGS, Pair)]
  else if is_opt w "-idirafter" then word "-idirafter" [(CCFLAGS, Pair)]
  else if is_opt w "-arch" then word "-arch" [(CCFLAGS, Pair); (LINKFLAGS, Pair)]
  else if is_opt w "--param" then word "--param" [(CCFLAGS, Pair)]
  else prefix "-" [(CCFLAGS, Keep)].

Ltac in_table := unfold table, documented, undocumented, word, prefix; cbn [app]; repeat ((left; reflexivity) || right).
Lemma rw_in : forall w, In (rw w) table.
Proof.
  intros w. unfold rw.
  repeat match goal with |- In (if ?b then _ else _) _ => destruct b; [in_table; fail |] | |- In (if ?b then _ else _) _ => destruct b end; in_table.
Qed.
Lemma applies_word : forall w f d, is_opt w f = true -> applies (word f d) w.
Proof. intros w f d H. apply is_opt_spec in H. subst. exists []. cbn. rewrite app_nil_r. repeat split. Qed.
Lemma applies_prefix : forall w f d, startswith w (lit f) = true -> applies (prefix f d) w.
Proof. intros w f d H. apply starts in H. destruct H as [r ->]. exists r. cbn. repeat split. discriminate. Qed.
Lemma rw_applies : forall w, is_option w -> applies (rw w) w.
Proof.
  intros w (c & r & -> & Hc). unfold rw.
  repeat match goal with
  | |- applies (if is_opt ?w ?f then _ else _) _ => destruct (is_opt w f) eqn:?; [apply applies_word; assumption |]
  | |- applies (if startswith ?w (lit "-Wl,") then _ else _) _ => destruct (startswith w (lit "-Wl,")) eqn:?
  | |- applies (if startswith ?w (lit "-std=") then _ else _) _ => destruct (startswith w (lit "-std=")) eqn:?
  | |- applies (if startswith ?w ?f then _ else _) _ => destruct (startswith w f) eqn:?; [apply applies_prefix; assumption |]
  end.
  - apply applies_prefix; assumption.
  - match goal with H : startswith _ (lit "-std=") = true |- _ => apply starts in H; destruct H as [rest E] end. rewrite E.
    change (skipn 5 (lit "-std=" ++ rest)) with rest.
    destruct (has_plusplus rest) eqn:P; exists rest; (split; [reflexivity | split; [|discriminate]]).
    + apply plusplus. exact P.
    + intros H. apply plusplus in H. congruence.
  - apply applies_prefix. destruct Hc as [-> | ->]; [destruct r; reflexivity|].
    match goal with H : startswith _ (lit "+") = false |- _ => destruct r; discriminate H end.
Qed.
Lemma sw_nil : forall s, startswith s [] = true.
Proof. destruct s; reflexivity. Qed.
Ltac lens :=
  match goal with
  | |- _ <= length (flag (if ?b then _ else _)) =>
    first [ let H := fresh in assert (H : b = false) by reflexivity; rewrite H; clear H
          | let H := fresh in assert (H : b = true) by first [reflexivity | cbn; apply sw_nil]; rewrite H; clear H
          | destruct b ]; lens
  | _ => cbn; lia
  end.
Lemma rw_longest : forall w r, In r table -> applies r w -> length (flag r) <= length (flag (rw w)).
Proof.
  intros w r Hr (rest & -> & _ & Hx). unfold table, documented, undocumented, word, prefix in Hr. cbn [app In] in Hr.
  repeat match type of Hr with
  | _ \/ _ => destruct Hr as [<- | Hr]
  | False => contradiction
  end;
  cbn [flag exact] in *;
  try (rewrite (Hx eq_refl); vm_compute; lia);
  clear Hx; unfold rw; lens.
Qed.
Lemma rw_best : forall w, is_option w -> best table (rw w) w.
Proof. intros w H. split; [apply rw_in|]. split; [apply rw_applies; exact H|]. intros r' H1 H2. apply rw_longest; assumption. Qed.

(* ---- what a row contributes, as a function ---- *)
Definition tvalue (v : var) (t : str) : pv := match v with CPPDEFINES => define_entry t | _ => PStr t end.
Definition contrib1 (r : row) (w next : str) (d : var * shape) : list (var * pv) :=
  map (pair (fst d))
    match snd d with
    | Keep => [PStr w] | Strip => [PStr (rest_of r w)]
    | Attached => [tvalue (fst d) (match rest_of r w with [] => next | t => t end)]
    | Next => [PStr next] | Pair => [PTuple [PStr w; PStr next]] | PairFile => [PTuple [PStr w; PFile next]] | KeepNext => [PStr w; PStr next]
    end.
Definition contrib (r : row) (w next : str) : list (var * pv) := flat_map (contrib1 r w next) (dests r).
Definition takes (r : row) (w : str) : bool :=
  existsb (fun d => match snd d with Keep | Strip => false | Attached => match rest_of r w with [] => true | _ => false end | _ => true end) (dests r).

Lemma split_on_eq : forall t, (~ In EQC t /\ split_on EQC t = [t]) \/ exists n v, t = n ++ EQC :: v /\ ~ In EQC n /\ split_on EQC t = n :: split_on EQC v.
Proof.
  induction t as [|c t IH]; [left; split; [intros [] | reflexivity]|]. cbn [split_on]. destruct (Ascii.eqb c EQC) eqn:E.
  - apply Ascii.eqb_eq in E. subst. right. exists [], t. split; [reflexivity|]. split; [intros [] | reflexivity].
  - apply Ascii.eqb_neq in E. destruct IH as [[Hn ->] | (n & v & -> & Hn & ->)].
    + left. split; [intros [H | H]; [congruence | contradiction] | reflexivity].
    + right. exists (c :: n), v. split; [reflexivity|]. split; [intros [H | H]; [congruence | contradiction] | reflexivity].
Qed.
Lemma join_split : forall t, join_with EQC (split_on EQC t) = t.
Proof.
  intros t. remember (length t) as n eqn:En. revert t En. induction n as [n IHn] using lt_wf_ind. intros t En.
  destruct (split_on_eq t) as [[_ ->] | (a & v & -> & _ & ->)]; [reflexivity|]. rewrite app_length in En. cbn in En.
  assert (Hv : join_with EQC (split_on EQC v) = v) by (apply (IHn (length v)); [lia | reflexivity]).
  destruct (split_on EQC v) as [|x l] eqn:Ev; [destruct (split_on_eq v) as [[_ E] | (? & ? & _ & _ & E)]; congruence|].
  change (join_with EQC (a :: x :: l)) with (a ++ EQC :: join_with EQC (x :: l)). rewrite Hv. reflexivity.
Qed.
Lemma define_entry_spec : forall t, (~ In EQC t /\ define_entry t = PStr t) \/ exists n v, t = n ++ EQC :: v /\ ~ In EQC n /\ define_entry t = PList [PStr n; PStr v].
Proof.
  intros t. unfold define_entry. destruct (split_on_eq t) as [[Hn ->] | (n & v & -> & Hn & ->)]; [left; split; [exact Hn | reflexivity]|].
  right. exists n, v. split; [reflexivity|]. split; [exact Hn|]. generalize (join_split v).
  destruct (split_on EQC v) as [|x l] eqn:E; [destruct (split_on_eq v) as [[_ E2] | (? & ? & _ & _ & E2)]; congruence|]. intros ->. reflexivity.
Qed.
Lemma tvalue_spec : forall v t, text_value v t (tvalue v t).
Proof.
  intros v t. destruct v; cbn; try reflexivity. unfold define_value.
  destruct (define_entry_spec t) as [[Hn ->] | (n & x & -> & Hn & ->)]; [left; split; [exact Hn | reflexivity] | right; exists n, x; repeat split; exact Hn].
Qed.
Lemma eq_first : forall n v n2 v2, n ++ EQC :: v = n2 ++ EQC :: v2 -> ~ In EQC n -> ~ In EQC n2 -> n = n2 /\ v = v2.
Proof.
  induction n as [|c n IH]; intros v n2 v2 E H1 H2; destruct n2 as [|c2 n2]; cbn in E.
  - split; congruence.
  - exfalso. apply H2. left. congruence.
  - exfalso. apply H1. left. congruence.
  - injection E as -> E. destruct (IH v n2 v2 E) as [-> ->]; [intros H; apply H1; right; exact H | intros H; apply H2; right; exact H | split; reflexivity].
Qed.
Lemma text_value_unique : forall v t x, text_value v t x -> x = tvalue v t.
Proof.
  intros v t x. destruct v; cbn; try (intros ->; reflexivity).
  intros [[Hn ->] | (n & y & E & Hn & ->)]; destruct (define_entry_spec t) as [[Hn2 ->] | (n2 & y2 & E2 & Hn2 & ->)]; try reflexivity.
  - exfalso. apply Hn. rewrite E2. apply in_or_app. right. left. reflexivity.
  - exfalso. apply Hn2. rewrite E. apply in_or_app. right. left. reflexivity.
  - rewrite E in E2. destruct (eq_first n y n2 y2 E2 Hn Hn2) as [-> ->]. reflexivity.
Qed.
Lemma contrib1_spec : forall r w x d, contributes r w x d (map snd (contrib1 r w x d)).
Proof.
  intros r w x [v s]. unfold contrib1, contributes. cbn [fst snd]. rewrite map_map. cbn [snd]. rewrite map_id.
  destruct s; try reflexivity. eexists. split; [apply tvalue_spec | reflexivity].
Qed.
Lemma contrib_spec : forall r w x, contribution r w x (dests r) (contrib r w x).
Proof.
  intros r w x. unfold contrib. generalize (dests r) as ds. induction ds as [|d ds IH]; cbn [flat_map]; [constructor|].
  replace (contrib1 r w x d) with (map (pair (fst d)) (map snd (contrib1 r w x d))); [constructor; [apply contrib1_spec | exact IH]|].
  unfold contrib1. rewrite !map_map. reflexivity.
Qed.
Lemma contrib1_unique : forall r w x d xs, contributes r w x d xs -> map (pair (fst d)) xs = contrib1 r w x d.
Proof.
  intros r w x [v s] xs. unfold contributes, contrib1. cbn [fst snd]. destruct s; try (intros ->; reflexivity).
  intros (y & Hy & ->). apply text_value_unique in Hy. subst. reflexivity.
Qed.
Lemma contrib_unique : forall r w x c, contribution r w x (dests r) c -> c = contrib r w x.
Proof.
  intros r w x c. unfold contrib. generalize (dests r) as ds. intros ds H. induction H as [|d ds xs cs Hd H IH]; [reflexivity|].
  cbn [flat_map]. rewrite (contrib1_unique _ _ _ _ _ Hd), IH. reflexivity.
Qed.
Lemma takes_spec : forall r w, takes r w = true <-> takes_next r w.
Proof.
  intros r w. unfold takes, takes_next. rewrite existsb_exists. split.
  - intros ([v s] & Hd & H). exists v, s. split; [exact Hd|]. cbn in H. destruct s; try discriminate; try exact Logic.I. destruct (rest_of r w); [reflexivity | discriminate].
  - intros (v & s & Hd & H). exists (v, s). split; [exact Hd|]. cbn. destruct s; try reflexivity; try contradiction. rewrite H. reflexivity.
Qed.

(* ---- the mapping ---- *)
Definition adds (cs : list (var * pv)) (m : mapping) : mapping := fold_left (fun m c => madd (fst c) (snd c) m) cs m.
Lemma adds_spec : forall cs m v, adds cs m v = m v ++ for_var v cs.
Proof.
  unfold adds, for_var. induction cs as [|[u x] cs IH]; intros m v; cbn [fold_left filter map fst snd]; [rewrite app_nil_r; reflexivity|].
  rewrite IH. unfold madd. cbn [fst snd]. destruct (var_eq_dec v u) as [-> | H]; destruct (var_eq_dec u _) as [E | H2]; try congruence.
  - cbn [map snd]. rewrite <- app_assoc. reflexivity.
Qed.
Lemma adds_app : forall a b m, adds (a ++ b) m = adds b (adds a m).
Proof. intros. unfold adds. apply fold_left_app. Qed.

Lemma first_word_row : forall w m, is_option w ->
  if takes (rw w) w
  then exists n, first_word w m = Ok (adds (dangling (rw w) w) m, Some n) /\ forall x, second_word n x (adds (dangling (rw w) w) m) = adds (contrib (rw w) w x) m
  else first_word w m = Ok (adds (contrib (rw w) w []) m, None).
Proof.
  intros w m (c & r & -> & Hc). unfold first_word. set (w := c :: r).
  replace (negb (Ascii.eqb c "-"%char || Ascii.eqb c "+"%char)) with false by (destruct Hc as [-> | ->]; reflexivity).
  replace (Ascii.eqb c "+"%char) with (startswith w (lit "+")) by (unfold w; cbn; rewrite sw_nil, andb_true_r; reflexivity).
  clearbody w. clear c r Hc. unfold rw, attached, both.
  Local Ltac crunch := cbv [takes contrib dangling contrib1 rest_of dests prefix word flag existsb flat_map snd fst app map orb tvalue adds fold_left append_define];
    cbn [length lit list_ascii_of_string].
  Local Ltac ex_word E := apply is_opt_spec in E; subst; cbn [orb]; crunch; first [reflexivity | eexists; split; [reflexivity | intros; reflexivity]].
  Local Ltac pre_word := cbn [orb]; crunch; try reflexivity;
    match goal with |- context [skipn ?n ?w] => destruct (skipn n w); [eexists; split; [reflexivity | intros; reflexivity] | reflexivity] end.
  repeat match goal with
  | |- context [is_opt w ?f] => let E := fresh "E" in destruct (is_opt w f) eqn:E; [ex_word E |]
  | |- context [startswith w (lit "-Wl,")] => let E := fresh "E" in destruct (startswith w (lit "-Wl,")) eqn:E
  | |- context [startswith w (lit "-std=")] => let E := fresh "E" in destruct (startswith w (lit "-std=")) eqn:E
  | |- context [startswith w ?f] => let E := fresh "E" in destruct (startswith w f) eqn:E; [pre_word |]
  end; try pre_word.
  destruct (has_plusplus (skipn 5 w)); pre_word.
Qed.
