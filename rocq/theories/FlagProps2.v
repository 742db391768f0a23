(* C58, second part: the whole of ParseFlags. *)
From Coq Require Import Ascii String List Bool Arith Lia.
Import ListNotations.
From Verif Require Import NameModel NameProps FlagModel FlagSpec FlagProps.
Open Scope list_scope.

(* ---- the longest flag is unique ---- *)
Lemma nodup_flag : forall t r r', NoDup (map flag t) -> In r t -> In r' t -> flag r = flag r' -> r = r'.
Proof.
  induction t as [|x t IH]; intros r r' N H H' E; [destruct H|]. cbn in N. inversion N as [|? ? Hx N2]. subst.
  destruct H as [-> | H]; destruct H' as [-> | H']; [reflexivity | | |apply IH; assumption].
  - exfalso. apply Hx. rewrite E. apply in_map. exact H'.
  - exfalso. apply Hx. rewrite <- E. apply in_map. exact H.
Qed.
Definition std2 : row := mkrow (lit "-std=") false contains_plusplus [(CXXFLAGS, Keep)].
Lemma table_split : forall r, In r table -> r = std2 \/ In r (documented ++ tl undocumented).
Proof.
  intros r H. unfold table in H. apply in_app_or in H. destruct H as [H | H]; [right; apply in_or_app; left; exact H|].
  destruct H as [<- | H]; [left; reflexivity | right; apply in_or_app; right; exact H].
Qed.
Lemma nodup_doc : NoDup (map flag (documented ++ tl undocumented)).
Proof.
  assert (E : nodup str_eq_dec (map flag (documented ++ tl undocumented)) = map flag (documented ++ tl undocumented)) by (vm_compute; reflexivity).
  rewrite <- E. apply NoDup_nodup.
Qed.
Definition std1 : row := mkrow (lit "-std=") false (fun rest => ~ contains_plusplus rest) [(CFLAGS, Keep)].
Lemma std1_in : In std1 (documented ++ tl undocumented).
Proof. unfold documented, undocumented. cbn [app]. repeat ((left; reflexivity) || right). Qed.
Lemma same_prefix : forall (a b r s : str), a ++ r = b ++ s -> length a = length b -> a = b /\ r = s.
Proof.
  induction a as [|x a IH]; intros [|y b] r s E L; try discriminate; [split; [reflexivity | exact E]|].
  cbn in E, L. injection E as -> E. destruct (IH b r s E) as [-> ->]; [lia | split; reflexivity].
Qed.
Lemma best_unique : forall w r, is_option w -> best table r w -> r = rw w.
Proof.
  intros w r Hw (Hi & Ha & Hm). assert (B := rw_best w Hw). destruct B as (Hi2 & Ha2 & Hm2).
  assert (L : length (flag r) = length (flag (rw w))) by (apply Nat.le_antisymm; auto).
  destruct Ha as (x & Ex & Cx & _). destruct Ha2 as (y & Ey & Cy & _). assert (Ey2 : flag r ++ x = flag (rw w) ++ y) by (rewrite <- Ex; exact Ey). destruct (same_prefix _ _ _ _ Ey2 L) as [Ef ->].
  apply table_split in Hi, Hi2. destruct Hi as [-> | Hi]; destruct Hi2 as [E2 | Hi2].
  - symmetry. exact E2.
  - exfalso. assert (rw w = std1) by (apply (nodup_flag _ _ _ nodup_doc Hi2 std1_in); rewrite <- Ef; reflexivity).
    rewrite H in Cy. cbn in Cx, Cy. contradiction.
  - exfalso. rewrite E2 in *. assert (r = std1) by (apply (nodup_flag _ _ _ nodup_doc Hi std1_in); rewrite Ef; reflexivity).
    rewrite H in Cx. cbn in Cx, Cy. contradiction.
  - apply (nodup_flag _ _ _ nodup_doc); assumption.
Qed.

Lemma is_option_dec : forall w, {is_option w} + {~ is_option w}.
Proof.
  intros [|c r]; [right; intros (? & ? & H & _); discriminate|].
  destruct (ascii_dec c "-"%char) as [-> | H1]; [left; exists "-"%char, r; auto|]. destruct (ascii_dec c "+"%char) as [-> | H2]; [left; exists "+"%char, r; auto|].
  right. intros (x & y & E & Hx). injection E as -> ->. destruct Hx; contradiction.
Qed.
Lemma first_word_lib : forall w m, w <> [] -> ~ is_option w -> first_word w m = Ok (adds [(LIBS, PFile w)] m, None).
Proof.
  intros [|c r] m Hw Ho; [congruence|]. cbn [first_word].
  destruct (Ascii.eqb c "-"%char || Ascii.eqb c "+"%char) eqn:E; [|reflexivity].
  exfalso. apply Ho. exists c, r. split; [reflexivity|]. apply orb_true_iff in E. destruct E as [E | E]; apply Ascii.eqb_eq in E; auto.
Qed.

(* ---- the loop reads the words as the specification says, and in no other way ---- *)
Lemma reads_parse : forall ws cs l, reads ws cs l -> forall m, parse_words m None ws = Ok (adds cs m).
Proof.
  intros ws cs l H. induction H as [|w ws cs l Hw Ho H IH|w ws r c cs l Ho Hb Ht Hc H IH|w x ws r c cs l Ho Hb Ht Hc H IH|w r Ho Hb Ht]; intros m; cbn [parse_words].
  - reflexivity.
  - rewrite first_word_lib by assumption. cbn [bind fst snd]. rewrite IH. reflexivity.
  - apply best_unique in Hb; [|exact Ho]. subst r. apply contrib_unique in Hc. subst c. assert (F := first_word_row w m Ho).
    destruct (takes (rw w) w) eqn:T; [apply takes_spec in T; contradiction|]. rewrite F. cbn [bind fst snd]. rewrite IH, adds_app. reflexivity.
  - apply best_unique in Hb; [|exact Ho]. subst r. apply contrib_unique in Hc. subst c. assert (F := first_word_row w m Ho).
    apply takes_spec in Ht. rewrite Ht in F. destruct F as (n & -> & F). cbn [bind fst snd]. rewrite F, IH, adds_app. reflexivity.
  - apply best_unique in Hb; [|exact Ho]. subst r. assert (F := first_word_row w m Ho).
    apply takes_spec in Ht. rewrite Ht in F. destruct F as (n & -> & F). reflexivity.
Qed.
Lemma parse_reads : forall n ws, length ws <= n -> (exists cs l, reads ws cs l) \/ forall m, parse_words m None ws = Err IndexError.
Proof.
  induction n as [|n IH]; intros ws L; [destruct ws; [left; exists [], []; constructor | cbn in L; lia]|].
  destruct ws as [|w ws]; [left; exists [], []; constructor|]. cbn in L.
  destruct (is_option_dec w) as [Ho | Ho].
  - assert (B := rw_best w Ho). destruct (takes (rw w) w) eqn:T.
    + destruct ws as [|x ws]; [left; exists (dangling (rw w) w), [w]; apply reads_dangling with (r := rw w); [exact Ho | exact B | apply takes_spec; exact T]|]. cbn in L.
      destruct (IH ws) as [(cs & l & H) | H]; [lia | |].
      * left. exists (contrib (rw w) w x ++ cs), l. apply reads_flag_next with (r := rw w); [exact Ho | exact B | apply takes_spec; exact T | apply contrib_spec | exact H].
      * right. intros m. cbn [parse_words]. assert (F := first_word_row w m Ho). rewrite T in F. destruct F as (k & -> & F). cbn [bind fst snd]. apply H.
    + destruct (IH ws) as [(cs & l & H) | H]; [lia | |].
      * left. exists (contrib (rw w) w [] ++ cs), l. apply reads_flag with (r := rw w); [exact Ho | exact B | intros H2; apply takes_spec in H2; congruence | apply contrib_spec | exact H].
      * right. intros m. cbn [parse_words]. assert (F := first_word_row w m Ho). rewrite T in F. rewrite F. cbn [bind fst snd]. apply H.
  - destruct w as [|c w]; [right; reflexivity|]. destruct (IH ws) as [(cs & l & H) | H]; [lia | |].
    + left. exists ((LIBS, PFile (c :: w)) :: cs), l. apply reads_library; [discriminate | exact Ho | exact H].
    + right. intros m. cbn [parse_words]. rewrite first_word_lib; [cbn [bind fst snd]; apply H | discriminate | exact Ho].
Qed.
(* the specification determines its results *)
Lemma reads_unique : forall ws cs l, reads ws cs l -> forall cs2 l2, reads ws cs2 l2 -> cs2 = cs /\ l2 = l.
Proof.
  intros ws cs l H. induction H as [|w ws cs l Hw Ho H IH|w ws r c cs l Ho Hb Ht Hc H IH|w x ws r c cs l Ho Hb Ht Hc H IH|w r Ho Hb Ht]; intros cs2 l2 H2;
    inversion H2 as [|w2 ws2 c2 k Hw2 Ho2 H2' |w2 ws2 r2 c2 k k2 Ho2 Hb2 Ht2 Hc2 H2' |w2 x2 ws2 r2 c2 k k2 Ho2 Hb2 Ht2 Hc2 H2' |w2 r2 Ho2 Hb2 Ht2]; subst; try contradiction;
    try (apply best_unique in Hb; [|exact Ho]); try (apply best_unique in Hb2; [|exact Ho]); subst; try contradiction.
  - split; reflexivity.
  - destruct (IH _ _ H2') as [-> ->]. split; reflexivity.
  - destruct (IH _ _ H2') as [-> ->]. apply contrib_unique in Hc, Hc2. subst. split; reflexivity.
  - destruct (IH _ _ H2') as [-> ->]. apply contrib_unique in Hc, Hc2. subst. split; reflexivity.
  - split; reflexivity.
Qed.
Lemma reads_app : forall ws cs, reads ws cs [] -> forall ws2 cs2 l, reads ws2 cs2 l -> reads (ws ++ ws2) (cs ++ cs2) l.
Proof.
  intros ws cs H. remember [] as e eqn:He. induction H as [|w ws cs l Hw Ho H IH|w ws r c cs l Ho Hb Ht Hc H IH|w x ws r c cs l Ho Hb Ht Hc H IH|w r Ho Hb Ht]; intros ws2 cs2 l2 H2; cbn [app].
  - exact H2.
  - apply reads_library; auto.
  - rewrite <- app_assoc. apply reads_flag with (r := r); auto.
  - rewrite <- app_assoc. apply reads_flag_next with (r := r); auto.
  - discriminate.
Qed.
Lemma adds_empty : forall cs v, adds cs empty_mapping v = for_var v cs.
Proof. intros. rewrite adds_spec. reflexivity. Qed.
Lemma for_var_app : forall v a b, for_var v (a ++ b) = for_var v a ++ for_var v b.
Proof. intros. unfold for_var. rewrite filter_app, map_app. reflexivity. Qed.

Section Whole.
Variable bt : str -> res str.
(* the strings among the arguments, whatever the nesting *)
Fixpoint leaves (a : farg) : list str := match a with FStr s => [s] | FSeq l => (fix each l := match l with [] => [] | x :: r => leaves x ++ each r end) l end.
Lemma leaves_seq : forall l, leaves (FSeq l) = flat_map leaves l.
Proof. induction l as [|x l IH]; [reflexivity|]. cbn [flat_map]. rewrite <- IH. reflexivity. Qed.
Fixpoint run_leaves (m : mapping) (l : list str) : res mapping := match l with [] => Ok m | s :: r => bind (parse_string bt m s) (fun m => run_leaves m r) end.
Lemma run_leaves_app : forall a b m, run_leaves m (a ++ b) = bind (run_leaves m a) (fun m => run_leaves m b).
Proof. induction a as [|s a IH]; intros b m; [reflexivity|]. cbn [app run_leaves]. destruct (parse_string bt m s) as [m1|e]; [cbn [bind]; apply IH | reflexivity]. Qed.
Fixpoint fsize (a : farg) : nat := match a with FStr _ => 1 | FSeq l => 1 + (fix each l := match l with [] => 0 | x :: r => fsize x + each r end) l end.
Lemma do_parse_leaves : forall n a m, fsize a <= n -> do_parse bt m a = run_leaves m (leaves a).
Proof.
  induction n as [|n IH]; intros a m L; [destruct a; cbn in L; lia|]. destruct a as [s | l].
  - cbn [do_parse leaves run_leaves]. destruct (parse_string bt m s); reflexivity.
  - revert m L. induction l as [|x l IHl]; intros m L; [reflexivity|].
    assert (Ef : fsize (FSeq (x :: l)) = S (fsize x + (fsize (FSeq l) - 1))) by (cbn; rewrite Nat.sub_0_r; reflexivity). rewrite Ef in L. assert (1 <= fsize (FSeq l)) by (cbn; lia).
    assert (1 <= fsize x) by (destruct x; cbn; lia).
    change (do_parse bt m (FSeq (x :: l))) with (bind (do_parse bt m x) (fun m => do_parse bt m (FSeq l))).
    rewrite leaves_seq. cbn [flat_map]. rewrite run_leaves_app, (IH x m) by lia. rewrite <- leaves_seq.
    destruct (run_leaves m (leaves x)) as [m1|e]; [cbn [bind]; apply IHl; lia | reflexivity].
Qed.
Lemma parse_leaves : forall flags, ParseFlags bt flags = run_leaves empty_mapping (flat_map leaves flags).
Proof. intros. unfold ParseFlags. rewrite (do_parse_leaves (fsize (FSeq flags))) by lia. rewrite leaves_seq. reflexivity. Qed.
(* the words of one string: of the output of the command, if it is one *)
Definition words_of (s : str) (ws : list str) : Prop :=
  (s = [] /\ ws = []) \/ (exists cmd out, s = "!"%char :: cmd /\ bt cmd = Ok out /\ shlex_split out = Ok ws) \/
  (s <> [] /\ (forall cmd, s <> "!"%char :: cmd) /\ shlex_split s = Ok ws).
Lemma parse_string_words : forall s ws m, words_of s ws -> parse_string bt m s = parse_words m None ws.
Proof.
  intros s ws m [[-> ->] | [(cmd & out & -> & Hb & Hs) | (Hn & Hx & Hs)]].
  - reflexivity.
  - cbn [parse_string]. rewrite Ascii.eqb_refl, Hb. cbn [bind]. rewrite Hs. reflexivity.
  - destruct s as [|c s]; [congruence|]. cbn [parse_string]. destruct (Ascii.eqb c "!"%char) eqn:E; [apply Ascii.eqb_eq in E; subst; exfalso; apply (Hx s); reflexivity|].
    cbn [bind]. rewrite Hs. reflexivity.
Qed.
Lemma parse_string_ok : forall s m m', parse_string bt m s = Ok m' -> exists ws, words_of s ws.
Proof.
  intros [|c s] m m' H; [exists []; left; auto|]. cbn [parse_string] in H. destruct (Ascii.eqb c "!"%char) eqn:E.
  - apply Ascii.eqb_eq in E. subst. destruct (bt s) as [out|e] eqn:B; [|discriminate]. cbn [bind] in H. destruct (shlex_split out) as [ws|e] eqn:Sp; [|discriminate].
    exists ws. right. left. exists s, out. auto.
  - cbn [bind] in H. destruct (shlex_split (c :: s)) as [ws|e] eqn:Sp; [|discriminate]. exists ws. right. right. split; [discriminate|]. split; [|exact Sp].
    intros cmd E2. injection E2 as -> _. discriminate.
Qed.

(* the readings, in terms of adds *)
Lemma parse_readings : forall flags m,
  ParseFlags bt flags = Ok m <->
  exists readings, Forall2 (fun s (r : list (var * pv)) => exists ws l, words_of s ws /\ reads ws r l) (flat_map leaves flags) readings /\ m = adds (concat readings) empty_mapping.
Proof.
  intros flags m. rewrite parse_leaves. generalize empty_mapping as m0. generalize (flat_map leaves flags) as ss. clear flags.
  induction ss as [|s ss IH]; intros m0; cbn [run_leaves].
  - split; [intros H; injection H as <-; exists []; split; [constructor | reflexivity]|]. intros (rs & H & ->). inversion H. reflexivity.
  - split.
    + destruct (parse_string bt m0 s) as [m1|e] eqn:P; [|discriminate]. cbn [bind]. intros H. apply IH in H. destruct H as (rs & H & ->).
      destruct (parse_string_ok s m0 m1 P) as (ws & Hw). rewrite (parse_string_words s ws m0 Hw) in P.
      destruct (parse_reads (length ws) ws (le_n _)) as [(cs & l & R) | E]; [|rewrite E in P; discriminate].
      rewrite (reads_parse ws cs l R) in P. injection P as <-. exists (cs :: rs). split; [constructor; [exists ws, l; auto | exact H]|].
      cbn [concat]. rewrite adds_app. reflexivity.
    + intros (rs & H & ->). inversion H as [|? cs ? rs' (ws & l & Hw & R) H2]. subst.
      rewrite (parse_string_words s ws m0 Hw), (reads_parse ws cs l R). cbn [bind]. apply IH. exists rs'. split; [exact H2 |]. cbn [concat]. rewrite adds_app. reflexivity.
Qed.
(* C58a: every variable gets exactly the values of the flags, in order, of all the strings given, each one read by itself as the documented table says. *)
Theorem C58a_flags_go_where_documented : forall flags,
  (forall m, ParseFlags bt flags = Ok m ->
     exists readings, Forall2 (fun s (r : list (var * pv)) => exists ws l, words_of s ws /\ reads ws r l) (flat_map leaves flags) readings /\
                      forall v, m v = for_var v (concat readings)) /\
  (forall readings, Forall2 (fun s (r : list (var * pv)) => exists ws l, words_of s ws /\ reads ws r l) (flat_map leaves flags) readings ->
     exists m, ParseFlags bt flags = Ok m /\ forall v, m v = for_var v (concat readings)).
Proof.
  intros flags. split.
  - intros m H. apply parse_readings in H. destruct H as (rs & H & ->). exists rs. split; [exact H|]. intros v. apply adds_empty.
  - intros rs H. exists (adds (concat rs) empty_mapping). split; [|intros v; apply adds_empty]. apply parse_readings. exists rs. split; [exact H | reflexivity].
Qed.
(* C58b: how the strings are grouped into lists makes no difference *)
Theorem C58b_nesting_is_irrelevant : forall flags flags2, flat_map leaves flags = flat_map leaves flags2 -> ParseFlags bt flags = ParseFlags bt flags2.
Proof. intros flags flags2 E. rewrite !parse_leaves, E. reflexivity. Qed.
(* C58c: nor does it matter how the words are distributed over strings, as long as no flag is separated from its argument *)
Theorem C58c_words_may_be_split : forall flags s ss ws cs before after,
  flat_map leaves flags = before ++ s :: after -> words_of s ws ->
  Forall2 (fun s (p : list str * list (var * pv)) => words_of s (fst p) /\ reads (fst p) (snd p) []) ss cs -> ws = concat (map fst cs) ->
  ParseFlags bt flags = ParseFlags bt (map FStr (before ++ ss ++ after)).
Proof.
  intros flags s ss ws cs before after E Hw H ->. rewrite !parse_leaves, E.
  replace (flat_map leaves (map FStr (before ++ ss ++ after))) with (before ++ ss ++ after).
  2:{ generalize (before ++ ss ++ after) as l. induction l as [|x l IHl]; [reflexivity|]. cbn. rewrite <- IHl. reflexivity. }
  rewrite !run_leaves_app. destruct (run_leaves empty_mapping before) as [m0|e]; [|reflexivity]. cbn [bind].
  rewrite run_leaves_app. cbn [run_leaves]. rewrite (parse_string_words s _ m0 Hw). clear E Hw before flags.
  assert (G : parse_words m0 None (concat (map fst cs)) = Ok (adds (concat (map snd cs)) m0) /\ run_leaves m0 ss = Ok (adds (concat (map snd cs)) m0)).
  { split.
    - apply reads_parse with (l := []). clear m0. induction H as [|x p ss cs [_ R] H IH]; [constructor|]. cbn [map concat]. apply reads_app; assumption.
    - revert m0. induction H as [|x p ss cs [Hw R] H IH]; intros m0; [reflexivity|]. cbn [map concat run_leaves].
      rewrite (parse_string_words x _ m0 Hw), (reads_parse _ _ _ R). cbn [bind]. rewrite IH, adds_app. reflexivity. }
  destruct G as [-> ->]. reflexivity.
Qed.
End Whole.
Print Assumptions C58a_flags_go_where_documented.
Print Assumptions C58b_nesting_is_irrelevant.
Print Assumptions C58c_words_may_be_split.
