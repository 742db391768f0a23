(* C77: long command lines are put into temporary files from which the same arguments are read back. *)
From Coq Require Import Ascii String List Bool Arith ZArith Lia.
From Verif Require Import SubstModel TmpModel TmpSpec.
Import ListNotations.
Open Scope list_scope.

Lemma read_white w s cur : Forall (fun c => white c = true) w -> w <> [] ->
  read Plain false cur (w ++ s) = match cur with Some x => x :: read Plain false None s | None => read Plain false None s end.
Proof.
  intros H N. destruct w as [|c w]; [congruence|]. inversion H as [|? ? Hc Hw]; subst. cbn [app read]. rewrite Hc.
  assert (Q : read Plain false None (w ++ s) = read Plain false None s).
  { clear - Hw. induction w as [|c w IH]; [reflexivity|]. inversion Hw as [|? ? Hc Hw']; subst. cbn [app read]. rewrite Hc. apply IH. exact Hw'. }
  rewrite Q. destruct cur; reflexivity.
Qed.
Lemma neq_eqb (c d : ascii) : c <> d -> Ascii.eqb c d = false.
Proof. apply Ascii.eqb_neq. Qed.
Lemma read_bare a : forall cur s, Forall tame a -> existsb (fun c => Ascii.eqb c blank || Ascii.eqb c tab) a = false ->
  read Plain false (Some cur) (a ++ s) = read Plain false (Some (cur ++ a)) s.
Proof.
  induction a as [|c a IH]; intros cur s H E; [rewrite app_nil_r; reflexivity|].
  inversion H as [|? ? [T1 [T2 [T3 T4]]] Ha]; subst. cbn [existsb] in E. apply orb_false_iff in E. destruct E as [E1 E2]. apply orb_false_iff in E1. destruct E1 as [E0 E1].
  cbn [app read]. destruct (white c) eqn:W.
  - exfalso. destruct (T4 eq_refl) as [-> | ->]; discriminate.
  - rewrite (neq_eqb _ _ T3), (neq_eqb _ _ T1), (neq_eqb _ _ T2). rewrite IH by assumption. rewrite <- app_assoc. reflexivity.
Qed.
Lemma read_quoted a : forall cur s, Forall tame a ->
  read InDouble false (Some cur) (a ++ TmpModel.dquote :: s) = read Plain false (Some (cur ++ a)) s.
Proof.
  induction a as [|c a IH]; intros cur s H; [rewrite app_nil_r; reflexivity|].
  inversion H as [|? ? [T1 [T2 [T3 T4]]] Ha]; subst. cbn [app read].
  rewrite (neq_eqb _ _ T3), (neq_eqb _ _ T2). rewrite IH by assumption. rewrite <- app_assoc. reflexivity.
Qed.
Lemma read_arg a s : Safe a -> read Plain false None (quote_spaces a ++ s) = read Plain false (Some a) s.
Proof.
  intros [N H]. unfold quote_spaces. destruct (existsb (fun c => Ascii.eqb c blank || Ascii.eqb c tab) a) eqn:E.
  - cbn [app]. rewrite <- app_assoc. cbn [app]. change (read Plain false None (TmpModel.dquote :: a ++ TmpModel.dquote :: s)) with (read InDouble false (Some []) (a ++ TmpModel.dquote :: s)).
    rewrite read_quoted by exact H. reflexivity.
  - destruct a as [|c a]; [congruence|].
    assert (R := read_bare (c :: a) [] s H E). cbn [app] in R. refine (eq_trans _ R). clear R. cbn [app read]. destruct (white c) eqn:W; [|reflexivity].
    exfalso. inversion H as [|? ? [T1 [T2 [T3 T4]]] Ha]; subst. cbn [existsb] in E. destruct (T4 W) as [-> | ->]; discriminate.
Qed.
(* C77a: what is written to the temporary file is read back as the arguments of the command *)
Theorem C77a_arguments : forall sep args, sep <> [] -> Forall (fun c => white c = true) sep -> Forall Safe args ->
  forall s program, arg_esc s = quote_spaces -> arg_join s = sep -> arguments (contents s (program :: args)) = args.
Proof.
  intros sep args N W H s program E1 E2. unfold contents, arguments. rewrite E1, E2. cbn [tl]. clear E1 E2 program.
  induction H as [|a args Ha H IH]; [reflexivity|]. destruct args as [|b args].
  - cbn [map join]. rewrite read_arg by exact Ha. reflexivity.
  - change (join sep (map quote_spaces (a :: b :: args))) with (quote_spaces a ++ sep ++ join sep (map quote_spaces (b :: args))).
    rewrite <- !app_assoc, read_arg by exact Ha. rewrite read_white by assumption. rewrite IH. reflexivity.
Qed.

Lemma fold_len (l : list str) : forall z, fold_left (fun n (c : str) => n + Z.of_nat (List.length c))%Z l z = (z + fold_left (fun n (c : str) => n + Z.of_nat (List.length c)) l 0)%Z.
Proof.
  induction l as [|x l IH]; intros z; cbn [fold_left]; [lia|]. rewrite IH. rewrite (IH (0 + Z.of_nat (@List.length ascii x))%Z). lia.
Qed.
Lemma line_length_typed (l : list text) : l <> [] -> line_length l = Z.of_nat (List.length (typed l)).
Proof.
  induction l as [|x l IH]; intros N; [congruence|]. destruct l as [|y l].
  - unfold line_length. cbn [fold_left List.length typed]. lia.
  - assert (E := IH ltac:(discriminate)). clear IH.
    change (typed (x :: y :: l)) with (x ++ " "%char :: typed (y :: l)). rewrite app_length. cbn [List.length].
    unfold line_length in *. cbn [fold_left] in *. rewrite (fold_len l (0 + Z.of_nat (List.length x) + _)%Z). rewrite (fold_len l (0 + _)%Z) in E. cbn [List.length] in *. lia.
Qed.
Definition limit (s : settings) : Z := match maxlinelength s with Some m => m | None => 2048 end.
Definition too_long (s : settings) (words : list text) : Prop := (limit s < Z.of_nat (List.length (typed words)))%Z.

Section History.
Variable mkstemp : disk -> str.
Hypothesis fresh : forall d, get d (mkstemp d) = None.
(* C77b: commands that are short enough, and signatures, are what they would be without temporary files, and leave nothing behind *)
Theorem C77b_short : forall st s target cmd words more sig show, words <> [] ->
  (sig = true \/ ~ too_long s words) <->
  munge mkstemp st s target cmd (words :: more) sig show = (st, Unchanged).
Proof.
  intros st s target cmd words more sig show N. unfold munge, too_long, limit. destruct sig; [split; [reflexivity | left; reflexivity]|].
  cbn [hd]. rewrite (line_length_typed words N). destruct (Z.leb_spec (Z.of_nat (List.length (typed words))) (match maxlinelength s with Some m => m | None => 2048%Z end)) as [L|L].
  - split; [reflexivity | intros _; right; lia].
  - split.
    + intros [Q|Q]; [discriminate | lia].
    + intros Q. exfalso. destruct target as [n|]; [destruct (lookup (n, cmd) (cmdlist st))|]; try discriminate Q; destruct (encode s (contents s words)); discriminate Q.
Qed.

(* in a consistent history a command of a target always stands for the same words *)
Definition Consistent (h : list call) : Prop := forall c c', In c h -> In c' h -> c_target c = c_target c' -> c_cmd c = c_cmd c' ->
  c_lines c = c_lines c' /\ c_set c = c_set c'.
Definition words_of (c : call) : list str := hd [] (c_lines c).
(* the command line is the program and the temporary file f, which is new and holds the arguments *)
Definition Holds (d0 d : disk) (c : call) (l : list str) (f : str) : Prop :=
  l = [hd [] (words_of c); prefix (c_set c) ++ f] /\ get d0 f = None /\ exists t, encode (c_set c) (contents (c_set c) (words_of c)) = Some t /\ get d f = Some t.

Lemma str_eqb_spec a : forall b, str_eqb a b = true <-> a = b.
Proof.
  induction a as [|x a IH]; intros [|y b]; cbn [str_eqb]; split; intros H; try discriminate; try reflexivity.
  - apply andb_true_iff in H. destruct H as [H1 H2]. apply Ascii.eqb_eq in H1. apply IH in H2. congruence.
  - injection H as <- <-. rewrite Ascii.eqb_refl. cbn [andb]. apply IH. reflexivity.
Qed.
Lemma write_other f t d g : g <> f -> get (write f t d) g = get d g.
Proof. intros H. unfold write. cbn [get]. destruct (str_eqb g f) eqn:E; [apply str_eqb_spec in E; congruence | reflexivity]. Qed.
Lemma write_same f t d : get (write f t d) f = Some t.
Proof. unfold write. cbn [get]. rewrite (proj2 (str_eqb_spec f f) eq_refl). reflexivity. Qed.
Lemma key_eqb_spec a b : key_eqb a b = true <-> a = b.
Proof.
  destruct a as [n k], b as [n' k']. unfold key_eqb. cbn [fst snd]. rewrite andb_true_iff, Nat.eqb_eq, str_eqb_spec. split; [intros [-> ->]; reflexivity | intros H; injection H as -> ->; split; reflexivity].
Qed.
Lemma run_snoc h c : forall st st1 rs st2 x, run mkstemp st h = (st1, rs) -> step mkstemp st1 c = (st2, x) -> run mkstemp st (h ++ [c]) = (st2, rs ++ [x]).
Proof.
  induction h as [|c0 h IH]; intros st st1 rs st2 x R E; cbn [app run] in *.
  - injection R as <- <-. rewrite E. reflexivity.
  - destruct (step mkstemp st c0) as [sa xa]. destruct (run mkstemp sa h) as [sb rb] eqn:Rb. injection R as <- <-.
    rewrite (IH sa sb rb st2 x Rb E). reflexivity.
Qed.
Lemma run_length h : forall st st1 rs, run mkstemp st h = (st1, rs) -> List.length rs = List.length h.
Proof.
  induction h as [|c h IH]; intros st st1 rs R; cbn [run] in R; [injection R as <- <-; reflexivity|].
  destruct (step mkstemp st c) as [sa xa]. destruct (run mkstemp sa h) as [sb rb] eqn:Rb. injection R as <- <-. cbn [List.length]. rewrite (IH sa sb rb Rb). reflexivity.
Qed.
Lemma holds_write d0 d c l f g t : get d0 f = None -> get d f = None -> Holds d0 d c l g -> Holds d0 (write f t d) c l g.
Proof.
  intros _ N [E [G [t' [E1 E2]]]]. split; [exact E|]. split; [exact G|]. exists t'. split; [exact E1|]. rewrite write_other; [exact E2|]. intros ->. congruence.
Qed.
Lemma nth_snoc {A} (l : list A) x i y : nth_error (l ++ [x]) i = Some y -> (i < List.length l /\ nth_error l i = Some y) \/ (i = List.length l /\ y = x).
Proof.
  intros H. destruct (Nat.lt_ge_cases i (List.length l)) as [L|L].
  - left. split; [exact L|]. rewrite nth_error_app1 in H by exact L. exact H.
  - right. rewrite nth_error_app2 in H by exact L. destruct (i - List.length l) as [|k] eqn:E; cbn in H; [injection H as <-; split; [lia | reflexivity] | destruct k; discriminate].
Qed.
Lemma nth_snoc_old {A} (l : list A) x i y : nth_error l i = Some y -> nth_error (l ++ [x]) i = Some y.
Proof. intros H. rewrite nth_error_app1; [exact H|]. apply nth_error_Some. congruence. Qed.

(* what a step can do *)
Lemma step_cases st c st' x : step mkstemp st c = (st', x) ->
  (x = Unchanged /\ st' = st) \/ (x = EncodingError /\ st' = st /\ c_sig c = false /\ encode (c_set c) (contents (c_set c) (words_of c)) = None)
  \/ (c_sig c = false /\ (limit (c_set c) < line_length (words_of c))%Z /\
      ((exists n l, c_target c = Some n /\ lookup (n, c_cmd c) (cmdlist st) = Some l /\ x = Words l /\ st' = st)
       \/ (exists t l, (forall n, c_target c = Some n -> lookup (n, c_cmd c) (cmdlist st) = None) /\ encode (c_set c) (contents (c_set c) (words_of c)) = Some t
            /\ l = [hd [] (words_of c); prefix (c_set c) ++ mkstemp (files st)] /\ x = Words l
            /\ files st' = write (mkstemp (files st)) t (files st)
            /\ cmdlist st' = match c_target c with Some n => ((n, c_cmd c), l) :: cmdlist st | None => cmdlist st end
            /\ cleanup st' = mkstemp (files st) :: cleanup st
            /\ messages st' = if c_show c then mkstemp (files st) :: messages st else messages st))).
Proof.
  clear fresh.
  unfold step, munge. fold (words_of c). fold (limit (c_set c)). destruct (c_sig c); [intros H; injection H as <- <-; left; split; reflexivity|].
  destruct (Z.leb_spec (line_length (words_of c)) (limit (c_set c))) as [L|L]; [intros H; injection H as <- <-; left; split; reflexivity|].
  destruct (c_target c) as [n|].
  - destruct (lookup (n, c_cmd c) (cmdlist st)) as [l|] eqn:K.
    + intros H. injection H as <- <-. right. right. split; [reflexivity|]. split; [exact L|]. left. exists n, l. repeat split; try reflexivity. exact K.
    + destruct (encode (c_set c) (contents (c_set c) (words_of c))) as [t|] eqn:Q; intros H; injection H as <- <-.
      * right. right. split; [reflexivity|]. split; [exact L|]. right. eexists t, _. split; [intros m Em; injection Em as <-; exact K|]. repeat split; reflexivity.
      * right. left. repeat split; reflexivity.
  - destruct (encode (c_set c) (contents (c_set c) (words_of c))) as [t|] eqn:Q; intros H; injection H as <- <-.
    + right. right. split; [reflexivity|]. split; [exact L|]. right. eexists t, _. split; [discriminate|]. repeat split; reflexivity.
    + right. left. repeat split; reflexivity.
Qed.

Definition key (c : call) : option (node * str) := match c_target c with Some n => Some (n, c_cmd c) | None => None end.
Record Inv (st0 : state) (h : list call) (rs : list result) (st : state) : Prop := {
  inv_len : List.length rs = List.length h;
  inv_old : forall g, get (files st) g = get (files st0) g \/ (In g (cleanup st) /\ get (files st0) g = None);
  inv_clean : forall g, In g (cleanup st) -> get (files st0) g = None /\ get (files st) g <> None;
  inv_nodup : NoDup (cleanup st);
  inv_memo : forall k l, lookup k (cmdlist st) = Some l -> exists i c f, nth_error h i = Some c /\ nth_error rs i = Some (Words l) /\ key c = Some k /\ Holds (files st0) (files st) c l f;
  inv_res : forall i c l, nth_error h i = Some c -> nth_error rs i = Some (Words l) ->
    c_sig c = false /\ (limit (c_set c) < line_length (words_of c))%Z /\ exists f, In f (cleanup st) /\ Holds (files st0) (files st) c l f;
  inv_diff : forall i j c c' l l' f, nth_error h i = Some c -> nth_error h j = Some c' -> nth_error rs i = Some (Words l) -> nth_error rs j = Some (Words l') ->
    Holds (files st0) (files st) c l f -> Holds (files st0) (files st) c' l' f -> i = j \/ (key c = key c' /\ key c <> None)
}.
Lemma holds_inj d0 d c l f g : Holds d0 d c l f -> Holds d0 d c l g -> f = g.
Proof. intros [E _] [E' _]. rewrite E in E'. injection E' as Q. apply app_inv_head in Q. exact Q. Qed.
Lemma holds_move d0 d d' c l f g : Holds d0 d c l f -> Holds d0 d' c l g -> f = g.
Proof. intros [E _] [E' _]. rewrite E in E'. injection E' as Q. apply app_inv_head in Q. exact Q. Qed.

Lemma inv_step st0 h rs st c st' x : Consistent (h ++ [c]) -> Inv st0 h rs st -> step mkstemp st c = (st', x) -> Inv st0 (h ++ [c]) (rs ++ [x]) st'.
Proof.
  intros Con V E. destruct V as [V1 V2 V3 V4 V5 V6 V7].
  assert (Len : List.length (rs ++ [x]) = List.length (h ++ [c])) by (rewrite !app_length, V1; reflexivity).
  assert (Memo : forall k l, lookup k (cmdlist st) = Some l -> exists i c0 f, nth_error (h ++ [c]) i = Some c0 /\ nth_error (rs ++ [x]) i = Some (Words l) /\ key c0 = Some k /\ Holds (files st0) (files st) c0 l f).
  { intros k l K. destruct (V5 k l K) as [i [c0 [f [A [B [C D]]]]]]. exists i, c0, f. split; [apply nth_snoc_old; exact A|]. split; [apply nth_snoc_old; exact B|]. split; assumption. }
  assert (Old : forall i c0 l, nth_error (h ++ [c]) i = Some c0 -> nth_error (rs ++ [x]) i = Some (Words l) -> (nth_error h i = Some c0 /\ nth_error rs i = Some (Words l)) \/ (i = List.length h /\ c0 = c /\ x = Words l)).
  { intros i c0 l A B. destruct (nth_snoc _ _ _ _ A) as [[La A']|[Ea Ec]]; destruct (nth_snoc _ _ _ _ B) as [[Lb B']|[Eb Q]]; try (exfalso; lia).
    - left. split; assumption.
    - right. split; [exact Ea|]. split; [exact Ec | symmetry; exact Q]. }
  assert (Same : (forall l0, x <> Words l0) -> st' = st -> Inv st0 (h ++ [c]) (rs ++ [x]) st').
  { intros Nx ->. split; try assumption.
    - intros i c0 l A B. destruct (Old i c0 l A B) as [[A' B']|[_ [_ Q]]]; [exact (V6 i c0 l A' B') | exfalso; exact (Nx l Q)].
    - intros i j c0 c1 l l' f A A1 B B1. destruct (Old i c0 l A B) as [[A' B']|[_ [_ Q]]]; [|exfalso; exact (Nx l Q)].
      destruct (Old j c1 l' A1 B1) as [[A1' B1']|[_ [_ Q]]]; [exact (V7 i j c0 c1 l l' f A' A1' B' B1') | exfalso; exact (Nx l' Q)]. }
  destruct (step_cases st c st' x E) as [[Ex Es]|[[Ex [Es _]]|[Sg [L [[n [l0 [T [K [Ex Es]]]]]|[t [l0 [K [Q [El [Ex [F1 [F2 [F3 F4]]]]]]]]]]]]]].
  - apply Same; [intros l; congruence | exact Es].
  - apply Same; [intros l; congruence | exact Es].
  - (* the file made before *)
    subst st' x. clear Same.
    destruct (V5 (n, c_cmd c) l0 K) as [i0 [c0 [f0 [A0 [B0 [C0 D0]]]]]].
    assert (Kc : key c = Some (n, c_cmd c)) by (unfold key; rewrite T; reflexivity).
    assert (Tc : c_target c0 = c_target c /\ c_cmd c0 = c_cmd c).
    { unfold key in C0. destruct (c_target c0) as [m|]; [|discriminate]. injection C0 as -> ->. split; [symmetry; exact T | reflexivity]. }
    destruct Tc as [T1 T2].
    destruct (Con c0 c (in_or_app h [c] c0 (or_introl (nth_error_In _ _ A0))) (in_or_app h [c] c (or_intror (or_introl eq_refl))) T1 T2) as [S1 S2].
    assert (H0 : Holds (files st0) (files st) c l0 f0).
    { destruct D0 as [D1 [D2 [t [D3 D4]]]]. unfold words_of in *. rewrite S1, S2 in *. split; [exact D1|]. split; [exact D2|]. exists t. split; assumption. }
    destruct (V6 i0 c0 l0 A0 B0) as [_ [_ [g [Hg Dg]]]]. assert (g = f0) by exact (holds_inj _ _ _ _ _ _ Dg D0). subst g.
    split; try assumption.
    + intros i c1 l A B. destruct (Old i c1 l A B) as [[A' B']|[_ [-> Q]]]; [exact (V6 i c1 l A' B')|]. injection Q as <-.
      split; [exact Sg|]. split; [exact L|]. exists f0. split; assumption.
    + intros i j c1 c2 l l' f A A1 B B1 H1 H2.
      assert (Z : forall i c1 l f, nth_error h i = Some c1 -> nth_error rs i = Some (Words l) -> Holds (files st0) (files st) c1 l f -> Holds (files st0) (files st) c l0 f -> key c1 = key c /\ key c <> None).
      { clear - V7 A0 B0 C0 D0 H0 Kc. intros i c1 l f A B H1 H2. assert (f = f0) by exact (holds_inj _ _ _ _ _ _ H2 H0). subst f.
        destruct (V7 i i0 c1 c0 l l0 f0 A A0 B B0 H1 D0) as [-> | [Q1 Q2]].
        - assert (c1 = c0) by congruence. subst c1. split; congruence.
        - split; congruence. }
      destruct (Old i c1 l A B) as [[A' B']|[Ei [-> Q]]]; destruct (Old j c2 l' A1 B1) as [[A1' B1']|[Ej [-> Q1]]].
      * exact (V7 i j c1 c2 l l' f A' A1' B' B1' H1 H2).
      * injection Q1 as <-. right. destruct (Z i c1 l f A' B' H1 H2) as [Z1 Z2]. split; [exact Z1 | rewrite Z1; exact Z2].
      * injection Q as <-. right. destruct (Z j c2 l' f A1' B1' H2 H1) as [Z1 Z2]. split; [symmetry; exact Z1 | exact Z2].
      * left. congruence.
  - (* a new file *)
    clear Same. set (f0 := mkstemp (files st)) in *.
    assert (N0 : get (files st) f0 = None) by apply fresh.
    assert (N1 : get (files st0) f0 = None) by (destruct (V2 f0) as [<- | [_ N1]]; assumption).
    assert (N2 : ~ In f0 (cleanup st)) by (intros N2; exact (proj2 (V3 f0 N2) N0)).
    assert (Hnew : Holds (files st0) (files st') c l0 f0).
    { split; [exact El|]. split; [exact N1|]. exists t. split; [exact Q|]. rewrite F1. apply write_same. }
    assert (Hold : forall c1 l f, Holds (files st0) (files st) c1 l f -> Holds (files st0) (files st') c1 l f).
    { intros c1 l f H1. rewrite F1. apply holds_write; assumption. }
    assert (Hback : forall i c1 l f, nth_error h i = Some c1 -> nth_error rs i = Some (Words l) -> Holds (files st0) (files st') c1 l f -> Holds (files st0) (files st) c1 l f /\ f <> f0).
    { intros i c1 l f A B H1. destruct (V6 i c1 l A B) as [_ [_ [g [Hg Dg]]]]. assert (g = f) by exact (holds_move _ _ _ _ _ _ _ Dg H1). subst g.
      split; [exact Dg|]. intros ->. exact (N2 Hg). }
    split.
    + exact Len.
    + intros g. rewrite F1, F3. unfold write. cbn [get]. destruct (str_eqb g f0) eqn:Eg.
      * apply str_eqb_spec in Eg. subst g. right. split; [left; reflexivity | exact N1].
      * destruct (V2 g) as [H1|[H1 H2]]; [left; exact H1 | right; split; [right; exact H1 | exact H2]].
    + intros g. rewrite F1, F3. intros [<- | Hg]; [rewrite write_same; split; [exact N1 | discriminate]|].
      destruct (V3 g Hg) as [H1 H2]. split; [exact H1|]. rewrite write_other; [exact H2 | intros ->; exact (N2 Hg)].
    + rewrite F3. constructor; assumption.
    + intros k l Hk.
      assert (Z : lookup k (cmdlist st) = Some l \/ (key c = Some k /\ l = l0)).
      { rewrite F2 in Hk. destruct (c_target c) as [n|] eqn:T; [|left; exact Hk]. cbn [lookup] in Hk. destruct (key_eqb k (n, c_cmd c)) eqn:Ek; [|left; exact Hk].
        apply key_eqb_spec in Ek. right. unfold key. rewrite T. split; congruence. }
      destruct Z as [Z|[Z ->]].
      * destruct (Memo k l Z) as [i [c1 [f [M1 [M2 [M3 M4]]]]]]. exists i, c1, f. split; [exact M1|]. split; [exact M2|]. split; [exact M3 | apply Hold; exact M4].
      * exists (List.length h), c, f0. split; [rewrite nth_error_app2, Nat.sub_diag by lia; reflexivity|].
        split; [rewrite <- V1, nth_error_app2, Nat.sub_diag, Ex by lia; reflexivity|]. split; [exact Z | exact Hnew].
    + intros i c1 l A B. destruct (Old i c1 l A B) as [[A' B']|[_ [-> Q2]]].
      * destruct (V6 i c1 l A' B') as [W1 [W2 [f [W3 W4]]]]. split; [exact W1|]. split; [exact W2|]. exists f. split; [rewrite F3; right; exact W3 | apply Hold; exact W4].
      * assert (l = l0) by congruence. subst l. split; [exact Sg|]. split; [exact L|]. exists f0. split; [rewrite F3; left; reflexivity | exact Hnew].
    + intros i j c1 c2 l l' f A A1 B B1 H1 H2.
      destruct (Old i c1 l A B) as [[A' B']|[Ei [-> Q1]]]; destruct (Old j c2 l' A1 B1) as [[A1' B1']|[Ej [-> Q2]]].
      * destruct (Hback i c1 l f A' B' H1) as [G1 _]. destruct (Hback j c2 l' f A1' B1' H2) as [G2 _]. exact (V7 i j c1 c2 l l' f A' A1' B' B1' G1 G2).
      * exfalso. destruct (Hback i c1 l f A' B' H1) as [_ G]. apply G. assert (l' = l0) by congruence. subst l'. exact (holds_inj _ _ _ _ _ _ H2 Hnew).
      * exfalso. destruct (Hback j c2 l' f A1' B1' H2) as [_ G]. apply G. assert (l = l0) by congruence. subst l. exact (holds_inj _ _ _ _ _ _ H1 Hnew).
      * left. congruence.
Qed.
Lemma inv_run st0 h : cmdlist st0 = [] -> cleanup st0 = [] -> Consistent h -> forall st rs, run mkstemp st0 h = (st, rs) -> Inv st0 h rs st.
Proof.
  intros C0 C1. induction h as [|c h IH] using rev_ind; intros Con st rs R.
  - cbn [run] in R. injection R as <- <-. split.
    + reflexivity.
    + intros g. left. reflexivity.
    + intros g. rewrite C1. intros [].
    + rewrite C1. constructor.
    + intros k l. rewrite C0. discriminate.
    + intros i c l A. destruct i; discriminate.
    + intros i j c c' l l' f A. destruct i; discriminate.
  - destruct (run mkstemp st0 h) as [st1 rs1] eqn:R1. destruct (step mkstemp st1 c) as [st2 x] eqn:S1.
    rewrite (run_snoc h c st0 st1 rs1 st2 x R1 S1) in R. injection R as <- <-.
    refine (inv_step st0 h rs1 st1 c st2 x Con _ S1). apply IH; [|reflexivity].
    intros a b Ha Hb. apply Con; apply in_or_app; left; assumption.
Qed.
(* C77c: in every consistent history a long command is given as the program and a temporary file of its own, which was not there before,
   and (at every later time) holds its arguments *)
Theorem C77c_history : forall h st0 st rs, cmdlist st0 = [] -> cleanup st0 = [] -> Consistent h -> run mkstemp st0 h = (st, rs) ->
  (forall i c l, nth_error h i = Some c -> nth_error rs i = Some (Words l) -> words_of c <> [] ->
     c_sig c = false /\ too_long (c_set c) (words_of c) /\
     exists f t, l = [hd [] (words_of c); prefix (c_set c) ++ f] /\ get (files st0) f = None
       /\ encode (c_set c) (contents (c_set c) (words_of c)) = Some t /\ get (files st) f = Some t)
  /\ (forall i j c c' p p' f, nth_error h i = Some c -> nth_error h j = Some c' ->
     nth_error rs i = Some (Words [p; prefix (c_set c) ++ f]) -> nth_error rs j = Some (Words [p'; prefix (c_set c') ++ f]) ->
     i = j \/ (c_target c = c_target c' /\ c_cmd c = c_cmd c' /\ c_target c <> None)).
Proof.
  intros h st0 st rs C0 C1 Con R. destruct (inv_run st0 h C0 C1 Con st rs R) as [V1 V2 V3 V4 V5 V6 V7]. split.
  - intros i c l A B N. destruct (V6 i c l A B) as [W1 [W2 [f [W3 [W4 [W5 [t [W6 W7]]]]]]]]. split; [exact W1|].
    split; [unfold too_long; rewrite <- (line_length_typed _ N); exact W2|]. exists f, t. repeat split; assumption.
  - intros i j c c' p p' f A A1 B B1.
    destruct (V6 i c _ A B) as [_ [_ [g [_ H1]]]]. assert (g = f) by (destruct H1 as [H1 _]; injection H1 as _ H1; apply app_inv_head in H1; congruence). subst g.
    destruct (V6 j c' _ A1 B1) as [_ [_ [g [_ H2]]]]. assert (g = f) by (destruct H2 as [H2 _]; injection H2 as _ H2; apply app_inv_head in H2; congruence). subst g.
    destruct (V7 i j c c' _ _ f A A1 B B1 H1 H2) as [-> | [K1 K2]]; [left; reflexivity|]. right. unfold key in *.
    destruct (c_target c) as [n|]; [|congruence]. destruct (c_target c') as [n'|]; [|discriminate]. injection K1 as -> ->. repeat split; congruence.
Qed.
(* C77d: when scons ends the disk is as if there had been no temporary files, whatever the history *)
Lemma clean_run h : forall d0 st st' rs, (forall g, get (files st) g = get d0 g \/ (In g (cleanup st) /\ get d0 g = None)) -> (forall g, In g (cleanup st) -> get d0 g = None /\ get (files st) g <> None) ->
  (exists k, messages st = k /\ NoDup k /\ incl k (cleanup st)) ->
  run mkstemp st h = (st', rs) ->
  (forall g, get (files st') g = get d0 g \/ (In g (cleanup st') /\ get d0 g = None)) /\ (forall g, In g (cleanup st') -> get d0 g = None /\ get (files st') g <> None)
  /\ NoDup (messages st') /\ incl (messages st') (cleanup st').
Proof.
  induction h as [|c h IH]; intros d0 st st' rs V2 V3 M R; cbn [run] in R.
  - injection R as <- <-. destruct M as [k [<- [M1 M2]]]. repeat split; try assumption; apply V3; assumption.
  - destruct (step mkstemp st c) as [s1 x] eqn:S1. destruct (run mkstemp s1 h) as [s2 l] eqn:R2. injection R as <- <-.
    apply (IH d0 s1 s2 l); [| | |exact R2];
    (destruct (step_cases st c s1 x S1) as [[Ex Es]|[[Ex [Es _]]|[Sg [L [[n [l0 [T [K [Ex Es]]]]]|[t [l0 [K [Q [El [Ex [F1 [F2 [F3 F4]]]]]]]]]]]]]];
      [rewrite Es; assumption | rewrite Es; assumption | rewrite Es; assumption |]);
    assert (N0 : get (files st) (mkstemp (files st)) = None) by apply fresh;
    (assert (N1 : get d0 (mkstemp (files st)) = None) by (destruct (V2 (mkstemp (files st))) as [<- | [_ N1]]; assumption));
    (assert (N2 : ~ In (mkstemp (files st)) (cleanup st)) by (intros N2; exact (proj2 (V3 _ N2) N0))).
    + intros g. rewrite F1, F3. unfold write. cbn [get]. destruct (str_eqb g (mkstemp (files st))) eqn:Eg.
      * apply str_eqb_spec in Eg. subst g. right. split; [left; reflexivity | exact N1].
      * destruct (V2 g) as [H1|[H1 H2]]; [left; exact H1 | right; split; [right; exact H1 | exact H2]].
    + intros g. rewrite F1, F3. intros [<- | Hg]; [rewrite write_same; split; [exact N1 | discriminate]|].
      destruct (V3 g Hg) as [H1 H2]. split; [exact H1|]. rewrite write_other; [exact H2 | intros ->; exact (N2 Hg)].
    + exists (messages s1). split; [reflexivity|]. rewrite F4, F3. destruct M as [k [Ek [M1 M2]]]. rewrite Ek. destruct (c_show c).
      * split; [constructor; [intros Q2; exact (N2 (M2 _ Q2)) | exact M1] | intros g [<- | Hg]; [left; reflexivity | right; apply M2; exact Hg]].
      * split; [exact M1 | intros g Hg; right; apply M2; exact Hg].
Qed.
Lemma get_remove f d g : get (remove f d) g = if str_eqb g f then None else get d g.
Proof.
  unfold remove. induction d as [|[x t] d IH]; cbn [filter get fst]; [destruct (str_eqb g f); reflexivity|].
  destruct (str_eqb x f) eqn:X; cbn [negb].
  - apply str_eqb_spec in X. subst x. rewrite IH. destruct (str_eqb g f); reflexivity.
  - cbn [get]. destruct (str_eqb g x) eqn:G; [|exact IH]. apply str_eqb_spec in G. subst g. rewrite X. reflexivity.
Qed.
Lemma remove_all l : forall d g, get (fold_left (fun d f => remove f d) l d) g = if existsb (str_eqb g) l then None else get d g.
Proof.
  induction l as [|f l IH]; intros d g; cbn [fold_left existsb]; [reflexivity|]. rewrite IH, get_remove. destruct (str_eqb g f); [cbn [orb]; destruct (existsb (str_eqb g) l); reflexivity | reflexivity].
Qed.
Theorem C77d_exit : forall h st0 st rs, cleanup st0 = [] -> messages st0 = [] -> run mkstemp st0 h = (st, rs) ->
  (forall g, get (at_exit st) g = get (files st0) g)
  /\ (forall g, get (files st0) g <> None -> get (files st) g = get (files st0) g)
  /\ NoDup (messages st) /\ (forall f, In f (messages st) -> get (files st0) f = None /\ get (files st) f <> None).
Proof.
  intros h st0 st rs C0 M0 R.
  destruct (clean_run h (files st0) st0 st rs) as [A [B [C D]]].
  - intros g. left. reflexivity.
  - intros g. rewrite C0. intros [].
  - exists []. split; [exact M0|]. split; [constructor | intros g []].
  - exact R.
  - split; [|split; [|split]].
    + intros g. unfold at_exit. rewrite remove_all. destruct (existsb (str_eqb g) (cleanup st)) eqn:Q.
      * apply existsb_exists in Q. destruct Q as [f [Hf Ef]]. apply str_eqb_spec in Ef. subst f. symmetry. apply (B g Hf).
      * destruct (A g) as [H|[H _]]; [exact H|]. exfalso. assert (Q2 : existsb (str_eqb g) (cleanup st) = true) by (apply existsb_exists; exists g; split; [exact H | apply str_eqb_spec; reflexivity]). congruence.
    + intros g N. destruct (A g) as [H|[_ H]]; [exact H | congruence].
    + exact C.
    + intros f Hf. apply B. apply D. exact Hf.
Qed.
(* C77e: if the arguments cannot be encoded nothing is left behind; there is no other error *)
Theorem C77e_encoding : forall st c st', step mkstemp st c = (st', EncodingError) -> st' = st /\ encode (c_set c) (contents (c_set c) (words_of c)) = None.
Proof.
  intros st c st' H. destruct (step_cases st c st' _ H) as [[Q _]|[[_ [-> [_ Q]]]|[_ [_ [[n [l0 [_ [_ [Q _]]]]]|[t [l0 [_ [_ [_ [Q _]]]]]]]]]]]; try discriminate.
  split; [reflexivity | exact Q].
Qed.
End History.
Print Assumptions C77a_arguments.
Print Assumptions C77b_short.
Print Assumptions C77c_history.
Print Assumptions C77d_exit.
Print Assumptions C77e_encoding.
