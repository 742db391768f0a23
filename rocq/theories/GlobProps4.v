(* C63: the theorems *)
From Coq Require Import Ascii String List Bool Arith Lia Permutation Sorted.
Import ListNotations. Open Scope list_scope.
From Verif Require Import NameModel OptModel OptProps TgtModel TgtSpec TgtProps2 GlobModel GlobSpec GlobProps GlobProps2 GlobProps3.

Lemma wle_lex : forall a b, wle a b = true <-> lex_le a b.
Proof.
  intros a. induction a as [|x a IH]; intros b; [split; [intros _; constructor | reflexivity]|]. destruct b as [|y b]; [split; [discriminate | intros H; inversion H]|].
  cbn [wle]. destruct (Nat.ltb_spec (nat_of_ascii x) (nat_of_ascii y)); [split; [intros _; apply lex_lt; assumption | reflexivity]|].
  destruct (Nat.ltb_spec (nat_of_ascii y) (nat_of_ascii x)).
  - split; [discriminate|]. intros K. inversion K; subst; lia.
  - assert (E : nat_of_ascii x = nat_of_ascii y) by lia. assert (E2 : x = y) by (rewrite <- (ascii_nat_embedding x), <- (ascii_nat_embedding y), E; reflexivity). subst y. rewrite IH. split; [intros K; apply lex_eq; exact K|]. intros K. inversion K; subst; [lia | assumption].
Qed.
Lemma sorted_lex : forall show l, StronglySorted (by_key (str show)) l -> StronglySorted (fun a b => lex_le (res_str show a) (res_str show b)) l.
Proof.
  intros show l H. induction H as [|a l H IH F]; constructor; [exact IH|]. eapply Forall_impl; [|exact F]. intros b K. unfold by_key in K. apply wle_lex in K. destruct a, b; exact K.
Qed.
(* C63a: Glob gives exactly the nodes that the pattern finds, level by level, and that no exclude pattern excludes, once each and sorted *)
Theorem C63a_nodes : forall isfile isdir src_isdir listing search top cwd show set_order ondisk st w base levels source exclude,
  searching search -> disk_names listing -> agree isfile isdir src_isdir listing search st -> some_order set_order -> tree st ->
  pattern top cwd w base levels -> opened st base -> Forall (ready top cwd st) exclude ->
  exists l st', glob isfile isdir src_isdir listing search top show set_order st cwd w ondisk source false exclude = Some (l, st') /\
    (forall r, In r l <-> exists p, r = RNode p /\ found isfile isdir src_isdir listing search ondisk st (excluded_node show isfile isdir src_isdir listing search ondisk st top cwd exclude) base levels p) /\
    NoDup l /\ StronglySorted (fun a b => lex_le (res_str show a) (res_str show b)) l.
Proof.
  intros isfile isdir src_isdir listing search top cwd show set_order ondisk st w base levels source exclude SE DN AG SO T PA OP R.
  destruct (glob_ok isfile isdir src_isdir listing search top cwd show set_order ondisk st SE DN AG SO w base levels source false exclude st T PA OP R (Inv_start _ _ _ _ _ top show _ _ T) (grew_refl _)) as (l & st' & A1 & A2 & A3 & A4 & A5 & _).
  destruct (A5 eq_refl) as (B1 & B2 & _). exists l, st'. split; [exact A1|]. split; [exact B2|]. split; [exact B1 | apply sorted_lex; exact A4].
Qed.
(* C63b: with strings=True the same as strings: the name, below the string of the directory if the pattern has a directory part *)
Theorem C63b_strings : forall isfile isdir src_isdir listing search top cwd show set_order ondisk st w base levels source exclude,
  searching search -> disk_names listing -> agree isfile isdir src_isdir listing search st -> some_order set_order -> tree st ->
  pattern top cwd w base levels -> opened st base -> Forall (ready top cwd st) exclude ->
  exists l st', glob isfile isdir src_isdir listing search top show set_order st cwd w ondisk source true exclude = Some (l, st') /\
    (forall r, In r l <-> exists t, r = RStr t /\ found_string show isfile isdir src_isdir listing search ondisk st (excluded_node show isfile isdir src_isdir listing search ondisk st top cwd exclude) w base levels t /\
       ~ excluded_string show isfile isdir src_isdir listing search ondisk st top cwd exclude t) /\
    StronglySorted (fun a b => lex_le (res_str show a) (res_str show b)) l.
Proof.
  intros isfile isdir src_isdir listing search top cwd show set_order ondisk st w base levels source exclude SE DN AG SO T PA OP R.
  destruct (glob_ok isfile isdir src_isdir listing search top cwd show set_order ondisk st SE DN AG SO w base levels source true exclude st T PA OP R (Inv_start _ _ _ _ _ top show _ _ T) (grew_refl _)) as (l & st' & A1 & A2 & A3 & A4 & _ & A6).
  exists l, st'. split; [exact A1|]. split; [exact (A6 eq_refl) | apply sorted_lex; exact A4].
Qed.
(* C63d: what Glob does to the nodes: all stay, those known as file or directory as such; new ones are names that were there, in a directory searched; what it gives are nodes; and a second Glob gives the same *)
Theorem C63d_nodes_after : forall isfile isdir src_isdir listing search top cwd show set_order ondisk st w base levels source exclude,
  searching search -> disk_names listing -> agree isfile isdir src_isdir listing search st -> some_order set_order -> tree st ->
  pattern top cwd w base levels -> opened st base -> Forall (ready top cwd st) exclude ->
  forall l st', glob isfile isdir src_isdir listing search top show set_order st cwd w ondisk source false exclude = Some (l, st') ->
    (forall p c, In (p, c) st -> exists c', In (p, c') st' /\ (c <> CEntry -> c' = c)) /\
    (forall p c, In (p, c) st' -> is_known st p \/ exists d n, p = d ++ [n] /\ there listing search ondisk st d n) /\
    (forall p, In (RNode p) l -> is_known st' p) /\
    forall w2 base2 levels2 exclude2, pattern top cwd w2 base2 levels2 -> opened st base2 -> Forall (ready top cwd st) exclude2 ->
      exists l1 st1 l2 st2, glob isfile isdir src_isdir listing search top show set_order st cwd w2 ondisk source false exclude2 = Some (l1, st1) /\
        glob isfile isdir src_isdir listing search top show set_order st' cwd w2 ondisk source false exclude2 = Some (l2, st2) /\ Permutation l1 l2.
Proof.
  intros isfile isdir src_isdir listing search top cwd show set_order ondisk st w base levels source exclude SE DN AG SO T PA OP R l st' E.
  destruct (glob_ok isfile isdir src_isdir listing search top cwd show set_order ondisk st SE DN AG SO w base levels source false exclude st T PA OP R (Inv_start _ _ _ _ _ top show _ _ T) (grew_refl _)) as (l0 & st0 & A1 & A2 & A3 & A4 & A5 & _).
  rewrite E in A1. injection A1 as <- <-. destruct (A5 eq_refl) as (B1 & B2 & B3). split; [exact A3|]. split; [|split].
  - intros p c H. destruct (i_names _ _ _ _ _ _ _ _ A2 p c H) as (d & n & -> & _). destruct (i_new _ _ _ _ _ _ _ _ A2 d n c H) as [K|K]; [left; exact K | right; eauto].
  - exact B3.
  - intros w2 base2 levels2 exclude2 PA2 OP2 R2.
    destruct (glob_ok isfile isdir src_isdir listing search top cwd show set_order ondisk st SE DN AG SO w2 base2 levels2 source false exclude2 st T PA2 OP2 R2 (Inv_start _ _ _ _ _ top show _ _ T) (grew_refl _)) as (l1 & st1 & C1 & C2 & C3 & C4 & C5 & _).
    destruct (glob_ok isfile isdir src_isdir listing search top cwd show set_order ondisk st SE DN AG SO w2 base2 levels2 source false exclude2 st' T PA2 OP2 R2 A2 A3) as (l2 & st2 & D1 & D2 & D3 & D4 & D5 & _).
    exists l1, st1, l2, st2. split; [exact C1|]. split; [exact D1|]. destruct (C5 eq_refl) as (F1 & F2 & _). destruct (D5 eq_refl) as (G1 & G2 & _). apply NoDup_Permutation; [exact F1 | exact G1|]. intros r. rewrite F2, G2. reflexivity.
Qed.
(* C63c: the result does not depend on the order in which the disk lists names or sets are iterated, if different nodes have different strings *)
Section Order.
Variable isfile isdir src_isdir : path -> bool.
Variables listing1 listing2 : path -> option (list word).
Variable search : path -> list path.
Variable ondisk : bool.
Variable st : nodes.
Hypothesis SL : forall s n, (exists l, listing1 s = Some l /\ In n l) <-> (exists l, listing2 s = Some l /\ In n l).
Lemma there_same : forall d n, there listing1 search ondisk st d n <-> there listing2 search ondisk st d n.
Proof. intros d n. unfold there. split; intros (s & Hs & [K|(O & K)]); exists s; (split; [exact Hs|]); [left; exact K | right; split; [exact O | apply SL; exact K] | left; exact K | right; split; [exact O | apply SL; exact K]]. Qed.
End Order.
Lemma found_same : forall isfile isdir src_isdir listing1 listing2 search ondisk st ex1 ex2 base, (forall s n, (exists l, listing1 s = Some l /\ In n l) <-> (exists l, listing2 s = Some l /\ In n l)) -> (forall p, ex1 p <-> ex2 p) ->
  forall l p, found isfile isdir src_isdir listing1 search ondisk st ex1 base l p -> found isfile isdir src_isdir listing2 search ondisk st ex2 base l p.
Proof.
  intros isfile isdir src_isdir listing1 listing2 search ondisk st ex1 ex2 base SL EX l p H. induction H as [|l c d n H1 IH H2 H3 H4 H5]; [constructor|]. apply found_level; auto; [|rewrite <- EX; exact H5].
  apply (there_same listing1 listing2 search ondisk st SL). exact H3.
Qed.
Lemma found_less : forall isfile isdir src_isdir listing search ondisk st ex base levels p, found isfile isdir src_isdir listing search ondisk st ex base levels p -> found isfile isdir src_isdir listing search ondisk st none_excluded base levels p.
Proof. intros isfile isdir src_isdir listing search ondisk st ex base levels p H. induction H as [|l c d n H IH D TH SH E]; [constructor|]. apply found_level; auto. Qed.
Theorem C63c_order : forall isfile isdir src_isdir listing1 listing2 search top cwd show set_order1 set_order2 ondisk st w base levels source exclude,
  searching search -> disk_names listing1 -> disk_names listing2 -> agree isfile isdir src_isdir listing1 search st -> agree isfile isdir src_isdir listing2 search st -> some_order set_order1 -> some_order set_order2 -> tree st ->
  pattern top cwd w base levels -> opened st base -> Forall (ready top cwd st) exclude ->
  (forall s n, (exists l, listing1 s = Some l /\ In n l) <-> (exists l, listing2 s = Some l /\ In n l)) -> 
  (forall p q, found isfile isdir src_isdir listing1 search ondisk st none_excluded base levels p -> found isfile isdir src_isdir listing1 search ondisk st none_excluded base levels q -> show p = show q -> p = q) ->
  exists l st1 st2, glob isfile isdir src_isdir listing1 search top show set_order1 st cwd w ondisk source false exclude = Some (l, st1) /\
    glob isfile isdir src_isdir listing2 search top show set_order2 st cwd w ondisk source false exclude = Some (l, st2).
Proof.
  intros isfile isdir src_isdir listing1 listing2 search top cwd show set_order1 set_order2 ondisk st w base levels source exclude SE DN1 DN2 AG1 AG2 SO1 SO2 T PA OP R SL SI.
  destruct (glob_ok isfile isdir src_isdir listing1 search top cwd show set_order1 ondisk st SE DN1 AG1 SO1 w base levels source false exclude st T PA OP R (Inv_start _ _ _ _ _ top show _ _ T) (grew_refl _)) as (l1 & st1 & A1 & A2 & A3 & A4 & A5 & _).
  destruct (glob_ok isfile isdir src_isdir listing2 search top cwd show set_order2 ondisk st SE DN2 AG2 SO2 w base levels source false exclude st T PA OP R (Inv_start _ _ _ _ _ top show _ _ T) (grew_refl _)) as (l2 & st2 & B1 & B2 & B3 & B4 & B5 & _).
  destruct (A5 eq_refl) as (C1 & C2 & _). destruct (B5 eq_refl) as (D1 & D2 & _). exists l1, st1, st2. split; [exact A1|]. rewrite B1. f_equal. f_equal. symmetry.
  assert (SL' : forall s n, (exists l, listing2 s = Some l /\ In n l) <-> (exists l, listing1 s = Some l /\ In n l)) by (intros s n; symmetry; apply SL).
  assert (EX : forall la lb, (forall s n, (exists l, la s = Some l /\ In n l) <-> (exists l, lb s = Some l /\ In n l)) -> forall p, excluded_node show isfile isdir src_isdir la search ondisk st top cwd exclude p -> excluded_node show isfile isdir src_isdir lb search ondisk st top cwd exclude p).
  { intros la lb Hab p (x & b & l & e & X1 & X2 & X3 & X4). exists x, b, l, e. split; [exact X1|]. split; [exact X2|]. split; [|exact X4]. eapply found_same; [exact Hab | reflexivity | exact X3]. }
  apply (sorted_one (str show)); [exact A4 | exact B4 | |].
  - apply NoDup_Permutation; [exact C1 | exact D1|]. intros r. rewrite C2, D2. split; intros (p & -> & H); exists p; (split; [reflexivity|]); (eapply found_same; [| |exact H]); auto; intros q; split; apply EX; auto.
  - intros a b Ha Hb K. apply C2 in Ha. apply C2 in Hb. destruct Ha as (p & -> & Fp). destruct Hb as (q & -> & Fq). cbn [str] in K. f_equal. apply SI; [eapply found_less; exact Fp | eapply found_less; exact Fq | exact K].
Qed.
(* C63f: a fixed directory part of the pattern becomes a directory node first, with the directories above it, or Glob fails because there is a file *)
Lemma make_ok : forall isfile isdir rp st, NoDup (map fst st) -> (forall p c, In (p, c) st -> p <> []) ->
  (exists st1, make isfile isdir st rp CDir = Some st1 /\ opening isfile st (rev rp) st1 /\ NoDup (map fst st1)) \/ (make isfile isdir st rp CDir = None /\ exists q r, rev rp = q ++ r /\ (In (q, CFile) st \/ isfile q = true)).
Proof.
  intros isfile isdir rp. induction rp as [|x rp IH]; intros st ND NE.
  - left. exists st. split; [reflexivity|]. split; [|exact ND]. split; [left; reflexivity|]. split; [intros p c H; exists c; auto | auto].
  - cbn [make]. set (p := rev (x :: rp)). assert (P : p <> []) by (unfold p; cbn [rev]; apply snoc_ne). destruct (cls_of st p) as [k|] eqn:E.
    + apply cls_in in E; [|exact ND | exact P]. destruct k.
      * left. exists (set_cls st p CDir). split; [reflexivity|]. split; [|rewrite set_cls_fst; exact ND]. split; [right; apply set_cls_in; right; eauto|]. split.
        -- intros q c H. destruct (dec_path q p) as [->|N]; [exists CDir; split; [apply set_cls_in; right; eauto|]; intros X; exfalso; apply X; eapply one_cls; eassumption | exists c; split; [apply set_cls_in; left; auto | auto]].
        -- intros q c H. apply set_cls_in in H. destruct H as [(_ & H)|(-> & -> & _)]; [auto | right; split; [reflexivity | exists []; rewrite app_nil_r; reflexivity]].
      * right. split; [reflexivity|]. exists p, []. rewrite app_nil_r. auto.
      * left. exists st. split; [reflexivity|]. split; [|exact ND]. split; [right; exact E|]. split; [intros q c H; exists c; auto | auto].
    + destruct (IH st ND NE) as [(st1 & M & (O1 & O2 & O3) & ND1)|(M & q & r & Q1 & Q2)]; rewrite M.
      * destruct (isfile p) eqn:F; [right; split; [reflexivity|]; exists p, []; rewrite app_nil_r; auto|]. left. exists (st1 ++ [(p, CDir)]). split; [reflexivity|].
        assert (NI : forall c, ~ In (p, c) st1).
        { intros c H. destruct (O3 p c H) as [K|(_ & r & K)]; [apply cls_in in K; [congruence | exact ND | exact P]|]. apply (f_equal (@length word)) in K. unfold p in K. cbn [rev] in K. rewrite !app_length in K. cbn [length] in K. lia. }
        split; [split; [right; apply in_or_app; right; left; reflexivity|]; split|].
        -- intros q c H. destruct (O2 q c H) as (c' & K1 & K2). exists c'. split; [apply in_or_app; left; exact K1 | exact K2].
        -- intros q c H. apply in_app_or in H. destruct H as [H|[H|[]]]; [|injection H as <- <-; right; split; [reflexivity | exists []; rewrite app_nil_r; reflexivity]]. destruct (O3 q c H) as [K|(-> & r & K)]; [auto|]. right. split; [reflexivity|]. exists (r ++ [x]). unfold p. cbn [rev]. rewrite K, app_assoc. reflexivity.
        -- rewrite map_app. cbn [map fst]. apply (Permutation_NoDup (l := p :: map fst st1)); [apply Permutation_cons_append|]. constructor; [|exact ND1]. intros X. apply in_map_iff in X. destruct X as ([q c] & E2 & X). cbn in E2. subst q. apply (NI c). exact X.
      * right. split; [reflexivity|]. exists q, (r ++ [x]). unfold p. cbn [rev]. rewrite Q1, app_assoc. auto.
Qed.
Lemma gen_open : forall isfile isdir src_isdir listing search top show set_order ex ondisk cwd, forall comps w base, pattern top cwd w base comps -> base <> cwd \/ In slash w -> forall st, opened st cwd -> NoDup (map fst st) -> (forall p c, In (p, c) st -> p <> []) ->
  forall fuel source strings, length w < fuel ->
  match make isfile isdir st (rev base) CDir with
  | Some st1 => glob_gen isfile isdir src_isdir listing search top show set_order ex fuel st cwd w ondisk source strings = glob_gen isfile isdir src_isdir listing search top show set_order ex fuel st1 cwd w ondisk source strings
  | None => glob_gen isfile isdir src_isdir listing search top show set_order ex fuel st cwd w ondisk source strings = None
  end.
Proof.
  intros isfile isdir src_isdir listing search top show set_order ex ondisk cwd comps. induction comps as [|c comps IH] using rev_ind; intros w base PA S st OC ND NE fuel source strings L; [exfalso; eapply pattern_ne; eauto|].
  destruct fuel as [|f]; [lia|]. cbn [glob_gen].
  assert (MM : forall st1, make isfile isdir st (rev base) CDir = Some st1 -> make isfile isdir st1 (rev base) CDir = Some st1).
  { intros st1 M. destruct (make_ok isfile isdir (rev base) st ND NE) as [(st2 & M2 & (O1 & _) & ND2)|(M2 & _)]; [|congruence]. rewrite M in M2. injection M2 as <-. rewrite rev_involutive in O1.
    assert (C : cls_of st1 base = Some CDir) by (destruct O1 as [-> | O1]; [reflexivity|]; destruct (dec_path base []) as [->|N]; [reflexivity | apply cls_in; assumption]).
    destruct (rev base) eqn:R; cbn [make]; rewrite <- R, rev_involutive, C; reflexivity. }
  assert (BASE : opened st base -> make isfile isdir st (rev base) CDir = Some st).
  { intros O1. assert (C : cls_of st base = Some CDir) by (destruct O1 as [-> | O1]; [reflexivity|]; destruct (dec_path base []) as [->|N]; [reflexivity | apply cls_in; assumption]). destruct (rev base) eqn:R; cbn [make]; rewrite <- R, rev_involutive, C; reflexivity. }
  destruct comps as [|c0 comps].
  - destruct (pattern_one _ _ _ _ _ PA) as (_ & [(E1 & E2 & E3)|(h & H1 & E1 & E2 & E3 & E4)]); [destruct S as [S|S]; contradiction|]. rewrite E1. destruct h as [|h0 h]; [congruence|]. rewrite E2. set (hh := h0 :: h) in *. rewrite E3.
    destruct (make isfile isdir st (rev base) CDir) as [st1|] eqn:M; [rewrite (MM st1 eq_refl); reflexivity | reflexivity].
  - destruct (pattern_more _ _ _ _ _ _ PA ltac:(discriminate)) as (_ & h & H1 & E1 & E2 & E3 & E4 & E5). rewrite E1. destruct h as [|h0 h]; [congruence|]. rewrite E2.
    assert (D : (base <> cwd \/ In slash (h0 :: h)) \/ base = cwd) by (destruct (dec_path base cwd); auto). destruct D as [D|D].
    + assert (X := IH (h0 :: h) base E3 D st OC ND NE f source false ltac:(lia)). destruct (make isfile isdir st (rev base) CDir) as [st1|]; rewrite X; reflexivity.
    + subst base. rewrite (BASE OC). reflexivity.
Qed.
Theorem C63f_opens : forall isfile isdir src_isdir listing search top cwd show set_order ondisk st w base levels source strings exclude,
  tree st -> opened st cwd -> pattern top cwd w base levels ->
  (exists st1, opening isfile st base st1 /\ (Forall name_ok base -> tree st1) /\
     glob isfile isdir src_isdir listing search top show set_order st cwd w ondisk source strings exclude = glob isfile isdir src_isdir listing search top show set_order st1 cwd w ondisk source strings exclude) \/
  (glob isfile isdir src_isdir listing search top show set_order st cwd w ondisk source strings exclude = None /\ exists q r, base = q ++ r /\ (In (q, CFile) st \/ isfile q = true)).
Proof.
  intros isfile isdir src_isdir listing search top cwd show set_order ondisk st w base levels source strings exclude (T1 & T2) OC PA.
  assert (NE : forall p c, In (p, c) st -> p <> []) by (intros p c H; destruct (T2 p c H) as (d & n & -> & _); apply snoc_ne).
  destruct (in_dec ascii_dec slash w) as [HS|HS].
  - assert (G := gen_open isfile isdir src_isdir listing search top show set_order (match exclude with [] => None | _ => Some (all_excluded isfile isdir src_isdir listing search top show set_order cwd ondisk source exclude) end) ondisk cwd levels w base PA (or_intror HS) st OC T1 NE (S (length w)) source strings ltac:(lia)).
    destruct (make_ok isfile isdir (rev base) st T1 NE) as [(st1 & M & O1 & ND1)|(M & q & r & Q1 & Q2)]; rewrite M in G; rewrite rev_involutive in *.
    + left. exists st1. split; [exact O1|]. split; [|exact G]. intros F. split; [exact ND1|]. intros p c H. destruct O1 as (_ & _ & O3). destruct (O3 p c H) as [K|(_ & r & E)]; [eapply T2; exact K|].
      assert (P : p <> []). { intros ->. clear - H ND1 M NE T1 T2 O3. destruct (O3 [] c H) as [K|(-> & _)]; [apply (NE _ _ K); reflexivity|]. revert M H. clear - NE T1. generalize (rev base). intros rp. revert st1. induction rp as [|x rp IH]; intros st1 M H.
        - cbn in M. injection M as <-. apply (NE _ _ H). reflexivity.
        - cbn [make] in M. destruct (cls_of st (rev (x :: rp))) as [[]|] eqn:E; try discriminate; try (injection M as <-).
          + apply set_cls_in in H. destruct H as [(_ & H)|(E2 & _)]; [apply (NE _ _ H); reflexivity | cbn [rev] in E2; symmetry in E2; apply snoc_ne in E2; exact E2].
          + apply (NE _ _ H). reflexivity.
          + destruct (make isfile isdir st rp CDir) as [st2|]; [|discriminate]. destruct (isfile (rev (x :: rp))); [discriminate|]. injection M as <-. apply in_app_or in H. destruct H as [H|[H|[]]]; [apply (IH st2 eq_refl H)|]. injection H as H. cbn [rev] in H. apply snoc_ne in H. exact H. }
      destruct p as [|n d _] using rev_ind; [congruence|]. exists d, n. split; [reflexivity|]. rewrite E in F. apply Forall_app in F. destruct F as (F & _). apply Forall_app in F. destruct F as (_ & F). inversion F; assumption.
    + right. split; [exact G|]. exists q, r. auto.
  - assert (B : base = cwd).
    { inversion PA as [c C E1 E2|c l C F M E1 E2|fixed base' c l F1 F2 F3 F4 C F5 F6 E1|c l C F5 F6 E1]; subst; [reflexivity | reflexivity | exfalso; apply HS; apply in_or_app; right; left; reflexivity | exfalso; apply HS; left; reflexivity]. }
    subst base. left. exists st. split; [split; [exact OC|]; split; [intros p c H; exists c; auto | auto]|]. split; [intros _; split; assumption | reflexivity].
Qed.
(* C63g: the usual case: pattern and exclude without directories, names without *, ? and [, strings of nodes their names *)
Lemma fits_plain : forall w s, ~ magic w -> (fits w s <-> w = s).
Proof.
  intros w. induction w as [|c w IH]; intros s N; [split; [intros H; inversion H; reflexivity | intros <-; constructor]|].
  assert (C : c <> star /\ c <> quest /\ c <> open_) by (split; [|split]; intros ->; apply N; unfold magic; cbn [In]; auto). destruct C as (C1 & C2 & C3).
  assert (N2 : ~ magic w) by (intros X; apply N; apply magic_cons; exact X). split.
  - intros H. inversion H as [|p u v F|p x' t' F|p l rest' x' t' B' A F|p l rest' x' t' B' A F|p t' N' F|x' p t' M1 M2 M3 F]; subst; try congruence. f_equal. apply IH; assumption.
  - intros <-. apply fits_char; auto. apply IH; auto.
Qed.
Theorem C63g_plain : forall isfile isdir src_isdir listing search top cwd show set_order ondisk st w source exclude,
  searching search -> disk_names listing -> agree isfile isdir src_isdir listing search st -> some_order set_order -> tree st -> opened st cwd -> component w -> Forall component exclude ->
  (forall n, show (cwd ++ [n]) = n) -> (forall n, there listing search ondisk st cwd n -> ~ magic n) ->
  exists l st', glob isfile isdir src_isdir listing search top show set_order st cwd w ondisk source false exclude = Some (l, st') /\
    (forall r, In r l <-> exists n, r = RNode (cwd ++ [n]) /\ there listing search ondisk st cwd n /\ shown w n /\ forall x, In x exclude -> ~ shown x n) /\ NoDup l /\ StronglySorted (fun a b => lex_le (res_str show a) (res_str show b)) l.
Proof.
  intros isfile isdir src_isdir listing search top cwd show set_order ondisk st w source exclude SE DN AG SO T OC CW CE SH NM.
  assert (R : Forall (ready top cwd st) exclude) by (eapply Forall_impl; [|exact CE]; intros x Cx; exists cwd, [x]; split; [apply pat_here; exact Cx | exact OC]).
  destruct (C63a_nodes isfile isdir src_isdir listing search top cwd show set_order ondisk st w cwd [w] source exclude SE DN AG SO T (pat_here _ _ w CW) OC R) as (l & st' & A1 & A2 & A3 & A4).
  exists l, st'. split; [exact A1|]. split; [|auto]. intros r. rewrite A2. assert (ID : is_dir isfile isdir src_isdir st cwd) by (destruct OC as [-> | OC]; [left; reflexivity | right; left; exact OC]).
  assert (ONE : forall ex c p, found isfile isdir src_isdir listing search ondisk st ex cwd [c] p <-> exists n, p = cwd ++ [n] /\ there listing search ondisk st cwd n /\ shown c n /\ ~ ex (cwd ++ [n])).
  { intros ex c p. change [c] with ([] ++ [c]). rewrite found_snoc. split.
    - intros (d & n & -> & K0 & K1 & K2 & K3 & K4). inversion K0 as [X1 X2|l' c' d' n' Z1 Z2 Z3 Z4 Z5 X1 X2]; [subst d | destruct l'; discriminate]. exists n. auto.
    - intros (n & -> & K1 & K2 & K3). exists cwd, n. split; [reflexivity|]. split; [constructor|]. auto. }
  split.
  - intros (p & -> & H). apply ONE in H. destruct H as (n & -> & K1 & K2 & K3). exists n. split; [reflexivity|]. split; [exact K1|]. split; [exact K2|]. intros x Hx Sx. apply K3. exists x, cwd, [x], (cwd ++ [n]).
    split; [exact Hx|]. rewrite Forall_forall in CE. split; [apply pat_here, CE; exact Hx|]. split; [apply ONE; exists n; split; [reflexivity|]; split; [exact K1|]; split; [exact Sx | intros []]|]. rewrite SH. apply fits_plain; [apply NM; exact K1 | reflexivity].
  - intros (n & -> & K1 & K2 & K3). exists (cwd ++ [n]). split; [reflexivity|]. apply ONE. exists n. split; [reflexivity|]. split; [exact K1|]. split; [exact K2|]. intros (x & b & lv & e & X1 & X2 & X3 & X4).
    rewrite Forall_forall in CE. destruct (pattern_det _ _ _ _ _ _ _ (pat_here top cwd x (CE x X1)) X2) as (<- & <-). apply ONE in X3. destruct X3 as (m & -> & M1 & M2 & _). rewrite !SH in X4. apply fits_plain in X4; [|apply NM; exact M1]. subst m. apply (K3 x X1 M2).
Qed.
Print Assumptions C63a_nodes.
Print Assumptions C63b_strings.
Print Assumptions C63c_order.
Print Assumptions C63d_nodes_after.
Print Assumptions C63f_opens.
Print Assumptions C63g_plain.
