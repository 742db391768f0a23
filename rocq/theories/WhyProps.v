(* C70: --debug=explain: theorems about WhyModel.v. *)
From Coq Require Import List Arith ZArith Bool Lia.
Import ListNotations.
From Verif Require Import DecModel DecSpec DecProofs DecProps DecProps2 WhyModel WhySpec.

Lemma prepare_map : forall N node_of st l, (forall n, node_of (n_str N n) = n) -> prepare node_of (map (to_str (n_str N)) (map KNode l)) (map st l) = map KNode l.
Proof. intros N node_of st l H. unfold prepare. induction l as [|x l IH]; [reflexivity|]. cbn [map combine to_str fst]. rewrite H. f_equal. exact IH. Qed.
Lemma kids_old : forall N node_of t0 st0, (forall n, node_of (n_str N n) = n) -> target_wf t0 -> ignore_not_depends t0 -> bkids (prepared node_of (saved N t0 st0)) = map KNode (children t0).
Proof.
  intros N node_of t0 st0 H W IG. unfold bkids, prepared, saved, convert_to_sconsign, get_binfo. cbn [bsources bdepends bimplicit bsourcesigs bdependsigs bimplicitsigs].
  rewrite (binfo_sources t0 W), (depends_kept t0 IG), !prepare_map by exact H. rewrite children_split, (depends_kept t0 IG), !map_app. reflexivity.
Qed.
Lemma sigs_old : forall N node_of t0 st0, target_wf t0 -> ignore_not_depends t0 -> bkidsigs (prepared node_of (saved N t0 st0)) = map st0 (children t0).
Proof. intros N node_of t0 st0 W IG. apply (recorded_saved N t0 st0 W IG). Qed.
Lemma kids_new : forall t st, target_wf t -> bkids (get_binfo t st) = map KNode (children t).
Proof. intros t st W. unfold bkids, get_binfo. cbn [bsources bdepends bimplicit]. rewrite (binfo_sources t W), children_split, !map_app. reflexivity. Qed.
Lemma combine_map : forall (st : node -> ninfo) l, combine (map KNode l) (map st l) = map (fun n => (KNode n, st n)) l.
Proof. intros st l. induction l as [|x l IH]; [reflexivity|]. cbn [map combine]. f_equal. exact IH. Qed.
Lemma kmem_in : forall n l, kmem (KNode n) (map KNode l) = mem n l.
Proof. intros n l. unfold kmem, mem. induction l as [|x l IH]; [reflexivity|]. cbn [map existsb key_eqb]. rewrite IH. reflexivity. Qed.
Lemma keys_eqb_eq : forall a b, keys_eqb (map KNode a) (map KNode b) = true <-> a = b.
Proof. induction a as [|x a IH]; intros [|y b]; cbn [map keys_eqb key_eqb]; try (split; [discriminate | discriminate]); [split; reflexivity|]. rewrite andb_true_iff, Nat.eqb_eq, IH. split; [intros [-> ->]; reflexivity | intros E; injection E as -> ->; split; reflexivity]. Qed.
Lemma removed_in : forall old new r, In r (removed (map KNode old) (map KNode new)) <-> exists n, r = Gone n /\ In n old /\ ~ In n new.
Proof.
  intros old new r. unfold removed. rewrite in_map_iff. split.
  - intros (k & <- & H). apply filter_In in H as [H1 H2]. apply in_map_iff in H1 as (n & <- & H1). rewrite kmem_in in H2. apply negb_true_iff, mem_nin in H2. exists n. split; [reflexivity | split; assumption].
  - intros (n & -> & H1 & H2). exists (KNode n). split; [reflexivity|]. apply filter_In. split; [apply in_map, H1|]. rewrite kmem_in. apply negb_true_iff, mem_nin, H2.
Qed.
Lemma ts_match : forall w n p, changed_timestamp_match w n (Some p) = false <-> ni_ts p = Some (w_mtime w n).
Proof. intros w n p. unfold changed_timestamp_match. destruct (ni_ts p) as [x|]; [|split; discriminate]. rewrite negb_false_iff, Nat.eqb_eq. split; congruence. Qed.
Lemma csig_right : forall w st n, timestamps_honest w -> (forall s, ni_csig (st n) = Some s -> s = w_hash w n) -> exists st', get_csig w st n = (w_hash w n, st') /\ (forall m, m <> n -> st' m = st m) /\ forall s, ni_csig (st' n) = Some s -> s = w_hash w n.
Proof.
  intros w st n Hw H. unfold get_csig. destruct (ni_csig (st n)) as [s|] eqn:E; [rewrite (H s eq_refl); exists st; split; [reflexivity | split; [reflexivity | intros x X; rewrite E in X; injection X as <-; apply H; reflexivity]]|].
  assert (R : match max_drift_csig w n with 0 => w_hash w n | S m => S m end = w_hash w n) by (destruct (max_drift_honest w n Hw) as [-> |R]; [reflexivity | destruct (max_drift_csig w n); auto]).
  rewrite R. eexists. split; [reflexivity|]. split; [intros m Hm; unfold upd; apply Nat.eqb_neq in Hm; rewrite Hm; reflexivity|]. unfold upd. rewrite Nat.eqb_refl. cbn. intros s X. injection X as <-. reflexivity.
Qed.
Lemma decide_any : forall N w bi t dec st0 st n, timestamps_honest w -> computed_so_far w dec st0 st -> previous_signatures N (dependency_map bi) n = Some (st0 n) ->
  exists b st', decide N w bi t (dec n) st n (Some (st0 n)) = (b, st') /\ computed_so_far w dec st0 st' /\ (b = false <-> same w t (dec n) n (st0 n)).
Proof.
  intros N w bi t dec st0 st n Hw Hs Hp.
  assert (CC : (dec n = DTimestampContent -> ni_ts (st0 n) <> Some (w_mtime w n)) -> exists b st', changed_content w st n (Some (st0 n)) = (b, st') /\ computed_so_far w dec st0 st' /\ (b = false <-> ni_csig (st0 n) = Some (w_hash w n))).
  { intros HD. unfold changed_content. destruct (csig_right w st n Hw (fun s => Hs n s HD)) as (st1 & E & E1 & E2). rewrite E. eexists. exists st1. split; [reflexivity|]. split.
    - intros m s H1 H2. destruct (Nat.eq_dec m n) as [-> |X]; [apply E2, H2 | rewrite (E1 m X) in H2; apply (Hs m s H1 H2)].
    - destruct (ni_csig (st0 n)) as [c|]; [|split; discriminate]. rewrite negb_false_iff, Nat.eqb_eq. split; congruence. }
  destruct (dec n) eqn:ED; cbn [decide same].
  - apply CC. discriminate.
  - eexists. exists st. split; [reflexivity|]. split; [exact Hs|]. rewrite Nat.ltb_ge. reflexivity.
  - eexists. exists st. split; [reflexivity|]. split; [exact Hs|]. apply ts_match.
  - unfold changed_timestamp_then_content. destruct (dependency_map bi) as [|e d] eqn:Ed; [discriminate|]. rewrite Hp. pose proof (ts_match w n (st0 n)) as TM. destruct (changed_timestamp_match w n (Some (st0 n))) eqn:Q.
    + assert (NT : ni_ts (st0 n) <> Some (w_mtime w n)) by (intros X; apply TM in X; discriminate). destruct (CC (fun _ => NT)) as (b & st1 & E & S1 & B). exists b, st1. split; [exact E|]. split; [exact S1|]. rewrite B. split; [intros X; right; exact X | intros [X|X]; [contradiction | exact X]].
    + eexists. eexists. split; [reflexivity|]. assert (T : ni_ts (st0 n) = Some (w_mtime w n)) by (apply TM; reflexivity). split; [|split; [intros _; left; exact T | reflexivity]].
      destruct (ni_csig (st0 n)) as [c|]; [|exact Hs]. intros m s H1 H2. unfold upd in H2. destruct (m =? n) eqn:Em; [|apply (Hs m s H1 H2)]. apply Nat.eqb_eq in Em. subst m. exfalso. apply H1; [exact ED | exact T].
Qed.
Lemma lines_in : forall N w bi t dec st0 old new st r, timestamps_honest w -> computed_so_far w dec st0 st -> (forall n, In n old -> previous_signatures N (dependency_map bi) n = Some (st0 n)) ->
  (In r (fst (kid_lines N w bi t dec (map (fun n => (KNode n, st0 n)) old) (map KNode old) st (map KNode new))) <->
   exists n, In n new /\ ((r = Fresh n /\ ~ In n old) \/ (r = Changed n /\ In n old /\ ~ same w t (dec n) n (st0 n)))).
Proof.
  intros N w bi t dec st0 old new st r Hw Hs Hd. revert st Hs. induction new as [|n new IH]; intros st Hs; cbn [map kid_lines fst]; [split; [intros [] | intros (n & [] & _)]|].
  rewrite kmem_in. destruct (mem n old) eqn:E; cbn [negb knode].
  - apply mem_in in E. rewrite (dget_knode st0 n old E). destruct (decide_any N w bi t dec st0 st n Hw Hs (Hd n E)) as (b & st1 & D & S1 & U). rewrite D. specialize (IH st1 S1).
    destruct (kid_lines N w bi t dec (map (fun n => (KNode n, st0 n)) old) (map KNode old) st1 (map KNode new)) as [l st2]. cbn [fst] in *.
    destruct b.
    + cbn [In]. rewrite IH. split.
      * intros [<- |(m & H1 & H2)]; [exists n; split; [left; reflexivity|]; right; split; [reflexivity | split; [exact E | intros X; apply U in X; discriminate]] | exists m; split; [right; exact H1 | exact H2]].
      * intros (m & [<- |H1] & H2); [left; destruct H2 as [[_ X]|(-> & _)]; [contradiction | reflexivity] | right; exists m; split; assumption].
    + rewrite IH. split; intros (m & H1 & H2); exists m; [split; [right; exact H1 | exact H2]|]. destruct H1 as [<- |H1]; [|split; assumption]. exfalso. destruct H2 as [[_ X]|(_ & _ & X)]; [exact (X E) | exact (X (proj1 U eq_refl))].
  - apply mem_nin in E. specialize (IH st Hs). destruct (kid_lines N w bi t dec (map (fun n => (KNode n, st0 n)) old) (map KNode old) st (map KNode new)) as [l st2]. cbn [fst In] in *. rewrite IH. split.
    + intros [<- |(m & H1 & H2)]; [exists n; split; [left; reflexivity|]; left; split; [reflexivity | exact E] | exists m; split; [right; exact H1 | exact H2]].
    + intros (m & [<- |H1] & H2); [left; destruct H2 as [[-> _]|(_ & X & _)]; [reflexivity | contradiction] | right; exists m; split; assumption].
Qed.
Lemma prepared_previous : forall N node_of t0 st0 n, (forall n, node_of (n_str N n) = n) -> target_wf t0 -> ignore_not_depends t0 -> In n (children t0) -> previous_signatures N (dependency_map (prepared node_of (saved N t0 st0))) n = Some (st0 n).
Proof.
  intros N node_of t0 st0 n NO W0 I0 H. rewrite <- (C14b_same_dependency_nodes N t0 st0 n W0 I0 H). f_equal. unfold dependency_map. fold (bkids (prepared node_of (saved N t0 st0))). fold (bkids (get_binfo t0 st0)). rewrite (kids_old N node_of t0 st0 NO W0 I0), (kids_new t0 st0 W0). reflexivity.
Qed.
(* the decision: nothing changed *)
Lemma loop_same : forall N w bi t dec st0 cs st r, timestamps_honest w -> computed_so_far w dec st0 st -> (forall n, In n cs -> previous_signatures N (dependency_map bi) n = Some (st0 n)) -> (forall n, In n cs -> same w t (dec n) n (st0 n)) ->
  fst (changed_loop N w bi t dec st cs (map Some (map st0 cs)) r) = r.
Proof.
  intros N w bi t dec st0. induction cs as [|c cs IH]; intros st r Hw Hs Hp Hsame; [reflexivity|]. cbn [map changed_loop]. destruct (decide_any N w bi t dec st0 st c Hw Hs (Hp c (or_introl eq_refl))) as (b & st1 & D & S1 & U). rewrite D.
  assert (b = false) as -> by (apply U, Hsame; left; reflexivity). rewrite orb_false_r. apply IH; [exact Hw | exact S1 | intros n Hn; apply Hp; right; exact Hn | intros n Hn; apply Hsame; right; exact Hn].
Qed.

Section Why.
Variables (N : names) (w : world) (node_of : nat -> node) (dec : node -> decider) (t0 t : target) (st0 st : node -> ninfo) (bact0 bact : nat).
Hypothesis NO : forall n, node_of (n_str N n) = n.
Hypothesis W0 : target_wf t0.
Hypothesis I0 : ignore_not_depends t0.
Hypothesis W : target_wf t.
Hypothesis HON : timestamps_honest w.
Hypothesis COM : computed_so_far w dec st0 st.
Notation why := (explain N w node_of false (left_by N t0 st0 bact0) bact dec st t).
Notation true_reason := (true_reason w dec t0 st0 bact0 t bact).
Notation no_change := (no_change w dec t0 st0 t).
Definition first_lines : list reason := removed (map KNode (children t0)) (map KNode (children t)) ++
  fst (kid_lines N w (prepared node_of (saved N t0 st0)) t dec (map (fun n => (KNode n, st0 n)) (children t0)) (map KNode (children t0)) st (map KNode (children t))).
Lemma first_in : forall r, In r first_lines <-> match r with Gone _ | Fresh _ | Changed _ => true_reason r | _ => False end.
Proof.
  intros r. unfold first_lines. rewrite in_app_iff, removed_in, (lines_in N w _ t dec st0 (children t0) (children t) st r HON COM (fun n => prepared_previous N node_of t0 st0 n NO W0 I0)). split.
  - intros [(n & -> & H)|(n & H & [[-> X]|(-> & X)])]; [exact H | split; assumption | split; [exact H | exact X]].
  - destruct r as [n|n|n| | |]; intros H; try destruct H.
    + left. exists n. split; [reflexivity | split; assumption].
    + right. exists n. split; [assumption|]. left. split; [reflexivity | assumption].
    + right. exists n. split; [assumption|]. right. split; [reflexivity | assumption].
Qed.
Lemma first_nil : first_lines = [] <-> no_change.
Proof.
  split.
  - intros E. assert (X : forall r, In r first_lines -> False) by (rewrite E; intros r []). split; [|intros n H; apply (X (Changed n)), first_in, H]. intros n. split; intros H.
    + destruct (in_dec Nat.eq_dec n (children t0)) as [Y|Y]; [exact Y|]. exfalso. apply (X (Fresh n)), first_in. split; assumption.
    + destruct (in_dec Nat.eq_dec n (children t)) as [Y|Y]; [exact Y|]. exfalso. apply (X (Gone n)), first_in. split; assumption.
  - intros [H1 H2]. destruct first_lines as [|r l] eqn:E; [reflexivity|]. exfalso. assert (X : In r first_lines) by (rewrite E; left; reflexivity). apply first_in in X. destruct r as [n|n|n| | |]; try contradiction.
    + destruct X as [X1 X2]. apply X2, H1, X1.
    + destruct X as [X1 X2]. apply X2, H1, X1.
    + apply (H2 n X).
Qed.
Lemma why_eq : w_exists w (t_node t) = true ->
  why = let lines := if is_nil first_lines && negb (keys_eqb (map KNode (children t0)) (map KNode (children t))) then [Order] else first_lines in
        if is_nil lines then if osig_eqb (if t_builder t0 then Some (t_action t0) else None) (if t_builder t then Some (t_action t) else None) then Unknown
                             else match (if t_builder t0 then Some bact0 else None) with None => Crash | Some b => Reasons [if b =? bact then ActContents else ActText] end
        else Reasons lines.
Proof.
  intros EX. unfold explain. rewrite EX. cbn [negb left_by s_lists s_binfo s_bact]. rewrite (kids_old N node_of t0 st0 NO W0 I0), (kids_new t st W), (sigs_old N node_of t0 st0 W0 I0), combine_map. reflexivity.
Qed.
(* C70a: the reasons given are exactly the true ones *)
Theorem C70a_reasons : forall l, w_exists w (t_node t) = true -> t_builder t = true -> why = Reasons l -> l <> [] /\ forall r, In r l <-> true_reason r.
Proof.
  intros l EX TB E. rewrite (why_eq EX) in E. cbv zeta in E. rewrite TB in E. pose proof (keys_eqb_eq (children t0) (children t)) as KE. pose proof first_nil as FN. pose proof first_in as FI. destruct first_lines as [|x fl] eqn:EF; cbn [is_nil andb] in E.
  - destruct FN as [FN _]. specialize (FN eq_refl). destruct (keys_eqb (map KNode (children t0)) (map KNode (children t))); cbn [negb is_nil] in E.
    + assert (EC : children t0 = children t) by (apply KE; reflexivity). destruct (t_builder t0); cbn [osig_eqb] in E; [|discriminate].
      destruct (t_action t0 =? t_action t) eqn:EA; [discriminate|]. apply Nat.eqb_neq in EA. injection E as <-. split; [discriminate|]. assert (NA : t_action t <> t_action t0) by congruence.
      intros r. split; [intros [<- |[]]|].
      * destruct (bact0 =? bact) eqn:EB; [apply Nat.eqb_eq in EB | apply Nat.eqb_neq in EB]; (split; [exact FN | split; [symmetry; exact EC | split; [exact NA | congruence]]]).
      * intros T. destruct r as [n|n|n| | |]; [exfalso; apply (FI (Gone n)); exact T | exfalso; apply (FI (Fresh n)); exact T | exfalso; apply (FI (Changed n)); exact T | | |].
        -- destruct T as [_ T]. exfalso. apply T. symmetry. exact EC.
        -- destruct T as (_ & _ & _ & ->). rewrite Nat.eqb_refl. left. reflexivity.
        -- destruct T as (_ & _ & _ & T). destruct (bact0 =? bact) eqn:EB; [apply Nat.eqb_eq in EB; congruence|]. left. reflexivity.
    + injection E as <-. split; [discriminate|]. assert (NC : children t <> children t0) by (intros X; assert (false = true) by (apply KE; symmetry; exact X); discriminate). intros r. split; [intros [<- |[]]; split; assumption|].
      intros T. destruct r as [n|n|n| | |]; [exfalso; apply (FI (Gone n)); exact T | exfalso; apply (FI (Fresh n)); exact T | exfalso; apply (FI (Changed n)); exact T | | |]; [left; reflexivity | |]; destruct T as (_ & T & _); contradiction.
  - injection E as <-. split; [discriminate|]. intros r. rewrite FI. assert (NN : ~ no_change) by (intros X; apply FN in X; discriminate). destruct r as [n|n|n| | |]; try reflexivity; (split; [intros [] | intros [X _]; contradiction]).
Qed.
(* C70b: a target that exists and is rebuilt because it is out of date is rebuilt for a reason that is given *)
Theorem C70b_explained : names_ok N -> w_exists w (t_node t) = true -> t_builder t = true -> t_builder t0 = true -> forall stb, computed_so_far w dec st0 stb -> fst (is_up_to_date N w (saved N t0 st0) None dec stb t) = false -> exists l, why = Reasons l.
Proof.
  intros NOK EX TB TB0 stb CB OUT. rewrite (why_eq EX). cbv zeta. rewrite TB, TB0. pose proof (keys_eqb_eq (children t0) (children t)) as KE. pose proof first_nil as FN. destruct first_lines as [|x fl]; cbn [is_nil andb]; [|eexists; reflexivity].
  destruct (keys_eqb (map KNode (children t0)) (map KNode (children t))); cbn [negb is_nil]; [|eexists; reflexivity]. assert (EC : children t0 = children t) by (apply KE; reflexivity). cbn [osig_eqb].
  destruct (t_action t0 =? t_action t) eqn:EA; [|eexists; reflexivity]. exfalso. destruct FN as [FN _]. destruct (FN eq_refl) as [_ F2].
  assert (UP : fst (is_up_to_date N w (saved N t0 st0) None dec stb t) = true); [|congruence].
  assert (SM : forall n, In n (children t) -> same w t (dec n) n (st0 n)).
  { intros n Hn. assert (Hn0 : In n (children t0)) by (rewrite EC; exact Hn). destruct (decide_any N w (prepared node_of (saved N t0 st0)) t dec st0 st n HON COM (prepared_previous N node_of t0 st0 n NO W0 I0 Hn0)) as (b & st1 & _ & _ & U). destruct b; [|apply U; reflexivity].
    exfalso. apply (F2 n). split; [exact Hn | split; [exact Hn0|]]. intros X. apply U in X. discriminate. }
  unfold is_up_to_date. rewrite EX. unfold changed. change (bsourcesigs (saved N t0 st0) ++ bdependsigs (saved N t0 st0) ++ bimplicitsigs (saved N t0 st0)) with (recorded (saved N t0 st0)). rewrite (recorded_saved N t0 st0 W0 I0), EC, act_saved, TB, TB0, !map_length, Nat.eqb_refl, Nat.sub_diag. cbn [negb repeat]. rewrite app_nil_r.
  pose proof (loop_same N w (saved N t0 st0) t dec st0 (children t) stb false HON CB) as LS. rewrite EA. destruct (changed_loop N w (saved N t0 st0) t dec stb (children t) (map Some (map st0 (children t))) false) as [r s']. cbn [fst] in *.
  rewrite LS; [reflexivity | | exact SM]. intros n Hn. rewrite (C14_same_dependency N t0 st0 n NOK W0 I0). rewrite EC, (proj2 (mem_in n (children t)) Hn). reflexivity.
Qed.
End Why.
(* C70c: a target that does not exist, or is built always, is said to be so *)
Theorem C70c_first : forall N w node_of always s bact dec st t,
  (explain N w node_of always s bact dec st t = NotThere <-> w_exists w (t_node t) = false) /\ (explain N w node_of always s bact dec st t = Always <-> w_exists w (t_node t) = true /\ always = true).
Proof.
  intros N w node_of always s bact dec st t. unfold explain. destruct (w_exists w (t_node t)); cbn [negb]; [|split; [split; reflexivity | split; [discriminate | intros [X _]; discriminate]]].
  destruct always; [split; [split; discriminate | split; [intros _; split; reflexivity | reflexivity]]|]. set (X := if negb (s_lists s) then _ else _). assert (H : X <> NotThere /\ X <> Always).
  { unfold X. destruct (negb (s_lists s)); [split; discriminate|]. cbv zeta. match goal with |- (if is_nil ?l then _ else _) <> _ /\ _ => destruct (is_nil l) end; [|split; discriminate]. match goal with |- (if ?c then _ else _) <> _ /\ _ => destruct c end; [split; discriminate|]. destruct (s_bact s); split; discriminate. }
  destruct H as [H1 H2]. split; (split; [intros Y; contradiction|]); [discriminate | intros [_ Y]; discriminate].
Qed.
Print Assumptions C70a_reasons.
Print Assumptions C70b_explained.
Print Assumptions C70c_first.
