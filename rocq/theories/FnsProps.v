(* FindSourceFiles. *)
From Coq Require Import List Bool Arith Lia.
Import ListNotations.
From Verif Require Import FnsModel FnsSpec.
Open Scope list_scope.

Section Props.
Context {node : Type} (node_dec : forall a b : node, {a = b} + {a <> b}).
Variables (cls : node -> class) (has_builder : node -> bool) (sources all_children : node -> list node) (srcnode : node -> node).
Notation build := (build_source node_dec cls has_builder sources all_children).
Notation find := (find_source_files node_dec cls has_builder sources all_children srcnode).
Notation step := (Step cls has_builder sources all_children).
Notation source_of := (SourceOf cls has_builder sources all_children).
Notation ends := (Ends cls has_builder sources all_children).

Lemma build_nil : forall k st, build (S k) [] st = Some st.
Proof. reflexivity. Qed.
Lemma build_cons : forall k s r st, build (S k) (s :: r) st =
  match (if is_dir node_dec cls (snd st) s then build k (all_children s) st else if has_builder s then build k (sources s) st
         else Some (if fst (disambiguate cls (snd st) s) then fst st ++ [s] else fst st, snd (disambiguate cls (snd st) s))) with
  | Some st' => build (S k) r st' | None => None end.
Proof. intros k s r [found dirs]. cbn [fst snd]. cbn [build_source]. destruct (disambiguate cls dirs s) as [file dirs']. reflexivity. Qed.
Lemma is_dir_directory : forall dirs s, is_dir node_dec cls dirs s = true -> Directory cls s.
Proof. intros dirs s H. unfold is_dir in H. destruct (cls s) as [| |[]|] eqn:C; try discriminate; [left | right]; exact C. Qed.
Lemma file_spec : forall dirs s, fst (disambiguate cls dirs s) = true <-> File cls s.
Proof.
  intros dirs s. unfold disambiguate, File. destruct (cls s) as [| |[]|]; cbn [fst]; split; intros H; try discriminate; try reflexivity; auto; destruct H as [H | H]; discriminate H.
Qed.

(* ---- nothing else is found ---- *)
Lemma build_sound : (forall n, cls n = IsEntry true -> has_builder n = false) -> forall k ss st st', build k ss st = Some st' ->
  forall f, In f (fst st') -> In f (fst st) \/ exists s, In s ss /\ source_of s f.
Proof.
  intros KB. induction k as [|k IH]; intros ss; [discriminate|]. induction ss as [|s r IHr]; intros st st' E f IN; [rewrite build_nil in E; injection E as <-; left; exact IN|].
  rewrite build_cons in E. destruct (is_dir node_dec cls (snd st) s) eqn:D.
  - destruct (build k (all_children s) st) as [st1|] eqn:B; [|discriminate]. destruct (IHr _ _ E f IN) as [IN1 | [x [IX SX]]].
    + destruct (IH _ _ _ B f IN1) as [IN0 | [c [IC SC]]]; [left; exact IN0 | right]. exists s. split; [left; reflexivity|]. apply so_step with c; [|exact SC]. left. split; [apply (is_dir_directory (snd st)); exact D | exact IC].
    + right. exists x. split; [right; exact IX | exact SX].
  - destruct (has_builder s) eqn:HB.
    + destruct (build k (sources s) st) as [st1|] eqn:B; [|discriminate]. destruct (IHr _ _ E f IN) as [IN1 | [x [IX SX]]].
      * destruct (IH _ _ _ B f IN1) as [IN0 | [c [IC SC]]]; [left; exact IN0 | right]. exists s. split; [left; reflexivity|]. apply so_step with c; [|exact SC]. right. split; [|split; [exact HB | exact IC]].
        intros [C | C]; [unfold is_dir in D; rewrite C in D; discriminate | rewrite (KB s C) in HB; discriminate].
      * right. exists x. split; [right; exact IX | exact SX].
    + destruct (IHr _ _ E f IN) as [IN1 | [x [IX SX]]]; [|right; exists x; split; [right; exact IX | exact SX]]. cbn [fst] in IN1.
      destruct (fst (disambiguate cls (snd st) s)) eqn:F; [|left; exact IN1]. apply in_app_or in IN1 as [IN1 | [<- | []]]; [left; exact IN1 | right]. exists s. split; [left; reflexivity|].
      apply so_here; [apply (file_spec (snd st)); exact F | exact HB].
Qed.
(* ---- everything is found ---- *)
Lemma build_complete : Known cls -> forall k ss st st', build k ss st = Some st' -> incl (fst st) (fst st') /\ forall s f, In s ss -> source_of s f -> In f (fst st').
Proof.
  intros KN. induction k as [|k IH]; intros ss; [discriminate|]. induction ss as [|s r IHr]; intros st st' E; [rewrite build_nil in E; injection E as <-; split; [intros x IN; exact IN | intros s f []]|].
  rewrite build_cons in E.
  assert (exists st1, build (S k) r st1 = Some st' /\ incl (fst st) (fst st1) /\ forall f, source_of s f -> In f (fst st1)) as [st1 [E1 [I1 S1]]].
  { destruct (is_dir node_dec cls (snd st) s) eqn:D.
    - destruct (build k (all_children s) st) as [st1|] eqn:B; [|discriminate]. exists st1. split; [exact E|]. destruct (IH _ _ _ B) as [I1 S1]. split; [exact I1|].
      apply is_dir_directory in D. intros f SO. inversion SO as [g FL HB EQ | n c g ST SC EQ EQ2]; subst.
      + exfalso. destruct D as [D | D]; destruct FL as [FL | FL]; rewrite D in FL; discriminate.
      + destruct ST as [[_ IC] | [ND _]]; [exact (S1 c f IC SC) | contradiction].
    - assert (~ Directory cls s) as ND by (intros [C | C]; [unfold is_dir in D; rewrite C in D; discriminate | exact (KN s C)]).
      destruct (has_builder s) eqn:HB.
      + destruct (build k (sources s) st) as [st1|] eqn:B; [|discriminate]. exists st1. split; [exact E|]. destruct (IH _ _ _ B) as [I1 S1]. split; [exact I1|].
        intros f SO. inversion SO as [g FL HB2 EQ | n c g ST SC EQ EQ2]; subst; [congruence|]. destruct ST as [[DD _] | [_ [_ IC]]]; [contradiction | exact (S1 c f IC SC)].
      + eexists. split; [exact E|]. cbn [fst]. split; [destruct (fst (disambiguate cls (snd st) s)); intros x IN; [apply in_or_app; left|]; exact IN|].
        intros f SO. inversion SO as [g FL HB2 EQ | n c g ST SC EQ EQ2]; subst.
        * apply (file_spec (snd st)) in FL. rewrite FL. apply in_or_app. right. left. reflexivity.
        * destruct ST as [[DD _] | [_ [HB2 _]]]; [contradiction | congruence]. }
  destruct (IHr _ _ E1) as [I2 S2]. split; [intros x IN; apply I2, I1; exact IN|]. intros x f [<- | IN] SO; [apply I2, S1; exact SO | exact (S2 x f IN SO)].
Qed.
(* ---- it comes to an end exactly if there is no endless chain ---- *)
Lemma build_ends : Known cls -> forall k ss st st', build k ss st = Some st' -> forall s, In s ss -> ends s.
Proof.
  intros KN. induction k as [|k IH]; intros ss; [discriminate|]. induction ss as [|s r IHr]; intros st st' E x IN; [destruct IN|].
  rewrite build_cons in E.
  assert (ends s /\ exists st1, build (S k) r st1 = Some st') as [ES [st1 E1]].
  { destruct (is_dir node_dec cls (snd st) s) eqn:D.
    - destruct (build k (all_children s) st) as [st1|] eqn:B; [|discriminate]. split; [|exists st1; exact E]. constructor. intros c [[_ IC] | [ND _]]; [exact (IH _ _ _ B c IC)|].
      exfalso. apply ND, (is_dir_directory (snd st)); exact D.
    - assert (~ Directory cls s) as ND by (intros [C | C]; [unfold is_dir in D; rewrite C in D; discriminate | exact (KN s C)]).
      destruct (has_builder s) eqn:HB.
      + destruct (build k (sources s) st) as [st1|] eqn:B; [|discriminate]. split; [|exists st1; exact E]. constructor. intros c [[DD _] | [_ [_ IC]]]; [contradiction | exact (IH _ _ _ B c IC)].
      + split; [|eexists; exact E]. constructor. intros c [[DD _] | [_ [HB2 _]]]; [contradiction | congruence]. }
  destruct IN as [<- | IN]; [exact ES | exact (IHr _ _ E1 x IN)].
Qed.
Lemma build_more : forall k k' ss st st', build k ss st = Some st' -> k <= k' -> build k' ss st = Some st'.
Proof.
  induction k as [|k IH]; intros k' ss st st' E LE; [discriminate|]. destruct k' as [|k']; [lia|]. assert (k <= k') as LE' by lia. clear LE. revert st st' E.
  induction ss as [|s r IHr]; intros st st' E; [exact E|]. rewrite build_cons in *. destruct (is_dir node_dec cls (snd st) s).
  - destruct (build k (all_children s) st) as [st1|] eqn:B; [|discriminate]. rewrite (IH _ _ _ _ B LE'). apply IHr. exact E.
  - destruct (has_builder s); [|apply IHr; exact E]. destruct (build k (sources s) st) as [st1|] eqn:B; [|discriminate]. rewrite (IH _ _ _ _ B LE'). apply IHr. exact E.
Qed.
Definition Fits (k : nat) (s : node) : Prop := forall st, exists st', build k [s] st = Some st'.
Lemma fits_list : forall k ss, (forall s, In s ss -> Fits k s) -> k <> 0 -> forall st, exists st', build k ss st = Some st'.
Proof.
  intros [|k] ss H NZ; [congruence|]. clear NZ. induction ss as [|s r IHr]; intros st; [exists st; reflexivity|]. destruct (H s (or_introl eq_refl) st) as [st1 E1]. rewrite build_cons in *.
  match type of E1 with match ?x with _ => _ end = _ => destruct x as [st2|]; [|discriminate] end. apply IHr. intros x IN. apply H. right. exact IN.
Qed.
Lemma fits_more : forall k k' s, Fits k s -> k <= k' -> Fits k' s.
Proof. intros k k' s H LE st. destruct (H st) as [st' E]. exists st'. apply (build_more k); assumption. Qed.
Lemma fits_all : forall ss, (forall s, In s ss -> exists k, Fits k s) -> exists k, k <> 0 /\ forall s, In s ss -> Fits k s.
Proof.
  induction ss as [|s r IH]; intros H; [exists 1; split; [discriminate | intros s []]|]. destruct IH as [k1 [NZ H1]]; [intros x IN; apply H; right; exact IN|]. destruct (H s (or_introl eq_refl)) as [k2 H2].
  exists (k1 + k2). split; [lia|]. intros x [<- | IN]; [apply (fits_more k2); [exact H2 | lia] | apply (fits_more k1); [apply H1; exact IN | lia]].
Qed.
Lemma ends_fits : Known cls -> forall s, ends s -> exists k, Fits k s.
Proof.
  intros KN s A. induction A as [s _ IH].
  destruct (fits_all (match cls s with IsDir => all_children s | _ => if has_builder s then sources s else [] end)) as [k [NZ H]].
  { intros c IC. apply IH. destruct (cls s) as [| |b|] eqn:C.
    2: { left. split; [left; exact C | exact IC]. }
    all: right; (split; [intros [D | D]; [rewrite C in D; discriminate | exact (KN s D)]|]); destruct (has_builder s) eqn:HB; [split; [reflexivity | exact IC] | destruct IC]. }
  exists (S k). intros st. rewrite build_cons. pose proof (fits_list k _ H NZ st) as [st1 E1].
  assert (is_dir node_dec cls (snd st) s = match cls s with IsDir => true | _ => false end) as ED by (unfold is_dir; destruct (cls s) as [| |[]|] eqn:C; try reflexivity; exfalso; exact (KN s C)).
  rewrite ED. destruct (cls s) as [| |b|]; [| rewrite E1; exists st1; reflexivity | |]; (destruct (has_builder s); [rewrite E1; exists st1; reflexivity | eexists; reflexivity]).
Qed.

(* ---- variant directories ---- *)
Lemma final_is : forall k n x, final_source node_dec srcnode k n = Some x -> Origin srcnode n x.
Proof.
  induction k as [|k IH]; intros n x E; cbn [final_source] in E; destruct (node_dec n (srcnode n)) as [Z | Z].
  - injection E as <-. apply or_here. symmetry; exact Z.
  - discriminate.
  - injection E as <-. apply or_here. symmetry; exact Z.
  - apply or_step; [congruence | apply IH; exact E].
Qed.
Lemma origin_final : forall n x, Origin srcnode n x -> exists k, forall k', k <= k' -> final_source node_dec srcnode k' n = Some x.
Proof.
  intros n x O. induction O as [n Z | n x NZ _ [k IH]].
  - exists 0. intros [|k'] _; cbn [final_source]; destruct (node_dec n (srcnode n)); congruence.
  - exists (S k). intros [|k'] LE; [lia|]. cbn [final_source]. destruct (node_dec n (srcnode n)); [congruence|]. apply IH. lia.
Qed.
Lemma origin_one : forall n x y, Origin srcnode n x -> Origin srcnode n y -> x = y.
Proof. intros n x y A B. apply origin_final in A as [k1 A], B as [k2 B]. specialize (A (k1 + k2)). specialize (B (k1 + k2)). rewrite A in B by lia. specialize (B ltac:(lia)). congruence. Qed.
Lemma finals_spec : forall k l l', finals node_dec srcnode k l = Some l' -> forall x, In x l' <-> exists f, In f l /\ Origin srcnode f x.
Proof.
  intros k. induction l as [|n l IH]; intros l' E x; cbn [finals] in E.
  - injection E as <-. split; [intros [] | intros [f [[] _]]].
  - destruct (final_source node_dec srcnode k n) as [y|] eqn:F; [|discriminate]. destruct (finals node_dec srcnode k l) as [r|]; [|discriminate]. injection E as <-. specialize (IH r eq_refl x).
    apply final_is in F. cbn [In]. split.
    + intros [<- | IN]; [exists n; split; [left; reflexivity | exact F]|]. apply IH in IN as [f [IF OF]]. exists f. split; [right; exact IF | exact OF].
    + intros [f [[<- | IF] OF]]; [left; apply (origin_one n); assumption | right; apply IH; exists f; split; assumption].
Qed.
Lemma finals_end : forall l, (forall f, In f l -> EndsOrigin srcnode f) <-> exists k, forall k', k <= k' -> exists l', finals node_dec srcnode k' l = Some l'.
Proof.
  induction l as [|n l IH].
  - split; [intros _; exists 0; intros k' _; exists []; reflexivity | intros _ f []].
  - split.
    + intros H. destruct (H n (or_introl eq_refl)) as [x O]. apply origin_final in O as [k1 O]. destruct (proj1 IH) as [k2 F]; [intros f IN; apply H; right; exact IN|].
      exists (k1 + k2). intros k' LE. cbn [finals]. rewrite O by lia. destruct (F k') as [l' ->]; [lia|]. exists (x :: l'). reflexivity.
    + intros [k H] f IN. cbn [finals] in H. assert (exists k0, forall k', k0 <= k' -> exists l', finals node_dec srcnode k' l = Some l') as HL.
      { exists k. intros k' LE. destruct (H k' LE) as [l' E]. destruct (final_source node_dec srcnode k' n); [|discriminate]. destruct (finals node_dec srcnode k' l) as [r|]; [exists r; reflexivity | discriminate]. }
      destruct IN as [<- | IN]; [|exact (proj2 IH HL f IN)]. destruct (H k (le_n k)) as [l' E]. destruct (final_source node_dec srcnode k n) as [y|] eqn:F; [|discriminate]. exists y. apply (final_is k). exact F.
Qed.

Notation wanted := (Wanted cls has_builder sources all_children srcnode).
(* C87a: every file returned is a source: reached from the node through what is in directories and the sources of what is built, a file, not built itself; of a file in variant directories, its origin.  None twice *)
Theorem C87a_sound : (forall n, cls n = IsEntry true -> has_builder n = false) -> forall k n l, find k n = Some l -> NoDup l /\ forall x, In x l -> wanted n x.
Proof.
  intros KB k n l E. unfold find_source_files in E. destruct (build k (all_children n) ([], [])) as [[found dirs]|] eqn:B; [|discriminate]. destruct (finals node_dec srcnode k found) as [r|] eqn:F; [|discriminate].
  injection E as <-. split; [apply NoDup_nodup|]. intros x IN. apply nodup_In in IN. apply (proj1 (finals_spec _ _ _ F x)) in IN as [f [IF OF]].
  destruct (build_sound KB _ _ _ _ B f IF) as [[] | [c [IC SC]]]. exists c, f. auto.
Qed.
(* C87b: if it is known of the directories that they are directories, all of them are returned *)
Theorem C87b_complete : Known cls -> forall k n l, find k n = Some l -> forall x, In x l <-> wanted n x.
Proof.
  intros KN k n l E x. split; [intros IN; apply (C87a_sound (fun m C => False_ind _ (KN m C)) k n l E); exact IN|].
  intros [c [f [IC [SC OF]]]]. unfold find_source_files in E. destruct (build k (all_children n) ([], [])) as [[found dirs]|] eqn:B; [|discriminate]. destruct (finals node_dec srcnode k found) as [r|] eqn:F; [|discriminate].
  injection E as <-. apply nodup_In, (finals_spec _ _ _ F). exists f. split; [|exact OF]. apply (build_complete KN _ _ _ _ B) with c; assumption.
Qed.
(* C87c: it returns exactly if there is no endless chain: of directories and built files, or of variant directories *)
Theorem C87c_returns : Known cls -> forall n, (exists k l, find k n = Some l) <-> (forall c, In c (all_children n) -> ends c) /\ (forall c f, In c (all_children n) -> source_of c f -> EndsOrigin srcnode f).
Proof.
  intros KN n. split.
  - intros [k [l E]]. unfold find_source_files in E. destruct (build k (all_children n) ([], [])) as [[found dirs]|] eqn:B; [|discriminate]. destruct (finals node_dec srcnode k found) as [r|] eqn:F; [|discriminate].
    split; [intros c IC; apply (build_ends KN _ _ _ _ B c IC)|]. intros c f IC SC. assert (In f found) as IF by (apply (proj2 (build_complete KN _ _ _ _ B) c f); assumption).
    clear - F IF. revert r F. induction found as [|g found IH]; intros r F; [destruct IF|]. cbn [finals] in F. destruct (final_source node_dec srcnode k g) as [y|] eqn:G; [|discriminate]. destruct (finals node_dec srcnode k found) as [r1|]; [|discriminate].
    destruct IF as [<- | IF]; [exists y; apply (final_is k); exact G | exact (IH IF r1 eq_refl)].
  - intros [HE HO]. destruct (fits_all (all_children n)) as [k1 [NZ H1]]; [intros c IC; apply (ends_fits KN), HE; exact IC|]. destruct (fits_list k1 _ H1 NZ ([], [])) as [[found dirs] B].
    destruct (proj1 (finals_end found)) as [k2 H2].
    { intros f IF. destruct (build_sound (fun m C => False_ind _ (KN m C)) _ _ _ _ B f IF) as [[] | [c [IC SC]]]. exact (HO c f IC SC). }
    exists (k1 + k2). destruct (H2 (k1 + k2)) as [r F]; [lia|]. unfold find_source_files. rewrite (build_more _ (k1 + k2) _ _ _ B) by lia. rewrite F. eexists. reflexivity.
Qed.
End Props.
