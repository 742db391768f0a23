(* C59, second part: AppendUnique and PrependUnique. *)
From Coq Require Import Ascii String List Bool Arith Lia Permutation ZArith.
Import ListNotations.
From Verif Require Import NameModel NameProps FlagModel FlagSpec FlagProps FlagProps2 FlagProps3 FlagProps4 DefnProps.
Open Scope list_scope.

Lemma is_in_found : forall x q m, is_in x q = Some m -> In m q /\ (m = x \/ macro_conv x = macro_conv m).
Proof.
  intros x q m H. unfold is_in in H. destruct (pv_in x q) eqn:E.
  - injection H as <-. apply pv_in_spec in E. auto.
  - apply find_some in H. destruct H as [Hi He]. apply pv_eqb_spec in He. auto.
Qed.
Lemma is_in_none : forall x q, is_in x q = None -> forall y, In y q -> macro_conv x <> macro_conv y.
Proof.
  intros x q H y Hy E. unfold is_in in H. destruct (pv_in x q); [discriminate|]. apply (find_none _ _ H) in Hy. assert (pv_eqb (macro_conv x) (macro_conv y) = true) by (apply pv_eqb_spec; exact E). congruence.
Qed.
Lemma found_text : forall x q m, Forall valid q -> valid x -> is_in x q = Some m -> In m q /\ txt m = txt x.
Proof.
  intros x q m Hq Hx H. apply is_in_found in H. destruct H as [Hi [-> | H]]; [auto|]. split; [exact Hi|]. symmetry. apply conv_text; auto. rewrite Forall_forall in Hq. auto.
Qed.
Lemma remove_first_in : forall m q y, In y (remove_first m q) -> In y q.
Proof.
  induction q as [|z q IH]; intros y H; [destruct H|]. cbn [remove_first] in H. destruct (pv_eqb z m); [right; exact H|]. destruct H as [-> | H]; [left; reflexivity | right; apply IH; exact H].
Qed.
Lemma remove_first_split : forall m q, In m q -> exists a b, q = a ++ m :: b /\ remove_first m q = a ++ b.
Proof.
  induction q as [|z q IH]; intros H; [destruct H|]. cbn [remove_first]. destruct (pv_eqb z m) eqn:E.
  - apply pv_eqb_spec in E. subst. exists [], q. auto.
  - destruct H as [-> | H]; [assert (pv_eqb m m = true) by (apply pv_eqb_spec; reflexivity); congruence|]. destruct (IH H) as (a & b & -> & ->). exists (z :: a), b. auto.
Qed.
Lemma texts_in : forall q t, In t (texts q) <-> exists x, In x q /\ In t (txt x).
Proof. intros. unfold texts. apply in_flat_map. Qed.

(* ---- nothing is missing, nothing is invented; what was there stays where it was ---- *)
Inductive sublist : list str -> list str -> Prop :=
| sub_nil : sublist [] []
| sub_skip t l l' : sublist l l' -> sublist l (t :: l')
| sub_keep t l l' : sublist l l' -> sublist (t :: l) (t :: l').
Lemma sub_refl : forall l, sublist l l.
Proof. induction l; constructor; assumption. Qed.
Lemma sub_app : forall a b c d, sublist a b -> sublist c d -> sublist (a ++ c) (b ++ d).
Proof. intros a b c d H H2. induction H; cbn [app]; [exact H2 | apply sub_skip; assumption | apply sub_keep; assumption]. Qed.
Lemma sub_none : forall l, sublist [] l.
Proof. induction l; constructor; assumption. Qed.
Lemma fold_unique : forall items q, Forall valid q -> Forall valid items ->
  exists kept, fold_left (add_item false true false) items q = q ++ kept /\ Forall valid kept /\ sublist (texts kept) (texts items) /\
    forall t, In t (texts items) -> In t (texts (q ++ kept)).
Proof.
  induction items as [|x items IH]; intros q Hq Hi; cbn [fold_left]; [exists []; rewrite app_nil_r; split; [reflexivity|]; split; [constructor|]; split; [constructor | intros t []]|].
  inversion Hi as [|? ? Hx Hi2]. subst. cbn [texts flat_map].
  assert (ADD : exists kept, fold_left (add_item false true false) items (q ++ [x]) = q ++ kept /\ Forall valid kept /\ sublist (texts kept) (txt x ++ texts items) /\
    forall t, In t (txt x ++ texts items) -> In t (texts (q ++ kept))).
  { destruct (IH (q ++ [x])) as (kept & E & Vk & Sk & Ik); [apply Forall_app; split; [exact Hq | constructor; [exact Hx | constructor]] | exact Hi2 |].
    exists (x :: kept). rewrite E, <- app_assoc. split; [reflexivity|]. split; [constructor; assumption|]. split; [apply sub_app; [apply sub_refl | exact Sk]|].
    intros t Ht. apply in_app_or in Ht. destruct Ht as [Ht | Ht]; [apply texts_in; exists x; split; [apply in_or_app; right; left; reflexivity | exact Ht]|].
    apply Ik in Ht. rewrite <- app_assoc in Ht. exact Ht. }
  unfold add_item at 2. unfold add_define. destruct (is_in x q) as [m|] eqn:E; [destruct (truthy m)|]; try exact ADD.
  destruct (found_text x q m Hq Hx E) as [Hm Tm]. destruct (IH q Hq Hi2) as (kept & E2 & Vk & Sk & Ik). exists kept. split; [exact E2|]. split; [exact Vk|].
  split; [change (texts kept) with ([] ++ texts kept); apply sub_app; [apply sub_none | exact Sk]|].
  intros t Ht. apply in_app_or in Ht. destruct Ht as [Ht | Ht]; [apply texts_in; exists m; split; [apply in_or_app; left; exact Hm | rewrite Tm; exact Ht] | apply Ik; exact Ht].
Qed.
Lemma list_unique : forall items q tmp, Forall valid q -> Forall valid items ->
  exists kept, add_list true false q tmp items = (q, tmp ++ kept) /\ Forall valid kept /\ sublist (texts kept) (texts items) /\ forall t, In t (texts items) -> In t (texts (q ++ kept)).
Proof.
  induction items as [|x items IH]; intros q tmp Hq Hi; cbn [add_list]; [exists []; rewrite app_nil_r; split; [reflexivity|]; split; [constructor|]; split; [constructor | intros t []]|].
  inversion Hi as [|? ? Hx Hi2]. subst. cbn [texts flat_map].
  assert (ADD : exists kept, add_list true false q (tmp ++ [x]) items = (q, tmp ++ kept) /\ Forall valid kept /\ sublist (texts kept) (txt x ++ texts items) /\
    forall t, In t (txt x ++ texts items) -> In t (texts (q ++ kept))).
  { destruct (IH q (tmp ++ [x]) Hq Hi2) as (kept & E & Vk & Sk & Ik). exists (x :: kept). rewrite E, <- app_assoc. split; [reflexivity|]. split; [constructor; assumption|].
    split; [apply sub_app; [apply sub_refl | exact Sk]|].
    intros t Ht. apply in_app_or in Ht. destruct Ht as [Ht | Ht]; [apply texts_in; exists x; split; [apply in_or_app; right; left; reflexivity | exact Ht]|].
    apply Ik in Ht. rewrite texts_app in *. apply in_or_app. apply in_app_or in Ht. destruct Ht as [Ht | Ht]; [left; exact Ht | right; cbn; apply in_or_app; right; exact Ht]. }
  destruct (is_in x q) as [m|] eqn:E; [destruct (truthy m)|]; try exact ADD.
  destruct (found_text x q m Hq Hx E) as [Hm Tm]. destruct (IH q tmp Hq Hi2) as (kept & E2 & Vk & Sk & Ik). exists kept. split; [exact E2|]. split; [exact Vk|].
  split; [change (texts kept) with ([] ++ texts kept); apply sub_app; [apply sub_none | exact Sk]|].
  intros t Ht. apply in_app_or in Ht. destruct Ht as [Ht | Ht]; [apply texts_in; exists m; split; [apply in_or_app; left; exact Hm | rewrite Tm; exact Ht] | apply Ik; exact Ht].
Qed.
(* C59e: AppendUnique keeps every macro that was there, in place, adds only macros that were given, in their order, and afterwards all of those given are there *)
Theorem C59e_append_unique : forall cur val a b, container cur -> container val -> processDefines cur = Ok a -> processDefines val = Ok b ->
  exists n b', add_cppdefines (Some cur) val false true false = Ok n /\ processDefines n = Ok (a ++ b') /\ sublist b' b /\ incl b (a ++ b').
Proof.
  intros cur val a b Cc Cv Ha Hb. destruct (deque_shown cur a Cc Ha) as (q & Hq & Vq & Tq). destruct (pieces_shown val b Cv Hb) as [Vp Tp].
  assert (G : exists kept, extend false true false q val = q ++ kept /\ Forall valid kept /\ sublist (texts kept) (texts (pieces val)) /\ forall t, In t (texts (pieces val)) -> In t (texts (q ++ kept))).
  { unfold extend. destruct (all_at_once val); [|apply fold_unique; assumption]. destruct (list_unique (pieces val) q [] Vq Vp) as (kept & -> & H). exists kept. split; [reflexivity | exact H]. }
  destruct G as (kept & E & Vk & Sk & Ik). eexists. exists (texts kept). split; [apply (add_shown cur q val b); assumption|]. rewrite E. split; [|split].
  - apply shown_deque. split; [apply Forall_app; auto|]. rewrite texts_app, Tq. reflexivity.
  - rewrite Tp in Sk. exact Sk.
  - intros t Ht. rewrite <- Tp in Ht. apply Ik in Ht. rewrite texts_app, Tq in Ht. exact Ht.
Qed.

(* ---- no duplicates ---- *)
(* the usual ways to write a macro: a string with at most one equal sign, or a name and a value in a pair or list of two, without equal signs *)
Definition one_eq (s : str) : Prop := forall a b c, s <> a ++ EQC :: b ++ EQC :: c.
Definition no_eq (s : str) : Prop := ~ In EQC s.
Inductive usual : pv -> Prop :=
| usual_str s : s <> [] -> one_eq s -> usual (PStr s)
| usual_pair n v : no_eq n -> no_eq v -> usual (PTuple [PStr n; PStr v])
| usual_name n : no_eq n -> usual (PTuple [PStr n; PNone])
| usual_lpair n v : no_eq n -> no_eq v -> usual (PList [PStr n; PStr v])
| usual_lname n : no_eq n -> usual (PList [PStr n; PNone]).
Lemma usual_conv : forall e, usual e -> exists n, no_eq n /\
  ((macro_conv e = PList [PStr n; PNone] /\ macros_of_entry e = Ok [n]) \/ exists v, no_eq v /\ macro_conv e = PList [PStr n; PStr v] /\ macros_of_entry e = Ok [n ++ EQC :: v]).
Proof.
  intros e H. destruct H as [s Hs Ho|n v Hn Hv|n Hn|n v Hn Hv|n Hn]; try (exists n; split; [exact Hn|]; first [left; split; reflexivity | right; exists v; split; [exact Hv | split; reflexivity]]).
  destruct (conv_str s) as [[Hn E] | (n & v & -> & Hn & [[Hv E] | (x & y & z & r & E & Sp)])].
  - exists s. split; [exact Hn|]. left. split; [exact E | reflexivity].
  - exists n. split; [exact Hn|]. right. exists v. split; [exact Hv|]. split; [exact E | reflexivity].
  - exfalso. assert (J := join_split (n ++ EQC :: v)). rewrite Sp in J. cbn [join_with] in J. destruct r as [|w r]; apply (Ho x y _ (eq_sym J)).
Qed.
Lemma usual_valid : forall e, usual e -> valid e.
Proof. intros e H. destruct (usual_conv e H) as (n & _ & [[_ E] | (v & _ & _ & E)]); eexists; exact E. Qed.
Lemma usual_text : forall e, usual e -> exists t, txt e = [t].
Proof. intros e H. unfold txt. destruct (usual_conv e H) as (n & _ & [[_ E] | (v & _ & _ & E)]); rewrite E; eexists; reflexivity. Qed.
Lemma usual_same : forall x y t, usual x -> usual y -> txt x = [t] -> txt y = [t] -> macro_conv x = macro_conv y.
Proof.
  intros x y t Hx Hy Tx Ty. unfold txt in *. destruct (usual_conv x Hx) as (n & Hn & [[E1 E2] | (v & Hv & E1 & E2)]); rewrite E2 in Tx; injection Tx as Tx;
    destruct (usual_conv y Hy) as (n2 & Hn2 & [[F1 F2] | (v2 & Hv2 & F1 & F2)]); rewrite F2 in Ty; injection Ty as Ty; rewrite E1, F1; subst t.
  - congruence.
  - exfalso. apply Hn. rewrite <- Ty. apply in_or_app. right. left. reflexivity.
  - exfalso. apply Hn2. rewrite Ty. apply in_or_app. right. left. reflexivity.
  - destruct (eq_first _ _ _ _ Ty Hn2 Hn) as [-> ->]. reflexivity.
Qed.
Lemma usual_truthy : forall e, usual e -> truthy e = true.
Proof. intros e H. destruct H as [s Hs _|? ? ? ?|? ?|? ? ? ?|? ?]; try reflexivity. destruct s; [congruence | reflexivity]. Qed.
Lemma is_in_usual : forall x q t, usual x -> Forall usual q -> txt x = [t] ->
  match is_in x q with Some m => truthy m = true /\ In m q /\ txt m = [t] | None => ~ In t (texts q) end.
Proof.
  intros x q t Hx Hq Tx. assert (Hq2 := Hq). rewrite Forall_forall in Hq2. destruct (is_in x q) as [m|] eqn:E.
  - assert (Vq : Forall valid q) by (apply Forall_forall; intros y Hy; apply usual_valid; auto).
    destruct (found_text x q m Vq (usual_valid x Hx) E) as [Hm Tm]. split; [apply usual_truthy; auto|]. split; [exact Hm | congruence].
  - intros Ht. apply texts_in in Ht. destruct Ht as (y & Hy & Ht). destruct (usual_text y (Hq2 y Hy)) as (u & Tu). rewrite Tu in Ht. destruct Ht as [-> | []].
    exact (is_in_none x q E y Hy (usual_same x y t Hx (Hq2 y Hy) Tx Tu)).
Qed.
Lemma usual_list_texts : forall q, Forall usual q -> length (texts q) = length q /\ Forall valid q.
Proof.
  intros q H. induction H as [|x q Hx H [I1 I2]]; [split; [reflexivity | constructor]|]. destruct (usual_text x Hx) as (t & E). change (texts (x :: q)) with (txt x ++ texts q). rewrite E. cbn. rewrite I1.
  split; [reflexivity | constructor; [apply usual_valid; exact Hx | exact I2]].
Qed.
Lemma nodup_snoc : forall (l : list str) t, NoDup l -> ~ In t l -> NoDup (l ++ [t]).
Proof. intros l t N H. apply (Permutation_NoDup (l := t :: l)); [apply Permutation_cons_append | constructor; assumption]. Qed.
Lemma fold_nodup : forall items p q, Forall usual q -> Forall usual items -> NoDup (texts q) ->
  NoDup (texts (fold_left (add_item p true false) items q)) /\ Forall usual (fold_left (add_item p true false) items q).
Proof.
  induction items as [|x items IH]; intros p q Hq Hi N; cbn [fold_left]; [auto|]. inversion Hi as [|? ? Hx Hi2]. subst.
  destruct (usual_text x Hx) as (t & Tx). assert (K := is_in_usual x q t Hx Hq Tx). apply IH; [|exact Hi2|]; unfold add_item, add_define; destruct (is_in x q) as [m|].
  - destruct K as [-> _]. exact Hq.
  - destruct p; [constructor; assumption | apply Forall_app; split; [exact Hq | constructor; [exact Hx | constructor]]].
  - destruct K as [-> _]. exact N.
  - destruct p; [change (texts (x :: q)) with (txt x ++ texts q); rewrite Tx; constructor; assumption|].
    rewrite texts_app. change (texts [x]) with (txt x ++ []). rewrite Tx. cbn [app]. apply nodup_snoc; assumption.
Qed.
Lemma list_nodup : forall items q tmp, Forall usual q -> Forall usual items -> NoDup (texts q ++ texts tmp) -> NoDup (texts items) -> (forall t, In t (texts tmp) -> ~ In t (texts items)) ->
  exists kept, add_list true false q tmp items = (q, tmp ++ kept) /\ Forall usual kept /\ NoDup (texts q ++ texts (tmp ++ kept)).
Proof.
  induction items as [|x items IH]; intros q tmp Hq Hi N Ni D; cbn [add_list]; [exists []; rewrite app_nil_r; split; [reflexivity|]; split; [constructor | exact N]|].
  inversion Hi as [|? ? Hx Hi2]. subst. destruct (usual_text x Hx) as (t & Tx). assert (K := is_in_usual x q t Hx Hq Tx).
  change (texts (x :: items)) with (txt x ++ texts items) in *. rewrite Tx in *. cbn [app] in *. inversion Ni as [|? ? Nt Ni2]. subst.
  destruct (is_in x q) as [m|].
  - destruct K as [-> _]. apply IH; try assumption. intros u Hu Hu2. apply (D u Hu). right. exact Hu2.
  - destruct (IH q (tmp ++ [x])) as (kept & E & Uk & Nk); try assumption.
    + rewrite texts_app. change (texts [x]) with (txt x ++ []). rewrite Tx. cbn [app]. rewrite app_assoc. apply nodup_snoc; [exact N|].
      intros H. apply in_app_or in H. destruct H as [H | H]; [contradiction|]. apply (D t H). left. reflexivity.
    + intros u Hu Hu2. rewrite texts_app in Hu. apply in_app_or in Hu. destruct Hu as [Hu | Hu]; [apply (D u Hu); right; exact Hu2|].
      change (texts [x]) with (txt x ++ []) in Hu. rewrite Tx in Hu. destruct Hu as [-> | []]. contradiction.
    + exists (x :: kept). rewrite <- app_assoc in E, Nk. split; [exact E|]. split; [constructor; assumption | exact Nk].
Qed.
Definition usual_value (v : pv) (q : list pv) : Prop := to_deque v = Ok q /\ Forall usual q.
(* C59f: with macros written in the usual ways AppendUnique and PrependUnique never put a macro on the command line twice *)
Theorem C59f_unique_no_duplicates : forall cur val q a b p,
  usual_value cur q -> container cur -> container val -> Forall usual (pieces val) -> processDefines cur = Ok a -> processDefines val = Ok b -> NoDup a -> (all_at_once val = true -> NoDup b) ->
  exists n l, add_cppdefines (Some cur) val p true false = Ok n /\ processDefines n = Ok l /\ NoDup l /\ forall t, In t l <-> In t a \/ In t b.
Proof.
  intros cur val q a b p [Hq Uq] Cc Cv Up Ha Hb Na Nb. destruct (deque_shown cur a Cc Ha) as (q' & Hq' & Vq & Tq). rewrite Hq in Hq'. injection Hq' as <-.
  destruct (pieces_shown val b Cv Hb) as [Vp Tp].
  assert (G : exists kept, Permutation (texts (extend p true false q val)) (texts q ++ texts kept) /\ Forall usual (extend p true false q val) /\ NoDup (texts q ++ texts kept) /\
     (forall t, In t (texts kept) -> In t b) /\ (forall t, In t b -> In t (texts q ++ texts kept))).
  { unfold extend. destruct (all_at_once val) eqn:A.
    - destruct (list_nodup (pieces val) q [] Uq Up) as (kept & E & Uk & Nk); [rewrite app_nil_r, Tq; exact Na | rewrite Tp; auto | intros t [] |].
      destruct (list_unique (pieces val) q [] Vq Vp) as (kept2 & E2 & _ & Sk & Ik). rewrite E in E2. cbn [app] in *. injection E2 as <-. rewrite E.
      exists kept. split; [|split; [|split; [exact Nk|split]]].
      + destruct p; [|rewrite texts_app; apply Permutation_refl]. rewrite texts_app. eapply Permutation_trans; [apply Permutation_app_comm|]. apply Permutation_app_head.
        unfold texts. rewrite !flat_map_concat_map, map_rev. apply perm_concat_rev.
      + destruct p; apply Forall_app; split; auto. apply Forall_rev. exact Uk.
      + intros t Ht. rewrite <- Tp. clear - Sk Ht. induction Sk; [destruct Ht | right; auto | destruct Ht as [-> | Ht]; [left; reflexivity | right; auto]].
      + intros t Ht. rewrite <- texts_app. apply Ik. rewrite Tp. exact Ht.
    - assert (G2 : forall items q0, Forall usual q0 -> Forall usual items -> exists kept, Permutation (texts (fold_left (add_item p true false) items q0)) (texts q0 ++ texts kept) /\
         (forall t, In t (texts kept) -> In t (texts items)) /\ (forall t, In t (texts items) -> In t (texts q0 ++ texts kept))).
      { induction items as [|x items IH]; intros q0 U0 Ui; cbn [fold_left]; [exists []; rewrite app_nil_r; split; [apply Permutation_refl | split; intros t []]|].
        inversion Ui as [|? ? Ux Ui2]. subst. destruct (usual_text x Ux) as (t & Tx). assert (K := is_in_usual x q0 t Ux U0 Tx). replace (add_item p true false q0 x) with (match is_in x q0 with Some m => if truthy m then q0 else add_define p x q0 | None => add_define p x q0 end) by (unfold add_item; destruct (is_in x q0) as [m|]; [destruct (truthy m)|]; reflexivity). change (texts (x :: items)) with (txt x ++ texts items). rewrite Tx. cbn [app].
        destruct (is_in x q0) as [m|].
        - destruct K as [-> [Hm Tm]]. destruct (IH q0 U0 Ui2) as (kept & P & I1 & I2). exists kept. split; [exact P|]. split; [intros u Hu; right; auto|].
          intros u [<- | Hu]; [apply in_or_app; left; apply texts_in; exists m; split; [exact Hm | rewrite Tm; left; reflexivity] | auto].
        - unfold add_define. destruct (IH (if p then x :: q0 else q0 ++ [x])) as (kept & P & I1 & I2); [destruct p; [constructor; assumption | apply Forall_app; split; [exact U0 | constructor; [exact Ux | constructor]]] | exact Ui2 |].
          exists (x :: kept). assert (Q : Permutation (texts (if p then x :: q0 else q0 ++ [x]) ++ texts kept) (texts q0 ++ texts (x :: kept))).
          { change (texts (x :: kept)) with (txt x ++ texts kept). rewrite Tx. cbn [app]. destruct p.
            - change (texts (x :: q0)) with (txt x ++ texts q0). rewrite Tx. cbn [app]. apply Permutation_middle.
            - rewrite texts_app. change (texts [x]) with (txt x ++ []). rewrite Tx. cbn [app]. rewrite <- app_assoc. apply Permutation_refl. }
          split; [eapply Permutation_trans; [exact P | exact Q]|]. change (texts (x :: kept)) with (txt x ++ texts kept). rewrite Tx. cbn [app]. split.
          + intros u [<- | Hu]; [left; reflexivity | right; auto].
          + intros u [<- | Hu]; [apply in_or_app; right; left; reflexivity|]. apply I2 in Hu. apply (Permutation_in _ Q) in Hu.
            change (texts (x :: kept)) with (txt x ++ texts kept) in Hu. rewrite Tx in Hu. exact Hu. }
      destruct (G2 (pieces val) q Uq Up) as (kept & P & I1 & I2). destruct (fold_nodup (pieces val) p q Uq Up) as [N U]; [rewrite Tq; exact Na|].
      exists kept. split; [exact P|]. split; [exact U|]. split; [apply (Permutation_NoDup P); exact N|]. rewrite Tp in I1, I2. split; assumption. }
  destruct G as (kept & P & U & N & I1 & I2). eexists. exists (texts (extend p true false q val)). split; [apply (add_shown cur q val b); assumption|].
  split; [apply shown_deque; split; [apply usual_list_texts; exact U | reflexivity]|]. split; [apply (Permutation_NoDup (Permutation_sym P)); exact N|].
  intros t. split.
  - intros H. apply (Permutation_in _ P) in H. apply in_app_or in H. rewrite Tq in H. destruct H as [H | H]; auto.
  - intros H. apply (Permutation_in _ (Permutation_sym P)). destruct H as [H | H]; [apply in_or_app; left; rewrite Tq; exact H | auto].
Qed.

(* ---- delete_existing ---- *)
Definition differs (b : list str) (t : str) : bool := if in_dec str_eq_dec t b then false else true.
Lemma filter_texts : forall q m t, Forall usual q -> NoDup (texts q) -> In m q -> txt m = [t] -> texts (remove_first m q) = filter (differs [t]) (texts q).
Proof.
  intros q m t U N Hm Tm. destruct (remove_first_split m q Hm) as (x & y & -> & ->). rewrite !texts_app in *. change (texts (m :: y)) with (txt m ++ texts y) in *. rewrite Tm in *. cbn [app] in *.
  assert (K : forall l, ~ In t l -> filter (differs [t]) l = l).
  { induction l as [|u l IH]; intros H; [reflexivity|]. cbn [filter]. unfold differs at 1. destruct (in_dec str_eq_dec u [t]) as [[<- | []] | _]; [exfalso; apply H; left; reflexivity|].
    rewrite IH; [reflexivity | intros H2; apply H; right; exact H2]. }
  assert (N2 := NoDup_remove_2 _ _ _ N). rewrite filter_app. cbn [filter]. replace (differs [t] t) with false by (unfold differs; destruct (in_dec str_eq_dec t [t]) as [_ | Hno]; [reflexivity | exfalso; apply Hno; left; reflexivity]).
  rewrite !K; [reflexivity | |]; intros H; apply N2; apply in_or_app; auto.
Qed.
Lemma filter_id : forall (l : list str) t, ~ In t l -> filter (differs [t]) l = l.
Proof.
  induction l as [|u l IH]; intros t H; [reflexivity|]. cbn [filter]. unfold differs at 1. destruct (in_dec str_eq_dec u [t]) as [[<- | []] | _]; [exfalso; apply H; left; reflexivity|].
  rewrite IH; [reflexivity | intros H2; apply H; right; exact H2].
Qed.
Lemma filter_filter : forall (f g h : str -> bool) l, (forall x, h x = g x && f x) -> filter f (filter g l) = filter h l.
Proof.
  intros f g h l H. induction l as [|u l IH]; [reflexivity|]. cbn [filter]. rewrite H. destruct (g u); cbn [filter andb]; [|exact IH]. destruct (f u); [rewrite IH; reflexivity | exact IH].
Qed.
Lemma filter_more : forall (l : list str) done t, filter (differs [t]) (filter (differs done) l) = filter (differs (t :: done)) l.
Proof.
  intros l done t. apply filter_filter. intros u. unfold differs. destruct (in_dec str_eq_dec u done) as [H | H]; destruct (in_dec str_eq_dec u (t :: done)) as [H2 | H2]; destruct (in_dec str_eq_dec u [t]) as [H3 | H3];
    try reflexivity; exfalso; cbn in *; tauto.
Qed.
Lemma filter_perm : forall (l d d' : list str), (forall x, In x d <-> In x d') -> filter (differs d) l = filter (differs d') l.
Proof.
  intros l d d' H. apply filter_ext. intros x. unfold differs. destruct (in_dec str_eq_dec x d) as [H1 | H1]; destruct (in_dec str_eq_dec x d') as [H2 | H2]; try reflexivity; exfalso; [apply H2 | apply H1]; apply H; assumption.
Qed.
Lemma NoDup_app2 : forall (a b : list str), NoDup a -> NoDup b -> (forall u, In u a -> ~ In u b) -> NoDup (a ++ b).
Proof.
  induction a as [|x a IH]; intros b Na Nb D; [exact Nb|]. inversion Na as [|? ? Hx Na2]. subst. cbn [app]. constructor.
  - intros H. apply in_app_or in H. destruct H as [H | H]; [contradiction|]. apply (D x); [left; reflexivity | exact H].
  - apply IH; [exact Na2 | exact Nb |]. intros u Hu. apply D. right. exact Hu.
Qed.
Lemma nodup_filter : forall (l : list str) f, NoDup l -> NoDup (filter f l).
Proof. intros. apply NoDup_filter. assumption. Qed.
(* one item: taken out where it was and put at the end *)
Lemma step_delete : forall q x t, Forall usual q -> usual x -> NoDup (texts q) -> txt x = [t] ->
  exists q', Forall usual q' /\ texts q' = filter (differs [t]) (texts q) /\
    (match is_in x q with Some m => if truthy m then remove_first m q else q | None => q end) = q'.
Proof.
  intros q x t U Ux N Tx. assert (K := is_in_usual x q t Ux U Tx). destruct (is_in x q) as [m|].
  - destruct K as [-> [Hm Tm]]. exists (remove_first m q). split; [|split; [apply filter_texts; assumption | reflexivity]].
    apply Forall_forall. intros y Hy. apply remove_first_in in Hy. rewrite Forall_forall in U. auto.
  - exists q. split; [exact U|]. split; [symmetry; apply filter_id; exact K | reflexivity].
Qed.
Lemma fold_delete : forall items q a done, Forall usual q -> Forall usual items -> NoDup a -> NoDup (done ++ texts items) -> texts q = filter (differs done) a ++ done ->
  Forall usual (fold_left (add_item false true true) items q) /\ texts (fold_left (add_item false true true) items q) = filter (differs (done ++ texts items)) a ++ done ++ texts items.
Proof.
  induction items as [|x items IH]; intros q a done U Ui Na Nd E; cbn [fold_left]; [change (texts []) with (@nil str); rewrite app_nil_r; auto|].
  inversion Ui as [|? ? Ux Ui2]. subst. destruct (usual_text x Ux) as (t & Tx). change (texts (x :: items)) with (txt x ++ texts items) in *. rewrite Tx in *. cbn [app] in *.
  assert (Nt : ~ In t done) by (intros H; apply NoDup_remove_2 in Nd; apply Nd; apply in_or_app; left; exact H).
  assert (Nq : NoDup (texts q)).
  { rewrite E. assert (ND : NoDup done) by (clear - Nd; induction done as [|d done IH]; [constructor|]; cbn in Nd; inversion Nd as [|? ? H1 H2]; subst; constructor; [intros H; apply H1; apply in_or_app; left; exact H | apply IH; exact H2]).
    apply NoDup_app2; [apply nodup_filter; exact Na | exact ND |]. intros u Hu Hd. apply filter_In in Hu. destruct Hu as [_ Hu]. unfold differs in Hu. destruct (in_dec str_eq_dec u done); [discriminate | contradiction]. }
  destruct (step_delete q x t U Ux Nq Tx) as (q' & U' & E' & Eq).
  assert (A : add_item false true true q x = q' ++ [x]) by (unfold add_item, add_define; rewrite <- Eq; destruct (is_in x q) as [m|]; [destruct (truthy m)|]; reflexivity).
  rewrite A. destruct (IH (q' ++ [x]) a (done ++ [t])) as [I1 I2].
  - apply Forall_app. split; [exact U' | constructor; [exact Ux | constructor]].
  - exact Ui2.
  - exact Na.
  - rewrite <- app_assoc. exact Nd.
  - rewrite texts_app, E', E, filter_app, filter_more, (filter_id done t Nt). change (texts [x]) with (txt x ++ []). rewrite Tx. cbn [app]. rewrite <- app_assoc. f_equal.
    apply filter_perm. intros u. split; intros H; [destruct H as [<- | H]; apply in_or_app; [right; left; reflexivity | left; exact H] | apply in_app_or in H; destruct H as [H | [<- | []]]; [right; exact H | left; reflexivity]].
  - split; [exact I1|]. rewrite I2. rewrite <- !app_assoc. reflexivity.
Qed.
Lemma list_delete : forall items q tmp a, Forall usual q -> Forall usual items -> NoDup (texts q) -> a = texts q ->
  exists q', add_list true true q tmp items = (q', tmp ++ items) /\ Forall usual q' /\ texts q' = filter (differs (texts items)) a.
Proof.
  induction items as [|x items IH]; intros q tmp a U Ui N ->; cbn [add_list].
  - exists q. rewrite app_nil_r. split; [reflexivity|]. split; [exact U|]. symmetry. change (texts []) with (@nil str). generalize (texts q) as l. induction l as [|u l IHl]; [reflexivity|]. cbn [filter]. unfold differs at 1. cbn. rewrite IHl. reflexivity.
  - inversion Ui as [|? ? Ux Ui2]. subst. destruct (usual_text x Ux) as (t & Tx). destruct (step_delete q x t U Ux N Tx) as (q' & U' & E' & Eq).
    assert (A : match is_in x q with Some m => if truthy m then add_list true true (remove_first m q) (tmp ++ [x]) items else add_list true true q (tmp ++ [x]) items | None => add_list true true q (tmp ++ [x]) items end
                = add_list true true q' (tmp ++ [x]) items) by (rewrite <- Eq; destruct (is_in x q) as [m|]; [destruct (truthy m)|]; reflexivity).
    rewrite A. destruct (IH q' (tmp ++ [x]) (texts q') U' Ui2) as (q2 & E2 & U2 & T2); [rewrite E'; apply nodup_filter; exact N | reflexivity |].
    exists q2. rewrite E2, <- app_assoc. split; [reflexivity|]. split; [exact U2|]. rewrite T2, E'. change (texts (x :: items)) with (txt x ++ texts items). rewrite Tx. cbn [app].
    apply filter_filter. intros u. unfold differs. destruct (in_dec str_eq_dec u [t]) as [H | H]; destruct (in_dec str_eq_dec u (t :: texts items)) as [H2 | H2]; destruct (in_dec str_eq_dec u (texts items)) as [H3 | H3];
      try reflexivity; exfalso; cbn in H, H2; tauto.
Qed.
(* C59g: with delete_existing the macros given move to the end, in the order given; the others stay in their order *)
Theorem C59g_append_unique_moves : forall cur val q a b,
  usual_value cur q -> container cur -> container val -> Forall usual (pieces val) -> processDefines cur = Ok a -> processDefines val = Ok b -> NoDup a -> NoDup b ->
  exists n, add_cppdefines (Some cur) val false true true = Ok n /\ processDefines n = Ok (filter (differs b) a ++ b).
Proof.
  intros cur val q a b [Hq Uq] Cc Cv Up Ha Hb Na Nb. destruct (deque_shown cur a Cc Ha) as (q' & Hq' & Vq & Tq). rewrite Hq in Hq'. injection Hq' as <-.
  destruct (pieces_shown val b Cv Hb) as [Vp Tp]. eexists. split; [apply (add_shown cur q val b); assumption|]. apply shown_deque. unfold extend. destruct (all_at_once val).
  - destruct (list_delete (pieces val) q [] a Uq Up) as (q2 & E & U2 & T2); [rewrite Tq; exact Na | symmetry; exact Tq |]. rewrite E. cbn [app].
    split; [apply Forall_app; split; [apply usual_list_texts; exact U2 | exact Vp]|]. rewrite texts_app, T2, Tp. reflexivity.
  - destruct (fold_delete (pieces val) q a [] Uq Up Na) as [U E]; [rewrite Tp; exact Nb | |].
    + rewrite app_nil_r, Tq. symmetry. clear. induction a as [|u l IHl]; [reflexivity|]. cbn [filter]. unfold differs at 1. cbn. rewrite IHl. reflexivity.
    + split; [apply usual_list_texts; exact U|]. cbn [app] in E. rewrite E, Tp. reflexivity.
Qed.
Print Assumptions C59e_append_unique.
Print Assumptions C59f_unique_no_duplicates.
Print Assumptions C59g_append_unique_moves.
