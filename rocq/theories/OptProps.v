(* C61: words and their kinds; what one occurrence of an option does *)
From Coq Require Import Ascii String List Bool Arith Lia.
Import ListNotations. Open Scope list_scope.
From Verif Require Import NameModel OptModel OptSpec.

Lemma str_eqb_eq : forall a b, str_eqb a b = true <-> a = b.
Proof.
  induction a as [|x a IH]; intros [|y b]; cbn [str_eqb]; split; intros H; try discriminate; try reflexivity.
  - apply andb_true_iff in H. destruct H as [H1 H2]. apply Ascii.eqb_eq in H1. apply IH in H2. subst. reflexivity.
  - injection H as -> ->. rewrite Ascii.eqb_refl. cbn. apply IH. reflexivity.
Qed.
Lemma str_eqb_refl : forall a, str_eqb a a = true.
Proof. intros a. apply str_eqb_eq. reflexivity. Qed.
Lemma str_eqb_neq : forall a b, a <> b -> str_eqb a b = false.
Proof. intros a b H. destruct (str_eqb a b) eqn:E; [|reflexivity]. apply str_eqb_eq in E. contradiction. Qed.
Lemma put_same : forall A (m : map_ A) d v, put m d v d = Some v.
Proof. intros. unfold put. rewrite str_eqb_refl. reflexivity. Qed.
Lemma put_other : forall A (m : map_ A) d v e, e <> d -> put m d v e = m e.
Proof. intros. unfold put. rewrite str_eqb_neq by assumption. reflexivity. Qed.
Lemma mem_In : forall w l, mem w l = true <-> In w l.
Proof.
  intros w l. unfold mem. rewrite existsb_exists. split.
  - intros (x & H1 & H2). apply str_eqb_eq in H2. subst. exact H1.
  - intros H. exists w. split; [exact H | apply str_eqb_refl].
Qed.
Lemma memc_In : forall c l, memc c l = true <-> In c l.
Proof.
  intros w l. unfold memc. rewrite existsb_exists. split.
  - intros (x & H1 & H2). apply Ascii.eqb_eq in H2. subst. exact H1.
  - intros H. exists w. split; [exact H | apply Ascii.eqb_refl].
Qed.

(* ---- words ---- *)
Lemma split_eq_none : forall n, ~ In equals n -> split_eq n = (n, None).
Proof.
  induction n as [|c n IH]; intros H; [reflexivity|]. cbn [split_eq]. destruct (Ascii.eqb c "=") eqn:E; [apply Ascii.eqb_eq in E; exfalso; apply H; left; exact E|].
  rewrite IH; [reflexivity|]. intros Hi. apply H. right. exact Hi.
Qed.
Lemma split_eq_some : forall n v, ~ In equals n -> split_eq (n ++ equals :: v) = (n, Some v).
Proof.
  induction n as [|c n IH]; intros v H; [reflexivity|]. cbn [split_eq app]. destruct (Ascii.eqb c "=") eqn:E; [apply Ascii.eqb_eq in E; exfalso; apply H; left; exact E|].
  rewrite IH; [reflexivity|]. intros Hi. apply H. right. exact Hi.
Qed.
Lemma classify_stop : classify (long []) = KStop.
Proof. reflexivity. Qed.
Lemma classify_long : forall n, n <> [] -> ~ In equals n -> classify (long n) = KLong n None.
Proof. intros [|c n] H1 H2; [contradiction|]. unfold classify, long, dash. change (Ascii.eqb "-" "-") with true. cbv iota. rewrite (split_eq_none _ H2). reflexivity. Qed.
Lemma classify_long_eq : forall n v, ~ In equals n -> classify (long_eq n v) = KLong n (Some v).
Proof.
  intros n v H. unfold classify, long_eq, dash. change (Ascii.eqb "-" "-") with true. cbv iota. rewrite (split_eq_some _ v H). destruct n as [|c n]; reflexivity.
Qed.
Lemma classify_short : forall c cs, c <> dash -> classify (short (c :: cs)) = KShort (c :: cs).
Proof. intros c cs H. unfold classify, short, dash. change (Ascii.eqb "-" "-") with true. cbv iota. destruct (Ascii.eqb c "-") eqn:E; [apply Ascii.eqb_eq in E; contradiction | reflexivity]. Qed.
Lemma classify_plain : forall w, (forall cs, w <> short cs) -> classify w = KWord.
Proof. intros [|a w] H; [reflexivity|]. unfold classify. destruct (Ascii.eqb a "-") eqn:E; [|reflexivity]. apply Ascii.eqb_eq in E. subst a. exfalso. apply (H w). reflexivity. Qed.
Lemma classify_dash : forall w, (forall cs, w <> short cs) -> str_eqb w (lit "-"%string) = false.
Proof. intros w H. apply str_eqb_neq. intros ->. apply (H []). reflexivity. Qed.

(* ---- tables ---- *)
Lemma find_long_in : forall T o n, unique T -> In o T -> In n (o_long o) -> find_long T n = Some o.
Proof.
  intros T o n [U _] Ho Hn. unfold find_long. destruct (find _ T) as [o2|] eqn:E.
  - apply find_some in E. destruct E as [E1 E2]. apply mem_In in E2. f_equal. apply (U o2 o n); assumption.
  - exfalso. assert (E2 := find_none _ _ E o Ho). cbv beta in E2. apply mem_In in Hn. congruence.
Qed.
Lemma find_long_out : forall T n, (forall o, In o T -> ~ In n (o_long o)) -> find_long T n = None.
Proof. intros T n H. unfold find_long. destruct (find _ T) as [o|] eqn:E; [|reflexivity]. apply find_some in E. destruct E as [E1 E2]. apply mem_In in E2. exfalso. apply (H o); assumption. Qed.
Lemma find_short_in : forall T o c, unique T -> In o T -> In c (o_short o) -> find_short T c = Some o.
Proof.
  intros T o n [_ U] Ho Hn. unfold find_short. destruct (find _ T) as [o2|] eqn:E.
  - apply find_some in E. destruct E as [E1 E2]. apply memc_In in E2. f_equal. apply (U o2 o n); assumption.
  - exfalso. assert (E2 := find_none _ _ E o Ho). cbv beta in E2. apply memc_In in Hn. congruence.
Qed.
Lemma find_short_out : forall T n, (forall o, In o T -> ~ In n (o_short o)) -> find_short T n = None.
Proof. intros T n H. unfold find_short. destruct (find _ T) as [o|] eqn:E; [|reflexivity]. apply find_some in E. destruct E as [E1 E2]. apply memc_In in E2. exfalso. apply (H o); assumption. Qed.

(* ---- values ---- *)
Lemma conv_all_ok : forall f ws l, Forall2 (fun w v => f w = Some v) ws l -> conv_all f ws = Some l.
Proof. intros f ws l H. induction H as [|w v ws l H1 H2 IH]; [reflexivity|]. cbn [conv_all]. rewrite H1, IH. reflexivity. Qed.
Lemma convert_ok : forall o ws v, value_of o ws v -> convert o ws = Some v.
Proof. intros o ws v H. destruct H as [w v H|w w2 ws l H]; [exact H|]. unfold convert. rewrite (conv_all_ok _ _ _ H). reflexivity. Qed.
(* an occurrence of an option, seen at every name *)
Definition quiet_at (vs : values) (o : opt) : Prop := forall d, concerns d o -> scr vs d = None.
Lemma mutate_spec : forall vs d v, scr vs d = None -> getattr vs d <> None ->
  getattr (mutate vs d v) d = Some v /\ scr (mutate vs d v) = scr vs /\ (forall e, e <> d -> getattr (mutate vs d v) e = getattr vs e) /\ (forall e, e <> d -> cmd (mutate vs d v) e = cmd vs e) /\
  (cmd vs d <> None -> cmd (mutate vs d v) d <> None) /\ (cmd vs d = None -> cmd (mutate vs d v) d = None) /\ (forall e, e <> d -> defs (mutate vs d v) e = defs vs e).
Proof.
  intros vs d v Hs Hg. unfold mutate. destruct (cmd vs d) as [c|] eqn:Ec.
  - unfold setattr, getattr. cbn [cmd scr defs]. rewrite put_same. repeat split; auto; try (intros e He; rewrite put_other by assumption; reflexivity); intros; congruence.
  - rewrite Hs. unfold getattr in *. cbn [cmd scr defs]. rewrite Ec, Hs, put_same. repeat split; auto; try (intros e He; rewrite ?put_other by assumption; reflexivity); congruence.
Qed.
Lemma setattr_spec : forall vs d v,
  getattr (setattr vs d v) d = Some v /\ scr (setattr vs d v) = scr vs /\ (forall e, e <> d -> getattr (setattr vs d v) e = getattr vs e) /\ (forall e, e <> d -> cmd (setattr vs d v) e = cmd vs e) /\
  cmd (setattr vs d v) d = Some v /\ defs (setattr vs d v) = defs vs.
Proof. intros vs d v. unfold setattr, getattr. cbn [cmd scr defs]. rewrite put_same. repeat split; auto; intros e He; rewrite put_other by assumption; reflexivity. Qed.
(* what happens to the values *)
Record effect (o : opt) (v : val) (vs vs2 : values) : Prop := {
  ef_scr : scr vs2 = scr vs;
  ef_get : forall d, scr vs d = None -> told d o v (getattr vs d) = Some (getattr vs2 d);
  ef_cmd : forall d, cmd vs d <> None -> cmd vs2 d <> None;
  ef_sets : forall d, concerns d o -> ~ (adds_to o /\ getattr vs d <> None /\ getattr vs d <> Some VNone) -> cmd vs2 d <> None;
  ef_other : forall d, ~ concerns d o -> cmd vs2 d = cmd vs d /\ defs vs2 d = defs vs d }.
Lemma take_told : forall o v vs, quiet_at vs o -> (forall d, exists r, told d o v (getattr vs d) = Some r) -> exists vs2, take_action o v vs = inl vs2 /\ effect o v vs vs2.
Proof.
  intros o v vs Q H. destruct (H (o_dest o)) as (r & Hr). unfold take_action, told, quiet_at, concerns in *.
  assert (Set_ : forall c, (forall d, d = o_dest o -> scr vs d = None) -> match o_act o with AStore | AConst _ | ACount | AAppend | AAppendConst _ => True | _ => False end ->
    (forall d, scr vs d = None -> told d o v (getattr vs d) = Some (getattr (setattr vs (o_dest o) c) d)) -> effect o v vs (setattr vs (o_dest o) c)).
  { intros c Hs Ha Ht. destruct (setattr_spec vs (o_dest o) c) as (S1 & S2 & S3 & S4 & S5 & S6). split; auto.
    - intros d Hd. destruct (word_dec d (o_dest o)) as [-> | Hn]; [congruence | rewrite S4 by assumption; exact Hd].
    - intros d Hd _. replace d with (o_dest o); [congruence|]. unfold concerns in Hd. destruct (o_act o); try contradiction; auto.
    - intros d Hd. assert (d <> o_dest o) by (intros ->; apply Hd; unfold concerns; destruct (o_act o); try contradiction; auto). rewrite S4, S6 by assumption. auto. }
  assert (Mut : forall c, scr vs (o_dest o) = None -> getattr vs (o_dest o) <> None -> getattr vs (o_dest o) <> Some VNone -> adds_to o ->
    (forall d, scr vs d = None -> told d o v (getattr vs d) = Some (getattr (mutate vs (o_dest o) c) d)) -> effect o v vs (mutate vs (o_dest o) c)).
  { intros c Hs Hg Hg2 Ha Ht. destruct (mutate_spec vs (o_dest o) c Hs Hg) as (S1 & S2 & S3 & S4 & S5 & S6 & S7). split; auto.
    - intros d Hd. destruct (word_dec d (o_dest o)) as [-> | Hn]; [apply S5; exact Hd | rewrite S4 by assumption; exact Hd].
    - intros d Hd Hx. exfalso. apply Hx. replace d with (o_dest o); [auto|]. unfold concerns, adds_to in *. destruct (o_act o); try contradiction; auto.
    - intros d Hd. assert (d <> o_dest o) by (intros ->; apply Hd; unfold concerns, adds_to in *; destruct (o_act o); try contradiction; auto). rewrite S4, S7 by assumption. auto. }
  assert (App : forall l, (o_act o = AAppend \/ exists c, o_act o = AAppendConst c) -> scr vs (o_dest o) = None ->
    (forall d cur, told d o v cur = if word_dec d (o_dest o) then match cur with None | Some VNone => Some (Some (VList l)) | Some (VList l0) => Some (Some (VList (l0 ++ l))) | Some _ => None end else Some cur) ->
    told (o_dest o) o v (getattr vs (o_dest o)) = Some r -> exists vs2, match ensure_append vs (o_dest o) l with Some vs3 => inl vs3 | None => inr 2 end = inl vs2 /\ effect o v vs vs2).
  { intros l Ha Hs Ht Hok. rewrite Ht in Hok. destruct (word_dec (o_dest o) (o_dest o)) as [_|Hn]; [|contradiction]. unfold ensure_append.
    assert (Adds : adds_to o) by (unfold adds_to; destruct Ha as [-> | (c & ->)]; exact Logic.I).
    assert (P1 : getattr vs (o_dest o) = None \/ getattr vs (o_dest o) = Some VNone -> effect o v vs (setattr vs (o_dest o) (VList l))).
    { intros Hg. apply Set_; [intros d ->; exact Hs | destruct Ha as [-> | (c & ->)]; exact Logic.I |]. intros d Hd. rewrite Ht. destruct (setattr_spec vs (o_dest o) (VList l)) as (S1 & _ & S3 & _).
      destruct (word_dec d (o_dest o)) as [-> | Hn]; [rewrite S1; destruct Hg as [-> | ->]; reflexivity | rewrite S3 by assumption; reflexivity]. }
    destruct (getattr vs (o_dest o)) as [[|b|n|w|l0]|] eqn:Eg; try discriminate.
    - eexists. split; [reflexivity|]. apply P1. auto.
    - eexists. split; [reflexivity|]. apply Mut; [exact Hs | congruence | congruence | exact Adds |]. intros d Hd. rewrite Ht.
      destruct (mutate_spec vs (o_dest o) (VList (l0 ++ l)) Hs) as (S1 & _ & S3 & _); [congruence|]. destruct (word_dec d (o_dest o)) as [-> | Hn]; [rewrite S1, Eg; reflexivity | rewrite S3 by assumption; reflexivity].
    - eexists. split; [reflexivity|]. apply P1. auto. }
  destruct (o_act o) as [|c| |c| | |d2| |] eqn:Ea.
  - eexists. split; [reflexivity|]. apply Set_; auto. intros d Hd. unfold told. rewrite Ea. destruct (setattr_spec vs (o_dest o) v) as (S1 & _ & S3 & _).
    destruct (word_dec d (o_dest o)) as [-> | Hn]; [rewrite S1 | rewrite S3 by assumption]; reflexivity.
  - eexists. split; [reflexivity|]. apply Set_; auto. intros d Hd. unfold told. rewrite Ea. destruct (setattr_spec vs (o_dest o) c) as (S1 & _ & S3 & _).
    destruct (word_dec d (o_dest o)) as [-> | Hn]; [rewrite S1 | rewrite S3 by assumption]; reflexivity.
  - apply App; auto; [intros d cur; unfold told; rewrite Ea; reflexivity | unfold told; rewrite Ea; exact Hr].
  - apply App; [right; exists c; reflexivity | auto | intros d cur; unfold told; rewrite Ea; reflexivity | unfold told; rewrite Ea; exact Hr].
  - destruct (word_dec (o_dest o) (o_dest o)) as [_|Hn]; [|contradiction].
    assert (C : forall n, match getattr vs (o_dest o) with None | Some VNone => n = 1 | Some (VNum m) => n = S m | Some _ => False end -> effect o v vs (setattr vs (o_dest o) (VNum n))).
    { intros n Hn. apply Set_; auto. intros d Hd. unfold told. rewrite Ea. destruct (setattr_spec vs (o_dest o) (VNum n)) as (S1 & _ & S3 & _).
      destruct (word_dec d (o_dest o)) as [-> | Hd2]; [rewrite S1 | rewrite S3 by assumption; reflexivity]. destruct (getattr vs (o_dest o)) as [[|b|m|w|l0]|]; try contradiction; subst; reflexivity. }
    destruct (getattr vs (o_dest o)) as [[|b|m|w|l0]|]; try discriminate; eexists; (split; [reflexivity|]); apply C; reflexivity.
  - destruct (word_dec (o_dest o) (o_dest o)) as [_|Hn]; [|contradiction].
    destruct (getattr vs (o_dest o)) as [[|b|m|w|l0]|] eqn:Eg; try discriminate. destruct v as [| | | |l] eqn:Ev; try discriminate. eexists. split; [reflexivity|]. rewrite <- Ev in *.
    apply Mut; auto; [congruence | congruence | unfold adds_to; rewrite Ea; exact Logic.I |]. intros d Hd. unfold told. rewrite Ea, Ev.
    destruct (mutate_spec vs (o_dest o) (VList (l0 ++ l)) (Q _ eq_refl)) as (S1 & _ & S3 & _); [congruence|]. destruct (word_dec d (o_dest o)) as [-> | Hn]; [rewrite S1, Eg; reflexivity | rewrite S3 by assumption; reflexivity].
  - eexists. split; [reflexivity|]. destruct (setattr_spec vs d2 (VBool true)) as (A1 & A2 & A3 & A4 & A5 & A6). destruct (setattr_spec (setattr vs d2 (VBool true)) (o_dest o) (VBool true)) as (B1 & B2 & B3 & B4 & B5 & B6). split.
    + congruence.
    + intros d Hd. unfold told. rewrite Ea. destruct (word_dec d (o_dest o)) as [-> | Hn]; [rewrite B1; destruct (word_dec (o_dest o) d2); reflexivity|]. rewrite B3 by assumption.
      destruct (word_dec d d2) as [-> | Hn2]; [rewrite A1 | rewrite A3 by assumption]; reflexivity.
    + intros d Hd. destruct (word_dec d (o_dest o)) as [-> | Hn]; [congruence|]. rewrite B4 by assumption. destruct (word_dec d d2) as [-> | Hn2]; [congruence | rewrite A4 by assumption; exact Hd].
    + intros d Hd _. unfold concerns in Hd. rewrite Ea in Hd. destruct (word_dec d (o_dest o)) as [-> | Hn]; [congruence|]. rewrite B4 by assumption. destruct Hd as [-> | ->]; [congruence | contradiction].
    + intros d Hd. unfold concerns in Hd. rewrite Ea in Hd. rewrite B4, A4 by tauto. rewrite B6, A6. auto.
  - eexists. split; [reflexivity|]. split; auto.
    + intros d Hd. unfold told. rewrite Ea. reflexivity.
    + intros d Hd. unfold concerns in Hd. rewrite Ea in Hd. contradiction.
  - discriminate.
Qed.
