(* C61: the theorems *)
From Coq Require Import Ascii String List Bool Arith Lia.
Import ListNotations. Open Scope list_scope.
From Verif Require Import NameModel OptModel OptSpec OptProps OptProps2 OptProps3 OptProps4.

Lemma filter_map_snd : forall (f : item -> bool) (q : list (word * item)), filter f (map snd q) = map snd (filter (fun t => f (snd t)) q).
Proof. intros f q. induction q as [|t q IH]; [reflexivity|]. cbn [map filter]. destruct (f (snd t)); cbn [map]; rewrite IH; reflexivity. Qed.
Lemma filter_comm : forall A (f g : A -> bool) l, filter f (filter g l) = filter g (filter f l).
Proof. intros A f g l. induction l as [|a l IH]; [reflexivity|]. cbn [filter]. destruct (g a) eqn:Eg, (f a) eqn:Ef; cbn [filter]; rewrite ?Eg, ?Ef, ?IH; reflexivity. Qed.
Lemma filter_two : forall A (f g k : A -> bool) l, (forall a, In a l -> f a && g a = k a) -> filter f (filter g l) = filter k l.
Proof. intros A f g k l H. induction l as [|a l IH]; [reflexivity|]. cbn [filter]. assert (Ha := H a (or_introl eq_refl)). rewrite <- IH by (intros b Hb; apply H; right; exact Hb). destruct (g a) eqn:Eg; cbn [filter]; destruct (f a) eqn:Ef; cbn in Ha; rewrite <- Ha; reflexivity. Qed.
Lemma flat_filter : forall A C (p : A -> list C) (g : A -> bool) l, (forall a, In a l -> g a = false -> p a = []) -> flat_map p (filter g l) = flat_map p l.
Proof. intros A C p g l H. induction l as [|a l IH]; [reflexivity|]. cbn [filter flat_map]. assert (Ha := H a (or_introl eq_refl)). rewrite <- IH by (intros b Hb; apply H; right; exact Hb). destruct (g a); [reflexivity|]. rewrite Ha by reflexivity. reflexivity. Qed.
Lemma Forall_filter_ : forall A (P : A -> Prop) (g : A -> bool) l, Forall P l -> Forall P (filter g l).
Proof. intros A P g l H. apply Forall_forall. intros a Ha. apply filter_In in Ha. rewrite Forall_forall in H. apply H, Ha. Qed.

Lemma fresh_nil : forall l, filter (fresh []) l = l.
Proof. intros l. induction l as [|[w i] l IH]; [reflexivity|]. cbn [filter]. replace (fresh [] (w, i)) with true by (destruct i; reflexivity). rewrite IH. reflexivity. Qed.
Lemma mine_snd : forall d (l : list (word * item)), flat_map (fun t => mine d (snd t)) l = flat_map (mine d) (map snd l).
Proof. intros d l. induction l as [|t l IH]; [reflexivity|]. cbn [flat_map map]. rewrite IH. reflexivity. Qed.
Lemma flat_snd : forall C (f : item -> list C) (l : list (word * item)), flat_map f (map snd l) = flat_map (fun t => f (snd t)) l.
Proof. intros C f l. induction l as [|t l IH]; [reflexivity|]. cbn [flat_map map]. rewrite IH. reflexivity. Qed.
Lemma occ_snd : forall (l : list (word * item)), flat_map occ (map snd l) = flat_map (fun t => occ (snd t)) l.
Proof. intros l. induction l as [|t l IH]; [reflexivity|]. cbn [flat_map map]. rewrite IH. reflexivity. Qed.

Lemma split_half : forall (f g : word * item -> bool) (q l : list (word * item)), filter f q = filter f l -> filter (fun t => negb (f t)) q = filter (fun t => negb (f t)) l -> forall t, In t q -> In t l.
Proof.
  intros f g q l H1 H2 t Ht. destruct (f t) eqn:E.
  - assert (A : In t (filter f q)) by (apply filter_In; split; assumption). rewrite H1 in A. apply filter_In in A. apply A.
  - assert (A : In t (filter (fun t => negb (f t)) q)) by (apply filter_In; split; [exact Ht | rewrite E; reflexivity]). rewrite H2 in A. apply filter_In in A. apply A.
Qed.
Lemma split_part : forall (q l : list (word * item)), filter islong q = filter islong l -> filter (fun t => negb (islong t)) q = filter (fun t => negb (islong t)) l -> forall t, In t q <-> In t l.
Proof. intros q l H1 H2 t. split; apply (split_half islong islong); auto. Qed.
Section Thm.
Variable B : list opt.
Variable defs0 : map_ val.
Variable settable0 : list name.
Variable kinds : name -> option setkind.
Variable h : list op.
Variable argv : list word.
Variable its : list item.
Hypothesis PR : project B defs0 settable0 kinds h.
Hypothesis LN : line B (added h) argv its.
Hypothesis ONE : one_form its.
Hypothesis ACC : accepted defs0 h its.
Notation L := (added h).
Notation sgl := (fun t => single B L (fst t) (snd t)).
Notation step := (OptModel.step kinds).
Notation steps := (OptModel.steps kinds).
Definition vs0 : values := {| cmd := fun _ => None; scr := fun _ => None; defs := defs0 |}.

Lemma NoDup_dest : forall l (o1 o2 : opt), NoDup (map o_dest l) -> In o1 l -> In o2 l -> o_dest o1 = o_dest o2 -> o1 = o2.
Proof.
  intros l o1 o2. induction l as [|o l IH]; intros N H1 H2 E; [contradiction|]. cbn [map] in N. inversion N as [|x l2 N1 N2 E1]; subst. destruct H1 as [->|H1], H2 as [->|H2]; auto.
  - exfalso. apply N1. rewrite E. apply in_map. exact H2.
  - exfalso. apply N1. rewrite <- E. apply in_map. exact H1.
Qed.
Lemma dests : forall o1 o2, In o1 L -> In o2 L -> o_dest o1 = o_dest o2 -> o1 = o2.
Proof. intros o1 o2. apply NoDup_dest, PR. Qed.
Lemma items : forall i, In i its -> home B L i.
Proof. intros i Hi. assert (A := line_items _ _ _ _ LN). rewrite Forall_forall in A. apply A, Hi. Qed.
Lemma no_exit : forall i o v, In i its -> In (o, v) (said i) -> o_act o <> AExit.
Proof. intros i o v Hi Ho. apply (proj1 ACC o v). apply in_flat_map. exists i. auto. Qed.
Lemma local_concerns : forall o d, In o L -> concerns d o <-> d = o_dest o.
Proof. intros o d Ho. assert (A := pr_acts _ _ _ _ _ PR o Ho). unfold concerns. destruct (o_act o); try contradiction; tauto. Qed.
Lemma builtin_concerns : forall b o, In b B -> In o L -> ~ concerns (o_dest o) b.
Proof. intros b o Hb Ho Hc. apply (pr_defaults _ _ _ _ _ PR b _ Hb Hc). apply (pr_own _ _ _ _ _ PR o Ho). Qed.
Lemma tell_builtin : forall d cur, (forall o, In o L -> o_dest o <> d) -> tell d (occurrences its) cur = tell d (flat_map builtin its) cur.
Proof.
  intros d cur Hd. apply tell_part. intros i Hi. assert (A := items i Hi). assert (N := no_exit i). destruct i as [o v|f o v|w|w|w]; auto. right. split; [reflexivity|].
  intros o2 v2 Ho. split; [apply (N o2 v2 Hi Ho)|]. destruct Ho as [E|[]]. injection E as -> ->. rewrite local_concerns by exact A. intros ->. apply (Hd o2 A eq_refl).
Qed.
Lemma tell_mine : forall o cur, In o L -> tell (o_dest o) (occurrences its) cur = tell (o_dest o) (flat_map (mine (o_dest o)) its) cur.
Proof.
  intros o cur Ho. apply tell_part. intros i Hi. assert (A := items i Hi). assert (N := no_exit i). destruct i as [o2 v|f o2 v|w|w|w]; auto.
  - right. split; [reflexivity|]. intros o3 v3 H3. split; [apply (N o3 v3 Hi H3)|]. destruct H3 as [E|[]]. injection E as -> ->. apply builtin_concerns; assumption.
  - cbn [mine]. destruct (word_dec (o_dest o2) (o_dest o)) as [E|E]; [left; reflexivity|]. right. split; [reflexivity|]. intros o3 v3 H3. split; [apply (N o3 v3 Hi H3)|]. destruct H3 as [E3|[]]. injection E3 as -> ->.
    rewrite local_concerns by exact A. congruence.
Qed.
Lemma builtin_in : forall o v, In (o, v) (flat_map builtin its) -> In o B /\ o_act o <> AExit /\ In (o, v) (occurrences its).
Proof.
  intros o v H. apply in_flat_map in H. destruct H as (i & Hi & H). destruct i as [o2 v2|f o2 v2|w|w|w]; try contradiction. destruct H as [E|[]]. injection E as -> ->.
  split; [apply (items _ Hi)|]. split; [apply (no_exit _ o v Hi); left; reflexivity|]. apply in_flat_map. exists (Given o v). split; [exact Hi | left; reflexivity].
Qed.
Lemma first : exists tl vs1, start B defs0 settable0 argv = inl ({| table := B; settable := settable0; vals := vs1; largs := map fst tl |}, flat_map after its) /\
  applies (flat_map builtin its) vs0 vs1 /\ Forall sgl tl /\ map snd tl = filter stays its.
Proof.
  unfold start. fold vs0. unfold parse_args.
  destruct (first_ok B L (pr_unique _ _ _ _ _ PR) (pr_proper _ _ _ _ _ PR) (pr_apart _ _ _ _ _ PR) argv its LN (S (length argv)) [] vs0) as (tl & vs1 & E1 & E2 & E3 & E4).
  - lia.
  - intros o v d _ _. reflexivity.
  - intros d. change (getattr vs0 d) with (defs0 d). destruct (defs0 d) as [v0|] eqn:Ed.
    + destruct (proj2 ACC d v0 (or_introl Ed)) as (r & Hr). exists r. rewrite <- tell_builtin; [exact Hr|]. intros o Ho <-. destruct (pr_own _ _ _ _ _ PR o Ho) as (X & _). congruence.
    + exists None. apply tell_none. intros o v Ho. destruct (builtin_in o v Ho) as (Hb & Hx & _). split; [exact Hx|]. intros Hc. apply (pr_defaults _ _ _ _ _ PR o d Hb Hc). exact Ed.
  - exists tl, vs1. rewrite E1. auto.
Qed.

Variable tl : list (word * item).
Variable vs1 : values.
Hypothesis ST : start B defs0 settable0 argv = inl ({| table := B; settable := settable0; vals := vs1; largs := map fst tl |}, flat_map after its).
Hypothesis AP : applies (flat_map builtin its) vs0 vs1.
Hypothesis SG : Forall sgl tl.
Hypothesis TL : map snd tl = filter stays its.
Record Inv (hs : list op) (p : parser) : Prop := {
  i_table : table p = B ++ added hs;
  i_settable : forall n, In n (settable p) <-> may_set settable0 (rev hs) n;
  i_q : exists q, largs p = map fst q /\ Forall sgl q /\ filter islong q = filter islong (filter (fresh (added hs)) tl) /\ filter (fun t => negb (islong t)) q = filter (fun t => negb (islong t)) (filter (fresh (added hs)) tl);
  i_scr : forall d, script_says settable0 kinds (rev hs) d (scr (vals p) d);
  i_builtin : forall d, (forall o, In o L -> o_dest o <> d) -> cmd (vals p) d = cmd vs1 d /\ defs (vals p) d = defs vs1 d;
  i_later : forall o, In o L -> ~ In o (added hs) -> cmd (vals p) (o_dest o) = None /\ scr (vals p) (o_dest o) = None /\ defs (vals p) (o_dest o) = None;
  i_local : forall o, In o (added hs) -> exists vsa vsb, applies (flat_map (mine (o_dest o)) its) vsa vsb /\ cmd vsa (o_dest o) = None /\ scr vsa (o_dest o) = None /\ defs vsa (o_dest o) = Some (o_default o) /\
    cmd (vals p) (o_dest o) = cmd vsb (o_dest o) /\ defs (vals p) (o_dest o) = defs vsb (o_dest o) }.
Lemma inv_start : Inv [] {| table := B; settable := settable0; vals := vs1; largs := map fst tl |}.
Proof.
  split; cbn [table settable vals largs added flat_map rev].
  - rewrite app_nil_r. reflexivity.
  - intros n. split; [intros H; left; exact H | intros [H|(o & [] & _)]; exact H].
  - exists tl. rewrite fresh_nil. auto.
  - intros d. rewrite (applies_scr _ _ _ AP). apply says_nothing.
  - auto.
  - intros o Ho _. destruct (applies_other _ _ _ AP (o_dest o)) as [A1 A2]; [intros b v Hb; apply builtin_concerns; [apply (builtin_in b v Hb) | exact Ho]|]. rewrite A1, A2, (applies_scr _ _ _ AP). split; [reflexivity|]. split; [reflexivity|]. apply (pr_own _ _ _ _ _ PR o Ho).
  - intros o [].
Qed.
(* words that are left over belong to items *)
Lemma tl_item : forall t, In t tl -> In (snd t) its.
Proof. intros t Ht. assert (A : In (snd t) (filter stays its)) by (rewrite <- TL; apply in_map; exact Ht). apply filter_In in A. apply A. Qed.
Lemma mine_tl : forall d, flat_map (fun t => mine d (snd t)) tl = flat_map (mine d) its.
Proof.
  intros d. rewrite mine_snd, TL. apply flat_filter. intros i _ Hi. destruct i; try discriminate; reflexivity.
Qed.
(* the occurrences of one option keep their order *)
Lemma order_kept : forall hs q o, incl (added hs) L -> In o L -> ~ In o (added hs) -> Forall sgl q ->
  filter islong q = filter islong (filter (fresh (added hs)) tl) -> filter (fun t => negb (islong t)) q = filter (fun t => negb (islong t)) (filter (fresh (added hs)) tl) ->
  flat_map (fun t => mine (o_dest o) (snd t)) q = flat_map (mine (o_dest o)) its.
Proof.
  intros hs q o HK Ho Hn Sq Q1 Q2. rewrite <- mine_tl.
  assert (F : flat_map (fun t => mine (o_dest o) (snd t)) (filter (fresh (added hs)) tl) = flat_map (fun t => mine (o_dest o) (snd t)) tl).
  { apply flat_filter. intros [w i] Ht Hf. unfold fresh, known in Hf. cbn [snd] in *. destruct i as [o2 v|f o2 v|w2|w2|w2]; try reflexivity. apply negb_false_iff in Hf. cbn [mine]. destruct (word_dec (o_dest o2) (o_dest o)) as [E|E]; [|reflexivity].
    assert (H2 : In o2 L) by (apply tl_item in Ht; apply (items _ Ht)). exfalso. apply Hn. apply (known_in L dests _ HK o2 H2) in Hf. rewrite <- (dests o2 o H2 Ho E). exact Hf. }
  rewrite <- F.
  assert (In_q : forall t, In t q <-> In t (filter (fresh (added hs)) tl)) by (apply split_part; assumption).
  assert (Shape : forall t f v, In t q -> snd t = Local f o v -> islong t = match f with FLong => true | FShort => false end).
  { intros [w i] f v Ht Hi. rewrite Forall_forall in Sq. assert (S1 := Sq _ Ht). cbn [fst snd] in *. subst i. unfold islong. cbn [fst]. inversion S1 as [| | |w1 n wv o1 v1 C1|w1 c cs o1 v1 C1]; subst; rewrite C1; reflexivity. }
  assert (One : forall f v, In (Local f o v) its -> forall t, In t q -> islong t <> (match f with FLong => true | FShort => false end) -> mine (o_dest o) (snd t) = []).
  { intros f v Hi [w i] Ht Hl. cbn [snd]. destruct i as [o2 v2|f2 o2 v2|w2|w2|w2]; try reflexivity. cbn [mine]. destruct (word_dec (o_dest o2) (o_dest o)) as [E|E]; [|reflexivity]. exfalso.
    assert (Hit : In (Local f2 o2 v2) its) by (apply In_q, filter_In in Ht; apply (tl_item (w, Local f2 o2 v2)), Ht). assert (o2 = o) as -> by (apply dests; [apply (items _ Hit) | exact Ho | exact E]).
    apply Hl. rewrite (Shape (w, Local f2 o v2) f2 v2 Ht eq_refl), (ONE f2 f o v2 v Hit Hi). reflexivity. }
  destruct (flat_map (fun t => mine (o_dest o) (snd t)) q) as [|a l] eqn:Eq.
  - destruct (flat_map (fun t => mine (o_dest o) (snd t)) (filter (fresh (added hs)) tl)) as [|a l] eqn:El; [reflexivity|]. exfalso. assert (Ha : In a (a :: l)) by (left; reflexivity). rewrite <- El in Ha. apply in_flat_map in Ha.
    destruct Ha as (t & Ht & Ha). apply In_q in Ht. assert (A : In a []) by (rewrite <- Eq; apply in_flat_map; exists t; auto). contradiction.
  - assert (Ha : In a (a :: l)) by (left; reflexivity). rewrite <- Eq in Ha. apply in_flat_map in Ha. destruct Ha as ([w i] & Ht & Ha). cbn [snd] in Ha. destruct i as [o2 v2|f2 o2 v2|w2|w2|w2]; try contradiction. cbn [mine] in Ha.
    destruct (word_dec (o_dest o2) (o_dest o)) as [E|E]; [|contradiction]. assert (Hit : In (Local f2 o2 v2) its) by (apply In_q, filter_In in Ht; apply (tl_item (w, Local f2 o2 v2)), Ht). assert (o2 = o) as -> by (apply dests; [apply (items _ Hit) | exact Ho | exact E]).
    rewrite <- Eq. destruct f2.
    + rewrite <- (flat_filter _ _ _ islong q), <- (flat_filter _ _ _ islong (filter (fresh (added hs)) tl)), Q1; [reflexivity | |]; intros t Ht2 Hl; apply (One FLong v2 Hit); auto; [apply In_q; exact Ht2 | congruence | congruence].
    + rewrite <- (flat_filter _ _ _ (fun t => negb (islong t)) q), <- (flat_filter _ _ _ (fun t => negb (islong t)) (filter (fresh (added hs)) tl)), Q2; [reflexivity | |]; intros t Ht2 Hl; apply negb_false_iff in Hl; apply (One FShort v2 Hit); auto; [apply In_q; exact Ht2 | congruence | congruence].
Qed.
(* ---- one call ---- *)
Lemma own_applies : forall o vs vs2 l, In o L -> applies l vs vs2 -> (forall o2 v, In (o2, v) l -> o2 = o) -> forall d, d <> o_dest o -> cmd vs2 d = cmd vs d /\ defs vs2 d = defs vs d.
Proof. intros o vs vs2 l Ho A Hl d Hd. apply (applies_other _ _ _ A). intros o2 v Hi. rewrite (Hl o2 v Hi), local_concerns by exact Ho. exact Hd. Qed.
Lemma mine_own : forall o o2 v, In o L -> In (o2, v) (flat_map (mine (o_dest o)) its) -> o2 = o.
Proof.
  intros o o2 v Ho H. apply in_flat_map in H. destruct H as (i & Hi & H). assert (A := items i Hi). destruct i as [o3 v3|f o3 v3|w|w|w]; try contradiction. cbn [mine] in H.
  destruct (word_dec (o_dest o3) (o_dest o)) as [E|E]; [|contradiction]. destruct H as [E2|[]]. injection E2 as -> ->. apply dests; assumption.
Qed.
Lemma position : forall hs o h2, h = hs ++ OAdd o :: h2 -> In o L /\ incl (added hs) L /\ (forall o2, In o2 (added hs) -> o_dest o2 <> o_dest o).
Proof.
  intros hs o h2 E. assert (EL : L = added hs ++ o :: added h2) by (rewrite E, added_app; reflexivity). split; [rewrite EL; apply in_or_app; right; left; reflexivity|].
  split; [intros x Hx; rewrite EL; apply in_or_app; left; exact Hx|]. intros o2 H2 Ed. assert (N := pr_dests _ _ _ _ _ PR). rewrite EL, map_app in N. cbn [map] in N. apply NoDup_remove_2 in N. apply N, in_or_app. left. rewrite <- Ed. apply in_map. exact H2.
Qed.
Lemma no_conflict : forall hs o, incl (added hs) L -> In o L -> ~ In o (added hs) -> conflict (B ++ added hs) o = false /\ match o_arity o, o_short o with Maybe _, _ :: _ => true | _, _ => false end = false.
Proof.
  intros hs o HK Ho Hn. assert (U := pr_unique _ _ _ _ _ PR). assert (AP2 := pr_apart _ _ _ _ _ PR).
  assert (M : mem (o_dest o) (map o_dest (added hs)) = false). { destruct (mem (o_dest o) (map o_dest (added hs))) eqn:E; [|reflexivity]. apply (known_in L dests _ HK o Ho) in E. contradiction. }
  split.
  - unfold conflict. apply orb_false_iff. split.
    + destruct (existsb _ (o_long o)) eqn:E; [|reflexivity]. apply existsb_exists in E. destruct E as (n & Hi & E). rewrite (long_known B L U AP2 dests _ HK o n Ho Hi), M in E. discriminate.
    + destruct (existsb _ (o_short o)) eqn:E; [|reflexivity]. apply existsb_exists in E. destruct E as (n & Hi & E). rewrite (short_known B L U AP2 dests _ HK o n Ho Hi), M in E. discriminate.
  - destruct (o_arity o) as [|c|k] eqn:Ea; [reflexivity | | reflexivity]. assert (P := pr_proper _ _ _ _ _ PR o (in_or_app _ _ _ (or_intror Ho))). destruct P as (_ & _ & P). rewrite (P c Ea). reflexivity.
Qed.
Lemma filter_none : forall A (f : A -> bool) l, (forall a, In a l -> f a = false) -> filter f l = [].
Proof. intros A f l H. induction l as [|a l IH]; [reflexivity|]. cbn [filter]. rewrite (H a) by (left; reflexivity). apply IH. intros b Hb. apply H. right. exact Hb. Qed.
Lemma filter_all : forall A (f : A -> bool) l, (forall a, In a l -> f a = true) -> filter f l = l.
Proof. intros A f l H. induction l as [|a l IH]; [reflexivity|]. cbn [filter]. rewrite (H a) by (left; reflexivity). f_equal. apply IH. intros b Hb. apply H. right. exact Hb. Qed.
Lemma step_add : forall hs p o h2, h = hs ++ OAdd o :: h2 -> Inv hs p -> exists p2, add_option p o = inl (p2, RDone) /\ Inv (hs ++ [OAdd o]) p2.
Proof.
  intros hs p o h2 Eh [It Is (q & Q0 & Q1 & Q2 & Q3) Ic Ib Il Io]. destruct (position hs o h2 Eh) as (Ho & HK & Hd).
  assert (Hn : ~ In o (added hs)) by (intros X; apply (Hd o X eq_refl)).
  assert (U := pr_unique _ _ _ _ _ PR). assert (AP2 := pr_apart _ _ _ _ _ PR).
  set (K := added hs ++ [o]). assert (EK : added (hs ++ [OAdd o]) = K) by (rewrite added_app; reflexivity).
  assert (KL : incl K L). { intros x Hx. apply in_app_or in Hx. destruct Hx as [Hx|[<-|[]]]; auto. }
  assert (kn : forall f o2 v w, In o2 L -> known K (w, Local f o2 v) = true <-> (In o2 (added hs) \/ o2 = o)).
  { intros f o2 v w H2. unfold known. cbn [snd]. rewrite (known_in L dests K KL o2 H2). unfold K. rewrite in_app_iff. cbn [In]. intuition. }
  assert (kn0 : forall f o2 v w, In o2 L -> known (added hs) (w, Local f o2 v) = true <-> In o2 (added hs)).
  { intros f o2 v w H2. unfold known. cbn [snd]. apply (known_in L dests (added hs) HK o2 H2). }
  assert (sub : forall t, In t tl -> fresh K t = true -> fresh (added hs) t = true).
  { intros [w i] Ht Hf. unfold fresh in *. apply negb_true_iff in Hf. apply negb_true_iff. destruct i as [o2 v2|f o2 v2|w2|w2|w2]; try reflexivity. assert (H2 : In o2 L) by (apply tl_item in Ht; apply (items _ Ht)).
    destruct (known (added hs) (w, Local f o2 v2)) eqn:E; [|reflexivity]. apply kn0 in E; [|exact H2]. assert (X : known K (w, Local f o2 v2) = true) by (apply kn; auto). congruence. }
  assert (Hq : forall t, In t q <-> In t (filter (fresh (added hs)) tl)) by (apply split_part; assumption).
  assert (qtl : forall t, In t q -> In t tl /\ fresh (added hs) t = true) by (intros t Ht; apply Hq in Ht; apply filter_In in Ht; exact Ht).
  set (q' := filter (fun t => negb (held K t)) q).
  assert (Q' : Forall sgl q') by (apply Forall_filter_; exact Q1).
  assert (occs : flat_map occ (map snd (filter (known K) q')) = flat_map (mine (o_dest o)) its).
  { rewrite <- (order_kept hs q o HK Ho Hn Q1 Q2 Q3). unfold q'. rewrite (filter_two _ (known K) (fun t => negb (held K t)) (known K)).
    - rewrite occ_snd. transitivity (flat_map (fun t => mine (o_dest o) (snd t)) (filter (known K) q)).
      + assert (X : forall l, (forall t, In t l -> In t q /\ known K t = true) -> flat_map (fun t => occ (snd t)) l = flat_map (fun t => mine (o_dest o) (snd t)) l).
        { intros l. induction l as [|[w i] l IH]; intros Hl; [reflexivity|]. cbn [flat_map snd]. rewrite IH by (intros t Ht; apply Hl; right; exact Ht). f_equal. destruct (Hl (w, i) (or_introl eq_refl)) as [Hi Hk]. destruct i as [o2 v2|f o2 v2|w2|w2|w2]; try reflexivity.
          destruct (qtl _ Hi) as [Ht Hf]. assert (H2 : In o2 L) by (apply tl_item in Ht; apply (items _ Ht)). cbn [occ mine]. apply kn in Hk; [|exact H2]. destruct Hk as [Hk | ->].
          - exfalso. apply (kn0 f o2 v2 w H2) in Hk. unfold fresh in Hf. rewrite Hk in Hf. discriminate.
          - destruct (word_dec (o_dest o) (o_dest o)) as [_|X]; [reflexivity | contradiction]. }
        apply X. intros t Ht. apply filter_In in Ht. exact Ht.
      + apply flat_filter. intros [w i] Hi Hk. cbn [snd]. destruct i as [o2 v2|f o2 v2|w2|w2|w2]; try reflexivity. cbn [mine]. destruct (word_dec (o_dest o2) (o_dest o)) as [E|E]; [|reflexivity]. exfalso.
        destruct (qtl _ Hi) as [Ht _]. assert (H2 : In o2 L) by (apply tl_item in Ht; apply (items _ Ht)). assert (o2 = o) as -> by (apply dests; assumption). assert (X : known K (w, Local f o v2) = true) by (apply kn; auto). congruence.
    - intros t Ht. unfold held, fresh. destruct (known K t); [cbn [negb]; rewrite andb_false_r; reflexivity | reflexivity]. }
  set (vs' := {| cmd := cmd (vals p); scr := scr (vals p); defs := put (defs (vals p)) (o_dest o) (o_default o) |}).
  destruct (Il o Ho Hn) as (L1 & L2 & L3).
  assert (G : getattr vs' (o_dest o) = Some (o_default o)) by (unfold getattr, vs'; cbn [cmd scr defs]; rewrite L1, L2; apply put_same).
  assert (C : calm (flat_map (mine (o_dest o)) its) vs'). { intros o2 v d Hi Hc. rewrite (mine_own o o2 v Ho Hi) in Hc. apply local_concerns in Hc; [|exact Ho]. subst d. exact L2. }
  assert (S_ : speaks (flat_map (mine (o_dest o)) its) vs').
  { intros d. destruct (word_dec d (o_dest o)) as [-> | Hne].
    - rewrite G, <- tell_mine by exact Ho. apply (proj2 ACC). right. exists o. auto.
    - exists (getattr vs' d). apply tell_none. intros o2 v Hi. rewrite (mine_own o o2 v Ho Hi). split; [|rewrite local_concerns by exact Ho; exact Hne]. assert (A := pr_acts _ _ _ _ _ PR o Ho). intros X. rewrite X in A. exact A. }
  rewrite <- occs in C, S_.
  destruct (stage_ok B L U AP2 dests K KL q' Q' (S (length q')) [] vs') as (vs2 & R1 & R2); [lia | exact C | exact S_|]. rewrite occs in R2. cbn [app] in R1.
  unfold add_option. rewrite It. destruct (no_conflict hs o HK Ho Hn) as [-> ->]. cbn [orb]. unfold reparse_local_options. cbn [table largs vals settable].
  rewrite <- (app_assoc B (added hs) [o]). fold K vs'. rewrite Q0, (reparse_words B L U AP2 dests K KL q Q1). fold q'. unfold parse_args. rewrite map_length, R1. eexists. split; [reflexivity|].
  set (q2 := filter (fresh K) q' ++ filter (held K) q).
  assert (Scr : scr vs2 = scr (vals p)) by (rewrite (applies_scr _ _ _ R2); reflexivity).
  assert (Oth : forall d, d <> o_dest o -> cmd vs2 d = cmd (vals p) d /\ defs vs2 d = defs (vals p) d).
  { intros d Hne. destruct (own_applies o vs' vs2 _ Ho R2 (fun o2 v Hi => mine_own o o2 v Ho Hi) d Hne) as [X1 X2]. rewrite X1, X2. unfold vs'. cbn [cmd defs]. rewrite put_other by exact Hne. auto. }
  set (pp := if o_settable o then _ else _).
  assert (Ep : table pp = B ++ K /\ vals pp = vs2 /\ largs pp = map fst q2 /\ settable pp = settable p ++ (if o_settable o then [o_dest o] else [])).
  { unfold pp, q2. rewrite map_app. destruct (o_settable o); cbn [table vals largs settable]; rewrite ?app_nil_r; auto. }
  clearbody pp. destruct Ep as (P1 & P2 & P3 & P4). split.
  - rewrite P1, EK. reflexivity.
  - intros n. rewrite P4, in_app_iff, Is, !may_set_rev. unfold may_set. rewrite EK. unfold K. split.
    + intros [[X|(o2 & X1 & X2)]|X]; [left; exact X | right; exists o2; split; [apply in_or_app; left; exact X1 | exact X2]|]. right. exists o. split; [apply in_or_app; right; left; reflexivity|]. destruct (o_settable o); [|contradiction]. destruct X as [X|[]]. auto.
    + intros [X|(o2 & X1 & X2 & X3)]; [left; left; exact X|]. apply in_app_or in X1. destruct X1 as [X1|[<-|[]]]; [left; right; exists o2; auto|]. right. rewrite X2. left. exact X3.
  - exists q2. split; [exact P3|]. split; [apply Forall_app; split; apply Forall_filter_; assumption|]. rewrite EK. unfold q2. rewrite !filter_app.
    assert (K2 : forall g, filter g (filter (fresh K) tl) = filter (fresh K) (filter g (filter (fresh (added hs)) tl))).
    { intros g. rewrite (filter_comm _ (fresh K) g). rewrite (filter_two _ (fresh K) (fresh (added hs)) (fresh K)); [reflexivity|]. intros t Ht. destruct (fresh K t) eqn:E; [rewrite (sub t Ht E); reflexivity | reflexivity]. }
    rewrite !K2, <- Q2, <- Q3. unfold q'. split.
    + rewrite (filter_none _ islong (filter (fresh K) _)).
      * cbn [app]. rewrite (filter_two _ islong (held K) (held K)) by (intros t Ht; unfold held; destruct (islong t); reflexivity). symmetry. apply filter_two. intros t Ht. unfold held. apply andb_comm.
      * intros t Ht. apply filter_In in Ht. destruct Ht as [Ht Hf]. apply filter_In in Ht. destruct Ht as [_ Hh]. unfold held in Hh. rewrite Hf, andb_true_r in Hh. apply negb_true_iff in Hh. exact Hh.
    + rewrite (filter_none _ _ (filter (held K) q)).
      * rewrite app_nil_r. rewrite (filter_comm _ (fun t => negb (islong t)) (fresh K)). f_equal. apply filter_two. intros t Ht. unfold held. destruct (islong t); reflexivity.
      * intros t Ht. apply filter_In in Ht. destruct Ht as [_ Hh]. unfold held in Hh. apply andb_true_iff in Hh. destruct Hh as [-> _]. reflexivity.
  - intros d. rewrite rev_app_distr, P2, Scr. cbn [rev app]. apply says_other; [intros n v X; discriminate | apply Ic].
  - intros d Hd2. rewrite P2. destruct (Oth d) as [-> ->]; [|apply Ib; exact Hd2]. intros ->. apply (Hd2 o Ho eq_refl).
  - intros o2 H2 N2. rewrite EK in N2. rewrite P2, Scr. destruct (Oth (o_dest o2)) as [-> ->]. { intros X. apply N2. rewrite (dests o2 o H2 Ho X). apply in_or_app. right. left. reflexivity. } apply Il; [exact H2|]. intros X. apply N2. apply in_or_app. left. exact X.
  - intros o2 H2. rewrite EK in H2. rewrite P2. apply in_app_or in H2. destruct H2 as [H2|[<-|[]]].
    + destruct (Oth (o_dest o2) (Hd o2 H2)) as [-> ->]. apply Io. exact H2.
    + exists vs', vs2. split; [exact R2|]. unfold vs' at 1 2 3. cbn [cmd scr defs]. rewrite put_same. auto.
Qed.
Lemma step_set : forall hs p n v h2, h = hs ++ OSet n v :: h2 -> Inv hs p -> exists p2 r, set_option kinds p n v = (p2, r) /\ Inv (hs ++ [OSet n v]) p2.
Proof.
  intros hs p n v h2 Eh [It Is (q & Q0 & Q1 & Q2 & Q3) Ic Ib Il Io]. destruct (set_option kinds p n v) as [p2 r] eqn:E. exists p2, r. split; [reflexivity|].
  destruct (set_says settable0 kinds p (rev hs) n v p2 r Ic Is E) as (S1 & S2 & S3 & S4 & S5 & S6 & S7).
  assert (EA : added (hs ++ [OSet n v]) = added hs) by (rewrite added_app; apply app_nil_r).
  split; rewrite ?EA, ?S2, ?S3, ?S4, ?S5, ?S6.
  - exact It.
  - intros m. rewrite rev_app_distr. cbn [rev app]. rewrite Is. unfold may_set. split; (intros [X|(o & X1 & X2)]; [left; exact X | right; exists o; auto]).
  - exists q. auto.
  - intros d. rewrite rev_app_distr. apply S1.
  - exact Ib.
  - intros o Ho Hn. destruct (Il o Ho Hn) as (A1 & A2 & A3). split; [exact A1|]. split; [|exact A3]. rewrite S7; [exact A2|]. destruct (pr_own _ _ _ _ _ PR o Ho) as (_ & N1 & _ & N3 & N4). intros (X1 & [X2|[(f & X2)|X2]]).
    + subst n. apply Is in X1. rewrite may_set_rev in X1. destruct X1 as [X1|(o2 & X1 & _ & X3)]; [contradiction|]. apply Hn. assert (H2 : In o2 L) by (rewrite Eh, added_app; apply in_or_app; left; exact X1). rewrite <- (dests o2 o H2 Ho X3). exact X1.
    + apply (N3 n f X2).
    + apply (N4 n X2).
  - exact Io.
Qed.
Lemma runs : forall hs h2, h = hs ++ h2 -> exists p l, steps {| table := B; settable := settable0; vals := vs1; largs := map fst tl |} hs = inl (p, l) /\ Inv hs p.
Proof.
  intros hs. induction hs as [|c hs IH] using rev_ind; intros h2 Eh.
  - eexists _, []. split; [reflexivity | apply inv_start].
  - rewrite <- app_assoc in Eh. cbn [app] in Eh. destruct (IH _ Eh) as (p & l & E & I_).
    assert (X : exists p2 r, step p c = inl (p2, r) /\ Inv (hs ++ [c]) p2).
    { destruct c as [o|n v|n].
      - destruct (step_add hs p o h2 Eh I_) as (p2 & A1 & A2). exists p2, RDone. auto.
      - destruct (step_set hs p n v h2 Eh I_) as (p2 & r & A1 & A2). exists p2, r. cbn [OptModel.step]. rewrite A1. auto.
      - eexists p, _. split; [reflexivity|]. destruct I_ as [It Is Iq Ic Ib Il Io]. assert (EA : added (hs ++ [OGet n]) = added hs) by (rewrite added_app; apply app_nil_r). split; rewrite ?EA; auto.
        + intros m. rewrite rev_app_distr. cbn [rev app]. rewrite Is. unfold may_set. split; (intros [X|(o & X1 & X2)]; [left; exact X | right; exists o; auto]).
        + intros d. rewrite rev_app_distr. apply says_other; [intros n2 v X; discriminate | apply Ic]. }
    destruct X as (p2 & r & X1 & X2). exists p2, (l ++ [r]). split; [|exact X2]. clear - E X1. revert E. generalize {| table := B; settable := settable0; vals := vs1; largs := map fst tl |}. revert l.
    induction hs as [|c2 hs IH]; intros l p0 E.
    + cbn in E. injection E as -> <-. cbn [app OptModel.steps]. rewrite X1. reflexivity.
    + cbn [app OptModel.steps] in *. destruct (step p0 c2) as [[p1 r1]|e]; [|discriminate]. destruct (steps p1 hs) as [[p3 l3]|e] eqn:E2; [|discriminate]. injection E as -> <-. rewrite (IH l3 p1 E2). reflexivity.
Qed.
(* ---- the value of an option ---- *)
Lemma value_from : forall l vsa vsb d v0 cur,
  applies l vsa vsb -> cmd vsa d = None -> scr vsa d = None -> defs vsa d = Some v0 -> (forall c, tell d (occurrences its) c = tell d l c) -> (given d its <-> exists o v, In (o, v) l /\ concerns d o) ->
  (forall o v, In (o, v) l -> In (o, v) (occurrences its)) -> lists_ok its d v0 (scr cur d) -> cmd cur d = cmd vsb d -> defs cur d = defs vsb d ->
  exists v, has_value its (scr cur d) v0 d v /\ getattr cur d = Some v.
Proof.
  intros l vsa vsb d v0 cur A C0 S0 D0 Ht Hg Hin Hl E1 E2. assert (G0 : getattr vsa d = Some v0) by (unfold getattr; rewrite C0, S0; exact D0).
  assert (G := applies_get _ _ _ A d S0). rewrite G0 in G.
  assert (Sb : scr vsb d = None) by (rewrite (applies_scr _ _ _ A); exact S0).
  assert (Dec : given d its \/ ~ given d its).
  { rewrite Hg. clear. induction l as [|[o v] l IH]; [right; intros (o & v & [] & _)|]. destruct (concerns_dec d o) as [Hc|Hc]; [left; exists o, v; split; [left; reflexivity | exact Hc]|].
    destruct IH as [(o2 & v2 & H1 & H2)|IH]; [left; exists o2, v2; split; [right; exact H1 | exact H2]|]. right. intros (o2 & v2 & [H1|H1] & H2); [injection H1 as -> ->; contradiction|]. apply IH. exists o2, v2. auto. }
  destruct Dec as [Hy|Hy].
  - assert (V : exists v, getattr vsb d = Some v /\ getattr cur d = Some v).
    { destruct Hl as [Hl|Hl].
      - assert (X : getattr cur d = getattr vsb d) by (unfold getattr; rewrite E1, E2, Hl, Sb; reflexivity). rewrite X. assert (Y : getattr vsb d <> None).
        { clear - G. intros N. rewrite N in G. assert (Z : forall l c, tell d l (Some c) <> Some None).
          { intros l1. induction l1 as [|[o v] l1 IH]; intros c X; [discriminate|]. cbn [tell] in X. destruct (told d o v (Some c)) as [[r|]|] eqn:Et; [apply (IH r X) | | discriminate].
            unfold told in Et. destruct (o_act o); try (destruct (word_dec d (o_dest o)) as [_|_]; [destruct c; try discriminate; try (destruct v; discriminate) | discriminate]); try discriminate. destruct (word_dec d d0); [discriminate|]. destruct (word_dec d (o_dest o)); discriminate. }
          exact (Z l v0 G). }
        destruct (getattr vsb d) as [v|]; [exists v; auto | contradiction].
      - assert (X : cmd vsb d <> None). { apply (applies_sets _ _ _ A d); [apply Hg; exact Hy|]. destruct Hl as [-> | Hl]; [right; right; exact G0 | left; intros o v Hi; apply (Hl o v (Hin o v Hi))]. }
        destruct (cmd vsb d) as [v|] eqn:Ev; [|contradiction]. exists v. unfold getattr. rewrite E1, Ev. auto. }
    destruct V as (v & V1 & V2). exists v. split; [|exact V2]. apply has_given; [exact Hy|]. rewrite Ht, G, V1. reflexivity.
  - assert (N : forall o v, In (o, v) l -> ~ concerns d o) by (intros o v Hi Hc; apply Hy, Hg; exists o, v; auto). destruct (applies_other _ _ _ A d N) as [A1 A2]. unfold getattr. rewrite E1, A1, C0. destruct (scr cur d) as [v|] eqn:Es.
    + exists v. split; [apply has_script; auto | reflexivity].
    + exists v0. rewrite E2, A2, D0. split; [apply has_default; auto | reflexivity].
Qed.
Lemma inv_value : forall hs h2 p, h = hs ++ h2 -> Inv hs p -> forall d v0, is_default defs0 hs d v0 -> lists_ok its d v0 (scr (vals p) d) ->
  exists v, has_value its (scr (vals p) d) v0 d v /\ getattr (vals p) d = Some v.
Proof.
  intros hs h2 p Eh [It Is Iq Ic Ib Il Io] d v0 Hd Hl. destruct Hd as [Hd|(o & Ho & <- & <-)].
  - assert (Nd : forall o, In o L -> o_dest o <> d) by (intros o Ho <-; destruct (pr_own _ _ _ _ _ PR o Ho) as [X _]; congruence).
    destruct (Ib d Nd) as [E1 E2]. apply (value_from (flat_map builtin its) vs0 vs1 d v0); auto.
    + intros c. apply tell_builtin. exact Nd.
    + split.
      * intros (o & v & Hi & Hc). apply in_flat_map in Hi. destruct Hi as (i & Hi & Ho). assert (A := items i Hi). destruct i as [o2 v2|f o2 v2|w|w|w]; try contradiction; destruct Ho as [E|[]]; injection E as -> ->.
        -- exists o, v. split; [|exact Hc]. apply in_flat_map. exists (Given o v). split; [exact Hi | left; reflexivity].
        -- exfalso. apply local_concerns in Hc; [|exact A]. apply (Nd o A). auto.
      * intros (o & v & Hi & Hc). exists o, v. split; [apply (builtin_in o v Hi) | exact Hc].
    + intros o v Hi. apply (builtin_in o v Hi).
  - assert (HoL : In o L) by (rewrite Eh, added_app; apply in_or_app; left; exact Ho). destruct (Io o Ho) as (vsa & vsb & A & C0 & S0 & D0 & E1 & E2). apply (value_from (flat_map (mine (o_dest o)) its) vsa vsb); auto.
    + intros c. apply tell_mine. exact HoL.
    + split.
      * intros (o2 & v & Hi & Hc). apply in_flat_map in Hi. destruct Hi as (i & Hi & H2). assert (A2 := items i Hi). destruct i as [o3 v3|f o3 v3|w|w|w]; try contradiction; destruct H2 as [E|[]]; injection E as -> ->.
        -- exfalso. apply (builtin_concerns o2 o A2 HoL Hc).
        -- exists o2, v. split; [|exact Hc]. apply in_flat_map. exists (Local f o2 v). split; [exact Hi|]. cbn [mine]. apply local_concerns in Hc; [|exact A2]. destruct (word_dec (o_dest o2) (o_dest o)) as [_|X]; [left; reflexivity | congruence].
      * intros (o2 & v & Hi & Hc). exists o2, v. split; [|exact Hc]. apply in_flat_map in Hi. destruct Hi as (i & Hi & H2). destruct i as [o3 v3|f o3 v3|w|w|w]; try contradiction. cbn [mine] in H2. destruct (word_dec (o_dest o3) (o_dest o)); [|contradiction]. apply in_flat_map. exists (Local f o3 v3). auto.
    + intros o2 v Hi. apply in_flat_map in Hi. destruct Hi as (i & Hi & H2). destruct i as [o3 v3|f o3 v3|w|w|w]; try contradiction. cbn [mine] in H2. destruct (word_dec (o_dest o3) (o_dest o)); [|contradiction]. apply in_flat_map. exists (Local f o3 v3). auto.
Qed.
Lemma inv_unknown : forall hs h2 p, h = hs ++ h2 -> Inv hs p -> forall d, (forall v0, ~ is_default defs0 hs d v0) -> getattr (vals p) d = scr (vals p) d.
Proof.
  intros hs h2 p Eh [It Is Iq Ic Ib Il Io] d Hd. assert (Nk : ~ In d (map o_dest (added hs))). { intros X. apply in_map_iff in X. destruct X as (o & E & X). apply (Hd (o_default o)). right. exists o. auto. }
  assert (D0 : defs0 d = None) by (destruct (defs0 d) as [v|] eqn:E; [exfalso; apply (Hd v); left; exact E | reflexivity]).
  destruct (in_dec word_dec d (map o_dest L)) as [X|X].
  - apply in_map_iff in X. destruct X as (o & <- & X). destruct (Il o X) as (A1 & A2 & A3); [intros Y; apply Nk, in_map; exact Y|]. unfold getattr. rewrite A1, A2, A3. reflexivity.
  - destruct (Ib d) as [E1 E2]; [intros o Ho <-; apply X, in_map; exact Ho|]. destruct (applies_other _ _ _ AP d) as [A1 A2]. { intros o v Hi Hc. apply (pr_defaults _ _ _ _ _ PR o d); [apply (builtin_in o v Hi) | exact Hc | exact D0]. }
    unfold getattr. rewrite E1, E2, A1, A2. cbn [vs0 cmd defs]. rewrite D0. destruct (scr (vals p) d); reflexivity.
Qed.
(* ---- what is left ---- *)
Lemma tl_plain : forall q, (forall t, In t q -> In t tl) -> Forall sgl q -> (forall t, In t q -> match snd t with Plain _ => True | _ => False end) -> map fst q = plain (map snd q).
Proof.
  intros q. induction q as [|[w i] q IH]; intros H1 H2 H3; [reflexivity|]. assert (A := H3 (w, i) (or_introl eq_refl)). cbn [snd] in A. destruct i as [o2 v2|f o2 v2|w2|w2|w2]; try contradiction. inversion H2 as [|x l S1 S2 E]; subst. cbn [fst snd] in S1. inversion S1; subst.
  cbn [map fst snd plain flat_map app]. f_equal. apply IH; [intros t Ht; apply H1; right; exact Ht | exact S2 | intros t Ht; apply H3; right; exact Ht].
Qed.
Lemma inv_final : forall p, Inv h p -> ((exists w, In (Unknown w) its) -> validate p = inr 2) /\
  ((forall w, ~ In (Unknown w) its) -> exists p2, validate p = inl p2 /\ vals p2 = vals p /\ table p2 = table p /\ settable p2 = settable p /\ largs p2 = plain its).
Proof.
  intros p [It Is (q & Q0 & Q1 & Q2 & Q3) Ic Ib Il Io]. assert (Hq : forall t, In t q <-> In t (filter (fresh L) tl)) by (apply split_part; assumption).
  assert (NL : forall t, In t q -> match snd t with Local _ _ _ => False | _ => True end).
  { intros [w i] Ht. apply Hq, filter_In in Ht. destruct Ht as [Ht Hf]. apply tl_item in Ht. cbn [snd] in *. destruct i as [o2 v2|f o2 v2|w2|w2|w2]; auto. assert (A := items _ Ht). cbn [home] in A. unfold fresh, known in Hf. cbn [snd] in Hf.
    rewrite (proj2 (known_in L dests L (fun o Ho => Ho) o2 A) A) in Hf. discriminate. }
  assert (F := final_ok B L q Q1 NL (S (length q)) [] (vals p) (Nat.lt_succ_diag_r _)).
  assert (V : validate p = if existsb (fun t => match snd t with Unknown _ => true | _ => false end) q then inr 2 else inl {| table := table p; settable := settable p; vals := vals p; largs := map fst q |}).
  { unfold validate, parse_args. rewrite Q0, map_length, It, F. cbn [app]. destruct (existsb _ q); reflexivity. }
  assert (Tl : forall i, In i its -> stays i = true -> exists t, In t tl /\ snd t = i). { intros i Hi Hs. assert (X : In i (map snd tl)) by (rewrite TL; apply filter_In; auto). apply in_map_iff in X. destruct X as (t & E & Ht). exists t. auto. }
  rewrite V. split.
  - intros (w & Hw). destruct (Tl _ Hw eq_refl) as ([w2 i] & Ht & E). cbn [snd] in E. subst i. replace (existsb _ q) with true; [reflexivity|]. symmetry. apply existsb_exists. exists (w2, Unknown w). split; [apply Hq, filter_In; split; [exact Ht | reflexivity] | reflexivity].
  - intros Hu. replace (existsb _ q) with false.
    + eexists. split; [reflexivity|]. cbn [vals table settable largs]. split; [reflexivity|]. split; [reflexivity|]. split; [reflexivity|].
      assert (PL : forall t, In t q -> match snd t with Plain _ => True | _ => False end).
      { intros [w i] Ht. assert (A := NL _ Ht). apply Hq, filter_In in Ht. destruct Ht as [Ht _]. assert (B1 : stays i = true) by (assert (X : In i (filter stays its)) by (rewrite <- TL; apply (in_map snd _ _ Ht)); apply filter_In in X; apply X). apply tl_item in Ht. cbn [snd] in *. destruct i as [o2 v2|f o2 v2|w2|w2|w2]; auto; try discriminate. apply (Hu w2 Ht). }
      assert (NI : forall t, In t q -> negb (islong t) = true).
      { intros [w i] Ht. assert (A := PL _ Ht). rewrite Forall_forall in Q1. assert (S1 := Q1 _ Ht). cbn [fst snd] in *. destruct i; try contradiction. inversion S1 as [w2 S2 E1 E2| | | |]; subst. unfold islong. cbn [fst]. rewrite (classify_plain _ S2). reflexivity. }
      rewrite (filter_all _ _ q NI) in Q3. rewrite tl_plain; [|intros t Ht; apply Hq, filter_In in Ht; apply Ht | exact Q1 | exact PL].
      rewrite Q3. unfold plain. transitivity (flat_map (fun i => match i with Plain w => [w] | _ => [] end) (map snd tl)).
      * rewrite !flat_snd, !flat_filter; [reflexivity | |].
        -- intros [w i] Ht Hf. cbn [snd]. destruct i as [o2 v2|f o2 v2|w2|w2|w2]; try reflexivity. discriminate Hf.
        -- intros [w i] Ht Hf. apply filter_In in Ht. destruct Ht as [Ht _]. rewrite Forall_forall in SG. assert (S1 := SG _ Ht). cbn [fst snd] in *. destruct i; try reflexivity. inversion S1 as [w2 S2 E1 E2| | | |]; subst. unfold islong in Hf. cbn [fst] in Hf. rewrite (classify_plain _ S2) in Hf. discriminate.
      * rewrite TL. apply flat_filter. intros i _ Hi. destruct i; try discriminate; reflexivity.
    + symmetry. destruct (existsb _ q) eqn:E; [|reflexivity]. apply existsb_exists in E. destruct E as ([w i] & Ht & E). cbn [snd] in E. destruct i as [o2 v2|f o2 v2|w2|w2|w2]; try discriminate. exfalso. apply Hq, filter_In in Ht. destruct Ht as [Ht _]. apply (Hu w2), (tl_item _ Ht).
Qed.
(* ---- the targets and variables of the command line ---- *)
Lemma tl_words : forall f : word -> bool, (forall w cs, w = short cs -> f w = false) -> filter f (map fst tl) = filter f (plain its).
Proof.
  intros f Hf. unfold plain. rewrite <- (flat_filter _ _ _ stays its), <- TL by (intros i _ Hi; destruct i; try discriminate; reflexivity). rewrite flat_snd. clear ST TL. revert SG. generalize tl. intros l. induction l as [|[w i] l IH]; intros S_; [reflexivity|].
  inversion S_ as [|x l2 S1 S2 E]; subst. cbn [map fst flat_map snd]. cbn [fst snd] in S1. assert (D : forall w2, (classify w2 = KWord -> False) -> exists cs, w2 = short cs).
  { intros w2 Hc. destruct w2 as [|a r]; [exfalso; apply Hc; reflexivity|]. destruct (Ascii.eqb a "-") eqn:Ea; [apply Ascii.eqb_eq in Ea; subst a; exists r; reflexivity|]. exfalso. apply Hc. unfold classify. rewrite Ea. reflexivity. }
  destruct S1 as [w S1|w n v H1 H3|w c cs H1 H3|w n wv o v H1 H3 H4 H5|w c cs o v H1 H3 H4 H5];
    [cbn [app filter]; destruct (f w); rewrite IH by exact S2; reflexivity | ..]; (destruct (D w) as (cs2 & Ew); [congruence|]; cbn [app filter]; rewrite (Hf w cs2 Ew); apply IH; exact S2).
Qed.
Lemma is_arg_short : forall w cs, w = short cs -> is_arg w = false.
Proof. intros w cs ->. unfold is_arg. replace (startswith (short cs) (lit "-"%string)) with true; [reflexivity|]. destruct cs; reflexivity. Qed.
Lemma has_eq_in : forall w, has_eq w = is_variable w.
Proof.
  intros w. unfold is_variable. destruct (in_dec ascii_dec equals w) as [H|H].
  - assert (E : exists n v, w = n ++ equals :: v /\ ~ In equals n).
    { induction w as [|a w IH]; [contradiction|]. destruct (ascii_dec a equals) as [-> | Ha]; [exists [], w; split; [reflexivity | intros []]|]. destruct H as [H|H]; [congruence|]. destruct (IH H) as (n & v & -> & Hn). exists (a :: n), v. split; [reflexivity|]. intros [X|X]; [congruence | contradiction]. }
    destruct E as (n & v & -> & Hn). unfold has_eq. rewrite split_eq_some by exact Hn. reflexivity.
  - unfold has_eq. rewrite split_eq_none by exact H. reflexivity.
Qed.
Lemma is_arg_plain : forall w, (forall cs, w <> short cs) -> is_arg w = negb (is_empty w).
Proof.
  intros w H. unfold is_arg. assert (E : startswith w (lit "-"%string) = false).
  { destruct w as [|a r]; [reflexivity|]. destruct (Ascii.eqb a "-") eqn:Ea; [exfalso; apply Ascii.eqb_eq in Ea; apply (H r); rewrite Ea; reflexivity|]. change (startswith (a :: r) (lit "-"%string)) with (Ascii.eqb a "-" && startswith r []). rewrite Ea. reflexivity. }
  rewrite E. cbn [negb andb]. f_equal. unfold is_empty. destruct (in_dec word_dec w _) as [Hi|Hi].
  - destruct Hi as [<-|[<-|[<-|[]]]]; reflexivity.
  - unfold blank. destruct (str_eqb w []) eqn:E1; [apply str_eqb_eq in E1; exfalso; apply Hi; left; auto|]. destruct (str_eqb w (lit """"""%string)) eqn:E2; [apply str_eqb_eq in E2; exfalso; apply Hi; right; left; auto|].
    destruct (str_eqb w (lit "''"%string)) eqn:E3; [apply str_eqb_eq in E3; exfalso; apply Hi; right; right; left; auto|]. reflexivity.
Qed.
Lemma plain_word : forall w, In w (plain its) -> forall cs, w <> short cs.
Proof.
  intros w H cs ->. unfold plain in H. apply in_flat_map in H. destruct H as (i & Hi & H). assert (X : In i (map snd tl)). { rewrite TL. apply filter_In. split; [exact Hi|]. destruct i; try contradiction. reflexivity. }
  apply in_map_iff in X. destruct X as ([w2 i2] & E & X). rewrite Forall_forall in SG. assert (S1 := SG _ X). cbn [fst snd] in *. subst i2. destruct i; try contradiction. destruct H as [-> |[]]. inversion S1 as [w3 S2 E1 E2| | | |]; subst. apply (S2 cs eq_refl).
Qed.
Lemma targets_ok : cl_targets (map fst tl) (flat_map after its) = filter (fun w => negb (is_empty w) && negb (is_variable w)) (plain its) ++ after_dashes its /\
  cl_args (map fst tl) = filter (fun w => negb (is_empty w) && is_variable w) (plain its).
Proof.
  assert (X : forall (f g : word -> bool) l, (forall w, In w l -> f w = g w) -> filter f l = filter g l).
  { intros f g l. induction l as [|a l IH]; intros H; [reflexivity|]. cbn [filter]. rewrite (H a) by (left; reflexivity). rewrite IH by (intros w Hw; apply H; right; exact Hw). reflexivity. }
  unfold cl_targets, cl_args. rewrite !tl_words by (intros w cs Ew; rewrite (is_arg_short w cs Ew); reflexivity). split; [f_equal|].
  - apply X. intros w Hw. rewrite (is_arg_plain w (plain_word w Hw)), has_eq_in. reflexivity.
  - apply X. intros w Hw. rewrite (is_arg_plain w (plain_word w Hw)), has_eq_in. reflexivity.
Qed.
End Thm.

(* ---- C61: the theorems ---- *)
(* C61a: every prefix of the calls of the scripts runs without the program ending, and what GetOption then gives is the command line's value, or else that of SetOption, or else the default;
   a name without a default is known only if SetOption has given it a value *)
Theorem C61a_precedence : forall B defs0 settable0 kinds h argv its, project B defs0 settable0 kinds h -> line B (added h) argv its -> one_form its -> accepted defs0 h its ->
  exists p0 rest, start B defs0 settable0 argv = inl (p0, rest) /\ forall h1 h2, h = h1 ++ h2 -> exists p l, steps kinds p0 h1 = inl (p, l) /\
    forall d, exists r, script_says settable0 kinds (rev h1) d r /\
      (forall v0, is_default defs0 h1 d v0 -> lists_ok its d v0 r -> exists v, has_value its r v0 d v /\ get_option p d = RVal v) /\
      ((forall v0, ~ is_default defs0 h1 d v0) -> get_option p d = match r with Some v => RVal v | None => RError end).
Proof.
  intros B defs0 settable0 kinds h argv its PR LN ONE ACC. destruct (first B defs0 settable0 kinds h argv its PR LN ACC) as (tl & vs1 & ST & AP & SG & TL).
  eexists _, _. split; [exact ST|]. intros h1 h2 Eh. destruct (runs B defs0 settable0 kinds h argv its PR LN ONE ACC tl vs1 AP SG TL h1 h2 Eh) as (p & l & E & I_).
  exists p, l. split; [exact E|]. intros d. exists (scr (vals p) d). split; [apply (i_scr _ _ _ _ _ _ _ _ _ I_)|]. unfold get_option. split.
  - intros v0 Hd Hl. destruct (inv_value B defs0 settable0 kinds h argv its PR LN ACC tl vs1 AP h1 h2 p Eh I_ d v0 Hd Hl) as (v & V1 & V2). exists v. rewrite V2. auto.
  - intros Hd. rewrite (inv_unknown B defs0 settable0 kinds h argv its PR LN ACC tl vs1 AP h1 h2 p Eh I_ d Hd). destruct (scr (vals p) d); reflexivity.
Qed.
(* C61b: when the scripts have been read, an option that nobody knows ends the program with status 2; otherwise the options keep their values and exactly the other words are left *)
Theorem C61b_unknown : forall B defs0 settable0 kinds h argv its, project B defs0 settable0 kinds h -> line B (added h) argv its -> one_form its -> accepted defs0 h its ->
  exists p0 rest p l, start B defs0 settable0 argv = inl (p0, rest) /\ steps kinds p0 h = inl (p, l) /\
    ((exists w, In (Unknown w) its) -> validate p = inr 2) /\
    ((forall w, ~ In (Unknown w) its) -> exists p2, validate p = inl p2 /\ (forall d, get_option p2 d = get_option p d) /\ largs p2 = plain its).
Proof.
  intros B defs0 settable0 kinds h argv its PR LN ONE ACC. destruct (first B defs0 settable0 kinds h argv its PR LN ACC) as (tl & vs1 & ST & AP & SG & TL).
  destruct (runs B defs0 settable0 kinds h argv its PR LN ONE ACC tl vs1 AP SG TL h [] (eq_sym (app_nil_r h))) as (p & l & E & I_). eexists _, _, p, l. split; [exact ST|]. split; [exact E|].
  destruct (inv_final B defs0 settable0 kinds h argv its PR LN tl vs1 SG TL p I_) as [F1 F2]. split; [exact F1|]. intros Hu. destruct (F2 Hu) as (p2 & G1 & G2 & _ & _ & G3). exists p2. split; [exact G1|]. split; [|exact G3]. intros d. unfold get_option. rewrite G2. reflexivity.
Qed.
(* C61c: the targets are the words that are neither options (nor their values) nor variables, and those after --; the variables are the words with = *)
Theorem C61c_targets : forall B defs0 settable0 kinds h argv its, project B defs0 settable0 kinds h -> line B (added h) argv its -> accepted defs0 h its ->
  exists p0 rest, start B defs0 settable0 argv = inl (p0, rest) /\
    cl_targets (largs p0) rest = filter (fun w => negb (is_empty w) && negb (is_variable w)) (plain its) ++ after_dashes its /\
    cl_args (largs p0) = filter (fun w => negb (is_empty w) && is_variable w) (plain its).
Proof.
  intros B defs0 settable0 kinds h argv its PR LN ACC. destruct (first B defs0 settable0 kinds h argv its PR LN ACC) as (tl & vs1 & ST & AP & SG & TL).
  eexists _, _. split; [exact ST|]. cbn [largs]. apply (targets_ok B h its tl SG TL).
Qed.
