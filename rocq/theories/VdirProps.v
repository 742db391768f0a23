(* C57: the table of variant directories, srcnode, the duplicate attribute and
   the targets in the variant directories, over every history of calls. *)
From Coq Require Import String List Bool Arith Lia.
From Verif Require Import VdirModel.
Import ListNotations.
Open Scope list_scope.

(* ------------------------------------------------------------------ *)
(* The specification                                                  *)

(* path [p] is directory [d] or lies in it *)
Definition below (d p : path) : Prop := exists w, p = w ++ d.

(* In history [h], the call that made [v] a variant directory of [s]: the
   first VariantDir(v, ...) whose source is not inside v. *)
Definition declared (h : list vev) (v s : path) (dup : bool) : Prop :=
  exists h1 h2, h = h1 ++ EVariant v s dup :: h2 /\ ~ below v s /\
                forall s' d', In (EVariant v s' d') h1 -> below v s'.

(* [v] is the innermost variant directory that directory [d] is, or is in,
   and [w] is the path of [d] below it *)
Definition innermost (h : list vev) (d w v s : path) (dup : bool) : Prop :=
  d = w ++ v /\ declared h v s dup /\
  forall w' v' s' dup', d = w' ++ v' -> length w' < length w -> ~ declared h v' s' dup'.

(* ------------------------------------------------------------------ *)
(* Lemmas                                                             *)

Lemma peqb_eq : forall p q, peqb p q = true <-> p = q.
Proof. intros p q. unfold peqb. destruct (path_dec p q); split; congruence. Qed.

Lemma peqb_refl : forall p, peqb p p = true.
Proof. intros p. apply peqb_eq. reflexivity. Qed.

Lemma peqb_neq : forall p q, peqb p q = false <-> p <> q.
Proof. intros p q. unfold peqb. destruct (path_dec p q); split; congruence. Qed.

Lemma is_under_below : forall d p, is_under d p = true <-> below d p.
Proof.
  intros d p. induction p as [|n p IH].
  - cbn [is_under]. rewrite orb_false_r, peqb_eq. split.
    + intros <-. exists []. reflexivity.
    + intros (w & Hw). destruct w; cbn in Hw; congruence.
  - cbn [is_under]. rewrite orb_true_iff, peqb_eq, IH. split.
    + intros [Hn | (w & ->)]; [exists []; auto | exists (n :: w); reflexivity].
    + intros (w & Hw). destruct w as [|m w]; cbn in Hw; [left; auto | right].
      exists w. congruence.
Qed.

Lemma is_under_not : forall d p, is_under d p = false <-> ~ below d p.
Proof.
  intros d p. rewrite <- is_under_below. destruct (is_under d p); split; congruence.
Qed.

Lemma below_refl : forall p, below p p.
Proof. intros p. exists []. reflexivity. Qed.

Lemma below_trans : forall a b c, below a b -> below b c -> below a c.
Proof. intros a b c (w & ->) (x & ->). exists (x ++ w). rewrite app_assoc. reflexivity. Qed.

Lemma below_linear : forall a b p, below a p -> below b p -> below a b \/ below b a.
Proof.
  intros a b p (w & ->). revert b. induction w as [|n w IH]; intros b (x & Hx).
  - right. exists x. exact Hx.
  - destruct x as [|m x].
    + left. exists (n :: w). cbn in Hx. symmetry. exact Hx.
    + cbn in Hx. apply IH. exists x. congruence.
Qed.

Lemma below_antisym : forall a b, below a b -> below b a -> a = b.
Proof.
  intros a b (w & Hw) (x & Hx).
  assert (HL : length b = length w + length a) by (rewrite Hw; apply app_length).
  assert (HL2 : length a = length x + length b) by (rewrite Hx; apply app_length).
  destruct w; [|cbn [length] in HL; lia]. exact (eq_sym Hw).
Qed.

Lemma vrun_snoc : forall h e, vrun (h ++ [e]) = vstep (vrun h) e.
Proof. intros h e. unfold vrun. rewrite fold_left_app. reflexivity. Qed.

Lemma declared_snoc : forall h e v s dup,
  declared (h ++ [e]) v s dup <->
  declared h v s dup \/
  (e = EVariant v s dup /\ ~ below v s /\ forall s' d', ~ declared h v s' d').
Proof.
  intros h e v s dup. split.
  - intros (h1 & h2 & He & Hn & Hb).
    destruct h2 as [|x h2] using rev_ind.
    + right. apply app_inj_tail in He. destruct He as [-> ->].
      split; [reflexivity|]. split; [exact Hn|].
      intros s' d' (a & b & -> & Hn' & _). apply Hn'. apply (Hb s' d').
      apply in_app_iff. right. left. reflexivity.
    + clear IHh2. left.
      rewrite app_comm_cons, app_assoc in He. apply app_inj_tail in He.
      destruct He as [-> _]. exists h1, h2. auto.
  - intros [(h1 & h2 & -> & Hn & Hb) | (-> & Hn & Hnone)].
    + exists h1, (h2 ++ [e]). rewrite <- app_assoc. auto.
    + exists h, []. split; [reflexivity|]. split; [exact Hn|].
      intros s' d' Hin.
      destruct (is_under v s') eqn:Hu; [apply is_under_below; exact Hu|].
      exfalso. apply is_under_not in Hu.
      (* the first call for v with a source not below v is a declaration *)
      assert (HX : forall g, In (EVariant v s' d') g -> exists s2 d2, declared g v s2 d2).
      { intros g. induction g as [|x g IH] using rev_ind; intros Hg; [destruct Hg|].
        apply in_app_iff in Hg. destruct Hg as [Hg | [-> | []]].
        - destruct (IH Hg) as (s2 & d2 & (a & b & -> & H2)). exists s2, d2.
          exists a, (b ++ [x]). rewrite <- app_assoc. auto.
        - destruct (in_dec (fun a b : vev => ltac:(repeat decide equality))
                           (EVariant v s' d') g) as [Hg | Hg].
          + destruct (IH Hg) as (s2 & d2 & (a & b & -> & H2)). exists s2, d2.
            exists a, (b ++ [EVariant v s' d']). rewrite <- app_assoc. auto.
          + clear IH Hg.
            assert (HD : (exists s2 d2, declared g v s2 d2) \/
                         (forall s2 d2, In (EVariant v s2 d2) g -> below v s2)).
            { clear. induction g as [|x g IH] using rev_ind.
              - right. intros s2 d2 [].
              - destruct IH as [(s2 & d2 & (a & b & -> & H2)) | IH].
                + left. exists s2, d2. exists a, (b ++ [x]). rewrite <- app_assoc. auto.
                + assert (HC : (exists s2 d2, x = EVariant v s2 d2) \/ (forall s2 d2, x <> EVariant v s2 d2)).
                  { destruct x as [v2 s2 d2|p|p|p]; try (right; congruence).
                    destruct (path_dec v2 v) as [->|Hv]; [left; eauto | right; congruence]. }
                  destruct HC as [(s2 & d2 & ->) | HC].
                  * destruct (is_under v s2) eqn:Hu2.
                    -- right. intros s3 d3 Hin3. apply in_app_iff in Hin3.
                       destruct Hin3 as [Hin3 | [E3 | []]]; [eauto|].
                       inversion E3; subst. apply is_under_below. exact Hu2.
                    -- left. exists s2, d2. exists g, []. split; [reflexivity|].
                       split; [apply is_under_not; exact Hu2 | exact IH].
                  * right. intros s3 d3 Hin3. apply in_app_iff in Hin3.
                    destruct Hin3 as [Hin3 | [E3 | []]]; [eauto|]. exfalso. eapply HC. exact E3. }
            destruct HD as [(s2 & d2 & (a & b & -> & H2)) | HD].
            * exists s2, d2. exists a, (b ++ [EVariant v s' d']). rewrite <- app_assoc. auto.
            * exists s', d'. exists g, []. auto. }
      destruct (HX h Hin) as (s2 & d2 & HD). exact (Hnone s2 d2 HD).
Qed.

Lemma declared_fun : forall h v s d s' d',
  declared h v s d -> declared h v s' d' -> s = s' /\ d = d'.
Proof.
  intros h. induction h as [|e h IH] using rev_ind; intros v s d s' d' H1 H2.
  - destruct H1 as (a & b & E & _). destruct a; discriminate E.
  - apply declared_snoc in H1. apply declared_snoc in H2.
    destruct H1 as [H1 | (-> & H1 & N1)]; destruct H2 as [H2 | (E2 & H2 & N2)].
    + eauto.
    + exfalso. exact (N2 _ _ H1).
    + exfalso. exact (N1 _ _ H2).
    + inversion E2. auto.
Qed.

(* creating nodes and computing srcnodes leaves the table alone *)
Lemma create_srcdir : forall p s, srcdir (create p s) = srcdir s.
Proof. reflexivity. Qed.

Lemma fold_create : forall l s,
  srcdir (fold_left (fun s p => create p s) l s) = srcdir s /\
  vdirs (fold_left (fun s p => create p s) l s) = vdirs s /\
  memo (fold_left (fun s p => create p s) l s) = memo s.
Proof.
  intros l. induction l as [|p l IH]; intros s; cbn [fold_left]; [auto|].
  destruct (IH (create p s)) as (A & B & D). rewrite A, B, D. auto.
Qed.

Lemma srcdir_list_tab : forall d s,
  srcdir (snd (srcdir_list d s)) = srcdir s /\ vdirs (snd (srcdir_list d s)) = vdirs s.
Proof.
  intros d s. unfold srcdir_list. destruct (memo s d); cbn [snd]; [auto|].
  cbn [srcdir vdirs]. destruct (fold_create (srcdir_climb (srcdir s) d []) s) as (A & B & _).
  rewrite A, B. auto.
Qed.

Lemma srcnode_tab : forall p s,
  srcdir (snd (srcnode p s)) = srcdir s /\ vdirs (snd (srcnode p s)) = vdirs s.
Proof.
  intros p s. unfold srcnode. destruct p as [|n d]; cbn [snd]; [auto|].
  pose proof (srcdir_list_tab d s) as HT.
  destruct (srcdir_list d s) as [l s']. cbn [snd] in HT.
  destruct l as [|q l]; cbn [snd]; [exact HT|]. cbn [create srcdir vdirs]. exact HT.
Qed.

Lemma dir_srcnode_tab : forall p s,
  srcdir (snd (dir_srcnode p s)) = srcdir s /\ vdirs (snd (dir_srcnode p s)) = vdirs s.
Proof.
  intros p s. unfold dir_srcnode. destruct (srcdir s p); [auto|]. apply srcnode_tab.
Qed.

Lemma variant_dir_srcdir : forall v src dup s q,
  srcdir (snd (variant_dir v src dup s)) q =
  if peqb q v then match srcdir s v with
                   | Some o => Some o
                   | None => if is_under v src then None else Some src
                   end
  else srcdir s q.
Proof.
  intros v src dup s q. unfold variant_dir. cbn [create srcdir].
  destruct (is_under v src) eqn:Hu; cbn [snd srcdir create].
  - destruct (peqb q v) eqn:Hq; [|reflexivity]. apply peqb_eq in Hq. subst q.
    destruct (srcdir s v); reflexivity.
  - destruct (srcdir s v) as [o|] eqn:Hs.
    + assert (HH : srcdir (snd (if peqb o src then (VDone, create v (create src s))
                           else (VOtherSource, create v (create src s)))) q = srcdir s q)
        by (destruct (peqb o src); reflexivity).
      rewrite HH. destruct (peqb q v) eqn:Hq; [|reflexivity]. apply peqb_eq in Hq. congruence.
    + cbn [snd link srcdir create]. destruct (peqb q v); reflexivity.
Qed.

(* the table is what was declared *)
Lemma table_declared : forall h v s,
  srcdir (vrun h) v = Some s <-> exists dup, declared h v s dup.
Proof.
  intros h. induction h as [|e h IH] using rev_ind; intros v s.
  - cbn. split; [discriminate|]. intros (dup & a & b & E & _). destruct a; discriminate E.
  - rewrite vrun_snoc.
    assert (HN : forall x, (forall a b c, e <> EVariant a b c) -> srcdir (vrun h) v = x ->
                 (x = Some s <-> exists dup, declared (h ++ [e]) v s dup)).
    { intros x He Hx. rewrite <- Hx, IH. split; intros (dup & Hd); exists dup.
      - apply declared_snoc. left. exact Hd.
      - apply declared_snoc in Hd. destruct Hd as [Hd | (E & _)]; [exact Hd|].
        exfalso. eapply He. exact E. }
    destruct e as [a b c|p|p|p]; cbn [vstep].
    + rewrite variant_dir_srcdir. destruct (peqb v a) eqn:Hv.
      * apply peqb_eq in Hv. subst a. destruct (srcdir (vrun h) v) as [o|] eqn:Hs.
        -- split.
           ++ intros E. injection E as <-. destruct (proj1 (IH v o) Hs) as (dup & Hd).
              exists dup. apply declared_snoc. left. exact Hd.
           ++ intros (dup & Hd). apply declared_snoc in Hd. destruct Hd as [Hd | (_ & _ & Hn)].
              ** rewrite <- Hs. apply IH. exists dup. exact Hd.
              ** exfalso. destruct (proj1 (IH v o) Hs) as (dup' & Hd). exact (Hn _ _ Hd).
        -- assert (Hnone : forall s' d', ~ declared h v s' d').
           { intros s' d' Hd. assert (HS : srcdir (vrun h) v = Some s') by (apply IH; eauto). congruence. }
           destruct (is_under v b) eqn:Hu.
           ++ split; [discriminate|]. intros (dup & Hd). exfalso. apply declared_snoc in Hd.
              destruct Hd as [Hd | (E & Hb & _)]; [exact (Hnone _ _ Hd)|].
              inversion E; subst. apply Hb. apply is_under_below. exact Hu.
           ++ apply is_under_not in Hu. split.
              ** intros E. injection E as ->. exists c. apply declared_snoc. right. auto.
              ** intros (dup & Hd). apply declared_snoc in Hd.
                 destruct Hd as [Hd | (E & _)]; [exfalso; exact (Hnone _ _ Hd)|]. inversion E. reflexivity.
      * apply peqb_neq in Hv. rewrite IH. split; intros (dup & Hd); exists dup.
        -- apply declared_snoc. left. exact Hd.
        -- apply declared_snoc in Hd. destruct Hd as [Hd | (E & _)]; [exact Hd|]. congruence.
    + apply HN; [congruence | reflexivity].
    + apply HN; [congruence|]. rewrite (proj1 (srcnode_tab p (create p (vrun h)))). reflexivity.
    + apply HN; [congruence|]. rewrite (proj1 (dir_srcnode_tab p (create p (vrun h)))). reflexivity.
Qed.

Lemma table_none : forall h v,
  srcdir (vrun h) v = None <-> forall s dup, ~ declared h v s dup.
Proof.
  intros h v. destruct (srcdir (vrun h) v) as [s|] eqn:Hs.
  - split; [discriminate|]. intros Hn. exfalso.
    apply table_declared in Hs. destruct Hs as (dup & Hd). exact (Hn _ _ Hd).
  - split; [|reflexivity]. intros _ s dup Hd.
    assert (HS : srcdir (vrun h) v = Some s) by (apply table_declared; eauto). congruence.
Qed.

(* ------------------------------------------------------------------ *)
(* C57a: VariantDir accepts and refuses                               *)

Theorem C57a_variantdir_result : forall h v s dup,
  (fst (variant_dir v s dup (vrun h)) = VUnderVariant <-> below v s) /\
  (fst (variant_dir v s dup (vrun h)) = VOtherSource <->
     ~ below v s /\ exists s' d', declared h v s' d' /\ s' <> s) /\
  (fst (variant_dir v s dup (vrun h)) = VDone <->
     ~ below v s /\ forall s' d', declared h v s' d' -> s' = s).
Proof.
  intros h v s dup. unfold variant_dir. cbn [create srcdir].
  destruct (is_under v s) eqn:Hu.
  - apply is_under_below in Hu. cbn [fst].
    split; [tauto|]. split; (split; [discriminate | tauto]).
  - apply is_under_not in Hu. destruct (srcdir (vrun h) v) as [o|] eqn:Hs.
    + pose proof Hs as Hs'. apply table_declared in Hs'. destruct Hs' as (d0 & Hd0).
      destruct (peqb o s) eqn:Ho; cbn [fst].
      * apply peqb_eq in Ho. subst o.
        split; [split; [discriminate | tauto]|]. split.
        -- split; [discriminate|]. intros (_ & s' & d' & Hd & Hne). exfalso. apply Hne.
           apply (declared_fun h v s' d' s d0 Hd Hd0).
        -- split; [intros _|reflexivity]. split; [exact Hu|]. intros s' d' Hd.
           apply (declared_fun h v s' d' s d0 Hd Hd0).
      * apply peqb_neq in Ho. split; [split; [discriminate | tauto]|]. split.
        -- split; [intros _ | reflexivity]. split; [exact Hu|]. exists o, d0. auto.
        -- split; [discriminate|]. intros (_ & Hall). exfalso. apply Ho. exact (Hall _ _ Hd0).
    + pose proof (proj1 (table_none h v) Hs) as Hn. cbn [fst].
      split; [split; [discriminate | tauto]|]. split.
      * split; [discriminate|]. intros (_ & s' & d' & Hd & _). exfalso. exact (Hn _ _ Hd).
      * split; [intros _|reflexivity]. split; [exact Hu|]. intros s' d' Hd. exfalso. exact (Hn _ _ Hd).
Qed.

(* ------------------------------------------------------------------ *)
(* C57b: srcnode                                                      *)

Lemma climb_head : forall sd d suf,
  (srcdir_climb sd d suf = [] /\ forall w v, d = w ++ v -> sd v = None) \/
  (exists w v s rest, d = w ++ v /\ sd v = Some s /\ srcdir_climb sd d suf = (suf ++ w ++ s) :: rest /\
     forall w' v', d = w' ++ v' -> length w' < length w -> sd v' = None).
Proof.
  intros sd d. induction d as [|n d IH]; intros suf; cbn [srcdir_climb].
  - destruct (sd []) as [s|] eqn:Hs.
    + right. exists [], [], s, []. cbn [app length]. repeat (split; [auto; fail|]).
      intros w' v' _ HL. lia.
    + left. split; [reflexivity|]. intros w v Hd. destruct w; cbn in Hd; [congruence | discriminate].
  - destruct (sd (n :: d)) as [s|] eqn:Hs.
    + right. exists [], (n :: d), s, (srcdir_climb sd d (suf ++ [n])). cbn [app length].
      repeat (split; [auto; fail|]). intros w' v' _ HL. lia.
    + cbn [app]. destruct (IH (suf ++ [n])) as [(HE & Hn) | (w & v & s & rest & Hd & Hv & HE & Hmin)].
      * left. split; [exact HE|]. intros w v Hd. destruct w as [|m w]; cbn in Hd; [congruence|].
        apply (Hn w v). congruence.
      * right. exists (n :: w), v, s, rest. subst d. split; [reflexivity|]. split; [exact Hv|].
        split.
        -- rewrite HE. rewrite <- app_assoc. reflexivity.
        -- intros w' v' Hd HL. destruct w' as [|m w']; cbn in Hd; [congruence|].
           apply (Hmin w' v'); [congruence|]. cbn [length] in HL. lia.
Qed.

(* the memoized lists are right after any history: link drops those that
   its change of the table makes wrong *)
Lemma climb_ext : forall sd sd' d suf,
  (forall v, below v d -> sd v = sd' v) -> srcdir_climb sd d suf = srcdir_climb sd' d suf.
Proof.
  intros sd sd' d. induction d as [|n d IH]; intros suf He; cbn [srcdir_climb].
  - rewrite (He [] (below_refl [])). reflexivity.
  - rewrite (He (n :: d) (below_refl _)). rewrite (IH (suf ++ [n])); [reflexivity|].
    intros v Hv. apply He. apply (below_trans _ d _ Hv). exists [n]. reflexivity.
Qed.

Definition memo_ok (s : vst) : Prop :=
  forall d l, memo s d = Some l -> l = srcdir_climb (srcdir s) d [].

Lemma memo_ok_create : forall p s, memo_ok s -> memo_ok (create p s).
Proof. intros p s H. exact H. Qed.

Lemma memo_ok_srcdir_list : forall d s, memo_ok s -> memo_ok (snd (srcdir_list d s)).
Proof.
  intros d s H. unfold srcdir_list. destruct (memo s d) as [l|] eqn:Hm; cbn [snd]; [exact H|].
  destruct (fold_create (srcdir_climb (srcdir s) d []) s) as (A & _ & D).
  intros q l Hq. cbn [memo srcdir] in *. rewrite A. rewrite D in Hq.
  destruct (peqb q d) eqn:E.
  - apply peqb_eq in E. subst q. injection Hq as <-. reflexivity.
  - apply H. exact Hq.
Qed.

Lemma memo_ok_srcnode : forall p s, memo_ok s -> memo_ok (snd (srcnode p s)).
Proof.
  intros p s H. unfold srcnode. destruct p as [|n d]; cbn [snd]; [exact H|].
  pose proof (memo_ok_srcdir_list d s H) as HM. destruct (srcdir_list d s) as [l s'].
  destruct l; cbn [snd] in *; [exact HM|]. apply memo_ok_create. exact HM.
Qed.

Lemma memo_ok_link : forall v src dup s, memo_ok s -> memo_ok (link v src dup s).
Proof.
  intros v src dup s H q l Hq. cbn [link memo srcdir] in *.
  destruct (is_under v q) eqn:Hu; [discriminate|].
  rewrite (H q l Hq). apply climb_ext. intros w Hw.
  destruct (peqb w v) eqn:E; [|reflexivity].
  apply peqb_eq in E. subst w. apply is_under_not in Hu. contradiction.
Qed.

Lemma memo_ok_run : forall h, memo_ok (vrun h).
Proof.
  intros h. induction h as [|e h IH] using rev_ind; [intros d l E; discriminate E|].
  rewrite vrun_snoc. destruct e as [v src dup|p|p|p]; cbn [vstep].
  - unfold variant_dir. destruct (is_under v src); [exact IH|].
    destruct (srcdir (create v (create src (vrun h))) v) as [o|]; cbn [snd].
    + destruct (peqb o src); exact IH.
    + apply memo_ok_link. exact IH.
  - exact IH.
  - apply memo_ok_srcnode. exact IH.
  - unfold dir_srcnode. destruct (srcdir (create p (vrun h)) p); [exact IH|].
    apply memo_ok_srcnode. exact IH.
Qed.

Lemma srcdir_list_val : forall d s,
  memo_ok s -> fst (srcdir_list d s) = srcdir_climb (srcdir s) d [].
Proof.
  intros d s H. unfold srcdir_list. destruct (memo s d) as [l|] eqn:Hm; cbn [fst]; [|reflexivity].
  apply H. exact Hm.
Qed.

Lemma srcnode_val : forall n d s,
  memo_ok s ->
  fst (srcnode (n :: d) s) =
  match srcdir_climb (srcdir s) d [] with q :: _ => n :: q | [] => n :: d end.
Proof.
  intros n d s H. cbn [srcnode]. pose proof (srcdir_list_val d s H) as HV.
  destruct (srcdir_list d s) as [l s']. cbn [fst] in HV. rewrite <- HV.
  destruct l; reflexivity.
Qed.

(* Whatever was declared, looked up or asked before, in whatever order: the
   source of a file is the file of the same relative path in the source
   directory of the innermost variant directory it is in, and itself when it
   is in none. *)
Theorem C57b_srcnode : forall h n d,
  (forall w v s dup, innermost h d w v s dup ->
     fst (srcnode (n :: d) (vrun h)) = n :: w ++ s) /\
  ((forall v s dup, below v d -> ~ declared h v s dup) ->
     fst (srcnode (n :: d) (vrun h)) = n :: d).
Proof.
  intros h n d. rewrite (srcnode_val n d (vrun h) (memo_ok_run h)).
  destruct (climb_head (srcdir (vrun h)) d []) as [(HE & Hn) | (w & v & s & rest & Hd & Hv & HE & Hmin)];
    rewrite HE; split.
  - intros w v s dup (Hd & Hdec & _). exfalso.
    assert (HS : srcdir (vrun h) v = Some s) by (apply table_declared; eauto).
    rewrite (Hn w v Hd) in HS. discriminate.
  - reflexivity.
  - intros w2 v2 s2 dup (Hd2 & Hdec2 & Hmin2). cbn [app].
    assert (HS2 : srcdir (vrun h) v2 = Some s2) by (apply table_declared; eauto).
    assert (HL : length w = length w2).
    { destruct (Nat.lt_trichotomy (length w) (length w2)) as [HL | [HL | HL]]; [|exact HL|].
      - exfalso. apply table_declared in Hv. destruct Hv as (dup' & Hv). exact (Hmin2 w v s dup' Hd HL Hv).
      - exfalso. rewrite (Hmin w2 v2 Hd2 HL) in HS2. discriminate. }
    assert (Hw : w = w2 /\ v = v2).
    { apply app_eq_app in Hd || idtac. rewrite Hd in Hd2. clear -Hd2 HL. revert w2 HL Hd2.
      induction w as [|a w IH]; intros [|b w2] HL Hd2; cbn in *; try discriminate; [auto|].
      injection Hd2 as -> Hd2. injection HL as HL. destruct (IH w2 HL Hd2) as [-> ->]. auto. }
    destruct Hw as [-> ->]. rewrite HS2 in Hv. injection Hv as ->. reflexivity.
  - intros Hnone. exfalso. apply table_declared in Hv. destruct Hv as (dup & Hv).
    apply (Hnone v s dup); [|exact Hv]. exists w. exact Hd.
Qed.

(* The same for a directory: a variant directory's own source is what it was
   declared with. *)
Theorem C57b_dir_srcnode : forall h p,
  (forall w v s dup, innermost h p w v s dup ->
     fst (dir_srcnode p (vrun h)) = w ++ s) /\
  ((forall v s dup, below v p -> ~ declared h v s dup) ->
     fst (dir_srcnode p (vrun h)) = p).
Proof.
  intros h p. unfold dir_srcnode. destruct (srcdir (vrun h) p) as [q|] eqn:Hs.
  - pose proof Hs as Hd. apply table_declared in Hd. destruct Hd as (d0 & Hd0). cbn [fst]. split.
    + intros w v s dup (Hp & Hdec & Hmin). destruct w as [|a w].
      * cbn in Hp. subst v. cbn [app]. apply (declared_fun h p q d0 s dup Hd0 Hdec).
      * exfalso. apply (Hmin [] p q d0); [reflexivity | cbn [length]; lia | exact Hd0].
    + intros Hn. exfalso. exact (Hn p q d0 (below_refl p) Hd0).
  - pose proof (proj1 (table_none h p) Hs) as Hnp. destruct p as [|n d].
    + cbn [srcnode fst]. split; [|reflexivity].
      intros w v s dup (Hp & Hdec & _). destruct w; [|discriminate Hp]. cbn in Hp. subst v.
      exfalso. exact (Hnp _ _ Hdec).
    + destruct (C57b_srcnode h n d) as (HA & HB). split.
      * intros w v s dup (Hp & Hdec & Hmin). destruct w as [|a w].
        -- cbn in Hp. subst v. exfalso. exact (Hnp _ _ Hdec).
        -- cbn in Hp. injection Hp as <- ->. apply (HA w v s dup).
           split; [reflexivity|]. split; [exact Hdec|].
           intros w' v' s' dup' E HL. apply (Hmin (n :: w') v'); [cbn; congruence|].
           cbn [length]. lia.
      * intros Hn. apply HB. intros v s dup Hv. apply Hn.
        apply (below_trans _ d _ Hv). exists [n]. reflexivity.
Qed.

(* ------------------------------------------------------------------ *)
(* C57c: command-line targets                                         *)

Lemma vdirs_run : forall h v s,
  In v (vdirs (vrun h) s) <-> exists dup, declared h v s dup.
Proof.
  intros h. induction h as [|e h IH] using rev_ind; intros v s.
  - cbn. split; [intros [] |]. intros (dup & a & b & E & _). destruct a; discriminate E.
  - rewrite vrun_snoc.
    assert (HN : forall x, (forall a b c, e <> EVariant a b c) -> vdirs (vrun h) s = x ->
                 (In v x <-> exists dup, declared (h ++ [e]) v s dup)).
    { intros x He Hx. rewrite <- Hx, IH. split; intros (dup & Hd); exists dup.
      - apply declared_snoc. left. exact Hd.
      - apply declared_snoc in Hd. destruct Hd as [Hd | (E & _)]; [exact Hd|].
        exfalso. eapply He. exact E. }
    destruct e as [a b c|p|p|p]; cbn [vstep].
    + assert (HK : forall x, vdirs (vrun h) s = x ->
                 (is_under a b = true \/ exists o, srcdir (vrun h) a = Some o) ->
                 (In v x <-> exists dup, declared (h ++ [EVariant a b c]) v s dup)).
      { intros x Hx Hor. rewrite <- Hx, IH. split; intros (dup & Hd); exists dup.
        - apply declared_snoc. left. exact Hd.
        - apply declared_snoc in Hd. destruct Hd as [Hd | (E & Hb & Hn)]; [exact Hd|].
          exfalso. inversion E; subst. destruct Hor as [Hu | (o & Ho)].
          + apply Hb. apply is_under_below. exact Hu.
          + apply table_declared in Ho. destruct Ho as (d0 & Hd0). exact (Hn _ _ Hd0). }
      unfold variant_dir. destruct (is_under a b) eqn:Hu; [apply HK; auto|].
      destruct (srcdir (create a (create b (vrun h))) a) as [o|] eqn:Hs.
      * replace (snd _) with (create a (create b (vrun h))) by (destruct (peqb o b); reflexivity).
        apply HK; [reflexivity|]. right. exists o. exact Hs.
      * cbn [snd link vdirs create]. pose proof (proj1 (table_none h a) Hs) as Hn.
        apply is_under_not in Hu.
        destruct (peqb s b) eqn:Hb.
        -- apply peqb_eq in Hb. subst s. rewrite in_app_iff, IH. split.
           ++ intros [(dup & Hd) | [<- | []]].
              ** exists dup. apply declared_snoc. left. exact Hd.
              ** exists c. apply declared_snoc. right. auto.
           ++ intros (dup & Hd). apply declared_snoc in Hd. destruct Hd as [Hd | (E & _)].
              ** left. exists dup. exact Hd.
              ** right. left. inversion E. reflexivity.
        -- apply peqb_neq in Hb. rewrite IH. split; intros (dup & Hd); exists dup.
           ++ apply declared_snoc. left. exact Hd.
           ++ apply declared_snoc in Hd. destruct Hd as [Hd | (E & _)]; [exact Hd|]. congruence.
    + apply HN; [congruence | reflexivity].
    + apply HN; [congruence|]. rewrite (proj2 (srcnode_tab p (create p (vrun h)))). reflexivity.
    + apply HN; [congruence|]. rewrite (proj2 (dir_srcnode_tab p (create p (vrun h)))). reflexivity.
Qed.

Lemma climb_spec : forall vd start dir tail,
  match climb vd start dir tail with
  | None => exists w s bd, dir = w ++ s /\ In bd (vd s) /\ below bd start
  | Some l => (forall w s bd, dir = w ++ s -> In bd (vd s) -> ~ below bd start) /\
              (forall t, In t l <-> exists w s bd, dir = w ++ s /\ In bd (vd s) /\ t = tail ++ w ++ bd)
  end.
Proof.
  intros vd start dir. induction dir as [|n up IH]; intros tail; cbn [climb].
  - destruct (existsb (fun bd => is_under bd start) (vd [])) eqn:He.
    + apply existsb_exists in He. destruct He as (bd & Hin & Hu). exists [], [], bd.
      split; [reflexivity|]. split; [exact Hin | apply is_under_below; exact Hu].
    + split.
      * intros w s bd Hd Hin Hb. destruct w; [|discriminate Hd]. cbn in Hd. subst s.
        assert (HT : existsb (fun bd => is_under bd start) (vd []) = true).
        { apply existsb_exists. exists bd. split; [exact Hin | apply is_under_below; exact Hb]. }
        congruence.
      * intros t. rewrite in_map_iff. split.
        -- intros (bd & <- & Hin). exists [], [], bd. auto.
        -- intros (w & s & bd & Hd & Hin & ->). destruct w; [|discriminate Hd]. cbn in Hd. subst s.
           exists bd. auto.
  - destruct (existsb (fun bd => is_under bd start) (vd (n :: up))) eqn:He.
    + apply existsb_exists in He. destruct He as (bd & Hin & Hu). exists [], (n :: up), bd.
      split; [reflexivity|]. split; [exact Hin | apply is_under_below; exact Hu].
    + specialize (IH (tail ++ [n])). destruct (climb vd start up (tail ++ [n])) as [l|].
      * destruct IH as (IA & IB). split.
        -- intros w s bd Hd Hin Hb. destruct w as [|m w]; cbn in Hd.
           ++ subst s. assert (HT : existsb (fun bd => is_under bd start) (vd (n :: up)) = true).
              { apply existsb_exists. exists bd. split; [exact Hin | apply is_under_below; exact Hb]. }
              congruence.
           ++ apply (IA w s bd); [congruence | exact Hin | exact Hb].
        -- intros t. rewrite in_app_iff, in_map_iff, IB. split.
           ++ intros [(bd & <- & Hin) | (w & s & bd & Hd & Hin & ->)].
              ** exists [], (n :: up), bd. auto.
              ** exists (n :: w), s, bd. split; [cbn; congruence|]. split; [exact Hin|].
                 rewrite <- app_assoc. reflexivity.
           ++ intros (w & s & bd & Hd & Hin & ->). destruct w as [|m w]; cbn in Hd.
              ** left. exists bd. subst s. auto.
              ** right. injection Hd as <- Hd. exists w, s, bd. split; [exact Hd|]. split; [exact Hin|].
                 rewrite <- app_assoc. reflexivity.
      * destruct IH as (w & s & bd & Hd & Hin & Hb). exists (n :: w), s, bd.
        split; [cbn; congruence|]. auto.
Qed.

(* Naming a source file on the command line asks for the corresponding files
   of all the variant directories of the directories it is in, and for nothing
   else -- unless it lies in one of these variant directories itself, when it
   is taken as it is.  A target is left alone. *)
Theorem C57c_alter_targets : forall h n d,
  alter_file (n :: d) true (vrun h) = [] /\
  ((exists w s bd dup, d = w ++ s /\ declared h bd s dup /\ below bd d) ->
     alter_file (n :: d) false (vrun h) = [n :: d]) /\
  ((forall w s bd dup, d = w ++ s -> declared h bd s dup -> ~ below bd d) ->
     forall t, In t (alter_file (n :: d) false (vrun h)) <->
       exists w s bd dup, n :: d = (n :: w) ++ s /\ declared h bd s dup /\ t = (n :: w) ++ bd).
Proof.
  intros h n d. split; [reflexivity|]. cbn [alter_file].
  pose proof (climb_spec (vdirs (vrun h)) d d [n]) as HC.
  destruct (climb (vdirs (vrun h)) d d [n]) as [l|].
  - destruct HC as (HA & HB). split.
    + intros (w & s & bd & dup & Hd & Hdec & Hb). exfalso.
      apply (HA w s bd Hd); [apply vdirs_run; eauto | exact Hb].
    + intros _ t. rewrite HB. split.
      * intros (w & s & bd & Hd & Hin & ->). apply vdirs_run in Hin. destruct Hin as (dup & Hin).
        exists w, s, bd, dup. subst d. auto.
      * intros (w & s & bd & dup & Hd & Hdec & ->). exists w, s, bd.
        split; [cbn in Hd; congruence|]. split; [apply vdirs_run; eauto | reflexivity].
  - destruct HC as (w & s & bd & Hd & Hin & Hb). apply vdirs_run in Hin. destruct Hin as (dup & Hin).
    split; [reflexivity|]. intros Hno. exfalso. exact (Hno w s bd dup Hd Hin Hb).
Qed.

Theorem C57c_alter_dir_targets : forall h p,
  ((exists w s bd dup, p = w ++ s /\ declared h bd s dup /\ below bd p) ->
     alter_dir p (vrun h) = [p]) /\
  ((forall w s bd dup, p = w ++ s -> declared h bd s dup -> ~ below bd p) ->
     forall t, In t (alter_dir p (vrun h)) <->
       exists w s bd dup, p = w ++ s /\ declared h bd s dup /\ t = w ++ bd).
Proof.
  intros h p. unfold alter_dir.
  pose proof (climb_spec (vdirs (vrun h)) p p []) as HC.
  destruct (climb (vdirs (vrun h)) p p []) as [l|].
  - destruct HC as (HA & HB). split.
    + intros (w & s & bd & dup & Hd & Hdec & Hb). exfalso.
      apply (HA w s bd Hd); [apply vdirs_run; eauto | exact Hb].
    + intros _ t. rewrite HB. split.
      * intros (w & s & bd & Hd & Hin & ->). apply vdirs_run in Hin. destruct Hin as (dup & Hin).
        exists w, s, bd, dup. auto.
      * intros (w & s & bd & dup & Hd & Hdec & ->). exists w, s, bd.
        split; [exact Hd|]. split; [apply vdirs_run; eauto | reflexivity].
  - destruct HC as (w & s & bd & Hd & Hin & Hb). apply vdirs_run in Hin. destruct Hin as (dup & Hin).
    split; [reflexivity|]. intros Hno. exfalso. exact (Hno w s bd dup Hd Hin Hb).
Qed.

(* ------------------------------------------------------------------ *)
(* C57d: is a node duplicated?                                        *)

Definition flags_inv (h : list vev) (s : vst) : Prop :=
  (* what is declared has a node, nodes have their parents, and the root is there *)
  (forall v x dup, declared h v x dup -> flag s v <> None) /\
  (forall p q, flag s p <> None -> below q p -> flag s q <> None) /\
  flag s [] <> None /\
  (forall p b, flag s p = Some b ->
     (forall c, (forall v x dup, below v p -> declared h v x dup -> dup = c) ->
                (exists v x dup, below v p /\ declared h v x dup) -> b = c) /\
     ((forall v x dup, below v p -> ~ declared h v x dup) -> b = false)).

Lemma below_cons_inv : forall v n d, below v (n :: d) -> v = n :: d \/ below v d.
Proof.
  intros v n d (w & Hw). destruct w as [|m w]; cbn in Hw; [left; auto|].
  right. exists w. congruence.
Qed.

(* the attribute a new node inherits is the right one for it *)
Lemma inherit_right : forall h s p,
  flags_inv h s ->
  (forall c, (forall v x dup, below v p -> declared h v x dup -> dup = c) ->
             (exists v x dup, below v p /\ declared h v x dup) -> inherit (flag s) p = c) /\
  ((forall v x dup, below v p -> ~ declared h v x dup) -> inherit (flag s) p = false).
Proof.
  intros h s p Hinv. pose proof Hinv as (HD & HP & HR & HF).
  induction p as [|n d IH]; cbn [inherit].
  - destruct (flag s []) as [b|] eqn:Hb; [apply HF; exact Hb | congruence].
  - destruct (flag s (n :: d)) as [b|] eqn:Hb; [apply HF; exact Hb|].
    assert (HB : forall v x dup, below v (n :: d) -> declared h v x dup -> below v d).
    { intros v x dup Hv Hdec. destruct (below_cons_inv v n d Hv) as [-> | Hv']; [|exact Hv'].
      exfalso. exact (HD _ _ _ Hdec Hb). }
    destruct IH as (IA & IB). split.
    + intros c Hall (v & x & dup & Hv & Hdec). apply IA.
      * intros v' x' dup' Hv' Hdec'. apply (Hall v' x' dup'); [|exact Hdec'].
        apply (below_trans _ d _ Hv'). exists [n]. reflexivity.
      * exists v, x, dup. split; [apply (HB v x dup Hv Hdec) | exact Hdec].
    + intros Hnone. apply IB. intros v x dup Hv. apply Hnone.
      apply (below_trans _ d _ Hv). exists [n]. reflexivity.
Qed.

Lemma flags_create : forall h s p, flags_inv h s -> flags_inv h (create p s).
Proof.
  intros h s p Hinv. pose proof Hinv as (HD & HP & HR & HF).
  assert (HK : forall q, flag s q <> None -> flag (create p s) q <> None).
  { intros q Hq. cbn [create flag]. destruct (is_under q p); [|exact Hq].
    destruct (flag s q); discriminate. }
  split; [|split; [|split]].
  - intros v x dup Hdec. apply HK. apply (HD v x dup Hdec).
  - intros q r Hq Hr. destruct (flag s q) as [b|] eqn:Hb.
    + apply HK. apply (HP q r); [congruence | exact Hr].
    + cbn [create flag] in *. destruct (is_under q p) eqn:Hu; [|congruence].
      assert (Hu2 : is_under r p = true).
      { apply is_under_below. apply is_under_below in Hu. exact (below_trans _ _ _ Hr Hu). }
      rewrite Hu2. destruct (flag s r); discriminate.
  - apply HK. exact HR.
  - intros q b Hb. cbn [create flag] in Hb. destruct (is_under q p) eqn:Hu; [|apply HF; exact Hb].
    destruct (flag s q) as [b'|] eqn:Hq.
    + injection Hb as <-. apply HF. exact Hq.
    + injection Hb as <-. apply inherit_right. exact Hinv.
Qed.

Lemma flags_fold_create : forall h l s,
  flags_inv h s -> flags_inv h (fold_left (fun s p => create p s) l s).
Proof.
  intros h l. induction l as [|p l IH]; intros s H; cbn [fold_left]; [exact H|].
  apply IH. apply flags_create. exact H.
Qed.

Lemma flags_srcnode : forall h s p, flags_inv h s -> flags_inv h (snd (srcnode p s)).
Proof.
  intros h s p H. unfold srcnode. destruct p as [|n d]; cbn [snd]; [exact H|].
  assert (HL : flags_inv h (snd (srcdir_list d s))).
  { unfold srcdir_list. destruct (memo s d); cbn [snd]; [exact H|].
    apply (flags_fold_create h (srcdir_climb (srcdir s) d []) s H). }
  destruct (srcdir_list d s) as [l s']. cbn [snd] in HL.
  destruct l; cbn [snd]; [exact HL|]. apply flags_create. exact HL.
Qed.

Lemma flags_same : forall h h' s,
  (forall v x dup, declared h v x dup <-> declared h' v x dup) -> flags_inv h s -> flags_inv h' s.
Proof.
  intros h h' s He (HD & HP & HR & HF).
  split; [|split; [|split]].
  - intros v x dup Hdec. apply (HD v x dup). apply He. exact Hdec.
  - exact HP.
  - exact HR.
  - intros p b Hb. destruct (HF p b Hb) as (HA & HB). split.
    + intros c Hall (v & x & dup & Hv & Hdec). apply HA.
      * intros v' x' dup' Hv' Hdec'. apply (Hall v' x' dup' Hv'). apply He. exact Hdec'.
      * exists v, x, dup. split; [exact Hv | apply He; exact Hdec].
    + intros Hnone. apply HB. intros v x dup Hv Hdec. apply (Hnone v x dup Hv). apply He. exact Hdec.
Qed.

Lemma flags_run : forall h, flags_inv h (vrun h).
Proof.
  intros h. induction h as [|e h IH] using rev_ind.
  - split; [|split; [|split]].
    + intros v x dup (a & b & E & _). destruct a; discriminate E.
    + intros p q Hp (w & Hw). subst p. destruct w; [exact Hp|]. exfalso. apply Hp. reflexivity.
    + discriminate.
    + intros p b Hb. cbn in Hb. destruct p; [|discriminate]. injection Hb as <-. split.
      * intros c _ (v & x & dup & _ & (u & z & E & _)). destruct u; discriminate E.
      * reflexivity.
  - rewrite vrun_snoc.
    assert (HN : (forall a b c, e <> EVariant a b c) -> flags_inv (h ++ [e]) (vrun h)).
    { intros He. refine (flags_same h _ _ _ IH). intros v x dup. split.
      - intros Hd. apply declared_snoc. left. exact Hd.
      - intros Hd. apply declared_snoc in Hd. destruct Hd as [Hd | (E & _)]; [exact Hd|].
        exfalso. eapply He. exact E. }
    destruct e as [v src dup|p|p|p]; cbn [vstep].
    + assert (HC : flags_inv h (create v (create src (vrun h))))
        by (apply flags_create; apply flags_create; exact IH).
      assert (HK : (is_under v src = true \/ exists o, srcdir (vrun h) v = Some o) ->
                   flags_inv (h ++ [EVariant v src dup]) (create v (create src (vrun h)))).
      { intros Hor. refine (flags_same h _ _ _ HC). intros a x d. split.
        - intros Hd. apply declared_snoc. left. exact Hd.
        - intros Hd. apply declared_snoc in Hd. destruct Hd as [Hd | (E & Hb & Hn)]; [exact Hd|].
          exfalso. inversion E; subst. destruct Hor as [Hu | (o & Ho)].
          + apply Hb. apply is_under_below. exact Hu.
          + apply table_declared in Ho. destruct Ho as (d0 & Hd0). exact (Hn _ _ Hd0). }
      unfold variant_dir. destruct (is_under v src) eqn:Hu; [apply HK; auto|].
      destruct (srcdir (create v (create src (vrun h))) v) as [o|] eqn:Hs.
      * replace (snd _) with (create v (create src (vrun h))) by (destruct (peqb o src); reflexivity).
        apply HK. right. exists o. exact Hs.
      * cbn [snd].
        pose proof (proj1 (table_none h v) Hs) as Hnone.
        apply is_under_not in Hu.
        set (s1 := create v (create src (vrun h))) in *.
        assert (Hv1 : flag s1 v <> None).
        { subst s1. cbn [create flag].
          assert (Hvv : is_under v v = true) by (apply is_under_below; apply below_refl).
          rewrite Hvv. destruct (if is_under v src then _ else _); discriminate. }
        pose proof HC as (HD & HP & HR & HF).
        assert (HDS : forall a x d, declared (h ++ [EVariant v src dup]) a x d <->
                       declared h a x d \/ (a = v /\ x = src /\ d = dup)).
        { intros a x d. rewrite declared_snoc. split.
          - intros [H | (E & _)]; [left; exact H | right; inversion E; auto].
          - intros [H | (-> & -> & ->)]; [left; exact H | right; auto]. }
        assert (HL : forall q, flag (link v src dup s1) q <> None <-> flag s1 q <> None).
        { intros q. cbn [link flag]. destruct (peqb q v) eqn:Eq.
          - apply peqb_eq in Eq. subst q. split; [intros _; exact Hv1 | discriminate].
          - destruct (is_under v q && dup); [|reflexivity]. destruct (flag s1 q); split; congruence. }
        split; [|split; [|split]].
        -- intros a x d Hd. apply HL. apply HDS in Hd. destruct Hd as [Hd | (-> & _)]; [|exact Hv1].
           apply (HD a x d Hd).
        -- intros p q Hp Hq. apply HL. apply HL in Hp. apply (HP p q Hp Hq).
        -- apply HL. exact HR.
        -- intros p b Hb. cbn [link flag] in Hb. destruct (peqb p v) eqn:Eq.
           ++ apply peqb_eq in Eq. subst p. injection Hb as <-. split.
              ** intros c Hall _. apply (Hall v src dup (below_refl v)). apply HDS. auto.
              ** intros Hno. exfalso. apply (Hno v src dup (below_refl v)). apply HDS. auto.
           ++ destruct (is_under v p) eqn:Hup; cbn [andb] in Hb.
              ** apply is_under_below in Hup. split.
                 --- intros c Hall _. assert (Hc : dup = c) by (apply (Hall v src dup Hup); apply HDS; auto).
                     destruct dup.
                     +++ destruct (flag s1 p); [|discriminate]. injection Hb as <-. exact Hc.
                     +++ destruct (HF p b Hb) as (HA & HB).
                         destruct b; [|exact Hc]. exfalso.
                         assert (Hex : ~ (forall v' x' d', below v' p -> ~ declared h v' x' d'))
                           by (intros Hno; specialize (HB Hno); discriminate).
                         assert (Hfalse : (exists v' x' d', below v' p /\ declared h v' x' d') -> True = False).
                         { intros Hx. specialize (HA false).
                           assert (HT : true = false); [|discriminate].
                           apply HA; [|exact Hx]. intros v' x' d' Hv' Hd'. subst c.
                           apply (Hall v' x' d' Hv'). apply HDS. left. exact Hd'. }
                         apply Hex. intros v' x' d' Hv' Hd'.
                         assert (HTF : True = False) by (apply Hfalse; eauto). rewrite <- HTF. exact Logic.I.
                 --- intros Hno. exfalso. apply (Hno v src dup Hup). apply HDS. auto.
              ** apply is_under_not in Hup. destruct (HF p b Hb) as (HA & HB). split.
                 --- intros c Hall (a & x & d & Ha & Hd). apply HA.
                     +++ intros a' x' d' Ha' Hd'. apply (Hall a' x' d' Ha'). apply HDS. left. exact Hd'.
                     +++ exists a, x, d. split; [exact Ha|]. apply HDS in Hd.
                         destruct Hd as [Hd | (-> & _)]; [exact Hd | contradiction].
                 --- intros Hno. apply HB. intros a x d Ha Hd. apply (Hno a x d Ha). apply HDS. left. exact Hd.
    + apply flags_create. apply HN. congruence.
    + apply flags_srcnode. apply flags_create. apply HN. congruence.
    + unfold dir_srcnode. destruct (srcdir (create p (vrun h)) p); cbn [snd].
      * apply flags_create. apply HN. congruence.
      * apply flags_srcnode. apply flags_create. apply HN. congruence.
Qed.

(* When the variant directories a node is in were all declared with the same
   duplicate argument, that is the node's, whether it was looked up before or
   after them; in no variant directory a node is not duplicated. *)
Theorem C57d_duplicate_flag : forall h p b,
  flag (vrun h) p = Some b ->
  (forall c, (forall v s dup, below v p -> declared h v s dup -> dup = c) ->
             (exists v s dup, below v p /\ declared h v s dup) -> b = c) /\
  ((forall v s dup, below v p -> ~ declared h v s dup) -> b = false).
Proof. intros h p b Hb. apply (flags_run h). exact Hb. Qed.
