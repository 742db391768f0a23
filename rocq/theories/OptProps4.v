(* C61: histories of AddOption, SetOption and GetOption *)
From Coq Require Import Ascii String List Bool Arith Lia.
Import ListNotations. Open Scope list_scope.
From Verif Require Import NameModel OptModel OptSpec OptProps OptProps2 OptProps3.

Lemma group_items : forall B cs r its r2, group B cs r its r2 -> forall i, In i its -> exists o v, i = Given o v /\ In o B.
Proof.
  intros B cs r its r2 H. induction H as [r|o c cs r its r2 H1 H2 H3 H4 IH|o c cs k ws r v H1 H2 H3 H4 H5 H6|o c k ws r v H1 H2 H3 H4 H5]; intros i Hi; [contradiction| | |].
  - destruct Hi as [<- | Hi]; [exists o, VNone; auto | apply IH; exact Hi].
  - destruct Hi as [<- | []]. exists o, v. auto.
  - destruct Hi as [<- | []]. exists o, v. auto.
Qed.
Definition home (B L : list opt) (i : item) : Prop := match i with Given o _ => In o B | Local _ o _ => In o L | _ => True end.
Lemma line_items : forall B L ws its, line B L ws its -> Forall (home B L) its.
Proof.
  intros B L ws its H. induction H as [|ws|w r its H1 H2 IH|n r its H0 H1 H2 H3 IH|n v r its H1 H2 H3 IH|c cs r its H1 H2 H3 IH|o n r its H1 H2 H3 H4 IH|o n c r its H1 H2 H3 H4 IH|o n c w v r its H1 H2 H3 H4 H5 IH
    |o n k w ws v r its H1 H2 H3 H4 H5 H6 IH|o n k ws v r its H1 H2 H3 H4 H5 H6 IH|cs r its r2 its2 H1 H2 H3 IH|o n r its H1 H2 H3 H4 IH|o n c r its H1 H2 H3 H4 IH|o n a w v r its H1 H2 H3 H4 H5 H6 IH|o c r its H1 H2 H3 H4 IH|o c w v r its H1 H2 H3 H4 H5 H6 IH];
    try (constructor; [cbn; auto | exact IH]).
  - constructor.
  - apply Forall_forall. intros i Hi. apply in_map_iff in Hi. destruct Hi as (w & <- & _). exact Logic.I.
  - apply Forall_app. split; [|exact IH]. apply Forall_forall. intros i Hi. destruct (group_items _ _ _ _ _ H2 i Hi) as (o & v & -> & Ho). exact Ho.
Qed.
Definition mine (d : name) (i : item) : list (opt * val) := match i with Local _ o v => if word_dec (o_dest o) d then [(o, v)] else [] | _ => [] end.
Lemma tell_part : forall d (part : item -> list (opt * val)) its cur, (forall i, In i its -> part i = said i \/ (part i = [] /\ forall o v, In (o, v) (said i) -> o_act o <> AExit /\ ~ concerns d o)) ->
  tell d (occurrences its) cur = tell d (flat_map part its) cur.
Proof.
  intros d part its. unfold occurrences. induction its as [|i its IH]; intros cur H; [reflexivity|]. cbn [flat_map]. rewrite !tell_app.
  assert (IH2 : forall c, tell d (flat_map said its) c = tell d (flat_map part its) c) by (intros c; apply IH; intros j Hj; apply H; right; exact Hj).
  destruct (H i (or_introl eq_refl)) as [-> | [E Hn]].
  - destruct (tell d (said i) cur); [apply IH2 | reflexivity].
  - rewrite E. cbn [tell]. assert (Es : tell d (said i) cur = Some cur); [|rewrite Es; apply IH2]. destruct i as [o v|f o v|w|w|w]; try reflexivity; cbn [said tell]; (rewrite told_other; [reflexivity | apply (Hn o v); left; reflexivity | apply (Hn o v); left; reflexivity]).
Qed.
Lemma tell_none : forall d l cur, (forall o v, In (o, v) l -> o_act o <> AExit /\ ~ concerns d o) -> tell d l cur = Some cur.
Proof.
  intros d l cur. induction l as [|[o v] l IH]; intros H; [reflexivity|]. cbn [tell]. destruct (H o v (or_introl eq_refl)) as [H1 H2]. rewrite told_other by assumption. apply IH. intros o2 v2 Hi. apply (H o2 v2). right. exact Hi.
Qed.
Lemma in_added : forall h o, In o (added h) <-> In (OAdd o) h.
Proof.
  intros h o. unfold added. rewrite in_flat_map. split.
  - intros (c & Hc & Ho). destruct c as [o2|d v|d]; [|contradiction | contradiction]. destruct Ho as [-> | []]. exact Hc.
  - intros H. exists (OAdd o). split; [exact H | left; reflexivity].
Qed.
Lemma added_app : forall a b, added (a ++ b) = added a ++ added b.
Proof. intros. unfold added. apply flat_map_app. Qed.
Lemma may_set_rev : forall s0 hs n, may_set s0 (rev hs) n <-> may_set s0 hs n.
Proof.
  intros s0 hs n. unfold may_set. split; (intros [H|(o & H1 & H2)]; [left; exact H | right; exists o; split; [|exact H2]]); apply in_added; apply in_added in H1; [apply in_rev; exact H1 | apply in_rev in H1; exact H1].
Qed.

(* ---- SetOption ---- *)
Section SetOpt.
Variable settable0 : list name.
Variable kinds : name -> option setkind.
Notation says := (script_says settable0 kinds).
Definition sets_ (p : parser) (n : name) (d : name) : Prop := In n (settable p) /\ (d = n \/ (exists f, kinds n = Some (KRename d f)) \/ kinds n = Some (KImplies d)).
Lemma set_says : forall p hs n v p2 r, (forall d, says hs d (scr (vals p) d)) -> (forall m, In m (settable p) <-> may_set settable0 hs m) -> set_option kinds p n v = (p2, r) ->
  (forall d, says (OSet n v :: hs) d (scr (vals p2) d)) /\ table p2 = table p /\ settable p2 = settable p /\ largs p2 = largs p /\ cmd (vals p2) = cmd (vals p) /\ defs (vals p2) = defs (vals p) /\
  (forall d, ~ sets_ p n d -> scr (vals p2) d = scr (vals p) d).
Proof.
  intros p hs n v p2 r Hs Hm H. unfold set_option in H. destruct (mem n (settable p)) eqn:Em; cbn [negb] in H.
  2:{ injection H as <- <-. repeat split; auto. intros d. apply says_refused; [|apply Hs]. intros Hx. apply Hm, mem_In in Hx. congruence. }
  apply mem_In in Em. assert (M := proj1 (Hm n) Em).
  assert (Same : (forall d, says (OSet n v :: hs) d (scr (vals p) d)) -> (p2, r) = (p, RError) -> (forall d, says (OSet n v :: hs) d (scr (vals p2) d)) /\ table p2 = table p /\ settable p2 = settable p /\ largs p2 = largs p /\ cmd (vals p2) = cmd (vals p) /\ defs (vals p2) = defs (vals p) /\
    (forall d, ~ sets_ p n d -> scr (vals p2) d = scr (vals p) d)) by (intros A E; injection E as -> ->; repeat split; auto).
  assert (One : forall m w, sets_ p n m -> (forall d, says (OSet n v :: hs) d (scr (set_scr (vals p) m w) d)) -> (p2, r) = (set_vals p (set_scr (vals p) m w), RDone) ->
    (forall d, says (OSet n v :: hs) d (scr (vals p2) d)) /\ table p2 = table p /\ settable p2 = settable p /\ largs p2 = largs p /\ cmd (vals p2) = cmd (vals p) /\ defs (vals p2) = defs (vals p) /\
    (forall d, ~ sets_ p n d -> scr (vals p2) d = scr (vals p) d)).
  { intros m w Hmn A E. injection E as -> ->. cbn [vals set_vals table settable largs]. repeat split; auto. intros d Hd. cbn [scr set_scr]. apply put_other. intros ->. contradiction. }
  assert (Put : forall m w d, scr (set_scr (vals p) m w) d = if word_dec d m then Some w else scr (vals p) d).
  { intros m w d. cbn [scr set_scr]. destruct (word_dec d m) as [-> | Hn]; [apply put_same | apply put_other; exact Hn]. }
  destruct (kinds n) as [[f|d2 f| |d2]|] eqn:Ek.
  - destruct (f v) as [v2|] eqn:Ef; symmetry in H; [apply (One n v2); auto; [split; auto|] | apply Same; auto]; intros d.
    + rewrite Put. destruct (word_dec d n) as [-> | Hn]; [eapply says_conv; eassumption|]. apply says_else; auto; congruence.
    + eapply says_bad; eauto.
  - destruct (f v) as [v2|] eqn:Ef; symmetry in H; [apply (One d2 v2); auto; [split; [exact Em | right; left; exists f; exact Ek]|] | apply Same; auto]; intros d.
    + rewrite Put. destruct (word_dec d d2) as [-> | Hn]; [eapply says_rename; eassumption|]. eapply says_rename_else; eauto.
    + eapply says_bad; eauto.
  - assert (Other : forall d, d <> n -> says (OSet n v :: hs) d (scr (vals p) d)) by (intros d Hd; apply says_else; auto; congruence).
    set (a := match scr (vals p) n with None => Some [] | Some (VList l) => Some l | Some _ => None end) in H. set (b := match v with VStr _ => Some [v] | VList l => Some l | _ => None end) in H.
    destruct a as [la|] eqn:Ea; [destruct b as [lb|] eqn:Eb|].
    + symmetry in H. apply (One n (VList (la ++ lb))); auto; [split; auto|]. intros d. rewrite Put. destruct (word_dec d n) as [-> | Hn]; [|apply Other; exact Hn].
      eapply says_add; [exact M | exact Ek | | apply Hs |].
      * unfold b in Eb. destruct v as [|bb|nn|w|l]; try discriminate; injection Eb as <-; [right; exists w; auto | left; reflexivity].
      * unfold a in Ea. destruct (scr (vals p) n) as [[|bb|nn|w|l]|]; try discriminate; injection Ea as <-; auto.
    + symmetry in H. apply Same; [|exact H]. intros d. destruct (word_dec d n) as [-> | Hn]; [|apply Other; exact Hn]. apply says_add_bad; auto. left. unfold b in Eb. split; intros x ->; discriminate.
    + symmetry in H. apply Same; [|destruct b; exact H]. intros d. destruct (word_dec d n) as [-> | Hn]; [|apply Other; exact Hn]. apply says_add_bad; auto. right. unfold a in Ea. destruct (scr (vals p) n) as [v0|]; [|discriminate].
      exists v0. split; [reflexivity|]. intros l ->. discriminate.
  - cbv zeta in H. injection H as <- <-. cbn [vals set_vals table settable largs]. assert (Esc : forall vs m w, scr (set_scr vs m w) = put (scr vs) m w) by reflexivity. destruct (truthy v) eqn:Et; repeat split; auto; intros d; rewrite ?Esc.
    + destruct (word_dec d n) as [-> | Hn]; [rewrite put_same; eapply says_implies; eassumption|]. rewrite put_other by assumption. destruct (word_dec d d2) as [-> | Hn2].
      * rewrite put_same. eapply says_implied; eassumption.
      * rewrite put_other by assumption. apply says_else; auto; congruence.
    + intros Hd. rewrite !put_other; [reflexivity | |]; intros ->; apply Hd; split; auto.
    + destruct (word_dec d n) as [-> | Hn]; [rewrite put_same; eapply says_implies; eassumption|]. rewrite put_other by assumption. destruct (word_dec d d2) as [-> | Hn2].
      * eapply says_not_implied; eauto.
      * apply says_else; auto; congruence.
    + intros Hd. rewrite put_other; [reflexivity|]. intros ->. apply Hd. split; auto.
  - symmetry in H. apply (One n v); auto; [split; auto|]. intros d. rewrite Put. destruct (word_dec d n) as [-> | Hn]; [apply says_set; assumption|]. apply says_else; auto; congruence.
Qed.
End SetOpt.
