(* Rebuild-decision properties C12-C15.  Vocabulary in DecSpec.v. *)
From Coq Require Import List Arith ZArith Bool Lia.
Import ListNotations.
From Verif Require Import DecModel DecSpec DecProofs.

(* C13.  Content decider: a target is up to date if and only if it exists, the recorded signatures are, one by
   one, those of the current contents of its current dependencies, and the recorded action is the
   current one.  So any difference (number of dependencies, a content, the action, a missing
   target) forces a rebuild. *)
Theorem C13_up_to_date_iff : forall N w bi st t,
  timestamps_honest w -> computed_ok w st ->
  (fst (is_up_to_date N w bi None content_decider st t) = true <->
     w_exists w (t_node t) = true
     /\ map ni_csig (recorded bi) = map (fun n => Some (w_hash w n)) (children t)
     /\ (t_builder t = true -> bactsig bi = Some (t_action t))).
Proof.
  intros N w bi st t Hw Hs. unfold is_up_to_date.
  destruct (changed_content_spec N w bi t st Hw Hs) as (b & st' & E & _ & _ & _ & I). rewrite E.
  destruct (w_exists w (t_node t)); cbn [fst].
  - rewrite negb_true_iff, I. tauto.
  - split; [discriminate | intros [H _]; discriminate].
Qed.
Print Assumptions C13_up_to_date_iff.

(* C13b.  A target that exists nowhere is out of date whatever the decider and the stored information. *)
Theorem C13b_missing_is_out_of_date : forall N w bi dec st t,
  w_exists w (t_node t) = false -> fst (is_up_to_date N w bi None dec st t) = false.
Proof. intros N w bi dec st t H. unfold is_up_to_date. rewrite H. reflexivity. Qed.
Print Assumptions C13b_missing_is_out_of_date.

(* C13c.  A target found only in a repository is up to date exactly when the information stored in the
   repository matches. *)
Theorem C13c_repository : forall N w bi rbi st t,
  timestamps_honest w -> computed_ok w st -> w_exists w (t_node t) = false ->
  (fst (is_up_to_date N w bi (Some rbi) content_decider st t) = true <->
     map ni_csig (recorded rbi) = map (fun n => Some (w_hash w n)) (children t)
     /\ (t_builder t = true -> bactsig rbi = Some (t_action t))).
Proof.
  intros N w bi rbi st t Hw Hs H. unfold is_up_to_date. rewrite H.
  destruct (changed_content_spec N w rbi t st Hw Hs) as (b & st' & E & _ & _ & _ & I). rewrite E, <- I.
  destruct b; cbn [fst]; split; congruence.
Qed.
Print Assumptions C13c_repository.

(* C12.  First run: the target's dependencies were examined (content decider) in world w1, then the database was
   saved.  Second run: contents and description unchanged.  Then the target is up to date. *)
Theorem C12_null_build : forall N w1 bi0 st0 stf w2 st2 t,
  target_wf t -> ignore_not_depends t ->
  timestamps_honest w1 -> computed_ok w1 st0 -> keeps (snd (changed N w1 bi0 content_decider st0 t)) stf ->
  timestamps_honest w2 -> computed_ok w2 st2 -> w_exists w2 (t_node t) = true ->
  (forall n, In n (children t) -> w_hash w2 n = w_hash w1 n) ->
  fst (is_up_to_date N w2 (saved N t stf) None content_decider st2 t) = true.
Proof.
  intros N w1 bi0 st0 stf w2 st2 t W Ig H1 S1 K H2 S2 Ex Same.
  apply C13_up_to_date_iff; [exact H2 | exact S2|]. split; [exact Ex|]. split.
  - rewrite (recorded_saved N t stf W Ig), map_map.
    destruct (changed_content_spec N w1 bi0 t st0 H1 S1) as (b & st' & E & _ & _ & A & _). rewrite E in K. cbn in K.
    apply map_ext_in. intros n Hn. rewrite (Same n Hn). apply K, A, Hn.
  - intros B. rewrite act_saved, B. reflexivity.
Qed.
Print Assumptions C12_null_build.

(* ---- MD5-timestamp decider ---- *)
Lemma changed_md5_one N w t0 st0 st n : names_ok N -> target_wf t0 -> ignore_not_depends t0 -> timestamps_honest w ->
  let prev := if mem n (children t0) then Some (st0 n) else None in
  (forall m s, changed_timestamp_match w m (if mem m (children t0) then Some (st0 m) else None) = true -> ni_csig (st m) = Some s -> s = w_hash w m) ->
  exists b st', changed_timestamp_then_content N w (saved N t0 st0) st n = (b, st')
    /\ (forall m s, changed_timestamp_match w m (if mem m (children t0) then Some (st0 m) else None) = true -> ni_csig (st' m) = Some s -> s = w_hash w m)
    /\ (b = false <-> In n (children t0) /\ (ni_ts (st0 n) = Some (w_mtime w n) \/ ni_csig (st0 n) = Some (w_hash w n))).
Proof.
  intros O W I Hw prev P.
  assert (Csig : changed_timestamp_match w n prev = true -> exists st', get_csig w st n = (w_hash w n, st')
     /\ (forall m s, changed_timestamp_match w m (if mem m (children t0) then Some (st0 m) else None) = true -> ni_csig (st' m) = Some s -> s = w_hash w m)).
  { intros Q. unfold get_csig. destruct (ni_csig (st n)) as [s|] eqn:E; [rewrite (P n s Q E); eauto|].
    assert (R : match max_drift_csig w n with 0 => w_hash w n | S m => S m end = w_hash w n).
    { destruct (max_drift_honest w n Hw) as [->|R]; [reflexivity|]. destruct (max_drift_csig w n); auto. }
    rewrite R. eexists; split; [reflexivity|]. intros m s Hm. unfold upd. destruct (m =? n) eqn:Em; [|apply P; exact Hm].
    apply Nat.eqb_eq in Em. subst. cbn. congruence. }
  assert (Cc : changed_timestamp_match w n prev = true -> exists b st', changed_content w st n prev = (b, st')
    /\ (forall m s, changed_timestamp_match w m (if mem m (children t0) then Some (st0 m) else None) = true -> ni_csig (st' m) = Some s -> s = w_hash w m)
    /\ (b = false <-> In n (children t0) /\ (ni_ts (st0 n) = Some (w_mtime w n) \/ ni_csig (st0 n) = Some (w_hash w n)))).
  { intros Q. unfold changed_content. destruct (Csig Q) as (st' & E & P'). rewrite E. eexists; exists st'. split; [reflexivity|]. split; [exact P'|].
    unfold prev in *. destruct (mem n (children t0)) eqn:M.
    - apply mem_in in M. unfold changed_timestamp_match in Q. destruct (st0 n) as [c ts]; cbn [ni_csig ni_ts] in *.
      assert (T : ts <> Some (w_mtime w n)) by (intros ->; rewrite Nat.eqb_refl in Q; discriminate).
      destruct c as [c|]; [destruct (w_hash w n =? c) eqn:X; [apply Nat.eqb_eq in X; subst|apply Nat.eqb_neq in X]|]; cbn; split; try discriminate; auto;
      intros [_ [?|Y]]; try contradiction; try discriminate. injection Y as ->. contradiction.
    - apply mem_nin in M. split; [discriminate | tauto]. }
  unfold changed_timestamp_then_content. rewrite (previous_saved N t0 st0 n W I O). fold prev.
  destruct (dependency_map (saved N t0 st0)) as [|e d] eqn:Ed.
  - rewrite (dmap_saved N t0 st0 W I) in Ed. apply map_eq_nil in Ed.
    assert (Q : changed_timestamp_match w n prev = true) by (unfold prev; rewrite Ed; reflexivity).
    destruct (Csig Q) as (st' & E & P'). rewrite E. cbn. eexists; exists st'. split; [reflexivity|]. split; [exact P'|]. rewrite Ed. cbn. split; [discriminate | tauto].
  - destruct (changed_timestamp_match w n prev) eqn:Q; [apply Cc; reflexivity|].
    eexists; eexists; split; [reflexivity|]. unfold prev in *. destruct (mem n (children t0)) eqn:M; [|discriminate]. apply mem_in in M.
    split.
    + destruct (ni_csig (st0 n)) as [c|]; [|exact P]. intros m s Hm. unfold upd. destruct (m =? n) eqn:Em; [|apply P; exact Hm].
      apply Nat.eqb_eq in Em. subst. rewrite (proj2 (mem_in n (children t0)) M) in Hm. congruence.
    + split; [|reflexivity]. intros _. split; [exact M|]. left. unfold changed_timestamp_match in Q. destruct (ni_ts (st0 n)) as [ts|]; [|discriminate].
      apply negb_false_iff, Nat.eqb_eq in Q. congruence.
Qed.

Lemma loop_md5 N w t0 st0 t : names_ok N -> target_wf t0 -> ignore_not_depends t0 -> timestamps_honest w ->
  forall cs ps st r, length cs = length ps ->
  (forall m s, changed_timestamp_match w m (if mem m (children t0) then Some (st0 m) else None) = true -> ni_csig (st m) = Some s -> s = w_hash w m) ->
  (fst (changed_loop N w (saved N t0 st0) t md5_timestamp_decider st cs ps r) = false <->
    r = false /\ forall n, In n cs -> In n (children t0) /\ (ni_ts (st0 n) = Some (w_mtime w n) \/ ni_csig (st0 n) = Some (w_hash w n))).
Proof.
  intros O W I Hw. induction cs as [|c cs IH]; intros [|p ps] st r L P; cbn in L; try lia.
  - cbn. split; [intros ->; split; [reflexivity | intros n []] | intros [H _]; exact H].
  - cbn [changed_loop decide md5_timestamp_decider].
    destruct (changed_md5_one N w t0 st0 st c O W I Hw P) as (b & st' & E & P' & B). rewrite E. rewrite IH; [|lia | exact P'].
    rewrite orb_false_iff, B. split.
    + intros ((A1 & A2) & A3). split; [exact A1|]. intros n [<-|Hn]; [exact A2 | apply A3; exact Hn].
    + intros (A1 & A3). split; [split; [exact A1 | apply A3; left; reflexivity] | intros n Hn; apply A3; right; exact Hn].
Qed.

(* C13d.  MD5-timestamp decider: with the information saved for the previous description t0 of the target, the
   target is up to date if and only if it exists, the number of dependencies is the same, the action is the
   same, and every current dependency was one before and has its recorded timestamp or its recorded content. *)
Theorem C13d_md5_timestamp_iff : forall N w t0 st0 t,
  names_ok N -> target_wf t0 -> ignore_not_depends t0 -> timestamps_honest w ->
  (fst (is_up_to_date N w (saved N t0 st0) None md5_timestamp_decider (fun _ => empty_ninfo) t) = true <->
     w_exists w (t_node t) = true /\ length (children t) = length (children t0)
     /\ (t_builder t = true -> t_builder t0 = true /\ t_action t0 = t_action t)
     /\ forall n, In n (children t) -> In n (children t0)
          /\ (ni_ts (st0 n) = Some (w_mtime w n) \/ ni_csig (st0 n) = Some (w_hash w n))).
Proof.
  intros N w t0 st0 t O W I Hw. unfold is_up_to_date.
  destruct (w_exists w (t_node t)); [|cbn [fst]; split; [discriminate | intros [H _]; discriminate]].
  unfold changed. change (bsourcesigs (saved N t0 st0) ++ bdependsigs (saved N t0 st0) ++ bimplicitsigs (saved N t0 st0)) with (recorded (saved N t0 st0)).
  rewrite (recorded_saved N t0 st0 W I). rewrite !map_length.
  set (ps := map Some (map st0 (children t0)) ++ repeat None (length (children t) - length (children t0))).
  destruct (length (children t) =? length (children t0)) eqn:L.
  - apply Nat.eqb_eq in L.
    pose proof (loop_md5 N w t0 st0 t O W I Hw (children t) ps (fun _ => empty_ninfo) false) as X.
    assert (Lp : length (children t) = length ps) by (unfold ps; rewrite app_length, !map_length, repeat_length; lia).
    specialize (X Lp). assert (P0 : forall m s, changed_timestamp_match w m (if mem m (children t0) then Some (st0 m) else None) = true -> ni_csig empty_ninfo = Some s -> s = w_hash w m) by (cbn; discriminate).
    specialize (X P0). cbn [negb]. destruct (changed_loop N w (saved N t0 st0) t md5_timestamp_decider (fun _ => empty_ninfo) (children t) ps false) as [r st'].
    cbn [fst] in *. rewrite negb_true_iff, act_saved.
    assert (Y : (if t_builder t then r || match (if t_builder t0 then Some (t_action t0) else None) with Some s => negb (s =? t_action t) | None => true end else r) = false
                <-> r = false /\ (t_builder t = true -> t_builder t0 = true /\ t_action t0 = t_action t)).
    { destruct (t_builder t); [rewrite orb_false_iff|split; [intros ->; split; [reflexivity | discriminate] | tauto]].
      destruct (t_builder t0); [rewrite negb_false_iff, Nat.eqb_eq|]; split; intros [A B]; split; auto; try discriminate; [apply B; reflexivity | destruct (B eq_refl); discriminate]. }
    rewrite Y, X. tauto.
  - apply Nat.eqb_neq in L. split; [|intros (_ & Q & _); contradiction]. cbn [negb].
    assert (T : forall cs ps st, fst (changed_loop N w (saved N t0 st0) t md5_timestamp_decider st cs ps true) = true).
    { induction cs as [|c cs IH]; intros [|p qs] st; try reflexivity. cbn [changed_loop]. destruct (decide _ _ _ _ _ _ _ _). apply IH. }
    specialize (T (children t) ps (fun _ => empty_ninfo)). destruct (changed_loop _ _ _ _ _ _ _ _ _) as [r st']. cbn [fst] in *. subst r.
    cbn [orb]. destruct (t_builder t); discriminate.
Qed.
Print Assumptions C13d_md5_timestamp_iff.

(* C12b.  MD5-timestamp decider: nothing touched (or touched without changing the content) means nothing to rebuild. *)
Theorem C12b_null_build_md5_timestamp : forall N w2 st0 t,
  names_ok N -> target_wf t -> ignore_not_depends t -> timestamps_honest w2 -> w_exists w2 (t_node t) = true ->
  (forall n, In n (children t) -> ni_ts (st0 n) = Some (w_mtime w2 n) \/ ni_csig (st0 n) = Some (w_hash w2 n)) ->
  fst (is_up_to_date N w2 (saved N t st0) None md5_timestamp_decider (fun _ => empty_ninfo) t) = true.
Proof. intros N w2 st0 t O W I Hw Ex H. apply C13d_md5_timestamp_iff; auto. split; [exact Ex|]. split; [reflexivity|]. split; [auto|]. intros n Hn. split; [exact Hn | apply H; exact Hn]. Qed.
Print Assumptions C12b_null_build_md5_timestamp.

(* C14.  Whatever the current description of the target, the recorded signature used for dependency n is the
   one that was recorded for n, and none if n was not a dependency. *)
Theorem C14_same_dependency : forall N t0 st0 n,
  names_ok N -> target_wf t0 -> ignore_not_depends t0 ->
  previous_signatures N (dependency_map (saved N t0 st0)) n = (if mem n (children t0) then Some (st0 n) else None).
Proof. intros N t0 st0 n O W I. apply previous_saved; assumption. Qed.
Print Assumptions C14_same_dependency.

(* C14b.  The same when the stored dependency names have been turned into Nodes (prepare_dependencies), for
   dependencies whose own entry is present. *)
Lemma dget_knode (st : node -> ninfo) n l : In n l -> dget (map (fun n => (KNode n, st n)) l) (KNode n) = Some (st n).
Proof.
  induction l as [|x l IH]; intros H; [destruct H|]. cbn [map dget]. destruct (in_dec Nat.eq_dec n l) as [Hl|Hl]; [rewrite (IH Hl); reflexivity|].
  assert (Q : dget (map (fun n => (KNode n, st n)) l) (KNode n) = None). { clear -Hl. induction l as [|x l IH]; [reflexivity|]. cbn. rewrite IH; [|intros Q; apply Hl; right; exact Q]. destruct (n =? x) eqn:E; [|reflexivity]. apply Nat.eqb_eq in E. subst. elim Hl; left; reflexivity. }
  rewrite Q. destruct H as [->|H]; [|contradiction]. cbn [key_eqb]. rewrite Nat.eqb_refl. reflexivity.
Qed.
Theorem C14b_same_dependency_nodes : forall N t0 st0 n,
  target_wf t0 -> ignore_not_depends t0 -> In n (children t0) ->
  previous_signatures N (dependency_map (get_binfo t0 st0)) n = Some (st0 n).
Proof.
  intros N t0 st0 n W I H.
  assert (Q : dependency_map (get_binfo t0 st0) = map (fun n => (KNode n, st0 n)) (children t0)).
  { unfold dependency_map, get_binfo. cbn [bsourcesigs bdependsigs bimplicitsigs bsources bdepends bimplicit]. rewrite (binfo_sources t0 W), (depends_kept t0 I).
    assert (G : forall l, combine (map KNode l) (map st0 l) = map (fun n => (KNode n, st0 n)) l) by (induction l as [|x l IH]; cbn; [reflexivity | rewrite IH; reflexivity]).
    pose proof (children_split t0) as C. rewrite (depends_kept t0 I) in C. rewrite <- !map_app, <- C. destruct (children t0) as [|c l]; [reflexivity|]. apply (G (c :: l)). }
  rewrite Q. unfold previous_signatures. destruct (children t0) as [|c l] eqn:E; [destruct H|]. cbn [map]. cbv iota. change ((KNode c, st0 c) :: map (fun n => (KNode n, st0 n)) l) with (map (fun n => (KNode n, st0 n)) (c :: l)).
  rewrite (dget_knode st0 n (c :: l) H). reflexivity.
Qed.
Print Assumptions C14b_same_dependency_nodes.

(* C14 is false when an explicit dependency is also ignored: line 1218 of Node/__init__.py records
   signatures for ignored explicit dependencies, and they are then paired with the wrong names. *)
Theorem C14_ignored_depends_refuted : exists N t0 st0 n,
  names_ok N /\ target_wf t0 /\ In n (children t0) /\ previous_signatures N (dependency_map (saved N t0 st0)) n <> Some (st0 n).
Proof.
  exists {| n_str := fun n => n; n_path := fun n => n; n_rfile := fun n => n |},
    {| t_node := 0; t_sources := [1]; t_specific := true; t_batch := []; t_depends := [2]; t_implicit := [3]; t_ignore := [2]; t_builder := true; t_action := 7 |},
    (fun n => NI (Some (10 + n)) (Some n)), 3.
  split; [split; auto|]. split; [split; [repeat constructor; cbn; tauto | split; [intros n [] | discriminate]]|]. split; [cbn; auto | vm_compute; discriminate].
Qed.
Print Assumptions C14_ignored_depends_refuted.

(* C15.  The state on disk of ignored dependencies does not influence the decision, whatever the deciders. *)
Theorem C15_ignored_state_irrelevant : forall N w w' bi repo dec st t,
  (forall n, n = t_node t \/ ~ In n (t_ignore t) -> w_exists w n = w_exists w' n /\ w_mtime w n = w_mtime w' n /\ w_hash w n = w_hash w' n /\ w_stored w n = w_stored w' n) ->
  w_now w = w_now w' -> w_drift w = w_drift w' ->
  is_up_to_date N w bi repo dec st t = is_up_to_date N w' bi repo dec st t.
Proof.
  intros N w w' bi repo dec st t A Nw Dr.
  assert (Hd : forall b d st n p, ~ In n (t_ignore t) -> decide N w b t d st n p = decide N w' b t d st n p).
  { intros b d s n p Hn. destruct (A n (or_intror Hn)) as (_ & M & H & Sd). destruct (A (t_node t) (or_introl eq_refl)) as (_ & Mt & _ & _).
    assert (G : get_csig w s n = get_csig w' s n) by (unfold get_csig, max_drift_csig; rewrite M, H, Sd, Nw, Dr; reflexivity).
    assert (C : forall p, changed_content w s n p = changed_content w' s n p) by (intros q; unfold changed_content; rewrite G; reflexivity).
    destruct d; cbn [decide]; [apply C | rewrite M, Mt; reflexivity | unfold changed_timestamp_match; rewrite M; reflexivity|].
    unfold changed_timestamp_then_content, changed_timestamp_match. rewrite M, G, C. reflexivity. }
  assert (Hl : forall b cs ps st r, (forall n, In n cs -> ~ In n (t_ignore t)) -> changed_loop N w b t dec st cs ps r = changed_loop N w' b t dec st cs ps r).
  { intros b. induction cs as [|c cs IH]; intros [|p ps] s r H; try reflexivity. cbn [changed_loop]. rewrite (Hd b (dec c) s c p) by (apply H; left; reflexivity).
    destruct (decide N w' b t (dec c) s c p) as [rr s2]. apply IH. intros k Hk; apply H; right; exact Hk. }
  assert (Hc : forall b s, changed N w b dec s t = changed N w' b dec s t).
  { intros b s. unfold changed. rewrite Hl; [reflexivity|]. intros n Hn. unfold children, not_ignored in Hn. apply filter_In in Hn. destruct Hn as [_ Hn].
    apply negb_true_iff, mem_nin in Hn. exact Hn. }
  unfold is_up_to_date. rewrite (proj1 (A (t_node t) (or_introl eq_refl))), !Hc. destruct repo as [rb|]; [rewrite Hc; destruct (changed N w' rb dec st t); rewrite Hc|]; reflexivity.
Qed.
Print Assumptions C15_ignored_state_irrelevant.

Lemma filter_filter {A} (f g : A -> bool) l : filter f (filter g l) = filter (fun x => g x && f x) l.
Proof. induction l as [|x l IH]; cbn; [reflexivity|]. destruct (g x); cbn; [destruct (f x)|]; rewrite IH; reflexivity. Qed.
Lemma without_kept x t l : In x (t_ignore t) -> not_ignored (without x t) (filter (fun n => negb (n =? x)) l) = not_ignored t l.
Proof.
  intros Hx. unfold not_ignored. rewrite filter_filter. apply filter_ext. intros n. cbn [without t_ignore].
  destruct (n =? x) eqn:E; cbn.
  - apply Nat.eqb_eq in E. subst. rewrite (proj2 (mem_in x _) Hx). reflexivity.
  - f_equal. destruct (mem n (t_ignore t)) eqn:M.
    + apply mem_in in M. apply mem_in, filter_In. rewrite E. auto.
    + apply mem_nin in M. apply mem_nin. rewrite filter_In. tauto.
Qed.

(* C15b.  Ignoring a dependency is the same as not having it: the decision is unchanged if the ignored node
   is removed from the description, and so is the information saved for the next run, unless the
   ignored node is an explicit dependency. *)
Theorem C15b_ignored_like_absent : forall N w bi repo dec st t x, In x (t_ignore t) ->
  is_up_to_date N w bi repo dec st t = is_up_to_date N w bi repo dec st (without x t)
  /\ (~ In x (t_depends t) -> forall stf, saved N t stf = saved N (without x t) stf).
Proof.
  intros N w bi repo dec st t x Hx.
  assert (C : children (without x t) = children t).
  { unfold children. cbn [without t_sources t_depends t_implicit]. rewrite <- !filter_app. apply (without_kept x t _ Hx). }
  assert (L : forall b cs ps s r, changed_loop N w b (without x t) dec s cs ps r = changed_loop N w b t dec s cs ps r).
  { intros b. induction cs as [|c cs IH]; intros [|p ps] s r; try reflexivity. cbn [changed_loop].
    assert (decide N w b (without x t) (dec c) s c p = decide N w b t (dec c) s c p) as -> by (destruct (dec c); reflexivity).
    destruct (decide N w b t (dec c) s c p). apply IH. }
  assert (Hc : forall b s, changed N w b dec s (without x t) = changed N w b dec s t) by (intros b s; unfold changed; rewrite C, L; reflexivity).
  split.
  - unfold is_up_to_date. cbn [without t_node]. rewrite !Hc. destruct repo as [rb|]; [rewrite Hc; destruct (changed N w rb dec st t); rewrite Hc|]; reflexivity.
  - intros Nx stf. unfold saved, get_binfo. cbn [without t_sources t_specific t_batch t_depends t_implicit t_builder t_action].
    assert (Dp : filter (fun n => negb (n =? x)) (t_depends t) = t_depends t).
    { clear - Nx. induction (t_depends t) as [|y l IH]; [reflexivity|]. cbn. destruct (y =? x) eqn:E; [apply Nat.eqb_eq in E; subst; elim Nx; left; reflexivity|].
      cbn. f_equal. apply IH. intros H; apply Nx; right; exact H. }
    assert (S1 : not_ignored (without x t) (if t_specific t then filter (fun n => negb (n =? x)) (t_sources t) else filter (fun n => negb (n =? x)) (t_batch t))
       = not_ignored t (if t_specific t then t_sources t else t_batch t)) by (destruct (t_specific t); apply without_kept; exact Hx).
    rewrite S1. rewrite (without_kept x t (t_implicit t) Hx). rewrite (without_kept x t (t_depends t) Hx). rewrite Dp. reflexivity.
Qed.
Print Assumptions C15b_ignored_like_absent.

(* C12 and C15 are false when an explicit dependency is also ignored (Depends and Ignore on the same node):
   such a target is never up to date, whatever is on disk. *)
Theorem C15_ignored_depends_refuted : forall N t, target_wf t -> (exists x, In x (t_depends t) /\ In x (t_ignore t)) ->
  forall w st0 dec st, fst (is_up_to_date N w (saved N t st0) None dec st t) = false.
Proof.
  intros N t W (x & H1 & H2) w st0 dec st. unfold is_up_to_date. destruct (w_exists w (t_node t)); [|reflexivity].
  unfold changed. cbn [saved convert_to_sconsign get_binfo bsourcesigs bdependsigs bimplicitsigs]. rewrite (binfo_sources t W).
  assert (Lt : length (not_ignored t (t_depends t)) < length (t_depends t)).
  { clear - H1 H2. unfold not_ignored. induction (t_depends t) as [|y l IH]; [elim H1|]. cbn. destruct H1 as [->|H1].
    - rewrite (proj2 (mem_in x _) H2). cbn. clear. induction l as [|y l IH]; cbn; [lia|]. destruct (negb _); cbn; lia.
    - destruct (negb (mem y (t_ignore t))); cbn; specialize (IH H1); lia. }
  assert (L : (length (children t) =? length (map Some (map st0 (not_ignored t (t_sources t)) ++ map st0 (t_depends t) ++ map st0 (not_ignored t (t_implicit t))))) = false).
  { apply Nat.eqb_neq. rewrite map_length, !app_length, !map_length, children_split, !app_length. lia. }
  rewrite L. cbn [negb].
  assert (T : forall b cs ps s, fst (changed_loop N w b t dec s cs ps true) = true).
  { intros b. induction cs as [|c cs IH]; intros [|p qs] s; try reflexivity. cbn [changed_loop]. destruct (decide _ _ _ _ _ _ _ _). apply IH. }
  match goal with |- context [changed_loop ?a ?b ?d ?e ?f ?g ?h ?i true] => specialize (T d h i g); destruct (changed_loop a b d e f g h i true) as [r s'] end.
  cbn [fst] in *. subst r. destruct (t_builder t); reflexivity.
Qed.
Print Assumptions C15_ignored_depends_refuted.

Section Witness.
(* object file 0 from source 1, header 3 found by scanning, 4 an ignored header, explicit dependency 2 *)
Definition wt : target :=
  {| t_node := 0; t_sources := [1]; t_specific := false; t_batch := [1; 1]; t_depends := [2]; t_implicit := [3; 4]; t_ignore := [4]; t_builder := true; t_action := 7 |}.
Definition wN : names := {| n_str := fun n => n; n_path := fun n => n; n_rfile := fun n => n |}.
Definition ww : world := {| w_exists := fun _ => true; w_mtime := fun n => 100 + n; w_hash := fun n => 50 + n; w_now := 500; w_drift := 30%Z;
                            w_stored := fun n => if n =? 3 then NI (Some 53) (Some 103) else empty_ninfo |}.
Lemma wt_wf : target_wf wt.
Proof. split; [repeat constructor; cbn; tauto|]. split; [intros n [<-|[<-|[]]]; cbn; auto | reflexivity]. Qed.
Lemma wt_ig : ignore_not_depends wt. Proof. intros n [<-|[]] [H|[]]; discriminate. Qed.
Lemma ww_honest : timestamps_honest ww.
Proof. split; [discriminate|]. intros _ n c t. cbn. destruct (n =? 3) eqn:E; [|discriminate]. apply Nat.eqb_eq in E. subst. intros H. injection H as <- <-. reflexivity. Qed.
Example C12_witness : fst (is_up_to_date wN ww empty_binfo None content_decider (fun _ => empty_ninfo) wt) = false
  /\ fst (is_up_to_date wN ww (saved wN wt (snd (changed wN ww empty_binfo content_decider (fun _ => empty_ninfo) wt))) None content_decider (fun _ => empty_ninfo) wt) = true
  /\ target_wf wt /\ ignore_not_depends wt /\ timestamps_honest ww /\ computed_ok ww (fun _ => empty_ninfo) /\ names_ok wN.
Proof. split; [reflexivity|]. split; [reflexivity|]. split; [apply wt_wf|]. split; [apply wt_ig|]. split; [apply ww_honest|]. split; [intros n s; discriminate | split; auto]. Qed.
(* reordered description, header touched but unchanged, source edited: the MD5-timestamp decider rebuilds because of the source only *)
Definition wt' : target :=
  {| t_node := 0; t_sources := [1]; t_specific := false; t_batch := [1]; t_depends := [3]; t_implicit := [2]; t_ignore := []; t_builder := true; t_action := 7 |}.
Definition wst (n : node) : ninfo := NI (Some (50 + n)) (Some (90 + n)).
Example C13d_witness : fst (is_up_to_date wN ww (saved wN wt wst) None md5_timestamp_decider (fun _ => empty_ninfo) wt') = true
  /\ fst (is_up_to_date wN {| w_exists := w_exists ww; w_mtime := w_mtime ww; w_hash := fun n => if n =? 1 then 99 else w_hash ww n; w_now := 500; w_drift := 30%Z; w_stored := w_stored ww |}
        (saved wN wt wst) None md5_timestamp_decider (fun _ => empty_ninfo) wt') = false.
Proof. split; reflexivity. Qed.
Example C15_witness : In 4 (t_ignore wt) /\ ~ In 4 (t_depends wt) /\ children (without 4 wt) = [1; 2; 3].
Proof. split; [cbn; auto|]. split; [cbn; intros [H|[]]; discriminate | reflexivity]. Qed.
Example C15_refuted_witness : target_wf {| t_node := 0; t_sources := [1]; t_specific := true; t_batch := []; t_depends := [2]; t_implicit := []; t_ignore := [2]; t_builder := true; t_action := 7 |}.
Proof. split; [repeat constructor; cbn; tauto | split; [intros n [] | discriminate]]. Qed.
End Witness.
