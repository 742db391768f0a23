(* Lemmas about the rebuild decision. *)
From Coq Require Import List Arith ZArith Bool Lia.
Import ListNotations.
From Verif Require Import DecModel DecSpec.

Lemma mem_in n l : mem n l = true <-> In n l.
Proof. unfold mem. rewrite existsb_exists. split; [intros (x & H & E); apply Nat.eqb_eq in E; subst; auto | intros H; exists n; rewrite Nat.eqb_refl; auto]. Qed.
Lemma mem_nin n l : mem n l = false <-> ~ In n l.
Proof. rewrite <- mem_in. destruct (mem n l); split; congruence. Qed.

Lemma max_drift_honest w n : timestamps_honest w -> max_drift_csig w n = 0 \/ max_drift_csig w n = w_hash w n.
Proof.
  intros [D H]. unfold max_drift_csig. destruct (0 <? w_drift w)%Z eqn:Ep; [apply Z.ltb_lt in Ep; specialize (H Ep)|].
  - destruct (w_drift w <? Z.of_nat (w_now w) - Z.of_nat (w_mtime w n))%Z; [|auto]. destruct (w_stored w n) as [c t] eqn:E; cbn [ni_ts ni_csig].
    destruct t as [[|t]|]; [auto | | auto]. destruct c as [[|c]|]; [auto | | auto].
    destruct (S t =? w_mtime w n) eqn:Q; [|auto]. apply Nat.eqb_eq in Q. right. apply (H n (S c) (S t) E Q).
  - destruct (w_drift w =? 0)%Z eqn:Q; auto. apply Z.eqb_eq in Q. contradiction.
Qed.

Lemma get_csig_ok w st n : timestamps_honest w -> computed_ok w st ->
  exists st', get_csig w st n = (w_hash w n, st') /\ computed_ok w st' /\ keeps st st' /\ ni_csig (st' n) = Some (w_hash w n)
    /\ (forall m, ni_ts (st' m) = ni_ts (st m)).
Proof.
  intros Hw Hs. unfold get_csig. destruct (ni_csig (st n)) as [s|] eqn:E.
  - exists st. rewrite <- (Hs n s E). split; [reflexivity|]. split; [exact Hs|]. split; [intros m x H; exact H|]. split; [exact E | reflexivity].
  - assert (Q : match max_drift_csig w n with 0 => w_hash w n | S m => S m end = w_hash w n).
    { destruct (max_drift_honest w n Hw) as [->|Q]; [reflexivity|]. destruct (max_drift_csig w n); auto. }
    rewrite Q. eexists; split; [reflexivity|]. unfold upd. split; [|split; [|split]].
    + intros m s. destruct (m =? n) eqn:Em; [|apply Hs]. apply Nat.eqb_eq in Em. subst. cbn. congruence.
    + intros m s H. destruct (m =? n) eqn:Em; [apply Nat.eqb_eq in Em; subst; congruence | exact H].
    + rewrite Nat.eqb_refl. reflexivity.
    + intros m. destruct (m =? n) eqn:Em; [apply Nat.eqb_eq in Em; subst|]; reflexivity.
Qed.

Lemma keeps_refl st : keeps st st. Proof. intros n s H; exact H. Qed.
Lemma keeps_trans a b c : keeps a b -> keeps b c -> keeps a c. Proof. intros A B n s H. apply B, A, H. Qed.

(* the loop, content decider *)
Definition same_sig (w : world) (n : node) (p : option ninfo) : bool :=
  match p with Some q => match ni_csig q with Some c => w_hash w n =? c | None => false end | None => false end.
Fixpoint same_sigs (w : world) (cs : list node) (ps : list (option ninfo)) : bool :=
  match cs, ps with c :: cs, p :: ps => same_sig w c p && same_sigs w cs ps | _, _ => true end.

Lemma loop_content N w bi t : timestamps_honest w -> forall cs ps st r, computed_ok w st ->
  exists st', changed_loop N w bi t content_decider st cs ps r = (r || negb (same_sigs w cs ps), st') /\ computed_ok w st' /\ keeps st st'
    /\ (length cs <= length ps -> forall n, In n cs -> ni_csig (st' n) = Some (w_hash w n)).
Proof.
  intros Hw. induction cs as [|c cs IH]; intros ps st r Hs.
  - exists st. cbn. rewrite orb_false_r. split; [reflexivity|]. split; [exact Hs|]. split; [apply keeps_refl | intros _ n []].
  - destruct ps as [|p ps].
    + exists st. cbn. rewrite orb_false_r. split; [reflexivity|]. split; [exact Hs|]. split; [apply keeps_refl|]. intros H. cbn in H. lia.
    + cbn [changed_loop decide content_decider]. unfold changed_content.
      destruct (get_csig_ok w st c Hw Hs) as (st1 & E & S1 & K1 & C1 & _). rewrite E.
      destruct (IH ps st1 (r || match p with Some q => match ni_csig q with Some x => negb (w_hash w c =? x) | None => true end | None => true end) S1) as (st' & E' & S' & K' & A').
      exists st'. rewrite E'. split; [|split; [exact S'|split; [eapply keeps_trans; eassumption|]]].
      * f_equal. cbn [same_sigs]. unfold same_sig. destruct p as [q|]; [destruct (ni_csig q)|]; cbn;
          rewrite ?negb_andb, <- ?orb_assoc; cbn; reflexivity.
      * intros L n [<-|Hn]; [apply K', C1 | apply A'; [cbn in L; lia | exact Hn]].
Qed.

Lemma same_sigs_iff w cs : forall ps, length cs = length ps ->
  (same_sigs w cs (map Some ps) = true <-> map ni_csig ps = map (fun n => Some (w_hash w n)) cs).
Proof.
  induction cs as [|c cs IH]; intros [|p ps] L; cbn in L; try lia; [cbn; tauto|].
  cbn [same_sigs map]. unfold same_sig. rewrite andb_true_iff, IH by lia.
  split.
  - intros [A B]. destruct (ni_csig p) as [x|]; [|discriminate]. apply Nat.eqb_eq in A. congruence.
  - intros H. injection H as A B. rewrite A, Nat.eqb_refl. auto.
Qed.

Lemma changed_content_spec N w bi t st : timestamps_honest w -> computed_ok w st ->
  exists b st', changed N w bi content_decider st t = (b, st') /\ computed_ok w st' /\ keeps st st'
    /\ (forall n, In n (children t) -> ni_csig (st' n) = Some (w_hash w n))
    /\ (b = false <-> map ni_csig (recorded bi) = map (fun n => Some (w_hash w n)) (children t)
                      /\ (t_builder t = true -> bactsig bi = Some (t_action t))).
Proof.
  intros Hw Hs. unfold changed, recorded. set (th := bsourcesigs bi ++ bdependsigs bi ++ bimplicitsigs bi).
  destruct (loop_content N w bi t Hw (children t) (map Some th ++ repeat None (length (children t) - length (map Some th))) st
             (negb (length (children t) =? length (map Some th))) Hs) as (st' & E & S' & K' & A').
  rewrite E. eexists; exists st'. split; [reflexivity|]. split; [exact S'|]. split; [exact K'|]. split.
  - apply A'. rewrite app_length, repeat_length, map_length. lia.
  - rewrite map_length in *. destruct (length (children t) =? length th) eqn:L.
    + apply Nat.eqb_eq in L. cbn [negb orb]. rewrite L, Nat.sub_diag. cbn [repeat]. rewrite app_nil_r.
      rewrite <- (same_sigs_iff w (children t) th L).
      destruct (same_sigs w (children t) (map Some th)); cbn [negb orb].
      * destruct (t_builder t); [|split; [intros _; split; [reflexivity | discriminate] | reflexivity]].
        destruct (bactsig bi) as [s|]; [destruct (s =? t_action t) eqn:Q; [apply Nat.eqb_eq in Q; subst|]|].
        -- intuition.
        -- split; [discriminate|]. intros [_ H]. specialize (H eq_refl). injection H as ->. rewrite Nat.eqb_refl in Q. discriminate.
        -- split; [discriminate|]. intros [_ H]. specialize (H eq_refl). discriminate.
      * destruct (t_builder t); split; try discriminate; intros [H _]; discriminate.
    + cbn [negb orb]. apply Nat.eqb_neq in L. split; [destruct (t_builder t); discriminate|]. intros [H _]. apply (f_equal (@length _)) in H. rewrite !map_length in H. lia.
Qed.

(* ---- build info of a well-formed target ---- *)
Lemma dedupe_in l : forall seen n, In n (dedupe seen l) <-> In n l /\ ~ In n seen.
Proof.
  induction l as [|x l IH]; intros seen n; cbn; [tauto|]. destruct (mem x seen) eqn:E.
  - apply mem_in in E. rewrite IH. split; [tauto|]. intros [[->|H] H2]; [contradiction | auto].
  - apply mem_nin in E. cbn. rewrite IH. cbn. destruct (Nat.eq_dec x n) as [->|Hn]; [tauto|]. tauto.
Qed.
Lemma dedupe_nodup l : forall seen, NoDup (dedupe seen l).
Proof.
  induction l as [|x l IH]; intros seen; cbn; [constructor|]. destruct (mem x seen); [apply IH|]. constructor; [|apply IH].
  rewrite dedupe_in. cbn. tauto.
Qed.
Lemma dedupe_seen_eq l : forall s1 s2, (forall n, In n l -> (In n s1 <-> In n s2)) -> dedupe s1 l = dedupe s2 l.
Proof.
  induction l as [|x l IH]; intros s1 s2 H; cbn; [reflexivity|].
  assert (mem x s1 = mem x s2) as ->.
  { destruct (mem x s2) eqn:E; [apply mem_in in E; apply mem_in, H; [left; reflexivity | exact E] | apply mem_nin in E; apply mem_nin; rewrite (H x (or_introl eq_refl)); exact E]. }
  destruct (mem x s2); [apply IH; intros n Hn; apply H; right; exact Hn|]. f_equal. apply IH. intros n Hn. cbn. rewrite (H n (or_intror Hn)). tauto.
Qed.
Lemma dedupe_filter f l : forall seen, dedupe seen (filter f l) = filter f (dedupe seen l).
Proof.
  induction l as [|x l IH]; intros seen; cbn; [reflexivity|]. destruct (f x) eqn:E; cbn.
  - destruct (mem x seen); [apply IH|]. cbn. rewrite E. f_equal. apply IH.
  - destruct (mem x seen); [apply IH|]. cbn. rewrite E. rewrite IH.
    rewrite <- !IH. apply dedupe_seen_eq. intros n Hn. cbn. apply filter_In in Hn. destruct Hn as [_ Hn]. split; [auto | intros [->|H]; [congruence | exact H]].
Qed.
Lemma dedupe_id l : forall seen, NoDup l -> (forall n, In n l -> ~ In n seen) -> dedupe seen l = l.
Proof.
  induction l as [|x l IH]; intros seen N H; cbn; [reflexivity|]. inversion N as [|a b Na Nb]; subst.
  rewrite (proj2 (mem_nin x seen) (H x (or_introl eq_refl))). f_equal. apply IH; [exact Nb|]. intros n Hn [->|Q]; [contradiction | apply (H n); [right; exact Hn | exact Q]].
Qed.
Lemma binfo_sources t : target_wf t -> dedupe [] (not_ignored t (if t_specific t then t_sources t else t_batch t)) = not_ignored t (t_sources t).
Proof.
  intros (N & _ & B). unfold not_ignored. rewrite dedupe_filter. f_equal. destruct (t_specific t); [|symmetry; apply B; reflexivity].
  apply dedupe_id; [exact N | intros n _ []].
Qed.
Lemma depends_kept t : ignore_not_depends t -> not_ignored t (t_depends t) = t_depends t.
Proof.
  intros H. unfold not_ignored. assert (G : forall l, incl l (t_depends t) -> filter (fun n => negb (mem n (t_ignore t))) l = l); [|apply G; intros x Hx; exact Hx].
  induction l as [|x l IH]; intros I; cbn; [reflexivity|]. rewrite (proj2 (mem_nin x (t_ignore t))); cbn.
  - f_equal. apply IH. intros y Hy; apply I; right; exact Hy.
  - apply H, I; left; reflexivity.
Qed.
Lemma children_split t : children t = not_ignored t (t_sources t) ++ not_ignored t (t_depends t) ++ not_ignored t (t_implicit t).
Proof. unfold children, not_ignored. rewrite !filter_app. reflexivity. Qed.
Lemma recorded_saved N t st : target_wf t -> ignore_not_depends t -> recorded (saved N t st) = map st (children t).
Proof.
  intros W I. unfold recorded, saved; cbn. rewrite (binfo_sources t W), children_split. rewrite (depends_kept t I). rewrite !map_app. reflexivity.
Qed.
Lemma act_saved N t st : bactsig (saved N t st) = if t_builder t then Some (t_action t) else None.
Proof. reflexivity. Qed.

(* ---- dependency map ---- *)
Lemma keys_saved N t st : target_wf t -> ignore_not_depends t ->
  bsources (saved N t st) ++ bdepends (saved N t st) ++ bimplicit (saved N t st) = map (fun n => KStr (n_str N n)) (children t).
Proof.
  intros W I. unfold saved; cbn. rewrite (binfo_sources t W), children_split. rewrite !map_map. rewrite !map_app. reflexivity.
Qed.
Lemma dmap_saved N t st : target_wf t -> ignore_not_depends t -> dependency_map (saved N t st) = map (fun n => (KStr (n_str N n), st n)) (children t).
Proof.
  intros W I. unfold dependency_map. change (bsourcesigs (saved N t st) ++ bdependsigs (saved N t st) ++ bimplicitsigs (saved N t st)) with (recorded (saved N t st)).
  rewrite (recorded_saved N t st W I), (keys_saved N t st W I).
  assert (G : forall l, combine (map (fun n => KStr (n_str N n)) l) (map st l) = map (fun n => (KStr (n_str N n), st n)) l) by (induction l as [|x l IH]; cbn; [reflexivity | rewrite IH; reflexivity]).
  destruct (children t) as [|c l]; [reflexivity|]. apply (G (c :: l)).
Qed.
Lemma dget_str N st n l : names_ok N -> dget (map (fun n => (KStr (n_str N n), st n)) l) (KStr (n_str N n)) = if mem n l then Some (st n) else None.
Proof.
  intros [Inj _]. induction l as [|x l IH]; [reflexivity|]. cbn [map dget key_eqb]. rewrite IH. change (mem n (x :: l)) with ((n =? x) || mem n l).
  destruct (mem n l) eqn:E; [rewrite orb_true_r; reflexivity|]. rewrite orb_false_r.
  destruct (n_str N n =? n_str N x) eqn:Q.
  - apply Nat.eqb_eq in Q. apply Inj in Q. subst. rewrite Nat.eqb_refl. reflexivity.
  - destruct (n =? x) eqn:R; [apply Nat.eqb_eq in R; subst; rewrite Nat.eqb_refl in Q; discriminate | reflexivity].
Qed.
Lemma dget_node N st n (l : list node) : dget (map (fun n => (KStr (n_str N n), st n)) l) (KNode n) = None.
Proof. induction l as [|x l IH]; cbn; [reflexivity | rewrite IH; reflexivity]. Qed.
Lemma dget_path N st n l : names_ok N -> ~ In n l -> dget (map (fun n => (KStr (n_str N n), st n)) l) (KStr (n_path N n)) = None.
Proof.
  intros [_ P] H. induction l as [|x l IH]; [reflexivity|]. cbn. rewrite IH; [|intros Q; apply H; right; exact Q].
  destruct (n_path N n =? n_str N x) eqn:Q; [|reflexivity]. apply Nat.eqb_eq in Q. apply P in Q. subst. elim H; left; reflexivity.
Qed.
Lemma add_strings_str N st l : names_ok N -> add_strings (n_str N) (map (fun n => (KStr (n_str N n), st n)) l) = map (fun n => (KStr (n_str N n), st n)) l.
Proof.
  intros O. destruct l as [|x l]; [reflexivity|]. unfold add_strings.
  change (map (fun n => (KStr (n_str N n), st n)) (x :: l)) with ((KStr (n_str N x), st x) :: map (fun n => (KStr (n_str N n), st n)) l) at 1.
  cbv iota. cbn [key_str]. rewrite (dget_str N st x (x :: l) O). assert (mem x (x :: l) = true) as -> by (apply mem_in; left; reflexivity). reflexivity.
Qed.
Lemma previous_saved N t st n : target_wf t -> ignore_not_depends t -> names_ok N ->
  previous_signatures N (dependency_map (saved N t st)) n = if mem n (children t) then Some (st n) else None.
Proof.
  intros W I O. rewrite (dmap_saved N t st W I). unfold previous_signatures.
  destruct (children t) as [|c l] eqn:Ec; [reflexivity|]. cbn [map]. cbv iota.
  change ((KStr (n_str N c), st c) :: map (fun n => (KStr (n_str N n), st n)) l) with (map (fun n => (KStr (n_str N n), st n)) (c :: l)).
  rewrite !dget_node, add_strings_str, !dget_str by exact O. cbn [orelse]. destruct (mem n (c :: l)) eqn:E; [reflexivity|]. cbn [orelse].
  apply dget_path; [exact O|]. apply mem_nin; exact E.
Qed.
