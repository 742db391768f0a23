(* Incremental builds: invariants. *)
From Coq Require Import List Arith ZArith Bool Lia.
Import ListNotations.
From Verif Require Import DecModel DecSpec DecProofs DecProps IncrModel IncrSpec.

Section Incr.
Context (S : sem) (N : names) (Inj : hash_injective S).

Definition db_ok (s : istate) : Prop := forall n a c, bactsig (i_db s n) = Some a -> i_disk s n = Some c ->
  exists cs, map ni_csig (recorded (i_db s n)) = map (fun x => Some (s_hash S x)) cs /\ c = s_act S a cs.
Definition ts_ok (s : istate) : Prop := (forall n t, ni_ts (i_ni s n) = Some t -> t < i_clock s) /\ forall n, i_mtime s n <= i_clock s.

Record rinv (drift : Z) (s0 : istate) (r : rstate) : Prop := {
  ri_same : i_db (fst (fst r)) = i_db s0 /\ i_ni (fst (fst r)) = i_ni s0 /\ i_clock (fst (fst r)) = i_clock s0;
  ri_comp : computed_ok (world_of S drift (fst (fst r))) (snd (fst r));
  ri_hon : timestamps_honest (world_of S drift (fst (fst r)));
  ri_ts : ts_ok (fst (fst r)) /\ forall n t, ni_ts (snd (fst r) n) = Some t -> t <= i_clock (fst (fst r));
  ri_done : forall n t, tgt_of (snd r) n = Some t -> t_node t = n /\ target_wf t /\ ignore_not_depends t /\ t_builder t = true
      /\ (forall c, In c (children t) -> ni_csig (snd (fst r) c) = Some (s_hash S (i_disk (fst (fst r)) c)))
      /\ i_disk (fst (fst r)) n = Some (s_act S (t_action t) (map (i_disk (fst (fst r))) (children t)));
  ri_rest : forall n, tgt_of (snd r) n = None -> i_disk (fst (fst r)) n = i_disk s0 n \/ i_disk (fst (fst r)) n = None }.

Lemma visited_ok w st n : timestamps_honest w -> computed_ok w st ->
  computed_ok w (visited w st n) /\ keeps st (visited w st n) /\ (forall m t, ni_ts (visited w st n m) = Some t -> ni_ts (st m) = Some t \/ t = w_mtime w m).
Proof.
  intros Hw Hs. unfold visited, upd. split; [|split].
  - intros m s. destruct (m =? n) eqn:E; [|apply Hs]. apply Nat.eqb_eq in E. subst m. cbn.
    destruct (max_drift_honest w n Hw) as [->|Q]; [apply Hs|]. destruct (max_drift_csig w n); [apply Hs | congruence].
  - intros m s H. destruct (m =? n) eqn:E; [|exact H]. apply Nat.eqb_eq in E. subst m. cbn.
    destruct (max_drift_honest w n Hw) as [->|Q]; [exact H|]. destruct (max_drift_csig w n); [exact H|]. rewrite Q. f_equal. symmetry. apply Hs, H.
  - intros m t. destruct (m =? n) eqn:E; [|auto]. apply Nat.eqb_eq in E. subst m. cbn. intros H. injection H as <-. auto.
Qed.

Lemma loop_ts M w bi t : forall cs ps st r m, ni_ts (snd (changed_loop M w bi t content_decider st cs ps r) m) = ni_ts (st m).
Proof.
  induction cs as [|c cs IH]; intros [|p ps] st r m; try reflexivity. cbn [changed_loop decide content_decider]. unfold changed_content.
  destruct (get_csig w st c) as [x st'] eqn:E. rewrite IH. unfold get_csig in E. destruct (ni_csig (st c)); injection E as <- <-; [reflexivity|].
  unfold upd. destruct (m =? c) eqn:Q; [apply Nat.eqb_eq in Q; subst|]; reflexivity.
Qed.
Lemma loop_frame M w bi t : forall cs ps st r m, ~ In m cs -> snd (changed_loop M w bi t content_decider st cs ps r) m = st m.
Proof.
  induction cs as [|c cs IH]; intros [|p ps] st r m H; try reflexivity. cbn [changed_loop decide content_decider]. unfold changed_content.
  destruct (get_csig w st c) as [x st'] eqn:E. rewrite IH by (intros Q; apply H; right; exact Q). unfold get_csig in E. destruct (ni_csig (st c)); injection E as <- <-; [reflexivity|].
  unfold upd. destruct (m =? c) eqn:Q; [apply Nat.eqb_eq in Q; subst; elim H; left|]; reflexivity.
Qed.
Lemma uptodate_full w bi st t : timestamps_honest w -> computed_ok w st ->
  exists b st', is_up_to_date N w bi None content_decider st t = (b, st') /\ computed_ok w st' /\ keeps st st'
    /\ (forall n, In n (children t) -> ni_csig (st' n) = Some (w_hash w n)) /\ (forall m, ni_ts (st' m) = ni_ts (st m))
    /\ (forall m, ~ In m (children t) -> st' m = st m)
    /\ (b = true -> w_exists w (t_node t) = true /\ map ni_csig (recorded bi) = map (fun n => Some (w_hash w n)) (children t) /\ (t_builder t = true -> bactsig bi = Some (t_action t))).
Proof.
  intros Hw Hs. pose proof (C13_up_to_date_iff N w bi st t Hw Hs) as I. unfold is_up_to_date in *.
  destruct (changed_content_spec N w bi t st Hw Hs) as (b & st' & E & C & K & A & _).
  assert (T : forall m, ni_ts (st' m) = ni_ts (st m)).
  { intros m. assert (Q : snd (changed N w bi content_decider st t) = st') by (rewrite E; reflexivity). rewrite <- Q. unfold changed.
    match goal with |- context [changed_loop ?a ?b ?c ?d ?e ?f ?g ?h ?i] => pose proof (loop_ts a b c d g h f i m) as R; destruct (changed_loop a b c d e f g h i) end. exact R. }
  assert (F : forall m, ~ In m (children t) -> st' m = st m).
  { intros m Hm. assert (Q : snd (changed N w bi content_decider st t) = st') by (rewrite E; reflexivity). rewrite <- Q. unfold changed.
    match goal with |- context [changed_loop ?a ?b ?c ?d ?e ?f ?g ?h ?i] => pose proof (loop_frame a b c d g h f i m Hm) as R; destruct (changed_loop a b c d e f g h i) end. exact R. }
  rewrite E in *. destruct (w_exists w (t_node t)); cbn [fst snd] in *.
  - exists (negb b), st'. split; [reflexivity|]. split; [exact C|]. split; [exact K|]. split; [exact A|]. split; [exact T|]. split; [exact F | apply I].
  - exists false, st'. split; [reflexivity|]. split; [exact C|]. split; [exact K|]. split; [exact A|]. split; [exact T|]. split; [exact F | discriminate].
Qed.

Lemma upd_same st n v : upd st n v n = v. Proof. unfold upd. rewrite Nat.eqb_refl. reflexivity. Qed.
Lemma upd_other st n v m : m <> n -> upd st n v m = st m. Proof. intros H. unfold upd. destruct (m =? n) eqn:E; [apply Nat.eqb_eq in E; contradiction | reflexivity]. Qed.
Lemma file_same s n c : i_disk (set_file s n c) n = c. Proof. cbn. rewrite Nat.eqb_refl. reflexivity. Qed.
Lemma file_other s n c m : m <> n -> i_disk (set_file s n c) m = i_disk s m.
Proof. intros H. cbn. destruct (m =? n) eqn:E; [apply Nat.eqb_eq in E; contradiction | reflexivity]. Qed.
Lemma set_file_honest drift s n c : ts_ok s -> timestamps_honest (world_of S drift s) -> timestamps_honest (world_of S drift (set_file s n c)).
Proof.
  intros [T _] [D H]. split; [exact D|]. intros P m x t. cbn. intros E Q. destruct (m =? n) eqn:Em.
  - specialize (T m t). rewrite E in T. specialize (T eq_refl). lia.
  - apply (H P m x t E Q).
Qed.
Lemma set_file_ts s n c : ts_ok s -> ts_ok (set_file s n c).
Proof. intros [T M]. split; [exact T|]. intros m. cbn. destruct (m =? n); [lia | apply M]. Qed.

(* nothing changes for a target already done when a node outside it and its children is touched *)
Lemma done_frame (st st' : node -> ninfo) (d d' : node -> option nat) k t n :
  (forall m, m <> k -> d' m = d m) -> (forall m s, m <> k -> ni_csig (st m) = Some s -> ni_csig (st' m) = Some s) ->
  n <> k -> ~ In k (children t) ->
  (forall c, In c (children t) -> ni_csig (st c) = Some (s_hash S (d c))) -> d n = Some (s_act S (t_action t) (map d (children t))) ->
  (forall c, In c (children t) -> ni_csig (st' c) = Some (s_hash S (d' c))) /\ d' n = Some (s_act S (t_action t) (map d' (children t))).
Proof.
  intros D T Nk Hk A B. split.
  - intros c Hc. assert (c <> k) by (intros ->; contradiction). rewrite (D c) by assumption. apply T; [assumption | apply A, Hc].
  - rewrite (D n Nk), B. do 2 f_equal. apply map_ext_in. intros c Hc. symmetry. apply D. intros ->; contradiction.
Qed.

Lemma tgt_cons n o dn m : tgt_of ((n, o) :: dn) m = if n =? m then o else tgt_of dn m.
Proof. unfold tgt_of. cbn. destruct (n =? m); reflexivity. Qed.

(* one item *)
Lemma item_rinv drift s0 r it : db_ok s0 -> rinv drift s0 r ->
  match it with
  | Src n => tgt_of (snd r) n = None
  | Tgt t b => target_wf t /\ ignore_not_depends t /\ t_builder t = true /\ ~ In (t_node t) (children t) /\ ni_csig (snd (fst r) (t_node t)) = None
      /\ (forall n t', tgt_of (snd r) n = Some t' -> n <> t_node t /\ ~ In (t_node t) (children t'))
  end -> rinv drift s0 (run_item S N drift r it)
  /\ (match it with Src n => forall m, i_disk (fst (fst (run_item S N drift r it))) m = i_disk (fst (fst r)) m
      | Tgt t true => forall m, i_disk (fst (fst (run_item S N drift r it))) m =
           if m =? t_node t then Some (s_act S (t_action t) (map (i_disk (fst (fst r))) (children t))) else i_disk (fst (fst r)) m
      | _ => True end)
  /\ (forall n t', tgt_of (snd (run_item S N drift r it)) n = Some t' -> tgt_of (snd r) n = Some t' \/ exists b, it = Tgt t' b /\ n = t_node t')
  /\ (forall m, ni_csig (snd (fst (run_item S N drift r it)) m) <> None -> ni_csig (snd (fst r) m) <> None \/ match it with Src n => m = n | Tgt t _ => m = t_node t \/ In m (children t) end).
Proof.
  destruct r as [[s st] dn]. cbn [fst snd]. intros Db I Hit. destruct I as [(Sa & Sb & Sc) Co Ho [Ts Tst] Dn Re]. cbn [fst snd] in *.
  set (w := world_of S drift s) in *.
  destruct it as [n|t ok].
  - (* source *)
    cbn [run_item]. fold w. destruct (visited_ok w st n Ho Co) as (V1 & V2 & V3).
    split; [|split; [|split]].
    + constructor; cbn [fst snd].
      * auto.
      * exact V1.
      * exact Ho.
      * split; [exact Ts|]. intros m t Hm. destruct (V3 m t Hm) as [Q| ->]; [apply Tst with m; exact Q | apply (proj2 Ts)].
      * intros m t. rewrite tgt_cons. destruct (n =? m) eqn:E; [discriminate|]. intros Q. destruct (Dn m t Q) as (A1 & A2 & A3 & A4 & A5 & A6).
        repeat (split; [assumption|]). split; [intros c Hc; apply V2, A5, Hc | exact A6].
      * intros m. rewrite tgt_cons. destruct (n =? m) eqn:E; [apply Nat.eqb_eq in E; subst; intros _; apply Re; exact Hit | apply Re].
    + reflexivity.
    + cbn [snd]. intros m t'. rewrite tgt_cons. destruct (n =? m); [discriminate | auto].
    + cbn [fst snd]. intros m Hm. destruct (Nat.eq_dec m n) as [->|Nm]; [auto|]. left. unfold visited in Hm. rewrite upd_other in Hm by exact Nm. exact Hm.
  - destruct Hit as (W & Ig & B & Ns & Nc & Fr). cbn [run_item]. fold w.
    destruct (uptodate_full w (i_db s (t_node t)) st t Ho Co) as (up & st1 & E & C1 & K1 & A1 & T1 & F1' & U). rewrite E.
    assert (Nd : tgt_of dn (t_node t) = None).
    { destruct (tgt_of dn (t_node t)) as [t'|] eqn:Q; [|reflexivity]. destruct (Fr _ _ Q) as [X _]. elim X; reflexivity. }
    destruct up.
    + (* up to date *)
      destruct (U eq_refl) as (Ex & Rec & Act). specialize (Act B).
      assert (Val : i_disk s (t_node t) = Some (s_act S (t_action t) (map (i_disk s) (children t)))).
      { destruct (i_disk s (t_node t)) as [c|] eqn:Ec; [|unfold w in Ex; cbn in Ex; rewrite Ec in Ex; discriminate].
        assert (E0 : i_disk s0 (t_node t) = Some c) by (destruct (Re (t_node t) Nd) as [Q|Q]; congruence).
        rewrite Sa in *. destruct (Db (t_node t) (t_action t) c Act E0) as (cs & R1 & ->). do 2 f_equal.
        rewrite R1 in Rec. clear - Rec Inj. revert Rec. generalize (children t) as l. revert cs. induction cs as [|x cs IH]; intros [|y l] R; cbn in R; try discriminate; [reflexivity|].
        injection R as R1 R2. cbn. f_equal; [apply Inj; exact R1 | apply IH; exact R2]. }
      destruct (visited_ok w st1 (t_node t) Ho C1) as (V1 & V2 & V3).
      split; [|split; [|split]].
      * constructor; cbn [fst snd].
        -- auto.
        -- exact V1.
        -- exact Ho.
        -- split; [exact Ts|]. intros m x Hm. destruct (V3 m x Hm) as [Q| ->]; [apply Tst with m; rewrite <- T1; exact Q | apply (proj2 Ts)].
        -- intros m t'. rewrite tgt_cons. destruct (t_node t =? m) eqn:Em.
           ++ apply Nat.eqb_eq in Em. subst m. intros Q. injection Q as <-. repeat (split; [assumption || reflexivity|]). split; [intros c Hc; apply V2, A1, Hc | exact Val].
           ++ intros Q. destruct (Dn m t' Q) as (B1 & B2 & B3 & B4 & B5 & B6). repeat (split; [assumption|]). split; [intros c Hc; apply V2, K1, B5, Hc | exact B6].
        -- intros m. rewrite tgt_cons. destruct (t_node t =? m); [discriminate | apply Re].
      * cbn [fst]. destruct ok; [|exact Logic.I]. intros m. destruct (m =? t_node t) eqn:Em; [apply Nat.eqb_eq in Em; subst; exact Val | reflexivity].
      * cbn [snd]. intros m t'. rewrite tgt_cons. destruct (t_node t =? m) eqn:Em; [|auto]. apply Nat.eqb_eq in Em. intros Q. injection Q as <-. right. exists ok; auto.
      * cbn [fst snd]. intros m Hm. destruct (Nat.eq_dec m (t_node t)) as [->|Nm]; [auto|]. unfold visited in Hm. rewrite upd_other in Hm by exact Nm.
        destruct (in_dec Nat.eq_dec m (children t)) as [Q|Q]; [auto|]. rewrite (F1' m Q) in Hm. auto.
    + destruct ok.
      * (* built *)
        set (v := Some (s_act S (t_action t) (map (i_disk s) (children t)))).
        set (s' := set_file s (t_node t) v). set (w' := world_of S drift s').
        assert (Ho' : timestamps_honest w') by (apply set_file_honest; assumption).
        assert (C2 : computed_ok w' (upd st1 (t_node t) empty_ninfo)).
        { intros m x. destruct (Nat.eq_dec m (t_node t)) as [->|Nm]; [rewrite upd_same; discriminate|]. rewrite upd_other by exact Nm. intros Q.
          rewrite (C1 m x Q). unfold w, w'. cbn [w_hash world_of]. f_equal. symmetry. apply file_other; exact Nm. }
        destruct (get_csig_ok w' (upd st1 (t_node t) empty_ninfo) (t_node t) Ho' C2) as (st2 & G & C3 & K3 & _ & T3). rewrite G. cbn [snd].
        destruct (visited_ok w' st2 (t_node t) Ho' C3) as (V1 & V2 & V3).
        assert (Fd : forall m, m <> t_node t -> i_disk s' m = i_disk s m) by (intros m Hm; apply file_other; exact Hm).
        assert (Fst : forall m x, m <> t_node t -> ni_csig (st1 m) = Some x -> ni_csig (visited w' st2 (t_node t) m) = Some x).
        { intros m x Hm Q. apply V2, K3. rewrite upd_other by exact Hm. exact Q. }
        split; [|split; [|split]].
        -- constructor; cbn [fst snd].
           ++ auto.
           ++ exact V1.
           ++ exact Ho'.
           ++ split; [apply set_file_ts; exact Ts|]. intros m x Hm. destruct (V3 m x Hm) as [Q| ->]; [|apply (proj2 (set_file_ts s (t_node t) v Ts))].
              rewrite T3 in Q. destruct (Nat.eq_dec m (t_node t)) as [->|Nm]; [rewrite upd_same in Q; discriminate|]. rewrite upd_other in Q by exact Nm.
              rewrite T1 in Q. apply (Tst m x Q).
           ++ intros m t'. rewrite tgt_cons. destruct (t_node t =? m) eqn:Em.
              ** apply Nat.eqb_eq in Em. subst m. intros Q. injection Q as <-. repeat (split; [assumption || reflexivity|]). split.
                 --- intros c Hc. assert (c <> t_node t) by (intros ->; contradiction). rewrite (Fd c) by assumption. apply Fst; [assumption | apply A1, Hc].
                 --- unfold s'. rewrite file_same. unfold v. do 2 f_equal. apply map_ext_in. intros c Hc. symmetry. apply Fd. intros ->; contradiction.
              ** intros Q. destruct (Dn m t' Q) as (B1 & B2 & B3 & B4 & B5 & B6). destruct (Fr m t' Q) as [F1 F2]. repeat (split; [assumption|]).
                 apply (done_frame st (visited w' st2 (t_node t)) (i_disk s) (i_disk s') (t_node t)); auto.
           ++ intros m. rewrite tgt_cons. destruct (t_node t =? m) eqn:Em; [discriminate|]. apply Nat.eqb_neq in Em. intros Q.
              rewrite Fd by congruence. apply Re; exact Q.
        -- cbn [fst]. intros m. reflexivity.
        -- cbn [snd]. intros m t'. rewrite tgt_cons. destruct (t_node t =? m) eqn:Em; [|auto]. apply Nat.eqb_eq in Em. intros Q. injection Q as <-. right. exists true; auto.
        -- cbn [fst snd]. intros m Hm. destruct (Nat.eq_dec m (t_node t)) as [->|Nm]; [auto|]. unfold visited in Hm. rewrite upd_other in Hm by exact Nm.
           destruct (in_dec Nat.eq_dec m (children t)) as [Q|Q]; [auto|]. left. intros X. apply Hm. unfold get_csig in G. rewrite upd_same in G. cbn in G.
           injection G as _ <-. rewrite upd_other by exact Nm. rewrite upd_other by exact Nm. rewrite (F1' m Q). exact X.
      * (* failed *)
        assert (Fd : forall m, m <> t_node t -> i_disk (set_file s (t_node t) None) m = i_disk s m) by (intros m Hm; apply file_other; exact Hm).
        assert (C2 : computed_ok (world_of S drift (set_file s (t_node t) None)) st1).
        { intros m x Q. destruct (Nat.eq_dec m (t_node t)) as [->|Nm]; [rewrite (F1' _ Ns) in Q; congruence|].
          rewrite (C1 m x Q). cbn [w_hash world_of]. rewrite (Fd m Nm). reflexivity. }
        split; [|split; [exact Logic.I | split; [cbn [snd]; auto|]]].
        -- constructor; cbn [fst snd].
           ++ auto.
           ++ exact C2.
           ++ apply set_file_honest; assumption.
           ++ split; [apply set_file_ts; exact Ts|]. intros m x Q. rewrite T1 in Q. apply (Tst m x Q).
           ++ intros m t' Q. destruct (Dn m t' Q) as (B1 & B2 & B3 & B4 & B5 & B6). destruct (Fr m t' Q) as [F1 F2]. repeat (split; [assumption|]).
              apply (done_frame st st1 (i_disk s) (i_disk (set_file s (t_node t) None)) (t_node t)); auto.
           ++ intros m Q. destruct (Nat.eq_dec m (t_node t)) as [->|Nm]; [right; apply file_same|]. rewrite (Fd m Nm). apply Re; exact Q.
        -- cbn [fst snd]. intros m Hm. destruct (in_dec Nat.eq_dec m (children t)) as [Q|Q]; [auto|]. rewrite (F1' m Q) in Hm. auto.
Qed.

(* facts about the part of the run already done *)
Record pinv (pre : list item) (r : rstate) : Prop := {
  pi_tgt : forall n t, tgt_of (snd r) n = Some t -> exists b, In (Tgt t b) pre /\ n = t_node t;
  pi_sig : forall m, ni_csig (snd (fst r) m) <> None -> In (Src m) pre \/ exists t b, In (Tgt t b) pre /\ (m = t_node t \/ In m (children t)) }.

Lemma step_conds items pre it suf r : ordered items -> items = pre ++ it :: suf -> pinv pre r ->
  match it with
  | Src n => tgt_of (snd r) n = None
  | Tgt t b => target_wf t /\ ignore_not_depends t /\ t_builder t = true /\ ~ In (t_node t) (children t) /\ ni_csig (snd (fst r) (t_node t)) = None
      /\ (forall n t', tgt_of (snd r) n = Some t' -> n <> t_node t /\ ~ In (t_node t) (children t'))
  end.
Proof.
  intros O E [P1 P2]. destruct it as [n|t b].
  - destruct (tgt_of (snd r) n) as [t'|] eqn:Q; [|reflexivity]. exfalso. destruct (P1 n t' Q) as (b' & I1 & ->).
    apply in_split in I1. destruct I1 as (a & c & ->). rewrite <- app_assoc in E. cbn in E.
    destruct (O a t' b' _ E) as (_ & _ & _ & _ & _ & _ & X). apply X. rewrite E. apply in_or_app. right. right. apply in_or_app. right. left. reflexivity.
  - destruct (O pre t b suf E) as (A1 & A2 & A3 & A4 & _ & A6 & A7). repeat (split; [assumption|]).
    assert (Pair : forall t' b', In (Tgt t' b') pre -> t_node t' <> t_node t /\ ~ In (t_node t) (children t')).
    { intros t' b' H. split; [apply (A6 t' b'); apply in_or_app; left; exact H|].
      apply in_split in H. destruct H as (a & c & ->). rewrite <- app_assoc in E. cbn in E.
      destruct (O a t' b' _ E) as (_ & _ & _ & _ & X & _). apply (X t b). apply in_or_app. right. left. reflexivity. }
    split.
    + destruct (ni_csig (snd (fst r) (t_node t))) eqn:Q; [|reflexivity]. exfalso.
      assert (Z : ni_csig (snd (fst r) (t_node t)) <> None) by congruence.
      destruct (P2 _ Z) as [H|(t' & b' & H & H2)]; [apply A7; rewrite E; apply in_or_app; left; exact H|].
      destruct (Pair t' b' H) as [X Y]. destruct H2 as [H2|H2]; [apply X; symmetry; exact H2 | apply Y; exact H2].
    + intros n t' H. destruct (P1 n t' H) as (b' & H1 & ->). apply (Pair t' b' H1).
Qed.

Lemma clean_ext : forall items d d', (forall m, d m = d' m) -> forall m, clean_build S items d m = clean_build S items d' m.
Proof.
  induction items as [|[n|t b] r IH]; intros d d' H m; cbn; [apply H | apply IH, H|].
  apply IH. intros k. rewrite (map_ext d d' H). destruct (k =? t_node t); [reflexivity | apply H].
Qed.

Lemma run_rinv drift s0 : db_ok s0 -> forall suf pre items r, ordered items -> items = pre ++ suf -> rinv drift s0 r -> pinv pre r ->
  let r' := fold_left (run_item S N drift) suf r in
  rinv drift s0 r' /\ (all_ok suf -> forall m, i_disk (fst (fst r')) m = clean_build S suf (i_disk (fst (fst r))) m).
Proof.
  intros Db. induction suf as [|it suf IH]; intros pre items r O E R P.
  - cbn. split; [exact R | reflexivity].
  - pose proof (step_conds items pre it suf r O E P) as C.
    destruct (item_rinv drift s0 r it Db R C) as (R' & D' & T' & C').
    assert (P' : pinv (pre ++ [it]) (run_item S N drift r it)).
    { destruct P as [P1 P2]. constructor.
      - intros n t Q. destruct (T' n t Q) as [Q'|(b & -> & ->)].
        + destruct (P1 n t Q') as (b & H & ->). exists b. split; [apply in_or_app; auto | reflexivity].
        + exists b. split; [apply in_or_app; right; left; reflexivity | reflexivity].
      - intros m Q. destruct (C' m Q) as [Q'|Q'].
        + destruct (P2 m Q') as [H|(t & b & H & H2)]; [left; apply in_or_app; auto|]. right. exists t, b. split; [apply in_or_app; auto | exact H2].
        + destruct it as [n|t b]; [left; subst; apply in_or_app; right; left; reflexivity|]. right. exists t, b. split; [apply in_or_app; right; left; reflexivity | exact Q']. }
    specialize (IH (pre ++ [it]) items (run_item S N drift r it) O). rewrite <- app_assoc in IH. cbn in IH. specialize (IH E R' P').
    cbn [fold_left]. cbv zeta in *. destruct IH as [I1 I2]. split; [exact I1|]. intros A m. rewrite I2 by (intros t H; apply (A t); right; exact H).
    destruct it as [n|t b]; cbn [clean_build].
    + apply clean_ext. intros k. apply D'.
    + destruct b; [|exfalso; apply (A t); left; reflexivity]. apply clean_ext. intros k. apply D'.
Qed.

Lemma start_rinv drift s0 : ts_ok s0 -> timestamps_honest (world_of S drift s0) -> rinv drift s0 (s0, (fun _ => empty_ninfo), []).
Proof.
  intros T H. constructor; cbn [fst snd].
  - auto.
  - intros n s. discriminate.
  - exact H.
  - split; [exact T|]. intros n t. discriminate.
  - intros n t. discriminate.
  - auto.
Qed.

Lemma save_ok drift s0 r : db_ok s0 -> rinv drift s0 r -> db_ok (save N r) /\ ts_ok (save N r).
Proof.
  destruct r as [[s st] dn]. intros Db [(Sa & Sb & Sc) Co Ho [[Ts Tm] Tst] Dn Re]. cbn [fst snd] in *. split.
  - intros n a c. cbn [save i_db i_disk]. destruct (tgt_of dn n) as [t|] eqn:Q.
    + destruct (Dn n t Q) as (<- & W & Ig & B & A & V). intros E1 E2. rewrite act_saved, B in E1. injection E1 as <-.
      exists (map (i_disk s) (children t)). rewrite (recorded_saved N t st W Ig). split.
      * rewrite !map_map. apply map_ext_in. intros k Hk. apply A, Hk.
      * congruence.
    + intros E1 E2. rewrite Sa in *. apply (Db n a c E1). destruct (Re n Q) as [X|X]; congruence.
  - split; cbn [save i_ni i_mtime i_clock].
    + intros n t. destruct (was_done dn n); [|intros H; specialize (Ts n t H); lia].
      cbn. destruct (ni_ts (st n)) eqn:Q; cbn; intros H; [injection H as <-; specialize (Tst n n0 Q); lia | specialize (Ts n t H); lia].
    + intros n. specialize (Tm n). lia.
Qed.

Lemma apply_ok s o : db_ok s -> ts_ok s -> legal1 S s o -> db_ok (apply S N s o) /\ ts_ok (apply S N s o).
Proof.
  intros Db Ts L. destruct o as [n c|n|k|drift items|drift items]; cbn [apply legal1] in *.
  - split.
    + intros m a x. cbn. destruct (m =? n) eqn:E; [apply Nat.eqb_eq in E; subst; congruence | apply Db].
    + destruct Ts as [T M]. split; cbn; [intros m t H; specialize (T m t H); lia|]. intros m. destruct (m =? n); [lia|]. specialize (M m). lia.
  - split.
    + intros m a x. cbn. destruct (m =? n) eqn:E; [discriminate | apply Db].
    + destruct Ts as [T M]. split; cbn; [intros m t H; specialize (T m t H); lia|]. intros m. destruct (m =? n); [lia|]. specialize (M m). lia.
  - split; [exact Db|]. destruct Ts as [T M]. split; cbn; [intros m t H; specialize (T m t H); lia | intros m; specialize (M m); lia].
  - destruct L as [O H]. apply (save_ok drift s); [exact Db|].
    apply (run_rinv drift s Db items [] items _ O eq_refl (start_rinv drift s Ts H)).
    constructor; cbn; [discriminate | intros m X; elim X; reflexivity].
  - elim L.
Qed.

Lemma history_ok : forall ops s, db_ok s -> ts_ok s -> legal S N s ops -> db_ok (fold_left (apply S N) ops s) /\ ts_ok (fold_left (apply S N) ops s).
Proof.
  induction ops as [|o ops IH]; intros s Db Ts L; [split; assumption|]. destruct L as [L1 L2]. cbn.
  destruct (apply_ok s o Db Ts L1) as [D T]. apply IH; assumption.
Qed.

Lemma fresh_ok disk : db_ok (fresh disk) /\ ts_ok (fresh disk).
Proof. split; [intros n a c; discriminate | split; cbn; [discriminate | lia]]. Qed.

(* ---- stored timestamps stay honest when every run visits only source files that some target uses ---- *)
Definition hon (s : istate) : Prop := forall n c, ni_csig (i_ni s n) = Some c ->
  (ni_ts (i_ni s n) = Some (i_mtime s n) -> c = s_hash S (i_disk s n)) /\ (bactsig (i_db s n) <> None -> i_disk s n <> None -> c = s_hash S (i_disk s n)).
Lemma hon_honest drift s : hon s -> drift <> 0%Z -> timestamps_honest (world_of S drift s).
Proof.
  intros H D. split; [exact D|]. intros _ n c t. cbn. intros E Q. destruct (H n c) as [A _]; [rewrite E; reflexivity|]. apply A. rewrite E, Q. reflexivity.
Qed.

Record qinv (s0 : istate) (pre : list item) (r : rstate) : Prop := {
  q_sig : forall t b c, In (Tgt t b) pre -> In c (children t) -> ni_csig (snd (fst r) c) <> None;
  q_in : forall n, was_done (snd r) n = true -> In (Src n) pre \/ exists t b, In (Tgt t b) pre /\ n = t_node t;
  q_done : forall n, was_done (snd r) n = true -> In (Src n) pre \/ ni_csig (snd (fst r) n) <> None
             \/ (i_disk (fst (fst r)) n = i_disk s0 n /\ i_disk s0 n <> None /\ bactsig (i_db s0 n) <> None);
  q_rest : forall n, was_done (snd r) n = false -> (i_disk (fst (fst r)) n = i_disk s0 n /\ i_mtime (fst (fst r)) n = i_mtime s0 n)
             \/ (i_disk (fst (fst r)) n = None /\ i_mtime (fst (fst r)) n = i_clock s0) }.

Lemma done_cons n o dn m : was_done ((n, o) :: dn) m = (n =? m) || was_done dn m. Proof. reflexivity. Qed.
Lemma visited_mono w st n m : ni_csig (st m) <> None -> ni_csig (visited w st n m) <> None.
Proof. unfold visited, upd. destruct (m =? n) eqn:E; [|auto]. apply Nat.eqb_eq in E. subst. cbn. destruct (max_drift_csig w n); [auto | discriminate]. Qed.

Lemma item_qinv drift s0 items pre it suf r : ordered items -> items = pre ++ it :: suf -> rinv drift s0 r -> qinv s0 pre r ->
  qinv s0 (pre ++ [it]) (run_item S N drift r it).
Proof.
  intros O E. destruct r as [[s st] dn]. intros I [Q1 Q2 Q3 Q4]. destruct I as [(Sa & Sb & Sc) Co Ho [Ts Tst] Dn Re]. cbn [fst snd] in *.
  set (w := world_of S drift s) in *.
  assert (Weak : forall x, In x pre -> In x (pre ++ [it])) by (intros; apply in_or_app; auto).
  assert (Last : In it (pre ++ [it])) by (apply in_or_app; right; left; reflexivity).
  assert (Split : forall x, In x (pre ++ [it]) -> In x pre \/ x = it) by (intros x H; apply in_app_or in H; destruct H as [H|[H|[]]]; auto).
  assert (Q2' : forall n, was_done dn n = true -> In (Src n) (pre ++ [it]) \/ exists t b, In (Tgt t b) (pre ++ [it]) /\ n = t_node t).
  { intros n H. destruct (Q2 n H) as [H1|(t & b & H1 & H2)]; [left; auto | right; exists t, b; auto]. }
  destruct it as [n|t ok].
  - cbn [run_item]. fold w. constructor; cbn [fst snd].
    + intros t b c H Hc. apply visited_mono. destruct (Split _ H) as [H1|H1]; [apply (Q1 t b c H1 Hc) | discriminate].
    + intros m. rewrite done_cons. destruct (n =? m) eqn:Em; [apply Nat.eqb_eq in Em; subst; left; exact Last | apply Q2'].
    + intros m. rewrite done_cons. destruct (n =? m) eqn:Em; [apply Nat.eqb_eq in Em; subst; left; exact Last|]. cbn. intros H.
      destruct (Q3 m H) as [A|[A|A]]; [left; auto | right; left; apply visited_mono, A | right; right; exact A].
    + intros m. rewrite done_cons. destruct (n =? m); [discriminate | apply Q4].
  - destruct (O pre t ok suf E) as (W & Ig & B & Ns & _ & A6 & A7). cbn [run_item]. fold w.
    destruct (uptodate_full w (i_db s (t_node t)) st t Ho Co) as (up & st1 & Eu & C1 & K1 & A1 & T1 & F1' & U). rewrite Eu.
    assert (Nd : was_done dn (t_node t) = false).
    { destruct (was_done dn (t_node t)) eqn:Q; [|reflexivity]. exfalso. destruct (Q2 _ Q) as [H|(t' & b' & H & H2)].
      - apply A7. rewrite E. apply in_or_app; auto.
      - apply (A6 t' b'); [apply in_or_app; auto | symmetry; exact H2]. }
    assert (Dif : forall m, was_done dn m = true -> m <> t_node t) by (intros m H ->; congruence).
    assert (K : forall m, ni_csig (st m) <> None -> ni_csig (st1 m) <> None).
    { intros m H. destruct (ni_csig (st m)) as [x|] eqn:Ex; [|elim H; reflexivity]. rewrite (K1 m x Ex). discriminate. }
    assert (Sg : forall t' b' c, In (Tgt t' b') (pre ++ [Tgt t ok]) -> In c (children t') -> ni_csig (st1 c) <> None).
    { intros t' b' c H Hc. destruct (Split _ H) as [H1|H1]; [apply K, (Q1 t' b' c H1 Hc)|]. injection H1 as -> _. rewrite (A1 c Hc). discriminate. }
    destruct up.
    + destruct (U eq_refl) as (Ex & _ & Act). specialize (Act B). constructor; cbn [fst snd].
      * intros t' b' c H Hc. apply visited_mono, (Sg t' b' c H Hc).
      * intros m. rewrite done_cons. destruct (t_node t =? m) eqn:Em; [apply Nat.eqb_eq in Em; subst; right; exists t, ok; auto | apply Q2'].
      * intros m. rewrite done_cons. destruct (t_node t =? m) eqn:Em.
        -- apply Nat.eqb_eq in Em. subst m. intros _. right. right.
           assert (Ne : i_disk s (t_node t) <> None) by (unfold w in Ex; cbn in Ex; destruct (i_disk s (t_node t)); discriminate).
           destruct (Q4 _ Nd) as [[D _]|[D _]]; [|contradiction]. rewrite D in Ne. split; [exact D|]. split; [exact Ne|]. rewrite Sa in Act. congruence.
        -- cbn. intros H. destruct (Q3 m H) as [A|[A|A]]; [left; auto | right; left; apply visited_mono, K, A | right; right; exact A].
      * intros m. rewrite done_cons. destruct (t_node t =? m); [discriminate | apply Q4].
    + destruct ok.
      * set (s' := set_file s (t_node t) _). set (w' := world_of S drift s').
        set (st2 := snd (get_csig w' (upd st1 (t_node t) empty_ninfo) (t_node t))).
        assert (G : ni_csig (st2 (t_node t)) <> None).
        { unfold st2, get_csig. rewrite upd_same. cbn. rewrite upd_same. discriminate. }
        assert (K2 : forall m, ni_csig (st1 m) <> None -> ni_csig (visited w' st2 (t_node t) m) <> None).
        { intros m H. apply visited_mono. destruct (Nat.eq_dec m (t_node t)) as [->|Nm]; [exact G|].
          unfold st2, get_csig. rewrite upd_same. cbn. rewrite !upd_other by exact Nm. exact H. }
        constructor; cbn [fst snd].
        -- intros t' b' c H Hc. apply K2, (Sg t' b' c H Hc).
        -- intros m. rewrite done_cons. destruct (t_node t =? m) eqn:Em; [apply Nat.eqb_eq in Em; subst; right; exists t, true; auto | apply Q2'].
        -- intros m. rewrite done_cons. destruct (t_node t =? m) eqn:Em; [apply Nat.eqb_eq in Em; subst; intros _; right; left; apply visited_mono, G|]. cbn [orb]. intros H.
           destruct (Q3 m H) as [A|[A|(A & A' & A'')]]; [left; auto | right; left; apply K2, K, A | right; right].
           split; [|auto]. unfold s'. rewrite file_other by (apply Dif, H). exact A.
        -- intros m. rewrite done_cons. destruct (t_node t =? m) eqn:Em; [discriminate|]. cbn [orb]. intros H. apply Nat.eqb_neq in Em.
           unfold s'. rewrite file_other by congruence. cbn. destruct (m =? t_node t) eqn:Em2; [apply Nat.eqb_eq in Em2; congruence | apply Q4, H].
      * constructor; cbn [fst snd].
        -- intros t' b' c H Hc. apply (Sg t' b' c H Hc).
        -- exact Q2'.
        -- intros m H. destruct (Q3 m H) as [A|[A|(A & A' & A'')]]; [left; auto | right; left; apply K, A | right; right].
           split; [|auto]. rewrite file_other by (apply Dif, H). exact A.
        -- intros m H. destruct (Nat.eq_dec m (t_node t)) as [->|Nm].
           ++ right. split; [apply file_same|]. cbn. rewrite Nat.eqb_refl. exact Sc.
           ++ rewrite file_other by exact Nm. cbn. destruct (m =? t_node t) eqn:Em2; [apply Nat.eqb_eq in Em2; congruence | apply Q4, H].
Qed.

Lemma run_qinv drift s0 : db_ok s0 -> forall suf pre items r, ordered items -> items = pre ++ suf -> rinv drift s0 r -> pinv pre r -> qinv s0 pre r ->
  qinv s0 items (fold_left (run_item S N drift) suf r).
Proof.
  intros Db. induction suf as [|it suf IH]; intros pre items r O E R P Q.
  - cbn. rewrite app_nil_r in E. subst. exact Q.
  - pose proof (step_conds items pre it suf r O E P) as C.
    destruct (item_rinv drift s0 r it Db R C) as (R' & _ & T' & C').
    assert (E' : items = (pre ++ [it]) ++ suf) by (rewrite <- app_assoc; exact E).
    cbn [fold_left]. apply (IH (pre ++ [it]) items (run_item S N drift r it) O E' R'); [|apply (item_qinv drift s0 items pre it suf r O E R Q)].
    destruct P as [P1 P2]. constructor.
    + intros n t H. destruct (T' n t H) as [Q'|(b & -> & ->)].
      * destruct (P1 n t Q') as (b & H1 & ->). exists b. split; [apply in_or_app; auto | reflexivity].
      * exists b. split; [apply in_or_app; right; left; reflexivity | reflexivity].
    + intros m H. destruct (C' m H) as [Q'|Q'].
      * destruct (P2 m Q') as [H1|(t & b & H1 & H2)]; [left; apply in_or_app; auto|]. right. exists t, b. split; [apply in_or_app; auto | exact H2].
      * destruct it as [n|t b]; [left; subst; apply in_or_app; right; left; reflexivity|]. right. exists t, b. split; [apply in_or_app; right; left; reflexivity | exact Q'].
Qed.

Lemma start_pinv s0 : pinv [] (s0, (fun _ => empty_ninfo), []).
Proof. constructor; cbn; [discriminate | intros m X; elim X; reflexivity]. Qed.
Lemma start_qinv s0 : qinv s0 [] (s0, (fun _ => empty_ninfo), []).
Proof. constructor; cbn; [intros t b c [] | discriminate | discriminate | auto]. Qed.

Lemma save_hon drift s0 items : db_ok s0 -> ts_ok s0 -> hon s0 -> drift <> 0%Z -> ordered items -> sources_used items ->
  hon (save N (run_items S N drift s0 items)).
Proof.
  intros Db Ts H D O Us. pose proof (hon_honest drift s0 H D) as Hn.
  destruct (run_rinv drift s0 Db items [] items _ O eq_refl (start_rinv drift s0 Ts Hn) (start_pinv s0)) as [R _].
  pose proof (run_qinv drift s0 Db items [] items _ O eq_refl (start_rinv drift s0 Ts Hn) (start_pinv s0) (start_qinv s0)) as Q.
  unfold run_items. destruct (fold_left (run_item S N drift) items (s0, fun _ => empty_ninfo, [])) as [[s st] dn].
  destruct R as [(Sa & Sb & Sc) Co Ho [[_ Tm] Tst] Dn Re]. destruct Q as [Q1 Q2 Q3 Q4]. cbn [fst snd] in *.
  intros n c. cbn [save i_ni i_db i_disk i_mtime]. destruct (was_done dn n) eqn:Wd.
  - cbn [merge_ninfo ni_csig ni_ts].
    assert (X : orelse (ni_csig (st n)) (ni_csig (i_ni s n)) = Some c -> c = s_hash S (i_disk s n)).
    { destruct (ni_csig (st n)) as [x|] eqn:Ex; cbn.
      - intros E. injection E as <-. apply (Co n x Ex).
      - intros E. destruct (Q3 n Wd) as [A|[A|(A & A' & A'')]].
        + destruct (Us n A) as (t & b & H1 & H2). elim (Q1 t b n H1 H2). exact Ex.
        + elim A. exact Ex.
        + rewrite Sb in E. destruct (H n c E) as [_ Y]. rewrite A. apply Y; assumption. }
    intros E. split; intros; apply X, E.
  - intros E. rewrite Sb in *. destruct (H n c E) as [H1 H2]. destruct (Q4 n Wd) as [[A B]|[A B]].
    + rewrite A, B. split; [exact H1|]. assert (Tn : tgt_of dn n = None).
      { clear - Wd. induction dn as [|[k o] dn IH]; [reflexivity|]. rewrite done_cons in Wd. rewrite tgt_cons. apply orb_false_elim in Wd. destruct Wd as [-> Wd]. apply IH, Wd. }
      rewrite Tn, Sa. exact H2.
    + split; [|intros _ X; elim X; exact A]. intros X. destruct Ts as [T _]. specialize (T n _ X). lia.
Qed.

Lemma apply_hon s o : db_ok s -> ts_ok s -> hon s -> legal_full1 s o -> legal1 S s o /\ hon (apply S N s o).
Proof.
  intros Db Ts H L. destruct o as [n c|n|k|drift items|drift items]; cbn [apply legal1 legal_full1] in *.
  - split; [exact L|]. intros m x. cbn. intros E. destruct (H m x E) as [H1 H2]. destruct (m =? n) eqn:Em; [|split; assumption].
    apply Nat.eqb_eq in Em. subst. split; [|congruence]. intros X. destruct Ts as [T _]. specialize (T _ _ X). lia.
  - split; [exact Logic.I|]. intros m x. cbn. intros E. destruct (H m x E) as [H1 H2]. destruct (m =? n) eqn:Em; [|split; assumption].
    apply Nat.eqb_eq in Em. subst. split; [|congruence]. intros X. destruct Ts as [T _]. specialize (T _ _ X). lia.
  - split; [exact Logic.I | exact H].
  - destruct L as (O & U & D). split; [split; [exact O | apply hon_honest; assumption] | apply save_hon; assumption].
  - elim L.
Qed.
Lemma history_full : forall ops s, db_ok s -> ts_ok s -> hon s -> legal_full S N s ops ->
  legal S N s ops /\ hon (fold_left (apply S N) ops s).
Proof.
  induction ops as [|o ops IH]; intros s Db Ts H L; [split; [exact Logic.I | exact H]|]. destruct L as [L1 L2].
  destruct (apply_hon s o Db Ts H L1) as [A B]. destruct (apply_ok s o Db Ts A) as [D T]. destruct (IH _ D T B L2) as [X Y].
  split; [split; assumption | exact Y].
Qed.
Lemma fresh_hon disk : hon (fresh disk). Proof. intros n c. discriminate. Qed.
End Incr.
