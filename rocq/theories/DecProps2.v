(* C46: the timestamp deciders, and different deciders for different dependencies (Environment.Decider).  Vocabulary in DecSpec.v. *)
From Coq Require Import List Arith ZArith Bool Lia.
Import ListNotations.
From Verif Require Import DecModel DecSpec DecProofs DecProps.

(* Specification: dependency n of target t, for which p was recorded, counts as unchanged. *)
Definition unchanged (w : world) (t : target) (d : decider) (n : node) (p : ninfo) : Prop :=
  match d with
  | DContent => ni_csig p = Some (w_hash w n)
  | DTimestampNewer => w_mtime w n <= w_mtime w (t_node t)
  | DTimestampMatch => ni_ts p = Some (w_mtime w n)
  | DTimestampContent => False                                    (* not used below; see C13d *)
  end.
Definition unchangedb (w : world) (t : target) (d : decider) (n : node) (p : option ninfo) : bool :=
  match d with
  | DContent => same_sig w n p
  | DTimestampNewer => w_mtime w n <=? w_mtime w (t_node t)
  | DTimestampMatch => negb (changed_timestamp_match w n p)
  | DTimestampContent => false
  end.
Lemma unchangedb_iff w t d n p : unchangedb w t d n (Some p) = true <-> unchanged w t d n p.
Proof.
  destruct d; cbn.
  - destruct (ni_csig p) as [x|]; [|split; discriminate]. rewrite Nat.eqb_eq. split; congruence.
  - apply Nat.leb_le.
  - unfold changed_timestamp_match. destruct (ni_ts p) as [x|]; [|split; discriminate]. rewrite negb_involutive, Nat.eqb_eq. split; congruence.
  - split; [discriminate | tauto].
Qed.

Lemma loop_mixed N w bi t dec : timestamps_honest w -> (forall n, dec n <> DTimestampContent) -> forall cs ps st r, computed_ok w st ->
  exists st', changed_loop N w bi t dec st cs ps r = (r || negb (forallb (fun q => unchangedb w t (dec (fst q)) (fst q) (snd q)) (combine cs ps)), st').
Proof.
  intros Hw Hd. induction cs as [|c cs IH]; intros ps st r Hs; [exists st; cbn; rewrite orb_false_r; reflexivity|].
  destruct ps as [|p ps]; [exists st; cbn; rewrite orb_false_r; reflexivity|].
  cbn [changed_loop combine forallb fst snd].
  assert (D : exists st1, decide N w bi t (dec c) st c p = (negb (unchangedb w t (dec c) c p), st1) /\ computed_ok w st1).
  { specialize (Hd c). destruct (dec c); cbn [decide unchangedb]; [| | | congruence].
    - unfold changed_content. destruct (get_csig_ok w st c Hw Hs) as (st1 & E & S1 & _). rewrite E. exists st1. split; [|exact S1]. f_equal.
      destruct p as [q|]; cbn; [destruct (ni_csig q)|]; reflexivity.
    - exists st. split; [|exact Hs]. f_equal. rewrite Nat.ltb_antisym. reflexivity.
    - exists st. rewrite negb_involutive. auto. }
  destruct D as (st1 & E & S1). rewrite E. destruct (IH ps st1 (r || negb (unchangedb w t (dec c) c p)) S1) as (st' & E'). exists st'. rewrite E'.
  f_equal. rewrite negb_andb, orb_assoc. reflexivity.
Qed.

(* C46.  Each dependency has its own decider: content, timestamp-newer or timestamp-match.  A target is up to date exactly
   when it exists, its action is the recorded one, it has as many dependencies as recorded and each one is
   unchanged according to its decider, compared with what was recorded in the same position. *)
Theorem C46_mixed_deciders : forall N w bi dec st t,
  timestamps_honest w -> computed_ok w st -> (forall n, dec n <> DTimestampContent) ->
  (fst (is_up_to_date N w bi None dec st t) = true <->
     w_exists w (t_node t) = true /\ length (recorded bi) = length (children t)
     /\ (t_builder t = true -> bactsig bi = Some (t_action t))
     /\ (forall i n p, nth_error (children t) i = Some n -> nth_error (recorded bi) i = Some p -> unchanged w t (dec n) n p)).
Proof.
  intros N w bi dec st t Hw Hs Hd. unfold is_up_to_date. destruct (w_exists w (t_node t)); [|cbn; split; [discriminate | intros [H _]; discriminate]].
  unfold changed. change (bsourcesigs bi ++ bdependsigs bi ++ bimplicitsigs bi) with (recorded bi). rewrite map_length.
  destruct (loop_mixed N w bi t dec Hw Hd (children t) (map Some (recorded bi) ++ repeat None (length (children t) - length (recorded bi))) st
              (negb (length (children t) =? length (recorded bi))) Hs) as (st' & E). rewrite E. clear E. cbn [fst].
  assert (Act : (if t_builder t then negb (match bactsig bi with Some s => negb (s =? t_action t) | None => true end) else true) = true <-> (t_builder t = true -> bactsig bi = Some (t_action t))).
  { destruct (t_builder t); [|split; [discriminate | reflexivity]]. destruct (bactsig bi) as [s|]; cbn; [rewrite negb_involutive, Nat.eqb_eq; split; [intros ->; reflexivity | intros H; specialize (H eq_refl); congruence] | split; [discriminate | intros H; specialize (H eq_refl); discriminate]]. }
  destruct (length (children t) =? length (recorded bi)) eqn:L; [apply Nat.eqb_eq in L | apply Nat.eqb_neq in L].
  - rewrite L, Nat.sub_diag. cbn [repeat negb orb]. rewrite app_nil_r.
    assert (Q : forall cs rs, length cs = length rs -> (forallb (fun q => unchangedb w t (dec (fst q)) (fst q) (snd q)) (combine cs (map Some rs)) = true <->
       forall i n p, nth_error cs i = Some n -> nth_error rs i = Some p -> unchanged w t (dec n) n p)).
    { induction cs as [|c cs IH]; intros [|r rs] Le; cbn in Le; try lia; [split; [intros _ [|i] n p H; discriminate | reflexivity]|].
      cbn [map combine forallb fst snd]. rewrite andb_true_iff, unchangedb_iff, (IH rs) by lia. split.
      - intros [A B] [|i] n p H1 H2; cbn in H1, H2; [injection H1 as <-; injection H2 as <-; exact A | eapply B; eassumption].
      - intros H. split; [apply (H 0); reflexivity | intros i n p H1 H2; apply (H (S i)); assumption]. }
    specialize (Q (children t) (recorded bi) L).
    destruct (forallb (fun q => unchangedb w t (dec (fst q)) (fst q) (snd q)) (combine (children t) (map Some (recorded bi)))) eqn:F; cbn [negb orb].
    + split.
      * intros H. split; [reflexivity|]. split; [congruence|]. split; [apply Act; destruct (t_builder t); exact H | apply Q; reflexivity].
      * intros (_ & _ & A & _). apply Act in A. destruct (t_builder t); exact A.
    + split; [destruct (t_builder t); discriminate|]. intros (_ & _ & _ & B). apply Q in B. discriminate.
  - cbn [negb orb]. split; [destruct (t_builder t); discriminate|]. intros (_ & B & _). congruence.
Qed.
Print Assumptions C46_mixed_deciders.

(* C46b.  The special cases: 'timestamp-newer' (like make) and 'timestamp-match'. *)
Theorem C46b_timestamp_newer : forall N w bi st t, timestamps_honest w -> computed_ok w st ->
  (fst (is_up_to_date N w bi None (fun _ => DTimestampNewer) st t) = true <->
     w_exists w (t_node t) = true /\ length (recorded bi) = length (children t) /\ (t_builder t = true -> bactsig bi = Some (t_action t))
     /\ forall n, In n (children t) -> w_mtime w n <= w_mtime w (t_node t)).
Proof.
  intros N w bi st t Hw Hs. rewrite (C46_mixed_deciders N w bi (fun _ => DTimestampNewer) st t Hw Hs) by discriminate.
  split; intros (A & B & C & D); (split; [exact A|]; split; [exact B|]; split; [exact C|]).
  - intros n Hn. apply In_nth_error in Hn. destruct Hn as [i Hi]. destruct (nth_error (recorded bi) i) as [p|] eqn:E.
    + apply (D i n p Hi E).
    + apply nth_error_None in E. assert (i < length (children t)) by (apply nth_error_Some; congruence). lia.
  - intros i n p Hi _. apply D. eapply nth_error_In, Hi.
Qed.
Print Assumptions C46b_timestamp_newer.
Theorem C46c_timestamp_match : forall N w bi st t, timestamps_honest w -> computed_ok w st ->
  (fst (is_up_to_date N w bi None timestamp_match_decider st t) = true <->
     w_exists w (t_node t) = true /\ (t_builder t = true -> bactsig bi = Some (t_action t))
     /\ map ni_ts (recorded bi) = map (fun n => Some (w_mtime w n)) (children t)).
Proof.
  intros N w bi st t Hw Hs. rewrite (C46_mixed_deciders N w bi timestamp_match_decider st t Hw Hs) by discriminate.
  assert (Q : forall cs rs, (length rs = length cs /\ forall i n p, nth_error cs i = Some n -> nth_error rs i = Some p -> ni_ts p = Some (w_mtime w n))
     <-> map ni_ts rs = map (fun n => Some (w_mtime w n)) cs).
  { induction cs as [|c cs IH]; intros [|r rs]; cbn [length map]; try (split; [intros [H _]; discriminate | discriminate]).
    - split; [reflexivity|]. intros _. split; [reflexivity | intros [|i] n p H; discriminate].
    - split.
      + intros [L H]. f_equal; [apply (H 0); reflexivity | apply IH; split; [lia | intros i n p H1 H2; apply (H (S i)); assumption]].
      + intros H. injection H as H1 H2. apply IH in H2. destruct H2 as [L H2]. split; [lia|]. intros [|i] n p A B; cbn in A, B; [congruence | eapply H2; eassumption]. }
  specialize (Q (children t) (recorded bi)). split.
  - intros (A & B & C & D). split; [exact A|]. split; [exact C|]. apply Q. split; [exact B | exact D].
  - intros (A & B & C). apply Q in C. destruct C as [C D]. auto.
Qed.
Print Assumptions C46c_timestamp_match.

(* C46d.  Null builds: what was recorded when t was built (st0: timestamps and signatures of that run) makes the next check say up
   to date if since then no dependency changed in the sense of its decider. *)
Theorem C46d_null_build : forall N w st0 dec st t,
  target_wf t -> ignore_not_depends t -> timestamps_honest w -> computed_ok w st -> (forall n, dec n <> DTimestampContent) ->
  w_exists w (t_node t) = true -> (forall n, In n (children t) -> unchanged w t (dec n) n (st0 n)) ->
  fst (is_up_to_date N w (saved N t st0) None dec st t) = true.
Proof.
  intros N w st0 dec st t W Ig Hw Hs Hd Ex H. apply C46_mixed_deciders; [exact Hw | exact Hs | exact Hd|].
  rewrite (recorded_saved N t st0 W Ig). split; [exact Ex|]. split; [apply map_length|]. split; [intros B; rewrite act_saved, B; reflexivity|].
  intros i n p Hi Hp. rewrite nth_error_map, Hi in Hp. injection Hp as <-. apply H. eapply nth_error_In, Hi.
Qed.
Print Assumptions C46d_null_build.

(* Refuted: with timestamp-newer a dependency replaced by another (not newer) one is not noticed: only the number of dependencies
   is compared.  The same holds for two dependencies with equal timestamps and timestamp-match, or equal contents
   and the content decider. *)
Theorem C46_replaced_dependency_refuted : exists N w st t0 t st0,
  target_wf t0 /\ target_wf t /\ ignore_not_depends t0 /\ names_ok N /\ timestamps_honest w /\ computed_ok w st
  /\ t_action t = t_action t0 /\ (exists n m, In n (children t0) /\ ~ In n (children t) /\ In m (children t) /\ ~ In m (children t0))
  /\ fst (is_up_to_date N w (saved N t0 st0) None (fun _ => DTimestampNewer) st t) = true.
Proof.
  pose (mk := fun x => {| t_node := 0; t_sources := [1]; t_specific := true; t_batch := []; t_depends := []; t_implicit := [x]; t_ignore := []; t_builder := true; t_action := 7 |}).
  assert (Wf : forall x, target_wf (mk x)) by (intros x; split; [repeat constructor; cbn; tauto | split; [intros n [] | discriminate]]).
  exists wN, {| w_exists := fun _ => true; w_mtime := fun n => if n =? 0 then 100 else 50; w_hash := fun n => 50 + n; w_now := 500; w_drift := 30%Z; w_stored := fun _ => empty_ninfo |},
    (fun _ => empty_ninfo), (mk 2), (mk 3), (fun n => NI (Some n) (Some 50)).
  split; [apply Wf|]. split; [apply Wf|]. split; [intros n []|]. split; [split; auto|]. split; [split; [discriminate | intros _ n c t; discriminate]|].
  split; [intros n s; discriminate|]. split; [reflexivity|]. split; [exists 2, 3; cbn; repeat split; auto; intros [H|[H|[]]]; discriminate | reflexivity].
Qed.
Print Assumptions C46_replaced_dependency_refuted.

(* witness: target 0 with source 1 (content), explicit dependency 2 (timestamp-newer) and header 3 (timestamp-match) *)
Definition wdec (n : node) : decider := match n with 1 => DContent | 2 => DTimestampNewer | _ => DTimestampMatch end.
Definition w46 (m2 : nat) : world := {| w_exists := fun _ => true; w_mtime := fun n => if n =? 0 then 200 else if n =? 2 then m2 else 100 + n; w_hash := fun n => 50 + n; w_now := 500; w_drift := (-1)%Z; w_stored := fun _ => empty_ninfo |}.
Example C46_witness : timestamps_honest (w46 150) /\ computed_ok (w46 150) (fun _ => empty_ninfo) /\ (forall n, wdec n <> DTimestampContent) /\ target_wf wt /\ ignore_not_depends wt
  /\ fst (is_up_to_date wN (w46 150) (saved wN wt (fun n => NI (Some (50 + n)) (Some (100 + n)))) None wdec (fun _ => empty_ninfo) wt) = true
  /\ fst (is_up_to_date wN (w46 201) (saved wN wt (fun n => NI (Some (50 + n)) (Some (100 + n)))) None wdec (fun _ => empty_ninfo) wt) = false.
Proof.
  split; [split; [discriminate | intros H; cbn in H; lia]|]. split; [intros n s; discriminate|]. split; [intros [|[|[|n]]]; discriminate|].
  split; [apply wt_wf|]. split; [apply wt_ig|]. split; reflexivity.
Qed.
