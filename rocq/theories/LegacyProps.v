(* C09c, C10d-e, C11c, C53g: the schedulers LegacyParallel and Serial.  Vocabulary in LegacySpec.v. *)
From Coq Require Import List Arith ZArith Bool Lia Permutation.
Import ListNotations.
From Verif Require Import TMModel TMBase TMSpec TMSafe TMSafe2 TMTerm TMEnd TMProps JobModel JobSpec JobProofs JobProps JobInt LegacyModel LegacySpec.

Definition rq1 (r : option task) : list task := match r with Some t => [t] | None => [] end.
Definition rqs (q : list (option task)) : list task := flat_map rq1 q.
Definition wt1 (w : LegacyModel.wpc) : list task := match w with WStart t | WExec t | WPut t _ => [t] | _ => [] end.
Definition wts (l : list LegacyModel.wpc) : list task := flat_map wt1 l.
Definition wp1 (w : LegacyModel.wpc) : list (task * bool) := match w with WPut t ok => [(t, ok)] | _ => [] end.
Definition wps (l : list LegacyModel.wpc) : list (task * bool) := flat_map wp1 l.
Definition we1 (w : LegacyModel.wpc) : list task := match w with WExec t => [t] | _ => [] end.
Definition wes (l : list LegacyModel.wpc) : list task := flat_map we1 l.
Definition got (m : mpc) : list (task * bool) := match m with MGot t ok => [(t, ok)] | _ => [] end.
Definition isnone (r : option task) : bool := match r with None => true | _ => false end.
Definition isexit (w : LegacyModel.wpc) : bool := match w with WExit => true | _ => false end.
Definition nnone (q : list (option task)) : nat := length (filter isnone q).
Definition nexit (l : list LegacyModel.wpc) : nat := length (filter isexit l).
Definition toput (m : mpc) : nat := match m with MPut k => k | _ => 0 end.
Definition cleaning (m : mpc) : bool := match m with MPut _ | MJoin _ | MDone => true | _ => false end.

Lemma wts_mid l1 p l2 : Permutation (wts (l1 ++ p :: l2)) (wt1 p ++ wts (l1 ++ l2)). Proof. apply (flat_mid wt1). Qed.
Lemma wps_mid l1 p l2 : Permutation (wps (l1 ++ p :: l2)) (wp1 p ++ wps (l1 ++ l2)). Proof. apply (flat_mid wp1). Qed.
Lemma wes_mid l1 p l2 : Permutation (wes (l1 ++ p :: l2)) (we1 p ++ wes (l1 ++ l2)). Proof. apply (flat_mid we1). Qed.
Lemma nexit_mid l1 p l2 : nexit (l1 ++ p :: l2) = nexit (l1 ++ l2) + (if isexit p then 1 else 0). Proof. apply filter_mid. Qed.
Lemma rqs_app a b : rqs (a ++ b) = rqs a ++ rqs b. Proof. apply flat_map_app. Qed.
Lemma nnone_app a b : nnone (a ++ b) = nnone a + nnone b. Proof. unfold nnone. rewrite filter_app, app_length. reflexivity. Qed.

Record linv (c : cfg) (n : nat) (x : lp) : Prop := {
  li_reach : reachable c (l_ops x) (l_tm x);
  li_run : Permutation (running (l_tm x)) (rqs (l_req x) ++ wts (l_ths x) ++ map fst (l_res x) ++ map fst (got (l_main x)));
  li_jobs : l_jobs x + length (got (l_main x)) = length (running (l_tm x));
  li_le : length (running (l_tm x)) <= n;
  li_wait : l_main x = MWait -> l_jobs x >= 1;
  li_len : length (l_ths x) = n;
  li_sent : nnone (l_req x) + nexit (l_ths x) + toput (l_main x) = if cleaning (l_main x) then n else 0;
  li_fin : cleaning (l_main x) = true -> running (l_tm x) = [] /\ over c (l_ops x) (l_tm x);
  li_handed : Permutation (handed (trace (l_tm x))) (running (l_tm x) ++ map (fun h => fst (fst h)) (l_hist x));
  li_pairs : Permutation (wps (l_ths x) ++ l_res x ++ got (l_main x) ++ map fst (l_hist x)) (l_done x ++ map not_executed (l_skip x));
  li_exec : Permutation (l_exec x) (wes (l_ths x) ++ map fst (l_done x));
  li_ok : forall t o, In (t, true, o) (l_hist x) -> o = OOk;
  li_int : l_int x = true -> In EStop (trace (l_tm x)) }.

Lemma repeat_flat {A B} (f : A -> list B) a k : f a = [] -> flat_map f (repeat a k) = [].
Proof. intros E. induction k as [|k IH]; cbn; [reflexivity | rewrite E, IH; reflexivity]. Qed.
Lemma init_linv c n : linv c n (lp_init c n).
Proof.
  constructor; cbn [lp_init l_tm l_ops l_main l_ths l_jobs l_req l_res l_int l_exec l_skip l_done l_hist init running trace got toput cleaning app map length rqs flat_map handed]; auto; try discriminate; try lia.
  - split; [constructor | exists 0; reflexivity].
  - unfold wts. rewrite repeat_flat by reflexivity. constructor.
  - apply repeat_length.
  - assert (E : nexit (repeat WGet n) = 0) by (unfold nexit; induction n as [|k IH]; cbn; auto). rewrite E. reflexivity.
  - unfold wps. rewrite repeat_flat by reflexivity. constructor.
  - unfold wes. rewrite repeat_flat by reflexivity. constructor.
  - intros t o [].
Qed.

Ltac lfields := cbn [l_tm l_ops l_main l_ths l_jobs l_req l_res l_int l_exec l_skip l_done l_hist set_main set_worker] in *.

Section Step.
Context (c : cfg) (n : nat) (W : cfg_wf c).

(* what a worker does *)
Lemma worker_linv x i out y : linv c n x -> worker_step x i out = Some y -> linv c n y.
Proof.
  intros [I1 I2 I3 I4 I5 I6 I7 I8 I9 I10 I11 I12 I13] H. unfold worker_step in H.
  destruct (nth_error (l_ths x) i) as [w|] eqn:Ew; [|discriminate].
  assert (P : forall v, exists l1 l2, l_ths x = l1 ++ w :: l2 /\ set_nth i v (l_ths x) = l1 ++ v :: l2) by
      (intros v; destruct (set_nth_split i v w (l_ths x) Ew) as (l1 & l2 & A & B & _); exists l1, l2; auto).
  assert (G : forall v req res ex sk dn,
     Permutation (rqs (l_req x) ++ wt1 w ++ map fst (l_res x)) (rqs req ++ wt1 v ++ map fst res) ->
     nnone (l_req x) + (if isexit w then 1 else 0) = nnone req + (if isexit v then 1 else 0) ->
     (forall a, Permutation (wp1 w ++ l_res x ++ a) (l_done x ++ map not_executed (l_skip x)) -> Permutation (wp1 v ++ res ++ a) (dn ++ map not_executed sk)) ->
     (forall a, Permutation (l_exec x) (we1 w ++ a ++ map fst (l_done x)) -> Permutation ex (we1 v ++ a ++ map fst dn)) ->
     linv c n (set_worker x i v req res ex sk dn)).
  { intros v req res ex sk dn G1 G2 G3 G4. destruct (P v) as (l1 & l2 & E1 & E2).
    constructor; lfields; auto; rewrite ?E2; rewrite ?E1 in *.
    - rewrite I2. rewrite !wts_mid. set (a := wts (l1 ++ l2)). set (b := map fst (got (l_main x))).
      transitivity ((rqs (l_req x) ++ wt1 w ++ map fst (l_res x)) ++ a ++ b).
      + rewrite <- !app_assoc. apply Permutation_app_head, Permutation_app_head. rewrite !app_assoc. apply Permutation_app_tail, Permutation_app_comm.
      + rewrite G1. rewrite <- !app_assoc. apply Permutation_app_head, Permutation_app_head. rewrite !app_assoc. apply Permutation_app_tail, Permutation_app_comm.
    - rewrite app_length in *. cbn [length] in *. exact I6.
    - rewrite nexit_mid in *. lia.
    - rewrite wps_mid, <- app_assoc in *.
      set (a := wps (l1 ++ l2)) in *. set (b := got (l_main x) ++ map fst (l_hist x)) in *.
      transitivity (wp1 v ++ res ++ a ++ b); [apply Permutation_app_head; rewrite !app_assoc; apply Permutation_app_tail, Permutation_app_comm|].
      apply G3. rewrite <- I10. apply Permutation_app_head. rewrite !app_assoc. apply Permutation_app_tail, Permutation_app_comm.
    - rewrite wes_mid, <- app_assoc in *. apply G4, I11. }
  destruct w as [|t|t|t ok|]; [| | | |discriminate].
  - destruct (l_req x) as [|[t|] r] eqn:Er; [discriminate| |]; injection H as <-; apply G; rewrite ?Er; cbn; auto; try (rewrite (Permutation_app_comm (rqs r)); reflexivity).
    all: try (apply Permutation_cons_app; reflexivity); try (unfold nnone; cbn; lia).
  - destruct (l_int x); injection H as <-; apply G; cbn; auto.
    + intros a Q. apply Permutation_cons_app. exact Q.
  - cbn zeta in H. injection H as <-. apply G; cbn; auto.
    intros a Q. rewrite Q. apply Permutation_middle.
  - injection H as <-. apply G; cbn; auto.
    + rewrite map_app. cbn. apply Permutation_app_head. rewrite <- Permutation_cons_append. reflexivity.
    + intros a Q. rewrite <- Q, <- app_assoc. apply Permutation_sym, (Permutation_middle (l_res x) a).
Qed.

Lemma main_linv x fuel e out y : n >= 1 -> env_ok c e -> linv c n x -> main_step c n x fuel e out = Some y -> linv c n y.
Proof.
  intros Hn Eo I H. assert (D : dinv c (l_tm x)) by (eapply reachable_dinv; [exact W | apply (li_reach c n x I)]).
  destruct I as [I1 I2 I3 I4 I5 I6 I7 I8 I9 I10 I11 I12 I13]. unfold main_step in H.
  destruct (l_main x) as [| |t ok| |k|k|] eqn:Em; cbn [got toput cleaning app map length] in *.
  - (* MSearch *)
    destruct (l_jobs x <? n) eqn:Ej.
    + apply Nat.ltb_lt in Ej. destruct (next_task fuel c e (l_tm x)) as [[s found]|] eqn:En; [|discriminate].
      assert (Re : reachable c (l_ops x ++ [Next e]) s) by (eapply (reachable_step c _ _ (Next e) fuel); [exact I1 | exact Eo | cbn; rewrite En; reflexivity]).
      assert (Ns : In EStop (trace (l_tm x)) -> In EStop (trace s)).
      { intros Q. rewrite (C04_stop_is_final c (l_ops x) (l_tm x) fuel e s W I1 Eo Q); [exact Q | cbn; rewrite En; reflexivity]. }
      destruct (next_running c e fuel (l_tm x) s found W Eo D En) as [(R & Hh)|(t & -> & R & Hh)].
      * assert (Eq : (length (running (l_tm x)) <? length (running s)) = false) by (rewrite R; apply Nat.ltb_irrefl).
        destruct found; [rewrite Eq in H|]; injection H as <-; constructor; lfields; cbn [got toput cleaning app map length]; rewrite ?R, ?Hh; auto; try discriminate.
        -- destruct (l_jobs x =? 0); cbn; exact I2.
        -- destruct (l_jobs x =? 0); cbn; exact I3.
        -- intros Q. destruct (l_jobs x =? 0) eqn:E0; [discriminate Q|]. apply Nat.eqb_neq in E0. lia.
        -- destruct (l_jobs x =? 0); cbn; lia.
        -- destruct (l_jobs x =? 0) eqn:E0; cbn; [|discriminate]. intros _. apply Nat.eqb_eq in E0. assert (R0 : running (l_tm x) = []) by (destruct (running (l_tm x)); [reflexivity | cbn in I3; lia]).
           split; [exact R0|]. apply over_ended. exists (l_ops x), e, (l_tm x), fuel. auto.
        -- destruct (l_jobs x =? 0); cbn; exact I10.
      * assert (Eq : (length (running (l_tm x)) <? length (running s)) = true) by (rewrite R; apply Nat.ltb_lt; cbn; lia).
        rewrite Eq, R in H. injection H as <-. constructor; lfields; cbn [got toput cleaning app map length]; rewrite ?R, ?Hh; auto; try discriminate.
        -- rewrite rqs_app. cbn [rqs flat_map rq1 app]. rewrite <- app_assoc. apply Permutation_cons_app. exact I2.
        -- cbn [length]. lia.
        -- cbn [length]. lia.
        -- rewrite nnone_app. cbn. lia.
        -- cbn [app]. apply perm_skip. exact I9.
    + injection H as <-. apply Nat.ltb_ge in Ej. constructor; lfields; cbn [got toput cleaning app map length]; auto; try discriminate. lia.
  - (* MWait *)
    destruct (l_res x) as [|[t ok] r] eqn:Er; [discriminate|]. injection H as <-. pose proof (I5 eq_refl) as J.
    constructor; lfields; cbn [got toput cleaning app map length fst] in *; auto; try discriminate; try lia.
    + rewrite I2. apply Permutation_app_head, Permutation_app_head. rewrite <- Permutation_cons_append, app_nil_r. reflexivity.
    + rewrite <- I10. apply Permutation_app_head. apply Permutation_sym, Permutation_middle.
  - (* MGot *)
    cbn zeta in H. destruct (step fuel c (l_tm x) _) as [s|] eqn:Es; [|discriminate]. injection H as <-.
    assert (Ht : In t (running (l_tm x))) by (eapply Permutation_in; [apply Permutation_sym, I2|]; rewrite !in_app_iff; cbn; tauto).
    destruct (done_running c e fuel (l_tm x) t _ s Eo D Ht Es) as [P Hh].
    assert (Re : reachable c (l_ops x ++ [Done (index_of t (running (l_tm x))) (if ok then OOk else out) e]) s) by (eapply reachable_step; [exact I1 | exact Eo | exact Es]).
    assert (L : length (running (l_tm x)) = S (length (running s))) by (rewrite P; reflexivity).
    constructor; lfields; cbn [got toput cleaning app map length fst] in *; auto; try discriminate; try lia.
    + apply (Permutation_cons_inv (a := t)). rewrite <- P, I2, app_nil_r. rewrite !app_assoc. rewrite <- Permutation_cons_append. reflexivity.
    + rewrite Hh, I9, P. cbn [app]. apply Permutation_middle.
    + intros u o [Q|Q]; [injection Q as -> -> <-; reflexivity | eapply I12; exact Q].
    + intros Q. specialize (I13 Q). destruct (index_take t (running (l_tm x)) Ht) as (l1 & l2 & El & T). cbn [step] in Es. rewrite T in Es.
      destruct (retire_trace _ _ _ _ (emit (set_running (l_tm x) (l1 ++ l2)) (match (if ok then OOk else out) with OOk => EFinish t | _ => EFail t end)) _ _ (env_ok_wf c e Eo) (di_ref _ _ D) Es) as (Y1 & _).
      rewrite Y1. apply in_or_app. right. right. exact I13.
  - (* MTest *)
    injection H as <-. constructor; lfields; auto; destruct (l_res x) as [|[t ok] r] eqn:Er; cbn [got toput cleaning app map length fst] in *; auto; try discriminate; try lia.
    intros _. assert (L : length (running (l_tm x)) >= 1); [|lia]. rewrite I2, !app_length. cbn. lia.
  - (* MPut *)
    destruct (I8 eq_refl) as [R O]. destruct k as [|k]; injection H as <-; constructor; lfields; cbn [got toput cleaning app map length fst] in *; auto; try discriminate; try lia.
    + rewrite rqs_app. cbn. rewrite app_nil_r. exact I2.
    + rewrite nnone_app. cbn. lia.
  - (* MJoin *)
    destruct (I8 eq_refl) as [R O]. injection H as <-. constructor; lfields; auto; destruct (k <? n); cbn [got toput cleaning app map length fst] in *; auto; discriminate.
  - discriminate.
Qed.

Lemma lp_step_linv x l y : n >= 1 -> llabel_ok c l -> linv c n x -> lp_step c n x l = Some y -> linv c n y.
Proof.
  intros Hn Lo I H. destruct l as [fuel e out|i out|e]; cbn [lp_step] in H.
  - eapply main_linv; eassumption.
  - eapply worker_linv; eassumption.
  - cbn [step] in H. injection H as <-. destruct I as [I1 I2 I3 I4 I5 I6 I7 I8 I9 I10 I11 I12 I13].
    assert (Re : reachable c (l_ops x ++ [Stop e]) (emit (set_stopped (l_tm x) true) EStop)) by (eapply (reachable_step c _ _ (Stop e) 0); [exact I1 | exact Lo | reflexivity]).
    constructor; lfields; auto.
    + intros Q. destruct (I8 Q) as [A B]. split; [exact A | apply over_signal; exact B].
    + intros _. left. reflexivity.
Qed.
Lemma lp_run_linv ls : forall x y, n >= 1 -> Forall (llabel_ok c) ls -> linv c n x -> lp_run c n x ls = Some y -> linv c n y.
Proof.
  induction ls as [|l ls IH]; intros x y Hn Lo I H; cbn [lp_run] in H; [injection H as <-; exact I|].
  inversion Lo as [|l' ls' L1 L2 E1]; subst. destruct (lp_step c n x l) as [z|] eqn:E; [|discriminate]. eapply IH; [exact Hn | exact L2 | eapply lp_step_linv; eassumption | exact H].
Qed.
Lemma reach_linv ls x : n >= 1 -> lp_reachable c n ls x -> linv c n x.
Proof. intros Hn [A B]. eapply lp_run_linv; [exact Hn | exact A | apply init_linv | exact B]. Qed.
End Step.

Lemma wts_split ths : Permutation (wts ths) (flat_map (fun w => match w with WStart t => [t] | _ => [] end) ths ++ wes ths ++ map fst (wps ths)).
Proof.
  induction ths as [|w ths IH]; [constructor|]. unfold wts, wes, wps in *. cbn [flat_map].
  destruct w as [|t|t|t ok|]; cbn [wt1 we1 wp1 app map fst].
  - exact IH.
  - apply perm_skip, IH.
  - rewrite IH. apply Permutation_middle.
  - rewrite IH. rewrite !app_assoc. apply Permutation_middle.
  - exact IH.
Qed.

(* C09c.  LegacyParallel with -j n: never more than n commands at the same time, and never more than n tasks handed out and not yet retired. *)
Theorem C09c_legacy_limit : forall c n ls x,
  cfg_wf c -> n >= 1 -> lp_reachable c n ls x -> length (l_executing x) <= length (running (l_tm x)) /\ length (running (l_tm x)) <= n.
Proof.
  intros c n ls x W Hn R. destruct (reach_linv c n W ls x Hn R) as [I1 I2 I3 I4 I5 I6 I7 I8 I9 I10 I11 I12 I13]. split; [|exact I4].
  rewrite I2. rewrite !app_length. rewrite (Permutation_length (wts_split (l_ths x))), !app_length. change (wes (l_ths x)) with (l_executing x). lia.
Qed.
Print Assumptions C09c_legacy_limit.

(* C10d.  No task is lost, duplicated or invented, and no result is altered: the tasks handed out are those waiting, being executed, with their result on its way, and
   retired; the results on their way and those the taskmaster was told are those of the calls of execute() that ended, plus a failure for each task passed over. *)
Theorem C10d_legacy_no_task_lost : forall c n ls x,
  cfg_wf c -> n >= 1 -> lp_reachable c n ls x ->
  Permutation (handed (trace (l_tm x))) (l_waiting x ++ l_executing x ++ map fst (l_transit x ++ l_told x))
  /\ Permutation (l_transit x ++ l_told x) (l_done x ++ map not_executed (l_skip x))
  /\ Permutation (l_exec x) (l_executing x ++ map fst (l_done x))
  /\ (forall t o, In (t, true, o) (l_hist x) -> o = OOk).
Proof.
  intros c n ls x W Hn R. destruct (reach_linv c n W ls x Hn R) as [I1 I2 I3 I4 I5 I6 I7 I8 I9 I10 I11 I12 I13].
  split; [|split; [|split; [exact I11 | exact I12]]].
  - rewrite I9, I2. rewrite (wts_split (l_ths x)).
    assert (E : map (fun h => fst (fst h)) (l_hist x) = map fst (l_told x)) by (unfold l_told; rewrite map_map; reflexivity). rewrite E.
    unfold l_waiting, l_transit, l_executing. rewrite !map_app. rewrite <- !app_assoc. apply Permutation_refl.
  - rewrite <- I10. unfold l_transit, l_told. rewrite <- !app_assoc. apply Permutation_refl.
Qed.
Print Assumptions C10d_legacy_no_task_lost.

(* C10e.  When start() has returned, nothing is outstanding and the engine had nothing left. *)
Theorem C10e_legacy_not_early : forall c n ls x,
  cfg_wf c -> n >= 1 -> lp_reachable c n ls x -> l_returned x ->
  l_waiting x = [] /\ l_executing x = [] /\ l_transit x = [] /\ over c (l_ops x) (l_tm x)
  /\ Permutation (handed (trace (l_tm x))) (l_exec x ++ l_skip x) /\ Permutation (l_told x) (l_done x ++ map not_executed (l_skip x)).
Proof.
  intros c n ls x W Hn R Hd. destruct (C10d_legacy_no_task_lost c n ls x W Hn R) as (A & B & C & _).
  destruct (reach_linv c n W ls x Hn R) as [I1 I2 I3 I4 I5 I6 I7 I8 I9 I10 I11 I12 I13]. unfold l_returned in Hd.
  destruct I8 as [R0 O]; [rewrite Hd; reflexivity|].
  assert (T : l_waiting x ++ l_executing x ++ map fst (l_transit x) = []).
  { apply Permutation_nil. rewrite <- R0. rewrite I2. rewrite (wts_split (l_ths x)). unfold l_waiting, l_transit, l_executing. rewrite !map_app. rewrite <- !app_assoc. apply Permutation_refl. }
  apply app_eq_nil in T. destruct T as [T1 T2]. apply app_eq_nil in T2. destruct T2 as [T2 T3]. apply map_eq_nil in T3.
  rewrite T1, T2, T3 in *. cbn [app] in *. repeat (split; [auto; fail|]). split; [|exact B].
  rewrite A, B, map_app, map_map, C. cbn [not_executed fst]. rewrite map_id. reflexivity.
Qed.
Print Assumptions C10e_legacy_not_early.

Lemma lops_labels c n ls x : lp_run c n (lp_init c n) ls = Some x -> forall o, In o (l_ops x) -> exists l, In l ls /\ llabel_env l = Some (op_env o).
Proof.
  assert (G : forall ls x y, lp_run c n x ls = Some y -> forall o, In o (l_ops y) -> In o (l_ops x) \/ exists l, In l ls /\ llabel_env l = Some (op_env o)).
  { induction ls0 as [|l ls0 IH]; intros a b H o Ho; cbn [lp_run] in H; [injection H as <-; auto|].
    destruct (lp_step c n a l) as [z|] eqn:E; [|discriminate]. destruct (IH z b H o Ho) as [Q|(l' & Q1 & Q2)]; [|right; exists l'; split; [right; exact Q1 | exact Q2]].
    assert (S0 : In o (l_ops a) \/ llabel_env l = Some (op_env o)).
    { destruct l as [fuel e out|i out|e]; cbn [lp_step] in E.
      - unfold main_step in E. destruct (l_main a) as [| |t ok| |k|k|].
        + destruct (l_jobs a <? n); [|injection E as <-; auto]. destruct (next_task fuel c e (l_tm a)) as [[s found]|]; [|discriminate].
          destruct found; [destruct (_ <? _); [destruct (running s); [discriminate|]|]|]; injection E as <-; cbn [l_ops] in Q; apply in_app_iff in Q; destruct Q as [Q|[<-|[]]]; auto.
        + destruct (l_res a) as [|[]]; [discriminate|]. injection E as <-. auto.
        + cbn zeta in E. destruct (step fuel c (l_tm a) _); [|discriminate]. injection E as <-. cbn [l_ops] in Q. apply in_app_iff in Q; destruct Q as [Q|[<-|[]]]; auto.
        + injection E as <-. auto.
        + destruct k; injection E as <-; auto.
        + injection E as <-. auto.
        + discriminate.
      - unfold worker_step in E. destruct (nth_error (l_ths a) i) as [[|t|t|t ok|]|]; try discriminate.
        + destruct (l_req a) as [|[]]; [discriminate| |]; injection E as <-; auto.
        + destruct (l_int a); injection E as <-; auto.
        + cbn zeta in E. injection E as <-; auto.
        + injection E as <-; auto.
      - cbn [step] in E. injection E as <-. cbn [l_ops] in Q. apply in_app_iff in Q; destruct Q as [Q|[<-|[]]]; auto. }
    destruct S0 as [S0|S0]; [auto | right; exists l; split; [left; reflexivity | exact S0]]. }
  intros H o Ho. destruct (G ls _ _ H o Ho) as [[]|Q]; exact Q.
Qed.

(* C10f.  A build of an acyclic graph in which nothing fails and no signal arrives is complete when start() returns (C05 lifted to LegacyParallel). *)
Theorem C10f_legacy_complete : forall c n kids ls x t m,
  cfg_wf c -> graph_wf c kids -> n >= 1 -> lp_reachable c n ls x -> l_returned x ->
  (forall l e k, In l ls -> llabel_env l = Some e -> e_kids e k = Some (kids k)) -> acyclic kids -> no_failure (trace (l_tm x)) ->
  In t (tops c) -> ~ is_side_effect c t -> depends0 kids t m -> finished (trace (l_tm x)) m.
Proof.
  intros c n kids ls x t m W G Hn R He St Ac Nf Ht Hs Hm.
  destruct (C10e_legacy_not_early c n ls x W Hn R He) as (_ & _ & _ & En & _). apply over_ended_inv in En; [|apply Nf].
  apply (C05_complete c kids (l_ops x) (l_tm x) t m); auto.
  apply Forall_forall. intros o Ho k. destruct (lops_labels c n ls x (proj2 R) o Ho) as (l & Q1 & Q2). eapply St; eassumption.
Qed.
Print Assumptions C10f_legacy_complete.

Lemma some_get ths : wts ths = [] -> nexit ths < length ths -> exists i, nth_error ths i = Some WGet.
Proof.
  induction ths as [|w ths IH]; cbn [length]; [lia|]. unfold wts, nexit in *. cbn [flat_map filter]. intros H L. apply app_eq_nil in H. destruct H as [H1 H2].
  destruct w as [|t|t|t ok|]; try discriminate.
  - exists 0. reflexivity.
  - cbn [isexit length] in L. destruct IH as [i Hi]; [exact H2 | lia|]. exists (S i). exact Hi.
Qed.
Lemma some_task ths : wts ths <> [] -> exists i w t, nth_error ths i = Some w /\ wt1 w = [t].
Proof.
  induction ths as [|w ths IH]; [intros H; elim H; reflexivity|]. unfold wts in *. cbn [flat_map]. destruct (wt1 w) as [|t r] eqn:E.
  - cbn [app]. intros H. destruct (IH H) as (i & v & t & A & B). exists (S i), v, t. auto.
  - intros _. exists 0, w, t. split; [reflexivity|]. destruct w; try discriminate; exact (f_equal (fun l => match l with a :: _ => [a] | [] => [] end) E).
Qed.

(* C11c.  Finite graph: as long as start() has not returned or some worker has not, some thread can act: LegacyParallel never deadlocks. *)
Theorem C11c_legacy_no_deadlock : forall c n U ls x e,
  cfg_wf c -> n >= 1 -> incl (tops c) U -> (forall k, In k U -> incl (alter c k) U) ->
  (forall l e k ch, In l ls -> llabel_env l = Some e -> In k U -> e_kids e k = Some ch -> incl ch U) ->
  env_ok c e -> (forall k ch, In k U -> e_kids e k = Some ch -> incl ch U) ->
  lp_reachable c n ls x -> l_unfinished x ->
  (exists fuel out y, lp_step c n x (Main fuel e out) = Some y) \/ (exists i out y, lp_step c n x (Work i out) = Some y).
Proof.
  intros c n U ls x e W Hn HT HA HK Eo He R Hu. destruct (reach_linv c n W ls x Hn R) as [I1 I2 I3 I4 I5 I6 I7 I8 I9 I10 I11 I12 I13].
  assert (Tot : forall o, op_env o = e -> exists F s', forall fuel, fuel >= F -> step fuel c (l_tm x) o = Some s').
  { intros o Eq. apply (request_terminates c U HT HA (l_ops x) (l_tm x) o W I1); [|rewrite Eq; exact Eo | rewrite Eq; exact He].
    apply Forall_forall. intros o' Ho k ch Hk Hc. destruct (lops_labels c n ls x (proj2 R) o' Ho) as (l & Q1 & Q2). eapply HK; eassumption. }
  assert (Wk : forall i w t, nth_error (l_ths x) i = Some w -> wt1 w = [t] -> exists i out y, lp_step c n x (Work i out) = Some y).
  { intros i w t Hi Hw. exists i, OOk. cbn [lp_step]. unfold worker_step. rewrite Hi. destruct w; try discriminate; [destruct (l_int x)| |]; eexists; reflexivity. }
  cbn [lp_step]. unfold main_step. destruct (l_main x) as [| |t ok| |k|k|] eqn:Em.
  - left. destruct (l_jobs x <? n) eqn:Ej; [|exists 0, OOk; eexists; reflexivity].
    destruct (Tot (Next e) eq_refl) as (F & s' & Hs). specialize (Hs F (le_n _)). cbn [step] in Hs. destruct (next_task F c e (l_tm x)) as [[s found]|] eqn:En; [|discriminate].
    exists F, OOk. rewrite En. destruct found; [|eexists; reflexivity]. destruct (length (running (l_tm x)) <? length (running s)) eqn:El; [|eexists; reflexivity].
    destruct (running s); [apply Nat.ltb_lt in El; cbn in El; lia | eexists; reflexivity].
  - destruct (l_res x) as [|[t ok] r] eqn:Er; [|left; exists 0, OOk; eexists; reflexivity]. right.
    cbn [got cleaning toput map app] in *. specialize (I5 eq_refl).
    destruct (wts (l_ths x)) as [|t r] eqn:Ew.
    + destruct (some_get (l_ths x) Ew) as [i Hi]; [lia|]. exists i, OOk. cbn [lp_step]. unfold worker_step. rewrite Hi. destruct (l_req x) as [|[t|] q]; [|eexists; reflexivity..].
      cbn in I2. apply Permutation_length in I2. cbn in *. lia.
    + destruct (some_task (l_ths x)) as (i & w & u & A & B); [congruence|]. eapply Wk; eassumption.
  - left. destruct (Tot (Done (index_of t (running (l_tm x))) (if ok then OOk else OOk) e) eq_refl) as (F & s' & Hs). exists F, OOk. cbn zeta. rewrite (Hs F (le_n _)). eexists; reflexivity.
  - left. exists 0, OOk. eexists; reflexivity.
  - left. exists 0, OOk. destruct k; eexists; reflexivity.
  - left. exists 0, OOk. eexists; reflexivity.
  - right. cbn [cleaning toput] in *. destruct Hu as [Hu|(w & Hw & Nw)]; [congruence|].
    apply In_nth_error in Hw. destruct Hw as [i Hi].
    assert (Ex : w = WGet \/ exists t, wt1 w = [t]) by (destruct w; cbn; eauto; congruence). destruct Ex as [->|[t Ht]]; [|eapply Wk; eassumption].
    exists i, OOk. unfold worker_step. rewrite Hi. destruct (l_req x) as [|[t|] q]; [|eexists; reflexivity..].
    cbn [nnone filter length] in I7. destruct (set_nth_split i WGet WGet (l_ths x) Hi) as (l1 & l2 & E1 & _ & _). rewrite E1 in *.
    rewrite nexit_mid in I7. cbn [isexit] in I7. rewrite app_length in I6. cbn [length] in I6.
    assert (nexit (l1 ++ l2) <= length (l1 ++ l2)) by (unfold nexit; clear; induction (l1 ++ l2) as [|w l IH]; cbn; [lia | destruct (isexit w); cbn; lia]). rewrite app_length in *. cbn in *. lia.
Qed.
Print Assumptions C11c_legacy_no_deadlock.

(* C53g.  After a signal nothing more is handed out and no execution begins. *)
Theorem C53g_legacy_interrupt : forall c n ls ls' x y,
  cfg_wf c -> n >= 1 -> lp_reachable c n ls x -> l_int x = true -> Forall (llabel_ok c) ls' -> lp_run c n x ls' = Some y ->
  l_exec y = l_exec x /\ handed (trace (l_tm y)) = handed (trace (l_tm x)) /\ incl (l_executing y) (l_executing x).
Proof.
  intros c n ls ls' x y W Hn R Hi Lo H. pose proof (reach_linv c n W ls x Hn R) as N. clear R ls. revert x N Hi H.
  induction ls' as [|l ls IH]; intros x N Hi H; cbn [lp_run] in H; [injection H as <-; split; [reflexivity|]; split; [reflexivity | apply incl_refl]|].
  inversion Lo as [|l' ls' L1 L2 E1]; subst. destruct (lp_step c n x l) as [z|] eqn:E; [|discriminate].
  pose proof (lp_step_linv c n W x l z Hn L1 N E) as Nz.
  assert (Z : l_int z = true /\ l_exec z = l_exec x /\ handed (trace (l_tm z)) = handed (trace (l_tm x)) /\ incl (l_executing z) (l_executing x)).
  { clear IH H Lo L2 Nz y ls. destruct N as [I1 I2 I3 I4 I5 I6 I7 I8 I9 I10 I11 I12 I13]. specialize (I13 Hi).
    assert (D : dinv c (l_tm x)) by (eapply reachable_dinv; [exact W | exact I1]).
    destruct l as [fuel e out|i out|e]; cbn [lp_step] in E.
    - unfold main_step in E. cbn in L1. destruct (l_main x) as [| |t ok| |k|k|] eqn:Em.
      + destruct (l_jobs x <? n); [|injection E as <-; auto using incl_refl]. destruct (next_task fuel c e (l_tm x)) as [[s found]|] eqn:En; [|discriminate].
        assert (T : trace s = trace (l_tm x)) by (apply (C04_stop_is_final c (l_ops x) (l_tm x) fuel e s W I1 L1 I13); cbn; rewrite En; reflexivity).
        destruct found; [destruct (_ <? _); [destruct (running s); [discriminate|]|]|]; injection E as <-; cbn; rewrite T; auto using incl_refl.
      + destruct (l_res x) as [|[]]; [discriminate|]. injection E as <-. auto using incl_refl.
      + cbn zeta in E. destruct (step fuel c (l_tm x) _) as [s|] eqn:Es; [|discriminate]. injection E as <-. cbn.
        assert (Ht : In t (running (l_tm x))) by (eapply Permutation_in; [apply Permutation_sym, I2|]; rewrite !in_app_iff; cbn; tauto).
        destruct (done_running c e fuel (l_tm x) t _ s L1 D Ht Es) as [P Hh]. auto using incl_refl.
      + injection E as <-. auto using incl_refl.
      + destruct k; injection E as <-; auto using incl_refl.
      + injection E as <-. auto using incl_refl.
      + discriminate.
    - unfold worker_step in E. destruct (nth_error (l_ths x) i) as [w|] eqn:Ew; [|discriminate].
      assert (Q : forall v req res ex sk dn, we1 v = [] -> incl (l_executing (set_worker x i v req res ex sk dn)) (l_executing x)).
      { intros v req res ex sk dn Hv. destruct (set_nth_split i v w (l_ths x) Ew) as (l1 & l2 & A & B & _). unfold l_executing. lfields. rewrite B, A. rewrite !flat_map_app. cbn [flat_map].
        change (match v with WExec t => [t] | _ => [] end) with (we1 v). rewrite Hv. cbn [app]. intros u Hu. rewrite !in_app_iff in *. tauto. }
      destruct w as [|t|t|t ok|]; try discriminate.
      + destruct (l_req x) as [|[]]; [discriminate| |]; injection E as <-; (repeat (split; [auto; fail|])); apply Q; reflexivity.
      + rewrite Hi in E. injection E as <-. repeat (split; [auto; fail|]). apply Q; reflexivity.
      + cbn zeta in E. injection E as <-. repeat (split; [auto; fail|]). apply Q; reflexivity.
      + injection E as <-. repeat (split; [auto; fail|]). apply Q; reflexivity.
    - cbn [step] in E. injection E as <-. cbn. auto using incl_refl. }
  destruct Z as (Z1 & Z2 & Z3 & Z4). destruct (IH L2 z Nz Z1 H) as (A & B & C). split; [congruence|]. split; [congruence|]. eapply incl_tran; eassumption.
Qed.
Print Assumptions C53g_legacy_interrupt.

Section Witness.
(* 0 depends on 1 and 2; two workers; 1 and 2 execute at the same time, then 0 is built and everybody leaves *)
Definition LM := Main 50 je OOk.
Definition LW i := Work i OOk.
Definition ll1 := [LM; LM; LM; LW 1; LW 0; LW 0; LW 1].
Definition ll2 := ll1 ++ [LW 1; LW 1; LM; LM; LM; LM; LW 0; LW 0; LM; LM; LM; LM; LM; LW 0; LW 0; LW 0; LW 0; LM; LM; LM; LM; LM; LM; LM; LM; LM; LM; LW 0; LW 1].
Lemma lok ls : Forall (fun l => match l with Main _ e _ => e = je | LSignal e => e = je | Work _ _ => True end) ls -> Forall (llabel_ok jc) ls.
Proof. intros H. eapply Forall_impl; [|exact H]. intros [f e o|i o|e]; [|exact (fun x => x)|]; intros ->; apply xenv_ok. Qed.
Definition lobs (x : lp) := (l_main x, l_ths x, l_exec x, l_told x).
Lemma lsome c n ls v : option_map lobs (lp_run c n (lp_init c n) ls) = Some v -> exists x, lp_run c n (lp_init c n) ls = Some x /\ lobs x = v.
Proof. destruct (lp_run c n (lp_init c n) ls) as [x|]; [|discriminate]. intros H. injection H as <-. eauto. Qed.
Example C09c_witness : exists x, lp_reachable jc 2 ll1 x /\ l_executing x = [[2]; [1]].
Proof.
  destruct (lsome jc 2 ll1 (MWait, [WExec [2]; WExec [1]], [[1]; [2]], [])) as (x & R & E); [vm_compute; reflexivity|].
  exists x. split; [split; [apply lok; repeat constructor | exact R]|]. injection E as _ E _ _. unfold l_executing. rewrite E. reflexivity.
Qed.
Example C10f_witness : exists x, lp_reachable jc 2 ll2 x /\ l_returned x /\ l_ths x = [WExit; WExit] /\ l_told x = [([0], true); ([2], true); ([1], true)].
Proof.
  destruct (lsome jc 2 ll2 (MDone, [WExit; WExit], [[0]; [1]; [2]], [([0], true); ([2], true); ([1], true)])) as (x & R & E); [vm_compute; reflexivity|].
  exists x. split; [split; [apply lok; repeat constructor | exact R]|]. injection E as E1 E2 _ E3. auto.
Qed.
End Witness.
