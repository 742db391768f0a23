(* C53: signals.  What SIGINT, SIGTERM and SIGHUP do to a build (Jobs._setup_sig_handler, NewParallel._work).  Vocabulary in JobSpec.v. *)
From Coq Require Import List Arith ZArith Bool Lia Permutation.
Import ListNotations.
From Verif Require Import TMModel TMBase TMSpec TMSafe TMSafe2 TMTerm TMEnd TMProps JobModel JobSpec JobProofs JobProps.

Definition enqp (ths : list pc) : list (task * bool) := flat_map (fun p => match p with Enq t ok => [(t, ok)] | _ => [] end) ths.
Definition retp (ths : list pc) : list (task * bool) := flat_map (fun p => match p with Retiring q => q | _ => [] end) ths.
Definition exs (ths : list pc) : list task := flat_map (fun p => match p with Exec t => [t] | _ => [] end) ths.

Record rinv (x : np) : Prop := {
  r_pairs : Permutation (enqp (p_ths x) ++ p_queue x ++ retp (p_ths x) ++ map fst (p_hist x)) (p_done x ++ map not_executed (p_skip x));
  r_exec : Permutation (p_exec x) (exs (p_ths x) ++ map fst (p_done x));
  r_ok : forall t o, In (t, true, o) (p_hist x) -> o = OOk;
  r_ret : p_ret x = map (fun h => fst (fst h)) (p_hist x) }.

Lemma flat_keep {B} (f : pc -> list B) l1 p q l2 : f p = f q -> flat_map f (l1 ++ p :: l2) = flat_map f (l1 ++ q :: l2).
Proof. intros E. rewrite !flat_map_app. cbn. rewrite E. reflexivity. Qed.

Definition enq1 (p : pc) : list (task * bool) := match p with Enq t ok => [(t, ok)] | _ => [] end.
Definition ret1 (p : pc) : list (task * bool) := match p with Retiring q => q | _ => [] end.
Definition exs1 (p : pc) : list task := match p with Exec t => [t] | _ => [] end.
Lemma enqp_mid l1 p l2 : Permutation (enqp (l1 ++ p :: l2)) (enq1 p ++ enqp (l1 ++ l2)).
Proof. apply (flat_mid enq1). Qed.
Lemma retp_mid l1 p l2 : Permutation (retp (l1 ++ p :: l2)) (ret1 p ++ retp (l1 ++ l2)).
Proof. apply (flat_mid ret1). Qed.
Lemma exs_mid l1 p l2 : Permutation (exs (l1 ++ p :: l2)) (exs1 p ++ exs (l1 ++ l2)).
Proof. apply (flat_mid exs1). Qed.

Lemma rinv_same x y : rinv x -> enqp (p_ths y) = enqp (p_ths x) -> retp (p_ths y) = retp (p_ths x) -> exs (p_ths y) = exs (p_ths x) ->
  p_queue y = p_queue x -> p_hist y = p_hist x -> p_done y = p_done x -> p_skip y = p_skip x -> p_exec y = p_exec x -> p_ret y = p_ret x -> rinv y.
Proof. intros [A B C D] E1 E2 E3 E4 E5 E6 E7 E8 E9. constructor; rewrite ?E1, ?E2, ?E3, ?E4, ?E5, ?E6, ?E7, ?E8, ?E9; assumption. Qed.

Lemma maybe_flat {B} (f : pc -> list B) n j k a : f (Top false) = [] -> flat_map f (maybe_start n j k a) = flat_map f a.
Proof. intros E. unfold maybe_start. destruct (_ && _)%bool; [|reflexivity]. rewrite flat_map_app. cbn. rewrite E, !app_nil_r. reflexivity. Qed.

Lemma enter_rinv x i st p : nth_error (p_ths x) i = Some p -> (exists b, p = Top b) \/ p = Woken -> rinv x -> rinv (enter x i st).
Proof.
  intros Ep Hp R.
  assert (G : forall v st', v = Waiting \/ v = Exited \/ v = Drain -> rinv (put x i v st')).
  { intros v st' Hv. destruct (set_nth_split i v p (p_ths x) Ep) as (l1 & l2 & E1 & E2 & _).
    apply (rinv_same x); [exact R| | | |reflexivity..]; unfold put, enqp, retp, exs; cbn [p_ths]; rewrite E2, E1; apply flat_keep;
      destruct Hp as [[b ->] | ->]; destruct Hv as [-> | [-> | ->]]; reflexivity. }
  destruct st; apply G; auto.
Qed.

Lemma step_rinv c n x l y : rinv x -> np_step c n x l = Some y -> rinv y.
Proof.
  intros R H. destruct l as [i fuel e out w| |e].
  2:{ cbn [np_step] in H. destruct (nth_error _ _) as [[]|]; try discriminate. injection H as <-. apply (rinv_same x); auto. }
  2:{ cbn [np_step step] in H. injection H as <-. apply (rinv_same x); auto. }
  cbn [np_step] in H. destruct (nth_error (p_ths x) i) as [p|] eqn:Ep; [|discriminate].
  assert (P : forall v, exists l1 l2, p_ths x = l1 ++ p :: l2 /\ set_nth i v (p_ths x) = l1 ++ v :: l2) by
      (intros v; destruct (set_nth_split i v p (p_ths x) Ep) as (l1 & l2 & A & B & _); exists l1, l2; auto).
  destruct p as [b| | | |q| |t|t|t ok|]; try discriminate.
  - destruct (locked (p_ths x)); [discriminate|]. injection H as <-. eapply enter_rinv; [exact Ep | left; eauto | exact R].
  - destruct (locked (p_ths x)); [discriminate|]. injection H as <-. eapply enter_rinv; [exact Ep | right; reflexivity | exact R].
  - (* Drain *)
    injection H as <-. destruct (P (Retiring (p_queue x))) as (l1 & l2 & E1 & E2). destruct R as [A B C D].
    constructor; cbn [p_ths p_queue p_hist p_done p_skip p_exec p_ret]; [| | exact C | exact D]; rewrite E2; rewrite E1 in *.
    + assert (Q1 : Permutation (retp (l1 ++ Retiring (p_queue x) :: l2)) (p_queue x ++ retp (l1 ++ Drain :: l2))) by (rewrite !retp_mid; reflexivity).
      assert (Q2 : enqp (l1 ++ Retiring (p_queue x) :: l2) = enqp (l1 ++ Drain :: l2)) by (apply flat_keep; reflexivity).
      rewrite Q1, Q2, <- A. cbn [app]. rewrite <- !app_assoc. reflexivity.
    + unfold exs in *. rewrite (flat_keep _ l1 (Retiring (p_queue x)) Drain l2) by reflexivity. exact B.
  - (* Retiring *)
    destruct q as [|[t ok] q].
    + injection H as <-. destruct (P Searching) as (l1 & l2 & E1 & E2).
      apply (rinv_same x); [exact R| | | |reflexivity..]; unfold put, enqp, retp, exs; cbn [p_ths]; rewrite E2, E1; apply flat_keep; reflexivity.
    + cbn zeta in H. destruct (step _ _ _ _) as [s|]; [|discriminate]. injection H as <-.
      destruct (P (Retiring q)) as (l1 & l2 & E1 & E2). destruct R as [A B C D].
      constructor; cbn [p_ths p_queue p_hist p_done p_skip p_exec p_ret]; try rewrite E2; rewrite ?E1 in *.
      * rewrite <- A. unfold enqp. rewrite (flat_keep _ l1 (Retiring q) (Retiring ((t, ok) :: q)) l2) by reflexivity.
        apply Permutation_app_head, Permutation_app_head. unfold retp.
        rewrite (flat_mid _ l1 (Retiring ((t, ok) :: q)) l2), (flat_mid _ l1 (Retiring q) l2). cbn. apply Permutation_sym, Permutation_middle.
      * unfold exs in *. rewrite (flat_keep _ l1 (Retiring q) (Retiring ((t, ok) :: q)) l2) by reflexivity. exact B.
      * intros u o [Q|Q]; [injection Q as -> -> <-; reflexivity | eapply C; exact Q].
      * cbn. rewrite D. reflexivity.
  - (* Searching *)
    destruct (next_task fuel c e (p_tm x)) as [[s found]|]; [|discriminate].
    assert (G : forall v a ths st jobs ops, (v = Top false \/ exists t, v = Start t) -> wakes (set_nth i v (p_ths x)) a ->
        (forall B (f : pc -> list B), f (Top false) = [] -> flat_map f ths = flat_map f a) ->
        rinv {| p_tm := s; p_ops := ops; p_ths := ths; p_state := st; p_jobs := jobs; p_queue := p_queue x; p_joined := p_joined x; p_exec := p_exec x; p_ret := p_ret x;
                p_int := p_int x; p_skip := p_skip x; p_hist := p_hist x; p_done := p_done x |}).
    { intros v a ths st jobs ops Hv Wk Hf. destruct (P v) as (l1 & l2 & E1 & E2). rewrite E2 in Wk.
      apply (rinv_same x); [exact R| | | |reflexivity..]; unfold enqp, retp, exs; cbn [p_ths]; rewrite Hf by reflexivity; (erewrite wakes_flat; [| |exact Wk]; [|reflexivity]); rewrite E1; apply flat_keep;
        destruct Hv as [-> | [t ->]]; reflexivity. }
    destruct found.
    + destruct (_ <? _).
      * destruct (running s) as [|t r]; [discriminate|]. injection H as <-. eapply (G (Start t)); [eauto | apply wakes_notify |]. intros B f E. apply maybe_flat. exact E.
      * injection H as <-. apply (rinv_same x); auto.
    + destruct (_ =? _)%Z; injection H as <-.
      * eapply (G (Top false)); [auto | apply wakes_notify_all | reflexivity].
      * eapply (G (Top false)); [auto | apply wakes_refl | reflexivity].
  - (* Start *)
    destruct R as [A B C D]. destruct (p_int x); injection H as <-.
    + destruct (P (Enq t false)) as (l1 & l2 & E1 & E2).
      constructor; cbn [p_ths p_queue p_hist p_done p_skip p_exec p_ret]; [| | exact C | exact D]; rewrite E2; rewrite E1 in *; rewrite ?enqp_mid, ?retp_mid, ?exs_mid in *; cbn [enq1 ret1 exs1 app map fst] in *.
      * apply (Permutation_cons_app (p_done x) (map not_executed (p_skip x)) (not_executed t)). exact A.
      * exact B.
    + destruct (P (Exec t)) as (l1 & l2 & E1 & E2).
      constructor; cbn [p_ths p_queue p_hist p_done p_skip p_exec p_ret]; [| | exact C | exact D]; rewrite E2; rewrite E1 in *; rewrite ?enqp_mid, ?retp_mid, ?exs_mid in *; cbn [enq1 ret1 exs1 app map fst] in *.
      * exact A.
      * apply perm_skip. exact B.
  - (* Exec *)
    cbn zeta in H. set (ok := match out with OOk => true | _ => false end) in H. injection H as <-. destruct R as [A B C D]. destruct (P (Enq t ok)) as (l1 & l2 & E1 & E2).
    constructor; cbn [p_ths p_queue p_hist p_done p_skip p_exec p_ret]; [| | exact C | exact D]; rewrite E2; rewrite E1 in *; rewrite ?enqp_mid, ?retp_mid, ?exs_mid in *; cbn [enq1 ret1 exs1 app map fst] in *.
    + apply perm_skip. exact A.
    + rewrite B. apply Permutation_middle.
  - (* Enq *)
    injection H as <-. destruct R as [A B C D]. destruct (P (Top true)) as (l1 & l2 & E1 & E2).
    constructor; cbn [p_ths p_queue p_hist p_done p_skip p_exec p_ret]; [| | exact C | exact D]; rewrite E2; rewrite E1 in *; rewrite ?enqp_mid, ?retp_mid, ?exs_mid in *; cbn [enq1 ret1 exs1 app map fst] in *.
    + rewrite <- A, <- !app_assoc. cbn [app]. rewrite (app_assoc (enqp (l1 ++ l2)) (p_queue x) ((t, ok) :: _)), (app_assoc (enqp (l1 ++ l2)) (p_queue x)). apply Permutation_sym, Permutation_middle.
    + exact B.
Qed.
Lemma reach_rinv c n ls x : np_run c n (np_init c) ls = Some x -> rinv x.
Proof.
  assert (G : forall ls x y, rinv x -> np_run c n x ls = Some y -> rinv y).
  { induction ls0 as [|l ls0 IH]; intros a b R H; cbn [np_run] in H; [injection H as <-; exact R|].
    destruct (np_step c n a l) as [z|] eqn:E; [|discriminate]. eapply IH; [eapply step_rinv; eassumption | exact H]. }
  apply G. constructor; cbn; auto. intros t o [].
Qed.

(* C53c.  Signals or not, results are not altered on their way: the results on their way to the taskmaster and those it was told are exactly the results of the
   calls of execute() that came to an end, plus a failure for each task passed over because of a signal; a task is reported as built if and only if its
   execute() returned normally.  The calls of execute() are those still going on and those that came to an end. *)
Theorem C53c_results_reported : forall c n ls x,
  cfg_wf c -> n >= 1 -> np_reachable c n ls x ->
  Permutation (in_transit x ++ map fst (p_hist x)) (p_done x ++ map not_executed (p_skip x))
  /\ Permutation (p_exec x) (executing x ++ map fst (p_done x))
  /\ p_ret x = map (fun h => fst (fst h)) (p_hist x)
  /\ (forall t o, In (t, true, o) (p_hist x) -> o = OOk).
Proof.
  intros c n ls x _ _ [_ R]. destruct (reach_rinv c n ls x R) as [A B C D]. split; [|auto].
  rewrite <- A. unfold in_transit, enqp, retp. rewrite <- !app_assoc. reflexivity.
Qed.
Print Assumptions C53c_results_reported.

(* ---- what happens after a signal ---- *)
Lemma stopped_none fuel c e s s' b : stopped s = true -> next_task fuel c e s = Some (s', b) -> b = false.
Proof.
  intros St H. unfold next_task in H. destruct fuel as [|fuel]; [discriminate|]. cbn [find_ready] in H. unfold next_candidate in H. rewrite St in H.
  destruct (cands s) as [|k ks]; [injection H as <- <-; reflexivity|].
  destruct (will_not_build _ _ _ _ _) as [z|]; [injection H as <- <-; reflexivity | discriminate].
Qed.

(* weight of a thread: how many more actions it can take, after a signal *)
Definition wpc (p : pc) : nat :=
  match p with Waiting | Exited => 0 | Top false | Woken => 1 | Searching => 2 | Retiring q => 3 + length q | Drain => 4 | Top true => 5 | Enq _ _ => 7 | Start _ | Exec _ => 8 end.
Definition wths (ths : list pc) : nat := list_sum (map wpc ths).
Definition weight (x : np) : nat :=
  wths (p_ths x) + length (p_queue x) + match p_state x with Ready_ => 4 | _ => 0 end + match p_state x with Completed_ => 0 | _ => length (p_ths x) end
  + (length (p_ths x) - p_joined x).
Lemma wths_mid l1 p l2 : wths (l1 ++ p :: l2) = wpc p + wths (l1 ++ l2).
Proof. unfold wths. rewrite !map_app, !list_sum_app. cbn [map]. change (list_sum (wpc p :: map wpc l2)) with (wpc p + list_sum (map wpc l2)). lia. Qed.
Lemma wths_wakes a b : wakes a b -> wths a <= wths b <= wths a + length (filter waiting a).
Proof.
  assert (C : forall p l, wths (p :: l) = wpc p + wths l) by reflexivity.
  intros H. induction H as [|p q a b Hpq _ IH]; [cbn; lia|]. rewrite !C. cbn [filter]. destruct Hpq as [->|[-> ->]]; cbn [waiting wpc length]; [destruct (waiting q); cbn [length]; lia | lia].
Qed.

Section Int.
Context (c : cfg) (n : nat) (W : cfg_wf c).

Lemma int_step x l y : label_ok c l -> ninv c n x -> p_int x = true -> In EStop (trace (p_tm x)) -> np_step c n x l = Some y ->
  p_int y = true /\ In EStop (trace (p_tm y)) /\ p_exec y = p_exec x /\ handed (trace (p_tm y)) = handed (trace (p_tm x))
  /\ length (p_ths y) = length (p_ths x) /\ if is_signal l then weight y = weight x else weight y < weight x.
Proof.
  intros Lo N Hi Hs H. pose proof N as [I1 I2 I3 I4 I5 I6 I7 I8 I9 I10 I11 I12 I13].
  assert (D : dinv c (p_tm x)) by (eapply reachable_dinv; [exact W | exact I1]).
  destruct l as [i fuel e out w| |e]; cbn [is_signal].
  3:{ cbn [np_step step] in H. injection H as <-. cbn [p_int p_tm p_exec p_ths trace emit set_stopped]. repeat (split; [auto; fail|]). split; [right; exact Hs|]. repeat (split; [auto; fail|]). reflexivity. }
  2:{ cbn [np_step] in H. destruct (nth_error (p_ths x) (p_joined x)) as [[]|] eqn:E; try discriminate. injection H as <-. cbn [p_int p_tm p_exec p_ths].
      repeat (split; [auto; fail|]). unfold weight. cbn [p_ths p_queue p_state p_joined]. assert (p_joined x < length (p_ths x)) by (apply nth_error_Some; congruence). lia. }
  cbn in Lo. cbn [np_step] in H. destruct (nth_error (p_ths x) i) as [p|] eqn:Ep; [|discriminate].
  assert (P : forall v, exists l1 l2, p_ths x = l1 ++ p :: l2 /\ set_nth i v (p_ths x) = l1 ++ v :: l2) by
      (intros v; destruct (set_nth_split i v p (p_ths x) Ep) as (l1 & l2 & A & B & _); exists l1, l2; auto).
  assert (Enter : forall st, locked (p_ths x) = false -> p = Top true \/ p = Top false \/ p = Woken -> 
     (st = p_state x \/ (st = Ready_ /\ p_state x = Stalled_ /\ p = Top true)) ->
     p_int (enter x i st) = true /\ In EStop (trace (p_tm (enter x i st))) /\ p_exec (enter x i st) = p_exec x /\ handed (trace (p_tm (enter x i st))) = handed (trace (p_tm x))
     /\ length (p_ths (enter x i st)) = length (p_ths x) /\ weight (enter x i st) < weight x).
  { intros st Lk Hp Hst. apply locked_false in Lk.
    assert (Ns : p_state x <> Searching_) by (intros E; rewrite E, Lk in I4; discriminate).
    assert (G : forall v st', length (p_ths (put x i v st')) = length (p_ths x) /\ exists k, wths (p_ths (put x i v st')) = wpc v + k /\ wths (p_ths x) = wpc p + k).
    { intros v st'. destruct (P v) as (l1 & l2 & E1 & E2). unfold put. cbn [p_ths]. rewrite E2, E1, !app_length. split; [reflexivity|]. exists (wths (l1 ++ l2)). rewrite !wths_mid. auto. }
    assert (Wp : wpc p >= 1) by (destruct Hp as [-> | [-> | ->]]; cbn; lia).
    destruct st; cbn [enter].
    - destruct (G Drain Searching_) as (L & k & G1 & G2). repeat (split; [auto; fail|]). unfold weight. rewrite L, G1, G2. cbn [put p_queue p_state p_joined wpc].
      destruct Hst as [<-|(_ & -> & ->)]; [lia|]. cbn [wpc]. lia.
    - destruct Hst as [E|[E _]]; congruence.
    - destruct (G Waiting Stalled_) as (L & k & G1 & G2). repeat (split; [auto; fail|]). unfold weight. rewrite L, G1, G2. cbn [put p_queue p_state p_joined wpc].
      destruct Hst as [<-|(E & _)]; [lia | discriminate].
    - destruct (G Exited Completed_) as (L & k & G1 & G2). repeat (split; [auto; fail|]). unfold weight. rewrite L, G1, G2. cbn [put p_queue p_state p_joined wpc].
      destruct Hst as [<-|(E & _)]; [lia | discriminate]. }
  destruct p as [b| | | |q| |t|t|t ok|]; try discriminate.
  - destruct (locked (p_ths x)) eqn:Lk; [discriminate|]. injection H as <-. apply Enter; auto.
    + destruct b; auto.
    + destruct (p_state x), b; auto.
  - destruct (locked (p_ths x)) eqn:Lk; [discriminate|]. injection H as <-. apply Enter; auto.
  - injection H as <-. destruct (P (Retiring (p_queue x))) as (l1 & l2 & E1 & E2). cbn [p_int p_tm p_exec p_ths]. repeat (split; [auto; fail|]).
    rewrite E2, E1, !app_length. split; [reflexivity|]. unfold weight. cbn [p_ths p_queue p_state p_joined]. rewrite ?E2, ?E1, !wths_mid, !app_length. cbn [wpc length]. lia.
  - destruct q as [|[t ok] q].
    + injection H as <-. destruct (P Searching) as (l1 & l2 & E1 & E2). unfold put. cbn [p_int p_tm p_exec p_ths]. repeat (split; [auto; fail|]).
      rewrite E2, E1, !app_length. split; [reflexivity|]. unfold weight. cbn [p_ths p_queue p_state p_joined]. rewrite ?E2, ?E1, !wths_mid, !app_length. cbn [wpc length]. lia.
    + cbn zeta in H. destruct (step fuel c (p_tm x) _) as [s|] eqn:Hst; [|discriminate]. injection H as <-.
      destruct (done_events _ _ _ _ _ _ _ Lo D Hst) as (lt & Tp & Hlt).
      destruct (P (Retiring q)) as (l1 & l2 & E1 & E2). cbn [p_int p_tm p_exec p_ths]. split; [exact Hi|].
      split; [rewrite Tp; apply in_or_app; right; exact Hs|]. split; [reflexivity|].
      split. { rewrite Tp. unfold handed. rewrite flat_map_app. replace (flat_map _ lt) with (@nil task); [reflexivity|]. symmetry. clear - Hlt.
        induction lt as [|ev lt IH]; [reflexivity|]. cbn. rewrite IH by (intros v Hv; apply Hlt; right; exact Hv).
        destruct (Hlt ev (or_introl eq_refl)) as [[ts [-> | ->]] | ->]; reflexivity. }
      rewrite E2, E1, !app_length. split; [reflexivity|]. unfold weight. cbn [p_ths p_queue p_state p_joined]. rewrite ?E2, ?E1, !wths_mid, !app_length. cbn [wpc length]. lia.
  - destruct (next_task fuel c e (p_tm x)) as [[s found]|] eqn:En; [|discriminate].
    assert (St : stopped (p_tm x) = true) by (apply (di_stop _ _ D); exact Hs).
    pose proof (stopped_none _ _ _ _ _ _ St En) as ->.
    assert (Tr : trace s = trace (p_tm x)) by (eapply (stop_final c W (p_ops x)); [exact I1 | exact Lo | exact Hs | cbn [step]; rewrite En; reflexivity]).
    assert (Ec : p_state x = Searching_).
    { apply nth_error_In in Ep. destruct (p_state x); try reflexivity; apply in_split in Ep; destruct Ep as (l1 & l2 & E); rewrite E in I4;
        destruct (holds_le1 l1 Searching l2 _ I4 eq_refl); lia. }
    destruct (P (Top false)) as (l1 & l2 & E1 & E2). rewrite E2 in H.
    destruct (p_jobs x =? 0)%Z; injection H as <-; cbn [p_int p_tm p_exec p_ths]; rewrite Tr; (repeat (split; [auto; fail|])).
    + pose proof (wakes_notify_all (l1 ++ Top false :: l2)) as Wk. set (a := notify_all (l1 ++ Top false :: l2)) in *.
      assert (La : length a = length (p_ths x)) by (rewrite (wakes_length _ _ Wk), E1, !app_length; reflexivity). split; [exact La|].
      unfold weight. cbn [p_ths p_queue p_state p_joined]. rewrite La, Ec. apply wths_wakes in Wk. rewrite wths_mid in Wk. rewrite E1, wths_mid, app_length. cbn [wpc length] in *.
      assert (length (filter waiting (l1 ++ Top false :: l2)) <= length l1 + length l2).
      { rewrite filter_app, app_length. cbn. assert (F : forall l, length (filter waiting l) <= length l) by (induction l as [|z l IH]; cbn; [lia | destruct (waiting z); cbn; lia]). specialize (F l1) as F1. specialize (F l2). lia. }
      lia.
    + rewrite E1, !app_length. split; [reflexivity|]. unfold weight. cbn [p_ths p_queue p_state p_joined]. rewrite Ec, ?E1, !wths_mid, !app_length. cbn [wpc length]. lia.
  - rewrite Hi in H. injection H as <-. destruct (P (Enq t false)) as (l1 & l2 & E1 & E2). cbn [p_int p_tm p_exec p_ths]. repeat (split; [auto; fail|]).
    rewrite E2, E1, !app_length. split; [reflexivity|]. unfold weight. cbn [p_ths p_queue p_state p_joined]. rewrite ?E2, ?E1, !wths_mid, !app_length. cbn [wpc length]. lia.
  - cbn zeta in H. injection H as <-. set (ok := match out with OOk => true | _ => false end). destruct (P (Enq t ok)) as (l1 & l2 & E1 & E2). cbn [p_int p_tm p_exec p_ths]. repeat (split; [auto; fail|]).
    rewrite E2, E1, !app_length. split; [reflexivity|]. unfold weight. cbn [p_ths p_queue p_state p_joined]. rewrite ?E2, ?E1, !wths_mid, !app_length. cbn [wpc length]. lia.
  - injection H as <-. destruct (P (Top true)) as (l1 & l2 & E1 & E2). cbn [p_int p_tm p_exec p_ths]. repeat (split; [auto; fail|]).
    rewrite E2, E1, !app_length. split; [reflexivity|]. unfold weight. cbn [p_ths p_queue p_state p_joined]. rewrite ?E2, ?E1, !wths_mid, !app_length. cbn [wpc length]. lia.
Qed.
End Int.

Lemma int_stop c n ls x : cfg_wf c -> n >= 1 -> np_reachable c n ls x -> p_int x = true -> In EStop (trace (p_tm x)).
Proof.
  intros W Hn. assert (G : forall ls x y, Forall (label_ok c) ls -> ninv c n x -> (p_int x = true -> In EStop (trace (p_tm x))) -> np_run c n x ls = Some y ->
    p_int y = true -> In EStop (trace (p_tm y))).
  { clear ls x. induction ls as [|l ls IH]; intros x y Lo N Hi H; cbn [np_run] in H; [injection H as <-; exact Hi|].
    destruct (np_step c n x l) as [z|] eqn:E; [|discriminate]. inversion Lo as [|l' ls' L1 L2 E1]; subst.
    apply (IH z y L2); [eapply step_ninv; eassumption | | exact H].
    intros Iz. destruct (p_int x) eqn:Ix; [eapply int_step; try eassumption; apply Hi; reflexivity|].
    destruct l as [i fu e out w| |e]; cbn [np_step] in E.
    - exfalso. destruct (nth_error (p_ths x) i) as [p|]; [|discriminate]. destruct p as [b'| | | |q| |t|t|t ok|]; try discriminate.
      + destruct (locked (p_ths x)); [discriminate|]. injection E as <-. assert (X : p_int (enter x i match p_state x with Stalled_ => if b' then Ready_ else Stalled_ | st => st end) = p_int x) by (destruct (match p_state x with Stalled_ => _ | st => st end); reflexivity). congruence.
      + destruct (locked (p_ths x)); [discriminate|]. injection E as <-. assert (X : p_int (enter x i (p_state x)) = p_int x) by (destruct (p_state x); reflexivity). congruence.
      + injection E as <-. cbn in Iz. congruence.
      + destruct q as [|[t ok] q]; [injection E as <-; cbn in Iz; congruence|]. cbn zeta in E. destruct (step _ _ _ _) as [s|]; [|discriminate]. injection E as <-. cbn in Iz. congruence.
      + destruct (next_task fu c e (p_tm x)) as [[s found]|]; [|discriminate].
        destruct found; [destruct (_ <? _); [destruct (running s) as [|t r]; [discriminate|]|]|destruct (_ =? _)%Z]; injection E as <-; cbn in Iz; congruence.
      + rewrite Ix in E. injection E as <-. cbn in Iz. congruence.
      + cbn zeta in E. injection E as <-. cbn in Iz. congruence.
      + injection E as <-. cbn in Iz. congruence.
    - exfalso. destruct (nth_error _ _) as [[]|]; try discriminate. injection E as <-. cbn in Iz. congruence.
    - cbn [step] in E. injection E as <-. left. reflexivity. }
  intros [A B]. eapply G; [exact A | apply init_ninv; exact Hn | discriminate | exact B].
Qed.

Lemma int_run c n : cfg_wf c -> forall ls x y, Forall (label_ok c) ls -> ninv c n x -> p_int x = true -> In EStop (trace (p_tm x)) -> np_run c n x ls = Some y ->
  p_int y = true /\ p_exec y = p_exec x /\ handed (trace (p_tm y)) = handed (trace (p_tm x)) /\ length (actions ls) + weight y <= weight x.
Proof.
  intros W. induction ls as [|l ls IH]; intros x y Lo N Hi Hs H; cbn [np_run] in H; [injection H as <-; cbn; auto|].
  destruct (np_step c n x l) as [z|] eqn:E; [|discriminate]. inversion Lo as [|l' ls' L1 L2 E1]; subst.
  destruct (int_step c n W x l z L1 N Hi Hs E) as (Z1 & Z2 & Z3 & Z4 & _ & Z5).
  destruct (IH z y L2 (step_ninv c n W x l z L1 N E) Z1 Z2 H) as (Y1 & Y2 & Y3 & Y4).
  split; [exact Y1|]. split; [congruence|]. split; [congruence|]. unfold actions in *. cbn [filter]. destruct (is_signal l); cbn [negb length]; lia.
Qed.

Lemma np_reachable_app c n ls ls' x y : np_reachable c n ls x -> Forall (label_ok c) ls' -> np_run c n x ls' = Some y -> np_reachable c n (ls ++ ls') y.
Proof.
  intros [A B] L H. split; [apply Forall_app; auto|]. revert B. generalize (np_init c). clear A. induction ls as [|l ls IH]; intros a B; cbn [np_run app] in *; [injection B as ->; exact H|].
  destruct (np_step c n a l); [apply IH; exact B | discriminate].
Qed.

(* C53.  Once the handler has run, whatever the workers do from then on, and however often signals arrive again: no worker begins to execute a task,
   and the taskmaster hands out none. *)
Theorem C53_interrupt_stops : forall c n ls x ls' y,
  cfg_wf c -> n >= 1 -> np_reachable c n ls x -> p_int x = true -> Forall (label_ok c) ls' -> np_run c n x ls' = Some y ->
  p_exec y = p_exec x /\ handed (trace (p_tm y)) = handed (trace (p_tm x)) /\ p_int y = true.
Proof.
  intros c n ls x ls' y W Hn R Hi L H.
  destruct (int_run c n W ls' x y L (reach_ninv c n W ls x Hn R) Hi (int_stop c n ls x W Hn R Hi) H) as (A & B & C & _). auto.
Qed.
Print Assumptions C53_interrupt_stops.

Lemma wths_le ths : wths ths <= 8 * length ths + length (retp ths).
Proof. unfold wths, retp. induction ths as [|p l IH]; [cbn; lia|]. cbn [map length flat_map]. change (list_sum (wpc p :: map wpc l)) with (wpc p + list_sum (map wpc l)). rewrite app_length. destruct p as [[|]| | | | | | | | |]; cbn [wpc length]; lia. Qed.

(* C53b.  The build then comes to an end soon: each worker takes only a bounded number of further actions (each running command counts as one of them), plus
   one for each result not yet handed in. *)
Theorem C53b_interrupt_bounded : forall c n ls x ls' y,
  cfg_wf c -> n >= 1 -> np_reachable c n ls x -> p_int x = true -> Forall (label_ok c) ls' -> np_run c n x ls' = Some y ->
  length (actions ls') <= 10 * n + 4 + length (enqueued x) + length (retiring x).
Proof.
  intros c n ls x ls' y W Hn R Hi L H. pose proof (reach_ninv c n W ls x Hn R) as N.
  destruct (int_run c n W ls' x y L N Hi (int_stop c n ls x W Hn R Hi) H) as (_ & _ & _ & B).
  enough (weight x <= 10 * n + 4 + length (enqueued x) + length (retiring x)) by lia. clear B H L.
  pose proof (ni_len _ _ _ N) as Ln. pose proof (wths_le (p_ths x)) as Wl. unfold weight, enqueued. rewrite map_length.
  assert (Er : length (retiring x) = length (retp (p_ths x))).
  { clear. unfold retiring, retp. induction (p_ths x) as [|p l IH]; [reflexivity|]. cbn [flat_map]. rewrite !app_length, IH. destruct p; cbn [length]; rewrite ?map_length; reflexivity. }
  rewrite Er. destruct (p_state x); lia.
Qed.
Print Assumptions C53b_interrupt_bounded.

Lemma set_nth_length {A} i (v : A) l : length (set_nth i v l) = length l.
Proof. revert i. induction l as [|x l IH]; intros [|i]; cbn; auto. Qed.
Lemma joined_step c n x l y : np_step c n x l = Some y -> p_joined x <= length (p_ths x) -> p_joined y <= length (p_ths y).
Proof.
  intros H L. destruct l as [i fu e out w| |e]; cbn [np_step] in H.
  - destruct (nth_error (p_ths x) i) as [p|]; [|discriminate].
    assert (En : forall st, p_joined (enter x i st) = p_joined x /\ length (p_ths (enter x i st)) = length (p_ths x)) by (intros st; destruct st; cbn; rewrite set_nth_length; auto).
    destruct p as [b'| | | |q| |t|t|t ok|]; try discriminate.
    + destruct (locked (p_ths x)); [discriminate|]. injection H as <-. destruct (En match p_state x with Stalled_ => if b' then Ready_ else Stalled_ | st => st end) as [-> ->]. exact L.
    + destruct (locked (p_ths x)); [discriminate|]. injection H as <-. destruct (En (p_state x)) as [-> ->]. exact L.
    + injection H as <-. cbn. rewrite set_nth_length. exact L.
    + destruct q as [|[t ok] q]; [injection H as <-; cbn; rewrite set_nth_length; exact L|]. cbn zeta in H. destruct (step _ _ _ _) as [s|]; [|discriminate]. injection H as <-. cbn. rewrite set_nth_length. exact L.
    + destruct (next_task fu c e (p_tm x)) as [[s found]|]; [|discriminate].
      destruct found; [destruct (_ <? _); [destruct (running s) as [|t r]; [discriminate|]|]|destruct (_ =? _)%Z]; injection H as <-; cbn [p_joined p_ths].
      * pose proof (wakes_length _ _ (wakes_notify w (set_nth i (Start t) (p_ths x)))) as E. rewrite set_nth_length in E. unfold maybe_start. destruct (_ && _)%bool; rewrite ?app_length; lia.
      * exact L.
      * rewrite (wakes_length _ _ (wakes_notify_all _)), set_nth_length. exact L.
      * rewrite set_nth_length. exact L.
    + destruct (p_int x); injection H as <-; cbn; rewrite set_nth_length; exact L.
    + cbn zeta in H. injection H as <-. cbn. rewrite set_nth_length. exact L.
    + injection H as <-. cbn. rewrite set_nth_length. exact L.
  - destruct (nth_error (p_ths x) (p_joined x)) as [[]|] eqn:E; try discriminate. injection H as <-. cbn. apply nth_error_Some. congruence.
  - cbn [step] in H. injection H as <-. exact L.
Qed.

(* C53d.  Finite graph (as in C11).  From every state after a signal the build can be run to its end, where all workers have returned and been joined (with the
   bound of C53b: however the threads are scheduled, they get there). *)
Theorem C53d_interrupt_ends : forall c n U ls x e,
  cfg_wf c -> n >= 1 -> incl (tops c) U -> (forall k, In k U -> incl (alter c k) U) ->
  (forall l e k ch, In l ls -> label_env l = Some e -> In k U -> e_kids e k = Some ch -> incl ch U) ->
  env_ok c e -> (forall k ch, In k U -> e_kids e k = Some ch -> incl ch U) ->
  np_reachable c n ls x -> p_int x = true ->
  exists ls' y, Forall (label_ok c) ls' /\ np_run c n x ls' = Some y /\ all_joined y.
Proof.
  intros c n U ls x e W Hn HT HA HK Eo He R Hi. remember (weight x) as k eqn:Ek. revert ls x HK R Hi Ek.
  induction k as [k IH] using lt_wf_ind. intros ls x HK R Hi ->.
  destruct (C11_no_deadlock c n U ls x e W Hn HT HA HK Eo He R) as [P1 P2].
  pose proof (reach_ninv c n W ls x Hn R) as N. pose proof (int_stop c n ls x W Hn R Hi) as Hs.
  assert (Go : forall l y, label_ok c l -> (forall e', label_env l = Some e' -> e' = e) -> is_signal l = false -> np_step c n x l = Some y -> exists ls' y, Forall (label_ok c) ls' /\ np_run c n x ls' = Some y /\ all_joined y).
  { intros l y Lo Le Sg H. destruct (int_step c n W x l y Lo N Hi Hs H) as (Z1 & _ & _ & _ & _ & Z5). rewrite Sg in Z5.
    destruct (IH (weight y) Z5 (ls ++ [l]) y) as (ls' & z & A & B & C).
    - intros l0 e0 m ch Hl Hm. apply in_app_iff in Hl. destruct Hl as [Hl|[<-|[]]]; [eapply HK; eassumption|]. rewrite (Le _ Hm). apply He.
    - eapply np_reachable_app; [exact R | constructor; [exact Lo | constructor] | cbn [np_run]; rewrite H; reflexivity].
    - exact Z1.
    - reflexivity.
    - exists (l :: ls'), z. split; [constructor; assumption|]. split; [cbn [np_run]; rewrite H; exact B | exact C]. }
  assert (Un : unfinished x \/ ~ unfinished x).
  { unfold unfinished. clear. induction (p_ths x) as [|p l IH]; [right; intros (q & [] & _)|].
    destruct IH as [(q & A & B)|IH]; [left; exists q; split; [right; exact A | exact B]|].
    assert (Pd : p = Exited \/ p <> Exited) by (destruct p; auto; right; discriminate). destruct Pd as [->|Np]; [|left; exists p; split; [left; reflexivity | exact Np]].
    right. intros (q & [<-|A] & B); [congruence | apply IH; eauto]. }
  destruct Un as [Hu|Hu].
  - destruct (P1 Hu) as (i & fuel & out & w & y & H). apply (Go (Act i fuel e out w) y Eo) in H; [exact H | intros e' Q; injection Q as <-; reflexivity | reflexivity].
  - destruct (Nat.lt_ge_cases (p_joined x) (length (p_ths x))) as [J|J].
    + destruct (P2 Hu J) as [y H]. apply (Go Join y) in H; [exact H | exact (Logic.I) | discriminate | reflexivity].
    + exists [], x. split; [constructor|]. split; [reflexivity|]. split; [exact Hu|].
      assert (Jl : forall ls x y, np_run c n x ls = Some y -> p_joined x <= length (p_ths x) -> p_joined y <= length (p_ths y)).
      { clear. induction ls as [|l ls IH]; intros x y H L; cbn [np_run] in H; [injection H as <-; exact L|].
        destruct (np_step c n x l) as [z|] eqn:E; [|discriminate]. eapply IH; [exact H|]. eapply joined_step; eassumption. }
      pose proof (Jl ls (np_init c) x (proj2 R) (Nat.le_0_l _)). lia.
Qed.
Print Assumptions C53d_interrupt_ends.

(* C53e.  At the end of a build, interrupted or not: no command is running; every task whose execute() was called is reported with its own result, and every other
   task that had been handed out is reported as failed. *)
Theorem C53e_final_account : forall c n ls x,
  cfg_wf c -> n >= 1 -> np_reachable c n ls x -> In Exited (p_ths x) ->
  executing x = [] /\ Permutation (p_exec x) (map fst (p_done x))
  /\ Permutation (map fst (p_hist x)) (p_done x ++ map not_executed (p_skip x))
  /\ Permutation (handed (trace (p_tm x))) (p_exec x ++ p_skip x).
Proof.
  intros c n ls x W Hn R He. destruct (C10b_completion_not_early c n ls x W Hn R He) as (A1 & A2 & A3 & A4 & A5 & A6 & A7 & _).
  destruct (C53c_results_reported c n ls x W Hn R) as (B1 & B2 & _ & _). split; [exact A2|]. rewrite A2 in B2. cbn [app] in B2. split; [exact B2|].
  split; [|apply Permutation_sym; exact A6].
  assert (T : in_transit x = []).
  { unfold in_transit. unfold enqueued in A4. apply map_eq_nil in A4. rewrite A4. cbn [app]. unfold enqueueing, retiring in *. clear - A3 A5.
    assert (X : flat_map (fun p => match p with Enq t ok => [(t, ok)] | _ => [] end) (p_ths x) = []).
    { induction (p_ths x) as [|p l IH]; [reflexivity|]. cbn [flat_map] in *. apply app_eq_nil in A3, A5. destruct A3 as [A3 A3'], A5 as [_ A5]. rewrite (IH A3' A5). destruct p; try reflexivity. discriminate. }
    rewrite X. cbn [app]. clear X A3. induction (p_ths x) as [|p l IH]; [reflexivity|]. cbn [flat_map] in *. apply app_eq_nil in A5. destruct A5 as [A5 A5']. rewrite (IH A5'). destruct p; try reflexivity.
    apply map_eq_nil in A5. rewrite A5. reflexivity. }
  rewrite T in B1. exact B1.
Qed.
Print Assumptions C53e_final_account.

Lemma next_finish c e fuel s s' b t : cfg_wf c -> env_ok c e -> dinv c s -> next_task fuel c e s = Some (s', b) -> In (EFinish t) (trace s') -> In (EFinish t) (trace s).
Proof.
  intros W Eo D H. pose proof (env_ok_wf c e Eo) as We. pose proof (search_dinv c e W We fuel s D) as S0.
  unfold next_task in H. destruct (find_ready fuel c e s) as [|z|z m exc]; [discriminate| |].
  - injection H as <- <-. destruct S0 as [(_ & T & R) _]. rewrite T; auto.
  - destruct S0 as [(Dz & _ & T & R & _) _].
    destruct (make_ready_rest c (e_ready e m) z (all_targets c m)) as (M1 & M2 & _ & _ & _ & [_ _ _ M9 _ M11]).
    set (z1 := make_ready c (e_ready e m) z (all_targets c m)) in *.
    assert (R1 : refok z1) by (destruct (di_ref _ _ Dz) as [Da Db]; split; [rewrite M2; exact Da | intros p; rewrite M1, M2; apply Db]).
    assert (Ret : forall ev y, ev <> EFinish t -> retire fuel c e (e_now e) (emit z1 ev) (all_targets c m) = Some y -> In (EFinish t) (trace y) -> In (EFinish t) (trace s)).
    { intros ev y Hev Hy. destruct (retire_trace _ _ _ _ (emit z1 ev) _ _ We R1 Hy) as (Y1 & _). cbn [trace emit] in Y1. rewrite Y1, M11, T, in_app_iff. intros [Q|[Q|Q]]; [|congruence | exact Q].
      destruct (e_now e); [elim Q | elim Q | destruct Q as [Q|[]]; discriminate]. }
    destruct (exc || _).
    + destruct (retire _ _ _ _ _ _) as [y|] eqn:Hy; [|discriminate]. injection H as <- <-. eapply Ret; [|exact Hy]. destruct (e_now e); discriminate.
    + destruct (match all_targets c m with k :: _ => nstate_eqb (nst z1 k) Executing | [] => false end).
      * injection H as <- <-. cbn [trace emit set_running]. rewrite M11, T. intros [Q|Q]; [discriminate | exact Q].
      * destruct (retire _ _ _ _ _ _) as [y|] eqn:Hy; [|discriminate]. injection H as <- <-. eapply Ret; [|exact Hy]. destruct (e_now e); discriminate.
Qed.

(* C53f.  A target is recorded as finished only if its execute() returned normally, or if its failure was explicitly ignored (--ignore-errors), or if it was not
   executed for being up to date.  In particular what was interrupted is never recorded as built, without --ignore-errors. *)
Theorem C53f_finished_means_built : forall c n ls x t,
  cfg_wf c -> n >= 1 -> np_reachable c n ls x -> In (EFinish t) (trace (p_tm x)) ->
  In (t, true) (p_done x) \/ In (t, false, OOk) (p_hist x).
Proof.
  intros c n ls x t W Hn R Ef. pose proof R as [A B]. revert Ef.
  assert (G : forall ls x y, Forall (label_ok c) ls -> ninv c n x -> (In (EFinish t) (trace (p_tm x)) -> exists b, In (t, b, OOk) (p_hist x)) -> np_run c n x ls = Some y ->
    In (EFinish t) (trace (p_tm y)) -> exists b, In (t, b, OOk) (p_hist y)).
  { clear - t W Hn. induction ls as [|l ls IH]; intros x y Lo N Hi H; cbn [np_run] in H; [injection H as <-; exact Hi|].
    destruct (np_step c n x l) as [z|] eqn:E; [|discriminate]. inversion Lo as [|l' ls' L1 L2 E1]; subst.
    apply (IH z y L2); [eapply step_ninv; eassumption | | exact H]. clear IH H Lo L2 y ls.
    assert (D : dinv c (p_tm x)) by (eapply reachable_dinv; [exact W | apply (ni_reach _ _ _ N)]).
    destruct l as [i fu e out w| |e]; cbn [np_step] in E; cbn in L1.
    - destruct (nth_error (p_ths x) i) as [p|] eqn:Ep; [|discriminate]. destruct p as [b'| | | |q| |u|u|u ok|]; try discriminate.
      + destruct (locked (p_ths x)); [discriminate|]. injection E as <-. destruct (match p_state x with Stalled_ => _ | st => st end); exact Hi.
      + destruct (locked (p_ths x)); [discriminate|]. injection E as <-. destruct (p_state x); exact Hi.
      + injection E as <-. exact Hi.
      + destruct q as [|[u ok] q]; [injection E as <-; exact Hi|]. cbn zeta in E. destruct (step _ _ _ _) as [s|] eqn:Es; [|discriminate]. injection E as <-. cbn [p_tm p_hist].
        assert (Hu : In u (running (p_tm x))).
        { eapply Permutation_in; [apply Permutation_sym, (ni_run _ _ _ N)|]. rewrite !in_app_iff. right; right. unfold rets. apply in_flat_map. exists (Retiring ((u, ok) :: q)). split; [eapply nth_error_In; exact Ep | left; reflexivity]. }
        destruct (index_take u (running (p_tm x)) Hu) as (l1 & l2 & El & T). cbn [step] in Es. rewrite T in Es.
        destruct (retire_trace _ _ _ _ (emit (set_running (p_tm x) (l1 ++ l2)) (match (if ok then OOk else out) with OOk => EFinish u | _ => EFail u end)) _ _ (env_ok_wf c e L1) (di_ref _ _ D) Es) as (Y1 & _).
        cbn [trace emit set_running] in Y1. rewrite Y1. rewrite in_app_iff. intros [Q|[Q|Q]].
        * destruct (if ok then OOk else out); [elim Q | elim Q | destruct Q as [Q|[]]; discriminate].
        * destruct (if ok then OOk else out) eqn:Eo; try discriminate. injection Q as ->. exists ok. left. reflexivity.
        * destruct (Hi Q) as [b Hb]. exists b. right. exact Hb.
      + destruct (next_task fu c e (p_tm x)) as [[s found]|] eqn:En; [|discriminate].
        assert (Tr : In (EFinish t) (trace s) -> In (EFinish t) (trace (p_tm x))).
        { exact (next_finish _ _ _ _ _ _ t W L1 D En). }
        destruct found; [destruct (_ <? _); [destruct (running s) as [|u r]; [discriminate|]|]|destruct (_ =? _)%Z]; injection E as <-; cbn [p_tm p_hist]; auto.
      + destruct (p_int x); injection E as <-; exact Hi.
      + cbn zeta in E. injection E as <-. exact Hi.
      + injection E as <-. exact Hi.
    - destruct (nth_error _ _) as [[]|]; try discriminate. injection E as <-. exact Hi.
    - cbn [step] in E. injection E as <-. cbn [p_tm p_hist trace emit set_stopped]. intros [Q|Q]; [discriminate | apply Hi, Q]. }
  intros Q. destruct (G ls (np_init c) x A (init_ninv c n Hn) ltac:(intros []) B Q) as [[|] X]; [left | right; exact X].
  destruct (C53c_results_reported c n ls x W Hn R) as (P & _). assert (Y : In (t, true) (p_done x ++ map not_executed (p_skip x))).
  { eapply Permutation_in; [exact P|]. apply in_or_app. right. apply (in_map fst) in X. exact X. }
  apply in_app_iff in Y. destruct Y as [Y|Y]; [exact Y|]. apply in_map_iff in Y. destruct Y as (u & Y & _). discriminate.
Qed.
Print Assumptions C53f_finished_means_built.

Section Witness.
(* as in the witness of C09: worker 0 executes 1, then a signal arrives while worker 1 is about to execute 2; 1 ends normally, 2 is passed over; 0 is never started *)
Definition B1 i := Act i 50 je OFailStop 0.
Definition il1 := [A 0; A 0; A 0; A 0; A 1; A 1; A 1; A 1; A 0; Signal je].
Definition il2 := [A 0; A 1; A 0; A 0; A 0; A 0; A 0; A 0; A 1; A 0; A 1; A 1; B1 1; A 1; A 1; A 1; A 0; Join; Join].
Lemma isome c n a ls v : option_map (fun x => (p_ths x, p_int x, (p_exec x, p_skip x), (p_hist x, p_joined x))) (np_run c n a ls) = Some v ->
  exists x, np_run c n a ls = Some x /\ (p_ths x, p_int x, (p_exec x, p_skip x), (p_hist x, p_joined x)) = v.
Proof. destruct (np_run c n a ls) as [x|]; [|discriminate]. intros H. injection H as <-. eauto. Qed.
Example C53_witness : exists x y, np_reachable jc 2 il1 x /\ p_int x = true /\ p_ths x = [Exec [1]; Start [2]]
  /\ np_run jc 2 x il2 = Some y /\ all_joined y /\ p_exec y = [[1]] /\ p_skip y = [[2]] /\ p_hist y = [([2], false, OFailStop); ([1], true, OOk)].
Proof.
  destruct (isome jc 2 (np_init jc) il1 ([Exec [1]; Start [2]], true, ([[1]], []), ([], 0))) as (x & R & E); [vm_compute; reflexivity|].
  destruct (isome jc 2 (np_init jc) (il1 ++ il2) ([Exited; Exited], true, ([[1]], [[2]]), ([([2], false, OFailStop); ([1], true, OOk)], 2))) as (y & R2 & E2); [vm_compute; reflexivity|].
  exists x, y. split; [split; [apply jok; repeat constructor | exact R]|]. injection E as E1 E3 _ _ _ _. injection E2 as F1 F2 F3 F4 F5 F6.
  split; [exact E3|]. split; [exact E1|].
  split; [|split; [split; [intros (p & Hp & Np); rewrite F1 in Hp; cbn in Hp; intuition congruence | rewrite F1, F6; reflexivity] | auto]].
  assert (Ap : forall l1 l2 a z, np_run jc 2 a l1 = Some z -> np_run jc 2 a (l1 ++ l2) = np_run jc 2 z l2).
  { induction l1 as [|l l1 IH]; intros l2 a z H; cbn [np_run app] in *; [injection H as <-; reflexivity|]. destruct (np_step jc 2 a l); [apply IH; exact H | discriminate]. }
  rewrite (Ap il1 il2 _ _ R) in R2. exact R2.
Qed.

(* Finding.  With --ignore-errors (failed() ends in executed(), Main.py 245-248) a target that was passed over because of a signal, and so never executed, is recorded as built. *)
Definition il3 := [A 0; A 0; A 0; A 0; Signal je; A 0; A 0; A 0; A 0; A 0].
Theorem C53_ignore_errors_refuted : exists c n ls x t, cfg_wf c /\ n >= 1 /\ np_reachable c n ls x /\ p_exec x = [] /\ In t (p_skip x) /\ In (EFinish t) (trace (p_tm x)).
Proof.
  exists jc, 1, il3. remember (np_run jc 1 (np_init jc) il3) as r eqn:Er. vm_compute in Er.
  destruct r as [x|]; [|discriminate]. assert (Rx : np_run jc 1 (np_init jc) il3 = Some x) by (vm_compute; symmetry; exact Er).
  exists x, [1]. split; [apply xcfg_wf; intros k u []|]. split; [constructor|]. split; [split; [apply jok; repeat constructor | exact Rx]|].
  injection Er as ->. cbn. auto.
Qed.
Print Assumptions C53_ignore_errors_refuted.
End Witness.
