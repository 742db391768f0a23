(* Waiting edges and the order in which nodes were last considered: a run that leaves nothing pending has no cycle among
   what it considered, with side effects and with --keep-going.  Proof file. *)
From Coq Require Import List Arith ZArith Bool Lia Permutation.
Import ListNotations.
From Verif Require Import TMModel TMBase TMSpec TMSafe TMSafe2 TMStatic TMStatic2 TMStatic3 TMFinal TMCycle TMEnd TMSide TMSide2 TMTerm JobModel JobSpec JobProofs.

Section Last.
Context (c : cfg) (kids : node -> list node).
Context (W : cfg_wf c) (G : graph_wf c kids) (SA : side_effects_on_action c).

(* a waiting edge (k, p): k is pending, or still a candidate, or being executed, or p is behind a failure, or k was last considered after p *)
Definition edge_ok (h : node -> nat) (s : tm) (k p : node) : Prop :=
  In k (pend s) \/ In k (cands s) \/ (exists ts, In ts (running s) /\ (In k ts \/ In k (ses_of c ts)))
  \/ tainted kids (trace s) p \/ h p < h k.
Definition linv (s : tm) : Prop := exists h N, (forall n, h n < N) /\ forall k p, In (k, p) (wpE s) -> edge_ok h s k p.

Definition bump (h : node -> nat) (n N : nat) : node -> nat := fun x => if x =? n then N else h x.
Lemma bump_bound h n N : (forall x, h x < N) -> forall x, bump h n N x < S N.
Proof. intros H x. unfold bump. destruct (x =? n); [lia | specialize (H x); lia]. Qed.

(* a consideration of n that keeps the pending children and, but for n, the candidates; edges to n need their own reason *)
Lemma edge_ok_frame h N z y n k p : (forall x, h x < N) -> edge_ok h z k p ->
  (forall x, In x (pend z) -> In x (pend y)) -> (forall x, In x (cands z) -> x = n \/ In x (cands y)) ->
  running y = running z -> trace y = trace z -> p <> n -> edge_ok (bump h n N) y k p.
Proof.
  intros Hb H Hp Hc Hr Ht Np. unfold edge_ok in *. rewrite Hr, Ht.
  destruct (Nat.eq_dec k n) as [->|Nk].
  - right; right; right; right. unfold bump. rewrite Nat.eqb_refl. apply Nat.eqb_neq in Np. rewrite Np. apply Hb.
  - destruct H as [H|[H|[H|[H|H]]]]; auto.
    + right; left. destruct (Hc k H); [contradiction | assumption].
    + right; right; right; right. unfold bump. apply Nat.eqb_neq in Np, Nk. rewrite Np, Nk. exact H.
Qed.

Section Search.
Context (e : env) (Eo : env_ok c e) (Kd : forall m, e_kids e m = Some (kids m)).
Lemma consider_linv z z' n q : sinv c kids [] z -> dinv c z -> linv z -> popped c z z' n -> consider_spec c e z' n q ->
  match q with Continue z'' => linv z'' | Return z'' _ _ => linv z'' end.
Proof.
  intros S D (h & N & Hb & Hl) Pp Cs.
  destruct Pp as [P1 P2 P3 P4 P5 P6 P7 P8 P9 P10 P11 P12 _ _].
  pose proof (di_ref _ _ D) as Rz.
  assert (Rz' : refok z') by (destruct Rz as [Da Db]; split; [rewrite P3; exact Da | intros p; rewrite P2, P3; apply Db]).
  destruct (visited1_rest z' n) as (V1 & V2 & V3 & V4 & V5 & V6 & V7 & V8 & V9 & V10 & V11).
  assert (Vn : rank (nst z' n) <= 1 -> forall m, nst (visited1 z' n) m = if m =? n then Pending else nst z m).
  { intros H m; rewrite visited1_nst, P1 by exact H; reflexivity. }
  destruct Cs as [I1|I1 I2|ch y I1 I2 I3 I4 I5 I6 I7 I8 I9 [J1 J2 J3 J4 J5 J6]|ch y I1 I2 I3 I4 I5 I6 I7 I8 I9 I10 [J1 J2 J3 J4 J5 J6]
      |ch y I1 I2 I3 I4 I5 I6 I7 I8 I9 I10 [J1 J2 J3 J4 J5 J6]|ch I1 I2 I3 I4].
  - (* skipped *)
    exists h, N. split; [exact Hb|]. intros k p H. rewrite P3 in H. rewrite P1 in I1.
    destruct (F_edge1 _ _ _ _ S k p H) as (Ka & Kb & _).
    unfold edge_ok. rewrite P5, P8, P10. destruct (Hl k p H) as [A|[A|[A|[A|A]]]]; auto.
    destruct (P11 k A) as [->|B]; [|auto].
    destruct (nst z n) eqn:En; simpl in I1; try lia; simpl in Kb; try discriminate.
    + destruct (F_exec _ _ _ _ S n En) as (ts & T1 & T2). right; right; left; exists ts; auto.
    + right; right; right; left. apply (taint_kid kids _ p n Ka), (F_taint _ _ _ _ S); exact En.
  - rewrite Kd in I2; discriminate.
  - (* a child failed *)
    rewrite Kd in I2; injection I2 as <-.
    assert (T : tainted kids (trace z) n).
    { destruct I3 as (k & Hk & Fk). apply (taint_kid kids _ n k Hk), (F_taint _ _ _ _ S). rewrite <- P1; exact Fk. }
    exists (bump h n N), (Datatypes.S N). split; [apply bump_bound; exact Hb|]. intros k p H. rewrite I6, P3 in H.
    destruct (Nat.eq_dec p n) as [->|Np].
    + right; right; right; left. rewrite J6, V11, P10. exact T.
    + apply (edge_ok_frame h N z y n k p Hb (Hl k p H)); [intros x Hx; rewrite I8, P5; exact Hx| | | |exact Np]; try congruence.
      intros x Hx. destruct (P11 x Hx) as [A|A]; [left; exact A | right; apply I9; left; exact A].
  - (* waits *)
    specialize (Vn I1). rewrite Kd in I2; injection I2 as <-.
    exists (bump h n N), (Datatypes.S N). split; [apply bump_bound; exact Hb|]. intros k p H.
    destruct (Nat.eq_dec p n) as [->|Np].
    + assert (Hk : In k (kids n) /\ done (nst z k) = false).
      { apply (I7 k n Rz') in H. destruct H as [H|(_ & H1 & H2)].
        - rewrite P3 in H. destruct (F_edge1 _ _ _ _ S k n H) as (A & B & _). auto.
        - split; [exact H1|]. rewrite Vn in H2. destruct (k =? n) eqn:E.
          + apply Nat.eqb_eq in E; subst k. destruct (nst z n) eqn:E2; try reflexivity; rewrite P1, E2 in I1; simpl in I1; lia.
          + destruct (nst z k); try reflexivity; simpl in H2; lia. }
      destruct Hk as [Hk Hd]. unfold edge_ok.
      destruct (Nat.eq_dec k n) as [->|Nk].
      { left. apply I9. right. split; [exact Hk|]. rewrite Vn, Nat.eqb_refl. reflexivity. }
      assert (Nk' := Nk). apply Nat.eqb_neq in Nk'.
      destruct (nst z k) eqn:E; try (simpl in Hd; discriminate).
      * right; left. apply I10. right. split; [exact Hk|]. rewrite Vn, Nk'. exact E.
      * left. apply I9. right. split; [exact Hk|]. rewrite Vn, Nk'. exact E.
      * right; right; left. destruct (F_exec _ _ _ _ S k E) as (ts & T1 & T2). exists ts. split; [|exact T2]. rewrite J4, V9, P8. exact T1.
      * elim (I3 k Hk). rewrite P1. exact E.
    + assert (Hz : In (k, p) (wpE z)).
      { apply (I7 k p Rz') in H. destruct H as [H|(H & _)]; [rewrite P3 in H; exact H | contradiction]. }
      apply (edge_ok_frame h N z y n k p Hb (Hl k p Hz)); [| | | |exact Np]; try congruence.
      * intros x Hx. apply I9; left; rewrite P5; exact Hx.
      * intros x Hx. destruct (P11 x Hx) as [A|A]; [left; exact A | right; apply I10; left; exact A].
  - (* waits for a side effect *)
    specialize (Vn I1). rewrite Kd in I2; injection I2 as <-.
    exists (bump h n N), (Datatypes.S N). split; [apply bump_bound; exact Hb|]. intros k p H. rewrite I7, P3 in H.
    destruct (Nat.eq_dec p n) as [->|Np].
    + exfalso. destruct (F_edge1 _ _ _ _ S k n H) as (A & B & _). destruct (I3 k A) as [Q1 Q2]. rewrite Vn in Q1.
      destruct (k =? n); [simpl in Q1; lia|]. rewrite P1 in Q2. destruct (nst z k); simpl in *; try lia; try discriminate. congruence.
    + apply (edge_ok_frame h N z y n k p Hb (Hl k p H)); [intros x Hx; rewrite I8, P5; exact Hx| | | |exact Np]; try congruence.
      intros x Hx. destruct (P11 x Hx) as [A|A]; [left; exact A | right; rewrite I9; exact A].
  - (* returned *)
    specialize (Vn I1). rewrite Kd in I2; injection I2 as <-.
    exists (bump h n N), (Datatypes.S N). split; [apply bump_bound; exact Hb|]. intros k p H.
    cbn [wpE set_cands] in H. rewrite V2, P3 in H.
    destruct (Nat.eq_dec p n) as [->|Np].
    + exfalso. destruct (F_edge1 _ _ _ _ S k n H) as (A & B & _). destruct (I3 k A) as [Q1 Q2]. rewrite Vn in Q1.
      destruct (k =? n); [simpl in Q1; lia|]. rewrite P1 in Q2. destruct (nst z k); simpl in *; try lia; try discriminate. congruence.
    + apply (edge_ok_frame h N z _ n k p Hb (Hl k p H)); cbn [pend cands running trace set_cands]; try congruence; auto.
Qed.

Lemma search_linv fuel s : sinv c kids [] s -> dinv c s -> stopped s = false -> linv s ->
  match find_ready fuel c e s with NoFuel => True | NoneLeft s' => linv s' | Ready s' _ _ => linv s' end.
Proof.
  intros S D St L. pose proof (env_ok_wf c e Eo) as We.
  pose proof (find_ready_ind c e We (fun z => sinv c kids [] z /\ dinv c z /\ stopped z = false /\ linv z) (fun z _ _ => linv z)) as Ind.
  assert (I : match find_ready fuel c e s with
    | NoFuel => True
    | NoneLeft s' => (sinv c kids [] s' /\ dinv c s' /\ stopped s' = false /\ linv s') /\ (stopped s' = false -> cands s' = [] /\ topsleft s' = [])
    | Ready s' m exc => linv s' /\ stopped s' = false end).
  { apply Ind; [| | |auto].
    - intros z z' n z'' (A & B & C & L') Pp Cs.
      pose proof (consider_linv z z' n _ A B L' Pp Cs) as L''. cbn in L''.
      split; [eapply consider_sinv; eassumption|]. split; [eapply (consider_dinv c e We); eassumption|]. split; [|exact L''].
      assert (stopped z' = false) by (destruct Pp; congruence).
      assert (stopped (visited1 z' n) = false) by (destruct (visited1_rest z' n) as (_ & _ & _ & _ & _ & _ & _ & V & _); congruence).
      remember (Continue z'') as q eqn:Eq.
      destruct Cs as [I1|I1 I2|ch y I1 I2 I3 I4 I5 I6 I7 I8 I9 [J1 J2 J3 J4 J5 J6]|ch y I1 I2 I3 I4 I5 I6 I7 I8 I9 I10 [J1 J2 J3 J4 J5 J6]
        |ch y I1 I2 I3 I4 I5 I6 I7 I8 I9 I10 [J1 J2 J3 J4 J5 J6]|ch I1 I2 I3 I4]; try discriminate; injection Eq as <-; congruence.
    - intros z fl z' (_ & _ & C & _) C'. congruence.
    - intros z z' n z'' m exc (A & B & C & L') Pp Cs. exact (consider_linv z z' n _ A B L' Pp Cs). }
  destruct (find_ready fuel c e s); tauto.
Qed.
End Search.

(* a task ends: z is the state with the event, ts no longer among the running ones *)
Lemma retire_linv fuel e o z m s' : env_wf e -> refok z -> o <> OFailStop ->
  retire fuel c e o z (all_targets c m) = Some s' ->
  (exists l, trace s' = l ++ trace z) -> running s' = running z ->
  (exists h N, (forall n, h n < N) /\ forall k p, In (k, p) (wpE z) ->
     edge_ok h z k p \/ In k (all_targets c m) \/ (In k (ses_of c (all_targets c m)) /\ nst z k = Executing)) ->
  linv s'.
Proof.
  intros We Re Ho H [l Tr] Rn (h & N & Hb & Hl).
  pose proof (retire_full fuel c e o z m s' W We Re Ho H) as Rt.
  exists h, N. split; [exact Hb|]. intros k p Hkp. apply (rt_wp _ _ _ _ _ Rt) in Hkp. destruct Hkp as (A & B & C & Q).
  destruct (Hl k p A) as [K|[K|[K1 K2]]]; [|contradiction|].
  - unfold edge_ok in *. rewrite Rn, Tr. destruct K as [K|[K|[K|[K|K]]]]; auto.
    + left. apply (rt_p _ _ _ _ _ Rt). split; [exact K|]. split; [exact Q|]. split; [tauto|]. intros (X1 & X2 & _). apply C; auto.
    + right; left. apply (rt_c1 _ _ _ _ _ Rt); exact K.
    + right; right; right; left. apply taint_app; exact K.
  - exfalso. destruct (rt_out _ _ _ _ _ Rt k B) as [(_ & X & _)|[(_ & X)|(X1 & X2 & _)]]; [apply X; auto | apply C; auto | apply (Q X1 X2)].
Qed.

Lemma next_linv fuel e s s' b :
  env_ok c e -> (forall m, e_kids e m = Some (kids m)) -> dinv c s -> sinv c kids [] s -> stopped s = false -> stopped s' = false ->
  linv s -> next_task fuel c e s = Some (s', b) -> linv s'.
Proof.
  intros Eo Kd D S St St' L H. pose proof (env_ok_wf c e Eo) as We.
  pose proof (search_sinv c kids W G e Eo Kd fuel s S D St) as Q.
  pose proof (search_linv e Eo Kd fuel s S D St L) as SL.
  unfold next_task in H.
  destruct (find_ready fuel c e s) as [|z|z m exc]; [discriminate | injection H as <- _; exact SL |].
  destruct Q as (-> & Sz & Dz & Pm & Hm & T & R & Kk & Nx).
  set (ts := all_targets c m) in *.
  set (z1 := make_ready c (e_ready e m) z ts) in *.
  destruct (make_ready_rest c (e_ready e m) z ts) as (M1 & M2 & M3 & M4 & M5 & [M6 M7 M8 M9 M10 M11]). fold z1 in M1, M2, M3, M4, M5, M6, M7, M8, M9, M10, M11.
  assert (R1 : refok z1) by (destruct (di_ref _ _ Dz) as [Da Db]; split; [rewrite M2; exact Da | intros p; rewrite M1, M2; apply Db]).
  destruct SL as (h & N & Hb & Hl).
  assert (Ret : forall ev y, retire fuel c e (e_now e) (emit z1 ev) ts = Some y -> stopped y = false -> linv y).
  { intros ev y Hy Sy. assert (Re : refok (emit z1 ev)) by exact R1.
    destruct (retire_trace _ _ _ _ _ _ _ We Re Hy) as (Y1 & Y2 & _ & _ & _ & _ & Y7 & _). cbn in Y2, Y7.
    assert (No : e_now e <> OFailStop) by (intros X; rewrite X in Y7; congruence).
    apply (retire_linv fuel e (e_now e) (emit z1 ev) m y We Re No Hy); [|exact Y2|].
    - eexists. exact Y1.
    - exists h, N. split; [exact Hb|]. intros k p Hkp. cbn [wpE emit] in Hkp. rewrite M2 in Hkp.
      left. destruct (Hl k p Hkp) as [K|[K|[K|[K|K]]]]; unfold edge_ok; cbn [pend cands running trace emit]; rewrite ?M4, ?M5, ?M9, ?M11; auto.
      right; right; right; left. apply taint_cons. rewrite ?M11. exact K. }
  cbn [orb] in H.
  destruct (match e_ready e m with RExc => true | _ => false end) eqn:Er.
  - destruct (retire fuel c e (e_now e) _ ts) as [y|] eqn:Hy; [|discriminate]. injection H as <- _. exact (Ret _ y Hy St').
  - destruct (match ts with t :: _ => nstate_eqb (nst z1 t) Executing | [] => false end) eqn:Ee.
    + injection H as <- _. exists h, N. split; [exact Hb|]. intros k p Hkp. cbn [wpE emit set_running] in Hkp. rewrite M2 in Hkp.
      unfold edge_ok. cbn [pend cands running trace emit set_running]. rewrite M4, M5, M9, ?M11.
      destruct (Hl k p Hkp) as [K|[K|[(q & K1 & K2)|[K|K]]]]; auto.
      * right; right; left. exists q; split; [right; exact K1 | exact K2].
      * right; right; right; left. apply taint_cons; exact K.
    + destruct (retire fuel c e (e_now e) _ ts) as [y|] eqn:Hy; [|discriminate]. injection H as <- _. exact (Ret _ y Hy St').
Qed.

Lemma done_linv fuel e i out s s' :
  env_ok c e -> dinv c s -> sinv c kids [] s -> seexec2 c kids s -> stopped s = false -> stopped s' = false ->
  linv s -> step fuel c s (Done i out e) = Some s' -> linv s'.
Proof.
  intros Eo D S Se St St' L H. pose proof (env_ok_wf c e Eo) as We.
  cbn in H. destruct (take_nth i (running s)) as [[ts rest]|] eqn:Et; [|injection H as <-; exact L].
  set (ev := match out with OOk => EFinish ts | _ => EFail ts end) in *.
  assert (Re : refok (emit (set_running s rest) ev)) by exact (di_ref _ _ D).
  destruct (retire_trace _ _ _ _ _ _ _ We Re H) as (Y1 & Y2 & _ & _ & _ & _ & Y7 & _). cbn in Y2, Y7.
  assert (No : out <> OFailStop) by (intros X; rewrite X in Y7; congruence).
  destruct (take_nth_In _ _ _ _ Et) as [Ht Hr].
  pose proof (di_run _ _ D ts Ht) as Hs. destruct (di_tgt _ _ D ts (or_introl Hs)) as [m ->].
  destruct (alldisj_take i _ _ _ (F_disj _ _ _ _ S) Et) as (_ & _ & A3 & _).
  apply (retire_linv fuel e out _ m s' We Re No H); [eexists; exact Y1 | exact Y2|].
  destruct L as (h & N & Hb & Hl). exists h, N. split; [exact Hb|]. intros k p Hkp.
  change (In (k, p) (wpE s)) in Hkp.
  destruct (F_edge1 _ _ _ _ S k p Hkp) as (Ka & _ & _).
  unfold edge_ok. cbn [pend cands running trace emit set_running nst].
  destruct (Hl k p Hkp) as [K|[K|[(q & K1 & K2)|[K|K]]]]; auto 10.
  - destruct (A3 q K1) as [->|Hq]; [|left; right; right; left; exists q; auto].
    destruct K2 as [K2|K2]; [auto|].
    destruct (Se _ k K1 K2) as [X|X]; [auto|]. left; right; right; right; left. apply taint_cons, (taint_kid kids _ p k Ka), X.
  - left; right; right; right; left. apply taint_cons; exact K.
Qed.

Lemma reachable_linv ops s : reachable c ops s -> static kids ops -> clean s -> linv s.
Proof.
  intros [Ho [fuel H]] St.
  apply (run_inv (fun s => dinv c s /\ (clean s -> sinv c kids [] s) /\ inv8k c kids s /\ (clean s -> linv s))
    (fun o => env_ok c (op_env o) /\ (forall n, e_kids (op_env o) n = Some (kids n))) c) with (ops := ops) (fuel := fuel) (s := init c) (s' := s).
  - intros fl z o z' (A & B) (D & Sv & I & L) E.
    assert (Sv' : clean z' -> sinv c kids [] z') by (eapply (step_sinv c kids W G); eassumption).
    split; [eapply step_dinv; eassumption|]. split; [exact Sv'|]. split.
    { destruct o as [e|i out e|e]; cbn in A, B.
      - assert (E' := E). cbn in E. destruct (next_task fl c e z) as [[y b]|] eqn:En; [|discriminate]. injection E as <-. eapply next_inv8k; eassumption.
      - eapply done_inv8k; eassumption.
      - injection E as <-. intros N. destruct (I (fun q Hq => N q (or_intror Hq))) as [I1 _]. split; [exact (tdisj_mono c kids [EStop] _ _ I1) | discriminate]. }
    intros [C1 C2].
    destruct o as [e|i out e|e]; cbn in A, B.
    + cbn in E. destruct (next_task fl c e z) as [[y b]|] eqn:En; [|discriminate]. injection E as <-.
      pose proof (stop_mono c _ _ _ _ _ A D En C1) as Sz.
      assert (Cz : clean z).
      { split; [exact Sz|]. intros q Hq. destruct (next_events _ _ _ _ _ _ W A D En) as [X|(m & ev & l & X & _)]; apply (C2 q); rewrite X; [exact Hq|].
        apply in_or_app; right; right; exact Hq. }
      eapply next_linv; try eassumption; auto.
    + destruct (done_events _ _ _ _ _ _ _ A D E) as (lt & Tp & _).
      assert (Nz : noign (trace z)) by (intros q Hq; apply (C2 q); rewrite Tp; apply in_or_app; right; exact Hq).
      assert (Sz : stopped z = false).
      { cbn in E. destruct (take_nth i (running z)) as [[ts rest]|] eqn:Et; [|injection E as <-; exact C1].
        assert (Re : refok (emit (set_running z rest) (match out with OOk => EFinish ts | _ => EFail ts end))) by exact (di_ref _ _ D).
        destruct (retire_trace _ _ _ _ _ _ _ (env_ok_wf c e A) Re E) as (_ & _ & _ & _ & _ & _ & Y7 & _). cbn in Y7. destruct out; congruence. }
      eapply done_linv; try eassumption; [apply Sv; split; assumption | apply I; assumption | apply L; split; assumption].
    + cbn in E. injection E as <-. discriminate.
  - apply Forall_forall. intros o Hi. split; [apply (proj1 (Forall_forall _ _) Ho o Hi) | apply (proj1 (Forall_forall _ _) St o Hi)].
  - split; [apply init_dinv|]. split; [intros _; apply init_sinv|]. split; [intros _; split; [exact Logic.I | intros _ q x []]|].
    intros _. exists (fun _ => 0), 1. split; [auto|]. intros k p [].
  - exact H.
Qed.

(* nothing pending at the end: everything considered that is not behind a failure is finished *)
Lemma final_pend_nil2 s : final c kids s -> linv s -> pend s = [] -> forall n, In n (seen s) -> ~ tainted kids (trace s) n -> finished (trace s) n.
Proof.
  intros Fi (h & N & Hb & Hl) Hp. assert (S := fi_sinv c kids s Fi). assert (R := fi_run c kids s Fi). assert (C := fi_cands c kids s Fi).
  assert (Over : forall x, tasked (trace s) x -> ~ tainted kids (trace s) x -> finished (trace s) x).
  { intros x Tx Nx. destruct (F_over _ _ _ _ S x Tx) as [Q|[Q|(ts & Q & _)]]; [exact Q | | rewrite R in Q; elim Q].
    elim Nx. exists x; split; [apply d0 | exact Q]. }
  assert (Gen : forall len n, N - h n <= len -> In n (seen s) -> ~ tainted kids (trace s) n -> finished (trace s) n).
  { induction len as [|len IH]; intros n Hlen Hn Nt; [specialize (Hb n); lia|].
    destruct (finished_dec (trace s) n) as [F|F]; [exact F|]. exfalso.
    destruct (F_J _ _ _ _ S n Hn) as [Q|[(k & Q)|(se & ts & _ & Q & _)]].
    - intros [].
    - exact Nt.
    - intros Q; apply F, Over; assumption.
    - rewrite C in Q; elim Q.
    - destruct (F_edge1 _ _ _ _ S k n Q) as (K1 & K2 & _).
      assert (Nk : ~ tainted kids (trace s) k) by (intros X; apply Nt; eapply taint_kid; eassumption).
      assert (Fk : ~ finished (trace s) k) by (intros X; apply (F_fin _ _ _ _ S) in X; congruence).
      assert (Sk : In k (seen s)).
      { destruct (F_edge2 _ _ _ _ S k n Q) as [K|[K|[K|[K|(ts & K & _)]]]];
          [rewrite C in K; elim K | exact K | elim Fk; apply Over; assumption | contradiction | rewrite R in K; elim K]. }
      destruct (Hl k n Q) as [K|[K|[(ts & K & _)|[K|K]]]]; [rewrite Hp in K; elim K | rewrite C in K; elim K | rewrite R in K; elim K | contradiction |].
      apply Fk, IH; [specialize (Hb k); lia | exact Sk | exact Nk].
    - rewrite R in Q; elim Q. }
  intros n. apply (Gen N n). lia.
Qed.

Lemma cycle_reported2 ops s e : ended c ops s -> static kids ops -> env_ok c e -> ~ In EStop (trace s) -> noign (trace s) ->
  (exists t n m, In t (tops c) /\ reaches c kids t n /\ ~ tainted kids (trace s) n /\ depends0 kids n m /\ depends kids m m) ->
  exists F, forall fuel, fuel >= F -> cleanup_raises fuel e s = Some true.
Proof.
  intros He St Eo N1 Ni (t & n & m & Ht & Hr & Nn & Hd & Hc).
  assert (Fi : final c kids s) by (apply (ended_final c kids W G ops); assumption).
  assert (Sv := fi_sinv c kids s Fi). assert (Ord := F_ord _ _ _ _ Sv).
  assert (L : linv s).
  { destruct He as (ops0 & e0 & s0 & fuel & -> & R & Eo0 & Rn & H).
    apply (reachable_linv (ops0 ++ [Next e0]) s); [|exact St|].
    - eapply reachable_step; [exact R | exact Eo0 | cbn; rewrite H; reflexivity].
    - split; [|exact Ni]. destruct (stopped s) eqn:X; [|reflexivity]. elim N1. apply (di_stop _ _ (fi_dinv c kids s Fi)); exact X. }
  destruct (pend s) as [|p r] eqn:Ep.
  - exfalso.
    pose proof (final_pend_nil2 s Fi L Ep) as AllF.
    assert (Fn : finished (trace s) n).
    { assert (Cn : covered c s n).
      { apply (final_reaches c kids G s Fi t n Hr). apply (final_top c kids s t Fi Ht). inversion Hr; assumption. }
      destruct Cn as (n' & A & B).
      assert (An : In n (all_targets c n')) by (rewrite (cw_share c W n n' A); apply cw_self; exact W).
      assert (Nn' : ~ tainted kids (trace s) n').
      { intros X. apply Nn. eapply (taint_share c kids); [exact G | exact W | exact An | exact (F_ftgt _ _ _ _ Sv) | exact X]. }
      pose proof (AllF n' B Nn') as F'.
      pose proof (F_tgt _ _ _ _ Sv n' n (finished_tasked c kids [] s Sv n' F') An) as Tn.
      destruct (F_over _ _ _ _ Sv n Tn) as [Q|[Q|(ts & Q & _)]]; [exact Q | | rewrite (fi_run _ _ s Fi) in Q; elim Q].
      elim Nn. exists n; split; [apply d0 | exact Q]. }
    pose proof (final_closed c kids s Fi n m Fn Hd) as Fm.
    apply (ordered_acyclic kids (length (trace s)) (trace s) (le_n _) Ord Ni m); [|exact Hc].
    apply ordered_issued with (kids := kids); assumption.
  - destruct (cleanup_total e s (env_ok_wf c e Eo)) as [F HF]. exists F. intros fuel Hf.
    rewrite cleanup_eq. rewrite Ep. destruct (HF fuel Hf (p :: r)) as [b Hb]; [rewrite Ep; intros x Hx; exact Hx|].
    destruct b; [exact Hb|]. exfalso. revert Hb. apply cleanup_raise_head.
    intros X. destruct (F_pend _ _ _ _ Sv p) as [q Q]; [rewrite Ep; left; reflexivity|].
    apply (F_edge1 _ _ _ _ Sv) in Q. destruct Q as (_ & Q & _). rewrite X in Q. discriminate.
Qed.
End Last.
