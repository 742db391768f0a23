(* Invariants of the graph walk for a fixed dependency graph.  Proof file. *)
From Coq Require Import List Arith ZArith Bool Lia Permutation.
Import ListNotations.
From Verif Require Import TMModel TMBase TMSpec TMSafe.

Definition tasked (tr : list event) (n : node) : Prop :=
  exists ts, In n ts /\ (In (EStart ts) tr \/ In (ECurrent ts) tr \/ In (EFail ts) tr).
Definition noign (tr : list event) : Prop := forall ts, ~ In (EIgnored ts) tr.
Definition clean (s : tm) : Prop := stopped s = false /\ noign (trace s).
Definition covered (c : cfg) (s : tm) (n : node) : Prop := exists n', In n' (all_targets c n) /\ In n' (seen s).
Definition disj (a b : list node) : Prop := forall x, In x a -> In x b -> False.
Fixpoint alldisj (l : list (list node)) : Prop :=
  match l with [] => True | x :: r => (forall y, In y r -> disj x y) /\ alldisj r end.
Fixpoint ordered (kids : node -> list node) (tr : list event) : Prop :=
  match tr with
  | [] => True
  | EStart ts :: r | ECurrent ts :: r =>
      ((forall t k, In t ts -> In k (kids t) -> finished r k) /\ (forall t, In t ts -> ~ tasked r t)) /\ ordered kids r
  | EFinish ts :: r => In (EStart ts) r /\ ordered kids r
  | _ :: r => ordered kids r
  end.
Definition before (l : list node) (p k : node) : Prop := exists l1 l2, l = l1 ++ p :: l2 /\ ~ In k (p :: l2).

Record sinv (c : cfg) (kids : node -> list node) (X : list node) (s : tm) : Prop := {
  F_fin : forall n, finished (trace s) n -> done (nst s n) = true;
  F_task : forall n, tasked (trace s) n -> forall k, In k (kids n) -> done (nst s k) = true;
  F_rank : forall n, tasked (trace s) n -> rank (nst s n) >= 2;
  F_fail : forall n, failed (trace s) n -> nst s n = Failed;
  F_taint : forall n, nst s n = Failed -> tainted kids (trace s) n;
  F_exec : forall n, nst s n = Executing -> exists ts, In ts (running s) /\ (In n ts \/ In n (ses_of c ts));
  F_run : forall ts, In ts (running s) -> forall t, In t ts -> nst s t = Executing;
  F_disj : alldisj (running s);
  F_pseen : forall n, nst s n = Pending -> In n (seen s);
  F_cov : forall n, ~ is_side_effect c n -> rank (nst s n) > 1 -> covered c s n;
  F_edge1 : forall k p, In (k, p) (wpE s) -> In k (kids p) /\ done (nst s k) = false /\ In p (seen s);
  F_edge2 : forall k p, In (k, p) (wpE s) -> In k (cands s) \/ In k (seen s) \/ tasked (trace s) k
              \/ tainted kids (trace s) k \/ exists ts, In ts (running s) /\ In k (ses_of c ts);
  F_J : forall n, In n (seen s) -> ~ In n X -> ~ tainted kids (trace s) n -> ~ tasked (trace s) n ->
          In n (cands s) \/ (exists k, In (k, n) (wpE s))
          \/ exists se ts, In n (wse s se) /\ In ts (running s) /\ In se (ses_of c ts);
  F_K : forall n k, In n (seen s) -> In k (kids n) -> ~ is_side_effect c k ->
          done (nst s k) = true \/ In (k, n) (wpE s) \/ tainted kids (trace s) n;
  F_V : forall n k, In n (seen s) -> In k (kids n) -> ~ is_side_effect c k -> In k (cands s) \/ covered c s k;
  F_tops : forall t, In t (tops c) -> ~ is_side_effect c t -> In t (topsleft s) \/ In t (cands s) \/ covered c s t;
  F_dtask : forall n, done (nst s n) = true -> tasked (trace s) n;
  F_over : forall n, tasked (trace s) n ->
     finished (trace s) n \/ failed (trace s) n \/ exists ts, In ts (running s) /\ In n ts;
  F_pend : forall x, In x (pend s) -> exists p, In (x, p) (wpE s);
  F_ord : ordered kids (trace s);
  F_tgt : forall n n', tasked (trace s) n -> In n' (all_targets c n) -> tasked (trace s) n';
  F_L : forall k p, In (k, p) (wpE s) -> In k (pend s) \/ is_side_effect c k
          \/ (exists ts, In ts (running s) /\ In k ts) \/ before (seen s) p k;
  F_seen : forall n, In n (seen s) -> is_side_effect c n \/ rank (nst s n) >= 1;
  F_ftgt : forall n n', failed (trace s) n -> In n' (all_targets c n) -> failed (trace s) n';
  F_nd : NoDup (seen s) }.

Lemma se_dec c n U : (forall t, ~ In t U -> side_effects c t = []) -> {is_side_effect c n} + {~ is_side_effect c n}.
Proof.
  intros H. destruct (in_dec Nat.eq_dec n (ses_of c U)) as [A|A].
  - left. apply in_flat_map in A. destruct A as (t & _ & A). exists t; exact A.
  - right. intros [t Ht]. apply A, in_flat_map. exists t; split; [|exact Ht].
    destruct (in_dec Nat.eq_dec t U) as [B|B]; [exact B | rewrite (H t B) in Ht; elim Ht].
Qed.

Lemma depends0_trans kids a b d : depends0 kids a b -> depends0 kids b d -> depends0 kids a d.
Proof. induction 1; [auto | intros H1; eapply d1; eauto]. Qed.
Lemma taint_kid kids tr n k : In k (kids n) -> tainted kids tr k -> tainted kids tr n.
Proof. intros H (m & A & B); exists m; split; [eapply d1; eassumption | exact B]. Qed.
Lemma failed_cons tr e n : failed tr n -> failed (e :: tr) n.
Proof. intros (ts & H & G); exists ts; split; [exact H | right; exact G]. Qed.
Lemma taint_cons kids tr e n : tainted kids tr n -> tainted kids (e :: tr) n.
Proof. intros (m & A & B); exists m; split; [exact A | apply failed_cons; exact B]. Qed.
Lemma tasked_cons tr e n : tasked tr n -> tasked (e :: tr) n.
Proof. intros (ts & H & G); exists ts; split; [exact H|]; simpl; tauto. Qed.
Lemma failed_tasked tr n : failed tr n -> tasked tr n.
Proof. intros (ts & H & G); exists ts; auto. Qed.
Lemma taint_share c kids tr n n' : graph_wf c kids -> cfg_wf c -> In n' (all_targets c n) ->
  (forall m m', failed tr m -> In m' (all_targets c m) -> failed tr m') ->
  tainted kids tr n -> tainted kids tr n'.
Proof.
  intros G W H F (m & A & B). inversion A; subst.
  - exists n'; split; [apply d0 | eapply F; eassumption].
  - exists m; split; [|exact B]. eapply d1; [rewrite (gw_share c kids G n n' H); eassumption | assumption].
Qed.
Lemma before_cons l p k x : before l p k -> before (x :: l) p k.
Proof. intros (l1 & l2 & -> & H); exists (x :: l1), l2; split; [reflexivity | exact H]. Qed.
Lemma before_set_add l p k x : before l p k -> before (set_add x l) p k.
Proof. intros H; unfold set_add; destruct (mem x l); [exact H | apply before_cons; exact H]. Qed.
Lemma cnt_edge p E : cnt p E = 0 \/ exists c, In (c, p) E.
Proof. destruct (cnt p E) eqn:H; [left; reflexivity | right; apply cnt_pos; lia]. Qed.

Lemma covered_mono c s s' n : (forall x, In x (seen s) -> In x (seen s')) -> covered c s n -> covered c s' n.
Proof. intros H (n' & A & B); exists n'; auto. Qed.

Lemma sinv_weaken c kids X Y s : (forall x, In x X -> In x Y) -> sinv c kids X s -> sinv c kids Y s.
Proof. intros H []; constructor; auto. Qed.

(* ---- the search loop ---- *)
Section Search.
Context (c : cfg) (kids : node -> list node) (e : env).
Context (W : cfg_wf c) (G : graph_wf c kids) (We : env_wf e) (Kd : forall m, e_kids e m = Some (kids m)).

Lemma exec_tasked X z n : sinv c kids X z -> dinv c z -> nst z n = Executing -> ~ is_side_effect c n -> tasked (trace z) n.
Proof.
  intros S D E H. destruct (F_exec _ _ _ _ S n E) as (ts & A & [B|B]).
  - exists ts; split; [exact B | left; apply (di_run _ _ D); exact A].
  - elim H. apply in_flat_map in B. destruct B as (t & _ & B); exists t; exact B.
Qed.
Lemma untasked_target X z n t : sinv c kids X z -> rank (nst z n) <= 1 -> In t (all_targets c n) -> ~ tasked (trace z) t.
Proof.
  intros S H Ht T. assert (tasked (trace z) n) as Q.
  { apply (F_tgt _ _ _ _ S t n T). rewrite (cw_share c W n t Ht). apply cw_self; exact W. }
  apply (F_rank _ _ _ _ S) in Q. lia.
Qed.
Lemma untasked_se X z n s : sinv c kids X z -> rank (nst z n) <= 1 -> In s (ses_of c (all_targets c n)) -> ~ tasked (trace z) s.
Proof.
  intros S H Hs T. apply in_flat_map in Hs. destruct Hs as (t & Ht & Hs).
  pose proof (F_task _ _ _ _ S s T t (gw_se c kids G s t Hs)) as Q.
  apply (F_dtask _ _ _ _ S) in Q. exact (untasked_target X z n t S H Ht Q).
Qed.

(* one considered candidate: common part of all outcomes *)
Lemma consider_frame X z y n :
  sinv c kids X z -> dinv c z -> rank (nst z n) <= 1 ->
  (forall x, nst y x = (if x =? n then Pending else nst z x)
             \/ (In x (action_targets c n) /\ nst y x = Failed /\ tainted kids (trace z) n)) ->
  running y = running z -> trace y = trace z -> seen y = set_add n (seen z) -> wse y = wse z \/
     (forall x w, In x (wse z w) -> In x (wse y w)) ->
  (forall x, In x (cands z) -> x = n \/ In x (cands y)) ->
  (forall x, In x (topsleft z) -> x = n \/ In x (cands y) \/ In x (topsleft y)) ->
  (forall x, In x (kids n) -> nst z x = NoState -> x = n \/ In x (cands y)) ->
  (forall k p, In (k, p) (wpE z) -> In (k, p) (wpE y)) ->
  (forall k p, In (k, p) (wpE y) -> In (k, p) (wpE z) \/
      (p = n /\ In k (kids n) /\ rank (nst z k) <= 2 /\ (In k (pend y) \/ is_side_effect c k
          \/ (exists ts, In ts (running z) /\ In k ts) \/ before (seen y) n k))) ->
  (forall x, In x (pend z) -> In x (pend y)) ->
  (forall x, In x (pend y) -> In x (pend z) \/ exists p, In (x, p) (wpE y)) ->
  (In n X \/ tainted kids (trace z) n \/ (exists k, In (k, n) (wpE y))
     \/ exists se ts, In n (wse y se) /\ In ts (running z) /\ In se (ses_of c ts)) ->
  (forall k, In k (kids n) -> ~ is_side_effect c k -> done (nst z k) = true \/ In (k, n) (wpE y) \/ tainted kids (trace z) n) ->
  sinv c kids X y.
Proof.
  intros S D Rn Hn Hrun Htr Hseen Hwse Hc1 Ht Hc2 He1 He2 Hp1 Hp2 HJ HK.
  assert (S0 := S). destruct S0 as [F1 F2 F3 F4 F5 F6 F7 F8 F9 F10 F11 F12 F13 F14 F15 F16 F17 F18 F19 F20 F21 F22 F23 F24 F25].
  assert (Un : forall t, In t (all_targets c n) -> ~ tasked (trace z) t) by (intros t; apply (untasked_target X z n t S Rn)).
  assert (Un' : forall x, tasked (trace z) x -> nst y x = nst z x).
  { intros x Tx. destruct (Hn x) as [A|(A & _)].
    - rewrite A. destruct (x =? n) eqn:E; [|reflexivity]. apply Nat.eqb_eq in E; subst. elim (Un n (cw_self c W n) Tx).
    - elim (Un x (cw_action c W n x A) Tx). }
  assert (Dn : forall x, done (nst z x) = true -> done (nst y x) = true) by (intros x Hx; rewrite Un'; auto).
  assert (Dn' : forall x, done (nst y x) = true -> nst y x = nst z x).
  { intros x Hx. destruct (Hn x) as [A|(_ & A & _)]; [|rewrite A in Hx; discriminate].
    rewrite A in *. destruct (x =? n); [discriminate | reflexivity]. }
  assert (Seen : forall x, In x (seen z) -> In x (seen y)) by (intros x Hx; rewrite Hseen; apply in_set_add; auto).
  assert (Sn : In n (seen y)) by (rewrite Hseen; apply in_set_add; auto).
  assert (Cov : forall x, covered c z x -> covered c y x) by (intros x; apply covered_mono; exact Seen).
  assert (Tn : forall x, In x (action_targets c n) -> tainted kids (trace z) n -> tainted kids (trace z) x).
  { intros x Hx (m & A & B). apply (cw_action c W) in Hx. inversion A; subst.
    - elim (Un m (cw_self c W m) (failed_tasked _ _ B)).
    - exists m; split; [|exact B]. eapply d1; [rewrite (gw_share c kids G n x Hx); eassumption | assumption]. }
  assert (Rk : forall x, rank (nst z x) > 1 -> rank (nst y x) > 1).
  { intros x Hx. destruct (Hn x) as [A|(_ & A & _)]; rewrite A; [|simpl; lia].
    destruct (x =? n) eqn:E; [apply Nat.eqb_eq in E; subst; lia | exact Hx]. }
  assert (CovN : forall x, In x (all_targets c n) -> covered c y x).
  { intros x Hx. exists n; split; [rewrite (cw_share c W n x Hx); apply cw_self; exact W | exact Sn]. }
  constructor; rewrite ?Hrun, ?Htr.
  - intros x Hx; apply Dn, F1; exact Hx.
  - intros x Hx k Hk; eapply Dn, F2; eassumption.
  - intros x Hx; rewrite Un' by exact Hx; apply F3; exact Hx.
  - intros x Hx; rewrite Un' by (apply failed_tasked; exact Hx); apply F4; exact Hx.
  - intros x Hx. destruct (Hn x) as [A|(A & _ & B)]; [|apply Tn; assumption].
    rewrite A in Hx. destruct (x =? n); [discriminate | apply F5; exact Hx].
  - intros x Hx. destruct (Hn x) as [A|(_ & A & _)]; [|rewrite A in Hx; discriminate].
    rewrite A in Hx. destruct (x =? n); [discriminate | apply F6; exact Hx].
  - intros ts Hts t Htt. rewrite Un'; [apply (F7 ts Hts t Htt)|]. exists ts; split; [exact Htt | left; apply (di_run _ _ D); exact Hts].
  - exact F8.
  - intros x Hx. destruct (Hn x) as [A|(_ & A & _)]; [|rewrite A in Hx; discriminate].
    destruct (x =? n) eqn:E; [apply Nat.eqb_eq in E; subst; exact Sn | apply Seen, F9; congruence].
  - intros x Hs Hx. destruct (Hn x) as [A|(A & _)]; [|apply CovN, (cw_action c W); exact A].
    rewrite A in Hx. destruct (x =? n) eqn:E; [simpl in Hx; lia | apply Cov, F10; assumption].
  - intros k p H. destruct (He2 k p H) as [A|(-> & A & B & _)].
    + destruct (F11 k p A) as (Q1 & Q2 & Q3). split; [exact Q1|]. split; [|apply Seen; exact Q3].
      destruct (done (nst y k)) eqn:E; [|reflexivity]. rewrite (Dn' k E) in E; congruence.
    + split; [exact A|]. split; [|exact Sn]. destruct (done (nst y k)) eqn:E; [|reflexivity].
      rewrite (Dn' k E) in E. destruct (nst z k); simpl in *; try discriminate; lia.
  - intros k p H. destruct (He2 k p H) as [A|(-> & A & B & _)].
    + destruct (F12 k p A) as [Q|[Q|Q]]; [|right; left; apply Seen; exact Q | right; right; exact Q].
      destruct (Hc1 k Q) as [->|Q']; [right; left; exact Sn | left; exact Q'].
    + destruct (nst z k) eqn:E; simpl in B; try lia.
      * destruct (Hc2 k A E) as [->|Q]; [right; left; exact Sn | left; exact Q].
      * right; left; apply Seen, F9; exact E.
      * right; right. destruct (F6 k E) as (ts & T1 & [T2|T2]).
        -- left. exists ts; split; [exact T2 | left; apply (di_run _ _ D); exact T1].
        -- right; right; exists ts; auto.
  - intros x H1 H2 H3 H4. rewrite Hseen, in_set_add in H1.
    destruct (Nat.eq_dec x n) as [->|Nx].
    + destruct HJ as [Q|[Q|[Q|Q]]]; [contradiction | contradiction | right; left; exact Q | right; right; exact Q].
    + destruct H1 as [H1|H1]; [contradiction|]. destruct (F13 x H1 H2 H3 H4) as [Q|[(k & Q)|(se & ts & Q1 & Q2 & Q3)]].
      * left; destruct (Hc1 x Q); [contradiction | assumption].
      * right; left; exists k; apply He1; exact Q.
      * right; right; exists se, ts; split; [|auto]. destruct Hwse as [->|Hw]; [exact Q1 | apply Hw; exact Q1].
  - intros x k H1 H2 H3. rewrite Hseen, in_set_add in H1.
    destruct (Nat.eq_dec x n) as [->|Nx].
    + destruct (HK k H2 H3) as [Q|Q]; [left; apply Dn; exact Q | right; exact Q].
    + destruct H1 as [H1|H1]; [contradiction|]. destruct (F14 x k H1 H2 H3) as [Q|[Q|Q]]; auto.
  - intros x k H1 H2 H3. rewrite Hseen, in_set_add in H1.
    destruct (Nat.eq_dec x n) as [->|Nx].
    + destruct (nst z k) eqn:E; try (right; apply Cov, F10; [exact H3 | rewrite E; simpl; lia]).
      * destruct (Hc2 k H2 E) as [->|Q]; [right; apply CovN, cw_self; exact W | left; exact Q].
      * right. exists k; split; [apply cw_self; exact W | apply Seen, F9; exact E].
    + destruct H1 as [H1|H1]; [contradiction|]. destruct (F15 x k H1 H2 H3) as [Q|Q]; [|right; apply Cov; exact Q].
      destruct (Hc1 k Q) as [->|Q']; [right; apply CovN, cw_self; exact W | left; exact Q'].
  - intros t H1 H2. destruct (F16 t H1 H2) as [Q|[Q|Q]]; [| |right; right; apply Cov; exact Q].
    + destruct (Ht t Q) as [->|[A|A]]; auto. right; right; apply CovN, cw_self; exact W.
    + destruct (Hc1 t Q) as [->|A]; auto. right; right; apply CovN, cw_self; exact W.
  - intros x Hx. apply F17. rewrite <- (Dn' x Hx); exact Hx.
  - exact F18.
  - intros x Hx. destruct (Hp2 x Hx) as [A|A]; [|exact A]. destruct (F19 x A) as [p Q]. exists p; apply He1; exact Q.
  - exact F20.
  - exact F21.
  - intros k p H. destruct (He2 k p H) as [A|(-> & A & B & C)].
    + destruct (F22 k p A) as [Q|[Q|[Q|Q]]]; [left; apply Hp1; exact Q | auto | auto |].
      right; right; right; rewrite Hseen; apply before_set_add; exact Q.
    + exact C.
  - intros x H1. rewrite Hseen, in_set_add in H1.
    destruct (Hn x) as [A|(_ & A & _)]; rewrite A; [|right; simpl; lia]. 
    destruct (x =? n) eqn:E; [right; simpl; lia|]. destruct H1 as [->|H1]; [rewrite Nat.eqb_refl in E; discriminate | apply F23; assumption].
  - exact F24.
  - rewrite Hseen. unfold set_add. destruct (mem n (seen z)) eqn:M; [exact F25 | constructor; [apply mem_nIn; exact M | exact F25]].
Qed.

Lemma consider_sinv z z' n z'' :
  sinv c kids [] z -> dinv c z -> popped c z z' n -> consider_spec c e z' n (Continue z'') -> sinv c kids [] z''.
Proof.
  intros S D Pp Cs.
  assert (S0 := S). destruct S0 as [F1 F2 F3 F4 F5 F6 F7 F8 F9 F10 F11 F12 F13 F14 F15 F16 F17 F18 F19 F20 F21 F22 F23 F24 F25].
  destruct Pp as [P1 P2 P3 P4 P5 P6 P7 P8 P9 P10 P11 P12 _ _].
  pose proof (di_ref _ _ D) as Rz.
  assert (Rz' : refok z') by (destruct Rz as [Da Db]; split; [rewrite P3; exact Da | intros p; rewrite P2, P3; apply Db]).
  destruct (visited1_rest z' n) as (V1 & V2 & V3 & V4 & V5 & V6 & V7 & V8 & V9 & V10 & V11).
  assert (Vn : rank (nst z' n) <= 1 -> forall m, nst (visited1 z' n) m = if m =? n then Pending else nst z m).
  { intros H m; rewrite visited1_nst, P1 by exact H; reflexivity. }
  remember (Continue z'') as q eqn:Eq.
  destruct Cs as [I1|I1 I2|ch y I1 I2 I3 I4 I5 I6 I7 I8 I9 [J1 J2 J3 J4 J5 J6]|ch y I1 I2 I3 I4 I5 I6 I7 I8 I9 I10 [J1 J2 J3 J4 J5 J6]
      |ch y I1 I2 I3 I4 I5 I6 I7 I8 I9 I10 [J1 J2 J3 J4 J5 J6]|ch I1 I2 I3 I4]; try discriminate; injection Eq as ->.
  - (* skipped *)
    rename z'' into z'. rewrite P1 in I1.
    assert (Cov : forall x, covered c z x -> covered c z' x) by (intros x; apply covered_mono; rewrite P9; auto).
    constructor; rewrite ?P1, ?P3, ?P4, ?P5, ?P8, ?P9, ?P10; try assumption.
    + intros x H1 H2; apply Cov, F10; assumption.
    + intros k p H. specialize (F12 k p H). destruct F12 as [A|A]; [|right; exact A].
      destruct (P11 _ A) as [->|B]; [|left; exact B].
      right. destruct (nst z n) eqn:E; simpl in I1; try lia.
      * destruct (F6 n E) as (ts & T1 & [T2|T2]).
        -- right; left. exists ts; split; [exact T2 | left; apply (di_run _ _ D); exact T1].
        -- right; right; right; exists ts; auto.
      * right; left; apply F17; rewrite E; reflexivity.
      * right; left; apply F17; rewrite E; reflexivity.
      * right; right; left; apply F5; exact E.
    + intros m H1 H2 H3 H4. destruct (F13 m H1 H2 H3 H4) as [A|A]; [|right; exact A].
      destruct (P11 _ A) as [->|B]; [|left; exact B].
      destruct (nst z n) eqn:E; simpl in I1; try lia.
      * destruct (F6 n E) as (ts & T1 & [T2|T2]).
        -- elim H4. exists ts; split; [exact T2 | left; apply (di_run _ _ D); exact T1].
        -- apply in_flat_map in T2. destruct T2 as (t & Tt & T2).
           assert (Ns : ~ is_side_effect c t) by (intros Q; rewrite (cw_se2 c W t Q) in T2; exact T2).
           destruct (F14 n t H1 (gw_se c kids G n t T2) Ns) as [Q|[Q|Q]].
           ++ rewrite (F7 ts T1 t Tt) in Q; discriminate.
           ++ right; left; exists t; exact Q.
           ++ contradiction.
      * elim H4; apply F17; rewrite E; reflexivity.
      * elim H4; apply F17; rewrite E; reflexivity.
      * elim H3; apply F5; exact E.
    + intros m k H1 H2 H3. destruct (F15 m k H1 H2 H3) as [A|A]; [|right; apply Cov; exact A].
      destruct (P11 _ A) as [->|B]; [|left; exact B]. right; apply Cov, F10; assumption.
    + intros t H1 H2. destruct (F16 t H1 H2) as [A|[A|A]].
      * destruct (P12 _ A) as [->|[B|B]]; auto; right; right; apply Cov, F10; assumption.
      * destruct (P11 _ A) as [->|B]; auto; right; right; apply Cov, F10; assumption.
      * right; right; apply Cov; exact A.
  - (* a child failed *)
    specialize (Vn I1). rewrite Kd in I2; injection I2 as <-. rewrite P1 in I1.
    assert (T : tainted kids (trace z) n).
    { destruct I3 as (k & Hk & Fk). apply (taint_kid kids _ n k Hk), F5. rewrite <- P1; exact Fk. }
    apply (consider_frame [] z z'' n); auto; try congruence.
    + intros x. rewrite I4. destruct (mem x (action_targets c n)) eqn:M; [right; split; [apply mem_In; exact M | auto] | left; apply Vn].
    + left; congruence.
    + intros x Hx. destruct (P11 x Hx) as [A|A]; [left; exact A | right; apply I9; left; exact A].
    + intros x Hx. destruct (P12 x Hx) as [A|[A|A]]; [left; exact A | right; left; apply I9; left; exact A | right; right; congruence].
    + intros x Hx Nx. destruct (Nat.eq_dec x n) as [->|N]; [left; reflexivity|]. right; apply I9; right; split; [exact Hx|].
      rewrite Vn. apply Nat.eqb_neq in N; rewrite N; exact Nx.
    + intros k p H; left; rewrite I6, P3 in H; exact H.
    + intros x H; left; rewrite I8, P5 in H; exact H.
  - (* waits *)
    specialize (Vn I1). rewrite Kd in I2; injection I2 as <-. rewrite P1 in I1.
    assert (Ed : forall x y, In (x, y) (wpE z'') <-> In (x, y) (wpE z) \/ y = n /\ In x (kids n) /\ rank (nst (visited1 z' n) x) <= 2).
    { intros x y; rewrite (I7 x y Rz'), P3; tauto. }
    apply (consider_frame [] z z'' n); auto; try congruence.
    + intros x. left; rewrite I5; apply Vn.
    + left; congruence.
    + intros x Hx. destruct (P11 x Hx) as [A|A]; [left; exact A | right; apply I10; left; exact A].
    + intros x Hx. destruct (P12 x Hx) as [A|[A|A]]; [left; exact A | right; left; apply I10; left; exact A | right; right; congruence].
    + intros x Hx Nx. destruct (Nat.eq_dec x n) as [->|N]; [left; reflexivity|]. right; apply I10; right; split; [exact Hx|].
      rewrite Vn. apply Nat.eqb_neq in N; rewrite N; exact Nx.
    + intros k p H; apply Ed; left; exact H.
    + intros k p H; apply Ed in H. destruct H as [H|(-> & H1 & H2)]; [left; exact H | right].
      split; [reflexivity|]. split; [exact H1|]. rewrite Vn in H2.
      destruct (Nat.eq_dec k n) as [->|N].
      * split; [lia|]. left; apply I9; right; split; [exact H1|]. rewrite Vn, Nat.eqb_refl; reflexivity.
      * assert (N' := N). apply Nat.eqb_neq in N'. rewrite N' in H2. split; [exact H2|].
        destruct (nst z k) eqn:E; simpl in H2; try lia.
        -- destruct (in_dec Nat.eq_dec k (seen z)) as [Hs|Hs].
           ++ destruct (F23 k Hs) as [Q|Q]; [auto | rewrite E in Q; simpl in Q; lia].
           ++ right; right; right. rewrite J5, V10, P9. unfold before.
              assert (In n (set_add n (seen z))) as Q by (apply in_set_add; auto).
              apply in_split in Q. destruct Q as (l1 & l2 & Q). exists l1, l2; split; [exact Q|].
              intros Hk. assert (In k (set_add n (seen z))) as Q' by (rewrite Q; apply in_or_app; right; exact Hk).
              apply in_set_add in Q'. tauto.
        -- left; apply I9; right; split; [exact H1|]. rewrite Vn, N'; exact E.
        -- destruct (F6 k E) as (ts & T1 & [T2|T2]); [right; right; left; exists ts; auto | right; left].
           apply in_flat_map in T2. destruct T2 as (t & _ & T2). exists t; exact T2.
    + intros x H; apply I9; left; rewrite P5; exact H.
    + intros x H; apply I9 in H. destruct H as [H|[H1 H2]]; [left; rewrite <- P5; exact H | right].
      exists n; apply Ed; right; split; [reflexivity|]. split; [exact H1 | rewrite H2; simpl; lia].
    + right; right; left. destruct I4 as (k & H1 & H2). exists k; apply Ed; auto.
    + intros k H1 H2. destruct (Nat.le_gt_cases (rank (nst (visited1 z' n) k)) 2) as [L|L].
      * right; left; apply Ed; auto.
      * left. assert (Q := I3 k H1). rewrite Vn in L. destruct (k =? n); [simpl in L; lia|]. rewrite P1 in Q.
        destruct (nst z k); simpl in *; try lia; try reflexivity; congruence.
  - (* waits for a side effect *)
    specialize (Vn I1). rewrite Kd in I2; injection I2 as <-. rewrite P1 in I1.
    assert (Dk : forall k, In k (kids n) -> done (nst z k) = true /\ k <> n).
    { intros k Hk. destruct (I3 k Hk) as [A B]. rewrite Vn in A. destruct (k =? n) eqn:E; [simpl in A; lia|].
      split; [|apply Nat.eqb_neq; exact E]. rewrite P1 in B. destruct (nst z k); simpl in *; try lia; try reflexivity; congruence. }
    apply (consider_frame [] z z'' n); auto; try congruence.
    + intros x. left; rewrite I5; apply Vn.
    + right. intros x w Hx; apply I10; left; rewrite P4; exact Hx.
    + intros x Hx. destruct (P11 x Hx) as [A|A]; [left; exact A | right; rewrite I9; exact A].
    + intros x Hx. destruct (P12 x Hx) as [A|[A|A]]; [left; exact A | right; left; rewrite I9; exact A | right; right; congruence].
    + intros x Hx Nx. destruct (Dk x Hx) as [Q _]. rewrite Nx in Q; discriminate.
    + intros k p H; left; rewrite I7, P3 in H; exact H.
    + intros x H; left; rewrite I8, P5 in H; exact H.
    + right; right; right. destruct I4 as (se & H1 & H2 & H3).
      exists se. rewrite I5, Vn in H2. destruct (se =? n) eqn:E; [discriminate|].
      destruct (F6 se H2) as (ts & T1 & [T2|T2]); [|exists ts; auto].
      exfalso. apply (untasked_se [] z n se S I1).
      * apply in_flat_map in H1. destruct H1 as (t & A & B). apply in_flat_map. exists t; split; [apply (cw_action c W); exact A | exact B].
      * exists ts; split; [exact T2 | left; apply (di_run _ _ D); exact T1].
    + intros k H1 _. left; apply Dk; exact H1.
Qed.

(* a candidate is found *)
Lemma return_sinv z z' n z'' m exc :
  sinv c kids [] z -> dinv c z -> popped c z z' n -> consider_spec c e z' n (Return z'' m exc) ->
  m = n /\ exc = false /\ sinv c kids [m] z'' /\ In m (seen z'') /\ trace z'' = trace z /\ running z'' = running z
  /\ (forall k, In k (kids m) -> done (nst z'' k) = true)
  /\ (forall se, In se (ses_of c (action_targets c m)) -> nst z'' se <> Executing).
Proof.
  intros S D Pp Cs.
  destruct Pp as [P1 P2 P3 P4 P5 P6 P7 P8 P9 P10 P11 P12 _ _].
  destruct (visited1_rest z' n) as (V1 & V2 & V3 & V4 & V5 & V6 & V7 & V8 & V9 & V10 & V11).
  assert (Vn : rank (nst z' n) <= 1 -> forall m, nst (visited1 z' n) m = if m =? n then Pending else nst z m).
  { intros H x; rewrite visited1_nst, P1 by exact H; reflexivity. }
  remember (Return z'' m exc) as q eqn:Eq.
  destruct Cs as [I1|I1 I2|ch y I1 I2 I3 I4 I5 I6 I7 I8 I9 _|ch y I1 I2 I3 I4 I5 I6 I7 I8 I9 I10 _
      |ch y I1 I2 I3 I4 I5 I6 I7 I8 I9 I10 _|ch I1 I2 I3 I4]; try discriminate.
  { rewrite Kd in I2; discriminate. }
  injection Eq as <- <- <-. specialize (Vn I1). rewrite Kd in I2; injection I2 as <-. rewrite P1 in I1.
  assert (Dk : forall k, In k (kids n) -> done (nst z k) = true /\ k <> n).
  { intros k Hk. destruct (I3 k Hk) as [A B]. rewrite Vn in A. destruct (k =? n) eqn:E; [simpl in A; lia|].
    split; [|apply Nat.eqb_neq; exact E]. rewrite P1 in B. destruct (nst z k); simpl in *; try lia; try reflexivity; congruence. }
  split; [reflexivity|]. split; [reflexivity|].
  assert (Sn : In n (seen (visited1 z' n))) by (rewrite V10; apply in_set_add; auto).
  split; [|split; [exact Sn|split; [cbn [trace set_cands]; congruence|split; [cbn [running set_cands]; congruence|split]]]].
  - set (y := set_cands (visited1 z' n) (cands z')).
    assert (Y1 : wpE y = wpE z) by (cbn [y wpE set_cands]; unfold y; cbn [wpE set_cands]; congruence).
    assert (Y2 : pend y = pend z) by (unfold y; cbn [pend set_cands]; congruence).
    apply (consider_frame [n] z y n); auto; try (unfold y; cbn [running trace seen wse set_cands]; congruence).
    + apply (sinv_weaken c kids []); [intros x [] | exact S].
    + intros x; left; apply Vn.
    + left; unfold y; cbn [wse set_cands]; congruence.
    + intros x Hx. unfold y; cbn [cands topsleft set_cands]. rewrite V6. apply P12; exact Hx.
    + intros x Hx Nx. destruct (Dk x Hx) as [Q _]. rewrite Nx in Q; discriminate.
    + intros k p H; rewrite Y1; exact H.
    + intros k p H; left; rewrite Y1 in H; exact H.
    + intros x H; rewrite Y2; exact H.
    + intros x H; left; rewrite Y2 in H; exact H.
    + left; left; reflexivity.
    + intros k H1 _; left; apply Dk; exact H1.
  - intros k Hk. cbn [nst set_cands]. destruct (Dk k Hk) as [A B]. rewrite Vn. apply Nat.eqb_neq in B. rewrite B; exact A.
  - intros se H; cbn [nst set_cands]; apply I4; exact H.
Qed.
End Search.
