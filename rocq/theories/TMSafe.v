(* Safety of the graph walk for arbitrary (also changing) graphs.  Proof file. *)
From Coq Require Import List Arith ZArith Bool Lia Permutation.
Import ListNotations.
From Verif Require Import TMModel TMBase TMSpec.

Lemma env_ok_wf c e : env_ok c e -> env_wf e.
Proof. intros [A B _]; split; assumption. Qed.

(* popping a candidate *)
Record popped (c : cfg) (s s' : tm) (n : node) : Prop := {
  pp_nst : nst s' = nst s; pp_refc : refc s' = refc s; pp_wpE : wpE s' = wpE s; pp_wse : wse s' = wse s;
  pp_pend : pend s' = pend s; pp_stop : stopped s' = stopped s; pp_go : stopped s = false;
  pp_run : running s' = running s; pp_seen : seen s' = seen s; pp_trace : trace s' = trace s;
  pp_c1 : forall x, In x (cands s) -> x = n \/ In x (cands s');
  pp_t1 : forall x, In x (topsleft s) -> x = n \/ In x (cands s') \/ In x (topsleft s');
  pp_t2 : forall x t, In t (topsleft s) -> In x (alter c t) -> x = n \/ In x (cands s') \/ In t (topsleft s');
  pp_c2 : forall x, x = n \/ In x (cands s') \/ In x (topsleft s') ->
          In x (cands s) \/ In x (topsleft s) \/ exists t, In t (topsleft s) /\ In x (alter c t) }.

Lemma next_cand_popped fuel c e s s' n :
  env_wf e -> next_candidate fuel c e s = Cand s' n -> popped c s s' n.
Proof.
  intros We H. unfold next_candidate in H.
  destruct (stopped s) eqn:St.
  { destruct (cands s); [discriminate|]. destruct (will_not_build _ _ _ _ _); discriminate. }
  destruct (cands s) as [|m rest] eqn:Ec.
  - destruct (topsleft s) as [|m rest] eqn:Et; [discriminate|].
    destruct (alter c m) as [|a al] eqn:Ea.
    + injection H as <- <-. constructor; try reflexivity; try assumption.
      * rewrite Ec; intros x [].
      * rewrite Et; intros x [->|H]; auto.
      * rewrite Et; intros x t [->|H] Hx; [rewrite Ea in Hx; elim Hx | auto].
      * cbn. rewrite Ec, Et. intros x [->|[[]|H]]; right; left; simpl; auto.
    + destruct (rev (e_order e (a :: al)) ++ [m]) as [|m' r] eqn:Er; [discriminate|].
      injection H as <- <-.
      assert (Q : forall x, In x (m' :: r) <-> x = m \/ In x (alter c m)).
      { intros x; rewrite <- Er, in_app_iff, <- in_rev, order_in, Ea by exact We. simpl. split; intros; tauto || (intuition congruence). }
      constructor; try reflexivity; try assumption.
      * rewrite Ec; intros x [].
      * rewrite Et; intros x [->|H]; auto. assert (In x (m' :: r)) as [->|G] by (apply Q; auto); auto.
      * rewrite Et; intros x t [->|H] Hx; [|auto].
        assert (In x (m' :: r)) as [->|G] by (apply Q; auto); auto.
      * cbn. rewrite Ec, Et. intros x [->|[H|H]].
        -- assert (In m' (m' :: r)) as G by (left; reflexivity). apply Q in G. destruct G as [->|G]; right; [left; left; reflexivity | right; exists m; simpl; auto].
        -- assert (In x (m' :: r)) as G by (right; exact H). apply Q in G. destruct G as [->|G]; right; [left; left; reflexivity | right; exists m; simpl; auto].
        -- right; left; right; exact H.
  - injection H as <- <-. constructor; try reflexivity; try assumption.
    + rewrite Ec; intros x [->|H]; auto.
    + intros x H; cbn; auto.
    + intros x t H Hx; cbn; auto.
    + cbn. rewrite Ec. intros x [->|[H|H]]; simpl; auto.
Qed.

(* what consider does to the common fields *)
Definition visited1 (s : tm) (n : node) : tm :=
  let s0 := match nst s n with NoState => set1 s n Pending | _ => s end in
  set_seen s0 (set_add n (seen s0)).
Lemma visited1_nst s n m : rank (nst s n) <= 1 -> nst (visited1 s n) m = if m =? n then Pending else nst s m.
Proof.
  unfold visited1; destruct (nst s n) eqn:E; simpl; intros H; try lia.
  - unfold upd; reflexivity.
  - destruct (m =? n) eqn:F; [apply Nat.eqb_eq in F; subst; exact E | reflexivity].
Qed.
Lemma visited1_rest s n : refc (visited1 s n) = refc s /\ wpE (visited1 s n) = wpE s /\ wse (visited1 s n) = wse s
  /\ pend (visited1 s n) = pend s /\ cands (visited1 s n) = cands s /\ topsleft (visited1 s n) = topsleft s
  /\ curtop (visited1 s n) = curtop s /\ stopped (visited1 s n) = stopped s /\ running (visited1 s n) = running s
  /\ seen (visited1 s n) = set_add n (seen s) /\ trace (visited1 s n) = trace s.
Proof. unfold visited1; destruct (nst s n); cbn; repeat split; reflexivity. Qed.

Inductive consider_spec (c : cfg) (e : env) (s : tm) (n : node) : considered -> Prop :=
  | cs_skip : rank (nst s n) > 1 -> consider_spec c e s n (Continue s)
  | cs_exc : rank (nst s n) <= 1 -> e_kids e n = None -> consider_spec c e s n (Return (visited1 s n) n true)
  | cs_failed ch s' : rank (nst s n) <= 1 -> e_kids e n = Some ch ->
      (exists k, In k ch /\ nst s k = Failed) ->
      (forall m, nst s' m = if mem m (action_targets c n) then Failed else nst (visited1 s n) m) ->
      refc s' = refc s -> wpE s' = wpE s -> wse s' = wse s -> pend s' = pend s ->
      (forall x, In x (cands s') <-> In x (cands s) \/ (In x ch /\ nst (visited1 s n) x = NoState)) ->
      same_rest (visited1 s n) s' ->
      consider_spec c e s n (Continue s')
  | cs_wait ch s' : rank (nst s n) <= 1 -> e_kids e n = Some ch ->
      (forall k, In k ch -> nst s k <> Failed) ->
      (exists k, In k ch /\ rank (nst (visited1 s n) k) <= 2) ->
      nst s' = nst (visited1 s n) ->
      (refok s -> refok s') ->
      (forall x y, refok s -> (In (x, y) (wpE s') <-> In (x, y) (wpE s) \/ (y = n /\ In x ch /\ rank (nst (visited1 s n) x) <= 2))) ->
      wse s' = wse s ->
      (forall x, In x (pend s') <-> In x (pend s) \/ (In x ch /\ nst (visited1 s n) x = Pending)) ->
      (forall x, In x (cands s') <-> In x (cands s) \/ (In x ch /\ nst (visited1 s n) x = NoState)) ->
      same_rest (visited1 s n) s' ->
      consider_spec c e s n (Continue s')
  | cs_se ch s' : rank (nst s n) <= 1 -> e_kids e n = Some ch ->
      (forall k, In k ch -> rank (nst (visited1 s n) k) > 2 /\ nst s k <> Failed) ->
      (exists se, In se (ses_of c (action_targets c n)) /\ nst s' se = Executing /\ In n (wse s' se)) ->
      nst s' = nst (visited1 s n) -> refc s' = refc s -> wpE s' = wpE s -> pend s' = pend s -> cands s' = cands s ->
      (forall x y, In x (wse s' y) <-> In x (wse s y) \/ (x = n /\ In y (ses_of c (action_targets c n)) /\ nst (visited1 s n) y = Executing)) ->
      same_rest (visited1 s n) s' ->
      consider_spec c e s n (Continue s')
  | cs_ready ch : rank (nst s n) <= 1 -> e_kids e n = Some ch ->
      (forall k, In k ch -> rank (nst (visited1 s n) k) > 2 /\ nst s k <> Failed) ->
      (forall se, In se (ses_of c (action_targets c n)) -> nst (visited1 s n) se <> Executing) ->
      consider_spec c e s n (Return (set_cands (visited1 s n) (cands s)) n false).

Lemma order_nil e : env_wf e -> e_order e [] = [].
Proof. intros [_ H]; apply Permutation_nil, H. Qed.

Lemma wse_fold n l : forall s,
  let s' := fold_left (fun s se => set_wse s (upd (wse s) se (set_add n (wse s se)))) l s in
  nst s' = nst s /\ refc s' = refc s /\ wpE s' = wpE s /\ pend s' = pend s /\ cands s' = cands s /\ same_rest s s'
  /\ (forall x y, In x (wse s' y) <-> In x (wse s y) \/ (x = n /\ In y l)).
Proof.
  induction l as [|a l IH]; intros s; cbn [fold_left].
  - cbn zeta; repeat (split; [reflexivity|]). split; [apply same_rest_refl|]. intros; simpl; tauto.
  - specialize (IH (set_wse s (upd (wse s) a (set_add n (wse s a))))). cbn zeta in *.
    destruct IH as (A1 & A2 & A3 & A4 & A5 & A6 & A7).
    repeat (split; [assumption|]). split; [destruct A6; constructor; assumption|].
    intros x y; rewrite A7. cbn [wse set_wse]. destruct (Nat.eq_dec y a) as [->|N].
    + rewrite upd_same, in_set_add. simpl. split; [intros [[->|H]|[-> H]]; auto | intros [H|[-> [H|H]]]; auto].
    + rewrite upd_other by exact N. simpl. split; [intros [H|[-> H]]; auto | intros [H|[-> [H|H]]]; auto; congruence].
Qed.

Lemma consider_ok c e s n : env_wf e -> consider_spec c e s n (consider c e s n).
Proof.
  intros We. unfold consider. fold (visited1 s n).
  destruct (1 <? rank (nst s n)) eqn:E0.
  { apply Nat.ltb_lt in E0. apply cs_skip; lia. }
  apply Nat.ltb_ge in E0.
  destruct (e_kids e n) as [ch|] eqn:Ek; [|apply cs_exc; assumption].
  set (v := visited1 s n).
  destruct (visited1_rest s n) as (V1 & V2 & V3 & V4 & V5 & V6 & V7 & V8 & V9 & V10 & V11). fold v in V1, V2, V3, V4, V5, V6, V7, V8, V9, V10, V11.
  assert (Vn : forall m, nst v m = if m =? n then Pending else nst s m) by (intros m; apply visited1_nst; exact E0).
  assert (VF : forall k, nst v k = Failed <-> nst s k = Failed).
  { intros k; rewrite Vn. destruct (k =? n) eqn:F; [|tauto]. apply Nat.eqb_eq in F; subst.
    split; [discriminate | intros F; rewrite F in E0; simpl in E0; lia]. }
  set (s2 := set_cands v _).
  assert (C2 : forall x, In x (cands s2) <-> In x (cands s) \/ (In x ch /\ nst v x = NoState)).
  { intros x; unfold s2; cbn [cands set_cands]. rewrite in_app_iff, <- in_rev, order_in, <- in_rev, filter_In, nstate_eqb_eq, V5 by exact We. tauto. }
  destruct (existsb (fun k => nstate_eqb (nst v k) Failed) ch) eqn:Ef.
  - apply existsb_exists in Ef. destruct Ef as (k & Hk & Fk). apply nstate_eqb_eq in Fk.
    pose proof (fold_set1 Failed (action_targets c n) s2) as F. cbn zeta in F.
    destruct F as (F1 & F2 & F3 & F4 & F5 & F6 & F7).
    eapply cs_failed with (ch := ch); try assumption.
    + exists k; split; [exact Hk | apply VF; exact Fk].
    + rewrite F2; exact V1.
    + rewrite F3; exact V2.
    + rewrite F4; exact V3.
    + rewrite F5; exact V4.
    + intros x; rewrite F6; apply C2.
    + destruct F7; constructor; assumption.
  - assert (NF : forall k, In k ch -> nst s k <> Failed).
    { intros k Hk Fk. apply VF in Fk.
      assert (existsb (fun k => nstate_eqb (nst v k) Failed) ch = true) as G; [|congruence].
      apply existsb_exists; exists k; split; [exact Hk | apply nstate_eqb_eq; exact Fk]. }
    destruct (filter (fun k => rank (nst v k) <=? 2) ch) as [|r0 rl] eqn:Er; cbn [negb].
    + assert (NR : forall k, In k ch -> rank (nst v k) > 2).
      { intros k Hk. destruct (Nat.leb_spec (rank (nst v k)) 2) as [L|L]; [|exact L]. exfalso.
        assert (In k (filter (fun k => rank (nst v k) <=? 2) ch)) as G by (apply filter_In; split; [exact Hk | apply Nat.leb_le; exact L]).
        rewrite Er in G; exact G. }
      assert (Hnv : filter (fun k => nstate_eqb (nst v k) NoState) ch = []).
      { destruct (filter (fun k => nstate_eqb (nst v k) NoState) ch) as [|x l] eqn:Ex; [reflexivity|]. exfalso.
        assert (In x (filter (fun k => nstate_eqb (nst v k) NoState) ch)) as G by (rewrite Ex; left; reflexivity).
        apply filter_In in G. destruct G as [G1 G2]. apply nstate_eqb_eq in G2. apply NR in G1. rewrite G2 in G1. simpl in G1; lia. }
      assert (Es2 : s2 = set_cands v (cands s)).
      { unfold s2. rewrite Hnv. cbn [rev]. rewrite order_nil by exact We. cbn [rev app]. rewrite V5. reflexivity. }
      clearbody s2. subst s2.
      destruct (filter (fun se => nstate_eqb (nst (set_cands v (cands s)) se) Executing) (flat_map (side_effects c) (action_targets c n))) as [|q ql] eqn:Eq.
      * eapply cs_ready; try eassumption.
        -- intros k Hk; split; [apply NR; exact Hk | apply NF; exact Hk].
        -- intros se Hse Hx. assert (In se []) as []. rewrite <- Eq. apply filter_In; split; [exact Hse | apply nstate_eqb_eq; exact Hx].
      * pose proof (wse_fold n (q :: ql) (set_cands v (cands s))) as W. cbn zeta in W.
        destruct W as (W1 & W2 & W3 & W4 & W5 & W6 & W7).
        assert (Hq : forall y, In y (q :: ql) <-> In y (ses_of c (action_targets c n)) /\ nst v y = Executing).
        { intros y; rewrite <- Eq, filter_In, nstate_eqb_eq. tauto. }
        eapply cs_se with (ch := ch); try assumption.
        -- intros k Hk; split; [apply NR; exact Hk | apply NF; exact Hk].
        -- exists q. assert (In q (q :: ql)) as G by (left; reflexivity). apply Hq in G. destruct G as [G1 G2].
           split; [exact G1|]. split; [rewrite W1; exact G2|]. apply W7; right; split; [reflexivity | left; reflexivity].
        -- rewrite W2; exact V1.
        -- rewrite W3; exact V2.
        -- rewrite W4; exact V4.
        -- intros x y; rewrite W7. cbn [wse set_cands]. rewrite V3, Hq. tauto.
        -- destruct W6; constructor; assumption.
    + rewrite <- Er.
      set (nr := filter (fun k => rank (nst v k) <=? 2) ch) in *.
      assert (Hnr : forall x, In x nr <-> In x ch /\ rank (nst v x) <= 2) by (intros x; unfold nr; rewrite filter_In, Nat.leb_le; tauto).
      set (s3 := fold_left (fun s k => wait_for s n k) nr s2) in *.
      assert (Frame : nst s3 = nst s2 /\ wse s3 = wse s2 /\ pend s3 = pend s2 /\ cands s3 = cands s2 /\ same_rest s2 s3).
      { unfold s3. clear. generalize s2 as z. induction nr as [|k nr IH]; intros z; cbn [fold_left].
        - repeat (split; [reflexivity|]); apply same_rest_refl.
        - destruct (IH (wait_for z n k)) as (A1 & A2 & A3 & A4 & A5).
          assert (B : nst (wait_for z n k) = nst z /\ wse (wait_for z n k) = wse z /\ pend (wait_for z n k) = pend z /\ cands (wait_for z n k) = cands z /\ same_rest z (wait_for z n k)).
          { unfold wait_for; destruct (existsb _ _); repeat (split; [reflexivity|]); constructor; reflexivity. }
          destruct B as (B1 & B2 & B3 & B4 & B5). repeat (split; [congruence|]). eapply same_rest_trans; eassumption. }
      destruct Frame as (F1 & F2 & F3 & F4 & F5).
      assert (R2 : refok s -> refok s2).
      { intros [R1 R3]; split; [change (wpE s2) with (wpE v); rewrite V2; exact R1|].
        intros p; change (refc s2) with (refc v); change (wpE s2) with (wpE v); rewrite V1, V2; apply R3. }
      eapply cs_wait with (ch := ch); try assumption.
      * assert (In r0 nr) as G by (rewrite Er; left; reflexivity). apply Hnr in G. exists r0; exact G.
      * intros R. destruct (wait_all_spec n nr s2 (R2 R)) as ((A1 & A2) & _). fold s3 in A1, A2. split; assumption.
      * intros x y R. destruct (wait_all_spec n nr s2 (R2 R)) as (_ & A & _). fold s3 in A. cbn [wpE set_pend]. rewrite A, Hnr.
        change (wpE s2) with (wpE v). rewrite V2. tauto.
      * cbn [wse set_pend]. rewrite F2. exact V3.
      * intros x. cbn [pend set_pend]. rewrite in_fold_set_add, filter_In, nstate_eqb_eq, F3. change (pend s2) with (pend v). rewrite V4. tauto.
      * intros x; cbn [cands set_pend]. rewrite F4. apply C2.
      * destruct F5; constructor; assumption.
Qed.

(* ---- induction principle for the search loop ---- *)
Lemma find_ready_ind c e (We : env_wf e) (P : tm -> Prop) (Q : tm -> node -> bool -> Prop) :
  (forall s s' n s'', P s -> popped c s s' n -> consider_spec c e s' n (Continue s'') -> P s'') ->
  (forall s fuel s', P s -> stopped s = true -> cands s <> [] -> will_not_build fuel e false (set_cands s []) (cands s) = Some s' -> P s') ->
  (forall s s' n s'' m exc, P s -> popped c s s' n -> consider_spec c e s' n (Return s'' m exc) -> Q s'' m exc) ->
  forall fuel s, P s ->
  match find_ready fuel c e s with
  | NoFuel => True
  | NoneLeft s' => P s' /\ (stopped s' = false -> cands s' = [] /\ topsleft s' = [])
  | Ready s' m exc => Q s' m exc /\ stopped s' = false
  end.
Proof.
  intros H1 H2 H3. induction fuel as [|fuel IH]; intros s Ps; simpl; [exact I|].
  destruct (next_candidate (S fuel) c e s) as [|s'|s' n] eqn:En; [exact I| |].
  - unfold next_candidate in En. destruct (stopped s) eqn:St.
    + destruct (cands s) as [|x l] eqn:Ec.
      * injection En as <-. split; [exact Ps | congruence].
      * rewrite <- Ec in En. destruct (will_not_build (S fuel) e false (set_cands s []) (cands s)) as [s1|] eqn:Ew; [|discriminate].
        injection En as <-. assert (P s1) as P1 by (eapply H2; eauto; rewrite Ec; discriminate).
        split; [exact P1|]. intros Hs. exfalso.
        assert (stopped s1 = stopped s) as G; [|congruence].
        clear - Ew. unfold will_not_build in Ew. revert Ew.
        match goal with |- wnb _ _ _ ?a ?b = _ -> _ => assert (stopped a = stopped s) as Ha by reflexivity; revert Ha; generalize a b end.
        generalize (S fuel) as k. induction k as [|k IHk]; intros a b Ha Hw; simpl in Hw.
        -- destruct (e_iter e b); [injection Hw as <-; exact Ha | discriminate].
        -- destruct (e_iter e b) as [|q r]; [injection Hw as <-; exact Ha|].
           eapply IHk; [|exact Hw].
           match goal with |- stopped (fold_left ?f ?l ?x) = _ => pose proof (fold_dec l x) as F end.
           cbn zeta in F. destruct F as (_ & _ & _ & _ & _ & _ & F). destruct F as [_ _ Fs _ _ _]. rewrite Fs. exact Ha.
    + destruct (cands s) as [|x l] eqn:Ec.
      * destruct (topsleft s) as [|x l] eqn:Et; [injection En as <-; split; [exact Ps | auto]|].
        destruct (alter c x); [discriminate|]. destruct (rev (e_order e (n :: l0)) ++ [x]) eqn:Er; [|discriminate].
        apply app_eq_nil in Er; destruct Er as [_ Er]; discriminate.
      * discriminate.
  - pose proof (next_cand_popped _ _ _ _ _ _ We En) as Pp.
    pose proof (consider_ok c e s' n We) as Cs.
    destruct (consider c e s' n) as [s''|s'' m exc].
    + apply IH. eapply H1; eassumption.
    + split; [eapply H3; eassumption|].
      assert (St : stopped s' = false) by (destruct Pp; congruence).
      inversion Cs; subst; cbn [stopped set_cands]; match goal with |- context [visited1 ?a ?b] => destruct (visited1_rest a b) as (_ & _ & _ & _ & _ & _ & _ & V & _) end; congruence.
Qed.

(* executed: state changes *)
Lemma executed_spec c ts : forall s,
  (forall x, In x ts -> ~ In x (ses_of c ts)) ->
  let s' := executed c s ts in
  (forall n, nst s' n =
     if mem n ts then (match nst s n with Executing => Executed | x => x end)
     else if existsb (fun t => nstate_eqb (nst s t) Executing && mem n (side_effects c t)) ts then NoState
     else nst s n)
  /\ refc s' = refc s /\ wpE s' = wpE s /\ wse s' = wse s /\ pend s' = pend s /\ cands s' = cands s /\ same_rest s s'.
Proof.
  intros s Hd. unfold executed. revert s.
  assert (Gen : forall l, (forall x, In x l -> In x ts) -> forall s,
    let s' := fold_left (fun s t => match nst s t with
       | Executing => set1 (fold_left (fun s se => set1 s se NoState) (side_effects c t) s) t Executed
       | _ => s end) l s in
    (forall n, nst s' n =
       if mem n l then (match nst s n with Executing => Executed | x => x end)
       else if existsb (fun t => nstate_eqb (nst s t) Executing && mem n (side_effects c t)) l then NoState
       else nst s n)
    /\ refc s' = refc s /\ wpE s' = wpE s /\ wse s' = wse s /\ pend s' = pend s /\ cands s' = cands s /\ same_rest s s').
  2:{ apply Gen; auto. }
  induction l as [|t l IH]; intros Hl s; cbn [fold_left].
  - cbn. repeat (split; [reflexivity|]); apply same_rest_refl.
  - assert (Hl' : forall x, In x l -> In x ts) by (intros x Hx; apply Hl; right; exact Hx).
    assert (Ht : In t ts) by (apply Hl; left; reflexivity).
    assert (Nse : forall x u, In x ts -> In u ts -> mem x (side_effects c u) = false).
    { intros x u Hx Hu. apply mem_nIn. intros Hc. apply (Hd x Hx). apply in_flat_map. exists u; split; assumption. }
    destruct (nstate_eq_dec (nst s t) Executing) as [Et|Et].
    + pose proof (fold_set1 NoState (side_effects c t) s) as F. cbn zeta in F.
      rewrite Et.
      set (s0 := fold_left (fun s se => set1 s se NoState) (side_effects c t) s) in *.
      destruct F as (F1 & F2 & F3 & F4 & F5 & F6 & F7).
      specialize (IH Hl' (set1 s0 t Executed)). cbn zeta in *. destruct IH as (A1 & A2 & A3 & A4 & A5 & A6 & A7).
      split.
      * intros n. rewrite A1. clear A1. cbn [nst set1 set_nst]. cbn [mem existsb]. fold (mem n l). 
        destruct (Nat.eq_dec n t) as [->|N].
        -- rewrite Nat.eqb_refl, upd_same, Et. cbn [orb].
           destruct (mem t l) eqn:M; [reflexivity|].
           assert (existsb (fun t0 => nstate_eqb (upd (nst s0) t Executed t0) Executing && mem t (side_effects c t0)) l = false) as ->; [|reflexivity].
           apply not_true_is_false. intros Hx. apply existsb_exists in Hx. destruct Hx as (u & Hu & Hx).
           apply andb_true_iff in Hx. destruct Hx as [_ Hx]. rewrite (Nse t u Ht (Hl' u Hu)) in Hx. discriminate.
        -- rewrite upd_other by exact N. rewrite F1. assert (n =? t = false) as -> by (apply Nat.eqb_neq; exact N). cbn [orb].
           rewrite Et. change (nstate_eqb Executing Executing) with true. cbn [andb].
           destruct (mem n l) eqn:M.
           ++ rewrite (Nse n t (Hl' n (proj1 (mem_In n l) M)) Ht). reflexivity.
           ++ destruct (mem n (side_effects c t)) eqn:Mt; cbn [orb].
              ** match goal with |- (if ?b then _ else _) = _ => destruct b; reflexivity end.
              ** assert (existsb (fun t0 => nstate_eqb (upd (nst s0) t Executed t0) Executing && mem n (side_effects c t0)) l
                       = existsb (fun t0 => nstate_eqb (nst s t0) Executing && mem n (side_effects c t0)) l) as ->; [|reflexivity].
                 apply eq_true_iff_eq. rewrite !existsb_exists. split; intros (u & Hu & Hx); exists u; split; auto;
                   apply andb_true_iff in Hx; destruct Hx as [X1 X2]; apply andb_true_iff; split; auto.
                 --- destruct (Nat.eq_dec u t) as [->|Nu]; [rewrite upd_same in X1; discriminate|].
                     rewrite upd_other in X1 by exact Nu. rewrite F1, (Nse u t (Hl' u Hu) Ht) in X1. exact X1.
                 --- destruct (Nat.eq_dec u t) as [->|Nu].
                     +++ rewrite Mt in X2. discriminate.
                     +++ rewrite upd_other by exact Nu. rewrite F1, (Nse u t (Hl' u Hu) Ht). exact X1.
      * rewrite A2, A3, A4, A5, A6. cbn. rewrite F2, F3, F4, F5, F6. repeat (split; [reflexivity|]).
        eapply same_rest_trans; [|exact A7]. destruct F7; constructor; assumption.
    + assert (match nst s t with
       | Executing => set1 (fold_left (fun s se => set1 s se NoState) (side_effects c t) s) t Executed
       | _ => s end = s) as -> by (destruct (nst s t); try reflexivity; congruence).
      specialize (IH Hl' s). cbn zeta in *. destruct IH as (A1 & A2 & A3 & A4 & A5 & A6 & A7).
      repeat (split; [|assumption]).
      split; [|repeat (split; [assumption|]); assumption].
      intros n. rewrite A1. cbn [mem existsb]. fold (mem n l).
      assert (nstate_eqb (nst s t) Executing = false) as -> by (apply not_true_is_false; rewrite nstate_eqb_eq; exact Et).
      cbn [andb orb]. destruct (Nat.eq_dec n t) as [->|N].
      * rewrite Nat.eqb_refl. cbn [orb]. destruct (mem t l); [reflexivity|].
        assert (existsb (fun t0 => nstate_eqb (nst s t0) Executing && mem t (side_effects c t0)) l = false) as ->.
        { apply not_true_is_false. intros Hx. apply existsb_exists in Hx. destruct Hx as (u & Hu & Hx).
          apply andb_true_iff in Hx. destruct Hx as [_ Hx]. rewrite (Nse t u Ht (Hl' u Hu)) in Hx. discriminate. }
        destruct (nst s t); try reflexivity; congruence.
      * assert (n =? t = false) as -> by (apply Nat.eqb_neq; exact N). reflexivity.
Qed.

Lemma targets_not_ses c m : cfg_wf c -> forall x, In x (all_targets c m) -> ~ In x (ses_of c (all_targets c m)).
Proof.
  intros W x Hx Hs. apply in_flat_map in Hs. destruct Hs as (t & Ht & Hs).
  assert (S : is_side_effect c x) by (exists t; exact Hs).
  pose proof (cw_se1 c W x S) as E. rewrite (cw_share c W m x Hx) in E. rewrite E in Ht. destruct Ht as [->|[]].
  rewrite (cw_se2 c W t S) in Hs. exact Hs.
Qed.
Lemma exec_single c m x : cfg_wf c -> is_side_effect c x -> In x (all_targets c m) -> m = x.
Proof.
  intros W S Hx. pose proof (cw_se1 c W x S) as E. rewrite (cw_share c W m x Hx) in E.
  pose proof (cw_self c W m) as Hm. rewrite E in Hm. destruct Hm as [->|[]]; reflexivity.
Qed.

(* will_not_build only appends nothing to the trace etc.; weak state facts used for safety *)
Definition only_failed (s s' : tm) : Prop := forall n, nst s' n = nst s n \/ nst s' n = Failed.

(* retire, seen from outside *)
Lemma retire_trace fuel c e o s ts s' :
  env_wf e -> refok s -> retire fuel c e o s ts = Some s' ->
  trace s' = (match o with OFailStop => [EStop] | _ => [] end) ++ trace s
  /\ running s' = running s /\ refok s' /\ seen s' = seen s /\ topsleft s' = topsleft s /\ curtop s' = curtop s
  /\ stopped s' = match o with OFailStop => true | _ => stopped s end /\ wse s' = wse s.
Proof.
  intros We Hr H. unfold retire in H. destruct o.
  - injection H as <-.
    assert (E : refc (executed c s ts) = refc s /\ wpE (executed c s ts) = wpE s /\ wse (executed c s ts) = wse s /\ same_rest s (executed c s ts)).
    { unfold executed. clear. generalize s as z. induction ts as [|t ts IH]; intros z; cbn [fold_left].
      - repeat (split; [reflexivity|]); apply same_rest_refl.
      - match goal with |- context [fold_left _ ts ?a] => specialize (IH a); set (z1 := a) in * end.
        assert (refc z1 = refc z /\ wpE z1 = wpE z /\ wse z1 = wse z /\ same_rest z z1) as (B1 & B2 & B3 & B4).
        { unfold z1; destruct (nst z t); try (repeat (split; [reflexivity|]); apply same_rest_refl).
          destruct (fold_set1 NoState (side_effects c t) z) as (_ & F2 & F3 & F4 & _ & _ & F7).
          cbn. repeat (split; [assumption|]). destruct F7; constructor; assumption. }
        destruct IH as (A1 & A2 & A3 & A4). repeat (split; [congruence|]). eapply same_rest_trans; eassumption. }
    destruct E as (E1 & E2 & E3 & E4).
    assert (Hr' : refok (executed c s ts)) by (destruct Hr as [Ha Hb]; split; [rewrite E2; exact Ha | intros p; rewrite E1, E2; apply Hb]).
    pose proof (postprocess_spec c e (executed c s ts) ts We Hr') as Po. destruct Po as [Po1 Po2 Po3 _ _ _ _ _ _ _].
    destruct (same_rest_trans _ _ _ E4 Po2) as [Q1 Q2 Q3 Q4 Q5 Q6]. repeat (split; [assumption|]). congruence.
  - destruct (will_not_build fuel e true s ts) as [s1|] eqn:Ew; [|discriminate]. injection H as <-.
    destruct (will_not_build_spec _ _ _ _ _ _ We Hr Ew) as (W1 & _ & _ & _ & W5 & _ & W7).
    pose proof (postprocess_spec c e s1 ts We W1) as Po. destruct Po as [Po1 Po2 Po3 _ _ _ _ _ _ _].
    destruct (same_rest_trans _ _ _ W7 Po2) as [Q1 Q2 Q3 Q4 Q5 Q6]. repeat (split; [assumption|]). congruence.
  - destruct (will_not_build fuel e true s ts) as [s1|] eqn:Ew; [|discriminate]. injection H as <-.
    destruct (will_not_build_spec _ _ _ _ _ _ We Hr Ew) as (W1 & _ & _ & _ & W5 & _ & W7).
    match goal with |- context [postprocess c e ?a ?b] => pose proof (postprocess_spec c e a b We W1) as Po end.
    destruct Po as [Po1 Po2 Po3 _ _ _ _ _ _ _]. destruct W7 as [W71 W72 W73 W74 W75 W76], Po2 as [Q1 Q2 Q3 Q4 Q5 Q6]. cbn in *.
    split; [congruence|]. split; [congruence|]. split; [exact Po1|]. repeat (split; [congruence|]). congruence.
Qed.

(* ---- invariant for arbitrary graphs ---- *)
Definition done (x : nstate) : bool := match x with UpToDate | Executed => true | _ => false end.
Fixpoint once (c : cfg) (tr : list event) : Prop :=
  match tr with
  | [] => True
  | EStart ts :: r | ECurrent ts :: r => (forall n, In n ts -> ~ is_side_effect c n -> ~ handed_out r n) /\ once c r
  | _ :: r => once c r
  end.
Record dinv (c : cfg) (s : tm) : Prop := {
  di_ref : refok s;
  di_done : forall n, done (nst s n) = true -> finished (trace s) n;
  di_rank : forall n, ~ is_side_effect c n -> handed_out (trace s) n -> rank (nst s n) >= 2;
  di_tgt : forall ts, In (EStart ts) (trace s) \/ In (ECurrent ts) (trace s) -> exists m, ts = all_targets c m;
  di_run : forall ts, In ts (running s) -> In (EStart ts) (trace s);
  di_stop : In EStop (trace s) <-> stopped s = true;
  di_once : once c (trace s) }.

Lemma handed_cons tr e n : handed_out (e :: tr) n ->
  handed_out tr n \/ (exists ts, In n ts /\ (e = EStart ts \/ e = ECurrent ts)).
Proof.
  intros (ts & H & [[->|G]|[->|G]]); [right; exists ts; auto | left; exists ts; auto | right; exists ts; auto | left; exists ts; auto].
Qed.
Lemma finished_cons tr e n : finished tr n -> finished (e :: tr) n.
Proof. intros (ts & H & G); exists ts; split; [exact H|]; simpl; tauto. Qed.
Lemma finished_app l tr n : finished tr n -> finished (l ++ tr) n.
Proof. intros (ts & H & G); exists ts; split; [exact H|]; rewrite !in_app_iff; tauto. Qed.

(* the state facts that survive retiring a task *)
Lemma retire_states fuel c e o s m s' :
  cfg_wf c -> env_wf e -> refok s -> retire fuel c e o s (all_targets c m) = Some s' ->
  forall n, nst s' n = nst s n \/ nst s' n = Failed \/ (nst s' n = NoState /\ is_side_effect c n)
            \/ (nst s' n = Executed /\ In n (all_targets c m) /\ o = OOk).
Proof.
  intros W We Hr H n. unfold retire in H.
  assert (Post : forall z ts, refok z -> nst (postprocess c e z ts) n = nst z n \/ (nst (postprocess c e z ts) n = NoState /\ is_side_effect c n)).
  { intros z ts Rz. destruct (po_nst _ _ _ _ (postprocess_spec c e z ts We Rz) n) as [(A & B & C)|[A B]]; [|auto].
    right; split; [exact C|]. apply in_flat_map in A. destruct A as (t & _ & A). exists t; exact A. }
  destruct o.
  - injection H as <-.
    pose proof (executed_spec c (all_targets c m) s (targets_not_ses c m W)) as E. cbn zeta in E.
    destruct E as (E1 & E2 & E3 & _).
    assert (Hr' : refok (executed c s (all_targets c m))) by (destruct Hr as [Ha Hb]; split; [rewrite E3; exact Ha | intros p; rewrite E2, E3; apply Hb]).
    destruct (Post _ (all_targets c m) Hr') as [->|A]; [|auto].
    rewrite E1. destruct (mem n (all_targets c m)) eqn:M.
    + apply mem_In in M. destruct (nst s n); auto. right; right; right; auto.
    + destruct (existsb _ _) eqn:X; [|auto]. right; right; left; split; [reflexivity|].
      apply existsb_exists in X. destruct X as (t & _ & X). apply andb_true_iff in X. destruct X as [_ X].
      apply mem_In in X. exists t; exact X.
  - destruct (will_not_build fuel e true s (all_targets c m)) as [s1|] eqn:Ew; [|discriminate]. injection H as <-.
    destruct (will_not_build_spec _ _ _ _ _ _ We Hr Ew) as (W1 & W2 & _).
    destruct (Post s1 (all_targets c m) W1) as [->|A]; [|auto]. destruct (W2 n) as [(_ & _ & A)|[A _]]; auto.
  - destruct (will_not_build fuel e true s (all_targets c m)) as [s1|] eqn:Ew; [|discriminate]. injection H as <-.
    destruct (will_not_build_spec _ _ _ _ _ _ We Hr Ew) as (W1 & W2 & _).
    match goal with |- context [postprocess c e ?a ?b] => destruct (Post a b W1) as [->|A] end; [|auto].
    cbn. destruct (W2 n) as [(_ & _ & A)|[A _]]; auto.
Qed.
Lemma retire_fails fuel c e o s m s' :
  cfg_wf c -> env_wf e -> refok s -> retire fuel c e o s (all_targets c m) = Some s' -> o <> OOk ->
  forall n, In n (all_targets c m) -> nst s' n = Failed.
Proof.
  intros W We Hr H Ho n Hn. unfold retire in H. destruct o; [congruence| |];
    (destruct (will_not_build fuel e true s (all_targets c m)) as [s1|] eqn:Ew; [|discriminate]); injection H as <-;
    destruct (will_not_build_spec _ _ _ _ _ _ We Hr Ew) as (W1 & W2 & _).
  - destruct (W2 n) as [(_ & _ & A)|[_ B]]; [|elim (B eq_refl); apply wr0; exact Hn].
    destruct (po_nst _ _ _ _ (postprocess_spec c e s1 (all_targets c m) We W1) n) as [(_ & B & _)|[B _]]; congruence.
  - destruct (W2 n) as [(_ & _ & A)|[_ B]]; [|elim (B eq_refl); apply wr0; exact Hn].
    match goal with |- nst (postprocess c e ?a ?b) n = _ => destruct (po_nst _ _ _ _ (postprocess_spec c e a b We W1) n) as [(_ & B & _)|[B _]] end; cbn in B; congruence.
Qed.

Lemma init_dinv c : dinv c (init c).
Proof.
  constructor; cbn; try tauto; try discriminate.
  - split; [constructor | intros p; reflexivity].
  - intros n _ (ts & _ & [[]|[]]).
  - split; [intros [] | discriminate].
Qed.

(* result of the search, for the safety invariant *)
Definition qinv (c : cfg) (e : env) (s0 s : tm) (m : node) (exc : bool) : Prop :=
  dinv c s /\ nst s m = Pending /\ trace s = trace s0 /\ running s = running s0
  /\ (exc = false -> exists ch, e_kids e m = Some ch /\ forall k, In k ch -> done (nst s k) = true).

Lemma consider_dinv c e (We : env_wf e) z z' n z'' :
  dinv c z -> popped c z z' n -> consider_spec c e z' n (Continue z'') ->
  dinv c z'' /\ trace z'' = trace z /\ running z'' = running z.
Proof.
    intros [D1 D2 D3 D4 D5 D6 D7] Pp Cs. destruct Pp as [pp_nst0 pp_refc0 pp_wpE0 pp_wse0 pp_pend0 pp_stop0 pp_go0 pp_run0 pp_seen0 pp_trace0 pp_c10 pp_t10 pp_t20 pp_c20].
    assert (Key : forall y, (forall m, nst y m = nst z m \/ rank (nst z m) <= 1 /\ (nst y m = Pending \/ nst y m = Failed)) \/
       (forall m, nst y m = nst z m \/ nst y m = Pending /\ rank (nst z m) <= 1 \/ nst y m = Failed) ->
       refok y -> trace y = trace z -> running y = running z -> stopped y = stopped z ->
       (dinv c y /\ trace y = trace z /\ running y = running z)).
    { intros y Hy Ry Ty Ny Sy. split; [|split; congruence].
      assert (Hy' : forall m, nst y m = nst z m \/ nst y m = Pending /\ rank (nst z m) <= 1 \/ nst y m = Failed).
      { destruct Hy as [Hy|Hy]; intros m; destruct (Hy m) as [A|A]; auto. destruct A as [A [B|B]]; auto. }
      constructor.
      - exact Ry.
      - intros m Hm; rewrite Ty; apply D2. destruct (Hy' m) as [<-|[[A _]|A]]; auto; rewrite A in Hm; discriminate.
      - intros m Hs Hm; rewrite Ty in Hm; specialize (D3 m Hs Hm).
        destruct (Hy' m) as [->|[[A B]|A]]; [exact D3 | lia | rewrite A; simpl; lia].
      - rewrite Ty; exact D4.
      - rewrite Ty, Ny; exact D5.
      - rewrite Ty, Sy; exact D6.
      - rewrite Ty; exact D7. }
    assert (R' : refok z') by (destruct D1 as [Da Db]; split; [rewrite pp_wpE0; exact Da | intros p; rewrite pp_refc0, pp_wpE0; apply Db]).
    destruct (visited1_rest z' n) as (V1 & V2 & V3 & V4 & V5 & V6 & V7 & V8 & V9 & V10 & V11).
    remember (Continue z'') as q eqn:Eq.
    destruct Cs as [I1|I1 I2|ch y I1 I2 I3 I4 I5 I6 I7 I8 I9 [J1 J2 J3 J4 J5 J6]|ch y I1 I2 I3 I4 I5 I6 I7 I8 I9 I10 [J1 J2 J3 J4 J5 J6]
      |ch y I1 I2 I3 I4 I5 I6 I7 I8 I9 I10 [J1 J2 J3 J4 J5 J6]|ch I1 I2 I3 I4]; try discriminate; injection Eq as ->.
    + apply Key; try congruence. left; intros m; left; congruence.
    + apply Key; try congruence.
      * right; intros m. rewrite I4, visited1_nst by assumption. rewrite pp_nst0 in *.
        destruct (mem m (action_targets c n)); [auto|]. destruct (m =? n) eqn:E; [|auto].
        apply Nat.eqb_eq in E; subst; auto.
      * destruct R' as [Ra Rb]; split; [rewrite I6; exact Ra | intros p; rewrite I5, I6; apply Rb].
    + apply Key; try congruence.
      * right; intros m. rewrite I5, visited1_nst by assumption. rewrite pp_nst0 in *.
        destruct (m =? n) eqn:E; [|auto]. apply Nat.eqb_eq in E; subst; auto.
      * apply I6; exact R'.
    + apply Key; try congruence.
      * right; intros m. rewrite I5, visited1_nst by assumption. rewrite pp_nst0 in *.
        destruct (m =? n) eqn:E; [|auto]. apply Nat.eqb_eq in E; subst; auto.
      * destruct R' as [Ra Rb]; split; [rewrite I7; exact Ra | intros p; rewrite I6, I7; apply Rb].
Qed.

Lemma search_dinv c e (W : cfg_wf c) (We : env_wf e) fuel s :
  dinv c s ->
  match find_ready fuel c e s with
  | NoFuel => True
  | NoneLeft s' => (dinv c s' /\ trace s' = trace s /\ running s' = running s) /\ (stopped s' = false -> cands s' = [] /\ topsleft s' = [])
  | Ready s' m exc => qinv c e s s' m exc /\ stopped s' = false
  end.
Proof.
  intros D0.
  apply (find_ready_ind c e We (fun z => dinv c z /\ trace z = trace s /\ running z = running s) (qinv c e s)).
  - intros z z' n z'' (Dz & T & R) Pp Cs. destruct (consider_dinv c e We z z' n z'' Dz Pp Cs) as (A & B & C).
    split; [exact A | split; congruence].
  - intros z fl z' ([D1 D2 D3 D4 D5 D6 D7] & T & R) St Cn Hw.
    assert (R0 : refok (set_cands z [])) by exact D1.
    destruct (will_not_build_spec _ _ _ _ _ _ We R0 Hw) as (W1 & W2 & _ & _ & _ & _ & [W7 W8 W9 W10 W11 W12]). cbn in *.
    assert (Wn : forall n, nst z' n = nst z n) by (intros n; destruct (W2 n) as [(_ & F & _)|[F _]]; [discriminate | exact F]).
    split; [|split; congruence]. constructor.
    + exact W1.
    + intros n Hn; rewrite W12; apply D2; rewrite <- Wn; exact Hn.
    + intros n Hs Hn; rewrite Wn; apply D3; [exact Hs | rewrite <- W12; exact Hn].
    + rewrite W12; exact D4.
    + rewrite W12, W10; exact D5.
    + rewrite W12, W9; exact D6.
    + rewrite W12; exact D7.
  - intros z z' n z'' m exc ([D1 D2 D3 D4 D5 D6 D7] & T & R) Pp Cs. destruct Pp as [pp_nst0 pp_refc0 pp_wpE0 pp_wse0 pp_pend0 pp_stop0 pp_go0 pp_run0 pp_seen0 pp_trace0 pp_c10 pp_t10 pp_t20 pp_c20].
    destruct (visited1_rest z' n) as (V1 & V2 & V3 & V4 & V5 & V6 & V7 & V8 & V9 & V10 & V11).
    assert (Hn : m = n /\ rank (nst z' n) <= 1 /\ nst z'' = nst (visited1 z' n) /\ refc z'' = refc z' /\ wpE z'' = wpE z' /\ trace z'' = trace z' /\ running z'' = running z' /\ stopped z'' = stopped z').
    { inversion Cs; subst; cbn; repeat split; try assumption; try congruence. }
    destruct Hn as (-> & N1 & N2 & N3 & N4 & N5 & N6 & N7).
    assert (Nst : forall k, nst z'' k = if k =? n then Pending else nst z k) by (intros k; rewrite N2, visited1_nst, pp_nst0 by exact N1; reflexivity).
    rewrite pp_nst0 in N1.
    split; [|split; [|split; [congruence | split; [congruence|]]]].
    + constructor.
      * destruct D1 as [Da Db]; split; [rewrite N4, pp_wpE0; exact Da | intros p; rewrite N3, N4, pp_refc0, pp_wpE0; apply Db].
      * intros k Hk. rewrite N5, pp_trace0. rewrite Nst in Hk. destruct (k =? n); [discriminate | apply D2; exact Hk].
      * intros k Hs Hk. rewrite N5, pp_trace0 in Hk. specialize (D3 k Hs Hk). rewrite Nst.
        destruct (k =? n) eqn:E; [apply Nat.eqb_eq in E; subst; lia | exact D3].
      * rewrite N5, pp_trace0; exact D4.
      * rewrite N5, N6, pp_trace0, pp_run0; exact D5.
      * rewrite N5, N7, pp_trace0, pp_stop0; exact D6.
      * rewrite N5, pp_trace0; exact D7.
    + rewrite Nst, Nat.eqb_refl; reflexivity.
    + intros ->. remember (Return z'' n false) as q eqn:Eq.
      destruct Cs as [I1|I1 I2|ch y I1 I2 I3 I4 I5 I6 I7 I8 I9 _|ch y I1 I2 I3 I4 I5 I6 I7 I8 I9 I10 _
      |ch y I1 I2 I3 I4 I5 I6 I7 I8 I9 I10 _|ch I1 I2 I3 I4]; try discriminate.
      exists ch; split; [assumption|].
      intros k Hk. destruct (I3 k Hk) as [X1 X2]. rewrite visited1_nst in X1 by (rewrite pp_nst0; exact N1).
      rewrite Nst. rewrite pp_nst0 in *. destruct (k =? n); [simpl in X1; lia|]. destruct (nst z k); simpl in *; try lia; congruence.
  - auto.
Qed.

Lemma make_ready_nst c r s ts n :
  (nst (make_ready c r s ts) n = nst s n /\ (r <> RExc -> ~ In n ts))
  \/ (r = ROutOfDate /\ nst (make_ready c r s ts) n = Executing /\ (In n ts \/ In n (ses_of c ts)))
  \/ (r = RUpToDate /\ nst (make_ready c r s ts) n = UpToDate /\ In n ts).
Proof.
  destruct r.
  - destruct (make_ready_out c ts s) as (A & _). rewrite A.
    destruct (mem n ts) eqn:M1; cbn [orb].
    + right; left; split; [reflexivity|]; split; [reflexivity|]. left; apply mem_In; exact M1.
    + apply mem_nIn in M1. destruct (mem n (ses_of c ts)) eqn:M2; [|left; auto].
      right; left; split; [reflexivity|]; split; [reflexivity|]. right; apply mem_In; exact M2.
  - destruct (fold_set1 UpToDate ts s) as (A & _). cbn [make_ready]. rewrite A.
    destruct (mem n ts) eqn:M1; [right; right; split; [reflexivity|]; split; [reflexivity | apply mem_In; exact M1] |].
    apply mem_nIn in M1; left; auto.
  - left; split; [reflexivity | congruence].
Qed.
Lemma make_ready_rest c r s ts : 
  refc (make_ready c r s ts) = refc s /\ wpE (make_ready c r s ts) = wpE s /\ wse (make_ready c r s ts) = wse s
  /\ pend (make_ready c r s ts) = pend s /\ cands (make_ready c r s ts) = cands s /\ same_rest s (make_ready c r s ts).
Proof.
  destruct r; [destruct (make_ready_out c ts s) as (_ & A) | destruct (fold_set1 UpToDate ts s) as (_ & A) |
    repeat (split; [reflexivity|]); apply same_rest_refl]; exact A.
Qed.

(* Task issue and immediate retirement *)
Lemma next_dinv c e fuel s s' b :
  cfg_wf c -> env_ok c e -> dinv c s -> next_task fuel c e s = Some (s', b) -> dinv c s'.
Proof.
  intros W Eo D H. pose proof (env_ok_wf c e Eo) as We.
  pose proof (search_dinv c e W We fuel s D) as S. unfold next_task in H.
  destruct (find_ready fuel c e s) as [|z|z m exc]; [discriminate | injection H as <- _; tauto |].
  destruct S as [([D1 D2 D3 D4 D5 D6 D7] & Pm & T & R & K) St].
  set (ts := all_targets c m) in *.
  set (z1 := make_ready c (e_ready e m) z ts) in *.
  destruct (make_ready_rest c (e_ready e m) z ts) as (M1 & M2 & M3 & M4 & M5 & [M6 M7 M8 M9 M10 M11]). fold z1 in M1, M2, M3, M4, M5, M6, M7, M8, M9, M10, M11.
  assert (R1 : refok z1) by (destruct D1 as [Da Db]; split; [rewrite M2; exact Da | intros p; rewrite M1, M2; apply Db]).
  assert (Mn := make_ready_nst c (e_ready e m) z ts). fold z1 in Mn.
  (* nodes of this task were never handed out before *)
  assert (Fresh : forall n, In n ts -> ~ is_side_effect c n -> ~ handed_out (trace z) n).
  { intros n Hn Hs Hh. assert (Hh' := Hh). destruct Hh' as (ts' & Hn' & Ho).
    destruct (D4 ts' Ho) as [m' ->].
    assert (all_targets c m' = all_targets c m) as Eq by (rewrite <- (cw_share c W m' n Hn'); apply (cw_share c W m n Hn)).
    assert (~ is_side_effect c m) as Hsm.
    { intros Sm. pose proof (cw_se1 c W m Sm) as E1. unfold ts in Hn; rewrite E1 in Hn. destruct Hn as [->|[]]. contradiction. }
    assert (handed_out (trace z) m) as Hm by (exists (all_targets c m'); split; [rewrite Eq; apply cw_self; exact W | exact Ho]).
    specialize (D3 m Hsm Hm). rewrite Pm in D3. simpl in D3; lia. }
  (* common part of all immediate retirements *)
  assert (Ret : forall ev y, retire fuel c e (e_now e) (emit z1 ev) ts = Some y ->
     (forall q, ev <> EStart q) -> ev <> EStop ->
     (forall q, ev = ECurrent q -> q = ts /\ e_ready e m = RUpToDate) ->
     (e_now e = OOk -> ev = ECurrent ts \/ ev = EIgnored ts) -> dinv c y).
  { intros ev y Hy N1 N2 N3 N4.
    assert (Re : refok (emit z1 ev)) by exact R1.
    destruct (retire_trace _ _ _ _ _ _ _ We Re Hy) as (Y1 & Y2 & Y3 & Y4 & Y5 & Y6 & Y7 & Y8). cbn in Y1, Y2, Y7.
    assert (Ys := retire_states _ _ _ _ _ _ _ W We Re Hy).
    assert (Yf := retire_fails _ _ _ _ _ _ _ W We Re Hy).
    assert (Hfin : forall n, finished (trace z) n -> finished (trace y) n).
    { intros n Hn; rewrite Y1; apply finished_app, finished_cons; rewrite M11; exact Hn. }
    assert (Hok : e_now e = OOk -> forall n, In n ts -> finished (trace y) n).
    { intros Ho n Hn; rewrite Y1; apply finished_app. exists ts; split; [exact Hn|].
      destruct (N4 Ho) as [-> | ->]; simpl; auto. }
    assert (Hh : forall n, handed_out (trace y) n -> handed_out (trace z) n \/ (In n ts /\ e_ready e m = RUpToDate)).
    { intros n Hn. rewrite Y1 in Hn. assert (handed_out (ev :: trace z1) n) as Hn'.
      { destruct (e_now e); cbn in Hn; try exact Hn. apply handed_cons in Hn. destruct Hn as [Hn|(q & _ & [Hq|Hq])]; [exact Hn | discriminate | discriminate]. }
      apply handed_cons in Hn'. destruct Hn' as [Hn'|(q & Hq & [He|He])].
      - left; rewrite <- M11; exact Hn'.
      - elim (N1 q He).
      - right; destruct (N3 q He) as [-> E]; auto. }
    constructor.
    - exact Y3.
    - intros n Hn. destruct (Ys n) as [A|[A|[[A _]|(A & B & C)]]]; try (rewrite A in Hn; discriminate).
      + rewrite A in Hn. cbn in Hn. destruct (Mn n) as [[B _]|[(_ & B & _)|(_ & B & C)]].
        * apply Hfin, D2. rewrite <- B; exact Hn.
        * rewrite B in Hn; discriminate.
        * destruct (e_now e) eqn:En; [apply Hok; auto | |]; (rewrite Yf in A by (auto; discriminate); cbn in A; rewrite <- A in Hn; discriminate).
      + apply Hok; assumption.
    - intros n Hs Hn. apply Hh in Hn.
      assert (rank (nst z1 n) >= 2) as G.
      { destruct Hn as [Hn|[Hn Hu]].
        - specialize (D3 n Hs Hn). destruct (Mn n) as [[B _]|[(_ & B & _)|(_ & B & C)]]; rewrite B; simpl; lia.
        - destruct (Mn n) as [[B C]|[(_ & B & _)|(_ & B & C)]]; try (rewrite B; simpl; lia).
          elim C; [rewrite Hu; discriminate | exact Hn]. }
      destruct (Ys n) as [A|[A|[[A B]|(A & _)]]]; try (rewrite A; simpl; lia); contradiction.
    - intros q Hq. rewrite Y1 in Hq.
      assert (Hq' : In (EStart q) (trace z) \/ In (ECurrent q) (trace z) \/ q = ts).
      { destruct (e_now e); cbn in Hq; rewrite M11 in Hq.
        - destruct Hq as [[A|A]|[A|A]]; auto; [elim (N1 q A) | right; right; apply (N3 q A)].
        - destruct Hq as [[A|A]|[A|A]]; auto; [elim (N1 q A) | right; right; apply (N3 q A)].
        - destruct Hq as [[A|[A|A]]|[A|[A|A]]]; auto; try discriminate; [elim (N1 q A) | right; right; apply (N3 q A)]. }
      destruct Hq' as [A|[A|A]]; [apply D4; auto | apply D4; auto | exists m; exact A].
    - intros q Hq. rewrite Y2, M9 in Hq. apply D5 in Hq. rewrite Y1, in_app_iff. right; right; rewrite M11; exact Hq.
    - rewrite Y1, Y7, M8, M11. destruct (e_now e); cbn.
      + split; [intros [Q|Q]; [congruence | apply D6; exact Q] | intros Q; right; apply D6; exact Q].
      + split; [intros [Q|Q]; [congruence | apply D6; exact Q] | intros Q; right; apply D6; exact Q].
      + split; [reflexivity | left; reflexivity].
    - rewrite Y1. assert (once c (ev :: trace z1)) as G.
      { rewrite M11. destruct ev; cbn; try exact D7; [elim (N1 ts0 eq_refl)|].
        destruct (N3 ts0 eq_refl) as [-> _]. split; [exact Fresh | exact D7]. }
      destruct (e_now e); exact G. }
  destruct (exc || match e_ready e m with RExc => true | _ => false end) eqn:Ex.
  - destruct (retire fuel c e (e_now e) _ ts) as [y|] eqn:Hy; [|discriminate]. injection H as <- _.
    eapply Ret; [exact Hy | | | |].
    + intros q; destruct (e_now e); discriminate.
    + destruct (e_now e); discriminate.
    + intros q; destruct (e_now e); discriminate.
    + intros E; rewrite E; auto.
  - apply orb_false_iff in Ex. destruct Ex as [Ex1 Ex2].
    destruct (match ts with t :: _ => nstate_eqb (nst z1 t) Executing | [] => false end) eqn:Ee.
    + injection H as <- _.
      assert (Or : e_ready e m = ROutOfDate).
      { destruct (e_ready e m) eqn:Er; [reflexivity | | discriminate]. exfalso.
        destruct ts as [|t tl]; [discriminate|]. apply nstate_eqb_eq in Ee.
        destruct (Mn t) as [[_ B]|[(B & _)|(_ & B & _)]]; [apply B; [discriminate | left; reflexivity] | discriminate | congruence]. }
      assert (Hex : forall n, In n ts -> nst z1 n = Executing).
      { intros n Hn. destruct (Mn n) as [[_ B]|[(_ & B & _)|(B & _)]]; [elim B; [rewrite Or; discriminate | exact Hn] | exact B | congruence]. }
      constructor; cbn.
      * exact R1.
      * intros n Hn. apply finished_cons. rewrite M11. destruct (Mn n) as [[B _]|[(_ & B & _)|(B & _)]]; try congruence.
        -- apply D2; rewrite <- B; exact Hn.
        -- rewrite B in Hn; discriminate.
      * intros n Hs Hn. apply handed_cons in Hn. destruct Hn as [Hn|(q & Hq & [He|He])]; [| |discriminate].
        -- rewrite M11 in Hn. specialize (D3 n Hs Hn). destruct (Mn n) as [[B _]|[(_ & B & _)|(_ & B & C)]]; rewrite B; simpl; lia.
        -- injection He as <-. rewrite (Hex n Hq). simpl; lia.
      * intros q Hq. rewrite M11 in Hq. destruct Hq as [[A|A]|[A|A]]; [injection A as <-; exists m; reflexivity | apply D4; auto | discriminate | apply D4; auto].
      * intros q [<-|Hq]; [left; reflexivity | right; rewrite M11; apply D5; rewrite M9 in Hq; exact Hq].
      * rewrite M8, M11. split; [intros [A|A]; [discriminate | apply D6; exact A] | intros A; right; apply D6; exact A].
      * rewrite M11. split; [exact Fresh | exact D7].
    + destruct (retire fuel c e (e_now e) _ ts) as [y|] eqn:Hy; [|discriminate]. injection H as <- _.
      assert (Ou : e_ready e m = RUpToDate).
      { destruct (e_ready e m) eqn:Er; [|reflexivity|discriminate]. exfalso.
        destruct ts as [|t tl] eqn:Ets; [pose proof (cw_self c W m) as Q; unfold ts in Ets; rewrite Ets in Q; exact Q|].
        destruct (Mn t) as [[_ B]|[(_ & B & _)|(B & _)]]; [apply B; [discriminate | left; reflexivity] | rewrite B in Ee; discriminate | discriminate]. }
      eapply Ret; [exact Hy | | | |].
      * intros q; destruct (e_now e); discriminate.
      * destruct (e_now e); discriminate.
      * intros q E; destruct (e_now e); try discriminate. injection E as <-. auto.
      * intros E; rewrite E; auto.
Qed.

Lemma take_nth_In i l x r : take_nth i l = Some (x, r) -> In x l /\ (forall y, In y r -> In y l).
Proof.
  revert i r; induction l as [|a l IH]; intros [|i] r H; simpl in H; try discriminate.
  - injection H as <- <-. split; [left; reflexivity | intros; right; assumption].
  - destruct (take_nth i l) as [[y r']|] eqn:E; [|discriminate]. injection H as <- <-.
    destruct (IH _ _ E) as [A B]. split; [right; exact A|]. intros z [->|Hz]; [left; reflexivity | right; apply B; exact Hz].
Qed.

Lemma step_dinv c fuel s o s' :
  cfg_wf c -> env_ok c (op_env o) -> dinv c s -> step fuel c s o = Some s' -> dinv c s'.
Proof.
  intros W Eo D H. destruct o as [e|i out e|e]; cbn in *.
  - destruct (next_task fuel c e s) as [[z b]|] eqn:E; [|discriminate]. injection H as <-. eapply next_dinv; eassumption.
  - pose proof (env_ok_wf c e Eo) as We.
    destruct (take_nth i (running s)) as [[ts rest]|] eqn:Et; [|injection H as <-; exact D].
    destruct (take_nth_In _ _ _ _ Et) as [Ht Hrest]. destruct D as [D1 D2 D3 D4 D5 D6 D7].
    destruct (D4 ts (or_introl (D5 ts Ht))) as [m ->].
    set (ev := match out with OOk => EFinish (all_targets c m) | _ => EFail (all_targets c m) end) in *.
    set (z := emit (set_running s rest) ev) in *.
    assert (Rz : refok z) by exact D1.
    destruct (retire_trace _ _ _ _ _ _ _ We Rz H) as (Y1 & Y2 & Y3 & Y4 & Y5 & Y6 & Y7 & Y8). cbn in Y1, Y2, Y7.
    assert (Ys := retire_states _ _ _ _ _ _ _ W We Rz H).
    assert (Hh : forall q, In (EStart q) (trace s') \/ In (ECurrent q) (trace s') -> In (EStart q) (trace s) \/ In (ECurrent q) (trace s)).
    { intros q Hq. rewrite Y1, !in_app_iff in Hq. unfold ev in Hq. destruct out; simpl in Hq; intuition discriminate. }
    constructor.
    + exact Y3.
    + intros n Hn. rewrite Y1. apply finished_app. destruct (Ys n) as [A|[A|[[A _]|(A & B & C)]]]; try (rewrite A in Hn; discriminate).
      * apply finished_cons, D2. cbn in A; rewrite <- A; exact Hn.
      * exists (all_targets c m); split; [exact B|]. unfold ev; rewrite C; simpl; auto.
    + intros n Hs (q & Hq & Ho). apply Hh in Ho. assert (rank (nst s n) >= 2) as G by (apply D3; [exact Hs | exists q; auto]).
      destruct (Ys n) as [A|[A|[[A B]|(A & _)]]]; try (rewrite A; simpl; lia); contradiction.
    + intros q Hq; apply D4, Hh; exact Hq.
    + intros q Hq. rewrite Y2 in Hq. rewrite Y1, in_app_iff. right; right. apply D5, Hrest; exact Hq.
    + rewrite Y1, Y7. unfold ev. destruct out; cbn.
      * split; [intros [Q|Q]; [discriminate | apply D6; exact Q] | intros Q; right; apply D6; exact Q].
      * split; [intros [Q|Q]; [discriminate | apply D6; exact Q] | intros Q; right; apply D6; exact Q].
      * split; [reflexivity | left; reflexivity].
    + rewrite Y1. assert (once c (ev :: trace s)) as G by (unfold ev; destruct out; exact D7). destruct out; exact G.
  - injection H as <-. destruct D as [D1 D2 D3 D4 D5 D6 D7]. constructor; cbn.
    + exact D1.
    + intros n Hn. apply finished_cons, D2, Hn.
    + intros n Hs (q & Hq & Ho). apply D3; [exact Hs|]. exists q. split; [exact Hq|]. destruct Ho as [[X|Ho]|[X|Ho]]; try discriminate; auto.
    + intros q [[X|Hq]|[X|Hq]]; try discriminate; apply D4; auto.
    + intros q Hq. right. apply D5, Hq.
    + split; [reflexivity | left; reflexivity].
    + exact D7.
Qed.

Lemma run_inv (P : tm -> Prop) (okop : op -> Prop) c :
  (forall fuel s o s', okop o -> P s -> step fuel c s o = Some s' -> P s') ->
  forall ops fuel s s', Forall okop ops -> P s -> run fuel c s ops = Some s' -> P s'.
Proof.
  intros Hs. induction ops as [|o ops IH]; intros fuel s s' Ho Hp H; cbn in H.
  - injection H as <-; exact Hp.
  - inversion Ho; subst. destruct (step fuel c s o) as [s1|] eqn:E; [|discriminate]. eapply IH; [eassumption | eapply Hs; eassumption | eassumption].
Qed.

Lemma reachable_dinv c ops s : cfg_wf c -> reachable c ops s -> dinv c s.
Proof.
  intros W [Ho [fuel H]].
  apply (run_inv (dinv c) (fun o => env_ok c (op_env o)) c) with (ops := ops) (fuel := fuel) (s := init c); auto.
  - intros; eapply step_dinv; eassumption.
  - apply init_dinv.
Qed.
