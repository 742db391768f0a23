(* Termination of the search for a ready node.  Proof file. *)
From Coq Require Import List Arith ZArith Bool Lia Permutation.
Import ListNotations.
From Verif Require Import TMModel TMBase TMSpec TMSafe TMSafe2.

(* lexicographic induction on four measures *)
Lemma lex4_ind (P : tm -> Prop) (f1 f2 f3 f4 : tm -> nat) :
  (forall s, (forall s', (f1 s' < f1 s \/ (f1 s' = f1 s /\ (f2 s' < f2 s \/ (f2 s' = f2 s /\ (f3 s' < f3 s \/ (f3 s' = f3 s /\ f4 s' < f4 s)))))) -> P s') -> P s) ->
  forall s, P s.
Proof.
  intros H.
  assert (A : forall a b d g s, f1 s < a \/ (f1 s = a /\ (f2 s < b \/ (f2 s = b /\ (f3 s < d \/ (f3 s = d /\ f4 s < g))))) -> P s).
  { induction a as [a IHa] using lt_wf_ind. induction b as [b IHb] using lt_wf_ind. induction d as [d IHd] using lt_wf_ind. induction g as [g IHg] using lt_wf_ind.
    intros s Hs. apply H. intros s' Hs'.
    destruct (lt_dec (f1 s') a) as [L1|L1].
    { apply (IHa (f1 s') L1 (f2 s') (f3 s') (S (f4 s'))). lia. }
    destruct (lt_dec (f2 s') b) as [L2|L2].
    { apply (IHb (f2 s') L2 (f3 s') (S (f4 s'))). lia. }
    destruct (lt_dec (f3 s') d) as [L3|L3].
    { apply (IHd (f3 s') L3 (S (f4 s'))). lia. }
    apply (IHg (f4 s)); lia. }
  intros s. apply (A (f1 s) (f2 s) (f3 s) (S (f4 s))). lia.
Qed.

Section Term.
Context (c : cfg) (U : list node).
Context (HT : incl (tops c) U) (HA : forall n, In n U -> incl (alter c n) U).
Definition kids_in (e : env) : Prop := forall n ch, In n U -> e_kids e n = Some ch -> incl ch U.

Definition nos (s : tm) : nat := length (filter (fun n => nstate_eqb (nst s n) NoState) U).
Definition flag (s : tm) : nat := match cands s with [] => 1 | n :: _ => if nstate_eqb (nst s n) NoState then 0 else 1 end.

Lemma nos_le s s' : (forall n, nst s' n = NoState -> nst s n = NoState) -> nos s' <= nos s.
Proof.
  clear HT HA. intros H. unfold nos. induction U as [|x l IH]; cbn [filter length]; [lia|].
  destruct (nstate_eqb (nst s' x) NoState) eqn:A; destruct (nstate_eqb (nst s x) NoState) eqn:B; cbn [filter length]; try lia.
  apply nstate_eqb_eq in A. apply H in A. rewrite A in B. discriminate B.
Qed.
Lemma nos_lt s s' x : (forall n, nst s' n = NoState -> nst s n = NoState) -> In x U -> nst s x = NoState -> nst s' x <> NoState -> nos s' < nos s.
Proof.
  clear HT HA. intros H Hx H1 H2. unfold nos. induction U as [|y l IH]; [elim Hx|]. cbn [filter length].

  assert (L' : length (filter (fun n => nstate_eqb (nst s' n) NoState) l) <= length (filter (fun n => nstate_eqb (nst s n) NoState) l)).
  { clear IH Hx. induction l as [|z l IH]; cbn [filter length]; [lia|].
    destruct (nstate_eqb (nst s' z) NoState) eqn:A; destruct (nstate_eqb (nst s z) NoState) eqn:B; cbn [filter length]; try lia.
    apply nstate_eqb_eq in A. apply H in A. rewrite A in B. discriminate B. }
  destruct (Nat.eq_dec y x) as [->|N].
  - apply nstate_eqb_eq in H1. rewrite H1. destruct (nstate_eqb (nst s' x) NoState) eqn:A; [apply nstate_eqb_eq in A; contradiction | cbn [length]; lia].
  - destruct Hx as [Hx|Hx]; [contradiction|]. specialize (IH Hx).
    destruct (nstate_eqb (nst s' y) NoState) eqn:A; destruct (nstate_eqb (nst s y) NoState) eqn:B; cbn [filter length]; try lia.
    apply nstate_eqb_eq in A. apply H in A. rewrite A in B. discriminate B.
Qed.

Lemma fold_cands {A} (f : tm -> A -> tm) (Hf : forall s a, cands (f s a) = cands s) l : forall s, cands (fold_left f l s) = cands s.
Proof. induction l as [|a l IH]; intros s; simpl; [reflexivity | rewrite IH; apply Hf]. Qed.

(* the stack after one considered candidate *)
Lemma consider_stack e s n s'' : env_wf e -> consider c e s n = Continue s'' ->
  (rank (nst s n) > 1 /\ s'' = s) \/
  (rank (nst s n) <= 1 /\ exists ch nv, e_kids e n = Some ch /\ cands s'' = nv ++ cands s /\ forall x, In x nv -> In x ch /\ nst (visited1 s n) x = NoState).
Proof.
  intros We H. unfold consider in H. destruct (1 <? rank (nst s n)) eqn:R.
  { apply Nat.ltb_lt in R. injection H as <-. left; auto. }
  apply Nat.ltb_ge in R. right. split; [exact R|].
  change (set_seen match nst s n with NoState => set1 s n Pending | _ => s end (set_add n (seen match nst s n with NoState => set1 s n Pending | _ => s end))) with (visited1 s n) in H.
  set (v := visited1 s n) in *. destruct (e_kids e n) as [ch|]; [|discriminate].
  exists ch, (rev (e_order e (rev (filter (fun k => nstate_eqb (nst v k) NoState) ch)))). split; [reflexivity|].
  assert (V : cands v = cands s) by apply visited1_rest.
  assert (Nv : forall x, In x (rev (e_order e (rev (filter (fun k => nstate_eqb (nst v k) NoState) ch)))) -> In x ch /\ nst v x = NoState).
  { intros x Hx. apply in_rev in Hx. rewrite order_in in Hx by exact We. apply in_rev in Hx. apply filter_In in Hx. destruct Hx as [A B]. apply nstate_eqb_eq in B. auto. }
  destruct (existsb _ ch).
  { injection H as <-. split; [|exact Nv]. rewrite fold_cands by reflexivity. cbn [cands set_cands]. rewrite <- V. reflexivity. }
  destruct (negb _).
  { injection H as <-. split; [|exact Nv]. cbn [cands set_pend]. rewrite fold_cands; [cbn [cands set_cands]; rewrite <- V; reflexivity|].
    intros z a. unfold wait_for. destruct (existsb _ _); reflexivity. }
  destruct (filter _ (flat_map _ _)); [discriminate|]. injection H as <-. split; [|exact Nv].
  rewrite fold_cands by reflexivity. cbn [cands set_cands]. rewrite <- V. reflexivity.
Qed.

Lemma consider_mono e s n s'' : env_wf e -> consider c e s n = Continue s'' ->
  (forall m, nst s'' m = NoState -> nst s m = NoState) /\ (rank (nst s n) <= 1 -> nst s'' n <> NoState)
  /\ topsleft s'' = topsleft s /\ stopped s'' = stopped s.
Proof.
  intros We H. pose proof (consider_ok c e s n We) as Cs. rewrite H in Cs.
  assert (V : rank (nst s n) <= 1 -> forall m, nst (visited1 s n) m = NoState -> nst s m = NoState /\ m <> n).
  { intros R m. rewrite visited1_nst by exact R. destruct (m =? n) eqn:E; [discriminate | apply Nat.eqb_neq in E; auto]. }
  destruct (visited1_rest s n) as (_ & _ & _ & _ & _ & V6 & _ & V8 & _).
  remember (Continue s'') as q eqn:Eq.
  destruct Cs as [I1|I1 I2|ch y I1 I2 I3 I4 I5 I6 I7 I8 I9 [J1 J2 J3 J4 J5 J6]|ch y I1 I2 I3 I4 I5 I6 I7 I8 I9 I10 [J1 J2 J3 J4 J5 J6]
        |ch y I1 I2 I3 I4 I5 I6 I7 I8 I9 I10 [J1 J2 J3 J4 J5 J6]|ch I1 I2 I3 I4]; try discriminate; injection Eq as <-.
  - repeat split; auto. intros X; lia.
  - split; [intros m; rewrite I4; destruct (mem m _); [discriminate | intros X; apply V in X; tauto]|].
    split; [|split; congruence]. intros _. rewrite I4. destruct (mem n _); [discriminate | intros X; apply V in X; tauto].
  - rewrite I5. split; [intros m X; apply V in X; tauto|]. split; [intros _ X; apply V in X; tauto | split; congruence].
  - rewrite I5. split; [intros m X; apply V in X; tauto|]. split; [intros _ X; apply V in X; tauto | split; congruence].
Qed.

Lemma wnb_mono e sf : forall f1 f2 s tv s', f1 <= f2 -> wnb f1 e sf s tv = Some s' -> wnb f2 e sf s tv = Some s'.
Proof.
  induction f1 as [|f1 IH]; intros [|f2] s tv s' L H; try lia; cbn [wnb] in *.
  - exact H.
  - destruct (e_iter e tv); [exact H | discriminate].
  - destruct (e_iter e tv); [exact H | apply IH; [lia | exact H]].
Qed.

Definition sub (s : tm) : Prop := incl (cands s) U /\ incl (topsleft s) U.

Theorem find_ready_total e : env_wf e -> kids_in e -> forall s, sub s -> exists F r, r <> NoFuel /\ forall fuel, fuel >= F -> find_ready fuel c e s = r.
Proof.
  intros We HK s. pattern s. apply (lex4_ind _ nos (fun s => length (topsleft s)) flag (fun s => length (cands s))). clear s.
  intros s IH [Sc Stp].
  destruct (stopped s) eqn:St.
  { destruct (cands s) as [|n l] eqn:Ec.
    - exists 1, (NoneLeft s). split; [discriminate|]. intros [|fuel] Hf; [lia|]. cbn [find_ready]. unfold next_candidate. rewrite St, Ec. reflexivity.
    - destruct (will_not_build_total (length (wpE (set_cands s [])) + length (n :: l)) e false (set_cands s []) (n :: l) We (le_n _)) as [z Hz].
      exists (S (length (wpE (set_cands s [])) + length (n :: l))), (NoneLeft z). split; [discriminate|]. intros [|fuel] Hf; [lia|].
      cbn [find_ready]. unfold next_candidate. rewrite St, Ec.
      assert (will_not_build (S fuel) e false (set_cands s []) (n :: l) = Some z) as ->; [|reflexivity].
      unfold will_not_build in *. eapply wnb_mono; [|exact Hz]. lia. }
  assert (Step : forall s' n, nst s' = nst s -> sub s' -> In n U -> stopped s' = stopped s ->
     (length (topsleft s') < length (topsleft s)
      \/ (length (topsleft s') = length (topsleft s) /\ (exists rest, cands s = n :: rest /\ cands s' = rest))) ->
     (forall fuel, next_candidate fuel c e s = Cand s' n) ->
     exists F r, r <> NoFuel /\ forall fuel, fuel >= F -> find_ready fuel c e s = r).
  { intros s' n En [Sc' St'] Hn Ess Hl Hc.
    destruct (consider c e s' n) as [s''|s'' m exc] eqn:Co.
    2:{ exists 1, (Ready s'' m exc). split; [discriminate|]. intros [|fuel] Hf; [lia|]. cbn [find_ready]. rewrite Hc, Co. reflexivity. }
    destruct (consider_mono e s' n s'' We Co) as (M1 & M2 & M3 & M4). rewrite En in M1, M2.
    assert (Dec : nos s'' < nos s \/ nos s'' = nos s /\ (length (topsleft s'') < length (topsleft s) \/ length (topsleft s'') = length (topsleft s) /\
        (flag s'' < flag s \/ flag s'' = flag s /\ length (cands s'') < length (cands s)))).
    { rewrite M3. pose proof (nos_le s s'' M1) as L.
      destruct (consider_stack e s' n s'' We Co) as [[R ->]|(R & ch & nv & K & Ec & Hnv)].
      - assert (nos s' = nos s) as -> by (unfold nos; rewrite En; reflexivity).
        destruct Hl as [Hl|[Hl (rest & C1 & C2)]]; [lia|]. right; split; [reflexivity|]. right; split; [exact Hl|].
        assert (F1 : flag s = 1) by (unfold flag; rewrite C1; rewrite En in R; destruct (nst s n); simpl in *; try lia; reflexivity).
        rewrite F1, C1, C2. assert (flag s' <= 1) by (unfold flag; destruct (cands s'); [lia | destruct (nstate_eqb _ _); lia]).
        cbn [length]. destruct (Nat.eq_dec (flag s') 1); lia.
      - rewrite En in R.
        destruct (nst s n) eqn:Sn; simpl in R; try lia.
        + left. apply (nos_lt s s'' n M1 Hn Sn). apply M2; simpl; lia.
        + destruct Hl as [Hl|[Hl (rest & C1 & C2)]]; [lia|].
          destruct nv as [|x nv].
          * assert (F1 : flag s = 1) by (unfold flag; rewrite C1, Sn; reflexivity).
            destruct (Nat.eq_dec (nos s'') (nos s)) as [->|Ne]; [|lia]. right; split; [reflexivity|]. right; split; [exact Hl|].
            rewrite F1, C1, Ec, C2. assert (flag s'' <= 1) by (unfold flag; destruct (cands s''); [lia | destruct (nstate_eqb _ _); lia]).
            cbn [length app]. destruct (Nat.eq_dec (flag s'') 1); lia.
          * destruct (Hnv x (or_introl eq_refl)) as [X1 X2].
            assert (X3 : nst s x = NoState).
            { rewrite visited1_nst in X2 by (rewrite En, Sn; simpl; lia). destruct (x =? n); [discriminate | rewrite <- En; exact X2]. }
            destruct (nstate_eqb (nst s'' x) NoState) eqn:X4.
            -- destruct (Nat.eq_dec (nos s'') (nos s)) as [->|Ne]; [|lia]. right; split; [reflexivity|]. right; split; [exact Hl|]. left.
               unfold flag. rewrite Ec, C1. cbn [app]. rewrite X4, Sn. cbn. lia.
            -- left. apply (nos_lt s s'' x M1); [eapply HK; eassumption | exact X3 | intros Q; apply nstate_eqb_eq in Q; congruence]. }
    assert (Sub : sub s'').
    { split; [|rewrite M3; exact St'].
      destruct (consider_stack e s' n s'' We Co) as [[R ->]|(R & ch & nv & K & Ec & Hnv)]; [exact Sc'|].
      rewrite Ec. apply incl_app; [|exact Sc']. intros x Hx. apply Hnv in Hx. eapply HK; [exact Hn | exact K | apply Hx]. }
    destruct (IH s'' Dec Sub) as (F & r & Nr & HF).
    exists (S F), r. split; [exact Nr|]. intros [|fuel] Hf; [lia|]. cbn [find_ready]. rewrite Hc, Co. apply HF. lia. }
  destruct (cands s) as [|n rest] eqn:Ec.
  - destruct (topsleft s) as [|t rest] eqn:Et.
    { exists 1, (NoneLeft s). split; [discriminate|]. intros [|fuel] Hf; [lia|]. cbn [find_ready]. unfold next_candidate. rewrite St, Ec, Et. reflexivity. }
    assert (Ht : In t U) by (apply Stp; left; reflexivity).
    assert (Hr : incl rest U) by (intros x Hx; apply Stp; right; exact Hx).
    destruct (alter c t) as [|a al] eqn:Ea.
    + apply (Step (set_tops s rest (Some t)) t); try reflexivity; auto.
      * split; [cbn; rewrite Ec; intros x [] | exact Hr].
      * intros fuel. unfold next_candidate. rewrite St, Ec, Et, Ea. reflexivity.
    + assert (Hall : incl (rev (e_order e (a :: al)) ++ [t]) U).
      { apply incl_app; [|intros x [<-|[]]; exact Ht]. intros x Hx. apply in_rev in Hx. rewrite order_in in Hx by exact We.
        apply (HA t Ht). rewrite Ea. exact Hx. }
      destruct (rev (e_order e (a :: al)) ++ [t]) as [|m r] eqn:Er; [destruct (rev (e_order e (a :: al))); discriminate|].
      apply (Step (set_cands (set_tops s rest (Some t)) r) m); try reflexivity.
      * split; [intros x Hx; apply Hall; right; exact Hx | exact Hr].
      * apply Hall; left; reflexivity.
      * left; cbn; lia.
      * intros fuel. unfold next_candidate. rewrite St, Ec, Et, Ea, Er. reflexivity.
  - apply (Step (set_cands s rest) n); try reflexivity.
    + split; [intros x Hx; apply Sc; right; exact Hx | exact Stp].
    + apply Sc; left; reflexivity.
    + right; split; [reflexivity|]. exists rest; auto.
    + intros fuel. unfold next_candidate. rewrite St, Ec. reflexivity.
Qed.

Lemma retire_total e o s ts : env_wf e -> exists F s', forall fuel, fuel >= F -> retire fuel c e o s ts = Some s'.
Proof.
  intros We.
  destruct (will_not_build_total (length (wpE s) + length ts) e true s ts We (le_n _)) as [z Hz].
  assert (M : forall fuel, fuel >= length (wpE s) + length ts -> will_not_build fuel e true s ts = Some z).
  { intros fuel Hf. unfold will_not_build in *. eapply wnb_mono; [|exact Hz]. exact Hf. }
  exists (length (wpE s) + length ts). destruct o; eexists; intros fuel Hf; unfold retire; try rewrite (M fuel Hf); reflexivity.
Qed.

Lemma step_total o s : env_wf (op_env o) -> kids_in (op_env o) -> sub s -> exists F s', forall fuel, fuel >= F -> step fuel c s o = Some s'.
Proof.
  intros We HK Hs. destruct o as [e|i out e|e]; cbn [op_env step] in *.
  - destruct (find_ready_total e We HK s Hs) as (F & r & Nr & HF).
    destruct r as [|z|z m exc]; [congruence| |].
    + exists F, z. intros fuel Hf. unfold next_task. rewrite (HF fuel Hf). reflexivity.
    + set (ts := all_targets c m). set (z1 := make_ready c (e_ready e m) z ts).
      destruct (retire_total e (e_now e) (emit z1 (match e_now e with OOk => EIgnored ts | _ => EFail ts end)) ts We) as (F1 & y1 & H1).
      destruct (retire_total e (e_now e) (emit z1 (match e_now e with OOk => ECurrent ts | _ => EFail ts end)) ts We) as (F2 & y2 & H2).
      exists (F + F1 + F2). eexists. intros fuel Hf. unfold next_task. rewrite (HF fuel) by lia. fold ts. fold z1. cbn zeta.
      rewrite (H1 fuel), (H2 fuel) by lia. cbn [option_map fst].
      instantiate (1 := if exc || match e_ready e m with RExc => true | _ => false end then y1 else
        if match ts with t :: _ => nstate_eqb (nst z1 t) Executing | [] => false end then emit (set_running z1 (ts :: running z1)) (EStart ts) else y2).
      destruct (exc || _); [reflexivity|]. destruct (match ts with t :: _ => _ | [] => _ end); reflexivity.
  - destruct (take_nth i (running s)) as [[ts rest]|]; [|exists 0, s; auto].
    apply retire_total; exact We.
  - exists 0. eexists. intros fuel _. reflexivity.
Qed.

(* ---- the work lists stay inside the graph ---- *)
Record uinv (s : tm) : Prop := {
  ui_sub : sub s; ui_wp : forall k p, In (k, p) (wpE s) -> In p U; ui_wse : forall k p, In p (wse s k) -> In p U }.

Lemma post_uinv e s ts : env_wf e -> refok s -> uinv s -> uinv (postprocess c e s ts).
Proof.
  intros We R [[A B] C D]. destruct (postprocess_spec c e s ts We R) as [O1 [Q1 Q2 Q3 Q4 Q5 Q6] O3 O4 O5 O6 O7 O8 O9 O10].
  constructor.
  - split; [|rewrite Q1; exact B]. intros p Hp. destruct (O9 p Hp) as [X|[[x X]|[x X]]]; [apply A; exact X | eapply C; exact X | eapply D; exact X].
  - intros k p Hp. apply O5 in Hp. eapply C; apply Hp.
  - intros k p. rewrite O3. apply D.
Qed.
Lemma wnb_uinv e fuel sf s ts z : env_wf e -> refok s -> uinv s -> will_not_build fuel e sf s ts = Some z -> uinv z /\ refok z.
Proof.
  intros We R [[A B] C D] H. destruct (will_not_build_spec _ _ _ _ _ _ We R H) as (W1 & W2 & W3 & W4 & W5 & W6 & [Q1 Q2 Q3 Q4 Q5 Q6]).
  split; [|exact W1]. constructor.
  - split; [rewrite W6; exact A | rewrite Q1; exact B].
  - intros k p Hp. apply W3 in Hp. eapply C; apply Hp.
  - intros k p. rewrite W5. apply D.
Qed.
Lemma executed_rest s ts : let z := executed c s ts in
  refc z = refc s /\ wpE z = wpE s /\ wse z = wse s /\ cands z = cands s /\ topsleft z = topsleft s.
Proof.
  cbn zeta. unfold executed. revert s. induction ts as [|t ts IH]; intros z; cbn [fold_left]; [auto 10|].
  match goal with |- context [fold_left _ ts ?a] => specialize (IH a); set (z1 := a) in * end.
  assert (refc z1 = refc z /\ wpE z1 = wpE z /\ wse z1 = wse z /\ cands z1 = cands z /\ topsleft z1 = topsleft z) as (B1 & B2 & B3 & B4 & B5).
  { unfold z1; destruct (nst z t); auto 10.
    destruct (fold_set1 NoState (side_effects c t) z) as (_ & F2 & F3 & F4 & _ & F6 & [F7 _ _ _ _ _]). cbn. auto 10. }
  destruct IH as (A1 & A2 & A3 & A4 & A5). repeat split; congruence.
Qed.
Lemma retire_uinv e fuel o s ts z : env_wf e -> refok s -> uinv s -> retire fuel c e o s ts = Some z -> uinv z.
Proof.
  intros We R Hu H. unfold retire in H. destruct o.
  - injection H as <-. destruct (executed_rest s ts) as (E1 & E2 & E3 & E4 & E5). destruct R as [Ra Rb]. destruct Hu as [[A B] C D].
    apply post_uinv; [exact We | split; [rewrite E2; exact Ra | intros p; rewrite E1, E2; apply Rb]|].
    constructor; [split; [rewrite E4; exact A | rewrite E5; exact B] | rewrite E2; exact C | rewrite E3; exact D].
  - destruct (will_not_build fuel e true s ts) as [y|] eqn:E; [|discriminate]. injection H as <-.
    destruct (wnb_uinv _ _ _ _ _ _ We R Hu E) as [A B]. apply post_uinv; assumption.
  - destruct (will_not_build fuel e true s ts) as [y|] eqn:E; [|discriminate]. injection H as <-.
    destruct (wnb_uinv _ _ _ _ _ _ We R Hu E) as [[A B C] D]. apply post_uinv; [exact We | exact D | constructor; assumption].
Qed.

Lemma search_uinv e fuel s : env_wf e -> kids_in e -> dinv c s -> cfg_wf c -> uinv s ->
  match find_ready fuel c e s with NoFuel => True | NoneLeft z => uinv z | Ready z m exc => uinv z end.
Proof.
  intros We HK D W Hu.
  pose proof (find_ready_ind c e We (fun z => uinv z /\ refok z) (fun z m exc => uinv z)) as Ind.
  assert (I : match find_ready fuel c e s with
    | NoFuel => True | NoneLeft s' => (uinv s' /\ refok s') /\ (stopped s' = false -> cands s' = [] /\ topsleft s' = [])
    | Ready s' m exc => uinv s' /\ stopped s' = false end).
  { assert (Pop : forall z z' n, uinv z -> popped c z z' n -> uinv z' /\ In n U).
    { intros z z' n [[A B] C E] [P1 P2 P3 P4 P5 P6 P7 P8 P9 P10 P11 P12 P13 P14].
      assert (In' : forall x, x = n \/ In x (cands z') \/ In x (topsleft z') -> In x U).
      { intros x Hx. destruct (P14 x Hx) as [Q|[Q|(t & Q1 & Q2)]]; [apply A; exact Q | apply B; exact Q | apply (HA t (B t Q1)); exact Q2]. }
      split; [|apply In'; auto]. constructor; [split; intros x Hx; apply In'; auto | rewrite P3; exact C | rewrite P4; exact E]. }
    apply Ind.
    - intros z z' n z'' [Q R] Pp Cs. destruct (Pop z z' n Q Pp) as [[[A B] C E] Hn].
      assert (R' : refok z') by (destruct R as [Ra Rb]; destruct Pp as [P1 P2 P3 _ _ _ _ _ _ _ _ _ _ _]; split; [rewrite P3; exact Ra | intros p; rewrite P2, P3; apply Rb]).
      destruct (visited1_rest z' n) as (_ & _ & _ & _ & _ & V6 & _).
      remember (Continue z'') as q eqn:Eq.
      destruct Cs as [I1|I1 I2|ch y I1 I2 I3 I4 I5 I6 I7 I8 I9 [J1 J2 J3 J4 J5 J6]|ch y I1 I2 I3 I4 I5 I6 I7 I8 I9 I10 [J1 J2 J3 J4 J5 J6]
        |ch y I1 I2 I3 I4 I5 I6 I7 I8 I9 I10 [J1 J2 J3 J4 J5 J6]|ch I1 I2 I3 I4]; try discriminate; injection Eq as <-.
      + split; [constructor; [split|..]; assumption | exact R'].
      + split; [|destruct R' as [Ra Rb]; split; [rewrite I6; exact Ra | intros p; rewrite I5, I6; apply Rb]].
        constructor; [split|rewrite I6; exact C|rewrite I7; exact E]; [|rewrite J1, V6; exact B].
        intros x Hx. apply I9 in Hx. destruct Hx as [Hx|[Hx _]]; [apply A; exact Hx | eapply HK; eassumption].
      + split; [|apply I6; exact R'].
        constructor; [split| |rewrite I8; exact E]; [|rewrite J1, V6; exact B|].
        * intros x Hx. apply I10 in Hx. destruct Hx as [Hx|[Hx _]]; [apply A; exact Hx | eapply HK; eassumption].
        * intros k p Hp. apply (I7 k p R') in Hp. destruct Hp as [Hp|(-> & _)]; [eapply C; exact Hp | exact Hn].
      + split; [|destruct R' as [Ra Rb]; split; [rewrite I7; exact Ra | intros p; rewrite I6, I7; apply Rb]].
        constructor; [split; [rewrite I9; exact A | rewrite J1, V6; exact B] | rewrite I7; exact C|].
        intros k p Hp. apply I10 in Hp. destruct Hp as [Hp|(-> & _)]; [eapply E; exact Hp | exact Hn].
    - intros z fl z' [Q R] _ _ Hw. apply (wnb_uinv e fl false (set_cands z []) (cands z) z' We); [exact R | | exact Hw].
      destruct Q as [[A B] C E]. constructor; [split; [intros x [] | exact B] | exact C | exact E].
    - intros z z' n z'' m exc [Q R] Pp Cs. destruct (Pop z z' n Q Pp) as [[[A B] C E] Hn].
      destruct (visited1_rest z' n) as (V1 & V2 & V3 & _ & V5 & V6 & _).
      remember (Return z'' m exc) as q eqn:Eq.
      destruct Cs as [I1|I1 I2|ch y I1 I2 I3 I4 I5 I6 I7 I8 I9 _|ch y I1 I2 I3 I4 I5 I6 I7 I8 I9 I10 _
      |ch y I1 I2 I3 I4 I5 I6 I7 I8 I9 I10 _|ch I1 I2 I3 I4]; try discriminate; injection Eq as <- _ _;
        (constructor; [split; cbn [cands topsleft set_cands]; rewrite ?V5, ?V6; assumption | cbn [wpE set_cands]; rewrite V2; exact C | cbn [wse set_cands]; rewrite V3; exact E]).
    - split; [exact Hu | exact (di_ref _ _ D)]. }
  destruct (find_ready fuel c e s); tauto.
Qed.

Lemma step_uinv o fuel s s' : cfg_wf c -> env_ok c (op_env o) -> kids_in (op_env o) -> dinv c s -> uinv s -> step fuel c s o = Some s' -> uinv s'.
Proof.
  intros W Eo HK D Hu H. pose proof (env_ok_wf c _ Eo) as We. destruct o as [e|i out e|e]; cbn [op_env step] in *.
  - pose proof (search_uinv e fuel s We HK D W Hu) as Q. pose proof (search_dinv c e W We fuel s D) as SD.
    unfold next_task in H. destruct (find_ready fuel c e s) as [|z|z m exc]; [discriminate | injection H as <-; exact Q |].
    destruct SD as [(Dz & _) _].
    destruct (make_ready_rest c (e_ready e m) z (all_targets c m)) as (M1 & M2 & M3 & M4 & M5 & [M6 M7 M8 M9 M10 M11]).
    set (z1 := make_ready c (e_ready e m) z (all_targets c m)) in *.
    assert (R1 : refok z1) by (destruct (di_ref _ _ Dz) as [Da Db]; split; [rewrite M2; exact Da | intros p; rewrite M1, M2; apply Db]).
    assert (U1 : forall ev, uinv (emit z1 ev)).
    { intros ev. destruct Q as [[A B] C E]. constructor; [split; cbn; rewrite ?M5, ?M6; assumption | cbn; rewrite M2; exact C | cbn; rewrite M3; exact E]. }
    assert (Ret : forall ev y, retire fuel c e (e_now e) (emit z1 ev) (all_targets c m) = Some y -> uinv y).
    { intros ev y Hy. eapply retire_uinv; [exact We | | apply (U1 ev) | exact Hy]. exact R1. }
    destruct (exc || _); [destruct (retire _ _ _ _ _ _) eqn:Hy; [|discriminate]; injection H as <-; eapply Ret; exact Hy|].
    destruct (match all_targets c m with t :: _ => nstate_eqb (nst z1 t) Executing | [] => false end).
    + injection H as <-. destruct (U1 EStop) as [A B C]. constructor; assumption.
    + destruct (retire _ _ _ _ _ _) eqn:Hy; [|discriminate]; injection H as <-; eapply Ret; exact Hy.
  - destruct (take_nth i (running s)) as [[ts rest]|]; [|injection H as <-; exact Hu].
    eapply retire_uinv; [exact We | | | exact H]; [exact (di_ref _ _ D) | destruct Hu; constructor; assumption].
  - injection H as <-. destruct Hu; constructor; assumption.
Qed.

Lemma reachable_uinv ops s : cfg_wf c -> reachable c ops s -> Forall (fun o => kids_in (op_env o)) ops -> uinv s.
Proof.
  intros W [Ho [fuel H]] HK.
  apply (run_inv (fun s => dinv c s /\ uinv s) (fun o => env_ok c (op_env o) /\ kids_in (op_env o)) c) with (ops := ops) (fuel := fuel) (s := init c) (s' := s).
  - intros fl z o z' [A B] [D Hu] E. split; [eapply step_dinv; eassumption | eapply step_uinv; eassumption].
  - apply Forall_forall. intros o Hi. split; [apply (proj1 (Forall_forall _ _) Ho o Hi) | apply (proj1 (Forall_forall _ _) HK o Hi)].
  - split; [apply init_dinv|]. constructor; [split; [intros x [] | exact HT] | intros k p [] | intros k p []].
  - exact H.
Qed.

Theorem request_terminates ops s o : cfg_wf c -> reachable c ops s -> Forall (fun o => kids_in (op_env o)) ops ->
  env_ok c (op_env o) -> kids_in (op_env o) -> exists F s', forall fuel, fuel >= F -> step fuel c s o = Some s'.
Proof.
  intros W R HK Eo Ho. apply step_total; [apply (env_ok_wf c); exact Eo | exact Ho | apply ui_sub, (reachable_uinv ops); assumption].
Qed.

(* number of tasks handed out *)
Definition issueb (ev : event) : bool := match ev with EStart _ | ECurrent _ => true | _ => false end.
Definition head_of (ev : event) : list node := match ev with EStart (t :: _) | ECurrent (t :: _) => [t] | _ => [] end.
Lemma once_count tr : once c tr -> (forall n, ~ is_side_effect c n) -> (forall ts, In (EStart ts) tr \/ In (ECurrent ts) tr -> ts <> [] /\ incl ts U) ->
  length (filter issueb tr) <= length U.
Proof.
  intros O N H.
  assert (A : NoDup (flat_map head_of tr) /\ length (flat_map head_of tr) = length (filter issueb tr) /\ incl (flat_map head_of tr) U
    /\ forall n, In n (flat_map head_of tr) -> handed_out tr n).
  { induction tr as [|ev tr IH]; [split; [constructor | split; [reflexivity | split; [intros x [] | intros n []]]]|].
    assert (O' : once c tr) by (destruct ev; cbn in O; tauto).
    destruct (IH O') as (I1 & I2 & I3 & I4); [intros ts Q; apply H; simpl; tauto|].
    assert (Hc : forall n, handed_out tr n -> handed_out (ev :: tr) n) by (intros n (ts & Q1 & Q2); exists ts; simpl; tauto).
    assert (Iss : forall ts, ev = EStart ts \/ ev = ECurrent ts -> exists t r, ts = t :: r /\ ~ handed_out tr t /\ In t U /\ head_of ev = [t] /\ issueb ev = true).
    { intros ts Q. destruct (H ts) as [H1 H2]; [simpl; intuition auto|]. destruct ts as [|t r]; [congruence|].
      exists t, r. split; [reflexivity|]. split; [destruct Q as [-> | ->]; apply (proj1 O); [left; reflexivity | apply N | left; reflexivity | apply N]|].
      split; [apply H2; left; reflexivity|]. destruct Q as [-> | ->]; auto. }
    assert (Done : (exists ts, ev = EStart ts \/ ev = ECurrent ts) \/ (head_of ev = [] /\ issueb ev = false)) by (destruct ev; simpl; eauto).
    destruct Done as [(ts & Q)|[Q1 Q2]].
    - destruct (Iss ts Q) as (t & r & E & T1 & T2 & T3 & T4). cbn [flat_map filter]. rewrite T3, T4. cbn [app length].
      split; [constructor; [intros X; apply T1, I4; exact X | exact I1]|]. split; [congruence|].
      split; [intros x [<-|X]; [exact T2 | apply I3; exact X]|]. intros n [<-|X]; [|apply Hc, I4; exact X].
      exists ts. subst ts. simpl. intuition auto.
    - cbn [flat_map filter]. rewrite Q1, Q2. cbn [app]. repeat (split; [assumption|]). intros n Hn; apply Hc, I4; exact Hn. }
  destruct A as (A1 & A2 & A3 & _). rewrite <- A2. apply NoDup_incl_length; assumption.
Qed.
End Term.
