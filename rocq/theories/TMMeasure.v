(* A measure that every task handed out and every task retired decreases: the build terminates.  Proof file. *)
From Coq Require Import List Arith ZArith Bool Lia Permutation.
Import ListNotations.
From Verif Require Import TMModel TMBase TMSpec TMSafe TMSafe2 TMTerm.

(* lexicographic order on lists of the same length *)
Fixpoint lexlt (a b : list nat) : Prop := match a, b with x :: a, y :: b => x < y \/ (x = y /\ lexlt a b) | _, _ => False end.
Lemma lex_wf k : forall b, length b = k -> Acc (fun a b => length a = k /\ lexlt a b) b.
Proof.
  induction k as [|k IH]; intros b Hb.
  - constructor. intros a [Ha H]. destruct a; [elim H | discriminate].
  - destruct b as [|y b]; [discriminate|]. cbn in Hb. injection Hb as Hb. revert b Hb.
    induction y as [y IHy] using lt_wf_ind. intros b Hb.
    induction (IH b Hb) as [b _ IHb].
    constructor. intros a [Ha H]. destruct a as [|x a]; [discriminate|]. cbn in Ha, H. injection Ha as Ha. destruct H as [H|[-> H]].
    + apply IHy; assumption.
    + apply IHb; auto.
Qed.
Lemma lexlt_app a a' b b' : length a = length b -> lexlt a b -> lexlt (a ++ a') (b ++ b').
Proof. revert b. induction a as [|x a IH]; intros [|y b] L H; cbn in *; try tauto; try discriminate. destruct H as [H|[-> H]]; [auto|]. right. split; [reflexivity|]. apply IH; [lia | exact H]. Qed.
Lemma lexle_app a a' b b' : Forall2 le a b -> lexlt a' b' -> lexlt (a ++ a') (b ++ b').
Proof. intros F H. induction F as [|x y a b L _ IH]; cbn; [exact H|]. destruct (Nat.eq_dec x y) as [->|N]; [auto | left; lia]. Qed.

Section Measure.
Context (c : cfg) (U : list node) (W : cfg_wf c).
Context (HT : incl (tops c) U) (HA : forall n, In n U -> incl (alter c n) U) (HU : forall n, In n U -> incl (all_targets c n) U).

Definition seb (n : node) : bool := existsb (fun t => mem n (side_effects c t)) U.
Lemma seb_true n : seb n = true <-> exists t, In t U /\ In n (side_effects c t).
Proof. unfold seb. rewrite existsb_exists. split; intros (t & A & B); exists t; (split; [exact A|]); apply mem_In; exact B. Qed.
Lemma seb_se n : seb n = true -> is_side_effect c n.
Proof. intros H. apply seb_true in H. destruct H as (t & _ & H). exists t; exact H. Qed.
Definition val (v : nstate) : nat := match v with NoState => 2 | Pending => 1 | _ => 0 end.
Definition score (f : node -> bool) (s : tm) : nat := list_sum (map (fun n => if f n then val (nst s n) else 0) U).
Definition sebs (ts : list node) : bool := existsb seb ts.
Definition mu (s : tm) : list nat :=
  if stopped s then [0; length (running s); 0; 0; 0]
  else [1; score (fun n => negb (seb n)) s; length (filter (fun ts => negb (sebs ts)) (running s)); score seb s; length (filter sebs (running s))].
Lemma mu_length s : length (mu s) = 5. Proof. unfold mu. destruct (stopped s); reflexivity. Qed.

Lemma sum_le (g h : node -> nat) l : (forall n, In n l -> g n <= h n) -> list_sum (map g l) <= list_sum (map h l).
Proof.
  induction l as [|a l IH]; intros H; [cbn; lia|]. cbn [map]. change (list_sum (g a :: map g l)) with (g a + list_sum (map g l)). change (list_sum (h a :: map h l)) with (h a + list_sum (map h l)).
  specialize (IH (fun n Hn => H n (or_intror Hn))). specialize (H a (or_introl eq_refl)). lia.
Qed.
Lemma sum_lt (g h : node -> nat) l m : (forall n, In n l -> g n <= h n) -> In m l -> g m < h m -> list_sum (map g l) < list_sum (map h l).
Proof.
  induction l as [|a l IH]; intros H Hm L; [elim Hm|]. cbn [map]. change (list_sum (g a :: map g l)) with (g a + list_sum (map g l)). change (list_sum (h a :: map h l)) with (h a + list_sum (map h l)).
  pose proof (sum_le g h l (fun n Hn => H n (or_intror Hn))) as Q. pose proof (H a (or_introl eq_refl)) as Ha.
  destruct Hm as [->|Hm]; [lia|]. specialize (IH (fun n Hn => H n (or_intror Hn)) Hm L). lia.
Qed.
Lemma score_le f s s' : (forall n, In n U -> f n = true -> val (nst s' n) <= val (nst s n)) -> score f s' <= score f s.
Proof. intros H. apply sum_le. intros n Hn. destruct (f n) eqn:E; [apply H; assumption | lia]. Qed.
Lemma score_lt f s s' m : (forall n, In n U -> f n = true -> val (nst s' n) <= val (nst s n)) -> In m U -> f m = true -> val (nst s' m) < val (nst s m) -> score f s' < score f s.
Proof. intros H Hm Fm L. apply (sum_lt _ _ _ m); [|exact Hm | rewrite Fm; exact L]. intros n Hn. destruct (f n) eqn:E; [apply H; assumption | lia]. Qed.

(* tasks with a side-effect node among their targets have no other target and no side effects *)
Lemma task_se m : In m U -> seb m = true -> all_targets c m = [m] /\ ses_of c (all_targets c m) = [] /\ sebs (all_targets c m) = true.
Proof.
  intros Hm H. pose proof (seb_se m H) as Hs. rewrite (cw_se1 c W m Hs). split; [reflexivity|]. unfold ses_of. cbn. rewrite (cw_se2 c W m Hs), H. auto.
Qed.
Lemma task_nose m : In m U -> seb m = false -> sebs (all_targets c m) = false /\ forall n, In n (ses_of c (all_targets c m)) -> seb n = true.
Proof.
  intros Hm H. split.
  - destruct (sebs (all_targets c m)) eqn:E; [|reflexivity]. unfold sebs in E. apply existsb_exists in E. destruct E as (t & Ht & E).
    pose proof (cw_share c W m t Ht) as Q. rewrite (cw_se1 c W t (seb_se t E)) in Q. pose proof (cw_self c W m) as M. rewrite <- Q in M. destruct M as [->|[]]. congruence.
  - intros n Hn. apply in_flat_map in Hn. destruct Hn as (t & Ht & Hn). apply seb_true. exists t. split; [eapply HU; eassumption | exact Hn].
Qed.

(* ending a task *)
Lemma retire_val fuel e o s m s' : env_wf e -> refok s -> retire fuel c e o s (all_targets c m) = Some s' -> o <> OFailStop ->
  forall n, val (nst s' n) <= val (nst s n) \/ In n (ses_of c (all_targets c m)).
Proof.
  intros We Hr H Ho n. set (ts := all_targets c m) in *.
  assert (Post : forall z, refok z -> val (nst (postprocess c e z ts) n) <= val (nst z n) \/ In n (ses_of c ts)).
  { intros z Rz. destruct (po_nst _ _ _ _ (postprocess_spec c e z ts We Rz) n) as [(A & _)|[A _]]; [auto | rewrite A; auto]. }
  unfold retire in H. destruct o; [| |congruence].
  - injection H as <-.
    assert (Ex : forall l z, val (nst (executed c z l) n) <= val (nst z n) \/ In n (ses_of c l)).
    { induction l as [|t l IH]; intros z; [left; cbn; lia|]. unfold executed in *. cbn [fold_left]. unfold ses_of in *. cbn [flat_map].
      match goal with |- context [fold_left _ l ?a] => set (z1 := a) end.
      assert (Z : val (nst z1 n) <= val (nst z n) \/ In n (side_effects c t)).
      { unfold z1. destruct (nst z t) eqn:Et; auto. destruct (fold_set1 NoState (side_effects c t) z) as (F & _). cbn [nst set1 set_nst]. unfold upd. destruct (n =? t) eqn:E; [left; cbn; lia|].
        rewrite F. destruct (mem n (side_effects c t)) eqn:Em; [right; apply mem_In; exact Em | auto]. }
      destruct Z as [Z|Z]; [|right; apply in_or_app; auto]. destruct (IH z1) as [Q|Q]; [left; lia | right; apply in_or_app; auto]. }
    destruct (executed_rest c s ts) as (E1 & E2 & _). assert (Re : refok (executed c s ts)) by (destruct Hr as [Ra Rb]; split; [rewrite E2; exact Ra | intros p; rewrite E1, E2; apply Rb]).
    destruct (Post _ Re) as [A|A]; [|auto]. destruct (Ex ts s) as [B|B]; [left; lia | auto].
  - destruct (will_not_build fuel e true s ts) as [z|] eqn:Ew; [|discriminate]. injection H as <-.
    destruct (will_not_build_spec _ _ _ _ _ _ We Hr Ew) as (W1 & W2 & _). destruct (Post z W1) as [A|A]; [|auto]. left.
    destruct (W2 n) as [(_ & _ & B)|[B _]]; rewrite B in A; [cbn in A|]; lia.
Qed.

(* the search *)
Lemma search_val e fuel s : env_wf e -> kids_in U e -> dinv c s -> uinv U s ->
  match find_ready fuel c e s with
  | NoFuel => True
  | NoneLeft z => forall n, val (nst z n) <= val (nst s n)
  | Ready z m _ => (forall n, val (nst z n) <= val (nst s n)) /\ In m U
  end.
Proof.
  intros We HK D Hu.
  pose proof (find_ready_ind c e We (fun z => sub U z /\ refok z /\ forall n, val (nst z n) <= val (nst s n)) (fun z m exc => (forall n, val (nst z n) <= val (nst s n)) /\ In m U)) as Ind.
  assert (Pop : forall z z' n, sub U z -> popped c z z' n -> sub U z' /\ In n U).
  { intros z z' n [A B] [P1 P2 P3 P4 P5 P6 P7 P8 P9 P10 P11 P12 P13 P14].
    assert (In' : forall x, x = n \/ In x (cands z') \/ In x (topsleft z') -> In x U).
    { intros x Hx. destruct (P14 x Hx) as [Q|[Q|(t & Q1 & Q2)]]; [apply A; exact Q | apply B; exact Q | apply (HA t (B t Q1)); exact Q2]. }
    split; [split; intros x Hx; apply In'; auto | apply In'; auto]. }
  assert (V : forall z n m, rank (nst z n) <= 1 -> val (nst (visited1 z n) m) <= val (nst z m)).
  { intros z n m R. rewrite visited1_nst by exact R. destruct (m =? n) eqn:E; [|lia]. apply Nat.eqb_eq in E. subst. destruct (nst z n); cbn in *; lia. }
  assert (X : match find_ready fuel c e s with
    | NoFuel => True | NoneLeft s' => (sub U s' /\ refok s' /\ forall n, val (nst s' n) <= val (nst s n)) /\ (stopped s' = false -> cands s' = [] /\ topsleft s' = [])
    | Ready s' m exc => ((forall n, val (nst s' n) <= val (nst s n)) /\ In m U) /\ stopped s' = false end).
  { apply Ind.
    - intros z z' n z'' (Q & R & L) Pp Cs. destruct (Pop z z' n Q Pp) as [[A B] Hn]. pose proof Pp as [P1 P2 P3 _ _ _ _ _ _ _ _ _ _ _].
      assert (R' : refok z') by (destruct R as [Ra Rb]; split; [rewrite P3; exact Ra | intros p; rewrite P2, P3; apply Rb]).
      destruct (visited1_rest z' n) as (_ & _ & _ & _ & _ & V6 & _).
      assert (L' : forall m, val (nst z' m) <= val (nst s m)) by (intros m; rewrite P1; apply L).
      remember (Continue z'') as q eqn:Eq.
      destruct Cs as [I1|I1 I2|ch y I1 I2 I3 I4 I5 I6 I7 I8 I9 [J1 J2 J3 J4 J5 J6]|ch y I1 I2 I3 I4 I5 I6 I7 I8 I9 I10 [J1 J2 J3 J4 J5 J6]
        |ch y I1 I2 I3 I4 I5 I6 I7 I8 I9 I10 [J1 J2 J3 J4 J5 J6]|ch I1 I2 I3 I4]; try discriminate; injection Eq as <-.
      + split; [split; assumption | auto].
      + split; [split; [|rewrite J1, V6; exact B]|].
        * intros x Hx. apply I9 in Hx. destruct Hx as [Hx|[Hx _]]; [apply A; exact Hx | eapply HK; eassumption].
        * split; [destruct R' as [Ra Rb]; split; [rewrite I6; exact Ra | intros p; rewrite I5, I6; apply Rb]|].
          intros m. rewrite I4. destruct (mem m _); [cbn; lia | eapply Nat.le_trans; [apply V; exact I1 | apply L']].
      + split; [split; [|rewrite J1, V6; exact B]|].
        * intros x Hx. apply I10 in Hx. destruct Hx as [Hx|[Hx _]]; [apply A; exact Hx | eapply HK; eassumption].
        * split; [apply I6; exact R'|]. intros m. rewrite I5. eapply Nat.le_trans; [apply V; exact I1 | apply L'].
      + split; [split; [rewrite I9; exact A | rewrite J1, V6; exact B]|].
        split; [destruct R' as [Ra Rb]; split; [rewrite I7; exact Ra | intros p; rewrite I6, I7; apply Rb]|]. intros m. rewrite I5. eapply Nat.le_trans; [apply V; exact I1 | apply L'].
    - intros z fl z' (Q & R & L) _ _ Hw. destruct (will_not_build_spec _ _ _ _ _ _ We (R : refok (set_cands z [])) Hw) as (W1 & W2 & _ & _ & _ & W6 & [Q1 _ _ _ _ _]).
      split; [split; [rewrite W6; intros x [] | rewrite Q1; apply Q]|]. split; [exact W1|]. intros m. destruct (W2 m) as [(_ & F & _)|[F _]]; [discriminate|]. rewrite F. apply L.
    - intros z z' n z'' m exc (Q & R & L) Pp Cs. destruct (Pop z z' n Q Pp) as [_ Hn]. pose proof Pp as [P1 _ _ _ _ _ _ _ _ _ _ _ _ _].
      assert (L' : forall m, val (nst z' m) <= val (nst s m)) by (intros k; rewrite P1; apply L).
      remember (Return z'' m exc) as q eqn:Eq.
      destruct Cs as [I1|I1 I2|ch y I1 I2 I3 I4 I5 I6 I7 I8 I9 _|ch y I1 I2 I3 I4 I5 I6 I7 I8 I9 I10 _
      |ch y I1 I2 I3 I4 I5 I6 I7 I8 I9 I10 _|ch I1 I2 I3 I4]; try discriminate; injection Eq as <- <- _; (split; [|exact Hn]); intros k; cbn [nst set_cands]; (eapply Nat.le_trans; [apply V; exact I1 | apply L']).
    - split; [apply ui_sub; exact Hu|]. split; [exact (di_ref _ _ D) | intros n; lia]. }
  destruct (find_ready fuel c e s); tauto.
Qed.

(* outstanding tasks belong to the graph *)
Definition runin (s : tm) : Prop := forall ts, In ts (running s) -> exists m, In m U /\ ts = all_targets c m.

Lemma mu_le s s' : stopped s' = stopped s -> running s' = running s -> (forall n, val (nst s' n) <= val (nst s n)) -> Forall2 le (mu s') (mu s).
Proof.
  intros E1 E2 L. unfold mu. rewrite E1, E2. destruct (stopped s).
  - repeat constructor.
  - repeat constructor; apply score_le; auto.
Qed.

Lemma next_mu fuel e s s' b : env_ok c e -> kids_in U e -> dinv c s -> uinv U s -> runin s -> (forall ts, ~ In (EIgnored ts) (trace s')) ->
  next_task fuel c e s = Some (s', b) -> runin s' /\ if b then lexlt (mu s') (mu s) else Forall2 le (mu s') (mu s).
Proof.
  intros Eo HK D Hu Hr Ni H. pose proof (env_ok_wf c e Eo) as We. pose proof (search_val e fuel s We HK D Hu) as Sv. pose proof (search_dinv c e W We fuel s D) as Sd.
  unfold next_task in H. destruct (find_ready fuel c e s) as [|z|z m exc] eqn:Ef; [discriminate| |].
  - injection H as <- <-. destruct Sd as [(Dz & T & R) _]. split; [unfold runin; rewrite R; exact Hr|].
    apply mu_le; [|exact R | exact Sv]. destruct (stopped z) eqn:E1.
    + apply (di_stop _ _ Dz) in E1. rewrite T in E1. symmetry. apply (di_stop _ _ D). exact E1.
    + destruct (stopped s) eqn:E2; [|reflexivity]. apply (di_stop _ _ D) in E2. rewrite <- T in E2. apply (di_stop _ _ Dz) in E2. congruence.
  - destruct Sd as [(Dz & Pm & T & R & _) St]. destruct Sv as [Sv Hm].
    assert (Ss : stopped s = false) by (destruct (stopped s) eqn:E2; [|reflexivity]; apply (di_stop _ _ D) in E2; rewrite <- T in E2; apply (di_stop _ _ Dz) in E2; congruence).
    destruct (make_ready_rest c (e_ready e m) z (all_targets c m)) as (M1 & M2 & _ & _ & _ & [_ _ M8 M9 _ M11]).
    pose proof (make_ready_nst c (e_ready e m) z (all_targets c m)) as Mn.
    set (z1 := make_ready c (e_ready e m) z (all_targets c m)) in *.
    assert (R1 : refok z1) by (destruct (di_ref _ _ Dz) as [Da Db]; split; [rewrite M2; exact Da | intros p; rewrite M1, M2; apply Db]).
    assert (V1 : forall n, val (nst z1 n) <= val (nst s n)).
    { intros n. destruct (Mn n) as [[B _]|[(_ & B & _)|(_ & B & _)]]; rewrite B; [apply Sv | cbn; lia | cbn; lia]. }
    assert (Vm : val (nst s m) >= 1) by (specialize (Sv m); rewrite Pm in Sv; exact Sv).
    (* the final comparison, once m has left the states NoState and Pending *)
    assert (Fin : forall y, stopped y = true \/ (stopped y = false /\ running y = running s \/ stopped y = false /\ running y = all_targets c m :: running s) ->
       (stopped y = true \/ val (nst y m) = 0) -> (stopped y = false -> forall n, val (nst y n) <= val (nst s n) \/ In n (ses_of c (all_targets c m))) -> lexlt (mu y) (mu s)).
    { intros y Hy Hv Hn. unfold mu at 2. rewrite Ss. destruct (stopped y) eqn:Ey; [unfold mu; rewrite Ey; cbn; left; lia|].
      destruct Hv as [Hv|Hv]; [discriminate|]. specialize (Hn eq_refl). unfold mu. rewrite Ey.
      destruct (seb m) eqn:Sm.
      - destruct (task_se m Hm Sm) as (E1 & E2 & E3). rewrite E2 in Hn.
        assert (L : forall n, val (nst y n) <= val (nst s n)) by (intros n; destruct (Hn n) as [Q|[]]; exact Q).
        assert (Ef' : filter (fun ts => negb (sebs ts)) (running y) = filter (fun ts => negb (sebs ts)) (running s)).
        { destruct Hy as [Hy|[[_ Hy]|[_ Hy]]]; [discriminate | rewrite Hy; reflexivity|]. rewrite Hy. cbn [filter]. rewrite E3. reflexivity. }
        cbn. rewrite Ef'. right. split; [reflexivity|].
        pose proof (score_le (fun n => negb (seb n)) s y (fun n _ _ => L n)) as L1.
        destruct (Nat.eq_dec (score (fun n => negb (seb n)) y) (score (fun n => negb (seb n)) s)) as [->|Ne]; [|left; lia].
        right. split; [reflexivity|]. right. split; [reflexivity|]. left. apply (score_lt _ _ _ m); auto. lia.
      - destruct (task_nose m Hm Sm) as (E1 & E2). cbn. right. split; [reflexivity|]. left. apply (score_lt _ _ _ m); [|exact Hm | rewrite Sm; reflexivity | lia].
        intros n _ Fn. destruct (Hn n) as [Q|Q]; [exact Q|]. rewrite (E2 n Q) in Fn. discriminate. }
    assert (Ret : forall ev y, (e_now e = OOk -> e_ready e m = RUpToDate) -> retire fuel c e (e_now e) (emit z1 ev) (all_targets c m) = Some y -> runin y /\ lexlt (mu y) (mu s)).
    { intros ev y Hok Hy. destruct (retire_trace _ _ _ _ (emit z1 ev) _ _ We R1 Hy) as (_ & Y2 & _ & _ & _ & _ & Y7 & _). cbn [running emit stopped] in Y2, Y7.
      split; [unfold runin; rewrite Y2, M9, R; exact Hr|].
      apply Fin.
      - destruct (stopped y) eqn:Ey; [auto|]. right; left. split; [reflexivity|]. rewrite Y2, M9, R. reflexivity.
      - destruct (e_now e) eqn:En.
        + right. specialize (Hok eq_refl). pose proof (retire_val _ _ _ (emit z1 ev) m y We R1 Hy ltac:(discriminate) m) as Q.
          assert (Zm : nst z1 m = UpToDate).
          { destruct (Mn m) as [[_ B]|[(B & _)|(_ & B & _)]]; [elim B; [rewrite Hok; discriminate | apply (cw_self c W)] | congruence | exact B]. }
          cbn [nst emit] in Q. rewrite Zm in Q. destruct Q as [Q|Q]; [cbn in Q; lia|].
          destruct (retire_states _ _ _ _ (emit z1 ev) m y W We R1 Hy m) as [A|[A|[[A B]|[A _]]]]; try (rewrite A; try (cbn [nst emit]; rewrite Zm); reflexivity).
          exfalso. assert (Sm : seb m = true) by (apply in_flat_map in Q; destruct Q as (t & Q1 & Q2); apply seb_true; exists t; split; [eapply HU; eassumption | exact Q2]).
          destruct (task_se m Hm Sm) as (_ & E2 & _). rewrite E2 in Q. exact Q.
        + right. rewrite (retire_fails _ _ _ _ (emit z1 ev) m y W We R1 Hy ltac:(discriminate) m (cw_self c W m)). reflexivity.
        + left. exact Y7.
      - intros Ey n. assert (No : e_now e <> OFailStop) by (intros Q; rewrite Q in Y7; congruence).
        destruct (retire_val _ _ _ (emit z1 ev) m y We R1 Hy No n) as [Q|Q]; [left; cbn [nst emit] in Q; specialize (V1 n); lia | auto]. }
    destruct (exc || match e_ready e m with RExc => true | _ => false end) eqn:Ex.
    + destruct (retire _ _ _ _ _ _) as [y|] eqn:Hy; [|discriminate]. injection H as <- <-. eapply Ret; [|exact Hy].
      intros Q. exfalso. destruct (retire_trace _ _ _ _ (emit z1 (match e_now e with OOk => EIgnored (all_targets c m) | _ => EFail (all_targets c m) end)) _ _ We R1 Hy) as (Y1 & _).
      apply (Ni (all_targets c m)). rewrite Y1. apply in_or_app. right. left. rewrite Q. reflexivity.
    + apply orb_false_iff in Ex. destruct Ex as [-> Ex].
      destruct (match all_targets c m with t :: _ => nstate_eqb (nst z1 t) Executing | [] => false end) eqn:Hd.
      * injection H as <- <-. split.
        -- intros ts [<-|Q]; [exists m; auto|]. apply Hr. rewrite <- R, <- M9. exact Q.
        -- apply Fin.
           ++ right; right. cbn. rewrite M8, St, M9, R. auto.
           ++ right. cbn [nst emit set_running]. destruct (Mn m) as [[_ B]|[(_ & B & _)|(_ & B & _)]]; [|rewrite B; reflexivity..].
              elim B; [intros Q; rewrite Q in Ex; discriminate | apply (cw_self c W)].
           ++ intros _ n. left. apply V1.
      * destruct (retire _ _ _ _ _ _) as [y|] eqn:Hy; [|discriminate]. injection H as <- <-. eapply Ret; [|exact Hy]. intros _.
        destruct (e_ready e m) eqn:Er; [|reflexivity | discriminate]. exfalso.
        pose proof (cw_self c W m) as Hs. destruct (all_targets c m) as [|t r] eqn:Et; [exact Hs|].
        destruct (Mn t) as [[_ B]|[(_ & B & _)|(B & _)]]; [elim B; [discriminate | left; reflexivity] | rewrite B in Hd; discriminate | discriminate].
Qed.

Lemma filter_perm_len (f : list node -> bool) a b : Permutation a b -> length (filter f a) = length (filter f b).
Proof. intros P. induction P; cbn; repeat (match goal with |- context [if ?x then _ else _] => destruct x end); cbn; lia. Qed.

Lemma done_mu fuel e s i out s' ts rest : env_ok c e -> dinv c s -> runin s -> take_nth i (running s) = Some (ts, rest) -> Permutation (running s) (ts :: rest) ->
  step fuel c s (Done i out e) = Some s' -> runin s' /\ lexlt (mu s') (mu s).
Proof.
  intros Eo D Hr Ht P H. pose proof (env_ok_wf c e Eo) as We. cbn [step] in H. rewrite Ht in H.
  destruct (Hr ts) as (m & Hm & ->); [eapply Permutation_in; [apply Permutation_sym; exact P | left; reflexivity]|].
  set (ev := match out with OOk => EFinish (all_targets c m) | _ => EFail (all_targets c m) end) in *.
  pose proof (di_ref _ _ D : refok (emit (set_running s rest) ev)) as Rf.
  destruct (retire_trace _ _ _ _ (emit (set_running s rest) ev) _ _ We Rf H) as (_ & Y2 & _ & _ & _ & _ & Y7 & _). cbn [running emit stopped set_running] in Y2, Y7.
  split. { intros u Q. rewrite Y2 in Q. apply Hr. eapply Permutation_in; [apply Permutation_sym; exact P | right; exact Q]. }
  unfold mu at 2. destruct (stopped s) eqn:Ss.
  - assert (Ey : stopped s' = true) by (rewrite Y7; destruct out; reflexivity). unfold mu. rewrite Ey, Y2. cbn. rewrite P. cbn. lia.
  - unfold mu. destruct (stopped s') eqn:Ey; [cbn; lia|].
    assert (No : out <> OFailStop) by (intros ->; congruence).
    pose proof (retire_val _ _ _ _ m s' We Rf H No) as V. cbn [nst emit set_running] in V. rewrite Y2.
    rewrite (filter_perm_len _ _ _ P), (filter_perm_len sebs _ _ P). cbn [filter].
    destruct (seb m) eqn:Sm.
    + destruct (task_se m Hm Sm) as (E1 & E2 & E3). rewrite E3. cbn [negb length]. rewrite E2 in V.
      assert (L : forall n, val (nst s' n) <= val (nst s n)) by (intros n; destruct (V n) as [Q|[]]; exact Q).
      pose proof (score_le (fun n => negb (seb n)) s s' (fun n _ _ => L n)) as L1. pose proof (score_le seb s s' (fun n _ _ => L n)) as L2. cbn. lia.
    + destruct (task_nose m Hm Sm) as (E1 & E2). rewrite E1. cbn [negb length].
      assert (L1 : score (fun n => negb (seb n)) s' <= score (fun n => negb (seb n)) s).
      { apply score_le. intros n _ Fn. destruct (V n) as [Q|Q]; [exact Q|]. rewrite (E2 n Q) in Fn. discriminate. }
      cbn. lia.
Qed.

Lemma stop_mu s : Forall2 le (mu (emit (set_stopped s true) EStop)) (mu s) \/ lexlt (mu (emit (set_stopped s true) EStop)) (mu s).
Proof.
  unfold mu. cbn [stopped emit set_stopped running]. destruct (stopped s); [left; repeat constructor | right; cbn; lia].
Qed.
End Measure.
