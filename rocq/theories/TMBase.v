(* Characterisation of the primitive operations of TMModel (sets, waiting edges, will_not_build,
   postprocess).  Proof file. *)
From Coq Require Import List Arith ZArith Bool Lia Permutation.
Import ListNotations.
From Verif Require Import TMModel.

(* Oracles answer with reorderings. *)
Definition env_wf (e : env) : Prop :=
  (forall l, Permutation l (e_iter e l)) /\ (forall l, Permutation l (e_order e l)).

Lemma mem_In n l : mem n l = true <-> In n l.
Proof.
  unfold mem; rewrite existsb_exists; split.
  - intros (x & Hx & E); apply Nat.eqb_eq in E; subst; exact Hx.
  - intros H; exists n; split; [exact H | apply Nat.eqb_refl].
Qed.
Lemma mem_nIn n l : mem n l = false <-> ~ In n l.
Proof. rewrite <- mem_In; destruct (mem n l); split; congruence. Qed.

Lemma in_set_add x n l : In x (set_add n l) <-> x = n \/ In x l.
Proof.
  unfold set_add; destruct (mem n l) eqn:E; simpl.
  - apply mem_In in E; split; [tauto | intros [->|H]; auto].
  - split; intros [->|H]; auto.
Qed.
Lemma in_fold_set_add x ps l : In x (fold_right set_add l ps) <-> In x ps \/ In x l.
Proof.
  induction ps as [|p ps IH]; simpl; [tauto|].
  rewrite in_set_add, IH; split; intros [H|H]; try tauto; try (subst; auto; fail).
  destruct H as [->|H]; auto.
Qed.
Lemma len_set_add n l : length (set_add n l) <= S (length l).
Proof. unfold set_add; destruct (mem n l); simpl; lia. Qed.
Lemma len_fold_set_add ps l : length (fold_right set_add l ps) <= length ps + length l.
Proof.
  induction ps as [|p ps IH]; simpl; [lia|].
  pose proof (len_set_add p (fold_right set_add l ps)); lia.
Qed.
Lemma in_remove x n l : In x (remove n l) <-> In x l /\ x <> n.
Proof.
  unfold remove; rewrite filter_In; split; intros [H E]; split; auto.
  - apply negb_true_iff, Nat.eqb_neq in E; exact E.
  - apply negb_true_iff, Nat.eqb_neq; exact E.
Qed.
Lemma in_dedup x l : In x (dedup l) <-> In x l.
Proof.
  induction l as [|y l IH]; simpl; [tauto|].
  rewrite in_remove, IH.
  destruct (Nat.eq_dec x y) as [->|N]; split; intros H; auto.
  - destruct H as [->|[H _]]; auto.
  - right; split; [destruct H; [congruence|auto] | auto].
Qed.
Lemma nodup_filter {A} (f : A -> bool) l : NoDup l -> NoDup (filter f l).
Proof.
  induction 1 as [|x l Hx Hl IH]; simpl; [constructor|].
  destruct (f x); [constructor; auto; rewrite filter_In; tauto | exact IH].
Qed.
Lemma nodup_dedup l : NoDup (dedup l).
Proof.
  induction l as [|y l IH]; simpl; constructor.
  - rewrite in_remove; tauto.
  - apply nodup_filter; exact IH.
Qed.
Lemma len_filter {A} (f : A -> bool) l : length (filter f l) <= length l.
Proof. induction l as [|x l IH]; simpl; [lia|]; destruct (f x); simpl; lia. Qed.
Lemma len_filter2 {A} (f : A -> bool) l :
  length (filter f l) + length (filter (fun x => negb (f x)) l) = length l.
Proof. induction l as [|x l IH]; simpl; [lia|]; destruct (f x); simpl; lia. Qed.
Lemma len_dedup l : length (dedup l) <= length l.
Proof.
  induction l as [|y l IH]; simpl; [lia|].
  apply le_n_S, (Nat.le_trans _ _ _ (len_filter _ _) IH).
Qed.

Lemma upd_same {A} (f : node -> A) n v : upd f n v n = v.
Proof. unfold upd; rewrite Nat.eqb_refl; reflexivity. Qed.
Lemma upd_other {A} (f : node -> A) n v m : m <> n -> upd f n v m = f m.
Proof. intros H; unfold upd; apply Nat.eqb_neq in H; rewrite H; reflexivity. Qed.

Lemma nstate_eqb_eq a b : nstate_eqb a b = true <-> a = b.
Proof. split; [destruct a, b; simpl; (reflexivity || discriminate) | intros ->; unfold nstate_eqb; apply Nat.eqb_refl]. Qed.
Lemma nstate_eq_dec (a b : nstate) : {a = b} + {a <> b}.
Proof. decide equality. Qed.

Lemma iter_in e l x : env_wf e -> (In x (e_iter e l) <-> In x l).
Proof. intros [H _]; split; apply Permutation_in; [symmetry|]; apply H. Qed.
Lemma order_in e l x : env_wf e -> (In x (e_order e l) <-> In x l).
Proof. intros [_ H]; split; apply Permutation_in; [symmetry|]; apply H. Qed.
Lemma iter_count e l x : env_wf e -> count_occ Nat.eq_dec (e_iter e l) x = count_occ Nat.eq_dec l x.
Proof. intros [H _]; symmetry; apply Permutation_count_occ, H. Qed.
Lemma iter_nil e l : env_wf e -> e_iter e l = [] -> l = [].
Proof. intros [H _] E; specialize (H l); rewrite E in H; symmetry in H; apply Permutation_nil in H; exact H. Qed.

(* Waiting edges *)
Definition cnt (p : node) (E : list (node * node)) : nat := length (filter (fun e => snd e =? p) E).
Definition refok (s : tm) : Prop :=
  NoDup (wpE s) /\ forall p, refc s p = Z.of_nat (cnt p (wpE s)).

Lemma wp_in s c p : In p (wp s c) <-> In (c, p) (wpE s).
Proof.
  unfold wp; rewrite in_map_iff; split.
  - intros ([x y] & <- & H); apply filter_In in H; destruct H as [H E]; apply Nat.eqb_eq in E; simpl in *; subst; exact H.
  - intros H; exists (c, p); split; [reflexivity|]; apply filter_In; split; [exact H | apply Nat.eqb_refl].
Qed.
Lemma cnt_pos p E : cnt p E > 0 <-> exists c, In (c, p) E.
Proof.
  unfold cnt; split.
  - destruct (filter (fun e => snd e =? p) E) as [|[x y] l] eqn:F; simpl; [lia|]; intros _.
    assert (H : In (x, y) (filter (fun e => snd e =? p) E)) by (rewrite F; left; reflexivity).
    apply filter_In in H; destruct H as [H E1]; apply Nat.eqb_eq in E1; simpl in *; subst; exists x; exact H.
  - intros [c H]; destruct (filter (fun e => snd e =? p) E) as [|y l] eqn:F; simpl; [|lia].
    exfalso; assert (H1 : In (c, p) (filter (fun e => snd e =? p) E)) by (apply filter_In; split; [exact H | apply Nat.eqb_refl]).
    rewrite F in H1; exact H1.
Qed.
Lemma cnt_zero p E : cnt p E = 0 <-> forall c, ~ In (c, p) E.
Proof.
  split.
  - intros H c Hc; assert (cnt p E > 0) by (apply cnt_pos; exists c; exact Hc); lia.
  - intros H; destruct (cnt p E) eqn:E1; [reflexivity|].
    assert (cnt p E > 0) as G by lia; apply cnt_pos in G; destruct G as [c G]; elim (H c G).
Qed.
Definition srcless (c : node) (E : list (node * node)) := filter (fun e => negb (fst e =? c)) E.
Lemma in_srcless c x p E : In (x, p) (srcless c E) <-> In (x, p) E /\ x <> c.
Proof.
  unfold srcless; rewrite filter_In; simpl; rewrite negb_true_iff, Nat.eqb_neq; tauto.
Qed.
Lemma cnt_split p c E :
  cnt p E = cnt p (srcless c E) + count_occ Nat.eq_dec (map snd (filter (fun e => fst e =? c) E)) p.
Proof.
  unfold cnt, srcless; induction E as [|[x y] E IH]; simpl; [reflexivity|].
  destruct (x =? c) eqn:E1; simpl; destruct (Nat.eq_dec y p) as [->|N]; simpl;
    rewrite ?Nat.eqb_refl; simpl.
  - rewrite IH; lia.
  - apply Nat.eqb_neq in N; rewrite N; exact IH.
  - rewrite IH; lia.
  - apply Nat.eqb_neq in N; rewrite N; exact IH.
Qed.
Lemma len_split c E : length E = length (srcless c E) + length (map snd (filter (fun e : node * node => fst e =? c) E)).
Proof. unfold srcless; rewrite map_length; pose proof (len_filter2 (fun e : node*node => fst e =? c) E); lia. Qed.

(* the frame: everything except the listed fields *)
Record same_rest (s s' : tm) : Prop := {
  sr_tops : topsleft s' = topsleft s; sr_cur : curtop s' = curtop s; sr_stop : stopped s' = stopped s;
  sr_run : running s' = running s; sr_seen : seen s' = seen s; sr_trace : trace s' = trace s }.
Lemma same_rest_refl s : same_rest s s. Proof. constructor; reflexivity. Qed.
Lemma same_rest_trans a b c : same_rest a b -> same_rest b c -> same_rest a c.
Proof. intros [] []; constructor; congruence. Qed.

(* wait_for *)
Lemma edge_mem c p E : existsb (edge_eqb (c, p)) E = true <-> In (c, p) E.
Proof.
  rewrite existsb_exists; split.
  - intros ([x y] & H & E1); unfold edge_eqb in E1; simpl in E1; apply andb_true_iff in E1; destruct E1 as [A B].
    apply Nat.eqb_eq in A, B; subst; exact H.
  - intros H; exists (c, p); split; [exact H|]; unfold edge_eqb; simpl; rewrite !Nat.eqb_refl; reflexivity.
Qed.
Lemma wait_for_spec s p c : refok s ->
  refok (wait_for s p c)
  /\ (forall x y, In (x, y) (wpE (wait_for s p c)) <-> In (x, y) (wpE s) \/ (x = c /\ y = p))
  /\ nst (wait_for s p c) = nst s /\ wse (wait_for s p c) = wse s /\ pend (wait_for s p c) = pend s
  /\ cands (wait_for s p c) = cands s /\ same_rest s (wait_for s p c).
Proof.
  intros [Hn Hr]; unfold wait_for.
  destruct (existsb (edge_eqb (c, p)) (wpE s)) eqn:E.
  - apply edge_mem in E. split; [split; assumption|].
    split; [intros x y; split; [tauto | intros [H|[-> ->]]; assumption] |].
    repeat (split; [reflexivity|]); apply same_rest_refl.
  - assert (E' : ~ In (c, p) (wpE s)) by (rewrite <- edge_mem, E; discriminate).
    cbn. split; [split|].
    + cbn; constructor; assumption.
    + intros q; cbn. unfold cnt; cbn.
      destruct (Nat.eq_dec q p) as [->|N].
      * rewrite upd_same, Nat.eqb_refl; cbn [length]; rewrite Hr; unfold cnt; lia.
      * rewrite upd_other by exact N. assert (p <> q) as N2 by auto. apply Nat.eqb_neq in N2; rewrite N2; apply Hr.
    + split.
      * intros x y; cbn; split; [intros [H|H]; [inversion H; auto | auto] | intros [H|[-> ->]]; auto].
      * repeat (split; [reflexivity|]); constructor; reflexivity.
Qed.
Lemma wait_all_spec p ks : forall s, refok s ->
  let s' := fold_left (fun s k => wait_for s p k) ks s in
  refok s'
  /\ (forall x y, In (x, y) (wpE s') <-> In (x, y) (wpE s) \/ (In x ks /\ y = p))
  /\ nst s' = nst s /\ wse s' = wse s /\ pend s' = pend s /\ cands s' = cands s /\ same_rest s s'.
Proof.
  induction ks as [|k ks IH]; cbn; intros s H.
  - split; [exact H|]. split; [intros; tauto|]. repeat (split; [reflexivity|]). apply same_rest_refl.
  - destruct (wait_for_spec s p k H) as (A & B & C1 & C2 & C3 & C4 & C5).
    destruct (IH _ A) as (A' & B' & D1 & D2 & D3 & D4 & D5).
    split; [exact A'|]. split.
    + intros x y; rewrite B', B; split.
      * intros [[H1|[-> ->]]|[H1 ->]]; auto.
      * intros [H1|[[->|H1] ->]]; auto.
    + repeat (split; [congruence|]). eapply same_rest_trans; eassumption.
Qed.

(* set1 folds *)
Lemma fold_set1 v ts : forall s,
  let s' := fold_left (fun s t => set1 s t v) ts s in
  (forall n, nst s' n = if mem n ts then v else nst s n)
  /\ refc s' = refc s /\ wpE s' = wpE s /\ wse s' = wse s /\ pend s' = pend s /\ cands s' = cands s /\ same_rest s s'.
Proof.
  induction ts as [|t ts IH]; cbn; intros s.
  - repeat (split; [reflexivity|]); apply same_rest_refl.
  - destruct (IH (set1 s t v)) as (A & B1 & B2 & B3 & B4 & B5 & B6). cbn in *.
    split; [|repeat (split; [assumption|]); destruct B6; constructor; assumption].
    intros n; rewrite A. unfold upd, mem. cbn [existsb]. destruct (n =? t); cbn [orb]; destruct (existsb (Nat.eqb n) ts); reflexivity.
Qed.

(* will_not_build *)
Inductive wreach (E : list (node * node)) (N : list node) : node -> Prop :=
  | wr0 n : In n N -> wreach E N n
  | wr1 c p : wreach E N c -> In (c, p) E -> wreach E N p.

Lemma wreach_step E N N1 n x :
  In n N -> (forall y, In y N1 <-> (In y N /\ y <> n) \/ In (n, y) E \/ (In y N1 /\ y = n)) ->
  (wreach E N x <-> x = n \/ wreach (srcless n E) N1 x).
Proof.
  intros Hn H1; split.
  - induction 1 as [y Hy|c p Hc IH Hcp].
    + destruct (Nat.eq_dec y n) as [->|Ny]; [left; reflexivity|].
      right; apply wr0; apply H1; auto.
    + destruct (Nat.eq_dec c n) as [->|Nc].
      * right; apply wr0, H1; auto.
      * destruct IH as [->|IH]; [contradiction|]. right; eapply wr1; [exact IH|].
        apply in_srcless; auto.
  - intros [->|H]; [apply wr0; exact Hn|].
    induction H as [y Hy|c p Hc IH Hcp].
    + apply H1 in Hy; destruct Hy as [[Hy _]|[Hy|[_ ->]]].
      * apply wr0; exact Hy.
      * eapply wr1; [apply wr0; exact Hn | exact Hy].
      * apply wr0; exact Hn.
    + apply in_srcless in Hcp; destruct Hcp as [Hcp _]; eapply wr1; eassumption.
Qed.

Lemma fold_dec ps : forall s,
  let s' := fold_left (fun s p => set_refc s (upd (refc s) p (refc s p - 1)%Z)) ps s in
  (forall p, refc s' p = (refc s p - Z.of_nat (count_occ Nat.eq_dec ps p))%Z)
  /\ nst s' = nst s /\ wpE s' = wpE s /\ wse s' = wse s /\ pend s' = pend s /\ cands s' = cands s /\ same_rest s s'.
Proof.
  induction ps as [|q ps IH]; intros s; cbn [fold_left].
  - cbn. split; [intros; lia|]. repeat (split; [reflexivity|]); apply same_rest_refl.
  - destruct (IH (set_refc s (upd (refc s) q (refc s q - 1)%Z))) as (A & B1 & B2 & B3 & B4 & B5 & B6).
    cbn zeta in *. split.
    + intros p; rewrite A. cbn [count_occ]. cbn [refc set_refc]. destruct (Nat.eq_dec q p) as [->|N].
      * rewrite upd_same; lia.
      * rewrite upd_other by auto; lia.
    + repeat (split; [assumption|]). destruct B6; constructor; assumption.
Qed.

Record wnb_post (sf : bool) (s : tm) (tv : list node) (s' : tm) : Prop := {
  wb_ref : refok s';
  wb_nst : forall n, (wreach (wpE s) tv n /\ sf = true /\ nst s' n = Failed)
                     \/ (nst s' n = nst s n /\ (sf = true -> ~ wreach (wpE s) tv n));
  wb_wp : forall x p, In (x, p) (wpE s') <-> In (x, p) (wpE s) /\ ~ wreach (wpE s) tv x;
  wb_pend : forall x, In x (pend s') <-> In x (pend s) /\ ~ (exists c, wreach (wpE s) tv c /\ In (c, x) (wpE s));
  wb_wse : wse s' = wse s;
  wb_cands : cands s' = cands s;
  wb_rest : same_rest s s' }.

Lemma wnb_spec e sf (We : env_wf e) : forall fuel s tv s',
  refok s -> wnb fuel e sf s tv = Some s' -> wnb_post sf s tv s'.
Proof.
  induction fuel as [|fuel IH]; intros s tv s' Hr H.
  - simpl in H. destruct (e_iter e tv) as [|n rest] eqn:Ei; [|discriminate].
    injection H as <-. apply iter_nil in Ei; [|exact We]. subst tv.
    assert (W : forall x, ~ wreach (wpE s) [] x) by (intros x Hx; induction Hx; auto).
    constructor; auto using same_rest_refl.
    + intros x p; split; [intros; split; auto | tauto].
    + intros x; split; [intros Hx; split; [exact Hx|]; intros (c & Hc & _); elim (W c Hc) | tauto].
  - simpl in H. destruct (e_iter e tv) as [|n rest] eqn:Ei.
    + injection H as <-. apply iter_nil in Ei; [|exact We]. subst tv.
      assert (W : forall x, ~ wreach (wpE s) [] x) by (intros x Hx; induction Hx; auto).
      constructor; auto using same_rest_refl.
      * intros x p; split; [intros; split; auto | tauto].
      * intros x; split; [intros Hx; split; [exact Hx|]; intros (c & Hc & _); elim (W c Hc) | tauto].
    + set (s1 := if sf then set1 s n Failed else s) in *.
      set (s3 := set_pend (clear_wp s1 n) (filter (fun m => negb (mem m (wp s1 n))) (pend (clear_wp s1 n)))) in *.
      pose proof (fold_dec (e_iter e (wp s1 n)) s3) as F. cbn zeta in F.
      set (s4 := fold_left (fun s p => set_refc s (upd (refc s) p (refc s p - 1)%Z)) (e_iter e (wp s1 n)) s3) in *.
      destruct F as (F1 & F2 & F3 & F4 & F5 & F6 & F7).
      assert (Ewp1 : wpE s1 = wpE s) by (unfold s1; destruct sf; reflexivity).
      assert (Ewp4 : wpE s4 = srcless n (wpE s)) by (rewrite F3; unfold s3, clear_wp, srcless; cbn; rewrite Ewp1; reflexivity).
      assert (Eparents : wp s1 n = map snd (filter (fun e => fst e =? n) (wpE s))) by (unfold wp; rewrite Ewp1; reflexivity).
      assert (Hr4 : refok s4).
      { destruct Hr as [Hn Hr]. split.
        - rewrite Ewp4; apply nodup_filter; exact Hn.
        - intros p. rewrite F1, Ewp4, iter_count by exact We.
          assert (refc s3 p = refc s p) as -> by (unfold s3, s1; destruct sf; reflexivity).
          rewrite Hr, (cnt_split p n), Eparents. lia. }
      assert (Hin : forall y, In y tv <-> y = n \/ In y rest).
      { intros y; rewrite <- (iter_in e tv y We), Ei; simpl; split; intros [?|?]; auto. }
      assert (Q : forall x, wreach (wpE s) tv x <-> x = n \/ wreach (srcless n (wpE s)) (fold_right set_add rest (wp s1 n)) x).
      { intros x; apply wreach_step.
        - apply Hin; left; reflexivity.
        - intros y; rewrite in_fold_set_add, wp_in, Ewp1, (Hin y).
          destruct (Nat.eq_dec y n) as [->|Ny]; split; intros; tauto. }
      specialize (IH s4 _ s' Hr4 H). destruct IH as [I1 I2 I3 I4 I5 I6 I7].
      rewrite Ewp4 in I2, I3, I4.
      assert (N4 : forall x, nst s4 x = if sf then upd (nst s) n Failed x else nst s x)
        by (intros x; rewrite F2; unfold s3, s1; destruct sf; reflexivity).
      constructor.
      * exact I1.
      * intros x. destruct (I2 x) as [(A & B & C)|[A B]].
        -- left; split; [apply Q; right; exact A | split; assumption].
        -- rewrite A, N4. destruct sf eqn:Esf.
           ++ destruct (Nat.eq_dec x n) as [->|Nx].
              ** left; split; [apply Q; left; reflexivity|]. split; [reflexivity | apply upd_same].
              ** right; rewrite upd_other by exact Nx. split; [reflexivity|].
                 intros _ W; apply Q in W; destruct W as [W|W]; [contradiction | exact (B eq_refl W)].
           ++ right; split; [reflexivity | discriminate].
      * intros x p; rewrite I3, in_srcless, Q; tauto.
      * intros x; rewrite I4, F5. unfold s3; cbn. rewrite filter_In, negb_true_iff, mem_nIn, wp_in, Ewp1.
        assert (pend s1 = pend s) as -> by (unfold s1; destruct sf; reflexivity).
        split.
        -- intros [[A B] C]; split; [exact A|]. intros (c & Hc & Hcx). apply Q in Hc.
           destruct (Nat.eq_dec c n) as [->|Nc]; [contradiction|].
           destruct Hc as [Hc|Hc]; [contradiction|].
           apply C; exists c; split; [exact Hc | apply in_srcless; auto].
        -- intros [A B]; split; [split; [exact A|]|].
           ++ intros Hnx; apply B; exists n; split; [apply Q; auto | exact Hnx].
           ++ intros (c & Hc & Hcx); apply in_srcless in Hcx; destruct Hcx as [Hcx _].
              apply B; exists c; split; [apply Q; auto | exact Hcx].
      * rewrite I5, F4; unfold s3, s1; destruct sf; reflexivity.
      * rewrite I6, F6; unfold s3, s1; destruct sf; reflexivity.
      * eapply same_rest_trans; [|exact I7]. eapply same_rest_trans; [|exact F7].
        unfold s3, s1; destruct sf; constructor; reflexivity.
Qed.

(* termination of will_not_build *)
Lemma wnb_total e sf (We : env_wf e) : forall fuel s tv,
  length (wpE s) + length tv <= fuel -> exists s', wnb fuel e sf s tv = Some s'.
Proof.
  induction fuel as [|fuel IH]; intros s tv Hf.
  - assert (tv = []) as -> by (destruct tv; [reflexivity | simpl in Hf; lia]).
    simpl. destruct (e_iter e []) eqn:Ei; [eauto|].
    exfalso; pose proof (iter_in e [] n We) as Q; rewrite Ei in Q; apply Q; left; reflexivity.
  - simpl. destruct (e_iter e tv) as [|n rest] eqn:Ei; [eauto|].
    apply IH.
    set (s1 := if sf then set1 s n Failed else s).
    match goal with |- length (wpE (fold_left ?f ?l ?x)) + _ <= _ => pose proof (fold_dec l x) as F end.
    cbn zeta in F. destruct F as (_ & _ & F3 & _). rewrite F3. clear F3. cbn [wpE set_pend].
    assert (Ewp1 : wpE s1 = wpE s) by (unfold s1; destruct sf; reflexivity).
    unfold clear_wp; cbn [wpE set_wpE]. fold (srcless n (wpE s1)). rewrite Ewp1.
    pose proof (len_split n (wpE s)) as L.
    pose proof (len_fold_set_add (wp s1 n) rest) as M.
    assert (length (wp s1 n) = length (map snd (filter (fun e : node * node => fst e =? n) (wpE s)))) as M2
      by (unfold wp; rewrite Ewp1; reflexivity).
    destruct We as [We _]. pose proof (Permutation_length (We tv)) as P. rewrite Ei in P. simpl in P. lia.
Qed.

Definition will_post (sf : bool) (s : tm) (nodes : list node) (s' : tm) : Prop :=
  refok s'
  /\ (forall n, (wreach (wpE s) nodes n /\ sf = true /\ nst s' n = Failed)
                     \/ (nst s' n = nst s n /\ (sf = true -> ~ wreach (wpE s) nodes n)))
  /\ (forall x p, In (x, p) (wpE s') <-> In (x, p) (wpE s) /\ ~ wreach (wpE s) nodes x)
  /\ (forall x, In x (pend s') <-> In x (pend s) /\ ~ wreach (wpE s) nodes x)
  /\ wse s' = wse s /\ cands s' = cands s /\ same_rest s s'.

Lemma wreach_ext E N N' x : (forall y, In y N <-> In y N') -> wreach E N x -> wreach E N' x.
Proof. intros H; induction 1; [apply wr0, H; assumption | eapply wr1; eassumption]. Qed.

Lemma will_not_build_spec fuel e sf s nodes s' :
  env_wf e -> refok s -> will_not_build fuel e sf s nodes = Some s' -> will_post sf s nodes s'.
Proof.
  intros We Hr H. unfold will_not_build in H.
  apply wnb_spec in H; [|exact We|exact Hr]. destruct H as [I1 I2 I3 I4 I5 I6 I7]. cbn in *.
  assert (Q : forall x, wreach (wpE s) (dedup nodes) x <-> wreach (wpE s) nodes x)
    by (intros x; split; apply wreach_ext; intros y; rewrite in_dedup; tauto).
  split; [exact I1|]. split; [|split; [|split; [|split; [exact I5|split; [exact I6|]]]]].
  - intros n; rewrite <- Q; apply I2.
  - intros x p; rewrite <- Q; apply I3.
  - intros x; rewrite I4, filter_In, negb_true_iff, mem_nIn. split.
    + intros [[A B] C]; split; [exact A|]. intros W; apply Q in W. inversion W as [y Hy|c p Hc Hcp]; subst.
      * apply -> in_dedup in Hy. contradiction.
      * apply C; exists c; split; assumption.
    + intros [A B]; split; [split; [exact A|]|].
      * intros Hx; apply B, wr0; exact Hx.
      * intros (c & Hc & Hcx); apply B; apply Q in Hc; eapply wr1; eassumption.
  - destruct I7; constructor; assumption.
Qed.
Lemma will_not_build_total fuel e sf s nodes :
  env_wf e -> length (wpE s) + length nodes <= fuel -> exists s', will_not_build fuel e sf s nodes = Some s'.
Proof.
  intros We H; apply wnb_total; [exact We|]. cbn. pose proof (len_dedup nodes); lia.
Qed.

(* postprocess *)
Definition bal (s : tm) (ps : list node) : Prop :=
  NoDup (wpE s) /\ forall p, refc s p = Z.of_nat (cnt p (wpE s) + count_occ Nat.eq_dec ps p).

Lemma bal_clear s ps c l : bal s ps ->
  (forall p, count_occ Nat.eq_dec l p = count_occ Nat.eq_dec (wp s c) p) ->
  forall s', wpE s' = srcless c (wpE s) -> refc s' = refc s -> bal s' (ps ++ l).
Proof.
  intros [Hn Hr] Hl s' E1 E2; split.
  - rewrite E1; apply nodup_filter; exact Hn.
  - intros p; rewrite E2, Hr, count_occ_app, Hl, E1, (cnt_split p c (wpE s)). unfold wp. lia.
Qed.

Lemma post1_loop e (We : env_wf e) : forall ts s ps s' ps',
  bal s ps -> fold_left (post1 e) ts (s, ps) = (s', ps') ->
  bal s' ps' /\ nst s' = nst s /\ refc s' = refc s /\ wse s' = wse s /\ cands s' = cands s /\ same_rest s s'
  /\ (forall x p, In (x, p) (wpE s') <-> In (x, p) (wpE s) /\ ~ In x ts)
  /\ (forall p, In p ps' <-> In p ps \/ exists x, In x ts /\ In (x, p) (wpE s))
  /\ (forall x, In x (pend s') <-> In x (pend s) /\ ~ (In x ts /\ exists p, In (x, p) (wpE s))).
Proof.
  induction ts as [|t ts IH]; intros s ps s' ps' Hb H; cbn [fold_left] in H.
  - injection H as <- <-. split; [exact Hb|]. repeat (split; [reflexivity|]). split; [apply same_rest_refl|].
    split; [intros; simpl; tauto|]. split.
    + intros p; split; [auto | intros [A|(x & [] & _)]; exact A].
    + intros x; simpl; tauto.
  - destruct (post1 e (s, ps) t) as [s1 ps1] eqn:E1.
    assert (G : bal s1 ps1 /\ nst s1 = nst s /\ refc s1 = refc s /\ wse s1 = wse s /\ cands s1 = cands s /\ same_rest s s1
       /\ (forall x p, In (x, p) (wpE s1) <-> In (x, p) (wpE s) /\ x <> t)
       /\ (forall p, In p ps1 <-> In p ps \/ In (t, p) (wpE s))
       /\ (forall x, In x (pend s1) <-> In x (pend s) /\ ~ (x = t /\ exists p, In (x, p) (wpE s)))).
    { unfold post1 in E1. destruct (wp s t) as [|p0 l0] eqn:Ew.
      - injection E1 as <- <-.
        assert (Z0 : forall p, ~ In (t, p) (wpE s)) by (intros p Hp; apply wp_in in Hp; rewrite Ew in Hp; exact Hp).
        split; [exact Hb|]. repeat (split; [reflexivity|]). split; [apply same_rest_refl|]. split; [|split].
        + intros x p; split; [intros A; split; [exact A|]; intros ->; elim (Z0 p A) | tauto].
        + intros p; split; [auto | intros [A|A]; [exact A | elim (Z0 p A)]].
        + intros x; split; [intros A; split; [exact A|]; intros [-> [p Hp]]; elim (Z0 p Hp) | tauto].
      - rewrite <- Ew in E1. injection E1 as <- <-. split; [|split; [|split; [|split; [|split; [|split; [|split; [|split]]]]]]];
          try reflexivity; try (constructor; reflexivity).
        + eapply bal_clear with (c := t); [exact Hb| |reflexivity|reflexivity].
          intros p; rewrite iter_count by exact We; reflexivity.
        + intros x p; cbn. apply in_srcless.
        + intros p; rewrite in_app_iff, iter_in by exact We. rewrite wp_in; tauto.
        + intros x; cbn; rewrite in_remove. split.
          * intros [A B]; split; [exact A|]. intros [C _]; contradiction.
          * intros [A B]; split; [exact A|]. intros ->; apply B; split; [reflexivity|].
            exists p0; apply wp_in; rewrite Ew; left; reflexivity. }
    destruct G as (G1 & G2 & G3 & G4 & G5 & G6 & G7 & G8 & G9).
    destruct (IH s1 ps1 s' ps' G1 H) as (I1 & I2 & I3 & I4 & I5 & I6 & I7 & I8 & I9).
    split; [exact I1|]. split; [congruence|]. split; [congruence|]. split; [congruence|]. split; [congruence|].
    split; [eapply same_rest_trans; eassumption|]. split; [|split].
    + intros x p; rewrite I7, G7; simpl. split; [intros [[A B] C]; split; [exact A|]; intros [D|D]; [subst; auto | auto] |].
      intros [A B]; split; [split; [exact A|] |]; intros D; apply B; auto.
    + intros p; rewrite I8, G8. split.
      * intros [[A|A]|(x & A & B)]; [auto | right; exists t; split; [left; reflexivity | exact A] |].
        right; exists x; split; [right; exact A|]. apply G7 in B; tauto.
      * intros [A|(x & [->|A] & B)]; auto.
        destruct (Nat.eq_dec x t) as [->|N]; auto.
        right; exists x; split; [exact A|]; apply G7; auto.
    + intros x; rewrite I9, G9. split.
      * intros [[A B] C]; split; [exact A|]. intros [[->|D] [p Hp]].
        -- apply B; split; [reflexivity | exists p; exact Hp].
        -- destruct (Nat.eq_dec x t) as [->|N]; [apply B; split; [reflexivity | exists p; exact Hp]|].
           apply C; split; [exact D|]; exists p; apply G7; auto.
      * intros [A B]; split; [split; [exact A|]|].
        -- intros [-> Hp]; apply B; split; [left; reflexivity | exact Hp].
        -- intros [D [p Hp]]; apply B; split; [right; exact D|]; exists p; apply G7 in Hp; tauto.
Qed.

Lemma push_if_loop l : forall s,
  let s' := fold_left (fun s p => if (refc s p =? 0)%Z then set_cands s (p :: cands s) else s) l s in
  nst s' = nst s /\ refc s' = refc s /\ wpE s' = wpE s /\ wse s' = wse s /\ pend s' = pend s /\ same_rest s s'
  /\ (forall x, In x (cands s') <-> In x (cands s) \/ (In x l /\ refc s x = 0%Z)).
Proof.
  induction l as [|p l IH]; intros s; cbn [fold_left].
  - cbn zeta. repeat (split; [reflexivity|]). split; [apply same_rest_refl|]. intros x; simpl; tauto.
  - match goal with |- context [fold_left _ l ?x] => set (s1 := x); specialize (IH s1) end. cbn zeta in *.
    destruct IH as (A1 & A2 & A3 & A4 & A5 & A6 & A7).
    assert (B : nst s1 = nst s /\ refc s1 = refc s /\ wpE s1 = wpE s /\ wse s1 = wse s /\ pend s1 = pend s /\ same_rest s s1)
      by (unfold s1; destruct (refc s p =? 0)%Z; repeat (split; [reflexivity|]); constructor; reflexivity).
    destruct B as (B1 & B2 & B3 & B4 & B5 & B6).
    repeat (split; [congruence|]). split; [eapply same_rest_trans; eassumption|].
    intros x; rewrite A7, B2. unfold s1. destruct (refc s p =? 0)%Z eqn:E; cbn [cands set_cands In].
    + apply Z.eqb_eq in E. split; [intros [[->|A]|A]; auto; tauto | intros [A|[[->|A] B]]; auto].
    + apply Z.eqb_neq in E. split; [tauto | intros [A|[[->|A] B]]; auto; contradiction].
Qed.

Lemma post2_one e (We : env_wf e) s ps se s' ps' :
  bal s ps -> post2 e (s, ps) se = (s', ps') ->
  bal s' ps' /\ refc s' = refc s /\ wse s' = wse s /\ same_rest s s'
  /\ (forall n, nst s' n = if (n =? se) && nstate_eqb (nst s n) Executing then NoState else nst s n)
  /\ (forall x p, In (x, p) (wpE s') <-> In (x, p) (wpE s) /\ ~ (x = se /\ nst s' se = NoState))
  /\ (forall p, In p ps' <-> In p ps \/ (nst s' se = NoState /\ In (se, p) (wpE s)))
  /\ (forall x, In x (cands s') <-> In x (cands s) \/ (In x (wse s se) /\ refc s x = 0%Z))
  /\ (forall x, In x (pend s') <-> In x (pend s) /\ ~ (x = se /\ nst s' se = NoState /\ exists p, In (x, p) (wpE s))).
Proof.
  intros Hb H. unfold post2 in H.
  set (s1 := match nst s se with Executing => set1 s se NoState | _ => s end) in *.
  assert (B : refc s1 = refc s /\ wpE s1 = wpE s /\ wse s1 = wse s /\ pend s1 = pend s /\ cands s1 = cands s /\ same_rest s s1)
    by (unfold s1; destruct (nst s se); repeat (split; [reflexivity|]); constructor; reflexivity).
  destruct B as (B2 & B3 & B4 & B5 & B6 & B7).
  assert (N1 : forall n, nst s1 n = if (n =? se) && nstate_eqb (nst s n) Executing then NoState else nst s n).
  { intros n; unfold s1. destruct (n =? se) eqn:En.
    - apply Nat.eqb_eq in En; subst n. destruct (nst s se) eqn:Es; cbn; rewrite ?Es, ?upd_same; reflexivity.
    - cbn [andb]. destruct (nst s se); cbn; try reflexivity. unfold upd; rewrite En; reflexivity. }
  assert (Hb1 : bal s1 ps) by (destruct Hb as [Ha Hc]; split; [rewrite B3; exact Ha | intros p; rewrite B2, B3; apply Hc]).
  assert (W1 : forall p, In p (wp s1 se) <-> In (se, p) (wpE s)) by (intros p; rewrite wp_in, B3; tauto).
  destruct (match nst s1 se with NoState => match wp s1 se with _ :: _ => true | [] => false end | _ => false end) eqn:Eb.
  - destruct (nst s1 se) eqn:Es; try discriminate. destruct (wp s1 se) as [|p0 l0] eqn:Ew; [discriminate|].
    rewrite <- Ew in H. cbv beta iota zeta in H.
    match type of H with (fold_left ?f ?l ?x, _) = _ => pose proof (push_if_loop l x) as P; set (q := fold_left f l x) in * end.
    cbn zeta in P. injection H as <- <-. destruct P as (P1 & P2 & P3 & P4 & P5 & P6 & P7).
    rewrite P1. cbn in P2, P3, P4, P5, P7. rewrite P2. split.
    { eapply bal_clear with (c := se); [exact Hb1 | | rewrite P3; reflexivity | rewrite P2; reflexivity].
      intros p; rewrite iter_count by exact We; reflexivity. }
    split; [exact B2|]. split; [congruence|]. split.
    { eapply same_rest_trans; [exact B7|]. destruct P6; constructor; assumption. }
    split; [exact N1|]. split; [|split; [|split]].
    + intros x p; rewrite P3. fold (srcless se (wpE s1)). rewrite in_srcless, B3. tauto.
    + intros p; rewrite in_app_iff, iter_in, wp_in, B3 by exact We. tauto.
    + intros x; rewrite P7, B6, iter_in, B4, B2 by exact We. tauto.
    + intros x; rewrite P5, in_remove, B5. split.
      * intros [A C]; split; [exact A|]. intros [D _]; contradiction.
      * intros [A C]; split; [exact A|]. intros ->; apply C; split; [reflexivity|]. split; [exact Es|].
        exists p0; apply W1; left; reflexivity.
  - assert (H' : (fold_left (fun s p => if (refc s p =? 0)%Z then set_cands s (p :: cands s) else s) (e_iter e (wse s1 se)) s1, ps) = (s', ps')).
    { destruct (nst s1 se) eqn:Es; try exact H. destruct (wp s1 se) eqn:Ew; [exact H | discriminate]. }
    clear H. pose proof (push_if_loop (e_iter e (wse s1 se)) s1) as P. cbn zeta in P.
    injection H' as <- <-. destruct P as (P1 & P2 & P3 & P4 & P5 & P6 & P7).
    assert (NW : nst s1 se = NoState -> forall p, ~ In (se, p) (wpE s)).
    { intros E p Hp. rewrite E in Eb. apply W1 in Hp. destruct (wp s1 se); [exact Hp | discriminate]. }
    rewrite P1. split; [|split; [|split; [|split; [|split; [|split; [|split; [|split]]]]]]].
    + destruct Hb1 as [Ha Hc]; split; [rewrite P3; exact Ha | intros p; rewrite P2, P3; apply Hc].
    + congruence.
    + congruence.
    + eapply same_rest_trans; eassumption.
    + exact N1.
    + intros x p; rewrite P3, B3; split; [|tauto]. intros A; split; [exact A|]. intros [-> E]; elim (NW E p A).
    + intros p; split; [auto|]. intros [A|[E A]]; [exact A | elim (NW E p A)].
    + intros x; rewrite P7, B6, B2, iter_in, B4 by exact We. tauto.
    + intros x; rewrite P5, B5; split; [|tauto]. intros A; split; [exact A|]. intros (-> & E & p & Hp); elim (NW E p Hp).
Qed.

Lemma post2_loop e (We : env_wf e) : forall ses s ps s' ps',
  bal s ps -> fold_left (post2 e) ses (s, ps) = (s', ps') ->
  bal s' ps' /\ refc s' = refc s /\ wse s' = wse s /\ same_rest s s'
  /\ (forall n, nst s' n = if mem n ses && nstate_eqb (nst s n) Executing then NoState else nst s n)
  /\ (forall x p, In (x, p) (wpE s') <-> In (x, p) (wpE s) /\ ~ (In x ses /\ nst s' x = NoState))
  /\ (forall p, In p ps' <-> In p ps \/ exists x, In x ses /\ nst s' x = NoState /\ In (x, p) (wpE s))
  /\ (forall x, In x (cands s') <-> In x (cands s) \/ (exists se, In se ses /\ In x (wse s se) /\ refc s x = 0%Z))
  /\ (forall x, In x (pend s') <-> In x (pend s) /\ ~ (In x ses /\ nst s' x = NoState /\ exists p, In (x, p) (wpE s))).
Proof.
  induction ses as [|se ses IH]; intros s ps s' ps' Hb H; cbn [fold_left] in H.
  - injection H as <- <-. split; [exact Hb|]. repeat (split; [reflexivity|]). split; [apply same_rest_refl|].
    split; [intros; reflexivity|]. split; [intros; simpl; tauto|]. split; [|split].
    + intros p; split; [auto | intros [A|(x & [] & _)]; exact A].
    + intros p; split; [auto | intros [A|(x & [] & _)]; exact A].
    + intros x; simpl; tauto.
  - destruct (post2 e (s, ps) se) as [s1 ps1] eqn:E1.
    destruct (post2_one e We _ _ _ _ _ Hb E1) as (G1 & G2 & G3 & G4 & G5 & G6 & G7 & G8 & G9).
    destruct (IH s1 ps1 s' ps' G1 H) as (I1 & I2 & I3 & I4 & I5 & I6 & I7 & I8 & I9).
    assert (K : forall n, nst s1 n = NoState -> nst s' n = NoState)
      by (intros n En; rewrite I5, En; destruct (mem n ses); reflexivity).
    assert (K2 : nst s' se = NoState <-> nst s1 se = NoState).
    { split; [|apply K]. rewrite I5. destruct (mem se ses && nstate_eqb (nst s1 se) Executing) eqn:E; [|auto].
      apply andb_true_iff in E; destruct E as [_ E]; apply nstate_eqb_eq in E.
      rewrite G5, Nat.eqb_refl in E. cbn [andb] in E. destruct (nstate_eqb (nst s se) Executing) eqn:E2; [discriminate|].
      exfalso. rewrite E in E2. discriminate. }
    split; [exact I1|]. split; [congruence|]. split; [congruence|]. split; [eapply same_rest_trans; eassumption|].
    split; [|split; [|split; [|split]]].
    + intros n; rewrite I5, G5. simpl. destruct (n =? se); simpl; [|reflexivity].
      destruct (nstate_eqb (nst s n) Executing) eqn:E2; simpl.
      * destruct (mem n ses); reflexivity.
      * rewrite E2. rewrite andb_false_r. reflexivity.
    + intros x p; rewrite I6, G6; simpl. split.
      * intros [[A B] C]; split; [exact A|]. intros [[->|D] E]; [apply B; split; [reflexivity | apply K2; exact E] | apply C; auto].
      * intros [A B]; split; [split; [exact A|]|].
        -- intros [-> E]; apply B; split; [auto | apply K; exact E].
        -- intros [D E]; apply B; auto.
    + intros p; rewrite I7, G7. split.
      * intros [[A|[E A]]|(x & A & B & C)]; [auto | |].
        -- right; exists se; split; [left; reflexivity|]. split; [apply K; exact E | exact A].
        -- right; exists x; split; [right; exact A|]. split; [exact B|]. apply G6 in C; tauto.
      * intros [A|(x & [->|A] & B & C)]; auto.
        -- left; right; split; [apply K2; exact B | exact C].
        -- destruct (Nat.eq_dec x se) as [->|N].
           ++ left; right; split; [apply K2; exact B | exact C].
           ++ right; exists x; split; [exact A|]. split; [exact B|]. apply G6; split; [exact C | tauto].
    + intros x; rewrite I8, G8, G3, G2. split.
      * intros [[A|A]|(y & A & B)]; [auto | right; exists se; simpl; tauto | right; exists y; simpl; tauto].
      * intros [A|(y & [->|A] & B)]; auto. right; exists y; auto.
    + intros x; rewrite I9, G9. split.
      * intros [[A B] C]; split; [exact A|]. intros ([->|D] & E & p & Hp).
        -- apply B; split; [reflexivity|]; split; [apply K2; exact E | exists p; exact Hp].
        -- destruct (Nat.eq_dec x se) as [->|N].
           ++ apply B; split; [reflexivity|]; split; [apply K2; exact E | exists p; exact Hp].
           ++ apply C; split; [exact D|]; split; [exact E|]; exists p; apply G6; split; [exact Hp | tauto].
      * intros [A B]; split; [split; [exact A|]|].
        -- intros (-> & E & Hp); apply B; split; [left; reflexivity|]; split; [apply K; exact E | exact Hp].
        -- intros (D & E & p & Hp); apply B; split; [right; exact D|]; split; [exact E|]; exists p; apply G6 in Hp; tauto.
Qed.

Lemma post3_loop ps : forall keys s, NoDup keys ->
  let s' := fold_left (post3 ps) keys s in
  nst s' = nst s /\ wpE s' = wpE s /\ wse s' = wse s /\ pend s' = pend s /\ same_rest s s'
  /\ (forall p, refc s' p = if mem p keys then (refc s p - Z.of_nat (count_occ Nat.eq_dec ps p))%Z else refc s p)
  /\ (forall x, In x (cands s') <-> In x (cands s) \/ (In x keys /\ refc s' x = 0%Z)).
Proof.
  induction keys as [|k keys IH]; intros s Hn; cbn [fold_left].
  - cbn zeta. repeat (split; [reflexivity|]). split; [apply same_rest_refl|]. split; [reflexivity|]. intros x; simpl; tauto.
  - inversion Hn as [|? ? Hk Hn']; subst. specialize (IH (post3 ps s k) Hn'). cbn zeta in *.
    set (s1 := post3 ps s k) in *. destruct IH as (A1 & A2 & A3 & A4 & A5 & A6 & A7).
    assert (B : nst s1 = nst s /\ wpE s1 = wpE s /\ wse s1 = wse s /\ pend s1 = pend s /\ same_rest s s1
       /\ refc s1 = upd (refc s) k (refc s k - Z.of_nat (count_occ Nat.eq_dec ps k))%Z
       /\ (forall x, In x (cands s1) <-> In x (cands s) \/ (x = k /\ refc s1 k = 0%Z))).
    { unfold s1, post3. destruct (refc s k - Z.of_nat (count_occ Nat.eq_dec ps k) =? 0)%Z eqn:E;
        (repeat (split; [reflexivity|])); (split; [constructor; reflexivity|]); (split; [reflexivity|]);
        intros x; cbn; rewrite upd_same.
      - apply Z.eqb_eq in E. split; [intros [->|H]; auto | intros [H|[-> _]]; auto].
      - apply Z.eqb_neq in E. split; [auto | intros [H|[_ H]]; [exact H | contradiction]]. }
    destruct B as (B1 & B2 & B3 & B4 & B5 & B6 & B7).
    repeat (split; [congruence|]). split; [eapply same_rest_trans; eassumption|].
    assert (R : forall p, refc (fold_left (post3 ps) keys s1) p = if mem p (k :: keys) then (refc s p - Z.of_nat (count_occ Nat.eq_dec ps p))%Z else refc s p).
    { intros p; rewrite A6, B6. cbn [mem existsb]. destruct (Nat.eq_dec p k) as [->|N].
      - rewrite Nat.eqb_refl, upd_same. cbn [orb]. destruct (mem k keys) eqn:E; [apply mem_In in E; contradiction | reflexivity].
      - rewrite upd_other by exact N. apply Nat.eqb_neq in N; rewrite N; reflexivity. }
    split; [exact R|].
    intros x; rewrite A7, B7. split.
    + intros [[H|[-> H]]|[H H1]]; [auto | | right; split; [right; exact H | exact H1]].
      right; split; [left; reflexivity|]. rewrite R. cbn [mem existsb]. rewrite Nat.eqb_refl. cbn [orb].
      rewrite B6, upd_same in H. exact H.
    + intros [H|[[->|H] H1]]; auto. left; right; split; [reflexivity|].
      rewrite R in H1. cbn [mem existsb] in H1. rewrite Nat.eqb_refl in H1. cbn [orb] in H1. rewrite B6, upd_same; exact H1.
Qed.

(* Combined characterisation of Task.postprocess *)
Definition ses_of (c : cfg) (ts : list node) : list node := flat_map (side_effects c) ts.

Record post_spec (c : cfg) (s : tm) (ts : list node) (s' : tm) : Prop := {
  po_ref : refok s';
  po_rest : same_rest s s';
  po_wse : wse s' = wse s;
  po_nst : forall n, (In n (ses_of c ts) /\ nst s n = Executing /\ nst s' n = NoState)
                     \/ (nst s' n = nst s n /\ ~ (In n (ses_of c ts) /\ nst s n = Executing));
  po_wp : forall x p, In (x, p) (wpE s') <->
            In (x, p) (wpE s) /\ ~ In x ts /\ ~ (In x (ses_of c ts) /\ nst s' x = NoState);
  po_cands1 : forall x, In x (cands s) -> In x (cands s');
  po_cands2 : forall x p, In (x, p) (wpE s) -> ~ In (x, p) (wpE s') -> cnt p (wpE s') = 0 -> In p (cands s');
  po_cands3 : forall se p, In se (ses_of c ts) -> In p (wse s se) -> cnt p (wpE s') = 0 -> In p (cands s');
  po_cands4 : forall p, In p (cands s') -> In p (cands s) \/ (exists x, In (x, p) (wpE s)) \/ (exists se, In p (wse s se));
  po_pend : forall x, In x (pend s') <-> In x (pend s) /\ ~ (In x ts /\ exists p, In (x, p) (wpE s))
                      /\ ~ (In x (ses_of c ts) /\ nst s' x = NoState /\ exists p, In (x, p) (wpE s)) }.

Lemma postprocess_spec c e s ts : env_wf e -> refok s -> post_spec c s ts (postprocess c e s ts).
Proof.
  intros We [Hn Hr]. unfold postprocess.
  set (tl := e_iter e (dedup ts)).
  assert (Htl : forall x, In x tl <-> In x ts) by (intros x; unfold tl; rewrite iter_in, in_dedup by exact We; tauto).
  assert (Hse : forall x, In x (flat_map (side_effects c) tl) <-> In x (ses_of c ts)).
  { intros x; unfold ses_of; rewrite !in_flat_map; split; intros (t & A & B); exists t; split; auto; apply Htl; exact A. }
  destruct (fold_left (post1 e) tl (s, [])) as [s1 ps1] eqn:E1.
  destruct (fold_left (post2 e) (flat_map (side_effects c) tl) (s1, ps1)) as [s2 ps2] eqn:E2.
  assert (Hb : bal s []) by (split; [exact Hn | intros p; rewrite Hr; simpl; lia]).
  destruct (post1_loop e We _ _ _ _ _ Hb E1) as (A1 & A2 & A3 & A4 & A5 & A6 & A7 & A8 & A9).
  destruct (post2_loop e We _ _ _ _ _ A1 E2) as (B1 & B2 & B3 & B4 & B5 & B6 & B7 & B8 & B9).
  pose proof (post3_loop ps2 (dedup ps2) s2 (nodup_dedup ps2)) as C. cbn zeta in C.
  set (s3 := fold_left (post3 ps2) (dedup ps2) s2) in *.
  destruct C as (C1 & C2 & C3 & C4 & C5 & C6 & C7).
  assert (Href : refok s3).
  { destruct B1 as [Bn Bb]. split; [rewrite C2; exact Bn|]. intros p; rewrite C6, C2, Bb.
    destruct (mem p (dedup ps2)) eqn:E; [lia|].
    apply mem_nIn in E. rewrite in_dedup in E. apply (count_occ_not_In Nat.eq_dec) in E. rewrite E; lia. }
  assert (Nst3 : nst s3 = nst s2) by exact C1.
  assert (Hwp : forall x p, In (x, p) (wpE s3) <->
            In (x, p) (wpE s) /\ ~ In x ts /\ ~ (In x (ses_of c ts) /\ nst s3 x = NoState)).
  { intros x p; rewrite C2, B6, A7, Htl, Hse, Nst3; tauto. }
  assert (Hps : forall p, In p ps2 <-> (exists x, In x ts /\ In (x, p) (wpE s))
                  \/ exists x, In x (ses_of c ts) /\ nst s3 x = NoState /\ In (x, p) (wpE s1)).
  { intros p; rewrite B7, A8. split.
    - intros [[[]|(x & H1 & H2)]|(x & H1 & H2 & H3)].
      + left; exists x; split; [apply Htl; exact H1 | exact H2].
      + right; exists x; rewrite Nst3; split; [apply Hse; exact H1|]; split; assumption.
    - intros [(x & H1 & H2)|(x & H1 & H2 & H3)].
      + left; right; exists x; split; [apply Htl; exact H1 | exact H2].
      + right; exists x; rewrite <- Nst3; split; [apply Hse; exact H1|]; split; assumption. }
  constructor.
  - exact Href.
  - eapply same_rest_trans; [exact A6|]. eapply same_rest_trans; eassumption.
  - congruence.
  - intros n. rewrite Nst3, B5, A2. destruct (mem n (flat_map (side_effects c) tl) && nstate_eqb (nst s n) Executing) eqn:E.
    + apply andb_true_iff in E; destruct E as [E F]. apply mem_In in E; apply Hse in E. apply nstate_eqb_eq in F. left; auto.
    + right; split; [reflexivity|]. intros [H1 H2]. apply Hse, mem_In in H1. rewrite H1, H2 in E. discriminate.
  - exact Hwp.
  - intros x H; apply C7; left; apply B8; left; rewrite A5; exact H.
  - intros x p H1 H2 H3. apply C7. right. destruct Href as [_ Hrf]. rewrite Hrf, H3. split; [|reflexivity].
    apply in_dedup, Hps.
    destruct (in_dec Nat.eq_dec x ts) as [Hx|Hx]; [left; exists x; auto|].
    right; exists x. destruct (in_dec Nat.eq_dec x (ses_of c ts)) as [Hs|Hs].
    + split; [exact Hs|]. split; [|apply A7; split; [exact H1 | rewrite Htl; exact Hx]].
      destruct (nstate_eq_dec (nst s3 x) NoState) as [E|E]; [exact E|].
      elim H2; apply Hwp; split; [exact H1|]; split; [exact Hx|]; intros [_ F]; contradiction.
    + elim H2; apply Hwp; split; [exact H1|]; split; [exact Hx|]; intros [F _]; contradiction.
  - intros se p H1 H2 H3. apply C7. destruct (Z.eq_dec (refc s1 p) 0) as [Z0|Z0].
    + left; apply B8; right; exists se; split; [apply Hse; exact H1|]; split; [rewrite A4; exact H2 | exact Z0].
    + right; destruct Href as [_ Hrf]; rewrite Hrf, H3; split; [|reflexivity].
      apply in_dedup. apply (count_occ_In Nat.eq_dec).
      destruct B1 as [_ Bb]. specialize (Bb p). rewrite B2 in Bb. rewrite C2 in H3. rewrite H3 in Bb. simpl in Bb. lia.
  - intros p H. apply C7 in H. destruct H as [H|[H _]].
    + apply B8 in H. destruct H as [H|(se & _ & H & _)].
      * left; rewrite A5 in H; exact H.
      * right; right; exists se; rewrite <- A4; exact H.
    + apply in_dedup, Hps in H. right; left. destruct H as [(x & _ & H)|(x & _ & _ & H)].
      * exists x; exact H.
      * exists x; apply A7 in H; tauto.
  - intros x; rewrite C4, B9, A9, Htl, Hse, <- Nst3. split.
    + intros [[D1 D2] D3]; split; [exact D1|]; split; [exact D2|].
      intros (F1 & F2 & p & F3). destruct (in_dec Nat.eq_dec x ts) as [Hx|Hx].
      * apply D2; split; [exact Hx | exists p; exact F3].
      * apply D3; split; [exact F1|]; split; [exact F2|]; exists p; apply A7; split; [exact F3 | rewrite Htl; exact Hx].
    + intros (D1 & D2 & D3); split; [split; assumption|]. intros (F1 & F2 & p & F3). apply A7 in F3.
      apply D3; split; [exact F1|]; split; [exact F2|]; exists p; tauto.
Qed.

(* executed and make_ready *)
Lemma make_ready_out c ts : forall s,
  let s' := make_ready c ROutOfDate s ts in
  (forall n, nst s' n = if mem n ts || mem n (ses_of c ts) then Executing else nst s n)
  /\ refc s' = refc s /\ wpE s' = wpE s /\ wse s' = wse s /\ pend s' = pend s /\ cands s' = cands s /\ same_rest s s'.
Proof.
  unfold make_ready. induction ts as [|t ts IH]; intros s; cbn [fold_left].
  - cbn. repeat (split; [reflexivity|]); apply same_rest_refl.
  - pose proof (fold_set1 Executing (side_effects c t) (set1 s t Executing)) as F. cbn zeta in F.
    set (s1 := fold_left (fun s se => set1 s se Executing) (side_effects c t) (set1 s t Executing)) in *.
    destruct F as (F1 & F2 & F3 & F4 & F5 & F6 & F7).
    specialize (IH s1). cbn zeta in *. destruct IH as (A1 & A2 & A3 & A4 & A5 & A6 & A7).
    split.
    + intros n; rewrite A1, F1. cbn. unfold mem, ses_of. cbn. rewrite existsb_app. unfold upd.
      destruct (n =? t) eqn:E; cbn; destruct (existsb (Nat.eqb n) ts); cbn; try reflexivity;
        destruct (existsb (Nat.eqb n) (side_effects c t)); cbn;
        destruct (existsb (Nat.eqb n) (flat_map (side_effects c) ts)); reflexivity.
    + rewrite A2, A3, A4, A5, A6, F2, F3, F4, F5, F6. repeat (split; [reflexivity|]).
      eapply same_rest_trans; [|exact A7]. destruct F7; constructor; assumption.
Qed.
