(* Value nodes: dependence on values; reading and writing. *)
From Coq Require Import List Bool Arith Lia.
From Verif Require AliModel AliProps.
From Verif Require Import ValModel ValSpec.
Import ListNotations.
Open Scope list_scope.

Section P.
Context {V K letter : Type} (text : V -> list letter) (key : V -> option (list letter) -> option K) (key_eqb : K -> K -> bool) (truthy : V -> bool) (letter_eqb : letter -> letter -> bool).
Hypothesis key_eqb_spec : forall a b, key_eqb a b = true <-> a = b.
Hypothesis letter_eqb_spec : forall a b, letter_eqb a b = true <-> a = b.
Notation state := (@state V K).
Notation call := (@ValModel.call V letter).
Notation value_node := (@value_node V K letter key key_eqb truthy).
Notation value_nodes := (@value_nodes V K letter key key_eqb truthy).
Notation csigs := (@csigs V K letter text).
Notation start := (@start V K).

Lemma str_eqb_spec : forall a b, str_eqb letter_eqb a b = true <-> a = b.
Proof.
  induction a as [|x a IH]; intros [|y b]; cbn; [split; reflexivity | split; discriminate | split; discriminate |].
  rewrite andb_true_iff, letter_eqb_spec, IH. split; [intros [-> ->]; reflexivity | intros H; injection H as -> ->; split; reflexivity].
Qed.
Lemma any_changed_spec : forall now old, length now = length old -> any_changed letter_eqb now old = false <-> now = old.
Proof.
  induction now as [|n now IH]; intros [|o old] L; cbn in L; try discriminate; [split; reflexivity|]. cbn [any_changed]. injection L as L. rewrite orb_false_iff, negb_false_iff, str_eqb_spec, (IH old L).
  split; [intros [-> ->]; reflexivity | intros H; injection H as -> ->; split; reflexivity].
Qed.
Lemma changed_spec : forall now old, changed letter_eqb now old = false <-> now = old.
Proof.
  intros now old. unfold changed. rewrite orb_false_iff, negb_false_iff, Nat.eqb_eq. split.
  - intros [L A]. exact (proj1 (any_changed_spec _ _ L) A).
  - intros ->. split; [reflexivity|]. apply any_changed_spec; reflexivity.
Qed.

Definition Good (s : state) : Prop := forall k i, In (k, i) (memo s) -> exists x n, nth_error (nodes s) i = Some x /\ key (value x) n = Some k.
Lemma lookup_in : forall k m i, lookup key_eqb k m = Some i -> In (k, i) m.
Proof.
  intros k m i. induction m as [|[k' j] m IH]; cbn; [discriminate|]. destruct (key_eqb k' k) eqn:E; [intros H; injection H as ->; apply key_eqb_spec in E; subst; left; reflexivity | intros H; right; exact (IH H)].
Qed.
Lemma nth_new : forall (l : list (@node V)) x, nth_error (l ++ [x]) (length l) = Some x.
Proof. intros l x. rewrite nth_error_app2, Nat.sub_diag by lia. reflexivity. Qed.
Lemma nth_old : forall (l r : list (@node V)) i x, nth_error l i = Some x -> nth_error (l ++ r) i = Some x.
Proof. intros l r i x H. rewrite nth_error_app1; [exact H|]. apply nth_error_Some. congruence. Qed.

Hypothesis F : Faithful text key.
Lemma value_node_ok : forall s c s' i, Good s -> value_node s c = (s', i) ->
  Good s' /\ (exists r, nodes s' = nodes s ++ r) /\ exists x, nth_error (nodes s') i = Some x /\ text (value x) = text (arg c).
Proof.
  intros s c s' i G E. unfold ValModel.value_node in E. cbv zeta in E.
  assert (forall b, Good (new_node s (arg c) b) /\ (exists r, nodes (new_node s (arg c) b) = nodes s ++ r) /\ exists x, nth_error (nodes (new_node s (arg c) b)) (length (nodes s)) = Some x /\ text (value x) = text (arg c)) as NN.
  { intros b. split; [|split].
    - intros k j I. destruct (G k j I) as [x [n [X Y]]]. exists x, n. split; [apply nth_old; exact X | exact Y].
    - eexists. reflexivity.
    - eexists. split; [apply nth_new | reflexivity]. }
  destruct (match built_value c with Some b => truthy b | None => false end); [injection E as <- <-; apply NN|].
  destruct (key (arg c) (name c)) as [k|] eqn:KE; [|injection E as <- <-; apply NN].
  destruct (lookup key_eqb k (memo s)) as [j|] eqn:L.
  - injection E as <- <-. split; [exact G|]. split; [exists []; rewrite app_nil_r; reflexivity|]. destruct (G k j (lookup_in _ _ _ L)) as [x [n [X Y]]]. exists x. split; [exact X | exact (F _ _ _ _ _ Y KE)].
  - injection E as <- <-. destruct (NN (built_value c)) as [G' [R X]]. split; [|split; [exact R | exact X]].
    intros k' j [H | I]; [injection H as <- <-; eexists; exists (name c); split; [apply nth_new | exact KE] | exact (G' k' j I)].
Qed.
Lemma value_nodes_ok : forall l s s' is, Good s -> value_nodes s l = (s', is) -> Good s' /\ (exists r, nodes s' = nodes s ++ r) /\ csigs s' is = map (fun c => text (arg c)) l.
Proof.
  induction l as [|c l IH]; intros s s' is G E; cbn [ValModel.value_nodes] in E.
  - injection E as <- <-. split; [exact G|]. split; [exists []; rewrite app_nil_r; reflexivity | reflexivity].
  - destruct (value_node s c) as [s1 i] eqn:E1. destruct (value_nodes s1 l) as [s2 js] eqn:E2. injection E as <- <-.
    destruct (value_node_ok _ _ _ _ G E1) as [G1 [[r1 R1] [x [X T]]]]. destruct (IH _ _ _ G1 E2) as [G2 [[r2 R2] C]].
    split; [exact G2|]. split; [exists (r1 ++ r2); rewrite R2, R1, app_assoc; reflexivity|].
    unfold ValModel.csigs in *. cbn [flat_map map]. rewrite R2 at 1. rewrite (nth_old _ _ _ _ X). unfold csig. cbn. rewrite app_nil_r, T. f_equal. exact C.
Qed.

(* C83a: a target that depends on values is rebuilt because of them exactly if the list of their texts is another than in the last run, whatever other values the scripts use *)
Theorem C83a_rebuilt : forall other1 deps1 other2 deps2 : list call,
  rebuilt text key key_eqb truthy letter_eqb other1 deps1 other2 deps2 = false <-> map (fun c => text (arg c)) deps1 = map (fun c => text (arg c)) deps2.
Proof.
  assert (S0 : forall other deps, signatures text key key_eqb truthy other deps = map (fun c => text (arg c)) deps).
  { intros other deps. unfold signatures. destruct (value_nodes start other) as [s is0] eqn:E1. destruct (value_nodes s deps) as [s' is] eqn:E2.
    assert (Good start) as G0 by (intros k i []). destruct (value_nodes_ok _ _ _ _ G0 E1) as [G1 _]. destruct (value_nodes_ok _ _ _ _ G1 E2) as [_ [_ C]]. exact C. }
  intros o1 d1 o2 d2. unfold rebuilt. rewrite changed_spec, !S0. split; intros H; symmetry; exact H.
Qed.
End P.

Section Nodes.
Context {V K letter : Type} (key : V -> option (list letter) -> option K) (key_eqb : K -> K -> bool) (truthy : V -> bool).
Hypothesis key_eqb_spec : forall a b, key_eqb a b = true <-> a = b.
Notation state := (@state V K).
Notation call := (@ValModel.call V letter).
Notation value_node := (@value_node V K letter key key_eqb truthy).
Notation value_nodes := (@value_nodes V K letter key key_eqb truthy).

Definition Plain (c : call) (k : K) : Prop := (forall b, built_value c = Some b -> truthy b = false) /\ key (arg c) (name c) = Some k.
Lemma plain_step : forall s c k, Plain c k -> (forall i, lookup key_eqb k (memo s) = Some i -> value_node s c = (s, i)) /\ (lookup key_eqb k (memo s) = None -> exists s' i, value_node s c = (s', i) /\ lookup key_eqb k (memo s') = Some i).
Proof.
  intros s c k [B KE]. assert (match built_value c with Some b => truthy b | None => false end = false) as T by (destruct (built_value c) as [b|]; [exact (B b eq_refl) | reflexivity]).
  unfold ValModel.value_node. rewrite T, KE. split; [intros i L; rewrite L; reflexivity|]. intros L. rewrite L. eexists. eexists. split; [reflexivity|]. cbn. rewrite (proj2 (key_eqb_spec k k) eq_refl). reflexivity.
Qed.
Lemma lookup_kept : forall s c s' i k j, value_node s c = (s', i) -> lookup key_eqb k (memo s) = Some j -> lookup key_eqb k (memo s') = Some j.
Proof.
  intros s c s' i k j E L. unfold ValModel.value_node in E. cbv zeta in E. destruct (match built_value c with Some b => truthy b | None => false end); [injection E as <- _; exact L|].
  destruct (key (arg c) (name c)) as [k'|]; [|injection E as <- _; exact L]. destruct (lookup key_eqb k' (memo s)) as [m|] eqn:L'; [injection E as <- _; exact L|].
  injection E as <- _. cbn. destruct (key_eqb k' k) eqn:Q; [apply key_eqb_spec in Q; subst; congruence | exact L].
Qed.
Lemma lookup_kept_all : forall l s s' is k j, value_nodes s l = (s', is) -> lookup key_eqb k (memo s) = Some j -> lookup key_eqb k (memo s') = Some j.
Proof.
  induction l as [|c l IH]; intros s s' is k j E L; cbn [ValModel.value_nodes] in E; [injection E as <- _; exact L|].
  destruct (value_node s c) as [s1 i] eqn:E1. destruct (value_nodes s1 l) as [s2 js] eqn:E2. injection E as <- _. exact (IH _ _ _ _ _ E2 (lookup_kept _ _ _ _ _ _ E1 L)).
Qed.
(* C83b: two calls with the same value and name give one node, however much is between them *)
Theorem C83b_same : forall c1 c2 between k (s : state), Plain c1 k -> Plain c2 k -> exists i s' is, value_nodes s (c1 :: between ++ [c2]) = (s', i :: is ++ [i]) /\ length is = length between.
Proof.
  intros c1 c2 between k s P1 P2. destruct (plain_step s c1 k P1) as [A B].
  assert (exists s1 i, value_node s c1 = (s1, i) /\ lookup key_eqb k (memo s1) = Some i) as [s1 [i [E1 L1]]].
  { destruct (lookup key_eqb k (memo s)) as [i|] eqn:L; [exists s, i; split; [exact (A i eq_refl) | exact L] | exact (B eq_refl)]. }
  clear A B. cbn [ValModel.value_nodes]. rewrite E1. clear E1 s.
  assert (exists s' is, value_nodes s1 (between ++ [c2]) = (s', is ++ [i]) /\ length is = length between) as [s' [is [E L]]].
  { revert s1 L1. induction between as [|c r IH]; intros s1 L1.
    - cbn. destruct (plain_step s1 c2 k P2) as [A _]. rewrite (A i L1). exists s1, []. split; reflexivity.
    - cbn [app ValModel.value_nodes]. destruct (value_node s1 c) as [s2 j] eqn:E2. destruct (IH s2 (lookup_kept _ _ _ _ _ _ E2 L1)) as [s' [is [E L]]]. rewrite E. exists s', (j :: is). split; [reflexivity | cbn; rewrite L; reflexivity]. }
  rewrite E. exists i, s', is. split; [reflexivity | exact L].
Qed.
End Nodes.

Section ReadWrite.
Context {V K : Type}.
Notation state := (@state V K).
Definition do (s : state) (o : op V) : state := match o with Write _ i v => write s i v | Read _ i => fst (read s i) end.
Definition perform (s : state) (l : list (op V)) : state := fold_left do l s.

Lemma update_same : forall (s : state) i f x, nth_error (nodes s) i = Some x -> nth_error (nodes (update s i f)) i = Some (f x).
Proof.
  intros s i f x H. unfold update. rewrite H. cbn. assert (i < length (nodes s)) as L by (apply nth_error_Some; congruence).
  rewrite nth_error_app2 by (rewrite firstn_length; lia). rewrite firstn_length. replace (i - Nat.min i (length (nodes s))) with 0 by lia. reflexivity.
Qed.
Lemma update_other : forall (s : state) i j f, j <> i -> nth_error (nodes (update s i f)) j = nth_error (nodes s) j.
Proof.
  intros s i j f N. unfold update. destruct (nth_error (nodes s) i) as [x|] eqn:E; [|reflexivity]. cbn. assert (i < length (nodes s)) as L by (apply nth_error_Some; congruence).
  destruct (Nat.lt_ge_cases j i) as [H | H].
  - rewrite nth_error_app1 by (rewrite firstn_length; lia). rewrite <- (firstn_skipn i (nodes s)) at 2. rewrite nth_error_app1 by (rewrite firstn_length; lia). reflexivity.
  - rewrite nth_error_app2 by (rewrite firstn_length; lia). rewrite firstn_length. replace (j - Nat.min i (length (nodes s))) with (S (j - S i)) by lia. cbn.
    rewrite <- (firstn_skipn (S i) (nodes s)) at 2. rewrite nth_error_app2 by (rewrite firstn_length; lia). rewrite firstn_length. f_equal. lia.
Qed.
(* C83c: read() gives what was last written to the node; before that what it was given or what its builder makes, else the value itself; reading, and writing to other nodes, changes nothing *)
Theorem C83c_read : forall (l : list (op V)) (s : state) i x w, nth_error (nodes s) i = Some x -> Last i l w ->
  snd (read (perform s l) i) = Some (match w with Some v => v | None => build_and_read x end).
Proof.
  assert (REACH : forall l (s : state) i x, nth_error (nodes s) i = Some x -> exists y, nth_error (nodes (perform s l)) i = Some y /\ ((forall v, ~ In (Write V i v) l) -> build_and_read y = build_and_read x)).
  { induction l as [|o l IH]; intros s i x H; [exists x; split; [exact H | reflexivity]|]. cbn [perform fold_left]. fold (perform (do s o) l). destruct o as [j v | j]; cbn [do].
    - destruct (Nat.eq_dec i j) as [-> | N].
      + unfold write. destruct (IH _ _ _ (update_same s j (fun x => {| value := value x; built := Some v; action := action x |}) x H)) as [y [Y _]]. exists y. split; [exact Y|]. intros NI. exfalso. apply (NI v). left. reflexivity.
      + destruct (IH (write s j v) i x) as [y [Y Z]]; [unfold write; rewrite update_other by exact N; exact H|]. exists y. split; [exact Y|]. intros NI. apply Z. intros u I. apply (NI u). right. exact I.
    - unfold read. destruct (nth_error (nodes s) j) as [z|] eqn:E; cbn [fst].
      + destruct (Nat.eq_dec i j) as [-> | N].
        * rewrite H in E. injection E as ->. destruct (IH _ _ _ (update_same s j (fun x => {| value := value x; built := Some (build_and_read x); action := action x |}) z H)) as [y [Y Z]].
          exists y. split; [exact Y|]. intros NI. rewrite Z; [reflexivity | intros u I; apply (NI u); right; exact I].
        * destruct (IH (update s j (fun x => {| value := value x; built := Some (build_and_read x); action := action x |})) i x) as [y [Y Z]]; [rewrite update_other by exact N; exact H|].
          exists y. split; [exact Y|]. intros NI. apply Z. intros u I. apply (NI u). right. exact I.
      + destruct (IH s i x H) as [y [Y Z]]. exists y. split; [exact Y|]. intros NI. apply Z. intros u I. apply (NI u). right. exact I. }
  intros l s i x w H L. destruct L as [l N | l1 v l2 N].
  - destruct (REACH l s i x H) as [y [Y Z]]. unfold read. rewrite Y. cbn. rewrite (Z N). reflexivity.
  - unfold perform. rewrite fold_left_app. cbn [fold_left do]. fold (perform s l1). destruct (REACH l1 s i x H) as [y [Y _]].
    destruct (REACH l2 (write (perform s l1) i v) i _ (update_same _ _ (fun x => {| value := value x; built := Some v; action := action x |}) _ Y)) as [z [Z B]].
    fold (perform (write (perform s l1) i v) l2). unfold read. rewrite Z. cbn. rewrite (B N). reflexivity.
Qed.
End ReadWrite.

(* C83d: a value with dependencies: the same value has the same signature exactly if its dependencies have (signatures of one length) *)
Theorem C83d_kids : forall (V letter : Type) (text : V -> list letter) v k (l1 l2 : list (list letter)), 0 < k -> (forall s, In s l1 -> length s = k) -> (forall s, In s l2 -> length s = k) ->
  (csig text v l1 = csig text v l2 <-> l1 = l2).
Proof.
  intros V letter text v k l1 l2 K H1 H2. unfold csig. split; [|intros ->; reflexivity]. intros E. apply app_inv_head in E. exact (proj1 (AliProps.C82f_signature _ k l1 l2 K H1 H2) E).
Qed.
Print Assumptions C83a_rebuilt.
Print Assumptions C83b_same.
Print Assumptions C83c_read.
Print Assumptions C83d_kids.
