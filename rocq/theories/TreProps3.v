(* Printed trees: what was printed determines the dependencies; cases; what does not hold. *)
From Coq Require Import NArith List Bool Arith Lia.
From Verif Require Import TreModel TreSpec TreProps TreProps2.
Import ListNotations.
Open Scope list_scope.

Lemma to_newline : forall (a b r1 r2 : str), ~ In NL a -> ~ In NL b -> a ++ NL :: r1 = b ++ NL :: r2 -> a = b /\ r1 = r2.
Proof.
  induction a as [|x a IH]; intros [|y b] r1 r2 A B E; cbn in E.
  - injection E as ->. split; reflexivity.
  - injection E as E _. exfalso. apply B. left. symmetry. exact E.
  - injection E as E _. exfalso. apply A. left. exact E.
  - injection E as -> E. destruct (IH b r1 r2) as [-> ->]; [intros H; apply A; right; exact H | intros H; apply B; right; exact H | exact E | split; reflexivity].
Qed.
Lemma same_length : forall (a b r1 r2 : str), length a = length b -> a ++ r1 = b ++ r2 -> a = b /\ r1 = r2.
Proof.
  induction a as [|x a IH]; intros [|y b] r1 r2 L E; try discriminate L; [split; [reflexivity | exact E]|]. cbn in *. injection L as L. injection E as -> E. destruct (IH b r1 r2 L E) as [-> ->]. split; reflexivity.
Qed.

Lemma unfolds_top : forall (node : Type) (g : graph node) kids n t, Unfolds g kids n t -> top t = name g n.
Proof. intros node g kids n t H. destruct H. reflexivity. Qed.

Section Text.
Context {node1 node2 : Type} (g1 : graph node1) (g2 : graph node2) (o : options) (legend : str) (k : nat).
Hypothesis C1 : forall n, Clean (name g1 n).
Hypothesis C2 : forall n, Clean (name g2 n).
Hypothesis T1 : forall n, length (tags g1 n) = k /\ ~ In NL (tags g1 n).
Hypothesis T2 : forall n, length (tags g2 n) = k /\ ~ In NL (tags g2 n).

Definition label (b : bool) (s : str) : str := if b then OPEN :: s ++ [CLOSE] else s.
Lemma label_one : forall b1 b2 s1 s2, Clean s1 -> Clean s2 -> label b1 s1 = label b2 s2 -> b1 = b2 /\ s1 = s2.
Proof.
  intros b1 b2 s1 s2 [_ H1] [_ H2] E. unfold label in E. destruct b1, b2.
  - injection E as E. apply app_inv_tail in E. split; [reflexivity | exact E].
  - exfalso. symmetry in E. apply (proj1 (H2 _ _ E)). reflexivity.
  - exfalso. apply (proj1 (H1 _ _ E)). reflexivity.
  - split; [reflexivity | exact E].
Qed.
(* what comes after the margins *)
Definition rest (last parent b : bool) (s : str) : str :=
  (if linedraw o then (if last then [UP_RIGHT; HORIZ] else [VERT_RIGHT; HORIZ]) ++ (if parent then (if b then [HORIZ] else [HORIZ_DOWN]) else []) else [PLUS; MINUS]) ++ label b s.
Lemma rest_one : forall la1 la2 p1 p2 b1 b2 s1 s2, Clean s1 -> Clean s2 -> rest la1 p1 b1 s1 = rest la2 p2 b2 s2 -> b1 = b2 /\ s1 = s2.
Proof.
  intros la1 la2 p1 p2 b1 b2 s1 s2 H1 H2 E. unfold rest in E. destruct (linedraw o).
  - rewrite <- !app_assoc in E. apply same_length in E; [|destruct la1, la2; reflexivity]. destruct E as [_ E].
    assert (HEAD : forall b s c r, Clean s -> label b s = c :: r -> c <> HORIZ /\ c <> HORIZ_DOWN).
    { intros b s c r [_ H] X. destruct b; cbn in X; [injection X as <- _; split; discriminate | exact (proj2 (H c r X))]. }
    destruct p1, p2; cbn [app] in E.
    + assert (label b1 s1 = label b2 s2) as E' by (destruct b1, b2; exact (f_equal (@tl N) E)). exact (label_one _ _ _ _ H1 H2 E').
    + exfalso. destruct b1; cbn [app] in E; symmetry in E; [apply (proj1 (HEAD _ _ _ _ H2 E)) | apply (proj2 (HEAD _ _ _ _ H2 E))]; reflexivity.
    + exfalso. destruct b2; cbn [app] in E; [apply (proj1 (HEAD _ _ _ _ H1 E)) | apply (proj2 (HEAD _ _ _ _ H1 E))]; reflexivity.
    + exact (label_one _ _ _ _ H1 H2 E).
  - cbn [app] in E. injection E as E. exact (label_one _ _ _ _ H1 H2 E).
Qed.
Lemma rest_head : forall la p b s m r, rest la p b s = margin o m ++ r -> False.
Proof. intros la p b s m r E. unfold rest, margin in E. destruct (linedraw o); [destruct la, m | destruct m]; discriminate E. Qed.
Lemma margins_one : forall ms1 ms2 la1 la2 p1 p2 b1 b2 s1 s2, Clean s1 -> Clean s2 -> flat_map (margin o) ms1 ++ rest la1 p1 b1 s1 = flat_map (margin o) ms2 ++ rest la2 p2 b2 s2 ->
  length ms1 = length ms2 /\ b1 = b2 /\ s1 = s2.
Proof.
  induction ms1 as [|m1 ms1 IH]; intros [|m2 ms2] la1 la2 p1 p2 b1 b2 s1 s2 H1 H2 E; cbn [flat_map app] in E.
  - split; [reflexivity|]. exact (rest_one _ _ _ _ _ _ _ _ H1 H2 E).
  - exfalso. rewrite <- app_assoc in E. exact (rest_head _ _ _ _ _ _ E).
  - exfalso. rewrite <- app_assoc in E. exact (rest_head _ _ _ _ _ _ (eq_sym E)).
  - rewrite <- !app_assoc in E. apply same_length in E; [|unfold margin; destruct m1, m2, (linedraw o); reflexivity]. destruct E as [_ E]. destruct (IH _ _ _ _ _ _ _ _ _ H1 H2 E) as [L B]. split; [cbn; f_equal; exact L | exact B].
Qed.
Lemma text_one : forall l1 l2, text g1 o l1 = text g2 o l2 -> sight g1 l1 = sight g2 l2.
Proof.
  intros l1 l2 E. unfold text in E. apply same_length in E; [|destruct (status o); [rewrite (proj1 (T1 _)), (proj1 (T2 _)); reflexivity | reflexivity]]. destruct E as [_ E].
  destruct (margins_one (margins l1) (margins l2) (last l1) (last l2) (parent l1) (parent l2) (bracket l1) (bracket l2) _ _ (C1 (who l1)) (C2 (who l2)) E) as [L [B N]].
  unfold sight. rewrite L, B, N. reflexivity.
Qed.
Lemma no_newline : forall (node : Type) (g : graph node), (forall n, Clean (name g n)) -> (forall n, length (tags g n) = k /\ ~ In NL (tags g n)) -> forall l, ~ In NL (text g o l).
Proof.
  intros node g C T0 l I. unfold text in I. rewrite !in_app_iff in I. destruct I as [I | [I | [I | I]]].
  - destruct (status o); [exact (proj2 (T0 _) I) | exact I].
  - apply in_flat_map in I. destruct I as [m [_ I]]. unfold margin in I. destruct m, (linedraw o); cbn in I; repeat (destruct I as [I | I]; [discriminate I|]); exact I.
  - unfold cross in I. destruct (linedraw o), (last l), (parent l), (bracket l); cbn in I; repeat (destruct I as [I | I]; [discriminate I|]); exact I.
  - destruct (bracket l); [|exact (proj1 (C _) I)]. destruct I as [I | I]; [discriminate I|]. apply in_app_or in I. destruct I as [I | [I | []]]; [exact (proj1 (C _) I) | discriminate I].
Qed.
Lemma output_one : forall ls1 ls2, output g1 o legend ls1 = output g2 o legend ls2 -> map (sight g1) ls1 = map (sight g2) ls2.
Proof.
  intros ls1 ls2 E. unfold output in E. apply app_inv_head in E. revert ls2 E. induction ls1 as [|l1 ls1 IH]; intros [|l2 ls2] E; cbn [flat_map] in E.
  - reflexivity.
  - exfalso. destruct (text g2 o l2); discriminate E.
  - exfalso. destruct (text g1 o l1); discriminate E.
  - rewrite <- !app_assoc in E. cbn [app] in E. apply to_newline in E; [|exact (no_newline _ g1 C1 T1 l1) | exact (no_newline _ g2 C2 T2 l2)]. destruct E as [E1 E2]. cbn [map]. f_equal; [exact (text_one _ _ E1) | exact (IH _ E2)].
Qed.

(* C84e: what was printed determines what is shown: without prune the whole tree, with prune what each node depends on *)
Theorem C84e_determines : forall f1 f2 r1 r2 ls1 ls2, display g1 o f1 r1 = Some ls1 -> display g2 o f2 r2 = Some ls2 -> output g1 o legend ls1 = output g2 o legend ls2 ->
  name g1 r1 = name g2 r2 /\
  (prune o = false -> exists t, Unfolds g1 (children g1 o) r1 t /\ Unfolds g2 (children g2 o) r2 t) /\
  (prune o = true -> (forall m n, name g1 m = name g1 n -> m = n) -> (forall m n, name g2 m = name g2 n -> m = n) ->
   forall m1, Reach (children g1 o) r1 m1 -> exists m2, Reach (children g2 o) r2 m2 /\ name g1 m1 = name g2 m2 /\ map (name g1) (children g1 o m1) = map (name g2) (children g2 o m2)).
Proof.
  intros f1 f2 r1 r2 ls1 ls2 D1 D2 E. apply output_one in E. destruct (prune o) eqn:P.
  - destruct (C84c_pruned g1 o P _ _ _ D1) as [t1 [N1 [S1 [_ [_ [_ [_ A1]]]]]]]. destruct (C84c_pruned g2 o P _ _ _ D2) as [t2 [N2 [S2 [_ [A2 _]]]]].
    assert (t1 = t2) as <- by (rewrite E in S1; exact (shows_one _ _ _ _ S1 S2)). split; [rewrite <- N1; exact N2|]. split; [intros X; discriminate X|].
    intros _ I1 I2 m1 R. destruct (A1 (fun a b _ _ => I1 a b) m1 R) as [x [X1 [X2 [X3 X4]]]]. destruct (A2 x X1 X2) as [m2 [R2 [Y3 Y4]]]. exists m2. split; [exact R2|]. split; congruence.
  - destruct (C84a_whole g1 o _ _ _ P D1) as [t1 [U1 S1]]. destruct (C84a_whole g2 o _ _ _ P D2) as [t2 [U2 S2]].
    assert (t1 = t2) as <- by (rewrite E in S1; exact (shows_one _ _ _ _ S1 S2)). split; [|split; [intros _; exists t1; split; assumption | intros X; discriminate X]].
    rewrite <- (unfolds_top _ _ _ _ _ U1). exact (unfolds_top _ _ _ _ _ U2).
Qed.
End Text.
(* C84f: what is below a node: what it depends on, ignored or not, in the order sources, Depends, implicit; with derived only what is built *)
Theorem C84f_children : forall (node : Type) (g : graph node) (o : options) n c,
  In c (children g o n) <-> (In c (sources g n) \/ In c (depends g n) \/ In c (implicit g n)) /\ (derived o = true -> has_builder g c = true).
Proof.
  intros node g o n c. unfold children, all_children. destruct (derived o).
  - rewrite filter_In, !in_app_iff. split; intros [A B]; (split; [exact A|]); [intros _; exact B | exact (B eq_refl)].
  - rewrite !in_app_iff. split; [intros A; split; [exact A | intros X; discriminate X] | intros [A _]; exact A].
Qed.
Print Assumptions C84e_determines.
Print Assumptions C84f_children.
