(* Printed trees with prune: everything once. *)
From Coq Require Import NArith List Bool Arith Lia.
From Verif Require Import TreModel TreSpec TreProps.
Import ListNotations.
Open Scope list_scope.

Definition bracketed (t : tree) : bool := match t with T _ b _ => b end.
Definition seen (l : list tree) (s : str) : Prop := exists y, In y l /\ bracketed y = false /\ top y = s.

Section Prune.
Context {node : Type} (g : graph node) (o : options).
Hypothesis P : prune o = true.
Notation kids := (children g o).
Notation sight := (sight g).

Definition Order (v : list str) (L : list tree) : Prop := forall l1 x l2, L = l1 ++ x :: l2 ->
  (bracketed x = true -> In (top x) v \/ seen l1 (top x)) /\ (bracketed x = false -> render o = true \/ below x <> [] -> ~ In (top x) v /\ ~ seen l1 (top x)).
Definition After (v : list str) (L : list tree) (w : list str) : Prop := forall s, In s w <-> In s v \/ seen L s.
Definition Made (R : node -> Prop) (L : list tree) : Prop := forall x, In x L ->
  (bracketed x = true -> below x = [] /\ exists m, R m /\ top x = name g m /\ (render o = true \/ kids m <> [])) /\
  (bracketed x = false -> exists m, R m /\ top x = name g m /\ map top (below x) = map (name g) (kids m)).
Lemma seen_app : forall l1 l2 s, seen (l1 ++ l2) s <-> seen l1 s \/ seen l2 s.
Proof.
  intros l1 l2 s. unfold seen. split.
  - intros [y [I H]]. apply in_app_or in I. destruct I as [I | I]; [left | right]; exists y; split; assumption.
  - intros [[y [I H]] | [y [I H]]]; exists y; (split; [apply in_or_app; (left; exact I) || (right; exact I) | exact H]).
Qed.
Lemma order_app : forall v L1 w L2, Order v L1 -> After v L1 w -> Order w L2 -> Order v (L1 ++ L2).
Proof.
  intros v L1 w L2 O1 A O2 l1 x l2 E. apply app_eq_app in E. destruct E as [l [[E1 E2] | [E1 E2]]].
  - destruct l as [|y l].
    + rewrite app_nil_r in E1. subst l1. cbn in E2. destruct (O2 [] x l2 (eq_sym E2)) as [B C]. split.
      * intros H. destruct (B H) as [I | [y [[] _]]]. apply A in I. exact I.
      * intros H H'. destruct (C H H') as [N _]. split; intros I; apply N, A; [left | right]; exact I.
    + cbn in E2. injection E2 as <- E2. exact (O1 l1 x l E1).
  - destruct (O2 l x l2 E2) as [B C]. subst l1. split.
    + intros H. rewrite seen_app. destruct (B H) as [I | I]; [apply A in I; tauto | tauto].
    + intros H H'. destruct (C H H') as [N M]. rewrite seen_app. split; [intros I; apply N, A; left; exact I | intros [I | I]; [apply N, A; right; exact I | exact (M I)]].
Qed.
Lemma after_app : forall v L1 w L2 w', After v L1 w -> After w L2 w' -> After v (L1 ++ L2) w'.
Proof. intros v L1 w L2 w' A B s. rewrite (B s), (A s), seen_app. tauto. Qed.
Lemma made_app : forall R L1 L2, Made R L1 -> Made R L2 -> Made R (L1 ++ L2).
Proof. intros R L1 L2 A B x I. apply in_app_or in I. destruct I as [I | I]; [exact (A x I) | exact (B x I)]. Qed.
Lemma made_more : forall (R R' : node -> Prop) L, (forall m, R m -> R' m) -> Made R L -> Made R' L.
Proof.
  intros R R' L H A x I. destruct (A x I) as [B C]. split.
  - intros X. destruct (B X) as [X1 [m [X2 X3]]]. split; [exact X1 | exists m; split; [exact (H m X2) | exact X3]].
  - intros X. destruct (C X) as [m [X2 X3]]. exists m. split; [exact (H m X2) | exact X3].
Qed.
Lemma one_split : forall (x : tree) l1 y l2, [x] = l1 ++ y :: l2 -> l1 = [] /\ y = x.
Proof. intros x [|a l1] y l2 E; [cbn in E; injection E as <- _; split; reflexivity|]. cbn in E. injection E as _ E. destruct l1; discriminate E. Qed.

Definition Good (R : node -> Prop) (v : list str) (L : list tree) (w : list str) : Prop := Order v L /\ After v L w /\ Made R L.
Lemma good_nil : forall R v, Good R v [] v.
Proof.
  intros R v. split; [intros l1 x l2 E; destruct l1; discriminate E|]. split; [|intros x []]. intros s. split; [left; assumption | intros [H | [y [[] _]]]; exact H].
Qed.
Lemma good_app : forall R v L1 w L2 w', Good R v L1 w -> Good R w L2 w' -> Good R v (L1 ++ L2) w'.
Proof.
  intros R v L1 w L2 w' [A [B C]] [A' [B' C']]. split; [exact (order_app _ _ _ _ A B A')|]. split; [exact (after_app _ _ _ _ _ B B') | exact (made_app _ _ _ C C')].
Qed.

Lemma reach_below : forall n c m, In c (kids n) -> Reach kids c m -> Reach kids n m.
Proof. intros n c m I H. induction H as [|m d H IH K]; [exact (reach_step _ _ _ _ (reach_root _ _) I) | exact (reach_step _ _ _ _ IH K)]. Qed.

Lemma print_pruned : forall fuel above own last v n ls v', print g o fuel above own last v n = Some (ls, v') ->
  exists t, top t = name g n /\ Shows (length above) t (map sight ls) /\ Good (Reach kids n) v (subtrees t) v'.
Proof.
  induction fuel as [|fuel IH]; intros above own last v n ls v' H; [discriminate H|]. cbn [print] in H. rewrite P in H. cbn [andb] in H.
  destruct (mem (name g n) v && (render o || nonempty (kids n))) eqn:SEEN.
  { injection H as <- <-. exists (T (name g n) true []). split; [reflexivity|]. split; [cbn; unfold TreProps.sight; cbn; constructor; constructor|].
    apply andb_true_iff in SEEN. destruct SEEN as [M K]. apply mem_spec in M. cbn. split; [|split].
    - intros l1 x l2 E. apply one_split in E. destruct E as [-> ->]. split; [intros _; left; exact M | intros X; discriminate X].
    - intros s. split; [left; assumption | intros [X | [y [[<- | []] [X _]]]]; [exact X | discriminate X]].
    - intros x [<- | []]. split; [|intros X; discriminate X]. intros _. split; [reflexivity|]. exists n. split; [apply reach_root|]. split; [reflexivity|]. apply orb_true_iff in K.
      destruct K as [K | K]; [left; exact K | right; intros E; rewrite E in K; discriminate K]. }
  destruct (each _ _ _) as [[l w]|] eqn:E in H; [|discriminate H]. injection H as <- <-.
  assert (A : forall (R : node -> Prop) ch, (forall c, In c ch -> forall m, Reach kids c m -> R m) -> forall v0 l w,
    each (fun more visited c => print g o fuel (above ++ [own]) more (negb more) visited c) v0 ch = Some (l, w) ->
    exists ts, map top ts = map (name g) ch /\ ShowsAll (S (length above)) ts (map sight l) /\ Good R v0 (flat_map subtrees ts) w).
  { clear - IH P. intros R ch. rename IH into IH0. induction ch as [|c r IHr]; intros IN v0 l w E; cbn [each] in E.
    - injection E as <- <-. exists []. split; [reflexivity|]. split; [constructor | apply good_nil].
    - destruct (print g o fuel (above ++ [own]) (nonempty r) (negb (nonempty r)) v0 c) as [[l1 v1]|] eqn:E1; [|discriminate E]. destruct (each _ _ r) as [[l2 v2]|] eqn:E2; [|discriminate E]. injection E as <- <-.
      destruct (IH0 _ _ _ _ _ _ _ E1) as [t [N1 [S1 G1]]]. destruct (IHr (fun d I => IN d (or_intror I)) _ _ _ E2) as [ts [N2 [S2 G2]]]. rewrite app_length, Nat.add_comm in S1.
      exists (t :: ts). split; [cbn; f_equal; assumption|]. split; [rewrite map_app; constructor; assumption|]. cbn. apply (good_app _ _ _ v1); [|exact G2].
      destruct G1 as [A1 [B1 C1]]. split; [exact A1|]. split; [exact B1|]. exact (made_more _ _ _ (IN c (or_introl eq_refl)) C1). }
  destruct (A (Reach kids n) (kids n) (fun c I m => reach_below n c m I) _ _ _ E) as [ts [N0 [S0 G0]]]. exists (T (name g n) false ts). split; [reflexivity|].
  split; [cbn [map]; unfold TreProps.sight at 1; cbn; constructor; exact S0|]. cbn [subtrees]. change (T (name g n) false ts :: flat_map subtrees ts) with ([T (name g n) false ts] ++ flat_map subtrees ts).
  apply (good_app _ _ _ (name g n :: v)); [|exact G0]. split; [|split].
  - intros l1 x l2 X. apply one_split in X. destruct X as [-> ->]. split; [intros X; discriminate X|]. intros _ K. split; [|intros [y [[] _]]]. cbn [top]. intros I. apply mem_spec in I. rewrite I in SEEN. cbn [andb] in SEEN.
    apply orb_false_iff in SEEN. destruct SEEN as [S1 S2]. destruct K as [K | K]; [rewrite K in S1; discriminate S1|]. cbn [below] in K. destruct (kids n); [|discriminate S2]. destruct ts; [exact (K eq_refl) | discriminate N0].
  - intros s. cbn [In]. split.
    + intros [<- | X]; [right; exists (T (name g n) false ts); split; [left; reflexivity | split; reflexivity] | left; exact X].
    + intros [X | [y [[<- | []] [_ <-]]]]; [right; exact X | left; reflexivity].
  - intros x [<- | []]. split; [intros X; discriminate X|]. intros _. exists n. split; [apply reach_root|]. split; [reflexivity | exact N0].
Qed.

Fixpoint size (t : tree) : nat := match t with T _ _ ts => S (fold_right (fun t n => size t + n) 0 ts) end.
Lemma below_seen : forall k t, size t <= k -> forall x, In x (subtrees t) -> forall y, In y (below x) -> In y (subtrees t).
Proof.
  assert (SELF : forall t, In t (subtrees t)) by (intros [n b ts]; left; reflexivity).
  induction k as [|k IH]; intros [n b ts] L x I y J; cbn [size] in L; [lia|]. cbn [subtrees] in *. destruct I as [<- | I].
  - right. apply in_flat_map. exists y. split; [exact J | apply SELF].
  - right. apply in_flat_map in I. destruct I as [t [I X]]. apply in_flat_map. exists t. split; [exact I|]. apply (IH t) with x; [|exact X | exact J].
    clear - L I. induction ts as [|u ts IHt]; [contradiction|]. cbn in L. destruct I as [-> | I]; [lia | apply IHt; [lia | exact I]].
Qed.

(* C84c: with prune: a tree in which brackets stand for what is shown further up; every dependency is shown, with all of its own, once *)
Theorem C84c_pruned : forall fuel root ls, display g o fuel root = Some ls -> exists t, top t = name g root /\ Shows 0 t (map sight ls) /\
  (forall l1 x l2, subtrees t = l1 ++ x :: l2 -> bracketed x = true -> below x = [] /\ exists y, In y l1 /\ bracketed y = false /\ top y = top x) /\
  (forall x, In x (subtrees t) -> bracketed x = false -> exists m, Reach kids root m /\ top x = name g m /\ map top (below x) = map (name g) (kids m)) /\
  (forall l1 x l2 y l3, subtrees t = l1 ++ x :: l2 ++ y :: l3 -> bracketed x = false -> bracketed y = false -> top x = top y -> below y = [] /\ render o = false) /\
  (render o = false -> forall x, In x (subtrees t) -> bracketed x = true -> exists m, Reach kids root m /\ top x = name g m /\ kids m <> []) /\
  ((forall m1 m2, Reach kids root m1 -> Reach kids root m2 -> name g m1 = name g m2 -> m1 = m2) ->
   forall m, Reach kids root m -> exists x, In x (subtrees t) /\ bracketed x = false /\ top x = name g m /\ map top (below x) = map (name g) (kids m)).
Proof.
  intros fuel root ls H. unfold display in H. destruct (print g o fuel [] false true [] root) as [[l v]|] eqn:E; [|discriminate H]. injection H as ->.
  destruct (print_pruned _ _ _ _ _ _ _ _ E) as [t [N [S0 [O [A M]]]]]. exists t. split; [exact N|]. split; [exact S0|].
  assert (FIRST : forall l1 x l2, subtrees t = l1 ++ x :: l2 -> bracketed x = true -> below x = [] /\ exists y, In y l1 /\ bracketed y = false /\ top y = top x).
  { intros l1 x l2 X B. split; [apply (M x); [rewrite X; apply in_or_app; right; left; reflexivity | exact B]|]. destruct (proj1 (O l1 x l2 X) B) as [[] | Y]. exact Y. }
  assert (EVERY : forall x, In x (subtrees t) -> bracketed x = false -> exists m, Reach kids root m /\ top x = name g m /\ map top (below x) = map (name g) (kids m)) by (intros x I B; exact (proj2 (M x I) B)).
  split; [exact FIRST|]. split; [exact EVERY|]. split; [|split].
  - intros l1 x l2 y l3 X BX BY T0. change (x :: l2 ++ y :: l3) with ((x :: l2) ++ y :: l3) in X. rewrite app_assoc in X. pose proof (proj2 (O _ _ _ X) BY) as Y.
    assert (NO : ~ (render o = true \/ below y <> [])).
    { intros Z. apply (proj2 (Y Z)). exists x. split; [apply in_or_app; right; left; reflexivity | split; assumption]. }
    split; [destruct (below y); [reflexivity | exfalso; apply NO; right; discriminate] | destruct (render o); [exfalso; apply NO; left; reflexivity | reflexivity]].
  - intros RF x I B. destruct (proj1 (M x I) B) as [_ [m [R [T0 [K | K]]]]]; [rewrite RF in K; discriminate K | exists m; split; [exact R | split; assumption]].
  - intros NAMED. assert (SHOWN : forall x, In x (subtrees t) -> exists y, In y (subtrees t) /\ bracketed y = false /\ top y = top x).
    { intros x I. destruct (bracketed x) eqn:B; [|exists x; split; [exact I | split; [exact B | reflexivity]]]. destruct (in_split _ _ I) as [l1 [l2 X]]. destruct (FIRST l1 x l2 X B) as [_ [y [Y1 Y2]]].
      exists y. split; [rewrite X; apply in_or_app; left; exact Y1 | exact Y2]. }
    intros m R. assert (G : exists x, In x (subtrees t) /\ bracketed x = false /\ top x = name g m).
    { induction R as [|m c R IH I].
      - destruct (SHOWN t) as [y [Y1 [Y2 Y3]]]; [destruct t; left; reflexivity|]. exists y. split; [exact Y1 | split; [exact Y2 | rewrite Y3; exact N]].
      - destruct IH as [x [X1 [X2 X3]]]. destruct (EVERY x X1 X2) as [m' [R' [X4 X5]]]. assert (m' = m) as -> by (apply NAMED; [exact R' | exact R | rewrite <- X4; exact X3]).
        assert (In (name g c) (map top (below x))) as J by (rewrite X5; apply in_map; exact I). apply in_map_iff in J. destruct J as [z [Z1 Z2]].
        destruct (SHOWN z (below_seen _ t (le_n _) x X1 z Z2)) as [y [Y1 [Y2 Y3]]]. exists y. split; [exact Y1 | split; [exact Y2 | congruence]]. }
    destruct G as [x [X1 [X2 X3]]]. exists x. split; [exact X1|]. split; [exact X2|]. split; [exact X3|]. destruct (EVERY x X1 X2) as [m' [R' [X4 X5]]].
    assert (m' = m) as -> by (apply NAMED; [exact R' | exact R | rewrite <- X4; exact X3]). exact X5.
Qed.

(* C84d: it ends for every finite graph, with cycles or without *)
Definition left_over (v : list str) (U : list str) : nat := length (filter (fun s => negb (mem s v)) U).
Lemma left_less : forall v w U, (forall s, In s v -> In s w) -> left_over w U <= left_over v U.
Proof.
  intros v w U H. unfold left_over. induction U as [|s U IH]; [apply le_n|]. cbn. destruct (mem s v) eqn:A.
  - apply mem_spec, H, mem_spec in A. rewrite A. exact IH.
  - destruct (mem s w); cbn; lia.
Qed.
Lemma left_drop : forall v U s, In s U -> ~ In s v -> left_over (s :: v) U < left_over v U.
Proof.
  intros v U s I N. pose proof (fun U => left_less v (s :: v) U (fun x H => or_intror H)) as L. unfold left_over in *. induction U as [|x U IH]; [contradiction|]. cbn [filter]. destruct I as [-> | I].
  - assert (mem s v = false) as -> by (destruct (mem s v) eqn:A; [apply mem_spec in A; contradiction | reflexivity]). assert (mem s (s :: v) = true) as -> by (apply mem_spec; left; reflexivity). cbn [negb length]. pose proof (L U). lia.
  - specialize (IH I). destruct (mem x v) eqn:A.
    + assert (mem x (s :: v) = true) as -> by (apply mem_spec; right; apply mem_spec; exact A). exact IH.
    + destruct (mem x (s :: v)); cbn [negb length]; lia.
Qed.
Lemma each_ends : forall fuel above own U r (names : list str), (forall c, In c r -> In c U) ->
  (forall n above own last v, In n U -> left_over v names < fuel -> exists x, print g o fuel above own last v n = Some x) ->
  forall v, left_over v names < fuel -> exists x, each (fun more visited c => print g o fuel (above ++ [own]) more (negb more) visited c) v r = Some x.
Proof.
  intros fuel above own U r names. induction r as [|c r IHr]; intros IN F v L; cbn [each]; [eexists; reflexivity|].
  destruct (F c (above ++ [own]) (nonempty r) (negb (nonempty r)) v (IN c (or_introl eq_refl)) L) as [[l1 w] E]. rewrite E.
  destruct (print_pruned _ _ _ _ _ _ _ _ E) as [t [_ [_ [_ [A _]]]]].
  destruct (IHr (fun d I => IN d (or_intror I)) F w) as [[l2 w2] ->]; [|eexists; reflexivity]. pose proof (left_less v w names (fun s I => proj2 (A s) (or_introl I))). lia.
Qed.
Theorem C84d_ends : forall (U : list node), (forall n c, In n U -> In c (kids n) -> In c U) -> forall root fuel, In root U -> length U < fuel -> exists ls, display g o fuel root = Some ls.
Proof.
  intros U CL. assert (A : forall fuel n above own last v, In n U -> left_over v (map (name g) U) < fuel -> exists x, print g o fuel above own last v n = Some x).
  { induction fuel as [|fuel IH]; intros n above own last v I L; [lia|]. cbn [print]. rewrite P. cbn [andb]. destruct (mem (name g n) v && (render o || nonempty (kids n))) eqn:SEEN; [eexists; reflexivity|].
    destruct (mem (name g n) v) eqn:M.
    - cbn in SEEN. apply orb_false_iff in SEEN. destruct SEEN as [_ K]. destruct (kids n); [eexists; reflexivity | discriminate K].
    - destruct (each_ends fuel above own U (kids n) (map (name g) U) (fun c => CL n c I) IH (name g n :: v)) as [[l w] ->]; [|eexists; reflexivity].
      assert (~ In (name g n) v) as N by (intros X; apply mem_spec in X; rewrite X in M; discriminate M). pose proof (left_drop v _ _ (in_map (name g) _ _ I) N). lia. }
  intros root fuel I L. unfold display. destruct (A fuel root [] false true [] I) as [[l v] ->]; [|eexists; reflexivity].
  unfold left_over. assert (forall (f : str -> bool) l, length (filter f l) <= length l) as FL by (intros f l; induction l as [|x l IHl]; [apply le_n | cbn; destruct (f x); cbn; lia]).
  pose proof (FL (fun s => negb (mem s [])) (map (name g) U)) as X. rewrite map_length in X. lia.
Qed.
End Prune.
Print Assumptions C84c_pruned.
Print Assumptions C84d_ends.
