(* C55: there is one way to build each target. *)
From Coq Require Import List Bool Arith Lia.
Import ListNotations.
From Verif Require Import BldModel.

(* ---- Specification ---- *)
(* the calls of a history that name t as a target *)
Definition call_of (o : op) : list call := match o with Call c => [c] | _ => [] end.
Definition calls_on (h : list op) (t : node) : list call := filter (fun c => mem t (c_tl c)) (flat_map call_of h).
(* each element once, in order of first occurrence *)
Fixpoint once (l : list node) : list node := match l with [] => [] | x :: r => x :: filter (fun y => negb (Nat.eqb x y)) (once r) end.
(* all sources given for t so far *)
Definition sources_given (h : list op) (t : node) : list node := once (flat_map c_sl (calls_on h t)).
(* named as side effect *)
Definition side_of (o : op) : list node := match o with SideEffect ses _ => ses | _ => [] end.
(* the environment objects cannot be distinguished: the same one, or overrides with equal values of the same one *)
Definition equal_env (e e' : envr) : Prop := e_id e = e_id e' \/ exists p, e_over e = Some p /\ e_over e' = Some p.

Lemma mem_In n l : mem n l = true <-> In n l.
Proof. unfold mem. rewrite existsb_exists. split; [intros (x & H & E); apply Nat.eqb_eq in E; subst; exact H | intros H; exists n; split; [exact H | apply Nat.eqb_refl]]. Qed.
Lemma mem_false n l : mem n l = false <-> ~ In n l.
Proof. rewrite <- mem_In. destruct (mem n l); split; congruence. Qed.
Lemma leqb_eq a : forall b, leqb a b = true <-> a = b.
Proof.
  induction a as [|x a IH]; intros [|y b]; cbn; try (split; [reflexivity || discriminate | reflexivity || discriminate]).
  rewrite andb_true_iff, Nat.eqb_eq, IH. split; [intros [-> ->]; reflexivity | intros E; injection E; auto].
Qed.
Lemma builder_eqb_eq a b : builder_eqb a b = true -> a = b.
Proof.
  unfold builder_eqb. rewrite !andb_true_iff, !Nat.eqb_eq, !eqb_true_iff. destruct a, b. cbn. intros [[[[-> ->] ->] ->] ->]. reflexivity.
Qed.
Lemma upd_same {A} (f : nat -> A) k v : upd f k v k = v.
Proof. unfold upd. rewrite Nat.eqb_refl. reflexivity. Qed.
Lemma upd_other {A} (f : nat -> A) k v x : x <> k -> upd f k v x = f x.
Proof. intros H. unfold upd. apply Nat.eqb_neq in H. rewrite H. reflexivity. Qed.

Lemma filter_neg_comm (a b : node) l : filter (fun y => negb (Nat.eqb a y)) (filter (fun y => negb (Nat.eqb b y)) l) = filter (fun y => negb (Nat.eqb b y)) (filter (fun y => negb (Nat.eqb a y)) l).
Proof.
  induction l as [|x l IH]; [reflexivity|]. cbn. destruct (Nat.eqb b x) eqn:E1; destruct (Nat.eqb a x) eqn:E2; cbn; rewrite ?E1, ?E2; cbn; rewrite ?IH; reflexivity.
Qed.
Lemma once_In x l : In x (once l) <-> In x l.
Proof.
  induction l as [|y l IH]; [reflexivity|]. cbn. rewrite filter_In, IH. split; [intros [->|[H _]]; auto|]. intros [->|H]; [auto|].
  destruct (Nat.eq_dec y x) as [->|N]; [auto|]. right. split; [exact H|]. apply Nat.eqb_neq in N. rewrite N. reflexivity.
Qed.
Lemma once_snoc l x : once (l ++ [x]) = if mem x l then once l else once l ++ [x].
Proof.
  induction l as [|y l IH]; [reflexivity|]. cbn [once app]. rewrite IH. cbn [mem existsb]. fold (mem x l). rewrite (Nat.eqb_sym x y). destruct (Nat.eqb y x) eqn:E; cbn [orb].
  - apply Nat.eqb_eq in E. subst y. destruct (mem x l); [reflexivity|]. rewrite filter_app. cbn. rewrite Nat.eqb_refl. cbn. rewrite app_nil_r. reflexivity.
  - destruct (mem x l); [reflexivity|]. rewrite filter_app. cbn. rewrite E. reflexivity.
Qed.
Lemma add_child_once b : forall a, add_child (once a) b = once (a ++ b).
Proof.
  induction b as [|x b IH]; intros a; [rewrite app_nil_r; reflexivity|]. cbn [add_child fold_left]. change (a ++ x :: b) with (a ++ [x] ++ b). rewrite app_assoc, <- IH, once_snoc.
  unfold add_child. f_equal. destruct (mem x (once a)) eqn:E1; destruct (mem x a) eqn:E2; try reflexivity.
  - apply mem_In in E1. apply mem_false in E2. rewrite once_In in E1. contradiction.
  - apply mem_false in E1. apply mem_In in E2. rewrite once_In in E1. contradiction.
Qed.

Lemma calls_on_snoc h o t : calls_on (h ++ [o]) t = calls_on h t ++ match o with Call c => if mem t (c_tl c) then [c] else [] | _ => [] end.
Proof.
  unfold calls_on. rewrite flat_map_app, filter_app. f_equal. cbn. rewrite app_nil_r. destruct o as [c|ns a|ns a|ses ts]; cbn; try reflexivity.
Qed.

Section P.
Context (contents : act -> list node -> list node -> envr -> nat) (batch_key : act -> envr -> list node -> list node -> option nat).
Local Notation run := (run contents batch_key).
Local Notation step := (step contents batch_key).

Lemma run_app h : forall s h2, run s (h ++ h2) = match run s h with Some s' => run s' h2 | None => None end.
Proof. induction h as [|o h IH]; intros s h2; [reflexivity|]. cbn. destruct (step s o); [apply IH | reflexivity]. Qed.
Lemma run_snoc h o s : run empty (h ++ [o]) = Some s -> exists s0, run empty h = Some s0 /\ step s0 o = Some s.
Proof. rewrite run_app. cbn. intros H. destruct (run empty h) as [s0|]; [|discriminate]. exists s0. destruct (step s0 o); [auto | discriminate]. Qed.

(* what a node looks like, its executor aside *)
Definition core (n : nd) := (n_side n, n_builder n, n_explicit n, n_env n, n_sources n).
Lemma get_executor_core s t : forall n, core (nodes (fst (get_executor s t)) n) = core (nodes s n).
Proof.
  intros n. unfold get_executor. destruct (n_exec (nodes s t)); [reflexivity|]. cbn [fst set_nodes nodes]. destruct (Nat.eq_dec n t) as [->|N]; [rewrite upd_same; reflexivity | rewrite upd_other by exact N; reflexivity].
Qed.
Lemma executors_core ns : forall s n, core (nodes (fst (executors s ns)) n) = core (nodes s n).
Proof.
  induction ns as [|m ns IH]; intros s n; [reflexivity|]. cbn [executors]. pose proof (get_executor_core s m n) as G. destruct (get_executor s m) as [s1 x]. specialize (IH s1 n). destruct (executors s1 ns) as [s2 l]. cbn [fst] in *. congruence.
Qed.
Lemma add_actions_nodes pre a l : forall s, nodes (fold_left (fun s i => set_exec s i (add_action pre a (execs s i))) l s) = nodes s.
Proof. induction l as [|i l IH]; intros s; [reflexivity|]. cbn. rewrite IH. reflexivity. Qed.
Lemma do_action_core pre s ns a n : core (nodes (do_action pre s ns a) n) = core (nodes s n).
Proof. unfold do_action. pose proof (executors_core ns s n) as H. destruct (executors s ns) as [s1 l]. rewrite add_actions_nodes. exact H. Qed.

Lemma find_executor_nodes s c s1 x : find_executor batch_key s c = Some (s1, x) -> nodes s1 = nodes s.
Proof.
  unfold find_executor. destruct (if b_multi (c_b c) then _ else None) as [i|].
  - destruct (add_sources (execs s i) (c_sl c)); [|discriminate]. intros H. injection H as <- <-. reflexivity.
  - destruct (batch_key _ _ _ _) as [k|]; [destruct (lookup k (keys s))|]; intros H; injection H as <- <-; reflexivity.
Qed.
Lemma set_target_fold c x tl : forall f n, (~ In n tl -> fold_left (fun f t => upd f t (set_target c x (f t))) tl f n = f n).
Proof.
  induction tl as [|t tl IH]; intros f n H; [reflexivity|]. cbn [fold_left]. rewrite IH by (intros Q; apply H; right; exact Q). apply upd_other. intros ->. apply H. left. reflexivity.
Qed.
Lemma add_child_In c : forall l, In c l -> (if mem c l then l else l ++ [c]) = l.
Proof. intros l H. apply mem_In in H. rewrite H. reflexivity. Qed.
Lemma add_child_incl b : forall a, (forall x, In x a -> In x (add_child a b)) /\ (forall x, In x b -> In x (add_child a b)).
Proof.
  induction b as [|y b IH]; intros a; [split; [auto | intros x []]|]. cbn [add_child fold_left]. fold (add_child (if mem y a then a else a ++ [y]) b).
  destruct (IH (if mem y a then a else a ++ [y])) as [I1 I2]. assert (A : forall x, In x a \/ x = y -> In x (if mem y a then a else a ++ [y])).
  { intros x H. destruct (mem y a) eqn:E; [destruct H as [H | ->]; [exact H | apply mem_In; exact E] | apply in_or_app; destruct H as [H | ->]; [left; exact H | right; left; reflexivity]]. }
  split; [intros x H; apply I1, A; auto | intros x [<-|H]; [apply I1, A; auto | apply I2, H]].
Qed.
Lemma add_child_absorb b : forall a, (forall x, In x b -> In x a) -> add_child a b = a.
Proof. induction b as [|y b IH]; intros a H; [reflexivity|]. cbn [add_child fold_left]. rewrite add_child_In by (apply H; left; reflexivity). apply IH. intros x Hx. apply H. right. exact Hx. Qed.
Lemma add_child_idem a b : add_child (add_child a b) b = add_child a b.
Proof. apply add_child_absorb. apply add_child_incl. Qed.
Lemma set_target_idem c x n : set_target c x (set_target c x n) = set_target c x n.
Proof. unfold set_target. cbn [n_side n_builder n_explicit n_env n_sources n_exec n_effects]. f_equal. apply add_child_idem. Qed.
Lemma set_target_fold_in c x tl : forall f n, In n tl -> fold_left (fun f t => upd f t (set_target c x (f t))) tl f n = set_target c x (f n).
Proof.
  induction tl as [|t tl IH]; intros f n H; [destruct H|]. cbn [fold_left]. destruct (in_dec Nat.eq_dec n tl) as [Hi|Hn].
  - rewrite IH by exact Hi. destruct (Nat.eq_dec n t) as [->|N]; [rewrite upd_same; apply set_target_idem | rewrite upd_other by exact N; reflexivity].
  - rewrite set_target_fold by exact Hn. destruct H as [->|H]; [apply upd_same | contradiction].
Qed.

Lemma do_call_inv s c s' : do_call contents batch_key s c = Some s' -> errors_free contents s c = true /\
  exists s1 x, find_executor batch_key s c = Some (s1, x) /\ execs s' = execs s1 /\ next s' = next s1 /\ keys s' = keys s1
    /\ (forall n, In n (c_tl c) -> nodes s' n = set_target c x (nodes s n)) /\ (forall n, ~ In n (c_tl c) -> nodes s' n = nodes s n).
Proof.
  unfold do_call. destruct (errors_free contents s c); [|discriminate]. destruct (find_executor batch_key s c) as [[s1 x]|] eqn:F; [|discriminate]. intros H. injection H as <-. split; [reflexivity|].
  exists s1, x. split; [reflexivity|]. cbn [set_nodes nodes execs next keys]. repeat (split; [reflexivity|]). rewrite (find_executor_nodes _ _ _ _ F).
  split; intros n Hn; [apply set_target_fold_in | apply set_target_fold]; exact Hn.
Qed.

(* side effects *)
Lemma effects_fold se ts : forall f n, core (fold_left (fun f t => upd f t (add_effect se (f t))) ts f n) = core (f n) /\ n_exec (fold_left (fun f t => upd f t (add_effect se (f t))) ts f n) = n_exec (f n).
Proof.
  induction ts as [|t ts IH]; intros f n; [split; reflexivity|]. cbn [fold_left]. destruct (IH (upd f t (add_effect se (f t))) n) as [-> ->].
  destruct (Nat.eq_dec n t) as [->|N]; [rewrite upd_same; split; reflexivity | rewrite upd_other by exact N; split; reflexivity].
Qed.
Lemma do_side_spec ses ts : forall f f', do_side f ses ts = Some f' -> forall n,
  (~ In n ses -> core (f' n) = core (f n)) /\ (In n ses -> n_builder (f n) = None /\ n_builder (f' n) = None /\ n_explicit (f' n) = n_explicit (f n) /\ n_env (f' n) = n_env (f n) /\ n_side (f' n) = true)
  /\ n_exec (f' n) = n_exec (f n).
Proof.
  induction ses as [|se ses IH]; intros f f' H n; [cbn in H; injection H as <-; split; [reflexivity|]; split; [intros [] | reflexivity]|]. cbn [do_side] in H. destruct (n_builder (f se)) eqn:B; [discriminate|].
  destruct (IH _ _ H n) as (I1 & I2 & I3). destruct (effects_fold se ts (upd f se (mark_side ts (f se))) n) as [E1 E2]. unfold core in E1. injection E1 as E1a E1b E1c E1d E1e. split; [|split].
  - intros Hn. rewrite I1 by (intros Q; apply Hn; right; exact Q). unfold core. assert (N : n <> se) by (intros ->; apply Hn; left; reflexivity). rewrite upd_other in * by exact N. congruence.
  - intros Hn. destruct (in_dec Nat.eq_dec n ses) as [Hi|Hi].
    + destruct (I2 Hi) as (J1 & J2 & J3 & J4 & J5). destruct (Nat.eq_dec n se) as [->|N]; [rewrite upd_same in *; cbn in *; repeat split; congruence | rewrite upd_other in * by exact N; repeat split; congruence].
    + specialize (I1 Hi). unfold core in I1. injection I1 as J1 J2 J3 J4 J5. destruct Hn as [<-|Hn]; [|contradiction]. rewrite upd_same in *. cbn in *. repeat split; congruence.
  - rewrite I3, E2. destruct (Nat.eq_dec n se) as [->|N]; [rewrite upd_same; reflexivity | rewrite upd_other by exact N; reflexivity].
Qed.

(* the invariant of what is recorded about a node *)
Definition inv_core (h : list op) (s : bst) : Prop := forall t,
  (n_side (nodes s t) = true <-> In t (flat_map side_of h))
  /\ (n_side (nodes s t) = true -> n_builder (nodes s t) = None)
  /\ match rev (calls_on h t) with
     | [] => n_builder (nodes s t) = None /\ n_explicit (nodes s t) = false /\ n_env (nodes s t) = None
             /\ (n_side (nodes s t) = false -> n_sources (nodes s t) = [])
     | c :: _ => n_builder (nodes s t) = Some (c_b c) /\ n_explicit (nodes s t) = b_explicit (c_b c) /\ n_env (nodes s t) = Some (c_env c)
             /\ n_sources (nodes s t) = sources_given h t
     end.
Lemma calls_same h o t : (forall c, o = Call c -> ~ In t (c_tl c)) -> calls_on (h ++ [o]) t = calls_on h t.
Proof.
  intros H. rewrite calls_on_snoc. destruct o as [c|ns a|ns a|ses ts]; try apply app_nil_r. assert (M : mem t (c_tl c) = false) by (apply mem_false; apply H; reflexivity). rewrite M. apply app_nil_r.
Qed.
Lemma inv_core_same h o s s' : inv_core h s -> (forall c, o <> Call c) -> (forall ses ts, o <> SideEffect ses ts) -> (forall n, core (nodes s' n) = core (nodes s n)) -> inv_core (h ++ [o]) s'.
Proof.
  intros Iv N1 N2 E t. destruct (Iv t) as (I1 & I2 & I3). specialize (E t). unfold core in E. injection E as E1 E2 E3 E4 E5. rewrite flat_map_app, in_app_iff, E1, E2.
  assert (X : flat_map side_of [o] = []) by (destruct o as [c|ns a|ns a|ses ts]; try reflexivity; elim (N2 ses ts eq_refl)). rewrite X. cbn [In].
  assert (Y : calls_on (h ++ [o]) t = calls_on h t) by (apply calls_same; intros c Q; elim (N1 c Q)). unfold sources_given. rewrite Y.
  split; [rewrite I1; tauto|]. split; [exact I2|]. unfold sources_given in I3. destruct (rev (calls_on h t)); rewrite E3, E4, E5; exact I3 || (destruct I3 as (A & B & C & D); auto).
Qed.
Lemma inv_core_run h : forall s, run empty h = Some s -> inv_core h s.
Proof.
  induction h as [|o h IH] using rev_ind; intros s H.
  - cbn in H. injection H as <-. intros t. cbn. split; [split; [discriminate | intros []]|]. split; [discriminate|]. repeat split.
  - apply run_snoc in H. destruct H as (s0 & H0 & H1). specialize (IH s0 H0). destruct o as [c|ns a|ns a|ses ts]; cbn in H1.
    + apply do_call_inv in H1. destruct H1 as (Ef & s1 & x & F & _ & _ & _ & N1 & N2). intros t. destruct (IH t) as (I1 & I2 & I3). rewrite flat_map_app, in_app_iff. cbn [flat_map side_of app In].
      destruct (in_dec Nat.eq_dec t (c_tl c)) as [Hi|Hi].
      * rewrite N1 by exact Hi. cbn [set_target n_side n_builder n_explicit n_env n_sources].
        unfold errors_free in Ef. apply andb_true_iff in Ef. destruct Ef as [Ef _]. rewrite forallb_forall in Ef. specialize (Ef t Hi). unfold node_ok in Ef. apply andb_true_iff in Ef. destruct Ef as [Es _].
        apply negb_true_iff in Es. rewrite Es in *. split; [rewrite I1; tauto|]. split; [discriminate|].
        assert (Y : calls_on (h ++ [Call c]) t = calls_on h t ++ [c]) by (rewrite calls_on_snoc; apply mem_In in Hi; rewrite Hi; reflexivity).
        unfold sources_given. rewrite Y, rev_app_distr. cbn [rev app]. repeat (split; [reflexivity|]). rewrite flat_map_app. cbn [flat_map]. rewrite app_nil_r, <- add_child_once. f_equal.
        unfold sources_given in I3. destruct (rev (calls_on h t)) as [|c0 r] eqn:R.
        -- destruct I3 as (_ & _ & _ & I3). rewrite I3 by reflexivity. apply (f_equal (@rev call)) in R. rewrite rev_involutive in R. rewrite R. reflexivity.
        -- apply I3.
      * rewrite N2 by exact Hi. unfold sources_given. rewrite calls_same by (intros c0 Q; injection Q as <-; exact Hi). split; [rewrite I1; tauto|]. split; [exact I2|]. exact I3.
    + injection H1 as <-. eapply inv_core_same; [exact IH | discriminate | discriminate | apply do_action_core].
    + injection H1 as <-. eapply inv_core_same; [exact IH | discriminate | discriminate | apply do_action_core].
    + destruct (do_side (nodes s0) ses ts) as [f|] eqn:D; [|discriminate]. injection H1 as <-. intros t. destruct (IH t) as (I1 & I2 & I3). destruct (do_side_spec _ _ _ _ D t) as (D1 & D2 & _).
      cbn [set_nodes nodes]. rewrite flat_map_app, in_app_iff. cbn [flat_map side_of]. rewrite app_nil_r. unfold sources_given. rewrite calls_same by discriminate.
      destruct (in_dec Nat.eq_dec t ses) as [Hi|Hi].
      * destruct (D2 Hi) as (A & B & C & E & G). rewrite B, C, E, G. split; [tauto|]. split; [reflexivity|].
        destruct (rev (calls_on h t)) as [|c0 r]; [destruct I3 as (_ & J2 & J3 & _); repeat split; auto; discriminate | destruct I3 as (J1 & _); congruence].
      * specialize (D1 Hi). unfold core in D1. injection D1 as E1 E2 E3 E4 E5. rewrite E1, E2, E3, E4, E5. split; [rewrite I1; tauto|]. split; [exact I2|].
        destruct (rev (calls_on h t)); [destruct I3 as (J1 & J2 & J3 & J5); auto | exact I3].
Qed.

(* C55.  A further call for a target that an explicit builder builds already is accepted only if it says the same.  For ordinary builders: the sources are those given
   before (each once, in the same order), and the environment is the same or the action's contents are.  For multi builders: the builder is the same (the sources may
   differ, they are added, see C55b). *)
Theorem C55_conflicts_refused : forall h c s t c0 r,
  run empty (h ++ [Call c]) = Some s -> In t (c_tl c) -> rev (calls_on h t) = c0 :: r -> b_explicit (c_b c0) = true ->
  (equal_env (c_env c0) (c_env c) \/ contents (b_action (c_b c0)) (c_tl c) (c_sl c) (c_env c0) = contents (b_action (c_b c)) (c_tl c) (c_sl c) (c_env c))
  /\ (b_multi (c_b c) = false -> c_sl c = sources_given h t)
  /\ (b_multi (c_b c) = true -> c_b c0 = c_b c).
Proof.
  intros h c s t c0 r H Hi R Ex. apply run_snoc in H. destruct H as (s0 & H0 & H1). destruct (inv_core_run h s0 H0 t) as (_ & _ & I3). rewrite R in I3. destruct I3 as (B1 & B2 & B3 & B4).
  cbn in H1. apply do_call_inv in H1. destruct H1 as (Ef & _). unfold errors_free in Ef. apply andb_true_iff in Ef. destruct Ef as [Ef _]. rewrite forallb_forall in Ef. specialize (Ef t Hi).
  unfold node_ok in Ef. rewrite B1, B2, B3, Ex in Ef. apply andb_true_iff in Ef. destruct Ef as [_ Ef]. apply andb_true_iff in Ef. destruct Ef as [E1 E2]. split; [|split].
  - apply orb_true_iff in E1. destruct E1 as [E1|E1]; [left | right; apply Nat.eqb_eq; exact E1]. unfold same_env in E1. apply orb_true_iff in E1. destruct E1 as [E1|E1]; [left; apply Nat.eqb_eq; exact E1|].
    destruct (e_over (c_env c0)) as [[s1 o1]|] eqn:O1; [|discriminate]. destruct (e_over (c_env c)) as [[s2 o2]|] eqn:O2; [|discriminate]. rewrite !andb_true_iff, !Nat.eqb_eq in E1.
    destruct E1 as [[-> ->] _]. right. eauto.
  - intros M. rewrite M in E2. apply leqb_eq in E2. congruence.
  - intros M. rewrite M in E2. apply andb_true_iff in E2. destruct E2 as [E2 _]. apply builder_eqb_eq. exact E2.
Qed.

(* C55d.  No file is both a side effect and the target of a Builder call. *)
Theorem C55d_side_effects : forall h s t, run empty h = Some s -> In t (flat_map side_of h) -> calls_on h t = [].
Proof.
  intros h s t H Hi. destruct (inv_core_run h s H t) as (I1 & I2 & I3). apply I1 in Hi. specialize (I2 Hi). destruct (rev (calls_on h t)) as [|c r] eqn:R; [|destruct I3; congruence].
  apply (f_equal (@rev call)) in R. rewrite rev_involutive in R. exact R.
Qed.
End P.
Print Assumptions C55_conflicts_refused.
Print Assumptions C55d_side_effects.
