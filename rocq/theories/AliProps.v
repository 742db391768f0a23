(* Aliases: sources and actions pile up; when the actions are executed. *)
From Coq Require Import List Bool Arith Lia.
From Verif Require Import AliModel AliSpec.
Import ListNotations.
Open Scope list_scope.

Section P.
Context {node action env : Type} (node_eqb : node -> node -> bool).
Hypothesis node_eqb_spec : forall a b, node_eqb a b = true <-> a = b.
Notation call := (@call node action env).
Notation alias := (@alias node action env).
Notation step := (@step node action env node_eqb).
Notation calls := (@calls node action env node_eqb).
Notation mem := (@mem node node_eqb).
Notation add_child := (@add_child node node_eqb).

Lemma mem_in : forall n l, mem n l = true <-> In n l.
Proof.
  intros n l. unfold AliModel.mem. rewrite existsb_exists. split; [intros [x [I E]]; apply node_eqb_spec in E; subst; exact I | intros I; exists n; split; [exact I | apply node_eqb_spec; reflexivity]].
Qed.
Lemma mem_not : forall n l, mem n l = false <-> ~ In n l.
Proof. intros n l. rewrite <- mem_in. destruct (mem n l); split; congruence. Qed.

Lemma first_in : forall (l m : list node), FirstSeen l m -> forall x, In x m <-> In x l.
Proof.
  intros l m H. induction H as [| l m y H IH N | l m y H IH I]; intros x; [reflexivity | rewrite !in_app_iff, IH; reflexivity |].
  rewrite in_app_iff, IH. split; [left; assumption | intros [K | [<- | []]]; assumption].
Qed.
Lemma add_child_first : forall new l m, FirstSeen l m -> FirstSeen (l ++ new) (add_child m new).
Proof.
  induction new as [|x new IH]; intros l m H; [rewrite app_nil_r; exact H|]. cbn [AliModel.add_child fold_left]. fold (add_child (if mem x m then m else m ++ [x]) new).
  change (x :: new) with ([x] ++ new). rewrite app_assoc. apply IH. destruct (mem x m) eqn:E.
  - apply mem_in in E. apply first_again; [exact H | exact (proj1 (first_in _ _ H x) E)].
  - apply mem_not in E. apply first_new; [exact H | intros I; apply E; exact (proj2 (first_in _ _ H x) I)].
Qed.
Lemma first_dup : forall (l m src : list node), FirstSeen l m -> (forall x, In x src -> In x l) -> forall new, add_child m (src ++ new) = add_child m new.
Proof.
  intros l m src H. induction src as [|x src IH]; intros A new; [reflexivity|]. cbn [app]. change (add_child m (x :: src ++ new)) with (add_child (if mem x m then m else m ++ [x]) (src ++ new)).
  assert (mem x m = true) as -> by (apply mem_in; exact (proj2 (first_in _ _ H x) (A x (or_introl eq_refl)))). apply IH. intros y I. apply A. right. exact I.
Qed.

Lemma calls_snoc : forall h c, calls (h ++ [c]) = step (calls h) c.
Proof. intros h c. unfold AliModel.calls. rewrite fold_left_app. reflexivity. Qed.
Lemma concat_snoc : forall {A B} (f : A -> list B) h c, concat (map f (h ++ [c])) = concat (map f h) ++ f c.
Proof. intros A B f h c. rewrite map_app, concat_app. cbn. rewrite app_nil_r. reflexivity. Qed.

(* C82a: the sources of an alias are all that were given in any call, each once, in the order in which they were first given *)
Theorem C82a_sources : forall h : list call, FirstSeen (given_sources h) (sources (calls h)).
Proof.
  induction h as [|c h IH] using rev_ind; [apply first_none|]. rewrite calls_snoc. unfold given_sources. rewrite concat_snoc. fold (given_sources h).
  destruct c as [e src act | a | a]; cbn [AliModel.step].
  - destruct act as [|x act].
    + destruct src as [|s src]; [rewrite app_nil_r; exact IH|]. cbn [execute_builder sources]. apply add_child_first. exact IH.
    + cbn [execute_builder sources].
      rewrite (first_dup _ _ (sources (calls h)) IH (fun x I => proj1 (first_in _ _ IH x) I) src). apply add_child_first. exact IH.
  - rewrite app_nil_r. exact IH.
  - rewrite app_nil_r. exact IH.
Qed.

(* C82d: the actions see exactly those sources *)
Theorem C82d_seen : forall (h : list call) x, In x (seen_sources (calls h)) <-> In x (given_sources h).
Proof.
  intros h x. induction h as [|c h IH] using rev_ind; [reflexivity|]. rewrite calls_snoc. unfold given_sources. rewrite concat_snoc. fold (given_sources h). rewrite in_app_iff.
  pose proof (first_in _ _ (C82a_sources h) x) as FI.
  assert (EO : forall y, In y (xsources (executor_of (calls h))) <-> In y (seen_sources (calls h))) by (intros y; unfold executor_of, seen_sources; destruct (exec (calls h)); reflexivity).
  destruct c as [e src act | a | a]; cbn [AliModel.step].
  - destruct act as [|y act].
    + destruct src as [|s src]; [rewrite IH; cbn; tauto|]. set (src0 := s :: src) in *. unfold execute_builder, seen_sources. cbn [exec]. unfold seen_sources in IH.
      assert (FB : exec (calls h) = None -> given_sources h = []).
      { clear. induction h as [|c h IH] using rev_ind; [reflexivity|]. rewrite calls_snoc. unfold given_sources. rewrite concat_snoc. fold (given_sources h).
        destruct c as [e s a | a | a]; cbn [AliModel.step]; [|discriminate|discriminate]. destruct a; [|discriminate]. destruct s; [rewrite app_nil_r; exact IH | discriminate]. }
      destruct (exec (calls h)) as [X|].
      * cbn [add_sources xsources]. rewrite in_app_iff, filter_In, negb_true_iff, mem_not, IH. split; [tauto|]. intros [H | H]; [tauto|].
        destruct (mem x (xsources X)) eqn:M; [left; apply IH, mem_in; exact M | right; split; [exact H | rewrite <- IH; apply mem_not; exact M]].
      * cbn [xsources]. rewrite (FB eq_refl). cbn [In]. tauto.
    + cbn [execute_builder seen_sources exec xsources]. rewrite in_app_iff, FI. reflexivity.
  - cbn [with_exec seen_sources exec xsources]. rewrite EO, IH. cbn [In]. tauto.
  - cbn [with_exec seen_sources exec xsources]. rewrite EO, IH. cbn [In]. tauto.
Qed.

(* what the state of an alias with actions is *)
Definition Acting (a : alias) (l : list action) : Prop := bld a = Actions l /\ exists x, exec a = Some x /\ acts x = l /\ really a = true.
Lemma acting_after : forall h : list call,
  match given_actions h with [] => (bld (calls h) = NoBuilder \/ bld (calls h) = AliasBuilder) /\ really (calls h) = false /\ (forall x, exec (calls h) = Some x -> acts x = []) | l => Acting (calls h) l end.
Proof.
  induction h as [|c h IH] using rev_ind; [cbn; split; [left; reflexivity|]; split; [reflexivity | discriminate]|]. rewrite calls_snoc. unfold given_actions. rewrite concat_snoc. fold (given_actions h).
  destruct c as [e src act | a | a]; cbn [AliModel.step].
  - destruct act as [|y act].
    + rewrite app_nil_r. destruct src as [|s src]; [exact IH|]. set (src0 := s :: src) in *. destruct (given_actions h) as [|z l].
      * destruct IH as [B [R X]]. split; [right; destruct B as [-> | ->]; reflexivity|]. split; [exact R|]. intros x H. injection H as <-.
        destruct (exec (calls h)) as [x0|]; [exact (X x0 eq_refl) | destruct B as [-> | ->]; reflexivity].
      * destruct IH as [B [x [E [A R]]]]. split; [cbn; rewrite B; reflexivity|]. exists (add_sources node_eqb x src0). cbn. rewrite E. split; [reflexivity|]. split; [exact A | exact R].
    + assert (match given_actions h ++ y :: act with [] => False | l => Acting (execute_builder node_eqb (match bld (calls h) with Actions l => Actions (l ++ y :: act) | _ => Actions (y :: act) end) e (sources (calls h) ++ src)
          {| sources := sources (calls h); bld := NoBuilder; exec := None; really := true |}) l end) as G.
      { destruct (given_actions h) as [|z l]; cbn [app].
        - destruct IH as [[B | B] _]; rewrite B; (split; [reflexivity|]; eexists; split; [reflexivity|]; split; reflexivity).
        - destruct IH as [B _]. rewrite B. split; [reflexivity|]. eexists. split; [reflexivity|]. split; reflexivity. }
      destruct (given_actions h ++ y :: act); [destruct G | exact G].
  - rewrite app_nil_r. destruct (given_actions h) as [|z l].
    + destruct IH as [B [R X]]. split; [exact B|]. split; [exact R|]. intros x H. injection H as <-. cbn. unfold executor_of. destruct (exec (calls h)) as [x0|]; [exact (X x0 eq_refl) | reflexivity].
    + destruct IH as [B [x [E [A R]]]]. split; [exact B|]. eexists. split; [reflexivity|]. cbn. unfold executor_of. rewrite E. split; [exact A | exact R].
  - rewrite app_nil_r. destruct (given_actions h) as [|z l].
    + destruct IH as [B [R X]]. split; [exact B|]. split; [exact R|]. intros x H. injection H as <-. cbn. unfold executor_of. destruct (exec (calls h)) as [x0|]; [exact (X x0 eq_refl) | reflexivity].
    + destruct IH as [B [x [E [A R]]]]. split; [exact B|]. eexists. split; [reflexivity|]. cbn. unfold executor_of. rewrite E. split; [exact A | exact R].
Qed.

(* C82b: an alias with actions executes all of them, in the order in which they were given, in the environment of the last call that gave one; before them what AddPreAction gave since that call *)
Theorem C82b_actions : forall (h1 h2 : list call) e src act, act <> [] -> given_actions h2 = [] ->
  executed (calls (h1 ++ Alias e src act :: h2)) = In_env (Some e) (given_pre h2 ++ (given_actions h1 ++ act) ++ given_post h2).
Proof.
  intros h1 h2 e src act NA N2.
  assert (exists x, bld (calls (h1 ++ Alias e src act :: h2)) = Actions (given_actions h1 ++ act) /\ exec (calls (h1 ++ Alias e src act :: h2)) = Some x /\ pre x = given_pre h2 /\ acts x = given_actions h1 ++ act /\
    post x = given_post h2 /\ xenv x = Some e /\ really (calls (h1 ++ Alias e src act :: h2)) = true) as [x [B [E [P [A [Q [V R]]]]]]].
  { induction h2 as [|c h2 IH] using rev_ind.
    - rewrite calls_snoc. destruct act as [|y act]; [congruence|]. cbn [AliModel.step]. pose proof (acting_after h1) as G.
      eexists. split; [|split; [reflexivity|]; split; [reflexivity|]; split; [|split; [reflexivity|]; split; reflexivity]].
      + cbn. destruct (given_actions h1) as [|z l]; [destruct G as [[-> | ->] _]; reflexivity | destruct G as [-> _]; reflexivity].
      + cbn. destruct (given_actions h1) as [|z l]; [destruct G as [[-> | ->] _]; reflexivity | destruct G as [-> _]; reflexivity].
    - unfold given_actions in N2. rewrite concat_snoc in N2. apply app_eq_nil in N2. destruct N2 as [N2 N3]. destruct (IH N2) as [x [B [E [P [A [Q [V R]]]]]]]. clear IH.
      assert (calls (h1 ++ Alias e src act :: h2 ++ [c]) = step (calls (h1 ++ Alias e src act :: h2)) c) as -> by (rewrite app_comm_cons, app_assoc; apply calls_snoc).
      set (a0 := calls (h1 ++ Alias e src act :: h2)) in *. unfold given_pre, given_post. rewrite !concat_snoc. fold (given_pre h2). fold (given_post h2).
      destruct c as [e' src' act' | p | p]; cbn [AliModel.step].
      + cbn in N3. subst act'. rewrite !app_nil_r. destruct src' as [|s src']; [exists x; repeat split; assumption|]. set (src0 := s :: src') in *. exists (add_sources node_eqb x src0).
        cbn. rewrite B, E. repeat split; assumption.
      + rewrite app_nil_r. eexists. split; [exact B|]. split; [reflexivity|]. unfold executor_of. rewrite E. cbn. rewrite P, A, Q, V. repeat split. exact R.
      + rewrite app_nil_r. eexists. split; [exact B|]. split; [reflexivity|]. unfold executor_of. rewrite E. cbn. rewrite P, A, Q, V. repeat split. exact R. }
  unfold executed. rewrite B, E, R. cbn [orb]. rewrite P, A, Q, V. reflexivity.
Qed.

(* C82c: without actions of its own an alias executes what AddPreAction and AddPostAction gave, if it has sources; nothing if it has none *)
Theorem C82c_no_actions : forall h : list call, given_actions h = [] ->
  (given_sources h = [] -> executed (calls h) = []) /\ (given_sources h <> [] -> exists e, executed (calls h) = In_env e (given_pre h ++ given_post h)).
Proof.
  intros h N.
  assert (match given_sources h with [] => bld (calls h) = NoBuilder | _ => bld (calls h) = AliasBuilder /\ exec (calls h) <> None end /\
    pre (executor_of (calls h)) = given_pre h /\ post (executor_of (calls h)) = given_post h /\ acts (executor_of (calls h)) = []) as [B [P [Q A]]].
  { induction h as [|c h IH] using rev_ind; [repeat split|]. unfold given_actions in N. rewrite concat_snoc in N. apply app_eq_nil in N. destruct N as [N N3]. destruct (IH N) as [B [P [Q A]]]. clear IH.
    rewrite calls_snoc. unfold given_sources, given_pre, given_post. rewrite !concat_snoc. fold (given_sources h). fold (given_pre h). fold (given_post h).
    destruct c as [e src act | p | p]; cbn [AliModel.step].
    - cbn in N3. subst act. rewrite (app_nil_r (given_pre h)), (app_nil_r (given_post h)). destruct src as [|s src]; [rewrite app_nil_r; split; [exact B|]; split; [exact P|]; split; assumption|]. set (src0 := s :: src) in *.
      assert (match given_sources h ++ src0 with [] => False | _ => True end) as T by (destruct (given_sources h); exact Logic.I).
      assert (forall X : Prop, X -> match given_sources h ++ src0 with [] => bld (execute_builder node_eqb (match bld (calls h) with NoBuilder => AliasBuilder | b => b end) e src0 (calls h)) = NoBuilder | _ => X end) as K
        by (intros X HX; destruct (given_sources h ++ src0); [destruct T | exact HX]).
      split; [apply K; split; [|discriminate]|].
      + cbn. destruct (given_sources h); [rewrite B; reflexivity | destruct B as [-> _]; reflexivity].
      + unfold executor_of in *. cbn. destruct (exec (calls h)) as [x|]; cbn in *.
        * repeat split; assumption.
        * split; [exact P|]. split; [exact Q|]. destruct (given_sources h); [rewrite B; reflexivity | destruct B as [-> _]; reflexivity].
    - rewrite (app_nil_r (given_sources h)), (app_nil_r (given_post h)). cbn. split; [destruct (given_sources h); [exact B | split; [exact (proj1 B) | discriminate]]|]. rewrite P, Q, A. repeat split.
    - rewrite (app_nil_r (given_sources h)), (app_nil_r (given_pre h)). cbn. split; [destruct (given_sources h); [exact B | split; [exact (proj1 B) | discriminate]]|]. rewrite P, Q, A. repeat split. }
  pose proof (acting_after h) as G. rewrite N in G. destruct G as [_ [R _]]. split.
  - intros S0. rewrite S0 in B. unfold executed. rewrite B. reflexivity.
  - intros NS. destruct (given_sources h) as [|s l]; [congruence|]. destruct B as [B X]. unfold executed. rewrite B. unfold executor_of in *. destruct (exec (calls h)) as [x|]; [|congruence].
    exists (xenv x). rewrite R. cbn [orb]. rewrite P, Q, A. unfold In_env. destruct (given_post h) as [|q1 q]; [destruct (given_pre h) as [|p1 p]; reflexivity | reflexivity].
Qed.
End P.

Lemma item_ind2 : forall Q : item -> Prop, (forall b, Q (Other b)) -> (forall hb al kids, Forall Q kids -> Q (AnAlias hb al kids)) -> forall n, Q n.
Proof.
  intros Q QO QA. fix F 1. intros [b | hb al kids]; [apply QO|]. apply QA. clear hb al. induction kids as [|k kids IH]; constructor; [apply F | exact IH].
Qed.
(* C82e: an alias is built exactly if something it leads to was built *)
Theorem C82e_when : forall n, state_of n = Executed <-> Runs n.
Proof.
  induction n as [b | hb al kids IH] using item_ind2.
  - cbn. destruct b; split; [intros _; constructor | reflexivity | discriminate | intros H; inversion H].
  - cbn [state_of]. destruct hb; cbn [negb]; [|split; [discriminate | intros H; inversion H]]. destruct al; [split; [intros _; apply runs_always | reflexivity]|].
    destruct (existsb (fun k => match state_of k with Executed => true | UpToDate => false end) kids) eqn:E.
    + split; [intros _ | reflexivity]. apply existsb_exists in E. destruct E as [k [I E]]. apply (runs_child _ _ k I). apply (proj1 (Forall_forall _ _) IH k I). destruct (state_of k); [discriminate | reflexivity].
    + split; [discriminate|]. intros H. exfalso. inversion H as [| | al0 kids0 k I R]; subst. apply (proj1 (Forall_forall _ _) IH k I) in R.
      assert (existsb (fun k => match state_of k with Executed => true | UpToDate => false end) kids = true) as X by (apply existsb_exists; exists k; split; [exact I | rewrite R; reflexivity]). congruence.
Qed.

(* C82f: two lists of signatures of one length give the same text only if they are the same *)
Theorem C82f_signature : forall (A : Type) k (l1 l2 : list (list A)), 0 < k -> (forall s, In s l1 -> length s = k) -> (forall s, In s l2 -> length s = k) -> (contents l1 = contents l2 <-> l1 = l2).
Proof.
  intros A k l1 l2 K H1 H2. split; [|intros ->; reflexivity]. revert l2 H2. unfold contents. induction l1 as [|a l1 IH]; intros [|b l2] H2 E; cbn in E.
  - reflexivity.
  - exfalso. apply (f_equal (@length A)) in E. rewrite app_length, (H2 b (or_introl eq_refl)) in E. cbn in E. lia.
  - exfalso. apply (f_equal (@length A)) in E. rewrite app_length, (H1 a (or_introl eq_refl)) in E. cbn in E. lia.
  - pose proof (H1 a (or_introl eq_refl)) as La. pose proof (H2 b (or_introl eq_refl)) as Lb.
    assert (a = b /\ concat l1 = concat l2) as [-> EC].
    { rewrite <- Lb in La. clear - E La. revert b La E. induction a as [|x a IHa]; intros [|y b] La E; cbn in La, E; try discriminate; [split; [reflexivity | exact E]|].
      injection La as La. injection E as -> E. destruct (IHa b La E) as [-> EC]. split; [reflexivity | exact EC]. }
    f_equal. apply IH; [intros s I; apply H1; right; exact I | intros s I; apply H2; right; exact I | exact EC].
Qed.

Print Assumptions C82a_sources.
Print Assumptions C82b_actions.
Print Assumptions C82c_no_actions.
Print Assumptions C82d_seen.
Print Assumptions C82e_when.
Print Assumptions C82f_signature.
