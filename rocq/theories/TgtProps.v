(* C62: proofs *)
From Coq Require Import Ascii String List Bool Arith Lia.
Import ListNotations. Open Scope list_scope.
From Verif Require Import NameModel OptModel OptSpec OptProps TgtModel TgtSpec.

(* ---- the lists ---- *)
Lemma darg_frame : forall l s, cmdline (fold_left set_default l s) = cmdline s /\ frozen (fold_left set_default l s) = frozen s /\ called (fold_left set_default l s) = called s.
Proof. intros l. induction l as [|d l IH]; intros s; [auto|]. cbn [fold_left]. destruct (IH (set_default s d)) as (A & B & C). rewrite A, B, C. destruct d; auto. Qed.
Lemma scripts_frame : forall h s, cmdline (scripts h s) = cmdline s /\ frozen (scripts h s) = frozen s.
Proof.
  intros h. induction h as [|o h IH]; intros s; [auto|]. change (scripts (o :: h) s) with (scripts h (script_op s o)). destruct (IH (script_op s o)) as [A B]. rewrite A, B. destruct o as [l|f]; [|auto]. unfold script_op, set_defaults. destruct (darg_frame l {| cmdline := cmdline s; build := build s; plus := plus s; defaults := defaults s; called := true; frozen := frozen s |}) as (C & D & _). rewrite C, D. auto.
Qed.
Lemma scripts_called : forall h s, called (scripts h s) = true <-> called s = true \/ default_called h.
Proof.
  intros h. induction h as [|o h IH]; intros s; [split; [auto | intros [H|(l & [])]; exact H]|]. change (scripts (o :: h) s) with (scripts h (script_op s o)). rewrite IH. destruct o as [l|f].
  - unfold script_op, set_defaults. destruct (darg_frame l {| cmdline := cmdline s; build := build s; plus := plus s; defaults := defaults s; called := true; frozen := frozen s |}) as (_ & _ & C). rewrite C. cbn [called]. split; [intros _; right; exists l; left; reflexivity | auto].
  - cbn [script_op called]. split; (intros [H|(l & H)]; [left; exact H | right; exists l]).
    + right. exact H.
    + destruct H as [H|H]; [discriminate | exact H].
Qed.
(* the default targets, from a list of arguments *)
Fixpoint since (l : list darg) (acc : list tnode) : list tnode := match l with [] => acc | DNone :: l => since l [] | DNodes n :: l => since l (acc ++ n) end.
Lemma since_app : forall a b acc, since (a ++ b) acc = since b (since a acc).
Proof. intros a. induction a as [|d a IH]; intros b acc; [reflexivity|]. cbn [app since]. destruct d; apply IH. Qed.
Lemma since_nodes : forall l acc, ~ In DNone l -> since l acc = acc ++ nodes_of l.
Proof. intros l. induction l as [|d l IH]; intros acc H; [rewrite app_nil_r; reflexivity|]. destruct d as [|n]; [exfalso; apply H; left; reflexivity|]. cbn [since nodes_of flat_map]. rewrite IH by (intros X; apply H; right; exact X). rewrite <- app_assoc. reflexivity. Qed.
Lemma default_since : forall h ns, default_targets h ns -> since (all_dargs h) [] = ns.
Proof.
  intros h ns (b & s & E & Hb & Hn & ->). rewrite E, since_app. replace (since b []) with (@nil tnode); [rewrite since_nodes by exact Hn; reflexivity|].
  destruct Hb as [-> |(b2 & ->)]; [reflexivity|]. rewrite since_app. reflexivity.
Qed.
Lemma default_exists : forall h, exists ns, default_targets h ns.
Proof.
  intros h. unfold default_targets. generalize (all_dargs h). intros l. enough (X : exists before since, l = before ++ since /\ (before = [] \/ exists b, before = b ++ [DNone]) /\ ~ In DNone since) by (destruct X as (b & s & H1 & H2 & H3); exists (nodes_of s), b, s; auto).
  induction l as [|d l (b & s & E & Hb & Hn)] using rev_ind; [exists [], []; repeat split; auto|]. destruct d as [|n].
  - exists (l ++ [DNone]), []. rewrite app_nil_r. repeat split; eauto.
  - exists b, (s ++ [DNodes n]). rewrite E, <- app_assoc. repeat split; auto. intros X. apply in_app_or in X. destruct X as [X|[X|[]]]; [contradiction | discriminate].
Qed.
Lemma darg_defaults : forall l s, defaults (fold_left set_default l s) = since l (defaults s).
Proof. intros l. induction l as [|d l IH]; intros s; [reflexivity|]. cbn [fold_left since]. rewrite IH. destruct d; reflexivity. Qed.
Lemma scripts_defaults : forall h s, defaults (scripts h s) = since (all_dargs h) (defaults s).
Proof.
  intros h. induction h as [|o h IH]; intros s; [reflexivity|]. change (scripts (o :: h) s) with (scripts h (script_op s o)). rewrite IH. destruct o as [l|f]; [|reflexivity]. unfold all_dargs. cbn [flat_map]. rewrite since_app. unfold script_op, set_defaults. rewrite darg_defaults. reflexivity.
Qed.
Lemma darg_plus : forall l s, frozen s = false -> plus s = map TNode (defaults s) -> plus (fold_left set_default l s) = map TNode (since l (defaults s)).
Proof.
  intros l. induction l as [|d l IH]; intros s F E2; [exact E2|]. cbn [fold_left]. destruct d as [|n]; cbn [since].
  - apply (IH (set_default s DNone)); cbn; rewrite ?F; auto.
  - apply (IH (set_default s (DNodes n))); cbn; rewrite ?F, ?E2, ?map_app; auto.
Qed.
Lemma darg_frozen : forall l s, frozen s = true -> build (fold_left set_default l s) = build s /\ plus (fold_left set_default l s) = plus s.
Proof. intros l. induction l as [|d l IH]; intros s F; [auto|]. cbn [fold_left]. destruct (IH (set_default s d)) as [A B]; [destruct d; exact F|]. rewrite A, B. destruct d; cbn; rewrite F; auto. Qed.
Lemma scripts_plus : forall h s, frozen s = false -> plus s = map TNode (defaults s) -> plus (scripts h s) = map TNode (defaults (scripts h s)).
Proof.
  intros h. induction h as [|o h IH]; intros s F E; [exact E|]. change (scripts (o :: h) s) with (scripts h (script_op s o)). destruct o as [l|f]; [|apply IH; auto].
  cbn [script_op]. unfold set_defaults. set (s1 := {| cmdline := cmdline s; build := build s; plus := plus s; defaults := defaults s; called := true; frozen := frozen s |}). apply IH.
  - rewrite (proj1 (proj2 (darg_frame l s1))). exact F.
  - rewrite darg_plus, darg_defaults; auto.
Qed.
Lemma scripts_free : forall h s, no_hand h -> frozen s = false -> build s = map TNode (defaults s) -> build (scripts h s) = map TNode (defaults (scripts h s)).
Proof.
  intros h. induction h as [|o h IH]; intros s N F E; [exact E|]. change (scripts (o :: h) s) with (scripts h (script_op s o)). destruct o as [l|f]; [|exfalso; apply (N f); left; reflexivity].
  cbn [script_op]. unfold set_defaults. set (s1 := {| cmdline := cmdline s; build := build s; plus := plus s; defaults := defaults s; called := true; frozen := frozen s |}). apply IH.
  - intros f Hf. apply (N f). right. exact Hf.
  - rewrite (proj1 (proj2 (darg_frame l s1))). exact F.
  - rewrite darg_defaults. change (defaults s1) with (defaults s). clear IH. assert (X : forall l s, frozen s = false -> build s = map TNode (defaults s) -> build (fold_left set_default l s) = map TNode (since l (defaults s))).
    { clear. intros l. induction l as [|d l IH]; intros s F E2; [exact E2|]. cbn [fold_left]. destruct d as [|n]; cbn [since].
      - apply (IH (set_default s DNone)); cbn; rewrite ?F; auto.
      - apply (IH (set_default s (DNodes n))); cbn; rewrite ?F, ?E2, ?map_app; auto. }
    apply (X l s1 F E).
Qed.
Lemma scripts_frozen : forall h s, frozen s = true -> build (scripts h s) = by_hand h (build s) /\ plus (scripts h s) = plus s.
Proof.
  intros h. induction h as [|o h IH]; intros s F; [auto|]. change (scripts (o :: h) s) with (scripts h (script_op s o)). destruct o as [l|f]; cbn [by_hand fold_left].
  - cbn [script_op]. unfold set_defaults. set (s1 := {| cmdline := cmdline s; build := build s; plus := plus s; defaults := defaults s; called := true; frozen := frozen s |}). destruct (darg_frozen l s1 F) as [A B]. destruct (IH (fold_left set_default l s1)) as [C D]; [rewrite (proj1 (proj2 (darg_frame l s1))); exact F|].
    rewrite C, D, A, B. auto.
  - apply (IH (script_op s (OHand f))). exact F.
Qed.
Lemma started_lists : forall ts rs, started ts rs = {| cmdline := ts ++ rs; build := map TName (ts ++ rs); plus := map TName (ts ++ rs); defaults := []; called := false; frozen := negb (match ts ++ rs with [] => true | _ => false end) |}.
Proof. intros ts rs. unfold started. destruct (ts ++ rs) as [|w l]; reflexivity. Qed.
(* ---- C62a: the lists of the scripts ---- *)
(* COMMAND_LINE_TARGETS and DEFAULT_TARGETS at every moment; BUILD_TARGETS unless it is changed by hand; and if targets are given, Default does not touch it *)
Theorem C62a_lists : forall ts rs h ns, default_targets h ns -> let s := scripts h (started ts rs) in
  cmdline s = ts ++ rs /\ defaults s = ns /\ (no_hand h -> build s = match ts ++ rs with [] => map TNode ns | l => map TName l end) /\
  (ts ++ rs <> [] -> build s = by_hand h (map TName (ts ++ rs))).
Proof.
  intros ts rs h ns D s. unfold s. rewrite started_lists. set (s0 := {| cmdline := _ |}). destruct (scripts_frame h s0) as [A _].
  assert (Dn : defaults (scripts h s0) = ns) by (rewrite scripts_defaults; apply default_since; exact D).
  split; [exact A|]. split; [exact Dn|]. destruct (ts ++ rs) as [|w l] eqn:E.
  - split; [|congruence]. intros N. rewrite scripts_free; auto. rewrite Dn. reflexivity.
  - destruct (scripts_frozen h s0 eq_refl) as [B _]. split.
    + intros N. rewrite B. unfold s0. cbn [build]. clear - N. generalize (map TName (w :: l)). induction h as [|o h IH]; intros x; [reflexivity|]. cbn [by_hand fold_left]. destruct o as [d|f]; [|exfalso; apply (N f); left; reflexivity]. apply IH. intros f Hf. apply (N f). right. exact Hf.
    + intros _. exact B.
Qed.
Print Assumptions C62a_lists.
