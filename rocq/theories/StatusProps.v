(* C34: exit status; C44: a failing action stops the sequence and fails the task *)
From Coq Require Import List Arith Bool Lia.
From Verif Require Import StatusModel.
Import ListNotations.

(* ---- specification ---- *)
(* an action as a plain sequence of steps: label, and whether the step fails *)
Definition step_fails (f : fres) : bool := match f with FRet v => truthy v | FRaise _ => true end.
Fixpoint steps (a : action) : list (nat * bool) :=
  match a with
  | ACmd ig cmds _ => map (fun c => (fst c, negb ig && truthy (snd c))) cmds       (* a command fails if its status is not zero and errors are not ignored *)
  | AFun lab f _ => [(lab, step_fails f)]                                           (* a function fails if it returns a true value or raises *)
  | AList l => flat_map steps l
  end.
(* run the steps up to and including the first that fails *)
Fixpoint run_steps (l : list (nat * bool)) : list nat * bool :=
  match l with [] => ([], false) | (a, b) :: r => if b then ([a], true) else let (t, x) := run_steps r in (a :: t, x) end.
(* the action's exit status function is the default one, and a raised exception does not carry status zero or none *)
Definition carries_status (e : exc) : bool := match e with XBuild st _ => truthy st | XExplicit st => truthy st | XSameFile errno => truthy errno | XOs errno => match errno with SNone => true | _ => truthy errno end | _ => true end.
Fixpoint ordinary (a : action) : Prop :=
  match a with
  | ACmd _ _ esf => forall v, esf v = v
  | AFun _ f esf => (forall v, esf v = v) /\ match f with FRaise e => carries_status e = true | _ => True end
  | AList l => (fix all l := match l with [] => True | b :: r => ordinary b /\ all r end) l
  end.

(* ---- proofs ---- *)
Lemma action_ind2 (P : action -> Prop) : (forall ig c f, P (ACmd ig c f)) -> (forall n f g, P (AFun n f g)) -> (forall l, Forall P l -> P (AList l)) -> forall a, P a.
Proof. intros A B C. fix IH 1. intros [ig c f|n f g|l]; [apply A | apply B | apply C]. induction l as [|b r IHl]; [apply Forall_nil | apply Forall_cons; [apply IH | exact IHl]]. Qed.
Lemma run_steps_app a b : run_steps (a ++ b) = let (t, x) := run_steps a in if x then (t, true) else let (t', y) := run_steps b in (t ++ t', y).
Proof. induction a as [|[n f] a IH]; cbn; [destruct (run_steps b); reflexivity|]. destruct f; [reflexivity|]. rewrite IH. destruct (run_steps a) as [t [|]]; [reflexivity|]. destruct (run_steps b); reflexivity. Qed.
Lemma run_cmds_steps ig cmds : fst (run_cmds ig cmds) = fst (run_steps (map (fun c => (fst c, negb ig && truthy (snd c))) cmds)) /\ stops (snd (run_cmds ig cmds)) = snd (run_steps (map (fun c => (fst c, negb ig && truthy (snd c))) cmds)) /\ (forall s e, snd (run_cmds ig cmds) = RBuild s e -> truthy s = true) /\ (forall v, snd (run_cmds ig cmds) = RStat v -> v = SInt 0) /\ forall e, snd (run_cmds ig cmds) <> RRaise e.
Proof.
  induction cmds as [|[a r] cmds (A & B & C & D & E)]; cbn; [split; [reflexivity|]; split; [reflexivity|]; split; [discriminate|]; split; [intros v H; injection H; auto | discriminate]|].
  destruct (negb ig && truthy r) eqn:T; cbn.
  - split; [reflexivity|]. split; [reflexivity|]. split; [intros s e H; injection H as <- _; apply andb_true_iff in T; apply T|]. split; discriminate.
  - destruct (run_cmds ig cmds) as [t x]. destruct (run_steps _) as [t' y]. cbn in *. subst. auto.
Qed.
Lemma call_steps a : ordinary a -> (fst (call a), stops (snd (call a))) = run_steps (steps a).
Proof.
  induction a as [ig c f | n f g | l F] using action_ind2; intros O.
  - destruct (run_cmds_steps ig c) as (A & B & C & D & E). cbn [call steps]. destruct (run_cmds ig c) as [t x]. destruct (run_steps _) as [t' y]. cbn in *. subst. f_equal. destruct x as [v|s e|e]; cbn; [rewrite O; reflexivity | rewrite O; rewrite (C s e eq_refl); reflexivity | reflexivity].
  - destruct O as [O1 O2]. destruct f as [v|e]; cbn.
    + destruct (truthy v) eqn:T; [destruct v as [|m|b]; cbn in *; rewrite ?O1; cbn; rewrite ?T; reflexivity|]. cbn. rewrite O1, T. reflexivity.
    + destruct e as [s x|s| | |s|[| |] | |]; cbn in *; rewrite ?O1; cbn; rewrite ?O2; reflexivity.
  - cbn [ordinary steps] in *. cbn [call]. induction l as [|b r IHl]; [reflexivity|]. destruct O as [Ob Or]. cbn [flat_map]. rewrite run_steps_app. rewrite <- (Forall_inv F Ob). specialize (IHl (Forall_inv_tail F) Or).
    destruct (call b) as [t x] eqn:Cb. cbn [fst snd] in *. destruct (stops x) eqn:S; [cbn; rewrite S; reflexivity|]. rewrite <- IHl. cbn. destruct (_ r) as [t' y]. reflexivity.
Qed.

(* C44: the commands and functions of a task run in order up to and including the first that fails, no further; the task fails exactly if one fails *)
Theorem C44_stop_at_first_failure l : Forall ordinary l ->
  fst (task_execute l) = fst (run_steps (flat_map steps l)) /\ (snd (task_execute l) <> None <-> exists s, In s (flat_map steps l) /\ snd s = true).
Proof.
  intros O. assert (G : fst (execute_action_list l) = fst (run_steps (flat_map steps l)) /\ (snd (execute_action_list l) <> None <-> snd (run_steps (flat_map steps l)) = true)).
  { induction l as [|a r IH]; [cbn; split; [reflexivity|]; split; [intros H; contradiction H; reflexivity | discriminate]|]. pose proof (call_steps a (Forall_inv O)) as C. specialize (IH (Forall_inv_tail O)). destruct IH as [I1 I2]. cbn [flat_map execute_action_list]. rewrite run_steps_app, <- C.
    destruct (call a) as [t x]. cbn [fst snd] in *. destruct x as [v|s e|e]; cbn [stops]; [|split; [reflexivity|]; split; [reflexivity | discriminate] | split; [reflexivity|]; split; [reflexivity | discriminate]].
    destruct (truthy v); [split; [reflexivity|]; split; [reflexivity | discriminate]|]. destruct (execute_action_list r) as [t1 x1]. destruct (run_steps (flat_map steps r)) as [t2 x2]. cbn in *. subst. split; [reflexivity | exact I2]. }
  assert (R : forall s, snd (run_steps s) = true <-> exists x, In x s /\ snd x = true).
  { clear. induction s as [|[n b] s IH]; cbn; [split; [discriminate | intros (x & [] & _)]|]. destruct b; cbn; [split; [intros _; exists (n, true); auto | reflexivity]|]. destruct (run_steps s) as [t x]. cbn in *. rewrite IH. split; [intros (z & A & B); exists z; auto | intros (z & [<-|A] & B); [discriminate | exists z; auto]]. }
  rewrite <- R. destruct G as [G1 G2]. rewrite <- G2. unfold task_execute. destruct (execute_action_list l) as [t x]. cbn [fst snd] in *. split; [exact G1|]. destruct x as [e|]; [|split; auto]. destruct e; cbn; split; discriminate.
Qed.
(* what is excluded: with the default exit status function, a function that raises OSError with errno 0, or the SameFileError of
   shutil.copy (which has no errno), counts as successful, and the next action runs *)
Theorem C44_refuted_same_file : exists l, (exists lab e, In (AFun lab (FRaise e) (fun v => v)) l) /\ task_execute l = ([1; 2], None).
Proof. exists [AFun 1 (FRaise (XSameFile SNone)) (fun v => v); ACmd false [(2, SInt 0)] (fun v => v)]. split; [exists 1, (XSameFile SNone); left; reflexivity | reflexivity]. Qed.
Theorem C44_refuted_errno_zero : exists l, (exists lab e, In (AFun lab (FRaise e) (fun v => v)) l) /\ task_execute l = ([1], None).
Proof. exists [AFun 1 (FRaise (XOs (SInt 0))) (fun v => v)]. split; [exists 1, (XOs (SInt 0)); left; reflexivity | reflexivity]. Qed.
Example C44_witness : let l := [AList [ACmd false [(1, SInt 0); (2, SInt 0)] (fun v => v); AFun 3 (FRet SNone) (fun v => v)]; ACmd true [(4, SInt 1)] (fun v => v); AFun 5 (FRaise XOther) (fun v => v); ACmd false [(6, SInt 0)] (fun v => v)] in
  Forall ordinary l /\ task_execute l = ([1; 2; 3; 4; 5], Some (XBuild (SInt 2) (SInt 2))).
Proof. cbv zeta. split; [repeat (apply Forall_cons; [cbn; auto|]); apply Forall_nil | reflexivity]. Qed.

(* ---- C34 ---- *)
(* the status of a task that ended, as the manual says: 2, or the argument of an explicit Exit() in an action *)
Definition failure_status (x : ending) : option sval := match x with TOk => None | TFailed (XExplicit v) => Some v | TFailed _ => Some (SInt 2) | TUnknown => Some (SInt 2) end.
Definition last_failure (l : list ending) : option sval := fold_left (fun acc x => match failure_status x with Some s => Some s | None => acc end) l None.
Lemma end_task_spec m x st : m <> IgnoreErrors -> end_task m st x = match failure_status x with Some s => s | None => st end.
Proof. intros M. destruct x as [|e|]; [reflexivity | |]; destruct m; try contradiction; try reflexivity; destruct e; reflexivity. Qed.
(* C34: without --ignore-errors, the exit status is that of the last failing task, 0 if there is none *)
Theorem C34_exit_status m l : m <> IgnoreErrors -> scons_exit m true false l = match last_failure l with Some s => s | None => SInt 0 end.
Proof.
  intros M. unfold scons_exit. cbv zeta. cbn [negb]. unfold last_failure. assert (G : forall l st acc, st = match acc with Some s => s | None => SInt 0 end -> fold_left (end_task m) l st = match fold_left (fun acc x => match failure_status x with Some s => Some s | None => acc end) l acc with Some s => s | None => SInt 0 end).
  { clear l. induction l as [|x l IH]; intros st acc E; [exact E|]. cbn [fold_left]. apply IH. rewrite (end_task_spec m x st M). destruct (failure_status x); [reflexivity | exact E]. }
  apply G. reflexivity.
Qed.
(* so the shell sees zero exactly if no task failed, unless a task called Exit() with a status that means success *)
Definition exits_zero (x : ending) : Prop := exists v, x = TFailed (XExplicit v) /\ (v = SNone \/ v = SInt 0).
Lemma last_failure_app l x : last_failure (l ++ [x]) = match failure_status x with Some s => Some s | None => last_failure l end.
Proof. unfold last_failure. rewrite fold_left_app. reflexivity. Qed.
Theorem C34b_zero_iff_no_failure m l : m <> IgnoreErrors -> (forall x, In x l -> ~ exits_zero x) -> (shell (scons_exit m true false l) = 0 <-> forall x, In x l -> x = TOk).
Proof.
  intros M N. rewrite (C34_exit_status m l M). induction l as [|x l IH] using rev_ind; [split; [intros _ x [] | reflexivity]|]. rewrite last_failure_app.
  assert (N' : forall y, In y l -> ~ exits_zero y) by (intros y Hy; apply N, in_or_app; auto). specialize (IH N').
  assert (Nx : ~ exits_zero x) by (apply N, in_or_app; right; left; reflexivity).
  destruct x as [|e|]; cbn [failure_status].
  - rewrite IH. split; [intros H y Hy; apply in_app_or in Hy; destruct Hy as [Hy|[<-|[]]]; [apply H, Hy | reflexivity] | intros H y Hy; apply H, in_or_app; auto].
  - split; [intros H; exfalso | intros H; exfalso; specialize (H (TFailed e)); discriminate H; apply in_or_app; right; left; reflexivity].
    destruct e; cbn in H; try discriminate H. apply Nx. exists status. split; [reflexivity|]. destruct status; cbn in H; [left; reflexivity | right; congruence | discriminate].
  - split; [intros H; discriminate H | intros H; exfalso; specialize (H TUnknown); discriminate H; apply in_or_app; right; left; reflexivity].
Qed.
(* an interrupted run, and a run that finds nothing to build, exit with 2; with --ignore-errors failures do not count *)
Theorem C34c_other_cases m h l : scons_exit m h true l = SInt 2 /\ scons_exit m false false l = SInt 2 /\ scons_exit IgnoreErrors true false l = SInt 0.
Proof.
  split; [destruct h; reflexivity|]. split; [reflexivity|]. unfold scons_exit. cbv zeta iota. induction l as [|x l IH] using rev_ind; [reflexivity|]. rewrite fold_left_app. cbn [fold_left]. rewrite IH. destruct x; reflexivity.
Qed.
(* -q: the exit status is 1 if some target is not up to date *)
Theorem C34d_question l : fold_left question_task l (SInt 0) = if existsb (fun b => b) l then SInt 1 else SInt 0.
Proof.
  assert (G : forall l st, fold_left question_task l st = if existsb (fun b => b) l then SInt 1 else st). { clear. induction l as [|b l IH]; intros st; [reflexivity|]. cbn. rewrite IH. destruct b; cbn; [destruct (existsb _ l); reflexivity | reflexivity]. }
  apply G.
Qed.
(* an explicit Exit(0) after a failure, with -k, hides the failure *)
Theorem C34_refuted_exit_zero : exists l, (exists e, In (TFailed e) l /\ forall v, e <> XExplicit v) /\ scons_exit KeepGoing true false l = SInt 0.
Proof. exists [TFailed (XBuild (SInt 1) (SInt 2)); TFailed (XExplicit (SInt 0))]. split; [exists (XBuild (SInt 1) (SInt 2)); split; [left; reflexivity | discriminate] | reflexivity]. Qed.
Example C34_witness : scons_exit KeepGoing true false [TOk; TFailed (XBuild (SInt 1) (SInt 2)); TOk] = SInt 2 /\ scons_exit StopAtError true false [TOk; TFailed (XExplicit (SInt 7))] = SInt 7 /\ scons_exit KeepGoing true false [TOk; TOk] = SInt 0.
Proof. repeat split. Qed.
(* from actions to the shell: a single task with ordinary actions that do not call Exit gives 2 if a step fails, else 0 *)
Fixpoint calls_exit (a : action) : bool := match a with ACmd _ _ _ => false | AFun _ f _ => match f with FRaise (XExit _) => true | _ => false end | AList l => existsb calls_exit l end.
Lemma call_no_exit a e : calls_exit a = false -> snd (call a) = RRaise e -> False.
Proof.
  revert e. induction a as [ig c f | n f g | l F] using action_ind2; intros e N H.
  - cbn [call] in H. destruct (run_cmds_steps ig c) as (_ & _ & _ & _ & E). destruct (run_cmds ig c) as [t x]. destruct x as [v|s y|y]; cbn in *; [discriminate | destruct (truthy (f s)); discriminate | apply (E y eq_refl)].
  - destruct f as [v|y]; cbn in *; [destruct (truthy v); [destruct v; cbn in H; destruct (truthy (g _)); discriminate | discriminate]|]. destruct y; cbn in *; try discriminate; destruct (truthy (g _)); discriminate.
  - cbn [call] in H. cbn [calls_exit] in N. induction l as [|b r IHl]; [discriminate|]. cbn [existsb] in N. apply orb_false_iff in N. destruct N as [N1 N2]. pose proof (Forall_inv F) as Fb. cbn beta in Fb. specialize (IHl (Forall_inv_tail F) N2).
    destruct (call b) as [t x] eqn:Cb. cbn [snd] in Fb. destruct (stops x) eqn:S; [cbn in H; rewrite ?S in H; cbn in H; apply (Fb e N1 H)|]. cbn in H. destruct (_ r) as [t' y]. apply IHl. exact H.
Qed.
Theorem C34e_from_actions m l : m <> IgnoreErrors -> Forall ordinary l -> existsb calls_exit l = false ->
  scons_exit m true false [match snd (task_execute l) with Some e => TFailed e | None => TOk end] = if snd (run_steps (flat_map steps l)) then SInt 2 else SInt 0.
Proof.
  intros M O N. rewrite (C34_exit_status m _ M). cbn [last_failure fold_left]. unfold last_failure. cbn [fold_left].
  assert (G : forall e, snd (task_execute l) = Some e -> failure_status (TFailed e) = Some (SInt 2)).
  { intros e. unfold task_execute. assert (X : forall e, snd (execute_action_list l) = Some e -> exists s x, e = XBuild s x).
    { clear - N. induction l as [|a r IH]; [discriminate|]. cbn [existsb] in N. apply orb_false_iff in N. destruct N as [N1 N2]. cbn [execute_action_list]. pose proof (call_no_exit a) as C. destruct (call a) as [t x]. cbn [snd] in C. destruct x as [v|s y|y]; intros e; cbn.
      - destruct (truthy v); [cbn; intros H; injection H as <-; eauto|]. specialize (IH N2). destruct (execute_action_list r). cbn in *. exact (IH e).
      - intros H. injection H as <-. eauto.
      - elim (C y N1 eq_refl). }
    destruct (execute_action_list l) as [t [y|]]; [|discriminate]. cbn [snd] in *. destruct (X y eq_refl) as (s & x & ->). intros H. injection H as <-. reflexivity. }
  destruct (C44_stop_at_first_failure l O) as (_ & F).
  assert (R : forall s, snd (run_steps s) = true <-> exists x, In x s /\ snd x = true).
  { clear. induction s as [|[n b] s IH]; cbn; [split; [discriminate | intros (x & [] & _)]|]. destruct b; cbn; [split; [intros _; exists (n, true); auto | reflexivity]|]. destruct (run_steps s) as [t x]. cbn in *. rewrite IH. split; [intros (z & A & B); exists z; auto | intros (z & [<-|A] & B); [discriminate | exists z; auto]]. }
  rewrite <- R in F. destruct (snd (task_execute l)) as [e|]; [rewrite (G e eq_refl)|cbn]; destruct (snd (run_steps (flat_map steps l))); try reflexivity; exfalso.
  - assert (false = true) by (apply F; discriminate). discriminate.
  - apply F; reflexivity.
Qed.
Print Assumptions C44_stop_at_first_failure. Print Assumptions C44_refuted_same_file. Print Assumptions C44_refuted_errno_zero.
Print Assumptions C34_exit_status. Print Assumptions C34b_zero_iff_no_failure. Print Assumptions C34c_other_cases. Print Assumptions C34d_question. Print Assumptions C34_refuted_exit_zero. Print Assumptions C34e_from_actions.
