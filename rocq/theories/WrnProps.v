(* --warn and SetOption('warn'): the last directive decides; names of types and classes. *)
From Coq Require Import Ascii String List Bool Arith Lia.
From Verif Require Import NameModel NameProps WrnModel WrnSpec.
Import ListNotations.
Open Scope list_scope.

Section Order.
Context (sub : str -> str -> bool) (known : str -> bool).
Notation meaning := (meaning sub known).
Definition directives (args : list str) : list (str * bool) := flat_map (fun a => match meaning a with Some d => [d] | None => [] end) args.

Lemma process_eq : forall args e, process_warn_strings sub known e args = rev (directives args) ++ e.
Proof.
  induction args as [|a args IH]; intros e; [reflexivity|]. unfold process_warn_strings in *. cbn [fold_left]. rewrite IH. unfold directives. cbn [flat_map]. destruct (meaning a) as [d|]; [|reflexivity].
  cbn [app rev]. rewrite <- app_assoc. reflexivity.
Qed.
Definition covered (l : list (str * bool)) (c : str) : Prop := exists k f, In (k, f) l /\ sub c k = true.
Lemma shown_app : forall l r c, shown sub (l ++ r) c = if existsb (fun d => sub c (fst d)) l then shown sub l c else shown sub r c.
Proof.
  induction l as [|[k f] l IH]; intros r c; [reflexivity|]. cbn [app shown existsb fst]. destruct (sub c k); [reflexivity|]. cbn [orb]. apply IH.
Qed.
Lemma existsb_rev : forall (A : Type) (p : A -> bool) l, existsb p (rev l) = existsb p l.
Proof.
  intros A p l. induction l as [|x l IH]; [reflexivity|]. cbn. rewrite existsb_app, IH. cbn. rewrite orb_false_r. apply orb_comm.
Qed.
Lemma shown_spec : forall l c, shown sub (rev l) c = true <-> Decides sub l c true.
Proof.
  intros l c. split.
  - intros H. induction l as [|[k f] l IH]; [discriminate H|]. cbn [rev] in H. rewrite shown_app, existsb_rev in H. destruct (existsb (fun d => sub c (fst d)) l) eqn:E.
    + destruct (IH H) as [l1 [k' [l2 [-> R]]]]. exists ((k, f) :: l1), k', l2. split; [reflexivity | exact R].
    + cbn in H. destruct (sub c k) eqn:SK; [|discriminate H]. subst f. exists [], k, l. split; [reflexivity|]. split; [exact SK|]. intros k' f' I.
      destruct (sub c k') eqn:X; [|reflexivity]. rewrite <- E. symmetry. apply existsb_exists. exists (k', f'). split; assumption.
  - intros [l1 [k [l2 [-> [SK R]]]]]. rewrite rev_app_distr. cbn [rev]. rewrite <- app_assoc, shown_app, existsb_rev.
    assert (existsb (fun d => sub c (fst d)) l2 = false) as ->.
    { destruct (existsb _ l2) eqn:E; [|reflexivity]. apply existsb_exists in E. destruct E as [[k' f'] [I X]]. cbn in X. rewrite (R k' f' I) in X. discriminate X. }
    cbn. rewrite SK. reflexivity.
Qed.
Definition defaults : list (str * bool) := [(lit "WarningOnByDefault", true); (lit "DeprecatedWarning", true)].

(* the list that SetOption processes again and again adds nothing: its last processing has all *)
Lemma calls_settings : forall calls st e, fst (fold_left (set_option sub known) calls (st, e)) = st ++ flat_map values calls.
Proof.
  induction calls as [|v calls IH]; intros st e; cbn [fold_left flat_map]; [rewrite app_nil_r; reflexivity|]. unfold set_option at 2. cbn [fst snd]. rewrite IH, app_assoc. reflexivity.
Qed.
Lemma existsb_more : forall c a b, existsb (fun d : str * bool => sub c (fst d)) (directives a) = true -> existsb (fun d => sub c (fst d)) (directives (a ++ b)) = true.
Proof. intros c a b H. unfold directives in *. rewrite flat_map_app, existsb_app, H. reflexivity. Qed.
Lemma calls_shown : forall calls e st c, shown sub (snd (fold_left (set_option sub known) calls (st, e))) c =
  match calls with [] => shown sub e c | _ => shown sub (rev (directives (st ++ flat_map values calls)) ++ e) c end.
Proof.
  induction calls as [|v calls IH]; intros e st c; [reflexivity|]. cbn [fold_left flat_map]. unfold set_option at 2. cbn [fst snd]. rewrite IH, process_eq. destruct calls as [|w calls].
  - cbn. rewrite app_nil_r. reflexivity.
  - rewrite <- app_assoc. set (l1 := st ++ values v). set (l2 := flat_map values (w :: calls)). assert (st ++ values v ++ l2 = l1 ++ l2) as -> by (unfold l1; rewrite app_assoc; reflexivity).
    rewrite !shown_app, !existsb_rev. destruct (existsb (fun d => sub c (fst d)) (directives (l1 ++ l2))) eqn:E; [reflexivity|].
    destruct (existsb (fun d => sub c (fst d)) (directives l1)) eqn:E1; [rewrite (existsb_more _ _ _ E1) in E; discriminate E | reflexivity].
Qed.
Definition ordered (opts : list str) (calls : list value) : list (str * bool) := defaults ++ directives (command_line opts) ++ directives (flat_map values calls).
Lemma reading_eq : forall opts calls c, shown sub (reading sub known opts calls) c = shown sub (rev (ordered opts calls)) c.
Proof.
  intros opts calls c. unfold reading. rewrite calls_shown. unfold started, ordered. rewrite process_eq. assert (rev defaults = [(lit "DeprecatedWarning", true); (lit "WarningOnByDefault", true)]) as <- by reflexivity.
  rewrite !rev_app_distr. destruct calls as [|v calls]; [reflexivity|]. cbn [app]. rewrite <- app_assoc. reflexivity.
Qed.
Lemma again : forall l e c, shown sub (rev (directives l) ++ rev (directives l) ++ e) c = shown sub (rev (directives l) ++ e) c.
Proof. intros l e c. rewrite !shown_app. destruct (existsb _ _); reflexivity. Qed.

(* C85a: a warning is shown exactly if the last directive that covers its class turns it on: first the defaults, then the command line, then the calls of SetOption; while the scripts are read and afterwards *)
Theorem C85a_last : forall opts calls c,
  (shown sub (reading sub known opts calls) c = true <-> Decides sub (defaults ++ directives (command_line opts) ++ directives (flat_map values calls)) c true) /\
  (shown sub (building sub known opts calls) c = true <-> Decides sub (defaults ++ directives (command_line opts) ++ directives (flat_map values calls)) c true).
Proof.
  intros opts calls c. split; [rewrite reading_eq; apply shown_spec|]. rewrite <- shown_spec. fold (ordered opts calls). rewrite <- reading_eq. unfold building. rewrite process_eq, calls_settings.
  rewrite shown_app, existsb_rev. destruct calls as [|v calls].
  - destruct (existsb (fun d => sub c (fst d)) (directives (command_line opts))) eqn:E; [|reflexivity]. rewrite reading_eq. unfold ordered. cbn [flat_map]. change (directives []) with (@nil (str * bool)). rewrite app_nil_r.
    rewrite rev_app_distr, shown_app, existsb_rev, E. reflexivity.
  - cbn [app]. destruct (existsb (fun d => sub c (fst d)) (directives (flat_map values (v :: calls)))) eqn:E; [|reflexivity]. rewrite reading_eq. unfold ordered.
    rewrite !rev_app_distr, <- app_assoc, shown_app, existsb_rev, E. reflexivity.
Qed.
(* C85b: a warning that nothing covers is not shown *)
Theorem C85b_nothing : forall opts calls c, (forall k f, In (k, f) (defaults ++ directives (command_line opts) ++ directives (flat_map values calls)) -> sub c k = false) ->
  shown sub (reading sub known opts calls) c = false /\ shown sub (building sub known opts calls) c = false.
Proof.
  intros opts calls c H. destruct (C85a_last opts calls c) as [A B]. assert (~ Decides sub (defaults ++ directives (command_line opts) ++ directives (flat_map values calls)) c true) as N.
  { intros [l1 [k [l2 [E [SK _]]]]]. rewrite (H k true) in SK; [discriminate SK|]. rewrite E. apply in_or_app. right. left. reflexivity. }
  split; apply not_true_is_false; intros X; [apply A in X | apply B in X]; exact (N X).
Qed.
End Order.
Print Assumptions C85a_last.
Print Assumptions C85b_nothing.
