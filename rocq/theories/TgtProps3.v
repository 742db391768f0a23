(* C62: the theorems *)
From Coq Require Import Ascii String List Bool Arith Lia.
Import ListNotations. Open Scope list_scope.
From Verif Require Import NameModel OptModel OptSpec OptProps OptProps5 OptProps6 TgtModel TgtSpec TgtProps TgtProps2.

(* where scons works: without -u, -U, -D in the directory where it is started; else in the nearest one with a SConstruct *)
Definition placed (has : path -> bool) (c : climbing) (start top : path) (target_top : option path) : Prop :=
  match c with NoClimb => top = start /\ target_top = None | _ => exists t, climb has (rev start) [] = Some (top, t) /\ target_top = Some t end.
Lemma placed_dir : forall has c start top tt, real start -> placed has c start top tt -> match tt with Some t => walk top t | None => top end = start.
Proof.
  intros has c start top tt R P. assert (X : forall t, climb has (rev start) [] = Some (top, t) -> walk top t = start).
  { intros t E. assert (C := C62b_climb has start). rewrite E in C. destruct C as (C & _). rewrite walk_real; [symmetry; exact C|]. unfold real in *. rewrite C in R. apply Forall_app in R. apply R. }
  destruct c; [destruct P as (-> & ->); reflexivity | ..]; destruct P as (t & E & ->); apply X; exact E.
Qed.
Section Thms.
Variable alias : word -> option tnode.
Variable entry : path -> tnode.
Variable srcnode : path -> path.
Variable has : path -> bool.
Variables (c : climbing) (start top : path) (tt : option path).
Hypothesis R : real start.
Hypothesis P : placed has c start top tt.
Variables (ts rs : list word) (h : list sop) (ns : list tnode).      (* the targets of the command line, before and after --; what the scripts do; the default targets *)
Hypothesis D : default_targets h ns.
Notation s := (scripts h (started ts rs)).
Notation result := (build_targets alias entry srcnode top s ts c tt).
Theorem C62c_asked_ : asked ts rs h -> unless_empty (build s) result (Forall2 (stands_for alias entry top start) (build s)).
Proof. intros A. rewrite <- (placed_dir has c start top tt R P). apply (sel_asked alias entry srcnode top ts rs h ns D A). Qed.
Theorem C62d_defaults_ : ~ asked ts rs h -> c = NoClimb \/ c = BigD -> (default_called h -> unless_empty ns result (fun r => r = ns)) /\ (~ default_called h -> result = Some [NDir top]).
Proof.
  intros A C. assert (X : forall dl, candidates top h ns dl -> unless_empty dl result (fun r => r = dl)).
  { intros dl Hd. destruct (sel_default alias entry srcnode top ts rs h ns D A dl Hd) as (X1 & X2 & _). destruct C as [-> | ->]; [cbn [placed] in P; destruct P as (_ & ->); exact X2 | apply X1]. }
  split; intros Hc; [apply X; left; auto|]. destruct (X [NDir top]) as [(E & _)|(_ & r & E & ->)]; [right; auto | discriminate | exact E].
Qed.
Theorem C62e_up_ : ~ asked ts rs h -> c = LittleU -> (default_called h -> unless_empty ns result (fun r => exists ps, Forall2 (kept start) ns ps /\ r = concat ps)) /\ (~ default_called h -> result = Some [NDir start]).
Proof.
  intros A ->. cbn [placed] in P. destruct P as (t & E & Et). assert (W : walk top t = start) by (assert (Y := placed_dir has LittleU start top tt R P); rewrite Et in Y; exact Y).
  assert (X : forall dl, candidates top h ns dl -> unless_empty dl (build_targets alias entry srcnode top s ts LittleU tt) (fun r => exists ps, Forall2 (kept start) dl ps /\ r = concat ps)).
  { intros dl Hd. destruct (sel_default alias entry srcnode top ts rs h ns D A dl Hd) as (_ & _ & X). rewrite Et, <- W. apply X. }
  split; intros Hc; [apply X; left; auto|]. destruct (X [NDir top]) as [(F & _)|(_ & r & F & ps & G & ->)]; [right; auto | discriminate|]. rewrite F. f_equal. clear W X. inversion G as [|x y l l2 G1 G2 E1 E2]; subst. inversion G2; subst. cbn [concat]. rewrite app_nil_r.
  assert (C := C62b_climb has start). rewrite E in C. destruct C as (C & _). inversion G1 as [n Hi E3 E4|p Hn Ha E3 E4|n Hn Ha E3 E4]; subst; [|reflexivity | exfalso; apply (Ha top t eq_refl); reflexivity].
  cbn [inside] in Hi. destruct Hi as (r & Hr). rewrite <- app_assoc in Hr. assert (Y : t ++ r = []) by (apply (app_inv_head top); rewrite app_nil_r; symmetry; exact Hr). apply app_eq_nil in Y. destruct Y as [-> _]. rewrite app_nil_r. reflexivity.
Qed.
Theorem C62f_Up_ : ~ asked ts rs h -> c = BigU -> exists l, those (of_scripts srcnode start) ns l /\ unless_empty l result (fun r => r = l).
Proof.
  intros A ->. cbn [placed] in P. destruct P as (t & E & Et). assert (W : walk top t = start) by (assert (Y := placed_dir has BigU start top tt R P); rewrite Et in Y; exact Y).
  rewrite Et, <- W. apply (sel_bigu alias entry srcnode top ts rs h ns D A).
Qed.
End Thms.
(* C62c: if there are targets on the command line (before any --), or a script has changed BUILD_TARGETS by hand, exactly BUILD_TARGETS is built, in order: nodes as they are, names as aliases or as the files they
   mean in the directory where scons was started; nothing if it is empty *)
Theorem C62c_asked : forall alias entry srcnode has c start top tt, real start -> placed has c start top tt -> forall ts rs h,
  let s := scripts h (started ts rs) in ts <> [] \/ build s <> build (scripts (official h) (started ts rs)) ->
  unless_empty (build s) (build_targets alias entry srcnode top s ts c tt) (Forall2 (stands_for alias entry top start) (build s)).
Proof. intros alias entry srcnode has c start top tt R P ts rs h s A. destruct (default_exists h) as (ns & D). apply (C62c_asked_ alias entry srcnode has c start top tt R P ts rs h ns D A). Qed.
(* C62d: otherwise, without -u, -U, -D or with -D: the default targets, or, if Default was never called, the top directory *)
Theorem C62d_defaults : forall alias entry srcnode has c start top tt, real start -> placed has c start top tt -> c = NoClimb \/ c = BigD -> forall ts rs h ns, default_targets h ns ->
  let s := scripts h (started ts rs) in ts = [] -> build s = build (scripts (official h) (started ts rs)) ->
  (default_called h -> unless_empty ns (build_targets alias entry srcnode top s ts c tt) (fun r => r = ns)) /\ (~ default_called h -> build_targets alias entry srcnode top s ts c tt = Some [NDir top]).
Proof. intros alias entry srcnode has c start top tt R P C ts rs h ns D s E1 E2. apply (C62d_defaults_ alias entry srcnode has c start top tt P ts rs h ns D); [intros [X|X]; contradiction | exact C]. Qed.
(* C62e: with -u: of the default targets those at or below the directory where scons was started, and that directory for each directory above it; or, if Default was never called, that directory *)
Theorem C62e_up : forall alias entry srcnode has start top tt, real start -> placed has LittleU start top tt -> forall ts rs h ns, default_targets h ns ->
  let s := scripts h (started ts rs) in ts = [] -> build s = build (scripts (official h) (started ts rs)) ->
  (default_called h -> unless_empty ns (build_targets alias entry srcnode top s ts LittleU tt) (fun r => exists ps, Forall2 (kept start) ns ps /\ r = concat ps)) /\
  (~ default_called h -> build_targets alias entry srcnode top s ts LittleU tt = Some [NDir start]).
Proof. intros alias entry srcnode has start top tt R P ts rs h ns D s E1 E2. apply (C62e_up_ alias entry srcnode has LittleU start top tt R P ts rs h ns D); [intros [X|X]; contradiction | reflexivity]. Qed.
(* C62f: with -U: the default targets of the scripts of the directory (and those that are no targets of builders; and a directory if it is that one) *)
Theorem C62f_Up : forall alias entry srcnode has start top tt, real start -> placed has BigU start top tt -> forall ts rs h ns, default_targets h ns ->
  let s := scripts h (started ts rs) in ts = [] -> build s = build (scripts (official h) (started ts rs)) ->
  exists l, those (of_scripts srcnode start) ns l /\ unless_empty l (build_targets alias entry srcnode top s ts BigU tt) (fun r => r = l).
Proof. intros alias entry srcnode has start top tt R P ts rs h ns D s E1 E2. apply (C62f_Up_ alias entry srcnode has BigU start top tt R P ts rs h ns D); [intros [X|X]; contradiction | reflexivity]. Qed.
(* C62g: ARGLIST has the variables of the command line in order, split at the first =; ARGUMENTS the last value of each *)
Theorem C62g_arguments : forall xmit, Forall (fun w => In equals w) xmit ->
  Forall2 (fun w ab => w = fst ab ++ equals :: snd ab /\ ~ In equals (fst ab)) xmit (arglist xmit) /\
  forall a b, arguments xmit a = Some b <-> exists l1 l2, arglist xmit = l1 ++ (a, b) :: l2 /\ ~ In a (map fst l2).
Proof.
  intros xmit H. split.
  - induction H as [|w l Hw H IH]; [constructor|]. cbn [arglist map]. constructor; [|exact IH]. clear - Hw.
    assert (E : exists n v, w = n ++ equals :: v /\ ~ In equals n).
    { induction w as [|a w IH]; [contradiction|]. destruct (ascii_dec a equals) as [-> | Ha]; [exists [], w; split; [reflexivity | intros []]|]. destruct Hw as [X|X]; [congruence|]. destruct (IH X) as (n & v & -> & Hn). exists (a :: n), v. split; [reflexivity|]. intros [Y|Y]; [congruence | contradiction]. }
    destruct E as (n & v & -> & Hn). rewrite split_eq_some by exact Hn. cbn [fst snd]. auto.
  - clear H. unfold arguments. generalize (arglist xmit). intros l. assert (X : forall l (m : map_ word) a b, fold_left (fun m ab => put m (fst ab) (snd ab)) l m a = Some b <-> (exists l1 l2, l = l1 ++ (a, b) :: l2 /\ ~ In a (map fst l2)) \/ (~ In a (map fst l) /\ m a = Some b)).
    { clear. intros l. induction l as [|[x y] l IH] using rev_ind; intros m a b.
      - cbn. split; [intros H; right; auto|]. intros [(l1 & l2 & E & _)|(_ & H)]; [destruct l1; discriminate | exact H].
      - rewrite fold_left_app. cbn [fold_left fst snd]. unfold put at 1. destruct (str_eqb a x) eqn:E.
        + apply str_eqb_eq in E. subst x. split.
          * intros H. injection H as ->. left. exists l, []. split; [reflexivity | intros []].
          * intros [(l1 & l2 & E & N)|(N & _)].
            -- destruct l2 as [|z l2 _] using rev_ind; [apply app_inj_tail in E; destruct E as [_ E]; injection E as ->; reflexivity|]. rewrite app_comm_cons, app_assoc in E. apply app_inj_tail in E. destruct E as [_ <-]. exfalso. apply N. rewrite map_app. apply in_or_app. right. left. reflexivity.
            -- exfalso. apply N. rewrite map_app. apply in_or_app. right. left. reflexivity.
        + assert (Ne : a <> x) by (intros ->; rewrite str_eqb_refl in E; discriminate). rewrite IH, map_app. split.
          * intros [(l1 & l2 & -> & N)|(N & H)].
            -- left. exists l1, (l2 ++ [(x, y)]). split; [rewrite <- app_assoc; reflexivity|]. rewrite map_app. intros X. apply in_app_or in X. destruct X as [X|[X|[]]]; [contradiction | cbn in X; congruence].
            -- right. split; [|exact H]. intros X. apply in_app_or in X. destruct X as [X|[X|[]]]; [contradiction | cbn in X; congruence].
          * intros [(l1 & l2 & E2 & N)|(N & H)].
            -- destruct l2 as [|z l2 _] using rev_ind; [apply app_inj_tail in E2; destruct E2 as [_ E2]; injection E2 as E2 _; congruence|]. rewrite app_comm_cons, app_assoc in E2. apply app_inj_tail in E2. destruct E2 as [-> _]. left. exists l1, l2. split; [reflexivity|]. intros X. apply N. rewrite map_app. apply in_or_app. left. exact X.
            -- right. split; [|exact H]. intros X. apply N. apply in_or_app. left. exact X. }
    intros a b. rewrite X. split; [intros [H|(_ & H)]; [exact H | discriminate] | intros H; left; exact H].
Qed.
(* C62h: from the command line to the targets: if it has a target before any --, and no script changes BUILD_TARGETS by hand, what is built is what the words stand for that are neither options nor variables *)
Theorem C62h_command_line : forall B defs0 settable0 kinds hopt argv its, project B defs0 settable0 kinds hopt -> line B (added hopt) argv its -> accepted defs0 hopt its ->
  forall alias entry srcnode has c start top tt h, real start -> placed has c start top tt -> no_hand h ->
  let words := filter (fun w => negb (is_empty w) && negb (is_variable w)) (plain its) in words <> [] ->
  exists p0 rest r, OptModel.start B defs0 settable0 argv = inl (p0, rest) /\
    build_targets alias entry srcnode top (scripts h (started (cl_targets (largs p0) []) rest)) (cl_targets (largs p0) []) c tt = Some r /\
    Forall2 (stands_for alias entry top start) (map TName (words ++ after_dashes its)) r.
Proof.
  intros B defs0 settable0 kinds hopt argv its PR LN ACC alias entry srcnode has c start top tt h R P N words W. destruct (first B defs0 settable0 kinds hopt argv its PR LN ACC) as (tl & vs1 & ST & AP & SG & TL).
  destruct (targets_ok B hopt its tl SG TL) as (T1 & _). assert (T2 : cl_targets (map fst tl) [] = words). { unfold cl_targets in *. rewrite app_nil_r. apply app_inv_tail in T1. exact T1. }
  eexists _, _. cbn [largs]. destruct (default_exists h) as (ns & D). destruct (C62a_lists words (flat_map OptProps2.after its) h ns D) as (_ & _ & BT & _).
  assert (NE : words ++ flat_map OptProps2.after its <> []) by (intros X; apply app_eq_nil in X; destruct X; contradiction).
  destruct (C62c_asked alias entry srcnode has c start top tt R P words (flat_map OptProps2.after its) h (or_introl W)) as [(E & _)|(_ & r & E & F)].
  - exfalso. rewrite (BT N) in E. destruct (words ++ flat_map OptProps2.after its); [contradiction | discriminate].
  - exists r. split; [exact ST|]. cbn [largs]. rewrite T2. split; [exact E|]. rewrite (BT N) in F. change (after_dashes its) with (flat_map OptProps2.after its). destruct (words ++ flat_map OptProps2.after its); [contradiction | exact F].
Qed.
Print Assumptions C62c_asked.
Print Assumptions C62d_defaults.
Print Assumptions C62e_up.
Print Assumptions C62f_Up.
Print Assumptions C62g_arguments.
Print Assumptions C62h_command_line.
