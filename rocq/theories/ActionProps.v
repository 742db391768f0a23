(* C47 (actions run in order, up to the first failure), C48 (action signatures), C49 (executor lists).  Vocabulary in ActionSpec.v. *)
From Coq Require Import List Arith Bool Lia Permutation.
Import ListNotations.
From Verif Require Import ActionModel ActionSpec.

(* ---- execution ---- *)
Lemma outcome_cons W h ev ig fl st h' : (ig = true \/ w_status W h ev = 0) -> outcome W (h ++ [ev]) fl st h' -> outcome W h ((ev, ig) :: fl) st h'.
Proof.
  intros H [(A & B & C)|(i & ev' & A & B & C & D & E)].
  - left. split; [exact A|]. split; [rewrite B, <- app_assoc; reflexivity|]. intros [|i] x y Hn; cbn in Hn.
    + injection Hn as <- <-. cbn. rewrite app_nil_r. exact H.
    + specialize (C i x y Hn). rewrite <- app_assoc in C. exact C.
  - right. exists (S i), ev'. split; [exact A|]. split; [rewrite <- app_assoc in B; exact B|]. split; [exact C|]. split; [rewrite D, <- app_assoc; reflexivity|].
    intros [|j] Hj x y Hn; cbn in Hn.
    + injection Hn as <- <-. cbn. rewrite app_nil_r. exact H.
    + specialize (E j ltac:(lia) x y Hn). rewrite <- app_assoc in E. exact E.
Qed.
Lemma run_lines_outcome W ig ls : forall h, let r := run_lines W ig ls h in outcome W h (map (fun ev => (ev, ig)) (map Spawn ls)) (fst r) (snd r).
Proof.
  induction ls as [|l ls IH]; intros h; cbn [run_lines map].
  - left. cbn. rewrite app_nil_r. split; [reflexivity|]. split; [reflexivity|]. intros [|i] ev g H; discriminate.
  - cbv zeta. destruct (negb ig && negb (w_status W h (Spawn l) =? 0)) eqn:E; cbn [fst snd].
    + right. apply andb_true_iff in E. destruct E as [E1 E2]. apply negb_true_iff in E1. apply negb_true_iff, Nat.eqb_neq in E2. subst ig.
      exists 0, (Spawn l). cbn. rewrite app_nil_r. split; [reflexivity|]. split; [reflexivity|]. split; [exact E2|]. split; [reflexivity | lia].
    + apply outcome_cons; [|apply IH]. destruct ig; [left; reflexivity|]. cbn in E. apply negb_false_iff, Nat.eqb_eq in E. right; exact E.
Qed.
Lemma run_command_runs W e c k h : exists st0 h', outcome W h (flag (command_leaf e c k)) st0 h' /\ run_command W e c k h = (l_stat (command_leaf e c k) st0, h').
Proof.
  unfold run_command, command_leaf, flag. destruct (process (e_lines e c)) as [ls ig]. cbn [l_events l_ignore l_stat].
  pose proof (run_lines_outcome W ig (filter nonempty ls) h) as H. destruct (run_lines W ig (filter nonempty ls) h) as [st0 h']. cbn in H. exists st0, h'. auto.
Qed.
Lemma runs_one W l h st0 h' : outcome W h (flag l) st0 h' -> runs W [l] h (l_stat l st0) h'.
Proof.
  intros H. destruct (l_stat l st0) as [|n] eqn:E.
  - eapply runs_go; [exact H | exact E | apply runs_nil].
  - rewrite <- E. apply runs_stop; [exact H | congruence].
Qed.
Lemma runs_app W a b : forall h st h', runs W a h st h' -> (st <> 0 -> runs W (a ++ b) h st h') /\ (st = 0 -> forall st2 h2, runs W b h' st2 h2 -> runs W (a ++ b) h st2 h2).
Proof.
  intros h st h' H. induction H as [h|l r h st0 h' O N|l r h st0 h' st h'' O N R IH].
  - split; [congruence | intros _ st2 h2 Q; exact Q].
  - split; [|congruence]. intros _. cbn. apply runs_stop; assumption.
  - destruct IH as [I1 I2]. split; [intros Q; cbn; eapply runs_go; eauto | intros Q st2 h2 B; cbn; eapply runs_go; eauto].
Qed.
Lemma all_some_cons {A} (x : option A) l r : all_some (x :: l) = Some r -> exists a r', x = Some a /\ all_some l = Some r' /\ r = a :: r'.
Proof. cbn. destruct x as [a|]; [|discriminate]. destruct (all_some l) as [r'|]; [|discriminate]. intros H. injection H as <-. eauto. Qed.
Lemma run_list_runs W (run : action -> list event -> option (nat * list event)) (lv : action -> option (list leaf)) :
  (forall a ls, lv a = Some ls -> forall h, exists st h', run a h = Some (st, h') /\ runs W ls h st h') ->
  forall l lss, all_some (map lv l) = Some lss -> forall h, exists st h', run_list run l h = Some (st, h') /\ runs W (concat lss) h st h'.
Proof.
  intros Hl. induction l as [|a l IH]; intros lss H h.
  - injection H as <-. exists 0, h. split; [reflexivity | apply runs_nil].
  - cbn [map] in H. destruct (all_some_cons _ _ _ H) as (ls & lss' & Ha & Hr & ->). destruct (Hl a ls Ha h) as (st & h' & E & R). cbn [run_list]. rewrite E.
    destruct (runs_app W ls (concat lss') h st h' R) as [R1 R2]. destruct st as [|n].
    + destruct (IH lss' Hr h') as (st2 & h2 & E2 & Q). exists st2, h2. split; [exact E2|]. cbn. apply R2; [reflexivity | exact Q].
    + exists (S n), h'. split; [reflexivity | cbn; apply R1; discriminate].
Qed.

(* C47.  An action whose elementary steps are ls is executed in that order, up to the first command or function
   whose status (after its exit-status function) is not 0; that status is the result. *)
Theorem C47_actions_in_order : forall fuel W e a ls h, leaves fuel e a = Some ls ->
  exists st h', run_action fuel W e a h = Some (st, h') /\ runs W ls h st h'.
Proof.
  induction fuel as [|fu IH]; intros W e a ls h H; [discriminate|]. cbn [leaves run_action] in *. destruct a as [c k|f k|g k|v k|l].
  - injection H as <-. destruct (run_command_runs W e c k h) as (st0 & h' & O & ->). exists (l_stat (command_leaf e c k) st0), h'. split; [reflexivity | apply runs_one, O].
  - injection H as <-. set (lf := {| l_events := [Call f]; l_ignore := false; l_stat := k_stat k |}). exists (l_stat lf (w_status W h (Call f))), (h ++ [Call f]). split; [reflexivity|].
    apply runs_one. destruct (w_status W h (Call f)) as [|n] eqn:E.
    + left. split; [reflexivity|]. split; [reflexivity|]. intros [|[|i]] ev g Hn; cbn in Hn; try discriminate. injection Hn as <- <-. right. cbn. rewrite app_nil_r. exact E.
    + right. exists 0, (Call f). cbn. rewrite app_nil_r. split; [reflexivity|]. split; [exact E|]. split; [discriminate|]. split; [reflexivity | lia].
  - destruct (mk_action k (e_gen e g false)) as [b|]; [|discriminate]. apply IH, H.
  - destruct (plain_string e v).
    + injection H as <-. destruct (run_command_runs W e (CStr (braces v)) k h) as (st0 & h' & O & ->). exists (l_stat (command_leaf e (CStr (braces v)) k) st0), h'. split; [reflexivity | apply runs_one, O].
    + destruct (mk_action k (lazy_value e v)) as [b|]; [|discriminate]. apply IH, H.
  - destruct (all_some (map (leaves fu e) l)) as [lss|] eqn:E; [|discriminate]. injection H as <-.
    apply (run_list_runs W (run_action fu W e) (leaves fu e)) with (l := l) (lss := lss); [|exact E]. intros a ls Ha h0. apply IH, Ha.
Qed.
Print Assumptions C47_actions_in_order.

(* an outcome of the first part followed by an outcome of the second is one of the whole *)
Lemma outcome_app W h fl1 fl2 st1 h1 : outcome W h fl1 st1 h1 ->
  (st1 <> 0 -> outcome W h (fl1 ++ fl2) st1 h1) /\ (st1 = 0 -> forall st2 h2, outcome W h1 fl2 st2 h2 -> outcome W h (fl1 ++ fl2) st2 h2).
Proof.
  intros O. split.
  - intros N. destruct O as [(A & _)|(i & ev & A & B & C & D & F)]; [congruence|]. right. exists i, ev.
    assert (L : i < length fl1) by (apply nth_error_Some; congruence).
    assert (P : forall j, j <= i -> firstn j (fl1 ++ fl2) = firstn j fl1) by (intros j Hj; rewrite firstn_app; replace (j - length fl1) with 0 by lia; cbn; rewrite app_nil_r; reflexivity).
    split; [rewrite nth_error_app1 by exact L; exact A|]. split; [rewrite P by lia; exact B|]. split; [exact C|]. split.
    + rewrite D. rewrite firstn_app. replace (S i - length fl1) with 0 by lia. cbn. rewrite app_nil_r. reflexivity.
    + intros j Hj x g Hn. rewrite nth_error_app1 in Hn by lia. rewrite P by lia. apply (F j Hj x g Hn).
  - intros ->. destruct O as [(_ & B & C)|(i & ev & _ & _ & Q & _)]; [|congruence]. subst h1. intros st2 h2 O2.
    clear -C O2. revert h C O2. induction fl1 as [|[ev ig] fl1 IH]; intros h C O2; [cbn in O2; rewrite app_nil_r in O2; exact O2|].
    cbn [app]. apply outcome_cons.
    + specialize (C 0 ev ig eq_refl). cbn in C. rewrite app_nil_r in C. exact C.
    + apply IH.
      * intros i x g Hn. specialize (C (S i) x g Hn). cbn in C. rewrite <- app_assoc. exact C.
      * cbn in O2. rewrite <- app_assoc. exact O2.
Qed.
Lemma runs_outcome W ls h st h' : Forall (fun l => forall s, l_stat l s = s) ls -> runs W ls h st h' -> outcome W h (flat_map flag ls) st h'.
Proof.
  intros F R. induction R as [h|l r h st0 h' O N|l r h st0 h' st h'' O N R IH].
  - left. cbn. rewrite app_nil_r. split; [reflexivity|]. split; [reflexivity|]. intros [|i] ev ig H; discriminate.
  - inversion F as [|? ? F1 F2]; subst. rewrite F1 in *. cbn. exact (proj1 (outcome_app W h (flag l) (flat_map flag r) st0 h' O) N).
  - inversion F as [|? ? F1 F2]; subst. rewrite F1 in N. cbn. apply (proj2 (outcome_app W h (flag l) (flat_map flag r) st0 h' O) N). apply IH, F2.
Qed.

(* C47b.  Without exit-status functions: programs are started and functions called in the order of the action, all of them or up
   to and including the first one that fails and is not marked with '-'; the result is 0 or the status of that one. *)
Theorem C47b_first_failure_stops : forall fuel W e a ls h, leaves fuel e a = Some ls -> Forall (fun l => forall s, l_stat l s = s) ls ->
  exists st h', run_action fuel W e a h = Some (st, h') /\ outcome W h (flat_map flag ls) st h'.
Proof.
  intros fuel W e a ls h H F. destruct (C47_actions_in_order fuel W e a ls h H) as (st & h' & E & R). exists st, h'. split; [exact E | apply runs_outcome; assumption].
Qed.
Print Assumptions C47b_first_failure_stops.

(* C47c.  The same for an executor: pre-actions first, then the actions, then the post-actions, each in the order in which they were
   added; post-actions run only if nothing failed. *)
Theorem C47c_executor : forall fuel W e x pre acts post h,
  all_some (map (leaves fuel e) (x_pre x)) = Some pre -> all_some (map (leaves fuel e) (x_acts x)) = Some acts -> all_some (map (leaves fuel e) (x_post x)) = Some post ->
  exists st h', execute fuel W e x h = Some (st, h') /\ runs W (concat pre ++ concat acts ++ concat post) h st h'.
Proof.
  intros fuel W e x pre acts post h H1 H2 H3. unfold execute, action_list.
  assert (Q : forall l1 l2 (r1 r2 : list (list leaf)), all_some l1 = Some r1 -> all_some l2 = Some r2 -> all_some (l1 ++ l2) = Some (r1 ++ r2)).
  { induction l1 as [|y l1 IH]; intros l2 r1 r2 A B; [injection A as <-; exact B|]. destruct (all_some_cons _ _ _ A) as (a & r' & -> & A' & ->). cbn. rewrite (IH _ _ _ A' B). reflexivity. }
  destruct (run_list_runs W (run_action fuel W e) (leaves fuel e)) with (l := x_pre x ++ x_acts x ++ x_post x) (lss := pre ++ acts ++ post) (h := h) as (st & h' & E & R).
  - intros a ls Ha h0. apply C47_actions_in_order, Ha.
  - rewrite !map_app. apply Q; [exact H1 | apply Q; assumption].
  - exists st, h'. split; [exact E|]. rewrite !concat_app in R. exact R.
Qed.
Print Assumptions C47c_executor.

(* C47d.  The prefix of a command: '@' and '-' characters in front of the first word are removed, and failures are ignored exactly when a
   '-' is among them; everything else of the command is passed on. *)
Theorem C47d_prefix : forall w ws r, exists p w', w = p ++ w' /\ Forall (fun c => c = AT \/ c = DASH) p /\ (forall c q, w' = c :: q -> c <> AT /\ c <> DASH)
  /\ (snd (process ((w :: ws) :: r)) = true <-> In DASH p)
  /\ fst (process ((w :: ws) :: r)) = (match w' with [] => ws | _ => w' :: ws end) :: r.
Proof.
  intros w ws r. cbn [process].
  assert (G : forall w ig, exists p w', w = p ++ w' /\ Forall (fun c => c = AT \/ c = DASH) p /\ (forall c q, w' = c :: q -> c <> AT /\ c <> DASH)
     /\ strip_prefix w ig = (w', if existsb (Nat.eqb DASH) p then true else ig)).
  { clear. induction w as [|c w IH]; intros ig; [exists [], []; repeat split; try (apply Forall_nil || reflexivity); discriminate|].
    cbn [strip_prefix]. destruct (c =? AT) eqn:E1; [|destruct (c =? DASH) eqn:E2].
    - apply Nat.eqb_eq in E1. subst. destruct (IH ig) as (p & w' & -> & F & Nh & Ep). exists (AT :: p), w'. split; [reflexivity|]. split; [constructor; auto|]. split; [exact Nh | exact Ep].
    - apply Nat.eqb_eq in E2. subst. destruct (IH true) as (p & w' & -> & F & Nh & Ep). exists (DASH :: p), w'. split; [reflexivity|]. split; [constructor; auto|]. split; [exact Nh|]. rewrite Ep. cbn [existsb]. rewrite Nat.eqb_refl. cbn [orb]. destruct (existsb (Nat.eqb DASH) p); reflexivity.
    - exists [], (c :: w). apply Nat.eqb_neq in E1, E2. split; [reflexivity|]. split; [constructor|]. split; [intros x q H; injection H as <- <-; auto | reflexivity]. }
  destruct (G w false) as (p & w' & -> & F & Nh & E). exists p, w'. split; [reflexivity|]. split; [exact F|]. split; [exact Nh|]. rewrite E. cbn [fst snd]. split; [|reflexivity].
  destruct (existsb (Nat.eqb DASH) p) eqn:X.
  - split; [intros _ | reflexivity]. apply existsb_exists in X. destruct X as (c & Hc & Q). apply Nat.eqb_eq in Q. rewrite Q. exact Hc.
  - split; [discriminate|]. intros Hd. assert (T : existsb (Nat.eqb DASH) p = true) by (apply existsb_exists; exists DASH; split; [exact Hd | apply Nat.eqb_refl]). congruence.
Qed.
Print Assumptions C47d_prefix.
Lemma runs_ignored W ls h st h' : Forall (fun l => l_ignore l = true /\ forall s, l_stat l s = s) ls -> runs W ls h st h' -> st = 0 /\ h' = h ++ flat_map l_events ls.
Proof.
  intros F R. assert (Q : forall l, l_ignore l = true -> forall z st z', outcome W z (flag l) st z' -> st = 0 /\ z' = z ++ l_events l).
  { intros l Ig z s z' [(A & B & _)|(i & ev & A & _)]; [split; [exact A|]; rewrite B; f_equal; unfold flag; rewrite map_map; cbn; apply map_id|].
    exfalso. unfold flag in A. rewrite nth_error_map in A. destruct (nth_error (l_events l) i); [|discriminate]. injection A as _ A. congruence. }
  induction R as [h|l r h st0 h' O N|l r h st0 h' st h'' O N R IH].
  - split; [reflexivity | rewrite app_nil_r; reflexivity].
  - inversion F as [|? ? [F1 F2] F3]; subst. destruct (Q l F1 _ _ _ O) as [-> _]. rewrite F2 in N. congruence.
  - inversion F as [|? ? [F1 F2] F3]; subst. destruct (Q l F1 _ _ _ O) as [-> ->]. destruct (IH F3) as [-> ->]. split; [reflexivity|]. cbn. rewrite app_assoc. reflexivity.
Qed.

(* C47 refuted parts.  A line feed in an expanded variable makes several lines of one command; '-' and '@' in front of the second one are
   neither removed nor obeyed, and a '-' in front of the first one covers all of them. *)
Theorem C47_second_line_refuted : exists e W, leaves 1 e (ACommand (CStr [1]) dkw) = Some [{| l_events := [Spawn [[5]]; Spawn [[DASH; 6]]; Spawn [[7]]]; l_ignore := false; l_stat := fun s => s |}]
  /\ run_action 1 W e (ACommand (CStr [1]) dkw) [] = Some (3, [Spawn [[5]]; Spawn [[DASH; 6]]]).
Proof.
  exists {| e_sig := fun s => s; e_lines := fun _ => [[[5]]; [[DASH; 6]]; [[7]]]; e_get := fun _ => None; e_gen := fun _ _ => One INone |},
    {| w_status := fun _ ev => match ev with Spawn [[45; 6]] => 3 | _ => 0 end |}.
  split; reflexivity.
Qed.
Print Assumptions C47_second_line_refuted.
(* Action([g1, g2], generator=1): only the first callable becomes a command generator. *)
Theorem C47_generator_list_refuted : forall f g k, mk_action_g k true (Many [IFun f; IFun g]) = Some (AList [AGenerator f k; AFunction g k]).
Proof. reflexivity. Qed.
(* A = "$A" followed by another line: the action $A can never be resolved (Python: RecursionError). *)
Theorem C47_lazy_loop_refuted : exists e v, forall W k h fuel, run_action fuel W e (ALazy v k) h = None.
Proof.
  pose (v := [65]). exists {| e_sig := fun s => s; e_lines := fun _ => []; e_get := fun x => if list_eq_dec Nat.eq_dec x v then Some (One (IStr (DOLLAR :: v ++ [NL; 66]))) else None; e_gen := fun _ _ => One INone |}, v.
  intros W k h. assert (G : forall fuel, run_action fuel W {| e_sig := fun s => s; e_lines := fun _ => []; e_get := fun x => if list_eq_dec Nat.eq_dec x v then Some (One (IStr (DOLLAR :: v ++ [NL; 66]))) else None; e_gen := fun _ _ => One INone |} (ALazy v k) h = None
    /\ run_action fuel W {| e_sig := fun s => s; e_lines := fun _ => []; e_get := fun x => if list_eq_dec Nat.eq_dec x v then Some (One (IStr (DOLLAR :: v ++ [NL; 66]))) else None; e_gen := fun _ _ => One INone |} (AList [ALazy v k; ACommand (CStr [66]) k]) h = None).
  { induction fuel as [|fu [I1 I2]]; [split; reflexivity|]. split; [exact I2|]. cbn [run_action run_list]. rewrite I1. reflexivity. }
  intros fuel. apply G.
Qed.
Print Assumptions C47_lazy_loop_refuted.
(* C47e.  Commands marked with '-' never fail: all programs are run and the status is 0. *)
Theorem C47e_ignored_never_fails : forall fuel W e a ls h, leaves fuel e a = Some ls -> Forall (fun l => l_ignore l = true /\ forall s, l_stat l s = s) ls ->
  run_action fuel W e a h = Some (0, h ++ flat_map l_events ls).
Proof.
  intros fuel W e a ls h H F. destruct (C47_actions_in_order fuel W e a ls h H) as (st & h' & E & R). destruct (runs_ignored W ls h st h' F R) as [-> ->]. exact E.
Qed.
Print Assumptions C47e_ignored_never_fails.

(* ---- adding actions ---- *)
Lemma all_some_app {A} (l1 l2 : list (option A)) r1 r2 : all_some l1 = Some r1 -> all_some l2 = Some r2 -> all_some (l1 ++ l2) = Some (r1 ++ r2).
Proof.
  revert r1. induction l1 as [|y l1 IH]; intros r1 A1 B; [injection A1 as <-; exact B|]. destruct (all_some_cons _ _ _ A1) as (a & r' & -> & A' & ->). cbn. rewrite (IH _ A' B). reflexivity.
Qed.
Lemma all_some_mono {A} (f g : action -> option A) l r : (forall a b, f a = Some b -> g a = Some b) -> all_some (map f l) = Some r -> all_some (map g l) = Some r.
Proof.
  intros M. revert r. induction l as [|a l IH]; intros r H; [exact H|]. cbn [map] in H. destruct (all_some_cons _ _ _ H) as (b & r' & Ha & Hr & ->). cbn. rewrite (M _ _ Ha), (IH _ Hr). reflexivity.
Qed.
Lemma leaves_mono e : forall fu a r, leaves fu e a = Some r -> leaves (S fu) e a = Some r.
Proof.
  induction fu as [|fu IH]; intros a r H; [discriminate|]. cbn [leaves] in H. remember (S fu) as fu'. cbn [leaves]. destruct a as [c k|f k|g k|v k|l].
  - exact H.
  - exact H.
  - destruct (mk_action k (e_gen e g false)); [subst; apply IH, H | discriminate].
  - destruct (plain_string e v); [exact H|]. destruct (mk_action k (lazy_value e v)); [subst; apply IH, H | discriminate].
  - destruct (all_some (map (leaves fu e) l)) as [x|] eqn:E; [|discriminate]. subst. rewrite (all_some_mono (leaves fu e) (leaves (S fu) e) l x IH E). exact H.
Qed.
Lemma leaves_as_list e fu a r : leaves fu e a = Some r -> exists rs, all_some (map (leaves fu e) (as_list a)) = Some rs /\ concat rs = r.
Proof.
  intros H. destruct a as [c k|f k|g k|v k|l]; try (exists [r]; cbn [as_list map all_some]; rewrite H; cbn; rewrite app_nil_r; auto; fail).
  destruct fu as [|fu]; [discriminate|]. cbn [leaves] in H. destruct (all_some (map (leaves fu e) l)) as [x|] eqn:E; [|discriminate]. injection H as <-.
  exists x. split; [apply (all_some_mono (leaves fu e) (leaves (S fu) e) l x (leaves_mono e fu) E) | reflexivity].
Qed.

(* C48.  a + b does what a does and then what b does; + is associative. *)
Theorem C48_plus : forall fuel e x y a b la lb, mk_action dkw x = Some a -> mk_action dkw y = Some b ->
  leaves fuel e a = Some la -> leaves fuel e b = Some lb ->
  exists c, append x y = Some c /\ leaves (S fuel) e c = Some (la ++ lb).
Proof.
  intros fuel e x y a b la lb Hx Hy Ha Hb. exists (AList (as_list a ++ as_list b)). unfold append. rewrite Hx, Hy. split; [reflexivity|].
  destruct (leaves_as_list e fuel a la Ha) as (ra & Ea & <-). destruct (leaves_as_list e fuel b lb Hb) as (rb & Eb & <-).
  cbn [leaves]. rewrite map_app, (all_some_app _ _ _ _ Ea Eb). cbn. rewrite concat_app. reflexivity.
Qed.
Print Assumptions C48_plus.
Theorem C48b_plus_associative : forall x y z a b c, mk_action dkw x = Some a -> mk_action dkw y = Some b -> mk_action dkw z = Some c ->
  exists ab bc abc, append x y = Some ab /\ append y z = Some bc /\ append (One (IAct ab)) z = Some abc /\ append x (One (IAct bc)) = Some abc.
Proof.
  intros x y z a b c Hx Hy Hz. exists (AList (as_list a ++ as_list b)), (AList (as_list b ++ as_list c)), (AList (as_list a ++ as_list b ++ as_list c)).
  unfold append. rewrite Hx, Hy, Hz. cbn [mk_action mk_action_g create_item as_list]. rewrite <- app_assoc. auto.
Qed.
Print Assumptions C48b_plus_associative.
(* C48g.  What makes no action (None, say) is neutral on both sides. *)
Theorem C48g_plus_neutral : forall x y, mk_action dkw x = None -> append x y = mk_action dkw y /\ append y x = mk_action dkw y.
Proof. intros x y Hx. unfold append. rewrite Hx. destruct (mk_action dkw y); auto. Qed.
Print Assumptions C48g_plus_neutral.
Example C48g_witness : mk_action dkw (One INone) = None.
Proof. reflexivity. Qed.

(* ---- signatures ---- *)
Lemma sig_pieces e : forall fu a, sig_of fu e a = option_map (fun p => (concat (map (piece_text e) (fst p)), snd p)) (pieces fu e a).
Proof.
  induction fu as [|fu IH]; intros a; [reflexivity|]. cbn [sig_of pieces]. destruct a as [c k|f k|g k|v k|l].
  - cbn. rewrite app_nil_r. reflexivity.
  - cbn. rewrite app_nil_r. reflexivity.
  - destruct (mk_action k (e_gen e g true)); [apply IH | reflexivity].
  - destruct (plain_string e v); [cbn; rewrite app_nil_r; reflexivity|]. destruct (mk_action k (lazy_value e v)); [apply IH | reflexivity].
  - assert (Q : all_some (map (sig_of fu e) l) = option_map (map (fun p => (concat (map (piece_text e) (fst p)), snd p))) (all_some (map (pieces fu e) l))).
    { induction l as [|a l IHl]; [reflexivity|]. cbn. rewrite IH, IHl. destruct (pieces fu e a); [|reflexivity]. cbn. destruct (all_some (map (pieces fu e) l)); reflexivity. }
    rewrite Q. destruct (all_some (map (pieces fu e) l)) as [ps|]; [|reflexivity]. cbn. f_equal. f_equal.
    + clear. induction ps as [|p ps IH]; [reflexivity|]. cbn [map concat fst snd]. rewrite IH, !map_app, !concat_app. f_equal. f_equal. unfold vars_text. rewrite map_map. reflexivity.
    + f_equal. rewrite map_map. reflexivity.
Qed.
Definition all_pieces (p : list piece * list str) : list piece := fst p ++ map (fun v => Expanded (braces v)) (snd p).
Lemma contents_pieces fu e a : contents fu e a = option_map (fun p => concat (map (piece_text e) (all_pieces p))) (pieces fu e a).
Proof.
  unfold contents. rewrite sig_pieces. destruct (pieces fu e a) as [[ps vl]|]; [|reflexivity]. cbn. unfold all_pieces. cbn. rewrite map_app, concat_app. unfold vars_text. rewrite map_map. reflexivity.
Qed.
Lemma pieces_ext e e' : (forall v, e_get e v = e_get e' v) -> (forall g b, e_gen e g b = e_gen e' g b) -> forall fu a, pieces fu e a = pieces fu e' a.
Proof.
  intros Hg Hn. induction fu as [|fu IH]; intros a; [reflexivity|]. cbn [pieces]. destruct a as [c k|f k|g k|v k|l]; try reflexivity.
  - rewrite Hn. destruct (mk_action k (e_gen e' g true)); [apply IH | reflexivity].
  - unfold plain_string, lazy_value. rewrite Hg. match goal with |- (if ?b then _ else _) = _ => destruct b; [reflexivity|] end.
    match goal with |- match ?m with Some _ => _ | None => _ end = _ => destruct m; [apply IH | reflexivity] end.
  - rewrite (map_ext _ _ IH). reflexivity.
Qed.
(* one unknown word occurring at least once: the text determines it *)
Lemma concat_one_change e e' s ps : (forall x, x <> s -> e_sig e x = e_sig e' x) -> In (Expanded s) ps ->
  concat (map (piece_text e) ps) = concat (map (piece_text e') ps) -> e_sig e s = e_sig e' s.
Proof.
  intros Hx Hin Eq.
  assert (Len : length (e_sig e s) = length (e_sig e' s)).
  { apply (f_equal (@length nat)) in Eq.
    assert (Q : exists k c, length (concat (map (piece_text e) ps)) = c + k * length (e_sig e s) /\ length (concat (map (piece_text e') ps)) = c + k * length (e_sig e' s) /\ (In (Expanded s) ps -> 0 < k)).
    { clear Hin Eq. induction ps as [|p ps IH]; [exists 0, 0; cbn; repeat split; tauto|]. destruct IH as (k & c & A & B & C). cbn [map concat]. rewrite !app_length, A, B.
      destruct p as [b|x]; cbn [piece_text].
      - exists k, (length b + c). repeat split; try lia. intros [H|H]; [discriminate | auto].
      - destruct (list_eq_dec Nat.eq_dec x s) as [->|N].
        + exists (S k), c. repeat split; lia.
        + exists k, (length (e_sig e x) + c). rewrite (Hx x N). repeat split; try lia. intros [H|H]; [congruence | auto]. }
    destruct Q as (k & c & A & B & C). specialize (C Hin). rewrite A, B in Eq. assert (K : k * length (e_sig e s) = k * length (e_sig e' s)) by lia. apply Nat.mul_cancel_l in K; [exact K | lia]. }
  revert Hin Eq. induction ps as [|p ps IH]; intros Hin Eq; [elim Hin|]. cbn [map concat] in Eq.
  assert (Lp : length (piece_text e p) = length (piece_text e' p)) by (destruct p as [b|x]; [reflexivity|]; cbn; destruct (list_eq_dec Nat.eq_dec x s) as [->|N]; [exact Len | rewrite (Hx x N); reflexivity]).
  assert (Sp : forall (a b c d : str), length a = length b -> a ++ c = b ++ d -> a = b /\ c = d).
  { clear. induction a as [|x a IH]; intros [|y b] c d L E; cbn in *; try discriminate; [auto|]. injection E as -> E. destruct (IH b c d) as [-> ->]; [lia | exact E | auto]. }
  destruct (Sp _ _ _ _ Lp Eq) as [E1 E2]. destruct Hin as [->|Hin]; [exact E1 | apply IH; assumption].
Qed.

(* C48c.  If one string that goes into the signature of an action - a command text or a variable of its varlist - expands
   differently (ignoring $( $) parts), and everything else is as before, the signature text changes. *)
Theorem C48c_change_noticed : forall fuel e e' a s, signature_uses fuel e a s -> differ_only_in s e e' ->
  exists t t', contents fuel e a = Some t /\ contents fuel e' a = Some t' /\ t <> t'.
Proof.
  intros fuel e e' a s (ps & vl & Hp & Hu) (Hg & Hn & Hx & Hs).
  rewrite !contents_pieces, <- (pieces_ext e e' Hg Hn), Hp. cbn [option_map]. do 2 eexists. split; [reflexivity|]. split; [reflexivity|]. intros Eq. apply Hs.
  apply (concat_one_change e e' s (all_pieces (ps, vl)) Hx); [|exact Eq]. unfold all_pieces. cbn [fst snd]. apply in_or_app. destruct Hu as [Hu|(v & Hv & ->)]; [left; exact Hu | right; apply in_map_iff; eauto].
Qed.
Print Assumptions C48c_change_noticed.
(* C48d.  And nothing else matters: environments that expand these strings alike give the same signature text. *)
Theorem C48d_nothing_else_matters : forall fuel e e' a, (forall v, e_get e v = e_get e' v) -> (forall g b, e_gen e g b = e_gen e' g b) ->
  (forall s, signature_uses fuel e a s -> e_sig e s = e_sig e' s) -> contents fuel e a = contents fuel e' a.
Proof.
  intros fuel e e' a Hg Hn H. rewrite !contents_pieces, <- (pieces_ext e e' Hg Hn). destruct (pieces fuel e a) as [[ps vl]|] eqn:E; [|reflexivity]. cbn [option_map]. f_equal. f_equal.
  apply map_ext_in. intros [b|s] Hi; [reflexivity|]. cbn. apply H. exists ps, vl. split; [exact E|]. unfold all_pieces in Hi. cbn [fst snd] in Hi. apply in_app_iff in Hi.
  destruct Hi as [Hi|Hi]; [left; exact Hi|]. right. apply in_map_iff in Hi. destruct Hi as (v & Q & Hv). injection Q as <-. eauto.
Qed.
Print Assumptions C48d_nothing_else_matters.

(* C48e.  Executors: adding a pre- or post-action whose signature text is not empty, or replacing an action by one with another
   signature text, changes the signature text. *)
Theorem C48e_executor : forall fuel e x t a ta, executor_contents fuel e x = Some t -> contents fuel e a = Some ta ->
  (ta <> [] -> exists t1 t2, executor_contents fuel e (add_pre_action a x) = Some t1 /\ executor_contents fuel e (add_post_action a x) = Some t2 /\ t1 <> t /\ t2 <> t)
  /\ (forall pre b post tb, x_acts x = pre ++ b :: post -> contents fuel e b = Some tb -> ta <> tb ->
        exists t', executor_contents fuel e {| x_pre := x_pre x; x_acts := pre ++ a :: post; x_post := x_post x; x_batches := x_batches x |} = Some t' /\ t' <> t).
Proof.
  intros fuel e x t a ta Hx Ha. unfold executor_contents, action_list in *.
  assert (Spl : forall l1 l2 r, all_some (map (contents fuel e) (l1 ++ l2)) = Some r -> exists r1 r2, all_some (map (contents fuel e) l1) = Some r1 /\ all_some (map (contents fuel e) l2) = Some r2 /\ r = r1 ++ r2).
  { induction l1 as [|y l1 IH]; intros l2 r H; [exists [], r; auto|]. cbn [app map] in H. destruct (all_some_cons _ _ _ H) as (b & r' & Eb & Er & ->).
    destruct (IH _ _ Er) as (r1 & r2 & A & B & ->). exists (b :: r1), r2. cbn. rewrite Eb, A. auto. }
  destruct (all_some (map (contents fuel e) (x_pre x ++ x_acts x ++ x_post x))) as [r|] eqn:Er; [|discriminate]. injection Hx as <-.
  destruct (Spl _ _ _ Er) as (r1 & r23 & E1 & E23 & ->). destruct (Spl _ _ _ E23) as (r2 & r3 & E2 & E3 & ->).
  assert (One : all_some (map (contents fuel e) [a]) = Some [ta]) by (cbn; rewrite Ha; reflexivity).
  split.
  - intros Ne. cbn [add_pre_action add_post_action x_pre x_acts x_post].
    exists (concat ((r1 ++ [ta]) ++ r2 ++ r3)), (concat (r1 ++ r2 ++ (r3 ++ [ta]))).
    assert (L : 0 < length ta) by (destruct ta; [congruence | cbn; lia]).
    split; [rewrite !map_app, (all_some_app _ _ _ _ (all_some_app _ _ _ _ E1 One) (all_some_app _ _ _ _ E2 E3)); reflexivity|].
    split; [rewrite !map_app, (all_some_app _ _ _ _ E1 (all_some_app _ _ _ _ E2 (all_some_app _ _ _ _ E3 One))); reflexivity|].
    split; intros Q; apply (f_equal (@length nat)) in Q; rewrite !concat_app, !app_length in Q; cbn in Q; rewrite ?app_nil_r in Q; lia.
  - intros pre b post tb Hs Hb Ne. cbn [x_pre x_acts x_post]. rewrite Hs in E2. destruct (Spl _ _ _ E2) as (p1 & p2 & P1 & P2 & ->). cbn [map] in P2.
    destruct (all_some_cons _ _ _ P2) as (b' & p3 & Eb' & P3 & ->). rewrite Hb in Eb'. injection Eb' as <-.
    assert (P2' : all_some (map (contents fuel e) (a :: post)) = Some (ta :: p3)) by (cbn; rewrite Ha, P3; reflexivity).
    exists (concat (r1 ++ (p1 ++ ta :: p3) ++ r3)). split; [rewrite !map_app, (all_some_app _ _ _ _ E1 (all_some_app _ _ _ _ (all_some_app _ _ _ _ P1 P2') E3)); reflexivity|].
    rewrite !concat_app. cbn [concat]. intros Q. apply app_inv_head in Q. rewrite <- !app_assoc in Q. apply app_inv_head in Q. apply Ne. apply (app_inv_tail (concat p3 ++ concat r3)).
    exact Q.
Qed.
Print Assumptions C48e_executor.

(* C48 refuted parts.  Several changes at once can cancel out, because the parts are joined without separator: two commands "ab", "c"
   and two commands "a", "bc". *)
Theorem C48_joined_refuted : exists e a b fuel t, contents fuel e a = Some t /\ contents fuel e b = Some t
  /\ (forall fu la lb, leaves fu e a = Some la -> leaves fu e b = Some lb -> flat_map flag la <> flat_map flag lb).
Proof.
  exists {| e_sig := fun s => s; e_lines := fun c => [[cmd_text c]]; e_get := fun _ => None; e_gen := fun _ _ => One INone |},
    (AList [ACommand (CStr [97; 98]) dkw; ACommand (CStr [99]) dkw]), (AList [ACommand (CStr [97]) dkw; ACommand (CStr [98; 99]) dkw]), 3, [97; 98; 99].
  split; [reflexivity|]. split; [reflexivity|]. intros [|[|fu]] la lb Ha Hb; try discriminate. cbn in Ha, Hb. injection Ha as <-. injection Hb as <-. discriminate.
Qed.
Print Assumptions C48_joined_refuted.
(* A callable object is represented in the signature by the code of its class's __call__ only: objects of one class with different
   state - in particular everything made by an ActionFactory (Copy, Delete, Touch, ...), whose arguments are kept in
   the state of an ActionCaller object - have the same signature. *)
Theorem C48_callable_state_refuted : forall code s s' k fuel e, contents fuel e (AFunction {| f_code := code; f_state := s |} k) = contents fuel e (AFunction {| f_code := code; f_state := s' |} k).
Proof. intros code s s' k [|fuel] e; reflexivity. Qed.
Print Assumptions C48_callable_state_refuted.

(* ---- witnesses ---- *)
Section Witness.
(* $CCCOM = "cc -c x" is a plain string, $POST holds a two-line string with an ignored command; function 9 in between *)
Definition wf9 : pyfun := {| f_code := [9; 9]; f_state := 0 |}.
Definition CCCOM := [67; 67]. Definition POST := [80].
Definition wenv (x : str) : senv := {| e_sig := fun s => if list_eq_dec Nat.eq_dec s (braces CCCOM) then x else 1 :: s;
  e_lines := fun c => match c with CWords ws => [ws] | CStr s => if list_eq_dec Nat.eq_dec s (braces CCCOM) then [[[99; 99]; [45; 99]]] else [[s]] end;
  e_get := fun v => if list_eq_dec Nat.eq_dec v CCCOM then Some (One (IStr [99; 99])) else if list_eq_dec Nat.eq_dec v POST then Some (One (IStr [45; 114; NL; 116])) else None;
  e_gen := fun _ _ => One INone |}.
Definition warg : arg := Many [IStr (DOLLAR :: CCCOM); IFun wf9; IStr (DOLLAR :: LB :: POST ++ [RB])].
Definition wkw : kw := {| k_varlist := [[88]]; k_stat := fun s => s |}.
Definition wact : action := AList [ALazy CCCOM wkw; AFunction wf9 wkw; ALazy POST wkw].
Example C47_witness : mk_action wkw warg = Some wact
  /\ exists ls, leaves 4 (wenv [5]) wact = Some ls /\ flat_map flag ls = [(Spawn [[99; 99]; [45; 99]], false); (Call wf9, false); (Spawn [[114]], true); (Spawn [[116]], false)]
  /\ Forall (fun l => forall s, l_stat l s = s) ls
  /\ run_action 4 {| w_status := fun _ ev => match ev with Spawn [[114]] => 1 | _ => 0 end |} (wenv [5]) wact [] = Some (0, [Spawn [[99; 99]; [45; 99]]; Call wf9; Spawn [[114]]; Spawn [[116]]])
  /\ run_action 4 {| w_status := fun _ ev => match ev with Call _ => 7 | _ => 0 end |} (wenv [5]) wact [] = Some (7, [Spawn [[99; 99]; [45; 99]]; Call wf9]).
Proof.
  split; [reflexivity|]. eexists. split; [reflexivity|]. split; [reflexivity|]. split; [repeat constructor|]. split; reflexivity.
Qed.
Example C48_witness : signature_uses 4 (wenv [5]) wact (braces CCCOM) /\ signature_uses 4 (wenv [5]) wact (braces [88]) /\ differ_only_in (braces CCCOM) (wenv [5]) (wenv [6; 7]).
Proof.
  split; [do 2 eexists; split; [reflexivity | left; cbn; auto]|]. split; [do 2 eexists; split; [reflexivity | right; exists [88]; cbn; auto]|].
  split; [reflexivity|]. split; [reflexivity|]. split; [|discriminate]. intros x N. cbn. destruct (list_eq_dec Nat.eq_dec x (braces CCCOM)); [congruence | reflexivity].
Qed.
End Witness.
