(* C73: copying trees. *)
From Coq Require Import List Bool Arith Lia.
Import ListNotations.
From Verif Require Import InsModel InsSpec InsProps.
Open Scope list_scope.

Section Copy.
Variable goto : path -> nat -> path.
Variables max new_mode : nat.
Notation real := (real goto max). Notation stat := (stat goto max). Notation lpath := (lpath goto max). Notation lstat := (lstat goto max).
Notation isdir := (isdir goto max). Notation listdir := (listdir goto max). Notation walk := (walk goto).
Notation copy2 := (copy2 goto max new_mode). Notation copytree := (copytree goto max new_mode).
Notation each := (each goto max new_mode). Notation copy_entry := (copy_entry goto max new_mode).
Variable s0 : fs.
Variable DST : path.
Hypothesis DST_some : DST <> [].
Hypothesis Listed : listed s0.

(* so far nothing but the destination has changed *)
Definition Inv (s : fs) : Prop :=
  (forall p, under DST p = false -> ent s p = ent s0 p) /\ (forall p, under DST p = false -> p <> dirname DST -> names s p = names s0 p).
Definition far (p : path) : Prop := apart goto max s0 p DST.
Lemma far_app : forall p r, far p -> far (p ++ r).
Proof. intros p r H x q Hq. rewrite <- app_assoc in Hq. exact (H (r ++ x) q Hq). Qed.

Lemma far_walk : forall s p, Inv s -> far p -> walk max s [] p = walk max s0 [] p.
Proof.
  intros s p [HI _] HF. apply walk_agree. intros q Hq. apply HI. apply (HF [] q). rewrite app_nil_r. exact Hq.
Qed.
Lemma far_real : forall s p, Inv s -> far p -> real s p = real s0 p /\ forall q, real s0 p = Some q -> under DST q = false.
Proof.
  intros s p HI HF. unfold InsModel.real. rewrite (far_walk s p HI HF). split; [reflexivity |].
  intros q. destruct (walk max s0 [] p) as [[k x] |] eqn:E; [| discriminate]. intros H. injection H as <-.
  apply (HF [] x). rewrite app_nil_r. exact (walk_in_trail goto max s0 p [] k x E).
Qed.
Lemma far_stat : forall s p, Inv s -> far p -> stat s p = stat s0 p.
Proof.
  intros s p HI HF. unfold InsModel.stat. destruct (far_real s p HI HF) as [-> H]. destruct (real s0 p) as [q |]; [| reflexivity].
  apply HI. apply H. reflexivity.
Qed.
Lemma far_listdir : forall s p, Inv s -> far p -> listdir s p = listdir s0 p.
Proof.
  intros s p HI HF. unfold InsModel.listdir. destruct (far_real s p HI HF) as [-> H]. destruct (real s0 p) as [q |] eqn:Eq; [| reflexivity].
  rewrite (proj1 HI q (H q eq_refl)). destruct (ent s0 q) as [[c m | t | m] |] eqn:E; try reflexivity.
  rewrite (proj2 HI q (H q eq_refl)); [reflexivity |]. intros ->.
  unfold InsModel.real in Eq. destruct (walk max s0 [] p) as [[k x] |] eqn:Ew; [| discriminate Eq]. injection Eq as ->.
  assert (Z : under DST DST = false); [| rewrite under_refl in Z; discriminate Z].
  apply (HF [basename DST]). apply (trail_app goto max s0 p [] [basename DST] k (dirname DST) Ew). rewrite trail_cons, E. right. left. symmetry. apply split_last. exact DST_some.
Qed.
Lemma far_lstat : forall s p n, Inv s -> far p -> lstat s (p ++ [n]) = lstat s0 (p ++ [n]).
Proof.
  intros s p n HI HF. rewrite !stat_step. rewrite (far_listdir s p HI HF). destruct (far_real s p HI HF) as [-> H].
  unfold InsModel.listdir. destruct (real s0 p) as [q |] eqn:Eq; [| reflexivity].
  destruct (ent s0 q) as [[c m | t | m] |] eqn:E; try reflexivity. apply HI.
  unfold InsModel.real in Eq. destruct (walk max s0 [] p) as [[k x] |] eqn:Ew; [| discriminate Eq]. injection Eq as ->.
  apply (HF [n]). apply (trail_app goto max s0 p [] [n] k q Ew). rewrite trail_cons, E. right. left. reflexivity.
Qed.

(* what a step may do: entries at or below dst, names of directories of the destination *)
Definition within (dst : path) (s s1 : fs) : Prop :=
  (forall p, under dst p = false -> ent s1 p = ent s p) /\ (forall p, under DST p = false -> p <> dirname DST -> names s1 p = names s p).
Lemma within_refl : forall dst s, within dst s s.
Proof. intros dst s. split; reflexivity. Qed.
Lemma within_trans : forall dst s s1 s2, within dst s s1 -> within dst s1 s2 -> within dst s s2.
Proof.
  intros dst s s1 s2 [A B] [C D]. split.
  - intros p H. rewrite (C p H). apply A. exact H.
  - intros p H N. rewrite (D p H N). apply B; assumption.
Qed.
Lemma within_up : forall dst d2 s s1, under dst d2 = true -> within d2 s s1 -> within dst s s1.
Proof. intros dst d2 s s1 H [A B]. split; [| exact B]. intros p Hp. apply A. exact (under_false_trans dst d2 p H Hp). Qed.
Lemma within_Inv : forall dst s s1, Inv s -> under DST dst = true -> within dst s s1 -> Inv s1.
Proof.
  intros dst s s1 [A B] H [C D]. split.
  - intros p Hp. rewrite C; [apply A; exact Hp | exact (under_false_trans DST dst p H Hp)].
  - intros p Hp N. rewrite (D p Hp N). apply B; assumption.
Qed.
Lemma within_plain : forall dst s s1, plain s dst -> within dst s s1 -> plain s1 dst.
Proof.
  intros dst s s1 HP [A _]. apply (plain_same s s1 dst HP). intros a b E Hb. left. apply A.
  destruct (under dst a) eqn:U; [| reflexivity]. exfalso. apply under_iff in U. destruct U as [r ->]. rewrite <- app_assoc in E.
  rewrite <- (app_nil_r dst) in E at 1. apply app_inv_head in E. destruct r; [cbn [app] in E; congruence | discriminate E].
Qed.
Lemma within_put : forall p s e, within p s (put s p e).
Proof. intros p s e. split; [| reflexivity]. intros q H. cbn [put ent]. rewrite path_eqb_neq; [reflexivity | exact (under_neq p q H)]. Qed.
Lemma within_create : forall p s e, under DST p = true -> within p s (create s p e).
Proof.
  intros p s e HU. split.
  - intros q H. rewrite ent_create, path_eqb_neq; [reflexivity | exact (under_neq p q H)].
  - intros q H N. cbn [create names]. destruct (path_eqb q (dirname p)) eqn:E; [| reflexivity]. apply path_eqb_eq in E. subst q.
    destruct (list_eq_dec Nat.eq_dec p DST) as [-> | Np]; [congruence |]. rewrite (dirname_under DST p HU Np) in H. discriminate H.
Qed.

(* copying one file *)
Lemma chmod_plain : forall s p m c m0, plain s p -> ent s p = Some (File_ c m0) -> chmod goto max s p m = Some (put s p (Some (File_ c m))).
Proof. intros s p m c m0 HP E. unfold chmod. rewrite (real_plain goto max s p HP) by (intros t; congruence). rewrite E. reflexivity. Qed.
Lemma chmod_plain_dir : forall s p m m0, plain s p -> ent s p = Some (Dir_ m0) -> chmod goto max s p m = Some (put s p (Some (Dir_ m))).
Proof. intros s p m m0 HP E. unfold chmod. rewrite (real_plain goto max s p HP) by (intros t; congruence). rewrite E. reflexivity. Qed.

Lemma copyfile_stat : forall s src dst ok s1, Inv s -> far src -> under DST dst = true -> plain s dst -> (forall t, ent s dst <> Some (Link_ t)) ->
  (let '(ok, s1) := copyfile goto max new_mode s src dst in
   if ok then match copystat goto max s1 src dst with Some s2 => (true, s2) | None => (false, s1) end else (false, s1)) = (ok, s1) ->
  within dst s s1 /\ (ok = true -> exists c m, stat s0 src = Some (File_ c m) /\ ent s1 dst = Some (File_ c m) /\ forall p, p <> dst -> ent s1 p = ent s p).
Proof.
  intros s src dst ok s1 HI HF HU HP HL H. unfold copyfile in H.
  destruct (samefile goto max s src dst); [injection H as <- <-; split; [apply within_refl | discriminate] |].
  rewrite (far_stat s src HI HF) in H. destruct (stat s0 src) as [[c m | t | m] |] eqn:Es; try (injection H as <- <-; split; [apply within_refl | discriminate]).
  unfold write in H. rewrite (real_plain goto max s dst HP HL) in H.
  assert (K : forall w m0, within dst s w -> ent w dst = Some (File_ c m0) -> (forall p, p <> dst -> ent w p = ent s p) ->
     match copystat goto max w src dst with Some s2 => (true, s2) | None => (false, w) end = (ok, s1) ->
     within dst s s1 /\ (ok = true -> exists c0 m1, Some (File_ c m) = Some (File_ c0 m1) /\ ent s1 dst = Some (File_ c0 m1) /\ forall p, p <> dst -> ent s1 p = ent s p)).
  { intros w m0 HW HE HO HC. unfold copystat in HC. rewrite (far_stat w src (within_Inv dst s w HI HU HW) HF), Es in HC.
    rewrite (chmod_plain w dst (mode_of (File_ c m)) c m0 (within_plain dst s w HP HW) HE) in HC. injection HC as <- <-. split.
    - apply (within_trans dst s w); [exact HW | apply within_put].
    - intros _. exists c, m. split; [reflexivity |]. cbn [put ent mode_of]. split; [rewrite path_eqb_refl; reflexivity |].
      intros p Hp. rewrite path_eqb_neq by exact Hp. apply HO. exact Hp. }
  destruct (ent s dst) as [[c2 m2 | t | m2] |] eqn:Ed.
  - apply (K (put s dst (Some (File_ c m2))) m2); [apply within_put | cbn [put ent]; rewrite path_eqb_refl; reflexivity | | exact H].
    intros p Hp. cbn [put ent]. rewrite path_eqb_neq by exact Hp. reflexivity.
  - injection H as <- <-. split; [apply within_refl | discriminate].
  - injection H as <- <-. split; [apply within_refl | discriminate].
  - apply (K (create s dst (File_ c new_mode)) new_mode); [apply within_create; exact HU | rewrite ent_create, path_eqb_refl; reflexivity | | exact H].
    intros p Hp. rewrite ent_create, path_eqb_neq by exact Hp. reflexivity.
Qed.
Lemma copy2_spec : forall s src dst ok s1, Inv s -> far src -> under DST dst = true -> plain s dst -> (forall r t, ent s (dst ++ r) <> Some (Link_ t)) ->
  copy2 s src dst = (ok, s1) ->
  within dst s s1 /\ (ok = true -> (forall m, ent s dst <> Some (Dir_ m)) ->
    exists c m, stat s0 src = Some (File_ c m) /\ ent s1 dst = Some (File_ c m) /\ forall p, p <> dst -> ent s1 p = ent s p).
Proof.
  intros s src dst ok s1 HI HF HU HP HL H. unfold InsModel.copy2 in H.
  assert (HL0 : forall t, ent s dst <> Some (Link_ t)) by (intros t; rewrite <- (app_nil_r dst); apply HL).
  destruct (isdir s dst) eqn:D; unfold InsModel.isdir in D; rewrite (stat_plain goto max s dst HP HL0) in D.
  - destruct (ent s dst) as [[c m | t | m] |] eqn:Ed; try discriminate D.
    assert (HU2 : under DST (dst ++ [basename src]) = true) by (apply (under_trans DST dst); [exact HU | apply under_app]).
    destruct (copyfile_stat s src (dst ++ [basename src]) ok s1 HI HF HU2) as [A _]; [apply plain_child; [exact HP | exists m; exact Ed] | apply HL | exact H |].
    split; [apply (within_up dst (dst ++ [basename src])); [apply under_app | exact A] |]. intros _ Z. exfalso. exact (Z m eq_refl).
  - destruct (copyfile_stat s src dst ok s1 HI HF HU HP HL0 H) as [A B]. split; [exact A |]. intros Hok _. exact (B Hok).
Qed.

(* copying a tree *)
Variable keep : bool.
Variable eok : bool.
Definition noconf (src dst : path) : Prop := forall r c m m', tree goto max s0 keep src r = Some (File_ c m) -> ent s0 (dst ++ r) <> Some (Dir_ m').
Definition noconf_v (src dst : path) : Prop := forall r c m m', view goto max s0 keep src r = Some (File_ c m) -> ent s0 (dst ++ r) <> Some (Dir_ m').
Definition orelse (a b : option entry) : option entry := match a with Some e => Some e | None => b end.
(* what is known before something is copied to dst, and after it *)
Definition pre (s : fs) (dst : path) : Prop :=
  Inv s /\ under DST dst = true /\ plain s dst /\ (forall r, ent s (dst ++ r) = ent s0 (dst ++ r)) /\ (forall r t, ent s0 (dst ++ r) <> Some (Link_ t)).
Definition copied (f : path -> option entry) (dst : path) (s1 : fs) : Prop := forall r, ent s1 (dst ++ r) = orelse (f r) (ent s0 (dst ++ r)).
Definition rec_ok (rec : fs -> path -> path -> option (bool * fs)) : Prop := forall s src dst ok s1,
  pre s dst -> far src -> rec s src dst = Some (ok, s1) ->
  within dst s s1 /\ (ok = true -> noconf src dst -> (exists m, stat s0 src = Some (Dir_ m)) /\ copied (tree goto max s0 keep src) dst s1).

Lemma tree_view : forall p n r, (keep = false \/ forall t, lstat s0 (p ++ [n]) <> Some (Link_ t)) -> tree goto max s0 keep (p ++ [n]) r = view goto max s0 keep (p ++ [n]) r.
Proof.
  intros p n r H. assert (E : look goto max s0 keep (p ++ [n]) = stat s0 (p ++ [n])).
  { unfold look. destruct keep; [| reflexivity]. destruct H as [H | H]; [discriminate H |]. symmetry. apply stat_lstat. exact H. }
  destruct r as [| x r]; cbn [tree view]; rewrite E; reflexivity.
Qed.

Lemma entry_spec : forall rec, rec_ok rec -> forall s src n dst ok s1, pre s (dst ++ [n]) -> far src ->
  copy_entry keep rec s (src ++ [n]) (dst ++ [n]) = Some (ok, s1) ->
  within (dst ++ [n]) s s1 /\ (ok = true -> noconf_v (src ++ [n]) (dst ++ [n]) -> copied (view goto max s0 keep (src ++ [n])) (dst ++ [n]) s1).
Proof.
  intros rec HR s src n dst ok s1 HP HF H. assert (HF1 : far (src ++ [n])) by (apply far_app; exact HF).
  destruct (HP) as [HI [HU [HPl [HE HL]]]].
  assert (HLs : forall r t, ent s ((dst ++ [n]) ++ r) <> Some (Link_ t)) by (intros r t; rewrite HE; apply HL).
  unfold InsModel.copy_entry in H. rewrite (far_lstat s src n HI HF) in H.
  assert (C : forall o, (keep = false \/ forall t, lstat s0 (src ++ [n]) <> Some (Link_ t)) ->
     (if isdir s (src ++ [n]) then rec s (src ++ [n]) (dst ++ [n]) else Some (copy2 s (src ++ [n]) (dst ++ [n]))) = o -> o = Some (ok, s1) ->
     within (dst ++ [n]) s s1 /\ (ok = true -> noconf_v (src ++ [n]) (dst ++ [n]) -> copied (view goto max s0 keep (src ++ [n])) (dst ++ [n]) s1)).
  { intros o HK Ho Eo. subst o. destruct (isdir s (src ++ [n])) eqn:D.
    - destruct (HR s (src ++ [n]) (dst ++ [n]) ok s1 HP HF1 Eo) as [A B]. split; [exact A |]. intros Hok NC.
      destruct (B Hok) as [_ HC].
      { intros r c m m' Et. rewrite (tree_view src n r HK) in Et. exact (NC r c m m' Et). }
      intros r. rewrite (HC r), (tree_view src n r HK). reflexivity.
    - injection Eo as Eo. destruct (copy2_spec s (src ++ [n]) (dst ++ [n]) ok s1 HI HF1 HU HPl HLs Eo) as [A B]. split; [exact A |]. intros Hok NC.
      assert (EV : look goto max s0 keep (src ++ [n]) = stat s0 (src ++ [n])) by (rewrite <- (tree_view src n [] HK : stat s0 (src ++ [n]) = look goto max s0 keep (src ++ [n])); reflexivity).
      assert (ND : forall m, stat s0 (src ++ [n]) <> Some (Dir_ m)).
      { intros m Z. unfold InsModel.isdir in D. rewrite (far_stat s (src ++ [n]) HI HF1), Z in D. discriminate D. }
      destruct (stat s0 (src ++ [n])) as [[c m | t | m] |] eqn:Es.
      + assert (NDd : forall m0, ent s (dst ++ [n]) <> Some (Dir_ m0)).
        { intros m0. assert (Q := HE []). rewrite !app_nil_r in Q. rewrite Q. assert (Z := NC [] c m m0). rewrite app_nil_r in Z. apply Z. exact EV. }
        destruct (B Hok NDd) as [c2 [m2 [E1 [E2 E3]]]]. injection E1 as <- <-.
        intros r. destruct r as [| x r]; cbn [view]; rewrite EV; cbn [orelse].
        * rewrite app_nil_r. exact E2.
        * rewrite E3; [apply HE |]. intros Z. rewrite <- (app_nil_r (dst ++ [n])) in Z at 2. apply app_inv_head in Z. discriminate Z.
      + exfalso. destruct (ent s (dst ++ [n])) as [[? ? | ? | md] |] eqn:Ed.
        1,2,4: (destruct (B Hok) as [c2 [m2 [E1 _]]]; [intros m0; discriminate | discriminate E1]).
        unfold InsModel.copy2 in Eo. destruct (isdir s (dst ++ [n])); unfold copyfile in Eo; rewrite (far_stat s (src ++ [n]) HI HF1), Es in Eo;
          destruct (samefile goto max s (src ++ [n]) _); injection Eo as <- <-; discriminate Hok.
      + exfalso. exact (ND m eq_refl).
      + exfalso. destruct (ent s (dst ++ [n])) as [[? ? | ? | md] |] eqn:Ed.
        1,2,4: (destruct (B Hok) as [c2 [m2 [E1 _]]]; [intros m0; discriminate | discriminate E1]).
        unfold InsModel.copy2 in Eo. destruct (isdir s (dst ++ [n])); unfold copyfile in Eo; rewrite (far_stat s (src ++ [n]) HI HF1), Es in Eo;
          destruct (samefile goto max s (src ++ [n]) _); injection Eo as <- <-; discriminate Hok. }
  destruct (lstat s0 (src ++ [n])) as [[c m | t | m] |] eqn:El.
  - apply (C _ (or_intror (fun t (E : Some (File_ c m) = Some (Link_ t)) => ltac:(discriminate E))) eq_refl H).
  - destruct keep eqn:Ek.
    + injection H as H. unfold symlink in H. rewrite (lpath_plain goto max s (dst ++ [n]) HPl) in H.
      destruct (ent s (dst ++ [n])) as [e |] eqn:Ed; injection H as <- <-; [split; [apply within_refl | discriminate] |].
      split; [apply within_create; exact HU |]. intros _ _ r.
      assert (EV : look goto max s0 true (src ++ [n]) = Some (Link_ t)) by exact El.
      destruct r as [| x r]; cbn [view]; rewrite EV; cbn [orelse]; rewrite ent_create.
      * rewrite app_nil_r, path_eqb_refl. reflexivity.
      * rewrite path_eqb_neq; [apply HE |]. intros Z. rewrite <- (app_nil_r (dst ++ [n])) in Z at 2. apply app_inv_head in Z. discriminate Z.
    + apply (C _ (or_introl eq_refl) eq_refl H).
  - apply (C _ (or_intror (fun t (E : Some (Dir_ m) = Some (Link_ t)) => ltac:(discriminate E))) eq_refl H).
  - apply (C _ (or_intror (fun t (E : None = Some (Link_ t)) => ltac:(discriminate E))) eq_refl H).
Qed.
End Copy.
