(* C73: lemmas about paths and the file system. *)
From Coq Require Import List Bool Arith Lia.
Import ListNotations.
From Verif Require Import InsModel InsSpec.
Open Scope list_scope.

(* ---- paths ---- *)
Lemma path_eqb_eq : forall a b, path_eqb a b = true <-> a = b.
Proof.
  induction a as [| x a IH]; intros [| y b]; cbn [path_eqb]; split; intros H; try reflexivity; try discriminate H.
  - apply andb_true_iff in H. destruct H as [H1 H2]. apply Nat.eqb_eq in H1. apply IH in H2. congruence.
  - injection H as -> ->. rewrite Nat.eqb_refl. apply IH. reflexivity.
Qed.
Lemma path_eqb_refl : forall a, path_eqb a a = true.
Proof. intros a. apply path_eqb_eq. reflexivity. Qed.
Lemma path_eqb_neq : forall a b, a <> b -> path_eqb a b = false.
Proof. intros a b H. destruct (path_eqb a b) eqn:E; [apply path_eqb_eq in E; congruence | reflexivity]. Qed.
Lemma under_app : forall a r, under a (a ++ r) = true.
Proof. induction a as [| x a IH]; intros r; cbn [under app]; [reflexivity |]. rewrite Nat.eqb_refl. apply IH. Qed.
Lemma under_iff : forall a p, under a p = true <-> exists r, p = a ++ r.
Proof.
  intros a p. split.
  - revert p. induction a as [| x a IH]; intros [| y p] H; cbn [under] in H.
    + exists []. reflexivity.
    + exists (y :: p). reflexivity.
    + discriminate H.
    + apply andb_true_iff in H. destruct H as [H1 H2]. apply Nat.eqb_eq in H1. destruct (IH p H2) as [r ->]. exists r. subst y. reflexivity.
  - intros [r ->]. apply under_app.
Qed.
Lemma under_refl : forall a, under a a = true.
Proof. intros a. apply under_iff. exists []. rewrite app_nil_r. reflexivity. Qed.
Lemma under_trans : forall a b c, under a b = true -> under b c = true -> under a c = true.
Proof. intros a b c H1 H2. apply under_iff in H1, H2. destruct H1 as [r ->], H2 as [q ->]. rewrite <- app_assoc. apply under_app. Qed.
Lemma under_false_trans : forall a b c, under a b = true -> under a c = false -> under b c = false.
Proof. intros a b c H1 H2. destruct (under b c) eqn:E; [| reflexivity]. rewrite (under_trans a b c H1 E) in H2. discriminate H2. Qed.
Lemma under_neq : forall a p, under a p = false -> p <> a.
Proof. intros a p H ->. rewrite under_refl in H. discriminate H. Qed.
Lemma under_sibling : forall d n m r, n <> m -> under (d ++ [n]) (d ++ m :: r) = false.
Proof.
  intros d n m r H. destruct (under (d ++ [n]) (d ++ m :: r)) eqn:E; [| reflexivity]. exfalso. apply under_iff in E. destruct E as [q E].
  rewrite <- app_assoc in E. apply app_inv_head in E. cbn [app] in E. congruence.
Qed.
Lemma under_self_child : forall d n, under (d ++ [n]) d = false.
Proof.
  intros d n. destruct (under (d ++ [n]) d) eqn:E; [| reflexivity]. exfalso. apply under_iff in E. destruct E as [q E]. rewrite <- app_assoc in E.
  assert (L := f_equal (@length nat) E). rewrite app_length in L. cbn [app length] in L. lia.
Qed.
Lemma split_last : forall p : path, p <> [] -> p = dirname p ++ [basename p].
Proof. intros p H. apply app_removelast_last. exact H. Qed.
Lemma dirname_app : forall d n, dirname (d ++ [n]) = d.
Proof. intros d n. apply removelast_last. Qed.
Lemma basename_app : forall d n, basename (d ++ [n]) = n.
Proof. intros d n. apply last_last. Qed.
Lemma dirname_under : forall a p, under a p = true -> p <> a -> under a (dirname p) = true.
Proof.
  intros a p H N. apply under_iff in H. destruct H as [r ->]. destruct (exists_last (l := r)) as [r0 [x ->]]; [intros ->; rewrite app_nil_r in N; congruence |].
  rewrite app_assoc, dirname_app. apply under_app.
Qed.

Lemma ent_create : forall s p e q, ent (create s p e) q = if path_eqb q p then Some e else ent s q.
Proof. reflexivity. Qed.

Section Walk.
Variable goto : path -> nat -> path.
Notation walk := (walk goto).

Lemma walk_nil : forall l s cur, walk l s cur [] = Some (l, cur).
Proof. intros [| l] s cur; reflexivity. Qed.
Lemma walk_cons : forall l s cur n r, walk l s cur (n :: r) =
  match ent s cur with
  | Some (Dir_ _) => match ent s (cur ++ [n]) with
                     | Some (Link_ t) => match l with 0 => None | S k => walk k s [] (goto cur t ++ r) end
                     | _ => walk l s (cur ++ [n]) r
                     end
  | _ => None
  end.
Proof. intros [| l] s cur n r; reflexivity. Qed.
Lemma trail_nil : forall s l cur, trail goto s l cur [] = [cur].
Proof. intros s [| l] cur; reflexivity. Qed.
Lemma trail_cons : forall s l cur n r, trail goto s l cur (n :: r) = cur ::
  match ent s cur with
  | Some (Dir_ _) => (cur ++ [n]) :: match ent s (cur ++ [n]) with
                     | Some (Link_ t) => match l with 0 => [] | S k => trail goto s k [] (goto cur t ++ r) end
                     | _ => trail goto s l (cur ++ [n]) r
                     end
  | _ => []
  end.
Proof. intros s [| l] cur n r; reflexivity. Qed.

Lemma walk_app : forall l s a cur b, walk l s cur (a ++ b) = match walk l s cur a with Some (k, q) => walk k s q b | None => None end.
Proof.
  induction l as [| l IHl]; intros s a; induction a as [| n a IHa]; intros cur b; cbn [app]; try (rewrite walk_nil; reflexivity); rewrite !walk_cons;
    destruct (ent s cur) as [[c m | t | m] |]; try reflexivity; destruct (ent s (cur ++ [n])) as [[c2 m2 | t | m2] |]; try apply IHa; try reflexivity.
  rewrite app_assoc. apply IHl.
Qed.
Lemma trail_app : forall l s a cur b k q, walk l s cur a = Some (k, q) -> incl (trail goto s k q b) (trail goto s l cur (a ++ b)).
Proof.
  induction l as [| l IHl]; intros s a; induction a as [| n a IHa]; intros cur b k q H; cbn [app];
    try (rewrite walk_nil in H; injection H as <- <-; apply incl_refl); rewrite walk_cons in H; rewrite trail_cons;
    destruct (ent s cur) as [[c m | t | m] |]; try discriminate H; destruct (ent s (cur ++ [n])) as [[c2 m2 | t | m2] |]; try discriminate H;
    try (do 2 apply incl_tl; apply IHa; exact H).
  rewrite app_assoc. do 2 apply incl_tl. apply IHl. exact H.
Qed.
Lemma walk_in_trail : forall l s a cur k q, walk l s cur a = Some (k, q) -> In q (trail goto s l cur a).
Proof.
  intros l s a cur k q H. assert (I := trail_app l s a cur [] k q H). rewrite app_nil_r in I. apply I. rewrite trail_nil. left. reflexivity.
Qed.
Lemma walk_agree : forall l s s2 a cur, (forall p, In p (trail goto s l cur a) -> ent s2 p = ent s p) -> walk l s2 cur a = walk l s cur a.
Proof.
  induction l as [| l IHl]; intros s s2 a; induction a as [| n a IHa]; intros cur H; try (rewrite !walk_nil; reflexivity); rewrite !walk_cons; rewrite trail_cons in H;
    rewrite (H cur (or_introl eq_refl)); destruct (ent s cur) as [[c m | t | m] |]; try reflexivity;
    rewrite (H (cur ++ [n]) (or_intror (or_introl eq_refl))); destruct (ent s (cur ++ [n])) as [[c2 m2 | t | m2] |]; try reflexivity;
    try (apply IHa; intros p Hp; apply H; right; right; exact Hp).
  apply IHl. intros p Hp. apply H. right. right. exact Hp.
Qed.
(* a path of directories is where it says *)
Lemma walk_plain : forall l s p cur, (forall a b, p = a ++ b -> b <> [] -> exists m, ent s (cur ++ a) = Some (Dir_ m)) -> (forall t, ent s (cur ++ p) <> Some (Link_ t)) ->
  walk l s cur p = Some (l, cur ++ p).
Proof.
  intros l s p. induction p as [| n p IH]; intros cur H HL; [rewrite walk_nil, app_nil_r; reflexivity |].
  rewrite walk_cons. destruct (H [] (n :: p) eq_refl) as [m E]; [discriminate |]. rewrite app_nil_r in E. rewrite E.
  assert (A : walk l s (cur ++ [n]) p = Some (l, cur ++ n :: p)).
  { rewrite IH; [rewrite <- app_assoc; reflexivity | |].
    - intros a b Ep Hb. rewrite <- app_assoc. apply (H (n :: a) b); [rewrite Ep; reflexivity | exact Hb].
    - intros t. rewrite <- app_assoc. apply HL. }
  destruct (ent s (cur ++ [n])) as [[c2 m2 | t | m2] |] eqn:En; try exact A.
  exfalso. destruct p as [| n2 p]; [exact (HL t En) |]. destruct (H [n] (n2 :: p) eq_refl) as [m2 E2]; [discriminate |]. congruence.
Qed.

Variable max : nat.
Notation real := (real goto max). Notation stat := (stat goto max). Notation lpath := (lpath goto max). Notation lstat := (lstat goto max).
Notation isdir := (isdir goto max). Notation listdir := (listdir goto max).

Lemma real_plain : forall s p, plain s p -> (forall t, ent s p <> Some (Link_ t)) -> real s p = Some p.
Proof. intros s p [_ HP] HL. unfold InsModel.real. rewrite walk_plain; [reflexivity | exact HP | exact HL]. Qed.
Lemma real_dir : forall s p, (forall a b, p = a ++ b -> exists m, ent s a = Some (Dir_ m)) -> real s p = Some p.
Proof.
  intros s p H. unfold InsModel.real. rewrite walk_plain; [reflexivity | intros a b E _; apply (H a b E) |].
  intros t E. destruct (H p [] (eq_sym (app_nil_r p))) as [m Em]. cbn [app] in E. congruence.
Qed.
Lemma plain_dirname : forall s p, plain s p -> forall a b, dirname p = a ++ b -> exists m, ent s a = Some (Dir_ m).
Proof.
  intros s p [HN HP] a b E. apply (HP a (b ++ [basename p])).
  - rewrite app_assoc, <- E. apply split_last. exact HN.
  - intros Z. apply app_eq_nil in Z. destruct Z. discriminate.
Qed.
Lemma lpath_plain : forall s p, plain s p -> lpath s p = Some p.
Proof.
  intros s p HP. unfold InsModel.lpath. destruct p as [| x p]; [reflexivity |].
  rewrite (real_dir s (dirname (x :: p)) (plain_dirname s (x :: p) HP)).
  destruct (plain_dirname s (x :: p) HP (dirname (x :: p)) [] (eq_sym (app_nil_r _))) as [m ->].
  rewrite <- (split_last (x :: p)) by discriminate. reflexivity.
Qed.
Lemma stat_plain : forall s p, plain s p -> (forall t, ent s p <> Some (Link_ t)) -> stat s p = ent s p.
Proof. intros s p H HL. unfold InsModel.stat. rewrite (real_plain s p H HL). reflexivity. Qed.
Lemma plain_child : forall s p n, plain s p -> (exists m, ent s p = Some (Dir_ m)) -> plain s (p ++ [n]).
Proof.
  intros s p n [HN HP] HD. split; [intros E; apply app_eq_nil in E; destruct E; discriminate |].
  intros a b E Hb. destruct (exists_last Hb) as [b0 [x ->]]. rewrite app_assoc in E. apply app_inj_tail in E. destruct E as [E _].
  destruct b0 as [| y b0]; [rewrite app_nil_r in E; subst a; exact HD |]. apply (HP a (y :: b0) E). discriminate.
Qed.
Lemma plain_same : forall s s2 p, plain s p -> (forall a b, p = a ++ b -> b <> [] -> ent s2 a = ent s a \/ exists m, ent s2 a = Some (Dir_ m)) -> plain s2 p.
Proof.
  intros s s2 p [HN HP] H. split; [exact HN |]. intros a b E Hb. destruct (H a b E Hb) as [Z | Z]; [rewrite Z; apply (HP a b E Hb) | exact Z].
Qed.

(* one name after a path *)
Lemma stat_step : forall s p n, lstat s (p ++ [n]) = match listdir s p with Some _ => match real s p with Some q => ent s (q ++ [n]) | None => None end | None => None end.
Proof.
  intros s p n. unfold InsModel.lstat, InsModel.lpath, InsModel.listdir. rewrite dirname_app, basename_app.
  destruct (p ++ [n]) as [| x y] eqn:E; [apply app_eq_nil in E; destruct E; discriminate |].
  destruct (real s p) as [q |]; [| reflexivity]. destruct (ent s q) as [[c m | t | m] |]; reflexivity.
Qed.
Lemma stat_lstat : forall s p n, (forall t, lstat s (p ++ [n]) <> Some (Link_ t)) -> stat s (p ++ [n]) = lstat s (p ++ [n]).
Proof.
  intros s p n H. rewrite stat_step in *. unfold InsModel.stat, InsModel.listdir in *. unfold InsModel.real in *. rewrite walk_app.
  destruct (walk max s [] p) as [[k q] |]; [| reflexivity]. rewrite walk_cons.
  destruct (ent s q) as [[c m | t | m] |]; try reflexivity.
  destruct (ent s (q ++ [n])) as [[c m2 | t | m2] |] eqn:E; rewrite ?walk_nil, ?E; try reflexivity. exfalso. exact (H t eq_refl).
Qed.
Lemma stat_none : forall s p n, lstat s (p ++ [n]) = None -> stat s (p ++ [n]) = None.
Proof. intros s p n H. rewrite stat_lstat; [exact H |]. intros t. rewrite H. discriminate. Qed.
End Walk.
