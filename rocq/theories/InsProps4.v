(* C73: copying a tree succeeds. *)
From Coq Require Import List Bool Arith Lia.
Import ListNotations.
From Verif Require Import InsModel InsSpec InsProps InsProps2 InsProps3.
Open Scope list_scope.

Lemma walk_not_link : forall goto l s a cur k q, (forall t, ent s [] <> Some (Link_ t)) -> (forall t, ent s cur <> Some (Link_ t)) -> walk goto l s cur a = Some (k, q) -> forall t, ent s q <> Some (Link_ t).
Proof.
  intros goto l s a cur k q HR. revert a cur. induction l as [| l IHl]; intros a; induction a as [| n a IHa]; intros cur HC H;
    try (rewrite walk_nil in H; injection H as <- <-; exact HC); rewrite walk_cons in H;
    destruct (ent s cur) as [[c m | t | m] |] eqn:Ec; try discriminate H; destruct (ent s (cur ++ [n])) as [[c2 m2 | t | m2] |] eqn:En; try discriminate H;
    try (apply (IHa (cur ++ [n])); [intros t; rewrite En; discriminate | exact H]).
  exact (IHl _ [] HR H).
Qed.

Section Copy.
Variable goto : path -> nat -> path.
Variables max new_mode : nat.
Notation real := (real goto max). Notation stat := (stat goto max). Notation lpath := (lpath goto max). Notation lstat := (lstat goto max).
Notation isdir := (isdir goto max). Notation listdir := (listdir goto max). Notation walk := (walk goto).
Notation copy2 := (copy2 goto max new_mode). Notation copytree := (copytree goto max new_mode).
Notation each := (each goto max new_mode). Notation copy_entry := (copy_entry goto max new_mode).
Variable s0 : fs.
Variable DST : path.
Hypothesis DST_some : DST <> [].
Hypothesis Listed : listed s0.
Hypothesis Root : forall t, ent s0 [] <> Some (Link_ t).
Notation Inv := (Inv s0 DST). Notation far := (far goto max s0 DST). Notation within := (within DST). Notation pre := (pre s0 DST).

Lemma copy2_total : forall s src dst c m, Inv s -> far src -> under DST dst = true -> plain s dst ->
  (ent s dst = None \/ exists c1 m1, ent s dst = Some (File_ c1 m1)) -> stat s0 src = Some (File_ c m) -> exists s1, copy2 s src dst = (true, s1).
Proof.
  intros s src dst c m HI HF HU HP HD HS.
  assert (NL : forall t, ent s dst <> Some (Link_ t)) by (intros t; destruct HD as [-> | [c1 [m1 ->]]]; discriminate).
  unfold InsModel.copy2. assert (isdir s dst = false) as ->.
  { unfold InsModel.isdir. rewrite (stat_plain goto max s dst HP NL). destruct HD as [-> | [c1 [m1 ->]]]; reflexivity. }
  unfold copyfile. assert (samefile goto max s src dst = false) as ->.
  { unfold samefile. destruct (far_real goto max s0 DST s src HI HF) as [-> HQ]. destruct (real s0 src) as [q |] eqn:Eq; [| reflexivity].
    rewrite (real_plain goto max s dst HP NL), path_eqb_neq; [apply andb_false_r |]. intros ->. specialize (HQ dst eq_refl). rewrite HU in HQ. discriminate HQ. }
  rewrite (far_stat goto max s0 DST s src HI HF), HS. unfold write. rewrite (real_plain goto max s dst HP NL).
  assert (K : forall w m0, within dst s w -> ent w dst = Some (File_ c m0) -> exists s1, match copystat goto max w src dst with Some s2 => (true, s2) | None => (false, w) end = (true, s1)).
  { intros w m0 HW HE. unfold copystat. rewrite (far_stat goto max s0 DST w src (within_Inv s0 DST dst s w HI HU HW) HF), HS.
    rewrite (chmod_plain goto max w dst _ c m0 (within_plain DST dst s w HP HW) HE). eexists. reflexivity. }
  destruct HD as [Ed | [c1 [m1 Ed]]]; rewrite Ed.
  - apply (K _ new_mode); [apply within_create; exact HU | rewrite ent_create, path_eqb_refl; reflexivity].
  - apply (K _ m1); [apply within_put | cbn [put ent]; rewrite path_eqb_refl; reflexivity].
Qed.

Variable keep : bool.
Variable eok : bool.
Notation view := (view goto max s0 keep). Notation tree := (tree goto max s0 keep).
Definition fits_v (src dst : path) : Prop := forall r,
  match view src r with
  | Some (File_ _ _) => forall m, ent s0 (dst ++ r) <> Some (Dir_ m)
  | Some (Dir_ _) => ent s0 (dst ++ r) = None \/ (eok = true /\ exists m, ent s0 (dst ++ r) = Some (Dir_ m))
  | Some (Link_ _) => ent s0 (dst ++ r) = None
  | None => True
  end.
Definition rec_total (rec : fs -> path -> path -> option (bool * fs)) (k : nat) : Prop := forall s src dst,
  pre s dst -> far src -> (exists m, stat s0 src = Some (Dir_ m)) -> depth_at_most goto max s0 keep src k -> fits goto max s0 keep eok src dst -> solid goto max s0 keep src ->
  exists s1, rec s src dst = Some (true, s1).

Lemma solid_child : forall src n, solid goto max s0 keep src -> solid goto max s0 keep (src ++ [n]).
Proof. intros src n H r x l E Hx. rewrite <- (app_assoc src [n] r) in *. exact (H ([n] ++ r) x l E Hx). Qed.

Lemma entry_total : forall rec k, rec_total rec k -> forall s src n dst, pre s (dst ++ [n]) -> far src ->
  look goto max s0 keep (src ++ [n]) <> None -> (forall r, view (src ++ [n]) r <> None -> length r <= k) -> fits_v (src ++ [n]) (dst ++ [n]) -> solid goto max s0 keep (src ++ [n]) ->
  exists s1, copy_entry keep rec s (src ++ [n]) (dst ++ [n]) = Some (true, s1).
Proof.
  intros rec k HR s src n dst HPre HF HS HK HFit HSol. destruct (HPre) as [HI [HU [HP [HE HL]]]]. assert (HF1 : far (src ++ [n])) by (apply far_app; exact HF).
  assert (HE0 : ent s (dst ++ [n]) = ent s0 (dst ++ [n])) by (assert (Q := HE []); rewrite !app_nil_r in Q; exact Q).
  assert (NL0 : forall t, ent s0 (dst ++ [n]) <> Some (Link_ t)) by (intros t; assert (Q := HL [] t); rewrite app_nil_r in Q; exact Q).
  assert (HF0 := HFit []). rewrite app_nil_r in HF0. cbn [InsSpec.view] in HF0.
  unfold InsModel.copy_entry. rewrite (far_lstat goto max s0 DST DST_some s src n HI HF).
  assert (C : (keep = false \/ forall t, lstat s0 (src ++ [n]) <> Some (Link_ t)) ->
     exists s1, (if isdir s (src ++ [n]) then rec s (src ++ [n]) (dst ++ [n]) else Some (copy2 s (src ++ [n]) (dst ++ [n]))) = Some (true, s1)).
  { intros HKp. assert (TV : forall r, tree (src ++ [n]) r = view (src ++ [n]) r) by (intros r; apply tree_view; exact HKp).
    assert (EV : look goto max s0 keep (src ++ [n]) = stat s0 (src ++ [n])) by (symmetry; exact (TV [])).
    rewrite EV in HS, HF0. unfold InsModel.isdir. rewrite (far_stat goto max s0 DST s (src ++ [n]) HI HF1).
    destruct (stat s0 (src ++ [n])) as [[c m | t | m] |] eqn:Es.
    - destruct (copy2_total s (src ++ [n]) (dst ++ [n]) c m HI HF1 HU HP) as [s1 E]; [| exact Es | exists s1; rewrite E; reflexivity].
      rewrite HE0. destruct (ent s0 (dst ++ [n])) as [[c1 m1 | t1 | m1] |]; [right; exists c1, m1; reflexivity | exfalso; exact (NL0 t1 eq_refl) | exfalso; exact (HF0 m1 eq_refl) | left; reflexivity].
    - exfalso. unfold InsModel.stat, InsModel.real in Es. destruct (walk max s0 [] (src ++ [n])) as [[j q] |] eqn:Ew; [| discriminate Es].
      exact (walk_not_link goto max s0 (src ++ [n]) [] j q Root Root Ew t Es).
    - apply HR; [exact HPre | exact HF1 | exists m; exact Es | | | exact HSol].
      + intros r. rewrite TV. apply HK.
      + intros r. rewrite TV. apply HFit.
    - exfalso. apply HS. reflexivity. }
  destruct (lstat s0 (src ++ [n])) as [[c m | t | m] |] eqn:El; try (apply C; right; intros t0; discriminate).
  destruct keep eqn:Ek; [| apply C; left; reflexivity].
  unfold symlink. rewrite (lpath_plain goto max s (dst ++ [n]) HP), HE0. unfold look in HF0. rewrite El in HF0. rewrite HF0. eexists. reflexivity.
Qed.

Lemma each_total : forall rec k, rec_ok goto max s0 DST keep rec -> rec_total rec k -> forall src dst, far src -> forall l s, NoDup l ->
  Inv s -> under DST dst = true -> plain s dst -> (exists m, ent s dst = Some (Dir_ m)) ->
  (forall n r, In n l -> ent s ((dst ++ [n]) ++ r) = ent s0 ((dst ++ [n]) ++ r)) -> (forall r t, ent s0 (dst ++ r) <> Some (Link_ t)) ->
  (forall n, In n l -> look goto max s0 keep (src ++ [n]) <> None /\ (forall r, view (src ++ [n]) r <> None -> length r <= k) /\ fits_v (src ++ [n]) (dst ++ [n])) -> solid goto max s0 keep src ->
  exists s1, each keep rec src dst l s true = Some (true, s1).
Proof.
  intros rec k HO HR src dst HF l. induction l as [| n l IH]; intros s ND HI HU HP HD HE HL HN HSol.
  - exists s. reflexivity.
  - cbn [InsModel.each]. destruct (HN n (or_introl eq_refl)) as [H1 [H2 H3]].
    assert (P : pre s (dst ++ [n])).
    { split; [exact HI |]. split; [apply (under_trans DST dst); [exact HU | apply under_app] |]. split; [apply plain_child; assumption |]. split.
      - intros r. apply HE. left. reflexivity.
      - intros r t. rewrite <- app_assoc. apply HL. }
    destruct (entry_total rec k HR s src n dst P HF H1 H2 H3 (solid_child src n HSol)) as [s2 EC]. rewrite EC. cbn [andb].
    destruct (entry_spec goto max new_mode s0 DST DST_some keep rec HO s src n dst true s2 P HF EC) as [W _].
    assert (W2 : within dst s s2) by (apply (within_up DST dst (dst ++ [n])); [apply under_app | exact W]).
    assert (Ed : ent s2 dst = ent s dst) by (apply W; apply under_self_child).
    inversion ND as [| ? ? Hn ND']; subst. apply IH.
    + exact ND'.
    + exact (within_Inv s0 DST dst s s2 HI HU W2).
    + exact HU.
    + exact (within_plain DST dst s s2 HP W2).
    + rewrite Ed. exact HD.
    + intros x r Hx. rewrite <- (HE x r (or_intror Hx)). apply W. rewrite <- app_assoc. apply under_sibling. intros ->. exact (Hn Hx).
    + exact HL.
    + intros x Hx. apply HN. right. exact Hx.
    + exact HSol.
Qed.

Lemma copytree_total : forall k, rec_total (copytree (S k) keep eok) k.
Proof.
  assert (G : forall k, (forall j, k = S j -> rec_total (copytree k keep eok) j) -> rec_total (copytree (S k) keep eok) k); [| induction k as [| k IH]; apply G; [intros j Z; discriminate Z | intros j Z; injection Z as <-; exact IH]].
  intros k IH s src dst HPre HF [m Es] HK HFit HSol. destruct HPre as [HI [HU [HP [HE HL]]]].
  assert (HE0 : ent s dst = ent s0 dst) by (assert (Q := HE []); rewrite !app_nil_r in Q; exact Q).
  assert (HF0 := HFit []). rewrite app_nil_r in HF0. cbn [InsSpec.tree] in HF0. rewrite Es in HF0.
  assert (HLd : forall t, ent s dst <> Some (Link_ t)) by (intros t; rewrite <- (app_nil_r dst), HE; apply HL).
  remember (copytree k keep eok) as rec eqn:Er. cbn [InsModel.copytree]. rewrite <- Er. rewrite (far_listdir goto max s0 DST DST_some s src HI HF).
  destruct (listdir s0 src) as [l |] eqn:El.
  2:{ exfalso. unfold InsModel.listdir in El. unfold InsModel.stat in Es. destruct (real s0 src) as [q |]; [| discriminate Es]. rewrite Es in El. discriminate El. }
  assert (M : exists s1, makedirs goto max new_mode eok s dst = Some s1 /\ within dst s s1 /\ (exists m1, ent s1 dst = Some (Dir_ m1)) /\ forall p, p <> dst -> ent s1 p = ent s p).
  { unfold makedirs, mkdir. rewrite (lpath_plain goto max s dst HP). rewrite HE0 in *. destruct HF0 as [Z | [-> [m1 Z]]].
    - rewrite Z. eexists. split; [reflexivity |]. split; [apply within_create; exact HU |]. split; [exists new_mode; rewrite ent_create, path_eqb_refl; reflexivity |].
      intros p N. rewrite ent_create, path_eqb_neq by exact N. reflexivity.
    - rewrite Z. unfold InsModel.isdir. rewrite (stat_plain goto max s dst HP) by (rewrite HE0; exact HLd). rewrite HE0, Z. cbn [andb]. exists s. split; [reflexivity |]. split; [apply within_refl |].
      split; [exists m1; rewrite HE0; exact Z | reflexivity]. }
  destruct M as [s1 [-> [W1 [HD1 HO1]]]].
  assert (NL : NoDup l).
  { unfold InsModel.listdir in El. destruct (real s0 src) as [q |]; [| discriminate El]. destruct (ent s0 q) as [[c m2 | t | m2] |]; try discriminate El. injection El as <-. apply (proj2 Listed). }
  assert (Hchild : forall n r, (dst ++ [n]) ++ r <> dst).
  { intros n r Z. rewrite <- app_assoc in Z. rewrite <- (app_nil_r dst) in Z at 2. apply app_inv_head in Z. discriminate Z. }
  assert (HI1 : Inv s1) by exact (within_Inv s0 DST dst s s1 HI HU W1).
  assert (HP1 : plain s1 dst) by exact (within_plain DST dst s s1 HP W1).
  assert (EE : forall n r, In n l -> ent s1 ((dst ++ [n]) ++ r) = ent s0 ((dst ++ [n]) ++ r)) by (intros n r _; rewrite HO1 by apply Hchild; rewrite <- !app_assoc; apply HE).
  assert (V : forall n r, tree src (n :: r) = view (src ++ [n]) r) by (intros n r; cbn [InsSpec.tree]; rewrite Es; reflexivity).
  assert (E : exists s2, each keep rec src dst l s1 true = Some (true, s2)).
  { destruct l as [| n0 l0]; [exists s1; reflexivity |].
    assert (SK : exists j, k = S j).
    { destruct k as [| j]; [| exists j; reflexivity]. exfalso.
      assert (Z : length [n0] <= 0); [| cbn [length] in Z; lia]. apply HK. rewrite V. cbn [InsSpec.view].
      assert (Q := HSol [] n0 (n0 :: l0)). rewrite app_nil_r in Q. apply Q; [exact El | left; reflexivity]. }
    destruct SK as [j Ej].
    apply (each_total rec j); [rewrite Er; apply copytree_ok; assumption | subst k; apply IH; reflexivity | exact HF | exact NL | exact HI1 | exact HU | exact HP1 | exact HD1 | exact EE | exact HL | | exact HSol].
    intros n Hn. split; [| split].
    - assert (Q := HSol [] n (n0 :: l0)). rewrite app_nil_r in Q. apply Q; [exact El | exact Hn].
    - intros r Hr. rewrite <- V in Hr. apply HK in Hr. cbn [length] in Hr. lia.
    - intros r. rewrite <- V, <- app_assoc. apply (HFit (n :: r)). }
  destruct E as [s2 Ee]. rewrite Ee.
  assert (OKrec : rec_ok goto max s0 DST keep rec) by (rewrite Er; apply copytree_ok; assumption).
  destruct (each_spec goto max new_mode s0 DST DST_some keep rec OKrec src dst HF l s1 true true s2 NL HI1 HU HP1 HD1 EE HL Ee) as [W2 [Ed2 _]].
  unfold copystat. rewrite (far_stat goto max s0 DST s2 src (within_Inv s0 DST dst s1 s2 HI1 HU W2) HF), Es. destruct HD1 as [m1 Ed1]. rewrite Ed1 in Ed2.
  rewrite (chmod_plain_dir goto max s2 dst _ m1 (within_plain DST dst s1 s2 HP1 W2) Ed2). eexists. reflexivity.
Qed.
End Copy.
