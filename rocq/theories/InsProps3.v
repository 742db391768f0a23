(* C73: copying trees: the theorem. *)
From Coq Require Import List Bool Arith Lia.
Import ListNotations.
From Verif Require Import InsModel InsSpec InsProps InsProps2.
Open Scope list_scope.

Section Copy.
Variable goto : path -> nat -> path.
Variables max new_mode : nat.
Notation real := (real goto max). Notation stat := (stat goto max). Notation lpath := (lpath goto max). Notation lstat := (lstat goto max).
Notation isdir := (isdir goto max). Notation listdir := (listdir goto max). Notation walk := (walk goto).
Notation copy2 := (copy2 goto max new_mode). Notation copytree := (copytree goto max new_mode).
Notation each := (each goto max new_mode). Notation copy_entry := (copy_entry goto max new_mode).
Variable s0 : fs.
Variable DST : path.
Hypothesis DST_some : DST <> [].
Hypothesis Listed : listed s0.
Variable keep : bool.
Variable eok : bool.
Notation Inv := (Inv s0 DST). Notation far := (far goto max s0 DST). Notation within := (within DST). Notation pre := (pre s0 DST).
Notation copied := (copied s0). Notation rec_ok := (rec_ok goto max s0 DST keep).
Notation view := (view goto max s0 keep). Notation tree := (tree goto max s0 keep).

Lemma pre_child : forall s s1 dst n, pre s dst -> Inv s1 -> (exists m, ent s1 dst = Some (Dir_ m)) -> plain s1 dst ->
  (forall r, ent s1 ((dst ++ [n]) ++ r) = ent s ((dst ++ [n]) ++ r)) -> pre s1 (dst ++ [n]).
Proof.
  intros s s1 dst n [_ [HU [_ [HE HL]]]] HI HD HP1 Hn. split; [exact HI |]. split; [apply (under_trans DST dst); [exact HU | apply under_app] |].
  split; [apply plain_child; assumption |]. split.
  - intros r. rewrite Hn, <- !app_assoc. apply HE.
  - intros r t. rewrite <- app_assoc. apply HL.
Qed.

Lemma each_spec : forall rec, rec_ok rec -> forall src dst, far src -> forall l s ok0 ok s1, NoDup l ->
  Inv s -> under DST dst = true -> plain s dst -> (exists m, ent s dst = Some (Dir_ m)) ->
  (forall n r, In n l -> ent s ((dst ++ [n]) ++ r) = ent s0 ((dst ++ [n]) ++ r)) -> (forall r t, ent s0 (dst ++ r) <> Some (Link_ t)) ->
  each keep rec src dst l s ok0 = Some (ok, s1) ->
  within dst s s1 /\ ent s1 dst = ent s dst /\ (forall p, (forall n, In n l -> under (dst ++ [n]) p = false) -> ent s1 p = ent s p) /\
  (ok = true -> ok0 = true /\ ((forall n, In n l -> noconf_v goto max s0 keep (src ++ [n]) (dst ++ [n])) -> forall n, In n l -> copied (view (src ++ [n])) (dst ++ [n]) s1)).
Proof.
  intros rec HR src dst HF l. induction l as [| n l IH]; intros s ok0 ok s1 ND HI HU HP HD HE HL H.
  - cbn [InsModel.each] in H. injection H as <- <-. split; [apply within_refl |]. split; [reflexivity |]. split; [reflexivity |]. intros E. split; [exact E |]. intros _ n [].
  - cbn [InsModel.each] in H. destruct (copy_entry keep rec s (src ++ [n]) (dst ++ [n])) as [[ok1 s2] |] eqn:EC; [| discriminate H].
    assert (P : pre s (dst ++ [n])).
    { split; [exact HI |]. split; [apply (under_trans DST dst); [exact HU | apply under_app] |]. split; [apply plain_child; assumption |]. split.
      - intros r. apply HE. left. reflexivity.
      - intros r t. rewrite <- app_assoc. apply HL. }
    destruct (entry_spec goto max new_mode s0 DST DST_some keep rec HR s src n dst ok1 s2 P HF EC) as [W C].
    assert (W2 : within dst s s2) by (apply (within_up DST dst (dst ++ [n])); [apply under_app | exact W]).
    assert (Ed : ent s2 dst = ent s dst) by (apply W; apply under_self_child).
    inversion ND as [| ? ? Hn ND']; subst.
    destruct (IH s2 (ok0 && ok1) ok s1 ND') as [A [B [E D]]].
    + exact (within_Inv s0 DST dst s s2 HI HU W2).
    + exact HU.
    + exact (within_plain DST dst s s2 HP W2).
    + rewrite Ed. exact HD.
    + intros x r Hx. rewrite <- (HE x r (or_intror Hx)). apply W. rewrite <- app_assoc. apply under_sibling. intros ->. exact (Hn Hx).
    + exact HL.
    + exact H.
    + split; [exact (within_trans DST dst s s2 s1 W2 A) |]. split; [rewrite B; exact Ed |]. split.
      * intros p Hp. rewrite (E p (fun x Hx => Hp x (or_intror Hx))). apply W. apply Hp. left. reflexivity.
      * intros Hok. destruct (D Hok) as [Hb HC]. apply andb_true_iff in Hb. destruct Hb as [-> ->]. split; [reflexivity |].
        intros NC x [<- | Hx]; [| apply HC; [intros y Hy; apply NC; right; exact Hy | exact Hx]].
        intros r. rewrite E; [apply (C eq_refl); apply NC; left; reflexivity |].
        intros y Hy. rewrite <- app_assoc. apply under_sibling. intros ->. exact (Hn Hy).
Qed.

Lemma copytree_ok : forall depth, rec_ok (copytree depth keep eok).
Proof.
  induction depth as [| d IH]; intros s src dst ok s3 HPre HF H; [discriminate H |]. destruct HPre as [HI [HU [HP [HE HL]]]].
  cbn [InsModel.copytree] in H. rewrite (far_listdir goto max s0 DST DST_some s src HI HF) in H.
  destruct (listdir s0 src) as [l |] eqn:El; [| injection H as <- <-; split; [apply within_refl | discriminate]].
  assert (HLd : forall t, ent s dst <> Some (Link_ t)) by (intros t; rewrite <- (app_nil_r dst), HE; apply HL).
  destruct (makedirs goto max new_mode eok s dst) as [s1 |] eqn:Em; [| injection H as <- <-; split; [apply within_refl | discriminate]].
  assert (M : within dst s s1 /\ (exists m, ent s1 dst = Some (Dir_ m)) /\ forall p, p <> dst -> ent s1 p = ent s p).
  { unfold makedirs, mkdir in Em. rewrite (lpath_plain goto max s dst HP) in Em. destruct (ent s dst) as [e |] eqn:Ed.
    - destruct (eok && isdir s dst) eqn:X; [| discriminate Em]. injection Em as <-. split; [apply within_refl |]. split; [| reflexivity].
      apply andb_true_iff in X. destruct X as [_ X]. unfold InsModel.isdir in X. rewrite (stat_plain goto max s dst HP) in X by (rewrite Ed; exact HLd). rewrite Ed in X.
      destruct e as [c m | t | m]; try discriminate X. exists m. exact Ed.
    - injection Em as <-. split; [apply within_create; exact HU |]. split; [exists new_mode; rewrite ent_create, path_eqb_refl; reflexivity |].
      intros p N. rewrite ent_create, path_eqb_neq by exact N. reflexivity. }
  destruct M as [W1 [HD1 HO1]].
  assert (NL : NoDup l).
  { unfold InsModel.listdir in El. destruct (real s0 src) as [q |]; [| discriminate El]. destruct (ent s0 q) as [[c m | t | m] |]; try discriminate El. injection El as <-. apply (proj2 Listed). }
  destruct (each keep (copytree d keep eok) src dst l s1 true) as [[okl s2] |] eqn:Ee; [| discriminate H].
  assert (HI1 : Inv s1) by exact (within_Inv s0 DST dst s s1 HI HU W1).
  assert (HP1 : plain s1 dst) by exact (within_plain DST dst s s1 HP W1).
  assert (Hchild : forall n r, (dst ++ [n]) ++ r <> dst).
  { intros n r Z. rewrite <- app_assoc in Z. rewrite <- (app_nil_r dst) in Z at 2. apply app_inv_head in Z. discriminate Z. }
  destruct (each_spec (copytree d keep eok) IH src dst HF l s1 true okl s2 NL HI1 HU HP1 HD1) as [W2 [Ed2 [O2 C2]]].
  - intros n r _. rewrite HO1 by apply Hchild. rewrite <- !app_assoc. apply HE.
  - exact HL.
  - exact Ee.
  - assert (HI2 : Inv s2) by exact (within_Inv s0 DST dst s1 s2 HI1 HU W2).
    assert (HP2 : plain s2 dst) by exact (within_plain DST dst s1 s2 HP1 W2).
    assert (W12 : within dst s s2) by exact (within_trans DST dst s s1 s2 W1 W2).
    unfold copystat in H. rewrite (far_stat goto max s0 DST s2 src HI2 HF) in H.
    assert (S : exists m, stat s0 src = Some (Dir_ m)).
    { unfold InsModel.listdir in El. unfold InsModel.stat. destruct (real s0 src) as [q |]; [| discriminate El]. destruct (ent s0 q) as [[c m | t | m] |]; try discriminate El. exists m. reflexivity. }
    destruct S as [m Es]. rewrite Es in H. cbn [mode_of] in H. destruct HD1 as [m1 Ed1]. rewrite Ed1 in Ed2.
    rewrite (chmod_plain_dir goto max s2 dst m m1 HP2 Ed2) in H. injection H as <- <-.
    split; [apply (within_trans DST dst s s2); [exact W12 | apply within_put] |].
    intros Hok NC. destruct (C2 Hok) as [_ C3]. split; [exists m; exact Es |].
    intros r. destruct r as [| n r].
    + rewrite app_nil_r. cbn [put ent InsSpec.tree]. rewrite path_eqb_refl, Es. reflexivity.
    + replace (dst ++ n :: r) with ((dst ++ [n]) ++ r) by (rewrite <- app_assoc; reflexivity).
      cbn [put ent]. rewrite path_eqb_neq by apply Hchild.
      cbn [InsSpec.tree]. rewrite Es. destruct (in_dec Nat.eq_dec n l) as [Hn | Hn].
      * apply C3; [| exact Hn]. intros x Hx r0 c m0 m' Ev. rewrite <- app_assoc. apply (NC (x :: r0) c m0 m'). cbn [InsSpec.tree]. rewrite Es. exact Ev.
      * assert (Z : lstat s0 (src ++ [n]) = None).
        { rewrite stat_step, El. unfold InsModel.listdir in El. destruct (real s0 src) as [q |]; [| reflexivity].
          destruct (ent s0 q) as [[c m2 | t | m2] |]; try discriminate El. injection El as <-.
          destruct (ent s0 (q ++ [n])) eqn:X; [| reflexivity]. exfalso. apply Hn. apply (proj1 Listed). rewrite X. discriminate. }
        assert (Lk : look goto max s0 keep (src ++ [n]) = None) by (unfold look; destruct keep; [exact Z | apply stat_none; exact Z]).
        assert (V : view (src ++ [n]) r = None) by (destruct r as [| y r]; cbn [InsSpec.view]; rewrite Lk; reflexivity).
        rewrite V. cbn [orelse]. rewrite O2; [rewrite HO1 by apply Hchild; rewrite <- !app_assoc; apply HE |].
        intros y Hy. rewrite <- app_assoc. apply under_sibling. intros ->. exact (Hn Hy).
Qed.
End Copy.
