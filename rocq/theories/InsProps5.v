(* C73a - C73e: Copy() and Install(). *)
From Coq Require Import List Bool Arith Lia.
Import ListNotations.
From Verif Require Import InsModel InsSpec InsProps InsProps2 InsProps3 InsProps4.
Open Scope list_scope.

Section Top.
Variable goto : path -> nat -> path.
Variables max new_mode : nat.
Variable writable : nat -> nat.
Notation stat := (stat goto max). Notation lstat := (lstat goto max). Notation real := (real goto max).
Notation copytree := (copytree goto max new_mode).

Lemma Inv_self : forall s dst, Inv s dst s.
Proof. intros s dst. split; reflexivity. Qed.
Lemma plain_root : forall s dst, plain s dst -> forall t, ent s [] <> Some (Link_ t).
Proof. intros s dst [HN HP] t E. destruct (HP [] dst eq_refl HN) as [m Em]. congruence. Qed.
Lemma pre_self : forall s dst, plain s dst -> no_links_below s dst -> pre s dst s dst.
Proof. intros s dst HP HL. split; [apply Inv_self |]. split; [apply under_refl |]. split; [exact HP |]. split; [reflexivity | exact HL]. Qed.

Lemma copytree_top : forall s src dst keep eok, listed s -> plain s dst -> no_links_below s dst -> apart goto max s src dst ->
  (forall depth ok s', copytree depth keep eok s src dst = Some (ok, s') ->
    (forall p, under dst p = false -> ent s' p = ent s p) /\
    (ok = true -> (forall r c m m', tree goto max s keep src r = Some (File_ c m) -> ent s (dst ++ r) <> Some (Dir_ m')) ->
       forall r, ent s' (dst ++ r) = match tree goto max s keep src r with Some e => Some e | None => ent s (dst ++ r) end)) /\
  (forall k, (exists m, stat s src = Some (Dir_ m)) -> depth_at_most goto max s keep src k -> fits goto max s keep eok src dst -> solid goto max s keep src ->
    exists s', copytree (S k) keep eok s src dst = Some (true, s')).
Proof.
  intros s src dst keep eok HS HP HL HA. assert (HN : dst <> []) by exact (proj1 HP). split.
  - intros depth ok s' H. destruct (copytree_ok goto max new_mode s dst HN HS keep eok depth s src dst ok s' (pre_self s dst HP HL) HA H) as [[A _] B].
    split; [exact A |]. intros Hok NC. destruct (B Hok NC) as [_ C]. exact C.
  - intros k HD HK HF HSo. exact (copytree_total goto max new_mode s dst HN HS (plain_root s dst HP) keep eok k s src dst (pre_self s dst HP HL) HA HD HK HF HSo).
Qed.

(* C73a: Copy of a directory to a free name gives the same tree, links kept or followed; nothing else is touched, also if it fails; and it succeeds if the tree ends and no link that is followed is dangling. *)
Theorem C73a_copy_directory : forall s src dst symlinks, listed s -> plain s dst -> (forall r, ent s (dst ++ r) = None) -> apart goto max s src dst ->
  (exists m, stat s src = Some (Dir_ m)) -> (forall t, lstat s src <> Some (Link_ t)) ->
  (forall depth ok s', copy_func goto max new_mode depth s dst (One src) symlinks = Some (ok, s') ->
     (forall p, under dst p = false -> ent s' p = ent s p) /\ (ok = true -> forall r, ent s' (dst ++ r) = tree goto max s symlinks src r)) /\
  (forall k, depth_at_most goto max s symlinks src k -> solid goto max s symlinks src ->
     exists s', copy_func goto max new_mode (S k) s dst (One src) symlinks = Some (true, s')).
Proof.
  intros s src dst symlinks HS HP HE HA [m Es] HL.
  assert (F : forall depth, copy_func goto max new_mode depth s dst (One src) symlinks = copytree depth symlinks false s src dst).
  { intros depth. unfold copy_func, copy_plain. assert (isfile goto max s src = false) as -> by (unfold isfile; rewrite Es; reflexivity).
    destruct (lstat s src) as [[c m1 | t | m1] |] eqn:El; try reflexivity. exfalso. exact (HL t eq_refl). }
  assert (HNL : no_links_below s dst) by (intros r t; rewrite HE; discriminate).
  destruct (copytree_top s src dst symlinks false HS HP HNL HA) as [A B]. split.
  - intros depth ok s' H. rewrite F in H. destruct (A depth ok s' H) as [C D]. split; [exact C |]. intros Hok r.
    rewrite (D Hok); [rewrite HE; destruct (tree goto max s symlinks src r); reflexivity |]. intros r0 c m0 m' _. rewrite HE. discriminate.
  - intros k HK HSo. rewrite F. apply B; [exists m; exact Es | exact HK | | exact HSo].
    intros r. destruct (tree goto max s symlinks src r) as [[c m1 | t | m1] |]; [intros m2; rewrite HE; discriminate | apply HE | left; apply HE | exact Logic.I].
Qed.

(* C73b: Install of a directory, with all links followed: what is in the source is in the destination, what was there besides stays, nothing else is touched. *)
Theorem C73b_install_directory : forall s src dst, listed s -> plain s dst -> no_links_below s dst -> apart goto max s src dst -> (exists m, stat s src = Some (Dir_ m)) ->
  (forall depth ok s', copyFunc goto max new_mode writable depth s dst src = Some (ok, s') ->
     (forall p, under dst p = false -> ent s' p = ent s p) /\
     (ok = true -> fits goto max s false true src dst -> forall r, ent s' (dst ++ r) = match tree goto max s false src r with Some e => Some e | None => ent s (dst ++ r) end)) /\
  (forall k, depth_at_most goto max s false src k -> solid goto max s false src -> fits goto max s false true src dst ->
     exists s', copyFunc goto max new_mode writable (S k) s dst src = Some (true, s')).
Proof.
  intros s src dst HS HP HNL HA [m Es].
  assert (D : isdir goto max s src = true) by (unfold isdir; rewrite Es; reflexivity).
  assert (L0 : forall t, ent s dst <> Some (Link_ t)) by (intros t; assert (Q := HNL [] t); rewrite app_nil_r in Q; exact Q).
  destruct (copytree_top s src dst false true HS HP HNL HA) as [A B]. split.
  - intros depth ok s' H. unfold copyFunc in H. rewrite D in H. destruct (exists_ goto max s dst && negb (isdir goto max s dst)).
    + injection H as <- <-. split; [reflexivity | discriminate].
    + destruct (A depth ok s' H) as [C E]. split; [exact C |]. intros Hok HF. apply (E Hok).
      intros r c m0 m' Et. specialize (HF r). rewrite Et in HF. apply HF.
  - intros k HK HSo HF. unfold copyFunc. rewrite D.
    assert (exists_ goto max s dst && negb (isdir goto max s dst) = false) as ->.
    { unfold exists_, isdir. rewrite (stat_plain goto max s dst HP L0). assert (Q := HF []). rewrite app_nil_r in Q. cbn [tree] in Q. rewrite Es in Q.
      destruct Q as [-> | [_ [m1 ->]]]; reflexivity. }
    apply B; [exists m; exact Es | exact HK | exact HF | exact HSo].
Qed.

(* C73c: Copy and Install of a file: contents and mode (Install: writable); nothing else is touched. *)
Lemma copy2_top : forall s src dst c m, plain s dst -> apart goto max s src dst -> (ent s dst = None \/ exists c1 m1, ent s dst = Some (File_ c1 m1)) -> stat s src = Some (File_ c m) ->
  exists s', copy2 goto max new_mode s src dst = (true, s') /\ ent s' dst = Some (File_ c m) /\ (forall p, p <> dst -> ent s' p = ent s p) /\ Inv s dst s'.
Proof.
  intros s src dst c m HP HA HD HS. assert (HN : dst <> []) by exact (proj1 HP).
  destruct (copy2_total goto max new_mode s dst s src dst c m (Inv_self s dst) HA (under_refl dst) HP HD HS) as [s' E]. exists s'. split; [exact E |].
  assert (NL : forall t, ent s dst <> Some (Link_ t)) by (intros t; destruct HD as [-> | [c1 [m1 ->]]]; discriminate).
  unfold copy2 in E. assert (ND : isdir goto max s dst = false).
  { unfold isdir. rewrite (stat_plain goto max s dst HP NL). destruct HD as [-> | [c1 [m1 ->]]]; reflexivity. }
  rewrite ND in E. destruct (copyfile_stat goto max new_mode s dst s src dst true s' (Inv_self s dst) HA (under_refl dst) HP NL E) as [W B].
  destruct (B eq_refl) as [c2 [m2 [E1 [E2 E3]]]]. rewrite HS in E1. injection E1 as <- <-. split; [exact E2 |]. split; [exact E3 |].
  exact (within_Inv s dst dst s s' (Inv_self s dst) (under_refl dst) W).
Qed.
Theorem C73c_file : forall s src dst c m, plain s dst -> apart goto max s src dst -> (ent s dst = None \/ exists c1 m1, ent s dst = Some (File_ c1 m1)) -> stat s src = Some (File_ c m) ->
  (forall depth symlinks, (forall t, lstat s src <> Some (Link_ t)) -> exists s', copy_func goto max new_mode depth s dst (One src) symlinks = Some (true, s') /\
     ent s' dst = Some (File_ c m) /\ forall p, p <> dst -> ent s' p = ent s p) /\
  (forall depth, exists s', copyFunc goto max new_mode writable depth s dst src = Some (true, s') /\
     ent s' dst = Some (File_ c (writable m)) /\ forall p, p <> dst -> ent s' p = ent s p).
Proof.
  intros s src dst c m HP HA HD HS. destruct (copy2_top s src dst c m HP HA HD HS) as [s' [E [E2 [E3 HI]]]]. split.
  - intros depth symlinks HL. exists s'. split; [| split; [exact E2 | exact E3]].
    assert (P : copy_plain goto max new_mode depth s dst src symlinks = Some (true, s')).
    { unfold copy_plain, isfile. rewrite HS, E. reflexivity. }
    unfold copy_func. destruct (lstat s src) as [[c1 m1 | t | m1] |] eqn:El; try exact P. exfalso. exact (HL t eq_refl).
  - intros depth. unfold copyFunc. assert (isdir goto max s src = false) as -> by (unfold isdir; rewrite HS; reflexivity). rewrite E.
    rewrite (far_stat goto max s dst s' src HI HA), HS. cbn [mode_of].
    assert (HP' : plain s' dst).
    { apply (plain_same s s' dst HP). intros a b Ea Hb. left. apply E3. intros ->. rewrite <- (app_nil_r dst) in Ea at 1. apply app_inv_head in Ea. congruence. }
    rewrite (chmod_plain goto max s' dst _ c m HP' E2). eexists. split; [reflexivity |]. split.
    + cbn [put ent]. rewrite path_eqb_refl. reflexivity.
    + intros p Hp. cbn [put ent]. rewrite path_eqb_neq by exact Hp. apply E3. exact Hp.
Qed.

(* C73d: Copy of a link: the link itself, but never over something that is there; or, with symlinks=False, what it leads to. *)
Lemma walk_canonical : forall l s a cur k q, (forall x y, cur = x ++ y -> (y <> [] -> exists m, ent s x = Some (Dir_ m)) /\ forall t, ent s x <> Some (Link_ t)) -> (forall t, ent s [] <> Some (Link_ t)) ->
  walk goto l s cur a = Some (k, q) -> forall x y, q = x ++ y -> (y <> [] -> exists m, ent s x = Some (Dir_ m)) /\ forall t, ent s x <> Some (Link_ t).
Proof.
  intros l s a cur k q HC HR. revert a cur HC. induction l as [| l IHl]; intros a; induction a as [| n a IHa]; intros cur HC H;
    try (rewrite walk_nil in H; injection H as <- <-; exact HC); rewrite walk_cons in H;
    destruct (ent s cur) as [[c m | t | m] |] eqn:Ec; try discriminate H;
    assert (HC2 : (forall t, ent s (cur ++ [n]) <> Some (Link_ t)) -> forall x y, cur ++ [n] = x ++ y -> (y <> [] -> exists m, ent s x = Some (Dir_ m)) /\ forall t, ent s x <> Some (Link_ t))
      by (intros HL x y E; destruct (list_eq_dec Nat.eq_dec y []) as [-> | Ny];
          [rewrite app_nil_r in E; subst x; split; [intros Z; congruence | exact HL]
          | destruct (exists_last Ny) as [y0 [z ->]]; rewrite app_assoc in E; apply app_inj_tail in E; destruct E as [E _]; destruct (HC x y0 E) as [P Q]; split; [| exact Q];
            intros _; destruct y0 as [| w y0]; [rewrite app_nil_r in E; subst x; exists m; exact Ec | apply P; discriminate]]);
    destruct (ent s (cur ++ [n])) as [[c2 m2 | t | m2] |] eqn:En; try discriminate H;
    try (apply (IHa (cur ++ [n])); [apply HC2; intros t; discriminate | exact H]).
  refine (IHl _ [] _ H). intros x y E. symmetry in E. apply app_eq_nil in E. destruct E as [-> ->]. split; [intros Z; congruence | exact HR].
Qed.
Theorem C73d_link : forall s src dst t, lstat s src = Some (Link_ t) ->
  (plain s dst -> forall depth, exists ok s', copy_func goto max new_mode depth s dst (One src) true = Some (ok, s') /\
     (ok = true <-> ent s dst = None) /\ (ok = true -> ent s' dst = Some (Link_ t)) /\ (forall p, p <> dst \/ ok = false -> ent s' p = ent s p)) /\
  (forall q, plain s dst -> real s src = Some q -> forall depth, copy_func goto max new_mode depth s dst (One src) false = copy_func goto max new_mode depth s dst (One q) true) /\
  (real s src = None -> forall depth, copy_func goto max new_mode depth s dst (One src) false = Some (false, s)).
Proof.
  intros s src dst t El. split; [| split].
  - intros HP depth. cbn [copy_func]. rewrite El. unfold symlink. rewrite (lpath_plain goto max s dst HP). destruct (ent s dst) as [e |] eqn:Ed.
    + exists false, s. split; [reflexivity |]. split; [split; discriminate |]. split; [discriminate | reflexivity].
    + eexists true, _. split; [reflexivity |]. split; [split; reflexivity |]. split.
      * intros _. rewrite ent_create, path_eqb_refl. reflexivity.
      * intros p [Hp | Z]; [| discriminate Z]. rewrite ent_create, path_eqb_neq by exact Hp. reflexivity.
  - intros q HP Hq depth. cbn [copy_func]. rewrite El, Hq.
    assert (C : forall x y, q = x ++ y -> (y <> [] -> exists m, ent s x = Some (Dir_ m)) /\ forall t, ent s x <> Some (Link_ t)).
    { unfold InsModel.real in Hq. destruct (walk goto max s [] src) as [[k q0] |] eqn:Ew; [| discriminate Hq]. injection Hq as ->.
      apply (walk_canonical max s src [] k q); [| exact (plain_root s dst HP) | exact Ew].
      intros x y E. symmetry in E. apply app_eq_nil in E. destruct E as [-> ->]. split; [intros Z; congruence | exact (plain_root s dst HP)]. }
    destruct q as [| x q].
    + assert (lstat s [] = ent s []) as -> by reflexivity. destruct (ent s []) as [[c m | t1 | m] |] eqn:E0; try reflexivity. exfalso. exact (plain_root s dst HP t1 E0).
    + assert (HPq : plain s (x :: q)) by (split; [discriminate | intros a b E Hb; apply (proj1 (C a b E) Hb)]).
      assert (lstat s (x :: q) = ent s (x :: q)) as -> by (unfold InsModel.lstat; rewrite (lpath_plain goto max s (x :: q) HPq); reflexivity).
      destruct (ent s (x :: q)) as [[c m | t1 | m] |] eqn:E0; try reflexivity. exfalso. exact (proj2 (C (x :: q) [] (eq_sym (app_nil_r _))) t1 E0).
  - intros Hn depth. cbn [copy_func]. rewrite El, Hn. reflexivity.
Qed.

(* C73e: Copy of a list of files into a directory, which is made if there is none. *)
Lemma copy_list_spec : forall s0 dest, dest <> [] -> forall l s, Inv s0 dest s -> plain s dest -> (exists m, ent s dest = Some (Dir_ m)) -> NoDup (map basename l) ->
  (forall f, In f l -> apart goto max s0 f dest /\ (exists c m, stat s0 f = Some (File_ c m)) /\ (ent s (dest ++ [basename f]) = None \/ exists c m, ent s (dest ++ [basename f]) = Some (File_ c m))) ->
  exists s', copy_list goto max new_mode l dest s = (true, s') /\ (forall f, In f l -> ent s' (dest ++ [basename f]) = stat s0 f) /\
    (forall p, (forall f, In f l -> p <> dest ++ [basename f]) -> ent s' p = ent s p).
Proof.
  intros s0 dest HN l. induction l as [| f l IH]; intros s HI HP HD ND HF.
  - exists s. split; [reflexivity |]. split; [intros f [] | reflexivity].
  - cbn [copy_list]. destruct (HF f (or_introl eq_refl)) as [HA [[c [m Es]] HE]]. destruct HD as [md Ed].
    assert (HPc : plain s (dest ++ [basename f])) by (apply plain_child; [exact HP | exists md; exact Ed]).
    assert (HUc : under dest (dest ++ [basename f]) = true) by apply under_app.
    assert (NLc : forall t, ent s (dest ++ [basename f]) <> Some (Link_ t)) by (intros t; destruct HE as [-> | [c1 [m1 ->]]]; discriminate).
    assert (NDir : isdir goto max s (dest ++ [basename f]) = false).
    { unfold isdir. rewrite (stat_plain goto max s _ HPc NLc). destruct HE as [-> | [c1 [m1 ->]]]; reflexivity. }
    assert (Dd : isdir goto max s dest = true).
    { unfold isdir. rewrite (stat_plain goto max s dest HP) by (intros t; rewrite Ed; discriminate). rewrite Ed. reflexivity. }
    destruct (copy2_total goto max new_mode s0 dest s f (dest ++ [basename f]) c m HI HA HUc HPc HE Es) as [s1 E].
    assert (E' : copy2 goto max new_mode s f dest = (true, s1)).
    { unfold copy2 in E |- *. rewrite NDir in E. rewrite Dd. exact E. }
    rewrite E'. unfold copy2 in E. rewrite NDir in E.
    destruct (copyfile_stat goto max new_mode s0 dest s f (dest ++ [basename f]) true s1 HI HA HUc HPc NLc E) as [W B].
    destruct (B eq_refl) as [c2 [m2 [E1 [E2 E3]]]]. rewrite Es in E1. injection E1 as <- <-.
    assert (Wd : within dest dest s s1) by (apply (within_up dest dest (dest ++ [basename f])); [apply under_app | exact W]).
    assert (Hdd : dest <> dest ++ [basename f]) by (intros Z; rewrite <- (app_nil_r dest) in Z at 1; apply app_inv_head in Z; discriminate Z).
    inversion ND as [| ? ? Hn ND']; subst.
    destruct (IH s1 (within_Inv s0 dest dest s s1 HI (under_refl dest) Wd) (within_plain dest dest s s1 HP Wd)) as [s' [A [C D]]].
    + exists md. rewrite E3 by exact Hdd. exact Ed.
    + exact ND'.
    + intros g Hg. destruct (HF g (or_intror Hg)) as [X [Y Z]]. split; [exact X |]. split; [exact Y |]. rewrite E3; [exact Z |].
      intros Q. apply app_inv_head in Q. injection Q as Q. apply Hn. rewrite <- Q. apply in_map. exact Hg.
    + exists s'. split; [exact A |]. split.
      * intros g [<- | Hg]; [| exact (C g Hg)]. rewrite D; [rewrite E2; symmetry; exact Es |].
        intros g Hg Q. apply app_inv_head in Q. injection Q as Q. apply Hn. rewrite Q. apply in_map. exact Hg.
      * intros p Hp. rewrite (D p (fun g Hg => Hp g (or_intror Hg))). apply E3. apply Hp. left. reflexivity.
Qed.
Theorem C73e_list : forall s dest l, plain s dest -> (ent s dest = None \/ exists m, ent s dest = Some (Dir_ m)) -> NoDup (map basename l) ->
  (forall f, In f l -> apart goto max s f dest /\ (exists c m, stat s f = Some (File_ c m)) /\ (ent s (dest ++ [basename f]) = None \/ exists c m, ent s (dest ++ [basename f]) = Some (File_ c m))) ->
  forall depth symlinks, exists s', copy_func goto max new_mode depth s dest (Many l) symlinks = Some (true, s') /\
    (exists m, ent s' dest = Some (Dir_ m)) /\ (forall f, In f l -> ent s' (dest ++ [basename f]) = stat s f) /\
    (forall p, p <> dest -> (forall f, In f l -> p <> dest ++ [basename f]) -> ent s' p = ent s p).
Proof.
  intros s dest l HP HD ND HF depth symlinks. assert (HN : dest <> []) by exact (proj1 HP). cbn [copy_func].
  assert (Hdd : forall n, dest ++ [n] <> dest) by (intros n Z; rewrite <- (app_nil_r dest) in Z at 2; apply app_inv_head in Z; discriminate Z).
  assert (M : exists s1, makedirs goto max new_mode true s dest = Some s1 /\ within dest dest s s1 /\ (exists m, ent s1 dest = Some (Dir_ m)) /\ forall p, p <> dest -> ent s1 p = ent s p).
  { unfold makedirs, mkdir. rewrite (lpath_plain goto max s dest HP). destruct HD as [Z | [m1 Z]]; rewrite Z.
    - eexists. split; [reflexivity |]. split; [apply within_create; apply under_refl |]. split; [exists new_mode; rewrite ent_create, path_eqb_refl; reflexivity |].
      intros p N. rewrite ent_create, path_eqb_neq by exact N. reflexivity.
    - unfold isdir. rewrite (stat_plain goto max s dest HP) by (intros t; rewrite Z; discriminate). rewrite Z. cbn [andb]. exists s. split; [reflexivity |]. split; [apply within_refl |].
      split; [exists m1; exact Z | reflexivity]. }
  destruct M as [s1 [-> [W [HD1 HO]]]].
  destruct (copy_list_spec s dest HN l s1 (within_Inv s dest dest s s1 (Inv_self s dest) (under_refl dest) W) (within_plain dest dest s s1 HP W) HD1 ND) as [s' [A [B C]]].
  - intros f Hf. destruct (HF f Hf) as [X [Y Z]]. split; [exact X |]. split; [exact Y |]. rewrite HO by apply Hdd. exact Z.
  - exists s'. rewrite A. split; [reflexivity |]. split; [| split; [exact B |]].
    + rewrite C; [exact HD1 |]. intros f _ Z. symmetry in Z. exact (Hdd _ Z).
    + intros p Np Hp. rewrite (C p Hp). apply HO. exact Np.
Qed.
End Top.

Print Assumptions C73a_copy_directory.
Print Assumptions C73b_install_directory.
Print Assumptions C73c_file.
Print Assumptions C73d_link.
Print Assumptions C73e_list.
