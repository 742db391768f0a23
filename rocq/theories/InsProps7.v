(* C73: when a source is apart from a destination, cases, and what copying does not do. *)
From Coq Require Import List Bool Arith Lia.
Import ListNotations.
From Verif Require Import InsModel InsSpec InsProps InsProps5 InsProps6.
Open Scope list_scope.

(* a source and a destination of which neither is in the other are apart if the links in the source stay in it *)
Theorem C73i_apart : forall goto max s src dst, under src dst = false -> under dst src = false ->
  (forall a b, src = a ++ b -> forall t, ent s a <> Some (Link_ t)) ->
  (forall d n t, under src d = true -> ent s (d ++ [n]) = Some (Link_ t) -> under src (goto d t) = true) -> apart goto max s src dst.
Proof.
  intros goto max s src dst H1 H2 HN HL.
  assert (C : forall x y, under src (x ++ y) = true -> under dst x = false).
  { intros x y U. destruct (under dst x) eqn:E; [| reflexivity]. exfalso. apply under_iff in U. destruct U as [r U]. apply under_iff in E. destruct E as [q ->].
    clear - U H1 H2. rewrite <- app_assoc in U. remember (q ++ y) as z. clear Heqz. revert dst H1 H2 U. induction src as [| a src' IH]; intros dst H1 H2 U; [discriminate H1 |].
    destruct dst as [| b dst]; [discriminate H2 |]. cbn [app] in U. injection U as -> U. cbn [under] in H1, H2. rewrite Nat.eqb_refl in H1, H2. exact (IH dst H1 H2 U). }
  assert (G : forall l cur todo, under src (cur ++ todo) = true -> forall p, In p (trail goto s l cur todo) -> under dst p = false).
  { induction l as [| l IHl]; intros cur todo; revert cur; induction todo as [| n todo IHt]; intros cur HU p Hp.
    - rewrite trail_nil in Hp; destruct Hp as [<- | []]; exact (C cur [] HU).
    - assert (HU2 : under src ((cur ++ [n]) ++ todo) = true) by (rewrite <- app_assoc; exact HU).
      rewrite trail_cons in Hp; destruct Hp as [<- | Hp]; [exact (C cur (n :: todo) HU) |].
      destruct (ent s cur) as [[c m | t | m] |] eqn:Ec; try (destruct Hp; fail).
      destruct Hp as [<- | Hp]; [exact (C (cur ++ [n]) todo HU2) |].
      destruct (ent s (cur ++ [n])) as [[c2 m2 | t | m2] |] eqn:En; try exact (IHt (cur ++ [n]) HU2 p Hp). destruct Hp.
    - rewrite trail_nil in Hp; destruct Hp as [<- | []]; exact (C cur [] HU).
    - assert (HU2 : under src ((cur ++ [n]) ++ todo) = true) by (rewrite <- app_assoc; exact HU).
      rewrite trail_cons in Hp; destruct Hp as [<- | Hp]; [exact (C cur (n :: todo) HU) |].
      destruct (ent s cur) as [[c m | t | m] |] eqn:Ec; try (destruct Hp; fail).
      destruct Hp as [<- | Hp]; [exact (C (cur ++ [n]) todo HU2) |].
      destruct (ent s (cur ++ [n])) as [[c2 m2 | t | m2] |] eqn:En; try exact (IHt (cur ++ [n]) HU2 p Hp).
    apply (IHl [] (goto cur t ++ todo)); [| exact Hp]. cbn [app].
    assert (Uc : under src cur = true).
    { destruct (under src cur) eqn:X; [reflexivity |]. exfalso. apply under_iff in HU2. destruct HU2 as [r E].
      assert (P : exists b, src = (cur ++ [n]) ++ b).
      { clear - E X. revert src X E. induction cur as [| a cur IH]; intros src X E; cbn [app] in *.
        - destruct src as [| b src]; [discriminate X |]. cbn [app] in E. injection E as -> E. exists src. reflexivity.
        - destruct src as [| b src]; [discriminate X |]. cbn [app] in E. injection E as -> E. cbn [under] in X. rewrite Nat.eqb_refl in X. destruct (IH src X E) as [q ->]. exists q. reflexivity. }
      destruct P as [b P]. exact (HN (cur ++ [n]) b P t En). }
    apply (under_trans src (goto cur t)); [exact (HL cur n t Uc En) | apply under_app]. }
  intros r p Hp. apply (G max [] (src ++ r)); [cbn [app]; apply under_app | exact Hp].
Qed.

(* a source without links is just what is there *)
Lemma view_plain : forall goto max s keep r p, closed s -> plain s p -> (forall q t, ent s (p ++ q) <> Some (Link_ t)) -> view goto max s keep p r = ent s (p ++ r).
Proof.
  intros goto max s keep r. induction r as [| n r IH]; intros p HC HP HL;
    assert (L0 : forall t, ent s p <> Some (Link_ t)) by (intros t; assert (Q := HL [] t); rewrite app_nil_r in Q; exact Q);
    assert (E : look goto max s keep p = ent s p) by (unfold look, lstat; destruct keep; [rewrite (lpath_plain goto max s p HP); reflexivity | exact (stat_plain goto max s p HP L0)]);
    cbn [view]; rewrite E.
  - rewrite app_nil_r. reflexivity.
  - destruct (ent s p) as [[c m | t | m] |] eqn:Ep; try (symmetry; apply (closed_none s HC); [intros m0; congruence | discriminate]).
    rewrite IH; [rewrite <- app_assoc; reflexivity | exact HC | apply plain_child; [exact HP | exists m; exact Ep] |]. intros q t. rewrite <- app_assoc. apply HL.
Qed.
Theorem C73j_no_links : forall goto max s keep src, closed s -> plain s src -> (forall r t, ent s (src ++ r) <> Some (Link_ t)) -> forall r, tree goto max s keep src r = ent s (src ++ r).
Proof.
  intros goto max s keep src HC HP HL r. assert (L0 : forall t, ent s src <> Some (Link_ t)) by (intros t; assert (Q := HL [] t); rewrite app_nil_r in Q; exact Q).
  destruct r as [| n r]; cbn [tree]; rewrite (stat_plain goto max s src HP L0); [rewrite app_nil_r; reflexivity |].
  destruct (ent s src) as [[c m | t | m] |] eqn:Ep; try (symmetry; apply (closed_none s HC); [intros m0; congruence | discriminate]).
  rewrite view_plain; [rewrite <- app_assoc; reflexivity | exact HC | apply plain_child; [exact HP | exists m; exact Ep] |]. intros q t. rewrite <- app_assoc. apply HL.
Qed.

(* ---- file systems from tables ---- *)
Fixpoint find_ (l : list (path * entry)) (p : path) : option entry := match l with [] => None | (q, e) :: r => if path_eqb p q then Some e else find_ r p end.
Definition of_list (l : list (path * entry)) : fs :=
  {| ent := find_ l; names := fun d => nodup Nat.eq_dec (map (fun x => basename (fst x)) (filter (fun x => negb (path_eqb (fst x) []) && path_eqb (dirname (fst x)) d) l)) |}.
Lemma find_in : forall l p e, find_ l p = Some e -> In (p, e) l.
Proof.
  induction l as [| [q x] l IH]; intros p e H; cbn [find_] in H; [discriminate H |]. destruct (path_eqb p q) eqn:E; [| right; exact (IH p e H)].
  apply path_eqb_eq in E. injection H as <-. left. congruence.
Qed.
Lemma listed_of : forall l, listed (of_list l).
Proof.
  intros l. split; [| intros d; apply NoDup_nodup]. intros d n H. cbn [of_list ent names] in *. apply nodup_In. destruct (find_ l (d ++ [n])) as [e |] eqn:E; [| congruence].
  apply find_in in E. apply in_map_iff. exists (d ++ [n], e). cbn [fst]. split; [apply basename_app |]. apply filter_In. split; [exact E |]. cbn [fst]. rewrite dirname_app, path_eqb_refl, andb_true_r.
  rewrite path_eqb_neq; [reflexivity |]. intros Z. apply app_eq_nil in Z. destruct Z. discriminate.
Qed.
Definition is_dir (o : option entry) : bool := match o with Some (Dir_ _) => true | _ => false end.
Lemma is_dir_ex : forall o, is_dir o = true -> exists m, o = Some (Dir_ m).
Proof. intros [[c m | t | m] |] H; try discriminate H. exists m. reflexivity. Qed.
Lemma closed_of : forall l, forallb (fun x => path_eqb (fst x) [] || is_dir (find_ l (dirname (fst x)))) l = true -> closed (of_list l).
Proof.
  intros l H d n Hn. cbn [of_list ent] in *. destruct (find_ l (d ++ [n])) as [e |] eqn:E; [| congruence]. apply find_in in E. rewrite forallb_forall in H. specialize (H _ E). cbn [fst] in H.
  rewrite dirname_app, path_eqb_neq in H by (intros Z; apply app_eq_nil in Z; destruct Z; discriminate). apply is_dir_ex. exact H.
Qed.
Fixpoint plainb (s : fs) (cur p : path) : bool := match p with [] => true | n :: r => is_dir (ent s cur) && plainb s (cur ++ [n]) r end.
Lemma plain_of : forall s p, p <> [] -> plainb s [] p = true -> plain s p.
Proof.
  intros s p HN H. split; [exact HN |]. assert (G : forall r cur, plainb s cur r = true -> forall a b, r = a ++ b -> b <> [] -> exists m, ent s (cur ++ a) = Some (Dir_ m)).
  { induction r as [| n r IH]; intros cur HP a b E Hb; [symmetry in E; apply app_eq_nil in E; destruct E; congruence |]. cbn [plainb] in HP. apply andb_true_iff in HP. destruct HP as [P1 P2].
    destruct a as [| x a]; [rewrite app_nil_r; apply is_dir_ex; exact P1 |]. cbn [app] in E. injection E as <- E. specialize (IH (cur ++ [n]) P2 a b E Hb). rewrite <- app_assoc in IH. exact IH. }
  exact (G p [] H).
Qed.

(* ---- cases: names 1 src, 2 dst, 3 a file, 4 a directory, 5 a file in it, 6 a link; a link text below 100 is a name in the directory of the link, others are names in the root ---- *)
Definition goto1 (d : path) (t : nat) : path := if t <? 100 then d ++ [t] else [t - 100].
Definition W (m : nat) : nat := if m <? 200 then m + 200 else m.
Definition base1 : list (path * entry) := [([], Dir_ 755); ([1], Dir_ 700); ([1; 3], File_ 33 444); ([1; 4], Dir_ 755); ([1; 4; 5], File_ 55 100)].
Definition s1 : fs := of_list base1.
Definition s2 : fs := of_list (base1 ++ [([1; 4; 6], Link_ 5); ([1; 7], Link_ 4)]).
Notation run := (copy_func goto1 40 755).
Notation install := (copyFunc goto1 40 755 W).
Definition show (ps : list path) (o : option (bool * fs)) := match o with Some (ok, s) => Some (ok, map (ent s) ps) | None => None end.

Lemma s1_table : forall p e, ent s1 p = Some e -> In (p, e) base1.
Proof. intros p e H. apply find_in. exact H. Qed.
Lemma s1_no_links : forall p t, ent s1 p <> Some (Link_ t).
Proof. intros p t H. apply s1_table in H. cbn [base1 In] in H. repeat (destruct H as [H | H]; [discriminate H |]). exact H. Qed.
Lemma none_below : forall l p, forallb (fun x => negb (under p (fst x))) l = true -> forall r, ent (of_list l) (p ++ r) = None.
Proof.
  intros l p H r. cbn [of_list ent]. destruct (find_ l (p ++ r)) as [e |] eqn:E; [| reflexivity]. apply find_in in E. rewrite forallb_forall in H. specialize (H _ E). cbn [fst] in H.
  rewrite under_app in H. discriminate H.
Qed.

Theorem C73_case :
  (* all hypotheses of C73a, for a tree without links *)
  (listed s1 /\ closed s1 /\ plain s1 [2] /\ (forall r, ent s1 ([2] ++ r) = None) /\ apart goto1 40 s1 [1] [2] /\ no_links_below s1 [2] /\
   (exists m, stat goto1 40 s1 [1] = Some (Dir_ m)) /\ (forall t, lstat goto1 40 s1 [1] <> Some (Link_ t)) /\
   (forall keep, depth_at_most goto1 40 s1 keep [1] 2) /\ (forall keep, solid goto1 40 s1 keep [1]) /\ (forall keep, fits goto1 40 s1 keep true [1] [2])) /\
  (* and for one with links, which are kept or followed *)
  (listed s2 /\ plain s2 [2] /\ (forall r, ent s2 ([2] ++ r) = None) /\ apart goto1 40 s2 [1] [2]) /\
  show [[2]; [2; 3]; [2; 4; 5]; [2; 4; 6]; [2; 7]; [2; 7; 6]; [2; 8]] (run 5 s2 [2] (One [1]) true) =
    Some (true, [Some (Dir_ 700); Some (File_ 33 444); Some (File_ 55 100); Some (Link_ 5); Some (Link_ 4); None; None]) /\
  show [[2]; [2; 3]; [2; 4; 5]; [2; 4; 6]; [2; 7]; [2; 7; 6]; [2; 8]] (run 5 s2 [2] (One [1]) false) =
    Some (true, [Some (Dir_ 700); Some (File_ 33 444); Some (File_ 55 100); Some (File_ 55 100); Some (Dir_ 755); Some (File_ 55 100); None]) /\
  show [[2]; [2; 3]; [2; 4; 5]] (install 5 s1 [2] [1]) = Some (true, [Some (Dir_ 700); Some (File_ 33 444); Some (File_ 55 100)]) /\
  show [[2]; [1; 4; 5]] (install 5 s1 [2] [1; 4; 5]) = Some (true, [Some (File_ 55 300); Some (File_ 55 100)]) /\
  show [[2]; [2; 3]; [2; 5]] (run 5 s1 [2] (Many [[1; 3]; [1; 4; 5]]) true) = Some (true, [Some (Dir_ 755); Some (File_ 33 444); Some (File_ 55 100)]) /\
  show [[1]; [1; 7]; [1; 4]; [1; 4; 5]] (Some (delete_func goto1 40 [[1; 7]; [9]] false s2)) = Some (true, [Some (Dir_ 700); None; Some (Dir_ 755); Some (File_ 55 100)]) /\
  show [[1]; [1; 3]; [1; 4]; [1; 4; 5]] (Some (delete_func goto1 40 [[1; 4]; [1; 4; 5]] false s1)) = Some (true, [Some (Dir_ 700); Some (File_ 33 444); None; None]).
Proof.
  assert (C1 : closed s1) by (apply closed_of; vm_compute; reflexivity).
  assert (P1 : plain s1 [1]) by (apply plain_of; [discriminate | vm_compute; reflexivity]).
  assert (T : forall keep r, tree goto1 40 s1 keep [1] r = ent s1 ([1] ++ r)) by (intros keep r; apply C73j_no_links; [exact C1 | exact P1 | intros q t; apply s1_no_links]).
  split; [| split; [| split; [vm_compute; reflexivity |]]].
  - split; [apply listed_of |]. split; [exact C1 |]. split; [apply plain_of; [discriminate | vm_compute; reflexivity] |]. split; [apply none_below; vm_compute; reflexivity |].
    split; [apply C73i_apart; [reflexivity | reflexivity | intros a b _ t; apply s1_no_links | intros d n t _ E; exfalso; exact (s1_no_links _ _ E)] |].
    split; [intros r t; apply s1_no_links |]. split; [exists 700; vm_compute; reflexivity |]. split; [intros t; vm_compute; discriminate |]. split; [| split].
    + intros keep r Hr. rewrite T in Hr. destruct (ent s1 ([1] ++ r)) as [e |] eqn:E; [| congruence]. apply s1_table in E. cbn [base1 In app] in E.
      repeat (destruct E as [E | E]; [apply (f_equal (fun x => length (fst x))) in E; cbn [fst length] in E; lia |]). destruct E.
    + intros keep r n l HL Hn. assert (LR : exists m, ent s1 ([1] ++ r) = Some (Dir_ m) /\ In n (names s1 ([1] ++ r)) /\ plain s1 (([1] ++ r) ++ [n])).
      { unfold listdir in HL. assert (HT := T false r). destruct r as [| x r].
        - vm_compute in HL. injection HL as <-. exists 700. split; [vm_compute; reflexivity |]. split; [exact Hn |]. apply plain_child; [exact P1 | exists 700; vm_compute; reflexivity].
        - assert (HTs : stat goto1 40 s1 ([1] ++ x :: r) = ent s1 ([1] ++ x :: r)).
          { assert (Q := T false (x :: r)). clear - Q C1 P1.
            assert (G : forall z p, plain s1 p -> stat goto1 40 s1 (p ++ z) <> None -> plain s1 (p ++ z)).
            { induction z as [| y z IH]; intros p HP HS; [rewrite app_nil_r; exact HP |]. replace (p ++ y :: z) with ((p ++ [y]) ++ z) in * by (rewrite <- app_assoc; reflexivity). apply IH; [| exact HS].
              apply plain_child; [exact HP |]. unfold stat, real in HS. rewrite !walk_app in HS. rewrite (walk_plain goto1 40 s1 p []) in HS; [| exact (proj2 HP) | intros t; apply s1_no_links].
              rewrite walk_cons in HS. cbn [app] in HS. destruct (ent s1 p) as [[c m | t | m] |] eqn:Ep; try congruence. exists m. reflexivity. }
            destruct (stat goto1 40 s1 ([1] ++ x :: r)) as [e |] eqn:Es.
            - rewrite <- Es. apply stat_plain; [apply G; [exact P1 | rewrite Es; discriminate] | intros t; apply s1_no_links].
            - destruct (ent s1 ([1] ++ x :: r)) as [e |] eqn:Ee; [| reflexivity]. exfalso.
              assert (HP : plain s1 ([1] ++ x :: r)).
              { split; [discriminate |]. intros a b E Hb. destruct (ent s1 a) as [[c m | t | m] |] eqn:Ea; try (exists m; reflexivity); exfalso;
                  rewrite E, (closed_none s1 C1 b a) in Ee by (try exact Hb; intros m0; congruence); discriminate Ee. }
              rewrite (stat_plain goto1 40 s1 _ HP) in Es by (intros t; apply s1_no_links). congruence. }
          unfold stat in HTs. destruct (real goto1 40 s1 ([1] ++ x :: r)) as [q |] eqn:Er; [| discriminate HL].
          destruct (ent s1 q) as [[c m | t | m] |] eqn:Eq; try discriminate HL. injection HL as <-.
          assert (HP : plain s1 ([1] ++ x :: r)).
          { split; [discriminate |]. intros a b E Hb. destruct (ent s1 a) as [[c0 m0 | t0 | m0] |] eqn:Ea; try (exists m0; reflexivity); exfalso;
              rewrite E, (closed_none s1 C1 b a) in HTs by (try exact Hb; intros m1; congruence); discriminate HTs. }
          rewrite (real_plain goto1 40 s1 _ HP) in Er by (intros t; apply s1_no_links). injection Er as <-.
          exists m. split; [exact Eq |]. split; [exact Hn |]. apply plain_child; [exact HP | exists m; exact Eq]. }
      destruct LR as [m [Ed [Hin HPc]]].
      assert (L : look goto1 40 s1 keep (([1] ++ r) ++ [n]) = ent s1 (([1] ++ r) ++ [n])).
      { unfold look, lstat. destruct keep; [rewrite (lpath_plain goto1 40 s1 _ HPc); reflexivity | apply stat_plain; [exact HPc | intros t; apply s1_no_links]]. }
      rewrite L. cbn [s1 of_list names] in Hin. apply nodup_In, in_map_iff in Hin. destruct Hin as [[p e] [Hb Hf]]. apply filter_In in Hf. destruct Hf as [Hi Hd]. cbn [fst] in *.
      apply andb_true_iff in Hd. destruct Hd as [Hd1 Hd2]. apply path_eqb_eq in Hd2.
      assert (p = ([1] ++ r) ++ [n]) as <-.
      { rewrite <- Hd2, <- Hb. apply split_last. intros ->. discriminate Hd1. }
      cbn [base1 In] in Hi. repeat (destruct Hi as [Hi | Hi]; [injection Hi as <- <-; vm_compute; discriminate |]). destruct Hi.
    + intros keep r. rewrite (none_below base1 [2] eq_refl r : ent s1 ([2] ++ r) = None). destruct (tree goto1 40 s1 keep [1] r) as [[c m | t | m] |]; [intros m0; discriminate | reflexivity | left; reflexivity | exact Logic.I].
  - split; [apply listed_of |]. split; [apply plain_of; [discriminate | vm_compute; reflexivity] |]. split; [apply none_below; vm_compute; reflexivity |].
    apply C73i_apart; [reflexivity | reflexivity | |].
    + intros a b E t H. apply find_in in H. cbn [base1 app In] in H. repeat (destruct H as [H | H]; [try discriminate H; injection H as <- _; discriminate E |]). destruct H.
    + intros d n t HU H. apply find_in in H. cbn [base1 app In] in H.
      repeat (destruct H as [H | H]; [try discriminate H; injection H as H <-; match type of H with ?l = _ => assert (d = removelast l) as -> by (rewrite H; symmetry; apply removelast_last) end; reflexivity |]). destruct H.
  - split; [vm_compute; reflexivity |]. split; [vm_compute; reflexivity |]. split; [vm_compute; reflexivity |]. split; [vm_compute; reflexivity |]. split; vm_compute; reflexivity.
Qed.

Print Assumptions C73i_apart.
Print Assumptions C73j_no_links.
Print Assumptions C73_case.
