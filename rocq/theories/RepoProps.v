(* C39: a file that is not there locally is taken from the first repository that has it. *)
From Coq Require Import List Arith Bool Lia.
From Verif Require Import RepoModel.
Import ListNotations.

(* ---- specification ---- *)
(* Repositories have been declared for the top directory only (that is what Repository() does), in the order reps; no VariantDirs. *)
Definition only_top (w : fs) (top : dir) (reps : list dir) : Prop :=
  repositories w top = reps /\ (forall d, d <> top -> repositories w d = []) /\ forall d, srcdir w d = None.
(* the places where a file of directory d may be: d itself and, if d is in or below top, the same path in the repositories, in order *)
Inductive places (top : dir) (reps : list dir) : dir -> list dir -> Prop :=
| places_in rel : places top reps (rel ++ top) ((rel ++ top) :: map (fun r => rel ++ r) reps)
| places_out d : (forall rel, d <> rel ++ top) -> places top reps d [d].
Definition there (w : fs) (n : name) (r : dir) : bool := match disk w r n with Some KFile => true | _ => false end.

(* ---- proofs ---- *)
Lemma dir_eqb_eq a : forall b, dir_eqb a b = true <-> a = b.
Proof.
  induction a as [|x a IH]; intros [|y b]; cbn [dir_eqb]; split; intro H; try reflexivity; try discriminate.
  - apply andb_true_iff in H. destruct H as [H1 H2]. apply Nat.eqb_eq in H1. apply IH in H2. congruence.
  - injection H as -> ->. rewrite Nat.eqb_refl. apply IH. reflexivity.
Qed.
Definition reps_of (w : fs) (ar : dir * list nat) : list dir := map (fun rep => below rep (snd ar)) (repositories w (fst ar)).
Lemma rdirs_plain w fuel d : (forall d, srcdir w d = None) -> get_all_rdirs (S fuel) w d = Some (d :: flat_map (reps_of w) (ups d [])).
Proof.
  intro NS. cbn [get_all_rdirs].
  match goal with |- match ?go (ups d []) with _ => _ end = _ => assert (G : forall l, go l = Some (flat_map (reps_of w) l)) end.
  { induction l as [|[a rel] r IH]; [reflexivity|]. rewrite NS. cbn [flat_map]. rewrite IH. reflexivity. }
  rewrite G. reflexivity.
Qed.
Lemma ups_short w top : (forall d, d <> top -> repositories w d = []) -> forall d acc, length d < length top -> flat_map (reps_of w) (ups d acc) = [].
Proof.
  intro NT. induction d as [|x d IH]; intros acc L; cbn [ups flat_map].
  - unfold reps_of at 1. cbn [fst]. rewrite NT by (intros <-; cbn in L; lia). reflexivity.
  - unfold reps_of at 1. cbn [fst]. rewrite NT by (intros <-; lia). cbn [map app]. apply IH. cbn in L. lia.
Qed.
Lemma ups_top w top : (forall d, d <> top -> repositories w d = []) -> forall rel acc,
  flat_map (reps_of w) (ups (rel ++ top) acc) = map (fun r => (acc ++ rel) ++ r) (repositories w top).
Proof.
  intro NT. induction rel as [|x rel IH]; intro acc; cbn [app].
  - rewrite app_nil_r. destruct top as [|y p].
    + cbn [ups flat_map]. rewrite app_nil_r. reflexivity.
    + cbn [ups flat_map]. rewrite (ups_short w (y :: p) NT) by (cbn; lia). rewrite app_nil_r. reflexivity.
  - cbn [ups flat_map]. unfold reps_of at 1. cbn [fst]. rewrite NT.
    + cbn [map app]. rewrite IH. rewrite <- app_assoc. reflexivity.
    + intro E. apply (f_equal (@length nat)) in E. cbn in E. rewrite app_length in E. lia.
Qed.
Lemma ups_out w top : (forall d, d <> top -> repositories w d = []) -> forall d acc, (forall rel, d <> rel ++ top) -> flat_map (reps_of w) (ups d acc) = [].
Proof.
  intro NT. induction d as [|x d IH]; intros acc HN; cbn [ups flat_map]; unfold reps_of at 1; cbn [fst]; rewrite NT by (intros <-; exact (HN [] eq_refl)).
  - reflexivity.
  - cbn [map app]. apply IH. intros rel ->. exact (HN (x :: rel) eq_refl).
Qed.
Lemma rdirs_places w top reps fuel d l : only_top w top reps -> places top reps d l -> get_all_rdirs (S fuel) w d = Some l.
Proof.
  intros [H1 [H2 H3]] P. rewrite rdirs_plain by exact H3. f_equal. destruct P as [rel|d HN].
  - rewrite (ups_top w top H2 rel []). rewrite H1. reflexivity.
  - rewrite (ups_out w top H2 d [] HN). reflexivity.
Qed.
Lemma places_total top reps d : exists l, places top reps d l.
Proof.
  assert (D : (exists rel, d = rel ++ top) \/ forall rel, d <> rel ++ top).
  { induction d as [|x d IH].
    - destruct top as [|y p]; [left; exists []; reflexivity | right; intros [|z rel]; discriminate].
    - destruct (dir_eqb (x :: d) top) eqn:E; [apply dir_eqb_eq in E; left; exists []; exact E|].
      destruct IH as [[rel ->]|N]; [left; exists (x :: rel); reflexivity|].
      right. intros [|z rel] EQ.
      + cbn in EQ. rewrite EQ in E. rewrite (proj2 (dir_eqb_eq top top) eq_refl) in E. discriminate.
      + injection EQ as -> ->. exact (N rel eq_refl). }
  destruct D as [[rel ->]|N]; eexists; constructor. exact N.
Qed.
Lemma fod_plain w d n : (forall d, srcdir w d = None) -> disk w d n <> Some KDir ->
  file_on_disk w d n = if there w n d then Some d else None.
Proof.
  intros NS ND. unfold file_on_disk, there. destruct (disk w d n) as [[|]|]; [reflexivity | contradiction|].
  assert (E : srcdir_list w d = []).
  { unfold srcdir_list. generalize (ups d []). induction l as [|[a r] l IH]; [reflexivity|]. cbn [flat_map fst]. rewrite NS. exact IH. }
  rewrite E. reflexivity.
Qed.
Lemma repo_node_plain w r n : (forall d, srcdir w d = None) -> disk w r n <> Some KDir ->
  (forall nd, entries w r n = Some nd -> n_kind nd <> NDir) ->
  repo_node w r n = if there w n r then Some (r, false) else None.
Proof.
  intros NS ND NE. unfold repo_node. rewrite fod_plain by assumption. unfold there.
  destruct (entries w r n) as [nd|]; [|destruct (disk w r n) as [[|]|]; reflexivity].
  specialize (NE nd eq_refl). destruct (disk w r n) as [[|]|]; [|contradiction|reflexivity].
  destruct (n_kind nd); [reflexivity | reflexivity | contradiction].
Qed.
Lemma first_some_find {A B} (f : A -> option B) (h : A -> bool) (g : A -> B) : forall l,
  (forall a, In a l -> f a = if h a then Some (g a) else None) -> first_some f l = option_map g (find h l).
Proof.
  induction l as [|a l IH]; intro H; cbn [first_some find]; [reflexivity|]. rewrite (H a (or_introl eq_refl)).
  destruct (h a); [reflexivity|]. apply IH. intros b Hb. apply H. right. exact Hb.
Qed.
Lemma all_some_filter {A B} (f : A -> option B) (h : A -> bool) (g : A -> B) : forall l,
  (forall a, In a l -> f a = if h a then Some (g a) else None) -> all_some f l = map g (filter h l).
Proof.
  induction l as [|a l IH]; intro H; cbn [all_some filter]; [reflexivity|]. rewrite (H a (or_introl eq_refl)).
  rewrite IH by (intros b Hb; apply H; right; exact Hb). destruct (h a); reflexivity.
Qed.

(* the name is nowhere a directory, and nowhere looked up as one *)
Definition plain_name (w : fs) (n : name) (l : list dir) : Prop :=
  forall r, In r l -> disk w r n <> Some KDir /\ forall nd, entries w r n = Some nd -> n_kind nd <> NDir.

Theorem C39_first_repository : forall w top reps d l n fuel,
  only_top w top reps -> places top reps d l -> plain_name w n l ->
  (* the file itself if it is there, else the first repository that has it, else the file itself *)
  rfile (S fuel) w d n = Some (match find (there w n) l with Some r => r | None => d end, false)
  /\ (disk w d n <> None -> rfile (S fuel) w d n = Some (d, false))
  /\ find_repo_file (S fuel) w d n = Some (map (fun r => (r, false)) (filter (there w n) l)).
Proof.
  intros w top reps d l n fuel OT PL PN. pose proof OT as [_ [_ NS]].
  assert (RN : forall r, In r l -> repo_node w r n = if there w n r then Some (r, false) else None).
  { intros r HR. destruct (PN r HR) as [P1 P2]. apply repo_node_plain; assumption. }
  assert (DL : exists t, l = d :: t) by (destruct PL; eexists; reflexivity). destruct DL as [t DL].
  split; [|split].
  - unfold rfile. destruct (disk w d n) as [k|] eqn:E.
    + rewrite DL. cbn [find]. unfold there at 1. rewrite E. destruct k; [reflexivity|].
      destruct (PN d) as [P _]; [rewrite DL; left; reflexivity|]. contradiction.
    + rewrite (rdirs_places w top reps fuel d l OT PL). rewrite (first_some_find (B := found) _ _ (fun r => (r, false)) l RN).
      destruct (find (there w n) l); reflexivity.
  - intro E. unfold rfile. destruct (disk w d n); [reflexivity | contradiction].
  - unfold find_repo_file. rewrite (rdirs_places w top reps fuel d l OT PL). f_equal. apply all_some_filter. exact RN.
Qed.

(* Repository() keeps the order of declaration, drops the top directory itself and repetitions. *)
Theorem C39b_declaration_order : forall top rs,
  let reps := fold_left (fun reps r => add_repository top r reps) rs [] in
  NoDup reps /\ (forall r, In r reps <-> In r rs /\ r <> top) /\
  forall r1 r2 a b, reps = a ++ r1 :: b -> In r2 b -> exists u v, rs = u ++ r1 :: v /\ ~ In r2 u /\ In r2 v.
Proof.
  intros top rs0. cbv zeta.
  assert (G : forall rs reps0, NoDup reps0 -> (forall r, In r reps0 -> r <> top) ->
    exists e, fold_left (fun reps r => add_repository top r reps) rs reps0 = reps0 ++ e
    /\ NoDup (reps0 ++ e) /\ (forall r, In r (reps0 ++ e) <-> In r reps0 \/ (In r rs /\ r <> top))
    /\ (forall r1 r2 a b, e = a ++ r1 :: b -> In r2 b -> exists u v, rs = u ++ r1 :: v /\ ~ In r2 u /\ In r2 v)).
  { induction rs as [|r rs IH]; intros reps0 ND NT; cbn [fold_left].
    - exists []. rewrite app_nil_r. repeat split; [exact ND | tauto | intros [X|[[] _]]; exact X |]. intros r1 r2 a b E. destruct a; discriminate.
    - unfold add_repository at 2. destruct (dir_eqb r top || existsb (dir_eqb r) reps0) eqn:EB.
      + destruct (IH reps0 ND NT) as [e [F [N [C O]]]]. exists e. split; [exact F|]. split; [exact N|]. split.
        * intro x. rewrite C. cbn [In]. split; [tauto|]. intros [X|[[<-|X] Y]]; [left; exact X | | right; split; assumption].
          apply orb_true_iff in EB. destruct EB as [EB|EB]; [apply dir_eqb_eq in EB; contradiction|].
          apply existsb_exists in EB. destruct EB as [z [Z E]]. apply dir_eqb_eq in E. subst z. left. exact Z.
        * intros r1 r2 a b E I. destruct (O r1 r2 a b E I) as [u [v [E1 [E2 E3]]]].
          exists (r :: u), v. split; [rewrite E1; reflexivity|]. split; [|exact E3]. intros [<-|X]; [|exact (E2 X)].
          assert (I2 : In r e) by (rewrite E; apply in_or_app; right; right; exact I).
          assert (I3 : In r (reps0 ++ e)) by (apply in_or_app; right; exact I2).
          apply orb_true_iff in EB. destruct EB as [EB|EB].
          { apply dir_eqb_eq in EB. apply C in I3. destruct I3 as [I3|[_ I3]]; [exact (NT _ I3 EB) | exact (I3 EB)]. }
          { apply existsb_exists in EB. destruct EB as [z [Z EZ]]. apply dir_eqb_eq in EZ. subst z.
            apply in_split in I2. destruct I2 as [e1 [e2 ->]].
            rewrite app_assoc in N. apply NoDup_remove_2 in N. apply N. apply in_or_app. left. apply in_or_app. left. exact Z. }
      + apply orb_false_iff in EB. destruct EB as [E1 E2].
        assert (NR : ~ In r reps0).
        { intro X. assert (existsb (dir_eqb r) reps0 = true) by (apply existsb_exists; exists r; split; [exact X | apply dir_eqb_eq; reflexivity]). congruence. }
        assert (NTr : r <> top) by (intros ->; rewrite (proj2 (dir_eqb_eq top top) eq_refl) in E1; discriminate).
        assert (ND' : NoDup (reps0 ++ [r])).
        { apply NoDup_rev in ND. rewrite <- (rev_involutive (reps0 ++ [r])). apply NoDup_rev. rewrite rev_app_distr. cbn [rev app].
          constructor; [|exact ND]. rewrite <- in_rev. exact NR. }
        destruct (IH (reps0 ++ [r]) ND') as [e [F [N [C O]]]].
        { intros x X. apply in_app_or in X. destruct X as [X|[<-|[]]]; [exact (NT x X) | exact NTr]. }
        exists (r :: e). rewrite <- app_assoc in F, N. cbn [app] in F, N. split; [exact F|]. split; [exact N|]. split.
        * intro x. specialize (C x). rewrite <- app_assoc in C. cbn [app] in C. rewrite C, in_app_iff. cbn [In]. split; [|tauto].
          intros [[X|[<-|[]]]|X]; [left; exact X | right; split; [left; reflexivity | exact NTr] | tauto].
        * intros r1 r2 a b E I. destruct a as [|a0 a]; cbn [app] in E; injection E as <- E.
          { exists [], rs. split; [reflexivity|]. split; [intros []|].
            assert (X : In r2 (reps0 ++ r :: e)) by (apply in_or_app; right; right; rewrite E; exact I).
            assert (X' : In r2 ((reps0 ++ [r]) ++ e)) by (rewrite <- app_assoc; exact X).
            apply C in X'. destruct X' as [X'|[X' _]]; [|exact X'].
            exfalso. rewrite <- E in I. apply in_split in I. destruct I as [e1 [e2 ->]].
            change (reps0 ++ r :: e1 ++ r2 :: e2) with (reps0 ++ [r] ++ e1 ++ r2 :: e2) in N.
            rewrite !app_assoc in N. apply NoDup_remove_2 in N. apply N. apply in_or_app. left. apply in_or_app. left. exact X'. }
          { destruct (O r1 r2 a b E I) as [u [v [U1 [U2 U3]]]]. exists (r :: u), v. split; [rewrite U1; reflexivity|]. split; [|exact U3].
            intros [<-|X]; [|exact (U2 X)].
            assert (IE : In r e) by (rewrite E; apply in_or_app; right; right; exact I).
            apply NoDup_remove_2 in N. apply N. apply in_or_app. right. exact IE. } }
  destruct (G rs0 [] (NoDup_nil _)) as [e [F [N [C O]]]]; [intros r []|]. cbn [app] in *. rewrite F. split; [exact N|]. split; [|exact O].
  intro r. rewrite C. cbn [In]. tauto.
Qed.

(* ---- FindFile ---- *)
(* a file of this name is, or is going to be built, in r *)
Definition has (w : fs) (n : name) (r : dir) : bool :=
  there w n r || match entries w r n with Some nd => n_derived nd | None => false end.
Lemma src_node_plain w n r : (forall d, srcdir w d = None) -> disk w r n <> Some KDir ->
  (forall nd, entries w r n = Some nd -> n_kind nd <> NDir) -> src_node w n r = if has w n r then Some r else None.
Proof.
  intros NS ND NE. unfold src_node, has. rewrite fod_plain by assumption. destruct (entries w r n) as [nd|].
  - specialize (NE nd eq_refl). unfold there. destruct (n_kind nd); [| |contradiction];
      destruct (disk w r n) as [[|]|]; try contradiction; destruct (n_derived nd); reflexivity.
  - rewrite orb_false_r. reflexivity.
Qed.
Lemma find_app {A} (h : A -> bool) a b : find h (a ++ b) = match find h a with Some x => Some x | None => find h b end.
Proof. induction a as [|x a IH]; [reflexivity|]. cbn [app find]. destruct (h x); [reflexivity | exact IH]. Qed.
(* The file found on a search path is the first one along the path, the repositories of each directory before the next directory. *)
Theorem C39c_find_file : forall w top reps paths ls n fuel,
  only_top w top reps -> Forall2 (places top reps) paths ls -> plain_name w n (concat ls) ->
  find_in (S fuel) w n paths = Some (find (has w n) (concat ls)).
Proof.
  intros w top reps paths ls n fuel OT F. pose proof OT as [_ [_ NS]].
  induction F as [|d l paths ls P F IH]; intro PN; [reflexivity|]. cbn [find_in concat]. cbn [concat] in PN.
  unfold srcdir_find_file. rewrite (rdirs_places w top reps fuel d l OT P).
  assert (E : srcdir_list w d = []).
  { unfold srcdir_list. generalize (ups d []). induction l0 as [|[a r] l0 IHl]; [reflexivity|]. cbn [flat_map fst]. rewrite NS. exact IHl. }
  rewrite E. cbn [find_src]. rewrite find_app.
  rewrite (first_some_find (B := dir) _ (has w n) (fun r => r) l).
  - destruct (find (has w n) l) as [x|]; cbn [option_map]; [reflexivity|]. apply IH. intros r R. apply PN, in_or_app. right. exact R.
  - intros r R. destruct (PN r) as [P1 P2]; [apply in_or_app; left; exact R|]. apply src_node_plain; assumption.
Qed.
(* The memo of FindFile does not change results, as long as the files and nodes do not change. *)
Lemma paths_eqb_eq a : forall b, paths_eqb a b = true <-> a = b.
Proof.
  induction a as [|x a IH]; intros [|y b]; cbn [paths_eqb]; split; intro H; try reflexivity; try discriminate.
  - apply andb_true_iff in H. destruct H as [H1 H2]. apply dir_eqb_eq in H1. apply IH in H2. congruence.
  - injection H as -> ->. rewrite (proj2 (dir_eqb_eq y y) eq_refl). apply IH. reflexivity.
Qed.
Theorem C39d_find_file_memo : forall fuel w queries n paths,
  let step m q := match m with None => None | Some m => option_map snd (find_file fuel w (fst q) (snd q) m) end in
  match fold_left step queries (Some []) with
  | None => True
  | Some m => option_map fst (find_file fuel w n paths m) = find_in fuel w n paths
  end.
Proof.
  intros fuel w queries n paths step.
  assert (G : forall qs m0, match m0 with None => True | Some m => forall n p r, memo_get n p m = Some r -> find_in fuel w n p = Some r end ->
              match fold_left step qs m0 with None => True | Some m => forall n p r, memo_get n p m = Some r -> find_in fuel w n p = Some r end).
  { induction qs as [|[qn qp] qs IH]; intros m0 H; cbn [fold_left]; [exact H|]. apply IH. unfold step. destruct m0 as [m|]; [|exact Logic.I].
    unfold find_file. cbn [fst snd]. destruct (memo_get qn qp m) as [r|] eqn:E; cbn [option_map snd]; [exact H|].
    destruct (find_in fuel w qn qp) as [r|] eqn:E2; cbn [option_map snd]; [|exact Logic.I].
    intros n' p' r'. cbn [memo_get]. destruct ((n' =? qn) && paths_eqb p' qp) eqn:K; [|apply H].
    apply andb_true_iff in K. destruct K as [K1 K2]. apply Nat.eqb_eq in K1. apply paths_eqb_eq in K2. subst. intro X. injection X as <-. exact E2. }
  specialize (G queries (Some [])). destruct (fold_left step queries (Some [])) as [m|]; [|exact Logic.I].
  assert (G' : forall n p r, memo_get n p m = Some r -> find_in fuel w n p = Some r) by (apply G; intros a b c X; discriminate X).
  unfold find_file. destruct (memo_get n paths m) as [r|] eqn:E; cbn [option_map fst]; [symmetry; apply G'; exact E|].
  destruct (find_in fuel w n paths); reflexivity.
Qed.

(* A Repository() call is seen by all later lookups, whatever was looked up before, when there are no VariantDirs. *)
Definition rmemo_ok (fuel : nat) (w : fs) (m : rmemo) : Prop := forall d l, rmemo_get d m = Some l -> get_all_rdirs fuel w d = Some l.
Lemma is_under_spec d top : is_under d top = true <-> exists rel, d = rel ++ top.
Proof.
  unfold is_under. rewrite existsb_exists.
  assert (G : forall d acc a r, In (a, r) (ups d acc) <-> exists rel, d = rel ++ a /\ r = acc ++ rel).
  { induction d0 as [|x d0 IH]; intros acc a r; cbn [ups In].
    - split; [intros [E|[]]; injection E as <- <-; exists []; split; [reflexivity | symmetry; apply app_nil_r]|].
      intros [rel [E1 E2]]. symmetry in E1. apply app_eq_nil in E1. destruct E1 as [-> ->]. rewrite app_nil_r in E2. left. congruence.
    - rewrite IH. split.
      + intros [E|[rel [-> ->]]]; [injection E as <- <-; exists []; split; [reflexivity | symmetry; apply app_nil_r] | exists (x :: rel); rewrite <- app_assoc; auto].
      + intros [[|y rel] [E1 E2]]; cbn [app] in E1.
        * left. rewrite app_nil_r in E2. congruence.
        * injection E1 as <- ->. right. exists rel. rewrite <- app_assoc. auto. }
  split.
  - intros [[a r] [I E]]. cbn [fst] in E. apply dir_eqb_eq in E. subst a. apply G in I. destruct I as [rel [-> _]]. exists rel. reflexivity.
  - intros [rel ->]. exists (top, [] ++ rel). split; [apply G; exists rel; auto | apply dir_eqb_eq; reflexivity].
Qed.
Lemma rmemo_filter (h : dir -> bool) d : forall m, rmemo_get d (filter (fun dl => h (fst dl)) m) = if h d then rmemo_get d m else None.
Proof.
  induction m as [|[d' l] m IH]; cbn [filter rmemo_get fst]; [destruct (h d); reflexivity|].
  destruct (h d') eqn:E; cbn [rmemo_get].
  - destruct (dir_eqb d d') eqn:K; [apply dir_eqb_eq in K; subst; rewrite E; reflexivity | exact IH].
  - destruct (dir_eqb d d') eqn:K; [apply dir_eqb_eq in K; subst; rewrite IH, E; reflexivity | exact IH].
Qed.
Theorem C39e_repository_call : forall fuel w m top r,
  (forall d, srcdir w d = None) -> rmemo_ok (S fuel) w m ->
  let (w', m') := Repository top r w m in
  rmemo_ok (S fuel) w' m' /\ forall d, option_map fst (get_rdirs_memo (S fuel) w' d m') = get_all_rdirs (S fuel) w' d.
Proof.
  intros fuel w m top r NS HM. cbn [Repository].
  set (w' := mkF (disk w) (entries w) (fun d => if dir_eqb d top then add_repository top r (repositories w top) else repositories w d) (srcdir w)).
  set (m' := if dir_eqb r top || existsb (dir_eqb r) (repositories w top) then m else filter (fun dl => negb (is_under (fst dl) top)) m).
  assert (OK : rmemo_ok (S fuel) w' m').
  { intros d l H. rewrite rdirs_plain by exact NS.
    assert (SAME : (forall a, (exists rel, d = rel ++ a) -> repositories w' a = repositories w a) -> rmemo_get d m = Some l ->
                   Some (d :: flat_map (reps_of w') (ups d [])) = Some l).
    { intros Q H0. apply HM in H0. rewrite rdirs_plain in H0 by exact NS. rewrite <- H0. do 2 f_equal.
      assert (U : forall d0 acc, (forall a, (exists rel, d0 = rel ++ a) -> repositories w' a = repositories w a) ->
                  flat_map (reps_of w') (ups d0 acc) = flat_map (reps_of w) (ups d0 acc)).
      { induction d0 as [|x d0 IH]; intros acc Q0; cbn [ups flat_map].
        - unfold reps_of. cbn [fst]. rewrite Q0 by (exists []; reflexivity). reflexivity.
        - unfold reps_of at 1 3. cbn [fst]. rewrite Q0 by (exists []; reflexivity). f_equal. apply IH.
          intros a [rel ->]. apply Q0. exists (x :: rel). reflexivity. }
      apply U. exact Q. }
    unfold m' in H. destruct (dir_eqb r top || existsb (dir_eqb r) (repositories w top)) eqn:EB.
    - apply SAME; [|exact H]. intros a _. cbn [w' repositories]. destruct (dir_eqb a top) eqn:E; [|reflexivity].
      apply dir_eqb_eq in E. subst a. unfold add_repository. rewrite EB. reflexivity.
    - rewrite (rmemo_filter (fun d => negb (is_under d top))) in H. destruct (is_under d top) eqn:EU; cbn [negb] in H; [discriminate|].
      apply SAME; [|exact H]. intros a [rel ->]. cbn [w' repositories]. destruct (dir_eqb a top) eqn:E; [|reflexivity].
      apply dir_eqb_eq in E. subst a. assert (X : is_under (rel ++ top) top = true) by (apply is_under_spec; exists rel; reflexivity). congruence. }
  split; [exact OK|]. intro d. unfold get_rdirs_memo. destruct (rmemo_get d m') as [l|] eqn:E; cbn [option_map fst]; [symmetry; apply OK; exact E|].
  destruct (get_all_rdirs (S fuel) w' d); reflexivity.
Qed.

(* ---- where the unrestricted claims fail ---- *)
Definition disk_of (l : list (dir * name * kind)) : dir -> name -> option kind :=
  fun d n => option_map snd (find (fun x => dir_eqb (fst (fst x)) d && (snd (fst x) =? n)) l).
Definition nodes_of (l : list (dir * name * node)) : dir -> name -> option node :=
  fun d n => option_map snd (find (fun x => dir_eqb (fst (fst x)) d && (snd (fst x) =? n)) l).
Definition top1 : dir := [1]. Definition repA : dir := [2]. Definition repB : dir := [3].
Definition reps1 (d : dir) : list dir := if dir_eqb d top1 then [repA; repB] else [].
(* a directory in the first repository, if it has been looked up before, is taken for the file, which the second repository has *)
Theorem C39_directory_refuted :
  let d := disk_of [((repA, 7), KDir); ((repB, 7), KFile)] in
  rfile 1 (mkF d (nodes_of [((repA, 7), mkN NDir false)]) reps1 (fun _ => None)) top1 7 = Some (repA, true)
  /\ rfile 1 (mkF d (fun _ _ => None) reps1 (fun _ => None)) top1 7 = Some (repB, false).
Proof. split; reflexivity. Qed.
(* rentry passes over a file in a repository whose node exists already *)
Theorem C39_rentry_refuted :
  let d := disk_of [((repA, 7), KFile)] in
  rentry 1 (mkF d (nodes_of [((repA, 7), mkN NFile false)]) reps1 (fun _ => None)) top1 7 = Some top1
  /\ rentry 1 (mkF d (fun _ _ => None) reps1 (fun _ => None)) top1 7 = Some repA.
Proof. split; reflexivity. Qed.
(* a build directory outside the top directory keeps its old search list when a repository is added *)
Theorem C39_outside_refuted :
  let src : dir := [5; 1] in let out : dir := [9] in
  let w := mkF (fun _ _ => None) (fun _ _ => None) (fun _ => []) (fun d => if dir_eqb d out then Some src else None) in
  match get_rdirs_memo 5 w out [] with
  | Some (l, m) => let (w', m') := Repository top1 repA w m in
                   option_map fst (get_rdirs_memo 5 w' out m') = Some [out; src]
                   /\ option_map fst (get_rdirs_memo 5 w' out []) = Some [out; src; [5; 2]]
  | None => False
  end.
Proof. split; reflexivity. Qed.
(* two variant directories that lead into each other: the search does not end, although each VariantDir() call is accepted *)
Theorem C39_variant_loop_refuted :
  let va : dir := [1] in let vb : dir := [2] in
  let w := mkF (fun _ _ => None) (fun _ _ => None) (fun _ => []) (fun d => if dir_eqb d va then Some (3 :: vb) else if dir_eqb d vb then Some (4 :: va) else None) in
  is_under (3 :: vb) va = false /\ is_under (4 :: va) vb = false /\ forall fuel, get_all_rdirs fuel w va = None.
Proof.
  cbv zeta. split; [reflexivity|]. split; [reflexivity|].
  assert (G : forall w fuel, srcdir w [1] = Some [3; 2] -> srcdir w [2] = Some [4; 1] -> srcdir w [3; 2] = None -> srcdir w [4; 1] = None ->
     get_all_rdirs fuel w [1] = None /\ get_all_rdirs fuel w [3; 2] = None /\ get_all_rdirs fuel w [4; 1] = None).
  { intros w fuel S1 S2 S3 S4. induction fuel as [|fuel [A [B C]]]; [split; [|split]; reflexivity|].
    cbn [get_all_rdirs ups app]. rewrite S1, S2, S3, S4, B, C. split; [|split]; reflexivity. }
  intro fuel. apply G; reflexivity.
Qed.
(* FindFile remembers that a file was not found after it has been declared a target *)
Theorem C39_find_file_refuted :
  let w n := mkF (fun _ _ => None) n reps1 (fun _ => None) in
  match find_file 1 (w (fun _ _ => None)) 7 [top1] [] with
  | Some (r, m) => r = None /\ option_map fst (find_file 1 (w (nodes_of [((top1, 7), mkN NFile true)])) 7 [top1] m) = Some None
                   /\ option_map fst (find_file 1 (w (nodes_of [((top1, 7), mkN NFile true)])) 7 [top1] []) = Some (Some top1)
  | None => False
  end.
Proof. repeat split. Qed.
Example C39_witness :
  let w := mkF (disk_of [(([8; 3], 7), KFile); (([8; 2], 6), KFile); (([8; 3], 6), KFile)]) (fun _ _ => None) reps1 (fun _ => None) in
  only_top w top1 [repA; repB] /\ places top1 [repA; repB] [8; 1] [[8; 1]; [8; 2]; [8; 3]] /\ plain_name w 7 [[8; 1]; [8; 2]; [8; 3]]
  /\ rfile 1 w [8; 1] 7 = Some ([8; 3], false) /\ rfile 1 w [8; 1] 6 = Some ([8; 2], false) /\ rfile 1 w [8; 1] 5 = Some ([8; 1], false).
Proof.
  cbv zeta. split; [|split; [|split]].
  - repeat split. intros d H. unfold reps1. cbn [repositories]. destruct (dir_eqb d top1) eqn:E; [apply dir_eqb_eq in E; contradiction | reflexivity].
  - exact (places_in top1 [repA; repB] [8]).
  - intros r [<-|[<-|[<-|[]]]]; cbn; split; discriminate.
  - repeat split.
Qed.
Print Assumptions C39_first_repository.
Print Assumptions C39b_declaration_order.
Print Assumptions C39c_find_file.
Print Assumptions C39d_find_file_memo.
Print Assumptions C39e_repository_call.

(* ---- a variant directory (VariantDir(v, s, duplicate=0)) in a tree with repositories ---- *)
(* Both directories are below top; repositories have been declared for top only; v is the only variant directory. *)
Definition one_variant (w : fs) (top : dir) (reps : list dir) (vr sr : list nat) : Prop :=
  vr <> [] /\ repositories w top = reps /\ (forall d, d <> top -> repositories w d = []) /\
  srcdir w (vr ++ top) = Some (sr ++ top) /\ forall d, d <> vr ++ top -> srcdir w d = None.
(* the places where the file may be, for a directory at rel below the variant directory: there, in the source directory, in the source directory of each
   repository, in the variant directory of each repository *)
Definition variant_places (top : dir) (reps : list dir) (vr sr rel : list nat) : list dir :=
  (rel ++ sr ++ top) :: map (fun r => rel ++ sr ++ r) reps ++ map (fun r => rel ++ vr ++ r) reps.
Definition below_dir (v d : dir) : Prop := exists z, d = z ++ v.

Lemma ups_fst d : forall acc a rel, In (a, rel) (ups d acc) -> exists z, d = z ++ a.
Proof.
  induction d as [|x d IH]; intros acc a rel H; cbn [ups] in H; (destruct H as [H|H]; [injection H as <- <-; exists []; reflexivity|]); [elim H|].
  destruct (IH _ _ _ H) as [z ->]. exists (x :: z). reflexivity.
Qed.
Lemma rdirs_gen w fuel (own : dir -> list dir) d :
  (forall a rel, In (a, rel) (ups d []) -> match srcdir w a with None => own a = repositories w a | Some s => exists l, get_all_rdirs fuel w s = Some l /\ own a = l ++ repositories w a end) ->
  get_all_rdirs (S fuel) w d = Some (d :: flat_map (fun ar => map (fun rep => below rep (snd ar)) (own (fst ar))) (ups d [])).
Proof.
  intro H. cbn [get_all_rdirs].
  match goal with |- match ?go (ups d []) with _ => _ end = _ =>
    assert (G : forall l, (forall a rel, In (a, rel) l -> match srcdir w a with None => own a = repositories w a | Some s => exists l, get_all_rdirs fuel w s = Some l /\ own a = l ++ repositories w a end) ->
       go l = Some (flat_map (fun ar => map (fun rep => below rep (snd ar)) (own (fst ar))) l)) end.
  { clear H. induction l as [|[a rel] r IH]; intro H; [reflexivity|]. cbn [flat_map fst snd]. pose proof (H a rel (or_introl eq_refl)) as Ha.
    rewrite IH by (intros b s Hb; eapply H; right; exact Hb). destruct (srcdir w a) as [s|].
    - destruct Ha as (l & -> & ->). reflexivity.
    - rewrite Ha. reflexivity. }
  rewrite (G (ups d []) H). reflexivity.
Qed.
Lemma flat_ups (own : dir -> list dir) v : forall rel acc, (forall z, z <> [] -> own (z ++ v) = []) ->
  flat_map (fun ar => map (fun rep => below rep (snd ar)) (own (fst ar))) (ups (rel ++ v) acc)
  = flat_map (fun ar => map (fun rep => below rep (snd ar)) (own (fst ar))) (ups v (acc ++ rel)).
Proof.
  induction rel as [|x rel IH]; intros acc H; cbn [app]; [rewrite app_nil_r; reflexivity|].
  cbn [ups flat_map fst snd]. change (x :: rel ++ v) with ((x :: rel) ++ v). rewrite H by discriminate. cbn [map app]. rewrite IH by exact H. rewrite <- app_assoc. reflexivity.
Qed.

Lemma len_neq (z v : list nat) : z <> [] -> z ++ v <> v.
Proof. intros N E. apply (f_equal (@length nat)) in E. rewrite app_length in E. destruct z; [contradiction | cbn in E; lia]. Qed.

Section Variant.
Context (w : fs) (top : dir) (reps : list dir) (vr sr : list nat) (OV : one_variant w top reps vr sr).
Let v := vr ++ top.
Let s := sr ++ top.
Lemma rdirs_out d fuel : ~ below_dir v d -> get_all_rdirs (S fuel) w d = Some (d :: flat_map (reps_of w) (ups d [])).
Proof.
  destruct OV as (Nv & Ht & Hn & Hs & Ho). intro N. rewrite (rdirs_gen w fuel (repositories w)); [reflexivity|].
  intros a rel H. destruct (ups_fst _ _ _ _ H) as [z E]. rewrite Ho; [reflexivity|]. intros ->. apply N. exists z. exact E.
Qed.
Lemma variant_rdirs rel fuel : ~ below_dir v s ->
  get_all_rdirs (S (S fuel)) w (rel ++ v) = Some ((rel ++ v) :: variant_places top reps vr sr rel).
Proof.
  destruct OV as (Nv & Ht & Hn & Hs & Ho). intro N.
  assert (Rs : get_all_rdirs (S fuel) w s = Some (s :: map (fun r => sr ++ r) reps)).
  { rewrite (rdirs_out s fuel N). f_equal. f_equal. unfold s. rewrite (ups_top w top Hn sr []), Ht. reflexivity. }
  assert (Nt : v <> top) by (apply len_neq; exact Nv).
  pose (own := fun a => if dir_eqb a v then s :: map (fun r => sr ++ r) reps else repositories w a).
  assert (Ov : own v = s :: map (fun r => sr ++ r) reps) by (unfold own; rewrite (proj2 (dir_eqb_eq v v) eq_refl); reflexivity).
  assert (On : forall a, a <> v -> own a = repositories w a).
  { intros a Ha. unfold own. destruct (dir_eqb a v) eqn:E; [apply dir_eqb_eq in E; contradiction | reflexivity]. }
  rewrite (rdirs_gen w (S fuel) own).
  - f_equal. f_equal. rewrite (flat_ups own v rel []).
    2:{ intros z Nz. rewrite On by (apply len_neq; exact Nz). apply Hn. unfold v. intros E. rewrite app_assoc in E. revert E. apply len_neq. destruct z; [contradiction | discriminate]. }
    cbn [app]. unfold v at 1. destruct vr as [|x vr'] eqn:Ev; [contradiction|]. cbn [app ups flat_map fst snd]. fold v.
    change (own (x :: vr' ++ top)) with (own v). rewrite Ov. cbn [map].
    assert (Up : flat_map (fun ar => map (fun rep => below rep (snd ar)) (own (fst ar))) (ups (vr' ++ top) (rel ++ [x])) = map (fun r => rel ++ (x :: vr') ++ r) reps).
    { transitivity (flat_map (reps_of w) (ups (vr' ++ top) (rel ++ [x]))).
      - assert (G : forall l, (forall a r, In (a, r) l -> a <> v) -> flat_map (fun ar => map (fun rep => below rep (snd ar)) (own (fst ar))) l = flat_map (reps_of w) l).
        { induction l as [|[a r] l IH]; intro H; [reflexivity|]. cbn [flat_map fst snd]. rewrite (On a) by (apply (H a r); left; reflexivity). rewrite IH by (intros b q Hb; eapply H; right; exact Hb). reflexivity. }
        apply G. intros a r H E. destruct (ups_fst _ _ _ _ H) as [z Ez]. apply (f_equal (@length nat)) in Ez. rewrite E in Ez. unfold v in Ez. cbn [app length] in Ez. rewrite !app_length in Ez. cbn [length] in Ez. rewrite !app_length in Ez. lia.
      - rewrite (ups_top w top Hn vr' (rel ++ [x])), Ht. apply map_ext. intro r. rewrite <- !app_assoc. reflexivity. }
    rewrite Up. unfold variant_places, below, s. cbn [app]. f_equal. f_equal. rewrite map_map. reflexivity.
  - intros a r H. destruct (dir_eqb a v) eqn:E.
    + apply dir_eqb_eq in E. subst a. unfold v at 1. rewrite Hs. fold s. exists (s :: map (fun r => sr ++ r) reps). split; [exact Rs|]. rewrite (Hn v Nt), app_nil_r. exact Ov.
    + assert (Na : a <> v) by (intros ->; rewrite (proj2 (dir_eqb_eq v v) eq_refl) in E; discriminate). rewrite (Ho a Na). apply On. exact Na.
Qed.
Lemma srcdirs_out d : ~ below_dir v d -> srcdir_list w d = [].
Proof.
  destruct OV as (Nv & Ht & Hn & Hs & Ho). intro N. unfold srcdir_list.
  assert (G : forall l, (forall a r, In (a, r) l -> a <> v) -> flat_map (fun ar => match srcdir w (fst ar) with Some s => [below s (snd ar)] | None => [] end) l = []).
  { induction l as [|[a r] l IH]; intro H; [reflexivity|]. cbn [flat_map fst snd]. rewrite (Ho a) by (apply (H a r); left; reflexivity). apply IH. intros b q Hb. eapply H. right. exact Hb. }
  apply G. intros a r H ->. destruct (ups_fst _ _ _ _ H) as [z E]. apply N. exists z. exact E.
Qed.
Lemma srcdirs_in rel : srcdir_list w (rel ++ v) = [rel ++ s].
Proof.
  destruct OV as (Nv & Ht & Hn & Hs & Ho). unfold srcdir_list.
  assert (P : forall acc, flat_map (fun ar => match srcdir w (fst ar) with Some s => [below s (snd ar)] | None => [] end) (ups (rel ++ v) acc) = [acc ++ rel ++ s]).
  2:{ exact (P []). }
  induction rel as [|x r IH]; intro acc.
  - cbn [app]. unfold v at 1. destruct vr as [|x vr'] eqn:Ev; [contradiction|]. cbn [app ups flat_map fst snd]. fold v.
    change (srcdir w (x :: vr' ++ top)) with (srcdir w ((x :: vr') ++ top)). rewrite Hs. fold s. unfold below.
    assert (G : forall l, (forall a r, In (a, r) l -> a <> v) -> flat_map (fun ar => match srcdir w (fst ar) with Some s => [snd ar ++ s] | None => [] end) l = []).
    { induction l as [|[a r] l IH]; intro H; [reflexivity|]. cbn [flat_map fst snd]. rewrite (Ho a) by (apply (H a r); left; reflexivity). apply IH. intros b q Hb. eapply H. right. exact Hb. }
    cbn [app]. f_equal. apply G. intros a r H E. destruct (ups_fst _ _ _ _ H) as [z Ez]. apply (f_equal (@length nat)) in Ez. rewrite E in Ez. unfold v in Ez. cbn [app length] in Ez. rewrite !app_length in Ez. cbn [length] in Ez. rewrite !app_length in Ez. lia.
  - cbn [app ups flat_map fst snd]. rewrite Ho. { cbn [app]. rewrite IH, <- app_assoc. reflexivity. }
    change (x :: r ++ v) with ((x :: r) ++ v). apply len_neq. discriminate.
Qed.
End Variant.
Lemma fod_nosrc w d n : srcdir_list w d = [] -> disk w d n <> Some KDir -> file_on_disk w d n = if there w n d then Some d else None.
Proof. intros E ND. unfold file_on_disk, there. destruct (disk w d n) as [[|]|]; [reflexivity | contradiction|]. rewrite E. reflexivity. Qed.
Lemma repo_node_nosrc w r n : srcdir_list w r = [] -> disk w r n <> Some KDir -> (forall nd, entries w r n = Some nd -> n_kind nd <> NDir) ->
  repo_node w r n = if there w n r then Some (r, false) else None.
Proof.
  intros NS ND NE. unfold repo_node. rewrite fod_nosrc by assumption. unfold there.
  destruct (entries w r n) as [nd|]; [|destruct (disk w r n) as [[|]|]; reflexivity].
  specialize (NE nd eq_refl). destruct (disk w r n) as [[|]|]; [|contradiction|reflexivity].
  destruct (n_kind nd); [reflexivity | reflexivity | contradiction].
Qed.
Lemma src_node_nosrc w n r : srcdir_list w r = [] -> disk w r n <> Some KDir -> (forall nd, entries w r n = Some nd -> n_kind nd <> NDir) ->
  src_node w n r = if has w n r then Some r else None.
Proof.
  intros NS ND NE. unfold src_node, has. rewrite fod_nosrc by assumption. destruct (entries w r n) as [nd|].
  - specialize (NE nd eq_refl). unfold there. destruct (n_kind nd); [| |contradiction];
      destruct (disk w r n) as [[|]|]; try contradiction; destruct (n_derived nd); reflexivity.
  - rewrite orb_false_r. reflexivity.
Qed.
(* nothing there: in the variant directory itself the search falls through to the source directory *)
Lemma fod_variant w top reps vr sr rel n : one_variant w top reps vr sr -> disk w (rel ++ vr ++ top) n = None ->
  file_on_disk w (rel ++ vr ++ top) n = None \/ (file_on_disk w (rel ++ vr ++ top) n = Some (rel ++ sr ++ top) /\ there w n (rel ++ sr ++ top) = true).
Proof.
  intros OV E. unfold file_on_disk. rewrite E, (srcdirs_in w top reps vr sr OV rel). cbn [srcdir_dup].
  destruct (is_under _ _); [left; reflexivity|]. unfold there. destruct (disk w (rel ++ sr ++ top) n) as [[|]|]; auto.
Qed.

(* C39f.  A file in a variant directory is taken from there, else from the source directory, else from the source directory in the first repository that has it, else
   from the variant directory in the first repository that has it, else it is the file in the variant directory; and whatever is there locally is never replaced. *)
Theorem C39f_variant_dir : forall w top reps vr sr rel n fuel,
  one_variant w top reps vr sr -> (forall r, In r (variant_places top reps vr sr rel) -> ~ below_dir (vr ++ top) r) ->
  plain_name w n ((rel ++ vr ++ top) :: variant_places top reps vr sr rel) ->
  rfile (S (S fuel)) w (rel ++ vr ++ top) n
  = Some (match find (there w n) ((rel ++ vr ++ top) :: variant_places top reps vr sr rel) with Some r => r | None => rel ++ vr ++ top end, false).
Proof.
  intros w top reps vr sr rel n fuel OV NB PN. set (d := rel ++ vr ++ top) in *. set (l := variant_places top reps vr sr rel) in *.
  assert (Ns : ~ below_dir (vr ++ top) (sr ++ top)).
  { intros [z E]. apply (NB (rel ++ sr ++ top)); [left; reflexivity|]. exists (rel ++ z). rewrite E, app_assoc. reflexivity. }
  assert (RN : forall r, In r l -> repo_node w r n = if there w n r then Some (r, false) else None).
  { intros r HR. destruct (PN r (or_intror HR)) as [P1 P2]. apply repo_node_nosrc; [|exact P1 | exact P2]. apply (srcdirs_out w top reps vr sr OV). apply NB, HR. }
  unfold rfile. destruct (disk w d n) as [k|] eqn:E.
  - cbn [find]. unfold there at 1. rewrite E. destruct k; [reflexivity|]. destruct (PN d (or_introl eq_refl)) as [P _]. contradiction.
  - unfold d at 1. rewrite (variant_rdirs w top reps vr sr OV rel fuel Ns). fold d l. cbn [first_some find]. unfold there at 1. rewrite E.
    rewrite (first_some_find (B := found) _ _ (fun r => (r, false)) l RN).
    unfold repo_node. rewrite E. destruct (entries w d n); [destruct (find (there w n) l); reflexivity|].
    destruct (fod_variant w top reps vr sr rel n OV E) as [F|[F T]]; fold d in F; rewrite F; [destruct (find (there w n) l); reflexivity|].
    unfold l, variant_places. cbn [find]. rewrite T. reflexivity.
Qed.
Print Assumptions C39f_variant_dir.
Theorem C39h_local_file : forall w d n fuel, disk w d n <> None -> rfile fuel w d n = Some (d, false).
Proof. intros w d n fuel H. unfold rfile. destruct (disk w d n); [reflexivity | contradiction]. Qed.
Print Assumptions C39h_local_file.

(* C39g.  The same for a file searched along a path (a file that is built is found where it is built). *)
Theorem C39g_variant_find_file : forall w top reps vr sr rel n fuel,
  one_variant w top reps vr sr -> (forall r, In r (variant_places top reps vr sr rel) -> ~ below_dir (vr ++ top) r) ->
  plain_name w n ((rel ++ vr ++ top) :: variant_places top reps vr sr rel) ->
  srcdir_find_file (S (S fuel)) w (rel ++ vr ++ top) n = Some (find (has w n) ((rel ++ vr ++ top) :: variant_places top reps vr sr rel)).
Proof.
  intros w top reps vr sr rel n fuel OV NB PN. set (d := rel ++ vr ++ top) in *. set (l := variant_places top reps vr sr rel) in *.
  assert (Ns : ~ below_dir (vr ++ top) (sr ++ top)).
  { intros [z E]. apply (NB (rel ++ sr ++ top)); [left; reflexivity|]. exists (rel ++ z). rewrite E, app_assoc. reflexivity. }
  assert (RN : forall r, In r l -> src_node w n r = if has w n r then Some r else None).
  { intros r HR. destruct (PN r (or_intror HR)) as [P1 P2]. apply src_node_nosrc; [|exact P1 | exact P2]. apply (srcdirs_out w top reps vr sr OV). apply NB, HR. }
  assert (FS : first_some (src_node w n) l = find (has w n) l).
  { rewrite (first_some_find (B := dir) _ (has w n) (fun r => r) l RN). destruct (find (has w n) l); reflexivity. }
  unfold srcdir_find_file. unfold d at 1. rewrite (variant_rdirs w top reps vr sr OV rel fuel Ns). fold d l. cbn [first_some find].
  destruct (PN d (or_introl eq_refl)) as [P1 P2].
  assert (Hd : src_node w n d = if has w n d then Some d else match entries w d n with Some _ => None | None => file_on_disk w d n end).
  { unfold src_node, has, there. destruct (entries w d n) as [nd|] eqn:En.
    - specialize (P2 nd eq_refl). destruct (n_kind nd); [| |contradiction]; destruct (disk w d n) as [[|]|]; try contradiction; destruct (n_derived nd); reflexivity.
    - unfold file_on_disk. destruct (disk w d n) as [[|]|]; [reflexivity | contradiction | reflexivity]. }
  rewrite Hd. destruct (has w n d) eqn:Eh; [reflexivity|].
  assert (Dn : disk w d n = None). { unfold has, there in Eh. destruct (disk w d n) as [[|]|]; [discriminate | contradiction | reflexivity]. }
  assert (Rest : match first_some (src_node w n) l with Some r => Some (Some r) | None => match find_src (S (S fuel)) w n (srcdir_list w d) with None => None | Some true => Some (Some d) | Some false => Some None end end
     = Some (find (has w n) l)).
  { rewrite FS. destruct (find (has w n) l) as [x|] eqn:Ef; [reflexivity|]. unfold d at 1. rewrite (srcdirs_in w top reps vr sr OV rel). cbn [find_src].
    assert (Nd : ~ below_dir (vr ++ top) (rel ++ sr ++ top)) by (apply NB; left; reflexivity).
    rewrite (rdirs_out w top reps vr sr OV (rel ++ sr ++ top) (S fuel) Nd). pose proof OV as (Nv & Ht & Hn & Hs & Ho).
    rewrite (app_assoc rel sr top), (ups_top w top Hn (rel ++ sr) []), Ht. cbn [app].
    match goal with |- context [first_some (src_node w n) ?L] => set (L0 := L) end.
    assert (Z : first_some (src_node w n) L0 = None); [|rewrite Z; reflexivity].
    assert (Sub : forall r, In r L0 -> In r l).
    { intros r [<-|Hr]; [left; rewrite app_assoc; reflexivity|]. right. apply in_or_app. left. apply in_map_iff in Hr. destruct Hr as (q & <- & Hq). apply in_map_iff. exists q. rewrite <- app_assoc. auto. }
    assert (Nn : forall r, In r l -> has w n r = false) by (intros r Hr; exact (find_none _ _ Ef r Hr)).
    revert Sub. clearbody L0. induction L0 as [|r l0 IH]; intro Sub; [reflexivity|]. cbn [first_some].
    rewrite RN by (apply Sub; left; reflexivity). rewrite Nn by (apply Sub; left; reflexivity). apply IH. intros q Hq. apply Sub. right. exact Hq. }
  destruct (entries w d n); [exact Rest|].
  destruct (fod_variant w top reps vr sr rel n OV Dn) as [F|[F T]]; fold d in F; rewrite F; [exact Rest|].
  unfold l, variant_places. cbn [find]. unfold has. rewrite T. reflexivity.
Qed.
Print Assumptions C39g_variant_find_file.
Example C39f_witness :
  (* top = /1, variant /1/4 of source /1/5; repositories /2, /3; file 7 only in /3/5, file 6 in /1/5 and /2/4 *)
  let w := mkF (disk_of [(([5; 3], 7), KFile); (([5; 1], 6), KFile); (([4; 2], 6), KFile); (([4; 2], 8), KFile)]) (fun _ _ => None) reps1 (fun d => if dir_eqb d [4; 1] then Some [5; 1] else None) in
  one_variant w top1 [repA; repB] [4] [5] /\ (forall r, In r (variant_places top1 [repA; repB] [4] [5] []) -> ~ below_dir [4; 1] r)
  /\ plain_name w 7 ([4; 1] :: variant_places top1 [repA; repB] [4] [5] [])
  /\ rfile 2 w [4; 1] 7 = Some ([5; 3], false) /\ rfile 2 w [4; 1] 6 = Some ([5; 1], false) /\ rfile 2 w [4; 1] 8 = Some ([4; 2], false).
Proof.
  cbv zeta. split; [|split; [|split]].
  - split; [discriminate|]. split; [reflexivity|]. split; [|split; [reflexivity|]].
    + intros d H. unfold reps1. cbn [repositories]. destruct (dir_eqb d top1) eqn:E; [apply dir_eqb_eq in E; contradiction | reflexivity].
    + intros d H. cbn [srcdir]. destruct (dir_eqb d [4; 1]) eqn:E; [apply dir_eqb_eq in E; contradiction | reflexivity].
  - intros r Hr [z E]. cbn in Hr. destruct Hr as [<-|[<-|[<-|[<-|[<-|[]]]]]]; destruct z as [|a [|b [|q z]]]; discriminate.
  - intros r Hr. cbn in Hr. destruct Hr as [<-|[<-|[<-|[<-|[<-|[<-|[]]]]]]]; cbn; split; discriminate.
  - repeat split.
Qed.
