(* C71f, C71g: what is in the cache after a run, and a second build from it *)
From Coq Require Import List Bool Arith Lia.
Import ListNotations.
From Verif Require Import CopModel CopSpec CopProps CopProps2.

Section Cop.
Variables nocache precious : node -> bool.
Variable key : node -> list (option content) -> sig.
Variable fl : flags.
Notation push_to_cache := (push_to_cache nocache key fl).
Notation visited := (visited nocache key fl).
Notation fetch := (fetch nocache key fl).
Notation execute := (execute nocache precious key fl).
Notation step := (step nocache precious key fl).
Notation run := (run nocache precious key fl).

(* entries are never replaced *)
Lemma push_all_mono T ts : forall s k x, cache s k = Some x -> cache (fold_left (push_to_cache T) ts s) k = Some x.
Proof.
  induction ts as [| t ts IH]; intros s k x E; cbn [fold_left]; [exact E |]. apply IH. rewrite push_to_cache_cache, E. destruct (_ && _); reflexivity.
Qed.
Lemma visited_all_mono T ts : forall s k x, cache s k = Some x -> cache (fold_left (visited T) ts s) k = Some x.
Proof.
  induction ts as [| t ts IH]; intros s k x E; cbn [fold_left]; [exact E |]. apply IH. destruct (visited_frame nocache key fl T s t) as (_ & _ & _ & _ & C & _). rewrite C, forced_cache, E. destruct (_ && _); reflexivity.
Qed.
Lemma step_mono s T k x : cache s k = Some x -> cache (step s T) k = Some x.
Proof.
  intros E. unfold CopModel.step. destruct (existsb (failed s) (deps T)); [exact E |]. destruct (uptodate s T); [apply visited_all_mono; exact E |].
  unfold CopModel.execute. destruct (prepare_frame precious fl s T) as (PC & _).
  destruct (fetch_spec nocache key fl T (targets T) (prepare precious fl s T) []) as (pre & rest & _ & _ & _ & _ & FC & _).
  destruct (fetch T (targets T) (prepare precious fl s T) []) as [s3 got]. cbn [fst] in FC. destruct (length got <? length (targets T)).
  - destruct (build_frame fl (unlink_all s3 got) T) as (BC & _). destruct (build fl (unlink_all s3 got) T) as [ok b]. cbn [snd] in BC. change (cache (unlink_all s3 got)) with (cache s3) in BC. destruct ok.
    + apply visited_all_mono. destruct (record_frame fl (fold_left (push_to_cache T) (targets T) b) T) as (RC & _). rewrite RC. apply push_all_mono. congruence.
    + change (cache (fail b T)) with (cache b). congruence.
  - apply visited_all_mono. destruct (record_frame fl s3 T) as (RC & _). congruence.
Qed.
Lemma run_mono l : forall s k x, cache s k = Some x -> cache (run (map Do l) s) k = Some x.
Proof. induction l as [| T l IH]; intros s k x E; cbn [map CopModel.run fold_left act]; [exact E |]. apply IH. apply step_mono. exact E. Qed.
(* what is pushed is there *)
Lemma push_all_present T t : writes fl = true -> nocache t = false -> forall ts s, In t ts -> disk s t <> None -> cache (fold_left (push_to_cache T) ts s) (key_of key s T t) <> None.
Proof.
  intros W NC ts. induction ts as [| u ts IH]; intros s HI HD; [destruct HI |]. cbn [fold_left]. destruct HI as [-> | HI].
  - destruct (cache (push_to_cache T s t) (key_of key s T t)) as [x |] eqn:E; [rewrite (push_all_mono T ts _ _ x E); discriminate |].
    rewrite push_to_cache_cache, W, NC, Nat.eqb_refl in E. destruct (disk s t); [| congruence]. cbn [negb andb some] in E. destruct (cache s (key_of key s T t)); discriminate.
  - destruct (push_to_cache_frame nocache key fl T s u) as (D & _ & _ & K & _). specialize (IH (push_to_cache T s u) HI). unfold key_of in IH. rewrite D, K in IH. exact (IH HD).
Qed.
Lemma visited_all_present T t : writes fl = true -> cache_force fl = true -> nocache t = false -> (forall d, In d (deps T) -> ~ In d (targets T)) -> forall ts s, (forall u, In u ts -> In u (targets T)) -> In t ts -> disk s t <> None -> cache (fold_left (visited T) ts s) (key_of key s T t) <> None.
Proof.
  intros W FO NC DN ts. induction ts as [| u ts IH]; intros s SUB HI HD; [destruct HI |]. cbn [fold_left]. destruct (visited_frame nocache key fl T s u) as (D & _ & _ & _ & C & K). destruct HI as [-> | HI].
  - destruct (cache (visited T s t) (key_of key s T t)) as [x |] eqn:E; [rewrite (visited_all_mono T ts _ _ x E); discriminate |].
    rewrite C, forced_cache, W, FO, NC, Nat.eqb_refl in E. destruct (disk s t); [| congruence]. cbn [negb andb some] in E. destruct (cache s (key_of key s T t)); discriminate.
  - specialize (IH (visited T s u) (fun v Hv => SUB v (or_intror Hv)) HI). rewrite D in IH. specialize (IH HD). unfold key_of in *.
    assert (E : map (csig (visited T s u)) (deps T) = map (csig s) (deps T)).
    { apply map_ext_in. intros d Hd. apply K. intros ->. exact (DN u Hd (SUB u (or_introl eq_refl))). }
    rewrite E in IH. exact IH.
Qed.

Section Real.
Variable P : list task.
Hypothesis PR : proper P.
Hypothesis INJ : injective key.
Hypothesis REAL : no_exec fl = false.

Lemma failed_mono_step s T n : failed s n = true -> failed (step s T) n = true.
Proof.
  intros E. unfold CopModel.step. destruct (existsb (failed s) (deps T)); [cbn [fail failed]; rewrite E; apply orb_true_r |]. destruct (uptodate s T).
  { destruct (visited_all_frame nocache key fl T (targets T) s) as (_ & _ & F & _). rewrite F. exact E. }
  unfold CopModel.execute. destruct (prepare_frame precious fl s T) as (_ & _ & PF & _).
  destruct (fetch_spec nocache key fl T (targets T) (prepare precious fl s T) []) as (pre & rest & _ & _ & _ & _ & _ & _ & FF & _).
  destruct (fetch T (targets T) (prepare precious fl s T) []) as [s3 got]. cbn [fst] in FF. destruct (length got <? length (targets T)).
  - destruct (build_frame fl (unlink_all s3 got) T) as (_ & _ & BF & _). destruct (build fl (unlink_all s3 got) T) as [ok b]. cbn [snd] in BF. change (failed (unlink_all s3 got)) with (failed s3) in BF. destruct ok.
    + destruct (visited_all_frame nocache key fl T (targets T) (record fl (fold_left (push_to_cache T) (targets T) b) T)) as (_ & _ & F & _). rewrite F.
      destruct (record_frame fl (fold_left (push_to_cache T) (targets T) b) T) as (_ & _ & RF & _). rewrite RF. destruct (push_all_frame nocache key fl T (targets T) b) as (_ & _ & F4 & _). congruence.
    + cbn [fail failed]. rewrite BF, FF, PF, E. apply orb_true_r.
  - destruct (visited_all_frame nocache key fl T (targets T) (record fl s3 T)) as (_ & _ & F & _). rewrite F. destruct (record_frame fl s3 T) as (_ & _ & RF & _). congruence.
Qed.
Lemma failed_mono l : forall s n, failed s n = true -> failed (run (map Do l) s) n = true.
Proof. induction l as [| T l IH]; intros s n E; cbn [map CopModel.run fold_left act]; [exact E |]. apply IH. apply failed_mono_step. exact E. Qed.
Lemma step_disk s T n : In T P -> fit key P s -> ~ In n (targets T) -> disk (step s T) n = disk s n.
Proof.
  intros HT FI N. unfold CopModel.step. destruct (existsb (failed s) (deps T)) eqn:EF; [reflexivity |]. destruct (uptodate s T) eqn:U.
  { destruct (visited_all_frame nocache key fl T (targets T) s) as (D & _). rewrite D. reflexivity. }
  assert (NF : forall d, In d (deps T) -> failed s d = false).
  { intros d Hd. destruct (failed s d) eqn:E; [| reflexivity]. assert (existsb (failed s) (deps T) = true) by (apply existsb_exists; exists d; split; assumption). congruence. }
  destruct (command T (map (disk s) (deps T))) as [ok f] eqn:CO.
  destruct (execute_real nocache precious key fl P PR INJ REAL s T (map (disk s) (deps T)) ok f HT FI NF) as (D & _); [intros E; unfold uptodate in U; rewrite E in U; discriminate | reflexivity | exact CO |].
  rewrite D. apply mem_out in N. rewrite N. reflexivity.
Qed.
Lemma step_fit s T : In T P -> fit key P s -> careful fl P s -> (cache_force fl = true -> tidy P) -> fit key P (step s T) /\ careful fl P (step s T).
Proof.
  intros HT FI CA TI. destruct (step_real nocache precious key fl P PR INJ REAL s {| p_disk := disk s; p_store := store s; p_failed := failed s |} T HT FI CA TI) as (q & _ & _ & F & C); [repeat split |]. split; assumption.
Qed.
Lemma run_fit l : forall s, (forall T, In T l -> In T P) -> fit key P s -> careful fl P s -> (cache_force fl = true -> tidy P) -> fit key P (run (map Do l) s) /\ careful fl P (run (map Do l) s).
Proof.
  induction l as [| T l IH]; intros s HP FI CA TI; cbn [map CopModel.run fold_left act]; [split; assumption |].
  destruct (step_fit s T (HP T (or_introl eq_refl)) FI CA TI) as [F C]. apply IH; [intros T' HI; apply HP; right; exact HI | exact F | exact C | exact TI].
Qed.
Lemma run_disk l : forall s n, (forall T, In T l -> In T P) -> fit key P s -> careful fl P s -> (cache_force fl = true -> tidy P) -> (forall T, In T l -> ~ In n (targets T)) -> disk (run (map Do l) s) n = disk s n.
Proof.
  induction l as [| T l IH]; intros s n HP FI CA TI N; cbn [map CopModel.run fold_left act]; [reflexivity |].
  destruct (step_fit s T (HP T (or_introl eq_refl)) FI CA TI) as [F C]. change (disk (run (map Do l) (step s T)) n = disk s n). rewrite IH; [| intros T' HI; apply HP; right; exact HI | exact F | exact C | exact TI | intros T' HI; apply N; right; exact HI].
  apply step_disk; [apply HP; left; reflexivity | exact FI | apply N; left; reflexivity].
Qed.
(* after one task *)
Lemma step_present s T t x : In T P -> fit key P s -> careful fl P s -> (cache_force fl = true -> tidy P) -> In t (targets T) -> failed (step s T) t = false -> disk (step s T) t = Some x -> (uptodate s T = true -> honest P (disk s) (store s)) ->
  (exists f, command T (map (disk (step s T)) (deps T)) = (true, f) /\ f t = Some x) /\
  (writes fl = true -> nocache t = false -> (cache_force fl = true \/ uptodate s T = false) -> cache (step s T) (key t (map (disk (step s T)) (deps T))) = Some x).
Proof.
  intros HT FI CA TI HI NF HX HO. assert (DN : forall d, In d (deps T) -> ~ In d (targets T)) by (intros d; apply (proj2 PR T d HT)).
  assert (EL : map (disk (step s T)) (deps T) = map (disk s) (deps T)) by (apply map_ext_in; intros d Hd; apply step_disk; [exact HT | exact FI | exact (DN d Hd)]).
  destruct (step_fit s T HT FI CA TI) as [FI' _]. rewrite EL.
  assert (CT : exists f, command T (map (disk s) (deps T)) = (true, f) /\ f t = Some x).
  { clear EL FI'. revert NF HX. unfold CopModel.step. destruct (existsb (failed s) (deps T)) eqn:EF.
    - cbn [fail failed]. pose proof (proj2 (mem_in t (targets T)) HI) as E. rewrite E. discriminate.
    - assert (NFD : forall d, In d (deps T) -> failed s d = false).
      { intros d Hd. destruct (failed s d) eqn:E; [| reflexivity]. assert (existsb (failed s) (deps T) = true) by (apply existsb_exists; exists d; split; assumption). congruence. }
      destruct (uptodate s T) eqn:U.
      + intros _. destruct (visited_all_frame nocache key fl T (targets T) s) as (D & _). rewrite D. intros HX. apply uptodate_iff with (t := t) in U; [| exact HI]. exact (HO eq_refl T t _ x HT HI (proj2 U) HX).
      + destruct (command T (map (disk s) (deps T))) as [ok f] eqn:CO.
        destruct (execute_real nocache precious key fl P PR INJ REAL s T (map (disk s) (deps T)) ok f HT FI NFD) as (D & _ & F & _); [intros E; unfold uptodate in U; rewrite E in U; discriminate | reflexivity | exact CO |].
        rewrite D, F. pose proof (proj2 (mem_in t (targets T)) HI) as E. rewrite E. intros NF HX. destruct ok; [exists f; split; [reflexivity | exact HX] | discriminate]. }
  split; [exact CT |]. intros W NC HW.
  assert (PRS : cache (step s T) (key t (map (disk s) (deps T))) <> None).
  { assert (NB : existsb (failed s) (deps T) = false).
    { destruct (existsb (failed s) (deps T)) eqn:EF; [| reflexivity]. unfold CopModel.step in NF. rewrite EF in NF. cbn [fail failed] in NF. pose proof (proj2 (mem_in t (targets T)) HI) as E. rewrite E in NF. discriminate. }
    assert (NFD : forall d, In d (deps T) -> failed s d = false).
    { intros d Hd. destruct (failed s d) eqn:E; [| reflexivity]. assert (existsb (failed s) (deps T) = true) by (apply existsb_exists; exists d; split; assumption). congruence. }
    assert (LC : map (csig s) (deps T) = map (disk s) (deps T)) by (apply map_ext_in; intros d Hd; apply (proj1 FI), NFD; exact Hd).
    clear EL FI' CT. revert NF HX. unfold CopModel.step. rewrite NB. destruct (uptodate s T) eqn:U.
    - intros _ _. destruct HW as [FO | HW]; [| discriminate]. rewrite <- LC. apply (visited_all_present T t W FO NC DN (targets T) s (fun u Hu => Hu) HI).
      apply uptodate_iff with (t := t) in U; [| exact HI]. exact (proj1 U).
    - unfold CopModel.execute. destruct (prepare_frame precious fl s T) as (PC & _ & _ & PK & _).
      destruct (fetch_spec nocache key fl T (targets T) (prepare precious fl s T) []) as (pre & rest & SPL & G & HH & _ & FC & _ & _ & FK & _).
      destruct (fetch T (targets T) (prepare precious fl s T) []) as [s3 got]. cbn [fst snd app] in *. subst got. destruct (length pre <? length (targets T)) eqn:LEN.
      + destruct (build_frame fl (unlink_all s3 pre) T) as (_ & _ & BF & BK). destruct (build fl (unlink_all s3 pre) T) as [ok b]. cbn [snd] in BF, BK. destruct ok.
        * intros _. destruct (visited_all_frame nocache key fl T (targets T) (record fl (fold_left (push_to_cache T) (targets T) b) T)) as (D & _). rewrite D.
          destruct (record_frame fl (fold_left (push_to_cache T) (targets T) b) T) as (RC & RD & _). rewrite RD. destruct (push_all_frame nocache key fl T (targets T) b) as (D4 & _). rewrite D4. intros HX.
          assert (PP : cache (fold_left (push_to_cache T) (targets T) b) (key_of key b T t) <> None) by (apply push_all_present; [exact W | exact NC | exact HI | congruence]).
          unfold key_of in PP. rewrite BK in PP. change (csig (unlink_all s3 pre)) with (csig s3) in PP. rewrite FK, PK, LC in PP.
          destruct (cache (fold_left (push_to_cache T) (targets T) b) (key t (map (disk s) (deps T)))) as [y |] eqn:EY; [| congruence].
          rewrite (visited_all_mono T (targets T) _ _ y); [discriminate |]. rewrite RC. exact EY.
        * cbn [fail failed]. pose proof (proj2 (mem_in t (targets T)) HI) as E. rewrite E. discriminate.
      + intros _ _. assert (rest = []). { apply Nat.ltb_ge in LEN. rewrite SPL, app_length in LEN. destruct rest; [reflexivity | cbn [length] in LEN; lia]. }
        subst rest. rewrite app_nil_r in SPL. rewrite SPL in HI. specialize (HH t HI). unfold hit, key_of in HH. rewrite PC, PK, LC in HH. rewrite !andb_true_iff in HH. destruct HH as [_ HH].
        destruct (cache s (key t (map (disk s) (deps T)))) as [y |] eqn:EY; [| discriminate]. destruct (record_frame fl s3 T) as (RC & _).
        rewrite (visited_all_mono T (targets T) _ _ y); [discriminate |]. rewrite RC, FC, PC. exact EY. }
  destruct (cache (step s T) (key t (map (disk s) (deps T)))) as [y |] eqn:EY; [| congruence].
  destruct FI' as [_ SO']. destruct (SO' T t _ y HT HI EY) as (f' & CF & FT). destruct CT as (f & CF2 & FT2). congruence.
Qed.
(* all the targets are in the cache: nothing is run *)
Lemma all_hit s T : (forall t, In t (targets T) -> hit nocache key fl s T t = true) -> forall n, In (Ran n) (log (step s T)) -> In (Ran n) (log s).
Proof.
  intros HA n. unfold CopModel.step. destruct (existsb (failed s) (deps T)); [intros HI; exact HI |]. destruct (uptodate s T).
  { destruct (visited_all_frame nocache key fl T (targets T) s) as (_ & _ & _ & L & _). rewrite L. intros HI. exact HI. }
  unfold CopModel.execute. destruct (prepare_frame precious fl s T) as (PC & _ & _ & PK & PL & _).
  destruct (fetch_spec nocache key fl T (targets T) (prepare precious fl s T) []) as (pre & rest & SPL & G & _ & HM & _ & _ & _ & _ & _ & _ & L).
  destruct (fetch T (targets T) (prepare precious fl s T) []) as [s3 got]. cbn [fst snd app] in *. subst got.
  assert (rest = []).
  { destruct rest as [| t rest]; [reflexivity |]. specialize (HM t rest eq_refl). rewrite (hit_stable nocache key fl s (prepare precious fl s T) T t PC PK) in HM.
    rewrite HA in HM; [discriminate |]. rewrite SPL. apply in_or_app. right. left. reflexivity. }
  subst rest. rewrite app_nil_r in SPL. rewrite <- SPL, Nat.ltb_irrefl.
  destruct (visited_all_frame nocache key fl T (targets T) (record fl s3 T)) as (_ & _ & _ & L2 & _). destruct (record_frame fl s3 T) as (_ & _ & _ & _ & L3). rewrite L2, L3, L, PL.
  intros HI. apply in_app_or in HI. destruct HI as [HI | HI]; [exact HI |]. apply in_map_iff in HI. destruct HI as (t & E & _). destruct (cache_show fl); discriminate.
Qed.
End Real.
End Cop.

Lemma start_fit key fl P d c r o : no_exec fl = false -> sound P key c -> fit key P (start fl d c r o).
Proof. intros REAL SO. unfold start. rewrite REAL. split; [reflexivity | exact SO]. Qed.
Lemma run_app nocache precious key fl l1 l2 s : run nocache precious key fl (map Do (l1 ++ l2)) s = run nocache precious key fl (map Do l2) (run nocache precious key fl (map Do l1) s).
Proof. unfold run. rewrite map_app, fold_left_app. reflexivity. Qed.

(* C71f: after a real run with a writable cache every target (not NoCache) that was built or fetched is in the cache, under the key of what it now depends on, with its content; with --cache-force every target that was needed, up to date or not *)
Theorem C71f_filled :
  forall nocache precious key fl P l1 T l2 d c r o,
    proper P -> injective key -> no_exec fl = false -> cache_enabled fl = true -> has_dir fl = true -> cache_readonly fl = false ->
    (forall T', In T' (l1 ++ T :: l2) -> In T' P) -> NoDup (l1 ++ T :: l2) -> ordered (l1 ++ T :: l2) -> sound P key c -> honest P d r -> tidy P ->
    let s := run nocache precious key fl (map Do (l1 ++ T :: l2)) (start fl d c r o) in
    forall t x, In t (targets T) -> nocache t = false -> failed s t = false -> disk s t = Some x ->
    cache_force fl = true \/ uptodate (run nocache precious key fl (map Do l1) (start fl d c r o)) T = false ->
    cache s (key t (map (disk s) (deps T))) = Some x.
Proof.
  intros nocache precious key fl P l1 T l2 d c r o PR INJ REAL EN DI RO HP ND OR SO HO TI s t x HI NC NF HX HW.
  set (s0 := start fl d c r o) in *. assert (FI0 : fit key P s0) by (apply start_fit; assumption).
  assert (HO0 : honest P (disk s0) (store s0)) by (unfold s0, start; rewrite REAL; exact HO).
  (* honesty is kept, with or without --cache-force *)
  assert (HON : forall l s', (forall T', In T' l -> In T' P) -> fit key P s' -> honest P (disk s') (store s') ->
    let e := run nocache precious key fl (map Do l) s' in fit key P e /\ honest P (disk e) (store e)).
  { clear - PR INJ REAL TI. intros l. induction l as [| T l IH]; intros s' HP FI HO; cbn [map run fold_left act]; [split; assumption |].
    assert (ST : fit key P (step nocache precious key fl s' T) /\ honest P (disk (step nocache precious key fl s' T)) (store (step nocache precious key fl s' T))).
    { assert (HT : In T P) by (apply HP; left; reflexivity). split; [apply (step_fit nocache precious key fl P PR INJ REAL s' T HT FI (fun _ => HO) (fun _ => TI)) |].
      unfold step. destruct (existsb (failed s') (deps T)) eqn:EF; [exact HO |]. destruct (uptodate s' T) eqn:U.
      { destruct (visited_all_frame nocache key fl T (targets T) s') as (D & R & _). rewrite D, R. exact HO. }
      assert (NFD : forall d, In d (deps T) -> failed s' d = false).
      { intros d Hd. destruct (failed s' d) eqn:E; [| reflexivity]. assert (existsb (failed s') (deps T) = true) by (apply existsb_exists; exists d; split; assumption). congruence. }
      destruct (command T (map (disk s') (deps T))) as [ok f] eqn:CO.
      destruct (execute_real nocache precious key fl P PR INJ REAL s' T (map (disk s') (deps T)) ok f HT FI NFD) as (D & R & _); [intros E; unfold uptodate in U; rewrite E in U; discriminate | reflexivity | exact CO |].
      intros T' t l' x HT' HI HS HD. rewrite D in HD. rewrite R in HS. destruct (mem t (targets T)) eqn:E; [| rewrite andb_false_r in HS; exact (HO T' t l' x HT' HI HS HD)].
      apply mem_in in E. pose proof (proj1 PR T T' t HT HT' E HI) as ET. subst T'. destruct ok; cbn [andb] in HS; [injection HS as <-; exists f; split; assumption |]. rewrite (TI T _ f t HT CO E) in HD. discriminate. }
    destruct ST as [F H]. exact (IH _ (fun T' HI => HP T' (or_intror HI)) F H). }
  set (a := run nocache precious key fl (map Do l1) s0) in *.
  destruct (HON l1 s0) as [FA HA]; [intros T' HI'; apply HP; apply in_or_app; left; exact HI' | exact FI0 | exact HO0 |]. fold a in FA, HA.
  assert (HT : In T P) by (apply HP; apply in_or_app; right; left; reflexivity).
  set (b := step nocache precious key fl a T). assert (SB : s = run nocache precious key fl (map Do l2) b).
  { unfold s. rewrite run_app. fold a. reflexivity. }
  destruct (step_fit nocache precious key fl P PR INJ REAL a T HT FA (fun _ => HA) (fun _ => TI)) as [FB CB]. fold b in FB, CB.
  assert (HP2 : forall T', In T' l2 -> In T' P) by (intros T' HI'; apply HP; apply in_or_app; right; right; exact HI').
  assert (DS : forall n, (forall T', In T' l2 -> ~ In n (targets T')) -> disk s n = disk b n).
  { intros n N. rewrite SB. apply (run_disk nocache precious key fl P PR INJ REAL l2 b n HP2 FB CB (fun _ => TI) N). }
  assert (DT : disk s t = disk b t).
  { apply DS. intros T' HI' HT'. assert (T' = T) by (apply (proj1 PR T' T t); [apply HP2; exact HI' | exact HT | exact HT' | exact HI]). subst T'.
    apply NoDup_remove_2 in ND. apply ND. apply in_or_app. right. exact HI'. }
  assert (DL : map (disk s) (deps T) = map (disk b) (deps T)).
  { apply map_ext_in. intros n Hn. apply DS. intros T' HI'. exact (OR l1 T l2 eq_refl T' n HI' Hn). }
  assert (NB : failed b t = false).
  { destruct (failed b t) eqn:E; [| reflexivity]. rewrite SB in NF. rewrite (failed_mono nocache precious key fl l2 b t E) in NF. discriminate. }
  rewrite DT in HX. destruct (step_present nocache precious key fl P PR INJ REAL a T t x HT FA (fun _ => HA) (fun _ => TI) HI NB HX (fun _ => HA)) as [_ CP].
  rewrite DL, SB. apply run_mono. apply CP; [| exact NC | exact HW]. unfold writes, is_enabled. rewrite RO, EN, DI, REAL. reflexivity.
Qed.

(* C71g: after a run with --cache-force that succeeded, another build of the same tasks from the same sources (in another directory, by another user, after cleaning), reading that cache, executes no command and gives the same targets *)
Theorem C71g_shared :
  forall nocache precious key f1 f2 P l d1 c1 r1 o1 d2 c2 r2 o2,
    proper P -> injective key -> complete P -> tidy P -> no_exec f1 = false -> no_exec f2 = false -> cache_enabled f1 = true -> has_dir f1 = true -> cache_readonly f1 = false -> cache_force f1 = true ->
    cache_enabled f2 = true -> has_dir f2 = true ->
    (forall T, In T l -> In T P) -> NoDup l -> ordered l -> (forall T t, In T l -> In t (targets T) -> nocache t = false) ->
    sound P key c1 -> honest P d1 r1 -> sound P key c2 -> honest P d2 r2 ->
    let s1 := run nocache precious key f1 (map Do l) (start f1 d1 c1 r1 o1) in
    (forall T t, In T l -> In t (targets T) -> failed s1 t = false) ->
    (forall k x, cache s1 k = Some x -> c2 k = Some x) -> (forall n, (forall T, In T l -> ~ In n (targets T)) -> d2 n = d1 n) ->
    let s2 := run nocache precious key f2 (map Do l) (start f2 d2 c2 r2 o2) in
    (forall n, ~ In (Ran n) (log s2)) /\ (forall T t, In T l -> In t (targets T) -> disk s2 t = disk s1 t /\ failed s2 t = false).
Proof.
  intros nocache precious key f1 f2 P l d1 c1 r1 o1 d2 c2 r2 o2 PR INJ CP TI RE1 RE2 EN1 DI1 RO1 FO1 EN2 DI2 HP ND OR NC SO1 HO1 SO2 HO2 s1 OK SUB SRC s2.
  assert (FI1 : fit key P (start f1 d1 c1 r1 o1)) by (apply start_fit; assumption).
  assert (CA1 : careful f1 P (start f1 d1 c1 r1 o1)) by (intros _; unfold start; rewrite RE1; exact HO1).
  (* the targets of the first build *)
  assert (ONE : forall l1 T l2, l = l1 ++ T :: l2 -> forall t, In t (targets T) -> exists x, disk s1 t = Some x /\ cache s1 (key t (map (disk s1) (deps T))) = Some x /\ exists f, command T (map (disk s1) (deps T)) = (true, f) /\ f t = Some x).
  { intros l1 T l2 EL t HI. assert (HT : In T l) by (rewrite EL; apply in_or_app; right; left; reflexivity).
    assert (HX : exists x, disk s1 t = Some x /\ cache s1 (key t (map (disk s1) (deps T))) = Some x).
    { destruct (disk s1 t) as [x |] eqn:EX.
      - exists x. split; [reflexivity |]. pose proof (C71f_filled nocache precious key f1 P l1 T l2 d1 c1 r1 o1 PR INJ RE1 EN1 DI1 RO1) as FL. rewrite <- EL in FL. cbv zeta in FL. fold s1 in FL.
        apply (FL HP ND OR SO1 HO1 TI t x HI (NC T t HT HI) (OK T t HT HI) EX). left. exact FO1.
      - exfalso. set (a := run nocache precious key f1 (map Do l1) (start f1 d1 c1 r1 o1)). assert (HP1 : forall T', In T' l1 -> In T' P) by (intros T' H; apply HP; rewrite EL; apply in_or_app; left; exact H).
        assert (HP2 : forall T', In T' l2 -> In T' P) by (intros T' H; apply HP; rewrite EL; apply in_or_app; right; right; exact H).
        destruct (run_fit nocache precious key f1 P PR INJ RE1 l1 (start f1 d1 c1 r1 o1) HP1 FI1 CA1 (fun _ => TI)) as [FA CA]. fold a in FA, CA.
        destruct (step_fit nocache precious key f1 P PR INJ RE1 a T (HP T HT) FA CA (fun _ => TI)) as [FB CB]. set (b := step nocache precious key f1 a T) in *.
        assert (SB : s1 = run nocache precious key f1 (map Do l2) b) by (unfold s1; rewrite EL, run_app; reflexivity).
        assert (DB : disk s1 t = disk b t).
        { rewrite SB. apply (run_disk nocache precious key f1 P PR INJ RE1 l2 b t HP2 FB CB (fun _ => TI)). intros T' HI' HT'.
          assert (T' = T) by (apply (proj1 PR T' T t); [apply HP2; exact HI' | apply HP; exact HT | exact HT' | exact HI]). subst T'. rewrite EL in ND. apply NoDup_remove_2 in ND. apply ND. apply in_or_app. right. exact HI'. }
        assert (NB : failed b t = false).
        { destruct (failed b t) eqn:E; [| reflexivity]. specialize (OK T t HT HI). rewrite SB in OK. rewrite (failed_mono nocache precious key f1 l2 b t E) in OK. discriminate. }
        rewrite DB in EX. revert NB EX. unfold b, step. destruct (existsb (failed a) (deps T)) eqn:EF.
        + cbn [fail failed]. pose proof (proj2 (mem_in t (targets T)) HI) as E. rewrite E. discriminate.
        + destruct (uptodate a T) eqn:U.
          * intros _. destruct (visited_all_frame nocache key f1 T (targets T) a) as (D & _). rewrite D. apply uptodate_iff with (t := t) in U; [| exact HI]. exact (proj1 U).
          * assert (NFD : forall d, In d (deps T) -> failed a d = false).
            { intros d Hd. destruct (failed a d) eqn:E; [| reflexivity]. assert (existsb (failed a) (deps T) = true) by (apply existsb_exists; exists d; split; assumption). congruence. }
            destruct (command T (map (disk a) (deps T))) as [ok f] eqn:CO.
            destruct (execute_real nocache precious key f1 P PR INJ RE1 a T (map (disk a) (deps T)) ok f (HP T HT) FA NFD) as (D & _ & F & _); [intros E; unfold uptodate in U; rewrite E in U; discriminate | reflexivity | exact CO |].
            rewrite D, F. pose proof (proj2 (mem_in t (targets T)) HI) as E. rewrite E. destruct ok; [intros _; exact (CP T _ f t (HP T HT) CO HI) | discriminate]. }
    destruct HX as (x & HX & HC). exists x. split; [exact HX |]. split; [exact HC |]. exact (SO2 T t _ x (HP T HT) HI (SUB _ x HC)). }
  assert (SRC1 : forall n, (forall T, In T l -> ~ In n (targets T)) -> disk s1 n = d1 n).
  { intros n N. unfold s1. rewrite (run_disk nocache precious key f1 P PR INJ RE1 l _ n HP FI1 CA1 (fun _ => TI) N). unfold start. rewrite RE1. reflexivity. }
  assert (NF0 : forall n, failed (start f2 d2 c2 r2 o2) n = false) by (unfold start; rewrite RE2; reflexivity).
  (* the second build *)
  assert (TWO : forall l1 l2, l = l1 ++ l2 -> let a := run nocache precious key f2 (map Do l1) (start f2 d2 c2 r2 o2) in
    fit key P a /\ honest P (disk a) (store a) /\ (forall k x, c2 k = Some x -> cache a k = Some x) /\ (forall n, failed a n = false) /\ (forall n, ~ In (Ran n) (log a)) /\
    (forall n, (forall T, In T l2 -> ~ In n (targets T)) -> disk a n = disk s1 n)).
  { intros l1. induction l1 as [| T l1 IH] using rev_ind; intros l2 EL.
    - cbn [app] in EL. subst l2. cbn [map run fold_left]. split; [apply start_fit; assumption |]. unfold start. rewrite RE2. cbn [disk store cache failed log open].
      split; [exact HO2 |]. split; [intros k x E; exact E |]. split; [reflexivity |]. split; [intros n [] |]. intros n N. rewrite (SRC n N), (SRC1 n N). reflexivity.
    - rewrite <- app_assoc in EL. cbn [app] in EL. destruct (IH (T :: l2) EL) as (FA & HA & CA & NFA & LA & DA). rewrite run_app. set (a := run nocache precious key f2 (map Do l1) (start f2 d2 c2 r2 o2)) in *.
      cbn [map run fold_left act]. assert (HTl : In T l) by (rewrite EL; apply in_or_app; right; left; reflexivity). pose proof (HP T HTl) as HT.
      assert (DN : forall d, In d (deps T) -> ~ In d (targets T)) by (intros d; apply (proj2 PR T d HT)).
      assert (DL : map (disk a) (deps T) = map (disk s1) (deps T)).
      { apply map_ext_in. intros n Hn. apply DA. intros T' [<- | HI']; [exact (DN n Hn) | exact (OR l1 T l2 EL T' n HI' Hn)]. }
      assert (LC : map (csig a) (deps T) = map (disk s1) (deps T)) by (rewrite <- DL; apply map_ext; intros n; apply (proj1 FA), NFA).
      pose proof (ONE l1 T l2 EL) as ON. set (b := step nocache precious key f2 a T).
      assert (NBL : existsb (failed a) (deps T) = false).
      { destruct (existsb (failed a) (deps T)) eqn:E; [| reflexivity]. apply existsb_exists in E. destruct E as (n & _ & E). rewrite NFA in E. discriminate. }
      assert (DBT : forall n, disk b n = if mem n (targets T) then disk s1 n else disk a n).
      { intros n. destruct (mem n (targets T)) eqn:M; [| apply (step_disk nocache precious key f2 P PR INJ RE2 a T n HT FA); apply mem_out; exact M]. apply mem_in in M. destruct (ON n M) as (x & HX & HC & f & CF & FT).
        unfold b, step. rewrite NBL. destruct (uptodate a T) eqn:U.
        - destruct (visited_all_frame nocache key f2 T (targets T) a) as (D & _). rewrite D, HX. apply uptodate_iff with (t := n) in U; [| exact M]. destruct U as [UD US].
          destruct (disk a n) as [y |] eqn:EY; [| congruence]. destruct (HA T n _ y HT M US EY) as (f' & CF' & FT'). rewrite DL in CF'. congruence.
        - destruct (execute_real nocache precious key f2 P PR INJ RE2 a T (map (disk a) (deps T)) true f HT FA (fun d _ => NFA d)) as (D & _); [intros E; unfold uptodate in U; rewrite E in U; discriminate | reflexivity | rewrite DL; exact CF |].
          rewrite D. apply mem_in in M. rewrite M. congruence. }
      assert (FBN : forall n, failed b n = false /\ (store b n = store a n \/ store b n = Some (map (disk s1) (deps T)) /\ In n (targets T))).
      { intros n. unfold b, step. rewrite NBL. destruct (uptodate a T) eqn:U.
        - destruct (visited_all_frame nocache key f2 T (targets T) a) as (_ & R & F & _). rewrite R, F. split; [apply NFA | left; reflexivity].
        - destruct (targets T) as [| t0 ts] eqn:ET; [unfold uptodate in U; rewrite ET in U; discriminate |]. rewrite <- ET in *. destruct (ON t0) as (x & _ & _ & f & CF & _); [rewrite ET; left; reflexivity |].
          destruct (execute_real nocache precious key f2 P PR INJ RE2 a T (map (disk a) (deps T)) true f HT FA (fun d _ => NFA d)) as (_ & R & F & _); [rewrite ET; discriminate | reflexivity | rewrite DL; exact CF |].
          rewrite F, R. cbn [negb andb orb]. split; [apply NFA |]. destruct (mem n (targets T)) eqn:M; [right; split; [rewrite DL; reflexivity | apply mem_in; exact M] | left; reflexivity]. }
      split; [| split; [| split; [| split; [| split]]]].
      + assert (CA2 : careful f2 P a) by (intros _; exact HA). exact (proj1 (step_fit nocache precious key f2 P PR INJ RE2 a T HT FA CA2 (fun _ => TI))).
      + intros T' t l' y HT' HI' HS HD. fold b in HS, HD. rewrite DBT in HD. destruct (mem t (targets T)) eqn:M.
        * apply mem_in in M. pose proof (proj1 PR T T' t HT HT' M HI') as <-. destruct (ON t M) as (x & HX & _ & f & CF & FT). destruct (FBN t) as [_ [E | [E _]]]; rewrite E in HS.
          -- destruct (uptodate a T) eqn:U.
             ++ apply uptodate_iff with (t := t) in U; [| exact M]. destruct U as [_ US]. rewrite HS in US. injection US as ->. rewrite DL. exists f. split; [exact CF | congruence].
             ++ (* executed: recorded *)
                assert (ER : store b t = Some (map (disk s1) (deps T))).
                { unfold b, step. rewrite NBL, U. destruct (execute_real nocache precious key f2 P PR INJ RE2 a T (map (disk a) (deps T)) true f HT FA (fun d _ => NFA d)) as (_ & R & _); [intros E'; rewrite E' in M; destruct M | reflexivity | rewrite DL; exact CF |].
                  rewrite R. pose proof (proj2 (mem_in t (targets T)) M) as MM. rewrite MM, DL. reflexivity. }
                assert (l' = map (disk s1) (deps T)) as -> by congruence. exists f. split; [exact CF | congruence].
          -- injection HS as <-. exists f. split; [exact CF | congruence].
        * destruct (FBN t) as [_ [E | [_ E]]]; [rewrite E in HS; exact (HA T' t l' y HT' HI' HS HD) | apply mem_out in M; contradiction].
      + intros k x E. apply step_mono. apply CA. exact E.
      + intros n. exact (proj1 (FBN n)).
      + intros n HI. apply (LA n). apply (all_hit nocache precious key f2 a T); [| exact HI]. intros t Ht. destruct (ON t Ht) as (x & _ & HC & _). unfold hit, is_enabled, key_of.
        rewrite (NC T t HTl Ht), EN2, DI2, LC, (CA _ x (SUB _ x HC)). reflexivity.
      + intros n N. fold b. rewrite DBT. destruct (mem n (targets T)) eqn:M; [reflexivity |]. apply DA. intros T' [<- | HI']; [apply mem_out; exact M | exact (N T' HI')]. }
  destruct (TWO l [] ltac:(rewrite app_nil_r; reflexivity)) as (_ & _ & _ & NF & NL & DD). split; [exact NL |]. intros T t HT HI. split; [apply DD; intros T' [] | apply NF].
Qed.
Print Assumptions C71f_filled.
Print Assumptions C71g_shared.
