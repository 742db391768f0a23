(* C71a, C71b, C71c: see CopProps.v *)
From Coq Require Import List Bool Arith Lia.
Import ListNotations.
From Verif Require Import CopModel CopSpec CopProps.

Section Cop.
Variables nocache precious : node -> bool.
Variable key : node -> list (option content) -> sig.
Variable fl : flags.
Variable P : list task.
Hypothesis PR : proper P.
Hypothesis INJ : injective key.
Hypothesis REAL : no_exec fl = false.
Notation step := (step nocache precious key fl).
Notation run := (run nocache precious key fl).

Definition careful (s : state) : Prop := cache_force fl = true -> honest P (disk s) (store s).
Lemma step_real s p T : In T P -> fit key P s -> careful s -> (cache_force fl = true -> tidy P) -> same s p ->
  exists q, plain_step p T q /\ same (step s T) q /\ fit key P (step s T) /\ careful (step s T).
Proof.
  intros HT [KD SO] CA TI (SD & SS & SF). unfold CopModel.step.
  destruct (existsb (failed s) (deps T)) eqn:EF.
  - apply existsb_exists in EF. destruct EF as (d & Hd & FD). eexists. split; [apply (ps_blocked p T d Hd); rewrite <- SF; exact FD |].
    split; [split; [exact SD | split; [exact SS | intros n; cbn [fail failed p_failed]; rewrite SF; reflexivity]] |].
    split; [split; [| exact SO] | exact CA]. intros n HN. cbn [fail failed csig disk] in *. apply orb_false_iff in HN. apply KD. exact (proj2 HN).
  - assert (NF : forall d, In d (deps T) -> failed s d = false).
    { intros d Hd. destruct (failed s d) eqn:E; [| reflexivity]. assert (existsb (failed s) (deps T) = true) by (apply existsb_exists; exists d; split; assumption). congruence. }
    assert (NP : forall d, In d (deps T) -> p_failed p d = false) by (intros d Hd; rewrite <- SF; exact (NF d Hd)).
    assert (DL : map (p_disk p) (deps T) = map (disk s) (deps T)) by (apply map_ext; intros n; symmetry; apply SD).
    assert (LC : map (csig s) (deps T) = map (disk s) (deps T)) by (apply map_ext_in; intros d Hd; apply KD, NF; exact Hd).
    assert (CU : current p T <-> uptodate s T = true).
    { rewrite uptodate_iff. unfold current. split; intros HA t HI; destruct (HA t HI) as [H1 H2]; (split; [rewrite SD in * || rewrite <- SD in *; exact H1 |]).
      - rewrite SS, H2, DL. reflexivity.
      - rewrite <- SS, H2, DL. reflexivity. }
    destruct (uptodate s T) eqn:U.
    + exists p. split; [apply ps_current; [exact NP | apply CU; reflexivity] |].
      pose proof (proj1 (uptodate_iff s T) U) as UT. destruct (visited_all_frame nocache key fl T (targets T) s) as (D & R & F & _ & _).
      destruct (visited_all_real nocache key fl P PR INJ T (map (disk s) (deps T)) HT (targets T) s) as [SO' KS].
      { intros t HI. exact HI. }
      { exact LC. }
      { exact SO. }
      { intros CF t x HI HD. destruct (UT t HI) as [_ HS]. exact (CA CF T t _ x HT HI HS HD). }
      { intros t HI HD. destruct (UT t HI) as [HN _]. contradiction. }
      unfold same, fit, careful. rewrite D, R, F. split; [split; [exact SD | split; [exact SS | exact SF]] |]. split; [split; [| exact SO'] | exact CA].
      intros n HN. rewrite KS. destruct (mem n (targets T)); [reflexivity | exact (KD n HN)].
    + assert (NC : ~ current p T) by (intros HC; apply CU in HC; congruence).
      assert (NE : targets T <> []) by (intros E; unfold uptodate in U; rewrite E in U; discriminate).
      destruct (command T (map (disk s) (deps T))) as [ok f] eqn:CO.
      destruct (execute_real nocache precious key fl P PR INJ REAL s T _ ok f HT (conj KD SO) NF NE eq_refl CO) as (D & R & F & SO' & K).
      destruct ok; cbn [andb orb negb] in *.
      * eexists. split; [apply (ps_run p T f NP NC); rewrite DL; exact CO |]. split; [split; [intros n; rewrite D; cbn [p_disk]; rewrite SD; reflexivity | split; [intros n; rewrite R; cbn [p_store]; rewrite SS, DL; reflexivity | intros n; rewrite F; apply SF]] |].
        split; [split; [| exact SO'] |].
        -- intros n HN. rewrite F in HN. rewrite K, D. destruct (mem n (targets T)); [reflexivity | exact (KD n HN)].
        -- intros CF T' t l x HT' HI HS HD. rewrite D in HD. rewrite R in HS. destruct (mem t (targets T)) eqn:E; [| exact (CA CF T' t l x HT' HI HS HD)].
           apply mem_in in E. rewrite (proj1 PR T T' t HT HT' E HI) in CO. injection HS as <-. exists f. split; [| exact HD].
           rewrite <- CO. f_equal. rewrite (proj1 PR T T' t HT HT' E HI). reflexivity.
      * eexists. split; [apply (ps_failed p T f NP NC); rewrite DL; exact CO |]. split; [split; [intros n; rewrite D; cbn [p_disk]; rewrite SD; reflexivity | split; [intros n; rewrite R; cbn [p_store]; apply SS | intros n; rewrite F; cbn [p_failed]; rewrite SF; reflexivity]] |].
        split; [split; [| exact SO'] |].
        -- intros n HN. rewrite F in HN. apply orb_false_iff in HN. destruct HN as [HM HN]. rewrite K, D, HM. exact (KD n HN).
        -- intros CF T' t l x HT' HI HS HD. rewrite D in HD. rewrite R in HS. destruct (mem t (targets T)) eqn:E; [| exact (CA CF T' t l x HT' HI HS HD)].
           apply mem_in in E. rewrite (TI CF T _ f t HT CO E) in HD. discriminate.
Qed.

Lemma run_real : forall ls s p, (forall T, In T (tasks ls) -> In T P) -> fair P key ls -> fit key P s -> careful s -> (cache_force fl = true -> tidy P) -> same s p ->
  exists q, plain_run (tasks ls) p q /\ same (run ls s) q /\ fit key P (run ls s) /\ careful (run ls s).
Proof.
  induction ls as [| [T | k v] ls IH]; intros s p HP FA FI CA TI SA; cbn [tasks CopModel.run fold_left act].
  - exists p. split; [constructor |]. split; [exact SA |]. split; assumption.
  - destruct (step_real s p T (HP T (or_introl eq_refl)) FI CA TI SA) as (q & PS & SQ & FQ & CQ).
    destruct (IH (step s T) q) as (r & PR' & SR & FR & CR).
    + intros T' HI. apply HP. right. exact HI.
    + intros k x HI. apply FA. right. exact HI.
    + exact FQ.
    + exact CQ.
    + exact TI.
    + exact SQ.
    + exists r. split; [exact (pr_cons T _ p q r PS PR') |]. split; [exact SR |]. split; assumption.
  - destruct (IH (with_cache s (set (cache s) k v)) p) as (r & PR' & SR & FR & CR).
    + exact HP.
    + intros k' x HI. apply FA. right. exact HI.
    + destruct FI as [KD SO]. split; [exact KD |]. intros T t l x HT HI HC. cbn [with_cache cache] in HC. unfold set in HC.
      destruct (key t l =? k) eqn:E; [| exact (SO T t l x HT HI HC)]. subst v. apply Nat.eqb_eq in E. exact (FA k x (or_introl eq_refl) T t l HT HI E).
    + exact CA.
    + exact TI.
    + exact SA.
    + exists r. split; [exact PR' |]. split; [exact SR |]. split; assumption.
Qed.
End Cop.

(* C71a: whatever the options, whatever the (sound) cache and whatever other processes do to it: the files, the records and the failures are those of a build without cache; and the cache stays sound *)
Theorem C71a_same_result :
  forall nocache precious key fl P ls d c r o,
    proper P -> injective key -> no_exec fl = false ->
    (forall T, In T (tasks ls) -> In T P) -> sound P key c -> fair P key ls ->
    (cache_force fl = true -> honest P d r /\ tidy P) ->
    exists q, plain_run (tasks ls) (plain0 d r) q /\ same (run nocache precious key fl ls (start fl d c r o)) q /\ sound P key (cache (run nocache precious key fl ls (start fl d c r o))).
Proof.
  intros nocache precious key fl P ls d c r o PR INJ REAL HP SO FA FO.
  assert (ST : forall A (g : state -> A), (forall s, g (open fl s) = g s) -> g (start fl d c r o) = g {| disk := d; cache := c; store := r; failed := fun _ => false; csig := d; opened := o; log := [] |}).
  { intros A g E. unfold start. rewrite REAL. apply E. }
  destruct (run_real nocache precious key fl P PR INJ REAL ls (start fl d c r o) (plain0 d r)) as (q & PQ & SQ & FQ & _).
  - exact HP.
  - exact FA.
  - split.
    + intros n _. rewrite (ST _ (fun s => csig s n)), (ST _ (fun s => disk s n)) by reflexivity. reflexivity.
    + rewrite (ST _ cache) by reflexivity. exact SO.
  - intros CF. rewrite (ST _ disk), (ST _ store) by reflexivity. exact (proj1 (FO CF)).
  - intros CF. exact (proj2 (FO CF)).
  - split; [intros n; rewrite (ST _ disk) by reflexivity; reflexivity |]. split; [intros n; rewrite (ST _ store) by reflexivity; reflexivity | intros n; rewrite (ST _ failed) by reflexivity; reflexivity].
  - exists q. split; [exact PQ |]. split; [exact SQ |]. exact (proj2 FQ).
Qed.

(* C71b: with --cache-readonly, with --cache-disable and with -n, nothing in the cache is written, replaced or removed *)
Theorem C71b_not_written :
  forall nocache precious key fl ls d c r o, cache_readonly fl = true \/ cache_enabled fl = false \/ no_exec fl = true ->
  forall k, cache (run nocache precious key fl ls (start fl d c r o)) k = others ls c k.
Proof.
  intros nocache precious key fl ls d c r o HO k. rewrite run_cache_ro.
  - apply others_ext. intros k'. unfold start. destruct (no_exec fl); reflexivity.
  - unfold writes, is_enabled. destruct HO as [-> | [-> | ->]]; cbn [negb andb]; rewrite ?andb_false_r; reflexivity.
Qed.
Print Assumptions C71a_same_result.
Print Assumptions C71b_not_written.
