(* C71c, C71d, C71e: --cache-disable, NoCache() and --cache-show *)
From Coq Require Import List Bool Arith Lia.
Import ListNotations.
From Verif Require Import CopModel CopSpec CopProps CopProps2.

(* two runs that differ only in --cache-show, and in entries of the cache outside A *)
Section Two.
Variables nocache precious : node -> bool.
Variable key : node -> list (option content) -> sig.
Variables f1 f2 : flags.
Variable P : list task.
Variable A : sig -> Prop.
Hypothesis HD : has_dir f1 = has_dir f2.
Hypothesis HE : cache_enabled f1 = cache_enabled f2.
Hypothesis HR : cache_readonly f1 = cache_readonly f2.
Hypothesis HF : cache_force f1 = cache_force f2.
Hypothesis HN : no_exec f1 = no_exec f2.
Hypothesis HS : cache_show f1 = cache_show f2 \/ (cache_show f1 = false /\ cache_show f2 = true).
Hypothesis YES : forall T t l, In T P -> In t (targets T) -> is_enabled f1 = true -> nocache t = false -> A (key t l).
Hypothesis NOT : (no_exec f1 = false /\ complete P) \/ forall T t l, In T P -> In t (targets T) -> is_enabled f1 = true -> nocache t = true -> A (key t l).

Definition shown (e1 e2 : event) : Prop :=
  e1 = e2 \/ (cache_show f1 = false /\ cache_show f2 = true /\ exists T t, In T P /\ In t (targets T) /\ e1 = Got t /\ e2 = Shown (name T)).
Definition alike (s1 s2 : state) : Prop :=
  (forall n, disk s1 n = disk s2 n) /\ (forall n, store s1 n = store s2 n) /\ (forall n, failed s1 n = failed s2 n) /\ (forall n, csig s1 n = csig s2 n) /\
  (forall k, A k -> cache s1 k = cache s2 k) /\ Forall2 shown (log s1) (log s2).
Lemma en : is_enabled f1 = is_enabled f2.
Proof. unfold is_enabled. rewrite HD, HE. reflexivity. Qed.
Lemma wr : writes f1 = writes f2.
Proof. unfold writes. rewrite en, HR, HN. reflexivity. Qed.
Lemma alike_key s1 s2 T t : alike s1 s2 -> key_of key s1 T t = key_of key s2 T t.
Proof. intros (_ & _ & _ & K & _). unfold key_of. f_equal. apply map_ext. exact K. Qed.
Lemma log_app (a b c d : list event) : Forall2 shown a b -> Forall2 shown c d -> Forall2 shown (a ++ c) (b ++ d).
Proof. apply Forall2_app. Qed.
Lemma shown_refl l : Forall2 shown l l.
Proof. induction l as [| e l IH]; constructor; [left; reflexivity | exact IH]. Qed.

Lemma hit_alike s1 s2 T t : In T P -> In t (targets T) -> alike s1 s2 -> hit nocache key f1 s1 T t = hit nocache key f2 s2 T t.
Proof.
  intros HT HI AL. unfold hit. rewrite <- en, <- (alike_key s1 s2 T t AL). destruct (nocache t) eqn:NC; [reflexivity |]. destruct (is_enabled f1) eqn:E; [| reflexivity]. cbn [negb andb].
  destruct AL as (_ & _ & _ & _ & C & _). rewrite (C (key_of key s1 T t)); [reflexivity | exact (YES T t _ HT HI eq_refl NC)].
Qed.
Lemma retrieve_alike s1 s2 T t : In T P -> In t (targets T) -> alike s1 s2 ->
  fst (retrieve nocache key f1 s1 T t) = fst (retrieve nocache key f2 s2 T t) /\ alike (snd (retrieve nocache key f1 s1 T t)) (snd (retrieve nocache key f2 s2 T t)).
Proof.
  intros HT HI AL. pose proof (hit_alike s1 s2 T t HT HI AL) as HH. rewrite !retrieve_hit. split; [exact HH |].
  destruct (retrieve_frame nocache key f1 s1 T t) as (C1 & R1 & F1 & K1 & DO1 & DT1 & L1). destruct (retrieve_frame nocache key f2 s2 T t) as (C2 & R2 & F2 & K2 & DO2 & DT2 & L2).
  pose proof (alike_key s1 s2 T t AL) as KK. pose proof AL as (D & R & F & K & C & L). unfold alike. rewrite C1, C2, R1, R2, F1, F2, K1, K2, L1, L2.
  split; [| split; [exact R | split; [exact F | split; [exact K | split; [exact C |]]]]].
  - intros n. destruct (Nat.eq_dec n t) as [-> | N]; [| rewrite DO1, DO2 by exact N; apply D]. rewrite DT1, DT2, <- HH, <- HN, <- KK.
    destruct (hit nocache key f1 s1 T t) eqn:E; cbn [andb]; [| apply D]. destruct (no_exec f1); cbn [negb]; [apply D |]. apply C.
    unfold hit in E. rewrite !andb_true_iff in E. destruct E as [[E1 E2] _]. apply negb_true_iff in E1. exact (YES T t _ HT HI E2 E1).
  - apply log_app; [exact L |]. rewrite <- HH. destruct (hit nocache key f1 s1 T t); [| constructor]. constructor; [| constructor].
    destruct HS as [-> | [S1 S2]]; [left; reflexivity |]. rewrite S1, S2. right. split; [exact S1 |]. split; [exact S2 |]. exists T, t. repeat split; assumption.
Qed.
Lemma fetch_alike T : In T P -> forall ts s1 s2 got, (forall t, In t ts -> In t (targets T)) -> alike s1 s2 ->
  snd (fetch nocache key f1 T ts s1 got) = snd (fetch nocache key f2 T ts s2 got) /\ alike (fst (fetch nocache key f1 T ts s1 got)) (fst (fetch nocache key f2 T ts s2 got)).
Proof.
  intros HT ts. induction ts as [| t ts IH]; intros s1 s2 got SUB AL; cbn [fetch]; [split; [reflexivity | exact AL] |].
  destruct (retrieve_alike s1 s2 T t HT (SUB t (or_introl eq_refl)) AL) as [E AL'].
  destruct (retrieve nocache key f1 s1 T t) as [h1 r1]. destruct (retrieve nocache key f2 s2 T t) as [h2 r2]. cbn [fst snd] in *. subst h2.
  destruct h1; [apply IH; [intros t' HI; apply SUB; right; exact HI | exact AL'] | split; [reflexivity | exact AL']].
Qed.
Lemma cache_put s1 s2 c1 c2 : alike s1 s2 -> disk c1 = disk s1 -> store c1 = store s1 -> failed c1 = failed s1 -> csig c1 = csig s1 -> log c1 = log s1 ->
  disk c2 = disk s2 -> store c2 = store s2 -> failed c2 = failed s2 -> csig c2 = csig s2 -> log c2 = log s2 -> (forall k, A k -> cache c1 k = cache c2 k) -> alike c1 c2.
Proof. intros (D & R & F & K & C & L) D1 R1 F1 K1 L1 D2 R2 F2 K2 L2 CC. unfold alike. rewrite D1, R1, F1, K1, L1, D2, R2, F2, K2, L2. repeat split; assumption. Qed.
Lemma push_to_cache_alike T t s1 s2 : alike s1 s2 -> alike (push_to_cache nocache key f1 T s1 t) (push_to_cache nocache key f2 T s2 t).
Proof.
  intros AL. destruct (push_to_cache_frame nocache key f1 T s1 t) as (D1 & R1 & F1 & K1 & L1). destruct (push_to_cache_frame nocache key f2 T s2 t) as (D2 & R2 & F2 & K2 & L2).
  apply (cache_put s1 s2); try assumption. intros k HA. rewrite !push_to_cache_cache, <- wr, <- (alike_key s1 s2 T t AL). destruct AL as (D & _ & _ & _ & C & _). rewrite <- D, (C k HA). reflexivity.
Qed.
Lemma push_all_alike T ts : forall s1 s2, alike s1 s2 -> alike (fold_left (push_to_cache nocache key f1 T) ts s1) (fold_left (push_to_cache nocache key f2 T) ts s2).
Proof. induction ts as [| t ts IH]; intros s1 s2 AL; cbn [fold_left]; [exact AL |]. apply IH. apply push_to_cache_alike. exact AL. Qed.
Lemma visited_alike T t s1 s2 : In T P -> In t (targets T) -> (is_enabled f1 = true -> disk s1 t = None -> forall l, A (key t l)) -> alike s1 s2 -> alike (visited nocache key f1 T s1 t) (visited nocache key f2 T s2 t).
Proof.
  intros HT HI HV AL. destruct (visited_frame nocache key f1 T s1 t) as (D1 & R1 & F1 & L1 & C1 & K1). destruct (visited_frame nocache key f2 T s2 t) as (D2 & R2 & F2 & L2 & C2 & K2).
  pose proof (alike_key s1 s2 T t AL) as KK. pose proof AL as (D & R & F & K & C & L).
  unfold alike. rewrite D1, D2, R1, R2, F1, F2, L1, L2, C1, C2. split; [exact D |]. split; [exact R |]. split; [exact F |]. split; [| split; [| exact L]].
  - intros n. destruct (Nat.eq_dec n t) as [-> | N]; [| rewrite K1, K2 by exact N; apply K]. rewrite !visited_csig, <- D, <- en, <- KK.
    destruct (disk s1 t) as [x |] eqn:E; [reflexivity |]. destruct (is_enabled f1) eqn:EN; [| reflexivity]. apply C. exact (HV eq_refl eq_refl _).
  - intros k HA. rewrite !forced_cache, <- wr, <- HF, <- KK, <- D, (C k HA). reflexivity.
Qed.
Lemma visited_all_alike T : In T P -> forall ts s1 s2, (forall t, In t ts -> In t (targets T)) -> (forall t, In t ts -> is_enabled f1 = true -> disk s1 t = None -> forall l, A (key t l)) -> alike s1 s2 ->
  alike (fold_left (visited nocache key f1 T) ts s1) (fold_left (visited nocache key f2 T) ts s2).
Proof.
  intros HT ts. induction ts as [| t ts IH]; intros s1 s2 SUB HV AL; cbn [fold_left]; [exact AL |]. apply IH.
  - intros t' HI. apply SUB. right. exact HI.
  - intros t' HI. destruct (visited_frame nocache key f1 T s1 t) as (D1 & _). rewrite D1. apply HV. right. exact HI.
  - apply visited_alike; [exact HT | apply SUB; left; reflexivity | apply HV; left; reflexivity | exact AL].
Qed.
Lemma uptodate_alike s1 s2 T : alike s1 s2 -> uptodate s1 T = uptodate s2 T.
Proof.
  intros (D & R & _). unfold uptodate. assert (E : map (disk s1) (deps T) = map (disk s2) (deps T)) by (apply map_ext; exact D).
  induction (targets T) as [| t ts IH]; cbn [forallb]; [reflexivity |]. rewrite IH, D, R, E. reflexivity.
Qed.
Lemma prepare_alike s1 s2 T : alike s1 s2 -> alike (prepare precious f1 s1 T) (prepare precious f2 s2 T).
Proof.
  intros AL. unfold prepare. rewrite <- HN. destruct (no_exec f1); [exact AL |]. destruct AL as (D & R & F & K & C & L). repeat split; try assumption.
  intros n. cbn [with_disk disk]. rewrite D. reflexivity.
Qed.
Lemma record_alike s1 s2 T : alike s1 s2 -> alike (record f1 s1 T) (record f2 s2 T).
Proof.
  intros AL. unfold record. rewrite <- HN. destruct (no_exec f1); [exact AL |]. destruct AL as (D & R & F & K & C & L). repeat split; try assumption.
  intros n. cbn [store]. rewrite R. assert (E : map (disk s1) (deps T) = map (disk s2) (deps T)) by (apply map_ext; exact D). rewrite E. reflexivity.
Qed.
Lemma fail_alike s1 s2 T : alike s1 s2 -> alike (fail s1 T) (fail s2 T).
Proof. intros (D & R & F & K & C & L). repeat split; try assumption. intros n. cbn [fail failed]. rewrite F. reflexivity. Qed.
Lemma unlink_alike s1 s2 got : alike s1 s2 -> alike (unlink_all s1 got) (unlink_all s2 got).
Proof. intros (D & R & F & K & C & L). repeat split; try assumption. intros n. cbn [unlink_all with_disk disk]. rewrite D. reflexivity. Qed.
Lemma build_alike s1 s2 T : alike s1 s2 -> fst (build f1 s1 T) = fst (build f2 s2 T) /\ alike (snd (build f1 s1 T)) (snd (build f2 s2 T)).
Proof.
  intros (D & R & F & K & C & L). unfold build. rewrite <- HN. destruct (no_exec f1).
  - split; [reflexivity |]. repeat split; try assumption. cbn [snd with_log log]. apply log_app; [exact L | apply shown_refl].
  - assert (E : map (disk s1) (deps T) = map (disk s2) (deps T)) by (apply map_ext; exact D). rewrite E. destruct (command T (map (disk s2) (deps T))) as [ok f].
    split; [reflexivity |]. repeat split; try assumption; cbn [snd with_log with_disk log disk]; [intros n; rewrite D; reflexivity | apply log_app; [exact L | apply shown_refl]].
Qed.
Lemma step_alike s1 s2 T : In T P -> alike s1 s2 -> alike (step nocache precious key f1 s1 T) (step nocache precious key f2 s2 T).
Proof.
  intros HT AL. unfold step. assert (EF : existsb (failed s1) (deps T) = existsb (failed s2) (deps T)).
  { destruct AL as (_ & _ & F & _). induction (deps T) as [| d l IH]; cbn [existsb]; [reflexivity |]. rewrite IH, F. reflexivity. }
  rewrite <- EF. destruct (existsb (failed s1) (deps T)); [apply fail_alike; exact AL |].
  rewrite <- (uptodate_alike s1 s2 T AL). destruct (uptodate s1 T) eqn:U.
  { apply visited_all_alike; [exact HT | intros t HI; exact HI | | exact AL]. intros t HI _ E. apply uptodate_iff with (t := t) in U; [| exact HI]. destruct U as [UN _]. contradiction. }
  unfold execute. pose proof (prepare_alike s1 s2 T AL) as AP.
  destruct (fetch_alike T HT (targets T) _ _ [] (fun t HI => HI) AP) as [EG AF].
  destruct (fetch_spec nocache key f1 T (targets T) (prepare precious f1 s1 T) []) as (pre & rest & SPL & G & HH & _).
  destruct (fetch nocache key f1 T (targets T) (prepare precious f1 s1 T) []) as [r1 g1]. destruct (fetch nocache key f2 T (targets T) (prepare precious f2 s2 T) []) as [r2 g2].
  cbn [fst snd app] in *. subst g2. subst g1. destruct (length pre <? length (targets T)) eqn:LEN.
  - destruct (build_alike _ _ T (unlink_alike r1 r2 pre AF)) as [EB AB].
    assert (DB : fst (build f1 (unlink_all r1 pre) T) = true -> no_exec f1 = false -> complete P -> forall t, In t (targets T) -> disk (snd (build f1 (unlink_all r1 pre) T)) t <> None).
    { unfold build. intros OK NE CP t HI. rewrite NE in *. destruct (command T (map (disk (unlink_all r1 pre)) (deps T))) as [ok f] eqn:CO. cbn [fst snd with_log with_disk disk] in *. subst ok.
      pose proof (proj2 (mem_in t (targets T)) HI) as E. rewrite E. exact (CP T _ f t HT CO HI). }
    destruct (build f1 (unlink_all r1 pre) T) as [o1 b1]. destruct (build f2 (unlink_all r2 pre) T) as [o2 b2]. cbn [fst snd] in *. subst o2. destruct o1; [| apply fail_alike; exact AB].
    apply visited_all_alike; [exact HT | intros t HI; exact HI | | apply record_alike, push_all_alike; exact AB].
    intros t HI EN E l. destruct (record_frame f1 (fold_left (push_to_cache nocache key f1 T) (targets T) b1) T) as (_ & D3 & _). destruct (push_all_frame nocache key f1 T (targets T) b1) as (D4 & _).
    rewrite D3, D4 in E. destruct (nocache t) eqn:NC; [| exact (YES T t l HT HI EN NC)]. destruct NOT as [[NE CP] | HNO]; [| exact (HNO T t l HT HI EN NC)].
    destruct (DB eq_refl NE CP t HI E).
  - apply visited_all_alike; [exact HT | intros t HI; exact HI | | apply record_alike; exact AF].
    intros t HI EN _ l. assert (rest = []). { apply Nat.ltb_ge in LEN. rewrite SPL, app_length in LEN. destruct rest; [reflexivity | cbn [length] in LEN; lia]. }
    subst rest. rewrite app_nil_r in SPL. rewrite SPL in HI. specialize (HH t HI). unfold hit in HH. rewrite !andb_true_iff in HH. destruct HH as [[NC _] _]. apply negb_true_iff in NC.
    rewrite <- SPL in HI. exact (YES T t l HT HI EN NC).
Qed.
Lemma run_alike ls : forall s1 s2, (forall T, In T (tasks ls) -> In T P) -> alike s1 s2 -> alike (run nocache precious key f1 ls s1) (run nocache precious key f2 ls s2).
Proof.
  induction ls as [| [T | k v] ls IH]; intros s1 s2 HP AL; cbn [run fold_left act]; [exact AL | |].
  - apply IH; [intros T' HI; apply HP; right; exact HI |]. apply step_alike; [apply HP; left; reflexivity | exact AL].
  - apply IH; [exact HP |]. destruct AL as (D & R & F & K & C & L). repeat split; try assumption. intros k' HA. cbn [with_cache cache]. unfold set. rewrite (C k' HA). reflexivity.
Qed.
Lemma start_alike d r c1 c2 o : (forall k, A k -> c1 k = c2 k) -> alike (start f1 d c1 r o) (start f2 d c2 r o).
Proof. intros E. unfold start. rewrite <- HN. clear - E. destruct (no_exec f1); repeat split; try constructor; exact E. Qed.
End Two.

Lemma same_log f P l1 l2 : Forall2 (shown f f P) l1 l2 -> l1 = l2.
Proof. intros FA. induction FA as [| e1 e2 l1 l2 [-> | (S1 & S2 & _)] FA IH]; [reflexivity | rewrite IH; reflexivity | congruence]. Qed.

(* C71c: with --cache-disable (or no CacheDir) what is in a cache does not matter, and nothing is fetched *)
Theorem C71c_disabled :
  forall nocache precious key fl ls d r o c1 c2, cache_enabled fl = false \/ has_dir fl = false ->
  let s1 := run nocache precious key fl ls (start fl d c1 r o) in let s2 := run nocache precious key fl ls (start fl d c2 r o) in
  (forall n, disk s1 n = disk s2 n) /\ (forall n, store s1 n = store s2 n) /\ (forall n, failed s1 n = failed s2 n) /\ log s1 = log s2 /\
  (forall t, ~ In (Got t) (log s1)) /\ (no_exec fl = false -> forall n, In (Shown n) (log s1) <-> In (Ran n) (log s1)).
Proof.
  intros nocache precious key fl ls d r o c1 c2 OFF s1 s2. assert (EN : is_enabled fl = false) by (unfold is_enabled; destruct OFF as [-> | ->]; rewrite ?andb_false_r; reflexivity).
  destruct (run_alike nocache precious key fl fl (tasks ls) (fun _ => False) eq_refl eq_refl eq_refl eq_refl eq_refl (or_introl eq_refl)
    ltac:(intros T t l _ _ E; congruence) ltac:(right; intros T t l _ _ E; congruence) ls (start fl d c1 r o) (start fl d c2 r o) (fun T HI => HI)) as (D & R & F & _ & _ & L).
  { apply start_alike; [reflexivity | intros k []]. }
  split; [exact D |]. split; [exact R |]. split; [exact F |]. split; [exact (same_log fl (tasks ls) _ _ L) |].
  assert (HL : forall ls s, (forall t, ~ In (Got t) (log s)) -> (no_exec fl = false -> forall n, In (Shown n) (log s) <-> In (Ran n) (log s)) ->
    (forall t, ~ In (Got t) (log (run nocache precious key fl ls s))) /\ (no_exec fl = false -> forall n, In (Shown n) (log (run nocache precious key fl ls s)) <-> In (Ran n) (log (run nocache precious key fl ls s)))).
  { clear - EN. intros ls. induction ls as [| [T | k v] ls IH]; intros s HG HS; cbn [run fold_left act]; [split; assumption | | apply IH; assumption].
    assert (HLOG : log (step nocache precious key fl s T) = log s \/ log (step nocache precious key fl s T) = log s ++ (if no_exec fl then [Shown (name T)] else [Shown (name T); Ran (name T)])).
    { unfold step. destruct (existsb (failed s) (deps T)); [left; reflexivity |]. destruct (uptodate s T).
      - destruct (visited_all_frame nocache key fl T (targets T) s) as (_ & _ & _ & L & _). left. exact L.
      - unfold execute. destruct (prepare_frame precious fl s T) as (_ & _ & _ & _ & PL & _).
        destruct (fetch_spec nocache key fl T (targets T) (prepare precious fl s T) []) as (pre & rest & SPL & G & HH & _ & _ & _ & _ & _ & _ & _ & L).
        destruct (fetch nocache key fl T (targets T) (prepare precious fl s T) []) as [s1 got]. cbn [fst snd app] in *. subst got.
        assert (pre = []) as ->. { destruct pre as [| t pre]; [reflexivity |]. specialize (HH t (or_introl eq_refl)). unfold hit in HH. rewrite EN, andb_false_r in HH. discriminate. }
        cbn [map] in L. rewrite app_nil_r, PL in L. destruct (length (@nil nat) <? length (targets T)).
        + assert (BL : log (snd (build fl (unlink_all s1 []) T)) = log s ++ (if no_exec fl then [Shown (name T)] else [Shown (name T); Ran (name T)])).
          { unfold build. destruct (no_exec fl); [cbn [snd with_log log unlink_all with_disk]; rewrite L; reflexivity |].
            destruct (command T (map (disk (unlink_all s1 [])) (deps T))) as [ok f]. cbn [snd with_log log unlink_all with_disk]. rewrite L. reflexivity. }
          destruct (build fl (unlink_all s1 []) T) as [ok b]. cbn [snd] in BL. right. destruct ok; [| exact BL].
          destruct (visited_all_frame nocache key fl T (targets T) (record fl (fold_left (push_to_cache nocache key fl T) (targets T) b) T)) as (_ & _ & _ & L2 & _).
          destruct (record_frame fl (fold_left (push_to_cache nocache key fl T) (targets T) b) T) as (_ & _ & _ & _ & L3). destruct (push_all_frame nocache key fl T (targets T) b) as (_ & _ & _ & _ & L4).
          congruence.
        + left. destruct (visited_all_frame nocache key fl T (targets T) (record fl s1 T)) as (_ & _ & _ & L2 & _). destruct (record_frame fl s1 T) as (_ & _ & _ & _ & L3). congruence. }
    apply IH.
    - intros t HI. destruct HLOG as [E | E]; rewrite E in HI; [exact (HG t HI) |]. apply in_app_or in HI. destruct HI as [HI | HI]; [exact (HG t HI) |].
      destruct (no_exec fl); cbn [In] in HI; [destruct HI as [HI | HI] | destruct HI as [HI | [HI | HI]]]; (discriminate || exact HI).
    - intros NE n. rewrite NE in HLOG. destruct HLOG as [E | E]; rewrite E; [exact (HS NE n) |]. rewrite !in_app_iff, (HS NE n). cbn [In].
      split; (intros [HI | [HI | [HI | HI]]]; [left; exact HI | | | destruct HI]); try discriminate; right; injection HI as ->; [right; left; reflexivity | left; reflexivity]. }
  apply HL.
  - intros t HI. unfold start in HI. destruct (no_exec fl); destruct HI.
  - intros NE n. unfold start. rewrite NE. split; intros HI; destruct HI.
Qed.

(* C71d: a NoCache() target is never fetched and never stored: entries under its keys neither matter nor change *)
Theorem C71d_nocache :
  forall nocache precious key fl P ls d r o c1 c2, injective key -> proper P -> complete P -> no_exec fl = false -> (forall T, In T (tasks ls) -> In T P) ->
  (forall k, (forall t l, nocache t = true -> k <> key t l) -> c1 k = c2 k) ->
  let s1 := run nocache precious key fl ls (start fl d c1 r o) in let s2 := run nocache precious key fl ls (start fl d c2 r o) in
  (forall n, disk s1 n = disk s2 n) /\ (forall n, store s1 n = store s2 n) /\ (forall n, failed s1 n = failed s2 n) /\ log s1 = log s2 /\
  (forall k, (forall t l, nocache t = true -> k <> key t l) -> cache s1 k = cache s2 k) /\ (forall t l, nocache t = true -> cache s1 (key t l) = others ls c1 (key t l)).
Proof.
  intros nocache precious key fl P ls d r o c1 c2 INJ PR CP REAL HP E s1 s2.
  destruct (run_alike nocache precious key fl fl P (fun k => forall t l, nocache t = true -> k <> key t l) eq_refl eq_refl eq_refl eq_refl eq_refl (or_introl eq_refl)
    ltac:(intros T t l _ _ _ NC t' l' NC' K; destruct (INJ _ _ _ _ K) as [-> _]; congruence) (or_introl (conj REAL CP)) ls (start fl d c1 r o) (start fl d c2 r o) HP) as (D & R & F & _ & C & L).
  { apply start_alike; [reflexivity | exact E]. }
  split; [exact D |]. split; [exact R |]. split; [exact F |]. split; [exact (same_log fl P _ _ L) |]. split; [exact C |].
  assert (PK : forall T ts s t l, nocache t = true -> cache (fold_left (push_to_cache nocache key fl T) ts s) (key t l) = cache s (key t l)).
  { clear - INJ. intros T ts. induction ts as [| t' ts IH]; intros s t l NC; cbn [fold_left]; [reflexivity |]. rewrite IH by exact NC. rewrite push_to_cache_cache.
    destruct (key t l =? key_of key s T t') eqn:K; [| rewrite andb_false_r; reflexivity]. apply Nat.eqb_eq in K. unfold key_of in K. destruct (INJ _ _ _ _ K) as [<- _]. rewrite NC. cbn [negb]. rewrite andb_false_r. reflexivity. }
  assert (VK : forall T ts s t l, nocache t = true -> cache (fold_left (visited nocache key fl T) ts s) (key t l) = cache s (key t l)).
  { clear - INJ. intros T ts. induction ts as [| t' ts IH]; intros s t l NC; cbn [fold_left]; [reflexivity |]. rewrite IH by exact NC. destruct (visited_frame nocache key fl T s t') as (_ & _ & _ & _ & C & _). rewrite C, forced_cache.
    destruct (key t l =? key_of key s T t') eqn:K; [| rewrite andb_false_r; reflexivity]. apply Nat.eqb_eq in K. unfold key_of in K. destruct (INJ _ _ _ _ K) as [<- _]. rewrite NC. cbn [negb]. rewrite andb_false_r. reflexivity. }
  assert (SK : forall T s t l, nocache t = true -> cache (step nocache precious key fl s T) (key t l) = cache s (key t l)).
  { intros T s t l NC. unfold step. destruct (existsb (failed s) (deps T)); [reflexivity |]. destruct (uptodate s T); [apply VK; exact NC |].
    unfold execute. destruct (prepare_frame precious fl s T) as (PC & _).
    destruct (fetch_spec nocache key fl T (targets T) (prepare precious fl s T) []) as (pre & rest & _ & _ & _ & _ & FC & _).
    destruct (fetch nocache key fl T (targets T) (prepare precious fl s T) []) as [s3 got]. cbn [fst] in FC. destruct (length got <? length (targets T)).
    - destruct (build_frame fl (unlink_all s3 got) T) as (BC & _). destruct (build fl (unlink_all s3 got) T) as [ok b]. cbn [snd] in BC. destruct ok.
      + rewrite VK by exact NC. destruct (record_frame fl (fold_left (push_to_cache nocache key fl T) (targets T) b) T) as (RC & _). rewrite RC, PK by exact NC. rewrite BC. change (cache (unlink_all s3 got)) with (cache s3). congruence.
      + change (cache (fail b T)) with (cache b). rewrite BC. change (cache (unlink_all s3 got)) with (cache s3). congruence.
    - rewrite VK by exact NC. destruct (record_frame fl s3 T) as (RC & _). congruence. }
  intros t l NC. assert (RK : forall ls s, cache (run nocache precious key fl ls s) (key t l) = others ls (cache s) (key t l)).
  { clear - SK NC. intros ls. induction ls as [| [T | k v] ls IH]; intros s; cbn [run fold_left act others]; [reflexivity | |].
    - change (fold_left (act nocache precious key fl) ls (step nocache precious key fl s T)) with (run nocache precious key fl ls (step nocache precious key fl s T)). rewrite IH.
      assert (OE : forall ls c c', c (key t l) = c' (key t l) -> others ls c (key t l) = others ls c' (key t l)).
      { clear. intros ls. induction ls as [| [T | k v] ls IH]; intros c c' E; cbn [others]; [exact E | apply IH; exact E | apply IH; destruct (key t l =? k); [reflexivity | exact E]]. }
      apply OE. apply SK. exact NC.
    - change (fold_left (act nocache precious key fl) ls (with_cache s (set (cache s) k v))) with (run nocache precious key fl ls (with_cache s (set (cache s) k v))). rewrite IH. reflexivity. }
  unfold s1. rewrite RK. unfold start. rewrite REAL. reflexivity.
Qed.

(* C71e: --cache-show changes only what is printed: for a file fetched from the cache, the command line instead of the message *)
Theorem C71e_show :
  forall nocache precious key f1 f2 P ls d c r o,
    has_dir f1 = has_dir f2 -> cache_enabled f1 = cache_enabled f2 -> cache_readonly f1 = cache_readonly f2 -> cache_force f1 = cache_force f2 -> no_exec f1 = no_exec f2 ->
    cache_show f1 = false -> cache_show f2 = true -> (forall T, In T (tasks ls) -> In T P) ->
    let s1 := run nocache precious key f1 ls (start f1 d c r o) in let s2 := run nocache precious key f2 ls (start f2 d c r o) in
    (forall n, disk s1 n = disk s2 n) /\ (forall n, store s1 n = store s2 n) /\ (forall n, failed s1 n = failed s2 n) /\ (forall k, cache s1 k = cache s2 k) /\
    Forall2 (fun e1 e2 => match e1 with Got t => exists T, In T P /\ In t (targets T) /\ e2 = Shown (name T) | _ => e2 = e1 end) (log s1) (log s2).
Proof.
  intros nocache precious key f1 f2 P ls d c r o HD HE HR HF HN S1 S2 HP s1 s2.
  destruct (run_alike nocache precious key f1 f2 P (fun _ => True) HD HE HR HF HN (or_intror (conj S1 S2))
    ltac:(intros; exact Logic.I) ltac:(right; intros; exact Logic.I) ls (start f1 d c r o) (start f2 d c r o) HP) as (D & R & F & _ & C & L).
  { apply start_alike; [exact HN | reflexivity]. }
  split; [exact D |]. split; [exact R |]. split; [exact F |]. split; [intros k; apply C; exact Logic.I |].
  assert (NG : forall ls s, (forall t, ~ In (Got t) (log s)) -> forall t, ~ In (Got t) (log (run nocache precious key f2 ls s))).
  { clear - S2. intros ls. induction ls as [| [T | k v] ls IH]; intros s HG; cbn [run fold_left act]; [exact HG | | apply IH; exact HG]. apply IH.
    intros t HI. revert HI. unfold step. destruct (existsb (failed s) (deps T)); [apply HG |]. destruct (uptodate s T).
    { destruct (visited_all_frame nocache key f2 T (targets T) s) as (_ & _ & _ & L & _). rewrite L. apply HG. }
    unfold execute. destruct (prepare_frame precious f2 s T) as (_ & _ & _ & _ & PL & _).
    destruct (fetch_spec nocache key f2 T (targets T) (prepare precious f2 s T) []) as (pre & rest & _ & _ & _ & _ & _ & _ & _ & _ & _ & _ & L).
    destruct (fetch nocache key f2 T (targets T) (prepare precious f2 s T) []) as [s1 got]. cbn [fst] in L. rewrite PL, S2 in L.
    assert (G1 : ~ In (Got t) (log s1)).
    { rewrite L. intros HI. apply in_app_or in HI. destruct HI as [HI | HI]; [exact (HG t HI) |]. apply in_map_iff in HI. destruct HI as (x & X & _). discriminate. }
    destruct (length got <? length (targets T)).
    - assert (G2 : ~ In (Got t) (log (snd (build f2 (unlink_all s1 got) T)))).
      { unfold build. destruct (no_exec f2); [| destruct (command T (map (disk (unlink_all s1 got)) (deps T))) as [ok f]]; cbn [snd with_log log with_disk unlink_all]; intros HI; apply in_app_or in HI; destruct HI as [HI | HI]; try (exact (G1 HI));
          cbn [In] in HI; repeat (destruct HI as [HI | HI]; [discriminate |]); exact HI. }
      destruct (build f2 (unlink_all s1 got) T) as [ok b]. cbn [snd] in G2. destruct ok; [| exact G2].
      destruct (visited_all_frame nocache key f2 T (targets T) (record f2 (fold_left (push_to_cache nocache key f2 T) (targets T) b) T)) as (_ & _ & _ & L2 & _).
      destruct (record_frame f2 (fold_left (push_to_cache nocache key f2 T) (targets T) b) T) as (_ & _ & _ & _ & L3). destruct (push_all_frame nocache key f2 T (targets T) b) as (_ & _ & _ & _ & L4).
      rewrite L2, L3, L4. exact G2.
    - destruct (visited_all_frame nocache key f2 T (targets T) (record f2 s1 T)) as (_ & _ & _ & L2 & _). destruct (record_frame f2 s1 T) as (_ & _ & _ & _ & L3). rewrite L2, L3. exact G1. }
  specialize (NG ls (start f2 d c r o) ltac:(intros t HI; unfold start in HI; destruct (no_exec f2); destruct HI)). unfold s1, s2. revert NG L.
  generalize (log (run nocache precious key f1 ls (start f1 d c r o))) (log (run nocache precious key f2 ls (start f2 d c r o))). intros l1 l2 NG L.
  induction L as [| e1 e2 l1 l2 E L IH]; constructor.
  - destruct E as [<- | (_ & _ & T & t & HT & HI & -> & ->)]; [| exists T; repeat split; assumption]. destruct e1 as [n | n | t]; [reflexivity | reflexivity |]. destruct (NG t (or_introl eq_refl)).
  - apply IH. intros t HI. exact (NG t (or_intror HI)).
Qed.
Print Assumptions C71c_disabled.
Print Assumptions C71d_nocache.
Print Assumptions C71e_show.
