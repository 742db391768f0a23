(* C71: a cache directory, with whatever options, changes neither the files that a build gives nor the records; --cache-readonly, --cache-disable and -n never write into it. *)
From Coq Require Import List Bool Arith Lia.
Import ListNotations.
From Verif Require Import CopModel CopSpec.

Lemma mem_in n l : mem n l = true <-> In n l.
Proof.
  unfold mem. rewrite existsb_exists. split.
  - intros (x & HI & E). apply Nat.eqb_eq in E. subst. exact HI.
  - intros HI. exists n. split; [exact HI | apply Nat.eqb_refl].
Qed.
Lemma mem_out n l : mem n l = false <-> ~ In n l.
Proof. rewrite <- mem_in. destruct (mem n l); split; congruence. Qed.
Lemma eqo_eq a b : eqo a b = true <-> a = b.
Proof.
  destruct a as [x |], b as [y |]; cbn [eqo]; try (split; congruence).
  rewrite Nat.eqb_eq. split; congruence.
Qed.
Lemma eql_eq a : forall b, eql a b = true <-> a = b.
Proof.
  induction a as [| x a IH]; intros [| y b]; cbn [eql]; try (split; congruence).
  rewrite andb_true_iff, eqo_eq, IH. split; [intros [-> ->]; reflexivity | intros E; injection E as -> ->; split; reflexivity].
Qed.
Lemma set_same {A} (f : nat -> A) n v : set f n v n = v.
Proof. unfold set. rewrite Nat.eqb_refl. reflexivity. Qed.
Lemma set_other {A} (f : nat -> A) n v m : m <> n -> set f n v m = f m.
Proof. intros N. unfold set. apply Nat.eqb_neq in N. rewrite N. reflexivity. Qed.

Section Cop.
Variables nocache precious : node -> bool.
Variable key : node -> list (option content) -> sig.
Variable fl : flags.
Notation push := (push nocache key fl).
Notation push_to_cache := (push_to_cache nocache key fl).
Notation push_if_forced := (push_if_forced nocache key fl).
Notation visited := (visited nocache key fl).
Notation retrieve := (retrieve nocache key fl).
Notation fetch := (fetch nocache key fl).
Notation execute := (execute nocache precious key fl).
Notation step := (step nocache precious key fl).
Notation run := (run nocache precious key fl).

(* ---- what each part leaves alone ---- *)
Lemma push_frame T s t : disk (push T s t) = disk s /\ store (push T s t) = store s /\ failed (push T s t) = failed s /\ csig (push T s t) = csig s /\ log (push T s t) = log s.
Proof.
  unfold CopModel.push. destruct (cache_readonly fl || negb (is_enabled fl)); [repeat split |]. destruct (no_exec fl); [repeat split |].
  destruct (cache_readonly fl); [repeat split |]. destruct (nocache t); [repeat split |].
  destruct (cache (open fl s) (key_of key (open fl s) T t)); repeat split.
Qed.
Definition writes : bool := negb (cache_readonly fl) && is_enabled fl && negb (no_exec fl).
Lemma push_cache T s t k : cache (push T s t) k =
  if writes && negb (nocache t) && (k =? key_of key s T t) then (match cache s k with Some c => Some c | None => disk s t end) else cache s k.
Proof.
  unfold CopModel.push, writes. change (key_of key (open fl s) T t) with (key_of key s T t). change (cache (open fl s)) with (cache s).
  destruct (cache_readonly fl); cbn [orb negb andb]; [reflexivity |]. destruct (is_enabled fl); cbn [negb andb]; [| reflexivity].
  destruct (no_exec fl); cbn [negb andb]; [reflexivity |]. destruct (nocache t); cbn [negb andb]; [reflexivity |].
  destruct (cache s (key_of key s T t)) as [c |] eqn:E.
  - destruct (k =? key_of key s T t) eqn:K; [| reflexivity]. apply Nat.eqb_eq in K. subst k. cbn [cache open]. rewrite E. reflexivity.
  - cbn [cache with_cache open]. unfold set. destruct (k =? key_of key s T t) eqn:K; [| reflexivity]. apply Nat.eqb_eq in K. subst k. rewrite E. reflexivity.
Qed.
Lemma push_to_cache_frame T s t : disk (push_to_cache T s t) = disk s /\ store (push_to_cache T s t) = store s /\ failed (push_to_cache T s t) = failed s /\ csig (push_to_cache T s t) = csig s /\ log (push_to_cache T s t) = log s.
Proof. unfold CopModel.push_to_cache. destruct (nocache t); [repeat split |]. destruct (some (disk s t)); [apply push_frame | repeat split]. Qed.
Lemma push_to_cache_cache T s t k : cache (push_to_cache T s t) k =
  if writes && negb (nocache t) && some (disk s t) && (k =? key_of key s T t) then (match cache s k with Some c => Some c | None => disk s t end) else cache s k.
Proof.
  unfold CopModel.push_to_cache. destruct (nocache t) eqn:N; cbn [negb]; [rewrite andb_false_r; reflexivity |]. rewrite andb_true_r.
  destruct (some (disk s t)); cbn [andb]; [rewrite push_cache, N; cbn [negb]; rewrite !andb_true_r; reflexivity | rewrite andb_false_r; reflexivity].
Qed.
Lemma forced_frame T s t : disk (push_if_forced T s t) = disk s /\ store (push_if_forced T s t) = store s /\ failed (push_if_forced T s t) = failed s /\ csig (push_if_forced T s t) = csig s /\ log (push_if_forced T s t) = log s.
Proof.
  unfold CopModel.push_if_forced. destruct (some (disk s t)); [| repeat split]. destruct (cache_force fl); [| repeat split].
  apply (push_frame T (open fl s) t).
Qed.
Lemma forced_cache T s t k : cache (push_if_forced T s t) k =
  if writes && cache_force fl && negb (nocache t) && some (disk s t) && (k =? key_of key s T t) then (match cache s k with Some c => Some c | None => disk s t end) else cache s k.
Proof.
  unfold CopModel.push_if_forced. destruct (some (disk s t)) eqn:D; [| rewrite andb_false_r; reflexivity]. rewrite andb_true_r.
  destruct (cache_force fl); [| rewrite andb_false_r; reflexivity]. rewrite andb_true_r. rewrite push_cache.
  change (disk (open fl s)) with (disk s). change (cache (open fl s)) with (cache s). change (key_of key (open fl s) T t) with (key_of key s T t). reflexivity.
Qed.
Lemma visited_frame T s t : disk (visited T s t) = disk s /\ store (visited T s t) = store s /\ failed (visited T s t) = failed s /\ log (visited T s t) = log s /\ cache (visited T s t) = cache (push_if_forced T s t) /\
  forall m, m <> t -> csig (visited T s t) m = csig s m.
Proof.
  destruct (forced_frame T s t) as (D & R & F & C & L). unfold CopModel.visited, known. cbn [disk store failed log csig cache].
  repeat split; try assumption. intros m N. rewrite C. apply set_other. exact N.
Qed.
Lemma visited_csig T s t : csig (visited T s t) t = match disk s t with Some c => Some c | None => if is_enabled fl then cache s (key_of key s T t) else None end.
Proof.
  destruct (forced_frame T s t) as (D & R & F & C & L). unfold CopModel.visited, known. cbn [csig]. rewrite set_same. rewrite D.
  destruct (disk s t) as [c |] eqn:E; [reflexivity |]. destruct (is_enabled fl); [| reflexivity].
  unfold key_of. rewrite C. rewrite forced_cache. rewrite E. cbn [some]. rewrite !andb_false_r. reflexivity.
Qed.
Lemma visited_all_frame T ts : forall s, disk (fold_left (visited T) ts s) = disk s /\ store (fold_left (visited T) ts s) = store s /\ failed (fold_left (visited T) ts s) = failed s /\ log (fold_left (visited T) ts s) = log s /\
  forall m, ~ In m ts -> csig (fold_left (visited T) ts s) m = csig s m.
Proof.
  induction ts as [| t ts IH]; intros s; cbn [fold_left]; [repeat split |].
  destruct (IH (visited T s t)) as (D & R & F & L & C). destruct (visited_frame T s t) as (D1 & R1 & F1 & L1 & _ & C1).
  repeat split; try congruence. intros m N. rewrite C by (intros HI; apply N; right; exact HI). apply C1. intros ->. apply N. left. reflexivity.
Qed.
Lemma push_all_frame T ts : forall s, disk (fold_left (push_to_cache T) ts s) = disk s /\ store (fold_left (push_to_cache T) ts s) = store s /\ failed (fold_left (push_to_cache T) ts s) = failed s /\ csig (fold_left (push_to_cache T) ts s) = csig s /\ log (fold_left (push_to_cache T) ts s) = log s.
Proof.
  induction ts as [| t ts IH]; intros s; cbn [fold_left]; [repeat split |].
  destruct (IH (push_to_cache T s t)) as (D & R & F & L & C). destruct (push_to_cache_frame T s t) as (D1 & R1 & F1 & L1 & C1). repeat split; congruence.
Qed.

(* ---- fetching ---- *)
Definition hit (s : state) (T : task) (t : node) : bool := negb (nocache t) && is_enabled fl && some (cache s (key_of key s T t)).
Lemma retrieve_hit s T t : fst (retrieve s T t) = hit s T t.
Proof.
  unfold CopModel.retrieve, hit. destruct (nocache t); cbn [negb andb]; [reflexivity |]. destruct (is_enabled fl); cbn [negb andb]; [| reflexivity].
  change (cache (open fl s)) with (cache s). change (key_of key (open fl s) T t) with (key_of key s T t). destruct (cache s (key_of key s T t)); reflexivity.
Qed.
Lemma retrieve_frame s T t : cache (snd (retrieve s T t)) = cache s /\ store (snd (retrieve s T t)) = store s /\ failed (snd (retrieve s T t)) = failed s /\ csig (snd (retrieve s T t)) = csig s /\
  (forall m, m <> t -> disk (snd (retrieve s T t)) m = disk s m) /\
  disk (snd (retrieve s T t)) t = (if hit s T t && negb (no_exec fl) then cache s (key_of key s T t) else disk s t) /\
  log (snd (retrieve s T t)) = log s ++ (if hit s T t then [if cache_show fl then Shown (name T) else Got t] else []).
Proof.
  unfold CopModel.retrieve, hit. destruct (nocache t); cbn [negb andb]; [repeat split; rewrite app_nil_r; reflexivity |].
  destruct (is_enabled fl); cbn [negb andb]; [| repeat split; cbn [snd log open]; rewrite app_nil_r; reflexivity].
  change (cache (open fl s)) with (cache s). change (key_of key (open fl s) T t) with (key_of key s T t).
  destruct (cache s (key_of key s T t)) as [c |]; cbn [some andb]; [| repeat split; cbn [snd log open]; rewrite app_nil_r; reflexivity].
  cbn [snd]. destruct (no_exec fl); cbn [negb]; repeat split; cbn [with_log with_disk disk open].
  - intros m N. apply set_other. exact N.
  - apply set_same.
Qed.
Lemma hit_stable s s' T t : cache s' = cache s -> csig s' = csig s -> hit s' T t = hit s T t.
Proof. intros C K. unfold hit, key_of. rewrite C, K. reflexivity. Qed.
Lemma fetch_spec T ts : forall s got, exists pre rest,
  ts = pre ++ rest /\ snd (fetch T ts s got) = got ++ pre /\ (forall t, In t pre -> hit s T t = true) /\ (forall t r, rest = t :: r -> hit s T t = false) /\
  cache (fst (fetch T ts s got)) = cache s /\ store (fst (fetch T ts s got)) = store s /\ failed (fst (fetch T ts s got)) = failed s /\ csig (fst (fetch T ts s got)) = csig s /\
  (forall m, ~ In m pre -> disk (fst (fetch T ts s got)) m = disk s m) /\
  (forall m, In m pre -> disk (fst (fetch T ts s got)) m = if no_exec fl then disk s m else cache s (key_of key s T m)) /\
  log (fst (fetch T ts s got)) = log s ++ map (fun t => if cache_show fl then Shown (name T) else Got t) pre.
Proof.
  induction ts as [| t ts IH]; intros s got; cbn [CopModel.fetch].
  - exists [], []. cbn [fst snd map]. rewrite !app_nil_r. split; [reflexivity |]. split; [reflexivity |]. split; [intros m HM; destruct HM |]. split; [discriminate |]. do 4 (split; [reflexivity |]). split; [reflexivity |]. split; [intros m HM; destruct HM | reflexivity].
  - pose proof (retrieve_hit s T t) as RH. destruct (retrieve_frame s T t) as (C & R & F & K & DO & DT & L).
    destruct (retrieve s T t) as [h s'] eqn:E. cbn [fst snd] in *. destruct h.
    + destruct (IH s' (got ++ [t])) as (pre & rest & -> & G & HT & HM & C1 & R1 & F1 & K1 & DO1 & DI1 & L1).
      exists (t :: pre), rest. rewrite G, <- app_assoc. rewrite <- RH in *. cbn [andb] in DT.
      split; [reflexivity |]. split; [reflexivity |]. split; [intros m [<- | HI]; [congruence | rewrite <- (hit_stable s s' T m C K); apply HT; exact HI] |].
      split; [intros m r EQ; rewrite <- (hit_stable s s' T m C K); exact (HM m r EQ) |].
      split; [congruence |]. split; [congruence |]. split; [congruence |]. split; [congruence |].
      split; [intros m N; rewrite DO1 by (intros HI; apply N; right; exact HI); apply DO; intros ->; apply N; left; reflexivity |].
      split; [| rewrite L1, L; cbn [map]; rewrite <- app_assoc; reflexivity].
      intros m HI. destruct (in_dec Nat.eq_dec m pre) as [HP | NP].
      * rewrite (DI1 m HP). unfold key_of. rewrite C, K. destruct (no_exec fl); [| reflexivity].
        destruct (Nat.eq_dec m t) as [-> | N]; [rewrite DT; reflexivity | apply DO; exact N].
      * rewrite (DO1 m NP). destruct HI as [<- | HI]; [| contradiction]. rewrite DT. destruct (no_exec fl); reflexivity.
    + exists [], (t :: ts). rewrite app_nil_r. cbn [app map fst snd]. rewrite app_nil_r. rewrite <- RH in *. cbn [andb] in DT. rewrite app_nil_r in L.
      split; [reflexivity |]. split; [reflexivity |]. split; [intros m HM; destruct HM |]. split; [intros m r EQ; injection EQ as <- <-; congruence |].
      split; [exact C |]. split; [exact R |]. split; [exact F |]. split; [exact K |]. split; [| split; [intros m HM; destruct HM | exact L]].
      intros m _. destruct (Nat.eq_dec m t) as [-> | N]; [exact DT | apply DO; exact N].
Qed.

(* ---- --cache-readonly, --cache-disable, -n ---- *)
Lemma visited_all_cache_ro T : writes = false -> forall ts s k, cache (fold_left (visited T) ts s) k = cache s k.
Proof.
  intros W ts. induction ts as [| t ts IH]; intros s k; cbn [fold_left]; [reflexivity |]. rewrite IH.
  destruct (visited_frame T s t) as (_ & _ & _ & _ & C & _). rewrite C, forced_cache, W. reflexivity.
Qed.
Lemma push_all_cache_ro T : writes = false -> forall ts s k, cache (fold_left (push_to_cache T) ts s) k = cache s k.
Proof.
  intros W ts. induction ts as [| t ts IH]; intros s k; cbn [fold_left]; [reflexivity |]. rewrite IH. rewrite push_to_cache_cache, W. reflexivity.
Qed.
Lemma prepare_frame s T : cache (prepare precious fl s T) = cache s /\ store (prepare precious fl s T) = store s /\ failed (prepare precious fl s T) = failed s /\ csig (prepare precious fl s T) = csig s /\ log (prepare precious fl s T) = log s /\
  forall m, ~ In m (targets T) -> disk (prepare precious fl s T) m = disk s m.
Proof.
  unfold prepare. destruct (no_exec fl); [repeat split |]. repeat split. intros m N. cbn [disk with_disk]. apply mem_out in N. rewrite N. reflexivity.
Qed.
Lemma build_frame s T : cache (snd (build fl s T)) = cache s /\ store (snd (build fl s T)) = store s /\ failed (snd (build fl s T)) = failed s /\ csig (snd (build fl s T)) = csig s.
Proof. unfold build. destruct (no_exec fl); [repeat split |]. destruct (command T (map (disk s) (deps T))) as [ok f]. repeat split. Qed.
Lemma record_frame s T : cache (record fl s T) = cache s /\ disk (record fl s T) = disk s /\ failed (record fl s T) = failed s /\ csig (record fl s T) = csig s /\ log (record fl s T) = log s.
Proof. unfold record. destruct (no_exec fl); repeat split. Qed.
Lemma step_cache_ro s T k : writes = false -> cache (step s T) k = cache s k.
Proof.
  intros W. unfold CopModel.step. destruct (existsb (failed s) (deps T)); [reflexivity |]. destruct (uptodate s T); [apply visited_all_cache_ro; exact W |].
  unfold CopModel.execute. destruct (fetch_spec T (targets T) (prepare precious fl s T) []) as (pre & rest & _ & _ & _ & _ & C & _ & _ & _ & _).
  destruct (fetch T (targets T) (prepare precious fl s T) []) as [s1 got]. cbn [fst] in C.
  destruct (prepare_frame s T) as (C0 & _). destruct (length got <? length (targets T)).
  - destruct (build_frame (unlink_all s1 got) T) as (C2 & _). destruct (build fl (unlink_all s1 got) T) as [ok s2]. cbn [snd] in C2. destruct ok.
    + rewrite visited_all_cache_ro by exact W. destruct (record_frame (fold_left (push_to_cache T) (targets T) s2) T) as (C3 & _). rewrite C3.
      rewrite push_all_cache_ro by exact W. rewrite C2. change (cache (unlink_all s1 got)) with (cache s1). rewrite C, C0. reflexivity.
    + change (cache (fail s2 T)) with (cache s2). rewrite C2. change (cache (unlink_all s1 got)) with (cache s1). rewrite C, C0. reflexivity.
  - rewrite visited_all_cache_ro by exact W. destruct (record_frame s1 T) as (C3 & _). rewrite C3, C, C0. reflexivity.
Qed.
Lemma others_ext ls : forall c c', (forall k, c k = c' k) -> forall k, others ls c k = others ls c' k.
Proof.
  induction ls as [| [T | k v] ls IH]; intros c c' E k'; cbn [others]; [apply E | apply IH; exact E |].
  apply IH. intros k2. destruct (k2 =? k); [reflexivity | apply E].
Qed.
Lemma run_cache_ro ls : writes = false -> forall s k, cache (run ls s) k = others ls (cache s) k.
Proof.
  intros W. induction ls as [| [T | k0 v] ls IH]; intros s k; cbn [CopModel.run fold_left others act]; [reflexivity | |].
  - fold (run ls (step s T)). rewrite IH. apply others_ext. intros k'. apply step_cache_ro. exact W.
  - fold (run ls (with_cache s (set (cache s) k0 v))). rewrite IH. apply others_ext. intros k'. reflexivity.
Qed.

(* ---- the same results ---- *)
Section Real.
Variable P : list task.
Hypothesis PR : proper P.
Hypothesis INJ : injective key.
Hypothesis REAL : no_exec fl = false.

Definition fit (s : state) : Prop := (forall n, failed s n = false -> csig s n = disk s n) /\ sound P key (cache s).
(* what is on disk may be pushed *)
Definition right (T : task) (l : list (option content)) (s : state) : Prop :=
  forall t x, In t (targets T) -> disk s t = Some x -> exists f, command T l = (true, f) /\ f t = Some x.

Lemma sound_ext c c' : (forall k, c k = c' k) -> sound P key c -> sound P key c'.
Proof. intros E SO T t l x HT HI HC. rewrite <- E in HC. exact (SO T t l x HT HI HC). Qed.
Lemma pushed_sound T s t (b : bool) c : In T P -> In t (targets T) -> sound P key (cache s) -> (b = true -> right T (map (csig s) (deps T)) s) ->
  (forall k, c k = if b && (k =? key_of key s T t) then (match cache s k with Some c => Some c | None => disk s t end) else cache s k) -> sound P key c.
Proof.
  intros HT HI SO RI E T' t' l x HT' HI' HC. rewrite E in HC. destruct b; cbn [andb] in HC; [| exact (SO T' t' l x HT' HI' HC)].
  destruct (key t' l =? key_of key s T t) eqn:K; [| exact (SO T' t' l x HT' HI' HC)].
  destruct (cache s (key t' l)) as [c1 |] eqn:C1; [injection HC as ->; exact (SO T' t' l x HT' HI' C1) |].
  apply Nat.eqb_eq in K. unfold key_of in K. destruct (INJ _ _ _ _ K) as [-> ->].
  destruct PR as [PU _]. rewrite <- (PU T T' t HT HT' HI HI'). exact (RI eq_refl t x HI HC).
Qed.
Lemma push_all_sound T : In T P -> forall ts s, (forall t, In t ts -> In t (targets T)) -> sound P key (cache s) -> right T (map (csig s) (deps T)) s -> sound P key (cache (fold_left (push_to_cache T) ts s)).
Proof.
  intros HT ts. induction ts as [| t ts IH]; intros s SUB SO RI; cbn [fold_left]; [exact SO |].
  destruct (push_to_cache_frame T s t) as (D & _ & _ & K & _). apply IH.
  - intros t' HI. apply SUB. right. exact HI.
  - apply (pushed_sound T s t (writes && negb (nocache t) && some (disk s t))); [exact HT | apply SUB; left; reflexivity | exact SO | intros _; exact RI | intros k; apply push_to_cache_cache].
  - unfold right. rewrite D, K. exact RI.
Qed.
(* the targets, visited in a real run *)
Lemma visited_all_real T l : In T P -> forall ts s, (forall t, In t ts -> In t (targets T)) -> map (csig s) (deps T) = l -> sound P key (cache s) ->
  (cache_force fl = true -> right T l s) -> (forall t, In t (targets T) -> disk s t = None -> forall f, command T l = (true, f) -> f t = None) ->
  sound P key (cache (fold_left (visited T) ts s)) /\ forall m, csig (fold_left (visited T) ts s) m = if mem m ts then disk s m else csig s m.
Proof.
  intros HT ts. induction ts as [| t ts IH]; intros s SUB L SO RI NO; cbn [fold_left]; [split; [exact SO | reflexivity] |].
  destruct (visited_frame T s t) as (D & _ & _ & _ & C & K). assert (HI : In t (targets T)) by (apply SUB; left; reflexivity).
  assert (L' : map (csig (visited T s t)) (deps T) = l).
  { rewrite <- L. apply map_ext_in. intros d Hd. apply K. intros ->. destruct PR as [_ PD]. exact (PD T t HT Hd HI). }
  assert (TD : csig (visited T s t) t = disk s t).
  { rewrite visited_csig. destruct (disk s t) as [c |] eqn:E; [reflexivity |]. destruct (is_enabled fl); [| reflexivity].
    destruct (cache s (key_of key s T t)) as [x |] eqn:CC; [| reflexivity]. destruct (SO T t _ x HT HI CC) as (f & CF & FT). rewrite L in CF.
    rewrite (NO t HI E f CF) in FT. discriminate. }
  destruct (IH (visited T s t)) as [SO' CS'].
  - intros t' HI'. apply SUB. right. exact HI'.
  - exact L'.
  - rewrite C. apply (pushed_sound T s t (writes && cache_force fl && negb (nocache t) && some (disk s t))); [exact HT | exact HI | exact SO | | intros k; apply forced_cache].
    intros B. rewrite !andb_true_iff in B. destruct B as [[[_ CF] _] _]. rewrite L. exact (RI CF).
  - unfold right. rewrite D. exact RI.
  - rewrite D. exact NO.
  - split; [exact SO' |]. intros m. rewrite CS'. cbn [mem existsb]. fold (mem m ts). rewrite D. destruct (mem m ts); [rewrite orb_true_r; reflexivity |]. rewrite orb_false_r.
    destruct (m =? t) eqn:E; [apply Nat.eqb_eq in E; subst m; exact TD | apply Nat.eqb_neq in E; exact (K m E)].
Qed.

Lemma uptodate_iff s T : uptodate s T = true <-> forall t, In t (targets T) -> disk s t <> None /\ store s t = Some (map (disk s) (deps T)).
Proof.
  unfold uptodate. rewrite forallb_forall. split.
  - intros HA t HI. specialize (HA t HI). apply andb_true_iff in HA. destruct HA as [HD HS]. split; [destruct (disk s t); [discriminate | discriminate] |].
    destruct (store s t) as [l |]; [| discriminate]. apply eql_eq in HS. subst. reflexivity.
  - intros HA t HI. destruct (HA t HI) as [HD HS]. rewrite HS. apply andb_true_iff. split; [destruct (disk s t); [reflexivity | congruence] | apply eql_eq; reflexivity].
Qed.

(* one task executed *)
Lemma execute_real s T l ok f : In T P -> fit s -> (forall d, In d (deps T) -> failed s d = false) -> targets T <> [] -> map (disk s) (deps T) = l -> command T l = (ok, f) ->
  (forall m, disk (execute s T) m = if mem m (targets T) then f m else disk s m) /\
  (forall m, store (execute s T) m = if ok && mem m (targets T) then Some l else store s m) /\
  (forall m, failed (execute s T) m = (negb ok && mem m (targets T)) || failed s m) /\
  sound P key (cache (execute s T)) /\
  (forall m, csig (execute s T) m = if ok && mem m (targets T) then f m else csig s m).
Proof.
  intros HT [KD SO] NF NE L CO. assert (DN : forall d, In d (deps T) -> ~ In d (targets T)) by (intros d; apply (proj2 PR T d HT)).
  assert (LC : map (csig s) (deps T) = l) by (rewrite <- L; apply map_ext_in; intros d Hd; apply KD, NF; exact Hd).
  unfold CopModel.execute. destruct (prepare_frame s T) as (PC & PS & PF & PK & _ & PD).
  destruct (fetch_spec T (targets T) (prepare precious fl s T) []) as (pre & rest & SPL & G & HH & _ & C & R & F & K & DO & DI & _).
  destruct (fetch T (targets T) (prepare precious fl s T) []) as [s1 got]. cbn [fst snd app] in *. subst got.
  rewrite PC in C, DI. rewrite PS in R. rewrite PF in F. rewrite PK in K. rewrite REAL in DI.
  assert (KO : forall t, key_of key (prepare precious fl s T) T t = key t l) by (intros t; unfold key_of; rewrite PK, LC; reflexivity).
  assert (NI : forall m, ~ In m (targets T) -> ~ In m pre) by (intros m N HI; apply N; rewrite SPL; apply in_or_app; left; exact HI).
  assert (D1 : forall m, ~ In m (targets T) -> disk s1 m = disk s m) by (intros m N; rewrite (DO m (NI m N)); exact (PD m N)).
  destruct (length pre <? length (targets T)) eqn:LEN.
  - (* built *)
    set (u := unlink_all s1 pre). assert (UD : map (disk u) (deps T) = l).
    { rewrite <- L. apply map_ext_in. intros d Hd. specialize (DN d Hd). cbn [u unlink_all with_disk disk]. pose proof (proj2 (mem_out d pre) (NI d DN)) as E. rewrite E. exact (D1 d DN). }
    unfold build. rewrite REAL, UD, CO. cbv iota beta zeta.
    set (s2 := with_log (with_disk u (fun m => if mem m (targets T) then f m else disk u m)) [Shown (name T); Ran (name T)]).
    assert (D2 : forall m, disk s2 m = if mem m (targets T) then f m else disk s m).
    { intros m. cbn [s2 with_log with_disk disk]. destruct (mem m (targets T)) eqn:E; [reflexivity |]. apply mem_out in E. cbn [u unlink_all with_disk disk].
      pose proof (proj2 (mem_out m pre) (NI m E)) as E2. rewrite E2. exact (D1 m E). }
    assert (C2 : cache s2 = cache s) by exact C. assert (R2 : store s2 = store s) by exact R. assert (F2 : failed s2 = failed s) by exact F. assert (K2 : csig s2 = csig s) by exact K.
    assert (RI : ok = true -> right T l s2).
    { intros -> t x HI HD. rewrite D2 in HD. pose proof (proj2 (mem_in t (targets T)) HI) as E. rewrite E in HD. exists f. split; assumption. }
    destruct ok; cbn [negb andb].
    + destruct (push_all_frame T (targets T) s2) as (D3 & R3 & F3 & K3 & _). set (s3 := fold_left (push_to_cache T) (targets T) s2) in *.
      assert (SO3 : sound P key (cache s3)).
      { apply push_all_sound; [exact HT | intros t HI; exact HI | rewrite C2; exact SO | rewrite K2, LC; exact (RI eq_refl)]. }
      destruct (record_frame s3 T) as (C4 & D4 & F4 & K4 & _). set (s4 := record fl s3 T) in *.
      destruct (visited_all_frame T (targets T) s4) as (D5 & R5 & F5 & _ & _).
      destruct (visited_all_real T l HT (targets T) s4) as [SO5 K5].
      { intros t HI. exact HI. }
      { rewrite K4, K3, K2. exact LC. }
      { rewrite C4. exact SO3. }
      { intros _. unfold right. rewrite D4, D3. exact (RI eq_refl). }
      { intros t HI HD f' CF. rewrite D4, D3, D2 in HD. pose proof (proj2 (mem_in t (targets T)) HI) as E. rewrite E in HD. congruence. }
      rewrite D5, D4, D3, F5, F4, F3, F2. repeat split; try assumption.
      * intros m. rewrite R5. unfold s4, record. rewrite REAL. cbn [store]. rewrite R3, R2. destruct (mem m (targets T)); [| reflexivity].
        f_equal. rewrite <- L. apply map_ext_in. intros d Hd. rewrite D3, D2. pose proof (proj2 (mem_out d (targets T)) (DN d Hd)) as E. rewrite E. reflexivity.
      * intros m. rewrite K5. destruct (mem m (targets T)) eqn:E; [rewrite D4, D3, D2, E; reflexivity | rewrite K4, K3, K2; reflexivity].
    + cbn [fail disk store failed cache csig]. rewrite R2, F2, C2, K2. repeat split; assumption.
  - (* retrieved *)
    assert (rest = []).
    { apply Nat.ltb_ge in LEN. rewrite SPL, app_length in LEN. destruct rest; [reflexivity | cbn [length] in LEN; lia]. }
    subst rest. rewrite app_nil_r in SPL. subst pre.
    assert (HV : forall t, In t (targets T) -> exists x, cache s (key t l) = Some x /\ disk s1 t = Some x /\ ok = true /\ f t = Some x).
    { intros t HI. specialize (HH t HI). unfold hit in HH. rewrite KO, PC in HH. rewrite !andb_true_iff in HH. destruct HH as [_ HS].
      specialize (DI t HI). rewrite KO in DI. destruct (cache s (key t l)) as [x |] eqn:E; [| discriminate]. exists x.
      destruct (SO T t l x HT HI E) as (f' & CF & FT). assert (ok = true /\ f' = f) as [-> ->] by (split; congruence). repeat split; try assumption. }
    assert (ok = true) as ->. { destruct (targets T) as [| t r] eqn:E; [congruence |]. destruct (HV t) as (x & _ & _ & H & _); [left; reflexivity | exact H]. }
    cbn [negb andb]. assert (D2 : forall m, disk s1 m = if mem m (targets T) then f m else disk s m).
    { intros m. destruct (mem m (targets T)) eqn:E; [apply mem_in in E; destruct (HV m E) as (x & _ & H1 & _ & H2); congruence | apply mem_out in E; exact (D1 m E)]. }
    destruct (record_frame s1 T) as (C4 & D4 & F4 & K4 & _). set (s4 := record fl s1 T) in *.
    destruct (visited_all_frame T (targets T) s4) as (D5 & R5 & F5 & _ & _).
    destruct (visited_all_real T l HT (targets T) s4) as [SO5 K5].
    { intros t HI. exact HI. }
    { rewrite K4, K. exact LC. }
    { rewrite C4, C. exact SO. }
    { intros _ t x HI HD. rewrite D4 in HD. destruct (HV t HI) as (y & _ & H1 & _ & H2). exists f. split; congruence. }
    { intros t HI HD f' CF. rewrite D4 in HD. destruct (HV t HI) as (y & _ & H1 & _ & H2). congruence. }
    rewrite D5, D4, F5, F4, F. repeat split; try assumption.
    + intros m. rewrite R5. unfold s4, record. rewrite REAL. cbn [store]. rewrite R. destruct (mem m (targets T)); [| reflexivity].
      f_equal. rewrite <- L. apply map_ext_in. intros d Hd. exact (D1 d (DN d Hd)).
    + intros m. rewrite K5. destruct (mem m (targets T)) eqn:E; [rewrite D4, D2, E; reflexivity | rewrite K4, K; reflexivity].
Qed.
End Real.
End Cop.
