(* C71h, C71i: scons -n with a cache directory *)
From Coq Require Import List Bool Arith Lia.
Import ListNotations.
From Verif Require Import CopModel CopSpec CopProps CopProps2 CopProps4.

Section Dry.
Variables nocache precious : node -> bool.
Variable key : node -> list (option content) -> sig.
Variable fl : flags.
Hypothesis DRY : no_exec fl = true.
Notation step := (step nocache precious key fl).
Notation run := (run nocache precious key fl).

(* one task of a dry run *)
Lemma dry_execute s T : exists pre rest, targets T = pre ++ rest /\ (forall t, In t pre -> hit nocache key fl s T t = true) /\ (forall t r, rest = t :: r -> hit nocache key fl s T t = false) /\
  (rest = [] -> (forall m, disk (execute nocache precious key fl s T) m = disk s m)) /\
  (forall m, disk (execute nocache precious key fl s T) m = disk s m \/ disk (execute nocache precious key fl s T) m = None /\ In m pre /\ rest <> []) /\
  store (execute nocache precious key fl s T) = store s /\ failed (execute nocache precious key fl s T) = failed s /\ (forall k, cache (execute nocache precious key fl s T) k = cache s k) /\
  log (execute nocache precious key fl s T) = log s ++ map (fun t => if cache_show fl then Shown (name T) else Got t) pre ++ (match rest with [] => [] | _ => [Shown (name T)] end) /\
  (forall m, ~ In m (targets T) -> csig (execute nocache precious key fl s T) m = csig s m) /\
  ((forall d, In d (deps T) -> ~ In d (targets T)) -> forall t, In t (targets T) -> disk s t = None -> csig (execute nocache precious key fl s T) t = if is_enabled fl then cache s (key_of key s T t) else None).
Proof.
  assert (W : writes fl = false) by (unfold writes; rewrite DRY, andb_false_r; reflexivity).
  assert (VC : (forall d, In d (deps T) -> ~ In d (targets T)) -> forall ts s', (forall u, In u ts -> In u (targets T)) -> forall t, In t ts -> disk s' t = None ->
    csig (fold_left (visited nocache key fl T) ts s') t = if is_enabled fl then cache s' (key_of key s' T t) else None).
  { clear s. intros DN ts. induction ts as [| u ts IH]; intros s SUB t HI HD; [destruct HI |]. cbn [fold_left]. destruct (visited_frame nocache key fl T s u) as (D & _ & _ & _ & C & K).
    destruct (in_dec Nat.eq_dec t ts) as [HT | HT].
    - rewrite IH; [| intros v Hv; apply SUB; right; exact Hv | exact HT | rewrite D; exact HD]. destruct (is_enabled fl); [| reflexivity].
      rewrite C, forced_cache, W. cbn [andb]. unfold key_of.
      assert (E : map (csig (visited nocache key fl T s u)) (deps T) = map (csig s) (deps T)).
      { apply map_ext_in. intros d Hd. apply K. intros ->. exact (DN u Hd (SUB u (or_introl eq_refl))). }
      rewrite E. reflexivity.
    - destruct HI as [-> | HI]; [| contradiction]. destruct (visited_all_frame nocache key fl T ts (visited nocache key fl T s t)) as (_ & _ & _ & _ & K2). rewrite (K2 t HT), visited_csig, HD. reflexivity. }
  unfold execute, prepare. rewrite DRY. destruct (fetch_spec nocache key fl T (targets T) s []) as (pre & rest & SPL & G & HH & HM & C & R & F & K & DO & DI & L).
  destruct (fetch nocache key fl T (targets T) s []) as [s1 got]. cbn [fst snd app] in *. subst got. rewrite DRY in DI.
  assert (D1 : forall m, disk s1 m = disk s m) by (intros m; destruct (in_dec Nat.eq_dec m pre) as [HP | NP]; [exact (DI m HP) | exact (DO m NP)]).
  exists pre, rest. split; [exact SPL |]. split; [exact HH |]. split; [exact HM |]. destruct (length pre <? length (targets T)) eqn:LEN.
  - assert (NE : rest <> []) by (intros ->; rewrite app_nil_r in SPL; rewrite <- SPL, Nat.ltb_irrefl in LEN; discriminate).
    unfold build. rewrite DRY. set (b := with_log (unlink_all s1 pre) [Shown (name T)]).
    destruct (visited_all_frame nocache key fl T (targets T) (record fl (fold_left (push_to_cache nocache key fl T) (targets T) b) T)) as (D5 & R5 & F5 & L5 & K5).
    destruct (record_frame fl (fold_left (push_to_cache nocache key fl T) (targets T) b) T) as (C4 & D4 & F4 & K4 & L4). destruct (push_all_frame nocache key fl T (targets T) b) as (D3 & R3 & F3 & K3 & L3).
    assert (R4 : store (record fl (fold_left (push_to_cache nocache key fl T) (targets T) b) T) = store s) by (unfold record; rewrite DRY, R3; exact R).
    assert (DB : forall m, disk b m = if mem m pre then None else disk s m) by (intros m; cbn [b with_log unlink_all with_disk disk]; rewrite D1; reflexivity).
    assert (C3 : forall k, cache (fold_left (push_to_cache nocache key fl T) (targets T) b) k = cache s k) by (intros k; rewrite (push_all_cache_ro nocache key fl T W); cbn [b with_log unlink_all with_disk cache]; rewrite C; reflexivity).
    rewrite D5, D4, D3, R5, R4, F5, F4, F3, L5, L4, L3. split; [intros E; contradiction |].
    split; [intros m; rewrite DB; destruct (mem m pre) eqn:E; [right; split; [reflexivity | split; [apply mem_in; exact E | exact NE]] | left; reflexivity] |].
    split; [reflexivity |]. split; [exact F |]. split; [intros k; rewrite (visited_all_cache_ro nocache key fl T W), C4; apply C3 |].
    split; [cbn [b with_log log unlink_all with_disk]; rewrite L, <- app_assoc; destruct rest; [congruence | reflexivity] |].
    split; [intros m N; rewrite (K5 m N), K4, K3; cbn [b with_log unlink_all with_disk csig]; rewrite K; reflexivity |].
    intros DN t HI HD. rewrite (VC DN (targets T) _ (fun u Hu => Hu) t HI); [| rewrite D4, D3, DB, HD; destruct (mem t pre); reflexivity].
    destruct (is_enabled fl); [| reflexivity]. rewrite C4, C3. unfold key_of. rewrite K4, K3. cbn [b with_log unlink_all with_disk csig]. rewrite K. reflexivity.
  - assert (rest = []). { apply Nat.ltb_ge in LEN. rewrite SPL, app_length in LEN. destruct rest; [reflexivity | cbn [length] in LEN; lia]. } subst rest.
    destruct (visited_all_frame nocache key fl T (targets T) (record fl s1 T)) as (D5 & R5 & F5 & L5 & K5). destruct (record_frame fl s1 T) as (C4 & D4 & F4 & K4 & L4).
    assert (R4 : store (record fl s1 T) = store s) by (unfold record; rewrite DRY; exact R).
    rewrite D5, D4, R5, R4, F5, F4, L5, L4. split; [intros _; exact D1 |]. split; [intros m; left; apply D1 |]. split; [reflexivity |]. split; [exact F |].
    split; [intros k; rewrite (visited_all_cache_ro nocache key fl T W), C4, C; reflexivity |]. split; [rewrite app_nil_r; exact L |]. split; [intros m N; rewrite (K5 m N), K4, K; reflexivity |].
    intros DN t HI HD. rewrite (VC DN (targets T) _ (fun u Hu => Hu) t HI); [| rewrite D4, D1; exact HD].
    destruct (is_enabled fl); [| reflexivity]. rewrite C4, C. unfold key_of. rewrite K4, K. reflexivity.
Qed.
Lemma dry_step s T : (forall n, failed s n = false) ->
  (forall m, disk (step s T) m = disk s m \/ disk (step s T) m = None /\ In m (targets T) /\ 2 <= length (targets T) /\ hit nocache key fl s T m = true /\ exists u, In u (targets T) /\ hit nocache key fl s T u = false) /\
  store (step s T) = store s /\ (forall n, failed (step s T) n = false).
Proof.
  intros NF. unfold CopModel.step. destruct (existsb (failed s) (deps T)) eqn:E.
  { apply existsb_exists in E. destruct E as (n & _ & E). rewrite NF in E. discriminate. }
  destruct (uptodate s T).
  { destruct (visited_all_frame nocache key fl T (targets T) s) as (D & R & F & _). rewrite D, R, F. split; [left; reflexivity |]. split; [reflexivity | exact NF]. }
  destruct (dry_execute s T) as (pre & rest & SPL & HH & HM & _ & D & R & F & _). rewrite F. split; [| split; [exact R | exact NF]].
  intros m. destruct (D m) as [E0 | (E1 & HP & NE)]; [left; exact E0 | right]. split; [exact E1 |]. split; [rewrite SPL; apply in_or_app; left; exact HP |].
  destruct rest as [| u rest]; [congruence |]. split; [rewrite SPL, app_length; destruct pre; [destruct HP | cbn [length]; lia] |]. split; [exact (HH m HP) |].
  exists u. split; [rewrite SPL; apply in_or_app; right; left; reflexivity | exact (HM u rest eq_refl)].
Qed.
End Dry.

(* C71h: scons -n writes no file and no record; but a target of a command with several targets, found in the cache while another target of the command is not, is removed *)
Theorem C71h_dry_run :
  forall nocache precious key fl ls d c r o, no_exec fl = true ->
  let s := run nocache precious key fl ls (start fl d c r o) in
  (forall n, store s n = r n) /\ (forall n, ~ In (Ran n) (log s)) /\
  (forall n, disk s n = d n \/ disk s n = None /\ cache_enabled fl = true /\ has_dir fl = true /\ nocache n = false /\ exists T, In T (tasks ls) /\ In n (targets T) /\ 2 <= length (targets T)).
Proof.
  intros nocache precious key fl ls d c r o DRY s.
  assert (GEN : forall ls s0, (forall n, failed s0 n = false) -> let s := run nocache precious key fl ls s0 in
    store s = store s0 /\ (forall n, In (Ran n) (log s) -> In (Ran n) (log s0)) /\
    (forall n, disk s n = disk s0 n \/ disk s n = None /\ cache_enabled fl = true /\ has_dir fl = true /\ nocache n = false /\ exists T, In T (tasks ls) /\ In n (targets T) /\ 2 <= length (targets T))).
  { clear - DRY. intros ls. induction ls as [| [T | k v] ls IH]; intros s0 NF; cbn [run fold_left act tasks].
    - split; [reflexivity |]. split; [intros n HI; exact HI | left; reflexivity].
    - destruct (dry_step nocache precious key fl DRY s0 T NF) as (D & R & NF'). destruct (IH (step nocache precious key fl s0 T) NF') as (R2 & L2 & D2).
      assert (L : forall n, In (Ran n) (log (step nocache precious key fl s0 T)) -> In (Ran n) (log s0)).
      { intros n. unfold step. destruct (existsb (failed s0) (deps T)); [intros HI; exact HI |]. destruct (uptodate s0 T).
        - destruct (visited_all_frame nocache key fl T (targets T) s0) as (_ & _ & _ & L & _). rewrite L. intros HI. exact HI.
        - destruct (dry_execute nocache precious key fl DRY s0 T) as (pre & rest & _ & _ & _ & _ & _ & _ & _ & _ & L & _). rewrite L. intros HI. apply in_app_or in HI. destruct HI as [HI | HI]; [exact HI |].
          apply in_app_or in HI. destruct HI as [HI | HI]; [apply in_map_iff in HI; destruct HI as (t & E & _); destruct (cache_show fl); discriminate | destruct rest; [destruct HI | destruct HI as [E | []]; discriminate]]. }
      split; [unfold run in R2; rewrite R2; exact R |]. split; [intros n HI; apply L, L2; exact HI |]. intros n. destruct (D2 n) as [E | (E & E1 & E2 & E3 & T' & HT' & HI' & LE)].
      + destruct (D n) as [E' | (E' & HI & LE & HH & _)]; [left; unfold run in E; congruence | right]. split; [unfold run in E; congruence |]. unfold hit, is_enabled in HH. rewrite !andb_true_iff in HH. destruct HH as [[H1 [H2 H3]] _]. apply negb_true_iff in H1.
        split; [exact H2 |]. split; [exact H3 |]. split; [exact H1 |]. exists T. split; [left; reflexivity |]. split; assumption.
      + right. split; [exact E |]. split; [exact E1 |]. split; [exact E2 |]. split; [exact E3 |]. exists T'. split; [right; exact HT' |]. split; assumption.
    - apply (IH (with_cache s0 (set (cache s0) k v)) NF). }
  assert (NF0 : forall n, failed (start fl d c r o) n = false) by (unfold start; destruct (no_exec fl); reflexivity).
  destruct (GEN ls (start fl d c r o) NF0) as (R & L & D). unfold s. split; [intros n; rewrite R; unfold start; rewrite DRY; reflexivity |].
  split; [intros n HI; specialize (L n HI); unfold start in L; rewrite DRY in L; destruct L |].
  intros n. destruct (D n) as [E | E]; [left; rewrite E; unfold start; rewrite DRY; reflexivity | right; exact E].
Qed.

(* C71i: in a tree without targets, every command that a real run executes is listed by scons -n *)
Theorem C71i_dry_lists :
  forall nocache precious key f1 f2 P l d c r o,
    proper P -> injective key -> no_exec f1 = true -> no_exec f2 = false ->
    cache_enabled f1 = cache_enabled f2 -> has_dir f1 = has_dir f2 -> cache_force f2 = false ->
    (forall T, In T l -> In T P) -> NoDup l -> ordered l -> sound P key c -> (forall t a, In None a -> c (key t a) = None) -> (forall T t, In T l -> In t (targets T) -> d t = None) ->
    forall n, In (Ran n) (log (run nocache precious key f2 (map Do l) (start f2 d c r o))) -> In (Shown n) (log (run nocache precious key f1 (map Do l) (start f1 d c r o))).
Proof.
  intros nocache precious key f1 f2 P l d c r o PR INJ DRY REAL EE EH FO HP ND OR SO NN CL.
  assert (EN : is_enabled f1 = is_enabled f2) by (unfold is_enabled; rewrite EE, EH; reflexivity).
  assert (TWO : forall l1 l2, l = l1 ++ l2 -> let a := run nocache precious key f1 (map Do l1) (start f1 d c r o) in let b := run nocache precious key f2 (map Do l1) (start f2 d c r o) in
    (forall n, failed a n = false) /\ (forall T t, In T l -> In t (targets T) -> disk a t = None) /\ (forall k, cache a k = c k) /\
    fit key P b /\ (forall k x, c k = Some x -> cache b k = Some x) /\ (forall T t, In T l2 -> In t (targets T) -> disk b t = None /\ failed b t = false /\ csig a t = None) /\
    (forall n x, csig a n = Some x -> csig b n = Some x /\ failed b n = false) /\ (forall n, In (Ran n) (log b) -> In (Shown n) (log a))).
  { intros l1. induction l1 as [| T l1 IH] using rev_ind; intros l2 EL.
    - cbn [app] in EL. subst l2. cbn [map run fold_left]. unfold start. rewrite DRY, REAL. cbn [failed disk cache csig log open].
      split; [reflexivity |]. split; [exact CL |]. split; [reflexivity |]. split; [split; [reflexivity | exact SO] |]. split; [intros k x E; exact E |].
      split; [intros T t HT HI; split; [exact (CL T t HT HI) | split; [reflexivity | exact (CL T t HT HI)]] |]. split; [intros n x E; split; [exact E | reflexivity] |]. intros n [].
    - rewrite <- app_assoc in EL. cbn [app] in EL. destruct (IH (T :: l2) EL) as (NFA & DA & CA & FB & CB & LB & KB & EV). rewrite !run_app. clear IH.
      set (a := run nocache precious key f1 (map Do l1) (start f1 d c r o)) in *. set (b := run nocache precious key f2 (map Do l1) (start f2 d c r o)) in *. cbn [map run fold_left act].
      assert (HTl : In T l) by (rewrite EL; apply in_or_app; right; left; reflexivity). pose proof (HP T HTl) as HT.
      assert (DN : forall x, In x (deps T) -> ~ In x (targets T)) by (intros x; apply (proj2 PR T x HT)).
      assert (CAR : careful f2 P b) by (intros E; congruence). assert (TI : cache_force f2 = true -> tidy P) by (intros E; congruence).
      destruct (step_fit nocache precious key f2 P PR INJ REAL b T HT FB CAR TI) as [FB' _].
      assert (NEXT : forall T' t, In T' l2 -> In t (targets T') -> ~ In t (targets T)).
      { intros T' t HT' HI HI'. assert (T' = T) by (apply (proj1 PR T' T t); [apply HP; rewrite EL; apply in_or_app; right; right; exact HT' | exact HT | exact HI | exact HI']). subst T'.
        rewrite EL in ND. apply NoDup_remove_2 in ND. apply ND. apply in_or_app. right. exact HT'. }
      (* a hit of the dry run is a hit of the real one *)
      assert (HITS : forall t y, In t (targets T) -> is_enabled f1 = true -> c (key t (map (csig a) (deps T))) = Some y ->
        map (csig b) (deps T) = map (csig a) (deps T) /\ map (disk b) (deps T) = map (csig a) (deps T) /\ (forall x, In x (deps T) -> failed b x = false) /\ exists f, command T (map (csig a) (deps T)) = (true, f) /\ f t = Some y).
      { intros t y HI _ HC. assert (ALL : forall x, In x (deps T) -> csig b x = csig a x /\ failed b x = false).
        { intros x Hx. destruct (csig a x) as [z |] eqn:EX; [exact (KB x z EX) |]. exfalso. rewrite NN in HC; [discriminate |]. apply in_map_iff. exists x. split; assumption. }
        split; [apply map_ext_in; intros x Hx; apply ALL; exact Hx |]. split; [apply map_ext_in; intros x Hx; rewrite <- (proj1 (ALL x Hx)); symmetry; apply (proj1 FB); apply ALL; exact Hx |].
        split; [intros x Hx; apply ALL; exact Hx |]. exact (SO T t _ y HT HI HC). }
      destruct (list_eq_dec Nat.eq_dec (targets T) []) as [ET | NT].
      { assert (UA : uptodate a T = true) by (unfold uptodate; rewrite ET; reflexivity). assert (UB : uptodate b T = true) by (unfold uptodate; rewrite ET; reflexivity).
        assert (NBA : existsb (failed a) (deps T) = false).
        { destruct (existsb (failed a) (deps T)) eqn:E; [| reflexivity]. apply existsb_exists in E. destruct E as (n & _ & E). rewrite NFA in E. discriminate. }
        assert (SA : step nocache precious key f1 a T = a) by (unfold step; rewrite NBA, UA, ET; reflexivity).
        assert (SB : (forall n, disk (step nocache precious key f2 b T) n = disk b n) /\ (forall n, failed (step nocache precious key f2 b T) n = failed b n) /\ (forall n, csig (step nocache precious key f2 b T) n = csig b n) /\ cache (step nocache precious key f2 b T) = cache b /\ log (step nocache precious key f2 b T) = log b).
        { unfold step. destruct (existsb (failed b) (deps T)); [| rewrite UB, ET; repeat split]. repeat split. intros n. cbn [fail failed]. rewrite ET. reflexivity. }
        destruct SB as (SD & SF & SK & SC & SL). rewrite SA, SL, SC. split; [exact NFA |]. split; [exact DA |]. split; [exact CA |]. split; [exact FB' |]. split; [exact CB |].
        split; [intros T' t HT' HI; rewrite SD, SF; apply (LB T' t); [right; exact HT' | exact HI] |]. split; [intros n x E; rewrite SK, SF; exact (KB n x E) | exact EV]. }
      assert (UA : uptodate a T = false).
      { destruct (targets T) as [| t0 ts] eqn:ET; [congruence |]. destruct (uptodate a T) eqn:U; [| reflexivity]. apply uptodate_iff with (t := t0) in U; [| rewrite ET; left; reflexivity].
        destruct (proj1 U). apply (DA T t0 HTl). rewrite ET. left. reflexivity. }
      assert (NBA : existsb (failed a) (deps T) = false).
      { destruct (existsb (failed a) (deps T)) eqn:E; [| reflexivity]. apply existsb_exists in E. destruct E as (n & _ & E). rewrite NFA in E. discriminate. }
      assert (SA : step nocache precious key f1 a T = execute nocache precious key f1 a T) by (unfold step; rewrite NBA, UA; reflexivity).
      destruct (dry_execute nocache precious key f1 DRY a T) as (pre & rest & SPL & HH & HM & _ & D & _ & F & C & L & KO & KI). rewrite <- SA in *. clear SA.
      set (a' := step nocache precious key f1 a T) in *. set (b' := step nocache precious key f2 b T) in *.
      assert (KEEP : forall n, ~ In n (targets T) -> failed b' n = failed b n /\ csig b' n = csig b n).
      { intros n N. unfold b', step. destruct (existsb (failed b) (deps T)) eqn:EF; [cbn [fail failed csig]; apply mem_out in N; rewrite N; split; reflexivity |]. destruct (uptodate b T) eqn:U.
        - destruct (visited_all_frame nocache key f2 T (targets T) b) as (_ & _ & F5 & _ & K5). rewrite F5, (K5 n N). split; reflexivity.
        - assert (NFD : forall x, In x (deps T) -> failed b x = false).
          { intros x Hx. destruct (failed b x) eqn:E; [| reflexivity]. assert (existsb (failed b) (deps T) = true) by (apply existsb_exists; exists x; split; assumption). congruence. }
          destruct (command T (map (disk b) (deps T))) as [ok f] eqn:CO.
          destruct (execute_real nocache precious key f2 P PR INJ REAL b T (map (disk b) (deps T)) ok f HT FB NFD NT eq_refl CO) as (_ & _ & F5 & _ & K5). apply mem_out in N. rewrite F5, K5, N, !andb_false_r. split; reflexivity. }
      split; [intros n; rewrite F; apply NFA |].
      split; [intros T' t HT' HI; destruct (D t) as [E | [E _]]; [rewrite E; exact (DA T' t HT' HI) | exact E] |].
      split; [intros k; rewrite C; apply CA |]. split; [exact FB' |]. split; [intros k x E; apply step_mono; exact (CB k x E) |].
      split.
      { intros T' t HT' HI. specialize (NEXT T' t HT' HI). destruct (LB T' t (or_intror HT') HI) as (L1 & L2 & L3). destruct (KEEP t NEXT) as [K1 K2].
        split; [unfold b'; rewrite (step_disk nocache precious key f2 P PR INJ REAL b T t HT FB NEXT); exact L1 |]. split; [rewrite K1; exact L2 | rewrite (KO t NEXT); exact L3]. }
      split.
      { intros n x E. destruct (in_dec Nat.eq_dec n (targets T)) as [HI | NI].
        - rewrite (KI DN n HI (DA T n HTl HI)) in E. destruct (is_enabled f1) eqn:E1; [| discriminate]. unfold key_of in E. rewrite CA in E.
          destruct (HITS n x HI eq_refl E) as (M1 & M2 & M3 & f & CF & FT).
          assert (NB : existsb (failed b) (deps T) = false).
          { destruct (existsb (failed b) (deps T)) eqn:EB; [| reflexivity]. apply existsb_exists in EB. destruct EB as (m & Hm & EB). rewrite (M3 m Hm) in EB. discriminate. }
          assert (UB : uptodate b T = false).
          { destruct (uptodate b T) eqn:U; [| reflexivity]. apply uptodate_iff with (t := n) in U; [| exact HI]. destruct (proj1 U). exact (proj1 (LB T n (or_introl eq_refl) HI)). }
          assert (EB : b' = execute nocache precious key f2 b T) by (unfold b', step; rewrite NB, UB; reflexivity). rewrite EB.
          destruct (execute_real nocache precious key f2 P PR INJ REAL b T _ true f HT FB M3 NT M2 CF) as (_ & _ & F5 & _ & K5). rewrite F5, K5. pose proof (proj2 (mem_in n (targets T)) HI) as MI. rewrite MI. cbn [negb andb orb].
          split; [exact FT | exact (proj1 (proj2 (LB T n (or_introl eq_refl) HI)))].
        - rewrite (KO n NI) in E. destruct (KEEP n NI) as [K1 K2]. rewrite K1, K2. exact (KB n x E). }
      intros n HR. rewrite L. destruct rest as [| u rest].
      { apply in_or_app. left. apply EV. revert HR. apply all_hit. rewrite app_nil_r in SPL. rewrite <- SPL in HH. intros t HI. pose proof (HH t HI) as H0. unfold hit, key_of in H0. rewrite CA in H0. rewrite !andb_true_iff in H0. destruct H0 as [[H1 H2] H3].
        destruct (c (key t (map (csig a) (deps T)))) as [y |] eqn:EY; [| discriminate]. destruct (HITS t y HI H2 EY) as (M1 & _).
        unfold hit, key_of. rewrite H1, <- EN, H2, M1, (CB _ y EY). reflexivity. }
      (* not all of them are in the cache: the dry run shows the command *)
      assert (HL : In (Ran n) (log b) \/ n = name T).
      { revert HR. unfold b', step. destruct (existsb (failed b) (deps T)); [left; assumption |]. destruct (uptodate b T).
        - destruct (visited_all_frame nocache key f2 T (targets T) b) as (_ & _ & _ & L5 & _). rewrite L5. left. assumption.
        - unfold execute. destruct (prepare_frame precious f2 b T) as (_ & _ & _ & _ & PL & _).
          destruct (fetch_spec nocache key f2 T (targets T) (prepare precious f2 b T) []) as (pre2 & rest2 & _ & _ & _ & _ & _ & _ & _ & _ & _ & _ & L2).
          destruct (fetch nocache key f2 T (targets T) (prepare precious f2 b T) []) as [s3 got]. cbn [fst] in L2.
          assert (L3 : In (Ran n) (log s3) -> In (Ran n) (log b)).
          { rewrite L2, PL. intros HI. apply in_app_or in HI. destruct HI as [HI | HI]; [exact HI |]. apply in_map_iff in HI. destruct HI as (t & E & _). destruct (cache_show f2); discriminate. }
          destruct (length got <? length (targets T)).
          + unfold build. rewrite REAL. destruct (command T (map (disk (unlink_all s3 got)) (deps T))) as [ok f]. set (e := with_log _ _).
            assert (LE : In (Ran n) (log e) -> In (Ran n) (log b) \/ n = name T).
            { cbn [e with_log log with_disk unlink_all]. intros HI. apply in_app_or in HI. destruct HI as [HI | [HI | [HI | []]]]; [left; apply L3; exact HI | discriminate | right; congruence]. }
            destruct ok; [| exact LE]. destruct (visited_all_frame nocache key f2 T (targets T) (record f2 (fold_left (push_to_cache nocache key f2 T) (targets T) e) T)) as (_ & _ & _ & L5 & _).
            destruct (record_frame f2 (fold_left (push_to_cache nocache key f2 T) (targets T) e) T) as (_ & _ & _ & _ & L6). destruct (push_all_frame nocache key f2 T (targets T) e) as (_ & _ & _ & _ & L7).
            rewrite L5, L6, L7. exact LE.
          + destruct (visited_all_frame nocache key f2 T (targets T) (record f2 s3 T)) as (_ & _ & _ & L5 & _). destruct (record_frame f2 s3 T) as (_ & _ & _ & _ & L6). rewrite L5, L6. intros HI. left. apply L3. exact HI. }
      destruct HL as [HL | ->]; [apply in_or_app; left; exact (EV n HL) |]. apply in_or_app. right. apply in_or_app. right. left. reflexivity. }
  destruct (TWO l [] ltac:(rewrite app_nil_r; reflexivity)) as (_ & _ & _ & _ & _ & _ & _ & EV). exact EV.
Qed.
Print Assumptions C71h_dry_run.
Print Assumptions C71i_dry_lists.
