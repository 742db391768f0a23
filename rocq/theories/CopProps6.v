(* C71: a concrete case, and what does not hold *)
From Coq Require Import List Bool Arith Lia Cantor.
Import ListNotations.
From Verif Require Import CopModel CopSpec CopProps CopProps2 CopProps3 CopProps4 CopProps5.

(* a signature without collisions *)
Definition code (x : option nat) : nat := match x with None => 0 | Some n => S n end.
Fixpoint enc (l : list (option nat)) : nat := match l with [] => 0 | x :: r => S (to_nat (code x, enc r)) end.
Definition key0 (t : nat) (l : list (option nat)) : nat := to_nat (t, enc l).
Lemma code_inj x y : code x = code y -> x = y.
Proof. destruct x as [n |], y as [m |]; cbn [code]; intros E; try discriminate; [injection E as ->; reflexivity | reflexivity]. Qed.
Lemma enc_inj l : forall l', enc l = enc l' -> l = l'.
Proof.
  induction l as [| x l IH]; intros [| y l'] E; cbn [enc] in E; try discriminate; [reflexivity |]. apply Nat.succ_inj in E. apply to_nat_inj in E.
  injection E as E1 E2. rewrite (code_inj _ _ E1), (IH _ E2). reflexivity.
Qed.
Lemma key0_inj : injective key0.
Proof. intros t l t' l' E. unfold key0 in E. apply to_nat_inj in E. injection E as -> E. split; [reflexivity | apply enc_inj; exact E]. Qed.

(* foo.y gives foo.c (1) and foo.h (2); foo.c gives foo.o (3).  0 is foo.y *)
Definition val (l : list (option nat)) : nat := match l with Some x :: _ => x | _ => 0 end.
Definition yacc : task := {| name := 10; targets := [1; 2]; deps := [0]; command := fun l => (true, fun n => Some (val l + n)) |}.
Definition cc : task := {| name := 11; targets := [3]; deps := [1]; command := fun l => (true, fun n => Some (val l)) |}.
Definition P0 : list task := [yacc; cc].
Definition none : nat -> bool := fun _ => false.
Definition opts (ro fo sh nx : bool) : flags := {| has_dir := true; cache_enabled := true; cache_readonly := ro; cache_force := fo; cache_show := sh; no_exec := nx |}.
Definition src (x : nat) : nat -> option nat := fun n => match n with 0 => Some x | _ => None end.
Definition empty : nat -> option nat := fun _ => None.
Definition norec : nat -> option (list (option nat)) := fun _ => None.
Definition build0 (nc : nat -> bool) (fl : flags) (d : nat -> option nat) (c : nat -> option nat) (r : nat -> option (list (option nat))) : state := run nc none key0 fl (map Do P0) (start fl d c r false).
Lemma P0_proper : proper P0.
Proof.
  split.
  - intros T T' t [<- | [<- | []]] [<- | [<- | []]]; cbn [targets yacc cc In]; intros HA HB; try reflexivity; exfalso; lia.
  - intros T n [<- | [<- | []]]; cbn [targets deps yacc cc In]; intros HA HB; lia.
Qed.
Lemma P0_complete : complete P0.
Proof. intros T l f t [<- | [<- | []]] E _; injection E as <-; discriminate. Qed.
Lemma P0_tidy : tidy P0.
Proof. intros T l f t [<- | [<- | []]] E; discriminate. Qed.
Lemma P0_ordered : ordered P0.
Proof.
  intros l1 T l2 E T' n HT' Hn. destruct l1 as [| A l1]; cbn [app] in E.
  - injection E as <- <-. destruct HT' as [<- | []]. cbn [deps yacc targets cc In] in *. lia.
  - injection E as _ E. destruct l1 as [| B l1]; cbn [app] in E; [injection E as <- <-; destruct HT' |]. injection E as _ E. destruct l1; discriminate.
Qed.
Lemma P0_nodup : NoDup P0.
Proof. constructor; [intros [E | []]; apply (f_equal name) in E; discriminate | constructor; [intros [] | constructor]]. Qed.
Lemma empty_sound : sound P0 key0 empty.
Proof. intros T t l x _ _ E. discriminate. Qed.
Lemma fresh_honest d : honest P0 d norec.
Proof. intros T t l x _ _ E. discriminate. Qed.
Definition after (x : nat) : state := build0 none (opts false true false false) (src x) empty norec.
Lemma after_sound x : sound P0 key0 (cache (after x)).
Proof.
  destruct (C71a_same_result none none key0 (opts false true false false) P0 (map Do P0) (src x) empty norec false P0_proper key0_inj eq_refl) as (q & _ & _ & SO).
  - cbn [tasks map P0]. intros T HT. exact HT.
  - exact empty_sound.
  - intros k y HI. cbn [map P0 In] in HI. destruct HI as [E | [E | []]]; discriminate.
  - intros _. split; [apply fresh_honest | exact P0_tidy].
  - exact SO.
Qed.

(* all the hypotheses hold: a build fills the cache; a second one, with --cache-readonly, fetches everything; with --cache-show it prints the commands *)
Theorem C71_case :
  (proper P0 /\ injective key0 /\ complete P0 /\ tidy P0 /\ ordered P0 /\ NoDup P0 /\ sound P0 key0 empty /\ honest P0 (src 5) norec) /\
  let s1 := after 5 in let s2 := build0 none (opts true false false false) (src 5) (cache s1) norec in let s3 := build0 none (opts true false true false) (src 5) (cache s1) norec in
  log s1 = [Shown 10; Ran 10; Shown 11; Ran 11] /\ log s2 = [Got 1; Got 2; Got 3] /\ log s3 = [Shown 10; Shown 10; Shown 11] /\
  map (disk s2) [1; 2; 3] = [Some 6; Some 7; Some 6] /\ map (disk s1) [1; 2; 3] = [Some 6; Some 7; Some 6] /\ cache s1 (key0 3 [Some 6]) = Some 6 /\
  (* and scons -n says so *)
  log (build0 none (opts false false false true) (src 5) (cache s1) norec) = [Got 1; Got 2; Got 3].
Proof.
  split; [exact (conj P0_proper (conj key0_inj (conj P0_complete (conj P0_tidy (conj P0_ordered (conj P0_nodup (conj empty_sound (fresh_honest _)))))))) |].
  vm_compute. repeat split; reflexivity.
Qed.

(* scons -n removes foo.c: the source was changed, built, and changed back; foo.h is NoCache() *)
Definition no_h : nat -> bool := fun n => n =? 2.
Theorem C71_dry_removes_refuted :
  let s1 := build0 no_h (opts false false false false) (src 5) empty norec in
  let s2 := build0 no_h (opts false false false false) (set (disk s1) 0 (Some 6)) (cache s1) (store s1) in
  let s3 := build0 no_h (opts false false false true) (set (disk s2) 0 (Some 5)) (cache s2) (store s2) in
  disk s2 1 = Some 7 /\ disk s3 1 = None /\ disk s3 2 = disk s2 2 /\ log s3 = [Got 1; Shown 10; Got 3].
Proof. vm_compute. repeat split; reflexivity. Qed.

(* --cache-force puts a target that was changed by hand into the cache, for everybody *)
Theorem C71_force_refuted :
  let s1 := after 5 in
  let edited := set (disk s1) 3 (Some 99) in
  sound P0 key0 empty /\ ~ sound P0 key0 (cache (build0 none (opts false true false false) edited empty (store s1))) /\
  sound P0 key0 (cache (build0 none (opts false false false false) edited empty (store s1))) /\
  disk (build0 none (opts false false false false) (src 5) (cache (build0 none (opts false true false false) edited empty (store s1))) norec) 3 = Some 99.
Proof.
  split; [exact empty_sound |]. split; [| split].
  - intros SO. destruct (SO cc 3 [Some 6] 99) as (f & CF & FT); [right; left; reflexivity | left; reflexivity | vm_compute; reflexivity |]. injection CF as <-. discriminate.
  - destruct (C71a_same_result none none key0 (opts false false false false) P0 (map Do P0) (set (disk (after 5)) 3 (Some 99)) empty (store (after 5)) false P0_proper key0_inj eq_refl) as (q & _ & _ & SO).
    + cbn [tasks map P0]. intros T HT. exact HT.
    + exact empty_sound.
    + intros k y HI. cbn [map P0 In] in HI. destruct HI as [E | [E | []]]; discriminate.
    + discriminate.
    + exact SO.
  - vm_compute. reflexivity.
Qed.

(* with -n an entry for a NoCache() file (here from before NoCache was added) is used after all, to see whether what depends on it is in the cache *)
Definition no_c : nat -> bool := fun n => n =? 1.
Theorem C71_dry_nocache_refuted :
  let c1 := cache (after 5) in let c2 := set c1 (key0 1 [Some 5]) None in
  log (build0 no_c (opts false false false true) (src 5) c1 norec) = [Shown 10; Got 3] /\ log (build0 no_c (opts false false false true) (src 5) c2 norec) = [Shown 10; Shown 11].
Proof. vm_compute. split; reflexivity. Qed.

(* scons -n lists a command that is not executed: its source is not in the cache, so its key is not known *)
Theorem C71_dry_more_refuted :
  let c := set (cache (after 5)) (key0 1 [Some 5]) None in
  log (build0 none (opts false false false true) (src 5) c norec) = [Shown 10; Shown 11] /\ log (build0 none (opts false false false false) (src 5) c norec) = [Shown 10; Ran 10; Got 3].
Proof. vm_compute. split; reflexivity. Qed.
(* with an old foo.c it does not list a command that is executed *)
Theorem C71_dry_stale_refuted :
  let s1 := after 5 in let d := set (set (disk s1) 0 (Some 6)) 3 None in
  log (build0 none (opts false false false true) d (cache s1) (store s1)) = [Shown 10; Got 3] /\ log (build0 none (opts false false false false) d (cache s1) (store s1)) = [Shown 10; Ran 10; Shown 11; Ran 11].
Proof. vm_compute. split; reflexivity. Qed.
(* the cache directory is created even with -n, --cache-readonly or --cache-disable *)
Theorem C71_created_refuted :
  opened (build0 none (opts false false false true) (src 5) empty norec) = true /\ opened (build0 none (opts true false false false) (src 5) empty norec) = true /\
  opened (build0 none {| has_dir := true; cache_enabled := false; cache_readonly := false; cache_force := false; cache_show := false; no_exec := true |} (src 5) empty norec) = true.
Proof. vm_compute. repeat split; reflexivity. Qed.
Print Assumptions C71_case.
Print Assumptions C71_dry_removes_refuted.
Print Assumptions C71_force_refuted.
Print Assumptions C71_dry_nocache_refuted.
Print Assumptions C71_dry_more_refuted.
Print Assumptions C71_dry_stale_refuted.
Print Assumptions C71_created_refuted.
