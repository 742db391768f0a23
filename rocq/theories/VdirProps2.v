(* C57: duplicating source files into a variant directory, over every run and
   every disk. *)
From Coq Require Import String List Bool Arith Lia.
From Verif Require Import VdirModel VdirProps.
Import ListNotations.
Open Scope list_scope.

(* ------------------------------------------------------------------ *)
(* The specification                                                  *)

(* [p] is a copy: the place, in a variant directory with duplicate=1, of the
   copy of source file [s] *)
Definition copy_of (c : conf) (p s : path) : Prop :=
  dupl c p = true /\ derived c p = false /\ srcof c p = Some s /\ s <> p.

(* [s] is an ordinary source file: neither a copy nor a target *)
Definition ordinary (c : conf) (s : path) : Prop :=
  derived c s = false /\ forall x, ~ copy_of c s x.

Definition built (l : list op) (t : path) : Prop := exists x, In (OBuild t x) l.

(* what is built are targets, not precious ones *)
Definition builds_targets (c : conf) (l : list op) : Prop :=
  forall t, built l t -> derived c t = true /\ precious c t = false.

Definition inodes_ok (d : disk) : Prop :=
  forall p i, ents d p = Some (EReg i) -> i < next d.

(* ------------------------------------------------------------------ *)
(* Lemmas on the disk                                                 *)

Lemma setent_same : forall d p e, ents (setent d p e) p = e.
Proof. intros d p e. cbn [setent ents]. rewrite peqb_refl. reflexivity. Qed.

Lemma setent_other : forall d p e q, q <> p -> ents (setent d p e) q = ents d q.
Proof. intros d p e q H. cbn [setent ents]. apply peqb_neq in H. rewrite H. reflexivity. Qed.

Lemma write_absent : forall d p x,
  ents d p = None ->
  write d p x = Some (Disk (fun q => if peqb q p then Some (EReg (next d)) else ents d q)
                           (fun i => if i =? next d then x else cont d i) (S (next d))).
Proof. intros d p x H. unfold write. cbn [write_]. rewrite H. reflexivity. Qed.

Lemma write_reg : forall d p i x,
  ents d p = Some (EReg i) ->
  write d p x = Some (Disk (ents d) (fun j => if j =? i then x else cont d j) (next d)).
Proof. intros d p i x H. unfold write. cbn [write_]. rewrite H. reflexivity. Qed.

Lemma stat_reg : forall d p i, ents d p = Some (EReg i) -> stat d p = Some i.
Proof. intros d p i H. unfold stat. cbn [resolve]. rewrite H. reflexivity. Qed.

Lemma stat_none : forall d p, ents d p = None -> stat d p = None.
Proof. intros d p H. unfold stat. cbn [resolve]. rewrite H. reflexivity. Qed.

Lemma stat_lnk : forall d p s i,
  ents d p = Some (ELnk true s) -> ents d s = Some (EReg i) -> stat d p = Some i.
Proof. intros d p s i H H2. unfold stat. cbn [resolve]. rewrite H. cbn [lnk_to]. rewrite H2. reflexivity. Qed.

(* [d'] comes from [d] by changing the entry [p], and nothing that was there
   before through any name *)
Definition only (p : path) (d d' : disk) : Prop :=
  next d <= next d' /\
  (forall i, i < next d -> cont d' i = cont d i) /\
  (forall q, q <> p -> ents d' q = ents d q).

Lemma only_refl : forall p d, only p d d.
Proof. intros p d. split; [lia|]. split; reflexivity. Qed.

Lemma only_trans : forall p a b d, only p a b -> only p b d -> only p a d.
Proof.
  intros p a b d (N & X & Y) (N2 & X2 & Y2). split; [lia|]. split.
  - intros i Hi. rewrite X2 by lia. apply X. exact Hi.
  - intros q Hq. rewrite (Y2 q Hq). apply Y. exact Hq.
Qed.

(* the destination while the functions are tried: absent, or a file made
   since [n0] *)
Definition fresh_at (n0 : nat) (p : path) (d : disk) : Prop :=
  ents d p = None \/ exists j, ents d p = Some (EReg j) /\ n0 <= j /\ j < next d.

(* [p] holds what [s] has: a name of the same file, a link to it, or a file
   with the same content *)
Definition good (p s : path) (d : disk) : Prop :=
  forall i, ents d s = Some (EReg i) ->
    (exists j, ents d p = Some (EReg j) /\ cont d j = cont d i /\ j < next d) \/
    ents d p = Some (ELnk true s).

Lemma lwrite_fresh : forall n0 d p x,
  n0 <= next d -> fresh_at n0 p d ->
  exists d', lwrite d p x = LOk d' /\ n0 <= next d' /\ fresh_at n0 p d' /\
    (exists j, ents d' p = Some (EReg j) /\ cont d' j = x /\ j < next d') /\
    (forall i, i < n0 -> cont d' i = cont d i) /\
    (forall q, q <> p -> ents d' q = ents d q).
Proof.
  intros n0 d p x Hn [Ha | (j & Hj & Hlo & Hhi)]; unfold lwrite.
  - rewrite (write_absent d p x Ha).
    eexists. split; [reflexivity|]. cbn [ents next cont]. split; [lia|].
    assert (HP : (if peqb p p then Some (EReg (next d)) else ents d p) = Some (EReg (next d)))
      by (rewrite peqb_refl; reflexivity).
    split; [right; exists (next d); cbn [ents next]; split; [exact HP | lia]|].
    split.
    + exists (next d). split; [exact HP|]. split; [rewrite Nat.eqb_refl; reflexivity | lia].
    + split.
      * intros i Hi. assert (HE : (i =? next d) = false) by (apply Nat.eqb_neq; lia). rewrite HE. reflexivity.
      * intros q Hq. apply peqb_neq in Hq. rewrite Hq. reflexivity.
  - rewrite (write_reg d p j x Hj).
    eexists. split; [reflexivity|]. cbn [ents next cont]. split; [lia|].
    split; [right; exists j; cbn [ents next]; auto|]. split.
    + exists j. split; [exact Hj|]. split; [rewrite Nat.eqb_refl; reflexivity | exact Hhi].
    + split; [|reflexivity]. intros i Hi.
      assert (HE : (i =? j) = false) by (apply Nat.eqb_neq; lia). rewrite HE. reflexivity.
Qed.

(* what link_one and link_all do to a destination that was absent at first *)
Definition link_post (n0 : nat) (src dst : path) (d : disk) (r : lres) : Prop :=
  match r with
  | LHang => True
  | LErr d' => n0 <= next d' /\ fresh_at n0 dst d' /\
               (forall i, i < n0 -> cont d' i = cont d i) /\
               (forall q, q <> dst -> ents d' q = ents d q)
  | LOk d' => n0 <= next d' /\
              (forall i, i < n0 -> cont d' i = cont d i) /\
              (forall q, q <> dst -> ents d' q = ents d q) /\
              (forall j, ents d' dst = Some (EReg j) -> j < next d') /\
              good dst src d'
  end.

Lemma hard_src_reg : forall k cw d src i,
  ents d src = Some (EReg i) -> hard_src k cw d src = Some src.
Proof. intros [|k] cw d src i H; cbn [hard_src]; rewrite H; reflexivity. Qed.

Lemma link_one_post : forall c m n n0 d src dst,
  n0 <= next d -> src <> dst -> fresh_at n0 dst d ->
  (forall p i, p <> dst -> ents d p = Some (EReg i) -> i < n0) ->
  link_post n0 src dst d (link_one c m n d src dst).
Proof.
  intros c m n n0 d src dst Hn Hne Hf Hi.
  assert (HErr : link_post n0 src dst d (LErr d)) by (cbn [link_post]; auto).
  unfold link_one. destruct m.
  - destruct (hard_src loopmax (cwd c) d src) as [s|] eqn:Hs; [|exact Logic.I].
    destruct (lfail c n); [exact HErr|].
    destruct (ents d s) as [e|] eqn:He; [|exact HErr].
    destruct (ents d dst) as [e2|] eqn:Hd; [exact HErr|].
    cbn [link_post]. split; [cbn [setent next]; exact Hn|].
    split; [reflexivity|]. split; [intros q Hq; apply setent_other; exact Hq|].
    assert (HsD : s <> dst) by congruence.
    split.
    + intros j Hj. rewrite setent_same in Hj. cbn [setent next].
      injection Hj as ->. specialize (Hi s j HsD He). lia.
    + intros i HI. rewrite setent_other in HI by exact Hne.
      rewrite (hard_src_reg loopmax (cwd c) d src i HI) in Hs. injection Hs as <-.
      left. exists i. rewrite setent_same. split; [congruence|]. split; [reflexivity|].
      cbn [setent next]. specialize (Hi src i Hne HI). lia.
  - destruct (lfail c n); [exact HErr|].
    destruct (ents d dst) as [e2|] eqn:Hd; [exact HErr|].
    cbn [link_post]. split; [cbn [setent next]; exact Hn|].
    split; [reflexivity|]. split; [intros q Hq; apply setent_other; exact Hq|].
    split; [intros j Hj; rewrite setent_same in Hj; discriminate|].
    intros i _. right. apply setent_same.
  - destruct (stat d src) as [i|] eqn:Hs; [|exact HErr].
    assert (HW : link_post n0 src dst d (lwrite d dst (cont d i))).
    { destruct (lwrite_fresh n0 d dst (cont d i) Hn Hf) as (d' & -> & Hn' & Hf' & (j & Hj & Hc & Hlt) & Hold & Hoth).
      cbn [link_post]. split; [exact Hn'|]. split; [exact Hold|]. split; [exact Hoth|]. split.
      - intros j' Hj'. congruence.
      - intros i' Hi'. left. exists j. split; [exact Hj|].
        assert (Hsd : ents d src = Some (EReg i')) by (rewrite <- (Hoth src Hne); exact Hi').
        assert (i' = i) by (rewrite (stat_reg d src i' Hsd) in Hs; congruence). subst i'.
        split; [|exact Hlt]. rewrite Hc. symmetry. apply Hold. apply (Hi src i Hne Hsd). }
    assert (HT : link_post n0 src dst d (match torn c n with
                    | None => LErr d
                    | Some x => match lwrite d dst x with LOk d' => LErr d' | r => r end end)).
    { destruct (torn c n) as [x|]; [|exact HErr].
      destruct (lwrite_fresh n0 d dst x Hn Hf) as (d' & -> & Hn' & Hf' & _ & Hold & Hoth).
      cbn [link_post]. auto. }
    destruct (stat d dst) as [j|].
    + destruct (j =? i); [exact HErr|]. destruct (lfail c n); [exact HT | exact HW].
    + destruct (lfail c n); [exact HT | exact HW].
Qed.

Lemma link_all_post : forall c ms n n0 d src dst,
  ms <> [] -> n0 <= next d -> src <> dst -> fresh_at n0 dst d ->
  (forall p i, p <> dst -> ents d p = Some (EReg i) -> i < n0) ->
  link_post n0 src dst d (link_all c ms n d src dst).
Proof.
  intros c ms. induction ms as [|m ms IH]; intros n n0 d src dst Hms Hn Hne Hf Hi; [congruence|].
  cbn [link_all]. pose proof (link_one_post c m n n0 d src dst Hn Hne Hf Hi) as HP.
  destruct (link_one c m n d src dst) as [d'|d'|]; [exact HP| |exact Logic.I].
  destruct ms as [|m2 ms]; [exact HP|].
  cbn [link_post] in HP. destruct HP as (Hn' & Hf' & Hold & Hoth).
  assert (HI' : forall p i, p <> dst -> ents d' p = Some (EReg i) -> i < n0).
  { intros p i Hp He. apply (Hi p i Hp). rewrite <- (Hoth p Hp). exact He. }
  assert (Hms2 : m2 :: ms <> []) by discriminate.
  pose proof (IH (S n) n0 d' src dst Hms2 Hn' Hne Hf' HI') as HQ.
  destruct (link_all c (m2 :: ms) (S n) d' src dst) as [d2|d2|]; cbn [link_post] in HQ |- *.
  - destruct HQ as (A & B & D & E & F). split; [exact A|]. split; [|split; [|auto]].
    + intros i Hlt. rewrite (B i Hlt). apply Hold. exact Hlt.
    + intros q Hq. rewrite (D q Hq). apply Hoth. exact Hq.
  - destruct HQ as (A & B & D & E). split; [exact A|]. split; [exact B|]. split.
    + intros i Hlt. rewrite (D i Hlt). apply Hold. exact Hlt.
    + intros q Hq. rewrite (E q Hq). apply Hoth. exact Hq.
  - exact Logic.I.
Qed.

(* ------------------------------------------------------------------ *)
(* The invariant of a run                                             *)

(* the memoized values are right about what is at the name itself *)
Definition memo_right (s : dst) : Prop :=
  forall p b, mex s p = Some b ->
    match ents (dsk s) p with
    | Some (EReg _) => b = true
    | None => b = false
    | Some (ELnk _ _) => True
    end.

Definition run_inv (c : conf) (s : dst) : Prop :=
  inodes_ok (dsk s) /\ memo_right s.

(* from [s] to [s']: no old file's content changes, and what has changed are
   copies ([P] says which other names may have) *)
Definition frame (c : conf) (P : path -> Prop) (s s' : dst) : Prop :=
  next (dsk s) <= next (dsk s') /\
  (forall i, i < next (dsk s) -> cont (dsk s') i = cont (dsk s) i) /\
  (forall q, ents (dsk s') q <> ents (dsk s) q -> P q \/ exists x, copy_of c q x) /\
  (forall q, linked s q = true -> linked s' q = true).

Lemma frame_refl : forall c P s, frame c P s s.
Proof. intros c P s. split; [lia|]. split; [reflexivity|]. split; [congruence | auto]. Qed.

Lemma ent_dec : forall a b : option ent, {a = b} + {a <> b}.
Proof.
  intros a b. repeat decide equality.
Qed.

Lemma frame_trans : forall c (P : path -> Prop) a b d, frame c P a b -> frame c P b d -> frame c P a d.
Proof.
  intros c P a b d (N & X & Y & L) (N2 & X2 & Y2 & L2).
  split; [lia|]. split; [|split; [|auto]].
  - intros i Hi. rewrite X2 by lia. apply X. exact Hi.
  - intros q Hq. destruct (ent_dec (ents (dsk b) q) (ents (dsk a) q)) as [E|E]; [|apply Y; exact E].
    apply Y2. congruence.
Qed.

Lemma frame_weaken : forall c (P Q : path -> Prop) a b,
  (forall q, P q -> Q q) -> frame c P a b -> frame c Q a b.
Proof.
  intros c P Q a b HPQ (N & X & Y & L). split; [exact N|]. split; [exact X|]. split; [|exact L].
  intros q Hq. destruct (Y q Hq) as [H|H]; auto.
Qed.

(* a step that changes one name and resets what is memoized for it *)
Lemma one_name : forall c P s s' p,
  run_inv c s ->
  only p (dsk s) (dsk s') ->
  (forall j, ents (dsk s') p = Some (EReg j) -> j < next (dsk s')) ->
  (forall q, q <> p -> mex s' q = mex s q) ->
  (forall b, mex s' p = Some b ->
     match ents (dsk s') p with Some (EReg _) => b = true | None => b = false | _ => True end) ->
  (forall q, linked s q = true -> linked s' q = true) ->
  (P p \/ exists x, copy_of c p x) ->
  run_inv c s' /\ frame c P s s'.
Proof.
  intros c P s s' p (HI & HM) (N & X & Y) Hj Hm Hp HL HC. split; [split|].
  - intros q i Hq. destruct (path_dec q p) as [->|Hne]; [apply Hj; exact Hq|].
    rewrite (Y q Hne) in Hq. specialize (HI q i Hq). lia.
  - intros q b Hq. destruct (path_dec q p) as [->|Hne]; [apply Hp; exact Hq|].
    rewrite (Y q Hne). apply HM. rewrite <- (Hm q Hne). exact Hq.
  - split; [exact N|]. split; [exact X|]. split; [|exact HL].
    intros q Hq. destruct (path_dec q p) as [->|Hne]; [exact HC|].
    exfalso. apply Hq. apply Y. exact Hne.
Qed.

(* memoizing exists() of what is there *)
Lemma base_inv : forall c s p,
  run_inv c s -> run_inv c (memo_exists p (exists_base (dsk s) p) s).
Proof.
  intros c s p (HI & HM). split; [exact HI|].
  intros q b Hq. cbn [memo_exists mex dsk] in *. unfold upd in Hq.
  destruct (peqb q p) eqn:E; [|apply HM; exact Hq].
  apply peqb_eq in E. subst q. injection Hq as <-. unfold exists_base.
  destruct (ents (dsk s) p) as [[i|a t]|] eqn:He.
  - rewrite (stat_reg _ _ _ He). reflexivity.
  - exact Logic.I.
  - rewrite (stat_none _ _ He). reflexivity.
Qed.

Definition no_unlink_fault (c : conf) : Prop := forall n, ufail c n = false.

Lemma unlink_ok : forall c p s,
  no_unlink_fault c ->
  exists s', unlink c p s = Some s' /\ ents (dsk s') p = None /\ only p (dsk s) (dsk s') /\
    linked s' = linked s /\ mex s' = mex s /\ next (dsk s') = next (dsk s).
Proof.
  intros c p s HU. unfold unlink. destruct (ents (dsk s) p) as [e|] eqn:He.
  - rewrite HU. eexists. split; [reflexivity|]. cbn [tick setdsk dsk linked mex].
    split; [apply setent_same|]. split; [|auto].
    split; [cbn [setent next]; lia|]. split; [reflexivity|].
    intros q Hq. apply setent_other. exact Hq.
  - eexists. split; [reflexivity|]. cbn [tick dsk linked mex].
    split; [exact He|]. split; [apply only_refl | auto].
Qed.

Definition keeps (p : path) (s s' : dst) : Prop :=
  (forall q, q <> p -> mex s' q = mex s q) /\ (forall q, q <> p -> linked s' q = linked s q).

(* do_duplicate *)
Lemma do_duplicate_inv : forall c p src s,
  no_unlink_fault c -> order c <> [] -> run_inv c s -> copy_of c p src ->
  mex s p = None ->
  match do_duplicate c p src s with
  | Ret _ s' => run_inv c s' /\ frame c (fun _ => False) s s' /\ keeps p s s' /\
                mex s' p = None /\ linked s' p = true /\ only p (dsk s) (dsk s') /\
                (dry c = false -> good p src (dsk s')) /\
                (dry c = true -> dsk s' = dsk s)
  | Raise s' => run_inv c s' /\ frame c (fun _ => False) s s' /\ keeps p s s' /\
                mex s' p = None /\ linked s' p = linked s p /\ only p (dsk s) (dsk s') /\
                dry c = false
  | Hang => True
  | Deep => False
  end.
Proof.
  intros c p src s HU HO Hinv HC Hm. unfold do_duplicate. destruct (dry c) eqn:Hdry.
  - assert (HH : run_inv c (clear p (set_linked p s)) /\ frame c (fun _ => False) s (clear p (set_linked p s))).
    { apply (one_name c (fun _ => False) s _ p Hinv).
      - apply only_refl.
      - intros j Hj. apply (proj1 Hinv p j Hj).
      - intros q Hq. cbn [clear set_linked mex]. unfold upd. apply peqb_neq in Hq. rewrite Hq. reflexivity.
      - intros b Hb. cbn [clear set_linked mex] in Hb. unfold upd in Hb. rewrite peqb_refl in Hb. discriminate.
      - intros q Hq. cbn [clear set_linked linked]. unfold upd. destruct (peqb q p); auto.
      - right. exists src. exact HC. }
    destruct HH as (HA & HB). split; [exact HA|]. split; [exact HB|]. split.
    { split; intros q Hq; cbn [clear set_linked mex linked]; unfold upd; apply peqb_neq in Hq; rewrite Hq; reflexivity. }
    split; [cbn [clear set_linked mex]; unfold upd; rewrite peqb_refl; reflexivity|].
    split; [cbn [clear set_linked linked]; unfold upd; rewrite peqb_refl; reflexivity|].
    split; [apply only_refl|]. split; [discriminate | reflexivity].
  - destruct (unlink_ok c p s HU) as (s1 & -> & Habs & Honly & HL1 & HM1 & HN1).
    assert (Hne : src <> p) by (destruct HC as (_ & _ & _ & HC); exact HC).
    assert (HP : link_post (next (dsk s1)) src p (dsk s1) (link_all c (order c) (clk s1) (dsk s1) src p)).
    { apply link_all_post; [exact HO | lia | exact Hne | left; exact Habs|].
      intros q i Hq He. destruct Honly as (_ & _ & Hent). rewrite (Hent q Hq) in He.
      rewrite HN1. apply (proj1 Hinv q i He). }
    destruct (link_all c (order c) (clk s1) (dsk s1) src p) as [d|d|]; cbn [link_post] in HP; [| |exact Logic.I].
    + destruct HP as (Hn & Hold & Hoth & Hreg & Hgood).
      assert (HO2 : only p (dsk s) d).
      { apply (only_trans p (dsk s) (dsk s1) d Honly). split; [exact Hn|]. split; [exact Hold | exact Hoth]. }
      set (s2 := clear p (set_linked p (DSt d (clk s1 + length (order c)) (linked s1) (mex s1)))).
      assert (HH : run_inv c s2 /\ frame c (fun _ => False) s s2).
      { apply (one_name c (fun _ => False) s s2 p Hinv).
        - exact HO2.
        - intros j Hj. apply Hreg. exact Hj.
        - intros q Hq. subst s2. cbn [clear set_linked mex]. unfold upd. apply peqb_neq in Hq. rewrite Hq, HM1. reflexivity.
        - intros b Hb. subst s2. cbn [clear set_linked mex] in Hb. unfold upd in Hb. rewrite peqb_refl in Hb. discriminate.
        - intros q Hq. subst s2. cbn [clear set_linked linked]. unfold upd. destruct (peqb q p); [reflexivity|].
          rewrite HL1. exact Hq.
        - right. exists src. exact HC. }
      destruct HH as (HA & HB). split; [exact HA|]. split; [exact HB|]. split.
      { split; intros q Hq; subst s2; cbn [clear set_linked mex linked]; unfold upd; apply peqb_neq in Hq; rewrite Hq; congruence. }
      subst s2.
      split; [cbn [clear set_linked mex]; unfold upd; rewrite peqb_refl; reflexivity|].
      split; [cbn [clear set_linked linked]; unfold upd; rewrite peqb_refl; reflexivity|].
      split; [exact HO2|]. split; [intros _; exact Hgood | discriminate].
    + destruct HP as (Hn & Hf & Hold & Hoth).
      assert (HO2 : only p (dsk s) d).
      { apply (only_trans p (dsk s) (dsk s1) d Honly). split; [exact Hn|]. split; [exact Hold | exact Hoth]. }
      set (s2 := DSt d (clk s1 + length (order c)) (linked s1) (mex s1)).
      assert (HH : run_inv c s2 /\ frame c (fun _ => False) s s2).
      { apply (one_name c (fun _ => False) s s2 p Hinv).
        - exact HO2.
        - intros j Hj. cbn [s2 dsk] in Hj. destruct Hf as [Hf | (j' & Hf & _ & Hlt)]; [congruence|].
          assert (j = j') by congruence. subst j'. exact Hlt.
        - intros q Hq. cbn [s2 mex]. rewrite HM1. reflexivity.
        - intros b Hb. cbn [s2 mex] in Hb. rewrite HM1, Hm in Hb. discriminate.
        - intros q Hq. cbn [s2 linked]. rewrite HL1. exact Hq.
        - right. exists src. exact HC. }
      destruct HH as (HA & HB). split; [exact HA|]. split; [exact HB|]. subst s2. cbn [mex linked dsk].
      split; [split; intros q Hq; cbn [mex linked]; congruence|].
      split; [congruence|]. split; [congruence|]. split; [exact HO2 | reflexivity].
Qed.

(* ------------------------------------------------------------------ *)
(* exists()                                                           *)

(* the source a call of exists() on [p] goes on to, if it does *)
Definition next_src (c : conf) (s : dst) (p : path) : option path :=
  match mex s p with
  | Some _ => None
  | None =>
      if dupl c p && negb (derived c p) && negb (linked s p) then
        match srcof c p with
        | None => None
        | Some src => if peqb src p then None else Some src
        end
      else None
  end.

Inductive ends (c : conf) (s : dst) : nat -> path -> Prop :=
| ends_here : forall p, next_src c s p = None -> ends c s 0 p
| ends_on : forall n p q, next_src c s p = Some q -> ends c s n q -> ends c s (S n) p.

Lemma ends_fun : forall c s n m p, ends c s n p -> ends c s m p -> n = m.
Proof.
  intros c s n m p H. revert m. induction H as [p Hp | n p q Hp Hq IH]; intros m Hm.
  - inversion Hm; [reflexivity | congruence].
  - inversion Hm as [p2 Hp2 | m2 p2 q2 Hp2 Hq2]; [congruence|].
    f_equal. apply IH. congruence.
Qed.

Lemma ends_or_deep : forall fuel c s p,
  exists_ fuel c p s = Deep \/ exists n, ends c s n p.
Proof.
  intros fuel. induction fuel as [|fuel IH]; intros c s p; [left; reflexivity|].
  destruct (next_src c s p) as [q|] eqn:Hq; [|right; exists 0; constructor; exact Hq].
  destruct (IH c s q) as [Hd | (n & Hn)].
  - left. cbn [exists_]. unfold next_src in Hq.
    destruct (mex s p); [discriminate|].
    destruct (dupl c p && negb (derived c p) && negb (linked s p)); [|discriminate].
    destruct (srcof c p) as [src|]; [|discriminate].
    destruct (peqb src p); [discriminate|]. injection Hq as ->. rewrite Hd. reflexivity.
  - right. exists (S n). econstructor; eassumption.
Qed.

Lemma next_src_copy : forall c s p q,
  next_src c s p = Some q -> copy_of c p q /\ mex s p = None /\ linked s p = false.
Proof.
  intros c s p q H. unfold next_src in H. destruct (mex s p); [discriminate|].
  destruct (dupl c p) eqn:Hd; [|discriminate]. destruct (derived c p) eqn:Hv; [discriminate|].
  destruct (linked s p) eqn:Hl; [discriminate|]. cbn [andb negb] in H.
  destruct (srcof c p) as [src|] eqn:Hs; [|discriminate].
  destruct (peqb src p) eqn:He; [discriminate|]. injection H as ->.
  apply peqb_neq in He. repeat split; auto.
Qed.

(* the nodes a call of exists() touches: those on the way to the end *)
Definition touch (c : conf) (n : nat) (s s' : dst) : Prop :=
  forall q, (forall k, k <= n -> ~ ends c s k q) ->
    ents (dsk s') q = ents (dsk s) q /\ mex s' q = mex s q /\ linked s' q = linked s q.

(* copies that have been looked at are right *)
Definition copies_right (c : conf) (s : dst) : Prop :=
  dry c = false -> forall p src, copy_of c p src -> ordinary c src ->
    (linked s p = true -> good p src (dsk s) /\ ents (dsk s) src <> None) /\
    (forall b, mex s p = Some b ->
       good p src (dsk s) /\
       (ents (dsk s) src = None -> ents (dsk s) p = None /\ b = false) /\
       (forall i, ents (dsk s) src = Some (EReg i) -> b = true)).

(* with -n, only copies whose source is missing may have gone *)
Definition dry_change (c : conf) (s s' : dst) : Prop :=
  dry c = true -> forall q, ents (dsk s') q <> ents (dsk s) q ->
    ents (dsk s') q = None /\
    exists src, copy_of c q src /\
      (ordinary c src -> forall i, ents (dsk s) src <> Some (EReg i)).

Definition noP : path -> Prop := fun _ => False.

Lemma ordinary_same : forall c s s' q,
  frame c noP s s' -> ordinary c q -> ents (dsk s') q = ents (dsk s) q.
Proof.
  intros c s s' q (_ & _ & Y & _) (_ & Hq).
  destruct (ent_dec (ents (dsk s') q) (ents (dsk s) q)) as [E|E]; [exact E|].
  exfalso. destruct (Y q E) as [[] | (x & Hx)]. exact (Hq x Hx).
Qed.

Lemma dry_change_refl : forall c s s', dsk s' = dsk s -> dry_change c s s'.
Proof. intros c s s' H _ q Hq. exfalso. apply Hq. rewrite H. reflexivity. Qed.

Lemma dry_change_trans : forall c a b d,
  frame c noP a b -> dry_change c a b -> dry_change c b d -> dry_change c a d.
Proof.
  intros c a b d HF H1 H2 Hd q Hq.
  destruct (ent_dec (ents (dsk d) q) (ents (dsk b) q)) as [E|E].
  - rewrite E in Hq |- *. apply (H1 Hd q Hq).
  - destruct (H2 Hd q E) as (HN & src & HC & Hs). split; [exact HN|].
    exists src. split; [exact HC|]. intros Ho i.
    rewrite <- (ordinary_same c a b src HF Ho). apply Hs. exact Ho.
Qed.

(* a file name keeps holding the same thing *)
Lemma good_keep : forall p src d d',
  (forall q i, ents d q = Some (EReg i) -> i < next d) ->
  next d <= next d' ->
  (forall i, i < next d -> cont d' i = cont d i) ->
  ents d' p = ents d p -> ents d' src = ents d src ->
  good p src d -> good p src d'.
Proof.
  intros p src d d' HI HN HX Hp Hs HG i Hi. rewrite Hs in Hi.
  destruct (HG i Hi) as [(j & Hj & Hc & Hlt) | HL].
  - left. exists j. split; [congruence|]. split; [|lia].
    rewrite (HX j Hlt), (HX i (HI src i Hi)). exact Hc.
  - right. congruence.
Qed.

Lemma good_stat : forall p src d i,
  good p src d -> ents d src = Some (EReg i) ->
  exists j, stat d p = Some j /\ cont d j = cont d i.
Proof.
  intros p src d i HG Hi. destruct (HG i Hi) as [(j & Hj & Hc & _) | HL].
  - exists j. split; [apply stat_reg; exact Hj | exact Hc].
  - exists i. split; [apply (stat_lnk d p src i HL Hi) | reflexivity].
Qed.

(* a step on the one name [p] keeps the others right *)
Lemma copies_step : forall c s s' p,
  run_inv c s -> copies_right c s -> only p (dsk s) (dsk s') -> keeps p s s' ->
  (forall x, ordinary c x -> ents (dsk s') x = ents (dsk s) x) ->
  (dry c = false -> forall src, copy_of c p src -> ordinary c src ->
    (linked s' p = true -> good p src (dsk s') /\ ents (dsk s') src <> None) /\
    (forall b, mex s' p = Some b ->
       good p src (dsk s') /\
       (ents (dsk s') src = None -> ents (dsk s') p = None /\ b = false) /\
       (forall i, ents (dsk s') src = Some (EReg i) -> b = true))) ->
  copies_right c s'.
Proof.
  intros c s s' p (HI & _) HC (N & X & Y) (KM & KL) HO Hp Hdry q src Hcq Hos.
  destruct (path_dec q p) as [->|Hne]; [apply (Hp Hdry src Hcq Hos)|].
  destruct (HC Hdry q src Hcq Hos) as (HA & HB).
  assert (HG : good q src (dsk s) -> good q src (dsk s')).
  { apply good_keep; auto. }
  split.
  - intros Hl. rewrite (KL q Hne) in Hl. destruct (HA Hl) as (G & E). split; [auto|].
    rewrite (HO src Hos). exact E.
  - intros b Hb. rewrite (KM q Hne) in Hb. destruct (HB b Hb) as (G & E1 & E2).
    split; [auto|]. rewrite (HO src Hos), (Y q Hne). auto.
Qed.

Lemma keeps_memo : forall p b s, keeps p s (memo_exists p b s).
Proof.
  intros p b s. split; intros q Hq; cbn [memo_exists mex linked]; [|reflexivity].
  unfold upd. apply peqb_neq in Hq. rewrite Hq. reflexivity.
Qed.

Lemma copy_fun : forall c p a b, copy_of c p a -> copy_of c p b -> a = b.
Proof. intros c p a b (_ & _ & H & _) (_ & _ & H2 & _). congruence. Qed.

Definition exists_post (c : conf) (n : nat) (p : path) (s : dst) (r : res bool) : Prop :=
  match r with
  | Ret b s' => run_inv c s' /\ copies_right c s' /\ frame c noP s s' /\
                touch c n s s' /\ dry_change c s s' /\ mex s' p = Some b
  | Raise s' => run_inv c s' /\ copies_right c s' /\ frame c noP s s' /\
                touch c n s s' /\ dry_change c s s'
  | _ => True
  end.

(* memoizing what is there: no copy to make *)
Lemma base_post : forall c p s n,
  run_inv c s -> copies_right c s -> mex s p = None ->
  ends c s n p ->
  (dry c = false -> forall src, copy_of c p src -> ordinary c src -> linked s p = true) ->
  exists_post c n p s (Ret (exists_base (dsk s) p) (memo_exists p (exists_base (dsk s) p) s)).
Proof.
  intros c p s n Hinv HC Hm He Hcopy. cbn [exists_post].
  split; [apply base_inv; exact Hinv|]. split; [|split; [|split; [|split]]].
  - apply (copies_step c s (memo_exists p (exists_base (dsk s) p) s) p Hinv HC (only_refl p (dsk s)) (keeps_memo p _ s)); [reflexivity|].
    intros Hdry src Hcp Hos. cbn [memo_exists linked dsk].
    pose proof (Hcopy Hdry src Hcp Hos) as Hl.
    destruct (HC Hdry p src Hcp Hos) as (HA & _). destruct (HA Hl) as (HG & Hne). split; [auto|].
    intros b Hb. cbn [memo_exists mex] in Hb. unfold upd in Hb. rewrite peqb_refl in Hb. injection Hb as <-.
    split; [exact HG|]. split; [intros E; contradiction|].
    intros i Hi. destruct (good_stat p src (dsk s) i HG Hi) as (j & Hj & _).
    unfold exists_base. rewrite Hj. reflexivity.
  - split; [cbn [memo_exists dsk]; lia|]. split; [reflexivity|]. split; [|auto].
    intros q Hq. exfalso. apply Hq. reflexivity.
  - intros q Hq. cbn [memo_exists dsk mex linked]. split; [reflexivity|]. split; [|reflexivity].
    unfold upd. destruct (peqb q p) eqn:E; [|reflexivity]. apply peqb_eq in E. subst q.
    exfalso. exact (Hq n (le_n n) He).
  - apply dry_change_refl. reflexivity.
  - cbn [memo_exists mex]. unfold upd. rewrite peqb_refl. reflexivity.
Qed.

Lemma exists_inv : forall n fuel c p s,
  no_unlink_fault c -> order c <> [] ->
  ends c s n p -> run_inv c s -> copies_right c s ->
  exists_post c n p s (exists_ fuel c p s).
Proof.
  intros n. induction n as [|n IH]; intros fuel c p s HU HO He Hinv HC;
    (destruct fuel as [|fuel]; [exact Logic.I|]); cbn [exists_].
  - inversion He as [p' Hn|]. subst p'. unfold next_src in Hn.
    destruct (mex s p) as [b|] eqn:Hm.
    { cbn [exists_post]. split; [exact Hinv|]. split; [exact HC|]. split; [apply frame_refl|].
      split; [intros q _; auto|]. split; [apply dry_change_refl; reflexivity | exact Hm]. }
    assert (HX : (forall src, copy_of c p src -> linked s p = true) ->
                 exists_post c 0 p s (Ret (exists_base (dsk s) p) (memo_exists p (exists_base (dsk s) p) s))).
    { intros H. apply base_post; auto. intros _ src Hcp _. exact (H src Hcp). }
    destruct (dupl c p && negb (derived c p) && negb (linked s p)) eqn:Hcond.
    + destruct (srcof c p) as [src|] eqn:Hs.
      * destruct (peqb src p) eqn:Hsp; [|discriminate]. apply HX.
        intros src' (_ & _ & Hs' & Hne). apply peqb_eq in Hsp. congruence.
      * apply HX. intros src' (_ & _ & Hs' & _). congruence.
    + apply HX. intros src (Hd & Hv & _). rewrite Hd, Hv in Hcond. cbn [andb negb] in Hcond.
      destruct (linked s p); [reflexivity | discriminate].
  - inversion He as [|n' p' q Hn Hq]. subst n' p'.
    destruct (next_src_copy c s p q Hn) as (Hcp & Hm & Hl).
    unfold next_src in Hn. rewrite Hm in Hn |- *.
    destruct (dupl c p && negb (derived c p) && negb (linked s p)); [|discriminate].
    destruct (srcof c p) as [src|] eqn:Hs; [|discriminate].
    destruct (peqb src p) eqn:Hsp; [discriminate|]. injection Hn as ->.
    pose proof (IH fuel c q s HU HO Hq Hinv HC) as HP.
    destruct (exists_ fuel c q s) as [b s1|s1| |]; try exact Logic.I; cbn [exists_post] in HP.
    2: { cbn [exists_post]. destruct HP as (A1 & A2 & A3 & A4 & A5).
         repeat (split; [auto; fail|]). split; [|exact A5].
         intros z Hz. apply A4. intros k Hk. apply Hz. lia. }
    destruct HP as (A1 & A2 & A3 & A4 & A5 & A6).
    (* p itself has not been touched by the call on its source *)
    assert (Hp1 : ents (dsk s1) p = ents (dsk s) p /\ mex s1 p = None /\ linked s1 p = false).
    { destruct (A4 p) as (B1 & B2 & B3).
      - intros k Hk He2. pose proof (ends_fun c s _ _ p He He2). lia.
      - rewrite B2, B3. auto. }
    destruct Hp1 as (Hp1 & Hm1 & Hl1).
    assert (HT : forall s2, only p (dsk s1) (dsk s2) -> keeps p s1 s2 -> touch c (S n) s s2).
    { intros s2 (_ & _ & Y) (KM & KL) z Hz.
      assert (Hzp : z <> p) by (intros ->; exact (Hz (S n) (le_n _) He)).
      destruct (A4 z) as (B1 & B2 & B3); [intros k Hk; apply Hz; lia|].
      rewrite (Y z Hzp), (KM z Hzp), (KL z Hzp). auto. }
    assert (Hord : forall s2, only p (dsk s1) (dsk s2) -> forall x, ordinary c x -> ents (dsk s2) x = ents (dsk s1) x).
    { intros s2 (_ & _ & Y) x Hx. apply Y. intros ->. exact (proj2 Hx q Hcp). }
    destruct b.
    + pose proof (do_duplicate_inv c p q s1 HU HO A1 Hcp Hm1) as HD.
      destruct (do_duplicate c p q s1) as [u s2|s2| |]; try exact Logic.I.
      * destruct HD as (D1 & D2 & D3 & D4 & D5 & D6 & D7 & D8).
        assert (HC2 : copies_right c s2).
        { apply (copies_step c s1 s2 p A1 A2 D6 D3 (Hord s2 D6)).
          intros Hdry src' Hcp' Hos. rewrite (copy_fun c p src' q Hcp' Hcp) in *. split.
          - intros _. split; [exact (D7 Hdry)|]. rewrite (Hord s2 D6 q Hos).
            pose proof (proj2 A1 q true A6) as HMR. intros E. rewrite E in HMR. discriminate.
          - intros b' Hb'. congruence. }
        assert (He2 : ends c s2 0 p).
        { constructor. unfold next_src. rewrite D4, D5.
          destruct (dupl c p); [|reflexivity]. destruct (negb (derived c p)); reflexivity. }
        pose proof (base_post c p s2 0 D1 HC2 D4 He2 (fun _ _ _ _ => D5)) as HB.
        cbn [exists_post] in HB |- *. destruct HB as (E1 & E2 & E3 & E4 & E5 & E6).
        assert (HF : frame c noP s s2) by (apply (frame_trans c noP s s1 s2 A3 D2)).
        split; [exact E1|]. split; [exact E2|].
        split; [apply (frame_trans c noP s s2 _ HF E3)|]. split.
        -- apply HT; [exact D6|]. destruct D3 as (KM & KL). split; intros z Hz; cbn [memo_exists mex linked].
           ++ unfold upd. apply peqb_neq in Hz. rewrite Hz. apply KM. apply peqb_neq. exact Hz.
           ++ apply KL. exact Hz.
        -- split; [|exact E6]. apply (dry_change_trans c s s1 _ A3 A5).
           intros Hdry z Hz. exfalso. apply Hz. cbn [memo_exists dsk]. rewrite (D8 Hdry). reflexivity.
      * destruct HD as (D1 & D2 & D3 & D4 & D5 & D6 & D7). cbn [exists_post].
        split; [exact D1|]. split; [|split; [|split]].
        -- apply (copies_step c s1 s2 p A1 A2 D6 D3 (Hord s2 D6)).
           intros Hdry src' Hcp' Hos. split; [intros E; rewrite D5, Hl1 in E; discriminate|].
           intros b' Hb'. congruence.
        -- apply (frame_trans c noP s s1 s2 A3 D2).
        -- apply (HT s2 D6 D3).
        -- intros Hdry. congruence.
    + (* the source does not exist: any old copy goes *)
      assert (HG : forall s2, run_inv c s2 -> only p (dsk s1) (dsk s2) -> linked s2 = linked s1 -> mex s2 = mex s1 ->
                 ents (dsk s2) p = None ->
                 exists_post c (S n) p s (Ret false (memo_exists p false s2))).
      { intros s2 R2 O2 L2 M2 N2. cbn [exists_post].
        assert (HK : keeps p s1 (memo_exists p false s2)).
        { split; intros z Hz; cbn [memo_exists mex linked]; [|congruence].
          unfold upd. apply peqb_neq in Hz. rewrite Hz, M2. reflexivity. }
        split; [|split; [|split; [|split; [|split]]]].
        - split; [exact (proj1 R2)|]. intros z b Hz. cbn [memo_exists mex dsk] in *. unfold upd in Hz.
          destruct (peqb z p) eqn:E.
          + apply peqb_eq in E. subst z. injection Hz as <-. rewrite N2. reflexivity.
          + apply (proj2 R2). exact Hz.
        - apply (copies_step c s1 (memo_exists p false s2) p A1 A2 O2 HK (Hord (memo_exists p false s2) O2)).
          intros Hdry src' Hcp' Hos. rewrite (copy_fun c p src' q Hcp' Hcp) in *. cbn [memo_exists linked dsk]. split.
          + intros E. rewrite L2, Hl1 in E. discriminate.
          + intros b Hb. cbn [memo_exists mex] in Hb. unfold upd in Hb. rewrite peqb_refl in Hb. injection Hb as <-.
            assert (HNR : forall i, ents (dsk s2) q <> Some (EReg i)).
            { intros i Hi. rewrite (Hord s2 O2 q Hos) in Hi. pose proof (proj2 A1 q false A6) as HMR.
              rewrite Hi in HMR. discriminate. }
            split; [intros i Hi; exfalso; exact (HNR i Hi)|]. split; [auto|].
            intros i Hi. exfalso. exact (HNR i Hi).
        - apply (frame_trans c noP s s1 _ A3). destruct O2 as (N & X & Y).
          split; [exact N|]. split; [exact X|]. split.
          + intros z Hz. destruct (path_dec z p) as [->|Hne]; [right; exists q; exact Hcp|].
            exfalso. apply Hz. apply Y. exact Hne.
          + intros z Hz. cbn [memo_exists linked]. rewrite L2. exact Hz.
        - apply (HT (memo_exists p false s2) O2 HK).
        - apply (dry_change_trans c s s1 _ A3 A5). intros Hdry z Hz.
          destruct (path_dec z p) as [->|Hne]; [|exfalso; apply Hz; apply (proj2 (proj2 O2) z Hne)].
          split; [exact N2|]. exists q. split; [exact Hcp|]. intros Hos i Hi.
          pose proof (proj2 A1 q false A6) as HMR. rewrite Hi in HMR. discriminate.
        - cbn [memo_exists mex]. unfold upd. rewrite peqb_refl. reflexivity. }
      destruct (exists_base (dsk s1) p || islink (dsk s1) p) eqn:Hold.
      * destruct (unlink_ok c p s1 HU) as (s2 & -> & Habs & Honly & HL & HM & HN).
        apply HG; auto. split.
        -- intros z i Hz. destruct (path_dec z p) as [->|Hne]; [congruence|].
           rewrite HN. rewrite (proj2 (proj2 Honly) z Hne) in Hz. apply (proj1 A1 z i Hz).
        -- intros z b Hz. rewrite HM in Hz. destruct (path_dec z p) as [->|Hne]; [congruence|].
           rewrite (proj2 (proj2 Honly) z Hne). apply (proj2 A1 z b Hz).
      * apply HG; auto; [apply only_refl|].
        apply orb_false_elim in Hold. destruct Hold as (HB & HL).
        destruct (ents (dsk s1) p) as [[i|a t]|] eqn:E; [| |reflexivity].
        -- exfalso. unfold exists_base in HB. rewrite (stat_reg _ _ _ E) in HB. discriminate.
        -- exfalso. unfold islink in HL. rewrite E in HL. discriminate.
Qed.

(* what is memoized stays, but for what is built *)
Lemma exists_kept : forall fuel c p s,
  match exists_ fuel c p s with
  | Ret _ s' | Raise s' => forall q b, mex s q = Some b -> mex s' q = Some b
  | _ => True
  end.
Proof.
  intros fuel. induction fuel as [|fuel IH]; intros c p s; [exact Logic.I|]. cbn [exists_].
  destruct (mex s p) as [b0|] eqn:Hm; [auto|].
  assert (HM : forall b s1 q b', mex s q = Some b' -> mex s1 q = Some b' -> mex (memo_exists p b s1) q = Some b').
  { intros b s1 q b' Hq H1. cbn [memo_exists mex]. unfold upd. destruct (peqb q p) eqn:E; [|exact H1].
    apply peqb_eq in E. congruence. }
  destruct (dupl c p && negb (derived c p) && negb (linked s p)); [|intros q b Hq; apply HM; exact Hq].
  destruct (srcof c p) as [src|]; [|intros q b Hq; apply HM; exact Hq].
  destruct (peqb src p); [intros q b Hq; apply HM; exact Hq|].
  pose proof (IH c src s) as HI.
  destruct (exists_ fuel c src s) as [b s1|s1| |]; try exact Logic.I; [|exact HI].
  destruct b.
  - unfold do_duplicate. destruct (dry c).
    + intros q b Hq. apply HM; [exact Hq|]. cbn [clear set_linked mex]. unfold upd.
      destruct (peqb q p) eqn:E; [apply peqb_eq in E; congruence | apply HI; exact Hq].
    + assert (HS : mex (match unlink c p s1 with Some s2 => s2 | None => tick s1 end) = mex s1).
      { unfold unlink. destruct (ents (dsk s1) p); [|reflexivity]. destruct (ufail c (clk s1)); reflexivity. }
      destruct (link_all c (order c) _ _ src p) as [d|d|]; try exact Logic.I.
      * intros q b Hq. apply HM; [exact Hq|]. cbn [clear set_linked mex]. unfold upd.
        destruct (peqb q p) eqn:E; [apply peqb_eq in E; congruence|]. rewrite HS. apply HI. exact Hq.
      * intros q b Hq. cbn [mex]. rewrite HS. apply HI. exact Hq.
  - destruct (exists_base (dsk s1) p || islink (dsk s1) p).
    + unfold unlink. destruct (ents (dsk s1) p).
      * destruct (ufail c (clk s1)); [exact HI|]. intros q b Hq. apply HM; [exact Hq|]. apply HI. exact Hq.
      * intros q b Hq. apply HM; [exact Hq|]. apply HI. exact Hq.
    + intros q b Hq. apply HM; [exact Hq|]. apply HI. exact Hq.
Qed.

Lemma ordinary_same_P : forall c (P : path -> Prop) s s' q,
  (forall x, P x -> derived c x = true) ->
  frame c P s s' -> ordinary c q -> ents (dsk s') q = ents (dsk s) q.
Proof.
  intros c P s s' q HP (_ & _ & Y & _) (Hd & Hq).
  destruct (ent_dec (ents (dsk s') q) (ents (dsk s) q)) as [E|E]; [exact E|].
  exfalso. destruct (Y q E) as [H | (x & Hx)]; [|exact (Hq x Hx)].
  specialize (HP q H). congruence.
Qed.

Lemma dry_change_trans_P : forall c (P : path -> Prop) a b d,
  (forall x, P x -> derived c x = true) ->
  frame c P a b -> dry_change c a b -> dry_change c b d -> dry_change c a d.
Proof.
  intros c P a b d HP HF H1 H2 Hd q Hq.
  destruct (ent_dec (ents (dsk d) q) (ents (dsk b) q)) as [E|E].
  - rewrite E in Hq |- *. apply (H1 Hd q Hq).
  - destruct (H2 Hd q E) as (HN & src & HC & Hs). split; [exact HN|].
    exists src. split; [exact HC|]. intros Ho i.
    rewrite <- (ordinary_same_P c P a b src HP HF Ho). apply Hs. exact Ho.
Qed.

Definition op_post (c : conf) (P : path -> Prop) (s s' : dst) : Prop :=
  run_inv c s' /\ copies_right c s' /\ frame c P s s' /\ dry_change c s s' /\
  (forall q b, derived c q = false -> mex s q = Some b -> mex s' q = Some b).

Lemma exists_op_post : forall fuel c p s b s',
  no_unlink_fault c -> order c <> [] -> run_inv c s -> copies_right c s ->
  (exists_ fuel c p s = Ret b s' -> op_post c noP s s' /\ mex s' p = Some b) /\
  (exists_ fuel c p s = Raise s' -> op_post c noP s s').
Proof.
  intros fuel c p s b s' HU HO Hinv HC. destruct (ends_or_deep fuel c s p) as [Hd | (n & Hn)].
  - rewrite Hd. split; discriminate.
  - pose proof (exists_inv n fuel c p s HU HO Hn Hinv HC) as HP.
    pose proof (exists_kept fuel c p s) as HK. split; intros E; rewrite E in HP, HK; cbn [exists_post] in HP.
    + destruct HP as (A1 & A2 & A3 & A4 & A5 & A6). split; [|exact A6].
      split; [exact A1|]. split; [exact A2|]. split; [exact A3|]. split; [exact A5|]. auto.
    + destruct HP as (A1 & A2 & A3 & A4 & A5).
      split; [exact A1|]. split; [exact A2|]. split; [exact A3|]. split; [exact A5|]. auto.
Qed.

Lemma op_post_trans : forall c (P : path -> Prop) a b d,
  (forall x, P x -> derived c x = true) ->
  op_post c P a b -> op_post c P b d -> op_post c P a d.
Proof.
  intros c P a b d HP (A1 & A2 & A3 & A4 & A5) (B1 & B2 & B3 & B4 & B5).
  split; [exact B1|]. split; [exact B2|]. split; [apply (frame_trans c P a b d A3 B3)|].
  split; [apply (dry_change_trans_P c P a b d HP A3 A4 B4)|]. auto.
Qed.

Lemma op_post_weaken : forall c (P Q : path -> Prop) a b,
  (forall q, P q -> Q q) -> op_post c P a b -> op_post c Q a b.
Proof.
  intros c P Q a b H (A1 & A2 & A3 & A4 & A5).
  split; [exact A1|]. split; [exact A2|]. split; [apply (frame_weaken c P Q a b H A3)|]. auto.
Qed.

Lemma op_post_refl : forall c P s, run_inv c s -> copies_right c s -> op_post c P s s.
Proof.
  intros c P s H1 H2. split; [exact H1|]. split; [exact H2|]. split; [apply frame_refl|].
  split; [apply dry_change_refl; reflexivity | auto].
Qed.

(* a step on a target, the memo of which is dropped *)
Lemma target_step : forall c s s' t,
  run_inv c s -> copies_right c s -> derived c t = true ->
  only t (dsk s) (dsk s') -> (forall j, ents (dsk s') t = Some (EReg j) -> j < next (dsk s')) ->
  keeps t s s' -> mex s' t = None -> linked s' t = linked s t ->
  (dry c = true -> dsk s' = dsk s) ->
  op_post c (fun q => q = t) s s'.
Proof.
  intros c s s' t Hinv HC Hd HO Hj (KM & KL) Hm Hl Hdry.
  assert (HH : run_inv c s' /\ frame c (fun q => q = t) s s').
  { apply (one_name c (fun q => q = t) s s' t Hinv HO Hj KM).
    - intros b Hb. congruence.
    - intros q Hq. destruct (path_dec q t) as [->|Hne]; [congruence | rewrite (KL q Hne); exact Hq].
    - left. reflexivity. }
  destruct HH as (H1 & H2). split; [exact H1|]. split; [|split; [exact H2|split]].
  - apply (copies_step c s s' t Hinv HC HO (conj KM KL)).
    + intros x Hx. apply (ordinary_same_P c (fun q => q = t) s s' x); [intros y ->; exact Hd | exact H2 | exact Hx].
    + intros _ src (_ & Hnd & _). congruence.
  - intros HD. apply dry_change_refl; auto.
  - intros q b Hq Hb. rewrite KM; [exact Hb|]. intros ->. congruence.
Qed.

Lemma build_post : forall fuel c t x s s',
  no_unlink_fault c -> order c <> [] -> run_inv c s -> copies_right c s ->
  derived c t = true -> precious c t = false ->
  (build fuel c t x s = Ret tt s' \/ build fuel c t x s = Raise s') ->
  op_post c (fun q => q = t) s s'.
Proof.
  intros fuel c t x s s' HU HO Hinv HC Hd Hp Hb. unfold build in Hb.
  destruct (exists_ fuel c t s) as [b s1|s1| |] eqn:He; try (destruct Hb; discriminate).
  2: { destruct Hb as [Hb | Hb]; [discriminate|]. injection Hb as <-.
       apply (op_post_weaken c noP); [intros q []|].
       apply (proj2 (exists_op_post fuel c t s true s1 HU HO Hinv HC) He). }
  destruct (proj1 (exists_op_post fuel c t s b s1 HU HO Hinv HC) He) as (HP & Hm).
  pose proof HP as (B1 & B2 & B3 & B4 & B5).
  assert (HPt : op_post c (fun q => q = t) s s1) by (apply (op_post_weaken c noP); [intros q [] | exact HP]).
  assert (HQ : forall x0, x0 = t -> derived c x0 = true) by (intros x0 ->; exact Hd).
  assert (HK : forall s2, keeps t s2 (clear t s2)).
  { intros s2. split; intros q Hq; cbn [clear mex linked]; [|reflexivity].
    unfold upd. apply peqb_neq in Hq. rewrite Hq. reflexivity. }
  assert (HMc : forall s2, mex (clear t s2) t = None).
  { intros s2. cbn [clear mex]. unfold upd. rewrite peqb_refl. reflexivity. }
  destruct (dry c) eqn:Hdry.
  - (* -n *)
    assert (HR : exists s2, dsk s2 = dsk s1 /\ mex s2 t = None /\ linked s2 = linked s1 /\ keeps t s1 s2 /\ s' = s2).
    { destruct ((b || islink (dsk s1) t) && derived c t && negb (precious c t)).
      - destruct Hb as [Hb | Hb]; [|discriminate]. injection Hb as <-.
        exists (clear t (clear t s1)). split; [reflexivity|]. split; [apply HMc|]. split; [reflexivity|].
        split; [|reflexivity]. destruct (HK s1) as (K1 & K2). destruct (HK (clear t s1)) as (K3 & K4).
        split; intros q Hq; [rewrite (K3 q Hq); auto | rewrite (K4 q Hq); auto].
      - destruct Hb as [Hb | Hb]; [|discriminate]. injection Hb as <-.
        exists (clear t s1). split; [reflexivity|]. split; [apply HMc|]. split; [reflexivity|]. split; [apply HK|reflexivity]. }
    destruct HR as (s2 & R1 & R2 & R3 & R4 & ->).
    apply (op_post_trans c _ s s1 s2 HQ HPt).
    apply (target_step c s1 s2 t B1 B2 Hd); auto.
    + rewrite R1. apply only_refl.
    + intros j Hj. rewrite R1 in Hj |- *. apply (proj1 B1 t j Hj).
    + rewrite R3. reflexivity.
  - assert (HR : exists s2, ents (dsk s2) t = None /\ only t (dsk s1) (dsk s2) /\ linked s2 = linked s1 /\
              keeps t s1 s2 /\ next (dsk s2) = next (dsk s1) /\
              (if (b || islink (dsk s1) t) && derived c t && negb (precious c t)
               then unlink c t (clear t s1) else Some s1) = Some s2).
    { rewrite Hd, Hp. cbn [negb andb]. rewrite !andb_true_r. destruct (b || islink (dsk s1) t) eqn:Hbl.
      - destruct (unlink_ok c t (clear t s1) HU) as (s2 & E & Ha & Ho & HL & HM & HN).
        exists s2. split; [exact Ha|]. split; [exact Ho|]. split; [rewrite HL; reflexivity|].
        split; [|split; [exact HN | exact E]]. destruct (HK s1) as (K1 & K2).
        split; intros q Hq; [rewrite HM; apply K1; exact Hq | rewrite HL; reflexivity].
      - apply orb_false_elim in Hbl. destruct Hbl as (-> & Hl). exists s1.
        split; [|split; [apply only_refl|split; [reflexivity|split; [split; reflexivity|split; reflexivity]]]].
        pose proof (proj2 B1 t false Hm) as HR. unfold islink in Hl.
        destruct (ents (dsk s1) t) as [[i|a q]|]; [discriminate | discriminate | reflexivity]. }
    destruct HR as (s2 & Habs & Hon & HL & (KM & KL) & HN & HE). rewrite HE in Hb.
    rewrite (write_absent (dsk s2) t x Habs) in Hb.
    destruct Hb as [Hb | Hb]; [|discriminate]. injection Hb as <-.
    apply (op_post_trans c _ s s1 _ HQ HPt).
    apply (target_step c s1 _ t B1 B2 Hd).
    + apply (only_trans t (dsk s1) (dsk s2) _ Hon). split; [|split].
      * cbn [clear setdsk dsk next]. lia.
      * intros i Hi. cbn [clear setdsk dsk cont].
        assert (HE2 : (i =? next (dsk s2)) = false) by (apply Nat.eqb_neq; lia). rewrite HE2. reflexivity.
      * intros q Hq. cbn [clear setdsk dsk ents]. apply peqb_neq in Hq. rewrite Hq. reflexivity.
    + intros j Hj. cbn [clear setdsk dsk ents next] in *. rewrite peqb_refl in Hj. injection Hj as <-. lia.
    + split; intros q Hq; cbn [clear setdsk mex linked].
      * unfold upd. pose proof Hq as Hq'. apply peqb_neq in Hq'. rewrite Hq'. apply KM. exact Hq.
      * apply KL. exact Hq.
    + apply HMc.
    + cbn [clear setdsk linked]. rewrite HL. reflexivity.
    + congruence.
Qed.

Lemma ops_post : forall fuel c l s s',
  no_unlink_fault c -> order c <> [] -> run_inv c s -> copies_right c s ->
  builds_targets c l -> do_ops fuel c l s = Some s' ->
  op_post c (built l) s s'.
Proof.
  intros fuel c l. induction l as [|o l IH]; intros s s' HU HO Hinv HC HB Hr; cbn [do_ops] in Hr.
  - injection Hr as <-. apply op_post_refl; assumption.
  - assert (HBl : builds_targets c l).
    { intros t (x & Hx). apply HB. exists x. right. exact Hx. }
    assert (HQ : forall x, built (o :: l) x -> derived c x = true) by (intros x Hx; apply (HB x Hx)).
    assert (HS : forall s1, op_post c (built (o :: l)) s s1 -> do_ops fuel c l s1 = Some s' ->
                 op_post c (built (o :: l)) s s').
    { intros s1 H1 H2. apply (op_post_trans c _ s s1 s' HQ H1).
      apply (op_post_weaken c (built l)).
      - intros q (x & Hx). exists x. right. exact Hx.
      - destruct H1 as (B1 & B2 & _). apply (IH s1 s' HU HO B1 B2 HBl H2). }
    destruct o as [p|t x]; cbn [do_op] in Hr.
    + destruct (exists_ fuel c p s) as [b s1|s1| |] eqn:He; try discriminate.
      * apply (HS s1); [|exact Hr]. apply (op_post_weaken c noP); [intros q [] |].
        apply (proj1 (exists_op_post fuel c p s b s1 HU HO Hinv HC) He).
      * apply (HS s1); [|exact Hr]. apply (op_post_weaken c noP); [intros q [] |].
        apply (proj2 (exists_op_post fuel c p s true s1 HU HO Hinv HC) He).
    + assert (Hbt : built (OBuild t x :: l) t) by (exists x; left; reflexivity).
      destruct (HB t Hbt) as (Hd & Hp).
      destruct (build fuel c t x s) as [u s1|s1| |] eqn:He; try discriminate;
        (apply (HS s1); [|exact Hr]); (apply (op_post_weaken c (fun q => q = t)); [intros q ->; exact Hbt|]);
        apply (build_post fuel c t x s s1 HU HO Hinv HC Hd Hp).
      * left. destruct u. exact He.
      * right. exact He.
Qed.

Lemma start_inv : forall c d, inodes_ok d -> run_inv c (start d) /\ copies_right c (start d).
Proof.
  intros c d H. split; [split; [exact H | intros p b Hb; discriminate Hb]|].
  intros _ p src _ _. split; intros; discriminate.
Qed.

(* ------------------------------------------------------------------ *)
(* C57e: sources are safe                                             *)

(* Whatever is looked at and built, in whatever order, with whatever errors of
   link, symlink and copy, and whatever names shared files before: a file that
   is not itself a copy or a target built in the run is the same file at the
   end, with the same content. *)
Theorem C57e_sources_untouched : forall fuel c ops d s,
  inodes_ok d -> no_unlink_fault c -> order c <> [] -> builds_targets c ops ->
  do_ops fuel c ops (start d) = Some s ->
  forall q, (forall x, ~ copy_of c q x) -> ~ built ops q ->
    ents (dsk s) q = ents d q /\
    forall i, ents d q = Some (EReg i) -> cont (dsk s) i = cont d i.
Proof.
  intros fuel c ops d s Hd HU HO HB Hr q Hq Hnb.
  destruct (start_inv c d Hd) as (H1 & H2).
  destruct (ops_post fuel c ops (start d) s HU HO H1 H2 HB Hr) as (_ & _ & (_ & X & Y & _) & _).
  split.
  - destruct (ent_dec (ents (dsk s) q) (ents d q)) as [E|E]; [exact E|].
    exfalso. destruct (Y q E) as [H | (x & Hx)]; [exact (Hnb H) | exact (Hq x Hx)].
  - intros i Hi. apply X. apply (Hd q i Hi).
Qed.

(* ------------------------------------------------------------------ *)
(* C57f: a copy is what its source is                                 *)

(* Once exists() has been asked of a copy, to the end of the run: if the source
   file is there the copy is there with its content, and exists() said so; if
   it is not, neither is a copy, and exists() said so. *)
Theorem C57f_copies_faithful : forall fuel c ops ops2 d s b s1 s2 p src,
  inodes_ok d -> no_unlink_fault c -> order c <> [] -> dry c = false ->
  builds_targets c ops -> builds_targets c ops2 ->
  do_ops fuel c ops (start d) = Some s ->
  exists_ fuel c p s = Ret b s1 ->
  do_ops fuel c ops2 s1 = Some s2 ->
  copy_of c p src -> ordinary c src ->
  (forall i, ents d src = Some (EReg i) ->
     b = true /\ readf (dsk s2) p = Some (cont d i) /\ readf (dsk s2) src = Some (cont d i)) /\
  (ents d src = None -> b = false /\ ents (dsk s2) p = None).
Proof.
  intros fuel c ops ops2 d s b s1 s2 p src Hd HU HO Hdry HB HB2 Hr He Hr2 Hcp Hos.
  destruct (start_inv c d Hd) as (H1 & H2).
  pose proof (ops_post fuel c ops (start d) s HU HO H1 H2 HB Hr) as (A1 & A2 & A3 & _ & _).
  destruct (proj1 (exists_op_post fuel c p s b s1 HU HO A1 A2) He) as ((B1 & B2 & B3 & _ & _) & Hm).
  pose proof (ops_post fuel c ops2 s1 s2 HU HO B1 B2 HB2 Hr2) as (D1 & D2 & D3 & _ & D5).
  assert (Hnp : derived c p = false) by (destruct Hcp as (_ & H & _); exact H).
  pose proof (D5 p b Hnp Hm) as Hm2.
  assert (HQ1 : forall x, built ops x -> derived c x = true) by (intros x Hx; apply (HB x Hx)).
  assert (HQ2 : forall x, built ops2 x -> derived c x = true) by (intros x Hx; apply (HB2 x Hx)).
  pose proof (ordinary_same_P c _ (start d) s src HQ1 A3 Hos) as E1.
  pose proof (ordinary_same c s s1 src B3 Hos) as E2.
  pose proof (ordinary_same_P c _ s1 s2 src HQ2 D3 Hos) as E3.
  cbn [start dsk] in E1.
  assert (ES : ents (dsk s2) src = ents d src) by congruence.
  destruct (D2 Hdry p src Hcp Hos) as (_ & HM). destruct (HM b Hm2) as (HG & HN & HT). split.
  - intros i Hi. rewrite <- ES in Hi. split; [exact (HT i Hi)|].
    destruct (good_stat p src (dsk s2) i HG Hi) as (j & Hj & Hc).
    assert (Hlt : i < next d) by (apply (Hd src i); congruence).
    assert (HCI : cont (dsk s2) i = cont d i).
    { destruct A3 as (N1 & X1 & _). destruct B3 as (N2 & X2 & _). destruct D3 as (N3 & X3 & _).
      cbn [start dsk] in N1, X1. rewrite X3 by lia. rewrite X2 by lia. apply X1. exact Hlt. }
    split.
    + unfold readf. rewrite Hj. cbn [option_map]. congruence.
    + unfold readf. rewrite (stat_reg _ _ _ Hi). cbn [option_map]. congruence.
  - intros Hn. rewrite <- ES in Hn. destruct (HN Hn) as (HA & HBf). auto.
Qed.

(* ------------------------------------------------------------------ *)
(* C57g: -n                                                           *)

(* With -n, nothing changes on disk but that copies the source of which is
   missing may go. *)
Theorem C57g_no_exec : forall fuel c ops d s,
  inodes_ok d -> no_unlink_fault c -> order c <> [] -> builds_targets c ops -> dry c = true ->
  do_ops fuel c ops (start d) = Some s ->
  (forall i, i < next d -> cont (dsk s) i = cont d i) /\
  forall q, ents (dsk s) q = ents d q \/
    (ents (dsk s) q = None /\
     exists src, copy_of c q src /\ (ordinary c src -> forall i, ents d src <> Some (EReg i))).
Proof.
  intros fuel c ops d s Hd HU HO HB Hdry Hr.
  destruct (start_inv c d Hd) as (H1 & H2).
  destruct (ops_post fuel c ops (start d) s HU HO H1 H2 HB Hr) as (_ & _ & (_ & X & _ & _) & DC & _).
  split; [exact X|]. intros q.
  destruct (ent_dec (ents (dsk s) q) (ents d q)) as [E|E]; [left; exact E|].
  right. apply (DC Hdry q E).
Qed.
