(* C57: when exists() ends, and the cases where a claim one would make fails. *)
From Coq Require Import String List Bool Arith Lia.
From Verif Require Import VdirModel VdirProps VdirProps2.
Import ListNotations.
Open Scope list_scope.

(* ------------------------------------------------------------------ *)
(* The attributes of the nodes, as the SConscript files left them     *)

(* srcnode() and duplicate, after history [h] *)
Definition src_after (h : list vev) (p : path) : option path :=
  let q := fst (srcnode p (vrun h)) in if peqb q p then None else Some q.

Definition dup_after (h : list vev) (p : path) : bool :=
  match flag (vrun h) p with Some b => b | None => inherit (flag (vrun h)) p end.

(* [c] is the configuration of a run after history [h] *)
Definition of_history (h : list vev) (c : conf) : Prop :=
  (forall p, srcof c p = src_after h p) /\ (forall p, dupl c p = dup_after h p).

(* ------------------------------------------------------------------ *)
(* C57h: the search for the source ends                               *)

Definition ranked (c : conf) (rank : path -> nat) : Prop :=
  forall p s, copy_of c p s -> rank s < rank p.

Lemma link_all_notdeep : forall c p src s, do_duplicate c p src s <> Deep.
Proof.
  intros c p src s. unfold do_duplicate. destruct (dry c); [discriminate|].
  destruct (link_all c (order c) _ _ src p); discriminate.
Qed.

Lemma ranked_ends : forall c rank, ranked c rank ->
  forall fuel p s, rank p < fuel -> exists_ fuel c p s <> Deep.
Proof.
  intros c rank HR fuel. induction fuel as [|fuel IH]; intros p s Hlt; [lia|]. cbn [exists_].
  destruct (mex s p); [discriminate|].
  destruct (dupl c p) eqn:Hd; [|discriminate]. destruct (derived c p) eqn:Hv; [discriminate|].
  destruct (linked s p); [discriminate|]. cbn [andb negb].
  destruct (srcof c p) as [src|] eqn:Hs; [|discriminate].
  destruct (peqb src p) eqn:He; [discriminate|]. apply peqb_neq in He.
  assert (Hlt2 : rank src < fuel).
  { assert (rank src < rank p); [|lia]. apply HR. repeat split; auto. }
  pose proof (IH src s Hlt2) as HN.
  destruct (exists_ fuel c src s) as [b s1|s1| |]; [|discriminate|discriminate|congruence].
  destruct b.
  - pose proof (link_all_notdeep c p src s1) as HL.
    destruct (do_duplicate c p src s1); [discriminate|discriminate|discriminate|congruence].
  - destruct (exists_base (dsk s1) p || islink (dsk s1) p); [|discriminate].
    destruct (unlink c p s1); discriminate.
Qed.

(* the innermost variant directory of a copy *)
Lemma innermost_exists : forall h d,
  (exists v s dup, below v d /\ declared h v s dup) -> exists w v s dup, innermost h d w v s dup.
Proof.
  intros h d Hex.
  destruct (climb_head (srcdir (vrun h)) d []) as [(HE & Hn) | (w & v & s & rest & Hd & Hv & HE & Hmin)].
  - exfalso. destruct Hex as (v & s & dup & (w & Hw) & Hdec).
    assert (HS : srcdir (vrun h) v = Some s) by (apply table_declared; eauto).
    rewrite (Hn w v Hw) in HS. discriminate.
  - apply table_declared in Hv. destruct Hv as (dup & Hv). exists w, v, s, dup.
    split; [exact Hd|]. split; [exact Hv|]. intros w' v' s' dup' Hd' HL Hdec'.
    assert (HS : srcdir (vrun h) v' = Some s') by (apply table_declared; eauto).
    rewrite (Hmin w' v' Hd' HL) in HS. discriminate.
Qed.

Lemma src_after_spec : forall h p q,
  src_after h p = Some q ->
  exists n d w v s dup, p = n :: d /\ innermost h d w v s dup /\ q = n :: w ++ s /\ q <> p.
Proof.
  intros h p q H. unfold src_after in H.
  destruct (peqb (fst (srcnode p (vrun h))) p) eqn:E; [discriminate|]. injection H as <-.
  apply peqb_neq in E. destruct p as [|n d]; [exfalso; apply E; reflexivity|].
  destruct (C57b_srcnode h n d) as (HA & HB).
  destruct (climb_head (srcdir (vrun h)) d []) as [(HE & Hn) | (w & v & s & rest & Hd & Hv & HE & Hmin)].
  - exfalso. apply E. apply HB. intros v s dup (w & Hw) Hdec.
    assert (HS : srcdir (vrun h) v = Some s) by (apply table_declared; eauto).
    rewrite (Hn w v Hw) in HS. discriminate.
  - apply table_declared in Hv. destruct Hv as (dup & Hv).
    destruct (innermost_exists h d) as (w2 & v2 & s2 & dup2 & Hin).
    { exists v, s, dup. split; [exists w; exact Hd | exact Hv]. }
    exists n, d, w2, v2, s2, dup2. split; [reflexivity|]. split; [exact Hin|].
    split; [apply (HA w2 v2 s2 dup2 Hin) | exact E].
Qed.

(* When every source directory is nearer to the root than its variant
   directories (VariantDir("build", "."), VariantDir("build/src", "src")), the
   recursion is bounded by the depth of the path. *)
Theorem C57h_ends_shallow : forall h c,
  of_history h c ->
  (forall v s dup, declared h v s dup -> length s < length v) ->
  forall p s fuel, length p < fuel -> exists_ fuel c p s <> Deep.
Proof.
  intros h c (HS & _) Hlen p s fuel Hlt. apply (ranked_ends c (@length string)); [|exact Hlt].
  intros q src (_ & _ & Hsrc & _). rewrite HS in Hsrc.
  destruct (src_after_spec h q src Hsrc) as (n & d & w & v & s' & dup & -> & (-> & Hdec & _) & -> & _).
  specialize (Hlen v s' dup Hdec). cbn [length]. rewrite !app_length. lia.
Qed.

(* When no source directory is inside a variant directory, or contains one, a
   source is never itself a copy, and one step is all there is. *)
Theorem C57h_ends_disjoint : forall h c,
  of_history h c ->
  (forall v s dup v' s' dup', declared h v s dup -> declared h v' s' dup' -> ~ below v' s /\ ~ below s v') ->
  forall p s fuel, 1 < fuel -> exists_ fuel c p s <> Deep.
Proof.
  intros h c (HS & _) Hdis p s fuel Hlt.
  assert (Hstop : forall n d w v s' dup, innermost h d w v s' dup -> src_after h (n :: w ++ s') = None).
  { intros n d w v s' dup (Hd & Hdec & _). unfold src_after.
    destruct (C57b_srcnode h n (w ++ s')) as (_ & HB).
    rewrite HB; [rewrite peqb_refl; reflexivity|].
    intros v2 s2 dup2 Hb Hdec2.
    destruct (Hdis v s' dup v2 s2 dup2 Hdec Hdec2) as (N1 & N2).
    destruct (below_linear v2 s' (w ++ s') Hb (ex_intro _ w eq_refl)); contradiction. }
  apply (ranked_ends c (fun q => match src_after h q with Some _ => 1 | None => 0 end)).
  - intros q src (_ & _ & Hsrc & _). rewrite HS in Hsrc.
    destruct (src_after_spec h q src Hsrc) as (n & d & w & v & s' & dup & E & Hin & Eq & _).
    rewrite Hsrc. rewrite Eq, (Hstop n d w v s' dup Hin). lia.
  - destruct (src_after h p); lia.
Qed.

(* ------------------------------------------------------------------ *)
(* C57i: a target is written, and is a file of its own                *)

Theorem C57i_target_written : forall fuel c ops d s t x s',
  inodes_ok d -> no_unlink_fault c -> order c <> [] -> dry c = false ->
  builds_targets c ops -> derived c t = true -> precious c t = false ->
  do_ops fuel c ops (start d) = Some s ->
  build fuel c t x s = Ret tt s' ->
  readf (dsk s') t = Some x /\
  forall q i, q <> t -> ents (dsk s') q = Some (EReg i) -> stat (dsk s') t <> Some i.
Proof.
  intros fuel c ops d s t x s' Hd HU HO Hdry HB Ht Hp Hr Hb.
  destruct (start_inv c d Hd) as (H1 & H2).
  pose proof (ops_post fuel c ops (start d) s HU HO H1 H2 HB Hr) as (A1 & A2 & _).
  unfold build in Hb. destruct (exists_ fuel c t s) as [b s1|s1| |] eqn:He; try discriminate.
  destruct (proj1 (exists_op_post fuel c t s b s1 HU HO A1 A2) He) as ((B1 & _) & Hm).
  rewrite Hdry in Hb.
  assert (HR : exists s2, ents (dsk s2) t = None /\ (forall q i, ents (dsk s2) q = Some (EReg i) -> i < next (dsk s2)) /\
            (if (b || islink (dsk s1) t) && derived c t && negb (precious c t)
             then unlink c t (clear t s1) else Some s1) = Some s2).
  { rewrite Ht, Hp. cbn [negb andb]. rewrite !andb_true_r. destruct (b || islink (dsk s1) t) eqn:Hbl.
    - destruct (unlink_ok c t (clear t s1) HU) as (s2 & E & Ha & Hon & _ & _ & HN). exists s2.
      split; [exact Ha|]. split; [|exact E]. intros q i Hq. rewrite HN.
      destruct (path_dec q t) as [->|Hne]; [congruence|].
      rewrite (proj2 (proj2 Hon) q Hne) in Hq. apply (proj1 B1 q i Hq).
    - apply orb_false_elim in Hbl. destruct Hbl as (-> & Hl). exists s1.
      split; [|split; [exact (proj1 B1) | reflexivity]].
      pose proof (proj2 B1 t false Hm) as HR. unfold islink in Hl.
      destruct (ents (dsk s1) t) as [[i|a q]|]; [discriminate | discriminate | reflexivity]. }
  destruct HR as (s2 & Habs & Hino & HE). rewrite HE in Hb.
  rewrite (write_absent (dsk s2) t x Habs) in Hb. injection Hb as <-.
  set (d2 := dsk (clear t (setdsk _ s2))).
  assert (Hst : stat d2 t = Some (next (dsk s2))).
  { apply stat_reg. cbn [d2 clear setdsk dsk ents]. rewrite peqb_refl. reflexivity. }
  split.
  - unfold readf. rewrite Hst. cbn [option_map d2 clear setdsk dsk cont]. rewrite Nat.eqb_refl. reflexivity.
  - intros q i Hq Hi E. rewrite Hst in E. injection E as <-.
    cbn [d2 clear setdsk dsk ents] in Hi. apply peqb_neq in Hq. rewrite Hq in Hi.
    specialize (Hino q _ Hi). lia.
Qed.

(* ------------------------------------------------------------------ *)
(* Witnesses                                                          *)

Open Scope string_scope.

Definition src_d : path := ["src"].
Definition bld : path := ["build"].
Definition bsub : path := ["sub"; "build"].
Definition oth : path := ["other"].

Example C57_history_witness :
  let h := [ELookup ["f.c"; "build"]; ESrcnode ["f.c"; "build"]; EVariant bld src_d true;
            EVariant bsub oth true; ELookup ["g.c"; "sub"; "build"]] in
  innermost h ["x"; "sub"; "build"] ["x"] bsub oth true /\
  fst (srcnode ["f.c"; "build"] (vrun h)) = ["f.c"; "src"] /\
  fst (srcnode ["g.c"; "x"; "sub"; "build"] (vrun h)) = ["g.c"; "x"; "other"] /\
  fst (dir_srcnode bsub (vrun h)) = oth /\
  fst (variant_dir bld oth true (vrun h)) = VOtherSource /\
  fst (variant_dir bld src_d true (vrun h)) = VDone /\
  fst (variant_dir ["v"] ["s"; "v"] true (vrun h)) = VUnderVariant /\
  alter_file ["f.c"; "src"] false (vrun h) = [["f.c"; "build"]] /\
  alter_dir oth (vrun h) = [bsub] /\
  flag (vrun h) ["f.c"; "build"] = Some true /\
  flag (vrun h) ["f.c"; "src"] = None.
Proof.
  split; [|repeat split].
  split; [reflexivity|]. split.
  - exists [ELookup ["f.c"; "build"]; ESrcnode ["f.c"; "build"]; EVariant bld src_d true],
           [ELookup ["g.c"; "sub"; "build"]].
    split; [reflexivity|]. split.
    + rewrite <- is_under_below. discriminate.
    + intros s' d' Hin. repeat (destruct Hin as [E | Hin]; [discriminate E|]). destruct Hin.
  - intros w' v' s' dup' Hd HL Hdec. destruct w'; [|cbn in HL; lia]. cbn in Hd. subst v'.
    destruct Hdec as (a & b & E & _).
    unfold bld, bsub, src_d, oth in E.
    repeat (destruct a as [|? a]; [discriminate E|]; injection E as _ E). destruct a; discriminate E.
Qed.

(* a configuration: build/* are copies of src/*, prog is a target *)
Definition csrc (p : path) : option path :=
  match p with
  | [n; d] => if (d =? "build")%string then Some [n; "src"] else None
  | _ => None
  end.

Definition wconf (order : list meth) (dry : bool) (prec : bool) (uf : nat -> bool) : conf :=
  Conf (fun p => match p with _ :: d => is_under bld d | [] => false end)
       (fun p => match p with [n; _] => (n =? "prog")%string | _ => false end)
       (fun _ => prec) csrc dry order [] uf (fun n => Nat.eqb n 1) (fun _ => None).

Definition nofail : nat -> bool := fun _ => false.

(* src/a.c is there; build/a.c is an old copy, of another file; build/b.c is an
   old copy of a source that is gone; build/prog shares its file with src/p *)
Definition wdisk : disk :=
  Disk (fun p => match p with
                 | [n; d] =>
                     if ((n =? "a.c") && (d =? "src"))%string then Some (EReg 0)
                     else if ((n =? "a.c") && (d =? "build"))%string then Some (EReg 1)
                     else if ((n =? "b.c") && (d =? "build"))%string then Some (EReg 2)
                     else if ((n =? "prog") && (d =? "build"))%string then Some (EReg 3)
                     else if ((n =? "p") && (d =? "src"))%string then Some (EReg 3)
                     else None
                 | _ => None
                 end)
       (fun i => 10 + i) 4.

Lemma wdisk_ok : inodes_ok wdisk.
Proof.
  intros p i H. unfold wdisk in H. cbn [ents] in H. cbn [next wdisk].
  destruct p as [|n [|d [|x p]]]; try discriminate.
  repeat match type of H with (if ?b then _ else _) = _ => destruct b; [injection H as <-; lia|] end.
  discriminate.
Qed.

Lemma wconf_copy : forall o dr pr uf n, (n =? "prog")%string = false ->
  copy_of (wconf o dr pr uf) [n; "build"] [n; "src"].
Proof. intros o dr pr uf n Hn. repeat split; [exact Hn|]. congruence. Qed.

Lemma wconf_ordinary : forall o dr pr uf n, (n =? "prog")%string = false ->
  ordinary (wconf o dr pr uf) [n; "src"].
Proof. intros o dr pr uf n Hn. split; [exact Hn|]. intros x (_ & _ & H & _). discriminate H. Qed.

Definition wops : list op :=
  [OExists ["a.c"; "build"]; OExists ["b.c"; "build"]; OBuild ["prog"; "build"] 77].

Definition got (x : option dst) : dst := match x with Some s => s | None => start wdisk end.

Lemma got_some : forall x, match x with Some _ => true | None => false end = true -> x = Some (got x).
Proof. intros [s|] H; [reflexivity | discriminate]. Qed.

Definition wrun (c : conf) (l : list op) (d : disk) : dst := got (do_ops 5 c l (start d)).

(* the first call that links fails (call 1), the next one is used *)
Example C57_run_witness :
  forall o, In o [[Hard; Soft; Copy]; [Soft; Hard; Copy]; [Hard; Copy]; [Soft; Copy]] ->
  let c := wconf o false false nofail in
  inodes_ok wdisk /\ no_unlink_fault c /\ order c <> [] /\ builds_targets c wops /\
  exists s, do_ops 5 c wops (start wdisk) = Some s /\
    readf (dsk s) ["a.c"; "build"] = Some 10 /\
    ents (dsk s) ["b.c"; "build"] = None /\
    readf (dsk s) ["prog"; "build"] = Some 77 /\
    readf (dsk s) ["p"; "src"] = Some 13.
Proof.
  intros o Ho. split; [exact wdisk_ok|]. split; [intros n; reflexivity|].
  split; [cbn [wconf order]; intros ->; repeat (destruct Ho as [Ho|Ho]; [discriminate|]); destruct Ho|].
  split.
  { intros t (x & Hx). repeat (destruct Hx as [E | Hx]; [try discriminate E; injection E as <- _; split; reflexivity|]).
    destruct Hx. }
  exists (wrun (wconf o false false nofail) wops wdisk).
  repeat (destruct Ho as [<- | Ho];
    [split; [apply got_some; vm_compute; reflexivity|];
     repeat split; vm_compute; reflexivity|]). destruct Ho.
Qed.

(* ------------------------------------------------------------------ *)
(* What does not hold                                                 *)

(* -n removes an old copy of a source that is gone: exists() uses fs.unlink,
   not the Unlink action *)
Theorem C57_no_exec_removes_refuted :
  exists c s, dry c = true /\ no_unlink_fault c /\
    do_ops 5 c [OExists ["b.c"; "build"]] (start wdisk) = Some s /\
    ents wdisk ["b.c"; "build"] <> None /\ ents (dsk s) ["b.c"; "build"] = None.
Proof.
  exists (wconf [Hard; Soft; Copy] true false nofail).
  exists (wrun (wconf [Hard; Soft; Copy] true false nofail) [OExists ["b.c"; "build"]] wdisk).
  split; [reflexivity|]. split; [intros n; reflexivity|]. split; [apply got_some; vm_compute; reflexivity|].
  split; [discriminate | vm_compute; reflexivity].
Qed.

(* a Precious target is not removed first: one that shares its file with a
   source writes into the source *)
Theorem C57_precious_writes_source_refuted :
  exists c s, no_unlink_fault c /\ dry c = false /\
    (forall x, ~ copy_of c ["p"; "src"] x) /\ derived c ["p"; "src"] = false /\
    do_ops 5 c [OBuild ["prog"; "build"] 77] (start wdisk) = Some s /\
    readf wdisk ["p"; "src"] = Some 13 /\ readf (dsk s) ["p"; "src"] = Some 77.
Proof.
  exists (wconf [Hard; Soft; Copy] false true nofail).
  exists (wrun (wconf [Hard; Soft; Copy] false true nofail) [OBuild ["prog"; "build"] 77] wdisk).
  split; [intros n; reflexivity|]. split; [reflexivity|].
  split; [intros x (_ & _ & H & _); discriminate H|]. split; [reflexivity|].
  split; [apply got_some; vm_compute; reflexivity|]. split; vm_compute; reflexivity.
Qed.

(* When the old copy cannot be removed (the directory is not writable) the
   error is not looked at and copying writes into it; if src/a.c was renamed to
   src/old.c since, and there is a new src/a.c, that overwrites src/old.c. *)
Definition rdisk : disk :=
  Disk (fun p => match p with
                 | [n; d] =>
                     if ((n =? "a.c") && (d =? "src"))%string then Some (EReg 0)
                     else if ((n =? "a.c") && (d =? "build"))%string then Some (EReg 1)
                     else if ((n =? "old.c") && (d =? "src"))%string then Some (EReg 1)
                     else None
                 | _ => None
                 end)
       (fun i => 10 + i) 2.

Theorem C57_unremovable_copy_refuted :
  exists c s,
    (forall x, ~ copy_of c ["old.c"; "src"] x) /\ derived c ["old.c"; "src"] = false /\
    do_ops 5 c [OExists ["a.c"; "build"]] (start rdisk) = Some s /\
    readf rdisk ["old.c"; "src"] = Some 11 /\ readf (dsk s) ["old.c"; "src"] = Some 10.
Proof.
  exists (wconf [Hard; Soft; Copy] false false (fun _ => true)).
  exists (wrun (wconf [Hard; Soft; Copy] false false (fun _ => true)) [OExists ["a.c"; "build"]] rdisk).
  split; [intros x (_ & _ & H & _); discriminate H|]. split; [reflexivity|].
  split; [apply got_some; vm_compute; reflexivity|]. split; vm_compute; reflexivity.
Qed.

(* A source that is a relative symbolic link is hard-linked by following the
   link from the current directory: src/a.c -> b.c gives build/a.c the content
   of ./b.c. *)
Definition sdisk : disk :=
  Disk (fun p => match p with
                 | [n; d] =>
                     if ((n =? "a.c") && (d =? "src"))%string then Some (ELnk false ["b.c"])
                     else if ((n =? "b.c") && (d =? "src"))%string then Some (EReg 0)
                     else None
                 | [n] => if (n =? "b.c")%string then Some (EReg 1) else None
                 | _ => None
                 end)
       (fun i => 10 + i) 2.

Definition sconf : conf :=
  let c := wconf [Hard; Soft; Copy] false false nofail in
  Conf (dupl c) (derived c) (precious c) (srcof c) false (order c) [] nofail nofail (fun _ => None).

Theorem C57_relative_symlink_refuted :
  exists c s, no_unlink_fault c /\ dry c = false /\ copy_of c ["a.c"; "build"] ["a.c"; "src"] /\
    do_ops 5 c [OExists ["a.c"; "build"]] (start sdisk) = Some s /\
    readf sdisk ["a.c"; "src"] = Some 10 /\ readf (dsk s) ["a.c"; "src"] = Some 10 /\
    readf (dsk s) ["a.c"; "build"] = Some 11.
Proof.
  exists sconf.
  exists (wrun sconf [OExists ["a.c"; "build"]] sdisk).
  split; [intros n; reflexivity|]. split; [reflexivity|].
  split; [repeat split; discriminate|]. split; [apply got_some; vm_compute; reflexivity|].
  repeat split; vm_compute; reflexivity.
Qed.

(* Two variant directories of each other: VariantDir accepts that, and asking
   whether a file exists never comes to an end. *)
Definition cyc_h : list vev := [EVariant ["a"] ["b"] true; EVariant ["b"] ["a"] true].

Theorem C57_mutual_variants_refuted :
  fst (variant_dir ["a"] ["b"] true (vrun [])) = VDone /\
  fst (variant_dir ["b"] ["a"] true (vrun [EVariant ["a"] ["b"] true])) = VDone /\
  exists c, of_history cyc_h c /\
    forall fuel s, mex s ["x"; "a"] = None -> mex s ["x"; "b"] = None ->
      linked s ["x"; "a"] = false -> linked s ["x"; "b"] = false ->
      exists_ fuel c ["x"; "a"] s = Deep.
Proof.
  split; [reflexivity|]. split; [reflexivity|].
  exists (Conf (dup_after cyc_h) (fun _ => false) (fun _ => false) (src_after cyc_h) false [Copy] []
               nofail nofail (fun _ => None)).
  split; [split; reflexivity|].
  assert (HH : forall fuel s, mex s ["x"; "a"] = None -> mex s ["x"; "b"] = None ->
      linked s ["x"; "a"] = false -> linked s ["x"; "b"] = false ->
      exists_ fuel (Conf (dup_after cyc_h) (fun _ => false) (fun _ => false) (src_after cyc_h) false [Copy] []
               nofail nofail (fun _ => None)) ["x"; "a"] s = Deep /\
      exists_ fuel (Conf (dup_after cyc_h) (fun _ => false) (fun _ => false) (src_after cyc_h) false [Copy] []
               nofail nofail (fun _ => None)) ["x"; "b"] s = Deep).
  { intros fuel s H1 H2 H3 H4. induction fuel as [|fuel (IA & IB)]; [split; reflexivity|].
    cbn [exists_]. rewrite H1, H2, H3, H4. cbn [dupl derived srcof].
    change (dup_after cyc_h ["x"; "a"]) with true. change (dup_after cyc_h ["x"; "b"]) with true.
    change (src_after cyc_h ["x"; "a"]) with (Some ["x"; "b"]).
    change (src_after cyc_h ["x"; "b"]) with (Some ["x"; "a"]).
    cbn [andb negb]. change (peqb ["x"; "b"] ["x"; "a"]) with false. change (peqb ["x"; "a"] ["x"; "b"]) with false.
    rewrite IA, IB. split; reflexivity. }
  intros fuel s H1 H2 H3 H4. apply (HH fuel s H1 H2 H3 H4).
Qed.

(* The duplicate argument of the innermost variant directory does not decide:
   (1) nodes looked up before VariantDir(inner, duplicate=0) keep the
   duplicate=1 of the outer one, those looked up after do not; (2) declaring the
   outer one later overrides the inner one's duplicate=0. *)
Theorem C57_duplicate_order_refuted :
  (let h := [EVariant bld src_d true; ELookup ["x"; "sub"; "build"]; EVariant bsub oth false;
             ELookup ["y"; "sub"; "build"]] in
   flag (vrun h) ["x"; "sub"; "build"] = Some true /\
   flag (vrun h) ["y"; "sub"; "build"] = Some false) /\
  (let h := [EVariant bsub oth false; EVariant bld src_d true; ELookup ["y"; "sub"; "build"]] in
   flag (vrun h) ["y"; "sub"; "build"] = Some true).
Proof. split; [split|]; reflexivity. Qed.

Print Assumptions C57a_variantdir_result.
Print Assumptions C57b_srcnode.
Print Assumptions C57c_alter_targets.
Print Assumptions C57d_duplicate_flag.
Print Assumptions C57e_sources_untouched.
Print Assumptions C57f_copies_faithful.
Print Assumptions C57g_no_exec.
Print Assumptions C57h_ends_disjoint.
Print Assumptions C57i_target_written.
