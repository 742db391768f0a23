(* C16-C18: the signature database.  Vocabulary in DbSpec.v. *)
From Coq Require Import List Arith Bool Lia.
Import ListNotations.
From Verif Require Import DbModel DbSpec DbProofs.

(* C16.  If a run of SCons dies after any number of file-system steps of opening and saving the database, the next
   run sees the whole previous database or the whole new one; the new one if it did not die. *)
Theorem C16_crash_safe : forall V (C : codec (dict V)) file tmp f work spl k d,
  codec_ok C -> file <> tmp -> (forall b, chunked b (spl b)) -> seen C file f = Some d ->
  let steps := run_steps C true file tmp f work spl in
  (seen C file (exec f (firstn k steps)) = Some d \/ seen C file (exec f (firstn k steps)) = Some (work d))
  /\ seen C file (exec f steps) = Some (work d).
Proof.
  intros V C file tmp f work spl k d Ok N Sp H. cbv zeta. split.
  - destruct (run_prefix C Ok file tmp N f work spl k d Sp H) as [[A _]|[A _]]; auto.
  - destruct (run_prefix C Ok file tmp N f work spl (length (run_steps C true file tmp f work spl)) d Sp H) as [[_ A]|[A _]]; [lia|].
    rewrite firstn_all in A. exact A.
Qed.
Print Assumptions C16_crash_safe.

(* C16b.  The same along any history of runs, each of which may die at any point (leftover temporary files included). *)
Theorem C16b_history : forall V (C : codec (dict V)) file tmp h f d,
  codec_ok C -> file <> tmp -> (forall w s c, In (w, s, c) h -> forall b, chunked b (s b)) -> seen C file f = Some d ->
  exists d', seen C file (after_history C file tmp h f) = Some d' /\ replaced h d d'.
Proof. intros V C file tmp h f d Ok N. apply history_replaced; assumption. Qed.
Print Assumptions C16b_history.

(* C17.  Open a database for writing, assign and delete keys, sync and close at will, close; reopened, it holds exactly
   the mapping described by the operations, provided every deletion is followed by an assignment or
   an explicit sync. *)
Theorem C17_close_reopen : forall V (C : codec (dict V)) file tmp f fl h st l,
  codec_ok C -> file <> tmp -> fl <> FR -> deletions_followed l ->
  open_db C true file f fl = (Some h, st) ->
  exists d, seen C file (snd (dops C file tmp (l ++ [DClose]) (h, exec f st))) = Some d
    /\ forall k, dget d k = spec_ops l (match fl with FN => fun _ => None | _ => match seen C file f with Some d0 => dget d0 | None => fun _ => None end end) k.
Proof.
  intros V C file tmp f fl h st l Ok N W D O.
  assert (Hw : writable h = true /\ d_dirty h = false /\ seen C file (exec f st) = Some (d_dict h)
    /\ forall k, dget (d_dict h) k = (match fl with FN => fun _ => None | _ => match seen C file f with Some d0 => dget d0 | None => fun _ => None end end) k).
  { unfold seen. unfold open_db in *. destruct fl; [elim W; reflexivity| | |].
    - destruct (f file) as [[|b p]|] eqn:F; [| |discriminate].
      + injection O as <- <-. cbn. rewrite F. auto.
      + destruct (dec C (b :: p)) eqn:E; injection O as <- <-; cbn; rewrite F; cbn; rewrite E; auto.
    - destruct (f file) as [[|b p]|] eqn:F.
      + injection O as <- <-. cbn. rewrite F. auto.
      + destruct (dec C (b :: p)) eqn:E; injection O as <- <-; cbn; rewrite F; cbn; rewrite E; auto.
      + injection O as <- <-. cbn. rewrite fput_same. auto.
    - injection O as <- <-. cbn. rewrite fput_same. auto. }
  destruct Hw as (Hw & Hd & Hs & Hm).
  set (hf := dops C file tmp l (h, exec f st)).
  assert (E : dops C file tmp (l ++ [DClose]) (h, exec f st) = dstep' C file tmp hf DClose) by (unfold dops; rewrite fold_left_app; reflexivity).
  assert (Sy : synced C file false hf).
  { rewrite <- (pends_false l false D (or_intror eq_refl)). apply dops_synced; [exact Ok | exact N | exact Hw|]. right; right. exact Hs. }
  assert (Wf : writable (fst hf) = true) by (unfold writable, hf; rewrite dops_flag; exact Hw).
  exists (d_dict (fst hf)). split.
  - rewrite E. unfold dstep', dstep, sync_db. rewrite Wf. destruct Sy as [Q|[Q|Q]]; [|discriminate|].
    + rewrite Q. cbn [snd]. apply seen_enc; [exact Ok|]. rewrite sync_full by exact N. cbn. rewrite app_nil_r. reflexivity.
    + destruct (d_dirty (fst hf)); cbn [snd]; [|exact Q]. apply seen_enc; [exact Ok|]. rewrite sync_full by exact N. cbn. rewrite app_nil_r. reflexivity.
  - intros k. unfold hf. rewrite dops_dict by exact Hw. apply spec_ops_ext. exact Hm.
Qed.
Print Assumptions C17_close_reopen.

(* C17b.  A database opened read-only never changes anything on disk. *)
Theorem C17b_read_only : forall V (C : codec (dict V)) file tmp f h st l,
  open_db C true file f FR = (Some h, st) -> st = [] /\ forall n, snd (dops C file tmp l (h, f)) n = f n.
Proof.
  intros V C file tmp f h st l O.
  assert (A : st = [] /\ d_flag h = FR).
  { unfold open_db in O. cbn in O. destruct (f file) as [[|b p]|]; [injection O as <- <-; auto| |discriminate]. destruct (dec C (b :: p)); injection O as <- <-; auto. }
  destruct A as [A B]. split; [exact A|].
  assert (G : forall l h, d_flag h = FR -> forall n, snd (dops C file tmp l (h, f)) n = f n).
  { clear. induction l as [|o l IH]; intros h B n; [reflexivity|]. unfold dops. cbn [fold_left]. fold (dops C file tmp l (dstep' C file tmp (h, f) o)).
    assert (W : writable h = false) by (unfold writable; rewrite B; reflexivity).
    assert (E : exists h', dstep' C file tmp (h, f) o = (h', f) /\ d_flag h' = FR).
    { unfold dstep', dstep, sync_db. cbn [fst snd]. rewrite W. destruct o as [k v|k| |]; [eauto| | eauto|].
      - destruct (dget (d_dict h) k); [eexists; split; [reflexivity | exact B] | eauto].
      - destruct (d_dirty h); eauto. }
    destruct E as (h' & -> & Bh). apply IH, Bh. }
  intros n. apply G, B.
Qed.
Print Assumptions C17b_read_only.

(* C17c.  Storing the entries of several directories and loading them in the next run: a directory that was changed gets
   its new entries, any other one keeps what was stored. *)
Theorem C17c_directories : forall E V (dump : E -> V) (load : V -> option E) none dirs d path,
  (forall es, load (dump es) = Some es) -> NoDup (map (fun x => fst (fst x)) dirs) ->
  db_read_dir load none (db_write_all dump dirs d) path =
    match find (fun x => (fst (fst x) =? path) && snd (fst x)) dirs with Some x => snd x | None => db_read_dir load none d path end.
Proof.
  intros E V dump load none dirs d path Ok. revert d. induction dirs as [|[[p b] es] dirs IH]; intros d Nd; [reflexivity|].
  inversion Nd as [|? ? Nin Nd']; subst. cbn [db_write_all fold_left]. fold (db_write_all dump dirs (if b then dset d p (dump es) else d)).
  rewrite IH by exact Nd'. cbn [find fst snd]. destruct (p =? path) eqn:Ep; cbn [andb].
  - apply Nat.eqb_eq in Ep. subst p. assert (Fn : find (fun x => (fst (fst x) =? path) && snd (fst x)) dirs = None).
    { destruct (find _ dirs) as [x|] eqn:F; [|reflexivity]. exfalso. apply find_some in F. destruct F as [F1 F2]. apply andb_prop in F2. destruct F2 as [F2 _].
      apply Nat.eqb_eq in F2. apply Nin. cbn. rewrite <- F2. apply (in_map (fun y : nat * bool * E => fst (fst y)) dirs x F1). }
    rewrite Fn. destruct b; [|reflexivity]. unfold db_read_dir. rewrite dget_dset, Nat.eqb_refl, Ok. reflexivity.
  - destruct (find _ dirs); [reflexivity|]. unfold db_read_dir. destruct b; [|reflexivity]. rewrite dget_dset, Nat.eqb_sym, Ep. reflexivity.
Qed.
Print Assumptions C17c_directories.

(* C18 ("old or new" only is refuted below).  Whatever system calls fail and wherever the process dies while a
   per-directory file is written, the next run reads the complete old entries, the complete new ones, or none at
   all (never a mixture); and after a complete write it reads the new ones, unless neither the temporary file nor
   the file itself could be opened. *)
Theorem C18_dirfile_crash : forall E (C : codec E) none sconsign temp f oc e' chunks k old,
  codec_ok C -> truncation_detected C -> sconsign <> temp -> chunked (enc C e') chunks -> dirfile_read C none f sconsign = old ->
  let steps := dirfile_steps sconsign temp oc (enc C e') chunks in
  (dirfile_read C none (exec f (firstn k steps)) sconsign = old \/ dirfile_read C none (exec f (firstn k steps)) sconsign = e'
   \/ dirfile_read C none (exec f (firstn k steps)) sconsign = none)
  /\ (oc_temp oc = true \/ oc_direct oc = true -> dirfile_read C none (exec f steps) sconsign = e').
Proof.
  intros E C none sconsign temp f oc e' chunks k old Ok Tr N Ch Old. cbv zeta.
  assert (Rd : forall g g', g sconsign = g' sconsign -> dirfile_read C none g sconsign = dirfile_read C none g' sconsign) by (intros g g' H; unfold dirfile_read; rewrite H; reflexivity).
  assert (New : forall g, g sconsign = Some (enc C e') -> dirfile_read C none g sconsign = e') by (intros g H; unfold dirfile_read; rewrite H, (proj1 Ok); reflexivity).
  assert (Emp : forall g, g sconsign = None -> dirfile_read C none g sconsign = none) by (intros g H; unfold dirfile_read; rewrite H; reflexivity).
  assert (Pre : forall g p q, g sconsign = Some p -> enc C e' = p ++ q -> dirfile_read C none g sconsign = e' \/ dirfile_read C none g sconsign = none).
  { intros g p q H Q. destruct q as [|b q]; [left; apply New; rewrite H, Q, app_nil_r; reflexivity|]. right. unfold dirfile_read. rewrite H.
    rewrite (Tr e' p (b :: q) Q) by discriminate. reflexivity. }
  unfold dirfile_steps. destruct (oc_temp oc) eqn:Ot.
  - set (A := Trunc temp :: map (Append temp) chunks).
    set (B := (if oc_unlink oc then [Unlink sconsign] else []) ++ (if oc_rename oc then [Replace temp sconsign] else [Trunc sconsign; Append sconsign (enc C e')]) ++ [Unlink temp]).
    assert (Ea : Trunc temp :: map (Append temp) chunks ++ B = A ++ B) by reflexivity. rewrite Ea.
    assert (FA : forall j, exec f (firstn j A) sconsign = f sconsign) by (intros j; apply (exec_only temp); [apply firstn_only, write_only | exact N]).
    assert (FA' : exec f A sconsign = f sconsign) by (apply (exec_only temp); [apply write_only | exact N]).
    assert (TA : exec f A temp = Some (enc C e')) by (unfold A; rewrite exec_write; f_equal; exact Ch).
    (* the short tail, step by step *)
    assert (Tail : forall g j, g sconsign = f sconsign -> g temp = Some (enc C e') ->
       (exec g (firstn j B) sconsign = f sconsign \/ exec g (firstn j B) sconsign = None \/ (exists p q, exec g (firstn j B) sconsign = Some p /\ enc C e' = p ++ q))
       /\ exec g B sconsign = Some (enc C e')).
    { intros g j G1 G2. unfold B. split.
      - destruct (oc_unlink oc), (oc_rename oc); do 5 (destruct j as [|j]; [cbn; unfold fput; rewrite ?Nat.eqb_refl, ?(proj2 (Nat.eqb_neq _ _) N), ?(proj2 (Nat.eqb_neq _ _) (not_eq_sym N)), ?G1, ?G2; cbn;
          rewrite ?Nat.eqb_refl, ?(proj2 (Nat.eqb_neq _ _) N), ?(proj2 (Nat.eqb_neq _ _) (not_eq_sym N)), ?G1, ?G2; solve [auto | right; left; reflexivity | right; right; exists [], (enc C e'); split; reflexivity | right; right; exists (enc C e'), []; split; [reflexivity | rewrite app_nil_r; reflexivity]]|]);
          cbn; unfold fput; rewrite ?firstn_nil; cbn; rewrite ?Nat.eqb_refl, ?(proj2 (Nat.eqb_neq _ _) N), ?(proj2 (Nat.eqb_neq _ _) (not_eq_sym N)), ?G1, ?G2; cbn; rewrite ?Nat.eqb_refl, ?(proj2 (Nat.eqb_neq _ _) N), ?(proj2 (Nat.eqb_neq _ _) (not_eq_sym N)); right; right; exists (enc C e'), []; (split; [reflexivity | rewrite app_nil_r; reflexivity]).
      - destruct (oc_unlink oc), (oc_rename oc); cbn; unfold fput; rewrite ?Nat.eqb_refl, ?(proj2 (Nat.eqb_neq _ _) N), ?(proj2 (Nat.eqb_neq _ _) (not_eq_sym N)), ?G1, ?G2; cbn;
          rewrite ?Nat.eqb_refl, ?(proj2 (Nat.eqb_neq _ _) N), ?(proj2 (Nat.eqb_neq _ _) (not_eq_sym N)), ?G1, ?G2; reflexivity. }
    split.
    + rewrite firstn_app. rewrite exec_app. destruct (le_lt_dec k (length A)) as [Hk|Hk].
      * replace (k - length A) with 0 by lia. cbn. left. rewrite <- Old. apply Rd, FA.
      * rewrite firstn_all2 by lia. destruct (Tail (exec f A) (k - length A) FA' TA) as [[T|[T|(p & q & T & Q)]] _].
        -- left. rewrite <- Old. apply Rd, T.
        -- right; right. apply Emp, T.
        -- right. apply (Pre _ p q T Q).
    + intros _. rewrite exec_app. apply New. apply (Tail (exec f A) 0 FA' TA).
  - destruct (oc_direct oc) eqn:Od; [|rewrite firstn_nil; cbn; split; [left; exact Old | intros [H|H]; discriminate]].
    set (A := Trunc sconsign :: map (Append sconsign) chunks).
    assert (Ea : Trunc sconsign :: map (Append sconsign) chunks ++ [Unlink temp] = A ++ [Unlink temp]) by reflexivity. rewrite Ea.
    assert (Au : forall g, exec g [Unlink temp] sconsign = g sconsign) by (intros g; cbn; apply fput_other, N).
    split.
    + rewrite firstn_app, exec_app.
      assert (Tl : forall g j, exec g (firstn j [Unlink temp]) sconsign = g sconsign) by (intros g [|j]; [reflexivity | cbn [firstn]; rewrite firstn_nil; apply Au]).
      rewrite (Rd _ (exec f (firstn k A)) (Tl _ _)).
      destruct k as [|k]; [left; exact Old|]. right. unfold A. cbn [firstn]. rewrite firstn_map.
      apply (Pre _ (concat (firstn k chunks)) (concat (skipn k chunks))); [apply exec_write|]. rewrite <- concat_app, firstn_skipn. symmetry. exact Ch.
    + intros _. rewrite exec_app. apply New. rewrite Au. unfold A. rewrite exec_write. f_equal. exact Ch.
Qed.
Print Assumptions C18_dirfile_crash.

(* ---- a concrete codec: length, then keys and values ---- *)
Fixpoint flat (d : dict nat) : list byte := match d with [] => [] | (k, v) :: r => k :: v :: flat r end.
Fixpoint unflat (n : nat) (p : list byte) : option (dict nat) :=
  match n, p with
  | 0, [] => Some []
  | S n, k :: v :: r => match unflat n r with Some d => Some ((k, v) :: d) | None => None end
  | _, _ => None
  end.
Definition wcodec : codec (dict nat) := {| enc := fun d => length d :: flat d; dec := fun p => match p with n :: r => unflat n r | [] => None end |}.
Lemma wcodec_ok : codec_ok wcodec.
Proof.
  split; [|discriminate]. intros d. cbn. induction d as [|[k v] d IH]; cbn in *; [reflexivity|]. rewrite IH. reflexivity.
Qed.
Lemma wcodec_trunc : truncation_detected wcodec.
Proof.
  intros d p q. cbn. destruct p as [|n p]; [reflexivity|]. intros H. injection H as E H. subst n. revert p H. induction d as [|[k v] d IH]; intros p H Q; cbn in *.
  - symmetry in H. apply app_eq_nil in H. destruct H as [_ H]. contradiction.
  - destruct p as [|k' p]; [reflexivity|]. injection H as _ H. destruct p as [|v' p]; [reflexivity|]. injection H as _ H. rewrite (IH p H Q). reflexivity.
Qed.
Definition wfs : fs := fun n => if n =? 0 then Some (enc wcodec [(1, 10); (2, 20)]) else if n =? 7 then Some [9; 9] else None.
Example C16_witness : codec_ok wcodec /\ seen wcodec 0 wfs = Some [(1, 10); (2, 20)]
  /\ map (fun k => seen wcodec 0 (exec wfs (firstn k (run_steps wcodec true 0 1 wfs (fun d => dset d 3 30) (fun b => map (fun x => [x]) b))))) [0; 3; 8; 9]
     = [Some [(1, 10); (2, 20)]; Some [(1, 10); (2, 20)]; Some [(1, 10); (2, 20)]; Some [(1, 10); (2, 20); (3, 30)]].
Proof. split; [apply wcodec_ok | split; vm_compute; reflexivity]. Qed.
Example C17_witness : @deletions_followed nat [DSet 3 30; DDel 1; DSync; DSet 2 21].
Proof.
  intros l1 k l2 E. destruct l1 as [|? l1]; [discriminate|]. injection E as <- E. destruct l1 as [|? l1]; [|injection E as <- E; destruct l1 as [|? l1]; [discriminate|]; injection E as <- E; destruct l1 as [|? l1]; [discriminate|]; injection E as <- E; destruct l1; discriminate].
  injection E as _ <-. exists DSync. cbn. auto.
Qed.
Example C18_witness : dirfile_read wcodec [] wfs 0 = [(1, 10); (2, 20)] /\ truncation_detected wcodec
  /\ dirfile_read wcodec [] (exec wfs (dirfile_steps 0 1 {| oc_temp := true; oc_direct := true; oc_unlink := true; oc_rename := true |} (enc wcodec [(1, 11)]) [[1]; [1; 11]])) 0 = [(1, 11)].
Proof. split; [reflexivity | split; [apply wcodec_trunc | reflexivity]]. Qed.

(* C17 is false in general: a deletion that is not followed by an assignment is forgotten (dblite.__delitem__ does not set
   _needs_sync). *)
Theorem C17_delete_refuted : exists V (C : codec (dict V)) file tmp f h st k,
  codec_ok C /\ file <> tmp /\ open_db C true file f FC = (Some h, st)
  /\ let f' := snd (dops C file tmp [DDel k; DClose] (h, exec f st)) in
     exists d, seen C file f' = Some d /\ dget d k <> None.
Proof.
  exists nat, wcodec, 0, 1, wfs. do 2 eexists. exists 1. split; [apply wcodec_ok|]. split; [discriminate|]. split; [reflexivity|].
  cbv zeta. eexists. split; [vm_compute; reflexivity | vm_compute; discriminate].
Qed.
Print Assumptions C17_delete_refuted.

(* C18 is false as stated: DirFile.write removes the old file before renaming the new one, so a process that dies in between
   leaves no signatures at all. *)
Theorem C18_dirfile_crash_refuted : exists E (C : codec E) none sconsign temp f oc e' chunks k,
  codec_ok C /\ truncation_detected C /\ sconsign <> temp /\ chunked (enc C e') chunks
  /\ oc = {| oc_temp := true; oc_direct := true; oc_unlink := true; oc_rename := true |}
  /\ let r := dirfile_read C none (exec f (firstn k (dirfile_steps sconsign temp oc (enc C e') chunks))) sconsign in
     r <> dirfile_read C none f sconsign /\ r <> e'.
Proof.
  exists (dict nat), wcodec, [], 0, 1, wfs. eexists. exists [(1, 11)], [enc wcodec [(1, 11)]], 3.
  split; [apply wcodec_ok|]. split; [apply wcodec_trunc|]. split; [discriminate|]. split; [reflexivity|]. split; [reflexivity|]. vm_compute. split; discriminate.
Qed.
Print Assumptions C18_dirfile_crash_refuted.
