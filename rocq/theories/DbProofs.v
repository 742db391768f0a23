From Coq Require Import List Arith Bool Lia.
Import ListNotations.
From Verif Require Import DbModel DbSpec.

Lemma fput_same f n v : fput f n v n = v. Proof. unfold fput. rewrite Nat.eqb_refl. reflexivity. Qed.
Lemma fput_other f n v m : m <> n -> fput f n v m = f m.
Proof. intros H. unfold fput. destruct (m =? n) eqn:E; [apply Nat.eqb_eq in E; contradiction | reflexivity]. Qed.
Lemma exec_app f a b : exec f (a ++ b) = exec (exec f a) b. Proof. apply fold_left_app. Qed.

Definition only (n : fname) (s : fstep) : Prop := match s with Trunc m | Append m _ | Unlink m => m = n | Replace _ _ => False end.
Lemma exec_only n : forall l f m, Forall (only n) l -> m <> n -> exec f l m = f m.
Proof.
  induction l as [|s l IH]; intros f m H Hm; [reflexivity|]. inversion H as [|? ? H1 H2]; subst. cbn. change (fold_left exec1 l (exec1 f s) m) with (exec (exec1 f s) l m).
  rewrite IH by assumption. destruct s as [k|k b|a b|k]; cbn in *; subst; try (apply fput_other; assumption). elim H1.
Qed.
Lemma exec_appends n : forall chunks f x, f n = Some x -> exec f (map (Append n) chunks) n = Some (x ++ concat chunks).
Proof.
  induction chunks as [|c cs IH]; intros f x H; cbn [map concat]; [rewrite app_nil_r; exact H|].
  change (exec (exec1 f (Append n c)) (map (Append n) cs) n = Some (x ++ c ++ concat cs)).
  rewrite (IH _ (x ++ c)); [rewrite app_assoc; reflexivity|]. cbn. rewrite fput_same, H. reflexivity.
Qed.
Lemma exec_write n chunks f : exec f (Trunc n :: map (Append n) chunks) n = Some (concat chunks).
Proof. change (exec (exec1 f (Trunc n)) (map (Append n) chunks) n = Some (concat chunks)). rewrite (exec_appends n chunks _ []); [reflexivity|]. cbn. apply fput_same. Qed.
Lemma write_only n chunks : Forall (only n) (Trunc n :: map (Append n) chunks).
Proof. constructor; [reflexivity|]. apply Forall_forall. intros s H. apply in_map_iff in H. destruct H as (b & <- & _). reflexivity. Qed.
Lemma firstn_only {A} (P : A -> Prop) k l : Forall P l -> Forall P (firstn k l).
Proof. intros H. apply Forall_forall. intros x Hx. rewrite Forall_forall in H. apply H. rewrite <- (firstn_skipn k l). apply in_or_app. auto. Qed.
Lemma firstn_snoc {A} k (l : list A) x : (k <= length l /\ firstn k (l ++ [x]) = firstn k l) \/ (length l < k /\ firstn k (l ++ [x]) = l ++ [x]).
Proof.
  destruct (le_lt_dec k (length l)) as [H|H].
  - left. split; [exact H|]. rewrite firstn_app. replace (k - length l) with 0 by lia. cbn. apply app_nil_r.
  - right. split; [exact H|]. apply firstn_all2. rewrite app_length. cbn. lia.
Qed.

(* a prefix of the steps of sync *)
Lemma sync_prefix file tmp chunks f k : file <> tmp ->
  (k < length (sync_steps file tmp chunks) /\ exec f (firstn k (sync_steps file tmp chunks)) file = f file)
  \/ (length (sync_steps file tmp chunks) <= k /\ exec f (firstn k (sync_steps file tmp chunks)) file = Some (concat chunks)).
Proof.
  intros N. unfold sync_steps. change (Trunc tmp :: map (Append tmp) chunks ++ [Replace tmp file]) with ((Trunc tmp :: map (Append tmp) chunks) ++ [Replace tmp file]).
  set (A := Trunc tmp :: map (Append tmp) chunks). rewrite app_length. cbn [length].
  destruct (firstn_snoc k A (Replace tmp file)) as [[H E]|[H E]]; rewrite E.
  - left. split; [lia|]. apply (exec_only tmp); [apply firstn_only, write_only | exact N].
  - right. split; [lia|]. rewrite exec_app. change (exec1 (exec f A) (Replace tmp file) file = Some (concat chunks)). cbn [exec1]. unfold A. rewrite exec_write. rewrite fput_other by exact N. apply fput_same.
Qed.
Lemma sync_full file tmp chunks f : file <> tmp -> exec f (sync_steps file tmp chunks) file = Some (concat chunks).
Proof.
  intros N. destruct (sync_prefix file tmp chunks f (length (sync_steps file tmp chunks)) N) as [[H _]|[_ H]]; [lia|]. rewrite firstn_all in H. exact H.
Qed.

Lemma dget_dset {V} (d : dict V) k v x : dget (dset d k v) x = if x =? k then Some v else dget d x.
Proof.
  induction d as [|[k' v'] d IH]; cbn; [reflexivity|]. destruct (k =? k') eqn:E; cbn.
  - apply Nat.eqb_eq in E. subst. destruct (x =? k'); reflexivity.
  - destruct (x =? k') eqn:E2; [apply Nat.eqb_eq in E2; subst; rewrite Nat.eqb_sym, E; reflexivity | apply IH].
Qed.
Lemma dget_ddel {V} (d : dict V) k x : dget (ddel d k) x = if x =? k then None else dget d x.
Proof.
  induction d as [|[k' v'] d IH]; cbn; [destruct (x =? k); reflexivity|]. destruct (k =? k') eqn:E; cbn.
  - apply Nat.eqb_eq in E. subst. rewrite IH. destruct (x =? k'); reflexivity.
  - rewrite IH. destruct (x =? k') eqn:E2; [|reflexivity]. apply Nat.eqb_eq in E2. subst. rewrite Nat.eqb_sym, E. reflexivity.
Qed.

Section S.
Context {V : Type} (C : codec (dict V)) (Ok : codec_ok C) (file tmp : fname) (N : file <> tmp).

Lemma seen_enc f d : f file = Some (enc C d) -> seen C file f = Some d.
Proof. intros H. unfold seen, open_db. rewrite H. destruct (enc C d) eqn:E; [elim (proj2 Ok d E)|]. rewrite <- E, (proj1 Ok). reflexivity. Qed.
Lemma seen_ext f g : f file = g file -> seen C file f = seen C file g.
Proof. intros H. unfold seen, open_db. rewrite H. reflexivity. Qed.

Lemma run_prefix f work spl k d : (forall b, chunked b (spl b)) -> seen C file f = Some d ->
  let steps := run_steps C true file tmp f work spl in
  (seen C file (exec f (firstn k steps)) = Some d /\ k < length steps) \/ (seen C file (exec f (firstn k steps)) = Some (work d) /\ length steps <= k).
Proof.
  intros Sp H. unfold run_steps. cbv zeta.
  assert (Hs : exists h st, open_db C true file f FC = (Some h, st) /\ d_dict h = d /\ (st = [] \/ (st = [Trunc file] /\ f file = None /\ d = []))).
  { unfold seen, open_db in *. destruct (f file) as [[|b p]|].
    - cbn in *. injection H as <-. eexists. exists []. split; [reflexivity|]. split; [reflexivity | auto].
    - destruct (dec C (b :: p)) as [x|]; cbn in *; injection H as <-; eexists; exists []; (split; [reflexivity|]; split; [reflexivity | auto]).
    - cbn in *. injection H as <-. eexists. exists [Trunc file]. split; [reflexivity|]. split; [reflexivity | auto]. }
  destruct Hs as (h & st & -> & Hd & Hst). rewrite Hd.
  set (chunks := spl (enc C (work d))). assert (Cc : concat chunks = enc C (work d)) by apply Sp.
  destruct Hst as [->|(-> & Fn & ->)].
  - cbn [app]. destruct (sync_prefix file tmp chunks f k N) as [[L E]|[L E]].
    + left. split; [|exact L]. rewrite (seen_ext _ f E). exact H.
    + right. split; [|exact L]. apply seen_enc. rewrite E, Cc. reflexivity.
  - destruct k as [|k]; [left; split; [exact H | cbn; lia]|].
    change (firstn (S k) ([Trunc file] ++ sync_steps file tmp chunks)) with (Trunc file :: firstn k (sync_steps file tmp chunks)).
    change (length ([Trunc file] ++ sync_steps file tmp chunks)) with (S (length (sync_steps file tmp chunks))).
    change (exec f (Trunc file :: firstn k (sync_steps file tmp chunks))) with (exec (exec1 f (Trunc file)) (firstn k (sync_steps file tmp chunks))).
    destruct (sync_prefix file tmp chunks (exec1 f (Trunc file)) k N) as [[L E]|[L E]].
    + left. split; [|lia]. unfold seen, open_db. rewrite E. cbn. rewrite fput_same. reflexivity.
    + right. split; [|lia]. apply seen_enc. rewrite E, Cc. reflexivity.
Qed.

Lemma history_replaced : forall h f d, (forall w s c, In (w, s, c) h -> forall b, chunked b (s b)) -> seen C file f = Some d ->
  exists d', seen C file (after_history C file tmp h f) = Some d' /\ replaced h d d'.
Proof.
  induction h as [|[[work spl] crash] h IH]; intros f d Hs H; [exists d; split; [exact H | constructor]|].
  cbn [after_history]. set (steps := run_steps C true file tmp f work spl).
  pose proof (run_prefix f work spl) as P. assert (Sp : forall b, chunked b (spl b)) by (apply (Hs work spl crash); left; reflexivity).
  destruct crash as [k|].
  - specialize (P k d Sp H). cbv zeta in P. fold steps in P. destruct P as [[P L]|[P L]].
    + destruct (IH (exec f (firstn k steps)) d (fun w s c X => Hs w s c (or_intror X)) P) as (d' & A & B). exists d'. split; [exact A | apply r_lost, B].
    + destruct (IH (exec f (firstn k steps)) (work d) (fun w s c X => Hs w s c (or_intror X)) P) as (d' & A & B). exists d'. split; [exact A | apply r_done, B].
  - specialize (P (length steps) d Sp H). cbv zeta in P. fold steps in P. rewrite firstn_all in P. destruct P as [[P L]|[P L]]; [lia|].
    destruct (IH (exec f steps) (work d) (fun w s c X => Hs w s c (or_intror X)) P) as (d' & A & B). exists d'. split; [exact A | apply r_done, B].
Qed.

(* ---- the handle ---- *)
(* d0: dictionary on disk if clean *)
Definition hinv (hf : db V * fs) : Prop := writable (fst hf) = true.
Lemma dstep_flag o hf : d_flag (fst (dstep' C file tmp hf o)) = d_flag (fst hf).
Proof.
  destruct hf as [h f]. unfold dstep', dstep, sync_db. cbn [fst snd]. destruct o as [k v|k| |]; [destruct (writable h) | destruct (dget (d_dict h) k) | destruct (writable h) | destruct (d_dirty h); [destruct (writable h)|]]; reflexivity.
Qed.
Lemma dops_flag l : forall hf, d_flag (fst (dops C file tmp l hf)) = d_flag (fst hf).
Proof. induction l as [|o l IH]; intros hf; [reflexivity|]. unfold dops in *. cbn. rewrite IH. apply dstep_flag. Qed.
Lemma dstep_dict o hf : writable (fst hf) = true -> forall k, dget (d_dict (fst (dstep' C file tmp hf o))) k = spec_op (dget (d_dict (fst hf))) o k.
Proof.
  destruct hf as [h f]. unfold dstep', dstep, sync_db. cbn [fst snd]. intros W k. rewrite W. destruct o as [x v|x| |]; cbn.
  - apply dget_dset.
  - destruct (dget (d_dict h) x) eqn:E; cbn; [apply dget_ddel|]. destruct (k =? x) eqn:Q; [apply Nat.eqb_eq in Q; subst; exact E | reflexivity].
  - reflexivity.
  - destruct (d_dirty h); reflexivity.
Qed.
Lemma spec_ext (o : @dop V) m m' : (forall k, m k = m' k) -> forall k, spec_op m o k = spec_op m' o k.
Proof. intros H k. destruct o; cbn; try destruct (k =? k0); auto. Qed.
Lemma spec_ops_ext (l : list (@dop V)) : forall m m', (forall k, m k = m' k) -> forall k, spec_ops l m k = spec_ops l m' k.
Proof. induction l as [|o l IH]; intros m m' H k; [apply H|]. cbn. apply IH. apply spec_ext, H. Qed.
Lemma dops_dict l : forall hf, writable (fst hf) = true -> forall k, dget (d_dict (fst (dops C file tmp l hf))) k = spec_ops l (dget (d_dict (fst hf))) k.
Proof.
  induction l as [|o l IH]; intros hf W k; [reflexivity|]. unfold dops. cbn [fold_left]. fold (dops C file tmp l (dstep' C file tmp hf o)). rewrite IH.
  - cbn. apply spec_ops_ext. intros x. apply dstep_dict, W.
  - unfold writable in *. rewrite dstep_flag. exact W.
Qed.

(* the disk holds the dictionary, or the handle knows it does not, or a deletion is pending *)
Definition synced (pending : bool) (hf : db V * fs) : Prop :=
  d_dirty (fst hf) = true \/ pending = true \/ seen C file (snd hf) = Some (d_dict (fst hf)).
Definition pend_after (o : @dop V) (p : bool) : bool := match o with DDel _ => true | DSet _ _ | DSync => false | DClose => p end.
Lemma dstep_synced o hf p : writable (fst hf) = true -> synced p hf -> synced (pend_after o p) (dstep' C file tmp hf o).
Proof.
  destruct hf as [h f]. unfold dstep', dstep, sync_db, synced. cbn [fst snd]. intros W H. rewrite W. destruct o as [x v|x| |]; cbn [pend_after fst snd d_dirty].
  - auto.
  - destruct (dget (d_dict h) x); auto.
  - right; right. apply seen_enc. cbn [fst snd]. rewrite sync_full by exact N. cbn. rewrite app_nil_r. reflexivity.
  - destruct (d_dirty h) eqn:D; [|destruct H as [H|H]; [discriminate|]; cbn [fst snd]; auto]. right; right. apply seen_enc. cbn [fst snd]. rewrite sync_full by exact N. cbn. rewrite app_nil_r. reflexivity.
Qed.
Definition pends (l : list (@dop V)) (p : bool) : bool := fold_left (fun p o => pend_after o p) l p.
Lemma dops_synced l : forall hf p, writable (fst hf) = true -> synced p hf -> synced (pends l p) (dops C file tmp l hf).
Proof.
  induction l as [|o l IH]; intros hf p W H; [exact H|]. unfold dops, pends. cbn [fold_left]. apply IH; [|apply dstep_synced; assumption].
  unfold writable in *. rewrite dstep_flag. exact W.
Qed.
Lemma pends_false : forall (l : list (@dop V)) q, deletions_followed l ->
  (exists o, In o l /\ match o with DSet _ _ | DSync => True | _ => False end) \/ q = false -> pends l q = false.
Proof.
  induction l as [|a l IH]; intros q D H; [destruct H as [(o & [] & _)|H]; exact H|]. unfold pends. cbn [fold_left]. fold (pends l (pend_after a q)).
  assert (D' : deletions_followed l) by (intros l1 k l2 ->; apply (D (a :: l1) k l2); reflexivity).
  apply IH; [exact D'|]. destruct a as [x v|x| |]; cbn; auto.
  - left. apply (D [] x l eq_refl).
  - destruct H as [(o & [<-|H] & Ho)|H]; [elim Ho | left; exists o; auto | auto].
Qed.
End S.
