(* C75: what is done before a command is run *)
From Coq Require Import List Bool Arith Lia.
From Verif Require Import PrepModel PrepSpec.
Import ListNotations.

Lemma peq_eq p : forall q, peq p q = true <-> p = q.
Proof.
  induction p as [|a p IH]; intros [|b q]; cbn [peq]; split; intros H; try discriminate; try reflexivity.
  - apply andb_true_iff in H. destruct H as [H1 H2]. apply Nat.eqb_eq in H1. apply IH in H2. congruence.
  - injection H as <- <-. rewrite Nat.eqb_refl. cbn [andb]. apply IH. reflexivity.
Qed.
Lemma peq_refl p : peq p p = true. Proof. apply peq_eq. reflexivity. Qed.
Lemma set_same d p e : set d p e p = e. Proof. unfold set. rewrite peq_refl. reflexivity. Qed.
Lemma set_other d p e q : q <> p -> set d p e q = d q.
Proof. intros H. unfold set. destruct (peq q p) eqn:E; [apply peq_eq in E; contradiction | reflexivity]. Qed.
Lemma path_dec (p q : list nat) : p = q \/ p <> q.
Proof. destruct (peq p q) eqn:E; [left; apply peq_eq; exact E | right; intros H; apply peq_eq in H; congruence]. Qed.

Lemma above_len p q : Above p q -> List.length p < List.length q.
Proof. intros [a [l ->]]. cbn [List.length]. rewrite app_length. lia. Qed.
Lemma above_irr p : ~ Above p p.
Proof. intros H. apply above_len in H. lia. Qed.
Lemma above_up a p : Above p (a :: p).
Proof. exists a, []. reflexivity. Qed.
Lemma above_cons a p q : Above q p -> Above q (a :: p).
Proof. intros [b [l ->]]. exists a, (b :: l). reflexivity. Qed.
Lemma there_exists d p : There d p <-> exists_ d p = true.
Proof.
  unfold There, exists_. split.
  - intros [e [E N]]. rewrite E. destruct e as [c| |[]]; congruence.
  - destruct (d p) as [e|] eqn:E; [|discriminate]. intros H. exists e. split; [reflexivity|]. intros ->. discriminate.
Qed.

Section Prepare.
Variable kind_of : list nat -> kind.
Variables derived linked precious in_repository : list nat -> bool.
Variables depends implicit side_effects : list nat -> list (list nat).
Variable uptodate : list nat -> bool.

Notation missing := (missing derived linked in_repository).
Notation check := (check derived linked in_repository depends implicit).
Notation prepare_node ne := (prepare_node kind_of derived linked precious in_repository depends implicit uptodate ne).
Notation prepare_all ne := (prepare_all kind_of derived linked precious in_repository depends implicit uptodate ne).
Notation prepare ne := (prepare kind_of derived linked precious in_repository depends implicit side_effects uptodate ne).

(* the targets whose old file is to go *)
Definition Replace (n : list nat) : Prop := kind_of n = KFile /\ uptodate n = false /\ derived n = true /\ precious n = false.

(* what may have happened to the disk, when the nodes l are prepared *)
Definition Frame (l : list (list nat)) (d d' : fsys) : Prop := forall p,
  d' p = d p
  \/ (In p l /\ Replace p /\ d p <> Some EDir /\ (d' p = None \/ d' p = Some EDir /\ exists t, In t l /\ Above p t))
  \/ (d p = None /\ d' p = Some EDir /\ exists t, In t l /\ Above p t).
Lemma frame_refl l d : Frame l d d. Proof. intros p. left. reflexivity. Qed.
Lemma frame_mono l l' d d' : (forall x, In x l -> In x l') -> Frame l d d' -> Frame l' d d'.
Proof.
  intros H F p. destruct (F p) as [E|[[A [B [C D]]]|[A [B [t [C D]]]]]].
  - left. exact E.
  - right. left. split; [apply H; exact A|]. split; [exact B|]. split; [exact C|].
    destruct D as [D|[D [t [D1 D2]]]]; [left; exact D | right; split; [exact D|]; exists t; split; [apply H; exact D1 | exact D2]].
  - right. right. split; [exact A|]. split; [exact B|]. exists t. split; [apply H; exact C | exact D].
Qed.
Lemma frame_trans l d d1 d2 : Frame l d d1 -> Frame l d1 d2 -> Frame l d d2.
Proof.
  intros F G p. destruct (F p) as [E|[[A [B [C D]]]|[A [B [t [C D]]]]]]; destruct (G p) as [E'|[[A' [B' [C' D']]]|[A' [B' [t' [C' D']]]]]].
  - left. congruence.
  - right. left. rewrite E in C'. split; [exact A'|]. split; [exact B'|]. split; [exact C' | exact D'].
  - right. right. rewrite E in A'. split; [exact A'|]. split; [exact B'|]. exists t'. split; assumption.
  - right. left. rewrite <- E' in D. split; [exact A|]. split; [exact B|]. split; [exact C | exact D].
  - right. left. split; [exact A|]. split; [exact B|]. split; [exact C | exact D'].
  - right. left. split; [exact A|]. split; [exact B|]. split; [exact C|]. right. split; [exact B'|]. exists t'. split; assumption.
  - right. right. split; [exact A|]. split; [congruence|]. exists t. split; assumption.
  - exfalso. congruence.
  - exfalso. congruence.
Qed.

(* ---- directories ---- *)
Lemma mkdir_frame n d p : Above p n -> Frame [n] d (fst (mkdir d p)).
Proof.
  intros H. unfold mkdir. destruct (exists_ d p); [apply frame_refl|]. destruct (d p) as [e|] eqn:E; [apply frame_refl|].
  destruct p as [|a up]; [apply frame_refl|].
  assert (Q : Frame [n] d (set d (a :: up) (Some EDir))).
  { intros q. destruct (path_dec q (a :: up)) as [->|N].
    - right. right. rewrite set_same. split; [exact E|]. split; [reflexivity|]. exists n. split; [left; reflexivity | exact H].
    - left. apply set_other. exact N. }
  destruct (d up) as [[c| |[]]|]; try apply frame_refl; exact Q.
Qed.
Lemma missing_dirs_in d p : forall q, In q (missing_dirs d p) -> q = p \/ Above q p.
Proof.
  induction p as [|a p IH]; intros q H; [contradiction|]. cbn [missing_dirs] in H. destruct (exists_ d (a :: p)); [contradiction|].
  destruct H as [<-|H]; [left; reflexivity|]. right. destruct (IH q H) as [->|A]; [apply above_up | apply above_cons; exact A].
Qed.
Lemma build_dirs_frame ne n l : (forall q, In q l -> Above q n) -> forall d, Frame [n] d (fst (build_dirs ne d l)).
Proof.
  induction l as [|p l IH]; intros H d; [apply frame_refl|]. cbn [build_dirs].
  assert (F1 : Frame [n] d (fst (if ne then (d, None) else mkdir d p))).
  { destruct ne; [apply frame_refl | apply mkdir_frame; apply H; left; reflexivity]. }
  destruct (if ne then (d, None) else mkdir d p) as [d1 [e|]]; cbn [fst] in *; [exact F1|].
  eapply frame_trans; [exact F1|]. apply IH. intros q Hq. apply H. right. exact Hq.
Qed.
Lemma create_frame ne n d : Frame [n] d (fst (create ne d (tl n))).
Proof.
  unfold create. destruct n as [|a p]; [cbn; apply frame_refl|]. apply build_dirs_frame. intros q Hq. apply in_rev in Hq.
  cbn [tl] in Hq. destruct (missing_dirs_in d p q Hq) as [->|A]; [apply above_up | apply above_cons; exact A].
Qed.
Lemma prepare_node_frame ne n d : Frame [n] d (fst (prepare_node ne d n)).
Proof.
  unfold PrepModel.prepare_node. destruct (kind_of n) eqn:K; try apply frame_refl.
  destruct (check d n); [apply frame_refl|]. destruct (uptodate n) eqn:U; [apply frame_refl|].
  destruct (exists_ d n || islink d n) eqn:X.
  - destruct (derived n && negb (precious n)) eqn:DP; [|apply frame_refl]. destruct ne; [apply frame_refl|].
    apply andb_true_iff in DP. destruct DP as [D1 D2]. apply negb_true_iff in D2.
    assert (Q : d n <> Some EDir -> Frame [n] d (set d n None)).
    { intros Ne q. destruct (path_dec q n) as [->|N]; [|left; apply set_other; exact N].
      right. left. rewrite set_same. split; [left; reflexivity|]. split; [repeat split; assumption|]. split; [exact Ne | left; reflexivity]. }
    unfold unlink. destruct (d n) as [[c| |t]|] eqn:E; cbn [fst]; try apply frame_refl; apply Q; congruence.
  - apply create_frame.
Qed.
Lemma prepare_all_frame ne l : forall d, Frame l d (fst (prepare_all ne d l)).
Proof.
  induction l as [|n l IH]; intros d; [apply frame_refl|]. cbn [PrepModel.prepare_all].
  pose proof (prepare_node_frame ne n d) as F1. destruct (prepare_node ne d n) as [d1 [e|]]; cbn [fst] in *.
  - eapply frame_mono; [|exact F1]. intros x [<-|[]]. left. reflexivity.
  - eapply frame_trans.
    + eapply frame_mono; [|exact F1]. intros x [<-|[]]. left. reflexivity.
    + eapply frame_mono; [|apply IH]. intros x Hx. right. exact Hx.
Qed.
Definition nodes (targets : list (list nat)) : list (list nat) := flat_map (fun t => t :: side_effects t) targets.

(* C75b: nothing else happens, whatever the outcome *)
Theorem C75b_nothing_else : forall ne d sources targets, Frame (nodes targets) d (fst (prepare ne d sources targets)).
Proof.
  intros ne d sources targets. unfold PrepModel.prepare. destruct (find (missing d) sources); [apply frame_refl | apply prepare_all_frame].
Qed.

(* C75d: and nothing at all under -n *)
Theorem C75d_no_exec : forall d sources targets, fst (prepare true d sources targets) = d.
Proof.
  intros d sources targets. unfold PrepModel.prepare. destruct (find (missing d) sources); [reflexivity|].
  fold (nodes targets). induction (nodes targets) as [|n l IH]; [reflexivity|]. cbn [PrepModel.prepare_all].
  assert (B : forall k, build_dirs true d k = (d, None)) by (induction k as [|p k IHk]; [reflexivity | exact IHk]).
  assert (Q : fst (prepare_node true d n) = d).
  { unfold PrepModel.prepare_node. destruct (kind_of n); try reflexivity. destruct (check d n); [reflexivity|].
    destruct (uptodate n); [reflexivity|]. destruct (exists_ d n || islink d n); [destruct (derived n && negb (precious n)); reflexivity|].
    unfold create. rewrite B. reflexivity. }
  destruct (prepare_node true d n) as [d1 [e|]]; cbn [fst] in Q; subst d1; [reflexivity | exact IH].
Qed.

(* ---- dependencies ---- *)
Definition Missing (d : fsys) (n : list nat) : Prop := derived n = false /\ linked n = false /\ in_repository n = false /\ ~ There d n.
Lemma missing_iff d n : missing d n = true <-> Missing d n.
Proof using derived linked in_repository.
  unfold PrepModel.missing, Missing. rewrite there_exists. generalize (derived n) (linked n) (in_repository n) (exists_ d n).
  clear. intros [] [] [] []; cbn; split; intros H; try discriminate H; try (destruct H as [H1 [H2 [H3 H4]]]; first [discriminate | congruence]);
    repeat split; try reflexivity; discriminate.
Qed.
Lemma missing_frame l d d' n : Frame l d d' -> Missing d' n -> Missing d n.
Proof.
  intros F [A [B [C D]]]. split; [exact A|]. split; [exact B|]. split; [exact C|]. intros H. apply D.
  destruct (F n) as [E|[[_ [[_ [_ [R _]]] _]]|[E [E' _]]]].
  - destruct H as [e [E1 E2]]. exists e. split; [congruence | exact E2].
  - congruence.
  - exists EDir. split; [exact E' | discriminate].
Qed.
Lemma find_none {A} (f : A -> bool) l : find f l = None <-> forall x, In x l -> f x = false.
Proof.
  split; [intros H x Hx; exact (find_none f l H x Hx)|]. induction l as [|y l IH]; intros H; [reflexivity|].
  cbn [find]. rewrite (H y (or_introl eq_refl)). apply IH. intros x Hx. apply H. right. exact Hx.
Qed.
Lemma check_none d n : check d n = None <-> forall x, In x (depends n ++ implicit n) -> ~ Missing d x.
Proof using derived linked in_repository depends implicit.
  assert (Q : forall l, find (missing d) l = None <-> forall x, In x l -> ~ Missing d x).
  { intros l. rewrite find_none. split; intros H x Hx.
    - intros M. apply missing_iff in M. rewrite (H x Hx) in M. discriminate.
    - destruct (missing d x) eqn:M; [|reflexivity]. exfalso. apply (H x Hx). apply missing_iff. exact M. }
  unfold PrepModel.check. destruct (find (missing d) (depends n)) as [y|] eqn:F1.
  - split; [discriminate|]. intros H. exfalso. apply find_some in F1. destruct F1 as [I1 M]. apply (H y); [apply in_or_app; left; exact I1 | apply missing_iff; exact M].
  - rewrite Q in F1. destruct (find (missing d) (implicit n)) as [y|] eqn:F2.
    + split; [discriminate|]. intros H. exfalso. apply find_some in F2. destruct F2 as [I1 M]. apply (H y); [apply in_or_app; right; exact I1 | apply missing_iff; exact M].
    + rewrite Q in F2. split; [|reflexivity]. intros _ x Hx. apply in_app_or in Hx. destruct Hx as [Hx|Hx]; [apply F1 | apply F2]; exact Hx.
Qed.
Lemma prepare_node_check ne d d1 n : prepare_node ne d n = (d1, None) -> kind_of n <> KDir -> check d n = None.
Proof.
  unfold PrepModel.prepare_node. destruct (kind_of n); intros H K; [|congruence|].
  - destruct (check d n); [discriminate | reflexivity].
  - injection H as _ H. exact H.
Qed.

(* C75a: missing sources and dependencies *)
Theorem C75a_missing_source : forall ne d sources targets s, In s sources -> Missing d s ->
  exists s', In s' sources /\ Missing d s' /\ prepare ne d sources targets = (d, Some (MissingSource s')).
Proof.
  intros ne d sources targets s Hs M. unfold PrepModel.prepare. destruct (find (missing d) sources) as [s'|] eqn:F.
  - apply find_some in F. destruct F as [I1 M1]. exists s'. split; [exact I1|]. split; [apply missing_iff; exact M1 | reflexivity].
  - exfalso. rewrite find_none in F. specialize (F s Hs). apply missing_iff in M. congruence.
Qed.
Theorem C75a_complete : forall ne d sources targets d', prepare ne d sources targets = (d', None) ->
  (forall s, In s sources -> ~ Missing d s) /\
  (forall n x, In n (nodes targets) -> kind_of n <> KDir -> In x (depends n ++ implicit n) -> ~ Missing d' x).
Proof.
  intros ne d sources targets d' H. unfold PrepModel.prepare in H.
  destruct (find (missing d) sources) as [s'|] eqn:F; [discriminate|]. split.
  - intros s Hs M. rewrite find_none in F. specialize (F s Hs). apply missing_iff in M. congruence.
  - clear F. fold (nodes targets) in H. revert d H. induction (nodes targets) as [|n l IH]; intros d H m x Hm K Hx; [contradiction|].
    cbn [PrepModel.prepare_all] in H. destruct (prepare_node ne d n) as [d1 [e|]] eqn:P; [discriminate|].
    destruct Hm as [<-|Hm]; [|exact (IH d1 H m x Hm K Hx)].
    pose proof (prepare_node_check ne d d1 n P K) as Q. rewrite check_none in Q. specialize (Q x Hx).
    intros M. apply Q. apply (missing_frame [n] d d1 x).
    + pose proof (prepare_node_frame ne n d) as F1. rewrite P in F1. exact F1.
    + apply (missing_frame l d1 d' x); [|exact M]. pose proof (prepare_all_frame ne l d1) as F2. rewrite H in F2. exact F2.
Qed.
(* for a task with one target and no side effect, a missing dependency changes nothing either *)
Theorem C75a_missing_dependency : forall ne d sources t x, side_effects t = [] -> kind_of t <> KDir ->
  In x (depends t ++ implicit t) -> Missing d x -> exists e, prepare ne d sources [t] = (d, Some e).
Proof.
  intros ne d sources t x Hs K Hx M. unfold PrepModel.prepare. destruct (find (missing d) sources) as [s'|]; [eexists; reflexivity|].
  cbn [flat_map]. rewrite Hs. cbn [app PrepModel.prepare_all].
  assert (Q : exists e, check d t = Some e).
  { destruct (check d t) as [e|] eqn:C; [exists e; reflexivity|]. exfalso. rewrite check_none in C. exact (C x Hx M). }
  destruct Q as [e C]. exists e. unfold PrepModel.prepare_node. rewrite C. destruct (kind_of t); [reflexivity | congruence | reflexivity].
Qed.
End Prepare.
Print Assumptions C75a_missing_source.
Print Assumptions C75a_complete.
Print Assumptions C75a_missing_dependency.
Print Assumptions C75b_nothing_else.
Print Assumptions C75d_no_exec.
