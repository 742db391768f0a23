(* C75: what is so after a task has been prepared, and when that succeeds *)
From Coq Require Import List Bool Arith Lia.
From Verif Require Import PrepModel PrepSpec PrepProps.
Import ListNotations.

Lemma tree_root d : Tree d -> d [] = Some EDir. Proof. intros [H _]. exact H. Qed.
Lemma mkdir_tree d p : Tree d -> Tree (fst (mkdir d p)).
Proof.
  intros [R T]. unfold mkdir. destruct (exists_ d p); [split; assumption|]. destruct (d p) as [e|] eqn:E; [split; assumption|].
  destruct p as [|a up]; [split; assumption|].
  assert (Q : d up = Some EDir \/ d up = Some (ELink ToDir) -> Tree (set d (a :: up) (Some EDir))).
  { intros U. split.
    - rewrite set_other by discriminate. exact R.
    - intros b q H. destruct (path_dec q (a :: up)) as [->|N]; [left; apply set_same|]. rewrite (set_other d _ _ q N).
      destruct (path_dec (b :: q) (a :: up)) as [Eq|N2]; [injection Eq as -> ->; exact U|]. rewrite set_other in H by exact N2. apply (T b q H). }
  destruct (d up) as [[c| |[]]|] eqn:U; cbn [fst]; try (split; assumption); apply Q; [left | right]; reflexivity.
Qed.
Lemma unlink_tree d n : Tree d -> d n <> Some (ELink ToDir) -> n <> [] -> Tree (fst (unlink d n)).
Proof.
  intros [R T] Hl Hn. unfold unlink. 
  assert (Q : d n <> Some EDir -> Tree (set d n None)).
  { intros Hd. split; [rewrite set_other by congruence; exact R|]. intros b q H.
    destruct (path_dec (b :: q) n) as [Eq|N]; [subst n; rewrite set_same in H; congruence|]. rewrite set_other in H by exact N.
    destruct (path_dec q n) as [->|N2]; [exfalso; destruct (T b n H); contradiction|]. rewrite set_other by exact N2. exact (T b q H). }
  destruct (d n) as [[c| |t]|] eqn:E; cbn [fst]; try (split; assumption); apply Q; congruence.
Qed.
Lemma build_dirs_app ne a b d : build_dirs ne d (a ++ b) = match build_dirs ne d a with (d1, None) => build_dirs ne d1 b | r => r end.
Proof.
  revert d. induction a as [|p a IH]; intros d; [reflexivity|]. cbn [app build_dirs].
  destruct (if ne then (d, None) else mkdir d p) as [d1 [e|]]; [reflexivity | apply IH].
Qed.
Lemma build_dirs_tree l : forall d, Tree d -> Tree (fst (build_dirs false d l)).
Proof.
  induction l as [|p l IH]; intros d T; [exact T|]. cbn [build_dirs]. pose proof (mkdir_tree d p T) as T1.
  destruct (mkdir d p) as [d1 [e|]]; cbn [fst] in *; [exact T1 | apply IH; exact T1].
Qed.
(* entries that build_dirs leaves alone *)
Lemma build_dirs_keep l : forall d q, ~ In q l -> fst (build_dirs false d l) q = d q.
Proof.
  induction l as [|p l IH]; intros d q H; [reflexivity|]. cbn [build_dirs].
  assert (Q : fst (mkdir d p) q = d q).
  { unfold mkdir. destruct (exists_ d p); [reflexivity|]. destruct (d p); [reflexivity|]. destruct p as [|a up]; [reflexivity|].
    assert (N : q <> a :: up) by (intros E; apply H; left; symmetry; exact E).
    destruct (d up) as [[c| |[]]|]; try reflexivity; cbn [fst]; apply set_other; exact N. }
  destruct (mkdir d p) as [d1 [e|]]; cbn [fst] in *; [exact Q|]. rewrite <- Q. apply IH. intros HI. apply H. right. exact HI.
Qed.
Lemma create_there p : forall d d', d [] = Some EDir -> (forall q, q = p \/ Above q p -> d q <> Some (ELink Dangling)) ->
  create false d p = (d', None) -> There d' p.
Proof.
  unfold create. induction p as [|a p IH]; intros d d' R Hd H.
  - cbn in H. injection H as <-. exists EDir. split; [exact R | discriminate].
  - cbn [missing_dirs] in H. destruct (exists_ d (a :: p)) eqn:X.
    + cbn in H. injection H as <-. apply there_exists. exact X.
    + cbn [rev] in H. rewrite build_dirs_app in H.
      destruct (build_dirs false d (rev (missing_dirs d p))) as [d1 [e|]] eqn:B; [discriminate|].
      assert (K : d1 (a :: p) = d (a :: p)).
      { pose proof (build_dirs_keep (rev (missing_dirs d p)) d (a :: p)) as K. rewrite B in K. apply K. intros Q. apply in_rev in Q.
        destruct (missing_dirs_in d p _ Q) as [E|A]; [apply (f_equal (@List.length nat)) in E; cbn in E; lia | apply above_len in A; cbn in A; lia]. }
      cbn [build_dirs] in H. unfold mkdir in H. destruct (exists_ d1 (a :: p)) eqn:X1.
      { injection H as <-. apply there_exists. exact X1. }
      destruct (d1 (a :: p)) as [e|] eqn:E1.
      { exfalso. apply (Hd (a :: p) (or_introl eq_refl)). rewrite <- K.
        unfold exists_ in X1. rewrite E1 in X1. destruct e as [c| |[]]; try discriminate. reflexivity. }
      destruct (d1 p) as [[c| |[]]|] eqn:Eu; try discriminate; injection H as <-; exists EDir; (split; [apply set_same | discriminate]).
Qed.
Lemma create_ok p : forall d, d [] = Some EDir -> (forall q, q = p \/ Above q p -> d q = None \/ d q = Some EDir \/ d q = Some (ELink ToDir)) ->
  exists d', create false d p = (d', None) /\ (d' p = Some EDir \/ d' p = Some (ELink ToDir)).
Proof.
  unfold create. induction p as [|a p IH]; intros d R Hd.
  - exists d. split; [reflexivity | left; exact R].
  - cbn [missing_dirs]. destruct (exists_ d (a :: p)) eqn:X.
    + exists d. split; [reflexivity|]. destruct (Hd (a :: p) (or_introl eq_refl)) as [E|E]; [|exact E].
      unfold exists_ in X. rewrite E in X. discriminate.
    + cbn [rev]. destruct (IH d R) as [d1 [B U]].
      { intros q [->|A]; apply Hd; right; [apply above_up | apply above_cons; exact A]. }
      rewrite build_dirs_app, B. cbn [build_dirs].
      assert (K : d1 (a :: p) = d (a :: p)).
      { pose proof (build_dirs_keep (rev (missing_dirs d p)) d (a :: p)) as K. rewrite B in K. apply K. intros Q. apply in_rev in Q.
        destruct (missing_dirs_in d p _ Q) as [E|A]; [apply (f_equal (@List.length nat)) in E; cbn in E; lia | apply above_len in A; cbn in A; lia]. }
      assert (Dn : d1 (a :: p) = None).
      { rewrite K. destruct (Hd (a :: p) (or_introl eq_refl)) as [E|[E|E]]; [exact E| |]; unfold exists_ in X; rewrite E in X; discriminate. }
      unfold mkdir. assert (X1 : exists_ d1 (a :: p) = false) by (unfold exists_; rewrite Dn; reflexivity). rewrite X1, Dn.
      destruct U as [U|U]; rewrite U; eexists; (split; [reflexivity | left; apply set_same]).
Qed.

Section Prepare.
Variable kind_of : list nat -> kind.
Variables derived linked precious in_repository : list nat -> bool.
Variables depends implicit side_effects : list nat -> list (list nat).
Variable uptodate : list nat -> bool.
Notation check := (check derived linked in_repository depends implicit).
Notation prepare_node ne := (prepare_node kind_of derived linked precious in_repository depends implicit uptodate ne).
Notation prepare_all ne := (prepare_all kind_of derived linked precious in_repository depends implicit uptodate ne).
Notation prepare ne := (prepare kind_of derived linked precious in_repository depends implicit side_effects uptodate ne).
Notation Replace := (Replace kind_of derived precious uptodate).
Notation Frame := (Frame kind_of derived precious uptodate).
Notation Missing := (Missing derived linked in_repository).
Notation nodes := (nodes side_effects).

(* no file among them is to be a directory of another *)
Definition Apart (l : list (list nat)) : Prop := forall a b, In a l -> kind_of a = KFile -> In b l -> ~ Above a b.
(* the root is not a file; no file to be replaced is a link to a directory *)
Definition Sane (d : fsys) (l : list (list nat)) : Prop :=
  Tree d /\ (forall n, In n l -> kind_of n = KFile -> n <> []) /\ Apart l /\ (forall n, In n l -> Replace n -> d n <> Some (ELink ToDir)).
(* what must hold of a prepared node *)
Definition Prepared (d0 d : fsys) (n : list nat) : Prop :=
  There d (tl n) /\ (derived n = true /\ precious n = false -> d n = None) /\ (derived n = false \/ precious n = true -> d n = d0 n).

Lemma step_sane d n l : Sane d (n :: l) -> Tree (fst (prepare_node false d n)).
Proof.
  intros [T [R [A L]]]. unfold PrepModel.prepare_node. destruct (kind_of n) eqn:K; try exact T. destruct (check d n); [exact T|].
  destruct (uptodate n) eqn:U; [exact T|]. destruct (exists_ d n || islink d n).
  - destruct (derived n && negb (precious n)) eqn:DP; [|exact T]. apply unlink_tree; [exact T| |apply R; [left; reflexivity | exact K]].
    apply andb_true_iff in DP. destruct DP as [D1 D2]. apply negb_true_iff in D2. apply L; [left; reflexivity | repeat split; assumption].
  - unfold create. apply build_dirs_tree. exact T.
Qed.
Lemma sane_next d n l : Sane d (n :: l) -> Sane (fst (prepare_node false d n)) l.
Proof.
  intros H. split; [exact (step_sane d n l H)|]. destruct H as [T [R [A L]]].
  split; [intros m Hm; apply R; right; exact Hm|]. split; [intros a b Ha Ka Hb; apply A; [right; exact Ha | exact Ka | right; exact Hb]|].
  intros m Hm Rm. pose proof (prepare_node_frame kind_of derived linked precious in_repository depends implicit uptodate false n d m) as F.
  destruct F as [E|[[_ [_ [_ [E|[E _]]]]]|[_ [E _]]]]; [rewrite E; apply L; [right; exact Hm | exact Rm] | congruence | congruence | congruence].
Qed.
Definition NoDangling (d : fsys) (l : list (list nat)) : Prop :=
  forall t p, In t l -> kind_of t = KFile -> Above p t -> d p <> Some (ELink Dangling).
Lemma dangling_frame l d d' m : Frame m d d' -> NoDangling d l -> NoDangling d' l.
Proof.
  intros F H t p Ht K A. destruct (F p) as [E|[[_ [_ [_ [E|[E _]]]]]|[_ [E _]]]]; [rewrite E; exact (H t p Ht K A) | congruence | congruence | congruence].
Qed.
Lemma above_tl n q : n <> [] -> q = tl n \/ Above q (tl n) -> Above q n.
Proof. destruct n as [|a p]; [congruence|]. intros _ [->|A]; [apply above_up | apply above_cons; exact A]. Qed.

Lemma step_prepared d n l d1 : Sane d (n :: l) -> NoDangling d (n :: l) -> kind_of n = KFile -> uptodate n = false ->
  prepare_node false d n = (d1, None) -> Prepared d d1 n.
Proof.
  intros [T [R [A L]]] ND K U H. assert (Hn : n <> []) by (apply R; [left; reflexivity | exact K]).
  assert (Nt : tl n <> n) by (destruct n as [|a p]; [congruence|]; intros E; apply (f_equal (@List.length nat)) in E; cbn in E; lia).
  assert (Up : d n <> None -> There d (tl n)).
  { destruct n as [|a p]; [congruence|]. intros E. cbn [tl]. destruct T as [_ T]. destruct (T a p E) as [Q|Q]; [exists EDir | exists (ELink ToDir)]; (split; [exact Q | discriminate]). }
  unfold PrepModel.prepare_node in H. rewrite K in H. destruct (check d n); [discriminate|]. rewrite U in H.
  destruct (exists_ d n || islink d n) eqn:X.
  - assert (Dn : d n <> None) by (unfold exists_, islink in X; destruct (d n); [discriminate | discriminate X]).
    destruct (derived n && negb (precious n)) eqn:DP.
    + unfold unlink in H. destruct (d n) as [[c| |t]|] eqn:E; try congruence; injection H as <-;
        (split; [destruct (Up Dn) as [e [E1 E2]]; exists e; split; [rewrite set_other by exact Nt; exact E1 | exact E2]|]);
        (split; [intros _; apply set_same|]); apply andb_true_iff in DP; destruct DP as [D1 D2]; apply negb_true_iff in D2;
        intros [Q|Q]; congruence.
    + injection H as <-. split; [exact (Up Dn)|]. split; [|reflexivity]. intros [D1 D2]. rewrite D1, D2 in DP. discriminate.
  - assert (Dn : d n = None) by (unfold exists_, islink in X; destruct (d n) as [[c| |[]]|]; try discriminate; reflexivity).
    assert (K1 : d1 n = d n).
    { pose proof (build_dirs_keep (rev (missing_dirs d (tl n))) d n) as Q. unfold create in H. rewrite H in Q. apply Q. intros HI. apply in_rev in HI.
      destruct (missing_dirs_in d (tl n) n HI) as [E|E]; [congruence|]. apply above_len in E. destruct n as [|a p]; [congruence|]. cbn in E. lia. }
    split; [|split; [intros _; congruence | intros _; exact K1]].
    apply (create_there (tl n) d d1); [exact (tree_root d T)| |exact H].
    intros q Hq. apply (ND n q (or_introl eq_refl) K). apply above_tl; assumption.
Qed.
Lemma keep_prepared d0 d d' n l : Apart (n :: l) -> n <> [] -> kind_of n = KFile -> uptodate n = false -> Frame l d d' -> Prepared d0 d n -> Prepared d0 d' n.
Proof.
  intros A Hn K U F [P1 [P2 P3]].
  assert (An : forall t, In t l -> ~ Above n t) by (intros t Ht; apply A; [left; reflexivity | exact K | right; exact Ht]).
  split; [|split].
  - destruct P1 as [e [E1 E2]]. destruct (F (tl n)) as [E|[[HI [[Kt _] _]]|[E [E' _]]]].
    + exists e. split; [congruence | exact E2].
    + exfalso. apply (A (tl n) n); [right; exact HI | exact Kt | left; reflexivity|]. apply above_tl; [exact Hn | left; reflexivity].
    + congruence.
  - intros Q. specialize (P2 Q). destruct (F n) as [E|[[_ [_ [_ [E|[_ [t [Ht Ab]]]]]]]|[_ [_ [t [Ht Ab]]]]]]; [congruence | exact E | |]; exfalso; exact (An t Ht Ab).
  - intros Q. specialize (P3 Q). destruct (F n) as [E|[[_ [[_ [_ [R1 R2]]] _]]|[_ [_ [t [Ht Ab]]]]]]; [congruence | destruct Q; congruence | exfalso; exact (An t Ht Ab)].
Qed.
Lemma all_prepared l : forall d d', Sane d l -> NoDangling d l -> prepare_all false d l = (d', None) ->
  forall n, In n l -> kind_of n = KFile -> uptodate n = false -> Prepared d d' n.
Proof.
  induction l as [|m l IH]; intros d d' S0 ND H n Hn K U; [contradiction|].
  cbn [PrepModel.prepare_all] in H. destruct (prepare_node false d m) as [d1 [e|]] eqn:P; [discriminate|].
  pose proof (prepare_node_frame kind_of derived linked precious in_repository depends implicit uptodate false m d) as F1. rewrite P in F1. cbn [fst] in F1.
  pose proof (prepare_all_frame kind_of derived linked precious in_repository depends implicit uptodate false l d1) as F2. rewrite H in F2. cbn [fst] in F2.
  destruct Hn as [<-|Hn].
  - destruct S0 as [T [R [A L]]]. assert (Hm : m <> []) by (apply R; [left; reflexivity | exact K]).
    apply (keep_prepared d d1 d' m l A Hm K U F2). apply (step_prepared d m l d1); [repeat split; try assumption; apply T | exact ND | exact K | exact U | exact P].
  - pose proof (sane_next d m l S0) as S1. rewrite P in S1. cbn [fst] in S1.
    assert (ND1 : NoDangling d1 l) by (apply (dangling_frame l d d1 [m] F1); intros t p Ht; apply ND; right; exact Ht).
    destruct (IH d1 d' S1 ND1 H n Hn K U) as [P1 [P2 P3]]. split; [exact P1|]. split; [exact P2|].
    intros Q. rewrite (P3 Q). destruct S0 as [T [R [A L]]].
    destruct (F1 n) as [E|[[_ [[_ [_ [R1 R2]]] _]]|[_ [_ [t [Ht Ab]]]]]]; [exact E | destruct Q; congruence|].
    exfalso. destruct Ht as [<-|[]]. exact (A n m (or_intror Hn) K (or_introl eq_refl) Ab).
Qed.

(* C75c: when a task has been prepared, the directories are there, old targets are gone, precious ones and others untouched *)
Theorem C75c_prepared : forall d sources targets d', Sane d (nodes targets) -> NoDangling d (nodes targets) ->
  prepare false d sources targets = (d', None) ->
  forall n, In n (nodes targets) -> kind_of n = KFile -> uptodate n = false -> Prepared d d' n.
Proof.
  intros d sources targets d' S0 ND H. unfold PrepModel.prepare in H. destruct (find (PrepModel.missing derived linked in_repository d) sources); [discriminate|].
  exact (all_prepared (nodes targets) d d' S0 ND H).
Qed.

(* C75e: it succeeds if nothing is missing and nothing is in the way *)
Definition Clear (d : fsys) (l : list (list nat)) : Prop :=
  (forall n, In n l -> Replace n -> d n <> Some EDir)
  /\ (forall n q, In n l -> kind_of n = KFile -> Above q n -> d q = None \/ d q = Some EDir \/ d q = Some (ELink ToDir)).
Lemma all_ok l : forall d, Sane d l -> Clear d l -> (forall n x, In n l -> kind_of n <> KDir -> In x (depends n ++ implicit n) -> ~ Missing d x) ->
  exists d', prepare_all false d l = (d', None).
Proof.
  induction l as [|n l IH]; intros d S0 C M; [exists d; reflexivity|]. cbn [PrepModel.prepare_all].
  assert (Q : exists d1, prepare_node false d n = (d1, None)).
  { unfold PrepModel.prepare_node. destruct (kind_of n) eqn:K.
    - assert (Ck : check d n = None).
      { apply (check_none derived linked in_repository depends implicit d n). intros x Hx. apply (M n x (or_introl eq_refl)); [congruence | exact Hx]. }
      rewrite Ck. destruct (uptodate n) eqn:U; [eexists; reflexivity|]. destruct (exists_ d n || islink d n).
      + destruct (derived n && negb (precious n)) eqn:DP; [|eexists; reflexivity].
        apply andb_true_iff in DP. destruct DP as [D1 D2]. apply negb_true_iff in D2.
        assert (Hd : d n <> Some EDir) by (apply (proj1 C n (or_introl eq_refl)); repeat split; assumption).
        unfold unlink. destruct (d n) as [[c| |t]|]; try congruence; eexists; reflexivity.
      + destruct S0 as [T [R _]]. destruct (create_ok (tl n) d (tree_root d T)) as [d1 [E _]].
        * intros q Hq. apply (proj2 C n q (or_introl eq_refl) K). apply above_tl; [apply R; [left; reflexivity | exact K] | exact Hq].
        * exists d1. exact E.
    - eexists; reflexivity.
    - assert (Ck : check d n = None).
      { apply (check_none derived linked in_repository depends implicit d n). intros x Hx. apply (M n x (or_introl eq_refl)); [congruence | exact Hx]. }
      rewrite Ck. eexists; reflexivity. }
  destruct Q as [d1 P]. rewrite P.
  pose proof (prepare_node_frame kind_of derived linked precious in_repository depends implicit uptodate false n d) as F1. rewrite P in F1. cbn [fst] in F1.
  pose proof (sane_next d n l S0) as S1. rewrite P in S1. cbn [fst] in S1. destruct S0 as [T [R [A L]]].
  apply IH; [exact S1| |].
  - split.
    + intros m Hm Rm. destruct (F1 m) as [E|[[_ [_ [_ [E|[_ [t [Ht Ab]]]]]]]|[_ [_ [t [Ht Ab]]]]]].
      * rewrite E. apply (proj1 C m (or_intror Hm) Rm).
      * congruence.
      * exfalso. destruct Ht as [<-|[]]. exact (A m n (or_intror Hm) (proj1 Rm) (or_introl eq_refl) Ab).
      * exfalso. destruct Ht as [<-|[]]. exact (A m n (or_intror Hm) (proj1 Rm) (or_introl eq_refl) Ab).
    + intros m q Hm K Ab. destruct (F1 q) as [E|[[Hq [[Kq _] _]]|[_ [E _]]]].
      * rewrite E. exact (proj2 C m q (or_intror Hm) K Ab).
      * exfalso. destruct Hq as [<-|[]]. exact (A n m (or_introl eq_refl) Kq (or_intror Hm) Ab).
      * right. left. exact E.
  - intros m x Hm K Hx Mx. apply (M m x (or_intror Hm) K Hx). 
    exact (missing_frame kind_of derived linked precious in_repository uptodate [n] d d1 x F1 Mx).
Qed.
Theorem C75e_succeeds : forall d sources targets, Sane d (nodes targets) -> Clear d (nodes targets) ->
  (forall s, In s sources -> ~ Missing d s) ->
  (forall n x, In n (nodes targets) -> kind_of n <> KDir -> In x (depends n ++ implicit n) -> ~ Missing d x) ->
  exists d', prepare false d sources targets = (d', None).
Proof.
  intros d sources targets S0 C Ms M. unfold PrepModel.prepare. destruct (find (PrepModel.missing derived linked in_repository d) sources) as [s|] eqn:F.
  - exfalso. apply find_some in F. destruct F as [I1 M1]. apply (Ms s I1). apply missing_iff. exact M1.
  - exact (all_ok (nodes targets) d S0 C M).
Qed.
End Prepare.
Print Assumptions C75c_prepared.
Print Assumptions C75e_succeeds.
