(* C63: one directory *)
From Coq Require Import Ascii String List Bool Arith Lia Permutation Sorted.
Import ListNotations. Open Scope list_scope.
From Verif Require Import NameModel OptModel OptProps TgtModel TgtSpec TgtProps2 GlobModel GlobSpec GlobProps.

Lemma path_eqb_eq : forall a b, path_eqb a b = true <-> a = b.
Proof. intros a b. unfold path_eqb. destruct (dec_path a b); split; congruence. Qed.
Lemma snoc_ne : forall (d : path) n, d ++ [n] <> [].
Proof. intros d n X. apply app_eq_nil in X. destruct X. discriminate. Qed.
(* ---- the table of nodes ---- *)
Lemma cls_in : forall st p c, NoDup (map fst st) -> p <> [] -> (cls_of st p = Some c <-> In (p, c) st).
Proof.
  intros st p c N P. unfold cls_of. destruct p as [|x p]; [congruence|]. set (q := x :: p) in *. clearbody q. clear x p P. induction st as [|[r k] st IH]; [split; [discriminate | intros []]|].
  cbn [find fst map] in *. inversion N as [|r' l N1 N2]; subst. destruct (path_eqb r q) eqn:E.
  - apply path_eqb_eq in E. subst r. cbn [snd]. split; [intros X; injection X as ->; left; reflexivity|]. intros [X|X]; [congruence|]. exfalso. apply N1. apply (in_map fst) in X. exact X.
  - rewrite IH by exact N2. split; [intros X; right; exact X|]. intros [X|X]; [injection X as -> ->; rewrite (proj2 (path_eqb_eq q q) eq_refl) in E; discriminate | exact X].
Qed.
Lemma known_in : forall st p, NoDup (map fst st) -> p <> [] -> (known st p = true <-> exists c, In (p, c) st).
Proof.
  intros st p N P. unfold known. destruct (cls_of st p) as [c|] eqn:E.
  - split; [intros _; exists c; apply cls_in; assumption | reflexivity].
  - split; [discriminate|]. intros (c & H). apply cls_in in H; [congruence | assumption | assumption].
Qed.
Lemma one_cls : forall (st : nodes) p c c', NoDup (map fst st) -> In (p, c) st -> In (p, c') st -> c = c'.
Proof.
  intros st p c c' N H1 H2. induction st as [|[r k] st IH]; [destruct H1|]. cbn [map fst] in N. inversion N as [|r' l N1 N2]; subst.
  destruct H1 as [H1|H1], H2 as [H2|H2]; [congruence | | | auto]; exfalso; apply N1.
  - injection H1 as -> ->. apply (in_map fst) in H2. exact H2.
  - injection H2 as -> ->. apply (in_map fst) in H1. exact H1.
Qed.
Lemma set_cls_fst : forall st p c, map fst (set_cls st p c) = map fst st.
Proof. intros st p c. unfold set_cls. rewrite map_map. apply map_ext_in. intros [q k] _. cbn [fst]. destruct (path_eqb q p) eqn:E; [apply path_eqb_eq in E; subst; reflexivity | reflexivity]. Qed.
Lemma set_cls_in : forall st p c q k, In (q, k) (set_cls st p c) <-> (q <> p /\ In (q, k) st) \/ (q = p /\ k = c /\ exists k', In (p, k') st).
Proof.
  intros st p c q k. unfold set_cls. rewrite in_map_iff. split.
  - intros ([r j] & E & H). cbn [fst] in E. destruct (path_eqb r p) eqn:X.
    + apply path_eqb_eq in X. subst r. injection E as -> ->. right. eauto.
    + injection E as -> ->. left. split; [|exact H]. intros ->. rewrite (proj2 (path_eqb_eq p p) eq_refl) in X. discriminate.
  - intros [(N & H)|(-> & -> & k' & H)].
    + exists (q, k). cbn [fst]. destruct (path_eqb q p) eqn:X; [apply path_eqb_eq in X; contradiction | auto].
    + exists (p, k'). cbn [fst]. rewrite (proj2 (path_eqb_eq p p) eq_refl). auto.
Qed.
Lemma child_in : forall d p n, In n (child d p) <-> p = d ++ [n].
Proof.
  intros d p n. unfold child. destruct p as [|x p _] using rev_ind; [cbn; split; [intros [] | intros X; symmetry in X; apply app_eq_nil in X; destruct X; discriminate]|].
  rewrite rev_app_distr. cbn [rev app]. rewrite rev_involutive. destruct (path_eqb p d) eqn:E.
  - apply path_eqb_eq in E. subst p. split; [intros [-> | []]; reflexivity | intros X; apply app_inj_tail in X; destruct X as (_ & ->); left; reflexivity].
  - split; [intros []|]. intros X. apply app_inj_tail in X. destruct X as (-> & _). rewrite (proj2 (path_eqb_eq d d) eq_refl) in E. discriminate.
Qed.
Lemma entries_in : forall st d n, In n (entries st d) <-> exists c, In (d ++ [n], c) st.
Proof.
  intros st d n. unfold entries. rewrite in_flat_map. split.
  - intros ([p c] & H & K). cbn [fst] in K. apply child_in in K. subst p. eauto.
  - intros (c & H). exists (d ++ [n], c). split; [exact H | apply child_in; reflexivity].
Qed.
Lemma entry_in : forall st d n p c, NoDup (map fst st) -> (In (p, c) (entry st d n) <-> In (p, c) st \/ (p = d ++ [n] /\ c = CEntry /\ forall k, ~ In (p, k) st)).
Proof.
  intros st d n p c N. unfold entry. destruct (known st (d ++ [n])) eqn:K.
  - apply known_in in K; [|exact N | apply snoc_ne]. destruct K as (k & K). split; [auto|]. intros [H|(-> & _ & H)]; [exact H | exfalso; apply (H k); exact K].
  - assert (K2 : forall k, ~ In (d ++ [n], k) st) by (intros k X; assert (Y : known st (d ++ [n]) = true) by (apply known_in; [exact N | apply snoc_ne | eauto]); congruence).
    rewrite in_app_iff. cbn [In]. split; [intros [H|[H|[]]]; [auto | injection H as <- <-; right; auto] | intros [H|(-> & -> & _)]; auto].
Qed.
Lemma entry_nodup : forall st d n, NoDup (map fst st) -> NoDup (map fst (entry st d n)).
Proof.
  intros st d n N. unfold entry. destruct (known st (d ++ [n])) eqn:K; [exact N|]. rewrite map_app. cbn [map fst]. apply (Permutation_NoDup (l := (d ++ [n]) :: map fst st)); [apply Permutation_cons_append|].
  constructor; [|exact N]. intros X. apply in_map_iff in X. destruct X as ([p c] & E & H). cbn in E. subst p. assert (Y : known st (d ++ [n]) = true) by (apply known_in; [exact N | apply snoc_ne | eauto]). congruence.
Qed.
Lemma lookup_name : forall top d n, name_ok n -> lookup_path top d n = d ++ [n].
Proof.
  intros top d n (N1 & N2 & N3 & N4 & N5). unfold lookup_path. destruct n as [|c r]; [congruence|]. destruct (Ascii.eqb c "#") eqn:E1; [apply Ascii.eqb_eq in E1; subst c; exfalso; apply (N5 r); reflexivity|].
  destruct (Ascii.eqb c "/") eqn:E2; [apply Ascii.eqb_eq in E2; subst c; exfalso; apply N2; left; reflexivity|].
  assert (S1 : split_slash (c :: r) = [c :: r]).
  { clear - N2. generalize dependent (c :: r). intros w H. induction w as [|x w IH]; [reflexivity|]. cbn [split_slash]. destruct (Ascii.eqb x "/") eqn:E; [apply Ascii.eqb_eq in E; subst x; exfalso; apply H; left; reflexivity|].
    rewrite IH; [reflexivity|]. intros X. apply H. right. exact X. }
  rewrite S1. unfold walk. cbn [fold_left]. unfold walk1. rewrite (str_eqb_neq (c :: r) (lit ".."%string) N4), (str_eqb_neq (c :: r) [] N1), (str_eqb_neq (c :: r) (lit "."%string) N3). reflexivity.
Qed.

Section One.
Variable isfile isdir src_isdir : path -> bool.
Variable listing : path -> option (list word).
Variable search : path -> list path.
Variable top : path.
Variable show : path -> word.
Variable set_order : list word -> list word.
Variable ondisk : bool.
Variable st0 : nodes.
Notation look := (look isfile isdir src_isdir).
Notation is_dir := (is_dir isfile isdir src_isdir st0).
Notation there := (there listing search ondisk st0).
Notation is_known := (is_known st0).
Hypothesis SE : searching search.
Hypothesis DN : disk_names listing.
Hypothesis AG : agree isfile isdir src_isdir listing search st0.
Hypothesis SO : some_order set_order.

Record Inv (st : nodes) : Prop := {
  i_nodup : NoDup (map fst st);
  i_names : forall p c, In (p, c) st -> exists d n, p = d ++ [n] /\ name_ok n;
  i_kept : forall p c, In (p, c) st0 -> exists c', In (p, c') st;
  i_new : forall d n c, In (d ++ [n], c) st -> is_known (d ++ [n]) \/ there d n;
  i_dir : forall p, In (p, CDir) st -> is_dir p;
  i_file : forall p, p <> [] -> In (p, CFile) st -> ~ is_dir p;
  i_entry : forall p, p <> [] -> In (p, CEntry) st -> (is_dir p <-> look p = CDir) }.
Definition grew (st st' : nodes) : Prop := forall p c, In (p, c) st -> exists c', In (p, c') st' /\ (c <> CEntry -> c' = c).
Lemma grew_refl : forall st, grew st st.
Proof. intros st p c H. exists c. auto. Qed.
Lemma grew_trans : forall a b c, grew a b -> grew b c -> grew a c.
Proof. intros a b c H1 H2 p k H. destruct (H1 p k H) as (k1 & K1 & E1). destruct (H2 p k1 K1) as (k2 & K2 & E2). exists k2. split; [exact K2|]. intros N. rewrite E2; [auto|]. rewrite E1; auto. Qed.
Lemma look_dir : forall p, look p = CDir <-> isfile p = false /\ (isdir p = true \/ src_isdir p = true).
Proof. intros p. unfold look, GlobModel.look. destruct (isfile p), (isdir p), (src_isdir p); intuition; discriminate. Qed.
Lemma look_unknown : forall p, p <> [] -> (forall c, ~ In (p, c) st0) -> (is_dir p <-> look p = CDir).
Proof.
  intros p P N. rewrite look_dir. unfold is_dir, GlobSpec.is_dir. split.
  - intros [H|[H|(_ & _ & H)]]; [contradiction | exfalso; apply (N CDir); exact H | exact H].
  - intros H. right. right. split; [apply N | split; [apply N | exact H]].
Qed.
Lemma look_entry : forall p, p <> [] -> NoDup (map fst st0) -> In (p, CEntry) st0 -> (is_dir p <-> look p = CDir).
Proof.
  intros p P N H. rewrite look_dir. unfold is_dir, GlobSpec.is_dir. split.
  - intros [K|[K|(_ & _ & K)]]; [contradiction | assert (X := one_cls _ _ _ _ N H K); discriminate | exact K].
  - intros K. right. right. split; [intros X; assert (Y := one_cls _ _ _ _ N H X); discriminate|]. split; [intros X; assert (Y := one_cls _ _ _ _ N H X); discriminate | exact K].
Qed.
Lemma Inv_start : tree st0 -> Inv st0.
Proof.
  intros (T1 & T2). constructor; [exact T1 | exact T2 | intros p c H; exists c; exact H | intros d n c H; left; exists c; exact H | | |].
  - intros p H. right. left. exact H.
  - intros p P H [K|[K|(K & _)]]; [contradiction | assert (X := one_cls _ _ _ _ T1 H K); discriminate | contradiction].
  - intros p P H. apply look_entry; assumption.
Qed.
(* entry *)
Lemma Inv_entry : forall st d n, Inv st -> name_ok n -> there d n -> Inv (entry st d n) /\ grew st (entry st d n) /\ exists c, In (d ++ [n], c) (entry st d n).
Proof.
  intros st d n IN N T. assert (ND := i_nodup _ IN). split; [|split].
  - constructor.
    + apply entry_nodup. exact ND.
    + intros p c H. apply entry_in in H; [|exact ND]. destruct H as [H|(-> & _)]; [eapply i_names; eassumption | eauto].
    + intros p c H. destruct (i_kept _ IN p c H) as (c' & K). exists c'. apply entry_in; auto.
    + intros d' n' c H. apply entry_in in H; [|exact ND]. destruct H as [H|(E & _)]; [eapply i_new; eassumption|]. apply app_inj_tail in E. destruct E as (-> & ->). right. exact T.
    + intros p H. apply entry_in in H; [|exact ND]. destruct H as [H|(_ & X & _)]; [eapply i_dir; eassumption | discriminate].
    + intros p P H. apply entry_in in H; [|exact ND]. destruct H as [H|(_ & X & _)]; [eapply i_file; eassumption | discriminate].
    + intros p P H. apply entry_in in H; [|exact ND]. destruct H as [H|(-> & _ & X)]; [eapply i_entry; eassumption|]. apply look_unknown; [exact P|]. intros c Hc. destruct (i_kept _ IN _ _ Hc) as (c' & K). apply (X c'). exact K.
  - intros p c H. exists c. split; [apply entry_in; auto | auto].
  - destruct (known st (d ++ [n])) eqn:K.
    + apply known_in in K; [|exact ND | apply snoc_ne]. destruct K as (c & K). exists c. apply entry_in; auto.
    + exists CEntry. apply entry_in; [exact ND|]. right. split; [reflexivity|]. split; [reflexivity|]. intros k X. assert (Y : known st (d ++ [n]) = true) by (apply known_in; [exact ND | apply snoc_ne | eauto]). congruence.
Qed.
(* a class that agrees *)
Lemma Inv_set : forall st p c, Inv st -> In (p, CEntry) st -> p <> [] -> c <> CEntry -> (is_dir p <-> c = CDir) -> Inv (set_cls st p c) /\ grew st (set_cls st p c).
Proof.
  intros st p c IN H P C D. assert (ND := i_nodup _ IN). split.
  - constructor.
    + rewrite set_cls_fst. exact ND.
    + intros q k K. apply set_cls_in in K. destruct K as [(_ & K)|(-> & _ & k' & K)]; eapply i_names; eassumption.
    + intros q k K. destruct (i_kept _ IN q k K) as (k' & K'). destruct (dec_path q p) as [->|N]; [exists c; apply set_cls_in; right; eauto | exists k'; apply set_cls_in; left; auto].
    + intros d n k K. apply set_cls_in in K. destruct K as [(_ & K)|(E & _ & k' & K)]; [eapply i_new; eassumption | rewrite <- E in K; eapply i_new; eassumption].
    + intros q K. apply set_cls_in in K. destruct K as [(_ & K)|(-> & E & _)]; [eapply i_dir; eassumption | apply D; auto].
    + intros q Q K. apply set_cls_in in K. destruct K as [(_ & K)|(-> & E & _)]; [eapply i_file; eassumption | rewrite D, <- E; discriminate].
    + intros q Q K. apply set_cls_in in K. destruct K as [(_ & K)|(-> & E & _)]; [eapply i_entry; eassumption | congruence].
  - intros q k K. destruct (dec_path q p) as [->|N]; [|exists k; split; [apply set_cls_in; left; auto | auto]]. exists c. split; [apply set_cls_in; right; eauto|].
    intros X. exfalso. apply X. eapply one_cls; eassumption.
Qed.
Lemma look_cls : forall p, look p <> CEntry.
Proof. intros p. unfold look, GlobModel.look. destruct (isfile p), (isdir p), (src_isdir p); discriminate. Qed.
Lemma Inv_disambiguate : forall st p, Inv st -> p <> [] -> let st' := disambiguate isfile isdir src_isdir st p in Inv st' /\ grew st st' /\ (forall c, In (p, c) st -> exists c', In (p, c') st' /\ c' <> CEntry /\ (is_dir p <-> c' = CDir)).
Proof.
  intros st p IN P st'. assert (ND := i_nodup _ IN). unfold st', disambiguate. destruct (cls_of st p) as [k|] eqn:E.
  - apply cls_in in E; [|exact ND | exact P]. destruct k.
    + destruct (Inv_set st p (look p) IN E P (look_cls p) (i_entry _ IN p P E)) as (H1 & H2). split; [exact H1|]. split; [exact H2|]. intros c _. exists (look p). split; [apply set_cls_in; right; eauto|]. split; [apply look_cls | apply (i_entry _ IN); assumption].
    + split; [exact IN|]. split; [apply grew_refl|]. intros c _. exists CFile. split; [exact E|]. split; [discriminate|]. split; [intros X; exfalso; eapply i_file; eassumption | discriminate].
    + split; [exact IN|]. split; [apply grew_refl|]. intros c _. exists CDir. split; [exact E|]. split; [discriminate|]. split; [reflexivity | intros _; eapply i_dir; eassumption].
  - split; [exact IN|]. split; [apply grew_refl|]. intros c H. apply cls_in in H; [congruence | exact ND | exact P].
Qed.
Lemma there_disk : forall d s l n, ondisk = true -> In s (search d) -> listing s = Some l -> In n l -> there d n /\ there s n.
Proof. intros d s l n O H1 H2 H3. split; [exists s; split; [exact H1|]; right; split; [exact O | eauto] | exists s; split; [apply SE|]; right; split; [exact O | eauto]]. Qed.
Lemma Inv_disk : forall st d s l n, Inv st -> ondisk = true -> In s (search d) -> listing s = Some l -> In n l ->
  let st' := disk_entry isfile isdir src_isdir d s st n in Inv st' /\ grew st st' /\ exists c, In (d ++ [n], c) st'.
Proof.
  intros st d s l n IN O H1 H2 H3 st'. destruct (there_disk d s l n O H1 H2 H3) as (T1 & T2). assert (N := DN s l n H2 H3).
  destruct (Inv_entry st s n IN N T2) as (A1 & A2 & c0 & A3). destruct (Inv_disambiguate (entry st s n) (s ++ [n]) A1 (snoc_ne s n)) as (B1 & B2 & B3). destruct (B3 c0 A3) as (c1 & B4 & B5 & B6). clear B3.
  unfold st', disk_entry. set (s1 := disambiguate isfile isdir src_isdir (entry st s n) (s ++ [n])) in *. destruct (Inv_entry s1 d n B1 N T1) as (C1 & C2 & c2 & C3). destruct (C2 _ _ B4) as (c3 & C4 & C5). rewrite (C5 B5) in C4. clear c3 C5.
  assert (ND := i_nodup _ C1). rewrite (proj2 (cls_in _ _ c1 ND (snoc_ne s n)) C4), (proj2 (cls_in _ _ c2 ND (snoc_ne d n)) C3).
  assert (G : grew st (entry s1 d n)) by (eapply grew_trans; [exact A2 | eapply grew_trans; [exact B2 | exact C2]]).
  assert (AGD := AG d s l n H1 H2 H3). assert (X : is_dir (d ++ [n]) <-> c1 = CDir) by (rewrite AGD; exact B6).
  assert (SET : c2 = CEntry -> Inv (set_cls (entry s1 d n) (d ++ [n]) c1) /\ grew st (set_cls (entry s1 d n) (d ++ [n]) c1) /\ exists c, In (d ++ [n], c) (set_cls (entry s1 d n) (d ++ [n]) c1)).
  { intros ->. destruct (Inv_set _ _ c1 C1 C3 (snoc_ne d n) B5 X) as (D1 & D2). split; [exact D1|]. split; [eapply grew_trans; eassumption|]. exists c1. apply set_cls_in. right. eauto. }
  destruct c1; [congruence | |]; destruct c2; try (apply SET; reflexivity); try (split; [exact C1 | split; [exact G | eauto]]).
  - exfalso. assert (Y := i_dir _ C1 _ C3). apply X in Y. discriminate.
  - exfalso. apply (i_file _ C1 _ (snoc_ne d n) C3). apply X. reflexivity.
Qed.
Lemma Inv_disks : forall l d s ns st, Inv st -> ondisk = true -> In s (search d) -> listing s = Some l -> incl ns l ->
  let st' := fold_left (disk_entry isfile isdir src_isdir d s) ns st in Inv st' /\ grew st st' /\ forall n, In n ns -> exists c, In (d ++ [n], c) st'.
Proof.
  intros l d s ns. induction ns as [|n ns IH]; intros st IN O H1 H2 H3 st'; [split; [exact IN | split; [apply grew_refl | intros n []]]|].
  destruct (Inv_disk st d s l n IN O H1 H2 (H3 n (or_introl eq_refl))) as (A1 & A2 & c & A3). destruct (IH (disk_entry isfile isdir src_isdir d s st n) A1 O H1 H2 (fun x Hx => H3 x (or_intror Hx))) as (B1 & B2 & B3).
  split; [exact B1|]. split; [eapply grew_trans; eassumption|]. intros m [<-|Hm]; [destruct (B2 _ _ A3) as (c' & K & _); exists c'; exact K | apply B3; exact Hm].
Qed.
Lemma opened_cls : forall st d, Inv st -> opened st d -> cls_of st d = Some CDir.
Proof. intros st d IN [-> | H]; [reflexivity|]. apply cls_in; [apply (i_nodup _ IN) | | exact H]. destruct (i_names _ IN _ _ H) as (x & y & -> & _). apply snoc_ne. Qed.
Lemma opened_grew : forall st st' d, grew st st' -> opened st d -> opened st' d.
Proof. intros st st' d G [-> | H]; [left; reflexivity|]. right. destruct (G _ _ H) as (c & K & E). rewrite <- E; [exact K | discriminate]. Qed.
Lemma make_entry : forall st d n, Inv st -> opened st d -> make isfile isdir st (rev (d ++ [n])) CEntry = Some (entry st d n).
Proof.
  intros st d n IN O. rewrite rev_app_distr. cbn [rev app make]. rewrite rev_involutive. unfold entry, known. destruct (cls_of st (d ++ [n])) as [k|] eqn:E; [reflexivity|].
  assert (M : make isfile isdir st (rev d) CDir = Some st) by (destruct (rev d) eqn:R; cbn [make]; rewrite <- R, rev_involutive, (opened_cls st d IN O); reflexivity). rewrite M. reflexivity.
Qed.
Lemma Inv_selfs : forall d ns st, Inv st -> opened st d -> (forall n, In n ns -> name_ok n /\ there d n) ->
  exists st', self_entries isfile isdir top st d ns = Some st' /\ Inv st' /\ grew st st' /\ forall n, In n ns -> exists c, In (d ++ [n], c) st'.
Proof.
  intros d ns. induction ns as [|n ns IH]; intros st IN O H; [exists st; split; [reflexivity|]; split; [exact IN|]; split; [apply grew_refl | intros n []]|].
  destruct (H n (or_introl eq_refl)) as (N & T). cbn [self_entries]. rewrite (lookup_name top d n N), (make_entry st d n IN O). destruct (Inv_entry st d n IN N T) as (A1 & A2 & c & A3).
  destruct (IH (entry st d n) A1 (opened_grew _ _ _ A2 O) (fun m Hm => H m (or_intror Hm))) as (st' & B1 & B2 & B3 & B4). exists st'. split; [exact B1|]. split; [exact B2|]. split; [eapply grew_trans; eassumption|].
  intros m [<-|Hm]; [destruct (B3 _ _ A3) as (c' & K & _); exists c'; exact K | apply B4; exact Hm].
Qed.
Lemma there_sub : forall d s n, In s (search d) -> there s n -> there d n.
Proof. intros d s n H (t & T & K). exists t. split; [eapply SE; eassumption | exact K]. Qed.
Lemma visible_in : forall p l n, In n (visible p l) <-> In n l /\ shown p n.
Proof.
  intros p l n. unfold visible, shown. rewrite filter_In, C63e_fnmatch. assert (D : forall w, dot_first w = true <-> exists r, w = dot :: r).
  { intros [|c w]; cbn; [split; [discriminate | intros (r & X); discriminate]|]. rewrite ch_eq. split; [intros ->; exists w; reflexivity | intros (r & X); injection X as -> _; reflexivity]. }
  destruct (dot_first p) eqn:E.
  - apply D in E. intuition.
  - rewrite filter_In, negb_true_iff. split.
    + intros ((H1 & H2) & H3). split; [exact H1|]. split; [exact H3|]. intros X. apply D in X. congruence.
    + intros (H1 & H3 & H2). split; [|exact H3]. split; [exact H1|]. destruct (dot_first n) eqn:F; [|reflexivity]. apply D in F. apply H2, D in F. congruence.
Qed.
Lemma collect_ok : forall d pat strings dirs names st, Inv st -> opened st d -> incl dirs (search d) ->
  exists names' st', collect isfile isdir src_isdir listing top st d pat ondisk strings dirs names = Some (names', st') /\ Inv st' /\ grew st st' /\
    (forall n, In n names' -> In n names \/ there d n) /\ (forall n, In n names -> In n names') /\
    (forall s n, In s dirs -> is_known (s ++ [n]) \/ (ondisk = true /\ exists l, listing s = Some l /\ In n l) -> In n names') /\
    (strings = false -> forall n, In n names' -> shown pat n -> In n names \/ exists c, In (d ++ [n], c) st').
Proof.
  intros d pat strings dirs. induction dirs as [|s dirs IH]; intros names st IN O H.
  - exists names, st. cbn [collect]. split; [reflexivity|]. split; [exact IN|]. split; [apply grew_refl|]. split; [auto|]. split; [auto|]. split; [intros s n [] | auto].
  - cbn [collect]. assert (Hs : In s (search d)) by (apply H; left; reflexivity).
    assert (E1 : forall n, In n (entries st s) -> name_ok n /\ there d n).
    { intros n Hn. apply entries_in in Hn. destruct Hn as (c & Hn). split.
      - destruct (i_names _ IN _ _ Hn) as (x & y & E & N). apply app_inj_tail in E. destruct E as (_ & ->). exact N.
      - destruct (i_new _ IN _ _ _ Hn) as [K|K]; [exists s; auto | eapply there_sub; eassumption]. }
    assert (E2 : exists st1, (if strings then Some st else self_entries isfile isdir top st d (entries st s)) = Some st1 /\ Inv st1 /\ grew st st1 /\ (strings = false -> forall n, In n (entries st s) -> exists c, In (d ++ [n], c) st1)).
    { destruct strings; [exists st; split; [reflexivity|]; split; [exact IN|]; split; [apply grew_refl | discriminate]|]. destruct (Inv_selfs d (entries st s) st IN O E1) as (st1 & A1 & A2 & A3 & A4). exists st1. auto. }
    destruct E2 as (st1 & A1 & A2 & A3 & A4). rewrite A1.
    assert (O1 := opened_grew _ _ _ A3 O). assert (H' : incl dirs (search d)) by (intros x Hx; apply H; right; exact Hx).
    assert (KN : forall n, is_known (s ++ [n]) -> In n (entries st s)) by (intros n (c & K); apply entries_in; apply (i_kept _ IN _ _ K)).
    destruct (match ondisk, listing s with true, Some l => inl l | _, _ => inr (forall n, ~ (ondisk = true /\ exists l, listing s = Some l /\ In n l)) end) as [l|P] eqn:CASE.
    + assert (OD : ondisk = true /\ listing s = Some l) by (clear - CASE; destruct ondisk; [|discriminate]; destruct (listing s); [injection CASE as ->; auto | discriminate]). destruct OD as (OD & L). clear CASE.
      assert (E4 : forall X (f : list word -> X) (g : X), (if ondisk then match listing s with None => g | Some l => f l end else g) = f l) by (intros X f g; rewrite OD, L; reflexivity). rewrite E4. clear E4.
      set (st2 := if strings then st1 else fold_left (disk_entry isfile isdir src_isdir d s) (visible pat l) st1).
      assert (E3 : Inv st2 /\ grew st1 st2 /\ (strings = false -> forall n, In n (visible pat l) -> exists c, In (d ++ [n], c) st2)).
      { unfold st2. destruct strings; [split; [exact A2|]; split; [apply grew_refl | discriminate]|]. destruct (Inv_disks l d s (visible pat l) st1 A2 OD Hs L) as (B1 & B2 & B3); [intros x Hx; apply visible_in in Hx; apply Hx|]. auto. }
      destruct E3 as (B1 & B2 & B3). destruct (IH (names ++ entries st s ++ l) st2 B1 (opened_grew _ _ _ B2 O1) H') as (names' & st' & C1 & C2 & C3 & C4 & C5 & C6 & C7).
      exists names', st'. split; [exact C1|]. split; [exact C2|]. split; [eapply grew_trans; [exact A3 | eapply grew_trans; eassumption]|]. split; [|split; [|split]].
      * intros n Hn. apply C4 in Hn. destruct Hn as [Hn|Hn]; [|auto]. apply in_app_or in Hn. destruct Hn as [Hn|Hn]; [auto|]. right. apply in_app_or in Hn. destruct Hn as [Hn|Hn]; [apply E1; exact Hn | apply (proj1 (there_disk d s l n OD Hs L Hn))].
      * intros n Hn. apply C5. apply in_or_app. left. exact Hn.
      * intros t n [<-|Ht] K; [|eapply C6; eassumption]. apply C5. apply in_or_app. right. apply in_or_app. destruct K as [K|(_ & l' & L' & K)]; [left; apply KN; exact K | right; rewrite L in L'; injection L' as <-; exact K].
      * intros F n Hn Hp. destruct (C7 F n Hn Hp) as [K|K]; [|auto]. apply in_app_or in K. destruct K as [K|K]; [auto|]. right. apply in_app_or in K. destruct K as [K|K].
        -- destruct (A4 F n K) as (c & X). destruct (B2 _ _ X) as (c' & X' & _). destruct (C3 _ _ X') as (c2 & X2 & _). exists c2. exact X2.
        -- destruct (B3 F n) as (c & X); [apply visible_in; auto|]. destruct (C3 _ _ X) as (c2 & X2 & _). exists c2. exact X2.
    + assert (P' : forall n, ~ (ondisk = true /\ exists l, listing s = Some l /\ In n l)).
      { clear - CASE. intros n (OD & l & L & _). rewrite OD, L in CASE. discriminate. }
      assert (E4 : forall X (f : list word -> X) (g : X), (if ondisk then match listing s with None => g | Some l => f l end else g) = g).
      { intros X f g. destruct ondisk; [|reflexivity]. destruct (listing s); [discriminate CASE | reflexivity]. }
      rewrite E4. clear E4 CASE. destruct (IH (names ++ entries st s) st1 A2 O1 H') as (names' & st' & C1 & C2 & C3 & C4 & C5 & C6 & C7).
      exists names', st'. split; [exact C1|]. split; [exact C2|]. split; [eapply grew_trans; eassumption|]. split; [|split; [|split]].
      * intros n Hn. apply C4 in Hn. destruct Hn as [Hn|Hn]; [|auto]. apply in_app_or in Hn. destruct Hn as [Hn|Hn]; [auto|]. right. apply E1. exact Hn.
      * intros n Hn. apply C5. apply in_or_app. left. exact Hn.
      * intros t n [<-|Ht] K; [|eapply C6; eassumption]. apply C5. apply in_or_app. right. destruct K as [K|K]; [apply KN; exact K | exfalso; eapply P'; exact K].
      * intros F n Hn Hp. destruct (C7 F n Hn Hp) as [K|K]; [|auto]. apply in_app_or in K. destruct K as [K|K]; [auto|]. right. destruct (A4 F n K) as (c & X). destruct (C3 _ _ X) as (c2 & X2 & _). exists c2. exact X2.
Qed.
Notation glob1_dir := (glob1_dir isfile isdir src_isdir listing search top set_order).
Notation glob1 := (glob1 isfile isdir src_isdir listing search top set_order).
Lemma glob1_dir_ok : forall st d pat source strings, Inv st -> opened st d -> pat <> [] ->
  exists ns st', glob1_dir st d pat ondisk source strings = Some (map (fun n => if strings then RStr n else RNode (d ++ [n])) ns, st') /\ Inv st' /\ grew st st' /\ NoDup ns /\
    (forall n, In n ns <-> there d n /\ shown pat n) /\ (strings = false -> forall n, In n ns -> exists c, In (d ++ [n], c) st').
Proof.
  intros st d pat source strings IN O P. unfold glob1_dir, GlobModel.glob1_dir. destruct pat as [|c0 p0]; [congruence|]. set (pat := c0 :: p0) in *.
  destruct (collect_ok d pat strings (search d) [] st IN O (incl_refl _)) as (names & st' & C1 & C2 & C3 & C4 & _ & C6 & C7). rewrite C1. clear C1.
  set (un := nodup (list_eq_dec ascii_dec) names). destruct (SO un [] (NoDup_nodup _ _)) as (S1 & _).
  assert (S2 : forall n, In n (set_order un) <-> In n names) by (intros n; rewrite (proj2 (SO un n (NoDup_nodup _ _))); apply nodup_In).
  set (ns := visible pat (set_order un)). assert (MEM : forall n, In n ns <-> there d n /\ shown pat n).
  { intros n. unfold ns. rewrite visible_in, S2. split; intros (H1 & H2); (split; [|exact H2]); [destruct (C4 n H1) as [[]|K]; exact K | destruct H1 as (s & Hs & K); eapply C6; eassumption]. }
  assert (KN : strings = false -> forall n, In n ns -> exists c, In (d ++ [n], c) st').
  { intros F n Hn. unfold ns in Hn. apply visible_in in Hn. destruct Hn as (H1 & H2). apply S2 in H1. destruct (C7 F n H1 H2) as [[]|K]. exact K. }
  assert (ND : NoDup ns). { unfold ns, visible. apply NoDup_filter. destruct (dot_first pat); [exact S1 | apply NoDup_filter; exact S1]. }
  exists ns, st'. split; [|auto]. destruct strings; [reflexivity|].
  replace (forallb (fun n => known st' (d ++ [n])) ns) with true; [reflexivity|]. symmetry. apply forallb_forall. intros n Hn. apply known_in; [apply (i_nodup _ C2) | apply snoc_ne | apply KN; auto].
Qed.
(* glob1: nothing if it is no directory *)
Lemma glob1_ok : forall st d pat source strings, Inv st -> opened st d \/ (exists c, In (d, c) st) -> pat <> [] ->
  exists ns st', glob1 st d pat ondisk source strings = Some (map (fun n => if strings then RStr n else RNode (d ++ [n])) ns, st') /\ Inv st' /\ grew st st' /\ NoDup ns /\
    (forall n, In n ns <-> is_dir d /\ there d n /\ shown pat n) /\ (strings = false -> forall n, In n ns -> exists c, In (d ++ [n], c) st').
Proof.
  intros st d pat source strings IN O P. unfold glob1, GlobModel.glob1. destruct (dec_path d []) as [->|Dn].
  - replace (disambiguate isfile isdir src_isdir st []) with st by reflexivity. cbn [cls_of]. destruct (glob1_dir_ok st [] pat source strings IN (or_introl eq_refl) P) as (ns & st' & H1 & H2 & H3 & H4 & H5 & H6).
    exists ns, st'. split; [exact H1|]. split; [exact H2|]. split; [exact H3|]. split; [exact H4|]. split; [|exact H6]. intros n. rewrite H5. assert (X : is_dir []) by (left; reflexivity). intuition.
  - assert (K : exists c, In (d, c) st) by (destruct O as [[O|O]|O]; [contradiction | eauto | exact O]). destruct K as (c & K).
    destruct (Inv_disambiguate st d IN Dn) as (A1 & A2 & A3). destruct (A3 c K) as (c' & A4 & A5 & A6). clear A3. set (st1 := disambiguate isfile isdir src_isdir st d) in *.
    rewrite (proj2 (cls_in st1 d c' (i_nodup _ A1) Dn) A4). destruct c'; [congruence | |].
    + exists [], st1. split; [reflexivity|]. split; [exact A1|]. split; [exact A2|]. split; [constructor|]. split; [|intros _ n []]. intros n. split; [intros [] | intros (X & _); apply A6 in X; discriminate].
    + destruct (glob1_dir_ok st1 d pat source strings A1 (or_intror A4) P) as (ns & st' & H1 & H2 & H3 & H4 & H5 & H6). exists ns, st'. split; [exact H1|]. split; [exact H2|]. split; [eapply grew_trans; eassumption|]. split; [exact H4|]. split; [|exact H6].
      intros n. rewrite H5. assert (X : is_dir d) by (apply A6; reflexivity). intuition.
Qed.
End One.
