(* Links to versioned shared libraries on disk: making them, building a new version, removing, installing. *)
From Coq Require Import Ascii String List Bool Arith Lia.
From Verif Require Import NameModel NameProps NameProps2 VslModel VslSpec VslProps.
Import ListNotations.
Open Scope list_scope.

Section Disk.
Context {dirs content : Type} (dir_eqb : dirs -> dirs -> bool) (inside : dirs -> str -> dirs).
Hypothesis dir_eqb_spec : forall a b, dir_eqb a b = true <-> a = b.
Notation fs := (fs dirs content).
Notation set := (set dirs dir_eqb content).
Notation create := (create_links dirs dir_eqb content).
Notation File := (VslModel.File content).
Notation Link := (VslModel.Link content).
Notation Dir := (VslModel.Dir content).

Lemma path_eqb_spec : forall p q, path_eqb dirs dir_eqb p q = true <-> p = q.
Proof.
  intros [a x] [b y]. unfold path_eqb. cbn. rewrite andb_true_iff, dir_eqb_spec, str_eqb_spec. split; [intros [-> ->]; reflexivity | intros H; injection H as -> ->; split; reflexivity].
Qed.
Lemma set_same : forall (f : fs) p x, set f p x p = x.
Proof. intros f p x. unfold VslModel.set. rewrite (proj2 (path_eqb_spec p p) eq_refl). reflexivity. Qed.
Lemma set_other : forall (f : fs) p x q, q <> p -> set f p x q = f q.
Proof. intros f p x q N. unfold VslModel.set. destruct (path_eqb dirs dir_eqb p q) eqn:E; [apply path_eqb_spec in E; congruence | reflexivity]. Qed.
Lemma path_dec : forall p q : path dirs, p = q \/ p <> q.
Proof. intros p q. destruct (path_eqb dirs dir_eqb p q) eqn:E; [left; apply path_eqb_spec; exact E | right; intros H; apply path_eqb_spec in H; congruence]. Qed.

Lemma free_dec : forall (f : fs) p, Free f p \/ ~ Free f p.
Proof.
  intros f p. unfold Free. destruct (f p) as [[c | n |]|]; [right; intros [H | [m H]]; discriminate | left; right; exists n; reflexivity | right; intros [H | [m H]]; discriminate | left; left; reflexivity].
Qed.
(* one step of create_links *)
Lemma create_step : forall d lib l r (f : fs), Free f (d, l) -> exists g, create d lib (l :: r) f = create d lib r g /\ g (d, l) = Some (Link lib) /\ forall q, q <> (d, l) -> g q = f q.
Proof.
  intros d lib l r f F. cbn [create_links]. destruct F as [F | [n F]].
  - rewrite F. cbv beta zeta. rewrite F. eexists. split; [reflexivity|]. split; [apply set_same | intros q N; apply set_other; exact N].
  - rewrite F. cbv beta zeta. rewrite set_same. eexists. split; [reflexivity|]. split; [apply set_same | intros q N; rewrite !set_other by exact N; reflexivity].
Qed.
Lemma create_stop : forall d lib l r (f : fs), ~ Free f (d, l) -> create d lib (l :: r) f = Failed dirs content f.
Proof.
  intros d lib l r f F. cbn [create_links]. unfold Free in F. destruct (f (d, l)) as [[c | n |]|] eqn:E.
  - cbv beta zeta. rewrite E. reflexivity.
  - exfalso. apply F. right. exists n. reflexivity.
  - cbv beta zeta. rewrite E. reflexivity.
  - exfalso. apply F. left. reflexivity.
Qed.
Lemma create_done : forall d lib ls (f : fs), (forall l, In l ls -> Free f (d, l)) ->
  exists g, create d lib ls f = Done dirs content g /\ (forall l, In l ls -> g (d, l) = Some (Link lib)) /\ forall q, (forall l, In l ls -> q <> (d, l)) -> g q = f q.
Proof.
  intros d lib ls. induction ls as [|l r IH]; intros f F.
  - exists f. split; [reflexivity|]. split; [intros l [] | reflexivity].
  - destruct (create_step d lib l r f (F l (or_introl eq_refl))) as [g [E [G O]]]. rewrite E.
    destruct (IH g) as [g' [E' [G' O']]].
    { intros k K. destruct (path_dec (d, k) (d, l)) as [-> | N]; [right; exists lib; exact G | unfold Free; rewrite (O _ N); exact (F k (or_intror K))]. }
    exists g'. split; [exact E'|]. split.
    + intros k [<- | K]; [|exact (G' k K)]. destruct (in_dec str_dec l r) as [I | NI]; [exact (G' l I)|].
      rewrite O'; [exact G|]. intros k K EQ. injection EQ as ->. exact (NI K).
    + intros q N. rewrite O' by (intros k K; exact (N k (or_intror K))). apply O. exact (N l (or_introl eq_refl)).
Qed.
Lemma create_fails : forall d lib ls (f : fs), (exists l, In l ls /\ ~ Free f (d, l)) ->
  exists g, create d lib ls f = Failed dirs content g /\ (forall q, (forall l, In l ls -> q <> (d, l)) -> g q = f q) /\ (forall q, ~ Free f q -> g q = f q).
Proof.
  intros d lib ls. induction ls as [|l r IH]; intros f [k [K NF]]; [destruct K|].
  destruct (free_dec f (d, l)) as [F | F].
  - destruct (create_step d lib l r f F) as [g [E [G O]]]. rewrite E. destruct (IH g) as [g' [E' [A B]]].
    { destruct K as [<- | K]; [contradiction|]. exists k. split; [exact K|]. destruct (path_dec (d, k) (d, l)) as [EQ | N]; [rewrite EQ in NF; contradiction | unfold Free; rewrite (O _ N); exact NF]. }
    exists g'. split; [exact E'|]. split.
    + intros q N. rewrite A by (intros j J; exact (N j (or_intror J))). apply O. exact (N l (or_introl eq_refl)).
    + intros q N. assert (q <> (d, l)) as NE by (intros ->; contradiction). rewrite B; [exact (O q NE)|]. unfold Free. rewrite (O q NE). exact N.
  - rewrite (create_stop d lib l r f F). exists f. split; [reflexivity|]. split; reflexivity.
Qed.

(* making the links once the library is there *)
Lemma make_links : forall d name c ls (f f1 : fs), f1 (d, name) = Some (File c) -> (forall q, q <> (d, name) -> f1 q = f q) ->
  ((forall l, In l ls -> l <> name /\ Free f (d, l)) /\
   exists g, create d name ls f1 = Done dirs content g /\
     (forall l, l = name \/ In l ls -> Leads g (d, l) c) /\
     (forall q, q <> (d, name) -> (forall l, In l ls -> q <> (d, l)) -> g q = f q)) \/
  ((exists l, In l ls /\ (l = name \/ ~ Free f (d, l))) /\
   exists g, create d name ls f1 = Failed dirs content g /\
     Leads g (d, name) c /\ (forall q, q <> (d, name) -> ~ Free f q -> g q = f q) /\
     (forall q, q <> (d, name) -> (forall l, In l ls -> q <> (d, l)) -> g q = f q)).
Proof.
  intros d name c ls f f1 F1 O1.
  assert ((forall l, In l ls -> l <> name /\ Free f (d, l)) \/ exists l, In l ls /\ (l = name \/ ~ Free f (d, l))) as [A | A].
  { induction ls as [|l r IH]; [left; intros l []|]. destruct IH as [IH | [k [K IH]]]; [|right; exists k; split; [right; exact K | exact IH]].
    destruct (str_dec l name) as [E | E]; [right; exists l; split; [left; reflexivity | left; exact E]|].
    destruct (free_dec f (d, l)) as [F | F]; [|right; exists l; split; [left; reflexivity | right; exact F]].
    left. intros k [<- | K]; [split; assumption | exact (IH k K)]. }
  - left. split; [exact A|]. destruct (create_done d name ls f1) as [g [E [G O]]].
    { intros l I. destruct (A l I) as [N F]. unfold Free. rewrite O1; [exact F | intros H; injection H as H; exact (N H)]. }
    exists g. rewrite E. split; [reflexivity|].
    assert (g (d, name) = Some (File c)) as GN by (rewrite O; [exact F1 | intros l I H; injection H as H; exact (proj1 (A l I) (eq_sym H))]). split.
    + intros l [-> | I]; [apply leads_file; exact GN | exact (leads_link _ _ _ _ _ (G l I) (leads_file _ _ _ GN))].
    + intros q N M. rewrite O by exact M. apply O1. exact N.
  - right. split; [exact A|]. destruct (create_fails d name ls f1) as [g [E [O B]]].
    { destruct A as [l [I H]]. exists l. split; [exact I|]. destruct (str_dec l name) as [-> | N].
      - unfold Free. rewrite F1. intros [X | [m X]]; discriminate.
      - destruct H as [H | H]; [contradiction|]. unfold Free. rewrite O1 by (intros X; injection X as X; exact (N X)). exact H. }
    exists g. rewrite E. split; [reflexivity|]. split; [|split].
    + apply leads_file. rewrite B; [exact F1|]. unfold Free. rewrite F1. intros [X | [m X]]; discriminate.
    + intros q N NF. rewrite B; [exact (O1 q N)|]. unfold Free. rewrite (O1 q N). exact NF.
    + intros q N M. rewrite O by exact M. apply O1. exact N.
Qed.

(* C81e: links are made exactly if nothing but links (or nothing) is in the way; then each leads to the library and nothing else has changed; otherwise the build fails, and what was in the
   way is still there *)
Theorem C81e_links : forall e d name c (f : fs) ls, links e name = Some ls ->
  ((forall l, In l ls -> l <> name /\ Free f (d, l)) /\
   exists g, build_library dirs dir_eqb content e d name c f = Some (Done dirs content g) /\
     (forall l, l = name \/ In l ls -> Leads g (d, l) c) /\
     (forall q, q <> (d, name) -> (forall l, In l ls -> q <> (d, l)) -> g q = f q)) \/
  ((exists l, In l ls /\ (l = name \/ ~ Free f (d, l))) /\
   exists g, build_library dirs dir_eqb content e d name c f = Some (Failed dirs content g) /\
     Leads g (d, name) c /\ (forall q, q <> (d, name) -> ~ Free f q -> g q = f q) /\
     (forall q, q <> (d, name) -> (forall l, In l ls -> q <> (d, l)) -> g q = f q)).
Proof.
  intros e d name c f ls L. unfold build_library. rewrite L.
  destruct (make_links d name c ls f (set f (d, name) (Some (File c)))) as [[A [g [E H]]] | [A [g [E H]]]].
  - apply set_same.
  - intros q N. apply set_other. exact N.
  - left. split; [exact A|]. exists g. rewrite E. split; [reflexivity | exact H].
  - right. split; [exact A|]. exists g. rewrite E. split; [reflexivity | exact H].
Qed.

(* C81h: an installed library has the same links in the directory it is installed in; what its name led to there before is not written to *)
Theorem C81h_install : forall d name c (f : fs) ls, f (d, name) <> Some Dir ->
  ((forall l, In l ls -> l <> name /\ Free f (d, l)) /\
   exists g, install_library dirs dir_eqb inside content d name c ls f = Done dirs content g /\
     (forall l, l = name \/ In l ls -> Leads g (d, l) c) /\
     (forall q, q <> (d, name) -> (forall l, In l ls -> q <> (d, l)) -> g q = f q)) \/
  ((exists l, In l ls /\ (l = name \/ ~ Free f (d, l))) /\
   exists g, install_library dirs dir_eqb inside content d name c ls f = Failed dirs content g /\
     Leads g (d, name) c /\ (forall q, q <> (d, name) -> ~ Free f q -> g q = f q) /\
     (forall q, q <> (d, name) -> (forall l, In l ls -> q <> (d, l)) -> g q = f q)).
Proof.
  intros d name c f ls ND.
  assert (exists f1, install_library dirs dir_eqb inside content d name c ls f = create d name ls f1 /\ f1 (d, name) = Some (File c) /\ forall q, q <> (d, name) -> f1 q = f q) as [f1 [E [F1 O1]]].
  { unfold install_library. destruct (f (d, name)) as [[k | n |]|] eqn:X; [| | congruence |]; cbv beta zeta; [rewrite set_same | rewrite set_same | rewrite X]; cbv beta zeta; (eexists; split; [reflexivity|]; split; [apply set_same|]);
      intros q N; rewrite !set_other by exact N; reflexivity. }
  rewrite E. exact (make_links d name c ls f f1 F1 O1).
Qed.

(* C81g: scons -c removes the library and its links and nothing else *)
Lemma clean_out : forall d ls (f : fs) q, (~ In (snd q) ls \/ fst q <> d) -> fold_left (fun f l => set f (d, l) None) ls f q = f q.
Proof.
  intros d ls. induction ls as [|l r IH]; intros f q N; [reflexivity|]. cbn [fold_left]. rewrite IH; [|destruct N as [N | N]; [left; intros H; apply N; right; exact H | right; exact N]].
  apply set_other. intros ->. cbn in N. destruct N as [N | N]; [apply N; left; reflexivity | apply N; reflexivity].
Qed.
Lemma clean_in : forall d ls (f : fs) l, In l ls -> fold_left (fun f l => set f (d, l) None) ls f (d, l) = None.
Proof.
  intros d ls. induction ls as [|k r IH]; intros f l I0; [destruct I0|]. destruct I0 as [-> | I]; cbn [fold_left].
  - destruct (in_dec str_dec l r) as [I | N]; [exact (IH _ l I)|]. rewrite clean_out by (left; exact N). apply set_same.
  - exact (IH _ l I).
Qed.
Theorem C81g_clean : forall e d name c (f g : fs) ls, links e name = Some ls -> (forall l, l = name \/ In l ls -> f (d, l) = None) ->
  build_library dirs dir_eqb content e d name c f = Some (Done dirs content g) ->
  forall q, clean_library dirs dir_eqb content d name ls g q = f q.
Proof.
  intros e d name c f g ls L E B [d' x]. unfold clean_library.
  destruct (C81e_links e d name c f ls L) as [[A [h [B' [_ O]]]] | [_ [h [B' _]]]]; rewrite B' in B; [|discriminate]. injection B as <-.
  destruct (path_dec (d', x) (d, x)) as [H | H].
  - injection H as ->. destruct (in_dec str_dec x (name :: cleaned ls name)) as [I | N].
    + rewrite clean_in by exact I. symmetry. apply E. destruct I as [<- | I]; [left; reflexivity | right]. apply filter_In in I. exact (proj1 I).
    + rewrite clean_out by (left; exact N). apply O; [intros H; injection H as ->; apply N; left; reflexivity|].
      intros l I H. injection H as ->. apply N. right. apply filter_In. split; [exact I|]. apply negb_true_iff, str_eqb_neq. exact (proj1 (A l I)).
  - assert (d' <> d) as ND by (intros ->; exact (H eq_refl)). rewrite clean_out by (right; exact ND). apply O; [intros X; injection X as X; contradiction|]. intros l _ X. injection X as X. contradiction.
Qed.

Lemma build_done : forall e v base n d c (f g : fs), Version e v -> base <> [] -> ~ Off (noversionsymlinks e) -> Soname e v (prefix e ++ base ++ suffix e) n ->
  build_library dirs dir_eqb content e d (prefix e ++ base ++ suffix e ++ DOT :: v) c f = Some (Done dirs content g) ->
  let plain := prefix e ++ base ++ suffix e in let lib := prefix e ++ base ++ suffix e ++ DOT :: v in
  Leads g (d, plain) c /\ Leads g (d, n) c /\ g (d, lib) = Some (File c) /\ (n <> lib -> g (d, n) = Some (Link lib)) /\
  (forall q, q <> (d, lib) -> q <> (d, plain) -> q <> (d, n) -> g q = f q) /\ Free f (d, plain) /\ (n <> lib -> Free f (d, n)).
Proof.
  intros e v base n d c f g V NB T SN B plain lib. destruct (C81a_names e v base n V NB SN) as [_ L]. destruct (L T) as [ls [E I]]. clear L. fold plain lib in E, I.
  set (f1 := set f (d, lib) (Some (File c))).
  assert (create d lib ls f1 = Done dirs content g) as B0 by (unfold build_library in B; fold lib in B; rewrite E in B; injection B as B; exact B).
  assert (f1 (d, lib) = Some (File c)) as F1 by apply set_same.
  assert (forall q, q <> (d, lib) -> f1 q = f q) as O1 by (intros q N; apply set_other; exact N).
  assert (forall l, In l ls -> Free f1 (d, l)) as FR.
  { intros l IN. destruct (free_dec f1 (d, l)) as [H | H]; [exact H|]. exfalso. destruct (create_fails d lib ls f1) as [h [X _]]; [exists l; split; assumption|]. rewrite X in B0. discriminate. }
  destruct (create_done d lib ls f1 FR) as [h [X [G O]]]. rewrite X in B0. injection B0 as ->.
  assert (plain <> lib) as NPL by (unfold plain, lib; rewrite (app_assoc base), (app_assoc (prefix e)); rewrite <- app_assoc; intros H; apply (f_equal (@length _)) in H; rewrite !app_length in H; cbn in H; lia).
  assert (In plain ls) as IP by (apply I; left; reflexivity).
  assert (~ In lib ls) as NL by (intros H; apply I in H; destruct H as [H | [H H']]; [exact (NPL (eq_sym H)) | exact (H' (eq_sym H))]).
  assert (g (d, lib) = Some (File c)) as GL by (rewrite O; [exact F1 | intros l IN H; injection H as H; rewrite <- H in IN; exact (NL IN)]).
  assert (n <> lib -> In n ls) as IN by (intros H; apply I; right; split; [reflexivity | exact H]).
  split; [exact (leads_link _ _ _ _ _ (G plain IP) (leads_file _ _ _ GL))|]. split; [|split; [exact GL|split; [|split; [|split]]]].
  - destruct (str_dec n lib) as [-> | N]; [apply leads_file; exact GL | exact (leads_link _ _ _ _ _ (G n (IN N)) (leads_file _ _ _ GL))].
  - intros N. exact (G n (IN N)).
  - intros q N1 N2 N3. rewrite O; [exact (O1 q N1)|]. intros l H ->. apply I in H. destruct H as [-> | [-> _]]; [exact (N2 eq_refl) | exact (N3 eq_refl)].
  - pose proof (FR plain IP) as Y. unfold Free in Y |- *. rewrite O1 in Y by (intros H; injection H as H; exact (NPL H)). exact Y.
  - intros N. pose proof (FR n (IN N)) as Y. unfold Free in Y |- *. rewrite O1 in Y by (intros H; injection H as H; exact (N H)). exact Y.
Qed.

(* C81f: a new version beside an old one: the plain name leads to the new one; programs linked with the old one still find the old one, or the new one if it has the same recorded name *)
Theorem C81f_upgrade : forall e1 e2 v1 v2 n1 n2 base d c1 c2 (f0 f1 f2 : fs), SameBut e1 e2 -> Version e1 v1 -> Version e2 v2 -> v1 <> v2 -> base <> [] ->
  ~ Off (noversionsymlinks e1) ->
  Soname e1 v1 (prefix e1 ++ base ++ suffix e1) n1 -> Soname e2 v2 (prefix e2 ++ base ++ suffix e2) n2 ->
  build_library dirs dir_eqb content e1 d (prefix e1 ++ base ++ suffix e1 ++ DOT :: v1) c1 f0 = Some (Done dirs content f1) ->
  build_library dirs dir_eqb content e2 d (prefix e2 ++ base ++ suffix e2 ++ DOT :: v2) c2 f1 = Some (Done dirs content f2) ->
  Leads f2 (d, prefix e2 ++ base ++ suffix e2) c2 /\ Leads f2 (d, n2) c2 /\
  let now := n1 = n2 \/ n1 = prefix e2 ++ base ++ suffix e2 ++ DOT :: v2 \/ n1 = prefix e2 ++ base ++ suffix e2 in
  (now -> Leads f2 (d, n1) c2) /\ (~ now -> Leads f2 (d, n1) c1).
Proof.
  intros e1 e2 v1 v2 n1 n2 base d c1 c2 f0 f1 f2 [P [SU [SO [SV TT]]]] V1 V2 NV NB T H1 H2 B1 B2.
  destruct (build_done _ _ _ _ _ _ _ _ V1 NB T H1 B1) as [_ [L1 [G1 [K1 _]]]].
  assert (~ Off (noversionsymlinks e2)) as T2 by (rewrite <- TT; exact T).
  destruct (build_done _ _ _ _ _ _ _ _ V2 NB T2 H2 B2) as [A [C [GL2 [_ [O [_ F]]]]]].
  split; [exact A|]. split; [exact C|]. split; [intros [-> | [-> | ->]]; [exact C | apply leads_file; exact GL2 | exact A]|]. intros NOW.
  assert (n1 <> n2) as N by (intros H; apply NOW; left; exact H).
  assert (n1 <> prefix e2 ++ base ++ suffix e2 ++ DOT :: v2) as NL by (intros H; apply NOW; right; left; exact H).
  assert (n1 <> prefix e2 ++ base ++ suffix e2) as NP by (intros H; apply NOW; right; right; exact H). clear NOW.
  set (lib1 := prefix e1 ++ base ++ suffix e1 ++ DOT :: v1) in *. set (lib2 := prefix e2 ++ base ++ suffix e2 ++ DOT :: v2) in *. set (plain := prefix e2 ++ base ++ suffix e2) in *.
  assert (lib1 = prefix e2 ++ base ++ suffix e2 ++ DOT :: v1) as E1 by (unfold lib1; rewrite P, SU; reflexivity).
  assert (lib1 <> lib2) as NLL by (rewrite E1; unfold lib2; intros H; apply app_inv_head, app_inv_head, app_inv_head in H; injection H as H; exact (NV H)).
  assert (lib1 <> plain) as NLP by (rewrite E1; unfold plain; intros H; apply app_inv_head, app_inv_head in H; rewrite <- (app_nil_r (suffix e2)) in H at 2; apply app_inv_head in H; discriminate).
  assert (lib1 <> n2) as NLN.
  { intros E. assert (n2 <> lib2) as X by (intros Y; apply NLL; rewrite E; exact Y). 
    assert (Free f1 (d, lib1)) as F' by (rewrite E; exact (F X)). destruct F' as [F' | [m F']]; pose proof (eq_trans (eq_sym G1) F') as Z; discriminate Z. }
  assert (forall x y : str, x <> y -> (d, x) <> (d, y)) as PD by (intros x y X Y; injection Y as Y; exact (X Y)).
  assert (f2 (d, lib1) = Some (File c1)) as G2 by (rewrite (O (d, lib1) (PD _ _ NLL) (PD _ _ NLP) (PD _ _ NLN)); exact G1).
  destruct (str_dec n1 lib1) as [-> | X]; [apply leads_file; exact G2|].
  apply (leads_link _ _ _ lib1); [|apply leads_file; exact G2]. rewrite (O (d, n1) (PD _ _ NL) (PD _ _ NP) (PD _ _ N)). exact (K1 X).
Qed.

End Disk.

Print Assumptions C81e_links.
Print Assumptions C81f_upgrade.
Print Assumptions C81g_clean.
Print Assumptions C81h_install.
