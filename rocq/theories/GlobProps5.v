(* C63: cases that meet the hypotheses, and refuted statements *)
From Coq Require Import Ascii String List Bool Arith Lia Permutation Sorted.
Import ListNotations. Open Scope list_scope.
From Verif Require Import NameModel OptModel OptProps TgtModel TgtSpec TgtProps2 GlobModel GlobSpec GlobProps GlobProps2 GlobProps3 GlobProps4.

(* SConstruct in /w: VariantDir('build', 'src'), File('src/gen.c') is the target of a builder; on disk src/.hid, src/b.c, src/a.c, src/sub/z.c *)
Definition W : word := lit "w"%string.
Definition SRC : word := lit "src"%string.
Definition BUILD : word := lit "build"%string.
Definition pth (l : list string) : path := W :: map lit l.
Definition top3 : path := [W].
Definition on (l : list path) (p : path) : bool := existsb (path_eqb p) l.
Definition files3 : list path := [pth ["SConstruct"]; pth ["src"; ".hid"]; pth ["src"; "b.c"]; pth ["src"; "a.c"]; pth ["src"; "sub"; "z.c"]]%string.
Definition dirs3 : list path := [pth []; pth ["src"]; pth ["src"; "sub"]]%string.
Definition isfile3 : path -> bool := on files3.
Definition isdir3 : path -> bool := on dirs3.
Definition source3 (p : path) : path := match p with a :: b :: r => if str_eqb a W && str_eqb b BUILD then W :: SRC :: r else p | _ => p end.
Definition srcdir3 (p : path) : bool := isdir3 (source3 p).
Definition listing3 (p : path) : option (list word) :=
  if path_eqb p (pth []) then Some (map lit ["src"; "SConstruct"]%string)
  else if path_eqb p (pth ["src"]%string) then Some (map lit [".hid"; "b.c"; "sub"; "a.c"]%string)
  else if path_eqb p (pth ["src"; "sub"]%string) then Some (map lit ["z.c"]%string) else None.
Definition search3 (p : path) : list path := if path_eqb (source3 p) p then [p] else [p; source3 p].
Definition show3 (p : path) : word := match tl p with [] => [dot] | r => joined r end.
Definition order3 (l : list word) : list word := l.
Definition st3 : nodes := [(pth [], CDir); (pth ["src"]%string, CDir); (pth ["build"]%string, CDir); (pth ["src"; "gen.c"]%string, CFile)].
Notation glob3 := (glob isfile3 isdir3 srcdir3 listing3 search3 top3 show3 order3).

Lemma pe : forall a b, path_eqb a b = true <-> a = b.
Proof. intros a b. apply path_eqb_eq. Qed.
Lemma source_twice : forall p, source3 (source3 p) = source3 p.
Proof. intros [|a [|b r]]; [reflexivity | reflexivity|]. unfold source3. destruct (str_eqb a W && str_eqb b BUILD) eqn:E; [reflexivity|]. rewrite E. reflexivity. Qed.
Lemma searching3 : searching search3.
Proof.
  split; [intros d; unfold search3; destruct (path_eqb _ _); left; reflexivity|]. intros d s t Hs Ht. unfold search3 in *. destruct (path_eqb (source3 d) d) eqn:E.
  - destruct Hs as [<-|[]]. rewrite E in Ht. exact Ht.
  - destruct Hs as [<-|[<-|[]]]; [rewrite E in Ht; exact Ht|]. rewrite source_twice in Ht. assert (X : path_eqb (source3 d) (source3 d) = true) by (apply pe; reflexivity). rewrite X in Ht. destruct Ht as [<-|[]]. right. left. reflexivity.
Qed.
Lemma listing_cases : forall s l, listing3 s = Some l -> (s = pth [] /\ l = map lit ["src"; "SConstruct"]%string) \/ (s = pth ["src"]%string /\ l = map lit [".hid"; "b.c"; "sub"; "a.c"]%string) \/ (s = pth ["src"; "sub"]%string /\ l = map lit ["z.c"]%string).
Proof.
  intros s l H. unfold listing3 in H. destruct (path_eqb s (pth [])) eqn:E1; [apply pe in E1; injection H as <-; auto|]. destruct (path_eqb s (pth ["src"]%string)) eqn:E2; [apply pe in E2; injection H as <-; auto|].
  destruct (path_eqb s (pth ["src"; "sub"]%string)) eqn:E3; [apply pe in E3; injection H as <-; auto | discriminate].
Qed.
Ltac name_is := split; [discriminate|]; split; [cbn; intros X; repeat (destruct X as [X|X]; [discriminate X|]); exact X|]; split; [discriminate|]; split; [discriminate | intros r; discriminate].
Lemma names3 : disk_names listing3.
Proof.
  intros s l n H Hn. destruct (listing_cases s l H) as [(-> & ->)|[(-> & ->)|(-> & ->)]]; cbn [map In] in Hn; repeat (destruct Hn as [<-|Hn]; [name_is|]); destruct Hn.
Qed.
Lemma tree3 : tree st3.
Proof.
  split; [cbn; repeat constructor; cbn; intros X; repeat (destruct X as [X|X]; [discriminate X|]); exact X|].
  intros p c H. cbn [In st3] in H. repeat (destruct H as [H|H]; [injection H as <- <-|]); [exists [], W | exists top3, SRC | exists top3, BUILD | exists (pth ["src"]%string), (lit "gen.c"%string) | destruct H]; (split; [reflexivity | name_is]).
Qed.
Definition dirb (p : path) : bool := match cls_of st3 p with Some CDir => true | Some CFile => false | _ => negb (isfile3 p) && (isdir3 p || srcdir3 p) end.
Lemma dirb_ok : forall p, p <> [] -> is_dir isfile3 isdir3 srcdir3 st3 p <-> dirb p = true.
Proof.
  intros p P. destruct tree3 as (ND & _). assert (C := fun c => cls_in st3 p c ND P). unfold is_dir, dirb. rewrite <- !C. destruct (cls_of st3 p) as [[]|].
  - split; [intros [X|[X|(_ & _ & F & D)]]; [contradiction | discriminate|]; rewrite F; destruct D as [-> | ->]; cbn; rewrite ?orb_true_r; reflexivity|]. intros H. apply andb_true_iff in H. destruct H as (H1 & H2). apply negb_true_iff in H1. apply orb_true_iff in H2. right. right. repeat split; try discriminate; assumption.
  - split; [intros [X|[X|(X & _)]]; [contradiction | discriminate | congruence] | discriminate].
  - split; [reflexivity | intros _; right; left; reflexivity].
  - split; [intros [X|[X|(_ & _ & F & D)]]; [contradiction | discriminate|]; rewrite F; destruct D as [-> | ->]; cbn; rewrite ?orb_true_r; reflexivity|]. intros H. apply andb_true_iff in H. destruct H as (H1 & H2). apply negb_true_iff in H1. apply orb_true_iff in H2. right. right. repeat split; try discriminate; assumption.
Qed.
Lemma source_inv : forall d s, source3 d = s -> d = s \/ exists r, d = W :: BUILD :: r /\ s = W :: SRC :: r.
Proof.
  intros [|a [|b r]] s H; [left; exact H | left; exact H|]. unfold source3 in H. destruct (str_eqb a W && str_eqb b BUILD) eqn:E; [|left; exact H]. apply andb_true_iff in E. destruct E as (E1 & E2). apply str_eqb_eq in E1. apply str_eqb_eq in E2. subst a b. right. exists r. auto.
Qed.
Lemma agree3 : agree isfile3 isdir3 srcdir3 listing3 search3 st3.
Proof.
  intros d s l n Hs Hl Hn. rewrite !dirb_ok by (apply snoc_ne). destruct (list_eq_dec (list_eq_dec ascii_dec) s d) as [->|N]; [reflexivity|].
  assert (E : source3 d = s) by (unfold search3 in Hs; destruct (path_eqb (source3 d) d); [destruct Hs as [X|[]]; congruence | destruct Hs as [X|[X|[]]]; congruence]).
  destruct (source_inv d s E) as [X|(r & -> & ->)]; [congruence|].
  destruct (listing_cases _ l Hl) as [(X & _)|[(X & ->)|(X & ->)]]; [discriminate X | |]; injection X as ->; cbn [map In] in Hn.
  - repeat (destruct Hn as [<-|Hn]; [match goal with |- ?x = true <-> ?y = true => assert (Q : x = y) by (vm_compute; reflexivity); rewrite Q; reflexivity end|]). destruct Hn.
  - repeat (destruct Hn as [<-|Hn]; [match goal with |- ?x = true <-> ?y = true => assert (Q : x = y) by (vm_compute; reflexivity); rewrite Q; reflexivity end|]). destruct Hn.
Qed.
Lemma order_ok : some_order order3.
Proof. intros l n N. unfold order3. split; [exact N | reflexivity]. Qed.
Ltac comp := split; [discriminate|]; cbn; intros X; repeat (destruct X as [X|X]; [discriminate X|]); exact X.
Lemma pat1 : pattern top3 top3 (lit "build/*/?.c"%string) (pth ["build"]%string) [lit "*"%string; lit "?.c"%string].
Proof.
  change (lit "build/*/?.c"%string) with (lit "build"%string ++ slash :: joined [lit "*"%string; lit "?.c"%string]). apply pat_below.
  - discriminate.
  - intros w H. apply (f_equal (@rev ascii)) in H. rewrite rev_app_distr in H. discriminate H.
  - intros [X|[X|X]]; cbn in X; repeat (destruct X as [X|X]; [discriminate X|]); exact X.
  - apply means_rel with (l := [BUILD]); [intros r; discriminate | intros r; discriminate | |].
    + split; [discriminate|]. split; [reflexivity|]. constructor; [|constructor]. cbn. intros X. repeat (destruct X as [X|X]; [discriminate X|]). exact X.
    + apply st_down; [discriminate | discriminate | discriminate | constructor].
  - comp.
  - constructor; [comp | constructor].
  - right. left. left. reflexivity.
Qed.
Lemma pat2 : forall w, component w -> pattern top3 top3 (BUILD ++ slash :: joined [w]) (pth ["build"]%string) [w].
Proof.
  intros w C. apply pat_below; [discriminate | | | | exact C | constructor | left; reflexivity].
  - intros v H. apply (f_equal (@rev ascii)) in H. rewrite rev_app_distr in H. discriminate H.
  - intros [X|[X|X]]; cbn in X; repeat (destruct X as [X|X]; [discriminate X|]); exact X.
  - apply means_rel with (l := [BUILD]); [intros r; discriminate | intros r; discriminate | |].
    + split; [discriminate|]. split; [reflexivity|]. constructor; [|constructor]. cbn. intros X. repeat (destruct X as [X|X]; [discriminate X|]). exact X.
    + apply st_down; [discriminate | discriminate | discriminate | constructor].
Qed.
Lemma opened1 : opened st3 (pth ["build"]%string).
Proof. right. right. right. left. reflexivity. Qed.
(* the target gen.c, not on disk, is found in the variant directory too; z.c two levels down; names with a leading dot only by a pattern with one; exclude *)
Theorem C63_case : searching search3 /\ disk_names listing3 /\ agree isfile3 isdir3 srcdir3 listing3 search3 st3 /\ some_order order3 /\ tree st3 /\
  pattern top3 top3 (lit "build/*/?.c"%string) (pth ["build"]%string) [lit "*"%string; lit "?.c"%string] /\ pattern top3 top3 (lit "build/*"%string) (pth ["build"]%string) [lit "*"%string] /\
  opened st3 (pth ["build"]%string) /\ opened st3 top3 /\ Forall (ready top3 top3 st3) [lit "build/a*"%string] /\
  option_map fst (glob3 st3 top3 (lit "build/*/?.c"%string) true false false []) = Some [RNode (pth ["build"; "sub"; "z.c"]%string)] /\
  option_map fst (glob3 st3 top3 (lit "build/*"%string) true false false [lit "build/a*"%string]) = Some (map (fun n => RNode (pth ["build"; n]%string)) ["b.c"; "gen.c"; "sub"]%string) /\
  option_map fst (glob3 st3 top3 (lit "build/*"%string) true false true [lit "build/a*"%string]) = Some (map (fun n => RStr (lit n)) ["build/b.c"; "build/gen.c"; "build/sub"]%string) /\
  option_map fst (glob3 st3 top3 (lit "src/*.c"%string) false false false []) = Some [RNode (pth ["src"; "gen.c"]%string)] /\
  option_map fst (glob3 st3 top3 (lit "src/.*"%string) true false true []) = Some [RStr (lit "src/.hid"%string)].
Proof.
  split; [exact searching3|]. split; [exact names3|]. split; [exact agree3|]. split; [exact order_ok|]. split; [exact tree3|]. split; [exact pat1|]. split; [apply (pat2 (lit "*"%string)); comp|].
  split; [exact opened1|]. split; [right; left; reflexivity|]. split.
  - constructor; [|constructor]. exists (pth ["build"]%string), [lit "a*"%string]. split; [apply (pat2 (lit "a*"%string)); comp | exact opened1].
  - repeat split; vm_compute; reflexivity.
Qed.
(* ---- refuted statements ---- *)
(* man page: source=True gives the nodes of the source directory.  The argument has no effect *)
Lemma gen_source : forall isfile isdir src_isdir listing search top show set_order ex1 ex2, (forall (e1 e2 : nodes -> bool -> option (list res * nodes)), ex1 = Some e1 -> ex2 = Some e2 -> forall st b, e1 st b = e2 st b) -> (ex1 = None <-> ex2 = None) ->
  forall fuel st self w ondisk s1 s2 strings,
  glob_gen isfile isdir src_isdir listing search top show set_order ex1 fuel st self w ondisk s1 strings = glob_gen isfile isdir src_isdir listing search top show set_order ex2 fuel st self w ondisk s2 strings.
Proof.
  intros isfile isdir src_isdir listing search top show set_order ex1 ex2 EX NN fuel. induction fuel as [|f IH]; intros st self w ondisk s1 s2 strings; [reflexivity|]. cbn [glob_gen].
  assert (ONE : forall st d p, glob1 isfile isdir src_isdir listing search top set_order st d p ondisk s1 strings = glob1 isfile isdir src_isdir listing search top set_order st d p ondisk s2 strings) by reflexivity.
  assert (DIRS : forall dirs st p, glob_dirs isfile isdir src_isdir listing search top show set_order st dirs p ondisk s1 strings = glob_dirs isfile isdir src_isdir listing search top show set_order st dirs p ondisk s2 strings).
  { intros dirs. induction dirs as [|[d|x] dirs IHd]; intros st0 p; [reflexivity | | reflexivity]. cbn [glob_dirs]. rewrite ONE. destruct (glob1 _ _ _ _ _ _ _ st0 d p ondisk s2 strings) as [[x st1]|]; [|reflexivity]. rewrite IHd. reflexivity. }
  destruct (split_path w) as [dirname basename].
  match goal with |- match ?a with _ => _ end = match ?b with _ => _ end => assert (A : a = b) end.
  { destruct dirname as [|h t]; [apply ONE|]. rewrite (IH st self (h :: t) ondisk s1 s2 false).
    match goal with |- match ?a with _ => _ end = _ => destruct a as [[dirs st1]|] end; [apply DIRS | reflexivity]. }
  rewrite A. match goal with |- match ?a with _ => _ end = _ => destruct a as [[result st1]|] end; [|reflexivity].
  destruct ex1 as [e1|], ex2 as [e2|]; [rewrite (EX e1 e2 eq_refl eq_refl); reflexivity | destruct NN as (_ & N); discriminate (N eq_refl) | destruct NN as (N & _); discriminate (N eq_refl) | reflexivity].
Qed.
Theorem C63_source_refuted : (forall isfile isdir src_isdir listing search top show set_order st self w ondisk strings exclude,
  glob isfile isdir src_isdir listing search top show set_order st self w ondisk true strings exclude = glob isfile isdir src_isdir listing search top show set_order st self w ondisk false strings exclude) /\
  source3 (pth ["build"; "b.c"]%string) = pth ["src"; "b.c"]%string /\ option_map fst (glob3 st3 top3 (lit "build/b*"%string) true true false []) = Some [RNode (pth ["build"; "b.c"]%string)].
Proof.
  split; [|split; vm_compute; reflexivity]. intros isfile isdir src_isdir listing search top show set_order st self w ondisk strings exclude. unfold glob.
  assert (ALL : forall l st0 b, all_excluded isfile isdir src_isdir listing search top show set_order self ondisk true l st0 b = all_excluded isfile isdir src_isdir listing search top show set_order self ondisk false l st0 b).
  { intros l. induction l as [|x l IHl]; intros st0 b; [reflexivity|]. cbn [all_excluded]. unfold glob_plain.
    rewrite (gen_source isfile isdir src_isdir listing search top show set_order None None ltac:(discriminate) ltac:(tauto) (S (length x)) st0 self x ondisk true false b).
    match goal with |- match ?a with _ => _ end = _ => destruct a as [[y st1]|] end; [|reflexivity]. rewrite IHl. reflexivity. }
  apply gen_source.
  - intros e1 e2 H1 H2 st0 b. destruct exclude as [|x0 l0]; [discriminate|]. apply (f_equal (fun o => match o with Some e => e st0 b | None => None end)) in H1. apply (f_equal (fun o => match o with Some e => e st0 b | None => None end)) in H2. rewrite <- H1, <- H2. exact (ALL (x0 :: l0) st0 b).
  - destruct exclude; split; intros H; try reflexivity; discriminate.
Qed.
(* a directory /w with these names on disk, and no others *)
Definition lst (names : list string) (p : path) : option (list word) := if path_eqb p top3 then Some (map lit names) else None.
Definition isf (names : list string) (p : path) : bool := existsb (fun n => path_eqb p (top3 ++ [lit n])) names.
Definition alone (p : path) : list path := [p].
Definition no_dir (p : path) : bool := false.
Definition only (p : path) : bool := path_eqb p top3.
Notation globw names := (glob (isf names) only no_dir (lst names) alone top3 show3 order3).
Definition st0 : nodes := [(top3, CDir)].
(* exclude: Glob with the same pattern as exclude gives a node *)
Theorem C63_exclude_brackets_refuted : option_map fst (globw ["a[1].c"; "a1.c"; "a2.c"]%string st0 top3 (lit "a*"%string) true false false [lit "a*"%string]) = Some [RNode (pth ["a[1].c"]%string)] /\
  option_map fst (globw ["a[1].c"; "a1.c"; "a2.c"]%string st0 top3 (lit "a*"%string) true false false [lit "a?1?.c"%string]) = Some [RNode (pth ["a2.c"]%string); RNode (pth ["a[1].c"]%string)].
Proof. split; vm_compute; reflexivity. Qed.
(* '#f.c' is the file f.c of the top directory, but '#*.c' does not find it, from any directory: the # is taken as part of the name *)
Theorem C63_top_refuted : option_map fst (globw ["f.c"]%string st0 top3 (lit "#*.c"%string) true false false []) = Some [] /\ option_map fst (globw ["f.c"]%string st0 top3 (lit "#/*.c"%string) true false false []) = Some [RNode (pth ["f.c"]%string)] /\
  means top3 top3 (lit "#f.c"%string) (pth ["f.c"]%string).
Proof.
  split; [vm_compute; reflexivity|]. split; [vm_compute; reflexivity|]. apply (means_top _ _ (lit "f.c"%string) [lit "f.c"%string]).
  - split; [discriminate|]. split; [reflexivity|]. constructor; [|constructor]. cbn. intros X. repeat (destruct X as [X|X]; [discriminate X|]). exact X.
  - apply st_down; [discriminate | discriminate | discriminate | constructor].
Qed.
(* the directory part of a pattern becomes a node although there is no such directory, and the next Glob gives it *)
Theorem C63_missing_directory_refuted : option_map fst (globw ["f.c"]%string st0 top3 (lit "*"%string) true false false []) = Some [RNode (pth ["f.c"]%string)] /\
  exists st1, globw ["f.c"]%string st0 top3 (lit "nodir/*"%string) true false false [] = Some ([], st1) /\ option_map fst (globw ["f.c"]%string st1 top3 (lit "*"%string) true false false []) = Some [RNode (pth ["f.c"]%string); RNode (pth ["nodir"]%string)].
Proof. split; [vm_compute; reflexivity|]. eexists. split; vm_compute; reflexivity. Qed.
(* the file of an editor, #f.c#: from the second Glob on there is a node of a file f.c# that does not exist, and Glob gives it *)
Theorem C63_hash_refuted : exists st1 st2, globw ["#f.c#"]%string st0 top3 (lit "*"%string) true false false [] = Some ([RNode (pth ["#f.c#"]%string)], st1) /\
  globw ["#f.c#"]%string st1 top3 (lit "*"%string) true false false [] = Some ([RNode (pth ["#f.c#"]%string)], st2) /\
  option_map fst (globw ["#f.c#"]%string st2 top3 (lit "*"%string) true false false []) = Some [RNode (pth ["#f.c#"]%string); RNode (pth ["f.c#"]%string)].
Proof. eexists. eexists. repeat split; vm_compute; reflexivity. Qed.
(* a pattern that ends in a slash: IndexError *)
Theorem C63_trailing_slash_refuted : forall w ondisk source strings exclude, w <> [] ->
  glob isfile3 isdir3 srcdir3 listing3 search3 top3 show3 order3 st3 top3 (lit "src/"%string) ondisk source strings exclude = None /\ ~ (exists b l, pattern top3 top3 (w ++ [slash]) b l).
Proof.
  intros w ondisk source strings exclude NW. split; [destruct ondisk, source, strings; vm_compute; reflexivity|]. intros (b & l & PA). assert (P2 := PA).
  assert (X : forall v c m, component c -> Forall component m -> w ++ [slash] = v ++ joined (c :: m) -> False).
  { intros v c m Hc Hm. revert v c Hc. induction m as [|d m IHm]; intros v c Hc E.
    - cbn [joined] in E. destruct Hc as (Hc1 & Hc2). destruct c as [|x c _] using rev_ind; [congruence|]. rewrite app_assoc in E. apply app_inj_tail in E. destruct E as (_ & E). apply Hc2. rewrite <- E. apply in_or_app. right. left. reflexivity.
    - inversion Hm as [|d' m' Hd Hm']; subst. change (joined (c :: d :: m)) with (c ++ slash :: joined (d :: m)) in E. apply (IHm Hm' (v ++ c ++ [slash]) d Hd). rewrite <- !app_assoc. exact E. }
  inversion PA as [c C E1 E2|c m C F M E1 E2|fixed base' c m F1 F2 F3 F4 C F5 F6 E1|c m C F5 F6 E1].
  - apply (X [] (w ++ [slash]) [] C (Forall_nil _)). reflexivity.
  - apply (X [] c m C F). symmetry. exact E1.
  - apply (X (fixed ++ [slash]) c m C F5). rewrite <- app_assoc. symmetry. exact E1.
  - apply (X [slash] c m C F5). symmetry. exact E1.
Qed.
(* nodes with the same string: the order of the result is the order of a set *)
Definition show_dup (p : path) : word := show3 (source3 p).
Definition rev_order (l : list word) : list word := rev l.
Definition st_dup : nodes := st3 ++ [(pth ["build"; "x"]%string, CFile); (pth ["src"; "x"]%string, CFile)].
Theorem C63_ties_refuted : some_order order3 /\ some_order rev_order /\
  option_map fst (glob isfile3 isdir3 srcdir3 listing3 search3 top3 show_dup order3 st_dup top3 (lit "*/x"%string) true false false []) = Some [RNode (pth ["build"; "x"]%string); RNode (pth ["src"; "x"]%string)] /\
  exists ord, some_order ord /\ option_map fst (glob isfile3 isdir3 srcdir3 listing3 search3 top3 show_dup ord st_dup top3 (lit "*/x"%string) true false false []) = Some [RNode (pth ["src"; "x"]%string); RNode (pth ["build"; "x"]%string)].
Proof.
  assert (R : some_order rev_order) by (intros l n N; unfold rev_order; split; [apply NoDup_rev; exact N | symmetry; apply in_rev]).
  split; [exact order_ok|]. split; [exact R|]. split; [vm_compute; reflexivity|]. exists rev_order. split; [exact R | vm_compute; reflexivity].
Qed.
(* VariantDir('b', 'a'), VariantDir('c', 'b'), a/f.c on disk: Glob('c/*') finds nothing, but c/f.c after Glob('b/*') *)
Definition search_chain (p : path) : list path := if path_eqb p (pth ["c"]%string) then [p; pth ["b"]%string] else if path_eqb p (pth ["b"]%string) then [p; pth ["a"]%string] else [p].
Definition lst_chain (p : path) : option (list word) := if path_eqb p (pth ["a"]%string) then Some [lit "f.c"%string] else None.
Definition st_chain : nodes := [(top3, CDir); (pth ["a"]%string, CDir); (pth ["b"]%string, CDir); (pth ["c"]%string, CDir)].
Notation globc := (glob (path_eqb (pth ["a"; "f.c"]%string)) (path_eqb (pth ["a"]%string)) no_dir lst_chain search_chain top3 show3 order3).
Theorem C63_chain_refuted : option_map fst (globc st_chain top3 (lit "c/*"%string) true false false []) = Some [] /\
  exists st1, globc st_chain top3 (lit "b/*"%string) true false false [] = Some ([RNode (pth ["b"; "f.c"]%string)], st1) /\ option_map fst (globc st1 top3 (lit "c/*"%string) true false false []) = Some [RNode (pth ["c"; "f.c"]%string)].
Proof. split; [vm_compute; reflexivity|]. eexists. split; vm_compute; reflexivity. Qed.
Print Assumptions C63_case.
Print Assumptions C63_source_refuted.
Print Assumptions C63_exclude_brackets_refuted.
Print Assumptions C63_top_refuted.
Print Assumptions C63_missing_directory_refuted.
Print Assumptions C63_hash_refuted.
Print Assumptions C63_trailing_slash_refuted.
Print Assumptions C63_ties_refuted.
Print Assumptions C63_chain_refuted.
