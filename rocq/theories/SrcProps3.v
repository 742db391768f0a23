(* Source builders: the suffixes without memory, witnesses and refuted variants. *)
From Coq Require Import Ascii String List Bool Arith Lia Permutation.
Import ListNotations.
From Verif Require Import NameModel NameProps NameProps2 SrcModel SrcProps SrcProps2.
Open Scope list_scope.

(* the builders of a configuration as objects that nobody asked yet *)
Definition fresh (conf : nat -> bconf) : objs := fun b => {| o_src := b_src (conf b); o_subs := b_subs (conf b); o_memo := fun _ => None |}.
(* C56o: the suffixes of a builder are its own, in order, and then those of its source builders *)
Theorem C56o_suffixes : forall conf f b l, src_suffixes conf f b = Some l -> (forall s, In s l <-> takes (fresh conf) b s) /\ exists t, l = b_src (conf b) ++ t.
Proof.
  intros conf. induction f as [|f IH]; intros b l H; [discriminate|]. cbn [src_suffixes] in H.
  assert (forall subs l0 l1, fold_left (fun acc c => match acc, src_suffixes conf f c with Some l, Some new => Some (add_new l new) | _, _ => None end) subs (Some l0) = Some l1 ->
    (forall s, In s l1 <-> In s l0 \/ exists c, In c subs /\ takes (fresh conf) c s) /\ exists t, l1 = l0 ++ t) as LOOP.
  { assert (forall subs, fold_left (fun acc c => match acc, src_suffixes conf f c with Some l, Some new => Some (add_new l new) | _, _ => None end) subs (@None (list str)) = None) as NONE by (induction subs as [|c r IHr]; [reflexivity | exact IHr]).
    induction subs as [|c subs IHs]; intros l0 l1 X; cbn [fold_left] in X.
    - inversion X; subst. split; [intros s; split; [auto | intros [Y | [c [[] _]]]; exact Y] | exists []; rewrite app_nil_r; reflexivity].
    - destruct (src_suffixes conf f c) as [new|] eqn:E; [|rewrite NONE in X; discriminate]. destruct (IHs _ _ X) as [A [t B]]. destruct (add_new_spec new l0) as [C [t2 D]]. destruct (IH _ _ E) as [N _]. split.
      + intros s. rewrite A, C. split.
        * intros [[Y | Y] | [c' [IC T]]]; [left; exact Y | right; exists c; split; [left; reflexivity | apply N; exact Y] | right; exists c'; split; [right; exact IC | exact T]].
        * intros [Y | [c' [[<- | IC] T]]]; [left; left; exact Y | left; right; apply N; exact T | right; exists c'; auto].
      + exists (t2 ++ t). rewrite B, D, app_assoc. reflexivity. }
  destruct (LOOP _ _ _ H) as [A B]. split; [|exact B]. intros s. rewrite A. split.
  - intros [X | [c [IC T]]]; [apply t_own; exact X | apply (t_sub _ _ c); [exact IC | exact T]].
  - intros T. inversion T as [b' s' X | b' c s' IC T']; subst; [left; exact X | right; exists c; split; [exact IC | exact T']].
Qed.

Definition no_emit (t s : list str) := (t, s).
Definition bc (suf : string) (src : list string) (subs : list nat) (single : bool) : bconf :=
  {| b_suffix := lit suf; b_prefix := []; b_src := map lit src; b_subs := subs; b_single := single; b_ensure := false; b_emit := no_emit |}.
(* a parser generator also makes a header *)
Definition yemit (t s : list str) : list str * list str :=
  match t, s with p :: _, x :: _ => if endswith x (lit ".y") then (t ++ [but_last_n p 2 ++ lit ".h"], s) else (t, s) | _, _ => (t, s) end.
(* 0: Program, 1: Object, 2: CFile; 3: a builder whose source builders 4 and 5 make .b from .a and .c from .b *)
Definition xconf (b : nat) : bconf :=
  match b with
  | 0 => bc "" [".o"%string] [1] false
  | 1 => bc ".o" [".c"; ".cc"]%string [2] true
  | 2 => {| b_suffix := lit ".c"; b_prefix := []; b_src := [lit ".y"; lit ".l"]; b_subs := []; b_single := true; b_ensure := false; b_emit := yemit |}
  | 3 => bc ".z" [".c"%string] [4; 5] true
  | 4 => bc ".b" [".a"%string] [] true
  | 5 => bc ".c" [".b"%string] [] true
  | _ => bc "" [] [] false
  end.
Definition xsufs (b : nat) : list str := match src_suffixes xconf 5 b with Some l => l | None => [] end.
Definition xsub (s : str) : str := if str_eqb s (lit "$SRC.c") then lit "x.c.c" else if str_eqb s (lit "$SRC") then lit "x.c" else s.
Definition nodes (l : list string) : list item := map (fun s => Node (lit s)) l.
Definition cl (b : nat) (t s : list string) : call := {| c_bld := b; c_targets := map lit t; c_sources := map lit s |}.

Lemma xconf_adds : emitters_add xconf.
Proof.
  intros b T S T' S' H. assert (b = 2 \/ b_emit (xconf b) = no_emit) as [-> | E] by (destruct b as [|[|[|[|[|[|b]]]]]]; auto).
  - cbn in H. unfold yemit in H. destruct T as [|p T]; [inversion H; subst; split; apply incl_refl|]. destruct S as [|x S]; [inversion H; subst; split; apply incl_refl|]. destruct (endswith x (lit ".y")); inversion H; subst; split; try apply incl_refl.
    intros y IN. apply (in_or_app (p :: T)). left. exact IN.
  - rewrite E in H. inversion H; subst. split; apply incl_refl.
Qed.
Lemma xconf_suitable : suitable xconf xsufs.
Proof.
  intros b c IN. destruct b as [|[|[|[|[|[|b]]]]]]; cbn in IN; try (destruct IN; fail).
  - destruct IN as [<- | []]. split; [discriminate|]. split; [cbn; intros [H | [H | []]]; discriminate | cbn; auto].
  - destruct IN as [<- | []]. split; [discriminate|]. split; [cbn; intros [H | [H | []]]; discriminate | cbn; auto].
  - destruct IN as [<- | [<- | []]]; (split; [discriminate|]); (split; [cbn; intros [H | [H | []]]; discriminate | cbn; auto]).
Qed.
Example C56_sources_witness :
  emitters_add xconf /\ suitable xconf xsufs /\ xsufs 0 = map lit [".o"; ".c"; ".cc"; ".y"; ".l"]%string /\
  execute xsub xconf xsufs 5 0 (Some [lit "prog"]) (nodes ["d/p.y"; "q.o"; "r.c"; "README"]%string) =
    Some ([cl 2 ["d/p.c"; "d/p.h"] ["d/p.y"]; cl 1 ["d/p.o"] ["d/p.c"]; cl 1 ["r.o"] ["r.c"]; cl 0 ["prog"] ["d/p.o"; "q.o"; "r.o"; "README"]]%string, [lit "prog"]) /\
  execute xsub xconf xsufs 5 1 None (nodes ["a.c"; "b.y"]%string) =
    Some ([cl 2 ["b.c"; "b.h"] ["b.y"]; cl 1 ["a.o"] ["a.c"]; cl 1 ["b.o"] ["b.c"]]%string, map lit ["a.o"; "b.o"]%string) /\
  execute xsub xconf xsufs 5 1 (Some [lit "t.o"]) (nodes ["a.c"; "b.y"]%string) = None /\
  execute xsub xconf xsufs 5 0 (Some [lit "prog"]) [Name (lit "q")] = Some ([cl 0 ["prog"%string] ["q.o"%string]], [lit "prog"]).
Proof. split; [apply xconf_adds|]. split; [apply xconf_suitable|]. split; [vm_compute; reflexivity|]. split; [vm_compute; reflexivity|]. split; [vm_compute; reflexivity|]. split; vm_compute; reflexivity. Qed.
(* the object builder is settled: what CFile makes is not taken by CFile again *)
Lemma tfs_ends : forall d pre suf l n, ends (d ++ target_from_source pre suf l n) suf.
Proof. intros d pre suf l n. unfold target_from_source. exists (d ++ pre ++ fst (match_splitext n l)). rewrite <- !app_assoc. reflexivity. Qed.
Lemma cfile_targets : forall subst conf sufs f b p log ts, b_subs (conf b) = [] -> b_emit (conf b) = yemit -> execute subst conf sufs f b None [Node p] = Some (log, ts) ->
  forall n, In n ts -> ends n (b_suffix (conf b)) \/ ends n (lit ".h").
Proof.
  intros subst conf sufs f b p log ts SB EM EX n INt. destruct f as [|f]; [discriminate|]. cbn [execute] in EX. rewrite SB in EX. cbn [length Nat.ltb Nat.leb] in EX. rewrite andb_false_r in EX.
  cbn [andb] in EX. unfold finish in EX. rewrite EM in EX. cbn [map adjust_item node_of] in EX. unfold yemit in EX.
  destruct (endswith p (lit ".y")); match type of EX with (if ?c then _ else _) = _ => destruct c; [discriminate|] end; inversion EX; subst; cbn [app In] in INt.
  - destruct INt as [<- | [<- | []]]; [left; apply tfs_ends | right; eexists; reflexivity].
  - destruct INt as [<- | []]. left. apply tfs_ends.
Qed.
Example C56l_witness : b_single (xconf 1) = true /\ settled xsub xconf xsufs 1.
Proof.
  split; [reflexivity|]. intros f p log ns n suf BC IN FS c IC. cbn in IC. destruct IC as [<- | []]. intros IS.
  change (xsufs 2) with (map lit [".y"; ".l"]%string) in IS.
  assert (forall q suf', first_suffix (xsufs 1) (node_name q) suf' -> In suf' (map lit [".y"; ".l"]%string) -> ends (node_name q) suf') as FE by (intros q suf' X _; apply X).
  inversion BC as [NS E1 E2 | suf1 F1 NT E1 E2 | suf1 c lg ts ns' F1 TK EX KP E1 E2]; subst.
  - destruct IN as [<- | []]. apply (NS suf); [|apply FS | apply FS]. destruct FS as [_ [_ [l1 [l2 [E _]]]]]. rewrite E. apply in_or_app; right; left; reflexivity.
  - destruct IN as [<- | []]. assert (suf = suf1) as ->.
    { destruct FS as [N1 [EN1 [a1 [a2 [A P1]]]]]. destruct F1 as [N2 [EN2 [b1 [b2 [B P2]]]]]. rewrite A in B. destruct (app_eq_app _ _ _ _ B) as [m [[X Y] | [X Y]]].
      - destruct m as [|z m]; cbn in Y; [congruence|]. inversion Y; subst. exfalso. apply (P1 z); [apply in_or_app; right; left; reflexivity | exact N2 | exact EN2].
      - destruct m as [|z m]; cbn in Y; [congruence|]. inversion Y; subst. exfalso. apply (P2 z); [apply in_or_app; right; left; reflexivity | exact N1 | exact EN1]. }
    apply (NT 2); [left; reflexivity | exact IS].
  - assert (c = 2) as -> by (apply taker_sub in TK; cbn in TK; destruct TK as [<- | []]; reflexivity).
    (* targets of CFile end with .c or .h *)
    assert (In n ts) as INt by (destruct KP as [[_ ->] | [_ [keep [-> _]]]]; [exact IN | apply filter_In in IN; apply IN]).
    assert (ends n (lit ".c") \/ ends n (lit ".h")) as EN.
    { exact (cfile_targets xsub xconf xsufs f 2 p log ts eq_refl eq_refl EX n INt). }
    assert (ends n suf) as ES. { apply name_ends; [|apply FS]. cbn in IS. destruct IS as [<- | [<- | []]]; cbn; intros [H | [H | []]]; discriminate. }
    cbn in IS. destruct EN as [EN | EN]; destruct IS as [<- | [<- | []]]; (assert (X := ends_same_length _ _ _ EN ES eq_refl)); discriminate X.
Qed.

(* without these conditions *)
Theorem C56_list_refuted : exists conf sufs b p q log res log1 res1, emitters_add conf /\ suitable conf sufs /\ b_single (conf b) = true /\
  execute (fun s => s) conf sufs 5 b None [Node p; Node q] = Some (log, res) /\ execute (fun s => s) conf sufs 5 b None [Node p] = Some (log1, res1) /\
  (exists t, hd t res = hd t res1) /\ ~ incl log1 log.
Proof.
  exists xconf, xsufs, 3, (lit "x.a"), (lit "y.a"),
    [cl 4 ["x.b"] ["x.a"]; cl 4 ["y.b"] ["y.a"]; cl 5 ["x.c"] ["x.b"]; cl 3 ["x.z"] ["x.c"]; cl 5 ["y.c"] ["y.b"]; cl 3 ["y.z"] ["y.c"]]%string, (map lit ["x.z"; "y.z"]%string),
    [cl 4 ["x.b"] ["x.a"]; cl 3 ["x.z"] ["x.b"]]%string, (map lit ["x.z"]%string).
  split; [apply xconf_adds|]. split; [apply xconf_suitable|]. split; [reflexivity|]. split; [vm_compute; reflexivity|]. split; [vm_compute; reflexivity|].
  split; [exists []; reflexivity|]. intros IN. specialize (IN (cl 3 ["x.z"%string] ["x.b"%string]) (or_intror (or_introl eq_refl))). cbn in IN. repeat (destruct IN as [IN | IN]; [discriminate IN|]). exact IN.
Qed.
(* a source builder that makes several files, none of which the builder can use, loses the source *)
Definition lconf (b : nat) : bconf :=
  match b with
  | 0 => bc "" [".o"%string] [1] false
  | 1 => {| b_suffix := lit ".h"; b_prefix := []; b_src := [lit ".y"]; b_subs := []; b_single := true; b_ensure := false; b_emit := fun t s => (t ++ [lit "y.output"], s) |}
  | _ => bc "" [] [] false
  end.
Theorem C56_source_lost_refuted : exists conf sufs f b ts p log c res, emitters_add conf /\ execute (fun s => s) conf sufs f b (Some ts) [Node p] = Some (log ++ [c], res) /\ c_bld c = b /\ c_sources c = [].
Proof.
  exists lconf, (fun b => match b with 0 => map lit [".o"; ".y"]%string | 1 => [lit ".y"] | _ => [] end), 5, 0, [lit "prog"], (lit "p.y"), [cl 1 ["p.h"; "y.output"]%string ["p.y"%string]], (cl 0 ["prog"%string] []), [lit "prog"].
  split; [|split; [vm_compute; reflexivity | split; reflexivity]]. intros b T S T' S' H. destruct b as [|[|b]]; cbn in H; inversion H; subst; split; try apply incl_refl. intros y IN. apply in_or_app; left; exact IN.
Qed.
(* a source named by a variable gets the default suffix although the value has it *)
Theorem C56_variable_suffix_refuted : exists subst conf sufs f b s log res c, subst s = lit "x.c" /\ sufs b = [lit ".c"] /\ execute subst conf sufs f b (Some [lit "t"]) [Name s] = Some (log, res) /\ In c log /\ c_sources c = [lit "x.c.c"].
Proof.
  exists xsub, (fun _ => bc "" [".c"%string] [] false), (fun _ => [lit ".c"]), 1, 0, (lit "$SRC"), [cl 0 ["t"%string] ["x.c.c"%string]], [lit "t"], (cl 0 ["t"%string] ["x.c.c"%string]).
  split; [reflexivity|]. split; [reflexivity|]. split; [vm_compute; reflexivity|]. split; [left; reflexivity | reflexivity].
Qed.
(* the first suffix that fits is taken, not the longest *)
Theorem C56_first_suffix_refuted : exists l name s1 s2, match_src_suffix l name = Some s1 /\ In s2 l /\ ends name s2 /\ length s1 < length s2 /\ snd (match_splitext name l) = s2.
Proof. exists (map lit [".c"; ".tab.c"]%string), (lit "p.tab.c"), (lit ".c"), (lit ".tab.c"). split; [reflexivity|]. split; [right; left; reflexivity|]. split; [exists (lit "p"); reflexivity|]. split; [cbn; lia | reflexivity]. Qed.
(* a suffix added to a builder that was used in the environment is not noticed *)
Definition oconf : objs := fun b => {| o_src := match b with 0 => [lit ".o"] | 1 => [lit ".c"] | _ => [] end; o_subs := match b with 0 => [1] | _ => [] end; o_memo := fun _ => None |}.
Theorem C56_new_suffix_refuted : exists h f env b o o1 r s, srun f oconf h = Some o /\ ask f env o b = Some (o1, r) /\ takes o b s /\ ~ In s r.
Proof.
  exists [Ask 7 0; SetSrc 1 (map lit [".c"; ".d"]%string)], 3, 7, 0. do 3 eexists. exists (lit ".d"). split; [reflexivity|]. split; [reflexivity|]. split.
  - apply (t_sub _ 0 1); [left; reflexivity|]. apply t_own. right; left; reflexivity.
  - cbn. intros H. repeat (destruct H as [H | H]; [discriminate H|]). exact H.
Qed.
Example C56n_witness : match srun 4 oconf ([SetSrc 1 (map lit ["c"; ".d"]%string)] ++ [Ask 7 0; AddSub 1 2; Ask 8 1; AddSub 0 3]) with
  | Some o => match ask 4 7 o 0 with Some (_, r) => r = map lit [".o"; ".c"; ".d"]%string | None => False end
  | None => False end.
Proof. vm_compute. reflexivity. Qed.
Print Assumptions C56l_each_source.
Print Assumptions C56m_names.
Print Assumptions C56n_suffixes_current.
