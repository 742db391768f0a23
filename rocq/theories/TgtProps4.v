(* C62: cases that meet the hypotheses, and refuted statements *)
From Coq Require Import Ascii String List Bool Arith Lia.
Import ListNotations. Open Scope list_scope.
From Verif Require Import NameModel OptModel OptSpec OptProps OptProps5 OptProps6 TgtModel TgtSpec TgtProps TgtProps2 TgtProps3.

(* SConstruct in /proj; scons is started in /proj/sub.  Default('old'); Default(None, sub/prog, lib); Default(docs) where docs is an alias; Default('.') *)
Definition top1 : path := [lit "proj"%string].
Definition sub1 : path := [lit "proj"%string; lit "sub"%string].
Definition has1 (p : path) : bool := path_eqb p top1.
Definition prog1 : tnode := NFile (sub1 ++ [lit "prog"%string]) (Some sub1).
Definition gen1 : tnode := NFile (sub1 ++ [lit "gen"%string]) (Some top1).        (* a target in sub/ of the script of the top directory *)
Definition lib1 : tnode := NFile (top1 ++ [lit "lib.a"%string]) (Some top1).
Definition docs1 : tnode := NOther (lit "docs"%string).
Definition old1 : tnode := NFile (top1 ++ [lit "old"%string]) (Some top1).
Definition hs1 : list sop := [ODefault [DNodes [old1]]; ODefault [DNone; DNodes [prog1; lib1]; DNodes [gen1]]; ODefault [DNodes [docs1; NDir top1]]].
Definition ns1 : list tnode := [prog1; lib1; gen1; docs1; NDir top1].
Definition alias1 (x : word) : option tnode := if str_eqb x (lit "docs"%string) then Some docs1 else None.
Definition entry1 (p : path) : tnode := if path_eqb p sub1 || path_eqb p top1 then NDir p else NFile p (Some top1).
Definition src1 (p : path) : path := p.
Lemma real_sub1 : real sub1.
Proof. unfold real, sub1. repeat constructor; discriminate. Qed.
Lemma placed1 : forall c, c <> NoClimb -> placed has1 c sub1 top1 (Some [lit "sub"%string]).
Proof. intros c N. destruct c; [congruence | ..]; eexists; (split; [vm_compute; reflexivity | reflexivity]). Qed.
Lemma defaults1 : default_targets hs1 ns1.
Proof.
  exists [DNodes [old1]; DNone], [DNodes [prog1; lib1]; DNodes [gen1]; DNodes [docs1; NDir top1]]. split; [reflexivity|]. split; [right; exists [DNodes [old1]]; reflexivity|]. split; [cbn; intuition; discriminate | reflexivity].
Qed.
(* -u keeps sub/prog and sub/gen, the alias, and sub in place of the top directory; -U keeps sub/prog and the alias; -D keeps them all; lib.a and sub/x named in sub are sub/lib.a and sub/sub/x; #lib.a is lib.a *)
Theorem C62_case : real sub1 /\ placed has1 LittleU sub1 top1 (Some [lit "sub"%string]) /\ default_targets hs1 ns1 /\ default_called hs1 /\
  build_targets alias1 entry1 src1 top1 (scripts hs1 (started [] [])) [] LittleU (Some [lit "sub"%string]) = Some [prog1; gen1; docs1; NDir sub1] /\
  build_targets alias1 entry1 src1 top1 (scripts hs1 (started [] [])) [] BigU (Some [lit "sub"%string]) = Some [prog1; docs1] /\
  build_targets alias1 entry1 src1 top1 (scripts hs1 (started [] [])) [] BigD (Some [lit "sub"%string]) = Some ns1 /\
  build_targets alias1 entry1 src1 top1 (scripts [] (started [] [])) [] LittleU (Some [lit "sub"%string]) = Some [NDir sub1] /\
  build_targets alias1 entry1 src1 top1 (scripts hs1 (started (map lit ["lib.a"; "docs"; "#lib.a"; "../x/./y"]%string) [])) (map lit ["lib.a"; "docs"; "#lib.a"; "../x/./y"]%string) LittleU (Some [lit "sub"%string])
    = Some [NFile (sub1 ++ [lit "lib.a"%string]) (Some top1); docs1; lib1; NFile (map lit ["proj"; "x"; "y"]%string) (Some top1)].
Proof.
  split; [exact real_sub1|]. split; [apply placed1; discriminate|]. split; [exact defaults1|]. split; [exists [DNodes [old1]]; left; reflexivity|].
  repeat split; vm_compute; reflexivity.
Qed.
(* a script that appends to BUILD_TARGETS and one that clears it *)
Theorem C62_case_hand : forall ts, let h1 := [ODefault [DNodes [prog1]]; OHand (fun l => l ++ [TNode lib1])] in let h2 := [ODefault [DNodes [prog1]]; OHand (fun _ => [])] in
  build (scripts h1 (started ts [])) <> build (scripts (official h1) (started ts [])) /\
  (ts = [] -> build_targets alias1 entry1 src1 top1 (scripts h1 (started ts [])) ts BigU (Some [lit "sub"%string]) = Some [prog1; lib1]) /\
  build_targets alias1 entry1 src1 top1 (scripts h2 (started ts [])) ts BigU (Some [lit "sub"%string]) = None.
Proof.
  intros ts h1 h2. split; [|split].
  - unfold started. rewrite app_nil_r. destruct ts as [|x l]; [vm_compute; discriminate|]. cbn. intros X. injection X as X. apply (f_equal (@length tgt)) in X. rewrite app_length in X. cbn in X. lia.
  - intros ->. vm_compute. reflexivity.
  - unfold started. rewrite app_nil_r. destruct ts as [|x l]; [vm_compute; reflexivity|]. reflexivity.
Qed.
Theorem C62_case_line : exists p0 rest r, OptModel.start B1 D1 S1 argv1 = inl (p0, rest) /\
  build_targets alias1 entry1 src1 top1 (scripts hs1 (started (cl_targets (largs p0) []) rest)) (cl_targets (largs p0) []) LittleU (Some [lit "sub"%string]) = Some r /\
  r = [NFile (sub1 ++ [lit "prog"%string]) (Some top1); NFile (sub1 ++ [lit "-odd"%string]) (Some top1)].
Proof.
  destruct C61_case as (PR & LN & ONE & ACC).
  destruct (C62h_command_line B1 D1 S1 kinds1 h1 argv1 its1 PR LN ACC alias1 entry1 src1 has1 LittleU sub1 top1 (Some [lit "sub"%string]) hs1 real_sub1 (placed1 LittleU ltac:(discriminate))) as (p0 & rest & r & H1 & H2 & H3).
  - intros f H. cbn in H. intuition; discriminate.
  - vm_compute. discriminate.
  - exists p0, rest, r. split; [exact H1|]. split; [exact H2|].
    assert (X : forall x n, In x ["prog"; "-odd"]%string -> stands_for alias1 entry1 top1 sub1 (TName (lit x)) n -> n = NFile (sub1 ++ [lit x]) (Some top1)).
    { intros x n Hx Hs. assert (A : alias1 (lit x) = None) by (destruct Hx as [<-|[<-|[]]]; vm_compute; reflexivity).
      assert (M : means top1 sub1 (lit x) (sub1 ++ [lit x])).
      { destruct Hx as [<-|[<-|[]]]; (match goal with |- means _ _ ?x _ => apply (means_rel _ _ x [x]) end; [intros r0 K; discriminate K | intros r0 K; discriminate K | split; [|split; [reflexivity | repeat constructor; vm_compute; intuition; discriminate]]; discriminate |]);
        (apply st_down; [discriminate | discriminate | discriminate | apply st_end]). }
      inversion Hs as [n0 E1 E2|w0 n0 A1 E1 E2|w0 q A1 M1 E1 E2]; subst; [congruence|]. rewrite (C62_means_one _ _ _ _ _ M1 M). destruct Hx as [<-|[<-|[]]]; vm_compute; reflexivity. }
    change (map TName _) with [TName (lit "prog"%string); TName (lit "-odd"%string)] in H3. inversion H3 as [|a b l m F1 F2]; subst. inversion F2 as [|a' b' l' m' F3 F4]; subst. inversion F4; subst.
    rewrite (X "prog"%string b), (X "-odd"%string b'); [reflexivity | cbn; auto | exact F3 | cbn; auto | exact F1].
Qed.
(* a name after -- is a target too: refuted.  scons -- foo: COMMAND_LINE_TARGETS and BUILD_TARGETS are [foo], but the targets of Default (or .) are built *)
Theorem C62_dashdash_refuted : exists h foo, let s := scripts h (started [] [foo]) in cmdline s = [foo] /\ build s = [TName foo] /\
  build_targets alias1 entry1 src1 top1 s [] NoClimb None = Some [lib1] /\ ~ stands_for alias1 entry1 top1 top1 (TName foo) lib1.
Proof.
  exists [ODefault [DNodes [lib1]]], (lit "foo"%string). repeat split; try (vm_compute; reflexivity). intros H. inversion H as [n0 E1 E2|w0 n0 A1 E1 E2|w0 q A1 M1 E1 E2]; [subst; discriminate A1|]. subst w0.
  assert (M : means top1 top1 (lit "foo"%string) (top1 ++ [lit "foo"%string])).
  { apply (means_rel _ _ _ [lit "foo"%string]); [intros r0 K; discriminate K | intros r0 K; discriminate K | split; [|split; [reflexivity | repeat constructor; vm_compute; intuition; discriminate]]; discriminate |].
    apply st_down; [discriminate | discriminate | discriminate | apply st_end]. }
  rewrite (C62_means_one _ _ _ _ _ M1 M) in E2. vm_compute in E2. discriminate.
Qed.
(* the target that the script of the directory names with Default is built by scons -U there: refuted for a directory below it *)
Theorem C62_U_directory_refuted : exists h, default_targets h [NDir (sub1 ++ [lit "lib"%string])] /\
  build_targets alias1 entry1 src1 top1 (scripts h (started [] [])) [] BigU (Some [lit "sub"%string]) = None.
Proof.
  exists [ODefault [DNodes [NDir (sub1 ++ [lit "lib"%string])]]]. split; [|vm_compute; reflexivity]. exists [], [DNodes [NDir (sub1 ++ [lit "lib"%string])]]. repeat split; [left; reflexivity | cbn; intuition; discriminate].
Qed.
(* without any Default, -U is like -u: refuted, there are no targets *)
Theorem C62_U_no_default_refuted : ~ default_called [] /\ build_targets alias1 entry1 src1 top1 (scripts [] (started [] [])) [] BigU (Some [lit "sub"%string]) = None /\
  build_targets alias1 entry1 src1 top1 (scripts [] (started [] [])) [] LittleU (Some [lit "sub"%string]) = Some [NDir sub1].
Proof. split; [intros (l & []) | split; vm_compute; reflexivity]. Qed.
(* a name that the SConstruct adds to BUILD_TARGETS means the same file wherever scons is started: refuted *)
Theorem C62_hand_names_refuted : exists h, (forall o, In o h -> o = OHand (fun l => l ++ [TName (lit "lib.a"%string)])) /\
  build_targets alias1 entry1 src1 top1 (scripts h (started [] [])) [] NoClimb None = Some [lib1] /\
  build_targets alias1 entry1 src1 top1 (scripts h (started [] [])) [] LittleU (Some [lit "sub"%string]) = Some [NFile (sub1 ++ [lit "lib.a"%string]) (Some top1)].
Proof. exists [OHand (fun l => l ++ [TName (lit "lib.a"%string)])]. split; [intros o [<-|[]]; reflexivity | split; vm_compute; reflexivity]. Qed.

Print Assumptions C62_case.
Print Assumptions C62_case_hand.
Print Assumptions C62_case_line.
Print Assumptions C62_dashdash_refuted.
Print Assumptions C62_U_directory_refuted.
Print Assumptions C62_U_no_default_refuted.
Print Assumptions C62_hand_names_refuted.
