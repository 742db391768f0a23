(* C60: the theorems *)
From Coq Require Import List Bool Arith Lia.
Import ListNotations.
From Verif Require Import SconModel SconSpec SconProps SconProps2 SconProps3.

(* SConscriptChdir(False) is not called anywhere in a script *)
Fixpoint quiet (c : stmt) : bool :=
  let all := fix all (b : list stmt) := match b with [] => true | c :: r => quiet c && all r end in
  match c with
  | SChdir b => b
  | SIf _ a b => all a && all b
  | SFunc b => all b
  | STry b h => all b && all h
  | _ => true
  end.
Definition all_quiet (b : list stmt) : bool := forallb quiet b.
Lemma quiet_all : forall b, (fix all (b : list stmt) := match b with [] => true | c :: r => quiet c && all r end) b = all_quiet b.
Proof. induction b as [|c b IH]; [reflexivity|]. cbn [all_quiet forallb]. rewrite IH. reflexivity. Qed.

Section Thms.
Variable scripts : dir * nat -> option (list stmt).
Variable g0 : ns.
Variable no_missing : bool.
Notation runs := (SconSpec.runs scripts g0 no_missing).
Notation does := (SconSpec.does scripts g0 no_missing).
Notation reads := (SconSpec.reads scripts g0 no_missing).
Notation reads1 := (SconSpec.reads1 scripts g0 no_missing).
Notation run := (SconModel.run scripts g0 no_missing).
Notation one_file := (SconModel.one_file scripts g0 no_missing).
Notation all_files := (SconModel.all_files scripts g0 no_missing).
Notation do_stmt := (SconModel.do_stmt scripts g0 no_missing).
Notation read_all := (SconModel.read_all scripts g0 no_missing).

Lemma start_Rw : forall input, Rw (world0 input) (start input).
Proof. intros input. split; reflexivity. Qed.
Lemma start_Rc : forall input, Rc 0 scope0 (start input).
Proof. intros input. split; reflexivity. Qed.
(* C60a: reading the SConstruct files ends, with some outcome, some values and some output, exactly if the rules say so *)
Theorem C60a_scripts_behave : forall files input o vs,
  (forall n s, read_all n files input = Some (o, vs, s) -> exists w, reads scope0 None files [] true (world0 input) o vs w /\ out s = shown w /\ gex s = exported w /\ ocwd s = osdir w) /\
  (forall w, reads scope0 None files [] true (world0 input) o vs w -> exists n s, read_all n files input = Some (o, vs, s) /\ out s = shown w /\ gex s = exported w /\ ocwd s = osdir w).
Proof.
  intros files input o vs. split.
  - intros n s H. destruct (all_files_sound scripts g0 no_missing (run n) (run_sound scripts g0 no_missing n) _ _ _ _ _ _ _ _ _ _ scope0 (world0 input) H (start_Rw input) (start_Rc input)) as (w & vs2 & -> & X & W & _); [cbn; lia | intros a []|].
    exists w. split; [exact X|]. split; [apply W | split; apply W].
  - intros w H. destruct (complete scripts g0 no_missing) as (_ & _ & C & _).
    destruct (C _ _ _ _ _ _ _ _ _ H 0 (start input) (start_Rw input) (start_Rc input)) as (n & s & E & W & _); [cbn; lia | intros a []|].
    destruct (E n [] (le_n n)) as (vs2 & E2 & ->). exists n, s. split; [exact E2|]. split; [apply W | split; apply W].
Qed.

(* more fuel does not change a result *)
Definition below (r1 r2 : runner) : Prop := forall me b l s r, r1 me b l s = Some r -> r2 me b l s = Some r.
Lemma one_below : forall r1 r2, below r1 r2 -> forall me l ex mx f s r, one_file r1 me l ex mx f s = Some r -> one_file r2 me l ex mx f s = Some r.
Proof.
  intros r1 r2 Hr me l ex mx f s r Hf. unfold SconModel.one_file in *. destruct (compute_exports _ _ _ _); [|exact Hf]. cbv zeta in *. destruct (is_stdin f).
  - destruct (r1 _ _ _ _) as [p|] eqn:E1; [|discriminate]. rewrite (Hr _ _ _ _ _ E1). exact Hf.
  - destruct (scripts _); [|exact Hf]. destruct (r1 _ _ _ _) as [p|] eqn:E1; [|discriminate]. rewrite (Hr _ _ _ _ _ E1). exact Hf.
Qed.
Lemma all_below : forall r1 r2, below r1 r2 -> forall me l ex mx fns acc s r, all_files r1 me l ex mx fns acc s = Some r -> all_files r2 me l ex mx fns acc s = Some r.
Proof.
  intros r1 r2 Hr me l ex mx fns. induction fns as [|f fns IH]; intros acc s r Hf; cbn [SconModel.all_files] in *; [exact Hf|].
  destruct (one_file r1 me l ex mx f s) as [p|] eqn:E1; [|discriminate]. rewrite (one_below r1 r2 Hr _ _ _ _ _ _ _ E1). destruct p as [[[|e] v] s1]; [apply IH; exact Hf | exact Hf].
Qed.
Lemma stmt_below : forall r1 r2, below r1 r2 -> forall me c l s r, do_stmt r1 me c l s = Some r -> do_stmt r2 me c l s = Some r.
Proof.
  intros r1 r2 Hr me c l s r Hc. unfold SconModel.do_stmt in *. destruct c as [x e|e| |e a b|b|b h|k0|args kw|args|xs stop|x fns ex mx|b]; try exact Hc.
  - destruct (eval _ _ e) as [[|[|k1]|[|u k1]]|]; try exact Hc; apply Hr; exact Hc.
  - destruct (r1 me b (Some nempty) s) as [p|] eqn:E1; [|discriminate]. rewrite (Hr _ _ _ _ _ E1). exact Hc.
  - destruct (r1 me b l s) as [p|] eqn:E1; [|discriminate]. rewrite (Hr _ _ _ _ _ E1). destruct p as [[[|e] l1] s1]; [exact Hc | apply Hr; exact Hc].
  - destruct (negb _); [exact Hc|]. destruct (all_files r1 me l ex mx fns [] s) as [p|] eqn:E1; [|discriminate]. rewrite (all_below r1 r2 Hr _ _ _ _ _ _ _ _ E1). exact Hc.
Qed.
Lemma run_below : forall a c, a <= c -> below (run a) (run c).
Proof.
  induction a as [|a IH]; intros c Hc me b l s r Hr; [discriminate|]. destruct c as [|c]; [lia|]. cbn [SconModel.run] in *. destruct b as [|x b]; [exact Hr|].
  destruct (do_stmt (run a) me x l s) as [p|] eqn:E1; [|discriminate]. rewrite (stmt_below (run a) (run c) (IH c (le_S_n _ _ Hc)) _ _ _ _ _ E1).
  destruct p as [[[|e] l1] s1]; [apply (IH c); [lia | exact Hr] | exact Hr].
Qed.
(* C60b: scripts that end have one result *)
Theorem C60b_one_result : forall n m files input r1 r2, read_all n files input = Some r1 -> read_all m files input = Some r2 -> r1 = r2.
Proof.
  intros n m files input r1 r2 H1 H2. apply (all_below _ (run (n + m)) (run_below n (n + m) (Nat.le_add_r n m))) in H1. apply (all_below _ (run (n + m)) (run_below m (n + m) (Nat.le_add_l m n))) in H2.
  change (all_files (run (n + m)) 0 None [] true files [] (start input) = Some r1) in H1. change (all_files (run (n + m)) 0 None [] true files [] (start input) = Some r2) in H2. congruence.
Qed.

(* C60c: whatever the scripts called do and however they end, the caller's variables (and those of all other scripts being read) are what they were, and so are the
   call stack, the directory for names, the module path and the nesting depth *)
Theorem C60c_caller_untouched : forall n me l ex mx fns s o vs s2, me < length (heap s) -> dicts_ok l (fglobals (frame_of s me)) ex = true ->
  all_files (run n) me l ex mx fns [] s = Some (o, vs, s2) ->
  (forall i, i < length (heap s) -> frame_of s2 i = frame_of s i) /\ stack s2 = stack s /\ fcwd s2 = fcwd s /\ spath s2 = spath s /\ reading s2 = reading s.
Proof.
  intros n me l ex mx fns s o vs s2 L D H.
  set (sc := {| vars := fglobals (frame_of s me); given := nempty; here := fcwd s; path := spath s; depth := reading s; ret := VNone |}).
  set (w := {| exported := gex s; osdir := ocwd s; chdir_on := chf s; input := stdin s; shown := out s |}).
  destruct (all_files_sound scripts g0 no_missing (run n) (run_sound scripts g0 no_missing n) _ _ _ _ _ _ _ _ _ _ sc w H) as (w2 & vs2 & _ & _ & _ & _ & K).
  - split; reflexivity.
  - split; reflexivity.
  - exact L.
  - apply (proj1 (dicts_spec l sc ex)). exact D.
  - split; [intros i Hi; apply (k_frames _ _ _ K); [exact Hi | intros []]|]. split; [apply K|]. split; [apply K|]. split; apply K.
Qed.

(* C60d: unless SConscriptChdir(False) is called, the directory of the process is that of the script being read, at all times *)
Definition aligned (e : event) : Prop := match e with EvLook fs os _ _ => fs = os | EvPrint _ => True end.
Definition fine (w : world) (d : dir) : Prop := chdir_on w = true /\ osdir w = d /\ all_quiet (input w) = true /\ Forall aligned (shown w).
Lemma moved_fine : forall w d d2, fine w d -> fine (moved w d2) d2.
Proof. intros w d d2 (A & B & C & D). unfold moved. rewrite A. repeat split; cbn; auto. Qed.
Hypothesis Q : forall f b, scripts f = Some b -> all_quiet b = true.
Lemma stay_aligned :
  (forall c sc l w o sc2 l2 w2, does c sc l w o sc2 l2 w2 -> quiet c = true -> fine w (here sc) -> fine w2 (here sc) /\ here sc2 = here sc) /\
  (forall b sc l w o sc2 l2 w2, runs b sc l w o sc2 l2 w2 -> all_quiet b = true -> fine w (here sc) -> fine w2 (here sc) /\ here sc2 = here sc) /\
  (forall sc l fns ex mx w o vs w2, reads sc l fns ex mx w o vs w2 -> fine w (here sc) -> fine w2 (here sc)) /\
  (forall sc l fn ex mx w o v w2, reads1 sc l fn ex mx w o v w2 -> fine w (here sc) -> fine w2 (here sc)).
Proof.
  assert (B : forall l sc x v l2 sc2, binds l sc x v = (l2, sc2) -> here sc2 = here sc) by (intros [g|] sc x v l2 sc2 E; injection E as <- <-; reflexivity).
  apply spec_mut; try (intros; split; [assumption | reflexivity]).
  - intros x e v sc l w l2 sc2 _ E _ F. split; [exact F | apply (B _ _ _ _ _ _ E)].
  - intros e v sc l w _ _ (A1 & A2 & A3 & A4). split; [|reflexivity]. repeat split; auto. cbn. apply Forall_app. split; [exact A4 | repeat constructor].
  - intros sc l w _ (A1 & A2 & A3 & A4). split; [|reflexivity]. repeat split; auto. cbn. apply Forall_app. split; [exact A4|]. constructor; [cbn; congruence | constructor].
  - intros e v a b sc l w o sc2 l2 w2 _ _ _ IH H F. cbn [quiet] in H. rewrite !quiet_all in H. apply andb_true_iff in H. apply IH; [apply H | exact F].
  - intros e v a b sc l w o sc2 l2 w2 _ _ _ IH H F. cbn [quiet] in H. rewrite !quiet_all in H. apply andb_true_iff in H. apply IH; [apply H | exact F].
  - intros b sc l w o sc2 l2 w2 _ IH H F. cbn [quiet] in H. rewrite quiet_all in H. apply (IH H F).
  - intros b h sc l w sc2 l2 w2 _ IH H F. cbn [quiet] in H. rewrite !quiet_all in H. apply andb_true_iff in H. apply IH; [apply H | exact F].
  - intros b h e sc l w sc2 l2 w2 o sc3 l3 w3 _ IH _ IH2 H F. cbn [quiet] in H. rewrite !quiet_all in H. apply andb_true_iff in H. destruct H as [H1 H2]. destruct (IH H1 F) as [F2 E2].
    rewrite <- E2 in F2. destruct (IH2 H2 F2) as [F3 E3]. rewrite E2 in F3, E3. auto.
  - intros x fns ex me sc l w vs v w2 l2 sc2 _ _ IH _ E _ F. split; [apply IH; exact F | apply (B _ _ _ _ _ _ E)].
  - intros x fns ex me sc l w vs w2 e _ _ IH _ F. split; [apply IH; exact F | reflexivity].
  - intros b sc l w H (A1 & A2 & A3 & A4). cbn in H. subst b. split; [|reflexivity]. repeat split; auto.
  - intros c r e sc l w sc2 l2 w2 _ IH H F. cbn [all_quiet forallb] in H. apply andb_true_iff in H. apply IH; [apply H | exact F].
  - intros c r o sc l w sc2 l2 w2 sc3 l3 w3 _ IH _ IH2 H F. cbn [all_quiet forallb] in H. apply andb_true_iff in H. destruct H as [H1 H2]. destruct (IH H1 F) as [F2 E2].
    rewrite <- E2 in F2. destruct (IH2 H2 F2) as [F3 E3]. rewrite E2 in F3, E3. auto.
  - intros sc l ex me w F. exact F.
  - intros sc l f r ex me w e v w2 _ IH F. apply IH. exact F.
  - intros sc l f r ex me w v w2 o vs w3 _ IH _ IH2 F. apply IH2, IH, F.
  - intros sc l f ex me w _ F. exact F.
  - intros sc l f ex me w h d n body o sc2 l2 w2 _ _ Hs _ IH F.
    assert (F1 : fine (moved (with_osdir w []) d) (here (called g0 sc h d))) by (apply (moved_fine _ []); destruct F as (A1 & A2 & A3 & A4); repeat split; auto).
    destruct (IH (Q _ _ Hs) F1) as [F2 _]. apply (moved_fine _ _ _ F2).
  - intros sc l f ex me w h d n _ _ _ F. apply (moved_fine _ []). destruct F as (A1 & A2 & A3 & A4). repeat split; auto.
  - intros sc l ex me w h o sc2 l2 w2 _ _ IH F. destruct F as (A1 & A2 & A3 & A4). destruct (IH A3) as [F2 _]; [repeat split; auto|]. apply (moved_fine _ _ _ F2).
Qed.
Theorem C60d_process_directory : forall files input n o vs s, all_quiet input = true -> read_all n files input = Some (o, vs, s) ->
  (forall fs os p d, In (EvLook fs os p d) (out s) -> os = fs) /\ ocwd s = [].
Proof.
  intros files input n o vs s Hq H. destruct (proj1 (C60a_scripts_behave files input o vs) n s H) as (w & X & -> & _ & ->).
  destruct stay_aligned as (_ & _ & S3 & _). destruct (S3 _ _ _ _ _ _ _ _ _ X) as (_ & A & _ & F); [repeat split; [exact Hq | constructor]|].
  split; [|exact A]. intros fs os p d Hi. rewrite Forall_forall in F. symmetry. apply (F _ Hi).
Qed.
End Thms.

(* ---- cases ---- *)
Definition x := 1. Definition y := 2. Definition z := 3. Definition r := 4.
Definition two : dir * nat -> option (list stmt) := fun f =>
  match f with
  | ([], 0) => Some [SSet x (EVal (VAtom 10)); SSet y (EVal (VAtom 20)); SExport [[XName x; XName y]] []; SSet x (EVal (VAtom 11)); SLook;
                     SCall r [FRel [7] 0; FRel [8] 0] [XName x] true; SPrint (EVar r); SPrint (EVar x); SLook]
  | ([7], 0) => Some [SImport [IName x; IName y]; SPrint (EVar x); SPrint (EVar y); SSet x (EVal (VAtom 99)); SSet z (EVar y); SLook;
                      STry [SCall r [FRel [] 5] [] true] [SPrint (EVal (VAtom 404))]; SFunc [SSet z (EVal (VAtom 5)); SExport [[XName z]] []]; SReturn [z; y] true; SPrint (EVal (VAtom 0))]
  | ([8], 0) => Some [SImport [IStar]; SPrint (EVar z); SCall r [FTop [7] 1] [] false; SReturn [r] false; SLook]
  | _ => None
  end.
Definition shown_by_two : list event :=
  [EvLook [] [] [[]] 1; EvPrint (VAtom 11); EvPrint (VAtom 20); EvLook [7] [7] [[7]; []] 2; EvPrint (VAtom 404); EvPrint (VAtom 5); EvLook [8] [8] [[8]; []] 2;
   EvPrint (VTuple [VTuple [VAtom 20; VAtom 20]; VNone]); EvPrint (VAtom 11); EvLook [] [] [[]] 1].
Example C60_case_two_scripts : exists w, SconSpec.reads two nempty true scope0 None [FRel [] 0] [] true (world0 []) ONorm [VNone] w /\ shown w = shown_by_two.
Proof.
  destruct (read_all two nempty true 30 [FRel [] 0] []) as [[[o vs] s]|] eqn:E; [|vm_compute in E; discriminate].
  assert (o = ONorm /\ vs = [VNone] /\ out s = shown_by_two) as (-> & -> & Eo) by (vm_compute in E; injection E as <- <- <-; repeat split; vm_compute; reflexivity).
  destruct (proj1 (C60a_scripts_behave two nempty true [FRel [] 0] [] ONorm [VNone]) 30 s E) as (w & X & Ew & _). exists w. split; [exact X | congruence].
Qed.
Example C60_case_directory : forall n o vs s, read_all two nempty true n [FRel [] 0] [] = Some (o, vs, s) -> ocwd s = [] /\ forall fs os p d, In (EvLook fs os p d) (out s) -> os = fs.
Proof.
  intros n o vs s H. destruct (C60d_process_directory two nempty true) with (files := [FRel [] 0]) (input := @nil stmt) (n := n) (o := o) (vs := vs) (s := s) as [A B]; [|reflexivity | exact H | auto].
  intros [d k] b Hb. destruct d as [|a d]; [destruct k as [|k]; [injection Hb as <-; reflexivity | discriminate]|].
  do 9 (destruct a as [|a]; [destruct d as [|d2 d], k as [|k]; try discriminate Hb; injection Hb as <-; reflexivity|]). discriminate Hb.
Qed.
(* ---- claims that fail ---- *)
Definition one (b sub : list stmt) : dir * nat -> option (list stmt) := fun f => match f with ([], 0) => Some b | ([7], 0) => Some sub | _ => None end.
Definition result (p : dir * nat -> option (list stmt)) (files : list fname) (input : list stmt) : option (outcome * list val * list event) :=
  match read_all p nempty true 30 files input with Some (o, vs, s) => Some (o, vs, out s) | None => None end.
(* reading the scripts never ends with the exception Return uses: it does when they come from standard input *)
Theorem C60_return_stdin_refuted : ~ forall p files input n o vs s, read_all p nempty true n files input = Some (o, vs, s) -> o <> OExc RetExc.
Proof. intros H. apply (H (fun _ => None) [FStdin] [SReturn [] true] 30 (OExc RetExc) [] (snd (match read_all (fun _ => None) nempty true 30 [FStdin] [SReturn [] true] with Some a => a | None => (ONorm, [], start []) end))); vm_compute; reflexivity. Qed.
(* ... and then the script that called it ends as well, without a message *)
Example C60_return_stdin_ends_caller : result (one [SCall r [FStdin] [] true; SPrint (EVal (VAtom 1))] []) [FRel [] 0] [SReturn [] true] = Some (ONorm, [VNone], []).
Proof. vm_compute. reflexivity. Qed.
(* nothing after a Return is executed: it is, where exceptions are caught *)
Theorem C60_return_stops_refuted : ~ forall xs (a b : list stmt) o vs ev, result (one [STry (SReturn xs true :: a) b] []) [FRel [] 0] [] = Some (o, vs, ev) -> ev = [].
Proof. intros H. assert (E := H [] [] [SPrint (EVal (VAtom 1))] ONorm [VTuple []] [EvPrint (VAtom 1)]). specialize (E ltac:(vm_compute; reflexivity)). discriminate. Qed.
(* Return can return any variable in scope: not the local ones of a function, although Export can export them *)
Theorem C60_return_local_refuted : ~ forall v k, exists vs ev, result (one [SFunc [SSet k (EVal v); SReturn [k] true]] []) [FRel [] 0] [] = Some (ONorm, vs, ev).
Proof. intros H. destruct (H (VAtom 1) x) as (vs & ev & E). vm_compute in E. discriminate. Qed.
(* the directory of the process is restored after a script: not after SConscriptChdir(False) in it *)
Theorem C60_process_directory_refuted : ~ forall p n me l ex mx fns s o vs s2, me < length (heap s) -> ocwd s = fcwd s -> chf s = true ->
  all_files p nempty true (run p nempty true n) me l ex mx fns [] s = Some (o, vs, s2) -> ocwd s2 = ocwd s.
Proof.
  intros H. set (s := start []). set (p := one [] [SChdir false]).
  destruct (all_files p nempty true (run p nempty true 30) 0 None [] true [FRel [7] 0] [] s) as [[[o vs] s2]|] eqn:E; [|vm_compute in E; discriminate].
  assert (A := H p 30 0 None [] true [FRel [7] 0] s o vs s2 ltac:(cbn; lia) eq_refl eq_refl E). vm_compute in E. injection E as <- <- <-. vm_compute in A. discriminate.
Qed.
Print Assumptions C60a_scripts_behave. Print Assumptions C60b_one_result. Print Assumptions C60c_caller_untouched. Print Assumptions C60d_process_directory. Print Assumptions C60_case_two_scripts. Print Assumptions C60_case_directory.
Print Assumptions C60_return_stdin_refuted. Print Assumptions C60_return_stops_refuted. Print Assumptions C60_return_local_refuted. Print Assumptions C60_process_directory_refuted.
