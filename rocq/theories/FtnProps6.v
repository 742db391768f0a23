(* C79: a case, and what is not true. *)
From Coq Require Import Ascii String List Bool Arith Lia.
From Verif Require Import SubstModel FtnModel FtnSpec FtnProps FtnProps2 FtnProps3 FtnProps4 FtnProps5.
Import ListNotations.
Open Scope list_scope.

Lemma use_name p m : UseStatement p m -> option_map fst (use p) = Some m.
Proof. intros H. destruct (use_complete true p m H) as [a [r [_ U]]]. specialize (U [] (or_introl eq_refl)). rewrite app_nil_r in U. rewrite U. reflexivity. Qed.
Definition zz : text := lit "zz".
Lemma zz_name : Name zz.
Proof. split; [discriminate|]. repeat (constructor; [unfold letter; cbn; lia|]). constructor. Qed.
Lemma intrinsic_kw : Keyword "intrinsic" (lit "intrinsic").
Proof. repeat (constructor; [left; reflexivity|]). constructor. Qed.
Lemma begun_use p : UseBegun p -> existsb (fun s => match use (p ++ lit s) with Some (m, _) => str_eqb m zz | None => false end) [" zz"; "intrinsic::zz"; "::zz"; "zz"]%string = true.
Proof.
  intros B. apply existsb_exists. assert (K : forall s, UseStatement (p ++ lit s) zz -> match use (p ++ lit s) with Some (m, _) => str_eqb m zz | None => false end = true).
  { intros s H. apply use_name in H. destruct (use (p ++ lit s)) as [[m r]|]; [|discriminate]. cbn [option_map fst] in H. injection H as ->. apply str_eqb_spec. reflexivity. }
  assert (Sp : white " "%char) by (unfold white; cbn; lia). assert (St : Stop []) by (left; reflexivity).
  destruct B as [b u w Wb Ku Ww | b u w w2 Wb Ku Ww W2 | b u n w Wb Ku Hn Ww | b u n w w2 Wb Ku Hn Ww W2].
  - exists " zz"%string. split; [cbn [In]; tauto|]. apply K.
    replace ((b ++ u ++ w) ++ lit " zz") with (b ++ u ++ (w ++ [" "%char]) ++ zz ++ []) by (repeat (rewrite <- ?app_assoc; cbn [app]); reflexivity).
    apply U_plain; try assumption; [apply Forall_app; split; [exact Ww | constructor; [exact Sp | constructor]] | destruct w; discriminate | exact zz_name].
  - exists "intrinsic::zz"%string. split; [cbn [In]; tauto|]. apply K.
    replace ((b ++ u ++ w ++ ","%char :: w2) ++ lit "intrinsic::zz") with (b ++ u ++ (w ++ ","%char :: w2 ++ lit "intrinsic") ++ [] ++ ":"%char :: ":"%char :: [] ++ zz ++ [])
      by (repeat (rewrite <- ?app_assoc; cbn [app]); reflexivity).
    apply U_colons; try assumption; [right; exists w, w2, (lit "intrinsic"); repeat split; try assumption; left; exact intrinsic_kw | constructor | constructor | exact zz_name].
  - exists "::zz"%string. split; [cbn [In]; tauto|]. apply K.
    replace ((b ++ u ++ n ++ w) ++ lit "::zz") with (b ++ u ++ n ++ w ++ ":"%char :: ":"%char :: [] ++ zz ++ []) by (repeat (rewrite <- ?app_assoc; cbn [app]); reflexivity).
    apply U_colons; try assumption; [right; exact Hn | constructor | exact zz_name].
  - exists "zz"%string. split; [cbn [In]; tauto|]. apply K.
    replace ((b ++ u ++ n ++ w ++ ":"%char :: ":"%char :: w2) ++ lit "zz") with (b ++ u ++ n ++ w ++ ":"%char :: ":"%char :: w2 ++ zz ++ []) by (repeat (rewrite <- ?app_assoc; cbn [app]); reflexivity).
    apply U_colons; try assumption. exact zz_name.
Qed.
Lemma begun_module p : ModuleBegun p -> match module (p ++ lit " zz") with Some (m, _) => str_eqb m zz | None => false end = true.
Proof.
  intros [b u w Wb Ku Ww]. assert (Sp : white " "%char) by (unfold white; cbn; lia).
  assert (M : ModuleStatement ((b ++ u ++ w) ++ lit " zz") zz).
  { replace ((b ++ u ++ w) ++ lit " zz") with (b ++ u ++ (w ++ [" "%char]) ++ zz ++ []) by (repeat (rewrite <- ?app_assoc; cbn [app]); reflexivity).
    apply M_name; try assumption; [apply Forall_app; split; [exact Ww | constructor; [exact Sp | constructor]] | destruct w; discriminate | exact zz_name | left; reflexivity|].
    intros R. apply (guarded_reserved zz [] (or_introl eq_refl)) in R. discriminate. }
  destruct (module_complete true _ _ M) as [a [r [_ U]]]. specialize (U [] (or_introl eq_refl)). rewrite app_nil_r in U. rewrite U. reflexivity.
Qed.
Lemma begun_include p : IncludeBegun p -> match include (p ++ lit " 'zz'") with Some (m, _) => str_eqb m zz | None => false end = true.
Proof.
  intros [b u w Wb Ku Ww]. assert (Sp : white " "%char) by (unfold white; cbn; lia).
  assert (E : exists r, include ((b ++ u ++ w) ++ lit " 'zz'") = Some (zz, r)).
  { rewrite include_unfold, <- app_assoc, (skip_white b _ Wb), <- app_assoc, skip_dark by (apply (keyword_dark "include"); [exact low_lit_include | discriminate | exact Ku]).
    rewrite (ci_complete _ low_lit_include u _ Ku). destruct w as [|c w]; [eexists; reflexivity|]. inversion Ww as [|c' w' Hc Hw]; subst. cbn [app after_include].
    rewrite (proj2 (space_white c) Hc). cbn [skip]. rewrite (proj2 (space_white c) Hc), (skip_white w _ Hw). eexists. reflexivity. }
  destruct E as [r ->]. reflexivity.
Qed.
Definition nl : string := String newline EmptyString.
Definition calm (t : text) : bool :=
  forallb (fun l => negb (existsb (fun s => match use (last (statements l) [] ++ lit s) with Some (m, _) => str_eqb m zz | None => false end) [" zz"; "intrinsic::zz"; "::zz"; "zz"]%string)
    && negb (match module (l ++ lit " zz") with Some (m, _) => str_eqb m zz | None => false end)
    && negb (match include (l ++ lit " 'zz'") with Some (m, _) => str_eqb m zz | None => false end)) (removelast (lines t)).
Lemma calm_finished t : calm t = true -> UsesFinished t /\ ModulesFinished t /\ IncludesFinished t.
Proof.
  unfold calm. rewrite forallb_forall. intros H. split; [|split]; intros l Hl B; specialize (H l Hl); apply andb_true_iff in H; destruct H as [H H3]; apply andb_true_iff in H; destruct H as [H1 H2].
  - rewrite (begun_use _ B) in H1. discriminate.
  - rewrite (begun_module _ B) in H2. discriminate.
  - rewrite (begun_include _ B) in H3. discriminate.
Qed.
(* two sources *)
Definition algebra : text := lit ("! use nothing" ++ nl ++ "  Module Linear_Algebra" ++ nl ++ "  use, intrinsic :: iso_c_binding" ++ nl ++ "module procedure f" ++ nl ++ "end module" ++ nl)%string.
Definition solver : text := lit ("MODULE solver" ++ nl ++ nl ++ "USE linear_algebra, only: f ! use it" ++ nl ++ "use::mesh ; use Solver" ++ nl ++ "  x = 1" ++ nl ++ "end module" ++ nl)%string.
Definition data : text := lit ("include 'b.inc'" ++ nl ++ " use mesh" ++ nl ++ "INCLUDE ""a.inc""" ++ nl)%string.
Theorem C79_case :
  (UsesFinished algebra /\ ModulesFinished algebra /\ IncludesFinished algebra) /\ (UsesFinished solver /\ ModulesFinished solver /\ IncludesFinished solver) /\
  (UsesFinished data /\ ModulesFinished data /\ IncludesFinished data /\ ~ In ";"%char data) /\
  emitted (lit ".mod") algebra = [lit "linear_algebra.mod"] /\ names (lit ".mod") algebra = [lit "iso_c_binding.mod"] /\
  emitted (lit ".mod") solver = [lit "solver.mod"] /\ names (lit ".mod") solver = [lit "linear_algebra.mod"; lit "mesh.mod"] /\
  names (lit ".mod") data = [lit "b.inc"; lit "a.inc"; lit "mesh.mod"] /\ scan (fun n => Some n) (lit ".mod") data = [lit "a.inc"; lit "b.inc"; lit "mesh.mod"].
Proof.
  split; [apply calm_finished; vm_compute; reflexivity|]. split; [apply calm_finished; vm_compute; reflexivity|]. split.
  - destruct (calm_finished data) as [F1 [F2 F3]]; [vm_compute; reflexivity|]. repeat (split; [assumption|]).
    intros H. assert (Q : existsb (Ascii.eqb ";"%char) data = true) by (apply existsb_exists; exists ";"%char; split; [exact H | apply Ascii.eqb_refl]). vm_compute in Q. discriminate.
  - repeat split; vm_compute; reflexivity.
Qed.
(* two statements of C79_case, in words *)
Theorem C79_case_statements :
  UseStatement (lit "USE linear_algebra, only: f ! use it") (lit "linear_algebra") /\ UseStatement (lit "  use, intrinsic :: iso_c_binding") (lit "iso_c_binding") /\
  ModuleStatement (lit "  Module Linear_Algebra") (lit "Linear_Algebra") /\ (forall m, ~ ModuleStatement (lit "module procedure f") m) /\
  IncludeStatement (lit "INCLUDE ""a.inc""") (lit "a.inc").
Proof.
  split; [|split; [|split; [|split]]].
  - destruct (use (lit "USE linear_algebra, only: f ! use it")) as [[m r]|] eqn:E; [|vm_compute in E; discriminate]. pose proof (proj1 (use_sound _ _ _ E)) as H. vm_compute in E. injection E as <- _. exact H.
  - destruct (use (lit "  use, intrinsic :: iso_c_binding")) as [[m r]|] eqn:E; [|vm_compute in E; discriminate]. pose proof (proj1 (use_sound _ _ _ E)) as H. vm_compute in E. injection E as <- _. exact H.
  - destruct (module (lit "  Module Linear_Algebra")) as [[m r]|] eqn:E; [|vm_compute in E; discriminate]. pose proof (proj1 (module_sound _ _ _ E)) as H. vm_compute in E. injection E as <- _. exact H.
  - intros m H. destruct (module_complete true _ _ H) as [a [r [_ U]]]. specialize (U [] (or_introl eq_refl)). vm_compute in U. discriminate.
  - destruct (include (lit "INCLUDE ""a.inc""")) as [[m r]|] eqn:E; [|vm_compute in E; discriminate]. pose proof (proj1 (include_sound _ _ _ E)) as H. vm_compute in E. injection E as <- _. exact H.
Qed.
(* modules whose names begin with the words of module procedures are not found: no target is made for them, and a source that defines and uses one depends on it *)
Theorem C79_pure_refuted : ~ (forall suffix t l m, In l (lines t) -> l = lit "module " ++ m -> Name m -> In (lower m ++ suffix) (emitted suffix t)) /\
  exists t, emitted (lit ".mod") t = [lit "app.mod"] /\ names (lit ".mod") t = [lit "pure_math.mod"].
Proof.
  split.
  - intros H. assert (N : Name (lit "pure_math")) by (split; [discriminate | repeat (constructor; [unfold letter; cbn; lia|]); constructor]).
    specialize (H (lit ".mod") (lit "module pure_math") (lit "module pure_math") (lit "pure_math") (or_introl eq_refl) eq_refl N). vm_compute in H. destruct H.
  - exists (lit ("module pure_math" ++ nl ++ "end module" ++ nl ++ "module app" ++ nl ++ "use pure_math" ++ nl)%string). split; vm_compute; reflexivity.
Qed.
(* in comments and literals, USE after a semicolon counts *)
Theorem C79_comment_refuted : ~ (forall suffix t, (forall l, In l (lines t) -> exists r, l = "!"%char :: r) -> names suffix t = []).
Proof.
  intros H. specialize (H (lit ".mod") (lit "! print *, x ; use old")). assert (Q : names (lit ".mod") (lit "! print *, x ; use old") = [lit "old.mod"]) by (vm_compute; reflexivity).
  rewrite H in Q; [discriminate|]. intros l [<- | []]. eexists. reflexivity.
Qed.
(* a statement continued with & is not seen; one that is not continued but broken off takes the first word of the next line *)
Theorem C79_continued_refuted :
  names (lit ".mod") (lit ("use &" ++ nl ++ " mesh" ++ nl)%string) = [] /\ names (lit ".mod") (lit ("use" ++ nl ++ "x = 1" ++ nl)%string) = [lit "x.mod"] /\
  ~ Named UseStatement (flat_map statements (lines (lit ("use" ++ nl ++ "x = 1" ++ nl)%string))) (uses (lit ("use" ++ nl ++ "x = 1" ++ nl)%string)).
Proof.
  split; [vm_compute; reflexivity|]. split; [vm_compute; reflexivity|]. intros N.
  assert (Q : In (lit "x") (uses (lit ("use" ++ nl ++ "x = 1" ++ nl)%string))) by (vm_compute; left; reflexivity).
  apply (named_in UseStatement _ _ N (fun p m m' _ => use_one p m m')) in Q. destruct Q as [p [Hp S]]. apply use_name in S. vm_compute in Hp.
  repeat (destruct Hp as [<- | Hp]; [vm_compute in S; discriminate|]). destruct Hp.
Qed.
(* the same module in two spellings is two entries of the targets *)
Theorem C79_twice_refuted : ~ (forall suffix t, NoDup (emitted suffix t)).
Proof.
  intros H. specialize (H (lit ".mod") (lit ("module A" ++ nl ++ "end" ++ nl ++ "MODULE a" ++ nl)%string)).
  vm_compute in H. inversion H as [|x l N _]; subst. apply N. left. reflexivity.
Qed.
Print Assumptions C79h_order.
Print Assumptions C79d_needs.
Print Assumptions C79g_found.
Print Assumptions C79_case.
Print Assumptions C79_continued_refuted.
