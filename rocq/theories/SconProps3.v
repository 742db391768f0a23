(* C60: completeness: what SconSpec says is what happens, if only the run is long enough *)
From Coq Require Import List Bool Arith Lia.
Import ListNotations.
From Verif Require Import SconModel SconSpec SconProps SconProps2.

Scheme does_mut := Induction for does Sort Prop
with runs_mut := Induction for runs Sort Prop
with reads_mut := Induction for reads Sort Prop
with reads1_mut := Induction for reads1 Sort Prop.
Combined Scheme spec_mut from does_mut, runs_mut, reads_mut, reads1_mut.

Section Complete.
Variable scripts : dir * nat -> option (list stmt).
Variable g0 : ns.
Variable no_missing : bool.
Notation runs := (SconSpec.runs scripts g0 no_missing).
Notation does := (SconSpec.does scripts g0 no_missing).
Notation reads := (SconSpec.reads scripts g0 no_missing).
Notation reads1 := (SconSpec.reads1 scripts g0 no_missing).
Notation run := (SconModel.run scripts g0 no_missing).
Notation one_file := (SconModel.one_file scripts g0 no_missing).
Notation all_files := (SconModel.all_files scripts g0 no_missing).
Notation do_stmt := (SconModel.do_stmt scripts g0 no_missing).

Definition c_does (c : stmt) (sc : scope) (l : option ns) (w : world) (o : outcome) (sc2 : scope) (l2 : option ns) (w2 : world) : Prop :=
  forall me s, R me sc w s -> exists n s2, (forall m, n <= m -> do_stmt (run m) me c l s = Some (o, l2, s2)) /\ R me sc2 w2 s2.
Definition c_runs (b : list stmt) (sc : scope) (l : option ns) (w : world) (o : outcome) (sc2 : scope) (l2 : option ns) (w2 : world) : Prop :=
  forall me s, R me sc w s -> exists n s2, (forall m, n <= m -> run m me b l s = Some (o, l2, s2)) /\ R me sc2 w2 s2.
Definition c_reads (sc : scope) (l : option ns) (fns : list fname) (ex : list xarg) (mx : bool) (w : world) (o : outcome) (vs : list val) (w2 : world) : Prop :=
  forall me s, Rw w s -> Rc me sc s -> me < length (heap s) -> (forall a, In a ex -> well_defined l sc a) ->
  exists n s2, (forall m acc, n <= m -> exists vs2, all_files (run m) me l ex mx fns acc s = Some (o, vs2, s2) /\ vs2 = acc ++ vs) /\ Rw w2 s2 /\ Rc me sc s2 /\ Keep s s2 none.
Definition c_reads1 (sc : scope) (l : option ns) (fn : fname) (ex : list xarg) (mx : bool) (w : world) (o : outcome) (v : val) (w2 : world) : Prop :=
  forall me s, Rw w s -> Rc me sc s -> me < length (heap s) -> (forall a, In a ex -> well_defined l sc a) ->
  exists n s2, (forall m, n <= m -> one_file (run m) me l ex mx fn s = Some (o, v, s2)) /\ Rw w2 s2 /\ Rc me sc s2 /\ Keep s s2 none.

Lemma assign_binds : forall me sc w s l x v l2 sc2, R me sc w s -> binds l sc x v = (l2, sc2) -> exists s2, assign me l s x v = (l2, s2) /\ R me sc2 w s2.
Proof.
  intros me sc w s l x v l2 sc2 H E. destruct (assign me l s x v) as [l3 s3] eqn:A. destruct (assign_R _ _ _ _ _ _ _ _ _ H A) as (sc3 & B & R3 & _). rewrite E in B. injection B as <- <-. exists s3. auto.
Qed.
Lemma if_true : forall (A : Type) v (x y : A), true_value v -> match v with VNone => y | VTuple [] => y | VAtom 0 => y | _ => x end = x.
Proof. intros A v x y H. destruct (true_if A v x y) as [[E _] | [_ E]]; [exact E | contradiction]. Qed.
Lemma if_false : forall (A : Type) v (x y : A), ~ true_value v -> match v with VNone => y | VTuple [] => y | VAtom 0 => y | _ => x end = y.
Proof. intros A v x y H. destruct (true_if A v x y) as [[_ E] | [E _]]; [contradiction | exact E]. Qed.
Lemma leave_some : forall p o s, exists v s2, leave p o s = Some (o, v, s2).
Proof. intros p o s. unfold leave. eexists. eexists. reflexivity. Qed.

Lemma complete :
  (forall c sc l w o sc2 l2 w2, does c sc l w o sc2 l2 w2 -> c_does c sc l w o sc2 l2 w2) /\
  (forall b sc l w o sc2 l2 w2, runs b sc l w o sc2 l2 w2 -> c_runs b sc l w o sc2 l2 w2) /\
  (forall sc l fns ex mx w o vs w2, reads sc l fns ex mx w o vs w2 -> c_reads sc l fns ex mx w o vs w2) /\
  (forall sc l fn ex mx w o v w2, reads1 sc l fn ex mx w o v w2 -> c_reads1 sc l fn ex mx w o v w2).
Proof.
  assert (Simple : forall c sc l w o sc2 l2 w2, does c sc l w o sc2 l2 w2 ->
    (forall me s, R me sc w s -> exists s2, (forall m, do_stmt (run m) me c l s = Some (o, l2, s2)) /\ R me sc2 w2 s2) -> c_does c sc l w o sc2 l2 w2).
  { intros c sc l w o sc2 l2 w2 _ H me s HR. destruct (H me s HR) as (s2 & E & R2). exists 0, s2. split; [intros m _; apply E | exact R2]. }
  apply spec_mut.
  - (* set *) intros x e v sc l w l2 sc2 Hv B. apply Simple; [eapply does_set; eassumption|]. intros me s HR. destruct (assign_binds _ _ _ _ _ _ _ _ _ HR B) as (s2 & A & R2). exists s2. split; [|exact R2].
    intros m. unfold SconModel.do_stmt. rewrite (r_vars _ _ _ (r_c _ _ _ _ HR)). apply eval_value in Hv. rewrite Hv, A. reflexivity.
  - intros x e sc l w Hu. apply Simple; [apply does_set_bad; exact Hu|]. intros me s HR. exists s. split; [|exact HR]. intros m. unfold SconModel.do_stmt. rewrite (r_vars _ _ _ (r_c _ _ _ _ HR)). apply eval_none in Hu. rewrite Hu. reflexivity.
  - (* print *) intros e v sc l w Hv. apply Simple; [apply does_print; exact Hv|]. intros me s HR. exists (emit s (EvPrint v)). split.
    + intros m. unfold SconModel.do_stmt. rewrite (r_vars _ _ _ (r_c _ _ _ _ HR)). apply eval_value in Hv. rewrite Hv. reflexivity.
    + apply (world_R me sc w s); try reflexivity; [exact HR|]. destruct (r_w _ _ _ _ HR) as [A1 A2 A3 A4 A5]. split; cbn; auto. rewrite A5. reflexivity.
  - intros e sc l w Hu. apply Simple; [apply does_print_bad; exact Hu|]. intros me s HR. exists s. split; [|exact HR]. intros m. unfold SconModel.do_stmt. rewrite (r_vars _ _ _ (r_c _ _ _ _ HR)). apply eval_none in Hu. rewrite Hu. reflexivity.
  - (* look *) intros sc l w. apply Simple; [apply does_look|]. intros me s HR. eexists. split; [intros m; reflexivity|].
    apply (world_R me sc w s); try reflexivity; [exact HR|]. destruct (r_w _ _ _ _ HR) as [A1 A2 A3 A4 A5]. destruct (r_c _ _ _ _ HR) as [B1 B2 B3 B4]. split; cbn; auto. rewrite A5, B2, A2, B3, B4. reflexivity.
  - (* if *) intros e v a b sc l w o sc2 l2 w2 Hv Tv _ IH me s HR. destruct (IH me s HR) as (n & s2 & E & R2). exists n, s2. split; [|exact R2]. intros m Hm. unfold SconModel.do_stmt. rewrite (r_vars _ _ _ (r_c _ _ _ _ HR)).
    apply eval_value in Hv. rewrite Hv. rewrite <- (E m Hm). rewrite <- (if_true _ v (run m me a l s) (run m me b l s) Tv) at 1. destruct v as [|[|k]|[|u k]]; reflexivity.
  - intros e v a b sc l w o sc2 l2 w2 Hv Tv _ IH me s HR. destruct (IH me s HR) as (n & s2 & E & R2). exists n, s2. split; [|exact R2]. intros m Hm. unfold SconModel.do_stmt. rewrite (r_vars _ _ _ (r_c _ _ _ _ HR)).
    apply eval_value in Hv. rewrite Hv. rewrite <- (E m Hm). rewrite <- (if_false _ v (run m me a l s) (run m me b l s) Tv) at 1. destruct v as [|[|k]|[|u k]]; reflexivity.
  - intros e a b sc l w Hu. apply Simple; [apply does_if_bad; exact Hu|]. intros me s HR. exists s. split; [|exact HR]. intros m. unfold SconModel.do_stmt. rewrite (r_vars _ _ _ (r_c _ _ _ _ HR)). apply eval_none in Hu. rewrite Hu. reflexivity.
  - (* func *) intros b sc l w o sc2 l2 w2 _ IH me s HR. destruct (IH me s HR) as (n & s2 & E & R2). exists n, s2. split; [|exact R2]. intros m Hm. cbn [SconModel.do_stmt]. rewrite (E m Hm). reflexivity.
  - (* try *) intros b h sc l w sc2 l2 w2 _ IH me s HR. destruct (IH me s HR) as (n & s2 & E & R2). exists n, s2. split; [|exact R2]. intros m Hm. cbn [SconModel.do_stmt]. rewrite (E m Hm). reflexivity.
  - intros b h e sc l w sc2 l2 w2 o sc3 l3 w3 _ IH _ IH2 me s HR. destruct (IH me s HR) as (n & s2 & E & R2). destruct (IH2 me s2 R2) as (n2 & s3 & E2 & R3). exists (n + n2), s3. split; [|exact R3].
    intros m Hm. cbn [SconModel.do_stmt]. rewrite (E m) by lia. apply E2. lia.
  - (* raise *) intros n sc l w. apply Simple; [apply does_raise|]. intros me s HR. exists s. split; [reflexivity | exact HR].
  - (* export *) intros args kw k g sc l w Wd Dk Ex. apply Simple; [apply does_export; assumption|]. intros me s HR. exists (set_gex s (nupdate g k)). split.
    + intros m. unfold SconModel.do_stmt. rewrite (r_vars _ _ _ (r_c _ _ _ _ HR)). replace (forallb (dicts_ok l (vars sc)) args) with true by (symmetry; apply forallb_forall; intros a Ha; apply dicts_spec; intros x Hx; apply (Wd a x Ha Hx)).
      apply dict_display in Dk. cbn [negb]. rewrite Dk, (r_gex _ _ (r_w _ _ _ _ HR)). apply (do_export_spec l sc args _ g None Wd) in Ex. rewrite Ex. reflexivity.
    + apply (world_R me sc w s); try reflexivity; [exact HR|]. destruct (r_w _ _ _ _ HR) as [A1 A2 A3 A4 A5]. split; cbn; auto.
  - intros args kw k g e sc l w Wd Dk Ex. apply Simple; [apply does_export_missing with (k := k); assumption|]. intros me s HR. exists (set_gex s g). split.
    + intros m. unfold SconModel.do_stmt. rewrite (r_vars _ _ _ (r_c _ _ _ _ HR)). replace (forallb (dicts_ok l (vars sc)) args) with true by (symmetry; apply forallb_forall; intros a Ha; apply dicts_spec; intros x Hx; apply (Wd a x Ha Hx)).
      apply dict_display in Dk. cbn [negb]. rewrite Dk, (r_gex _ _ (r_w _ _ _ _ HR)). apply (do_export_spec l sc args _ g (Some e) Wd) in Ex. rewrite Ex. reflexivity.
    + apply (world_R me sc w s); try reflexivity; [exact HR|]. destruct (r_w _ _ _ _ HR) as [A1 A2 A3 A4 A5]. split; cbn; auto.
  - intros args kw sc l w Hb. apply Simple; [apply does_export_bad; exact Hb|]. intros me s HR. exists s. split; [|exact HR]. intros m. unfold SconModel.do_stmt. rewrite (r_vars _ _ _ (r_c _ _ _ _ HR)).
    destruct (forallb (dicts_ok l (vars sc)) args) eqn:Da; [|reflexivity]. cbn [negb]. destruct Hb as [(a & x & Ha & Hx & Nx) | Hn].
    + exfalso. apply Nx. rewrite forallb_forall in Da. apply (proj1 (dicts_spec l sc a) (Da a Ha) x Hx).
    + destruct (eval_dict l (vars sc) kw nempty) as [k|] eqn:Ek; [|reflexivity]. destruct Hn. exists k. apply dict_display. exact Ek.
  - (* import *) intros args g o sc l w Hi. apply Simple; [apply does_import; exact Hi|]. intros me s HR. exists (set_globals s me g). split; [|apply (globals_R me sc w s g HR)].
    intros m. unfold SconModel.do_stmt. rewrite (top_me _ _ _ _ HR), (r_vars _ _ _ (r_c _ _ _ _ HR)), (r_given _ _ _ _ HR), (r_gex _ _ (r_w _ _ _ _ HR)).
    assert (Eo : exists e, o = out_of e) by (destruct o as [|e]; [exists None | exists (Some e)]; reflexivity). destruct Eo as (e & ->). apply do_import_spec in Hi. rewrite Hi. reflexivity.
  - (* return *) intros xs vs v stop sc l w Hx Hp. apply Simple; [apply does_return with (vs := vs); assumption|]. intros me s HR. apply packed_spec in Hp. subst v. exists (set_ret s me (one_or_tuple vs)). split; [|apply (ret_R me sc w s _ HR)].
    intros m. unfold SconModel.do_stmt. rewrite (top_me _ _ _ _ HR), (r_vars _ _ _ (r_c _ _ _ _ HR)). apply all_values_spec in Hx. rewrite Hx. reflexivity.
  - intros xs stop sc l w Hx. apply Simple; [apply does_return_missing; exact Hx|]. intros me s HR. exists s. split; [|exact HR].
    intros m. unfold SconModel.do_stmt. rewrite (top_me _ _ _ _ HR), (r_vars _ _ _ (r_c _ _ _ _ HR)). apply all_values_none in Hx. rewrite Hx. reflexivity.
  - (* call *) intros x fns ex mx sc l w vs v w2 l2 sc2 Wd _ IH Hp B me s HR. destruct (IH me s (r_w _ _ _ _ HR) (r_c _ _ _ _ HR) (r_len _ _ _ _ HR) Wd) as (n & s1 & E & W1 & C1 & K1).
    assert (R1 := after_call _ _ _ _ _ _ HR W1 C1 K1). destruct (assign_binds _ _ _ _ _ _ _ _ _ R1 B) as (s2 & A & R2). exists n, s2. split; [|exact R2].
    intros m Hm. unfold SconModel.do_stmt. rewrite (r_vars _ _ _ (r_c _ _ _ _ HR)), (proj2 (dicts_spec l sc ex) Wd). cbn [negb]. destruct (E m [] Hm) as (vs2 & -> & ->). apply packed_spec in Hp. subst v. cbn [app]. rewrite A. reflexivity.
  - intros x fns ex mx sc l w vs w2 e Wd _ IH me s HR. destruct (IH me s (r_w _ _ _ _ HR) (r_c _ _ _ _ HR) (r_len _ _ _ _ HR) Wd) as (n & s1 & E & W1 & C1 & K1). exists n, s1. split; [|apply (after_call _ _ _ _ _ _ HR W1 C1 K1)].
    intros m Hm. unfold SconModel.do_stmt. rewrite (r_vars _ _ _ (r_c _ _ _ _ HR)), (proj2 (dicts_spec l sc ex) Wd). cbn [negb]. destruct (E m [] Hm) as (vs2 & -> & ->). reflexivity.
  - intros x fns ex mx sc l w Hb. apply Simple; [apply does_call_bad; exact Hb|]. intros me s HR. exists s. split; [|exact HR]. intros m. unfold SconModel.do_stmt. rewrite (r_vars _ _ _ (r_c _ _ _ _ HR)), (proj2 (dicts_bad l sc ex) Hb). reflexivity.
  - (* chdir *) intros b sc l w. apply Simple; [apply does_chdir|]. intros me s HR. exists (set_chf s b). split; [reflexivity|]. apply (world_R me sc w s); try reflexivity; [exact HR|]. destruct (r_w _ _ _ _ HR) as [A1 A2 A3 A4 A5]. split; cbn; auto.
  - (* nil *) intros sc l w me s HR. exists 1, s. split; [|exact HR]. intros [|m] Hm; [lia | reflexivity].
  - (* stop *) intros c r e sc l w sc2 l2 w2 _ IH me s HR. destruct (IH me s HR) as (n & s2 & E & R2). exists (S n), s2. split; [|exact R2]. intros [|m] Hm; [lia|]. cbn [SconModel.run]. rewrite (E m) by lia. reflexivity.
  - (* cons *) intros c r o sc l w sc2 l2 w2 sc3 l3 w3 _ IH _ IH2 me s HR. destruct (IH me s HR) as (n & s2 & E & R2). destruct (IH2 me s2 R2) as (n2 & s3 & E2 & R3). exists (S (n + n2)), s3. split; [|exact R3].
    intros [|m] Hm; [lia|]. cbn [SconModel.run]. rewrite (E m) by lia. apply E2. lia.
  - (* no files *) intros sc l ex mx w me s W C L D. exists 0, s. split; [|split; [exact W | split; [exact C | apply keep_refl]]]. intros m acc _. exists acc. split; [reflexivity | symmetry; apply app_nil_r].
  - intros sc l f r ex mx w e v w2 _ IH me s W C L D. destruct (IH me s W C L D) as (n & s2 & E & W2 & C2 & K2). exists n, s2. split; [|auto]. intros m acc Hm. exists acc. split; [|symmetry; apply app_nil_r]. cbn [SconModel.all_files]. rewrite (E m Hm). reflexivity.
  - intros sc l f r ex mx w v w2 o vs w3 _ IH _ IH2 me s W C L D. destruct (IH me s W C L D) as (n & s2 & E & W2 & C2 & K2). assert (L2 : me < length (heap s2)) by (eapply Nat.lt_le_trans; [exact L | apply K2]).
    destruct (IH2 me s2 W2 C2 L2 D) as (n2 & s3 & E2 & W3 & C3 & K3). exists (n + n2), s3. split; [|split; [exact W3 | split; [exact C3 | apply (keep_trans _ _ _ _ K2 K3)]]].
    intros m acc Hm. cbn [SconModel.all_files]. rewrite (E m) by lia. destruct (E2 m (acc ++ [v])) as (vs2 & -> & ->); [lia|]. eexists. split; [reflexivity|]. rewrite <- app_assoc. reflexivity.
  - (* missing variable *) intros sc l f ex mx w Hn me s W C L D. exists 0, s. split; [|split; [exact W | split; [exact C | apply keep_refl]]]. intros m _. unfold SconModel.one_file. rewrite (r_vars _ _ _ C), (exports_not_inv l sc ex D Hn). reflexivity.
  - (* script *) intros sc l f ex mx w h d n body o sc2 l2 w2 Hc Hm Hs _ IH me s W C L D. assert (Cw := r_cwd _ _ _ C). assert (Cp := r_path _ _ _ C). assert (Cd := r_depth _ _ _ C).
    destruct (start_R g0 s sc w h d W (or_intror Logic.I) Cp Cd Cw) as [R1 En]. cbv zeta in R1, En. set (s1 := set_spath (fs_chdir d (chf s) (fs_chdir [] true (enter g0 h s))) (d :: spath s)) in *.
    destruct (IH _ s1 R1) as (k & s3 & E & R3). destruct (run_sound scripts g0 no_missing k _ _ _ _ _ _ _ _ _ (E k (le_n k)) R1) as (_ & _ & _ & _ & K3).
    destruct (leave_some (spath s) (caught o) s3) as (v & s2 & Lv). destruct (leave_keep s s1 s3 _ _ _ _ w2 En K3 (r_w _ _ _ _ R3) Lv) as (_ & Ev & W2 & K).
    exists k, s2. split; [|rewrite <- Cw; split; [exact W2 | split; [apply (Rc_keep me sc s s2 C L K) | exact K]]].
    intros m Hk. unfold SconModel.one_file. rewrite (r_vars _ _ _ C). apply exports_collects in Hc. rewrite Hc.
    assert (Hf : is_stdin f = false) by (destruct Hm; reflexivity). assert (Hr : resolve (fcwd (enter g0 h s)) f = (d, n)) by (destruct Hm; cbn; [rewrite Cw|]; reflexivity).
    rewrite Hf. cbv zeta. rewrite Hr, Hs. cbn [fst]. change (chf (fs_chdir [] true (enter g0 h s))) with (chf s). change (spath (fs_chdir d (chf s) (fs_chdir [] true (enter g0 h s)))) with (spath s). fold s1.
    rewrite (E m Hk). change (match o with OExc RetExc => ONorm | _ => o end) with (caught o). rewrite Lv, Ev, (r_ret _ _ _ _ R3). reflexivity.
  - (* missing file *) intros sc l f ex mx w h d n Hc Hm Hs me s W C L D. assert (Cw := r_cwd _ _ _ C). set (s1 := fs_chdir [] true (enter g0 h s)).
    assert (En : Entered s s1) by (destruct (enter_entered g0 h s) as [E1 E2 E3 E4 E5]; split; assumption).
    assert (W1 : Rw (with_osdir w []) s1) by (destruct W as [A1 A2 A3 A4 A5]; split; cbn; auto).
    destruct (leave_some (spath s) (if mx && no_missing then OExc UserErr else ONorm) s1) as (v & s2 & Lv). destruct (leave_keep s s1 s1 _ _ _ _ _ En (keep_refl _ _) W1 Lv) as (_ & Ev & W2 & K).
    exists 0, s2. split; [|rewrite <- Cw; split; [exact W2 | split; [apply (Rc_keep me sc s s2 C L K) | exact K]]].
    intros m _. unfold SconModel.one_file. rewrite (r_vars _ _ _ C). apply exports_collects in Hc. rewrite Hc.
    assert (Hf : is_stdin f = false) by (destruct Hm; reflexivity). assert (Hr : resolve (fcwd (enter g0 h s)) f = (d, n)) by (destruct Hm; cbn; [rewrite Cw|]; reflexivity).
    rewrite Hf. cbv zeta. rewrite Hr, Hs. fold s1. rewrite Lv, Ev. change (frame_of s1 (length (heap s))) with (frame_of (enter g0 h s) (length (heap s))). rewrite enter_frame. reflexivity.
  - (* stdin *) intros sc l ex mx w h o sc2 l2 w2 Hc _ IH me s W C L D. assert (Cw := r_cwd _ _ _ C). assert (Cp := r_path _ _ _ C). assert (Cd := r_depth _ _ _ C).
    set (s1 := set_stdin (enter g0 h s) []) in *. set (sc1 := {| vars := g0; given := h; here := here sc; path := path sc; depth := S (depth sc); ret := VNone |}) in *.
    assert (En : Entered s s1) by (destruct (enter_entered g0 h s) as [E1 E2 E3 E4 E5]; split; assumption).
    assert (R1 : R (length (heap s)) sc1 (with_input w []) s1).
    { assert (Fr : frame_of s1 (length (heap s)) = {| fglobals := g0; fret := VNone; fprev := fcwd s; fexports := h |}) by apply enter_frame. destruct W as [W1 W2 W3 W4 W5].
      split; [split; cbn; auto | split; [rewrite Fr; reflexivity | exact Cw | exact Cp | cbn; rewrite Cd; reflexivity] | rewrite (e_len _ _ En); lia | rewrite Fr; reflexivity | rewrite Fr; reflexivity | reflexivity]. }
    destruct (IH _ s1 R1) as (k & s3 & E & R3). destruct (run_sound scripts g0 no_missing k _ _ _ _ _ _ _ _ _ (E k (le_n k)) R1) as (_ & _ & _ & _ & K3).
    destruct (leave_some (spath s) o s3) as (v & s2 & Lv). destruct (leave_keep s s1 s3 _ _ _ _ w2 En K3 (r_w _ _ _ _ R3) Lv) as (_ & Ev & W2 & K).
    exists k, s2. split; [|rewrite <- Cw; split; [exact W2 | split; [apply (Rc_keep me sc s s2 C L K) | exact K]]].
    intros m Hk. unfold SconModel.one_file. rewrite (r_vars _ _ _ C). apply exports_collects in Hc. rewrite Hc. cbn [is_stdin]. cbv zeta. change (stdin (enter g0 h s)) with (stdin s). rewrite (r_in _ _ W). fold s1.
    rewrite (E m Hk), Lv, Ev, (r_ret _ _ _ _ R3). reflexivity.
Qed.
End Complete.
