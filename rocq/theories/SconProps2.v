From Coq Require Import List Bool Arith Lia.
Import ListNotations.
From Verif Require Import SconModel SconSpec SconProps.

Lemma true_if : forall (A : Type) v (x y : A), match v with VNone => y | VTuple [] => y | VAtom 0 => y | _ => x end = x /\ true_value v \/ match v with VNone => y | VTuple [] => y | VAtom 0 => y | _ => x end = y /\ ~ true_value v.
Proof.
  intros A [|[|n]|[|u l]] x y; unfold true_value; try (right; split; [reflexivity|]; intuition congruence); left; (split; [reflexivity | repeat split; discriminate]).
Qed.

Section Sound.
Variable scripts : dir * nat -> option (list stmt).
Variable g0 : ns.
Variable no_missing : bool.
Notation runs := (SconSpec.runs scripts g0 no_missing).
Notation does := (SconSpec.does scripts g0 no_missing).
Notation reads := (SconSpec.reads scripts g0 no_missing).
Notation reads1 := (SconSpec.reads1 scripts g0 no_missing).
Notation run := (SconModel.run scripts g0 no_missing).
Notation one_file := (SconModel.one_file scripts g0 no_missing).
Notation all_files := (SconModel.all_files scripts g0 no_missing).
Notation do_stmt := (SconModel.do_stmt scripts g0 no_missing).
Definition is (me : nat) : nat -> Prop := fun i => i = me.
Definition none : nat -> Prop := fun _ => False.

Definition sound (rec : runner) : Prop := forall me body l s o l2 s2 sc w, rec me body l s = Some (o, l2, s2) -> R me sc w s ->
  exists sc2 w2, runs body sc l w o sc2 l2 w2 /\ R me sc2 w2 s2 /\ Keep s s2 (is me).

(* what holds between the caller's state s and the state s1 in which the called script is read *)
Record Entered (s s1 : st) : Prop :=
  { e_stack : stack s1 = length (heap s) :: stack s; e_len : length (heap s1) = S (length (heap s)); e_frames : forall i, i < length (heap s) -> frame_of s1 i = frame_of s i;
    e_prev : fprev (frame_of s1 (length (heap s))) = fcwd s; e_depth : reading s1 = S (reading s) }.
Lemma enter_frame : forall ex s, frame_of (enter g0 ex s) (length (heap s)) = {| fglobals := g0; fret := VNone; fprev := fcwd s; fexports := ex |}.
Proof. intros ex s. unfold frame_of, enter. cbn [heap set_reading set_stack set_heap]. rewrite app_nth2, Nat.sub_diag by apply le_n. reflexivity. Qed.
Lemma enter_entered : forall ex s, Entered s (enter g0 ex s).
Proof.
  intros ex s. split; try reflexivity.
  - cbn. rewrite app_length. cbn. lia.
  - intros i Hi. unfold frame_of. cbn. apply app_nth1. exact Hi.
  - rewrite enter_frame. reflexivity.
Qed.
Lemma entered_keep : forall s s1 s2, Entered s s1 -> Keep s1 s2 (is (length (heap s))) -> Entered s s2 \/ True.
Proof. auto. Qed.
Lemma leave_keep : forall s s1 s2 o o2 v s3 (w : world), Entered s s1 -> Keep s1 s2 (is (length (heap s))) -> Rw w s2 -> leave (spath s) o s2 = Some (o2, v, s3) ->
  o2 = o /\ v = fret (frame_of s2 (length (heap s))) /\ Rw (moved w (fcwd s)) s3 /\ Keep s s3 none.
Proof.
  intros s s1 s2 o o2 v s3 w E K W H. unfold leave in H.
  assert (T : top_of (set_spath (set_reading s2 (pred (reading s2))) (spath s)) = length (heap s)).
  { unfold top_of. cbn [stack set_spath set_reading]. rewrite (k_stack _ _ _ K), (e_stack _ _ E). reflexivity. }
  rewrite T in H. change (frame_of (set_spath (set_reading s2 (pred (reading s2))) (spath s)) (length (heap s))) with (frame_of s2 (length (heap s))) in H.
  assert (P : fprev (frame_of s2 (length (heap s))) = fcwd s) by (rewrite (k_prev _ _ _ K) by (rewrite (e_len _ _ E); lia); apply (e_prev _ _ E)).
  rewrite P in H. injection H as <- <- <-. split; [reflexivity|]. split; [reflexivity|]. split.
  - destruct W as [W1 W2 W3 W4 W5]. unfold moved. rewrite <- W3. cbn [chf set_stack set_spath set_reading]. destruct (chf s2) eqn:C; split; cbn; try assumption; try reflexivity; congruence.
  - split; cbn [stack fcwd spath reading heap fs_chdir set_stack set_spath set_reading].
    + rewrite (k_stack _ _ _ K), (e_stack _ _ E). reflexivity.
    + reflexivity.
    + reflexivity.
    + rewrite (k_depth _ _ _ K), (e_depth _ _ E). reflexivity.
    + assert (L := k_len _ _ _ K). rewrite (e_len _ _ E) in L. lia.
    + intros i Hi _. change (frame_of s2 i = frame_of s i). rewrite (k_frames _ _ _ K); [apply (e_frames _ _ E); exact Hi | rewrite (e_len _ _ E); lia | unfold is; lia].
    + intros i Hi. change (fprev (frame_of s2 i) = fprev (frame_of s i)). rewrite (k_prev _ _ _ K) by (rewrite (e_len _ _ E); lia). rewrite (e_frames _ _ E) by exact Hi. reflexivity.
Qed.
(* the state in which a called script starts *)
Lemma start_R : forall s sc w h d, Rw w s -> Rc 0 sc s \/ True -> spath s = path sc -> reading s = depth sc -> fcwd s = here sc ->
  let s1 := set_spath (fs_chdir d (chf s) (fs_chdir [] true (enter g0 h s))) (d :: spath s) in
  R (length (heap s)) (called g0 sc h d) (moved (with_osdir w []) d) s1 /\ Entered s s1.
Proof.
  intros s sc w h d W _ P D C s1. assert (E : Entered s s1).
  { destruct (enter_entered h s) as [E1 E2 E3 E4 E5]. split; assumption. }
  split; [|exact E]. assert (F : frame_of s1 (length (heap s)) = {| fglobals := g0; fret := VNone; fprev := fcwd s; fexports := h |}) by apply enter_frame.
  destruct W as [W1 W2 W3 W4 W5]. split.
  - unfold moved. cbn [chdir_on with_osdir]. rewrite <- W3. unfold s1. destruct (chf s) eqn:Ch; split; cbn; try assumption; try reflexivity; congruence.
  - split; [rewrite F; reflexivity | reflexivity | cbn; rewrite P; reflexivity | cbn; rewrite D; reflexivity].
  - rewrite (e_len _ _ E). lia.
  - rewrite F. reflexivity.
  - rewrite F. reflexivity.
  - rewrite (e_stack _ _ E). reflexivity.
Qed.
Lemma Rc_keep : forall me sc s s2, Rc me sc s -> me < length (heap s) -> Keep s s2 none -> Rc me sc s2.
Proof.
  intros me sc s s2 [A B C D] L K. split.
  - rewrite (k_frames _ _ _ K) by (auto; intros []). exact A.
  - rewrite (k_cwd _ _ _ K). exact B.
  - rewrite (k_path _ _ _ K). exact C.
  - rewrite (k_depth _ _ _ K). exact D.
Qed.
Lemma one_file_sound : forall rec, sound rec -> forall me l ex mx fn s o v s2 sc w,
  one_file rec me l ex mx fn s = Some (o, v, s2) -> Rw w s -> Rc me sc s -> me < length (heap s) -> (forall a, In a ex -> well_defined l sc a) ->
  exists w2, reads1 sc l fn ex mx w o v w2 /\ Rw w2 s2 /\ Rc me sc s2 /\ Keep s s2 none.
Proof.
  intros rec Hrec me l ex mx fn s o v s2 sc w H W C L D. unfold SconModel.one_file in H. rewrite (r_vars _ _ _ C) in H.
  assert (Cw : fcwd s = here sc) by apply C. assert (Cp : spath s = path sc) by apply C. assert (Cd : reading s = depth sc) by apply C.
  destruct (compute_exports l (vars sc) ex nempty) as [h|e] eqn:E.
  2:{ injection H as <- <- <-. rewrite (exports_error _ _ _ _ _ D E). exists w. split; [apply reads1_missing_variable; apply (exports_not _ _ _ _ E)|]. split; [exact W|]. split; [exact C | apply keep_refl]. }
  apply exports_collects in E. destruct (is_stdin fn) eqn:F.
  - destruct fn; try discriminate. set (s1 := set_stdin (enter g0 h s) []) in H. set (sc1 := {| vars := g0; given := h; here := here sc; path := path sc; depth := S (depth sc); ret := VNone |}).
    assert (En : Entered s s1) by (destruct (enter_entered h s) as [E1 E2 E3 E4 E5]; split; assumption).
    assert (R1 : R (length (heap s)) sc1 (with_input w []) s1).
    { assert (Fr : frame_of s1 (length (heap s)) = {| fglobals := g0; fret := VNone; fprev := fcwd s; fexports := h |}) by apply enter_frame. destruct W as [W1 W2 W3 W4 W5].
      split; [split; cbn; auto | split; [rewrite Fr; reflexivity | exact Cw | exact Cp | cbn; rewrite Cd; reflexivity] | rewrite (e_len _ _ En); lia | rewrite Fr; reflexivity | rewrite Fr; reflexivity | reflexivity]. }
    change (stdin (enter g0 h s)) with (stdin s) in H. rewrite (r_in _ _ W) in H.
    destruct (rec (length (heap s)) (input w) None s1) as [[[o1 l1] s3]|] eqn:Er; [|discriminate].
    destruct (Hrec _ _ _ _ _ _ _ _ _ Er R1) as (sc2 & w2 & Hr & R2 & K2).
    destruct (leave_keep s s1 s3 o1 o v s2 w2 En K2 (r_w _ _ _ _ R2) H) as (-> & -> & W2 & K). exists (moved w2 (here sc)). split.
    + rewrite (r_ret _ _ _ _ R2). apply reads1_stdin with (h := h) (l2 := l1); [exact E | exact Hr].
    + rewrite <- Cw. split; [exact W2|]. split; [apply (Rc_keep me sc s s2 C L K) | exact K].
  - assert (Hm : exists d n, resolve (fcwd (enter g0 h s)) fn = (d, n) /\ means sc fn d n).
    { destruct fn as [d n|d n|]; [| |discriminate].
      - exists (here sc ++ d), n. cbn. rewrite Cw. split; [reflexivity | constructor].
      - exists d, n. split; [reflexivity | constructor]. }
    destruct Hm as (d & n & Er & Hm). cbv zeta in H. rewrite Er in H. cbn [fst] in H. destruct (scripts (d, n)) as [body|] eqn:Es.
    + destruct (start_R s sc w h d W (or_intror Logic.I) Cp Cd Cw) as [R1 En]. cbv zeta in R1, En.
      change (chf (fs_chdir [] true (enter g0 h s))) with (chf s) in H. change (spath (fs_chdir d (chf s) (fs_chdir [] true (enter g0 h s)))) with (spath s) in H.
      set (s1 := set_spath (fs_chdir d (chf s) (fs_chdir [] true (enter g0 h s))) (d :: spath s)) in *.
      destruct (rec (length (heap s)) body None s1) as [[[o1 l1] s3]|] eqn:Ec; [|discriminate].
      destruct (Hrec _ _ _ _ _ _ _ _ _ Ec R1) as (sc2 & w2 & Hr & R2 & K2).
      destruct (leave_keep s s1 s3 (caught o1) o v s2 w2 En K2 (r_w _ _ _ _ R2) H) as (-> & -> & W2 & K). exists (moved w2 (here sc)). split.
      * rewrite (r_ret _ _ _ _ R2). apply reads1_script with (h := h) (d := d) (n := n) (body := body) (l2 := l1); assumption.
      * rewrite <- Cw. split; [exact W2|]. split; [apply (Rc_keep me sc s s2 C L K) | exact K].
    + set (s1 := fs_chdir [] true (enter g0 h s)) in H.
      assert (En : Entered s s1) by (destruct (enter_entered h s) as [E1 E2 E3 E4 E5]; split; assumption).
      assert (W1 : Rw (with_osdir w []) s1) by (destruct W as [A1 A2 A3 A4 A5]; split; cbn; auto).
      destruct (leave_keep s s1 s1 (if mx && no_missing then OExc UserErr else ONorm) o v s2 _ En (keep_refl _ _) W1 H) as (-> & -> & W2 & K).
      exists (moved (with_osdir w []) (here sc)). split.
      * replace (fret (frame_of s1 (length (heap s)))) with VNone by (unfold s1; change (frame_of (fs_chdir [] true (enter g0 h s)) (length (heap s))) with (frame_of (enter g0 h s) (length (heap s))); rewrite enter_frame; reflexivity).
        apply reads1_missing_file with (h := h) (d := d) (n := n); assumption.
      * rewrite <- Cw. split; [exact W2|]. split; [apply (Rc_keep me sc s s2 C L K) | exact K].
Qed.
Lemma all_files_sound : forall rec, sound rec -> forall me l ex mx fns acc s o vs s2 sc w,
  all_files rec me l ex mx fns acc s = Some (o, vs, s2) -> Rw w s -> Rc me sc s -> me < length (heap s) -> (forall a, In a ex -> well_defined l sc a) ->
  exists w2 vs2, vs = acc ++ vs2 /\ reads sc l fns ex mx w o vs2 w2 /\ Rw w2 s2 /\ Rc me sc s2 /\ Keep s s2 none.
Proof.
  intros rec Hrec me l ex mx fns. induction fns as [|fn fns IH]; intros acc s o vs s2 sc w H W C L D; cbn [SconModel.all_files] in H.
  - injection H as <- <- <-. exists w, []. split; [symmetry; apply app_nil_r|]. split; [constructor|]. split; [exact W|]. split; [exact C | apply keep_refl].
  - destruct (one_file rec me l ex mx fn s) as [[[o1 v] s1]|] eqn:E; [|discriminate].
    destruct (one_file_sound rec Hrec _ _ _ _ _ _ _ _ _ _ _ E W C L D) as (w1 & H1 & W1 & C1 & K1). destruct o1 as [|e].
    + assert (L1 : me < length (heap s1)) by (eapply Nat.lt_le_trans; [exact L | apply K1]).
      destruct (IH _ _ _ _ _ _ _ H W1 C1 L1 D) as (w2 & vs2 & -> & H2 & W2 & C2 & K2). exists w2, (v :: vs2). split; [rewrite <- app_assoc; reflexivity|].
      split; [apply reads_cons with (w2 := w1); assumption|]. split; [exact W2|]. split; [exact C2 | apply (keep_trans _ _ _ _ K1 K2)].
    + injection H as <- <- <-. exists w1, []. split; [symmetry; apply app_nil_r|]. split; [apply reads_fails with (v := v); exact H1|]. auto.
Qed.
Lemma after_call : forall me sc w s w2 s2, R me sc w s -> Rw w2 s2 -> Rc me sc s2 -> Keep s s2 none -> R me sc w2 s2.
Proof.
  intros me sc w s w2 s2 H W C K. assert (L := r_len _ _ _ _ H). assert (F : frame_of s2 me = frame_of s me) by (apply (k_frames _ _ _ K); [exact L | intros []]).
  split; [exact W | exact C | eapply Nat.lt_le_trans; [exact L | apply K] | rewrite F; apply H | rewrite F; apply H | rewrite (k_stack _ _ _ K); apply H].
Qed.
Lemma stmt_sound : forall rec, sound rec -> forall me c l s o l2 s2 sc w, do_stmt rec me c l s = Some (o, l2, s2) -> R me sc w s ->
  exists sc2 w2, does c sc l w o sc2 l2 w2 /\ R me sc2 w2 s2 /\ Keep s s2 (is me).
Proof.
  intros rec Hrec me c l s o l2 s2 sc w H HR. assert (V := r_vars _ _ _ (r_c _ _ _ _ HR)). assert (T := top_me _ _ _ _ HR).
  assert (Same : forall o2 (P : does c sc l w o2 sc l w), exists sc2 w2, does c sc l w o2 sc2 l w2 /\ R me sc2 w2 s /\ Keep s s (is me)).
  { intros o2 P. exists sc, w. split; [exact P|]. split; [exact HR | apply keep_refl]. }
  unfold SconModel.do_stmt in H. rewrite V in H. destruct c as [x e|e| |e a b|body|body handler|n|args kw|args|xs stop|x fns ex mx|b].
  - destruct (eval l (vars sc) e) as [v|] eqn:E; [|injection H as <- <- <-; apply Same; apply does_set_bad; apply eval_none; exact E].
    destruct (assign me l s x v) as [l3 s3] eqn:A. injection H as <- <- <-. destruct (assign_R _ _ _ _ _ _ _ _ _ HR A) as (sc2 & B & R2 & K2).
    exists sc2, w. split; [apply does_set with (v := v); [apply eval_value; exact E | exact B] | split; [exact R2 | exact K2]].
  - destruct (eval l (vars sc) e) as [v|] eqn:E; [|injection H as <- <- <-; apply Same; apply does_print_bad; apply eval_none; exact E].
    injection H as <- <- <-. exists sc, (show w (EvPrint v)). split; [apply does_print; apply eval_value; exact E|].
    apply world_R with (w := w); try reflexivity; [exact HR|]. destruct (r_w _ _ _ _ HR) as [A1 A2 A3 A4 A5]. split; cbn; auto. rewrite A5. reflexivity.
  - injection H as <- <- <-. exists sc, (show w (EvLook (here sc) (osdir w) (path sc) (depth sc))). split; [apply does_look|].
    apply world_R with (w := w); try reflexivity; [exact HR|]. destruct (r_w _ _ _ _ HR) as [A1 A2 A3 A4 A5]. destruct (r_c _ _ _ _ HR) as [B1 B2 B3 B4]. split; cbn; auto. rewrite A5, B2, A2, B3, B4. reflexivity.
  - destruct (eval l (vars sc) e) as [v|] eqn:E; [|injection H as <- <- <-; apply Same; apply does_if_bad; apply eval_none; exact E].
    apply eval_value in E. assert (Q : rec me a l s = Some (o, l2, s2) /\ true_value v \/ rec me b l s = Some (o, l2, s2) /\ ~ true_value v).
    { destruct (true_if _ v (rec me a l s) (rec me b l s)) as [[Q1 Q2] | [Q1 Q2]]; [left | right]; (split; [|exact Q2]); rewrite <- Q1; rewrite <- H; destruct v as [|[|n]|[|u k]]; reflexivity. }
    destruct Q as [[Q Tv] | [Q Tv]]; destruct (Hrec _ _ _ _ _ _ _ _ _ Q HR) as (sc2 & w2 & X & Y & Z); exists sc2, w2.
    + split; [apply does_if_true with (v := v); assumption | auto].
    + split; [apply does_if_false with (v := v); assumption | auto].
  - destruct (rec me body (Some nempty) s) as [[[o1 l1] s1]|] eqn:E; [|discriminate]. injection H as <- <- <-. destruct (Hrec _ _ _ _ _ _ _ _ _ E HR) as (sc2 & w2 & X & Y & Z). exists sc2, w2.
    split; [apply does_func with (l2 := l1); exact X | auto].
  - destruct (rec me body l s) as [[[[|e] l1] s1]|] eqn:E; try discriminate; destruct (Hrec _ _ _ _ _ _ _ _ _ E HR) as (sc2 & w2 & X & Y & Z).
    + injection H as <- <- <-. exists sc2, w2. split; [apply does_try; exact X | auto].
    + destruct (Hrec _ _ _ _ _ _ _ _ _ H Y) as (sc3 & w3 & X3 & Y3 & Z3). exists sc3, w3. split; [apply (does_catch _ _ _ _ _ _ _ _ _ _ _ _ _ _ _ _ X X3)|]. split; [exact Y3 | apply (keep_trans _ _ _ _ Z Z3)].
  - injection H as <- <- <-. apply Same. apply does_raise.
  - destruct (negb (forallb (dicts_ok l (vars sc)) args)) eqn:Da.
    { injection H as <- <- <-. apply Same. apply does_export_bad. left. apply negb_true_iff in Da. clear - Da. induction args as [|a args IH]; [discriminate|]. cbn in Da. apply andb_false_iff in Da.
      destruct Da as [Da | Da]; [apply dicts_bad in Da; destruct Da as (x & Hx & Wx); exists a, x; split; [left; reflexivity | auto] | destruct (IH Da) as (b & x & Hb & Hx); exists b, x; split; [right; exact Hb | exact Hx]]. }
    apply negb_false_iff in Da. assert (Wd : forall a x, In a args -> In x a -> well_defined l sc x).
    { intros a x Ha Hx. rewrite forallb_forall in Da. apply (proj1 (dicts_spec l sc a) (Da a Ha) x Hx). }
    destruct (eval_dict l (vars sc) kw nempty) as [k|] eqn:Ek.
    2:{ injection H as <- <- <-. apply Same. apply does_export_bad. right. intros (k & Hk). apply dict_display in Hk. congruence. }
    apply dict_display in Ek. destruct (do_export l (vars sc) args (gex s)) as [g [e|]] eqn:Eg; injection H as <- <- <-; apply (do_export_spec _ _ _ _ _ _ Wd) in Eg; rewrite (r_gex _ _ (r_w _ _ _ _ HR)) in Eg.
    + exists sc, (with_exported w g). split; [apply does_export_missing with (k := k); assumption|]. apply world_R with (w := w); try reflexivity; [exact HR|]. destruct (r_w _ _ _ _ HR) as [A1 A2 A3 A4 A5]. split; cbn; auto.
    + exists sc, (with_exported w (over k g)). split; [apply does_export; assumption|]. apply world_R with (w := w); try reflexivity; [exact HR|]. destruct (r_w _ _ _ _ HR) as [A1 A2 A3 A4 A5]. split; cbn; auto.
  - rewrite T, V, (r_given _ _ _ _ HR), (r_gex _ _ (r_w _ _ _ _ HR)) in H. destruct (do_import (given sc) (exported w) args (vars sc)) as [g e] eqn:Ei. injection H as <- <- <-. apply do_import_spec in Ei.
    destruct (globals_R me sc w s g HR) as [R2 K2]. exists (with_vars sc g), w. split; [apply does_import; exact Ei | auto].
  - rewrite T, V in H. destruct (all_values (vars sc) xs) as [vs|] eqn:Ev.
    + injection H as <- <- <-. apply all_values_spec in Ev. destruct (ret_R me sc w s (one_or_tuple vs) HR) as [R2 K2]. exists (with_ret sc (one_or_tuple vs)), w. split; [apply does_return with (vs := vs); [exact Ev | apply packed_spec; reflexivity] | auto].
    + injection H as <- <- <-. apply Same. apply does_return_missing. apply all_values_none. exact Ev.
  - destruct (negb (dicts_ok l (vars sc) ex)) eqn:Da; [injection H as <- <- <-; apply Same; apply does_call_bad; apply dicts_bad; apply negb_true_iff; exact Da|].
    apply negb_false_iff in Da. assert (Wd := proj1 (dicts_spec l sc ex) Da).
    destruct (all_files rec me l ex mx fns [] s) as [[[[|e] vs] s1]|] eqn:E; try discriminate; destruct (all_files_sound rec Hrec _ _ _ _ _ _ _ _ _ _ _ _ E (r_w _ _ _ _ HR) (r_c _ _ _ _ HR) (r_len _ _ _ _ HR) Wd) as (w2 & vs2 & -> & X & W2 & C2 & K2).
    + destruct (assign me l s1 x (one_or_tuple ([] ++ vs2))) as [l3 s3] eqn:A. injection H as <- <- <-. assert (R1 := after_call _ _ _ _ _ _ HR W2 C2 K2).
      destruct (assign_R _ _ _ _ _ _ _ _ _ R1 A) as (sc2 & B & R2 & K3). exists sc2, w2. split; [apply does_call with (vs := vs2) (v := one_or_tuple vs2); [exact Wd | exact X | apply packed_spec; reflexivity | exact B]|].
      split; [exact R2|]. apply (keep_trans _ _ _ _ (keep_weak _ _ none (is me) (fun i F => match F : False with end) K2) K3).
    + injection H as <- <- <-. exists sc, w2. split; [apply does_call_fails with (vs := [] ++ vs2); [exact Wd | exact X]|]. split; [apply (after_call _ _ _ _ _ _ HR W2 C2 K2) | apply (keep_weak _ _ none (is me) (fun i F => match F : False with end) K2)].
  - injection H as <- <- <-. exists sc, (with_chdir w b). split; [apply does_chdir|]. apply world_R with (w := w); try reflexivity; [exact HR|]. destruct (r_w _ _ _ _ HR) as [A1 A2 A3 A4 A5]. split; cbn; auto.
Qed.
Lemma run_sound : forall n, sound (run n).
Proof.
  induction n as [|n IH]; intros me body l s o l2 s2 sc w H HR; [discriminate|]. cbn [SconModel.run] in H. destruct body as [|c body].
  - injection H as <- <- <-. exists sc, w. split; [constructor|]. split; [exact HR | apply keep_refl].
  - destruct (do_stmt (run n) me c l s) as [[[[|e] l1] s1]|] eqn:E; try discriminate; destruct (stmt_sound (run n) IH _ _ _ _ _ _ _ _ _ E HR) as (sc1 & w1 & X1 & R1 & K1).
    + destruct (IH _ _ _ _ _ _ _ _ _ H R1) as (sc2 & w2 & X2 & R2 & K2). exists sc2, w2. split; [apply runs_cons with (sc2 := sc1) (l2 := l1) (w2 := w1); assumption|]. split; [exact R2 | apply (keep_trans _ _ _ _ K1 K2)].
    + injection H as <- <- <-. exists sc1, w1. split; [apply runs_stop; exact X1 | auto].
Qed.
End Sound.
