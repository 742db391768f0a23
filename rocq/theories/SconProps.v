(* C60: the reading of SConscript files.  The call stack of the code does what SconSpec says: soundness *)
From Coq Require Import List Bool Arith Lia.
Import ListNotations.
From Verif Require Import SconModel SconSpec.

(* ---- namespaces and expressions ---- *)
Lemma lookup_has : forall l sc x v, lookup l (vars sc) x = Some v <-> has l sc x v.
Proof.
  intros l sc x v. unfold lookup. split.
  - destruct l as [g|]; [|intros H; apply has_global; [discriminate | exact H]].
    destruct (g x) as [u|] eqn:E; intros H; [injection H as <-; apply (has_local _ _ _ g); [reflexivity | exact E]|].
    apply has_global; [intros g2 Eg; injection Eg as <-; exact E | exact H].
  - destruct 1 as [g v -> Hg|v Hl Hg]; [rewrite Hg; reflexivity|]. destruct l as [g|]; [rewrite (Hl g eq_refl)|]; exact Hg.
Qed.
Lemma lookup_none : forall l sc x, lookup l (vars sc) x = None <-> forall v, ~ has l sc x v.
Proof.
  intros l sc x. split; [intros H v Hv; apply lookup_has in Hv; congruence|]. intros H. destruct (lookup l (vars sc) x) as [v|] eqn:E; [|reflexivity]. apply lookup_has in E. destruct (H v E).
Qed.
Lemma eval_value : forall l sc e v, eval l (vars sc) e = Some v <-> value l sc e v.
Proof.
  intros l sc e v. destruct e as [u|x]; cbn [eval]; split.
  - intros H. injection H as <-. constructor.
  - inversion 1; reflexivity.
  - intros H. constructor. apply lookup_has. exact H.
  - inversion 1; subst. apply lookup_has. assumption.
Qed.
Lemma eval_none : forall l sc e, eval l (vars sc) e = None <-> undefined l sc e.
Proof.
  intros l sc e. split; [intros H v Hv; apply eval_value in Hv; congruence|]. intros H. destruct (eval l (vars sc) e) as [v|] eqn:E; [|reflexivity]. apply eval_value in E. destruct (H v E).
Qed.
Lemma dict_display : forall l sc d g h, eval_dict l (vars sc) d g = Some h <-> display l sc d g h.
Proof.
  induction d as [|[x e] d IH]; intros g h; cbn [eval_dict]; split.
  - intros H. injection H as <-. constructor.
  - inversion 1; reflexivity.
  - destruct (eval l (vars sc) e) as [v|] eqn:E; [|discriminate]. intros H. apply display_cons with (v := v); [apply eval_value; exact E | apply IH; exact H].
  - inversion 1; subst. match goal with K : value _ _ _ _ |- _ => apply eval_value in K; rewrite K end. apply IH. assumption.
Qed.
Lemma dict_defined : forall l sc d g g2, eval_dict l (vars sc) d g = None -> eval_dict l (vars sc) d g2 = None.
Proof. induction d as [|[x e] d IH]; intros g g2 H; cbn [eval_dict] in *; [discriminate|]. destruct (eval l (vars sc) e); [apply (IH _ _ H) | reflexivity]. Qed.
Lemma defined_spec : forall l sc a, (match a with XName _ => true | XDict d => match eval_dict l (vars sc) d nempty with Some _ => true | None => false end end) = true <-> well_defined l sc a.
Proof.
  intros l sc [x|d]; cbn [well_defined]; [tauto|]. destruct (eval_dict l (vars sc) d nempty) as [h|] eqn:E; split; try discriminate.
  - intros _. exists h. apply dict_display. exact E.
  - reflexivity.
  - intros (h & H). apply dict_display in H. congruence.
Qed.
Lemma dicts_spec : forall l sc args, dicts_ok l (vars sc) args = true <-> forall a, In a args -> well_defined l sc a.
Proof. intros l sc args. unfold dicts_ok. rewrite forallb_forall. split; intros H a Ha; apply defined_spec; apply H; exact Ha. Qed.
Lemma dicts_bad : forall l sc args, dicts_ok l (vars sc) args = false <-> exists a, In a args /\ ~ well_defined l sc a.
Proof.
  intros l sc args. split.
  - intros H. induction args as [|a args IH]; [discriminate|]. cbn [dicts_ok forallb] in H. apply andb_false_iff in H. destruct H as [H | H].
    + exists a. split; [left; reflexivity|]. intros W. apply defined_spec in W. congruence.
    + destruct (IH H) as (b & Hb & W). exists b. split; [right; exact Hb | exact W].
  - intros (a & Ha & W). destruct (dicts_ok l (vars sc) args) eqn:E; [|reflexivity]. apply (proj1 (dicts_spec l sc args)) with (a := a) in E; [contradiction | exact Ha].
Qed.
Lemma exports_collects : forall l sc args g h, compute_exports l (vars sc) args g = inl h <-> collects l sc args g h.
Proof.
  induction args as [|[x|d] args IH]; intros g h; cbn [compute_exports]; split.
  - intros H. injection H as <-. constructor.
  - inversion 1; reflexivity.
  - destruct (lookup l (vars sc) x) as [v|] eqn:E; [|discriminate]. intros H. apply collects_name with (v := v); [apply lookup_has; exact E | apply IH; exact H].
  - inversion 1; subst. match goal with K : has _ _ _ _ |- _ => apply lookup_has in K; rewrite K end. apply IH. assumption.
  - destruct (eval_dict l (vars sc) d g) as [g2|] eqn:E; [|discriminate]. intros H. apply collects_dict with (g2 := g2); [apply dict_display; exact E | apply IH; exact H].
  - inversion 1; subst. match goal with K : display _ _ _ _ _ |- _ => apply dict_display in K; rewrite K end. apply IH. assumption.
Qed.
Lemma exports_error : forall l sc args g e, (forall a, In a args -> well_defined l sc a) -> compute_exports l (vars sc) args g = inr e -> e = UserErr.
Proof.
  induction args as [|[x|d] args IH]; intros g e W H; cbn [compute_exports] in H; [discriminate| |].
  - destruct (lookup l (vars sc) x) as [v|]; [|congruence]. apply (IH _ _ (fun a Ha => W a (or_intror Ha)) H).
  - destruct (eval_dict l (vars sc) d g) as [g2|] eqn:E; [apply (IH _ _ (fun a Ha => W a (or_intror Ha)) H)|].
    exfalso. destruct (W _ (or_introl eq_refl)) as (h & Hh). apply dict_display in Hh. rewrite (dict_defined _ _ _ _ nempty E) in Hh. discriminate.
Qed.
Lemma exports_not : forall l sc args e, compute_exports l (vars sc) args nempty = inr e -> ~ exportable l sc args.
Proof. intros l sc args e H (h & Hh). apply exports_collects in Hh. congruence. Qed.
Lemma exports_not_inv : forall l sc args, (forall a, In a args -> well_defined l sc a) -> ~ exportable l sc args -> compute_exports l (vars sc) args nempty = inr UserErr.
Proof.
  intros l sc args W H. destruct (compute_exports l (vars sc) args nempty) as [h|e] eqn:E; [destruct H; exists h; apply exports_collects; exact E|].
  rewrite (exports_error _ _ _ _ _ W E). reflexivity.
Qed.
Lemma do_export_spec : forall l sc args g g2 e, (forall a x, In a args -> In x a -> well_defined l sc x) ->
  (do_export l (vars sc) args g = (g2, e) <-> exports_to l sc args g g2 (out_of e)).
Proof.
  induction args as [|a args IH]; intros g g2 e W; cbn [do_export].
  - split; [intros H; injection H as <- <-; constructor|]. inversion 1; subst. destruct e; [discriminate | reflexivity].
  - assert (W2 : forall b x, In b args -> In x b -> well_defined l sc x) by (intros b x Hb Hx; apply (W b x); [right; exact Hb | exact Hx]).
    destruct (compute_exports l (vars sc) a nempty) as [h|u] eqn:E.
    + rewrite (IH _ _ _ W2). split.
      * intros H. apply exports_cons with (h := h); [apply exports_collects; exact E | exact H].
      * inversion 1 as [|a2 r g3 h2 g4 o Hc He|a2 r g3 Hn E1 E2 E3 Eo]; subst.
        -- apply exports_collects in Hc. rewrite E in Hc. injection Hc as <-. exact He.
        -- destruct Hn. exists h. apply exports_collects. exact E.
    + assert (u = UserErr) by (apply (exports_error l sc a nempty); [intros x Hx; apply (W a x); [left; reflexivity | exact Hx] | exact E]). subst u. split.
      * intros H. injection H as <- <-. apply exports_bad. apply (exports_not _ _ _ _ E).
      * inversion 1 as [|a2 r g3 h2 g4 o Hc He|a2 r g3 Hn E1 E2 E3 Eo]; subst.
        -- apply exports_collects in Hc. congruence.
        -- destruct e as [e|]; [|discriminate]. cbn in Eo. injection Eo as <-. reflexivity.
Qed.
Lemma do_import_spec : forall gi ex args g g2 e, do_import gi ex args g = (g2, e) <-> imports gi ex args g g2 (out_of e).
Proof.
  induction args as [|[x|] args IH]; intros g g2 e; cbn [do_import].
  - split; [intros H; injection H as <- <-; constructor|]. inversion 1; subst. destruct e; [discriminate | reflexivity].
  - destruct (gi x) as [v|] eqn:Eg; [|destruct (ex x) as [v|] eqn:Ee].
    + rewrite IH. split; [intros H; apply imports_given with (v := v); assumption|]. inversion 1; subst; try congruence.
    + rewrite IH. split; [intros H; apply imports_exported with (v := v); assumption|]. inversion 1; subst; try congruence.
    + split; [intros H; injection H as <- <-; apply imports_missing; assumption|]. inversion 1 as [| | |x2 r g3 H1 H2 E1 E2 E3 Eo|]; subst; try congruence.
      destruct e as [e|]; [|discriminate]. cbn in Eo. injection Eo as <-. reflexivity.
  - rewrite IH. split; [intros H; apply imports_star; exact H|]. inversion 1; subst. assumption.
Qed.
Lemma all_values_spec : forall g xs vs, all_values g xs = Some vs <-> Forall2 (fun x v => g x = Some v) xs vs.
Proof.
  induction xs as [|x xs IH]; intros vs; cbn [all_values]; split.
  - intros H. injection H as <-. constructor.
  - inversion 1; reflexivity.
  - destruct (g x) as [v|] eqn:E; [|discriminate]. destruct (all_values g xs) as [l|] eqn:El; [|discriminate]. intros H. injection H as <-. constructor; [exact E | apply IH; reflexivity].
  - inversion 1 as [|x2 v xs2 l Hx Hl]; subst. rewrite Hx. apply IH in Hl. rewrite Hl. reflexivity.
Qed.
Lemma all_values_none : forall g xs, all_values g xs = None <-> exists x, In x xs /\ g x = None.
Proof.
  induction xs as [|x xs IH]; cbn [all_values]; split.
  - discriminate.
  - intros (x & [] & _).
  - destruct (g x) as [v|] eqn:E; [|intros _; exists x; split; [left; reflexivity | exact E]]. destruct (all_values g xs) as [l|]; [discriminate|]. intros _.
    destruct (proj1 IH eq_refl) as (y & Hy & Gy). exists y. split; [right; exact Hy | exact Gy].
  - intros (y & [<- | Hy] & Gy); [rewrite Gy; reflexivity|]. destruct (g x); [|reflexivity]. rewrite (proj2 IH); [reflexivity | exists y; auto].
Qed.
Lemma packed_spec : forall l v, packed l v <-> v = one_or_tuple l.
Proof.
  intros l v. split.
  - destruct 1 as [v|l H]; [reflexivity|]. destruct l as [|x [|y l]]; [reflexivity | cbn in H; congruence | reflexivity].
  - intros ->. destruct l as [|x [|y l]]; cbn [one_or_tuple]; constructor; discriminate.
Qed.

(* ---- frames ---- *)
Lemma upd_length : forall (A : Type) (l : list A) i f, length (upd_nth l i f) = length l.
Proof. induction l as [|x l IH]; intros [|i] f; cbn; auto. Qed.
Lemma upd_same : forall (A : Type) (l : list A) i f d, i < length l -> nth i (upd_nth l i f) d = f (nth i l d).
Proof. induction l as [|x l IH]; intros [|i] f d H; cbn in *; try lia; [reflexivity|]. apply IH. lia. Qed.
Lemma upd_other : forall (A : Type) (l : list A) i j f d, i <> j -> nth j (upd_nth l i f) d = nth j l d.
Proof. induction l as [|x l IH]; intros [|i] [|j] f d H; cbn; try reflexivity; try congruence. apply IH. congruence. Qed.

(* what is shared *)
Record Rw (w : world) (s : st) : Prop := { r_gex : gex s = exported w; r_os : ocwd s = osdir w; r_chf : chf s = chdir_on w; r_in : stdin s = input w; r_out : out s = shown w }.
(* a script as a caller *)
Record Rc (me : nat) (sc : scope) (s : st) : Prop := { r_vars : fglobals (frame_of s me) = vars sc; r_cwd : fcwd s = here sc; r_path : spath s = path sc; r_depth : reading s = depth sc }.
(* the script being read *)
Record R (me : nat) (sc : scope) (w : world) (s : st) : Prop :=
  { r_w : Rw w s; r_c : Rc me sc s; r_len : me < length (heap s); r_given : fexports (frame_of s me) = given sc; r_ret : fret (frame_of s me) = ret sc; r_top : hd_error (stack s) = Some me }.
(* nothing else is changed *)
Record Keep (s s' : st) (mine : nat -> Prop) : Prop :=
  { k_stack : stack s' = stack s; k_cwd : fcwd s' = fcwd s; k_path : spath s' = spath s; k_depth : reading s' = reading s; k_len : length (heap s) <= length (heap s');
    k_frames : forall i, i < length (heap s) -> ~ mine i -> frame_of s' i = frame_of s i; k_prev : forall i, i < length (heap s) -> fprev (frame_of s' i) = fprev (frame_of s i) }.
Lemma keep_refl : forall s m, Keep s s m.
Proof. intros s m. split; auto. Qed.
Lemma keep_trans : forall s1 s2 s3 m, Keep s1 s2 m -> Keep s2 s3 m -> Keep s1 s3 m.
Proof.
  intros s1 s2 s3 m K L. split; [transitivity (stack s2) | transitivity (fcwd s2) | transitivity (spath s2) | transitivity (reading s2) | transitivity (length (heap s2)) | |]; try apply K; try apply L.
  - intros i Hi Hm. rewrite (k_frames _ _ _ L); [apply (k_frames _ _ _ K); assumption | | exact Hm]. eapply Nat.lt_le_trans; [exact Hi | apply K].
  - intros i Hi. rewrite (k_prev _ _ _ L); [apply (k_prev _ _ _ K); assumption|]. eapply Nat.lt_le_trans; [exact Hi | apply K].
Qed.
Lemma keep_weak : forall s1 s2 (m m2 : nat -> Prop), (forall i, m i -> m2 i) -> Keep s1 s2 m -> Keep s1 s2 m2.
Proof. intros s1 s2 m m2 H K. split; try apply K. intros i Hi Hn. apply (k_frames _ _ _ K); [exact Hi | intros Hm; apply Hn, H, Hm]. Qed.
Lemma top_me : forall me sc w s, R me sc w s -> top_of s = me.
Proof. intros me sc w s H. unfold top_of. assert (T := r_top _ _ _ _ H). destruct (stack s); [discriminate|]. cbn in *. congruence. Qed.
Lemma frame_set_globals : forall s i g, i < length (heap s) -> frame_of (set_globals s i g) i = {| fglobals := g; fret := fret (frame_of s i); fprev := fprev (frame_of s i); fexports := fexports (frame_of s i) |}.
Proof. intros s i g H. unfold frame_of, set_globals. cbn [heap set_heap]. rewrite upd_same by exact H. reflexivity. Qed.
Lemma frame_set_ret : forall s i v, i < length (heap s) -> frame_of (set_ret s i v) i = {| fglobals := fglobals (frame_of s i); fret := v; fprev := fprev (frame_of s i); fexports := fexports (frame_of s i) |}.
Proof. intros s i v H. unfold frame_of, set_ret. cbn [heap set_heap]. rewrite upd_same by exact H. reflexivity. Qed.
Lemma globals_R : forall me sc w s g, R me sc w s -> R me (with_vars sc g) w (set_globals s me g) /\ Keep s (set_globals s me g) (fun i => i = me).
Proof.
  intros me sc w s g H. assert (L := r_len _ _ _ _ H). split.
  - destruct H as [[A1 A2 A3 A4 A5] [B1 B2 B3 B4] _ H1 H2 H3]. split; [split; assumption | | | | | exact H3].
    + split; try assumption. rewrite frame_set_globals by exact L. reflexivity.
    + unfold set_globals. cbn [heap set_heap]. rewrite upd_length. exact L.
    + rewrite frame_set_globals by exact L. exact H1.
    + rewrite frame_set_globals by exact L. exact H2.
  - split; try reflexivity.
    + unfold set_globals. cbn [heap set_heap]. rewrite upd_length. apply le_n.
    + intros i Hi Hn. unfold frame_of, set_globals. cbn [heap set_heap]. apply upd_other. congruence.
    + intros i Hi. destruct (Nat.eq_dec i me) as [-> | Hn]; [rewrite frame_set_globals by exact L; reflexivity|]. unfold frame_of, set_globals. cbn [heap set_heap]. rewrite upd_other by congruence. reflexivity.
Qed.
Lemma ret_R : forall me sc w s v, R me sc w s -> R me (with_ret sc v) w (set_ret s me v) /\ Keep s (set_ret s me v) (fun i => i = me).
Proof.
  intros me sc w s v H. assert (L := r_len _ _ _ _ H). split.
  - destruct H as [[A1 A2 A3 A4 A5] [B1 B2 B3 B4] _ H1 H2 H3]. split; [split; assumption | | | | | exact H3].
    + split; try assumption. rewrite frame_set_ret by exact L. exact B1.
    + unfold set_ret. cbn [heap set_heap]. rewrite upd_length. exact L.
    + rewrite frame_set_ret by exact L. exact H1.
    + rewrite frame_set_ret by exact L. reflexivity.
  - split; try reflexivity.
    + unfold set_ret. cbn [heap set_heap]. rewrite upd_length. apply le_n.
    + intros i Hi Hn. unfold frame_of, set_ret. cbn [heap set_heap]. apply upd_other. congruence.
    + intros i Hi. destruct (Nat.eq_dec i me) as [-> | Hn]; [rewrite frame_set_ret by exact L; reflexivity|]. unfold frame_of, set_ret. cbn [heap set_heap]. rewrite upd_other by congruence. reflexivity.
Qed.
(* a change of the shared part *)
Lemma world_R : forall me sc w s w2 s2, R me sc w s -> Rw w2 s2 -> heap s2 = heap s -> stack s2 = stack s -> fcwd s2 = fcwd s -> spath s2 = spath s -> reading s2 = reading s ->
  R me sc w2 s2 /\ Keep s s2 (fun i => i = me).
Proof.
  intros me sc w s w2 s2 H Hw E1 E2 E3 E4 E5. assert (F : forall i, frame_of s2 i = frame_of s i) by (intros i; unfold frame_of; rewrite E1; reflexivity). split.
  - destruct H as [_ [B1 B2 B3 B4] L H1 H2 H3]. split; [exact Hw | | | | |]; try (rewrite F); try (rewrite E1); try (rewrite E2); try assumption. split; [rewrite F | congruence | congruence | congruence]. exact B1.
  - split; [exact E2 | exact E3 | exact E4 | exact E5 | rewrite E1; apply le_n | intros i _ _; apply F | intros i _; rewrite F; reflexivity].
Qed.
Lemma assign_R : forall me sc w s l x v l2 s2, R me sc w s -> assign me l s x v = (l2, s2) -> exists sc2, binds l sc x v = (l2, sc2) /\ R me sc2 w s2 /\ Keep s s2 (fun i => i = me).
Proof.
  intros me sc w s l x v l2 s2 H E. destruct l as [g|]; cbn [assign binds] in *; injection E as <- <-.
  - exists sc. split; [reflexivity|]. split; [exact H | apply keep_refl].
  - exists (with_vars sc (nset (vars sc) x v)). split; [reflexivity|]. rewrite (r_vars _ _ _ (r_c _ _ _ _ H)). apply globals_R. exact H.
Qed.
