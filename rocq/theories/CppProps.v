(* C38: conditional preprocessing selects exactly the active groups. *)
From Coq Require Import List Arith Bool Lia.
From Verif Require Import CppModel CppSpec.
Import ListNotations.

Scheme group_ind2 := Induction for group Sort Prop with chain_ind2 := Induction for chain Sort Prop.
Combined Scheme group_chain_ind from group_ind2, chain_ind2.

Section P.
Variable evalc : expr -> ns -> option bool.
Variable expand : body -> ns -> option value.
Variable find : bool -> nat -> option file.
Variable depth : option nat.
Variable file_group : file -> group.
Hypothesis EV : forall e n, evalc e n <> None.
Notation contents := (fun f => lines (file_group f)).
Notation mrun := (run evalc expand find contents depth).
Notation mstep := (step evalc expand find contents depth).

(* m reaches m' in some number of steps *)
Definition reaches (m m' : mst) : Prop := exists n, forall fuel, mrun (n + fuel) m = mrun fuel m'.
Lemma reaches_refl m : reaches m m.
Proof. exists 0. reflexivity. Qed.
Lemma reaches_trans a b c : reaches a b -> reaches b c -> reaches a c.
Proof. intros [n A] [k B]. exists (n + k). intro fuel. rewrite <- Nat.add_assoc, A, B. reflexivity. Qed.
Lemma reaches_step t d s x r m' : mstep t (mkM d s x r) = Next m' -> reaches (mkM d s x (t :: r)) m'.
Proof. intro H. exists 1. intro fuel. cbn [Nat.add run m_tuples m_table m_stack m_st]. rewrite H. reflexivity. Qed.
Definition ends (m : mst) (f : final) : Prop := exists n, forall fuel, mrun (n + fuel) m = Some f.
Lemma ends_after a b f : reaches a b -> ends b f -> ends a f.
Proof. intros [n A] [k B]. exists (n + k). intro fuel. rewrite <- Nat.add_assoc, A, B. reflexivity. Qed.

(* skipped text: nothing is honoured while the enclosing table has the handlers off *)
Definition off (d : table) : Prop := t_inc d = false /\ t_def d = false.
Lemma off_start d s d' : off d -> off (start_handling (d :: s) d').
Proof. intros [A B]. split; cbn; assumption. Qed.
Lemma off_stop d : off (stop_handling d).
Proof. split; reflexivity. Qed.
Lemma skip : 
  (forall g d s x r, off d -> reaches (mkM d s x (lines g ++ r)) (mkM d s x r)) /\
  (forall ch d p s x r, off d -> off p -> reaches (mkM d (p :: s) x (chain_lines ch ++ r)) (mkM p s x r)).
Proof.
  apply group_chain_ind.
  - intros d s x r _. apply reaches_refl.
  - intros l g IH d s x r O. cbn [lines app]. eapply reaches_trans; [apply reaches_step|apply IH; exact O].
    destruct O as [O1 O2]. destruct l; cbn [line_tuple step m_table]; rewrite ?O1, ?O2; reflexivity.
  - intros c g IHg ch IHc rest IHr d s x r O. cbn [lines app]. rewrite <- !app_assoc.
    assert (X : exists d', off d' /\ mstep (cond_tuple c) (mkM d s x (lines g ++ chain_lines ch ++ lines rest ++ r)) =
                           Next (mkM d' (d :: s) x (lines g ++ chain_lines ch ++ lines rest ++ r))).
    { assert (Y : forall b, exists d', off d' /\ if_else_condition b (mkM d s x (lines g ++ chain_lines ch ++ lines rest ++ r)) =
                                        mkM d' (d :: s) x (lines g ++ chain_lines ch ++ lines rest ++ r)).
      { destruct O as [O1 O2]. intros [|]; eexists; (split; [|reflexivity]); split; cbn; assumption || reflexivity. }
      destruct c as [e|y|y]; cbn [cond_tuple step m_st].
      - destruct (evalc e (s_ns x)) as [b|] eqn:E; [|destruct (EV _ _ E)]. destruct (Y b) as [d' [A B]]. exists d'. rewrite B. auto.
      - destruct (Y (match lookup y (s_ns x) with Some _ => true | None => false end)) as [d' [A B]]. exists d'. rewrite B. auto.
      - destruct (Y (match lookup y (s_ns x) with Some _ => false | None => true end)) as [d' [A B]]. exists d'. rewrite B. auto. }
    destruct X as [d' [O' X]]. eapply reaches_trans; [apply reaches_step, X|].
    eapply reaches_trans; [apply IHg; exact O'|]. eapply reaches_trans; [apply IHc; assumption|]. apply IHr. exact O.
  - intros d p s x r O P. cbn [chain_lines app]. apply reaches_step. reflexivity.
  - intros g IHg d p s x r O P. cbn [chain_lines app]. rewrite <- app_assoc.
    assert (X : exists d', off d' /\ mstep TElse (mkM d (p :: s) x (lines g ++ [TEndif] ++ r)) = Next (mkM d' (p :: s) x (lines g ++ [TEndif] ++ r))).
    { cbn [step m_table]. destruct (t_else d).
      - exists d. auto.
      - exists (start_handling (p :: s) d). split; [apply off_start; exact P | reflexivity].
      - exists (stop_handling d). split; [apply off_stop | reflexivity]. }
    destruct X as [d' [O' X]]. eapply reaches_trans; [apply reaches_step, X|].
    eapply reaches_trans; [apply IHg; exact O'|]. apply reaches_step. reflexivity.
  - intros e g IHg ch IHc d p s x r O P. cbn [chain_lines app]. rewrite <- app_assoc.
    assert (X : exists d', off d' /\ mstep (TElif e) (mkM d (p :: s) x (lines g ++ chain_lines ch ++ r)) = Next (mkM d' (p :: s) x (lines g ++ chain_lines ch ++ r))).
    { cbn [step m_table m_st]. destruct (t_elif d).
      - destruct (evalc e (s_ns x)) as [[|]|] eqn:E; [| |destruct (EV _ _ E)].
        + eexists. split; [|reflexivity]. destruct P as [P1 P2]. split; cbn; assumption.
        + exists d. auto.
      - exists (stop_handling d). split; [apply off_stop | reflexivity]. }
    destruct X as [d' [O' X]]. eapply reaches_trans; [apply reaches_step, X|].
    eapply reaches_trans; [apply IHg; exact O'|]. apply IHc; assumption.
Qed.
(* once a group has been selected, the rest of the if-section is skipped *)
Lemma skip_rest ch d p s x r : t_elif d = HElifStop -> t_else d = HElseStop ->
  reaches (mkM d (p :: s) x (chain_lines ch ++ r)) (mkM p s x r).
Proof.
  intros E1 E2. revert d E1 E2. induction ch as [|g|e g ch IH]; intros d E1 E2; cbn [chain_lines app].
  - apply reaches_step. reflexivity.
  - rewrite <- app_assoc. eapply reaches_trans.
    + apply reaches_step. cbn [step m_table]. rewrite E2. reflexivity.
    + cbn [set_table m_stack m_st m_tuples]. eapply reaches_trans; [apply (proj1 skip), off_stop|]. apply reaches_step. reflexivity.
  - rewrite <- app_assoc. eapply reaches_trans.
    + apply reaches_step. cbn [step m_table]. rewrite E1. reflexivity.
    + cbn [set_table m_stack m_st m_tuples]. eapply reaches_trans; [apply (proj1 skip), off_stop|]. apply IH; assumption.
Qed.

(* active text *)
Definition on (d : table) : Prop := t_inc d = true /\ t_def d = true.
(* what the machine does with a text that means r: *)
Definition follows_sem (r : result) (m : mst) (after : st -> mst) : Prop :=
  match r with
  | Ok s => reaches m (after s)
  | Error => ends m FRaised
  | Hangs => ends m FHung
  | TooDeep => True
  end.
Lemma follows_bind r f m after after' : follows_sem r m after -> (forall s, r = Ok s -> follows_sem (f s) (after s) after') ->
  follows_sem (bind r f) m after'.
Proof.
  destruct r as [s| | |]; cbn [bind follows_sem]; intros H1 H2; [|exact H1..].
  specialize (H2 s eq_refl). destruct (f s); cbn [follows_sem] in *.
  - exact (reaches_trans _ _ _ H1 H2).
  - exact (ends_after _ _ _ H1 H2).
  - exact (ends_after _ _ _ H1 H2).
  - exact H2.
Qed.
Lemma follows_pre r m0 m after : reaches m0 m -> follows_sem r m after -> follows_sem r m0 after.
Proof.
  destruct r; cbn [follows_sem]; intros H1 H2; [exact (reaches_trans _ _ _ H1 H2) | exact (ends_after _ _ _ H1 H2).. | exact H2].
Qed.
Lemma follows_post r m after after' : (forall s, reaches (after s) (after' s)) -> follows_sem r m after -> follows_sem r m after'.
Proof. destruct r; cbn [follows_sem]; intros H1 H2; [exact (reaches_trans _ _ _ H2 (H1 s)) | exact H2..]. Qed.

Lemma count_app a b : count_current (a ++ b) = count_current a + count_current b.
Proof. unfold count_current. rewrite filter_app, app_length. reflexivity. Qed.
Lemma count_lines : (forall g, count_current (lines g) = 0) /\ (forall ch, count_current (chain_lines ch) = 0).
Proof.
  apply group_chain_ind.
  - reflexivity.
  - intros l g IH. cbn [lines]. change (line_tuple l :: lines g) with ([line_tuple l] ++ lines g). rewrite count_app, IH. destruct l; reflexivity.
  - intros c g IHg ch IHc rest IHr. cbn [lines]. change (cond_tuple c :: ?x) with ([cond_tuple c] ++ x).
    rewrite !count_app, IHg, IHc, IHr. destruct c; reflexivity.
  - reflexivity.
  - intros g IHg. cbn [chain_lines]. change (TElse :: ?x) with ([TElse] ++ x). rewrite !count_app, IHg. reflexivity.
  - intros e g IHg ch IHc. cbn [chain_lines]. change (TElif e :: ?x) with ([TElif e] ++ x). rewrite !count_app, IHg, IHc. reflexivity.
Qed.
Lemma existsb_in g l : existsb (Nat.eqb g) l = if in_dec Nat.eq_dec g l then true else false.
Proof.
  destruct (in_dec Nat.eq_dec g l) as [H|H].
  - apply existsb_exists. exists g. split; [exact H | apply Nat.eqb_refl].
  - destruct (existsb (Nat.eqb g) l) eqn:E; [|reflexivity]. apply existsb_exists in E. destruct E as [y [Y E]].
    apply Nat.eqb_eq in E. subst y. contradiction.
Qed.

Section Group.
Variable k : nat.
Variable read : file -> st -> result.
(* reading a new file does what read says *)
Hypothesis READ : forall f d s x r, on d -> count_current r = S k -> follows_sem (read f x) (mkM d s x (lines (file_group f) ++ r)) (fun x' => mkM d s x' r).

Lemma remove_filter y (n : ns) : CppModel.remove y n = filter (fun yv => negb (y =? fst yv)) n.
Proof. induction n as [|[z v] n IH]; [reflexivity|]. cbn [CppModel.remove filter fst]. destruct (y =? z); cbn [negb]; rewrite IH; reflexivity. Qed.
Lemma line_sem l d s x r : on d -> count_current r = k ->
  follows_sem (sem_line expand find depth read k l x) (mkM d s x (line_tuple l :: r)) (fun x' => mkM d s x' r).
Proof.
  intros [O1 O2] K. destruct l as [y b|y|a]; cbn [sem_line line_tuple].
  - destruct (expand b (s_ns x)) as [v|] eqn:E; cbn [follows_sem].
    + apply reaches_step. cbn [step m_table m_st]. rewrite O2, E. reflexivity.
    + exists 1. intro fuel. cbn [Nat.add run m_tuples m_table m_stack m_st step]. rewrite O2, E. reflexivity.
  - cbn [follows_sem]. apply reaches_step. cbn [step m_table m_st]. rewrite O2, remove_filter. reflexivity.
  - assert (STEP : mstep (TInclude a) (mkM d s x r) = do_include find contents depth a (mkM d s x r)) by (cbn [step m_table]; rewrite O1; reflexivity).
    unfold do_include in STEP. cbn [m_st m_tuples m_table m_stack] in STEP.
    destruct (resolve_include a (s_ns x)) as [b f| | |] eqn:ER; cbn [follows_sem].
    + destruct (find b f) as [g|] eqn:EF; cbn [follows_sem].
      * rewrite existsb_in in STEP. destruct (in_dec Nat.eq_dec g (s_result x)) as [I|NI]; cbn [follows_sem].
        { apply reaches_step. exact STEP. }
        cbn [set_st m_st m_tuples m_table m_stack s_ns s_result] in STEP. rewrite K in STEP.
        set (x1 := mkS (s_ns x) (s_result x ++ [g])) in *.
        assert (DEEP : match depth with None => false | Some n => n <=? k end = negb (match depth with None => true | Some n => k <? n end)).
        { destruct depth as [n|]; [|reflexivity]. rewrite Nat.ltb_antisym, negb_involutive. reflexivity. }
        rewrite DEEP in STEP. destruct (match depth with None => true | Some n => k <? n end); cbn [negb] in STEP; cbn zeta.
        { eapply follows_pre; [apply reaches_step; exact STEP|].
          eapply follows_pre; [apply reaches_step; reflexivity|].
          eapply follows_post with (after := fun x' => mkM d s x' (TCurrent :: r)).
          - intro y. apply reaches_step. reflexivity.
          - apply READ; [split; assumption|]. change (TCurrent :: r) with ([TCurrent] ++ r). rewrite count_app, K. reflexivity. }
        { cbn [follows_sem]. apply reaches_step. exact STEP. }
      * apply reaches_step. exact STEP.
    + apply reaches_step. exact STEP.
    + exists 1. intro fuel. cbn [Nat.add run m_tuples m_table m_stack m_st]. rewrite STEP. reflexivity.
    + exists 1. intro fuel. cbn [Nat.add run m_tuples m_table m_stack m_st]. rewrite STEP. reflexivity.
Qed.
Lemma group_sem :
  (forall g d s x r, on d -> count_current r = k ->
     follows_sem (sem_group evalc expand find depth read k g x) (mkM d s x (lines g ++ r)) (fun x' => mkM d s x' r)) /\
  (forall ch d p s x r, off d -> t_elif d = HElif -> t_else d = HStart -> on p -> count_current r = k ->
     follows_sem (sem_chain evalc expand find depth read k ch x) (mkM d (p :: s) x (chain_lines ch ++ r)) (fun x' => mkM p s x' r)).
Proof.
  apply group_chain_ind.
  - intros d s x r _ _. cbn [sem_group follows_sem lines app]. apply reaches_refl.
  - intros l g IH d s x r O K. cbn [sem_group lines app]. eapply follows_bind.
    + apply line_sem; [exact O|]. rewrite count_app, (proj1 count_lines), K. reflexivity.
    + intros s' _. apply IH; assumption.
  - intros c g IHg ch IHc rest IHr d s x r O K. cbn [sem_group lines app]. rewrite <- !app_assoc.
    set (tl := lines g ++ chain_lines ch ++ lines rest ++ r).
    assert (KT : count_current (chain_lines ch ++ lines rest ++ r) = k).
    { rewrite !count_app, (proj2 count_lines), (proj1 count_lines), K. reflexivity. }
    assert (KR : count_current (lines rest ++ r) = k) by (rewrite count_app, (proj1 count_lines), K; reflexivity).
    assert (STEP : mstep (cond_tuple c) (mkM d s x tl) = match holds evalc c (s_ns x) with None => Raised | Some b => Next (if_else_condition b (mkM d s x tl)) end).
    { destruct c as [e|y|y]; reflexivity. }
    destruct (holds evalc c (s_ns x)) as [[|]|] eqn:EH.
    + assert (S2 : mstep (cond_tuple c) (mkM d s x tl) = Next (mkM (mkT (t_inc d) (t_def d) HElifStop HElseStop) (d :: s) x tl)) by exact STEP.
      eapply follows_pre; [apply reaches_step; exact S2|]. eapply follows_bind.
      * unfold tl. apply IHg; [exact O | exact KT].
      * intros s' _. eapply follows_pre; [|apply IHr; [exact O | exact K]]. apply skip_rest; reflexivity.
    + assert (S2 : mstep (cond_tuple c) (mkM d s x tl) = Next (mkM (mkT false false HElif HStart) (d :: s) x tl)) by exact STEP.
      eapply follows_pre; [apply reaches_step; exact S2|].
      eapply follows_pre; [unfold tl; apply (proj1 skip); split; reflexivity|]. eapply follows_bind.
      * apply IHc; [split; reflexivity | reflexivity | reflexivity | exact O | exact KR].
      * intros s' _. apply IHr; [exact O | exact K].
    + cbn [follows_sem]. exists 1. intro fuel. cbn [Nat.add run m_tuples m_table m_stack m_st]. rewrite STEP. reflexivity.
  - intros d p s x r O E1 E2 P K. cbn [sem_chain follows_sem chain_lines app]. apply reaches_step. reflexivity.
  - intros g IHg d p s x r O E1 E2 P K. cbn [sem_chain chain_lines app]. rewrite <- app_assoc.
    eapply follows_pre.
    { apply reaches_step. cbn [step m_table]. rewrite E2. reflexivity. }
    cbn [set_table m_stack m_st m_tuples].
    eapply follows_post; [|apply IHg with (r := [TEndif] ++ r)].
    + intro y. apply reaches_step. reflexivity.
    + destruct P as [P1 P2]. split; cbn; assumption.
    + rewrite count_app, K. reflexivity.
  - intros e g IHg ch IHc d p s x r O E1 E2 P K. cbn [sem_chain chain_lines app]. rewrite <- app_assoc.
    destruct (evalc e (s_ns x)) as [[|]|] eqn:EE.
    + eapply follows_pre.
      { apply reaches_step. cbn [step m_table m_st]. rewrite E1, EE. reflexivity. }
      cbn [set_table m_stack m_st m_tuples].
      eapply follows_post; [|apply IHg with (r := chain_lines ch ++ r)].
      * intro y. apply skip_rest; reflexivity.
      * destruct P as [P1 P2]. split; cbn; assumption.
      * rewrite count_app, (proj2 count_lines), K. reflexivity.
    + eapply follows_pre.
      { apply reaches_step. cbn [step m_table m_st]. rewrite E1, EE. reflexivity. }
      eapply follows_pre; [apply (proj1 skip); exact O|]. apply IHc; assumption.
    + destruct (EV _ _ EE).
Qed.
End Group.

Lemma sem_correct : forall d0 k g d s x r, on d -> count_current r = k ->
  follows_sem (sem evalc expand find depth file_group d0 k g x) (mkM d s x (lines g ++ r)) (fun x' => mkM d s x' r).
Proof.
  induction d0 as [|d0 IH]; intros k g d s x r O K; cbn [sem].
  - apply (proj1 (group_sem k (fun _ _ => TooDeep) (fun _ _ _ _ _ _ _ => I))); assumption.
  - apply (proj1 (group_sem k (fun f s => sem evalc expand find depth file_group d0 (S k) (file_group f) s) (fun f d' s' x' r' O' K' => IH (S k) (file_group f) d' s' x' r' O' K')));
      assumption.
Qed.
End P.

Section Depth.
Variable evalc : expr -> ns -> option bool.
Variable expand : body -> ns -> option value.
Variable find : bool -> nat -> option file.
Variable depth : option nat.
Variable file_group : file -> group.
Variable F : list file.
Hypothesis HF : forall b f g, find b f = Some g -> In g F.
Definition unread_in (F : list file) (res : list file) : nat := length (filter (fun g => if in_dec Nat.eq_dec g res then false else true) F).
Lemma unread_mono res res' : forall F, incl res res' -> unread_in F res' <= unread_in F res.
Proof.
  intros G I. unfold unread_in. induction G as [|g G IH]; cbn [filter]; [lia|].
  destruct (in_dec Nat.eq_dec g res) as [A|A]; destruct (in_dec Nat.eq_dec g res') as [B|B]; cbn [length]; [exact IH | | |]; try lia.
  exfalso. exact (B (I _ A)).
Qed.
Lemma unread_add res g : forall F, In g F -> ~ In g res -> unread_in F (res ++ [g]) < unread_in F res.
Proof.
  intro G. induction G as [|h G IH]; intros HI HN; [destruct HI|].
  assert (M : unread_in G (res ++ [g]) <= unread_in G res) by (apply unread_mono; intros y Y; apply in_or_app; left; exact Y).
  unfold unread_in in *. cbn [filter].
  destruct (in_dec Nat.eq_dec h res) as [A|A]; destruct (in_dec Nat.eq_dec h (res ++ [g])) as [B|B]; cbn [length].
  - destruct HI as [->|HI]; [contradiction | exact (IH HI HN)].
  - exfalso. apply B, in_or_app. left. exact A.
  - lia.
  - destruct HI as [->|HI]; [exfalso; apply B, in_or_app; right; left; reflexivity | specialize (IH HI HN); lia].
Qed.
Definition shallow (bound : nat) (h : st -> result) : Prop :=
  forall s, unread_in F (s_result s) <= bound -> h s <> TooDeep /\ forall s', h s = Ok s' -> incl (s_result s) (s_result s').
Lemma shallow_bind n h h' : shallow n h -> shallow n h' -> shallow n (fun s => bind (h s) h').
Proof.
  intros A B s U. destruct (A s U) as [A1 A2]. destruct (h s) as [t| | |]; cbn [bind].
  - specialize (A2 t eq_refl). destruct (B t) as [B1 B2]; [pose proof (unread_mono _ _ F A2); lia|].
    split; [exact B1|]. intros s' E x X. exact (B2 s' E x (A2 x X)).
  - split; [discriminate | intros s' E; discriminate].
  - split; [discriminate | intros s' E; discriminate].
  - contradiction.
Qed.
Lemma shallow_group n k read : (forall g, forall s, In g F -> ~ In g (s_result s) -> unread_in F (s_result s) <= n ->
     read g (mkS (s_ns s) (s_result s ++ [g])) <> TooDeep /\
     forall s', read g (mkS (s_ns s) (s_result s ++ [g])) = Ok s' -> incl (s_result s) (s_result s')) ->
  (forall g, shallow n (sem_group evalc expand find depth read k g)) /\ (forall ch, shallow n (sem_chain evalc expand find depth read k ch)).
Proof.
  intro HR.
  assert (OKS : forall s, Ok s <> TooDeep /\ forall s', Ok s = Ok s' -> incl (s_result s) (s_result s')).
  { intro s. split; [discriminate|]. intros s' E. injection E as <-. apply incl_refl. }
  apply group_chain_ind.
  - intros s _. cbn [sem_group]. apply OKS.
  - intros l g IH. cbn [sem_group]. apply (shallow_bind n (sem_line expand find depth read k l)); [|exact IH]. intros s U.
    destruct l as [x b|x|a]; cbn [sem_line].
    + destruct (expand b (s_ns s)); [|split; [discriminate | intros s' E; discriminate]].
      split; [discriminate|]. intros s' E. injection E as <-. apply incl_refl.
    + split; [discriminate|]. intros s' E. injection E as <-. apply incl_refl.
    + destruct (resolve_include a (s_ns s)) as [b f| | |]; [|apply OKS | split; [discriminate | intros s' E; discriminate].. ].
      destruct (find b f) as [h|] eqn:EF; [|apply OKS]. destruct (in_dec Nat.eq_dec h (s_result s)) as [I|NI]; [apply OKS|].
      cbn zeta. destruct (match depth with None => true | Some n => k <? n end).
      * apply HR; [exact (HF _ _ _ EF) | exact NI | exact U].
      * split; [discriminate|]. intros s' E. injection E as <-. intros y Y. apply in_or_app. left. exact Y.
  - intros c g IHg ch IHc rest IHr s U. cbn [sem_group]. destruct (holds evalc c (s_ns s)) as [[|]|].
    + exact (shallow_bind n _ _ IHg IHr s U).
    + exact (shallow_bind n _ _ IHc IHr s U).
    + split; [discriminate | intros s' E; discriminate].
  - intros s _. cbn [sem_chain]. apply OKS.
  - intros g IHg. exact IHg.
  - intros e g IHg ch IHc s U. cbn [sem_chain]. destruct (evalc e (s_ns s)) as [[|]|].
    + exact (IHg s U).
    + exact (IHc s U).
    + split; [discriminate | intros s' E; discriminate].
Qed.
Lemma sem_shallow : forall d k g, shallow d (sem evalc expand find depth file_group d k g).
Proof.
  induction d as [|d IH]; intros k g; cbn [sem]; apply shallow_group.
  - intros h s H1 H2 H3. pose proof (unread_add (s_result s) h F H1 H2). lia.
  - intros h s H1 H2 H3. pose proof (unread_add (s_result s) h F H1 H2) as L.
    destruct (IH (S k) (file_group h) (mkS (s_ns s) (s_result s ++ [h]))) as [A B]; [cbn [s_result]; lia|].
    split; [exact A|]. intros s' E x X. apply (B s' E). cbn [s_result]. apply in_or_app. left. exact X.
Qed.
End Depth.

(* Scanning a file whose conditionals are well nested (and the files it includes): the machine ends, and what it has defined and
   included, in order, is exactly what the groups selected by the C rules say. *)
Theorem C38_active_groups : forall evalc expand find depth file_group F defs f,
  (forall e n, evalc e n <> None) ->
  (forall b i g, find b i = Some g -> In g F) ->
  exists n, forall fuel, n <= fuel ->
  let r := process_file evalc expand find (fun f => lines (file_group f)) depth fuel defs f in
  match sem evalc expand find depth file_group (length F) 0 (file_group f) (mkS defs [f]) with
  | Ok s => exists m, r = Some (Done m) /\ m_st m = s /\ includes_of r = Some (tl (s_result s))
  | Error => r = Some FRaised
  | Hangs => r = Some FHung
  | TooDeep => False
  end.
Proof.
  intros evalc expand find depth file_group F defs f EV HF.
  pose proof (sem_correct evalc expand find depth file_group EV (length F) 0 (file_group f) default_table [] (mkS defs [f]) []
                (conj eq_refl eq_refl) eq_refl) as C.
  destruct (sem_shallow evalc expand find depth file_group F HF (length F) 0 (file_group f) (mkS defs [f])) as [ND _].
  { unfold unread_in. set (h := fun g => _). clear. induction F as [|a l IH]; cbn [filter length]; [lia|]. destruct (h a); cbn [length]; lia. }
  rewrite app_nil_r in C. unfold process_file.
  destruct (sem evalc expand find depth file_group (length F) 0 (file_group f) (mkS defs [f])) as [s| | |]; cbn [follows_sem] in C.
  - destruct C as [n C]. exists n. intros fuel L. cbn zeta.
    assert (E : run evalc expand find (fun f => lines (file_group f)) depth fuel (mkM default_table [] (mkS defs [f]) (lines (file_group f)))
                = Some (Done (mkM default_table [] s []))).
    { replace fuel with (n + (fuel - n)) by lia. rewrite C. destruct (fuel - n); reflexivity. }
    rewrite E. exists (mkM default_table [] s []). repeat split.
  - destruct C as [n C]. exists n. intros fuel L. cbn zeta. replace fuel with (n + (fuel - n)) by lia. apply C.
  - destruct C as [n C]. exists n. intros fuel L. cbn zeta. replace fuel with (n + (fuel - n)) by lia. apply C.
  - contradiction.
Qed.

(* The scan ends on any tuples at all, well nested or not. *)
Section Term.
Variable evalc : expr -> ns -> option bool.
Variable expand : body -> ns -> option value.
Variable find : bool -> nat -> option file.
Variable contents : file -> list tuple.
Variable depth : option nat.
Variable F : list file.
Hypothesis HF : forall b f g, find b f = Some g -> In g F.
Definition weight (G : list file) (res : list file) : nat :=
  list_sum (map (fun g => if in_dec Nat.eq_dec g res then 0 else 2 + length (contents g)) G).
Lemma weight_cons g G res : weight (g :: G) res = (if in_dec Nat.eq_dec g res then 0 else 2 + length (contents g)) + weight G res.
Proof. reflexivity. Qed.
Lemma weight_mono res g : forall G, weight G (res ++ [g]) <= weight G res.
Proof.
  induction G as [|h G IH]; [reflexivity|]. rewrite !weight_cons.
  destruct (in_dec Nat.eq_dec h (res ++ [g])) as [A|A]; destruct (in_dec Nat.eq_dec h res) as [B|B]; try lia.
  exfalso. apply A, in_or_app. left. exact B.
Qed.
Lemma weight_add res g : forall G, In g G -> ~ In g res -> weight G (res ++ [g]) + 2 + length (contents g) <= weight G res.
Proof.
  induction G as [|h G IH]; intros HI HN; [destruct HI|]. rewrite !weight_cons.
  destruct (Nat.eq_dec h g) as [->|D].
  - pose proof (weight_mono res g G).
    destruct (in_dec Nat.eq_dec g (res ++ [g])) as [A|A]; [|exfalso; apply A, in_or_app; right; left; reflexivity].
    destruct (in_dec Nat.eq_dec g res) as [B|B]; [contradiction|]. lia.
  - destruct HI as [X|HI]; [congruence|]. specialize (IH HI HN).
    destruct (in_dec Nat.eq_dec h (res ++ [g])) as [A|A]; destruct (in_dec Nat.eq_dec h res) as [B|B]; try lia.
    exfalso. apply A, in_or_app. left. exact B.
Qed.
Lemma arith1 a b c l : a + 2 + c <= b -> l + a <= l + b. Proof. lia. Qed.
Lemma arith2 a b c l : a + 2 + c <= b -> S (c + S l) + a <= l + b. Proof. lia. Qed.
Lemma step_weight t d s x r m' : step evalc expand find contents depth t (mkM d s x r) = Next m' ->
  length (m_tuples m') + weight F (s_result (m_st m')) <= length r + weight F (s_result x).
Proof.
  intro H. destruct t as [e|y|y|e| | |y b|y|a|]; cbn [step m_table m_stack m_st m_tuples] in H.
  - destruct (evalc e (s_ns x)); [|discriminate]. injection H as <-. cbn. lia.
  - injection H as <-. cbn. lia.
  - injection H as <-. cbn. lia.
  - destruct (t_elif d); [|injection H as <-; cbn; lia]. destruct (evalc e (s_ns x)) as [[|]|]; [| |discriminate]; injection H as <-; cbn; lia.
  - destruct (t_else d); injection H as <-; cbn; lia.
  - destruct s; injection H as <-; cbn; lia.
  - destruct (t_def d); [|injection H as <-; cbn; lia]. destruct (expand b (s_ns x)); [|discriminate]. injection H as <-. cbn. lia.
  - destruct (t_def d); injection H as <-; cbn; lia.
  - destruct (t_inc d); [|injection H as <-; cbn; lia]. unfold do_include in H. cbn [m_table m_stack m_st m_tuples set_st s_result s_ns] in H.
    destruct (resolve_include a (s_ns x)) as [b f| | |]; try discriminate; [|injection H as <-; cbn; lia].
    destruct (find b f) as [g|] eqn:EF; [|injection H as <-; cbn; lia]. rewrite existsb_in in H.
    destruct (in_dec Nat.eq_dec g (s_result x)) as [I|NI]; [injection H as <-; cbn; lia|].
    pose proof (weight_add (s_result x) g F (HF _ _ _ EF) NI) as W.
    destruct (match depth with None => false | Some n => n <=? count_current r end); injection H as <-; cbn [m_tuples m_st s_result length].
    + exact (arith1 _ _ _ _ W).
    + rewrite app_length. cbn [length]. exact (arith2 _ _ _ _ W).
  - injection H as <-. cbn. lia.
Qed.
Lemma run_ends : forall fuel m, length (m_tuples m) + weight F (s_result (m_st m)) <= fuel ->
  exists r, run evalc expand find contents depth fuel m = Some r.
Proof.
  induction fuel as [|fuel IH]; intros [d s x l] L; cbn [m_tuples m_st] in L; destruct l as [|t r]; cbn [run m_tuples m_table m_stack m_st].
  - eexists. reflexivity.
  - cbn in L. lia.
  - eexists. reflexivity.
  - destruct (step evalc expand find contents depth t (mkM d s x r)) as [m'| |] eqn:E; [|eexists; reflexivity..].
    apply IH. apply step_weight in E. cbn [length] in L. lia.
Qed.
End Term.
Theorem C38b_terminates : forall evalc expand find contents depth F defs f,
  (forall b i g, find b i = Some g -> In g F) ->
  exists n, forall fuel, n <= fuel -> exists r, process_file evalc expand find contents depth fuel defs f = Some r.
Proof.
  intros evalc expand find contents depth F defs f HF.
  exists (length (contents f) + weight contents F [f]). intros fuel L. apply run_ends with (F := F); [exact HF | exact L].
Qed.

(* A macro used as an include name: the expansion loop ends exactly when it ends within as many steps as there are macros. *)
Lemma resolve_more n : forall fuel fuel' a, fuel <= fuel' -> resolve fuel a n <> RHang -> resolve fuel' a n = resolve fuel a n.
Proof.
  induction fuel as [|fuel IH]; intros fuel' a L H; destruct a as [b f|x].
  - destruct fuel'; reflexivity.
  - contradiction H. reflexivity.
  - destruct fuel'; reflexivity.
  - destruct fuel' as [|fuel']; [lia|]. cbn [resolve] in *. destruct (lookup x n) as [[b f|y| |]|]; try reflexivity.
    apply IH; [lia | exact H].
Qed.
Section Chain.
Variable n : ns.
(* the k-th name of the chain *)
Fixpoint chain (k : nat) (x : name) : option name :=
  match k with 0 => Some x | S k => match lookup x n with Some (VName y) => chain k y | _ => None end end.
Lemma chain_add j k : forall x y, chain j x = Some y -> chain (j + k) x = chain k y.
Proof.
  induction j as [|j IH]; intros x y H; cbn [chain Nat.add] in *; [injection H as <-; reflexivity|].
  destruct (lookup x n) as [[b f|z| |]|]; try discriminate. apply IH. exact H.
Qed.
Lemma hang_chain : forall fuel x, resolve fuel (AName x) n = RHang -> forall k, k <= fuel -> exists y, chain k x = Some y.
Proof.
  induction fuel as [|fuel IH]; intros x H k L.
  - replace k with 0 by lia. eexists. reflexivity.
  - destruct k as [|k]; [eexists; reflexivity|]. cbn [resolve chain] in *. destruct (lookup x n) as [[b f|y| |]|]; try discriminate.
    apply IH; [exact H | lia].
Qed.
Lemma chain_hang : forall fuel x, (forall k, k <= fuel -> exists y, chain k x = Some y) -> resolve fuel (AName x) n = RHang.
Proof.
  induction fuel as [|fuel IH]; intros x H; [reflexivity|]. cbn [resolve].
  destruct (H 1) as [y Y]; [lia|]. cbn [chain] in Y. destruct (lookup x n) as [[b f|z| |]|] eqn:E; try discriminate.
  apply IH. intros k L. destruct (H (S k)) as [w W]; [lia|]. cbn [chain] in W. rewrite E in W. exists w. exact W.
Qed.
Lemma lookup_In x v : lookup x n = Some v -> In x (map fst n).
Proof.
  clear. induction n as [|[y w] r IH]; cbn [lookup map fst]; [discriminate|]. destruct (Nat.eqb_spec x y) as [->|D]; [left; reflexivity | intro H; right; exact (IH H)].
Qed.
End Chain.
Lemma NoDup_remove_alt {A} (x : A) : forall l, NoDup l -> ~ In x l -> NoDup (l ++ [x]).
Proof.
  induction l as [|a l IH]; intros N H; cbn [app]; [constructor; [intros []|constructor]|].
  inversion N as [|? ? N1 N2]; subst. constructor.
  - intro X. apply in_app_or in X. destruct X as [X|[X|[]]]; [exact (N1 X) | apply H; left; symmetry; exact X].
  - apply IH; [exact N2 | intro X; apply H; right; exact X].
Qed.
Lemma dec_dup (f : nat -> nat) : forall m, NoDup (map f (seq 0 m)) \/ exists i j, i < j /\ j < m /\ f i = f j.
Proof.
  induction m as [|m [ND|[i [j [A [B C]]]]]]; [left; constructor | | right; exists i, j; split; [exact A|split; [lia|exact C]]].
  destruct (in_dec Nat.eq_dec (f m) (map f (seq 0 m))) as [I|NI].
  - apply in_map_iff in I. destruct I as [i [E I]]. apply in_seq in I. right. exists i, m. split; [lia|split; [lia|exact E]].
  - left. rewrite seq_S, map_app. cbn [map Nat.add]. apply NoDup_remove_alt; assumption.
Qed.
Theorem C38c_include_macro : forall a n, resolve_include a n = RHang <-> forall fuel, resolve fuel a n = RHang.
Proof.
  intros a n. split; [|intro H; apply H]. unfold resolve_include. intros H fuel. destruct a as [b f|x]; [discriminate H|].
  destruct (Nat.le_gt_cases fuel (S (length n))) as [L|G].
  { destruct (resolve fuel (AName x) n) eqn:E; try reflexivity; rewrite (resolve_more n fuel (S (length n)) (AName x) L) in H by congruence; congruence. }
  (* the names at positions 0 .. length n all have a binding; two are equal *)
  assert (B : forall k, k <= length n -> exists y, chain n k x = Some y /\ In y (map fst n)).
  { intros k L. destruct (hang_chain n _ _ H (k + 1)) as [z Z]; [lia|]. destruct (hang_chain n _ _ H k) as [y Y]; [lia|].
    exists y. split; [exact Y|]. rewrite (chain_add n k 1 x y Y) in Z. cbn [chain] in Z.
    destruct (lookup y n) as [v|] eqn:E; [exact (lookup_In n y v E) | discriminate]. }
  set (f := fun k => match chain n k x with Some y => y | None => 0 end).
  assert (D : ~ NoDup (map f (seq 0 (S (length n))))).
  { intro ND. apply NoDup_incl_length with (l' := map fst n) in ND.
    - rewrite !map_length, seq_length in ND. lia.
    - intros y Y. apply in_map_iff in Y. destruct Y as [k [<- K]]. apply in_seq in K. destruct (B k) as [y [Y1 Y2]]; [lia|].
      unfold f. rewrite Y1. exact Y2. }
  assert (EQ : exists i j, i < j /\ j <= length n /\ f i = f j).
  { destruct (dec_dup f (S (length n))) as [ND|[i [j [A [B' C]]]]]; [contradiction | exists i, j; split; [lia|split; [lia|exact C]]]. }
  destruct EQ as [i [j [Lij [Lj E]]]]. unfold f in E.
  destruct (B i) as [y [Y1 _]]; [lia|]. destruct (B j) as [z [Z1 _]]; [lia|]. rewrite Y1, Z1 in E. subst z.
  apply chain_hang. intros k _.
  (* every k is a position at most j after going round *)
  assert (R : forall m k, k <= m -> exists w, chain n k x = Some w).
  { induction m as [|m IH]; intros k' L; [replace k' with 0 by lia; eexists; reflexivity|].
    destruct (Nat.le_gt_cases k' j) as [L2|G2].
    - destruct (B k') as [w [W _]]; [lia|]. exists w. exact W.
    - replace k' with (j + (k' - j)) by lia. rewrite (chain_add n j (k' - j) x y Z1).
      destruct (IH (i + (k' - j))) as [w W]; [lia|]. rewrite (chain_add n i (k' - j) x y Y1) in W. exists w. exact W. }
  exact (R k k (Nat.le_refl k)).
Qed.

(* A DumbPreProcessor honours every line: the same as scanning with all conditional lines taken out. *)
Definition plain_line (t : tuple) : bool :=
  match t with TIf _ | TIfdef _ | TIfndef _ | TElif _ | TElse | TEndif => false | _ => true end.
Definition same_end (a b : option final) : Prop :=
  match a, b with
  | Some (Done m), Some (Done m') => m_st m = m_st m'
  | Some FRaised, Some FRaised => True
  | Some FHung, Some FHung => True
  | _, _ => False
  end.
Lemma count_plain l : count_current (filter plain_line l) = count_current l.
Proof.
  induction l as [|t l IH]; [reflexivity|]. unfold count_current in *. destruct t; cbn [filter plain_line length] in *; rewrite ?IH; reflexivity || (f_equal; exact IH).
Qed.
Lemma dumb_sim evalc expand find contents depth : forall fuel d s x l r,
  t_inc d = true -> t_def d = true ->
  dumb_run evalc expand find contents depth fuel (mkM d s x l) = Some r ->
  same_end (Some r) (run evalc expand find (fun f => filter plain_line (contents f)) depth fuel (mkM d s x (filter plain_line l))).
Proof.
  assert (MONO : forall ct fuel m r, run evalc expand find ct depth fuel m = Some r -> run evalc expand find ct depth (S fuel) m = Some r).
  { induction fuel as [|fuel IH]; intros m r H.
    - cbn [run] in *. destruct (m_tuples m); [exact H | discriminate].
    - cbn [run] in H |- *. destruct (m_tuples m) as [|t l]; [exact H|].
      destruct (step evalc expand find ct depth t (mkM (m_table m) (m_stack m) (m_st m) l)) as [m'| |]; [|exact H..].
      apply IH in H. exact H. }
  assert (UP : forall a ct fuel m, same_end a (run evalc expand find ct depth fuel m) -> same_end a (run evalc expand find ct depth (S fuel) m)).
  { intros a ct fuel m H. destruct (run evalc expand find ct depth fuel m) as [r'|] eqn:E.
    - rewrite (MONO _ _ _ _ E). exact H.
    - destruct a as [[m'| |]|]; destruct H. }
  induction fuel as [|fuel IH]; intros d s x l r D1 D2 H; destruct l as [|t l]; cbn [dumb_run m_tuples m_table m_stack m_st] in H.
  - injection H as <-. cbn. reflexivity.
  - discriminate.
  - injection H as <-. cbn. reflexivity.
  - destruct (plain_line t) eqn:PT.
    2:{ cbn [filter]. rewrite PT. apply UP, IH; [exact D1 | exact D2|]. destruct t; try discriminate; exact H. }
    cbn [filter]. rewrite PT. cbn [run m_tuples m_table m_stack m_st].
    destruct t as [e|y|y|e| | |y b|y|a|]; try discriminate; cbn [dumb_step step m_table m_st] in H |- *; rewrite ?D1, ?D2 in H |- *.
    + destruct (expand b (s_ns x)) as [v|]; [apply IH; assumption|]. injection H as <-. exact Logic.I.
    + apply IH; assumption.
    + unfold do_include in H |- *. cbn [m_table m_st m_tuples m_stack set_st s_ns s_result] in H |- *.
      destruct (resolve_include a (s_ns x)) as [b f| | |]; [|apply IH; assumption | injection H as <-; exact Logic.I | injection H as <-; exact Logic.I].
      destruct (find b f) as [g|]; [|apply IH; assumption].
      destruct (existsb (Nat.eqb g) (s_result x)); [apply IH; assumption|]. rewrite count_plain.
      destruct (match depth with None => false | Some n => n <=? count_current l end); [apply IH; assumption|].
      apply (IH _ _ _ (TCurrent :: contents g ++ TCurrent :: l)) in H; [|exact D1 | exact D2].
      cbn [filter plain_line] in H. rewrite filter_app in H. exact H.
    + apply IH; assumption.
Qed.
Theorem C38d_dumb : forall evalc expand find contents depth fuel defs f r,
  dumb_run evalc expand find contents depth fuel (mkM default_table [] (mkS defs [f]) (contents f)) = Some r ->
  same_end (Some r) (process_file evalc expand find (fun f => filter plain_line (contents f)) depth fuel defs f).
Proof. intros evalc expand find contents depth fuel defs f r H. apply dumb_sim; [reflexivity | reflexivity | exact H]. Qed.

(* ---- where the unrestricted claim fails ---- *)
(* a condition inside a skipped group is evaluated, and may raise (1/0 is a ZeroDivisionError, which is not caught) *)
Theorem C38_skipped_condition_refuted :
  let evalc (e : expr) (n : ns) := match e with 0 => Some false | _ => None end in
  let g := GIf (CIf 0) (GIf (CIf 1) GEnd CEndif GEnd) CEndif GEnd in
  process_file evalc (fun _ _ => None) (fun _ _ => None) (fun _ => lines g) None 9 [] 0 = Some FRaised
  /\ sem evalc (fun _ _ => None) (fun _ _ => None) None (fun _ => g) 0 0 g (mkS [] [0]) = Ok (mkS [] [0]).
Proof. split; reflexivity. Qed.
(* #define A A / #include A : the scan does not end *)
Theorem C38_self_macro_refuted : forall evalc find depth,
  process_file evalc (fun _ _ => Some (VName 1)) find (fun _ => [TDefine 1 0; TInclude (AName 1)]) depth 9 [] 0 = Some FHung
  /\ forall fuel, resolve fuel (AName 1) [(1, VName 1)] = RHang.
Proof.
  intros evalc find depth. split; [reflexivity|]. apply C38c_include_macro. reflexivity.
Qed.
(* a header included twice with different macros is read once: the second include of file 1 would include file 3 *)
Theorem C38_read_once_refuted :
  let evalc (e : expr) (n : ns) := Some (match lookup 7 n with Some _ => true | None => false end) in
  let contents f := match f with
                    | 0 => [TInclude (AFile false 1); TDefine 7 0; TInclude (AFile false 1)]
                    | 1 => [TIf 0; TInclude (AFile false 3); TElse; TInclude (AFile false 2); TEndif]
                    | _ => [] end in
  includes_of (process_file evalc (fun _ _ => Some VText) (fun _ f => Some f) contents None 30 [] 0) = Some [1; 2]
  /\ includes_of (process_file evalc (fun _ _ => Some VText) (fun _ f => Some f) contents None 30 [(7, VText)] 0) = Some [1; 3].
Proof. split; reflexivity. Qed.

(* lines: a directive is recognised as its own keyword, but #include_next never is *)
From Coq Require Import String Ascii.
Local Open Scope string_scope.
Lemma strip_app p s : strip_prefix p (p ++ s) = Some s.
Proof. induction p as [|a p IH]; [reflexivity|]. cbn [strip_prefix append]. rewrite Ascii.eqb_refl. exact IH. Qed.
(* the text after a keyword begins with something that cannot continue a word *)
Definition word_char (c : ascii) : bool :=
  let n := nat_of_ascii c in ((97 <=? n) && (n <=? 122) || (65 <=? n) && (n <=? 90) || (48 <=? n) && (n <=? 57) || (n =? 95))%nat.
Definition not_word (s : string) : Prop := match s with EmptyString => True | String c _ => word_char c = false end.
Theorem C38e_directive : forall k s, In k keywords -> k <> "include_next" -> not_word s -> directive (k ++ s) = Some (k, s).
Proof.
  intros k s HK NN HS.
  assert (NI : strip_prefix "def" s = None /\ strip_prefix "ndef" s = None).
  { destruct s as [|c s]; [split; reflexivity|]. cbn [not_word] in HS. split; cbn [strip_prefix];
      match goal with |- context [Ascii.eqb ?a c] => destruct (Ascii.eqb_spec a c) as [<-|D] end;
      [discriminate HS | reflexivity | discriminate HS | reflexivity]. }
  destruct NI as [N1 N2].
  cbn [keywords In] in HK. decompose [or] HK; try (subst k); try contradiction; try reflexivity.
  unfold directive, keywords. cbn [first_keyword]. unfold try_keyword. rewrite strip_app, N1, N2. reflexivity.
Qed.
Theorem C38_include_next_refuted : forall s, directive ("include_next" ++ s) = Some ("include", "_next" ++ s).
Proof. intro s. reflexivity. Qed.
(* comments: the text between two comments disappears with them, and the condition with it *)
Theorem C38_two_comments_refuted :
  cleanup " /* a */ 0 /* b */" = "" /\ cleanup " /* a */ 0" = " 0" /\ cleanup " 0 // b" = " 0" /\ cleanup " ""dir//x.h""" = " ""dir".
Proof. repeat split; vm_compute; reflexivity. Qed.

(* non-vacuity: nested conditionals over two files *)
Example C38_witness :
  let evalc (e : expr) (n : ns) := Some (match lookup e n with Some _ => true | None => false end) in
  let fg f := match f with
              | 0 => GIf (CIfdef 1) (GLine (LInclude (AFile false 9)) GEnd)
                       (CElif 2 (GIf (CIf 5) GEnd (CElse (GLine (LInclude (AFile false 1)) GEnd)) (GLine (LDefine 6 0) GEnd)) (CElse GEnd))
                       (GIf (CIf 6) (GLine (LInclude (AFile true 2)) GEnd) CEndif GEnd)
              | 1 => GIf (CIfndef 6) (GLine (LInclude (AFile false 3)) GEnd) CEndif (GLine (LInclude (AFile false 0)) GEnd)
              | _ => GEnd end in
  (forall b i g, (fun (_ : bool) f => if (f <? 10)%nat then Some f else None) b i = Some g -> In g (seq 0 10))
  /\ includes_of (process_file evalc (fun _ _ => Some VText) (fun _ f => if (f <? 10)%nat then Some f else None) (fun f => lines (fg f)) None 50 [(2, VText)] 0)
     = Some [1; 3; 2].
Proof.
  cbv zeta. split; [|reflexivity]. intros b i g H. destruct (i <? 10)%nat eqn:E; [|discriminate]. injection H as <-.
  apply in_seq. apply Nat.ltb_lt in E. lia.
Qed.
Print Assumptions C38_active_groups.
Print Assumptions C38b_terminates.
Print Assumptions C38c_include_macro.
Print Assumptions C38d_dumb.
Print Assumptions C38e_directive.
