(* C22, several lines: a command string with newlines is split into one command per line, in order. *)
From Coq Require Import Ascii String List Arith Bool Lia.
Import ListNotations.
From Verif Require Import SubstModel SubstProofs SubstProps.
Local Open Scope list_scope.

Definition nl_in (w : str) : bool := existsb (Ascii.eqb newline) w.
(* what one grouped token of a $-free string does *)
Definition ev2 (t : ltok) : levent := match t with LTText w => LAppend (VStr w) | LTSpace w => if nl_in w then LNextLine else LNextWord | LTExp _ => LNextWord end.
Definition sp0 (s : str) : Prop := forall c, In c s -> is_space c = true -> is_space0 c = true.
Definition no_nl (s : str) : Prop := ~ In newline s.
Lemma nl_in_false w : no_nl w -> nl_in w = false.
Proof. intros H. unfold nl_in. destruct (existsb (Ascii.eqb newline) w) eqn:X; [|reflexivity]. apply existsb_exists in X. destruct X as (x & X1 & X2). apply Ascii.eqb_eq in X2. subst. contradiction. Qed.
Lemma nl_in_true w : In newline w -> nl_in w = true.
Proof. intros H. unfold nl_in. apply existsb_exists. exists newline. split; [exact H | apply Ascii.eqb_refl]. Qed.

Lemma lexpand_text fuel m E lv s : text s -> sp0 s -> lexpand (S fuel) m E lv false (VStr s) = Ok (map ev2 (group (map TChar s))).
Proof.
  intros T O. rewrite lexpand_VStr, (lex_text s T). unfold lev.
  assert (G : forall s, text s -> sp0 s -> forall t, In t (group (map TChar s)) -> match t with LTText _ => True | LTSpace w => (exists c w', w = c :: w' /\ is_space0 c = true) | LTExp _ => False end).
  { clear. induction s as [|c s IH]; intros T O t H; [destruct H|]. assert (T' : text s) by (intros D; apply T; right; exact D). assert (O' : sp0 s) by (intros d D; apply O; right; exact D).
    specialize (IH T' O'). cbn [map group] in H. assert (Nc : Ascii.eqb c dollar = false) by (apply Ascii.eqb_neq; intros ->; apply T; left; reflexivity). rewrite Nc in H.
    destruct (is_space c) eqn:Sc.
    - pose proof (O c (or_introl eq_refl) Sc) as S0. destruct (group (map TChar s)) as [|[x|x|x] g]; destruct H as [<-|H]; try (eexists; eexists; split; [reflexivity | exact S0]); try (apply IH; exact H); try (apply IH; right; exact H).
    - destruct (group (map TChar s)) as [|[x|x|[|d x]] g]; try (destruct (Ascii.eqb d dollar)); destruct H as [<-|H]; try exact Logic.I; try (apply IH; exact H); try (apply IH; right; exact H). }
  specialize (G s T O). rewrite (mapM_all_ok _ (fun t => [ev2 t])).
  - cbn [bind]. f_equal. generalize (group (map TChar s)). intros l; induction l as [|x l IH]; cbn; [reflexivity | f_equal; exact IH].
  - intros t Ht. specialize (G t Ht). destruct t as [t|w|w]; [contradiction| |reflexivity]. destruct G as (c & w' & -> & S0). cbn [ltev]. rewrite S0. cbn [negb]. unfold ev2, nl_in. destruct (existsb (Ascii.eqb newline) (c :: w')); reflexivity.
Qed.

(* a line followed by something that starts with white space containing a newline *)
Lemma group_line : forall a l u g, text a -> no_nl a -> group l = LTSpace u :: g -> nl_in u = true ->
  exists p w, group (map TChar a ++ l) = p ++ LTSpace w :: g /\ nl_in w = true /\ texts p = words a
    /\ Forall (fun t => match t with LTText _ => True | LTSpace w => nl_in w = false | LTExp _ => False end) p
    /\ match a with [] => p = [] | c :: _ => if is_space c then (p = [] \/ exists v q, p = LTSpace v :: q) else exists v q, p = LTText (c :: v) :: q end
    /\ (forall v w q1 q2, p <> q1 ++ LTText v :: LTText w :: q2).
Proof.
  induction a as [|c a IH]; intros l u g T Nn Gl Nu.
  - exists [], u. repeat split; auto. intros v w [|x q1] q2; discriminate.
  - assert (T' : text a) by (intros D; apply T; right; exact D). assert (Nn' : no_nl a) by (intros D; apply Nn; right; exact D).
    destruct (IH l u g T' Nn' Gl Nu) as (p & w & G & Nw & Tx & F & Sh & Adj). assert (Nc : Ascii.eqb c dollar = false) by (apply Ascii.eqb_neq; intros ->; apply T; left; reflexivity).
    assert (Cn : Ascii.eqb newline c = false) by (apply Ascii.eqb_neq; intros <-; apply Nn; left; reflexivity).
    cbn [map app group]. rewrite Nc, G. cbn [words]. destruct (is_space c) eqn:Sc.
    + destruct a as [|d a]; [subst p; cbn [app] in *|].
      * exists [], (c :: w). split; [reflexivity|]. split; [unfold nl_in; cbn [existsb]; fold (nl_in w); rewrite Nw; apply orb_true_r|]. split; [reflexivity|]. split; [constructor|]. split; [left; reflexivity|]. intros v w0 [|x q1] q2; discriminate.
      * cbn [is_space] in Sh. destruct (is_space d) eqn:Sd.
        -- destruct Sh as [->|(v & q & ->)]; cbn [app].
           ++ exists [], (c :: w). split; [reflexivity|]. split; [unfold nl_in; cbn [existsb]; fold (nl_in w); rewrite Nw; apply orb_true_r|]. split; [exact Tx|]. split; [constructor|]. split; [left; reflexivity|]. intros v w0 [|x q1] q2; discriminate.
           ++ exists (LTSpace (c :: v) :: q), w. split; [reflexivity|]. split; [exact Nw|]. split; [exact Tx|]. split; [constructor; [unfold nl_in; cbn [existsb]; rewrite Cn; apply (Forall_inv F) | apply (Forall_inv_tail F)]|].
              split; [right; eexists; eexists; reflexivity|]. intros v0 w0 [|x q1] q2 Q; [discriminate|]. injection Q as _ Q. apply (Adj v0 w0 (LTSpace v :: q1) q2). rewrite Q. reflexivity.
        -- destruct Sh as (v & q & ->). cbn [app]. exists (LTSpace [c] :: LTText (d :: v) :: q), w. split; [reflexivity|]. split; [exact Nw|]. split; [exact Tx|].
           split; [constructor; [unfold nl_in; cbn [existsb]; rewrite Cn; reflexivity | exact F]|]. split; [right; eexists; eexists; reflexivity|]. intros v0 w0 [|x q1] q2 Q; [discriminate|]. injection Q as _ Q. apply (Adj v0 w0 q1 q2 Q).
    + destruct a as [|d a]; [subst p; cbn [app] in *|].
      * exists [LTText [c]], w. split; [reflexivity|]. split; [exact Nw|]. split; [reflexivity|]. split; [repeat constructor|]. split; [eexists; eexists; reflexivity|]. intros v w0 [|x [|y q1]] q2 Q; discriminate.
      * destruct (is_space d) eqn:Sd.
        -- exists (LTText [c] :: p), w. split; [destruct Sh as [->|(v & q & ->)]; reflexivity|]. split; [exact Nw|]. split; [cbn [texts flat_map app]; f_equal; exact Tx|]. split; [constructor; [exact Logic.I | exact F]|].
           split; [eexists; eexists; reflexivity|]. intros v0 w0 [|x q1] q2 Q; injection Q as Q1 Q; [destruct Sh as [->|(v & q & ->)]; discriminate | apply (Adj v0 w0 q1 q2 Q)].
        -- destruct Sh as (v & q & ->). cbn [app]. assert (Nd : Ascii.eqb d dollar = false) by (apply Ascii.eqb_neq; intros ->; apply T'; left; reflexivity). rewrite Nd.
           exists (LTText (c :: d :: v) :: q), w. split; [reflexivity|]. split; [exact Nw|]. split; [rewrite <- Tx; reflexivity|]. split; [constructor; [exact Logic.I | apply (Forall_inv_tail F)]|].
           split; [eexists; eexists; reflexivity|]. intros v0 w0 [|x q1] q2 Q; injection Q as Q1 Q; [apply (Adj (d :: v) w0 [] q2); rewrite Q; reflexivity | apply (Adj v0 w0 (LTText (d :: v) :: q1) q2); rewrite Q; reflexivity].
Qed.
(* the words of a line are appended to the current line *)
Lemma run_line E m : forall p ws ls new, Forall (fun t => match t with LTText _ => True | LTSpace w => nl_in w = false | LTExp _ => False end) p ->
  (forall v w q1 q2, p <> q1 ++ LTText v :: LTText w :: q2) -> (new = true \/ match p with LTText _ :: _ => False | _ => True end) ->
  exists new', lrun E m (map ev2 p) {| l_lines := ws :: ls; l_new := new; l_strip := false |} = {| l_lines := (rev (texts p) ++ ws) :: ls; l_new := new'; l_strip := false |}.
Proof.
  unfold lrun. induction p as [|t p IH]; intros ws ls new F Adj Hn; [exists new; reflexivity|].
  assert (Adj' : forall v w q1 q2, p <> q1 ++ LTText v :: LTText w :: q2) by (intros v w q1 q2 Q; apply (Adj v w (t :: q1) q2); rewrite Q; reflexivity).
  pose proof (Forall_inv F) as Ft. pose proof (Forall_inv_tail F) as F'. destruct t as [t|w|w]; [contradiction| |]; cbn [map fold_left].
  - cbn [ev2]. rewrite Ft. cbn [lstep l_lines l_strip]. destruct (IH ws ls true F' Adj' (or_introl eq_refl)) as (n' & R). exists n'. rewrite R. reflexivity.
  - destruct Hn as [->|[]]. cbn [ev2 lstep]. unfold lappend. cbn [l_new]. unfold add_new. cbn [l_lines l_strip andb]. rewrite conv_VStr.
    destruct (IH (w :: ws) ls false F' Adj') as (n' & R).
    { right. destruct p as [|[x|x|x] p]; try exact Logic.I. apply (Adj w x [] p). reflexivity. }
    exists n'. rewrite R. cbn [texts flat_map app rev]. rewrite <- app_assoc. reflexivity.
Qed.
Fixpoint join_nl (ls : list str) : str := match ls with [] => [] | [a] => a | a :: r => a ++ newline :: join_nl r end.
(* one command per line: every line has at least one word *)
Definition line_ok (a : str) : Prop := text a /\ sp0 a /\ no_nl a /\ words a <> [].
Lemma line_one a : line_ok a -> one_line a.
Proof. intros (_ & O & N & _) c H. split; [intros ->; apply N, H | apply O, H]. Qed.
Lemma alt_adj : forall g p, alt p g -> forall v w q1 q2, g <> q1 ++ LTText v :: LTText w :: q2.
Proof.
  induction g as [|t g IH]; intros p A v w [|x q1] q2 Q; try discriminate; injection Q as -> Q.
  - subst g. cbn [alt] in A. destruct A as (_ & _ & A & _). discriminate.
  - destruct x as [x|x|x]; cbn [alt] in A; [contradiction| |]; eapply (IH _ (ltac:(apply A)) v w q1 q2 Q).
Qed.
Lemma alt_forall : forall g p, alt p g -> Forall (fun t => match t with LTText _ => True | LTSpace w => nl_in w = false | LTExp _ => False end) g.
Proof.
  induction g as [|t g IH]; intros p A; [constructor|]. destruct t as [t|w|w]; cbn [alt] in A; [contradiction| |]; constructor; try (eapply IH; apply A); [|exact Logic.I].
  apply nl_in_false. intros D. destruct A as (_ & A & _). apply (proj1 (A _ D)). reflexivity.
Qed.
Lemma join_nl_cons a b r : join_nl (a :: b :: r) = a ++ newline :: join_nl (b :: r).
Proof. reflexivity. Qed.
Lemma text_join ls : Forall line_ok ls -> text (join_nl ls) /\ sp0 (join_nl ls).
Proof.
  induction ls as [|a [|b r] IH]; intros F; [split; [intros [] | intros c []] | | ].
  - cbn. pose proof (Forall_inv F) as (T & O & _). auto.
  - rewrite join_nl_cons. destruct (IH (Forall_inv_tail F)) as [T' O']. destruct (Forall_inv F) as (T & O & _ & _). split.
    + intros D. apply in_app_or in D. destruct D as [D|[D|D]]; [apply T, D | discriminate | apply T', D].
    + intros c D. apply in_app_or in D. destruct D as [D|[<-|D]]; [apply O, D | reflexivity | apply O', D].
Qed.
Lemma lines_run E m : forall ls a L, Forall line_ok (a :: ls) ->
  l_lines (lrun E m (map ev2 (group (map TChar (join_nl (a :: ls))))) {| l_lines := [] :: L; l_new := true; l_strip := false |}) = map (@rev str) (rev (map words (a :: ls))) ++ L
  /\ (forall w g, group (map TChar (join_nl (a :: ls))) = LTSpace w :: g -> nl_in w = false).
Proof.
  induction ls as [|b ls IH]; intros a L F; pose proof (Forall_inv F) as Ha.
  - cbn [join_nl]. destruct (group_text a (proj1 Ha) (line_one a Ha)) as (A & W & Sh & _).
    assert (Fa : Forall (fun t => match t with LTText _ => True | LTSpace w => nl_in w = false | LTExp _ => False end) (group (map TChar a))).
    { eapply alt_forall, A. }
    split.
    + destruct (run_line E m _ [] L true Fa (alt_adj _ _ A) (or_introl eq_refl)) as (n' & R). rewrite R. cbn. rewrite W, app_nil_r. reflexivity.
    + intros w g Q. rewrite Q in Fa. apply (Forall_inv Fa).
  - rewrite join_nl_cons. destruct (IH b (rev (words a) :: L) (Forall_inv_tail F)) as [R Hd]. destruct Ha as (T & O & Nn & Wn).
    set (s := join_nl (b :: ls)) in *. assert (X : exists u g, group (map TChar (newline :: s)) = LTSpace u :: g /\ nl_in u = true /\ (group (map TChar s) = g \/ exists w, group (map TChar s) = LTSpace w :: g)).
    { cbn [map group]. change (Ascii.eqb newline dollar) with false. change (is_space newline) with true. cbv iota. destruct (group (map TChar s)) as [|[x|x|x] g].
      - exists [newline], []. repeat split; auto.
      - exists [newline], (LTExp x :: g). repeat split; auto.
      - exists (newline :: x), g. split; [reflexivity|]. split; [reflexivity | right; eauto].
      - exists [newline], (LTText x :: g). repeat split; auto. }
    destruct X as (u & g & Gs & Nu & Gcase). destruct (group_line a _ u g T Nn Gs Nu) as (p & w & G & Nw & Tx & Fp & Sh & Adj).
    rewrite map_app, G. split.
    + rewrite map_app. unfold lrun. rewrite fold_left_app. destruct (run_line E m p [] L true Fp Adj (or_introl eq_refl)) as (n' & Rp). unfold lrun in Rp. rewrite Rp, app_nil_r, Tx.
      cbn [map fold_left ev2]. rewrite Nw. cbn [lstep l_lines l_strip]. cbn [map rev]. cbn [map rev] in R. rewrite map_app. rewrite <- app_assoc. cbn [map app]. unfold lrun in R. rewrite <- R.
      destruct Gcase as [-> | (w0 & Q)]; [reflexivity|]. rewrite Q. cbn [map fold_left ev2]. rewrite (Hd _ _ Q). reflexivity.
    + intros w0 g0 Q. destruct p as [|t p]; cbn [app] in Q.
      * exfalso. apply Wn. rewrite <- Tx. reflexivity.
      * injection Q as -> _. apply (Forall_inv Fp).
Qed.
(* C22e.  A command string without $ of several lines gives one command per line, in order, each split into its words. *)
Theorem C22e_lines : forall fuel m E lv a ls, Forall line_ok (a :: ls) ->
  subst_list (S fuel) m E lv (join_nl (a :: ls)) = Ok (map words (a :: ls)).
Proof.
  intros fuel m E lv a ls F. destruct (text_join _ F) as [T O]. unfold subst_list. rewrite (lexpand_text fuel m E lv _ T O). cbn [bind]. f_equal. unfold ldata.
  destruct (lines_run E m ls a [] F) as [R _]. change {| l_lines := [[]]; l_new := true; l_strip := false |} with linit in R. rewrite R, app_nil_r, map_map. rewrite (map_ext _ (fun x => x)) by (intros x; apply rev_involutive).
  rewrite map_id. apply rev_involutive.
Qed.
Print Assumptions C22e_lines.
Lemma line_ok_b a : has_dollar a = false -> forallb (fun c => implb (is_space c) (is_space0 c)) a = true -> nl_in a = false -> (match words a with [] => false | _ => true end) = true -> line_ok a.
Proof.
  intros H1 H2 H3 H4. split; [apply has_dollar_false, H1|]. split; [|split].
  - intros c D Q. rewrite forallb_forall in H2. specialize (H2 c D). rewrite Q in H2. exact H2.
  - intros D. rewrite (nl_in_true _ D) in H3. discriminate.
  - intros Q. rewrite Q in H4. discriminate.
Qed.
Example C22e_witness : Forall line_ok [s_ "gcc -c a.c "; s_ "  ar  r x.a"] /\ join_nl [s_ "a b"; s_ "c"] = s_ "a b" ++ newline :: s_ "c".
Proof. split; [|reflexivity]. apply Forall_cons; [apply line_ok_b; reflexivity|]. apply Forall_cons; [apply line_ok_b; reflexivity | apply Forall_nil]. Qed.

(* A value without white space is joined to the text around it: -I${X}/y is one word. *)
Definition word (a : str) : Prop := a <> [] /\ text a /\ (forall c, In c a -> is_space c = false) /\ last_char_special a = false.
Lemma group_word a l : a <> [] -> text a -> (forall c, In c a -> is_space c = false) -> match group l with LTText _ :: _ => False | _ => True end -> group (map TChar a ++ l) = LTText a :: group l.
Proof.
  induction a as [|c a IH]; intros Ne T O G; [contradiction|]. assert (Nc : Ascii.eqb c dollar = false) by (apply Ascii.eqb_neq; intros ->; apply T; left; reflexivity).
  cbn [map app group]. rewrite Nc, (O c (or_introl eq_refl)). destruct a as [|d a].
  - cbn [map app]. destruct (group l) as [|[x|x|x] g]; try reflexivity. contradiction.
  - rewrite (IH ltac:(discriminate) (fun D => T (or_intror D)) (fun e D => O e (or_intror D)) G). assert (Nd : Ascii.eqb d dollar = false) by (apply Ascii.eqb_neq; intros ->; apply T; right; left; reflexivity). rewrite Nd. reflexivity.
Qed.
Theorem C22f_joined : forall fuel m E lv a x v b, word a -> word v -> word b -> (forall c, In c x -> c <> "}"%char) -> lookup E lv x = Ok (Some (VStr v)) ->
  subst_list (S fuel) m E lv (a ++ s_ "${" ++ x ++ s_ "}" ++ b) = Ok [[a ++ v ++ b]].
Proof.
  intros fuel m E lv a x v b (A1 & A2 & A3 & A4) (V1 & V2 & V3 & V4) (B1 & B2 & B3 & B4) Hx L. unfold subst_list. rewrite lexpand_VStr.
  assert (Lx : lex (a ++ s_ "${" ++ x ++ s_ "}" ++ b) = map TChar a ++ TRef x :: map TChar b).
  { rewrite (lex_text_app a _ A2). f_equal. rewrite lex_eq. change (s_ "${" ++ x ++ s_ "}" ++ b) with (dollar :: "{"%char :: x ++ "}"%char :: b). cbn [lex_step].
    change (Ascii.eqb dollar dollar) with true. cbv iota. change (Ascii.eqb "{"%char dollar) with false. change (Ascii.eqb "{"%char "("%char) with false. change (Ascii.eqb "{"%char ")"%char) with false. change (is_alpha_ "{"%char) with false. change (Ascii.eqb "{"%char "{"%char) with true. cbv iota.
    assert (Sp : span (fun c => negb (Ascii.eqb c "}"%char)) (x ++ "}"%char :: b) = (x, "}"%char :: b)).
    { clear -Hx. induction x as [|c x IH]; [reflexivity|]. cbn [app span]. rewrite (proj2 (Ascii.eqb_neq _ _) (Hx c (or_introl eq_refl))). cbn [negb]. rewrite IH; [reflexivity|]. intros d D. apply Hx. right. exact D. }
    rewrite Sp, (lex_text b B2). reflexivity. }
  rewrite Lx, (group_word a (TRef x :: map TChar b) A1 A2 A3 Logic.I). cbn [group]. assert (Gb : group (map TChar b) = [LTText b]) by (rewrite <- (app_nil_r (map TChar b)), (group_word b [] B1 B2 B3 Logic.I); reflexivity). rewrite Gb.
  unfold lev. cbn [mapM ltev bind]. rewrite L. cbn [bind].
  assert (Ex : expanded (VStr v) = true).
  { destruct v as [|c v]; [contradiction|]. cbn [expanded]. apply negb_true_iff. destruct (existsb _ (c :: v)) eqn:Q; [|reflexivity]. apply existsb_exists in Q. destruct Q as (d & D & Q). rewrite (V3 d D) in Q. cbn in Q. apply Ascii.eqb_eq in Q. subst. elim V2. exact D. }
  rewrite Ex. cbn [bind List.concat app]. assert (Lav : last_char_special (a ++ v) = false).
  { unfold last_char_special in *. rewrite rev_app_distr. destruct (rev v) as [|c r] eqn:Q; [apply (f_equal (@rev _)) in Q; rewrite rev_involutive in Q; contradiction | exact V4]. }
  assert (S1 : lstep E m linit (LAppend (VStr a)) = {| l_lines := [[a]]; l_new := false; l_strip := false |}) by (cbn; unfold lappend, add_new; cbn; rewrite conv_VStr; reflexivity).
  assert (S2 : forall p q, last_char_special p = false -> lstep E m {| l_lines := [[p]]; l_new := false; l_strip := false |} (LAppend (VStr q)) = {| l_lines := [[p ++ q]]; l_new := false; l_strip := false |})
    by (intros p q Hp; cbn; unfold lappend, add_cur; cbn; rewrite Hp; reflexivity).
  unfold lrun. cbn [fold_left]. rewrite S1, (S2 a v A4). etransitivity; [apply f_equal, f_equal, (S2 (a ++ v) b Lav)|]. unfold ldata. cbn. rewrite <- app_assoc. reflexivity.
Qed.
Print Assumptions C22f_joined.
Example C22f_witness : word (s_ "-I") /\ word (s_ "inc") /\ subst_list 9 CMD (env0 [(s_ "X", VStr (s_ "inc"))]) [] (s_ "-I${X}/y z") = Ok [[s_ "-Iinc/y"; s_ "z"]].
Proof.
  assert (W : forall a, (match a with [] => false | _ => true end) = true -> has_dollar a = false -> forallb (fun c => negb (is_space c)) a = true -> last_char_special a = false -> word a).
  { intros a H1 H2 H3 H4. split; [intros ->; discriminate|]. split; [apply has_dollar_false, H2|]. split; [|exact H4]. intros c D. rewrite forallb_forall in H3. specialize (H3 c D). apply negb_true_iff in H3. exact H3. }
  split; [apply W; reflexivity|]. split; [apply W; reflexivity | vm_compute; reflexivity].
Qed.
