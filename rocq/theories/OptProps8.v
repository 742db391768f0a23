(* C61: options whose value is refused *)
From Coq Require Import Ascii String List Bool Arith Lia.
Import ListNotations. Open Scope list_scope.
From Verif Require Import NameModel OptModel OptSpec OptProps OptProps2 OptProps5 OptProps6.

Lemma conv_all_some : forall f ws l, conv_all f ws = Some l -> Forall2 (fun w v => f w = Some v) ws l.
Proof.
  intros f ws. induction ws as [|w ws IH]; intros l H; cbn in H; [injection H as <-; constructor|].
  destruct (f w) as [v|] eqn:E; [|discriminate]. destruct (conv_all f ws) as [l2|]; [|discriminate]. injection H as <-. constructor; [exact E | apply IH; reflexivity].
Qed.
Lemma no_value_convert : forall o ws, ws <> [] -> no_value o ws -> convert o ws = None.
Proof.
  intros o ws Hn H. destruct ws as [|w [|w2 ws]]; [contradiction| |]; unfold convert.
  - destruct (o_conv o w) as [v|] eqn:E; [|reflexivity]. exfalso. apply (H v). constructor. exact E.
  - destruct (conv_all (o_conv o) (w :: w2 :: ws)) as [l|] eqn:E; [|reflexivity]. exfalso. apply (H (VList l)). constructor. apply conv_all_some. exact E.
Qed.
(* reading a command line is reading its parts *)
Lemma more_words : forall (ws more : list word) n, n <= length ws -> firstn n (ws ++ more) = firstn n ws /\ skipn n (ws ++ more) = skipn n ws ++ more.
Proof. intros ws more n H. rewrite firstn_app, skipn_app. replace (n - length ws) with 0 by lia. rewrite firstn_O, app_nil_r. split; reflexivity. Qed.
Lemma enough : forall A (l : list A) n (a b : pres) x, (if length l <? n then inr 2 else a) = inl x -> n <= length l /\ a = inl x.
Proof. intros A l n a b x H. destruct (Nat.ltb_spec (length l) n) as [Hl|Hl]; [discriminate | split; [exact Hl | exact H]]. Qed.
Lemma long_more : forall T keep arg n v r largs vs l2 r2 vs2 more, process_long T keep arg n v r largs vs = inl (l2, r2, vs2) ->
  process_long T keep arg n v (r ++ more) largs vs = inl (l2, r2 ++ more, vs2) /\ length r2 <= length r /\ incl r2 r.
Proof.
  intros T keep arg n v r largs vs l2 r2 vs2 more H. unfold process_long in *. destruct (find_long T n) as [o|].
  - destruct (o_arity o) as [|c|k].
    + destruct v; [discriminate|]. destruct (process_opt o (Some VNone) vs) as [x|e]; [|discriminate]. injection H as <- <- <-. repeat split; [lia | apply incl_refl].
    + destruct (process_opt o _ vs) as [x|e]; [|discriminate]. injection H as <- <- <-. repeat split; [lia | apply incl_refl].
    + cbv zeta in *. rewrite app_assoc. destruct (Nat.ltb_spec (length (opt_list v ++ r)) (S k)) as [Hl|Hl]; [discriminate|].
      destruct (Nat.ltb_spec (length ((opt_list v ++ r) ++ more)) (S k)) as [Hm|Hm]; [rewrite app_length in Hm; lia|].
      destruct (more_words (opt_list v ++ r) more (S k) Hl) as [-> ->]. destruct (process_opt o _ vs) as [x|e]; [|discriminate]. injection H as <- <- <-. split; [reflexivity|].
      destruct v as [w|]; cbn [opt_list app] in *.
      * cbn [skipn]. split; [rewrite skipn_length; lia|]. intros a Ha. rewrite <- (firstn_skipn k r). apply in_or_app; right; exact Ha.
      * change (match r with [] => [] | _ :: l => skipn k l end) with (skipn (S k) r). split; [rewrite skipn_length; lia|]. intros a Ha. rewrite <- (firstn_skipn (S k) r). apply in_or_app; right; exact Ha.
  - destruct keep; [|discriminate]. injection H as <- <- <-. repeat split; [lia | apply incl_refl].
Qed.
Lemma short_more : forall T keep arg cs r largs vs l2 r2 vs2 more, process_short T keep arg cs r largs vs = inl (l2, r2, vs2) ->
  process_short T keep arg cs (r ++ more) largs vs = inl (l2, r2 ++ more, vs2) /\ length r2 <= length r /\ incl r2 r.
Proof.
  intros T keep arg cs. induction cs as [|c cs IH]; intros r largs vs l2 r2 vs2 more H; cbn [process_short] in *.
  - injection H as <- <- <-. repeat split; [lia | apply incl_refl].
  - destruct (find_short T c) as [o|].
    + destruct (o_arity o) as [|c2|k].
      * destruct (process_opt o (Some VNone) vs) as [x|e]; [|discriminate]. apply IH, H.
      * discriminate.
      * cbv zeta in *. set (av := match cs with [] => r | _ => cs :: r end) in *.
        assert (E : match cs with [] => r ++ more | _ => cs :: r ++ more end = av ++ more) by (subst av; destruct cs; reflexivity). rewrite E.
        destruct (Nat.ltb_spec (length av) (S k)) as [Hl|Hl]; [discriminate|].
        destruct (Nat.ltb_spec (length (av ++ more)) (S k)) as [Hm|Hm]; [rewrite app_length in Hm; lia|].
        destruct (more_words av more (S k) Hl) as [-> ->]. destruct (process_opt o _ vs) as [x|e]; [|discriminate]. injection H as <- <- <-. split; [reflexivity|].
        subst av. destruct cs as [|c2 cs].
        -- change (match r with [] => [] | _ :: l => skipn k l end) with (skipn (S k) r). split; [rewrite skipn_length; lia|]. intros a Ha. rewrite <- (firstn_skipn (S k) r). apply in_or_app; right; exact Ha.
        -- cbn [skipn]. split; [rewrite skipn_length; lia|]. intros a Ha. rewrite <- (firstn_skipn k r). apply in_or_app; right; exact Ha.
    + destruct keep; [|discriminate]. injection H as <- <- <-. repeat split; [lia | apply incl_refl].
Qed.
Lemma stop_only : forall w, classify w = KStop -> w = long [].
Proof.
  intros [|a [|b [|c r]]] H; cbn [classify] in H; try discriminate.
  - destruct (Ascii.eqb a "-"); discriminate.
  - destruct (Ascii.eqb a "-") eqn:E1; [|discriminate]. destruct (Ascii.eqb b "-") eqn:E2; [|discriminate]. apply Ascii.eqb_eq in E1, E2. subst. reflexivity.
  - destruct (Ascii.eqb a "-"); [|discriminate]. destruct (Ascii.eqb b "-"); [|discriminate]. destruct (split_eq (c :: r)); discriminate.
Qed.
Lemma args_more : forall f T keep ws largs vs l2 r2 vs2 more, process_args f T keep ws largs vs = inl (l2, r2, vs2) -> ~ In (long []) ws -> length ws < f ->
  forall g, exists g2, g <= g2 /\ process_args (f + g) T keep (ws ++ more) largs vs = process_args g2 T keep more l2 vs2.
Proof.
  intros f T keep. induction f as [|f IH]; intros ws largs vs l2 r2 vs2 more H Hs Hf g; [discriminate|]. destruct ws as [|w ws].
  - cbn [process_args] in H. injection H as <- <- <-. exists (S f + g). split; [lia | reflexivity].
  - cbn [plus app process_args] in *. destruct (classify w) as [|n v|cs|] eqn:Ec.
    + apply stop_only in Ec. exfalso. apply Hs. left; exact Ec.
    + destruct (process_long T keep w n v ws largs vs) as [((l, r), vs3)|e] eqn:E; [|discriminate]. destruct (long_more _ _ _ _ _ _ _ _ _ _ _ more E) as (-> & Hl & Hi).
      cbn [length] in Hf. apply (IH r l vs3 l2 r2 vs2 more H); [intros Hin; apply Hs; right; apply Hi, Hin | lia].
    + destruct (process_short T keep w cs ws largs vs) as [((l, r), vs3)|e] eqn:E; [|discriminate]. destruct (short_more _ _ _ _ _ _ _ _ _ _ more E) as (-> & Hl & Hi).
      cbn [length] in Hf. apply (IH r l vs3 l2 r2 vs2 more H); [intros Hin; apply Hs; right; apply Hi, Hin | lia].
    + cbn [length] in Hf. apply (IH ws _ vs l2 r2 vs2 more H); [intros Hin; apply Hs; right; exact Hin | lia].
Qed.

Section Refused.
Variable B : list opt.
Hypothesis U : unique B.
Hypothesis P : forall o, In o B -> proper o.
Lemma take_words : forall (ws r : list word) n, length ws = n -> firstn n (ws ++ r) = ws.
Proof. intros ws r n <-. rewrite firstn_app, firstn_all, Nat.sub_diag, firstn_O, app_nil_r. reflexivity. Qed.
Lemma group_refused : forall cs r, wrong_group B cs r -> forall keep arg largs vs, process_short B keep arg cs r largs vs = inr 2.
Proof.
  intros cs r H. induction H as [o c cs r H1 H2 H3 H4 H5 IH|o c cs k ws r H1 H2 H3 H4 H5 H6|o c k ws r H1 H2 H3 H4 H5|o c cs k r H1 H2 H3 H4 H5|o c k r H1 H2 H3 H4]; intros keep arg largs vs; cbn [process_short];
    rewrite (find_short_in B o c U H1 H2), H3.
  - unfold process_opt, take_action. destruct H4 as [(v & ->)| ->]; apply IH.
  - destruct cs as [|c2 cs]; [contradiction|]. cbv zeta. destruct (length ((c2 :: cs) :: ws ++ r) <? S k); [reflexivity|].
    change ((c2 :: cs) :: ws ++ r) with (((c2 :: cs) :: ws) ++ r). rewrite take_words by (cbn [length]; lia). rewrite no_value_convert; [reflexivity | discriminate | exact H6].
  - cbv zeta. destruct (length (ws ++ r) <? S k); [reflexivity|]. rewrite take_words by lia. rewrite no_value_convert; [reflexivity | | exact H5]. intros ->. discriminate.
  - destruct cs as [|c2 cs]; [contradiction|]. cbv zeta. cbn [length]. destruct (Nat.ltb_spec (S (length r)) (S k)) as [Hl|Hl]; [reflexivity | lia].
  - cbv zeta. destruct (Nat.ltb_spec (length r) (S k)) as [Hl|Hl]; [reflexivity | lia].
Qed.
Lemma refused_args : forall ws, refused B ws -> forall f keep largs vs, process_args (S f) B keep ws largs vs = inr 2.
Proof.
  assert (Q : forall o n, In o B -> In n (o_long o) -> n <> [] /\ ~ In equals n) by (intros o n H1 H2; apply (P o H1), H2).
  intros ws H f keep largs vs. destruct H as [o n w r H1 H2 H3|o n c w r H1 H2 H3 H4|o n k w ws r H1 H2 H3 H4 H5|o n k ws r H1 H2 H3 H4 H5|o n k w r H1 H2 H3 H4|o n k r H1 H2 H3 H4|c cs r H1];
    cbn [process_args]; try (destruct (Q o n H1 H2) as [Q1 Q2]; rewrite ?(classify_long_eq _ _ Q2), ?(classify_long _ Q1 Q2); unfold process_long; rewrite (find_long_in B o n U H1 H2), H3).
  - reflexivity.
  - rewrite no_value_convert; [reflexivity | discriminate | exact H4].
  - cbv zeta. cbn [opt_list]. change ([w] ++ ws ++ r) with ((w :: ws) ++ r). destruct (length ((w :: ws) ++ r) <? S k); [reflexivity|]. rewrite take_words by (cbn [length]; lia).
    rewrite no_value_convert; [reflexivity | discriminate | exact H5].
  - cbv zeta. cbn [opt_list]. change ([] ++ ws ++ r) with (ws ++ r). destruct (length (ws ++ r) <? S k); [reflexivity|]. rewrite take_words by lia. rewrite no_value_convert; [reflexivity | | exact H5]. intros ->. discriminate.
  - cbv zeta. cbn [opt_list app length]. destruct (Nat.ltb_spec (S (length r)) (S k)) as [Hl|Hl]; [reflexivity | lia].
  - cbv zeta. cbn [opt_list app]. destruct (Nat.ltb_spec (length r) (S k)) as [Hl|Hl]; [reflexivity | lia].
  - assert (Hc : c <> dash). { inversion H1; subst; (intros ->; match goal with Hi : In ?o B, Hs : In dash (o_short ?o) |- _ => destruct (P o Hi) as (_ & X & _); contradiction end). }
    rewrite (classify_short _ _ Hc), (group_refused _ _ H1). reflexivity.
Qed.
End Refused.

(* a command line, the beginning of which is read, and then an option whose value is refused: the program ends, before anything is run, with the status 2 *)
Theorem C61d_refused : forall B defs0 settable0 kinds h argv its words, project B defs0 settable0 kinds h -> line B (added h) argv its -> accepted defs0 h its -> ~ In (long []) argv ->
  refused B words -> start B defs0 settable0 (argv ++ words) = inr 2.
Proof.
  intros B defs0 settable0 kinds h argv its words PR LN ACC NS RF.
  destruct (first B defs0 settable0 kinds h argv its PR LN ACC) as (tl & vs1 & E & _). unfold start, parse_args in *.
  destruct (process_args (S (length argv)) B true argv [] _) as [((l, r), vs)|e] eqn:Ep; [|discriminate].
  destruct (args_more _ _ _ _ _ _ _ _ _ words Ep NS (Nat.lt_succ_diag_r _) (length words)) as (g2 & Hg & Eg).
  rewrite app_length. change (S (length argv + length words)) with (S (length argv) + length words). rewrite Eg.
  assert (Hw : words <> []) by (intros ->; inversion RF). destruct words as [|w0 words]; [contradiction|]. destruct g2 as [|g2]; [cbn in Hg; lia|].
  rewrite (refused_args B); [reflexivity | | | exact RF].
  - destruct (pr_unique _ _ _ _ _ PR) as [U1 U2]. split; intros o1 o2 n H1 H2; [apply U1 | apply U2]; apply in_or_app; auto.
  - intros o Ho. apply (pr_proper _ _ _ _ _ PR). apply in_or_app; auto.
Qed.
(* scons -kj2 --prefix=/usr -V prog X=1 -kjmany *)
Definition argv3 : list word := map lit ["-kj2"; "--prefix=/usr"; "-V"; "prog"; "X=1"]%string.
Definition its3 : list item := [Given keep_going VNone; Given jobs (VNum 2); Local FLong prefix (sv "/usr"); Local FShort verbose VNone; Plain (lit "prog"); Plain (lit "X=1")].
Theorem C61d_case : exists words, words = map lit ["-kjmany"; "all"]%string /\ refused B1 words /\ line B1 (added h1) argv3 its3 /\ accepted D1 h1 its3 /\ ~ In (long []) argv3 /\ start B1 D1 S1 (argv3 ++ words) = inr 2.
Proof.
  exists (map lit ["-kjmany"; "all"]%string). split; [reflexivity|]. split; [|split; [|split; [|split; [|vm_compute; reflexivity]]]].
  - apply (refused_group B1 "k"%char (lit "jmany"%string) [lit "all"%string]).
    apply (wrong_later B1 keep_going); [inl | inl | reflexivity | left; exists (VBool true); reflexivity|].
    apply (wrong_attached B1 jobs "j"%char (lit "many"%string) 0 [] [lit "all"%string]); [inl | inl | reflexivity | discriminate | reflexivity|].
    intros v Hv. inversion Hv; subst. discriminate.
  - change argv3 with (short (lit "kj2") :: long_eq (lit "prefix") (lit "/usr") :: short ["V"%char] :: lit "prog" :: [lit "X=1"]).
    change its3 with ([Given keep_going VNone; Given jobs (VNum 2)] ++ [Local FLong prefix (sv "/usr"); Local FShort verbose VNone; Plain (lit "prog"); Plain (lit "X=1")]).
    eapply line_group; [discriminate | |].
    + apply group_flag; [inl | inl | reflexivity|]. apply (group_attached B1 jobs "j"%char (lit "2") 0 [] _ (VNum 2)); [inl | inl | reflexivity | discriminate | reflexivity | apply value_one; reflexivity].
    + cbn [app]. apply (line_local_eq _ _ prefix (lit "prefix") (Args 0)); [inl | inl | reflexivity | left; reflexivity | apply value_one; reflexivity|].
      apply line_local_short; [inl | inl | reflexivity|]. apply line_plain; [intros cs X; discriminate|]. apply line_plain; [intros cs X; discriminate|]. apply line_nil.
  - split.
    + intros o v H. cbn in H. intuition; match goal with X : (_, _) = (_, _) |- _ => injection X as <- <- end; discriminate.
    + intros d v0 [H|(o & Ho & <- & <-)].
      * apply D1_cases in H as Hi. cbn [map In] in Hi. repeat (destruct Hi as [<-|Hi]); try contradiction; vm_compute in H; injection H as <-; eexists; vm_compute; reflexivity.
      * cbn in Ho. destruct Ho as [<-|[<-|[]]]; eexists; vm_compute; reflexivity.
  - cbn. intuition; discriminate.
Qed.
Print Assumptions C61d_refused.
Print Assumptions C61d_case.
