(* C79: USE, MODULE, INCLUDE. *)
From Coq Require Import Ascii String List Bool Arith Lia.
From Verif Require Import SubstModel FtnModel FtnSpec FtnProps FtnProps2.
Import ListNotations.
Open Scope list_scope.

(* ---- USE ---- *)
Lemma intrinsic_sound t : intrinsic t = t \/ exists n, Nature n /\ t = n ++ intrinsic t.
Proof.
  unfold intrinsic. cbn zeta. destruct (after_char ","%char (skip t)) as [q|] eqn:E; [|left; reflexivity]. apply char_sound in E.
  destruct (skip_split t) as [b [Wb [T _]]]. destruct (skip_split q) as [b2 [W2 [Q _]]].
  destruct (ci (lit "non_") (skip q)) as [z|] eqn:N.
  - destruct (ci (lit "intrinsic") z) as [y|] eqn:K; [|left; reflexivity]. right.
    destruct (ci_sound _ low_lit_non _ _ N) as [k1 [E1 F1]]. destruct (ci_sound _ low_lit_intrinsic _ _ K) as [k2 [E2 F2]].
    exists (b ++ ","%char :: b2 ++ k1 ++ k2). split.
    + exists b, b2, (k1 ++ k2). split; [reflexivity|]. split; [exact Wb|]. split; [exact W2|]. right. exact (Forall2_app F1 F2).
    + rewrite T at 1. rewrite E, Q, E1, E2. rewrite <- !app_assoc. cbn [app]. rewrite <- !app_assoc. reflexivity.
  - destruct (ci (lit "intrinsic") (skip q)) as [y|] eqn:K; [|left; reflexivity]. right.
    destruct (ci_sound _ low_lit_intrinsic _ _ K) as [k2 [E2 F2]].
    exists (b ++ ","%char :: b2 ++ k2). split.
    + exists b, b2, k2. split; [reflexivity|]. split; [exact Wb|]. split; [exact W2|]. left. exact F2.
    + rewrite T at 1. rewrite E, Q, E2. rewrite <- !app_assoc. cbn [app]. rewrite <- !app_assoc. reflexivity.
Qed.
Lemma intrinsic_complete n r : Nature n -> intrinsic (n ++ r) = r.
Proof.
  intros [b [b2 [k [-> [Wb [W2 K]]]]]]. unfold intrinsic. cbn zeta. rewrite <- app_assoc, (skip_white b _ Wb). cbn [app].
  rewrite skip_dark by (right; eexists; eexists; split; [reflexivity|]; intros Q; apply space_white in Q; discriminate).
  cbn [after_char]. rewrite Ascii.eqb_refl. rewrite <- app_assoc, (skip_white b2 _ W2). destruct K as [K|K].
  - rewrite skip_dark by (apply (keyword_dark "intrinsic"); [exact low_lit_intrinsic | discriminate | exact K]).
    assert (N : ci (lit "non_") (k ++ r) = None).
    { unfold Keyword in K. cbn [list_ascii_of_string] in K. inversion K as [|x c l u' S F E1 E2]; subst. cbn [app ci lit list_ascii_of_string].
      assert (Q : Ascii.eqb "n"%char (lower1 c) = false); [|rewrite Q; reflexivity].
      apply (same_lower "i"%char c) in S; [|right; cbn; lia]. apply Ascii.eqb_eq in S. rewrite <- S. reflexivity. }
    rewrite N. rewrite (ci_complete _ low_lit_intrinsic k r K). reflexivity.
  - rewrite skip_dark.
    2: { unfold Keyword in K. cbn [list_ascii_of_string] in K. inversion K as [|x c l u' S F E1 E2]; subst. apply letter_dark. unfold letter, same_letter in *. cbn zeta.
         destruct S as [<- | [_ S]]; [cbn; lia|]. change (nat_of_ascii "n"%char) with 110 in S. lia. }
    change (list_ascii_of_string "non_intrinsic") with (lit "non_" ++ lit "intrinsic") in K. unfold Keyword in K.
    change (list_ascii_of_string "non_intrinsic") with (lit "non_" ++ lit "intrinsic") in K.
    apply Forall2_app_inv_l in K. destruct K as [k1 [k2 [K1 [K2 ->]]]].
    rewrite <- app_assoc, (ci_complete _ low_lit_non k1 _ K1), (ci_complete _ low_lit_intrinsic k2 _ K2). reflexivity.
Qed.
Lemma colon_dark t : dark (":"%char :: t).
Proof. right. exists ":"%char, t. split; [reflexivity|]. intros Q. apply space_white in Q. discriminate. Qed.
Lemma comma_dark t : dark (","%char :: t).
Proof. right. exists ","%char, t. split; [reflexivity|]. intros Q. apply space_white in Q. discriminate. Qed.
Lemma use_sound t m r : use t = Some (m, r) -> UseStatement t m /\ List.length r < List.length t.
Proof.
  unfold use. destruct (ci (lit "use") (skip t)) as [q|] eqn:E; [|discriminate]. destruct (skip_split t) as [b [Wb [T _]]].
  destruct (ci_sound _ low_lit_use _ _ E) as [u [E2 K]]. rewrite E2 in T. rewrite T. clear T E E2 t.
  destruct (spaced_word q) as [x|] eqn:E.
  - intros X. injection X as ->. destruct q as [|c q]; [discriminate|]. cbn [spaced_word] in E. destruct (is_space c) eqn:C; [|discriminate].
    cbn [skip] in E. rewrite C in E. destruct (word_skip q m r E) as [w [Ww [N [S Q]]]]. rewrite Q. split.
    + apply (U_plain b u (c :: w) m r); try assumption; [constructor; [apply space_white; exact C | exact Ww] | discriminate].
    + destruct N as [N _]. destruct m; [contradiction|]. repeat (rewrite ?app_length; cbn [List.length]). lia.
  - unfold colons. destruct (after_char ":"%char (skip (intrinsic q))) as [y|] eqn:C1; [|discriminate]. apply char_sound in C1.
    destruct (after_char ":"%char y) as [z|] eqn:C2; [|discriminate]. apply char_sound in C2. intros X.
    destruct (word_skip z m r X) as [w2 [W2 [N [S Q]]]]. destruct (skip_split (intrinsic q)) as [w [Ww [I _]]].
    rewrite C1, C2, Q in I.
    assert (Z : exists n, (n = [] \/ Nature n) /\ q = n ++ w ++ ":"%char :: ":"%char :: w2 ++ m ++ r).
    { destruct (intrinsic_sound q) as [J|[n [Hn J]]].
      - exists []. split; [left; reflexivity|]. rewrite <- J. exact I.
      - exists n. split; [right; exact Hn|]. rewrite J at 1. f_equal. exact I. }
    destruct Z as [n [Hn ->]]. split.
    + apply U_colons; assumption.
    + repeat (rewrite ?app_length; cbn [List.length]). lia.
Qed.
Lemma use_complete semi p m : UseStatement p m -> exists a r, p = a ++ r /\ forall rest, sep_start semi rest -> use (p ++ rest) = Some (m, r ++ rest).
Proof.
  intros H. destruct H as [b u w m r Wb K Ww Nw N S | b u n w w2 m r Wb K Hn Ww W2 N S].
  - exists (b ++ u ++ w ++ m), r. split; [rewrite <- !app_assoc; reflexivity|]. intros rest Sr. apply sep_stop in Sr.
    unfold use. rewrite <- app_assoc, (skip_white b _ Wb), <- app_assoc, skip_dark by (apply (keyword_dark "use"); [exact low_lit_use | discriminate | exact K]).
    rewrite (ci_complete _ low_lit_use u _ K).
    assert (E : spaced_word ((w ++ m ++ r) ++ rest) = Some (m, r ++ rest)).
    { destruct w as [|c w]; [contradiction|]. inversion Ww as [|c' w' Hc Hw]; subst. cbn [app spaced_word]. rewrite (proj2 (space_white c) Hc).
      cbn [skip]. rewrite (proj2 (space_white c) Hc). rewrite <- !app_assoc, (skip_white w _ Hw). rewrite skip_dark by (apply name_dark; exact N).
      apply word_complete; [exact N | apply stop_app; assumption]. }
    rewrite E. reflexivity.
  - exists (b ++ u ++ n ++ w ++ ":"%char :: ":"%char :: w2 ++ m), r. split; [repeat (rewrite <- ?app_assoc; cbn [app]); reflexivity|]. intros rest Sr. apply sep_stop in Sr.
    unfold use. rewrite <- app_assoc, (skip_white b _ Wb), <- app_assoc, skip_dark by (apply (keyword_dark "use"); [exact low_lit_use | discriminate | exact K]).
    rewrite (ci_complete _ low_lit_use u _ K). rewrite <- !app_assoc. cbn [app].
    set (tail := ":"%char :: ":"%char :: (w2 ++ m ++ r) ++ rest).
    assert (I : intrinsic (n ++ w ++ tail) = w ++ tail).
    { destruct Hn as [-> | Hn]; [|apply intrinsic_complete; exact Hn]. cbn [app]. unfold intrinsic. cbn zeta.
      rewrite (skip_white w _ Ww). unfold tail. rewrite (skip_dark _ (colon_dark _)). reflexivity. }
    assert (P : spaced_word (n ++ w ++ tail) = None).
    { assert (X : word (skip (n ++ w ++ tail)) = None).
      { destruct Hn as [-> | [x [y [k [-> [Wx [Wy Kk]]]]]]].
        - cbn [app]. rewrite (skip_white w _ Ww). unfold tail. rewrite (skip_dark _ (colon_dark _)). reflexivity.
        - rewrite <- app_assoc, (skip_white x _ Wx). cbn [app]. rewrite (skip_dark _ (comma_dark _)). reflexivity. }
      destruct (n ++ w ++ tail) as [|c q]; [reflexivity|]. cbn [spaced_word]. destruct (is_space c); [exact X | reflexivity]. }
    rewrite P. unfold colons. rewrite I, (skip_white w _ Ww). unfold tail. rewrite (skip_dark _ (colon_dark _)). cbn [after_char].
    rewrite Ascii.eqb_refl. cbn [after_char]. rewrite Ascii.eqb_refl. rewrite <- !app_assoc, (skip_white w2 _ W2), skip_dark by (apply name_dark; exact N).
    apply word_complete; [exact N | apply stop_app; assumption].
Qed.
Lemma white_split t : White (skip t) -> White t.
Proof. intros W. destruct (skip_split t) as [b [Wb [T _]]]. rewrite T. apply Forall_app. split; assumption. Qed.
(* a statement is found in a piece if it is found in the piece and what follows *)
Lemma use_app semi p rest : (UseBegun p -> ended rest) -> (White p -> ended rest) -> sep_start semi rest -> use (p ++ rest) = add rest (use p).
Proof.
  intros HB HW S. pose proof (sep_stop semi rest S) as St. unfold use. rewrite (skip_app p rest HW), (ci_app _ low_lit_use _ rest St).
  destruct (ci (lit "use") (skip p)) as [r|] eqn:E; [|reflexivity].
  destruct (skip_split p) as [b [Wb [T _]]]. destruct (ci_sound _ low_lit_use _ _ E) as [u [E2 K]]. rewrite E2 in T. subst p. clear E E2.
  assert (Ws : White r -> ended rest) by (intros W; apply HB, B_white; assumption).
  assert (Sk : skip (r ++ rest) = skip r ++ rest) by (apply skip_app; exact Ws).
  assert (P : spaced_word (r ++ rest) = add rest (spaced_word r)).
  { destruct r as [|c r].
    - cbn [app spaced_word add]. destruct (Ws (Forall_nil _)) as [-> | [q ->]]; reflexivity.
    - cbn [app spaced_word]. destruct (is_space c); [|reflexivity]. change (c :: r ++ rest) with ((c :: r) ++ rest). rewrite Sk. apply word_app. exact St. }
  rewrite P. destruct (spaced_word r) as [[m q]|]; [reflexivity|]. cbn [add]. unfold colons.
  assert (I : intrinsic (r ++ rest) = intrinsic r ++ rest).
  { unfold intrinsic. cbn zeta. rewrite Sk, (char_app semi _ _ _ S) by reflexivity. destruct (after_char ","%char (skip r)) as [q|] eqn:C; [|reflexivity].
    apply char_sound in C. destruct (skip_split r) as [w [Ww [R _]]]. rewrite C in R. subst r. clear C.
    rewrite (skip_app q rest) by (intros W; apply HB, B_comma; assumption).
    rewrite (ci_app _ low_lit_non _ rest St). destruct (ci (lit "non_") (skip q)) as [z|].
    - rewrite (ci_app _ low_lit_intrinsic _ rest St). destruct (ci (lit "intrinsic") z); reflexivity.
    - rewrite (ci_app _ low_lit_intrinsic _ rest St). destruct (ci (lit "intrinsic") (skip q)); reflexivity. }
  rewrite I. assert (Wi : forall w, White w -> intrinsic r = w -> ended rest).
  { intros w Ww J. destruct (intrinsic_sound r) as [Z|[n [Hn Z]]]; [apply Ws; rewrite <- Z, J; exact Ww|]. rewrite J in Z. subst r. apply HB, B_nature; assumption. }
  rewrite (skip_app (intrinsic r) rest) by (intros W; exact (Wi _ W eq_refl)).
  rewrite (char_app semi _ _ _ S) by reflexivity. destruct (after_char ":"%char (skip (intrinsic r))) as [y|] eqn:C1; [|reflexivity].
  rewrite (char_app semi _ _ _ S) by reflexivity. destruct (after_char ":"%char y) as [z|] eqn:C2; [|reflexivity].
  apply char_sound in C1, C2. destruct (skip_split (intrinsic r)) as [w [Ww [J _]]]. rewrite C1, C2 in J.
  rewrite (skip_app z rest); [apply word_app; exact St|]. intros Wz.
  destruct (intrinsic_sound r) as [Z|[n [Hn Z]]].
  - rewrite Z in J. subst r. apply HB. apply (B_colons b u [] w z); try assumption. left. reflexivity.
  - rewrite J in Z. clear J. subst r. apply HB, B_colons; try assumption. right. exact Hn.
Qed.
Lemma use_H2 semi p rest : (forall m, ~ UseStatement p m) -> (UseBegun p -> ended rest) -> (White p -> ended rest) -> sep_start semi rest -> use (p ++ rest) = None.
Proof. intros N HB HW S. rewrite (use_app semi p rest HB HW S). destruct (use p) as [[m r]|] eqn:E; [|reflexivity]. apply use_sound in E. destruct E as [E _]. exfalso. exact (N m E). Qed.
Lemma use_H3 c t : white c -> use (c :: t) = use t.
Proof. intros W. unfold use. cbn [skip]. rewrite (proj2 (space_white c) W). reflexivity. Qed.
Lemma use_H4 t m q : use t = Some (m, q) -> List.length q < List.length t.
Proof. intros E. exact (proj2 (use_sound t m q E)). Qed.
