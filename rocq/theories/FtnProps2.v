(* C79: the pieces of the regular expressions. *)
From Coq Require Import Ascii String List Bool Arith Lia.
From Verif Require Import SubstModel FtnModel FtnSpec FtnProps.
Import ListNotations.
Open Scope list_scope.

Lemma letter_word c : word_char c = true <-> letter c.
Proof.
  unfold word_char, is_alpha_, is_digit, letter. cbn zeta. rewrite !orb_true_iff, !andb_true_iff, !Nat.leb_le.
  assert (U : Ascii.eqb c "_"%char = true <-> nat_of_ascii c = 95).
  { rewrite Ascii.eqb_eq. split; [intros ->; reflexivity|]. intros E. rewrite <- (ascii_nat_embedding c), E. reflexivity. }
  rewrite ?Nat.eqb_eq, ?U. tauto.
Qed.
(* begins with something that is not white, or not at all *)
Definition dark (t : text) : Prop := t = [] \/ exists c q, t = c :: q /\ ~ white c.
Lemma skip_white w t : White w -> skip (w ++ t) = skip t.
Proof. induction 1 as [|c w Hc Hw IH]; [reflexivity|]. cbn [app skip]. rewrite (proj2 (space_white c) Hc). exact IH. Qed.
Lemma skip_dark t : dark t -> skip t = t.
Proof.
  intros [-> | [c [q [-> N]]]]; [reflexivity|]. cbn [skip]. destruct (is_space c) eqn:E; [|reflexivity]. apply space_white in E. contradiction.
Qed.
Lemma skip_split t : exists w, White w /\ t = w ++ skip t /\ dark (skip t).
Proof.
  induction t as [|c t IH]; [exists []; repeat split; [constructor | left; reflexivity]|]. cbn [skip]. destruct (is_space c) eqn:E.
  - destruct IH as [w [W [T D]]]. exists (c :: w). split; [constructor; [apply space_white; exact E | exact W]|]. split; [cbn [app]; f_equal; exact T | exact D].
  - exists []. split; [constructor|]. split; [reflexivity|]. right. exists c, t. split; [reflexivity|]. intros Q. apply space_white in Q. rewrite Q in E. discriminate.
Qed.
Lemma ended_dark rest : ended rest -> dark rest.
Proof. intros [-> | [q ->]]; [left; reflexivity|]. right. exists semicolon, q. split; [reflexivity|]. intros W. apply space_white in W. discriminate. Qed.
Lemma skip_app p rest : (White p -> ended rest) -> skip (p ++ rest) = skip p ++ rest.
Proof.
  induction p as [|c p IH]; intros H.
  - cbn [app]. apply skip_dark, ended_dark, H. constructor.
  - cbn [app skip]. destruct (is_space c) eqn:E; [|reflexivity]. apply IH. intros W. apply H. constructor; [apply space_white; exact E | exact W].
Qed.
(* words in lower case *)
Definition low (w : str) : Prop := Forall (fun x => nat_of_ascii x = 95 \/ 97 <= nat_of_ascii x <= 122) w.
Lemma nat_lower1 c : nat_of_ascii (lower1 c) = (if (65 <=? nat_of_ascii c) && (nat_of_ascii c <=? 90) then nat_of_ascii c + 32 else nat_of_ascii c).
Proof.
  unfold lower1. cbn zeta. destruct ((65 <=? nat_of_ascii c) && (nat_of_ascii c <=? 90)) eqn:E; [|reflexivity].
  apply andb_true_iff in E. destruct E as [E1 E2]. apply Nat.leb_le in E1, E2. apply nat_ascii_embedding. lia.
Qed.
Lemma nat_ascii_inj a b : nat_of_ascii a = nat_of_ascii b -> a = b.
Proof. intros E. rewrite <- (ascii_nat_embedding a), <- (ascii_nat_embedding b), E. reflexivity. Qed.
Lemma same_lower x c : (nat_of_ascii x = 95 \/ 97 <= nat_of_ascii x <= 122) -> Ascii.eqb x (lower1 c) = true <-> same_letter x c.
Proof.
  intros L. rewrite Ascii.eqb_eq. unfold same_letter. split.
  - intros E. apply (f_equal nat_of_ascii) in E. rewrite nat_lower1 in E. destruct ((65 <=? nat_of_ascii c) && (nat_of_ascii c <=? 90)) eqn:Q.
    + right. apply andb_true_iff in Q. destruct Q as [Q1 Q2]. apply Nat.leb_le in Q1, Q2. lia.
    + left. apply nat_ascii_inj. exact E.
  - intros E. apply nat_ascii_inj. rewrite nat_lower1. destruct ((65 <=? nat_of_ascii c) && (nat_of_ascii c <=? 90)) eqn:Q.
    + apply andb_true_iff in Q. destruct Q as [Q1 Q2]. apply Nat.leb_le in Q1, Q2. destruct E as [-> | [_ E]]; lia.
    + destruct E as [-> | [E1 E2]]; [reflexivity|]. exfalso. apply andb_false_iff in Q. destruct Q as [Q|Q]; apply Nat.leb_gt in Q; lia.
Qed.
Lemma ci_sound w : low w -> forall t r, ci w t = Some r -> exists u, t = u ++ r /\ Forall2 same_letter w u.
Proof.
  induction 1 as [|x w Hx Hw IH]; intros t r E.
  - injection E as ->. exists []. split; [reflexivity | constructor].
  - destruct t as [|c t]; [discriminate|]. cbn [ci] in E. destruct (Ascii.eqb x (lower1 c)) eqn:Q; [|discriminate].
    destruct (IH t r E) as [u [-> F]]. exists (c :: u). split; [reflexivity|]. constructor; [apply same_lower; assumption | exact F].
Qed.
Lemma ci_complete w : low w -> forall u r, Forall2 same_letter w u -> ci w (u ++ r) = Some r.
Proof.
  induction 1 as [|x w Hx Hw IH]; intros u r F; inversion F as [|x' c w' u' S F']; subst; [reflexivity|].
  cbn [app ci]. rewrite (proj2 (same_lower x c Hx) S). apply IH. exact F'.
Qed.
(* the rest of the text does not begin with a letter *)
Lemma ci_app w : low w -> forall p rest, Stop rest -> ci w (p ++ rest) = match ci w p with Some r => Some (r ++ rest) | None => None end.
Proof.
  induction 1 as [|x w Hx Hw IH]; intros p rest S; [reflexivity|]. destruct p as [|c p].
  - cbn [app ci]. destruct S as [-> | [c [q [-> N]]]]; [reflexivity|]. destruct (Ascii.eqb x (lower1 c)) eqn:Q; [|reflexivity].
    exfalso. apply N. apply (same_lower x c Hx) in Q. unfold letter. cbn zeta. destruct Q as [-> | Q]; lia.
  - cbn [app ci]. destruct (Ascii.eqb x (lower1 c)); [|reflexivity]. apply IH. exact S.
Qed.
Lemma word_sound t m r : word t = Some (m, r) -> Name m /\ Stop r /\ t = m ++ r.
Proof.
  unfold word. destruct (span word_char t) as [w q] eqn:E.
  assert (K : forall t w q, span word_char t = (w, q) -> Forall letter w /\ Stop q /\ t = w ++ q).
  { clear. intros t. induction t as [|c t IH]; intros w q E; cbn [span] in E; [injection E as <- <-; repeat split; [constructor | left; reflexivity]|].
    destruct (word_char c) eqn:Q.
    - destruct (span word_char t) as [a b] eqn:E2. injection E as <- <-. destruct (IH a b eq_refl) as [H1 [H2 H3]].
      split; [constructor; [apply letter_word; exact Q | exact H1]|]. split; [exact H2 | cbn [app]; f_equal; exact H3].
    - injection E as <- <-. split; [constructor|]. split; [|reflexivity]. right. exists c, t. split; [reflexivity|]. intros L. apply letter_word in L. rewrite L in Q. discriminate. }
  destruct (K t w q E) as [H1 [H2 H3]]. destruct w as [|c w]; [discriminate|]. intros X. injection X as <- <-.
  split; [split; [discriminate | exact H1]|]. split; [exact H2 | exact H3].
Qed.
Lemma span_stop m r : Forall letter m -> Stop r -> span word_char (m ++ r) = (m, r).
Proof.
  induction 1 as [|c m Hc Hm IH]; intros S.
  - cbn [app]. destruct S as [-> | [c [q [-> N]]]]; [reflexivity|]. cbn [span]. destruct (word_char c) eqn:E; [|reflexivity]. apply letter_word in E. contradiction.
  - cbn [app span]. rewrite (proj2 (letter_word c) Hc), (IH S). reflexivity.
Qed.
Lemma word_complete m r : Name m -> Stop r -> word (m ++ r) = Some (m, r).
Proof. intros [N L] S. unfold word. rewrite (span_stop m r L S). destruct m; [contradiction | reflexivity]. Qed.
Lemma span_app p rest : Stop rest -> span word_char (p ++ rest) = (fst (span word_char p), snd (span word_char p) ++ rest).
Proof.
  intros S. induction p as [|c p IH].
  - cbn [app span fst snd]. destruct S as [-> | [c [q [-> N]]]]; [reflexivity|]. cbn [span]. destruct (word_char c) eqn:E; [|reflexivity]. apply letter_word in E. contradiction.
  - cbn [app span]. destruct (word_char c); [|reflexivity]. rewrite IH. destruct (span word_char p). reflexivity.
Qed.
Definition add (rest : text) (x : option (str * str)) : option (str * str) := match x with Some (m, r) => Some (m, r ++ rest) | None => None end.
Lemma word_app p rest : Stop rest -> word (p ++ rest) = add rest (word p).
Proof. intros S. unfold word. rewrite (span_app p rest S). destruct (span word_char p) as [w q]. cbn [fst snd]. destruct w; reflexivity. Qed.
Lemma stop_app r rest : Stop r -> Stop rest -> Stop (r ++ rest).
Proof. intros [-> | [c [q [-> N]]]] S; [exact S|]. right. exists c, (q ++ rest). split; [reflexivity | exact N]. Qed.
Lemma sep_stop semi rest : sep_start semi rest -> Stop rest.
Proof.
  intros [-> | [c [q [-> [-> | [_ ->]]]]]]; [left; reflexivity | |]; right; eexists; eexists; (split; [reflexivity|]); intros L; apply letter_word in L; discriminate.
Qed.
Lemma sep_char semi x rest : sep_start semi rest -> Ascii.eqb newline x = false -> Ascii.eqb semicolon x = false -> after_char x rest = None.
Proof.
  intros [-> | [c [q [-> [-> | [_ ->]]]]]] E1 E2; [reflexivity | |]; cbn [after_char]; [rewrite E1 | rewrite E2]; reflexivity.
Qed.
Lemma char_app semi x p rest : sep_start semi rest -> Ascii.eqb newline x = false -> Ascii.eqb semicolon x = false ->
  after_char x (p ++ rest) = match after_char x p with Some r => Some (r ++ rest) | None => None end.
Proof.
  intros S E1 E2. destruct p as [|c p]; [cbn [app]; rewrite (sep_char semi x rest S E1 E2); reflexivity|].
  cbn [app after_char]. destruct (Ascii.eqb c x); reflexivity.
Qed.
Lemma char_sound x t r : after_char x t = Some r -> t = x :: r.
Proof. destruct t as [|c t]; [discriminate|]. cbn [after_char]. destruct (Ascii.eqb_spec c x) as [E|E]; [|discriminate]. intros X. injection X as ->. rewrite E. reflexivity. Qed.
Lemma low_lit_use : low (lit "use"). Proof. repeat (constructor; [right; cbn; lia|]). constructor. Qed.
Lemma low_lit_module : low (lit "module"). Proof. repeat (constructor; [right; cbn; lia|]). constructor. Qed.
Lemma low_lit_include : low (lit "include"). Proof. repeat (constructor; [right; cbn; lia|]). constructor. Qed.
Lemma low_lit_intrinsic : low (lit "intrinsic"). Proof. repeat (constructor; [right; cbn; lia|]). constructor. Qed.
Lemma low_lit_non : low (lit "non_"). Proof. repeat (constructor; [(right; cbn; lia) || (left; reflexivity)|]). constructor. Qed.
Lemma word_skip t : forall m r, word (skip t) = Some (m, r) -> exists w, White w /\ Name m /\ Stop r /\ t = w ++ m ++ r.
Proof.
  intros m r E. apply word_sound in E. destruct E as [N [S E]]. destruct (skip_split t) as [w [W [T _]]]. exists w.
  split; [exact W|]. split; [exact N|]. split; [exact S|]. rewrite <- E. exact T.
Qed.
Lemma letter_dark c q : letter c -> dark (c :: q).
Proof. intros L. right. exists c, q. split; [reflexivity|]. unfold letter, white in *. cbn zeta in *. lia. Qed.
Lemma name_dark m r : Name m -> dark (m ++ r).
Proof. intros [N L]. destruct m as [|c m]; [contradiction|]. apply letter_dark. inversion L; assumption. Qed.
Lemma keyword_dark k u r : low (lit k) -> k <> EmptyString -> Keyword k u -> dark (u ++ r).
Proof.
  intros L N K. unfold Keyword in K. unfold lit in L. destruct k as [|x k]; [contradiction|]. cbn [list_ascii_of_string] in K, L.
  inversion K as [|x' c l u' S F]; subst. inversion L as [|x' l' Lx Ll]; subst. apply letter_dark. unfold letter, same_letter in *. cbn zeta. destruct S as [<- | S]; lia.
Qed.
