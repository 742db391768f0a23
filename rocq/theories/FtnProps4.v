(* C79: MODULE and INCLUDE. *)
From Coq Require Import Ascii String List Bool Arith Lia.
From Verif Require Import SubstModel FtnModel FtnSpec FtnProps FtnProps2.
Import ListNotations.
Open Scope list_scope.

(* ---- MODULE ---- *)
Lemma low_reserved w : In w reserved -> low w.
Proof. intros H. repeat (destruct H as [<- | H]; [repeat (constructor; [right; cbn; lia|]); constructor|]). destruct H. Qed.
Lemma in_reserved k : In k ["procedure"; "subroutine"; "function"; "pure"; "elemental"]%string -> In (lit k) reserved.
Proof. intros H. repeat (destruct H as [<- | H]; [cbn [reserved In]; tauto|]). destruct H. Qed.
Lemma from_reserved w : In w reserved -> exists k, In k ["procedure"; "subroutine"; "function"; "pure"; "elemental"]%string /\ w = lit k.
Proof. intros H. repeat (destruct H as [<- | H]; [eexists; split; [|reflexivity]; cbn [In]; tauto|]). destruct H. Qed.
Definition guarded (t : str) : bool := existsb (fun w => match ci w t with Some _ => true | None => false end) reserved.
Lemma guarded_reserved m s : Stop s -> guarded (m ++ s) = true <-> Reserved m.
Proof.
  intros S. unfold guarded. rewrite existsb_exists. split.
  - intros [w [Hw E]]. rewrite (ci_app w (low_reserved w Hw) m s S) in E. destruct (ci w m) as [b|] eqn:C; [|discriminate].
    destruct (ci_sound w (low_reserved w Hw) m b C) as [a [Ea F]]. destruct (from_reserved w Hw) as [k [Hk ->]]. exists k, a, b. split; [exact Ea|]. split; [exact Hk | exact F].
  - intros [k [a [b [-> [Hk K]]]]]. exists (lit k). split; [exact (in_reserved k Hk)|]. rewrite <- app_assoc.
    rewrite (ci_complete (lit k) (low_reserved _ (in_reserved k Hk)) a _ K). reflexivity.
Qed.
Lemma guarded_app p rest : Stop rest -> guarded (p ++ rest) = guarded p.
Proof.
  intros S. unfold guarded. assert (G : forall l, (forall w, In w l -> low w) ->
    existsb (fun w => match ci w (p ++ rest) with Some _ => true | None => false end) l = existsb (fun w => match ci w p with Some _ => true | None => false end) l).
  { intros l. induction l as [|w l IH]; intros L; [reflexivity|]. cbn [existsb]. rewrite (ci_app w (L w (or_introl eq_refl)) p rest S).
    rewrite IH by (intros x Hx; apply L; right; exact Hx). destruct (ci w p); reflexivity. }
  apply G. exact low_reserved.
Qed.
Definition after_module (r : str) : option (str * str) := match r with c :: _ => if is_space c then (if guarded (skip r) then None else word (skip r)) else None | [] => None end.
Lemma module_unfold t : module t = match ci (lit "module") (skip t) with Some r => after_module r | None => None end.
Proof. reflexivity. Qed.
Lemma module_sound t m r : module t = Some (m, r) -> ModuleStatement t m /\ List.length r < List.length t.
Proof.
  rewrite module_unfold. destruct (ci (lit "module") (skip t)) as [q|] eqn:E; [|discriminate]. destruct (skip_split t) as [b [Wb [T _]]].
  destruct (ci_sound _ low_lit_module _ _ E) as [u [E2 K]]. rewrite E2 in T. rewrite T. clear T E E2 t.
  destruct q as [|c q]; [discriminate|]. cbn [after_module]. destruct (is_space c) eqn:C; [|discriminate].
  destruct (guarded (skip (c :: q))) eqn:G; [discriminate|]. intros E. cbn [skip] in E, G. rewrite C in E, G.
  destruct (word_skip q m r E) as [w [Ww [N [S Q]]]]. assert (G2 : guarded (m ++ r) = false).
  { rewrite Q, (skip_white w _ Ww), skip_dark in G by (apply name_dark; exact N). exact G. }
  rewrite Q. split.
  - apply (M_name b u (c :: w) m r); try assumption; [constructor; [apply space_white; exact C | exact Ww] | discriminate|].
    intros R. apply (guarded_reserved m r S) in R. rewrite R in G2. discriminate.
  - destruct N as [N _]. destruct m; [contradiction|]. repeat (rewrite ?app_length; cbn [List.length]). lia.
Qed.
Lemma module_complete semi p m : ModuleStatement p m -> exists a r, p = a ++ r /\ forall rest, sep_start semi rest -> module (p ++ rest) = Some (m, r ++ rest).
Proof.
  intros H. destruct H as [b u w m r Wb K Ww Nw N S R].
  exists (b ++ u ++ w ++ m), r. split; [rewrite <- !app_assoc; reflexivity|]. intros rest Sr. apply sep_stop in Sr.
  rewrite module_unfold, <- app_assoc, (skip_white b _ Wb), <- app_assoc, skip_dark by (apply (keyword_dark "module"); [exact low_lit_module | discriminate | exact K]).
  rewrite (ci_complete _ low_lit_module u _ K).
  destruct w as [|c w]; [contradiction|]. inversion Ww as [|c' w' Hc Hw]; subst. cbn [app after_module skip]. rewrite (proj2 (space_white c) Hc).
  rewrite <- !app_assoc, (skip_white w _ Hw). rewrite skip_dark by (apply name_dark; exact N).
  destruct (guarded (m ++ r ++ rest)) eqn:G; [apply (guarded_reserved m (r ++ rest) (stop_app r rest S Sr)) in G; contradiction|].
  apply word_complete; [exact N | apply stop_app; assumption].
Qed.
Lemma module_app semi p rest : (ModuleBegun p -> ended rest) -> (White p -> ended rest) -> sep_start semi rest -> module (p ++ rest) = add rest (module p).
Proof.
  intros HB HW S. pose proof (sep_stop semi rest S) as St. rewrite !module_unfold, (skip_app p rest HW), (ci_app _ low_lit_module _ rest St).
  destruct (ci (lit "module") (skip p)) as [r|] eqn:E; [|reflexivity].
  destruct (skip_split p) as [b [Wb [T _]]]. destruct (ci_sound _ low_lit_module _ _ E) as [u [E2 K]]. rewrite E2 in T. subst p. clear E E2.
  assert (Ws : White r -> ended rest) by (intros W; apply HB, MB; assumption).
  destruct r as [|c r].
  - cbn [app after_module add]. destruct (Ws (Forall_nil _)) as [-> | [q ->]]; reflexivity.
  - cbn [app after_module]. destruct (is_space c); [|reflexivity]. change (c :: r ++ rest) with ((c :: r) ++ rest). rewrite (skip_app (c :: r) rest Ws), (guarded_app _ rest St).
    destruct (guarded (skip (c :: r))); [reflexivity|]. apply word_app. exact St.
Qed.
Lemma module_H2 semi p rest : (forall m, ~ ModuleStatement p m) -> (ModuleBegun p -> ended rest) -> (White p -> ended rest) -> sep_start semi rest -> module (p ++ rest) = None.
Proof. intros N HB HW S. rewrite (module_app semi p rest HB HW S). destruct (module p) as [[m r]|] eqn:E; [|reflexivity]. apply module_sound in E. destruct E as [E _]. exfalso. exact (N m E). Qed.
Lemma module_H3 c t : white c -> module (c :: t) = module t.
Proof. intros W. unfold module. cbn [skip]. rewrite (proj2 (space_white c) W). reflexivity. Qed.
Lemma module_H4 t m q : module t = Some (m, q) -> List.length q < List.length t.
Proof. intros E. exact (proj2 (module_sound t m q E)). Qed.

(* ---- INCLUDE ---- *)
Lemma open_opening c : open_quote c = true <-> opening c.
Proof.
  unfold open_quote, opening. rewrite !orb_true_iff, !Ascii.eqb_eq. split.
  - intros [[-> | ->] | ->]; [left; reflexivity | right; left; reflexivity | right; right; reflexivity].
  - intros [-> | [E|E]]; [left; left; reflexivity | left; right | right]; rewrite <- E; symmetry; apply ascii_nat_embedding.
Qed.
Lemma close_closing c : close_quote c = true <-> closing c.
Proof.
  unfold close_quote, closing. rewrite !orb_true_iff, !Ascii.eqb_eq. split.
  - intros [[-> | ->] | ->]; [left; reflexivity | right; left; reflexivity | right; right; reflexivity].
  - intros [-> | [E|E]]; [left; left; reflexivity | left; right | right]; rewrite <- E; symmetry; apply ascii_nat_embedding.
Qed.
Definition no_close (m : text) : Prop := Forall (fun c => ~ closing c) m.
Lemma quote_sound t a r : up_to_quote t = Some (a, r) -> no_close a /\ ~ In newline a /\ t = a ++ r /\ exists e q, r = e :: q /\ closing e.
Proof.
  revert a r. induction t as [|c t IH]; intros a r; [discriminate|]. cbn [up_to_quote]. destruct (close_quote c) eqn:C.
  - intros X. injection X as <- <-. split; [constructor|]. split; [intros []|]. split; [reflexivity|]. exists c, t. split; [reflexivity | apply close_closing; exact C].
  - destruct (Ascii.eqb_spec c newline) as [E|E]; [discriminate|]. destruct (up_to_quote t) as [[x y]|] eqn:U; [|discriminate]. intros X. injection X as <- <-.
    destruct (IH x y eq_refl) as [H1 [H2 [H3 H4]]]. split; [constructor; [intros Q; apply close_closing in Q; rewrite Q in C; discriminate | exact H1]|].
    split; [intros [Q|Q]; [exact (E Q) | exact (H2 Q)]|]. split; [cbn [app]; f_equal; exact H3 | exact H4].
Qed.
Lemma quote_complete m e r : no_close m -> ~ In newline m -> closing e -> up_to_quote (m ++ e :: r) = Some (m, e :: r).
Proof.
  induction 1 as [|c m Hc Hm IH]; intros N C.
  - cbn [app up_to_quote]. rewrite (proj2 (close_closing e) C). reflexivity.
  - cbn [app up_to_quote]. destruct (close_quote c) eqn:Q; [apply close_closing in Q; contradiction|].
    destruct (Ascii.eqb_spec c newline) as [E|E]; [exfalso; apply N; left; exact E|]. rewrite IH; [reflexivity | intros H; apply N; right; exact H | exact C].
Qed.
(* only newlines separate *)
Lemma newline_start rest : sep_start false rest -> rest = [] \/ exists q, rest = newline :: q.
Proof. intros [-> | [c [q [-> [-> | [E _]]]]]]; [left; reflexivity | right; exists q; reflexivity | discriminate]. Qed.
Lemma quote_app p rest : sep_start false rest -> up_to_quote (p ++ rest) = add rest (up_to_quote p).
Proof.
  intros S. induction p as [|c p IH].
  - cbn [app add up_to_quote]. destruct (newline_start rest S) as [-> | [q ->]]; reflexivity.
  - cbn [app up_to_quote]. destruct (close_quote c); [reflexivity|]. destruct (Ascii.eqb c newline); [reflexivity|]. rewrite IH. destruct (up_to_quote p) as [[a b]|]; reflexivity.
Qed.
Lemma last_snoc {A} (n : list A) x : rev (n ++ [x]) = x :: rev n.
Proof. apply rev_unit. Qed.
Lemma kind_none q t : ~ letter q -> kind (q :: t) = q :: t.
Proof. intros N. unfold kind. rewrite <- (app_nil_l (q :: t)), span_stop; [reflexivity | constructor | right; exists q, t; split; [reflexivity | exact N]]. Qed.
Lemma kind_some n q t : Name n -> ~ letter q -> kind ((n ++ ["_"%char]) ++ q :: t) = q :: t.
Proof.
  intros [N L] Q. unfold kind. rewrite span_stop.
  - rewrite last_snoc. destruct (rev n) as [|x l] eqn:E; [apply (f_equal (@rev ascii)) in E; rewrite rev_involutive in E; contradiction|]. rewrite Ascii.eqb_refl. reflexivity.
  - apply Forall_app. split; [exact L|]. constructor; [|constructor]. apply letter_word. reflexivity.
  - right. exists q, t. split; [reflexivity | exact Q].
Qed.
Lemma kind_sound t : kind t = t \/ exists n, Name n /\ t = (n ++ ["_"%char]) ++ kind t.
Proof.
  unfold kind. destruct (span word_char t) as [w r] eqn:E. destruct (rev w) as [|c [|x l]] eqn:R; [left; reflexivity | left; reflexivity|].
  destruct (Ascii.eqb_spec c "_"%char) as [C|C]; [|left; reflexivity]. right. exists (rev (x :: l)).
  assert (Ew : w = rev (x :: l) ++ ["_"%char]) by (rewrite <- (rev_involutive w), R, C; reflexivity).
  assert (W : word t = Some (w, r)). { unfold word. rewrite E. destruct w; [discriminate | reflexivity]. }
  apply word_sound in W. destruct W as [[_ L] [_ T]]. split.
  - split; [intros Z; apply (f_equal (@List.length ascii)) in Z; rewrite rev_length in Z; discriminate|]. rewrite Ew in L. apply Forall_app in L. exact (proj1 L).
  - rewrite <- Ew. exact T.
Qed.
Lemma kind_app p rest : Stop rest -> kind (p ++ rest) = kind p ++ rest.
Proof.
  intros S. unfold kind. rewrite (span_app p rest S). destruct (span word_char p) as [w q]. cbn [fst snd]. destruct (rev w) as [|c [|x l]]; try reflexivity.
  destruct (Ascii.eqb c "_"%char); reflexivity.
Qed.
Definition quoted (t : str) : option (str * str) :=
  match t with d :: x :: r => if open_quote d && negb (Ascii.eqb x newline) then match up_to_quote r with Some (a, b) => Some (x :: a, b) | None => None end else None | _ => None end.
Definition after_include (r : str) : option (str * str) := match r with c :: _ => if is_space c then quoted (kind (skip r)) else None | [] => None end.
Lemma include_unfold t : include t = match ci (lit "include") (skip t) with Some r => after_include r | None => None end.
Proof. reflexivity. Qed.
Lemma quoted_sound t m r : quoted t = Some (m, r) -> exists q x a e z, t = q :: x :: a ++ e :: z /\ m = x :: a /\ r = e :: z /\ opening q /\ no_close a /\ closing e /\ ~ In newline m.
Proof.
  destruct t as [|d [|x t]]; [discriminate | discriminate|]. cbn [quoted]. destruct (open_quote d) eqn:O; [|discriminate].
  destruct (Ascii.eqb_spec x newline) as [E|E]; [discriminate|]. cbn [andb negb]. destruct (up_to_quote t) as [[a b]|] eqn:U; [|discriminate]. intros X. injection X as <- <-.
  destruct (quote_sound t a b U) as [H1 [H2 [H3 [e [z [-> C]]]]]]. exists d, x, a, e, z. rewrite H3. repeat split; try assumption; [apply open_opening; exact O|].
  intros [Q|Q]; [exact (E Q) | exact (H2 Q)].
Qed.
Lemma quoted_app p rest : sep_start false rest -> quoted (p ++ rest) = add rest (quoted p).
Proof.
  intros S. destruct p as [|d [|x p]].
  - cbn [app quoted add]. destruct (newline_start rest S) as [-> | [q ->]]; [reflexivity|]. destruct q; reflexivity.
  - cbn [app]. destruct (newline_start rest S) as [-> | [q ->]]; [reflexivity|]. cbn [quoted add]. rewrite Ascii.eqb_refl, andb_false_r. reflexivity.
  - cbn [app quoted]. destruct (open_quote d && negb (Ascii.eqb x newline)); [|reflexivity]. rewrite (quote_app p rest S). destruct (up_to_quote p) as [[a b]|]; reflexivity.
Qed.
Lemma include_sound t m r : include t = Some (m, r) -> IncludeStatement t m /\ List.length r < List.length t.
Proof.
  rewrite include_unfold. destruct (ci (lit "include") (skip t)) as [q|] eqn:E; [|discriminate]. destruct (skip_split t) as [b [Wb [T _]]].
  destruct (ci_sound _ low_lit_include _ _ E) as [u [E2 K]]. rewrite E2 in T. rewrite T. clear T E E2 t.
  destruct q as [|c q]; [discriminate|]. cbn [after_include]. destruct (is_space c) eqn:C; [|discriminate]. cbn [skip]. rewrite C.
  destruct (skip_split q) as [w [Ww [Q _]]]. intros X. destruct (quoted_sound _ _ _ X) as [d [x [a [e [z [Y [-> [-> [O [Na [Ce _]]]]]]]]]]].
  assert (Z : exists k, (k = [] \/ exists n, k = n ++ ["_"%char] /\ Name n) /\ skip q = k ++ d :: x :: a ++ e :: z).
  { destruct (kind_sound (skip q)) as [J|[n [Hn J]]].
    - exists []. split; [left; reflexivity|]. cbn [app]. rewrite <- J. exact Y.
    - exists (n ++ ["_"%char]). split; [right; exists n; split; [reflexivity | exact Hn]|]. rewrite J at 1. f_equal. exact Y. }
  destruct Z as [k [Hk Z]]. rewrite Z in Q. rewrite Q. split.
  - apply (I_name b u (c :: w) k d x a e z); try assumption; [constructor; [apply space_white; exact C | exact Ww] | discriminate].
  - repeat (rewrite ?app_length; cbn [List.length]). lia.
Qed.
Lemma opening_plain q : opening q -> ~ letter q /\ ~ white q.
Proof. intros [-> | [E|E]]; unfold letter, white; cbn zeta; [split; cbn; lia | |]; rewrite E; split; lia. Qed.
Lemma include_complete p m : IncludeStatement p m -> free false p -> exists a r, p = a ++ r /\ forall rest, sep_start false rest -> include (p ++ rest) = Some (m, r ++ rest).
Proof.
  intros H. destruct H as [b u w k q x m e r Wb K Ww Nw Hk O Nm C]. intros Fp.
  exists (b ++ u ++ w ++ k ++ q :: x :: m), (e :: r). split; [repeat (rewrite <- ?app_assoc; cbn [app]); reflexivity|]. intros rest Sr.
  assert (Nn : forall c, In c (x :: m) -> c <> newline).
  { intros c Hc ->. apply (Fp newline); [|left; reflexivity]. apply in_or_app. right. apply in_or_app. right. apply in_or_app. right. apply in_or_app. right.
    right. change (x :: m ++ e :: r) with ((x :: m) ++ e :: r). apply in_or_app. left. exact Hc. }
  rewrite include_unfold, <- app_assoc, (skip_white b _ Wb), <- app_assoc, skip_dark by (apply (keyword_dark "include"); [exact low_lit_include | discriminate | exact K]).
  rewrite (ci_complete _ low_lit_include u _ K).
  destruct w as [|c w]; [contradiction|]. inversion Ww as [|c' w' Hc Hw]; subst. cbn [app after_include skip]. rewrite (proj2 (space_white c) Hc).
  repeat (rewrite <- ?app_assoc; cbn [app]). rewrite (skip_white w _ Hw). destruct (opening_plain q O) as [Lq Wq].
  assert (D : dark (k ++ q :: x :: m ++ e :: r ++ rest)).
  { destruct Hk as [-> | [n [-> Hn]]]; [right; exists q, (x :: m ++ e :: r ++ rest); split; [reflexivity | exact Wq] | rewrite <- app_assoc; apply name_dark; exact Hn]. }
  rewrite (skip_dark _ D). assert (E : kind (k ++ q :: x :: m ++ e :: r ++ rest) = q :: x :: m ++ e :: r ++ rest).
  { destruct Hk as [-> | [n [-> Hn]]]; [apply kind_none; exact Lq | apply kind_some; assumption]. }
  rewrite E. cbn [quoted]. rewrite (proj2 (open_opening q) O).
  destruct (Ascii.eqb_spec x newline) as [Ex|Ex]; [exfalso; exact (Nn x (or_introl eq_refl) Ex)|]. cbn [andb negb].
  rewrite (quote_complete m e (r ++ rest) Nm); [reflexivity | intros Q; exact (Nn newline (or_intror Q) eq_refl) | exact C].
Qed.
Lemma include_app p rest : (IncludeBegun p -> ended rest) -> (White p -> ended rest) -> sep_start false rest -> include (p ++ rest) = add rest (include p).
Proof.
  intros HB HW S. pose proof (sep_stop false rest S) as St. rewrite !include_unfold, (skip_app p rest HW), (ci_app _ low_lit_include _ rest St).
  destruct (ci (lit "include") (skip p)) as [r|] eqn:E; [|reflexivity].
  destruct (skip_split p) as [b [Wb [T _]]]. destruct (ci_sound _ low_lit_include _ _ E) as [u [E2 K]]. rewrite E2 in T. subst p. clear E E2.
  assert (Ws : White r -> ended rest) by (intros W; apply HB, IB; assumption).
  destruct r as [|c r].
  - cbn [app after_include add]. destruct (Ws (Forall_nil _)) as [-> | [q ->]]; reflexivity.
  - cbn [app after_include]. destruct (is_space c); [|reflexivity]. change (c :: r ++ rest) with ((c :: r) ++ rest). rewrite (skip_app (c :: r) rest Ws), (kind_app _ rest St).
    apply quoted_app. exact S.
Qed.
Lemma include_H2 p rest : (forall m, ~ IncludeStatement p m) -> (IncludeBegun p -> ended rest) -> (White p -> ended rest) -> sep_start false rest -> include (p ++ rest) = None.
Proof. intros N HB HW S. rewrite (include_app p rest HB HW S). destruct (include p) as [[m r]|] eqn:E; [|reflexivity]. apply include_sound in E. destruct E as [E _]. exfalso. exact (N m E). Qed.
Lemma include_H3 c t : white c -> include (c :: t) = include t.
Proof. intros W. unfold include. cbn [skip]. rewrite (proj2 (space_white c) W). reflexivity. Qed.
Lemma include_H4 t m q : include t = Some (m, q) -> List.length q < List.length t.
Proof. intros E. exact (proj2 (include_sound t m q E)). Qed.
