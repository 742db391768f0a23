(* C73f: Delete(). *)
From Coq Require Import List Bool Arith Lia.
Import ListNotations.
From Verif Require Import InsModel InsSpec InsProps InsProps2 InsProps5.
Open Scope list_scope.

Section Top.
Variable goto : path -> nat -> path.
Variable max : nat.
Notation stat := (stat goto max). Notation lstat := (lstat goto max). Notation real := (real goto max). Notation lpath := (lpath goto max).
Notation delete_func := (delete_func goto max).

(* ---- with fewer files a path leads to the same place or nowhere ---- *)
Definition fewer (s s1 : fs) : Prop := forall p, ent s1 p = ent s p \/ ent s1 p = None.
Lemma walk_fewer : forall l s s1 a cur k q e, fewer s s1 -> walk goto l s1 cur a = Some (k, q) -> ent s1 q = Some e -> walk goto l s cur a = Some (k, q) /\ ent s q = Some e.
Proof.
  intros l s s1 a cur k q e HF. assert (S : forall p x, ent s1 p = Some x -> ent s p = Some x) by (intros p x E; destruct (HF p) as [Z | Z]; congruence).
  revert a cur. induction l as [| l IHl]; intros a; induction a as [| n a IHa]; intros cur H HE;
    try (rewrite walk_nil in *; injection H as <- <-; split; [reflexivity | apply S; exact HE]); rewrite walk_cons in H; rewrite walk_cons;
    destruct (ent s1 cur) as [[c m | t | m] |] eqn:Ec; try discriminate H; rewrite (S _ _ Ec);
    destruct (ent s1 (cur ++ [n])) as [[c2 m2 | t | m2] |] eqn:En; try discriminate H; rewrite ?(S _ _ En); try (apply IHa; assumption);
    try (destruct a as [| n2 a]; [rewrite walk_nil in H; injection H as <- <-; congruence | rewrite walk_cons, En in H; discriminate H]).
  apply IHl; assumption.
Qed.
Lemma lpath_fewer : forall s s1 p q, fewer s s1 -> lpath s1 p = Some q -> lpath s p = Some q.
Proof.
  intros s s1 p q HF H. unfold InsModel.lpath in *. destruct p as [| x p]; [exact H |]. unfold InsModel.real in *.
  destruct (walk goto max s1 [] (dirname (x :: p))) as [[k d] |] eqn:Ew; [| discriminate H]. destruct (ent s1 d) as [[c m | t | m] |] eqn:Ed; try discriminate H.
  destruct (walk_fewer max s s1 (dirname (x :: p)) [] k d (Dir_ m) HF Ew Ed) as [-> ->]. exact H.
Qed.

Lemma rmtree_ent : forall s e q p, lpath s e = Some q -> ent (rmtree goto max s e) p = if under q p then None else ent s p.
Proof. intros s e q p H. unfold rmtree. rewrite H. reflexivity. Qed.
Lemma unlink_ent : forall s e s1, unlink goto max s e = Some s1 -> exists q, lpath s e = Some q /\ (forall m, ent s q <> Some (Dir_ m)) /\ forall p, ent s1 p = if path_eqb p q then None else ent s p.
Proof.
  intros s e s1 H. unfold unlink in H. destruct (lpath s e) as [q |]; [| discriminate H]. exists q. split; [reflexivity |].
  destruct (ent s q) as [[c m | t | m] |]; try discriminate H; injection H as <-; split; try (intros m0; discriminate); reflexivity.
Qed.

Theorem C73f_delete_only : forall dest must_exist s ok s', delete_func dest must_exist s = (ok, s') ->
  forall p, ent s' p = ent s p \/ (ent s' p = None /\ exists e q, In e dest /\ lpath s e = Some q /\ under q p = true).
Proof.
  induction dest as [| e dest IH]; intros must s ok s' H p; cbn [InsModel.delete_func] in H; [injection H as <- <-; left; reflexivity |].
  assert (G : forall s1, fewer s s1 -> (forall p, ent s1 p = ent s p \/ (ent s1 p = None /\ exists q, lpath s e = Some q /\ under q p = true)) -> delete_func dest must s1 = (ok, s') ->
     ent s' p = ent s p \/ (ent s' p = None /\ exists e0 q, In e0 (e :: dest) /\ lpath s e0 = Some q /\ under q p = true)).
  { intros s1 HF H1 H2. destruct (IH must s1 ok s' H2 p) as [Z | [Z [e0 [q [Hi [Hq Hu]]]]]].
    - rewrite Z. destruct (H1 p) as [Y | [Y [q [Hq Hu]]]]; [left; exact Y |]. right. split; [exact Y |]. exists e, q. split; [left; reflexivity | split; assumption].
    - right. split; [exact Z |]. exists e0, q. split; [right; exact Hi |]. split; [exact (lpath_fewer s s1 e0 q HF Hq) | exact Hu]. }
  destruct (negb (exists_ goto max s e || islink goto max s e) && negb must).
  - apply (G s); [intros x; left; reflexivity | intros x; left; reflexivity | exact H].
  - destruct (isdir goto max s e && negb (islink goto max s e)).
    + apply (G (rmtree goto max s e)); [| | exact H].
      * intros x. unfold rmtree. destruct (lpath s e) as [q |]; [| left; reflexivity]. cbn [ent]. destruct (under q x); [right | left]; reflexivity.
      * intros x. destruct (lpath s e) as [q |] eqn:Eq; [| left; unfold rmtree; rewrite Eq; reflexivity]. rewrite (rmtree_ent s e q x Eq). destruct (under q x) eqn:U; [right | left; reflexivity].
        split; [reflexivity |]. exists q. split; [reflexivity | exact U].
    + destruct (unlink goto max s e) as [s1 |] eqn:Eu; [| injection H as <- <-; left; reflexivity].
      destruct (unlink_ent s e s1 Eu) as [q [Hq [_ HE]]]. apply (G s1); [| | exact H].
      * intros x. rewrite HE. destruct (path_eqb x q); [right | left]; reflexivity.
      * intros x. rewrite HE. destruct (path_eqb x q) eqn:X; [right | left; reflexivity]. split; [reflexivity |]. exists q. split; [exact Hq |]. apply path_eqb_eq in X. subst x. apply under_refl.
Qed.

(* ---- what is in the list is gone ---- *)
Definition gone (s : fs) (e : path) : Prop := exists a b, e = a ++ b /\ b <> [] /\ plain s a /\ ent s a = None.
Lemma closed_none : forall s, closed s -> forall r d, (forall m, ent s d <> Some (Dir_ m)) -> r <> [] -> ent s (d ++ r) = None.
Proof.
  intros s HC. apply (rev_ind (fun r => forall d, (forall m, ent s d <> Some (Dir_ m)) -> r <> [] -> ent s (d ++ r) = None)); [congruence |].
  intros n r IH d HD _. destruct (ent s (d ++ r ++ [n])) eqn:E; [| reflexivity]. exfalso. rewrite app_assoc in E. destruct (HC (d ++ r) n) as [m Em]; [rewrite E; discriminate |].
  destruct r as [| x r]; [rewrite app_nil_r in Em; exact (HD m Em) |]. rewrite (IH d HD) in Em by discriminate. discriminate Em.
Qed.
Lemma gone_lpath : forall s e, gone s e -> stat s e = None /\ lstat s e = None.
Proof.
  intros s e [a [b [-> [Hb [HP Ha]]]]].
  assert (W : walk goto max s [] a = Some (max, a)) by (apply walk_plain; [exact (proj2 HP) | intros t; cbn [app]; rewrite Ha; discriminate]).
  split.
  - unfold InsModel.stat, InsModel.real. rewrite walk_app, W. destruct b as [| x b]; [congruence |]. rewrite walk_cons, Ha. reflexivity.
  - destruct (exists_last Hb) as [b0 [x ->]]. rewrite app_assoc, stat_step. unfold InsModel.listdir, InsModel.real. rewrite walk_app, W.
    destruct b0 as [| y b0]; [rewrite walk_nil, Ha; reflexivity | rewrite walk_cons, Ha; reflexivity].
Qed.
(* one more thing is removed *)
Lemma still : forall s s1 x e, plain s x -> (forall p, under x p = false -> ent s1 p = ent s p) -> ent s1 x = None -> plain s e \/ gone s e -> plain s1 e \/ gone s1 e.
Proof.
  intros s s1 x e HX HO HN H.
  assert (PX : plain s1 x).
  { apply (plain_same s s1 x HX). intros a b E Hb. left. apply HO. destruct (under x a) eqn:U; [| reflexivity]. exfalso. apply under_iff in U. destruct U as [r ->].
    rewrite <- app_assoc in E. rewrite <- (app_nil_r x) in E at 1. apply app_inv_head in E. destruct r; [cbn [app] in E; congruence | discriminate E]. }
  assert (P : forall a, plain s a -> plain s1 a \/ exists b, a = x ++ b /\ b <> []).
  { intros a HA. destruct (under x a) eqn:U.
    - apply under_iff in U. destruct U as [b ->]. destruct b as [| y b]; [left; rewrite app_nil_r; exact PX | right; exists (y :: b); split; [reflexivity | discriminate]].
    - left. apply (plain_same s s1 a HA). intros u v E Hv. left. apply HO. destruct (under x u) eqn:U2; [| reflexivity]. exfalso.
      apply under_iff in U2. destruct U2 as [r ->]. rewrite E, <- app_assoc, under_app in U. discriminate U. }
  destruct H as [H | [a [b [-> [Hb [Ha Na]]]]]].
  - destruct (P e H) as [Z | [b [-> Hb]]]; [left; exact Z | right; exists x, b; split; [reflexivity | split; [exact Hb | split; [exact PX | exact HN]]]].
  - right. destruct (P a Ha) as [Z | [c [-> Hc]]].
    + exists a, b. split; [reflexivity |]. split; [exact Hb |]. split; [exact Z |]. destruct (under x a) eqn:U; [| rewrite (HO a U); exact Na].
      apply under_iff in U. destruct U as [r ->]. destruct r as [| y r]; [rewrite app_nil_r; exact HN |].
      exfalso. destruct Z as [_ Z]. destruct (Z x (y :: r) eq_refl) as [m Em]; [discriminate |]. congruence.
    + exists x, (c ++ b). split; [rewrite app_assoc; reflexivity |]. split; [intros Z; apply app_eq_nil in Z; destruct Z; congruence |]. split; [exact PX | exact HN].
Qed.
Lemma gone_below : forall s, closed s -> forall e, gone s e -> forall r, ent s (e ++ r) = None.
Proof.
  intros s HC e [a [b [-> [Hb [_ Ha]]]]] r. rewrite <- app_assoc. apply (closed_none s HC); [intros m; congruence |]. intros Z. apply app_eq_nil in Z. destruct Z. congruence.
Qed.

Theorem C73g_delete : forall dest s, closed s -> (forall e, In e dest -> plain s e) ->
  exists s', delete_func dest false s = (true, s') /\ (forall e r, In e dest -> ent s' (e ++ r) = None) /\
    (forall p, (forall e, In e dest -> under e p = false) -> ent s' p = ent s p).
Proof.
  assert (G : forall dest s, closed s -> (forall e, In e dest -> plain s e \/ gone s e) ->
     exists s', delete_func dest false s = (true, s') /\ (forall e r, In e dest -> ent s' (e ++ r) = None) /\ (forall p, (forall e, In e dest -> under e p = false) -> ent s' p = ent s p) /\
       (forall p, ent s p = None -> ent s' p = None)).
  { induction dest as [| e dest IH]; intros s HC HE; cbn [InsModel.delete_func].
    - exists s. split; [reflexivity |]. split; [intros e r [] |]. split; [reflexivity | intros p E; exact E].
    - assert (HE1 := fun x Hx => HE x (or_intror Hx)).
      assert (Skip : forall b, (forall r, ent s (e ++ r) = None) -> b = true -> exists s', (if b then delete_func dest false s else
          if isdir goto max s e && negb (islink goto max s e) then delete_func dest false (rmtree goto max s e)
          else match unlink goto max s e with Some s1 => delete_func dest false s1 | None => (false, s) end) = (true, s') /\ (forall e0 r, In e0 (e :: dest) -> ent s' (e0 ++ r) = None) /\
          (forall p, (forall e0, In e0 (e :: dest) -> under e0 p = false) -> ent s' p = ent s p) /\ (forall p, ent s p = None -> ent s' p = None)).
      { intros b HN ->. destruct (IH s HC HE1) as [s' [A [B [C D]]]]. exists s'. split; [exact A |]. split; [| split; [| exact D]].
        - intros e0 r [<- | Hi]; [apply D; apply HN | exact (B e0 r Hi)].
        - intros p Hp. apply C. intros x Hx. apply Hp. right. exact Hx. }
      destruct (HE e (or_introl eq_refl)) as [HP | HG].
      2:{ destruct (gone_lpath s e HG) as [Z1 Z2]. apply Skip; [exact (gone_below s HC e HG) |]. unfold exists_, islink. rewrite Z1, Z2. reflexivity. }
      assert (LP := lpath_plain goto max s e HP).
      destruct (ent s e) as [en |] eqn:Ee.
      2:{ apply Skip.
          - intros r. destruct r as [| x r]; [rewrite app_nil_r; exact Ee |]. apply (closed_none s HC); [intros m; congruence | discriminate].
          - unfold exists_, islink, InsModel.lstat. rewrite LP, Ee. rewrite (stat_plain goto max s e HP) by (intros t; congruence). rewrite Ee. reflexivity. }
      assert (Step : forall s1, closed s1 -> (forall p, under e p = false -> ent s1 p = ent s p) -> (forall r, ent s1 (e ++ r) = None) ->
          exists s', delete_func dest false s1 = (true, s') /\ (forall e0 r, In e0 (e :: dest) -> ent s' (e0 ++ r) = None) /\
          (forall p, (forall e0, In e0 (e :: dest) -> under e0 p = false) -> ent s' p = ent s p) /\ (forall p, ent s p = None -> ent s' p = None)).
      { intros s1 HC1 HO HN. assert (HN0 : ent s1 e = None) by (assert (Q := HN []); rewrite app_nil_r in Q; exact Q).
        destruct (IH s1 HC1 (fun x Hx => still s s1 e x HP HO HN0 (HE1 x Hx))) as [s' [A [B [C D]]]]. exists s'. split; [exact A |]. split; [| split].
        - intros e0 r [<- | Hi]; [apply D; apply HN | exact (B e0 r Hi)].
        - intros p Hp. rewrite C; [apply HO; apply Hp; left; reflexivity |]. intros x Hx. apply Hp. right. exact Hx.
        - intros p Ep. apply D. destruct (under e p) eqn:U; [apply under_iff in U; destruct U as [r ->]; apply HN | rewrite (HO p U); exact Ep]. }
      assert (EX : exists_ goto max s e || islink goto max s e = true).
      { unfold islink, InsModel.lstat. rewrite LP, Ee. destruct en as [c m | t | m]; [| apply orb_true_r |];
          unfold exists_; rewrite (stat_plain goto max s e HP) by (intros t; congruence); rewrite Ee; reflexivity. }
      rewrite EX. cbn [negb andb].
      assert (UL : (forall m, en <> Dir_ m) -> exists s1, unlink goto max s e = Some s1 /\ closed s1 /\ (forall p, under e p = false -> ent s1 p = ent s p) /\ (forall r, ent s1 (e ++ r) = None)).
      { intros ND. destruct (unlink goto max s e) as [s1 |] eqn:Eu.
        2:{ exfalso. unfold unlink in Eu. rewrite LP, Ee in Eu. destruct en as [c m | t | m]; try discriminate Eu. exact (ND m eq_refl). }
        destruct (unlink_ent s e s1 Eu) as [q [Hq [_ HEn]]]. rewrite LP in Hq. injection Hq as <-. exists s1. split; [reflexivity |]. split; [| split].
        - intros d n Hn. rewrite HEn in Hn. destruct (path_eqb (d ++ [n]) e) eqn:X; [congruence |]. destruct (HC d n Hn) as [m Em]. exists m. rewrite HEn.
          destruct (path_eqb d e) eqn:Y; [| exact Em]. apply path_eqb_eq in Y. subst d. rewrite Ee in Em. injection Em as Em. exfalso. exact (ND m Em).
        - intros p Hp. rewrite HEn, path_eqb_neq; [reflexivity | exact (under_neq e p Hp)].
        - intros r. rewrite HEn. destruct (path_eqb (e ++ r) e) eqn:Y; [reflexivity |]. apply (closed_none s HC); [intros m Z; rewrite Ee in Z; injection Z as Z; exact (ND m Z) |].
          intros ->. rewrite app_nil_r, path_eqb_refl in Y. discriminate Y. }
      unfold islink, InsModel.lstat. rewrite LP, Ee. destruct en as [c m | t | m].
      + unfold isdir. rewrite (stat_plain goto max s e HP) by (intros t; congruence). rewrite Ee. cbn [andb].
        destruct UL as [s1 [-> [H1 [H2 H3]]]]; [intros m0; discriminate |]. apply Step; assumption.
      + rewrite andb_false_r. destruct UL as [s1 [-> [H1 [H2 H3]]]]; [intros m0; discriminate |]. apply Step; assumption.
      + unfold isdir. rewrite (stat_plain goto max s e HP) by (intros t; congruence). rewrite Ee. cbn [andb negb]. apply Step.
        * intros d n Hn. rewrite (rmtree_ent s e e (d ++ [n]) LP) in Hn. destruct (under e (d ++ [n])) eqn:X; [congruence |]. destruct (HC d n Hn) as [m0 Em]. exists m0.
          rewrite (rmtree_ent s e e d LP). destruct (under e d) eqn:Y; [| exact Em]. exfalso. apply under_iff in Y. destruct Y as [r ->]. rewrite <- app_assoc, under_app in X. discriminate X.
        * intros p Hp. rewrite (rmtree_ent s e e p LP), Hp. reflexivity.
        * intros r. rewrite (rmtree_ent s e e _ LP), under_app. reflexivity. }
  intros dest s HC HP. destruct (G dest s HC (fun e He => or_introl (HP e He))) as [s' [A [B [C _]]]]. exists s'. split; [exact A |]. split; [exact B | exact C].
Qed.

(* C73h: with must_exist something that is not there is an error. *)
Theorem C73h_must_exist : forall s e r, plain s e -> ent s e = None -> delete_func (e :: r) true s = (false, s).
Proof.
  intros s e r HP HE. cbn [InsModel.delete_func]. rewrite andb_false_r. unfold isdir. rewrite (stat_plain goto max s e HP) by (intros t; congruence). rewrite HE. cbn [andb].
  unfold unlink. rewrite (lpath_plain goto max s e HP), HE. reflexivity.
Qed.
End Top.

Print Assumptions C73f_delete_only.
Print Assumptions C73g_delete.
Print Assumptions C73h_must_exist.
