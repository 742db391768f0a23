(* C79: finding statements: the general part. *)
From Coq Require Import Ascii String List Bool Arith Lia.
From Verif Require Import SubstModel FtnModel FtnSpec.
Import ListNotations.
Open Scope list_scope.

Lemma space_white c : is_space c = true <-> white c.
Proof. unfold is_space, white. cbn zeta. rewrite orb_true_iff, !andb_true_iff, !Nat.leb_le. tauto. Qed.

Section Scan.
Variable tr : str -> option (str * str).
Variable semi : bool.
Variable Stmt : text -> text -> Prop.
Variable Begun : text -> Prop.
Definition at_ (bol : bool) (t : str) : option (str * str) := if semi then at_statement tr bol t else at_line tr bol t.
Definition sep (c : ascii) : Prop := c = newline \/ (semi = true /\ c = semicolon).
Definition free (p : text) : Prop := forall c, In c p -> ~ sep c.
Definition sep_start (rest : text) : Prop := rest = [] \/ exists c q, rest = c :: q /\ sep c.
(* nothing more in this line *)
Definition ended (rest : text) : Prop := rest = [] \/ exists q, rest = semicolon :: q.
Hypothesis H1 : forall p m, Stmt p m -> free p -> exists a r, p = a ++ r /\ forall rest, sep_start rest -> tr (p ++ rest) = Some (m, r ++ rest).
Hypothesis H2 : forall p rest, free p -> (forall m, ~ Stmt p m) -> (Begun p -> ended rest) -> (White p -> ended rest) -> sep_start rest -> tr (p ++ rest) = None.
Hypothesis H3 : forall c t, white c -> tr (c :: t) = tr t.
Hypothesis H4 : forall t m q, tr t = Some (m, q) -> List.length q < List.length t.

Lemma tr_nil : tr [] = None.
Proof. destruct (tr []) as [[m q]|] eqn:E; [|reflexivity]. apply H4 in E. cbn in E. lia. Qed.
Lemma at_shorter bol t m q : at_ bol t = Some (m, q) -> List.length q < List.length t.
Proof.
  unfold at_, at_statement, at_line. destruct semi.
  - destruct bol.
    + destruct (tr t) as [[m' q']|] eqn:E; [intros H; injection H as -> ->; apply H4 in E; exact E|].
      destruct t as [|c t]; [discriminate|]. cbn [after_char]. destruct (Ascii.eqb c semicolon); [|discriminate]. intros H. apply H4 in H. cbn [List.length]. lia.
    + destruct t as [|c t]; [discriminate|]. cbn [after_char]. destruct (Ascii.eqb c semicolon); [|discriminate]. intros H. apply H4 in H. cbn [List.length]. lia.
  - destruct bol; [apply H4 | discriminate].
Qed.
Lemma findall_fuel f : forall f' bol t, List.length t <= f -> List.length t <= f' -> findall at_ f bol t = findall at_ f' bol t.
Proof.
  induction f as [|f IH]; intros f' bol t L L'.
  - destruct t; [|cbn in L; lia]. destruct f' as [|f']; [reflexivity|]. cbn [findall].
    destruct (at_ bol []) as [[m q]|] eqn:E; [apply at_shorter in E; cbn in E; lia | reflexivity].
  - destruct f' as [|f'].
    + destruct t; [|cbn in L'; lia]. cbn [findall]. destruct (at_ bol []) as [[m q]|] eqn:E; [apply at_shorter in E; cbn in E; lia | reflexivity].
    + cbn [findall]. destruct (at_ bol t) as [[m q]|] eqn:E.
      * apply at_shorter in E. f_equal. apply IH; lia.
      * destruct t as [|c t]; [reflexivity|]. cbn [List.length] in L, L'. apply IH; lia.
Qed.
Definition F (bol : bool) (t : text) : list str := findall at_ (List.length t) bol t.
Lemma F_unfold bol t : F bol t = match at_ bol t with Some (m, q) => m :: F false q | None => match t with [] => [] | c :: r => F (Ascii.eqb c newline) r end end.
Proof.
  unfold F. rewrite (findall_fuel (List.length t) (S (List.length t)) bol t) by lia. cbn [findall].
  destruct (at_ bol t) as [[m q]|] eqn:E; [apply at_shorter in E; f_equal; apply findall_fuel; lia|].
  destruct t as [|c t]; [reflexivity|]. apply findall_fuel; cbn [List.length]; lia.
Qed.
Lemma sep_not_semi c : ~ sep c -> semi = true -> Ascii.eqb c semicolon = false.
Proof. intros H E. apply Ascii.eqb_neq. intros ->. apply H. right. split; [exact E | reflexivity]. Qed.
Lemma at_false c t : ~ (semi = true /\ c = semicolon) -> at_ false (c :: t) = None.
Proof.
  intros H. unfold at_, at_statement, at_line. destruct semi; [|reflexivity]. cbn [after_char].
  destruct (Ascii.eqb_spec c semicolon) as [E|E]; [exfalso; apply H; split; [reflexivity | exact E] | reflexivity].
Qed.
Lemma F_mid r rest : free r -> F false (r ++ rest) = F false rest.
Proof.
  induction r as [|c r IH]; intros Hf; [reflexivity|]. cbn [app]. rewrite F_unfold. rewrite at_false.
  - assert (N : Ascii.eqb c newline = false) by (apply Ascii.eqb_neq; intros ->; apply (Hf newline (or_introl eq_refl)); left; reflexivity).
    rewrite N. apply IH. intros d Hd. apply Hf. right. exact Hd.
  - intros Q. apply (Hf c (or_introl eq_refl)). right. exact Q.
Qed.
Lemma newline_not_semi : newline <> semicolon.
Proof. discriminate. Qed.
Lemma F_newline t : F false (newline :: t) = F true t.
Proof. rewrite F_unfold, at_false; [reflexivity|]. intros [_ Q]. exact (newline_not_semi Q). Qed.
Lemma F_nil bol : F bol [] = [].
Proof. rewrite F_unfold. destruct (at_ bol []) as [[m q]|] eqn:E; [apply at_shorter in E; cbn in E; lia | reflexivity]. Qed.
Lemma tr_white w t : White w -> tr (w ++ t) = tr t.
Proof. induction 1 as [|c w Hc Hw IH]; [reflexivity|]. cbn [app]. rewrite H3 by exact Hc. exact IH. Qed.
Lemma tr_semi t : (forall m, ~ Stmt [] m) -> semi = true -> tr (semicolon :: t) = None.
Proof.
  intros N E. refine (H2 [] (semicolon :: t) _ N _ _ _).
  - intros c [].
  - intros _. right. exists t. reflexivity.
  - intros _. right. exists t. reflexivity.
  - right. exists semicolon, t. split; [reflexivity | right; split; [exact E | reflexivity]].
Qed.

(* a text as pieces with what separates them *)
Inductive Cut : text -> list (text * option ascii) -> Prop :=
| C_last p : free p -> Cut p [(p, None)]
| C_more p c t l : free p -> sep c -> Cut t l -> Cut (p ++ c :: t) ((p, Some c) :: l).
Hypothesis NoEmpty : forall m, ~ Stmt [] m.
Hypothesis Decide : forall p, free p -> (exists m, Stmt p m) \/ (forall m, ~ Stmt p m).

Lemma scan_cut t items : Cut t items -> (forall p, In (p, Some newline) items -> ~ Begun p) ->
  Named Stmt (map fst items) (F true t) /\ (semi = true -> forall bol, F bol (semicolon :: t) = F true t).
Proof.
  intros C. induction C as [p Fp|p c t items Fp Sc C IH]; intros B.
  - (* the last piece *)
    cbn [map fst]. destruct (Decide p Fp) as [[m S]|N].
    + destruct (H1 p m S Fp) as [a [r [E T]]]. specialize (T [] (or_introl eq_refl)). rewrite !app_nil_r in T.
      assert (Fr : free r) by (intros d Hd; apply Fp; rewrite E; apply in_or_app; right; exact Hd).
      assert (Ft : F true p = [m]).
      { rewrite F_unfold. assert (A : at_ true p = Some (m, r)) by (unfold at_, at_statement, at_line; destruct semi; rewrite T; reflexivity). rewrite A.
        rewrite <- (app_nil_r r), F_mid, F_nil by exact Fr. reflexivity. }
      split; [rewrite Ft; apply N_name; [exact S | constructor]|].
      intros Sm bol. rewrite F_unfold. assert (A : at_ bol (semicolon :: p) = Some (m, r)).
      { unfold at_, at_statement, at_line. rewrite Sm. assert (Z : (if bol then tr (semicolon :: p) else None) = None) by (destruct bol; [apply tr_semi; assumption | reflexivity]).
        rewrite Z. cbn [after_char]. rewrite Ascii.eqb_refl. exact T. }
      rewrite A. rewrite <- (app_nil_r r), F_mid, F_nil by exact Fr. symmetry. exact Ft.
    + assert (T : tr p = None) by (rewrite <- (app_nil_r p); refine (H2 p [] Fp N _ _ _); [intros _; left; reflexivity | intros _; left; reflexivity | left; reflexivity]).
      assert (Ft : F true p = []).
      { rewrite F_unfold. assert (A : at_ true p = None).
        { unfold at_, at_statement, at_line. destruct semi eqn:Sm; [|exact T]. rewrite T. destruct p as [|d p]; [reflexivity|]. cbn [after_char].
          rewrite (sep_not_semi d (Fp d (or_introl eq_refl)) Sm). reflexivity. }
        rewrite A. destruct p as [|d p]; [reflexivity|].
        assert (Nd : Ascii.eqb d newline = false) by (apply Ascii.eqb_neq; intros ->; apply (Fp newline (or_introl eq_refl)); left; reflexivity).
        rewrite Nd. rewrite <- (app_nil_r p), F_mid, F_nil; [reflexivity|]. intros x Hx. apply Fp. right. exact Hx. }
      split; [rewrite Ft; apply N_none; [exact N | constructor]|].
      intros Sm bol. rewrite F_unfold. assert (A : at_ bol (semicolon :: p) = None).
      { unfold at_, at_statement, at_line. rewrite Sm. assert (Z : (if bol then tr (semicolon :: p) else None) = None) by (destruct bol; [apply tr_semi; assumption | reflexivity]).
        rewrite Z. cbn [after_char]. rewrite Ascii.eqb_refl. exact T. }
      rewrite A. change (Ascii.eqb semicolon newline) with false. rewrite <- (app_nil_r p), F_mid, F_nil, app_nil_r by exact Fp. symmetry. exact Ft.
  - (* a piece and a separator *)
    destruct IH as [I1 I2]; [intros q Hq; apply B; right; exact Hq|]. cbn [map fst].
    assert (Next : F false (c :: t) = F true t).
    { destruct Sc as [-> | [Sm ->]]; [apply F_newline | apply I2; exact Sm]. }
    assert (Ss : sep_start (c :: t)) by (right; exists c, t; split; [reflexivity | exact Sc]).
    destruct (Decide p Fp) as [[m S]|N].
    + destruct (H1 p m S Fp) as [a [r [E T]]]. specialize (T (c :: t) Ss).
      assert (Fr : free r) by (intros d Hd; apply Fp; rewrite E; apply in_or_app; right; exact Hd).
      assert (Ft : F true (p ++ c :: t) = m :: F true t).
      { rewrite F_unfold. assert (A : at_ true (p ++ c :: t) = Some (m, r ++ c :: t)) by (unfold at_, at_statement, at_line; destruct semi; rewrite T; reflexivity). rewrite A.
        rewrite F_mid by exact Fr. rewrite Next. reflexivity. }
      split; [rewrite Ft; apply N_name; [exact S | exact I1]|].
      intros Sm bol. rewrite F_unfold. assert (A : at_ bol (semicolon :: p ++ c :: t) = Some (m, r ++ c :: t)).
      { unfold at_, at_statement, at_line. rewrite Sm. assert (Z : (if bol then tr (semicolon :: p ++ c :: t) else None) = None) by (destruct bol; [apply tr_semi; assumption | reflexivity]).
        rewrite Z. cbn [after_char]. rewrite Ascii.eqb_refl. exact T. }
      rewrite A. rewrite F_mid by exact Fr. rewrite Next. symmetry. exact Ft.
    + assert (W : White p \/ ~ White p).
      { destruct (forallb is_space p) eqn:Q; [left; apply Forall_forall; intros d Hd; apply space_white; rewrite forallb_forall in Q; exact (Q d Hd)|].
        right. intros W. assert (Q2 : forallb is_space p = true); [|congruence]. apply forallb_forall. intros d Hd. apply space_white. exact (proj1 (Forall_forall white p) W d Hd). }
      assert (Cases : tr (p ++ c :: t) = None \/ (White p /\ c = newline /\ tr (p ++ c :: t) = tr t)).
      { destruct Sc as [-> | [Sm ->]].
        - destruct W as [W|W].
          + right. split; [exact W|]. split; [reflexivity|]. rewrite tr_white by exact W. apply H3. apply space_white. reflexivity.
          + left. refine (H2 p (newline :: t) Fp N _ _ Ss); [|intros Q; contradiction]. intros Q. exfalso. exact (B p (or_introl eq_refl) Q).
        - left. refine (H2 p (semicolon :: t) Fp N _ _ Ss); intros _; right; exists t; reflexivity. }
      assert (Plain : tr (p ++ c :: t) = None -> F true (p ++ c :: t) = F true t /\ (semi = true -> forall bol, F bol (semicolon :: p ++ c :: t) = F true t)).
      { intros T. split.
        - destruct p as [|d p].
          + cbn [app]. destruct Sc as [-> | [Sm ->]]; [|apply I2; exact Sm]. rewrite F_unfold.
            assert (A : at_ true (newline :: t) = None) by (unfold at_, at_statement, at_line; cbn [app] in T; destruct semi; rewrite T; reflexivity).
            rewrite A. reflexivity.
          + rewrite F_unfold. assert (A : at_ true ((d :: p) ++ c :: t) = None).
            { unfold at_, at_statement, at_line. destruct semi eqn:Sm; [|exact T]. rewrite T. cbn [app after_char]. rewrite (sep_not_semi d (Fp d (or_introl eq_refl)) Sm). reflexivity. }
            rewrite A. cbn [app]. assert (Nd : Ascii.eqb d newline = false) by (apply Ascii.eqb_neq; intros ->; apply (Fp newline (or_introl eq_refl)); left; reflexivity).
            rewrite Nd. rewrite F_mid; [exact Next|]. intros x Hx. apply Fp. right. exact Hx.
        - intros Sm bol. rewrite F_unfold. assert (A : at_ bol (semicolon :: p ++ c :: t) = None).
          { unfold at_, at_statement, at_line. rewrite Sm. assert (Z : (if bol then tr (semicolon :: p ++ c :: t) else None) = None) by (destruct bol; [apply tr_semi; assumption | reflexivity]).
            rewrite Z. cbn [after_char]. rewrite Ascii.eqb_refl. exact T. }
          rewrite A. change (Ascii.eqb semicolon newline) with false. rewrite F_mid by exact Fp. exact Next. }
      assert (Goal_ : F true (p ++ c :: t) = F true t /\ (semi = true -> forall bol, F bol (semicolon :: p ++ c :: t) = F true t)).
      { destruct Cases as [T|[Wp [-> T]]]; [exact (Plain T)|]. destruct (tr t) as [[m q]|] eqn:Tt; [|exact (Plain T)].
        assert (Ft : F true t = m :: F false q).
        { rewrite F_unfold. assert (A : at_ true t = Some (m, q)) by (unfold at_, at_statement, at_line; destruct semi; rewrite Tt; reflexivity). rewrite A. reflexivity. }
        split.
        - rewrite F_unfold. assert (A : at_ true (p ++ newline :: t) = Some (m, q)) by (unfold at_, at_statement, at_line; destruct semi; rewrite T; reflexivity).
          rewrite A. symmetry. exact Ft.
        - intros Sm bol. rewrite F_unfold. assert (A : at_ bol (semicolon :: p ++ newline :: t) = Some (m, q)).
          { unfold at_, at_statement, at_line. rewrite Sm. assert (Z : (if bol then tr (semicolon :: p ++ newline :: t) else None) = None) by (destruct bol; [apply tr_semi; assumption | reflexivity]).
            rewrite Z. cbn [after_char]. rewrite Ascii.eqb_refl. exact T. }
          rewrite A. symmetry. exact Ft. }
      destruct Goal_ as [G1 G2]. split; [rewrite G1; apply N_none; [exact N | exact I1]|]. intros Sm bol. rewrite (G2 Sm bol). symmetry. exact G1.
Qed.
End Scan.
