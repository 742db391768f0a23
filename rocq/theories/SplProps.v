(* Splitting into words, flattening, and command-line variables. *)
From Coq Require Import List Bool Lia Arith.
Import ListNotations.
From Verif Require Import SplModel SplSpec.
Open Scope list_scope.

Section Props.
Context {C : Type} (blank : C -> bool) (sp : C).
Notation words := (words blank).
Notation Splits := (Splits blank).
Notation Word := (Word blank).
Notation Blanks := (Blanks blank).

Lemma words_blanks : forall b s, Blanks b -> words [] (b ++ s) = words [] s.
Proof. induction b as [|c b IH]; intros s B; [reflexivity|]. cbn [app SplModel.words]. rewrite (B c (or_introl eq_refl)). apply IH. intros x IN. exact (B x (or_intror IN)). Qed.
Lemma words_word : forall w cur s, (forall c, In c w -> blank c = false) -> words cur (w ++ s) = words (rev w ++ cur) s.
Proof. induction w as [|c w IH]; intros cur s W; [reflexivity|]. cbn [app SplModel.words rev]. rewrite (W c (or_introl eq_refl)), IH by (intros x IN; exact (W x (or_intror IN))). rewrite <- app_assoc. reflexivity. Qed.
Lemma splits_words : forall s ws, Splits s ws -> words [] s = ws.
Proof.
  intros s ws H. induction H as [s B | b w B [NE W] | b w c r ws B [NE W] BC H IH].
  - rewrite <- (app_nil_r s), words_blanks by exact B. reflexivity.
  - rewrite words_blanks by exact B. rewrite <- (app_nil_r w) at 1. rewrite words_word by exact W. rewrite app_nil_r. cbn [SplModel.words]. rewrite rev_involutive.
    destruct (rev w) as [|x l] eqn:E; [|reflexivity]. exfalso. apply NE. rewrite <- (rev_involutive w), E. reflexivity.
  - rewrite words_blanks by exact B. rewrite words_word by exact W. rewrite app_nil_r. cbn [SplModel.words]. rewrite BC, rev_involutive, IH.
    destruct (rev w) as [|x l] eqn:E; [|reflexivity]. exfalso. apply NE. rewrite <- (rev_involutive w), E. reflexivity.
Qed.
Lemma splits_blank : forall c s ws, blank c = true -> Splits s ws -> Splits (c :: s) ws.
Proof.
  intros c s ws BC H. assert (forall b, Blanks b -> Blanks (c :: b)) as BB by (intros b B x [<- | IN]; [exact BC | exact (B x IN)]). destruct H as [s B | b w B W | b w d r ws B W BD H].
  - apply no_word, BB, B.
  - exact (last_word blank (c :: b) w (BB b B) W).
  - exact (word blank (c :: b) w d r ws (BB b B) W BD H).
Qed.
Lemma words_splits : forall s cur, (forall c, In c cur -> blank c = false) -> Splits (rev cur ++ s) (words cur s).
Proof.
  induction s as [|c s IH]; intros cur W; cbn [SplModel.words].
  - rewrite app_nil_r. destruct cur as [|x cur]; [apply no_word; intros y []|]. apply (last_word blank [] (rev (x :: cur))); [intros y []|]. split; [cbn [rev]; intros E; destruct (rev cur); discriminate E|]. intros y IN. apply W. apply in_rev. exact IN.
  - destruct (blank c) eqn:BC.
    + destruct cur as [|x cur]; [apply splits_blank; [exact BC | apply (IH []); intros y []]|]. apply (word blank [] (rev (x :: cur)) c s); [intros y [] | | exact BC | apply (IH []); intros y []].
      split; [cbn [rev]; intros E; destruct (rev cur); discriminate E|]. intros y IN. apply W. apply in_rev. exact IN.
    + assert (rev cur ++ c :: s = rev (c :: cur) ++ s) as -> by (cbn [rev]; rewrite <- app_assoc; reflexivity). apply IH. intros y [<- | IN]; [exact BC | exact (W y IN)].
Qed.

(* C91a: Split of a string is the list of its words, and of nothing else *)
Theorem C91a_split : forall s vs, Split blank (Str s) = vs <-> exists ws, Splits s ws /\ vs = map Str ws.
Proof.
  intros s vs. cbn [Split]. split; [intros <-; exists (words [] s); split; [apply (words_splits s []); intros c [] | reflexivity]|]. intros [ws [H ->]]. rewrite (splits_words s ws H). reflexivity.
Qed.
(* C91b: of a list it is the list, element by element as it is; of anything else the list of this one *)
Theorem C91b_split_others : (forall l, Split blank (Seq l) = l) /\ (forall n, Split blank (Obj n) = [Obj n]).
Proof. split; reflexivity. Qed.

(* flattening *)
Section Ind.
Variable P : value C -> Prop.
Hypothesis HS : forall s, P (Str s).
Hypothesis HO : forall n, P (Obj n).
Hypothesis HL : forall l, Forall P l -> P (Seq l).
Fixpoint value_induction (x : value C) : P x :=
  match x with Str s => HS s | Obj n => HO n | Seq l => HL l ((fix all (l : list (value C)) : Forall P l := match l with [] => Forall_nil P | y :: r => Forall_cons y (value_induction y) (all r) end) l) end.
End Ind.
Lemma do_flatten_leaves : forall x : value C, exists r, Leaves x r /\ forall a, do_flatten x a = a ++ r.
Proof.
  apply value_induction.
  - intros s. exists [Str s]. split; [apply leaf; intros l E; discriminate E | reflexivity].
  - intros n. exists [Obj n]. split; [apply leaf; intros l E; discriminate E | reflexivity].
  - intros l H. assert (exists rs, Forall2 Leaves l rs /\ forall a, fold_left (fun r i => do_flatten i r) l a = a ++ concat rs) as [rs [F E]].
    { induction H as [|x l [r [L E]] _ [rs [F E2]]]; [exists []; split; [constructor | intros a; rewrite app_nil_r; reflexivity]|]. exists (r :: rs). split; [constructor; assumption|]. intros a. cbn [fold_left concat]. rewrite E, E2, app_assoc. reflexivity. }
    exists (concat rs). split; [apply branch; exact F | exact E].
Qed.
Lemma leaves_unique : forall (x : value C) r, Leaves x r -> forall r', Leaves x r' -> r = r'.
Proof.
  intros x. pattern x. apply value_induction; clear x.
  - intros s r A r' B. inversion A; inversion B; reflexivity.
  - intros n r A r' B. inversion A; inversion B; reflexivity.
  - intros l H r A r' B. inversion A as [x N E1 E2 | l1 rs F E1 E2]; [exfalso; exact (N l eq_refl)|]. inversion B as [x N E3 E4 | l2 rs' F' E3 E4]; [exfalso; exact (N l eq_refl)|]. f_equal. clear A B E1 E2 E3 E4 r r'. clear l1 l2.
    revert rs rs' F F'. induction H as [|x l HX _ IH]; intros rs rs' F F'; inversion F; inversion F'; subst; [reflexivity|]. f_equal; [eapply HX; eassumption | apply IH; assumption].
Qed.
Lemma flatten_leaves : forall x : value C, Leaves x (flatten x).
Proof.
  intros x. destruct (do_flatten_leaves x) as [r [L E]]. assert (flatten x = r) as ->; [|exact L]. specialize (E []). destruct x; cbn [flatten do_flatten app] in *; exact E.
Qed.
(* C91c: Flatten gives exactly the values that are not sequences, from left to right, however deep; none is a sequence, and flattening again changes nothing *)
Theorem C91c_flatten : forall (x : value C) r, (flatten x = r <-> Leaves x r) /\ (forall l, ~ In (Seq l) (flatten x)) /\ flatten (Seq (flatten x)) = flatten x.
Proof.
  intros x r. assert (forall (y : value C) q, Leaves y q -> forall l, ~ In (Seq l) q) as NS.
  { intros y. pattern y. apply value_induction; clear y.
    - intros s q A l IN. inversion A; subst. destruct IN as [E | []]; discriminate E.
    - intros n q A l IN. inversion A; subst. destruct IN as [E | []]; discriminate E.
    - intros l H q A l' IN. inversion A as [y N E1 E2 | l1 rs F E1 E2]; [exact (N l eq_refl)|]. subst q l1. clear A. revert rs F IN. induction H as [|y l HY _ IH]; intros rs F IN; inversion F; subst; [destruct IN|].
      cbn [concat] in IN. apply in_app_or in IN as [IN | IN]; [eapply HY; eassumption | eapply IH; eassumption]. }
  split; [split; [intros <-; apply flatten_leaves | intros L; exact (leaves_unique x _ (flatten_leaves x) _ L)]|].
  assert (forall l, ~ In (Seq l) (flatten x)) as N by exact (NS x _ (flatten_leaves x)). split; [exact N|].
  assert (forall q : list (value C), (forall l, ~ In (Seq l) q) -> Forall2 Leaves q (map (fun y => [y]) q)) as F.
  { induction q as [|y q IH]; intros H; [constructor|]. constructor; [apply leaf; intros l ->; exact (H l (or_introl eq_refl)) | apply IH; intros l IN; exact (H l (or_intror IN))]. }
  assert (forall q : list (value C), concat (map (fun y => [y]) q) = q) as CM by (induction q as [|y q IH]; [reflexivity | cbn; rewrite IH; reflexivity]).
  apply (leaves_unique (Seq (flatten x)) _ (flatten_leaves _)). rewrite <- (CM (flatten x)) at 2. apply branch, F, N.
Qed.

(* C91d: what is added to a command-line variable comes after what is there, or before it, as words if it is a string and element by element if it is a list; nothing already there is split *)
Theorem C91d_add : forall d s ws l, Splits s ws ->
  clvar blank (Some (Str s)) = map Str ws /\ add blank d (Str s) = d ++ map Str ws /\ radd blank d (Str s) = map Str ws ++ d /\ add blank d (Seq l) = d ++ l /\ radd blank d (Seq l) = l ++ d.
Proof. intros d s ws l H. unfold add, radd, clvar. cbn [Split]. rewrite (splits_words s ws H). repeat split; reflexivity. Qed.

(* C91e: its text, split again, is the variable exactly if all elements are words *)
Theorem C91e_text : blank sp = true -> forall ss, clvar blank (Some (Str (text sp ss))) = map Str ss <-> Forall Word ss.
Proof.
  intros BS ss. cbn [clvar Split]. split.
  - intros E. assert (words [] (text sp ss) = ss) as EW by (revert E; generalize (words [] (text sp ss)); induction ss as [|x ss IH]; intros [|y q] E; try discriminate E; [reflexivity|]; cbn [map] in E; injection E as -> E; f_equal; exact (IH _ E)).
    assert (forall s ws, Splits s ws -> Forall Word ws) as A by (intros s ws H; induction H; [constructor | constructor; [assumption | constructor] | constructor; assumption]).
    rewrite <- EW. apply (A (text sp ss)). apply (words_splits (text sp ss) []). intros c [].
  - intros H. f_equal. apply splits_words. induction H as [|w ss W H IH]; [apply no_word; intros c []|]. destruct ss as [|w' ss]; [exact (last_word blank [] w (fun c F => match F with end) W)|].
    exact (word blank [] w sp _ _ (fun c F => match F with end) W BS IH).
Qed.
End Props.
