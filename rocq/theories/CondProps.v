(* C45: the condition of an #if line holds exactly when it does in C.  Specification first. *)
From Coq Require Import List ZArith Bool Lia.
From Verif Require Import CondModel.
Import ListNotations.
Local Open Scope Z_scope.

(* ---- specification: C (ISO C 6.10.1, 6.5): identifiers that are no macros are 0, the logical operators give 0 or 1 and look at their
   second operand only if needed, quotients are truncated.  None: the expression is in error. ---- *)
Definition c_bin (o : binop) (a b : Z) : option Z :=
  let bool_z (x : bool) := if x then 1 else 0 in
  match o with
  | Add => Some (a + b) | Sub => Some (a - b) | Mul => Some (a * b)
  | Div => if b =? 0 then None else Some (Z.quot a b)
  | Lt => Some (bool_z (a <? b)) | Le => Some (bool_z (a <=? b)) | Gt => Some (bool_z (b <? a)) | Ge => Some (bool_z (b <=? a))
  | Eq => Some (bool_z (a =? b)) | Ne => Some (bool_z (negb (a =? b)))
  end.
Fixpoint c_eval (m : macros) (e : cexpr) : option Z :=
  match e with
  | Num z => Some z
  | Id x => Some (match m x with Some z => z | None => 0 end)
  | Defined x => Some (match m x with Some _ => 1 | None => 0 end)
  | Not e => match c_eval m e with Some v => Some (if v =? 0 then 1 else 0) | None => None end
  | And a b => match c_eval m a with
               | Some v => if v =? 0 then Some 0 else match c_eval m b with Some w => Some (if w =? 0 then 0 else 1) | None => None end
               | None => None
               end
  | Or a b => match c_eval m a with
              | Some v => if v =? 0 then match c_eval m b with Some w => Some (if w =? 0 then 0 else 1) | None => None end else Some 1
              | None => None
              end
  | Cond a b c => match c_eval m a with Some v => if v =? 0 then c_eval m c else c_eval m b | None => None end
  | Bin o a b => match c_eval m a, c_eval m b with Some v, Some w => c_bin o v w | _, _ => None end
  end.
(* no identifier that is not a macro is looked at *)
Fixpoint looks_at_macros_only (m : macros) (e : cexpr) : bool :=
  match e with
  | Num _ | Defined _ => true
  | Id x => match m x with Some _ => true | None => false end
  | Not e => looks_at_macros_only m e
  | And a b => looks_at_macros_only m a && (match c_eval m a with Some v => if v =? 0 then true else looks_at_macros_only m b | None => true end)
  | Or a b => looks_at_macros_only m a && (match c_eval m a with Some v => if v =? 0 then looks_at_macros_only m b else true | None => true end)
  | Cond a b c => looks_at_macros_only m a
                  && (match c_eval m a with Some v => if v =? 0 then looks_at_macros_only m c else looks_at_macros_only m b | None => true end)
  | Bin _ a b => looks_at_macros_only m a && looks_at_macros_only m b
  end.
(* arithmetic without logical operators and quotients; comparisons and `defined' allowed, their values are 0 and 1 in both languages *)
Fixpoint arithmetic (e : cexpr) : bool :=
  match e with
  | Num _ | Id _ | Defined _ => true
  | Not e => arithmetic e
  | Bin o a b => negb (match o with Div => true | _ => false end) && arithmetic a && arithmetic b
  | _ => false
  end.
(* a logical combination of those *)
Fixpoint logical (e : cexpr) : bool :=
  match e with
  | Not e => logical e
  | And a b | Or a b => logical a && logical b
  | _ => arithmetic e
  end.

(* ---- proofs ---- *)
Lemma arith_same m e : arithmetic e = true -> looks_at_macros_only m e = true ->
  exists v, c_eval m e = Some v /\ py_eval m (cpp_to_python e) = PVal (PNum v).
Proof.
  induction e as [z|x|x|e IH|a IHa b IHb|a IHa b IHb|a IHa b IHb c IHc|o a IHa b IHb]; intros A L; cbn [arithmetic] in A; try discriminate.
  - exists z. split; reflexivity.
  - cbn [looks_at_macros_only] in L. cbn [c_eval cpp_to_python py_eval]. destruct (m x) as [z|]; [|discriminate]. exists z. split; reflexivity.
  - cbn [c_eval cpp_to_python py_eval]. destruct (m x); eexists; split; reflexivity.
  - destruct (IH A L) as [v [C P]]. cbn [c_eval cpp_to_python py_eval]. rewrite C, P. cbn [truth]. rewrite negb_involutive.
    eexists. split; [reflexivity|]. unfold pbool. reflexivity.
  - apply andb_true_iff in A. destruct A as [A AB]. apply andb_true_iff in A. destruct A as [AO AA].
    cbn [looks_at_macros_only] in L. apply andb_true_iff in L. destruct L as [LA LB].
    destruct (IHa AA LA) as [v [C1 P1]]. destruct (IHb AB LB) as [w [C2 P2]].
    cbn [c_eval cpp_to_python py_eval]. rewrite C1, P1, C2, P2.
    destruct o; cbn [c_bin pbin fn fd mkfrac]; rewrite ?Z.mul_1_r; try (eexists; split; reflexivity). discriminate AO.
Qed.
Lemma logical_same m e : logical e = true -> looks_at_macros_only m e = true ->
  exists v w, c_eval m e = Some v /\ py_eval m (cpp_to_python e) = PVal w /\ truth w = negb (v =? 0).
Proof.
  assert (AR : forall e, arithmetic e = true -> looks_at_macros_only m e = true ->
    exists v w, c_eval m e = Some v /\ py_eval m (cpp_to_python e) = PVal w /\ truth w = negb (v =? 0)).
  { intros f A L. destruct (arith_same m f A L) as [v [C P]]. exists v, (PNum v). repeat split; assumption. }
  induction e as [z|x|x|e IH|a IHa b IHb|a IHa b IHb|a IHa b IHb c IHc|o a IHa b IHb]; intros G L; cbn [logical] in G; try (apply AR; assumption).
  - destruct (IH G L) as [v [w [C [P T]]]]. cbn [c_eval cpp_to_python py_eval]. rewrite C, P.
    eexists _, _. split; [reflexivity|]. split; [reflexivity|]. rewrite T, negb_involutive. unfold pbool. cbn [truth]. destruct (v =? 0); reflexivity.
  - apply andb_true_iff in G. destruct G as [GA GB]. cbn [looks_at_macros_only] in L. apply andb_true_iff in L. destruct L as [LA LB].
    destruct (IHa GA LA) as [v [w [C [P T]]]]. cbn [c_eval cpp_to_python py_eval]. rewrite C, P, T. rewrite C in LB.
    destruct (v =? 0) eqn:EV.
    + eexists _, _. split; [reflexivity|]. split; [reflexivity|]. rewrite T. reflexivity.
    + destruct (IHb GB LB) as [v' [w' [C' [P' T']]]]. rewrite C', P'. cbn [negb].
      eexists _, _. split; [reflexivity|]. split; [reflexivity|]. rewrite T'. destruct (v' =? 0); reflexivity.
  - apply andb_true_iff in G. destruct G as [GA GB]. cbn [looks_at_macros_only] in L. apply andb_true_iff in L. destruct L as [LA LB].
    destruct (IHa GA LA) as [v [w [C [P T]]]]. cbn [c_eval cpp_to_python py_eval]. rewrite C, P, T. rewrite C in LB.
    destruct (v =? 0) eqn:EV; cbn [negb].
    + destruct (IHb GB LB) as [v' [w' [C' [P' T']]]]. rewrite C', P'.
      eexists _, _. split; [reflexivity|]. split; [reflexivity|]. rewrite T'. destruct (v' =? 0); reflexivity.
    + eexists _, _. split; [reflexivity|]. split; [reflexivity|]. rewrite T. reflexivity.
Qed.

Theorem C45_conditions : forall m e, logical e = true -> looks_at_macros_only m e = true ->
  exists v, c_eval m e = Some v /\ eval_expression m e = Some (negb (v =? 0)).
Proof.
  intros m e G L. destruct (logical_same m e G L) as [v [w [C [P T]]]]. exists v. split; [exact C|]. unfold eval_expression. rewrite P, T. reflexivity.
Qed.
(* conditional expressions whose middle operand is not false, with logical operands *)
Theorem C45b_conditional : forall m a b c, logical a = true -> logical b = true -> logical c = true ->
  looks_at_macros_only m (Cond a b c) = true -> (forall va vb, c_eval m a = Some va -> va <> 0 -> c_eval m b = Some vb -> vb <> 0) ->
  exists v, c_eval m (Cond a b c) = Some v /\ eval_expression m (Cond a b c) = Some (negb (v =? 0)).
Proof.
  intros m a b c GA GB GC L NZ. cbn [looks_at_macros_only] in L. apply andb_true_iff in L. destruct L as [LA LB].
  destruct (logical_same m a GA LA) as [v [w [C [P T]]]]. rewrite C in LB. unfold eval_expression. cbn [c_eval cpp_to_python py_eval].
  rewrite C, P, T. destruct (v =? 0) eqn:EV; cbn [negb].
  - rewrite T. cbn [negb]. destruct (logical_same m c GC LB) as [v' [w' [C' [P' T']]]]. rewrite C', P', T'. eexists. split; reflexivity.
  - destruct (logical_same m b GB LB) as [v' [w' [C' [P' T']]]].
    assert (N : v' <> 0) by (apply (NZ v v'); [exact C | apply Z.eqb_neq; exact EV | exact C']).
    apply Z.eqb_neq in N. rewrite C', P', T', N. cbn [negb]. rewrite T', N. eexists. rewrite N. split; reflexivity.
Qed.
(* ---- where it fails ---- *)
Definition nomacros : macros := fun _ => None.
(* !UNDEFINED holds in C *)
Theorem C45_undefined_refuted : c_eval nomacros (Not (Id 0)) = Some 1 /\ eval_expression nomacros (Not (Id 0)) = Some false.
Proof. split; reflexivity. Qed.
(* 1 ? 0 : 1 is 0 in C *)
Theorem C45_conditional_refuted : c_eval nomacros (Cond (Num 1) (Num 0) (Num 1)) = Some 0 /\ eval_expression nomacros (Cond (Num 1) (Num 0) (Num 1)) = Some true.
Proof. split; reflexivity. Qed.
(* 1 / 2 is 0 in C *)
Theorem C45_quotient_refuted : c_eval nomacros (Bin Div (Num 1) (Num 2)) = Some 0 /\ eval_expression nomacros (Bin Div (Num 1) (Num 2)) = Some true.
Proof. split; reflexivity. Qed.
(* (2 && 3) == 1 holds in C *)
Theorem C45_logical_value_refuted :
  c_eval nomacros (Bin Eq (And (Num 2) (Num 3)) (Num 1)) = Some 1 /\ eval_expression nomacros (Bin Eq (And (Num 2) (Num 3)) (Num 1)) = Some false.
Proof. split; reflexivity. Qed.
(* and a division by zero gets out of the scanner *)
Theorem C45_zero_division_refuted : eval_expression nomacros (Bin Div (Num 1) (Num 0)) = None.
Proof. reflexivity. Qed.
Example C45_witness :
  let m x := match x with 1%nat => Some 5 | _ => None end in
  let e := And (And (Defined 1) (Not (Defined 2))) (Or (Bin Ge (Id 1) (Num 3)) (Id 9)) in
  logical e = true /\ looks_at_macros_only m e = true /\ eval_expression m e = Some true.
Proof. repeat split. Qed.
Print Assumptions C45_conditions.
Print Assumptions C45b_conditional.
