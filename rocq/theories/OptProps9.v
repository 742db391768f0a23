(* C61e: which calls of SetOption fail, and that those which fail change nothing. *)
From Coq Require Import Ascii String List Bool Arith Lia.
From Verif Require Import NameModel OptModel OptSpec OptProps OptProps2 OptProps3 OptProps4 OptProps5 OptProps6.
Import ListNotations.
Open Scope list_scope.

Theorem C61e_set_errors : forall B defs0 settable0 kinds h argv its, project B defs0 settable0 kinds h -> line B (added h) argv its -> one_form its -> accepted defs0 h its ->
  exists p0 rest, start B defs0 settable0 argv = inl (p0, rest) /\ forall h1 n v h2, h = h1 ++ OSet n v :: h2 -> exists p l p2 r,
    steps kinds p0 h1 = inl (p, l) /\ steps kinds p0 (h1 ++ [OSet n v]) = inl (p2, l ++ [r]) /\
    (set_fails settable0 kinds h1 n v -> r = RError /\ p2 = p) /\ (~ set_fails settable0 kinds h1 n v -> r = RDone).
Proof.
  intros B defs0 settable0 kinds h argv its PR LN ONE ACC. destruct (first B defs0 settable0 kinds h argv its PR LN ACC) as (tl & vs1 & ST & AP & SG & TL).
  eexists _, _. split; [exact ST|]. intros h1 n v h2 Eh. destruct (runs B defs0 settable0 kinds h argv its PR LN ONE ACC tl vs1 AP SG TL h1 _ Eh) as (p & l & E & I_).
  destruct (set_option kinds p n v) as [p2 r] eqn:Es. exists p, l, p2, r. split; [exact E|]. split.
  - clear - E Es. revert E. generalize {| table := B; settable := settable0; vals := vs1; largs := map fst tl |}. revert l.
    induction h1 as [|c2 hs IH]; intros l p0 E.
    + cbn in E. injection E as -> <-. cbn [app OptModel.steps step]. rewrite Es. reflexivity.
    + cbn [app OptModel.steps] in *. destruct (step kinds p0 c2) as [[p1 r1]|e]; [|discriminate]. destruct (steps kinds p1 hs) as [[p3 l3]|e] eqn:E2; [|discriminate]. injection E as -> <-. rewrite (IH l3 p1 E2). reflexivity.
  - assert (Im : In n (settable p) <-> may_set settable0 h1 n) by (rewrite (i_settable _ _ _ _ _ _ _ _ _ I_ n); apply may_set_rev).
    assert (Ic := i_scr _ _ _ _ _ _ _ _ _ I_ n).
    unfold set_option in Es. destruct (mem n (settable p)) eqn:Em; cbn [negb] in Es.
    + assert (M : may_set settable0 h1 n) by (apply Im, mem_In; exact Em).
      destruct (kinds n) as [[f|d f| |d]|] eqn:Ek.
      * destruct (f v) as [v2|] eqn:Ef; injection Es as <- <-.
        -- split; [|reflexivity]. intros [X|[(g & [X|(d & X)] & Y)|(X & _)]]; try contradiction; try congruence.
        -- split; [auto|]. intros X. exfalso. apply X. right. left. exists f. auto.
      * destruct (f v) as [v2|] eqn:Ef; injection Es as <- <-.
        -- split; [|reflexivity]. intros [X|[(g & [X|(d2 & X)] & Y)|(X & _)]]; try contradiction; try congruence.
        -- split; [auto|]. intros X. exfalso. apply X. right. left. exists f. split; [right; exists d; exact Ek | exact Ef].
      * assert (OK : r = RDone -> (scr (vals p) n = None \/ exists l, scr (vals p) n = Some (VList l)) -> ((exists l, v = VList l) \/ exists w, v = VStr w) ->
          (set_fails settable0 kinds h1 n v -> r = RError /\ p2 = p) /\ (~ set_fails settable0 kinds h1 n v -> r = RDone)).
        { intros -> X1 X2. split; [|reflexivity]. intros [X|[(g & [X|(d & X)] & _)|(_ & [(Y1 & Y2)|(v0 & Y1 & Y2)])]]; try contradiction; try congruence; exfalso.
          - destruct X2 as [(l2 & ->)|(w & ->)]; [apply (Y1 l2) | apply (Y2 w)]; reflexivity.
          - assert (Z := C61_script_one _ _ _ _ _ Y1 _ Ic). destruct X1 as [X1|(l2 & X1)]; rewrite X1 in Z; [discriminate|]. injection Z as ->. apply (Y2 l2). reflexivity. }
        assert (BAD : p2 = p -> r = RError -> (exists v0, scr (vals p) n = Some v0 /\ forall l, v0 <> VList l) \/ not_a_list v -> (set_fails settable0 kinds h1 n v -> r = RError /\ p2 = p) /\ (~ set_fails settable0 kinds h1 n v -> r = RDone)).
        { intros -> -> X. split; [auto|]. intros N. exfalso. apply N. right. right. split; [exact Ek|]. destruct X as [(v0 & X1 & X2)|X]; [right | left; exact X]. exists v0. split; [rewrite <- X1; exact Ic | exact X2]. }
        destruct (scr (vals p) n) as [[ |b|k|w|l2]|] eqn:Esc; destruct v as [ |b2|k2|w2|l3]; injection Es as <- <-;
          first [ apply BAD; [reflexivity | reflexivity | left; eexists; split; [reflexivity | intros l4 X; discriminate]]
                | apply BAD; [reflexivity | reflexivity | right; split; intros l4 X; discriminate]
                | eapply OK; [reflexivity | first [left; reflexivity | right; eexists; reflexivity] | first [left; eexists; reflexivity | right; eexists; reflexivity]]].
      * injection Es as <- <-. split; [|reflexivity]. intros [X|[(g & [X|(d2 & X)] & Y)|(X & _)]]; try contradiction; congruence.
      * injection Es as <- <-. split; [|reflexivity]. intros [X|[(g & [X|(d2 & X)] & Y)|(X & _)]]; try contradiction; congruence.
    + injection Es as <- <-. split; [auto|]. intros X. exfalso. apply X. left. intros M. apply Im in M. apply mem_In in M. congruence.
Qed.
Print Assumptions C61e_set_errors.
(* with the project of C61_case: SetOption of num_jobs, the first call, does not fail; with 0 it would, and so would SetOption of keep_going *)
Theorem C61e_case : (exists h2, h1 = OSet (lit "num_jobs") (VNum 4) :: h2) /\ ~ set_fails S1 kinds1 [] (lit "num_jobs") (VNum 4) /\
  set_fails S1 kinds1 [] (lit "num_jobs") (VNum 0) /\ set_fails S1 kinds1 [] (lit "keep_going") (VBool true) /\
  exists p0 rest, start B1 D1 S1 argv1 = inl (p0, rest) /\ (exists p, steps kinds1 p0 [OSet (lit "num_jobs") (VNum 4)] = inl (p, [RDone])) /\
  steps kinds1 p0 [OSet (lit "num_jobs") (VNum 0)] = inl (p0, [RError]) /\ steps kinds1 p0 [OSet (lit "keep_going") (VBool true)] = inl (p0, [RError]).
Proof.
  split; [eexists; reflexivity|]. split.
  { intros [X|[(f & [X|(d & X)] & Y)|(X & _)]]; try discriminate X; [apply X; left; inl|]. vm_compute in X. injection X as <-. discriminate Y. }
  split; [right; left; exists positive; split; [left; reflexivity | reflexivity]|].
  split. { left. intros [X|(o & [] & _)]. cbn in X. repeat (destruct X as [X|X]; [discriminate X|]). exact X. }
  eexists _, _. split; [vm_compute; reflexivity|]. split; [eexists; vm_compute; reflexivity|]. split; vm_compute; reflexivity.
Qed.
Print Assumptions C61e_case.
