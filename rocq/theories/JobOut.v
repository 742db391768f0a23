(* C53h, C10g: the results recorded are what the calls of execute() gave, for both parallel schedulers. *)
From Coq Require Import List Arith ZArith Bool.
Import ListNotations.
From Verif Require Import TMModel TMSpec JobModel JobSpec JobProofs JobProps JobInt LegacyModel LegacySpec LegacyProps.

(* Specification.  The calls of execute() that came to an end during a run, oldest first, with what happened: the action of a worker inside execute() is the end
   of that call, and its outcome says whether it returned (OOk) or raised an exception. *)
Fixpoint outcomes (c : cfg) (n : nat) (x : np) (ls : list label) : list (task * outcome) :=
  match ls with
  | [] => []
  | l :: r =>
    match l with Act i _ _ out _ => match nth_error (p_ths x) i with Some (Exec t) => [(t, out)] | _ => [] end | _ => [] end
    ++ match np_step c n x l with Some y => outcomes c n y r | None => [] end
  end.
Fixpoint l_outcomes (c : cfg) (n : nat) (x : lp) (ls : list llabel) : list (task * outcome) :=
  match ls with
  | [] => []
  | l :: r =>
    match l with Work i out => match nth_error (l_ths x) i with Some (WExec t) => [(t, out)] | _ => [] end | _ => [] end
    ++ match lp_step c n x l with Some y => l_outcomes c n y r | None => [] end
  end.
Definition returned_normally (r : task * outcome) : task * bool := (fst r, match snd r with OOk => true | _ => false end).

(* C53h.  Together with C53c: the taskmaster is told that a task was built exactly if its execute() returned normally. *)
Theorem C53h_outcomes_recorded : forall c n ls x, np_run c n (np_init c) ls = Some x -> p_done x = rev (map returned_normally (outcomes c n (np_init c) ls)).
Proof.
  intros c n ls x. assert (G : forall ls x y, np_run c n x ls = Some y -> p_done y = rev (map returned_normally (outcomes c n x ls)) ++ p_done x).
  { clear. induction ls as [|l ls IH]; intros x y H; cbn [np_run] in H; [injection H as <-; reflexivity|].
    destruct (np_step c n x l) as [z|] eqn:E; [|discriminate]. specialize (IH z y H). cbn [outcomes]. rewrite E, map_app, rev_app_distr, <- app_assoc, IH. f_equal. clear IH H y ls.
    destruct l as [i fu e out w| |e]; cbn [np_step] in E.
    - destruct (nth_error (p_ths x) i) as [p|]; [|discriminate]. destruct p as [b'| | | |q| |t|t|t ok|]; try discriminate; cbn [map rev app].
      + destruct (locked (p_ths x)); [discriminate|]. injection E as <-. destruct (match p_state x with Stalled_ => _ | st => st end); reflexivity.
      + destruct (locked (p_ths x)); [discriminate|]. injection E as <-. destruct (p_state x); reflexivity.
      + injection E as <-. reflexivity.
      + destruct q as [|[t ok] q]; [injection E as <-; reflexivity|]. cbn zeta in E. destruct (step _ _ _ _) as [s|]; [|discriminate]. injection E as <-. reflexivity.
      + destruct (next_task fu c e (p_tm x)) as [[s found]|]; [|discriminate].
        destruct found; [destruct (_ <? _); [destruct (running s) as [|t r]; [discriminate|]|]|destruct (_ =? _)%Z]; injection E as <-; reflexivity.
      + destruct (p_int x); injection E as <-; reflexivity.
      + cbn zeta in E. injection E as <-. reflexivity.
      + injection E as <-. reflexivity.
    - destruct (nth_error _ _) as [[]|]; try discriminate. injection E as <-. reflexivity.
    - cbn [step] in E. injection E as <-. reflexivity. }
  intros H. rewrite (G _ _ _ H). apply app_nil_r.
Qed.
Print Assumptions C53h_outcomes_recorded.

Theorem C10g_legacy_outcomes : forall c n ls x, lp_run c n (lp_init c n) ls = Some x -> l_done x = rev (map returned_normally (l_outcomes c n (lp_init c n) ls)).
Proof.
  intros c n ls x. assert (G : forall ls x y, lp_run c n x ls = Some y -> l_done y = rev (map returned_normally (l_outcomes c n x ls)) ++ l_done x).
  { clear. induction ls as [|l ls IH]; intros x y H; cbn [lp_run] in H; [injection H as <-; reflexivity|].
    destruct (lp_step c n x l) as [z|] eqn:E; [|discriminate]. specialize (IH z y H). cbn [l_outcomes]. rewrite E, map_app, rev_app_distr, <- app_assoc, IH. f_equal. clear IH H y ls.
    destruct l as [fu e out|i out|e]; cbn [lp_step] in E.
    - cbn [map rev app]. unfold main_step in E. destruct (l_main x) as [| |t ok| |k|k|].
      + destruct (_ <? _); [|injection E as <-; reflexivity]. destruct (next_task fu c e (l_tm x)) as [[s found]|]; [|discriminate].
        destruct found; [destruct (_ <? _); [destruct (running s) as [|t r]; [discriminate|]|]|]; injection E as <-; reflexivity.
      + destruct (l_res x) as [|[]]; [discriminate|]. injection E as <-. reflexivity.
      + cbn zeta in E. destruct (step _ _ _ _) as [s|]; [|discriminate]. injection E as <-. reflexivity.
      + injection E as <-. reflexivity.
      + destruct k; injection E as <-; reflexivity.
      + injection E as <-. reflexivity.
      + discriminate.
    - unfold worker_step in E. destruct (nth_error (l_ths x) i) as [w|]; [|discriminate]. destruct w as [|t|t|t ok|]; try discriminate; cbn [map rev app].
      + destruct (l_req x) as [|[t|] q]; [discriminate| |]; injection E as <-; reflexivity.
      + destruct (l_int x); injection E as <-; reflexivity.
      + cbn zeta in E. injection E as <-. reflexivity.
      + injection E as <-. reflexivity.
    - cbn [step] in E. injection E as <-. reflexivity. }
  intros H. rewrite (G _ _ _ H). apply app_nil_r.
Qed.
Print Assumptions C10g_legacy_outcomes.

(* in the runs of JobProps.C10_witness and LegacyProps.C10f_witness *)
Example C53h_witness : outcomes jc 2 (np_init jc) jl2 = [([2], OOk); ([1], OOk); ([0], OOk)] /\ l_outcomes jc 2 (lp_init jc 2) ll2 = [([1], OOk); ([2], OOk); ([0], OOk)].
Proof. vm_compute. auto. Qed.
