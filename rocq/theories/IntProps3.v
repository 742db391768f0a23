(* C65 continued: clearing comes to an end; a project that meets the hypotheses; what happens when they do not hold *)
From Coq Require Import List Bool Arith Lia.
Import ListNotations.
From Verif Require Import IntModel IntSpec IntProps IntProps2.

(* ---- the walk over the dependencies ends, whatever their graph ---- *)
Section Walk.
Variables (P : project) (s : state) (U : list node).
Hypothesis KU : forall n, In n U -> incl (kids P s n) U.
Definition away (l : list node) : list node := filter (fun x => negb (mem x l)) U.
Lemma filter_less : forall (A : Type) (p q : A -> bool) (l : list A), (forall x, In x l -> p x = true -> q x = true) -> length (filter p l) <= length (filter q l).
Proof.
  intros A p q l. induction l as [|a l IH]; intros Hpq; [apply Nat.le_refl|]. assert (Hl : length (filter p l) <= length (filter q l)) by (apply IH; intros x Hx; apply Hpq; right; exact Hx).
  cbn [filter]. destruct (p a) eqn:E; [rewrite (Hpq a (or_introl eq_refl) E); cbn [length]; lia | destruct (q a); cbn [length]; lia].
Qed.
Lemma filter_strict : forall (A : Type) (p q : A -> bool) (l : list A) a, (forall x, In x l -> p x = true -> q x = true) -> In a l -> p a = false -> q a = true -> length (filter p l) < length (filter q l).
Proof.
  intros A p q l. induction l as [|b l IH]; intros a Hpq Ha Hp Hq; [destruct Ha|]. cbn [filter]. destruct Ha as [<- |Ha].
  - rewrite Hp, Hq. cbn [length]. assert (length (filter p l) <= length (filter q l)) by (apply filter_less; intros x Hx; apply Hpq; right; exact Hx). lia.
  - assert (length (filter p l) < length (filter q l)) by (apply (IH a); auto; intros x Hx; apply Hpq; right; exact Hx).
    destruct (p b) eqn:E; [rewrite (Hpq b (or_introl eq_refl) E); cbn [length]; lia | destruct (q b); cbn [length]; lia].
Qed.
Lemma walk_all : forall m n stk w, length (away (n :: map fst stk)) <= m -> incl w U -> (forall seen, exists r, walk P s stk seen r) -> forall seen, exists r, walk P s ((n, w) :: stk) seen r.
Proof.
  induction m as [m IHm] using lt_wf_ind. intros n stk w. induction w as [|k w IHw]; intros Hm Hw Q seen.
  - destruct (Q (n :: seen)) as [r R]. exists r. apply walk_up, R.
  - assert (Qw : forall seen, exists r, walk P s ((n, w) :: stk) seen r) by (apply IHw; [exact Hm | intros x Hx; apply Hw; right; exact Hx | exact Q]).
    assert (Hk : In k U) by (apply Hw; left; reflexivity).
    destruct (mem k (n :: map fst stk)) eqn:E.
    + destruct (Qw seen) as [r R]. exists r. apply walk_cycle; assumption.
    + assert (L : length (away (k :: n :: map fst stk)) < length (away (n :: map fst stk))).
      { unfold away. apply (filter_strict _ _ _ U k); [|exact Hk | | rewrite E; reflexivity].
        - intros x _ Hx. apply negb_true_iff, mem_false in Hx. apply negb_true_iff, mem_false. intros X. apply Hx. right. exact X.
        - apply negb_false_iff, mem_In. left. reflexivity. }
      destruct (IHm (length (away (k :: n :: map fst stk))) ltac:(lia) k ((n, w) :: stk) (unseen P s seen k) (Nat.le_refl _)) with (seen := seen) as [r R]; [|exact Qw|exists r; apply walk_down; assumption].
      intros x Hx. apply filter_In in Hx. apply (KU k Hk), Hx.
Qed.
Lemma walks_all : forall ts seen, incl ts U -> exists r, walks P s ts seen r.
Proof.
  induction ts as [|t ts IH]; intros seen Hts; [exists seen; constructor|].
  destruct (walk_all _ t [] (unseen P s seen t) (Nat.le_refl _)) with (seen := seen) as [r1 R1].
  - intros x Hx. apply filter_In in Hx. apply (KU t (Hts t (or_introl eq_refl))), Hx.
  - intros sn. exists sn. constructor.
  - destruct (IH r1) as [r R]; [intros x Hx; apply Hts; right; exact Hx | exists r; apply (walks_cons P s t ts seen r1 r R1 R)].
Qed.
End Walk.
(* after every build command the next one can be given: finding what to clear ends, even if the dependencies form a cycle *)
Theorem C65c_clears : forall P s U ts, (forall n, In n U -> incl (kids P s n) U) -> incl ts U -> exists seen, walks P s ts [] seen.
Proof. intros P s U ts KU Hts. apply (walks_all P s U KU ts [] Hts). Qed.
Print Assumptions C65c_clears.
