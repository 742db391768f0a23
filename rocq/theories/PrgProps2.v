(* Progress(): lists of strings, and cases. *)
From Coq Require Import Ascii String List Bool Arith Lia.
Import ListNotations.
From Verif Require Import TxtModel TxtSpec TxtProps PrgModel PrgSpec PrgProps.
Open Scope list_scope.
Open Scope nat_scope.

Lemma mod_eq_divide : forall a b m, m <> 0 -> a <= b -> a mod m = b mod m -> Nat.divide m (b - a).
Proof.
  intros a b m NZ LE E. pose proof (Nat.div_mod a m NZ) as DA. pose proof (Nat.div_mod b m NZ) as DB. exists (b / m - a / m). rewrite E in DA. rewrite Nat.mul_sub_distr_r. lia.
Qed.
(* the positions i, 2i, ... of a list of m strings *)
Lemma rotation_all : forall i m k0, m <> 0 -> (forall j, j < m -> exists k, k0 <= k < k0 + m /\ (S k * i) mod m = j) <-> Nat.gcd i m = 1.
Proof.
  intros i m k0 NZ. split.
  - intros H. destruct (Nat.eq_dec m 1) as [-> | N1]; [apply Nat.gcd_1_r|]. destruct (H 1) as [k [_ E]]; [lia|]. apply Nat.divide_1_r.
    pose proof (Nat.div_mod (S k * i) m NZ) as D. rewrite E in D.
    destruct (Nat.gcd_divide_l i m) as [x X], (Nat.gcd_divide_r i m) as [y Y]. set (g := Nat.gcd i m) in *.
    assert (Nat.divide g (m * (S k * i / m))) as D1 by (exists (y * (S k * i / m)); rewrite Y at 1; ring).
    assert (Nat.divide g (m * (S k * i / m) + 1)) as D2 by (rewrite <- D; exists (S k * x); rewrite X at 1; ring).
    apply (Nat.divide_add_cancel_r g (m * (S k * i / m)) 1); assumption.
  - intros G j LT. set (f := fun k => (S k * i) mod m).
    assert (NoDup (map f (seq k0 m))) as ND.
    { assert (forall a b, k0 <= a -> b < k0 + m -> a < b -> f a <> f b) as INJ.
      { intros a b LA LB AB E. unfold f in E. assert (S a * i <= S b * i) as LE by (apply Nat.mul_le_mono_r; lia). pose proof (mod_eq_divide _ _ m NZ LE E) as DV.
        replace (S b * i - S a * i) with (i * (b - a)) in DV by nia. apply Nat.gauss in DV; [|rewrite Nat.gcd_comm; exact G]. destruct DV as [q Q]. destruct q as [|q]; [lia|]. nia. }
      clear - INJ. assert (forall n s, k0 <= s -> s + n <= k0 + m -> NoDup (map f (seq s n))) as ALL.
      { induction n as [|n IH]; intros s LS LE; [constructor|]. cbn [seq map]. constructor; [|apply IH; lia]. intros IN. apply in_map_iff in IN as [b [E IB]]. apply in_seq in IB. apply (INJ s b); first [lia | symmetry; exact E | exact E]. }
      apply ALL; lia. }
    assert (incl (seq 0 m) (map f (seq k0 m))) as IC.
    { apply NoDup_length_incl; [exact ND | rewrite map_length, !seq_length; lia|]. intros x IN. apply in_map_iff in IN as [k [<- _]]. apply in_seq. unfold f. pose proof (Nat.mod_upper_bound (S k * i) m NZ). lia. }
    assert (In j (map f (seq k0 m))) as IN by (apply IC, in_seq; lia). apply in_map_iff in IN as [k [E IK]]. apply in_seq in IK. exists k. split; [lia | exact E].
Qed.
(* C88c: of a list of strings the k-th that is shown is the one at position k times the interval, counted round the list (from 0).  All are shown, in every stretch as long as the list, exactly if the interval and the
   number of strings have no common divisor; they come in the order given exactly if the interval is one more than a multiple of their number *)
Theorem C88c_rotation : forall (node : Type) (str : node -> text) l i ns, i <> 0 -> l <> [] ->
  (forall k, k < length ns / i -> exists t, nth_error l ((S k * i) mod length l) = Some t /\ nth_error (log (run str (Strings l) i false ns)) k = Some (Wrote t)) /\
  (forall k0, (forall j, j < length l -> exists k, k0 <= k < k0 + length l /\ (S k * i) mod length l = j) <-> Nat.gcd i (length l) = 1) /\
  ((forall k, (S (S k) * i) mod length l = ((S k * i) mod length l + 1) mod length l) <-> i mod length l = 1 mod length l).
Proof.
  intros node str l i ns NZ NE. assert (length l <> 0) as LZ by (destruct l; [congruence | discriminate]). split; [|split].
  - intros k LT. assert (Fine (Strings l)) as F by (intros [= E]; contradiction). destruct (C88a_interval str (Strings l) i false ns NZ F (or_intror eq_refl)) as [_ H].
    destruct (H k LT) as [n [e [_ [E SH]]]]. inversion SH as [|l' t ET EQ1 EQ2|]; subst. exists t. split; [exact ET | exact E].
  - intros k0. apply rotation_all. exact LZ.
  - split.
    + intros H. specialize (H (length l - 1)). replace (S (length l - 1)) with (length l) in H by lia. rewrite (Nat.mul_comm (length l) i), Nat.mod_mul in H by exact LZ. cbn [Nat.add] in H.
      rewrite <- H. replace (S (length l) * i) with (i + i * length l) by nia. symmetry. apply Nat.mod_add. exact LZ.
    + intros E k. replace (S (S k) * i) with (S k * i + i) by lia. rewrite Nat.add_mod by exact LZ. rewrite E. symmetry. rewrite Nat.add_mod by exact LZ. rewrite Nat.mod_mod by exact LZ. reflexivity.
Qed.

(* ---- cases ---- *)
Definition lit (s : string) : text := list_ascii_of_string s.
Definition spin : list text := [lit "-" ++ [CR]; lit "\" ++ [CR]; lit "|" ++ [CR]; lit "/" ++ [CR]].
Open Scope string_scope.
Open Scope list_scope.
Open Scope nat_scope.
Definition file (n : nat) : text := match n with 0 => lit "long/name.c" | 1 => lit "b.o" | _ => lit "prog" end.
(* what is shown for Progress('$TARGET\r') is the name *)
Lemma target_shows : forall m n e, Shows file m n (Text (TARGET ++ [CR])) e -> exists t, e = Wrote (t ++ [CR]) /\ Plain t.
Proof.
  intros m n e SH. inversion SH as [| |s t RP EQ1 EQ2]; subst. exists (file n). split; [|destruct n as [|[|n]]; (split; intros IN; vm_compute in IN; intuition discriminate)]. f_equal.
  inversion RP as [s0 NO EQ1 EQ2 | a s0 s1 FO R1 EQ1 EQ2]; subst; [exfalso; apply NO; exists [], [CR]; reflexivity|].
  assert (a = []) as ->. { assert (length a <= length (@nil ascii)) as L by (apply (FO [] [CR]); symmetry; exact EQ1). destruct a; [reflexivity | cbn [length] in L; lia]. }
  cbn [app] in EQ1. change (TARGET ++ s0 = TARGET ++ [CR]) in EQ1. apply app_inv_head in EQ1. subst s0. cbn [app]. f_equal.
  inversion R1 as [s2 NO2 EQ1 EQ2 | a2 s2 s3 FO2 R2 EQ1 EQ2]; subst; [reflexivity|]. exfalso. apply (f_equal (@length _)) in EQ1. rewrite !app_length in EQ1. cbn [length] in EQ1. change (length TARGET) with 7 in EQ1. lia.
Qed.
Theorem C88_case : (forall m n e, Shows file m n (Text (TARGET ++ [CR])) e -> exists t, e = Wrote (t ++ [CR]) /\ Plain t) /\ Fine (Text (TARGET ++ [CR])) /\
  log (run file (Text (TARGET ++ [CR])) 1 true [0; 1]) = [Wrote (lit "long/name.c" ++ [CR]); Wrote (lit "           " ++ [CR]); Wrote (lit "b.o" ++ [CR])] /\
  line (show (blank []) (log (run file (Text (TARGET ++ [CR])) 1 true [0; 1]))) = lit "b.o        " /\
  log (run file (Strings spin) 5 false (repeat 0 20)) = [Wrote (lit "\" ++ [CR]); Wrote (lit "|" ++ [CR]); Wrote (lit "/" ++ [CR]); Wrote (lit "-" ++ [CR])] /\
  log (run file (Text (lit ".")) 2 false [0; 1; 2; 0; 1]) = [Wrote (lit "."); Wrote (lit ".")] /\ log (run file Callable 2 true [0; 1; 2; 0; 1]) = [Called 1; Called 0].
Proof. split; [exact target_shows|]. split; [discriminate|]. repeat split; vm_compute; reflexivity. Qed.
(* without overwrite the end of a longer text stays *)
Theorem C88_leftover_case : line (show (blank []) (log (run file (Text (TARGET ++ [CR])) 1 false [0; 1]))) = lit "b.og/name.c".
Proof. vm_compute. reflexivity. Qed.
(* with it, it stays too, if the text does not end in a carriage return: the blanks come after it, and the cursor goes back only then *)
Theorem C88_overwrite_refuted : line (show (blank []) (log (run file (Text TARGET) 1 true [0; 1]))) = lit "b.og/name.c           ".
Proof. vm_compute. reflexivity. Qed.
(* the manual: each string in the list will be displayed in rotating fashion every interval nodes; with as many strings as the interval, always the first *)
Theorem C88_rotation_refuted : forall k, (S k * 4) mod length spin = 0.
Proof. intros k. change (length spin) with 4. apply Nat.mod_mul. discriminate. Qed.

Print Assumptions C88a_interval. Print Assumptions C88b_overwrite. Print Assumptions C88c_rotation. Print Assumptions C88_case.
