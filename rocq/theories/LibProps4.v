(* C69: LIBS: a case, and what does not hold. *)
From Coq Require Import Ascii String List Bool Arith Lia.
Import ListNotations.
From Verif Require Import NameModel NameProps NameProps2 LibModel LibSpec LibProps LibProps2 LibProps3.
From Verif Require CscModel CscSpec FlagModel.
Open Scope list_scope.

(* nodes are files "d1/libfoo.a", directories are numbers; all nodes are File nodes *)
Definition isf (n : text) : bool := true.
Definition nam (n : text) : text := n.
Definition ent (d : nat) (n : text) : option nat := None.
(* a disk: which names are in which directory *)
Fixpoint on (D : list (nat * string)) (d : nat) (n : text) : option text :=
  match D with [] => None | (d2, f) :: r => if (d =? d2) && str_eqb n (lit f) then Some (lit "d" ++ [ascii_of_nat (48 + d)] ++ lit "/" ++ n) else on r d n end.
Notation flags := (lib_flags text isf nam).
Notation deps D l path := (fst (scan text nat 0 ent (on D) Nat.eqb [] (Some l) (Some [lit "lib"]) (Some [lit ".a"; lit ".so"]) path)).
Definition posix_ss : list text := [lit ".a"; lit ".so"].
Lemma posix_prefix : lib_prefix (lit "lib").
Proof. split; intros H; cbn in H; repeat (destruct H as [H|H]; [discriminate|]); exact H. Qed.
Lemma posix_suffixes : forall s, In s posix_ss -> lib_suffix s.
Proof.
  intros s [<- |[<- |[]]]; [exists (lit "a") | exists (lit "so")]; (split; [reflexivity|]); (split; [intros H; cbn in H; repeat (destruct H as [H|H]; [discriminate|]); exact H|]); (split; [intros H; cbn in H; repeat (destruct H as [H|H]; [discriminate|]); exact H|]); left; reflexivity.
Qed.
Lemma ext_dec : forall n, match snd (splitext n) with [] => true | _ => false end = true -> ~ has_ext n.
Proof. intros n H. pose proof (has_ext_dec n) as D. destruct (snd (splitext n)); [exact D | discriminate]. Qed.
Lemma plain_dec : forall pre literal n, negb (str_eqb n []) && negb (str_eqb n (lit ".")) && negb (str_eqb n (lit "..")) && negb (existsb (Ascii.eqb SLASH) n) && (match snd (splitext n) with [] => true | _ => false end) && negb (str_eqb n pre)
  && negb (nonempty literal && startswith n literal) && negb (startswith n (lit "-l")) && negb (startswith n (pre ++ lit "-l")) && forallb (fun c => negb (FlagModel.is_space c)) n = true -> plain_name pre literal n.
Proof.
  intros pre literal n H. repeat rewrite andb_true_iff in H. destruct H as (((((((((H1 & H2) & H3) & H4) & H5) & H6) & H7) & H8) & H9) & H10).
  repeat match goal with X : negb _ = true |- _ => apply negb_true_iff in X end. apply str_eqb_neq in H1, H2, H3, H6. split; [split; [exact H1 | split; [exact H2 | split; [exact H3|]]]|split; [apply ext_dec, H5 | split; [exact H6 | split; [|split; [|split]]]]].
  - intros X. assert (existsb (Ascii.eqb SLASH) n = true) by (apply existsb_exists; exists SLASH; split; [exact X | apply Ascii.eqb_refl]). congruence.
  - intros [X Y]. apply startswith_spec in Y. rewrite Y in H7. destruct literal; [contradiction | discriminate].
  - intros X. apply startswith_spec in X. congruence.
  - intros X. apply startswith_spec in X. congruence.
  - intros c Hc. rewrite forallb_forall in H10. apply negb_true_iff, (H10 c Hc).
Qed.
Lemma picks_case : forall D path stem d f a b s, path = a ++ d :: b -> In s posix_ss -> on D d (lit "lib" ++ stem ++ s) = Some f -> forallb (fun x => forallb (fun s => match on D x (lit "lib" ++ stem ++ s) with None => true | _ => false end) posix_ss) a = true ->
  picks text nat (on D) (lit "lib") posix_ss path stem f.
Proof.
  intros D path stem d f a b s E Hs H N. exists a, d, b. split; [exact E|]. split; [exists s; split; assumption|]. intros x Hx n2 (s2 & H2 & X). rewrite forallb_forall in N. specialize (N x Hx). rewrite forallb_forall in N. specialize (N s2 H2). rewrite X in N. discriminate.
Qed.
Definition disk1 : list (nat * string) := [(1, "libfoo.so"%string); (2, "libfoo.a"%string); (2, "libbar.1.a"%string)].
Definition libs1 : libs text := Many [Name (lit "foo"); Obj (lit "x/libz.a"); Name (lit "libbar.1"); Name (lit "m")].
(* the hypotheses of C69a, C69b and C69c can be met: the options, the dependencies, and the library that is linked for -lfoo *)
Theorem C69_case :
  (forall a b, Nat.eqb a b = true <-> a = b) /\ plain_libs text isf (lit "lib") (lit ":") libs1 /\ CscSpec.faithful nat text 0 ent (on disk1) [] /\
  flags libs1 [lit "lib"] posix_ss (lit ":") = [W (lit "-lfoo"); F (lit "x/libz.a"); W (lit "-lbar.1"); W (lit "-lm")] /\
  deps disk1 libs1 [1; 2] = [lit "d2/libfoo.a"; lit "d1/libfoo.so"; lit "x/libz.a"; lit "d2/libbar.1.a"] /\
  linked text nat (on disk1) (lit "lib") posix_ss [1; 2] (W (lit "-lfoo")) (lit "d1/libfoo.so").
Proof.
  split; [intros a b; apply Nat.eqb_eq|]. split; [|split; [intros f ps r []|split; [vm_compute; reflexivity | split; [vm_compute; reflexivity|]]]].
  - intros x [<- |[<- |[<- |[<- |[]]]]]; [apply plain_dec; vm_compute; reflexivity | reflexivity | apply plain_dec; vm_compute; reflexivity | apply plain_dec; vm_compute; reflexivity].
  - exists (lit "foo"). split; [reflexivity|]. apply (picks_case disk1 [1; 2] (lit "foo") 1 _ [] [2] (lit ".so")); [reflexivity | right; left; reflexivity | vm_compute; reflexivity | reflexivity].
Qed.
(* not for names that are not plain: what the linker picks for a word of the command line need not be among the dependencies *)
Definition missed (D : list (nat * string)) (l : libs text) (literal : text) (path : list nat) (w f : text) : Prop :=
  In (W w) (flags l [lit "lib"] posix_ss literal) /\ linked text nat (on D) (lit "lib") posix_ss path (W w) f /\ ~ In f (deps D l path).
Ltac miss st d a b s := split; [vm_compute; tauto|]; split; [exists st; split; [reflexivity|]; apply (picks_case _ _ st d _ a b s); [reflexivity | vm_compute; tauto | vm_compute; reflexivity | reflexivity] | vm_compute; intros X; repeat (destruct X as [X|X]; [discriminate|]); exact X].
(* a suffix in the name is not told to the linker *)
Theorem C69_suffix_refuted : missed [(1, "libfoo.a"%string); (2, "libfoo.so"%string)] (Many [Name (lit "libfoo.so")]) [] [1; 2] (lit "-lfoo") (lit "d1/libfoo.a").
Proof. miss (lit "foo") 1 (@nil nat) [2] (lit ".a"). Qed.
(* a name with another extension gets no suffix *)
Theorem C69_extension_refuted : missed [(1, "libfoo.bar.a"%string)] (Many [Name (lit "foo.bar")]) [] [1] (lit "-lfoo.bar") (lit "d1/libfoo.bar.a").
Proof. miss (lit "foo.bar") 1 (@nil nat) (@nil nat) (lit ".a"). Qed.
(* a name that has -l already *)
Theorem C69_dash_refuted : missed [(1, "libfoo.a"%string)] (Many [Name (lit "-lfoo")]) [] [1] (lit "-lfoo") (lit "d1/libfoo.a").
Proof. miss (lit "foo") 1 (@nil nat) (@nil nat) (lit ".a"). Qed.
(* a string is cut at colons for the linker, at white space for the dependencies *)
Theorem C69_string_refuted : missed [(1, "libfoo.a"%string)] (One (lit "foo:bar")) [] [1] (lit "-lfoo") (lit "d1/libfoo.a")
  /\ flags (One (lit "foo bar")) [lit "lib"] posix_ss (lit ":") = [W (lit "-lfoo bar")] /\ deps [(1, "libfoo.a"%string)] (One (lit "foo bar")) [1] = [lit "d1/libfoo.a"].
Proof. split; [miss (lit "foo") 1 (@nil nat) (@nil nat) (lit ".a") | split; vm_compute; reflexivity]. Qed.
(* a library that is called like the prefix is not linked at all, though the program depends on it *)
Theorem C69_prefix_name_refuted : flags (Many [Name (lit "lib")]) [lit "lib"] posix_ss [] = [] /\ deps [(1, "liblib.a"%string)] (Many [Name (lit "lib")]) [1] = [lit "d1/liblib.a"].
Proof. split; vm_compute; reflexivity. Qed.
(* a name with the literal prefix (-l:libfoo.so.1 makes the linker look for exactly libfoo.so.1) is no dependency *)
Theorem C69_literal_refuted : flags (Many [Name (lit ":libfoo.so.1")]) [lit "lib"] posix_ss (lit ":") = [W (lit "-l:libfoo.so.1")] /\ deps [(1, "libfoo.so.1"%string)] (Many [Name (lit ":libfoo.so.1")]) [1] = [].
Proof. split; vm_compute; reflexivity. Qed.
Print Assumptions C69_case.
Print Assumptions C69_suffix_refuted.
Print Assumptions C69_extension_refuted.
Print Assumptions C69_dash_refuted.
Print Assumptions C69_string_refuted.
Print Assumptions C69_prefix_name_refuted.
Print Assumptions C69_literal_refuted.
