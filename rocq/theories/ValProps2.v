(* Value nodes: cases; what does not hold. *)
From Coq Require Import Ascii String List Bool Arith ZArith Lia DecimalString.
From Verif Require Import ValModel ValSpec ValProps.
Import ListNotations.
Open Scope list_scope.
Open Scope nat_scope.

(* integers, with their decimal text; hash((value, name)) is some function of the hash of the value and the name *)
Definition int_text (n : Z) : list ascii := list_ascii_of_string (NilZero.string_of_int (Z.to_int n)).
Definition icall (n : Z) : @call Z ascii := {| arg := n; built_value := None; name := None |}.
Definition int_truthy (n : Z) : bool := negb (Z.eqb n 0).
Definition own_key (n : Z) (nm : option (list ascii)) : option (Z * option (list ascii)) := Some (n, nm).

Lemma own_faithful : Faithful int_text own_key.
Proof. intros v1 n1 v2 n2 k H1 H2. unfold own_key in *. injection H1 as <-. injection H2 as -> _. reflexivity. Qed.

(* only the key of the value counts here *)
Definition one_key (n : Z) (nm : option (list ascii)) : option Z := Some n.
Lemma one_faithful : Faithful int_text one_key.
Proof. intros v1 n1 v2 n2 k H1 H2. unfold one_key in *. injection H1 as <-. injection H2 as ->. reflexivity. Qed.
Theorem C83_case : (forall a b, Z.eqb a b = true <-> a = b) /\ (forall a b, Ascii.eqb a b = true <-> a = b) /\ Faithful int_text one_key /\
  int_text (-12) = list_ascii_of_string "-12" /\
  rebuilt int_text one_key Z.eqb int_truthy Ascii.eqb [icall 5] [icall 1; icall 22] [] [icall 1; icall 22] = false /\
  rebuilt int_text one_key Z.eqb int_truthy Ascii.eqb [icall 5] [icall 1; icall 22] [icall 22] [icall 12; icall 2] = true /\
  rebuilt int_text one_key Z.eqb int_truthy Ascii.eqb [] [icall 1] [] [icall 1; icall 1] = true /\
  Plain one_key int_truthy (icall 3) 3%Z /\ int_hash (-1) = (-2)%Z /\ int_hash 7 = 7%Z /\ int_hash (2 ^ 61) = 1%Z.
Proof.
  split; [exact Z.eqb_eq|]. split; [exact Ascii.eqb_eq|]. split; [exact one_faithful|]. split; [vm_compute; reflexivity|]. split; [vm_compute; reflexivity|]. split; [vm_compute; reflexivity|].
  split; [vm_compute; reflexivity|]. split; [split; [intros b H; discriminate H | reflexivity]|]. repeat split; vm_compute; reflexivity.
Qed.
Definition n0 : @node Z := {| value := 4%Z; built := None; action := Some (Some 9%Z) |}.
Definition s0 : @state Z Z := {| nodes := [n0; {| value := 5%Z; built := None; action := None |}]; memo := [] |}.
Theorem C83_case_read : snd (read s0 0) = Some 9%Z /\ snd (read s0 1) = Some 5%Z /\ snd (read (perform s0 [Read Z 0; Write Z 1 6%Z; Write Z 0 7%Z; Read Z 1]) 0) = Some 7%Z /\
  Last 0 [Read Z 0; Write Z 1 6%Z; Write Z 0 7%Z; Read Z 1] (Some 7%Z).
Proof.
  repeat split; try (vm_compute; reflexivity). apply (last_write 0 [Read Z 0; Write Z 1 6%Z] 7%Z [Read Z 1]). intros w [H | []]. discriminate H.
Qed.

Section Shared.
Context {K : Type} (key : Z -> option (list ascii) -> option K) (key_eqb : K -> K -> bool) (k : K) (c1 c2 : @call Z ascii).
Hypothesis P1 : built_value c1 = None.
Hypothesis P2 : built_value c2 = None.
Hypothesis K1 : key (arg c1) (name c1) = Some k.
Hypothesis K2 : key (arg c2) (name c2) = Some k.
Hypothesis E : key_eqb k k = true.
Lemma shared_first : value_node key key_eqb int_truthy start c1 = ({| nodes := [{| value := arg c1; built := None; action := None |}]; memo := [(k, 0)] |}, 0).
Proof. unfold value_node. rewrite P1, K1. reflexivity. Qed.
Lemma shared_next : forall c l, built_value c = None -> key (arg c) (name c) = Some k -> value_node key key_eqb int_truthy {| nodes := l; memo := [(k, 0)] |} c = ({| nodes := l; memo := [(k, 0)] |}, 0).
Proof. intros c l B H. unfold value_node. rewrite B, H. cbn [lookup memo]. rewrite E. reflexivity. Qed.
Lemma shared_both : value_nodes key key_eqb int_truthy start [c1; c2] = ({| nodes := [{| value := arg c1; built := None; action := None |}]; memo := [(k, 0)] |}, [0; 0]).
Proof. cbn [value_nodes]. rewrite shared_first, (shared_next c2 _ P2 K2). reflexivity. Qed.
Lemma shared_signatures : forall c, built_value c = None -> key (arg c) (name c) = Some k -> signatures int_text key key_eqb int_truthy [c1] [c] = [csig int_text (arg c1) []].
Proof. intros c B H. unfold signatures. cbn [value_nodes]. rewrite shared_first, (shared_next c _ B H). reflexivity. Qed.
Lemma shared_rebuilt : rebuilt int_text key key_eqb int_truthy Ascii.eqb [c1] [c1] [c1] [c2] = false.
Proof.
  unfold rebuilt. rewrite (shared_signatures c1 P1 K1), (shared_signatures c2 P2 K2). apply (changed_spec Ascii.eqb Ascii.eqb_eq). reflexivity.
Qed.
End Shared.

(* with the hash of CPython integers: a target depends on Value(-1), then on Value(-2), with another Value(-1) in the script: it is not rebuilt, whatever the hash of the pair is made of *)
Theorem C83_hash_refuted : forall (K : Type) (T : Z -> option (list ascii) -> K) (key_eqb : K -> K -> bool), (forall a b, key_eqb a b = true <-> a = b) ->
  let key := fun v n => Some (T (int_hash v) n) in
  int_text (-1) <> int_text (-2) /\ rebuilt int_text key key_eqb int_truthy Ascii.eqb [icall (-1)] [icall (-1)] [icall (-1)] [icall (-2)] = false /\
  exists s i, value_nodes key key_eqb int_truthy start [icall (-1); icall (-2)] = (s, [i; i]).
Proof.
  intros K T key_eqb KE key. assert (E : forall n, key_eqb (T (-2)%Z n) (T (-2)%Z n) = true) by (intros n; apply KE; reflexivity).
  assert (H1 : int_hash (-1) = (-2)%Z) by (vm_compute; reflexivity). assert (H2 : int_hash (-2) = (-2)%Z) by (vm_compute; reflexivity).
  assert (KA : key (arg (icall (-1))) (name (icall (-1))) = Some (T (-2)%Z None)) by (unfold key; cbn [arg name icall]; rewrite H1; reflexivity).
  assert (KB : key (arg (icall (-2))) (name (icall (-2))) = Some (T (-2)%Z None)) by (unfold key; cbn [arg name icall]; rewrite H2; reflexivity).
  split; [vm_compute; discriminate|]. split.
  - exact (shared_rebuilt key key_eqb _ (icall (-1)) (icall (-2)) eq_refl eq_refl KA KB (E None)).
  - eexists. eexists. exact (shared_both key key_eqb _ (icall (-1)) (icall (-2)) eq_refl eq_refl KA KB (E None)).
Qed.
(* what is written to a value, or given as its built value, is not part of its signature *)
Definition bcall (n b : Z) : @call Z ascii := {| arg := n; built_value := Some b; name := None |}.
Theorem C83_built_refuted : rebuilt int_text one_key Z.eqb int_truthy Ascii.eqb [] [bcall 4 1] [] [bcall 4 2] = false.
Proof. vm_compute. reflexivity. Qed.
(* a built value that is false is dropped if the value was named before *)
Theorem C83_false_refuted : exists s i, value_nodes one_key Z.eqb int_truthy start [icall 4; bcall 4 0] = (s, [i; i]) /\ snd (read s i) = Some 4%Z.
Proof. eexists. eexists. split; [reflexivity | vm_compute; reflexivity]. Qed.
(* the text of the value and the signatures of its dependencies are not separated *)
Theorem C83_separation_refuted : exists v1 v2 k1 k2, v1 <> v2 /\ k1 <> k2 /\ csig int_text v1 k1 = csig int_text v2 k2.
Proof. exists 1%Z, 12%Z, [int_text 23], [int_text 3]. split; [discriminate|]. split; [vm_compute; discriminate | vm_compute; reflexivity]. Qed.
Print Assumptions C83_case.
Print Assumptions C83_hash_refuted.
