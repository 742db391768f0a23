(* FindSourceFiles: cases, and what the manual says that does not hold. *)
From Coq Require Import List Bool Arith Lia.
Import ListNotations.
From Verif Require Import FnsModel FnsSpec FnsProps.
Open Scope list_scope.

(* 0 is the top directory with 1, the directory src, 4, a program built from 3, and 5, SConstruct; src has 2, a C file, and 3, an object file built from 7, which is 2 in a variant directory; 3 also depends on 6, a header;
   9 is a directory of which it is not known yet, with the file 2; 8 is built from 9 *)
Definition cls (n : nat) : class := match n with 0 | 1 => IsDir | 9 => IsEntry true | 10 => IsOther | 11 => IsDir | _ => IsFile end.
Definition known_cls (n : nat) : class := match n with 9 => IsOther | _ => cls n end.
Definition built (n : nat) : bool := match n with 3 | 4 | 8 | 12 => true | _ => false end.
Definition srcs (n : nat) : list nat := match n with 3 => [7] | 4 => [3; 10] | 8 => [9] | 12 => [11] | _ => [] end.
Definition children (n : nat) : list nat := match n with 0 => [1; 4; 5] | 1 => [2; 3] | 3 => [7; 6] | 4 => [3; 10] | 8 => [9] | 9 => [2] | 11 => [12; 5] | 12 => [11] | _ => [] end.
Definition srcnode (n : nat) : nat := match n with 7 => 2 | _ => n end.
Notation find := (find_source_files Nat.eq_dec).

Theorem C87_case : Known known_cls /\ (exists l, find known_cls built srcs children srcnode 9 0 = Some l /\ (forall x, In x l <-> x = 2 \/ x = 5)) /\
  (forall c, In c (children 0) -> Ends known_cls built srcs children c).
Proof.
  assert (Known known_cls) as KN by (intros n; do 10 (destruct n as [|n]; [discriminate|]); do 2 (destruct n as [|n]; [discriminate|]); discriminate).
  split; [exact KN|]. split.
  - exists [2; 5]. split; [vm_compute; reflexivity|]. intros x. cbn [In]. split; [intros [<- | [<- | []]]; auto | intros [-> | ->]; auto].
  - apply (proj1 (C87c_returns Nat.eq_dec known_cls built srcs children srcnode KN 0)). exists 9, [2; 5]. vm_compute. reflexivity.
Qed.
(* a directory that is in a target built from it, like a tar file of the directory it is put in: no result at any depth *)
Theorem C87_cycle_case : forall k, find known_cls built srcs children srcnode k 11 = None.
Proof.
  assert (Known known_cls) as KN by (intros n; do 10 (destruct n as [|n]; [discriminate|]); do 2 (destruct n as [|n]; [discriminate|]); discriminate).
  intros k. destruct (find known_cls built srcs children srcnode k 11) as [l|] eqn:E; [exfalso | reflexivity].
  destruct (proj1 (C87c_returns Nat.eq_dec known_cls built srcs children srcnode KN 11)) as [H _]; [exists k, l; exact E|]. specialize (H 12 (or_introl eq_refl)).
  assert (forall n, Ends known_cls built srcs children n -> n = 11 \/ n = 12 -> False) as N.
  { intros n A. induction A as [n _ IH]. intros [-> | ->].
    - apply (IH 12); [|right; reflexivity]. left. split; [left; reflexivity | left; reflexivity].
    - apply (IH 11); [|left; reflexivity]. right. split; [intros [D | D]; discriminate D|]. split; [reflexivity | left; reflexivity]. }
  apply (N 12 H). right. reflexivity.
Qed.
(* the manual: it returns all leaf nodes of the dependency tree; of what is built only the sources are looked at: the header 6, a leaf on which 3 depends, is not returned *)
Theorem C87_leaves_refuted : In 6 (children 3) /\ children 6 = [] /\ In 3 (children 1) /\ forall k l, find known_cls built srcs children srcnode k 1 = Some l -> ~ In 6 l.
Proof.
  assert (Known known_cls) as KN by (intros n; do 10 (destruct n as [|n]; [discriminate|]); do 2 (destruct n as [|n]; [discriminate|]); discriminate).
  split; [right; left; reflexivity|]. split; [reflexivity|]. split; [right; left; reflexivity|]. intros k l E IN.
  apply (C87b_complete Nat.eq_dec known_cls built srcs children srcnode KN k 1 l E) in IN.
  assert (find known_cls built srcs children srcnode 9 1 = Some [2]) as F by (vm_compute; reflexivity). apply (C87b_complete Nat.eq_dec known_cls built srcs children srcnode KN 9 1 [2] F) in IN.
  destruct IN as [IN | []]. discriminate IN.
Qed.
(* a directory of which it is not known yet that it is one is passed over, and looked at the next time: the node is then one of a directory *)
Theorem C87_entry_refuted : find cls built srcs children srcnode 9 8 = Some [] /\ Wanted cls built srcs children srcnode 8 2 /\
  find (fun n => match n with 9 => IsDir | _ => cls n end) built srcs children srcnode 9 8 = Some [2].
Proof.
  split; [vm_compute; reflexivity|]. split; [|vm_compute; reflexivity]. exists 9, 2. split; [left; reflexivity|]. split; [|apply or_here; reflexivity].
  apply so_step with 2; [left; split; [right; reflexivity | left; reflexivity]|]. apply so_here; [left; reflexivity | reflexivity].
Qed.

Print Assumptions C87a_sound. Print Assumptions C87b_complete. Print Assumptions C87c_returns. Print Assumptions C87_cycle_case.
