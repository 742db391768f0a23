(* C72: a case, and what Chmod() does not do. *)
From Coq Require Import Ascii String List Bool Arith NArith.
Import ListNotations.
From Verif Require Import NameModel ChmModel ChmSpec ChmProps.
Open Scope list_scope.

(* f and a link to it, g; nothing else *)
Definition at1 (d : list ascii) : option nat :=
  if str_eqb d (lit "f") then Some 1 else if str_eqb d (lit "link") then Some 1 else if str_eqb d (lit "g") then Some 2 else None.
Definition kind1 (i : nat) : N := 32768%N.                                        (* a regular file *)
Definition s1 (i : nat) : N := match i with 1 => 2468%N | 2 => 384%N | _ => 0%N end.    (* 04644, 0600 *)
Definition dest1 := [lit "f"; lit "link"; lit "g"].
Definition ks1 := [{| who_ := [Cls U; Cls G]; op_ := Add; perms := [W; X] |}; {| who_ := [All]; op_ := Remove; perms := [R] |}].
Definition perms_after (o : outcome) : option (list N) := match o with Done s => Some [s 0; s 1; s 2] | _ => None end.

Theorem C72_case :
  (forall i, N.land (kind1 i) 4095 = 0%N) /\ present at1 dest1 /\
  (forall k, In k ks1 -> who_ k <> [] /\ (op_ k = Set_ -> forall c, names_cls (who_ k) c = true)) /\
  show ks1 = lit "ug+wx,a-r" /\
  perms_after (chmod_func at1 kind1 dest1 (Str (lit "ug+wx,a-r")) s1) = Some [0; 2264; 216]%N /\       (* 04330, 0330 *)
  perms_after (chmod_func at1 kind1 dest1 (Str (lit "755")) s1) = Some [0; 493; 493]%N /\
  perms_after (chmod_func at1 kind1 [lit "g"] (Str (lit " ugo = rx ")) s1) = Some [0; 2468; 365]%N /\
  (exists s', chmod_func at1 kind1 dest1 (Str (lit "u+x,a+q")) s1 = SyntaxError_ s') /\
  chmod_func at1 kind1 dest1 (Str (lit "u+r+w")) s1 = SyntaxError_ s1 /\ chmod_func at1 kind1 dest1 (Str (lit "u")) s1 = SyntaxError_ s1.
Proof.
  split; [intros i; reflexivity |]. split.
  { intros d [<- | [<- | [<- | []]]]; vm_compute; discriminate. }
  split. { intros k [<- | [<- | []]]; split; discriminate. }
  split; [vm_compute; reflexivity |]. split; [vm_compute; reflexivity |]. split; [vm_compute; reflexivity |]. split; [vm_compute; reflexivity |]. split; [| split; reflexivity].
  destruct (chmod_func at1 kind1 dest1 (Str (lit "u+x,a+q")) s1) as [s | s | s | s] eqn:E; try (vm_compute in E; discriminate E). exists s. reflexivity.
Qed.

(* with = and only some of the classes, the others lose their permissions: of u=rwx,g=rx,o=rx only the last clause is left, whatever the mode was *)
Theorem C72_equals_refuted : forall s, exists ks s',
  chmod_func at1 kind1 [lit "g"] (Str (lit "u=rwx,g=rx,o=rx")) s = Done s' /\ s' 2 = 5%N /\
  show ks = lit "u=rwx,g=rx,o=rx" /\ (forall k, In k ks -> who_ k <> []) /\ effect ks U R (N.testbit (s 2) (bit U R)) = true /\ N.testbit (s' 2) (bit U R) = false.
Proof.
  intros s. exists [{| who_ := [Cls U]; op_ := Set_; perms := [R; W; X] |}; {| who_ := [Cls G]; op_ := Set_; perms := [R; X] |}; {| who_ := [Cls O]; op_ := Set_; perms := [R; X] |}].
  eexists. split; [cbv; reflexivity |]. split; [reflexivity |]. split; [vm_compute; reflexivity |]. split; [intros k [<- | [<- | [<- | []]]]; discriminate |].
  split; reflexivity.
Qed.
(* without a class, + and - do nothing and = takes every permission away; chmod(1) takes this for all classes *)
Theorem C72_no_class_refuted :
  perms_after (chmod_func at1 kind1 [lit "g"] (Str (lit "+x")) s1) = Some [0; 2468; 384]%N /\
  perms_after (chmod_func at1 kind1 [lit "g"] (Str (lit "=rx")) s1) = Some [0; 2468; 0]%N.
Proof. split; vm_compute; reflexivity. Qed.
(* something that is no class is accepted if there are no permissions, and a clause with two operators too: all permissions are taken away *)
Theorem C72_accepted_refuted :
  perms_after (chmod_func at1 kind1 [lit "g"] (Str (lit "xyz=")) s1) = Some [0; 2468; 0]%N /\
  perms_after (chmod_func at1 kind1 [lit "g"] (Str (lit "u+r=")) s1) = Some [0; 2468; 0]%N.
Proof. split; vm_compute; reflexivity. Qed.
(* the clauses before the one that is not understood have been carried out *)
Theorem C72_all_or_nothing_refuted : exists s', chmod_func at1 kind1 [lit "g"] (Str (lit "u+x,a+q")) s1 = SyntaxError_ s' /\ s1 2 = 384%N /\ s' 2 = 448%N.
Proof. eexists. split; [cbv; reflexivity |]. split; reflexivity. Qed.

Print Assumptions C72_case.
Print Assumptions C72_equals_refuted.
Print Assumptions C72_no_class_refuted.
Print Assumptions C72_accepted_refuted.
Print Assumptions C72_all_or_nothing_refuted.
