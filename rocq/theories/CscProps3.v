(* C68: a source and its files; what is missed *)
From Coq Require Import Ascii String List Bool Arith Lia Permutation.
Import ListNotations.
From Verif Require Import CscModel CscSpec CscProps CscProps2.
Open Scope list_scope.

Lemma unfinished_match : forall l, unfinished l -> exists i, match_at (l ++ lit "x>") = Some (i, []).
Proof.
  intros l (q & h & n & -> & Hh & N). exists (q, n ++ lit "x"). apply match_begins. exists h, ">"%char. split; [rewrite <- !app_assoc; reflexivity|]. split; [exact Hh|]. split; [destruct n; discriminate|]. split; [|left; reflexivity].
  intros c Hc. apply in_app_iff in Hc. destruct Hc as [Hc|[<- |[]]]; [apply N, Hc | split; discriminate].
Qed.
Definition nl : string := String newline EmptyString.
Definition quote : string := String """"%char EmptyString.
Definition source1 : text := lit ("#include <stdio.h>" ++ nl ++ "  # include " ++ quote ++ "sub/b.h" ++ quote ++ " // b" ++ nl ++ "#include " ++ quote ++ "a.h" ++ quote ++ nl ++ "int x; #include <no.h>" ++ nl)%string.
Definition dq : ascii := """"%char.
Lemma finished1 : forall l, In l (lines source1) -> ~ unfinished l.
Proof.
  intros l Hl U. apply unfinished_match in U. destruct U as (i & E). vm_compute in Hl. repeat (destruct Hl as [<- |Hl]; [vm_compute in E; discriminate|]). destruct Hl.
Qed.
(* directories: 0 the root, 1 src, 2 src/sub, 3 inc, 4 inc/sub; files are numbers *)
Definition enter1 (d : nat) (n : text) : option nat := if list_eqb Ascii.eqb n (lit "sub") then match d with 1 => Some 2 | 3 => Some 4 | _ => None end else None.
Definition here1 (d : nat) (n : text) : option nat :=
  match d with
  | 1 => if list_eqb Ascii.eqb n (lit "a.h") then Some 10 else None
  | 3 => if list_eqb Ascii.eqb n (lit "a.h") then Some 30 else None
  | 4 => if list_eqb Ascii.eqb n (lit "b.h") then Some 40 else None
  | _ => None
  end.
(* a.h stands beside the source and is found there first; b.h is found along the path; stdio.h is not found *)
Theorem C68_case : (forall l, In l (lines source1) -> ~ unfinished l) /\ include_names source1 = [("<"%char, lit "stdio.h"); (dq, lit "sub/b.h"); (dq, lit "a.h")] /\
  exists m, scan nat nat 0 enter1 here1 Nat.eqb [] None source1 1 [3] = ([10; 40], Some (include_names source1), m).
Proof. split; [exact finished1|]. split; [vm_compute; reflexivity|]. eexists. vm_compute. reflexivity. Qed.
(* an include in a comment without an end: the next one is lost, because a name goes on over the ends of lines *)
Definition source2 : text := lit ("/*" ++ nl ++ "#include <old" ++ nl ++ "*/" ++ nl ++ "#include " ++ quote ++ "b.h" ++ quote ++ nl)%string.
Theorem C68_unfinished_refuted : exists l, In l (lines source2) /\ directive l dq (lit "b.h") /\ ~ In (dq, lit "b.h") (include_names source2).
Proof.
  exists (lit ("#include " ++ quote ++ "b.h" ++ quote)%string). split; [vm_compute; tauto|]. split.
  - apply directive_begins. exists []. apply match_begins. vm_compute. reflexivity.
  - vm_compute. intros [X|[]]. discriminate.
Qed.
(* forms that the compiler knows and the scanner does not: a comment before the name, a line that is continued, include_next, a macro *)
Definition missed : list text :=
  [lit ("#include /* b */ " ++ quote ++ "b.h" ++ quote)%string; lit ("#include \" ++ nl ++ " " ++ quote ++ "b.h" ++ quote)%string; lit "#include_next <b.h>"; lit ("/**/ #include " ++ quote ++ "b.h" ++ quote)%string; lit "#include B_H"].
Theorem C68_missed_refuted : forall t, In t missed -> include_names t = [].
Proof. intros t Ht. unfold missed in Ht. repeat (destruct Ht as [<- |Ht]; [vm_compute; reflexivity|]). destruct Ht. Qed.
Print Assumptions C68_case. Print Assumptions C68_unfinished_refuted. Print Assumptions C68_missed_refuted.
