(* Splitting, flattening and command-line variables: cases. *)
From Coq Require Import Ascii String List Bool.
Import ListNotations.
From Verif Require Import SplModel SplSpec SplProps.
Open Scope string_scope.
Open Scope list_scope.

Definition l (s : string) : list ascii := list_ascii_of_string s.
Definition white (c : ascii) : bool := match nat_of_ascii c with 9 | 10 | 11 | 12 | 13 | 32 => true | _ => false end.
Definition SP : ascii := " "%char.
Theorem C91_case :
  Split white (Str (l "  -I/usr/include  -O2 -g ")) = map (fun s => Str (l s)) ["-I/usr/include"; "-O2"; "-g"] /\
  Splits white (l " -a  b") [l "-a"; l "b"] /\
  Split white (Seq [Str (l " preserving "); Obj 3]) = [Str (l " preserving "); Obj 3] /\
  flatten (Seq [Str (l "a b"); Seq [Obj 1; Seq []; Seq [Str (l "c"); Seq [Obj 2]]]; Obj 3]) = [Str (l "a b"); Obj 1; Str (l "c"); Obj 2; Obj 3] /\
  add white [Str (l "-x y")] (Str (l "-a b ")) = [Str (l "-x y"); Str (l "-a"); Str (l "b")] /\ radd white [Obj 1] (Str (l "a b")) = [Str (l "a"); Str (l "b"); Obj 1] /\
  white SP = true /\ Forall (Word white) [l "-a"; l "b"] /\ text SP [l "-a"; l "b"] = l "-a b".
Proof.
  split; [vm_compute; reflexivity|]. split.
  { apply (word white [SP] (l "-a") SP (l " b") [l "b"]); [intros c [<- | []]; reflexivity | split; [discriminate | intros c [<- | [<- | []]]; reflexivity] | reflexivity|].
    apply (last_word white [SP] (l "b")); [intros c [<- | []]; reflexivity | split; [discriminate | intros c [<- | []]; reflexivity]]. }
  repeat (split; [vm_compute; reflexivity|]). split; [|vm_compute; reflexivity].
  constructor; [split; [discriminate | intros c [<- | [<- | []]]; reflexivity]|]. constructor; [split; [discriminate | intros c [<- | []]; reflexivity] | constructor].
Qed.
(* an element with a blank, or an empty one, does not survive being written as text and read again *)
Theorem C91_text_refuted : clvar white (Some (Str (text SP [l "-D"; l "A B"]))) <> map Str [l "-D"; l "A B"] /\ clvar white (Some (Str (text SP [l "-D"; l ""; l "x"]))) <> map Str [l "-D"; l ""; l "x"].
Proof. split; vm_compute; discriminate. Qed.
Print Assumptions C91a_split.
Print Assumptions C91b_split_others.
Print Assumptions C91c_flatten.
Print Assumptions C91d_add.
Print Assumptions C91e_text.
Print Assumptions C91_case.
Print Assumptions C91_text_refuted.
