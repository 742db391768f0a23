(* What Textfile and Substfile promise, independently of the model. *)
From Coq Require Import Ascii String List Bool Arith Permutation.
Import ListNotations.
Open Scope list_scope.
Notation text := (list ascii).

(* k occurs in s *)
Definition Occurs (k s : text) : Prop := exists a b, s = a ++ k ++ b.

(* Replacing every occurrence of k by v, from the left, without overlaps *)
Inductive Replaced (k v : text) : text -> text -> Prop :=
| Rep_none s : ~ Occurs k s -> Replaced k v s s
| Rep_next a s s' :
    (forall a' b', a' ++ k ++ b' = a ++ k ++ s -> List.length a <= List.length a') ->    (* the first occurrence *)
    Replaced k v s s' -> Replaced k v (a ++ k ++ s) (a ++ v ++ s').

(* Lines joined by a separator *)
Inductive Joined (sep : text) : list text -> text -> Prop :=
| J_nil : Joined sep [] []
| J_one x : Joined sep [x] x
| J_more x y r t : Joined sep (y :: r) t -> Joined sep (x :: y :: r) (x ++ sep ++ t).

(* A template: literal text and references written with an opening and a closing character *)
Inductive piece := Lit (s : text) | Ref (name : text).
Section Template.
Variables (o c : ascii).
Definition key (name : text) : text := o :: name ++ [c].
Definition written (l : list piece) : text :=
  flat_map (fun p => match p with Lit s => s | Ref n => key n end) l.
(* the first value given for the name *)
Fixpoint value_of (d : list (text * text)) (n : text) : option text :=
  match d with [] => None | (n', v) :: r => if list_eq_dec ascii_dec n n' then Some v else value_of r n end.
(* every reference replaced, at once, by its value; the names without a value stay as they are *)
Definition filled (d : list (text * text)) (l : list piece) : text :=
  flat_map (fun p => match p with Lit s => s | Ref n => match value_of d n with Some v => v | None => key n end end) l.
(* characters of names *)
Variable N : ascii -> bool.
Definition IsName (n : text) : Prop := n <> [] /\ Forall (fun x => N x = true) n /\ ~ In o n /\ ~ In c n.
(* the opening character is only in references; and when it is the closing character too, a reference is followed by the
   end or by a literal that cannot be taken for a name *)
Fixpoint WellFormed (l : list piece) : Prop :=
  match l with
  | [] => True
  | Lit s :: r => ~ In o s /\ WellFormed r
  | Ref n :: r => IsName n
                  /\ (o <> c \/ match r with [] => True | Lit (x :: _) :: _ => N x = false | _ => False end)
                  /\ WellFormed r
  end.
Definition GoodDict (d : list (text * text)) : Prop := Forall (fun kv => IsName (fst kv) /\ ~ In o (snd kv)) d.
End Template.

(* no dollar and no two blanks in a row *)
Fixpoint Tame (s : text) : Prop :=
  match s with
  | [] => True
  | x :: r => x <> "$"%char /\ (match r with y :: _ => ~ (x = " "%char /\ y = " "%char) | [] => True end) /\ Tame r
  end.
(* Tame, without tabs, and with a printable character that is not a blank at both ends *)
Definition visible (x : ascii) : Prop := 33 <= nat_of_ascii x <= 126.
Definition Visible (s : text) : Prop :=
  Tame s /\ (forall x, In x s -> x <> ascii_of_nat 9) /\ (forall x r, s = x :: r -> visible x) /\ (forall x r, s = r ++ [x] -> visible x).
