(* What chmod(1) does with a symbolic mode, bit by bit.  No proofs. *)
From Coq Require Import Ascii String List Bool Arith NArith.
Import ListNotations.
Open Scope list_scope.

Inductive cls := U | G | O.
Inductive perm := R | W | X.
Inductive who := Cls (c : cls) | All.
Inductive op := Add | Remove | Set_.
Record clause := { who_ : list who; op_ : op; perms : list perm }.

(* the place of a permission among the bits of a mode: rwxrwxrwx from bit 8 down *)
Definition bit (c : cls) (p : perm) : N :=
  (match c with U => 6 | G => 3 | O => 0 end + match p with R => 2 | W => 1 | X => 0 end)%N.

Definition cls_eqb (a b : cls) : bool := match a, b with U, U | G, G | O, O => true | _, _ => false end.
Definition perm_eqb (a b : perm) : bool := match a, b with R, R | W, W | X, X => true | _, _ => false end.
Definition names_cls (l : list who) (c : cls) : bool := existsb (fun w => match w with All => true | Cls d => cls_eqb d c end) l.
Definition names_perm (l : list perm) (p : perm) : bool := existsb (perm_eqb p) l.

(* may a user of class c do p, after the clause, if `old` before *)
Definition clause_effect (k : clause) (c : cls) (p : perm) (old : bool) : bool :=
  if names_cls (who_ k) c
  then match op_ k with
       | Add => names_perm (perms k) p || old
       | Remove => negb (names_perm (perms k) p) && old
       | Set_ => names_perm (perms k) p
       end
  else old.
Fixpoint effect (ks : list clause) (c : cls) (p : perm) (old : bool) : bool :=
  match ks with [] => old | k :: r => effect r c p (clause_effect k c p old) end.

(* how a mode is written *)
Definition show_who (w : who) : ascii := match w with Cls U => "u" | Cls G => "g" | Cls O => "o" | All => "a" end.
Definition show_perm (p : perm) : ascii := match p with R => "r" | W => "w" | X => "x" end.
Definition show_op (o : op) : ascii := match o with Add => "+" | Remove => "-" | Set_ => "=" end.
Definition show_clause (k : clause) : list ascii := map show_who (who_ k) ++ show_op (op_ k) :: map show_perm (perms k).
Fixpoint show (ks : list clause) : list ascii :=
  match ks with [] => [] | [k] => show_clause k | k :: r => show_clause k ++ ","%char :: show r end.

(* octal *)
Definition show_octal (ds : list nat) : list ascii := map (fun d => ascii_of_nat (48 + d)) ds.
Fixpoint octal_value (acc : N) (ds : list nat) : N := match ds with [] => acc | d :: r => octal_value (acc * 8 + N.of_nat d)%N r end.
