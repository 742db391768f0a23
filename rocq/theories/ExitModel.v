(* Model of SCons/exitfuncs.py: register (45-52), _run_exitfuncs (32-42).  No proofs.
   A registered function is a pair of a serial number (only for the statements; the code stores (func, targs, kargs)) and its
   code.  What a call does - which functions it registers, and whether it raises - is given by an arbitrary function `body` of the code and of all that happened before. *)
From Coq Require Import List Arith.
Import ListNotations.
Section Exit.
Variable F : Type.
Inductive event := EReg (i : nat) | ECall (i : nat).
Record state := { handlers : list (nat * F); events : list event; next : nat }.
Definition initial : state := {| handlers := []; events := []; next := 0 |}.
(* register: _exithandlers.append(...) *)
Definition register (s : state) (f : F) : state := {| handlers := handlers s ++ [(next s, f)]; events := events s ++ [EReg (next s)]; next := S (next s) |}.
Variable body : F -> list event -> list F * bool.        (* functions it registers, in order; whether it then raises *)
Inductive run_end := Finished | Raised | OutOfFuel.
(* while _exithandlers: pop the last, call it *)
Fixpoint run_exitfuncs (fuel : nat) (s : state) : state * run_end :=
  match fuel with
  | O => (s, OutOfFuel)
  | S fuel =>
    match rev (handlers s) with
    | [] => (s, Finished)
    | (i, f) :: rest =>
        let s1 := {| handlers := rev rest; events := events s ++ [ECall i]; next := next s |} in
        let (regs, raises) := body f (events s1) in
        let s2 := fold_left register regs s1 in
        if raises then (s2, Raised) else run_exitfuncs fuel s2
    end
  end.
(* the program registers functions, then exits *)
Definition program (regs : list F) (fuel : nat) : state * run_end := run_exitfuncs fuel (fold_left register regs initial).
End Exit.
