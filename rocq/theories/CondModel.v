(* Model of the evaluation of #if / #elif conditions: SCons/cpp.py, CPP_to_Python_Ops_Dict 118-125, CPP_to_Python_Eval_List 160-167, CPP_to_Python
   178-188, eval_expression 408-420.  No proofs.

   The code rewrites the text of the condition into Python text and gives it to eval().  Here a condition is a syntax tree, that
   is, its text has parentheses around every application of an operator, so that C and Python read it the same way (without them they do
   not: `not' binds weaker in Python than `!' in C, comparisons chain, `defined X' becomes a comparison).  Macros stand for integers; those
   with other values are not modelled. *)
From Coq Require Import List ZArith Bool.
Import ListNotations.
Local Open Scope Z_scope.

Inductive binop := Add | Sub | Mul | Div | Lt | Le | Gt | Ge | Eq | Ne.
Inductive cexpr :=
| Num (z : Z) | Id (x : nat) | Defined (x : nat)
| Not (e : cexpr) | And (a b : cexpr) | Or (a b : cexpr) | Cond (a b c : cexpr) | Bin (o : binop) (a b : cexpr).
(* the Python expression the rewritten text is *)
Inductive pexpr :=
| PyNum (z : Z) | PyName (x : nat) | PyIn (x : nat)                  (* "x" in __dict__ *)
| PyNot (e : pexpr) | PyAnd (a b : pexpr) | PyOr (a b : pexpr) | PyBin (o : binop) (a b : pexpr).
(* CPP_to_Python, 178-188: the table 118-125 turns  a ? b : c  into  a and b or c *)
Fixpoint cpp_to_python (e : cexpr) : pexpr :=
  match e with
  | Num z => PyNum z
  | Id x => PyName x
  | Defined x => PyIn x
  | Not e => PyNot (cpp_to_python e)
  | And a b => PyAnd (cpp_to_python a) (cpp_to_python b)
  | Or a b => PyOr (cpp_to_python a) (cpp_to_python b)
  | Cond a b c => PyOr (PyAnd (cpp_to_python a) (cpp_to_python b)) (cpp_to_python c)
  | Bin o a b => PyBin o (cpp_to_python a) (cpp_to_python b)
  end.
(* Python's values: int and bool are one type of numbers; a quotient is a float, here a fraction n/d with d > 0 *)
Inductive pval := PNum (z : Z) | PFrac (n d : Z).
Definition truth (v : pval) : bool := match v with PNum z => negb (z =? 0) | PFrac n _ => negb (n =? 0) end.
Definition fn (v : pval) : Z := match v with PNum z => z | PFrac n _ => n end.
Definition fd (v : pval) : Z := match v with PNum _ => 1 | PFrac _ d => d end.
Definition mkfrac (a b : pval) (n d : Z) : pval :=
  match a, b with PNum _, PNum _ => PNum n | _, _ => PFrac n d end.
Definition pbool (b : bool) : pval := PNum (if b then 1 else 0).
Inductive pres := PVal (v : pval) | PCaught | PUncaught.           (* a value; NameError, TypeError or SyntaxError; another exception *)
Definition pbin (o : binop) (a b : pval) : pres :=
  match o with
  | Add => PVal (mkfrac a b (fn a * fd b + fn b * fd a) (fd a * fd b))
  | Sub => PVal (mkfrac a b (fn a * fd b - fn b * fd a) (fd a * fd b))
  | Mul => PVal (mkfrac a b (fn a * fn b) (fd a * fd b))
  | Div => if fn b =? 0 then PUncaught                               (* ZeroDivisionError *)
           else let n := fn a * fd b in let d := fd a * fn b in PVal (PFrac (n * Z.sgn d) (Z.abs d))
  | Lt => PVal (pbool (fn a * fd b <? fn b * fd a))
  | Le => PVal (pbool (fn a * fd b <=? fn b * fd a))
  | Gt => PVal (pbool (fn b * fd a <? fn a * fd b))
  | Ge => PVal (pbool (fn b * fd a <=? fn a * fd b))
  | Eq => PVal (pbool (fn a * fd b =? fn b * fd a))
  | Ne => PVal (pbool (negb (fn a * fd b =? fn b * fd a)))
  end.
Definition macros := nat -> option Z.
Fixpoint py_eval (m : macros) (e : pexpr) : pres :=
  match e with
  | PyNum z => PVal (PNum z)
  | PyName x => match m x with Some z => PVal (PNum z) | None => PCaught end
  | PyIn x => PVal (pbool (match m x with Some _ => true | None => false end))
  | PyNot e => match py_eval m e with PVal v => PVal (pbool (negb (truth v))) | r => r end
  | PyAnd a b => match py_eval m a with PVal v => if truth v then py_eval m b else PVal v | r => r end
  | PyOr a b => match py_eval m a with PVal v => if truth v then PVal v else py_eval m b | r => r end
  | PyBin o a b => match py_eval m a with
                   | PVal v => match py_eval m b with PVal w => pbin o v w | r => r end
                   | r => r
                   end
  end.
(* eval_expression, 408-420, as the truth value its callers use; None: the exception gets out *)
Definition eval_expression (m : macros) (e : cexpr) : option bool :=
  match py_eval m (cpp_to_python e) with PVal v => Some (truth v) | PCaught => Some false | PUncaught => None end.
