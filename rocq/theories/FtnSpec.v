(* USE, MODULE and INCLUDE in the statements of a free-form Fortran source. *)
From Coq Require Import Ascii String List Bool Arith.
Import ListNotations.
Open Scope list_scope.

Definition text := list ascii.
Definition white (c : ascii) : Prop := let n := nat_of_ascii c in (9 <= n <= 13) \/ (28 <= n <= 32).
Definition letter (c : ascii) : Prop := let n := nat_of_ascii c in (65 <= n <= 90) \/ (97 <= n <= 122) \/ n = 95 \/ (48 <= n <= 57).   (* letters, digits, _ *)
(* letters that differ only in case *)
Definition same_letter (x c : ascii) : Prop := x = c \/ (97 <= nat_of_ascii x <= 122 /\ nat_of_ascii x = nat_of_ascii c + 32).
Definition Keyword (k : string) (t : text) : Prop := Forall2 same_letter (list_ascii_of_string k) t.
Definition White (t : text) : Prop := Forall white t.
Definition Name (t : text) : Prop := t <> [] /\ Forall letter t.
(* the name ends here *)
Definition Stop (r : text) : Prop := r = [] \/ exists c q, r = c :: q /\ ~ letter c.
(* , INTRINSIC and , NON_INTRINSIC *)
Definition Nature (t : text) : Prop := exists b b2 k, t = b ++ ","%char :: b2 ++ k /\ White b /\ White b2 /\ (Keyword "intrinsic" k \/ Keyword "non_intrinsic" k).
Inductive UseStatement : text -> text -> Prop :=
| U_plain b u w m r : White b -> Keyword "use" u -> White w -> w <> [] -> Name m -> Stop r -> UseStatement (b ++ u ++ w ++ m ++ r) m
| U_colons b u n w w2 m r : White b -> Keyword "use" u -> n = [] \/ Nature n -> White w -> White w2 -> Name m -> Stop r ->
    UseStatement (b ++ u ++ n ++ w ++ ":"%char :: ":"%char :: w2 ++ m ++ r) m.
(* a USE statement that has been begun and goes on in the next line *)
Inductive UseBegun : text -> Prop :=
| B_white b u w : White b -> Keyword "use" u -> White w -> UseBegun (b ++ u ++ w)
| B_comma b u w w2 : White b -> Keyword "use" u -> White w -> White w2 -> UseBegun (b ++ u ++ w ++ ","%char :: w2)
| B_nature b u n w : White b -> Keyword "use" u -> Nature n -> White w -> UseBegun (b ++ u ++ n ++ w)
| B_colons b u n w w2 : White b -> Keyword "use" u -> n = [] \/ Nature n -> White w -> White w2 -> UseBegun (b ++ u ++ n ++ w ++ ":"%char :: ":"%char :: w2).
(* MODULE name; names that begin with the words of module procedures, module functions and so on are not looked at *)
Definition Reserved (m : text) : Prop := exists k a b, m = a ++ b /\ In k ["procedure"; "subroutine"; "function"; "pure"; "elemental"]%string /\ Keyword k a.
Inductive ModuleStatement : text -> text -> Prop :=
| M_name b u w m r : White b -> Keyword "module" u -> White w -> w <> [] -> Name m -> Stop r -> ~ Reserved m -> ModuleStatement (b ++ u ++ w ++ m ++ r) m.
Inductive ModuleBegun : text -> Prop :=
| MB b u w : White b -> Keyword "module" u -> White w -> ModuleBegun (b ++ u ++ w).
(* INCLUDE "name", with any of the quotes; a kind may stand before the quote *)
Definition opening (c : ascii) : Prop := c = "<"%char \/ nat_of_ascii c = 34 \/ nat_of_ascii c = 39.
Definition closing (c : ascii) : Prop := c = ">"%char \/ nat_of_ascii c = 34 \/ nat_of_ascii c = 39.
Inductive IncludeStatement : text -> text -> Prop :=
| I_name b u w k q x m e r : White b -> Keyword "include" u -> White w -> w <> [] ->
    (k = [] \/ exists n, k = n ++ ["_"%char] /\ Name n) -> opening q -> Forall (fun c => ~ closing c) m -> closing e ->
    IncludeStatement (b ++ u ++ w ++ k ++ q :: x :: m ++ e :: r) (x :: m).
Inductive IncludeBegun : text -> Prop :=
| IB b u w : White b -> Keyword "include" u -> White w -> IncludeBegun (b ++ u ++ w).

(* cutting a text at a character *)
Fixpoint cut (s : ascii) (t : text) : list text :=
  match t with
  | [] => [[]]
  | c :: r => if Ascii.eqb c s then [] :: cut s r else match cut s r with w :: l => (c :: w) :: l | [] => [[c]] end
  end.
Definition lines (t : text) : list text := cut (ascii_of_nat 10) t.
Definition statements (line : text) : list text := cut ";"%char line.
(* what a list of statements names, in order *)
Inductive Named (S : text -> text -> Prop) : list text -> list text -> Prop :=
| N_nil : Named S [] []
| N_name p ps m l : S p m -> Named S ps l -> Named S (p :: ps) (m :: l)
| N_none p ps l : (forall m, ~ S p m) -> Named S ps l -> Named S (p :: ps) l.

(* str.lower() *)
Definition Lower (m l : text) : Prop := Forall2 (fun c x => nat_of_ascii x = if (65 <=? nat_of_ascii c) && (nat_of_ascii c <=? 90) then nat_of_ascii c + 32 else nat_of_ascii c) m l.
(* names in order *)
Inductive NotAfter : text -> text -> Prop :=
| A_nil b : NotAfter [] b
| A_less x y a b : nat_of_ascii x < nat_of_ascii y -> NotAfter (x :: a) (y :: b)
| A_same x a b : NotAfter a b -> NotAfter (x :: a) (x :: b).

(* no such statement is begun in a line and goes on in the next *)
Definition UsesFinished (t : text) : Prop := forall l, In l (removelast (lines t)) -> ~ UseBegun (last (statements l) []).
Definition ModulesFinished (t : text) : Prop := forall l, In l (removelast (lines t)) -> ~ ModuleBegun l.
Definition IncludesFinished (t : text) : Prop := forall l, In l (removelast (lines t)) -> ~ IncludeBegun l.
