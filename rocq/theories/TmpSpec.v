(* How programs read response files (libiberty's buildargv, as used by gcc, ld and ar): blanks separate the arguments; quotes of both kinds
   protect what is between them; a backslash protects the next character, inside quotes too. *)
From Coq Require Import Ascii String List Bool Arith ZArith.
Import ListNotations.
Open Scope list_scope.

Definition text := list ascii.
Definition white (c : ascii) : bool := match nat_of_ascii c with 9 | 10 | 11 | 12 | 13 | 32 => true | _ => false end.
Definition squote : ascii := ascii_of_nat 39.
Definition dquote : ascii := ascii_of_nat 34.
Definition backslash : ascii := ascii_of_nat 92.
Inductive mode := Plain | InSingle | InDouble.
(* [cur]: the argument being read, if one has been begun; [esc]: after a backslash *)
Fixpoint read (m : mode) (esc : bool) (cur : option text) (s : text) : list text :=
  match s with
  | [] => match cur with Some w => [w] | None => [] end
  | c :: r =>
      let w := match cur with Some w => w | None => [] end in
      if esc then read m false (Some (w ++ [c])) r
      else match m with
           | Plain => if white c then match cur with Some w => w :: read Plain false None r | None => read Plain false None r end
                      else if Ascii.eqb c backslash then read Plain true (Some w) r
                      else if Ascii.eqb c squote then read InSingle false (Some w) r
                      else if Ascii.eqb c dquote then read InDouble false (Some w) r
                      else read Plain false (Some (w ++ [c])) r
           | InSingle => if Ascii.eqb c backslash then read InSingle true (Some w) r
                         else if Ascii.eqb c squote then read Plain false (Some w) r
                         else read InSingle false (Some (w ++ [c])) r
           | InDouble => if Ascii.eqb c backslash then read InDouble true (Some w) r
                         else if Ascii.eqb c dquote then read Plain false (Some w) r
                         else read InDouble false (Some (w ++ [c])) r
           end
  end.
Definition arguments (s : text) : list text := read Plain false None s.

(* arguments that survive: not empty, no quotes, no backslashes, no white space but blanks and tabs *)
Definition tame (c : ascii) : Prop :=
  c <> squote /\ c <> dquote /\ c <> backslash /\ (white c = true -> c = " "%char \/ c = ascii_of_nat 9).
Definition Safe (a : text) : Prop := a <> [] /\ Forall tame a.
(* the length of a command line: its words with one blank between any two *)
Fixpoint typed (l : list text) : text := match l with [] => [] | [w] => w | w :: r => w ++ " "%char :: typed r end.
