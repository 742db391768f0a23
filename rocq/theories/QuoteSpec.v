(* What the shell and a program reading a response file make of a text.  Independent of SCons. *)
From Coq Require Import List Arith Bool.
Import ListNotations.
From Verif Require Import QuoteModel.

(* POSIX Shell Command Language, 2.2 Quoting and 2.3 Token Recognition: the words of a simple command after quote removal.
   None: the text contains something the shell acts upon (an operator, an expansion, a command substitution, a comment, a pattern, single
   quotes, an unterminated quotation, a newline between words), so it is not just a list of words. *)
Definition blank (c : nat) : bool := (c =? SP) || (c =? TAB).
(* | & ; < > ( ) $ ` ' * ? [ and newline, outside quotes *)
Definition active (c : nat) : bool := existsb (Nat.eqb c) [124; 38; 59; 60; 62; 40; 41; DOLLAR; TICK; 39; 42; 63; 91; NL].
(* # and ~ at the beginning of a word *)
Definition active_first (c : nat) : bool := (c =? 35) || (c =? 126).
Inductive mode := Out | In_quotes.
(* cur: the word read so far (reversed), None between words *)
Fixpoint sh_lex (m : mode) (cur : option str) (s : str) : option (list str) :=
  match m, s with
  | In_quotes, [] => None
  | Out, [] => Some (match cur with Some w => [rev w] | None => [] end)
  | In_quotes, c :: r =>
    let w := match cur with Some w => w | None => [] end in
    if c =? DQ then sh_lex Out (Some w) r
    else if (c =? DOLLAR) || (c =? TICK) then None
    else if c =? BSL then
      match r with
      | [] => None
      | d :: r' => if (d =? DOLLAR) || (d =? TICK) || (d =? DQ) || (d =? BSL) then sh_lex In_quotes (Some (d :: w)) r'
                   else if d =? NL then sh_lex In_quotes (Some w) r' else sh_lex In_quotes (Some (d :: c :: w)) r'
      end
    else sh_lex In_quotes (Some (c :: w)) r
  | Out, c :: r =>
    if blank c then match cur with Some w => option_map (cons (rev w)) (sh_lex Out None r) | None => sh_lex Out None r end
    else if c =? DQ then sh_lex In_quotes (Some (match cur with Some w => w | None => [] end)) r
    else if active c then None
    else if c =? BSL then
      match r with
      | [] => None
      | d :: r' => if d =? NL then sh_lex Out cur r' else sh_lex Out (Some (d :: match cur with Some w => w | None => [] end)) r'
      end
    else match cur with
      | None => if active_first c then None else sh_lex Out (Some [c]) r
      | Some w => sh_lex Out (Some (c :: w)) r
      end
  end.
Definition sh_words (s : str) : option (list str) := sh_lex Out None s.

(* A program reading a response file: words separated by blanks and newlines, double quotes protect blanks. *)
Fixpoint rsp_lex (m : mode) (cur : option str) (s : str) : option (list str) :=
  match m, s with
  | In_quotes, [] => None
  | Out, [] => Some (match cur with Some w => [rev w] | None => [] end)
  | _, c :: r =>
    let w := match cur with Some w => w | None => [] end in
    if c =? DQ then rsp_lex (match m with Out => In_quotes | In_quotes => Out end) (Some w) r
    else match m with
      | In_quotes => rsp_lex In_quotes (Some (c :: w)) r
      | Out => if blank c || (c =? NL) then match cur with Some w => option_map (cons (rev w)) (rsp_lex Out None r) | None => rsp_lex Out None r end
               else rsp_lex Out (Some (c :: w)) r
      end
  end.
Definition rsp_words (s : str) : option (list str) := rsp_lex Out None s.

(* words that can be written without quotes *)
Definition plain (s : str) : Prop := s <> [] /\ Forall (fun c => blank c = false /\ active c = false /\ c <> DQ /\ c <> BSL) s /\ (forall c r, s = c :: r -> active_first c = false).
(* words with blanks that stay what they are between double quotes *)
Definition quotable (s : str) : Prop := Forall (fun c => c <> DQ /\ c <> DOLLAR /\ c <> TICK /\ c <> BSL) s.
(* a word the user may expect to arrive unchanged: a file name (or other literal), a plain word, or a word with blanks *)
Definition transportable (w : word) : Prop :=
  if literal w then ~ In TICK (data w) else if has_blank (data w) then quotable (data w) else plain (data w).
