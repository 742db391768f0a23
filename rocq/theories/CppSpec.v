(* What an ISO C preprocessor selects (ISO C 6.10.1 and 6.10.2), on the syntax tree of a file: of each if-section the first group whose
   condition holds, otherwise the #else group; conditions after it and skipped groups are not looked at.  Two deliberate
   deviations of SCons are part of the specification: each file is read at most once, and files below `depth' are not read. *)
From Coq Require Import List Arith Bool.
From Verif Require Import CppModel.
Import ListNotations.

Inductive cond := CIf (e : expr) | CIfdef (x : name) | CIfndef (x : name).
Inductive line := LDefine (x : name) (b : body) | LUndef (x : name) | LInclude (a : arg).
Inductive group := GEnd | GLine (l : line) (rest : group) | GIf (c : cond) (g : group) (ch : chain) (rest : group)
with chain := CEndif | CElse (g : group) | CElif (e : expr) (g : group) (ch : chain).

(* the lines of a group *)
Definition line_tuple (l : line) : tuple :=
  match l with LDefine x b => TDefine x b | LUndef x => TUndef x | LInclude a => TInclude a end.
Definition cond_tuple (c : cond) : tuple := match c with CIf e => TIf e | CIfdef x => TIfdef x | CIfndef x => TIfndef x end.
Fixpoint lines (g : group) : list tuple :=
  match g with
  | GEnd => []
  | GLine l rest => line_tuple l :: lines rest
  | GIf c g ch rest => cond_tuple c :: lines g ++ chain_lines ch ++ lines rest
  end
with chain_lines (ch : chain) : list tuple :=
  match ch with
  | CEndif => [TEndif]
  | CElse g => TElse :: lines g ++ [TEndif]
  | CElif e g ch => TElif e :: lines g ++ chain_lines ch
  end.

Inductive result := Ok (s : st) | Error | Hangs | TooDeep.
Definition bind (r : result) (f : st -> result) : result := match r with Ok s => f s | _ => r end.

Section Sem.
Variable evalc : expr -> ns -> option bool.
Variable expand : body -> ns -> option value.
Variable find : bool -> nat -> option file.
Variable depth : option nat.
Definition holds (c : cond) (n : ns) : option bool :=
  match c with
  | CIf e => evalc e n
  | CIfdef x => Some (match lookup x n with Some _ => true | None => false end)
  | CIfndef x => Some (match lookup x n with Some _ => false | None => true end)
  end.
(* read: processing a new file, at nesting level k of the including line *)
Section Group.
Variable read : file -> st -> result.
Variable k : nat.
Definition sem_line (l : line) (s : st) : result :=
  match l with
  | LDefine x b => match expand b (s_ns s) with None => Error | Some v => Ok (mkS ((x, v) :: s_ns s) (s_result s)) end
  | LUndef x => Ok (mkS (filter (fun yv => negb (x =? fst yv)) (s_ns s)) (s_result s))
  | LInclude a =>
      match resolve_include a (s_ns s) with
      | RRaise => Error
      | RHang => Hangs
      | RNone => Ok s
      | RFile b f =>
          match find b f with
          | None => Ok s
          | Some g => if in_dec Nat.eq_dec g (s_result s) then Ok s
                      else let s := mkS (s_ns s) (s_result s ++ [g]) in
                           if match depth with None => true | Some n => k <? n end then read g s else Ok s
          end
      end
  end.
Fixpoint sem_group (g : group) (s : st) : result :=
  match g with
  | GEnd => Ok s
  | GLine l rest => bind (sem_line l s) (sem_group rest)
  | GIf c g ch rest =>
      match holds c (s_ns s) with
      | None => Error
      | Some true => bind (sem_group g s) (sem_group rest)
      | Some false => bind (sem_chain ch s) (sem_group rest)
      end
  end
with sem_chain (ch : chain) (s : st) : result :=
  match ch with
  | CEndif => Ok s
  | CElse g => sem_group g s
  | CElif e g ch => match evalc e (s_ns s) with None => Error | Some true => sem_group g s | Some false => sem_chain ch s end
  end.
End Group.
Variable file_group : file -> group.
(* d bounds the nesting of files; k is the nesting level *)
Fixpoint sem (d k : nat) (g : group) (s : st) : result :=
  sem_group (fun f s => match d with 0 => TooDeep | S d => sem d (S k) (file_group f) s end) k g s.
End Sem.
