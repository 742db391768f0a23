(* A terminal, and what Progress() should show on it. *)
From Coq Require Import Ascii String List Bool Arith.
Import ListNotations.
From Verif Require Import PrgModel.
Open Scope list_scope.

(* lines that are finished, the line of the cursor, and its column; lines are not wrapped *)
Record screen := { above : list text; line : text; col : nat }.
Definition put (s : screen) (c : ascii) : screen :=
  if ascii_dec c CR then {| above := above s; line := line s; col := 0 |}
  else if ascii_dec c LF then {| above := above s ++ [line s]; line := []; col := 0 |}
  else {| above := above s; line := firstn (col s) (line s) ++ c :: skipn (S (col s)) (line s); col := S (col s) |}.
Definition display (s : screen) (t : text) : screen := fold_left put t s.
Definition show {node} (s : screen) (l : list (event node)) : screen := fold_left (fun s e => match e with Wrote t => display s t | Called _ => s end) l s.

(* a text for one line *)
Definition Plain (t : text) : Prop := ~ In CR t /\ ~ In LF t.
(* the line looks like t: there is nothing but blanks after it *)
Definition Looks (l t : text) : Prop := exists b, l = t ++ repeat SP b.

(* what is shown for the node n, the i-th that is evaluated *)
From Verif Require Import TxtSpec.
Inductive Shows {node} (str : node -> text) (i : nat) (n : node) : obj -> event node -> Prop :=
| sh_call : Shows str i n Callable (Called n)
| sh_strings : forall l t, nth_error l (i mod length l) = Some t -> Shows str i n (Strings l) (Wrote t)
| sh_text : forall s t, Replaced TARGET (str n) s t -> Shows str i n (Text s) (Wrote t).
