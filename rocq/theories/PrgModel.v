(* Model of Progress(): SCons/Script/Main.py Progressor (129-179), Progress (183-186), BuildTask.prepare (206-209).  No proofs.

   A node has a text, str(node).  Not modelled: interval=0 and an empty list of strings (ZeroDivisionError), a negative interval, several calls of Progress() (the last one counts), buffering of the file.
   replace is TxtModel.replace. *)
From Coq Require Import Ascii String List Bool Arith.
Import ListNotations.
From Verif Require Import TxtModel.
Open Scope list_scope.

Definition text := list ascii.
Definition CR : ascii := ascii_of_nat 13.
Definition LF : ascii := ascii_of_nat 10.
Definition SP : ascii := " "%char.
Definition TARGET : text := list_ascii_of_string "$TARGET".

Section Progress.
Context {node : Type} (str : node -> text).
(* the first argument, 143-150 *)
Inductive obj := Callable | Strings (l : list text) | Text (s : text).
(* what happens: a text is written to the file, or the callable is called *)
Inductive event := Wrote (s : text) | Called (n : node).
Record progressor := { count : nat; prev : text; log : list event }.
Definition fresh : progressor := {| count := 0; prev := []; log := [] |}.

(* 152-155 *)
Definition write (s : text) (p : progressor) : progressor := {| count := count p; prev := s; log := log p ++ [Wrote s] |}.
(* 157-163 *)
Definition erase_previous (p : progressor) : progressor :=
  match prev p with
  | [] => p
  | _ => let l := last (prev p) SP in
         let length := if Ascii.eqb l LF || Ascii.eqb l CR then length (prev p) - 1 else length (prev p) in
         let q := write (repeat SP length ++ [CR]) p in
         {| count := count q; prev := []; log := log q |}
  end.
(* 139, list indexing; the index is below the length *)
Definition spinner (l : list text) (p : progressor) : text := nth (count p mod length l) l [].
(* target_string in obj, 147 *)
Fixpoint contains (k s : text) : bool := starts k s || match s with [] => false | _ :: r => contains k r end.
(* 143-150 and 165-172 *)
Definition func (o : obj) (n : node) (p : progressor) : progressor :=
  match o with
  | Callable => {| count := count p; prev := prev p; log := log p ++ [Called n] |}
  | Strings l => write (spinner l p) p
  | Text s => write (if contains TARGET s then replace TARGET (str n) s else s) p
  end.
(* 174-179 *)
Definition call (o : obj) (interval : nat) (overwrite : bool) (n : node) (p : progressor) : progressor :=
  let p := {| count := count p + 1; prev := prev p; log := log p |} in
  if (count p mod interval) =? 0 then func o n (if overwrite then erase_previous p else p) else p.
(* the nodes evaluated, the targets of each task in turn (prepare) *)
Definition run (o : obj) (interval : nat) (overwrite : bool) (ns : list node) : progressor := fold_left (fun p n => call o interval overwrite n p) ns fresh.
End Progress.
Arguments event : clear implicits.
