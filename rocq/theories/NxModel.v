(* Model of scons -n and scons -q: SCons/Script/Main.py (_build_targets 1230-1250 and 1406: execute_actions, do_store_info; QuestionTask 434-450; BuildTask), SCons/Action.py (667-760: an action that is not executed returns 0),
   SCons/Node/__init__.py (345-350 store_info_file, 779-814 built) and SCons/Taskmaster/__init__.py (285-312, 387-432, stop).  The nodes, the taskmaster's search and the decision are those of IntModel, with the same simplifications.  No proofs. *)
From Coq Require Import List Bool Arith.
Import ListNotations.
From Verif Require Import IntModel.

Section Nx.
Variable P : project.
Variable H : option content -> sig.
(* Main.py 1237-1238 *)
Record flags := { execute_actions : bool; do_store_info : bool }.
Definition flags_of (no_exec : bool) : flags := {| execute_actions := negb no_exec; do_store_info := negb no_exec |}.
(* Action.__call__: with execute false the command is printed, and 0 returned *)
Definition call (fl : flags) (s : state) (n : node) : bool * (node -> option content) :=
  if execute_actions fl then run P (cmd P n) (map (files (wd s)) (kids P s n)) else (true, files (wd s)).
(* store_info_file, and jobs_postfunc writing .sconsign *)
Definition stored (fl : flags) (s : state) (l : list node) : node -> option entry := fun m => if do_store_info fl && mem m l then Some (info P H s m) else store (wd s) m.
(* Task.execute, executed_with_callbacks or failed *)
Definition perform (fl : flags) (s : state) (n : node) : state :=
  let l := task P n in
  let '(ok, out) := call fl s n in
  let f := fun m => if mem m l then out m else files (wd s) m in
  if ok then
    {| wd := {| files := f; store := stored fl s l |};
       mm := fun m => let x := mm s m in
         if mem m l then {| st := Executed; csig := Some (H (f m)); incs := None; impl := impl x |}
         else {| st := st x; csig := csig x; incs := incs x; impl := if waiting P s l m then None else impl x |} |}
  else set_failed {| wd := {| files := f; store := store (wd s) |}; mm := mm s |} l.
(* one step, and the command printed; as IntModel.step *)
Inductive pstep (fl : flags) (ts : list node) (s : state) : list node -> state -> Prop :=
| p_consider n : wanted P ts s n -> (st (mm s n) = NoState \/ st (mm s n) = Pending) -> pstep fl ts s [] (consider P s n)
| p_source n : ready P s n = true -> derived P n = false -> missing s n = false -> pstep fl ts s [] (set_done H s [n])
| p_nosource n : ready P s n = true -> derived P n = false -> missing s n = true -> pstep fl ts s [] (set_failed s [n])
| p_uptodate n : ready P s n = true -> derived P n = true -> forallb (uptodate P H s) (task P n) = true -> pstep fl ts s [] (set_done H s (task P n))
| p_execute n : ready P s n = true -> derived P n = true -> forallb (uptodate P H s) (task P n) = false -> pstep fl ts s [n] (perform fl s n)
| p_failed n : st (mm s n) = Pending -> existsb (fun k => match st (mm s k) with Failed => true | _ => false end) (waits_for P s n) = true -> pstep fl ts s [] (set_failed s (task P n)).
Inductive psteps (fl : flags) (ts : list node) : state -> list node -> state -> Prop :=
| psteps_nil s : psteps fl ts s [] s
| psteps_cons s tr s1 tr1 s2 : pstep fl ts s tr s1 -> psteps fl ts s1 tr1 s2 -> psteps fl ts s (tr ++ tr1) s2.

(* QuestionTask: make_ready_current decides as always; execute sets the status to 1 and stops *)
Definition top (ts : list node) (n : node) : bool := mem n ts.
Definition question (ts : list node) (s : state) (n : node) : bool :=
  negb (done (st (mm s n))) || (top ts n && missing s (hd n (task P n))).
(* one task: the state of its targets after make_ready_current *)
Definition made_ready (s : state) (n : node) : state := if negb (derived P n) || forallb (uptodate P H s) (task P n) then set_done H s (task P n) else s.
Inductive qsteps (ts : list node) : state -> option bool -> Prop :=
| q_end s : succeeded ts s -> qsteps ts s (Some false)
| q_cut s : qsteps ts s None                                             (* not ended yet *)
| q_consider s n r : wanted P ts s n -> (st (mm s n) = NoState \/ st (mm s n) = Pending) -> qsteps ts (consider P s n) r -> qsteps ts s r
| q_task s n r : ready P s n = true -> question ts (made_ready s n) n = false -> qsteps ts (made_ready s n) r -> qsteps ts s r
| q_stop s n : ready P s n = true -> question ts (made_ready s n) n = true -> qsteps ts s (Some true).
(* the exit status: 1 if Some true *)
End Nx.
