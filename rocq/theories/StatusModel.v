(* Model of the way from actions to the exit status of scons: SCons/Action.py (CommandAction.execute 1043-1104, FunctionAction.execute
   1431-1460, _ActionAction.__call__ 655-738, ListAction.__call__ 1507-1518, default_exitstatfunc 147), SCons/Executor.py
   (execute_action_list 112-131), SCons/Errors.py (convert_to_BuildError 120-216), SCons/Taskmaster/__init__.py (Task.execute
   252-263), SCons/Script/Main.py (BuildTask.do_failed 245-259, BuildTask.executed 261-286, BuildTask.failed 288-343, QuestionTask
   449-456, jobs_postfunc 1390-1412, _main 1218-1227).  No proofs.

   What a command or function does is data: its result is given, and carries a label that is written to the trace when it runs.
   Not modelled: printing, chdir, KeyboardInterrupt inside an action, caches (see CacheModel), messages. *)
From Coq Require Import List Arith Bool.
Import ListNotations.

(* status values: None, an integer, a string (true = non-empty) *)
Inductive sval := SNone | SInt (n : nat) | SStr (nonempty : bool).
Definition truthy (v : sval) : bool := match v with SNone => false | SInt n => negb (n =? 0) | SStr b => b end.
(* the exceptions convert_to_BuildError tells apart *)
Inductive exc :=
| XBuild (status exitstatus : sval)      (* BuildError *)
| XExplicit (status : sval)              (* ExplicitExit *)
| XStop | XUser                          (* StopError, UserError *)
| XSameFile (errno : sval)               (* shutil.SameFileError *)
| XOs (errno : sval)                     (* OSError, IOError, SConsEnvironmentError; SNone: no errno *)
| XOther                                 (* any other Exception *)
| XExit (code : sval).                   (* SystemExit, not an Exception *)
(* convert_to_BuildError of an exception: (status, exitstatus), 139-209 *)
Definition convert_exc (e : exc) : sval * sval :=
  match e with
  | XBuild st _ => (st, SInt 2)                                            (* 139-141 *)
  | XExplicit st => (st, st)                                               (* 142-149 *)
  | XStop | XUser => (SInt 2, SInt 2)                                      (* 150-155 *)
  | XSameFile errno => (errno, SInt 2)                                     (* 156-170 *)
  | XOs errno => (match errno with SNone => SInt 2 | _ => errno end, SInt 2)   (* 172-194 *)
  | XOther | XExit _ => (SInt 2, SInt 2)                                   (* 195-200; SystemExit never gets here *)
  end.
(* ... of a value, 201-209 *)
Definition convert_val (v : sval) : sval * sval := match v with SStr _ => (SInt 2, SInt 2) | _ => (v, SInt 2) end.

Inductive fres := FRet (v : sval) | FRaise (e : exc).                       (* what a Python function does *)
Inductive action :=
| ACmd (ignore : bool) (cmds : list (nat * sval)) (esf : sval -> sval)      (* CommandAction: label and spawn result of each command line *)
| AFun (label : nat) (f : fres) (esf : sval -> sval)                        (* FunctionAction *)
| AList (l : list action).                                                  (* ListAction *)
(* the value of an action: a status, or a BuildError object with (status, exitstatus); or an exception *)
Inductive result := RStat (v : sval) | RBuild (status exitstatus : sval) | RRaise (e : exc).
(* CommandAction.execute, 1090-1104 *)
Fixpoint run_cmds (ignore : bool) (cmds : list (nat * sval)) : list nat * result :=
  match cmds with
  | [] => ([], RStat (SInt 0))
  | (a, r) :: rest => if negb ignore && truthy r then ([a], RBuild r (SInt 2))
                      else let (t, x) := run_cmds ignore rest in (a :: t, x)
  end.
(* FunctionAction.execute, 1431-1460 *)
Definition run_fun (f : fres) : result :=
  match f with
  | FRaise (XExit c) => RRaise (XExit c)                                    (* 1440-1441 *)
  | FRaise e => let (s, x) := convert_exc e in RBuild s x
  | FRet v => if truthy v then let (s, x) := convert_val v in RBuild s x else RStat v
  end.
(* _ActionAction.__call__, 722-732 *)
Definition finish (esf : sval -> sval) (r : result) : result :=
  match r with
  | RBuild s x => let s' := esf s in if truthy s' then RBuild s' x else RStat s'
  | RStat v => RStat (esf v)
  | RRaise e => RRaise e
  end.
Definition stops (r : result) : bool := match r with RStat v => truthy v | _ => true end.
Fixpoint call (a : action) : list nat * result :=
  match a with
  | ACmd ig cmds esf => let (t, r) := run_cmds ig cmds in (t, finish esf r)
  | AFun lab f esf => ([lab], finish esf (run_fun f))
  | AList l => (fix go l := match l with                                     (* ListAction.__call__ *)
                            | [] => ([], RStat (SInt 0))
                            | b :: r => let (t, x) := call b in if stops x then (t, x) else let (t', y) := go r in (t ++ t', y)
                            end) l
  end.
(* execute_action_list, 112-131: None = no exception *)
Fixpoint execute_action_list (l : list action) : list nat * option exc :=
  match l with
  | [] => ([], None)
  | a :: r => let (t, x) := call a in
              match x with
              | RRaise e => (t, Some e)
              | RBuild s e => (t, Some (XBuild s e))
              | RStat v => if truthy v then (t, Some (XBuild (SInt 2) (SInt 2)))
                           else let (t', y) := execute_action_list r in (t ++ t', y)
              end
  end.
(* Task.execute, 252-263 *)
Definition task_execute (l : list action) : list nat * option exc :=
  let (t, x) := execute_action_list l in
  (t, match x with
      | Some (XExit c) => Some (XExplicit c)
      | Some XUser => Some XUser
      | Some (XBuild s e) => Some (XBuild s e)
      | Some e => let (s, x) := convert_exc e in Some (XBuild s x)
      | None => None
      end).

(* ---- the run ---- *)
Inductive mode := IgnoreErrors | KeepGoing | StopAtError.
(* how a task ends: well; with an exception (from prepare or execute); well, but it is a top-level target that has no
   builder and does not exist (BuildTask.executed) *)
Inductive ending := TOk | TFailed (e : exc) | TUnknown.
(* do_failed, 245-259 *)
Definition do_failed (m : mode) (status : sval) (exit_status : sval) : sval := match m with IgnoreErrors => exit_status | _ => status end.
(* failed, 288-343; executed, 261-286 *)
Definition end_task (m : mode) (exit_status : sval) (x : ending) : sval :=
  match x with
  | TOk => exit_status
  | TFailed e => do_failed m (snd (convert_exc e)) exit_status
  | TUnknown => do_failed m (SInt 2) exit_status
  end.
(* QuestionTask.execute, 449-456: true = not up to date *)
Definition question_task (exit_status : sval) (stale : bool) : sval := if stale then SInt 1 else exit_status.
(* jobs_postfunc 1390-1399; _main 1222-1227; exit_status starts as 0 (107) *)
Definition scons_exit (m : mode) (have_targets interrupted : bool) (endings : list ending) : sval :=
  let st := fold_left (end_task m) endings (SInt 0) in
  let st := if interrupted then SInt 2 else st in
  if have_targets then st else SInt 2.
(* sys.exit(v), seen by the shell: None is 0, a string is 1 *)
Definition shell (v : sval) : nat := match v with SNone => 0 | SInt n => n | SStr _ => 1 end.
