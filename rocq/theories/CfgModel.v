(* Model of configure tests: SCons/SConf.py (SConfBuildTask.collect_node_states 251-288, execute 290-357, failed 232-247; SConfBase.BuildNodes 524-592, TryBuild 606-679, TryRun 714-741; force_build 428-446) with what
   they use of SCons/Taskmaster/__init__.py (Task.prepare 160-204, make_ready_current 387-432), SCons/Node/FS.py (File.is_up_to_date 3553-3585, File.prepare 3161-3176, get_csig 3248-3278, get_max_drift_csig 3222-3246)
   and SCons/Node/__init__.py (Node.changed: number of children, their signatures in order, action signature).  No proofs.

   Simplified: one target per step; contents, signatures, commands and nodes are numbers; a step is a file to be made by a command from its children (sources and what the scanner finds, in order); what a command does
   depends on the command and on the contents of the children only; no repositories and no variant directories; messages and the log are not modelled; a Value is a file that is always there. *)
From Coq Require Import List Bool Arith.
Import ListNotations.

Definition node := nat.
Definition content := nat.
Definition sig := nat.
Notation disk := (node -> option content).
Definition upd {A} (f : node -> A) (n : node) (a : A) : node -> A := fun m => if m =? n then a else f m.
(* SConfBuildInfo, stored without a NodeInfo (324-335) *)
Record entry := { esigs : list sig; ecmd : sig; efail : bool }.
Record state := { files : disk; store : node -> option entry }.
Record step := { tgt : node; kids : disk -> list node; cmd : sig }.
Inductive mode := AUTO | FORCE | CACHE.
Inductive outcome := Done | Failed | CacheErr | DryErr.      (* CacheErr, DryErr: SConfError, raised again by failed() *)
Fixpoint sigs_eqb (a b : list sig) : bool := match a, b with [], [] => true | x :: a, y :: b => (x =? y) && sigs_eqb a b | _, _ => false end.

Section Cfg.
Variable H : option content -> sig.                          (* hash of the contents; None: NOFILE *)
Variable run : sig -> list (option content) -> bool * option content.   (* success, and what is in the target afterwards *)
Variable rec : node -> option sig.                           (* the signatures of files stored by the last build *)

(* get_csig while max_drift is 0 (573): the stored signature if there is one *)
Definition csig (st : state) (n : node) : sig := match store st n with Some _ => H (files st n) | None => match rec n with Some s => s | None => H (files st n) end end.
Definition sigs (st : state) (s : step) : list sig := map (csig st) (kids s (files st)).
Definition forced (m : mode) (st : state) (s : step) : bool := match m, kids s (files st) with FORCE, _ :: _ => true | _, _ => false end.
(* Node.changed, with force_build as decider under FORCE *)
Definition changed (m : mode) (st : state) (s : step) : bool :=
  forced m st s || match store st (tgt s) with None => true | Some e => negb (sigs_eqb (sigs st s) (esigs e)) || negb (ecmd e =? cmd s) end.
Definition exists_ (st : state) (n : node) : bool := match files st n with Some _ => true | None => false end.
(* is_up_to_date *)
Definition uptodate (m : mode) (st : state) (s : step) : bool := exists_ st (tgt s) && negb (changed m st s).
(* prepare: the target is removed unless its state is up_to_date; -n: actions do nothing *)
Definition prepare (m : mode) (dry : bool) (st : state) (s : step) : state := if uptodate m st s || dry then st else {| files := upd (files st) (tgt s) None; store := store st |}.
(* collect_node_states: changed, cached_error, cachable *)
Definition collect (m : mode) (st : state) (s : step) : bool * bool * bool :=
  match store st (tgt s) with
  | Some e => (match m with CACHE => false | _ => negb (uptodate m st s) && changed m st s end, efail e, true)
  | None => (negb (uptodate m st s), false, false)
  end.
(* prepare, execute; the last component: the commands that were run *)
Definition exec_step (m : mode) (dry : bool) (st : state) (s : step) : outcome * state * list node :=
  let '(chg, err, cachable) := collect m st s in
  let st1 := prepare m dry st s in
  let fresh := match m with FORCE => false | _ => negb chg end in
  match m, cachable with
  | CACHE, false => (CacheErr, st1, [])
  | _, _ =>
    if err && fresh then (Failed, st1, [])
    else if fresh then (Done, st1, [])
    else if dry then (DryErr, st1, [])
    else let '(ok, out) := run (cmd s) (map (files st) (kids s (files st))) in
         (if ok then Done else Failed, {| files := upd (files st1) (tgt s) out; store := upd (store st1) (tgt s) (Some {| esigs := sigs st s; ecmd := cmd s; efail := negb ok |}) |}, [tgt s])
  end.
(* BuildNodes: the tasks in order; a failure stops *)
Fixpoint build (m : mode) (dry : bool) (st : state) (plan : list step) : outcome * state * list node :=
  match plan with
  | [] => (Done, st, [])
  | s :: r => match exec_step m dry st s with
              | (Done, st, x) => let '(o, st, y) := build m dry st r in (o, st, x ++ y)
              | p => p
              end
  end.
(* TryRun: TryLink, then the output file; None: the test failed *)
Definition try_run (m : mode) (dry : bool) (st : state) (link : list step) (output : step) : outcome * option (option content) * state :=
  match build m dry st link with
  | (Done, st, _) => match build m dry st [output] with (Done, st, _) => (Done, Some (files st (tgt output)), st) | (o, st, _) => (o, None, st) end
  | (o, st, _) => (o, None, st)
  end.
End Cfg.

(* the life of a configure directory *)
Inductive event :=
| EEdit (f : disk)                                           (* files are changed by somebody else *)
| EForget (l : list node)                                    (* entries of the .sconsign file are lost *)
| ETest (m : mode) (dry : bool) (rec : node -> option sig) (plan : list step).
Definition forget (l : list node) (st : state) : state := {| files := files st; store := fun n => if existsb (Nat.eqb n) l then None else store st n |}.
Definition happen H run (st : state) (e : event) : state :=
  match e with
  | EEdit f => {| files := f; store := store st |}
  | EForget l => forget l st
  | ETest m dry rec plan => let '(_, st, _) := build H run rec m dry st plan in st
  end.
Definition history H run (f : disk) (h : list event) : state := fold_left (happen H run) h {| files := f; store := fun _ => None |}.
