(* Model of the interactive mode: SCons/Script/Interactive.py (do_build 145-247) with what it uses of SCons/Script/Main.py (_build_targets: one run of the taskmaster), SCons/Taskmaster/__init__.py (_find_next_ready_node 830-1010,
   make_ready_current 387-432, executed_with_callbacks 285-312, fail_stop), SCons/Node/__init__.py (built 779-814, clear 869-887, scan 1082-1131, children 1368-1437, Walker 1740-1796), SCons/Node/FS.py (visited 3031-3052,
   get_csig, File.release_target_info 3078: nothing in interactive mode) and SCons/Executor.py (get_all_children, get_all_prerequisites, scan 473-494).  No proofs.

   Simplified: contents, signatures, commands and nodes are numbers; tasks are taken in any order a scheduler might choose (one step of the relation below prepares and runs one task); an include names one node; what a
   command does depends on the command and the contents of the children; decision by content; no variant directories and repositories, no cache, no side effects; a node is not both ignored and a dependency. *)
From Coq Require Import List Bool Arith.
Import ListNotations.

Definition node := nat.
Definition content := nat.
Definition sig := nat.
Notation disk := (node -> option content).
Definition upd {A} (f : node -> A) (n : node) (a : A) : node -> A := fun m => if m =? n then a else f m.
Definition mem (n : node) (l : list node) : bool := existsb (Nat.eqb n) l.
(* what the scripts have said *)
Record project := {
  sources : node -> list node;
  depends : node -> list node;                               (* Depends *)
  prereq : node -> list node;                                (* Requires *)
  peers : node -> list node;                                 (* all targets of the action of a node; []: no builder *)
  cmd : node -> sig;
  inc : content -> list node;                                (* what a scanner finds in a file *)
  closure : (node -> list node) -> list node -> list node;   (* Node.get_implicit_deps: C36 *)
  run : sig -> list (option content) -> bool * (node -> option content) }.
Inductive nstate := NoState | Pending | UpToDate | Executed | Failed.
(* what a node remembers between two builds: state; ninfo.csig; includes and _memo; implicit *)
Record memo := { st : nstate; csig : option sig; incs : option (list node); impl : option (list node) }.
Definition fresh : memo := {| st := NoState; csig := None; incs := None; impl := None |}.
(* BuildInfo: signatures of the children, signature of the action *)
Notation entry := (list sig * sig)%type.
Record world := { files : disk; store : node -> option entry }.
Record state := { wd : world; mm : node -> memo }.
Definition done (x : nstate) : bool := match x with UpToDate | Executed => true | _ => false end.
Definition includes (P : project) (f : disk) (n : node) : list node := match f n with Some c => inc P c | None => [] end.

Section Int.
Variable P : project.
Variable H : option content -> sig.
Definition derived (n : node) : bool := match peers P n with [] => false | _ => true end.
Definition task (n : node) : list node := match peers P n with [] => [n] | l => l end.
(* get_found_includes: memoized *)
Definition incs_now (s : state) (n : node) : list node := match incs (mm s n) with Some l => l | None => includes P (files (wd s)) n end.
(* 1082-1131: implicit, if it is not there already *)
Definition scan (s : state) (n : node) : list node := match impl (mm s n) with Some l => l | None => if derived n then closure P (incs_now s) (sources P n) else [] end.
(* 1368-1402 *)
Definition kids (s : state) (n : node) : list node := sources P n ++ depends P n ++ scan s n.
Definition csig_now (s : state) (n : node) : sig := match csig (mm s n) with Some x => x | None => H (files (wd s) n) end.

(* 860-870 of Taskmaster: executor.get_all_children scans all targets; the files scanned remember what was found in them *)
Definition scanned (s : state) (n : node) : list node := if derived n then sources P n ++ closure P (incs_now s) (sources P n) else [].
Definition needs_scan (s : state) (l : list node) : bool := existsb (fun t => match impl (mm s t) with None => true | Some _ => false end) l.
Definition consider (s : state) (n : node) : state :=
  let l := task n in
  {| wd := wd s;
     mm := fun m =>
       let x := mm s m in
       let x := if needs_scan s l && mem m (scanned s n) then {| st := st x; csig := csig x; incs := Some (incs_now s m); impl := impl x |} else x in
       let x := if mem m l then {| st := st x; csig := csig x; incs := incs x; impl := Some (scan s m) |} else x in
       if m =? n then {| st := match st x with NoState => Pending | y => y end; csig := csig x; incs := incs x; impl := impl x |} else x |}.
(* what a task waits for *)
Definition waits_for (s : state) (n : node) : list node := flat_map (fun t => prereq P t) (task n) ++ flat_map (kids s) (task n).
Definition all_scanned (s : state) (n : node) : bool := forallb (fun t => match impl (mm s t) with Some _ => true | None => false end) (task n).
Definition ready (s : state) (n : node) : bool := match st (mm s n) with Pending => all_scanned s n && forallb (fun k => done (st (mm s k))) (waits_for s n) | _ => false end.
(* Node.changed; File.is_up_to_date *)
Definition info (s : state) (t : node) : entry := (map (csig_now s) (kids s t), cmd P t).
Definition entry_eq (a b : entry) : {a = b} + {a <> b}. Proof. repeat decide equality. Defined.
Definition uptodate (s : state) (t : node) : bool :=
  match files (wd s) t with None => false | Some _ => match store (wd s) t with None => false | Some e => if entry_eq e (info s t) then true else false end end.
(* 387-432 without a need to execute: visited() *)
Definition set_done (s : state) (l : list node) : state :=
  {| wd := wd s; mm := fun m => let x := mm s m in if mem m l then {| st := UpToDate; csig := Some (csig_now s m); incs := incs x; impl := impl x |} else x |}.
Definition set_failed (s : state) (l : list node) : state :=
  {| wd := wd s; mm := fun m => let x := mm s m in if mem m l then {| st := Failed; csig := csig x; incs := incs x; impl := impl x |} else x |}.
(* the nodes whose implicit is forgotten: those waiting for one of l (779-800) *)
Definition pending (s : state) (q : node) : bool := match st (mm s q) with Pending => true | _ => false end.
Definition waiting (s : state) (l : list node) (p : node) : bool := existsb (pending s) (task p) && existsb (fun t => mem t (waits_for s p)) l.
Definition execute (s : state) (n : node) : state :=
  let l := task n in
  let '(ok, out) := run P (cmd P n) (map (files (wd s)) (kids s n)) in
  let f := fun m => if mem m l then out m else files (wd s) m in
  if ok then
    {| wd := {| files := f; store := fun m => if mem m l then Some (info s m) else store (wd s) m |};
       mm := fun m => let x := mm s m in
         if mem m l then {| st := Executed; csig := Some (H (f m)); incs := None; impl := impl x |}
         else {| st := st x; csig := csig x; incs := incs x; impl := if waiting s l m then None else impl x |} |}
  else set_failed {| wd := {| files := f; store := store (wd s) |}; mm := mm s |} l.
Definition missing (s : state) (n : node) : bool := match files (wd s) n with None => true | Some _ => false end.

(* one step of a build of the targets ts; and the command that was run *)
Definition wanted (ts : list node) (s : state) (n : node) : Prop := In n ts \/ exists p, st (mm s p) = Pending /\ In n (waits_for s p) /\ all_scanned s p = true.
Inductive step (ts : list node) (s : state) : list node -> state -> Prop :=
| step_consider n : wanted ts s n -> (st (mm s n) = NoState \/ st (mm s n) = Pending) -> step ts s [] (consider s n)
| step_source n : ready s n = true -> derived n = false -> missing s n = false -> step ts s [] (set_done s [n])
| step_nosource n : ready s n = true -> derived n = false -> missing s n = true -> step ts s [] (set_failed s [n])
| step_uptodate n : ready s n = true -> derived n = true -> forallb (uptodate s) (task n) = true -> step ts s [] (set_done s (task n))
| step_execute n : ready s n = true -> derived n = true -> forallb (uptodate s) (task n) = false -> step ts s [n] (execute s n)
| step_failed n : st (mm s n) = Pending -> existsb (fun k => match st (mm s k) with Failed => true | _ => false end) (waits_for s n) = true -> step ts s [] (set_failed s (task n)).
Inductive steps (ts : list node) : state -> list node -> state -> Prop :=
| steps_nil s : steps ts s [] s
| steps_cons s tr s1 tr1 s2 : step ts s tr s1 -> steps ts s1 tr1 s2 -> steps ts s (tr ++ tr1) s2.
Definition succeeded (ts : list node) (s : state) : Prop := forall t, In t ts -> done (st (mm s t)) = true.
Definition failed (s : state) : Prop := exists n, st (mm s n) = Failed.

(* Walker, with get_unseen_children and add_to_seen_nodes (185-221): the stack of nodes with wkids, and seen_nodes *)
Definition unseen (s : state) (seen : list node) (n : node) : list node := filter (fun k => negb (mem k seen)) (kids s n).
Inductive walk (s : state) : list (node * list node) -> list node -> list node -> Prop :=
| walk_end seen : walk s [] seen seen
| walk_cycle n k w stk seen r : mem k (n :: map fst stk) = true -> walk s ((n, w) :: stk) seen r -> walk s ((n, k :: w) :: stk) seen r
| walk_down n k w stk seen r : mem k (n :: map fst stk) = false -> walk s ((k, unseen s seen k) :: (n, w) :: stk) seen r -> walk s ((n, k :: w) :: stk) seen r
| walk_up n stk seen r : walk s stk (n :: seen) r -> walk s ((n, []) :: stk) seen r.
Inductive walks (s : state) : list node -> list node -> list node -> Prop :=
| walks_nil seen : walks s [] seen seen
| walks_cons t ts seen seen1 seen2 : walk s [(t, unseen s seen t)] seen seen1 -> walks s ts seen1 seen2 -> walks s (t :: ts) seen seen2.
(* 223-233 *)
Definition clear (s : state) (seen : list node) : state := {| wd := wd s; mm := fun m => if mem m seen then fresh else mm s m |}.

(* a session: between two commands files are changed by an editor *)
Inductive event := Edit (f : disk) | Build (ts : list node).
Definition edit (f : disk) (s : state) : state := {| wd := {| files := f; store := store (wd s) |}; mm := mm s |}.
Inductive session : state -> list event -> list (list node) -> state -> Prop :=
| session_nil s : session s [] [] s
| session_edit s f es trs s2 : session (edit f s) es trs s2 -> session s (Edit f :: es) trs s2
| session_build s ts es tr s1 seen trs s2 : steps ts s tr s1 -> succeeded ts s1 \/ failed s1 -> walks s1 ts [] seen -> session (clear s1 seen) es trs s2 ->
    session s (Build ts :: es) (tr :: trs) s2.
End Int.
Definition start (w : world) : state := {| wd := w; mm := fun _ => fresh |}.
