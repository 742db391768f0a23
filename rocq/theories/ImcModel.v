(* Model of --implicit-cache, --implicit-deps-changed and --implicit-deps-unchanged: SCons/Node/__init__.py (scan 1082-1131, add_to_implicit 1071-1076, _add_child 1340-1350, _children_get 1368-1402, changed 1471-1526,
   built 779-814, clear 869-887, get_binfo 1186-1222, prepare 732-750), SCons/Node/FS.py (get_stored_implicit 2957-2961, FileBuildInfo.prepare_dependencies 2639-2666, is_up_to_date 3553-3582, visited 3031-3052, find_file 3783-3850,
   missing), SCons/Executor.py (get_all_children, prepare, scan 473-501), SCons/SConsign.py (store_info 217-221), SCons/Taskmaster/__init__.py (_find_next_ready_node 830-1010, make_ready_current 387-432).  No proofs.

   Simplified: contents, signatures, commands and nodes are numbers; tasks are taken in any order a scheduler might choose (one step of the relation below prepares and runs one task, or looks at the children of a node);
   what a command does depends on the command and the contents of the dependencies; decision by content, no timestamps; no variant directories and repositories, no cache directory, no side effects, Requires and Ignore. *)
From Coq Require Import List Bool Arith.
Import ListNotations.

Definition node := nat.
Definition content := nat.
Definition sig := nat.
Notation disk := (node -> option content).
Definition mem (n : node) (l : list node) : bool := existsb (Nat.eqb n) l.
(* scanners and commands *)
Record tools := {
  look : (node -> bool) -> content -> list node;             (* what a scanner finds in a file, when it is known which files there are: find_file *)
  closure : (node -> list node) -> list node -> list node;   (* Node.get_implicit_deps, over all sources, and _add_child: C36 *)
  run : sig -> list (option content) -> bool * disk }.
(* what the scripts say in one run *)
Record project := { sources : node -> list node; depends : node -> list node; peers : node -> list node; cmd : node -> sig }.
(* what the options say *)
Inductive mode := Off | Cached | Changed | Unchanged.
Inductive nstate := NoState | Pending | UpToDate | Executed | Failed.
(* what a node remembers during a run: state; ninfo.csig; includes; implicit, and the part of implicit in the memoized list of children *)
Record memo := { st : nstate; csig : option sig; incs : option (list node); impl : option (list node * list node) }.
Definition fresh : memo := {| st := NoState; csig := None; incs := None; impl := None |}.
(* BuildInfo *)
Record entry := { e_src : list node; e_dep : list node; e_imp : list node; e_sigs : list sig; e_cmd : option sig }.
Definition blank : entry := {| e_src := []; e_dep := []; e_imp := []; e_sigs := []; e_cmd := None |}.
Record world := { files : disk; store : node -> option entry }.
Record state := { wd : world; mm : node -> memo }.
Inductive act := Ran (n : node) | Scanned (x : node).
Definition done (x : nstate) : bool := match x with UpToDate | Executed => true | _ => false end.
Definition list_eqb (a b : list sig) : bool := if list_eq_dec Nat.eq_dec a b then true else false.

Section Imc.
Variable T : tools.
Variable H : option content -> sig.
Variable P : project.
Variable mo : mode.
Definition derived (n : node) : bool := match peers P n with [] => false | _ => true end.
Definition task (n : node) : list node := match peers P n with [] => [n] | l => l end.
(* FS.find_file, is_derived: a file is found if it is there or is built *)
Definition is_there (f : disk) (m : node) : bool := derived m || match f m with Some _ => true | None => false end.
Definition includes (f : disk) (x : node) : list node := match f x with Some c => look T (is_there f) c | None => [] end.
Definition incs_now (s : state) (x : node) : list node := match incs (mm s x) with Some l => l | None => includes (files (wd s)) x end.
Definition csig_now (s : state) (n : node) : sig := match csig (mm s n) with Some x => x | None => H (files (wd s) n) end.
(* changed 1471-1526 with is_up_to_date: the implicit dependencies of t being l *)
Definition same (s : state) (t : node) (l : list node) : bool :=
  match files (wd s) t with
  | None => false
  | Some _ =>
    match store (wd s) t with
    | None => false
    | Some e => list_eqb (e_sigs e) (map (csig_now s) (sources P t ++ depends P t ++ l)) && match e_cmd e with Some c => c =? cmd P t | None => false end
    end
  end.
(* 1082-1131, for the targets of the executor of n; t0 is the first of them: the new implicit of t; the nodes whose csig is now known; the files scanned *)
Definition full (s : state) (n : node) : list node := closure T (incs_now s) (sources P n).
Definition stored (s : state) (t0 : node) : option (list node) :=
  match mo with Off | Changed => None | Cached | Unchanged => match store (wd s) t0 with Some e => Some (e_imp e) | None => None end end.
Definition use_stored (s : state) (t0 : node) (l : list node) : bool := match mo with Unchanged => true | _ => same s t0 l end.
Definition first_target (n : node) : node := hd n (task n).
Definition new_impl (s : state) (n t : node) : list node * list node :=
  if derived n then
    let t0 := first_target n in
    match stored s t0 with
    | None => (full s n, full s n)
    | Some l =>
      if use_stored s t0 l then (l, l)
      else let r := full s n in (r, if (t =? t0) && match r with [] => true | _ => false end then l else r)     (* _children_reset only if something was added *)
    end
  else ([], []).
Definition signed (s : state) (n : node) : list node :=
  if derived n then
    let t0 := first_target n in
    match mo, stored s t0 with Cached, Some l => sources P t0 ++ depends P t0 ++ l | _, _ => [] end
  else [].
Definition scanned (s : state) (n : node) : list node :=
  if derived n then
    let t0 := first_target n in
    match stored s t0 with
    | Some l => if use_stored s t0 l then [] else sources P n ++ full s n
    | None => sources P n ++ full s n
    end
  else [].
Definition needs_scan (s : state) (l : list node) : bool := existsb (fun t => match impl (mm s t) with None => true | Some _ => false end) l.
Definition consider (s : state) (n : node) : state :=
  let l := task n in
  let b := needs_scan s l in
  {| wd := wd s;
     mm := fun m =>
       let x := mm s m in
       {| st := if m =? n then match st x with NoState => Pending | y => y end else st x;
          csig := if b && mem m (signed s n) then Some (csig_now s m) else csig x;
          incs := if b && mem m (scanned s n) then Some (incs_now s m) else incs x;
          impl := if b && mem m l then Some (new_impl s n m) else impl x |} |}.
Definition reads (s : state) (n : node) : list act := if needs_scan s (task n) then map Scanned (scanned s n) else [].
(* children; the dependencies that get_binfo records *)
Definition implicit (s : state) (t : node) : list node := match impl (mm s t) with Some (l, _) => l | None => [] end.
Definition deps (s : state) (t : node) : list node := sources P t ++ depends P t ++ implicit s t.
Definition child_implicit (s : state) (t : node) : list node := match impl (mm s t) with Some (_, l) => l | None => [] end.
Definition kids (s : state) (t : node) : list node := sources P t ++ depends P t ++ child_implicit s t.
Definition waits_for (s : state) (n : node) : list node := flat_map (kids s) (task n).
Definition all_scanned (s : state) (n : node) : bool := negb (needs_scan s (task n)).
Definition ready (s : state) (n : node) : bool := match st (mm s n) with Pending => all_scanned s n && forallb (fun k => done (st (mm s k))) (waits_for s n) | _ => false end.
(* Executor.prepare, Node.prepare: a file that is neither there nor built *)
Definition missing (s : state) (k : node) : bool := negb (is_there (files (wd s)) k).
Definition lacks (s : state) (n : node) : bool := existsb (fun t => existsb (missing s) (deps s t)) (task n).
Definition uptodate (s : state) (t : node) : bool := same s t (child_implicit s t).
Definition record (s : state) (t : node) : entry :=
  {| e_src := sources P t; e_dep := depends P t; e_imp := implicit s t; e_sigs := map (csig_now s) (deps s t); e_cmd := Some (cmd P t) |}.
(* visited: what is known about the node is stored; a source keeps what was stored about it *)
Definition set_done (s : state) (l : list node) : state :=
  {| wd := {| files := files (wd s);
              store := fun m => if mem m l then Some (if derived m then record s m else match store (wd s) m with Some e => e | None => blank end) else store (wd s) m |};
     mm := fun m => let x := mm s m in if mem m l then {| st := UpToDate; csig := Some (csig_now s m); incs := incs x; impl := impl x |} else x |}.
Definition set_failed (s : state) (l : list node) : state :=
  {| wd := wd s; mm := fun m => let x := mm s m in if mem m l then {| st := Failed; csig := csig x; incs := incs x; impl := impl x |} else x |}.
Definition pending (s : state) (q : node) : bool := match st (mm s q) with Pending => true | _ => false end.
Definition waiting (s : state) (l : list node) (p : node) : bool := existsb (pending s) (task p) && existsb (fun t => mem t (waits_for s p)) l.
Definition execute (s : state) (n : node) : state :=
  let l := task n in
  let '(ok, out) := run T (cmd P n) (map (files (wd s)) (deps s n)) in
  let f := fun m => if mem m l then out m else files (wd s) m in
  if ok then
    {| wd := {| files := f; store := fun m => if mem m l then Some (record s m) else store (wd s) m |};
       mm := fun m => let x := mm s m in
         if mem m l then {| st := Executed; csig := Some (H (f m)); incs := None; impl := match impl x with Some (i, _) => Some (i, i) | None => None end |}
         else {| st := st x; csig := csig x; incs := incs x; impl := if waiting s l m then None else impl x |} |}
  else set_failed {| wd := {| files := f; store := store (wd s) |}; mm := mm s |} l.

(* one step of a run for the targets ts, with the commands it runs and the files it scans *)
Definition wanted (ts : list node) (s : state) (n : node) : Prop := In n ts \/ exists p, st (mm s p) = Pending /\ In n (waits_for s p) /\ all_scanned s p = true.
Inductive step (ts : list node) (s : state) : list act -> state -> Prop :=
| step_consider n : wanted ts s n -> (st (mm s n) = NoState \/ st (mm s n) = Pending) -> step ts s (reads s n) (consider s n)
| step_source n : ready s n = true -> derived n = false -> step ts s [] (set_done s [n])
| step_uptodate n : ready s n = true -> derived n = true -> forallb (uptodate s) (task n) = true -> step ts s [] (set_done s (task n))
| step_lacks n : ready s n = true -> derived n = true -> forallb (uptodate s) (task n) = false -> lacks s n = true -> step ts s [] (set_failed s (task n))
| step_execute n : ready s n = true -> derived n = true -> forallb (uptodate s) (task n) = false -> lacks s n = false -> step ts s [Ran n] (execute s n)
| step_failed n : st (mm s n) = Pending -> existsb (fun k => match st (mm s k) with Failed => true | _ => false end) (waits_for s n) = true -> step ts s [] (set_failed s (task n)).
Inductive steps (ts : list node) : state -> list act -> state -> Prop :=
| steps_nil s : steps ts s [] s
| steps_cons s tr s1 tr1 s2 : step ts s tr s1 -> steps ts s1 tr1 s2 -> steps ts s (tr ++ tr1) s2.
Definition succeeded (ts : list node) (s : state) : Prop := forall t, In t ts -> done (st (mm s t)) = true.
End Imc.
