(* Model of the options of a derived-file cache: SCons/CacheDir.py (47-120 and 322-398: cache_enabled, cache_readonly, cache_force, cache_show, CacheRetrieveFunc, CachePushFunc, is_enabled, cachepath, retrieve, push, push_if_forced),
   SCons/Node/FS.py (3001-3034 push_to_cache, retrieve_from_cache, visited; 3160-3176 prepare; 3647-3722 get_cachedir_csig, get_cachedir_bsig), SCons/Taskmaster/__init__.py (216-263 Task.execute, 281-310 executed_with_callbacks, 387-432),
   SCons/Script/Main.py (1234-1248), SCons/Environment.py (1481-1502 get_CacheDir, 2536-2554 CacheDir, 2675-2684 NoCache) and SCons/Action.py (667-760).  No proofs.
   Simplifications: the tasks are given in the order in which the taskmaster takes them, and are done one after another; all the targets of a task have the same children; a content signature is the content; the signature of the action
   is part of the function key; a record in .sconsign is the list of the contents of the children; copying to and from the cache succeeds (C19 is about crashes); links, modes, time stamps and the counters of --cache-debug are omitted;
   a source that does not exist is given to the command like any other.  Other processes may change the cache directory between two tasks. *)
From Coq Require Import List Bool Arith.
Import ListNotations.

Notation node := nat (only parsing).
Notation content := nat (only parsing).
Notation sig := nat (only parsing).

(* the module variables of CacheDir.py set by the options, CACHEDIR (is path None?) and Action.execute_actions *)
Record flags := { has_dir : bool; cache_enabled : bool; cache_readonly : bool; cache_force : bool; cache_show : bool; no_exec : bool }.
(* a build step: its command gives a status and what is then at the place of each target *)
Record task := { name : nat; targets : list node; deps : list node; command : list (option content) -> bool * (node -> option content) }.
(* what is printed and done *)
Inductive event :=
| Shown (n : nat)          (* the command line of the task is printed *)
| Ran (n : nat)            (* the command is executed *)
| Got (t : node).          (* Retrieved `t' from cache *)
Record state := {
  disk : node -> option content;
  cache : sig -> option content;                        (* the files in the cache directory *)
  store : node -> option (list (option content));       (* .sconsign *)
  failed : node -> bool;
  csig : node -> option content;                        (* get_cachedir_csig *)
  opened : bool;                                        (* the cache directory and its file config exist *)
  log : list event }.

Definition mem (n : nat) (l : list nat) : bool := existsb (Nat.eqb n) l.
Definition set {A} (f : nat -> A) (n : nat) (v : A) : nat -> A := fun m => if m =? n then v else f m.
Definition some {A} (x : option A) : bool := match x with Some _ => true | None => false end.
Definition eqo (a b : option nat) : bool := match a, b with Some x, Some y => x =? y | None, None => true | _, _ => false end.
Fixpoint eql (a b : list (option nat)) : bool := match a, b with [], [] => true | x :: a', y :: b' => eqo x y && eql a' b' | _, _ => false end.
Definition with_disk (s : state) (d : node -> option content) : state := {| disk := d; cache := cache s; store := store s; failed := failed s; csig := csig s; opened := opened s; log := log s |}.
Definition with_cache (s : state) (c : sig -> option content) : state := {| disk := disk s; cache := c; store := store s; failed := failed s; csig := csig s; opened := opened s; log := log s |}.
Definition with_log (s : state) (e : list event) : state := {| disk := disk s; cache := cache s; store := store s; failed := failed s; csig := csig s; opened := opened s; log := log s ++ e |}.

Section Cop.
Variables nocache precious : node -> bool.
Variable key : node -> list (option content) -> sig.     (* get_cachedir_bsig: the signatures of the children, of the action, and the path *)
Variable fl : flags.

(* CacheDir.py 322-323 *)
Definition is_enabled : bool := cache_enabled fl && has_dir fl.
(* Environment.py 1481-1502 get_CacheDir: the object is made, and CacheDir.__init__ creates the directory *)
Definition open (s : state) : state :=
  {| disk := disk s; cache := cache s; store := store s; failed := failed s; csig := csig s; opened := opened s || has_dir fl; log := log s |}.
(* Environment.py 2536-2554, when the SConscript files are read *)
Definition start (d : node -> option content) (c : sig -> option content) (r : node -> option (list (option content))) (o : bool) : state :=
  let s := {| disk := d; cache := c; store := r; failed := fun _ => false; csig := d; opened := o; log := [] |} in
  if no_exec fl then s else open s.
Definition key_of (s : state) (T : task) (t : node) : sig := key t (map (csig s) (deps T)).

(* is_up_to_date for all the targets *)
Definition uptodate (s : state) (T : task) : bool :=
  forallb (fun t => some (disk s t) && match store s t with Some l => eql l (map (disk s) (deps T)) | None => false end) (targets T).
(* FS.py 3160-3170 prepare: the existing targets are removed, by an Action *)
Definition prepare (s : state) (T : task) : state :=
  if no_exec fl then s else with_disk s (fun m => if mem m (targets T) && negb (precious m) then None else disk s m).
(* CacheDir.py 52-80 and 352-390; FS.py 3016-3029.  With --cache-show the command line is printed instead *)
Definition retrieve (s : state) (T : task) (t : node) : bool * state :=
  if nocache t then (false, s)
  else let s := open s in
    if negb is_enabled then (false, s)
    else match cache s (key_of s T t) with
      | None => (false, s)
      | Some c =>
          let s1 := if no_exec fl then s else with_disk s (set (disk s) t (Some c)) in
          (true, with_log s1 [if cache_show fl then Shown (name T) else Got t])
      end.
(* Taskmaster 229-234 *)
Fixpoint fetch (T : task) (ts : list node) (s : state) (got : list node) : state * list node :=
  match ts with
  | [] => (s, got)
  | t :: r => let (hit, s') := retrieve s T t in if hit then fetch T r s' (got ++ [t]) else (s', got)
  end.
(* 241-243: t.fs.unlink, which is not an Action *)
Definition unlink_all (s : state) (got : list node) : state := with_disk s (fun m => if mem m got then None else disk s m).
(* 246: targets[0].build() *)
Definition build (s : state) (T : task) : bool * state :=
  if no_exec fl then (true, with_log s [Shown (name T)])
  else
    let (ok, f) := command T (map (disk s) (deps T)) in
    (ok, with_log (with_disk s (fun m => if mem m (targets T) then f m else disk s m)) [Shown (name T); Ran (name T)]).
(* CacheDir.py 89-120 and 391-394; CachePush is an Action *)
Definition push (T : task) (s : state) (t : node) : state :=
  let s := open s in
  if cache_readonly fl || negb is_enabled then s
  else if no_exec fl then s
  else if cache_readonly fl then s
  else if nocache t then s
  else match cache s (key_of s T t) with Some _ => s | None => with_cache s (set (cache s) (key_of s T t) (disk s t)) end.
(* FS.py 3001-3014 *)
Definition push_to_cache (T : task) (s : state) (t : node) : state :=
  if nocache t then s else if some (disk s t) then push T s t else s.
(* FS.py 3031-3034 visited, CacheDir.py 396-398 *)
Definition push_if_forced (T : task) (s : state) (t : node) : state :=
  if some (disk s t) then let s := open s in if cache_force fl then push T s t else s else s.
(* FS.py 3661-3672, when a task that depends on t asks *)
Definition known (T : task) (s : state) (t : node) : state :=
  {| disk := disk s; cache := cache s; store := store s; failed := failed s;
     csig := set (csig s) t (match disk s t with Some c => Some c | None => if is_enabled then cache s (key_of s T t) else None end); opened := opened s; log := log s |}.
Definition visited (T : task) (s : state) (t : node) : state := known T (push_if_forced T s t) t.
(* Taskmaster 303-308: built() and store_info *)
Definition record (s : state) (T : task) : state :=
  if no_exec fl then s
  else {| disk := disk s; cache := cache s; store := fun m => if mem m (targets T) then Some (map (disk s) (deps T)) else store s m; failed := failed s; csig := csig s; opened := opened s; log := log s |}.
Definition fail (s : state) (T : task) : state :=
  {| disk := disk s; cache := cache s; store := store s; failed := fun m => mem m (targets T) || failed s m; csig := csig s; opened := opened s; log := log s |}.
(* Taskmaster 216-263, then executed or failed *)
Definition execute (s : state) (T : task) : state :=
  let s0 := prepare s T in
  let (s1, got) := fetch T (targets T) s0 [] in
  if length got <? length (targets T) then
    let (ok, s2) := build (unlink_all s1 got) T in
    if ok then fold_left (visited T) (targets T) (record (fold_left (push_to_cache T) (targets T) s2) T) else fail s2 T
  else fold_left (visited T) (targets T) (record s1 T).
Definition step (s : state) (T : task) : state :=
  if existsb (failed s) (deps T) then fail s T
  else if uptodate s T then fold_left (visited T) (targets T) s
  else execute s T.

(* a run: tasks, and what other processes do to the cache directory meanwhile *)
Inductive label := Do (T : task) | Other (k : sig) (v : option content).
Definition act (s : state) (l : label) : state := match l with Do T => step s T | Other k v => with_cache s (set (cache s) k v) end.
Definition run (ls : list label) (s : state) : state := fold_left act ls s.
End Cop.
