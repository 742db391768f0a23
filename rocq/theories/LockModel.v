(* Model of SCons/Util/filelock.py, FileLock (56-191): acquire_lock, release_lock, __enter__, __exit__.  No proofs.
   Any number of FileLock objects (in any number of processes) for one file; each operating-system call (open with O_CREAT|O_EXCL, close, unlink)
   is one atomic step, and the steps of different objects interleave in any way; a process may be killed between any two
   steps.  `inside` is the code between a successful acquire of a writer and its release.  acquire_lock on an object that already holds the lock is not modelled. *)
From Coq Require Import List Arith Bool.
Import ListNotations.

Inductive pc := Idle | Trying | Inside | Closing | Unlinking | Clearing | Dead.
Inductive outcome := NoOutcome | AlreadyLocked | LockTimeout | Acquired.
Record proc := { at_ : pc; lock : option nat; writer : bool; timeout : option nat; start : nat; last : outcome }.
Record sys := { lockfile : bool; procs : nat -> proc; now : nat }.
Definition with_pc (p : proc) (x : pc) : proc := {| at_ := x; lock := lock p; writer := writer p; timeout := timeout p; start := start p; last := last p |}.
Definition set_proc (s : sys) (i : nat) (p : proc) : sys := {| lockfile := lockfile s; procs := fun j => if j =? i then p else procs s j; now := now s |}.
Definition set_file (s : sys) (b : bool) : sys := {| lockfile := b; procs := procs s; now := now s |}.
Inductive act :=
| Acquire (i : nat)                 (* acquire_lock is called *)
| Enter (i : nat)                   (* __enter__, 171-175 *)
| Attempt (i fd : nat) (eacces : bool)   (* one os.open in the loop; the descriptor the system would give; a PermissionError for other reasons *)
| Release (i : nat)                 (* release_lock is called; __exit__, 177-180 *)
| Step (i : nat)                    (* the next statement of release_lock *)
| Kill (i : nat)
| Tick.                             (* time passes *)
(* release_lock, 163-169: `if self.lock:` is false for descriptor 0 *)
Definition begin_release (p : proc) : proc := match lock p with Some (S _) => with_pc p Closing | _ => with_pc p Idle end.
Definition step (s : sys) (a : act) : sys :=
  match a with
  | Acquire i => let p := procs s i in
      match at_ p with Idle => set_proc s i {| at_ := Trying; lock := lock p; writer := writer p; timeout := timeout p; start := now s; last := NoOutcome |} | _ => s end
  | Enter i => let p := procs s i in
      match at_ p with
      | Idle => match lock p with
                | None => set_proc s i {| at_ := Trying; lock := lock p; writer := writer p; timeout := timeout p; start := now s; last := NoOutcome |}
                | Some _ => set_proc s i (with_pc p Inside)
                end
      | _ => s
      end
  | Attempt i fd eacces => let p := procs s i in
      match at_ p with
      | Trying =>
          if lockfile s || eacces
          then match timeout p with                                                                          (* 145-155 *)
               | None => set_proc s i {| at_ := Idle; lock := lock p; writer := writer p; timeout := timeout p; start := start p; last := AlreadyLocked |}
               | Some t => if t <? now s - start p then set_proc s i {| at_ := Idle; lock := lock p; writer := writer p; timeout := timeout p; start := start p; last := LockTimeout |} else s
               end
          else let q := {| at_ := Inside; lock := Some fd; writer := writer p; timeout := timeout p; start := start p; last := Acquired |} in
               set_file (set_proc s i (if writer p then q else begin_release q)) true                        (* 156-160 *)
      | _ => s
      end
  | Release i => let p := procs s i in match at_ p with Inside => set_proc s i (begin_release p) | _ => s end
  | Step i => let p := procs s i in
      match at_ p with
      | Closing => set_proc s i (with_pc p Unlinking)                                                        (* os.close *)
      | Unlinking => set_file (set_proc s i (with_pc p Clearing)) false                                      (* os.unlink *)
      | Clearing => set_proc s i {| at_ := Idle; lock := None; writer := writer p; timeout := timeout p; start := start p; last := last p |}
      | _ => s
      end
  | Kill i => set_proc s i (with_pc (procs s i) Dead)
  | Tick => {| lockfile := lockfile s; procs := procs s; now := S (now s) |}
  end.
(* __init__, 109-133: any objects, none holding the lock *)
Definition fresh (p : proc) : Prop := at_ p = Idle /\ lock p = None /\ last p = NoOutcome.
Definition initial (s : sys) : Prop := lockfile s = false /\ forall i, fresh (procs s i).
Definition run (s : sys) (l : list act) : sys := fold_left step l s.
