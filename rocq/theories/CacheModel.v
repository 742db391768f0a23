(* Model of SCons/CacheDir.py (push and retrieve as interleaved file-system programs), Task.execute
   (Taskmaster/__init__.py 216-263), the cache key (Node/FS.py 3647-3722) and content hashing (Util/hashes.py, Node/FS.py
   2775-2787, 3248-3279).  No proofs.

   C19 part.  Shared state of all processes using a cache directory: the directory entries (one per signature), the contents
   of inodes, and where each process is.  POSIX semantics: rename replaces an entry atomically, an open file keeps
   referring to its inode.  A process may die, fail with OSError, or be slow at any point, and anybody may remove
   entries.  Symbolic links, time stamps and modes are omitted; the config file is not part of this model. *)
From Coq Require Import Ascii String List Arith ZArith Bool.
Import ListNotations.
Local Open Scope list_scope.

Notation sig := nat (only parsing).
Notation ino := nat (only parsing).
Notation pid := nat (only parsing).
Notation bytes := (list nat) (only parsing).

Inductive cproc :=
  | CIdle
  | CPush (s : sig) (c : bytes)                          (* CachePushFunc after fs.exists(cachefile) was false, CacheDir.py 102-124 *)
  | CWrite (s : sig) (c : bytes) (i : ino) (rest : bytes)  (* copy_to_cache into the temporary directory, 124-129 *)
  | CRead (s : sig) (i : ino) (acc : bytes).             (* copy_from_cache in progress, 62-66 *)

Record cst := {
  ent : sig -> option ino;                               (* files in the cache directory *)
  data : ino -> bytes;
  next : ino;                                            (* inodes below are in use *)
  proc : pid -> cproc;
  pushed : list (sig * bytes);                           (* ghost: what processes tried to push *)
  reads : list (sig * bytes) }.                          (* ghost: completed retrievals *)

Inductive clabel :=
  | LPush (p : pid) (s : sig) (c : bytes)                (* build finished with contents c: push *)
  | LTemp (p : pid)                                      (* create the temporary file (unique directory) *)
  | LWrite (p : pid) (k : nat)                           (* write the next k bytes *)
  | LRename (p : pid)                                    (* fs.rename(temp_file, cachefile), line 130 *)
  | LOpen (p : pid) (s : sig)                            (* CacheRetrieveFunc, lines 52-63 *)
  | LReadBytes (p : pid) (k : nat)
  | LReadEnd (p : pid)                                   (* end of file *)
  | LAbort (p : pid)                                     (* OSError, or the process died *)
  | LPrune (s : sig).                                    (* somebody removes an entry *)

Definition updf {A} (f : nat -> A) (n : nat) (v : A) : nat -> A := fun m => if m =? n then v else f m.
Definition setp (x : cst) (p : pid) (v : cproc) : cst :=
  {| ent := ent x; data := data x; next := next x; proc := updf (proc x) p v; pushed := pushed x; reads := reads x |}.

Definition cstep (x : cst) (l : clabel) : cst :=
  match l with
  | LPush p s c =>
      match proc x p, ent x s with
      | CIdle, None => {| ent := ent x; data := data x; next := next x; proc := updf (proc x) p (CPush s c); pushed := (s, c) :: pushed x; reads := reads x |}
      | _, _ => x                                        (* already in the cache: line 103-112 *)
      end
  | LTemp p =>
      match proc x p with
      | CPush s c => {| ent := ent x; data := updf (data x) (next x) []; next := S (next x); proc := updf (proc x) p (CWrite s c (next x) c); pushed := pushed x; reads := reads x |}
      | _ => x
      end
  | LWrite p k =>
      match proc x p with
      | CWrite s c i rest => {| ent := ent x; data := updf (data x) i (data x i ++ firstn k rest); next := next x; proc := updf (proc x) p (CWrite s c i (skipn k rest)); pushed := pushed x; reads := reads x |}
      | _ => x
      end
  | LRename p =>
      match proc x p with
      | CWrite s c i [] => {| ent := updf (ent x) s (Some i); data := data x; next := next x; proc := updf (proc x) p CIdle; pushed := pushed x; reads := reads x |}
      | _ => x
      end
  | LOpen p s =>
      match proc x p, ent x s with
      | CIdle, Some i => setp x p (CRead s i [])
      | _, _ => x
      end
  | LReadBytes p k =>
      match proc x p with
      | CRead s i acc => setp x p (CRead s i (acc ++ firstn k (skipn (length acc) (data x i))))
      | _ => x
      end
  | LReadEnd p =>
      match proc x p with
      | CRead s i acc =>
          if length (data x i) <=? length acc
          then {| ent := ent x; data := data x; next := next x; proc := updf (proc x) p CIdle; pushed := pushed x; reads := (s, acc) :: reads x |}
          else x
      | _ => x
      end
  | LAbort p => setp x p CIdle
  | LPrune s => {| ent := updf (ent x) s None; data := data x; next := next x; proc := proc x; pushed := pushed x; reads := reads x |}
  end.
Definition cinit : cst := {| ent := fun _ => None; data := fun _ => []; next := 0; proc := fun _ => CIdle; pushed := []; reads := [] |}.
Definition crun (ls : list clabel) (x : cst) : cst := fold_left cstep ls x.

(* ---- C20: Task.execute ---- *)
(* Where the content of a target on disk comes from *)
Inductive origin := FromCache | Built.
Inductive retrieval := RHit | RMiss.                     (* t.retrieve_from_cache(); NoCache() targets always miss (FS.py 3016-3020) *)
Record tres := {
  x_disk : nat -> option origin;
  x_cached : list nat;                                   (* t.cached = 1 *)
  x_built : bool;                                        (* targets[0].build() was called *)
  x_before : nat -> option origin;                       (* the disk when build() was called *)
  x_pushed : list nat }.                                 (* t.push_to_cache() *)
Definition dput (d : nat -> option origin) (n : nat) (v : option origin) : nat -> option origin := fun m => if m =? n then v else d m.
(* lines 230-234: the loop with break *)
Fixpoint retrieve_loop (r : nat -> retrieval) (ts : list nat) (d : nat -> option origin) (cached : list nat) : (nat -> option origin) * list nat :=
  match ts with
  | [] => (d, cached)
  | t :: ts' => match r t with RHit => retrieve_loop r ts' (dput d t (Some FromCache)) (cached ++ [t]) | RMiss => (d, cached) end
  end.
(* lines 229-251, with all unlink() calls succeeding; build() writes all the targets or fails (ok) *)
Definition execute (r : nat -> retrieval) (ok : bool) (ts : list nat) (d : nat -> option origin) : tres :=
  let (d1, cached) := retrieve_loop r ts d [] in
  if length cached <? length ts then
    let d2 := fold_left (fun d t => dput d t None) cached d1 in
    let d3 := if ok then fold_left (fun d t => dput d t (Some Built)) ts d2 else d2 in
    {| x_disk := d3; x_cached := []; x_built := true; x_before := d2; x_pushed := if ok then ts else [] |}
  else {| x_disk := d1; x_cached := cached; x_built := false; x_before := d1; x_pushed := [] |}.

(* ---- C21: the cache key ---- *)
Definition str := list ascii.
(* ', '.join(l) *)
Fixpoint join (sep : str) (l : list str) : str := match l with [] => [] | [x] => x | x :: r => x ++ sep ++ join sep r end.
Definition comma_sp : str := [","%char; " "%char].
(* Util/hashes.py 345-360 hash_collect; H is hash_signature *)
Definition hash_collect (H : str -> str) (l : list str) : str := match l with [x] => x | _ => H (join comma_sp l) end.
(* FS.py 3691-3722 get_cachedir_bsig *)
Definition cache_key (H : str -> str) (child_sigs : list str) (action_sig path : str) : str := hash_collect H (child_sigs ++ [action_sig] ++ [path]).

(* ---- C33: hashing ---- *)
(* a hash object: hashlib's update / hexdigest *)
Record hasher := { h_state : Type; h_init : h_state; h_update : h_state -> bytes -> h_state; h_digest : h_state -> bytes }.
(* f.read(n): n < 0 reads everything *)
Definition read (n : Z) (rest : bytes) : bytes * bytes :=
  if (n <? 0)%Z then (rest, []) else (firstn (Z.to_nat n) rest, skipn (Z.to_nat n) rest).
(* Util/hashes.py 320-342 hash_file_signature; the loop makes at most |content|+1 rounds *)
Fixpoint hash_loop (h : hasher) (fuel : nat) (n : Z) (st : h_state h) (rest : bytes) : h_state h :=
  match fuel with
  | O => st
  | S fuel' => let (blk, rest') := read n rest in match blk with [] => st | _ => hash_loop h fuel' n (h_update h st blk) rest' end
  end.
Definition hash_file (h : hasher) (chunk : Z) (content : bytes) : bytes := h_digest h (hash_loop h (S (length content)) chunk (h_init h) content).
(* Util/hashes.py 300-317 hash_signature *)
Definition hash_signature (h : hasher) (content : bytes) : bytes := h_digest h (h_update h (h_init h) content).
(* FS.py 3248-3279 get_csig without the max_drift shortcut; NOFILE is the marker hashed for missing files; None = the file is missing *)
Definition file_csig (h : hasher) (nofile : bytes) (chunk : Z) (file : option bytes) : bytes :=
  match file with
  | None => hash_signature h nofile
  | Some c => if (Z.of_nat (length c) <? chunk)%Z then hash_signature h c else hash_file h chunk c
  end.
