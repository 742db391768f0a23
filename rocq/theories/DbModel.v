(* Model of SCons/dblite.py (class _Dblite) and of the file writers of SCons/SConsign.py.  No proofs.

   Files are byte strings under names; a save is a sequence of file-system steps, and a process that dies
   leaves the effect of a prefix of that sequence (the kernel keeps what was written; power failures are
   not modelled).  A dictionary is an association list.  pickle is an abstract codec: what is
   assumed of it is [codec_ok] in DbSpec.v.
   Not modelled: file ownership and modes, KEEP_ALL_FILES, other dbm modules. *)
From Coq Require Import List Arith Bool.
Import ListNotations.

Notation fname := nat (only parsing).
Notation byte := nat (only parsing).
Definition fs := fname -> option (list byte).

Inductive fstep :=
  | Trunc (n : fname)                       (* open(n, "wb") *)
  | Append (n : fname) (b : list byte)      (* one write() *)
  | Replace (a b : fname)                   (* os.replace / os.rename on POSIX *)
  | Unlink (a : fname).

Definition fput (f : fs) (n : fname) (v : option (list byte)) : fs := fun m => if m =? n then v else f m.
Definition exec1 (f : fs) (s : fstep) : fs :=
  match s with
  | Trunc n => fput f n (Some [])
  | Append n b => fput f n (match f n with Some x => Some (x ++ b) | None => Some b end)
  | Replace a b => match f a with Some x => fput (fput f b (Some x)) a None | None => f end
  | Unlink a => fput f a None
  end.
Definition exec (f : fs) (l : list fstep) : fs := fold_left exec1 l f.

(* dictionaries *)
Section Dict.
Context {V : Type}.
Definition dict := list (nat * V).
Fixpoint dget (d : dict) (k : nat) : option V := match d with [] => None | (k', v) :: r => if k =? k' then Some v else dget r k end.
Fixpoint dset (d : dict) (k : nat) (v : V) : dict :=
  match d with [] => [(k, v)] | (k', v') :: r => if k =? k' then (k, v) :: r else (k', v') :: dset r k v end.
Fixpoint ddel (d : dict) (k : nat) : dict := match d with [] => [] | (k', v) :: r => if k =? k' then ddel r k else (k', v) :: ddel r k end.
End Dict.
Arguments dict : clear implicits.

(* pickle.dump / pickle.loads: None = one of the exceptions listed in dblite.py 155-165 *)
Record codec (V : Type) := { enc : V -> list byte; dec : list byte -> option V }.
Arguments enc {V}. Arguments dec {V}.

(* dblite.py 77-80, 109-128 *)
Inductive flag := FR | FW | FC | FN.
Definition flag_eqb (a b : flag) : bool := match a, b with FR, FR | FW, FW | FC, FC | FN, FN => true | _, _ => false end.
Record db (V : Type) := { d_flag : flag; d_dict : dict V; d_dirty : bool }.
Arguments d_flag {V}. Arguments d_dict {V}. Arguments d_dirty {V}.

Section Dblite.
Context {V : Type} (C : codec (dict V)) (ignore_corrupt : bool) (file tmp : fname).

(* dblite.py 109-168 __init__: the handle (None = an exception is raised) and the steps performed on disk *)
Definition open_db (f : fs) (fl : flag) : option (db V) * list fstep :=
  match fl with
  | FN => (Some {| d_flag := fl; d_dict := []; d_dirty := false |}, [Trunc file])
  | _ =>
    match f file with
    | None => if flag_eqb fl FC then (Some {| d_flag := fl; d_dict := []; d_dirty := false |}, [Trunc file]) else (None, [])
    | Some [] => (Some {| d_flag := fl; d_dict := []; d_dirty := false |}, [])
    | Some p => match dec C p with
                | Some d => (Some {| d_flag := fl; d_dict := d; d_dirty := false |}, [])
                | None => if ignore_corrupt then (Some {| d_flag := fl; d_dict := []; d_dirty := false |}, []) else (None, [])
                end
    end
  end.

(* dblite.py 190-216 sync: the steps on disk.  [chunks] is how the pickled string is split into writes.
   The retry after PermissionError performs the same os.replace. *)
Definition sync_steps (chunks : list (list byte)) : list fstep := Trunc tmp :: map (Append tmp) chunks ++ [Replace tmp file].

(* Operations on an open handle.  Results: None = exception (nothing changed). *)
Inductive dop := DSet (k : nat) (v : V) | DDel (k : nat) | DSync | DClose.
Definition writable (h : db V) : bool := negb (flag_eqb (d_flag h) FR).
Definition sync_db (h : db V) (f : fs) : option (db V * fs) :=
  if writable h then Some ({| d_flag := d_flag h; d_dict := d_dict h; d_dirty := false |}, exec f (sync_steps [enc C (d_dict h)])) else None.
Definition dstep (o : dop) (h : db V) (f : fs) : option (db V * fs) :=
  match o with
  | DSet k v => if writable h then Some ({| d_flag := d_flag h; d_dict := dset (d_dict h) k v; d_dirty := true |}, f) else None   (* 239-249 *)
  | DDel k => match dget (d_dict h) k with                                        (* 251-252: no check, _needs_sync untouched *)
              | Some _ => Some ({| d_flag := d_flag h; d_dict := ddel (d_dict h) k; d_dirty := d_dirty h |}, f)
              | None => None end
  | DSync => sync_db h f
  | DClose => if d_dirty h then sync_db h f else Some (h, f)                      (* 182-184 *)
  end.
(* an operation that raises leaves everything as it was *)
Definition dstep' (hf : db V * fs) (o : dop) : db V * fs := match dstep o (fst hf) (snd hf) with Some r => r | None => hf end.
Definition dops (l : list dop) (hf : db V * fs) : db V * fs := fold_left dstep' l hf.

(* One run of SCons with this database, as far as the database file is concerned: SConsign.Get_DataBase opens it
   with "c" (SConsign.py 91-97), SConsign.write stores the entries and calls sync (SConsign.py 117-137).
   [work] is what the run turns the dictionary into. *)
Definition run_steps (f : fs) (work : dict V -> dict V) (split : list byte -> list (list byte)) : list fstep :=
  match open_db f FC with
  | (Some h, st) => st ++ sync_steps (split (enc C (work (d_dict h))))
  | (None, st) => st
  end.
End Dblite.

(* SConsign.py 333-367 DirFile.__init__ with Dir.__init__ 316-330: the entries found; every exception is
   turned into a warning and no entries *)
Definition dirfile_read {E} (C : codec E) (none : E) (f : fs) (sconsign : fname) : E :=
  match f sconsign with
  | None => none
  | Some p => match dec C p with Some e => e | None => none end
  end.

(* Which of the system calls of DirFile.write succeed *)
Record outcomes := {
  oc_temp : bool;        (* open(temp, 'wb') *)
  oc_direct : bool;      (* open(self.sconsign, 'wb') as a fallback *)
  oc_unlink : bool;      (* os.stat, os.chmod and os.unlink *)
  oc_rename : bool }.

(* SConsign.py 370-430 DirFile.write (dirty).  On POSIX os.rename replaces. *)
Definition dirfile_steps (sconsign temp : fname) (oc : outcomes) (data : list byte) (chunks : list (list byte)) : list fstep :=
  if oc_temp oc then
    Trunc temp :: map (Append temp) chunks
    ++ (if oc_unlink oc then [Unlink sconsign] else [])
    ++ (if oc_rename oc then [Replace temp sconsign] else [Trunc sconsign; Append sconsign data])
    ++ [Unlink temp]
  else if oc_direct oc then
    Trunc sconsign :: map (Append sconsign) chunks ++ [Unlink temp]
  else [].

(* SConsign.py 257-294 DB.write for every open directory, then sync of the database (117-137 write()).
   [dirs]: (path, dirty, entries after merge). *)
Definition db_write_all {E V} (dump : E -> V) (dirs : list (nat * bool * E)) (d : dict V) : dict V :=
  fold_left (fun d x => match x with (path, dirty, es) => if (dirty : bool) then dset d path (dump es) else d end) dirs d.
(* SConsign.py 218-244 DB.__init__: the entries of a directory *)
Definition db_read_dir {E V} (load : V -> option E) (none : E) (d : dict V) (path : nat) : E :=
  match dget d path with None => none | Some raw => match load raw with Some es => es | None => none end end.
