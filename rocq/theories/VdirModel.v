(* Variant directories (C57): VariantDir(), srcnode(), the mapping of
   command-line targets into the variant directories, and the on-disk
   duplication of source files into a variant directory with duplicate=1.

   Paths are lists of names, DEEPEST NAME FIRST: build/sub/x.c is
   ["x.c"; "sub"; "build"].  So the parent directory is the tail, and the
   path w below directory d is w ++ d. *)
From Coq Require Import String List Bool Arith Lia.
Import ListNotations.
Open Scope list_scope.

Definition path := list string.

Definition path_dec (p q : path) : {p = q} + {p <> q} := list_eq_dec string_dec p q.

Definition peqb (p q : path) : bool := if path_dec p q then true else false.

(* SCons/Node/FS.py 817-821 (Base.is_under), 2529-2530 (RootDir.is_under):
   climb from the node to the root, looking for [d]. *)
Fixpoint is_under (d p : path) : bool :=
  peqb p d || match p with [] => false | _ :: q => is_under d q end.

(* ------------------------------------------------------------------ *)
(* The table of variant directories and the nodes                     *)

(* The part of SCons.Node.FS.FS this file is about:
   - [flag p] is None when no Node exists for path p, and otherwise its
     attribute duplicate (FS.py 648, 2416);
   - [srcdir d] is the attribute srcdir of directory d (FS.py 1656, 1754);
   - [vdirs d] its attribute variant_dirs (FS.py 1662, 1757);
   - [memo d] the memoized value of srcdir_list() (FS.py 2098-2101, 2113). *)
Record vst := VSt {
  flag : path -> option bool;
  srcdir : path -> option path;
  vdirs : path -> list path;
  memo : path -> option (list path)
}.

(* SCons/Node/FS.py 2380-2440 (RootDir.__init__): only the root exists, its
   duplicate is False (2416). *)
Definition v0 : vst :=
  VSt (fun p => match p with [] => Some false | _ => None end)
      (fun _ => None) (fun _ => []) (fun _ => None).

(* The duplicate attribute a new Node gets: that of its directory, which is
   itself created first when there is none.
   SCons/Node/FS.py 648 (Base.__init__), 2489-2497 (_lookup_abs: the parent
   directory is looked up, creating it). *)
Fixpoint inherit (f : path -> option bool) (p : path) : bool :=
  match f p with
  | Some b => b
  | None => match p with [] => false | _ :: d => inherit f d end
  end.

(* Looking up a path creates it and all its parents, keeping those there.
   SCons/Node/FS.py 2470-2516 (RootDir._lookup_abs).
   Simplified: the classes of the Nodes (File, Dir, Entry) and the TypeError
   on a mismatch are left out. *)
Definition create (p : path) (s : vst) : vst :=
  VSt (fun q => if is_under q p
                then match flag s q with
                     | Some b => Some b
                     | None => Some (inherit (flag s) q)
                     end
                else flag s q)
      (srcdir s) (vdirs s) (memo s).

(* SCons/Node/FS.py 1752-1757 (Dir.link) with 1706-1725
   (__clearRepositoryCache): the attribute is set on the directory; the
   memoized values of every Node below it (its entry "." is itself) are
   dropped; their duplicate is set too, but only when it becomes true. *)
Definition link (v src : path) (dup : bool) (s : vst) : vst :=
  VSt (fun q => if peqb q v then Some dup
                else if is_under v q && dup
                     then match flag s q with Some _ => Some true | None => None end
                     else flag s q)
      (fun q => if peqb q v then Some src else srcdir s q)
      (fun q => if peqb q src then vdirs s q ++ [v] else vdirs s q)
      (fun q => if is_under v q then None else memo s q).

Inductive vres := VDone | VUnderVariant | VOtherSource.

(* SCons/Node/FS.py 1503-1517 (FS.VariantDir) *)
Definition variant_dir (v src : path) (dup : bool) (s : vst) : vres * vst :=
  let s := create v (create src s) in
  if is_under v src then (VUnderVariant, s)
  else match srcdir s v with
       | Some o => if peqb o src then (VDone, s) else (VOtherSource, s)
       | None => (VDone, link v src dup s)
       end.

(* SCons/Node/FS.py 2104-2111: the loop of srcdir_list; [suf] is dirname *)
Fixpoint srcdir_climb (sd : path -> option path) (d suf : path) : list path :=
  (match sd d with Some s => [suf ++ s] | None => [] end) ++
  match d with [] => [] | n :: up => srcdir_climb sd up (suf ++ [n]) end.

(* SCons/Node/FS.py 2097-2115 (Dir.srcdir_list): memoized; the source
   directories found are looked up, hence created. *)
Definition srcdir_list (d : path) (s : vst) : list path * vst :=
  match memo s d with
  | Some l => (l, s)
  | None =>
      let l := srcdir_climb (srcdir s) d [] in
      let s := fold_left (fun s p => create p s) l s in
      (l, VSt (flag s) (srcdir s) (vdirs s)
              (fun q => if peqb q d then Some l else memo s q))
  end.

(* SCons/Node/FS.py 826-836 (Base.srcnode), for a File or Entry.
   The root has no srcnode other than itself. *)
Definition srcnode (p : path) (s : vst) : path * vst :=
  match p with
  | [] => (p, s)
  | n :: d =>
      match srcdir_list d s with
      | (q :: _, s) => (n :: q, create (n :: q) s)
      | ([], s) => (p, s)
      end
  end.

(* SCons/Node/FS.py 1994-1999 (Dir.srcnode) *)
Definition dir_srcnode (p : path) (s : vst) : path * vst :=
  match srcdir s p with
  | Some q => (q, s)
  | None => srcnode p s
  end.

(* SCons/Node/FS.py 1558-1565 (variant_dir_target_climb), the loop; [start] is
   start_dir, [tail] the path below [dir].  None = "don't reflect". *)
Fixpoint climb (vd : path -> list path) (start dir tail : path) : option (list path) :=
  if existsb (fun bd => is_under bd start) (vd dir) then None
  else match dir with
       | [] => Some (map (fun bd => tail ++ bd) (vd dir))
       | n :: up =>
           match climb vd start up (tail ++ [n]) with
           | None => None
           | Some r => Some (map (fun bd => tail ++ bd) (vd dir) ++ r)
           end
       end.

(* SCons/Node/FS.py 3138-3143 (File.alter_targets), 1939-1942
   (Dir.alter_targets), 1546-1568.  The message is left out. *)
Definition alter_file (p : path) (derived : bool) (s : vst) : list path :=
  if derived then []
  else match p with
       | [] => []
       | n :: d => match climb (vdirs s) d d [n] with
                   | None => [p]
                   | Some l => l
                   end
       end.

Definition alter_dir (p : path) (s : vst) : list path :=
  match climb (vdirs s) p p [] with
  | None => [p]
  | Some l => l
  end.

(* What SConscript files do: VariantDir calls, lookups and srcnode calls in
   any order. *)
Inductive vev :=
| EVariant (v src : path) (dup : bool)
| ELookup (p : path)
| ESrcnode (p : path)
| EDirSrcnode (p : path).

Definition vstep (s : vst) (e : vev) : vst :=
  match e with
  | EVariant v src dup => snd (variant_dir v src dup s)
  | ELookup p => create p s
  | ESrcnode p => snd (srcnode p (create p s))
  | EDirSrcnode p => snd (dir_srcnode p (create p s))
  end.

Definition vrun (h : list vev) : vst := fold_left vstep h v0.

(* ------------------------------------------------------------------ *)
(* The disk                                                           *)

(* A directory entry: a regular file, by inode number, or a symbolic link,
   whose text is an absolute path or one relative to the directory of the
   link.  Simplified: directories are not represented (they are created as
   needed, _createDir, FS.py 2996-2999, 1903-1931), no component but the last of a path
   is a symbolic link, and the text of a relative link has no "..". *)
Inductive ent := EReg (ino : nat) | ELnk (abs : bool) (text : path).

Record disk := Disk {
  ents : path -> option ent;
  cont : nat -> nat;            (* inode -> the bytes in it, as a number *)
  next : nat                    (* the next free inode *)
}.

Definition setent (d : disk) (p : path) (e : option ent) : disk :=
  Disk (fun q => if peqb q p then e else ents d q) (cont d) (next d).

Definition lnk_to (from : path) (abs : bool) (text : path) : path :=
  if abs then text else text ++ from.

(* Following symbolic links; the kernel gives up after 40 (ELOOP). *)
Fixpoint resolve (k : nat) (d : disk) (p : path) : option nat :=
  match ents d p with
  | None => None
  | Some (EReg i) => Some i
  | Some (ELnk a q) =>
      match k with
      | 0 => None
      | S k => resolve k d (lnk_to (tl p) a q)
      end
  end.

Definition stat (d : disk) (p : path) : option nat := resolve 40 d p.

Definition readf (d : disk) (p : path) : option nat := option_map (cont d) (stat d p).

(* open(p, "w"): truncates what is there, following links, or creates a file *)
Fixpoint write_ (k : nat) (d : disk) (p : path) (c : nat) : option disk :=
  match ents d p with
  | None => Some (Disk (fun q => if peqb q p then Some (EReg (next d)) else ents d q)
                       (fun i => if i =? next d then c else cont d i)
                       (S (next d)))
  | Some (EReg i) => Some (Disk (ents d) (fun j => if j =? i then c else cont d j) (next d))
  | Some (ELnk a q) =>
      match k with
      | 0 => None
      | S k => write_ k d (lnk_to (tl p) a q) c
      end
  end.

Definition write (d : disk) (p : path) (c : nat) : option disk := write_ 40 d p c.

(* ------------------------------------------------------------------ *)
(* Duplicating                                                        *)

Inductive meth := Hard | Soft | Copy.

(* What a run is given: the attributes of the Nodes, the options, and which
   file system calls fail.
   SCons/Node/__init__.py 943-953 (is_derived), 613 (linked);
   SCons/Node/FS.py 262-287 (set_duplicate, Link_Funcs). *)
Record conf := Conf {
  dupl : path -> bool;           (* Node.duplicate *)
  derived : path -> bool;        (* has a builder, or is a side effect *)
  precious : path -> bool;
  srcof : path -> option path;   (* srcnode(), None when it is itself *)
  dry : bool;                    (* -n *)
  order : list meth;             (* --duplicate *)
  cwd : path;                    (* the current directory of scons *)
  ufail : nat -> bool;           (* does the n-th call fail, if an unlink *)
  lfail : nat -> bool;           (* ... if a link, symlink or copy *)
  torn : nat -> option nat       (* what a failing copy leaves, if anything *)
}.

(* The state: the disk, the number of system calls so far, and per Node the
   attribute linked and the memoized value of exists().
   Simplified: the memoized values of stat() and lstat() are left out. *)
Record dst := DSt {
  dsk : disk;
  clk : nat;
  linked : path -> bool;
  mex : path -> option bool
}.

Definition upd {A} (f : path -> A) (p : path) (a : A) : path -> A :=
  fun q => if peqb q p then a else f q.

Definition tick (s : dst) : dst := DSt (dsk s) (S (clk s)) (linked s) (mex s).
Definition setdsk (d : disk) (s : dst) : dst := DSt d (clk s) (linked s) (mex s).
Definition clear (p : path) (s : dst) : dst := DSt (dsk s) (clk s) (linked s) (upd (mex s) p None).
Definition memo_exists (p : path) (b : bool) (s : dst) : dst :=
  DSt (dsk s) (clk s) (linked s) (upd (mex s) p (Some b)).
Definition set_linked (p : path) (s : dst) : dst :=
  DSt (dsk s) (clk s) (upd (linked s) p true) (mex s).

(* os.unlink; None = OSError.  A missing file is FileNotFoundError, which
   UnlinkFunc passes over (SCons/Node/FS.py 345-353). *)
Definition unlink (c : conf) (p : path) (s : dst) : option dst :=
  match ents (dsk s) p with
  | None => Some (tick s)
  | Some _ => if ufail c (clk s) then None else Some (tick (setdsk (setent (dsk s) p None) s))
  end.

(* SCons/Node/FS.py 250-262 (_hardlink_func), the loop over symbolic links.
   "if not os.path.isabs(link): src = link": a relative link is then used as
   it is, that is, relative to the current directory; an absolute one is
   joined to the directory, which gives it back.  None = does not end. *)
Fixpoint hard_src (k : nat) (cw : path) (d : disk) (src : path) : option path :=
  match ents d src with
  | Some (ELnk a q) =>
      match k with
      | 0 => None
      | S k => hard_src k cw d (lnk_to cw a q)
      end
  | _ => Some src
  end.

(* The fuel of hard_src: more links than this in a row is taken for a
   loop that does not end. *)
Definition loopmax : nat := 1000.

Inductive lres := LOk (d : disk) | LErr (d : disk) | LHang.

Definition lwrite (d : disk) (p : path) (x : nat) : lres :=
  match write d p x with Some d' => LOk d' | None => LErr d end.

(* SCons/Node/FS.py 250-276 (_hardlink_func, _softlink_func, _copy_func).
   Simplified: modes, times and the chmod are left out. *)
Definition link_one (c : conf) (m : meth) (n : nat) (d : disk) (src dst : path) : lres :=
  match m with
  | Hard =>
      match hard_src loopmax (cwd c) d src with
      | None => LHang
      | Some s =>
          if lfail c n then LErr d
          else match ents d s, ents d dst with
               | Some e, None => LOk (setent d dst (Some e))
               | _, _ => LErr d
               end
      end
  | Soft =>
      if lfail c n then LErr d
      else match ents d dst with
           | None => LOk (setent d dst (Some (ELnk true src)))
           | Some _ => LErr d
           end
  | Copy =>
      match stat d src with
      | None => LErr d
      | Some i =>
          match stat d dst with
          | Some j => if j =? i then LErr d   (* shutil.SameFileError *)
                      else if lfail c n
                      then match torn c n with
                           | None => LErr d
                           | Some x => match lwrite d dst x with LOk d' => LErr d' | r => r end
                           end
                      else lwrite d dst (cont d i)
          | None => if lfail c n
                    then match torn c n with
                         | None => LErr d
                         | Some x => match lwrite d dst x with LOk d' => LErr d' | r => r end
                         end
                    else lwrite d dst (cont d i)
          end
      end
  end.

(* SCons/Node/FS.py 300-338 (LinkFunc): the functions are tried in order, and
   an OSError of the last one is raised. *)
Fixpoint link_all (c : conf) (ms : list meth) (n : nat) (d : disk) (src dst : path) : lres :=
  match ms with
  | [] => LOk d
  | m :: rest =>
      match link_one c m n d src dst with
      | LOk d => LOk d
      | LHang => LHang
      | LErr d => match rest with [] => LErr d | _ => link_all c rest (S n) d src dst end
      end
  end.

(* How a call ends: normally, with an exception (the state is that at the
   exception), in a loop that does not end, or with Python's RecursionError. *)
Inductive res (A : Type) := Ret (a : A) (s : dst) | Raise (s : dst) | Hang | Deep.
Arguments Ret {A} a s.
Arguments Raise {A} s.
Arguments Hang {A}.
Arguments Deep {A}.

(* SCons/Node/FS.py 3188-3206 (File.do_duplicate).  The result of Unlink is
   not looked at; with -n neither action does anything (Action.py: the actions
   are not executed). *)
Definition do_duplicate (c : conf) (p src : path) (s : dst) : res unit :=
  if dry c then Ret tt (clear p (set_linked p s))
  else
    let s := match unlink c p s with Some s => s | None => tick s end in
    let after d := DSt d (clk s + length (order c)) (linked s) (mex s) in
    match link_all c (order c) (clk s) (dsk s) src p with
    | LOk d => Ret tt (clear p (set_linked p (after d)))
    | LErr d => Raise (after d)
    | LHang => Hang
    end.

Definition islink (d : disk) (p : path) : bool :=
  match ents d p with Some (ELnk _ _) => true | _ => false end.

(* exists_base: SCons/Node/__init__.py 137-138 *)
Definition exists_base (d : disk) (p : path) : bool :=
  match stat d p with Some _ => true | None => false end.

(* SCons/Node/FS.py 3208-3216 (File.exists) and SCons/Node/__init__.py 148-170
   (exists_file).  [fuel] is the depth of the recursion, src.rfile() (FS.py
   3588-3594) and src.exists(), that Python allows.
   The old copy in the variant directory is removed with fs.unlink itself
   (line 166), not through the Unlink action.
   Simplified: no repositories (C39 models them), so src.rfile() is src. *)
Fixpoint exists_ (fuel : nat) (c : conf) (p : path) (s : dst) : res bool :=
  match fuel with
  | 0 => Deep
  | S fuel =>
    match mex s p with
    | Some b => Ret b s
    | None =>
        let base s := Ret (exists_base (dsk s) p) (memo_exists p (exists_base (dsk s) p) s) in
        if dupl c p && negb (derived c p) && negb (linked s p) then
          match srcof c p with
          | None => base s
          | Some src =>
              if peqb src p then base s
              else match exists_ fuel c src s with
                   | Ret true s =>
                       match do_duplicate c p src s with
                       | Ret _ s => base s
                       | Raise s => Raise s
                       | Hang => Hang
                       | Deep => Deep
                       end
                   | Ret false s =>
                       if exists_base (dsk s) p || islink (dsk s) p then
                         match unlink c p s with
                         | Some s => Ret false (memo_exists p false s)
                         | None => Raise s
                         end
                       else Ret false (memo_exists p false s)
                   | r => r
                   end
          end
        else base s
    end
  end.

(* Building a target: SCons/Node/FS.py 3163-3180 (File.prepare), 3145-3151
   (_rmv_existing: an error of Unlink is raised), then the action, which
   writes the target, then Node.built() (SCons/Node/__init__.py 779-814),
   which clears the Node.  With -n neither happens. *)
Definition build (fuel : nat) (c : conf) (t : path) (content : nat) (s : dst) : res unit :=
  match exists_ fuel c t s with
  | Hang => Hang
  | Deep => Deep
  | Raise s => Raise s
  | Ret b s =>
      let prepared :=
        if (b || islink (dsk s) t) && derived c t && negb (precious c t)
        then if dry c then Some (clear t s) else unlink c t (clear t s)
        else Some s in
      match prepared with
      | None => Raise (clear t s)
      | Some s =>
          if dry c then Ret tt (clear t s)
          else match write (dsk s) t content with
               | None => Raise s
               | Some d => Ret tt (clear t (setdsk d s))
               end
      end
  end.

Inductive op := OExists (p : path) | OBuild (t : path) (content : nat).

Definition do_op (fuel : nat) (c : conf) (o : op) (s : dst) : res unit :=
  match o with
  | OExists p => match exists_ fuel c p s with
                 | Ret _ s => Ret tt s
                 | Raise s => Raise s
                 | Hang => Hang
                 | Deep => Deep
                 end
  | OBuild t x => build fuel c t x s
  end.

(* A run.  An exception fails one task; others may follow (-k), or none.
   None = it hangs, or dies of a RecursionError. *)
Fixpoint do_ops (fuel : nat) (c : conf) (l : list op) (s : dst) : option dst :=
  match l with
  | [] => Some s
  | o :: l => match do_op fuel c o s with
              | Ret _ s => do_ops fuel c l s
              | Raise s => do_ops fuel c l s
              | _ => None
              end
  end.

(* A new scons process: nothing is memoized or linked yet. *)
Definition start (d : disk) : dst := DSt d 0 (fun _ => false) (fun _ => None).
