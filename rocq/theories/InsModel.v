(* Model of copying, deleting and installing: SCons/Defaults.py (copy_func 252-310, delete_func 321-342), SCons/Tool/install.py (scons_copytree 53-146, copyFunc 151-175), and of the parts of Python's shutil
   (copyfile, copystat, copy2, copytree, rmtree) and of the file system they use.  No proofs.

   Simplified: POSIX; names are numbers and a path is the list of names from the root; what a link text means, seen from the directory the link is in, is again a path from the root (`goto`); a file has contents and a mode, no times,
   owners or hard links; every file may be read and written; the parent directory of the destination exists (SCons makes it before it builds a target: Node/FS.py File.prepare, _createDir), so os.makedirs makes one directory;
   no named pipes; no `ignore` function and no ignore_dangling_symlinks (nothing in SCons passes them).  str() of nodes, invalidate_node_memos (275, 327) and the texts of errors are left out.
   shutil.copytree and scons_copytree differ only in the type of exceptions and are one function here. *)
From Coq Require Import List Bool Arith.
Import ListNotations.
Open Scope list_scope.

Notation name := nat (only parsing).
Notation path := (list nat).
Inductive entry := File_ (content mode : nat) | Link_ (text : nat) | Dir_ (mode : nat).
(* what is at a path, seen without following links; the names in a directory, in the order of os.listdir *)
Record fs := { ent : path -> option entry; names : path -> list name }.

Section Ins.
Variable goto : path -> nat -> path.
Variable max_links : nat.                    (* how many links the system follows in one path *)
Variable new_mode : nat.                     (* what os.mkdir gives a directory *)
Variable writable : nat -> nat.              (* a mode with S_IWRITE *)

Fixpoint path_eqb (a b : path) : bool := match a, b with [], [] => true | x :: a, y :: b => (x =? y) && path_eqb a b | _, _ => false end.
Fixpoint under (top p : path) : bool := match top, p with [] , _ => true | x :: top, y :: p => (x =? y) && under top p | _ :: _, [] => false end.
Definition put (s : fs) (p : path) (e : option entry) : fs := {| ent := fun q => if path_eqb q p then e else ent s q; names := names s |}.
Definition dirname (p : path) : path := removelast p.
Definition basename (p : path) : name := last p 0.
(* a new name in a directory *)
Definition create (s : fs) (p : path) (e : entry) : fs :=
  {| ent := ent (put s p (Some e)); names := fun q => if path_eqb q (dirname p) then names s q ++ [basename p] else names s q |}.

(* ---- the kernel following a path; the links left, and where it ends ---- *)
Fixpoint walk (links : nat) (s : fs) : path -> path -> option (nat * path) :=
  fix go (cur todo : path) : option (nat * path) :=
  match todo with
  | [] => Some (links, cur)
  | n :: r => match ent s cur with
              | Some (Dir_ _) => match ent s (cur ++ [n]) with
                                 | Some (Link_ t) => match links with 0 => None | S l => walk l s [] (goto cur t ++ r) end
                                 | _ => go (cur ++ [n]) r
                                 end
              | _ => None
              end
  end.
Definition real (s : fs) (p : path) : option path := match walk max_links s [] p with Some (_, q) => Some q | None => None end.
(* os.stat, os.lstat *)
Definition stat (s : fs) (p : path) : option entry := match real s p with Some q => ent s q | None => None end.
Definition lpath (s : fs) (p : path) : option path :=
  match p with
  | [] => Some []
  | _ => match real s (dirname p) with Some q => match ent s q with Some (Dir_ _) => Some (q ++ [basename p]) | _ => None end | None => None end
  end.
Definition lstat (s : fs) (p : path) : option entry := match lpath s p with Some q => ent s q | None => None end.
Definition some {A : Type} (o : option A) : bool := match o with Some _ => true | None => false end.
Definition exists_ (s : fs) (p : path) : bool := some (stat s p).
Definition isdir (s : fs) (p : path) : bool := match stat s p with Some (Dir_ _) => true | _ => false end.
Definition isfile (s : fs) (p : path) : bool := match stat s p with Some (File_ _ _) => true | _ => false end.
Definition islink (s : fs) (p : path) : bool := match lstat s p with Some (Link_ _) => true | _ => false end.
Definition listdir (s : fs) (p : path) : option (list name) :=
  match real s p with Some q => match ent s q with Some (Dir_ _) => Some (names s q) | _ => None end | None => None end.

(* ---- system calls; None: OSError ---- *)
Definition mkdir (s : fs) (p : path) : option fs :=
  match lpath s p with Some q => match ent s q with None => Some (create s q (Dir_ new_mode)) | Some _ => None end | None => None end.
(* os.makedirs with exist_ok *)
Definition makedirs (exist_ok : bool) (s : fs) (p : path) : option fs :=
  match mkdir s p with Some s1 => Some s1 | None => if exist_ok && isdir s p then Some s else None end.
Definition symlink (s : fs) (t : nat) (p : path) : option fs :=
  match lpath s p with Some q => match ent s q with None => Some (create s q (Link_ t)) | Some _ => None end | None => None end.
Definition unlink (s : fs) (p : path) : option fs :=
  match lpath s p with
  | Some q => match ent s q with
              | Some (File_ _ _) | Some (Link_ _) => Some {| ent := ent (put s q None); names := fun d => if path_eqb d (dirname q) then filter (fun n => negb (n =? basename q)) (names s d) else names s d |}
              | _ => None
              end
  | None => None
  end.
Definition write (s : fs) (p : path) (c : nat) : option fs :=                 (* open(p, wb); write *)
  match real s p with
  | Some q => match ent s q with
              | Some (File_ _ m) => Some (put s q (Some (File_ c m)))
              | Some _ => None
              | None => Some (create s q (File_ c new_mode))
              end
  | None => None
  end.
Definition chmod (s : fs) (p : path) (m : nat) : option fs :=
  match real s p with
  | Some q => match ent s q with
              | Some (File_ c _) => Some (put s q (Some (File_ c m)))
              | Some (Dir_ _) => Some (put s q (Some (Dir_ m)))
              | _ => None
              end
  | None => None
  end.
Definition mode_of (e : entry) : nat := match e with File_ _ m | Dir_ m => m | Link_ _ => 0 end.

(* ---- shutil.py ---- *)
Definition copystat (s : fs) (src dst : path) : option fs := match stat s src with Some e => chmod s dst (mode_of e) | None => None end.
(* _samefile *)
Definition samefile (s : fs) (a b : path) : bool :=
  match real s a, real s b with Some p, Some q => some (ent s p) && path_eqb p q | _, _ => false end.
(* what is done stays done when an error is raised: the files after it, and whether there was none *)
Definition copyfile (s : fs) (src dst : path) : bool * fs :=
  if samefile s src dst then (false, s)
  else match stat s src with
       | Some (File_ c _) => match write s dst c with Some s1 => (true, s1) | None => (false, s) end
       | _ => (false, s)
       end.
Definition copy2 (s : fs) (src dst : path) : bool * fs :=
  let dst := if isdir s dst then dst ++ [basename src] else dst in
  let '(ok, s1) := copyfile s src dst in
  if ok then match copystat s1 src dst with Some s2 => (true, s2) | None => (false, s1) end else (false, s1).
(* shutil.rmtree(p, ignore_errors=True) of a directory that is not reached by a link *)
Definition rmtree (s : fs) (p : path) : fs :=
  match lpath s p with
  | Some q => {| ent := fun x => if under q x then None else ent s x;
                 names := fun d => if under q d then [] else if path_eqb d (dirname q) then filter (fun n => negb (n =? basename q)) (names s d) else names s d |}
  | None => s
  end.

(* ---- install.py 53-146 and shutil.copytree; None: it has not ended within this depth ---- *)
Section Copytree.
Variables (symlinks dirs_exist_ok : bool).
Variable rec : fs -> path -> path -> option (bool * fs).
(* 104-135: the loop over the names *)
Definition copy_entry (s : fs) (srcname dstname : path) : option (bool * fs) :=
  match lstat s srcname with
  | Some (Link_ linkto) =>
    if symlinks then Some (match symlink s linkto dstname with Some s1 => (true, s1) | None => (false, s) end)
    else if isdir s srcname then rec s srcname dstname else Some (copy2 s srcname dstname)
  | _ => if isdir s srcname then rec s srcname dstname else Some (copy2 s srcname dstname)
  end.
Fixpoint each (src dst : path) (l : list name) (s : fs) (ok : bool) : option (bool * fs) :=
  match l with
  | [] => Some (ok, s)
  | n :: r => match copy_entry s (src ++ [n]) (dst ++ [n]) with
              | Some (ok1, s1) => each src dst r s1 (ok && ok1)
              | None => None
              end
  end.
End Copytree.
Fixpoint copytree (depth : nat) (symlinks dirs_exist_ok : bool) (s : fs) (src dst : path) : option (bool * fs) :=
  match depth with
  | 0 => None
  | S d =>
    match listdir s src with                                                      (* 97 *)
    | None => Some (false, s)
    | Some l => match makedirs dirs_exist_ok s dst with                           (* 103 *)
                | None => Some (false, s)
                | Some s1 => match each symlinks (copytree d symlinks dirs_exist_ok) src dst l s1 true with
                             | None => None
                             | Some (ok, s2) => match copystat s2 src dst with    (* 136-141 *)
                                                | Some s3 => Some (ok, s3)
                                                | None => Some (false, s2)
                                                end
                             end
                end
    end
  end.

(* ---- install.py 151-175 ---- *)
Definition copyFunc (depth : nat) (s : fs) (dest source : path) : option (bool * fs) :=
  if isdir s source then
    if exists_ s dest && negb (isdir s dest) then Some (false, s)                  (* 160-162 *)
    else copytree depth false true s source dest
  else
    let '(ok, s1) := copy2 s source dest in
    Some (if ok then match stat s1 source with                                    (* 170-171 *)
                     | Some e => match chmod s1 dest (writable (mode_of e)) with Some s2 => (true, s2) | None => (false, s1) end
                     | None => (false, s1)
                     end
          else (false, s1)).

(* ---- Defaults.py 252-310; the recursive call (300) is made at most once: realpath is no link ---- *)
Inductive sources := One (p : path) | Many (l : list path).
Fixpoint copy_list (l : list path) (dest : path) (s : fs) : bool * fs :=          (* 288-289 *)
  match l with [] => (true, s) | f :: r => let '(ok, s1) := copy2 s f dest in if ok then copy_list r dest s1 else (false, s1) end.
Definition copy_plain (depth : nat) (s : fs) (dest src : path) (symlinks : bool) : option (bool * fs) :=    (* 302-309 *)
  if isfile s src then Some (copy2 s src dest) else copytree depth symlinks false s src dest.
Definition copy_func (depth : nat) (s : fs) (dest : path) (src : sources) (symlinks : bool) : option (bool * fs) :=
  match src with
  | Many l => match makedirs true s dest with None => Some (false, s) | Some s1 => Some (copy_list l dest s1) end
  | One src =>
    match lstat s src with
    | Some (Link_ t) =>
      if symlinks then Some (match symlink s t dest with Some s1 => (true, s1) | None => (false, s) end)      (* 292-298 *)
      else match real s src with Some q => copy_plain depth s dest q true | None => Some (false, s) end       (* 300: symlinks is not passed on *)
    | _ => copy_plain depth s dest src symlinks
    end
  end.

(* ---- Defaults.py 321-342 ---- *)
Fixpoint delete_func (dest : list path) (must_exist : bool) (s : fs) : bool * fs :=
  match dest with
  | [] => (true, s)
  | e :: r =>
    if negb (exists_ s e || islink s e) && negb must_exist then delete_func r must_exist s
    else if isdir s e && negb (islink s e) then delete_func r must_exist (rmtree s e)
    else match unlink s e with Some s1 => delete_func r must_exist s1 | None => (false, s) end
  end.
End Ins.
