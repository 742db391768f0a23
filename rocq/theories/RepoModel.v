(* Model of the search for files in repositories and source directories: SCons/Node/FS.py (VariantDir 1503-1517, Repository 1519-1524,
   __clearRepositoryCache 1709-1725, link 1752-1758, getRepositories 1760-1765, get_all_rdirs 1767-1788, addRepository 1790-1794,
   srcdir_list 2096-2115, srcdir_duplicate 2117-2133, srcdir_find_file 2138-2178, file_on_disk 2189-2196, rentry 971-987, rfile 3587-3620,
   find_repo_file 3622-3642, FileFinder.find_file 3782-3826).  No proofs.

   A directory is the list of the names that lead to it, the last one first (the root of the file system is []).  The disk does not change
   during a search, and looking up a node in a repository adds it to the directory's entries only with the kind it has on disk, so
   the entries are a parameter.  Only VariantDirs with duplicate=0 are modelled.  Not modelled: Windows file names, the class change of
   an Entry node (an existing Entry counts with the kind it has on disk), attributes of the node, sub-paths in find_file's file name. *)
From Coq Require Import List Arith Bool.
Import ListNotations.

Definition dir := list nat.
Definition name := nat.
Fixpoint dir_eqb (a b : dir) : bool :=
  match a, b with [], [] => true | x :: a, y :: b => (x =? y) && dir_eqb a b | _, _ => false end.
Inductive kind := KFile | KDir.
Inductive nkind := NFile | NEntry | NDir.
Record node := mkN { n_kind : nkind; n_derived : bool }.
Record fs := mkF {
  disk : dir -> name -> option kind;              (* what is there *)
  entries : dir -> name -> option node;           (* the nodes that have been looked up: dir.entries *)
  repositories : dir -> list dir;
  srcdir : dir -> option dir }.
(* r.Dir(fname), where fname is the path rel (last name first) below *)
Definition below (r : dir) (rel : list nat) : dir := rel ++ r.
(* dir and its parents, with the path from there to dir: the while loops of get_all_rdirs and srcdir_list *)
Fixpoint ups (d : dir) (rel : list nat) : list (dir * list nat) :=
  (d, rel) :: match d with [] => [] | x :: p => ups p (rel ++ [x]) end.
(* get_all_rdirs, 1767-1788, with getRepositories, 1760-1765 (duplicate=0); fuel for the recursion through source directories *)
Fixpoint get_all_rdirs (fuel : nat) (w : fs) (d : dir) : option (list dir) :=
  match fuel with
  | 0 => None
  | S fuel =>
      let fix go (l : list (dir * list nat)) : option (list dir) :=
        match l with
        | [] => Some []
        | (a, rel) :: r =>
            match (match srcdir w a with
                   | None => Some (repositories w a)
                   | Some s => match get_all_rdirs fuel w s with Some l => Some (l ++ repositories w a) | None => None end
                   end), go r with
            | Some reps, Some rest => Some (map (fun rep => below rep rel) reps ++ rest)
            | _, _ => None
            end
        end in
      match go (ups d []) with Some l => Some (d :: l) | None => None end
  end.
(* addRepository, 1790-1794 *)
Definition add_repository (d r : dir) (reps : list dir) : list dir :=
  if dir_eqb r d || existsb (dir_eqb r) reps then reps else reps ++ [r].
(* srcdir_list, 2096-2115 *)
Definition srcdir_list (w : fs) (d : dir) : list dir :=
  flat_map (fun ar => match srcdir w (fst ar) with Some s => [below s (snd ar)] | None => [] end) (ups d []).
(* self.is_under(dir), Base.is_under 817-822 *)
Definition is_under (d p : dir) : bool := existsb (fun ar => dir_eqb (fst ar) p) (ups d []).
(* srcdir_duplicate, 2117-2133, duplicate=0 *)
Fixpoint srcdir_dup (w : fs) (d : dir) (n : name) (l : list dir) : option (dir * kind) :=
  match l with
  | [] => None
  | s :: r => if is_under d s then None
              else match disk w s n with Some k => Some (s, k) | None => srcdir_dup w d n r end
  end.
(* file_on_disk, 2189-2196: the directory the file is in *)
Definition file_on_disk (w : fs) (d : dir) (n : name) : option dir :=
  match disk w d n with
  | Some KFile => Some d
  | _ => match srcdir_dup w d n (srcdir_list w d) with Some (s, KFile) => Some s | _ => None end
  end.
(* a node found: its directory and whether a directory is what it names *)
Definition found := (dir * bool)%type.
(* the body of the loops of rfile and find_repo_file: 3597-3604 and 3631-3638 *)
Definition repo_node (w : fs) (r : dir) (n : name) : option found :=
  match entries w r n with
  | Some nd => match disk w r n with
               | None => None                                                        (* node.exists() *)
               | Some k =>
                   let isdir := match n_kind nd, k with NFile, _ => false | NDir, _ => true | NEntry, KFile => false | NEntry, KDir => true end in
                   if negb isdir || negb (n_derived nd) then Some (r, isdir) else None
               end
  | None => match file_on_disk w r n with Some s => Some (s, false) | None => None end
  end.
Fixpoint first_some {A B} (f : A -> option B) (l : list A) : option B :=
  match l with [] => None | a :: r => match f a with Some b => Some b | None => first_some f r end end.
Fixpoint all_some {A B} (f : A -> option B) (l : list A) : list B :=
  match l with [] => [] | a :: r => match f a with Some b => b :: all_some f r | None => all_some f r end end.
(* rfile, 3587-3620 *)
Definition rfile (fuel : nat) (w : fs) (d : dir) (n : name) : option found :=
  match disk w d n with
  | Some _ => Some (d, false)
  | None => match get_all_rdirs fuel w d with
            | None => None
            | Some l => Some (match first_some (fun r => repo_node w r n) l with Some x => x | None => (d, false) end)
            end
  end.
(* find_repo_file, 3622-3642 *)
Definition find_repo_file (fuel : nat) (w : fs) (d : dir) (n : name) : option (list found) :=
  match get_all_rdirs fuel w d with None => None | Some l => Some (all_some (fun r => repo_node w r n) l) end.
(* rentry, 971-987: a node that is already there is passed over *)
Definition rentry_step (w : fs) (n : name) (r : dir) : option dir :=
  match entries w r n with Some _ => None | None => match disk w r n with Some _ => Some r | None => None end end.
Definition rentry (fuel : nat) (w : fs) (d : dir) (n : name) : option dir :=
  match disk w d n with
  | Some _ => Some d
  | None => match get_all_rdirs fuel w d with
            | None => None
            | Some l => Some (match first_some (rentry_step w n) l with Some r => r | None => d end)
            end
  end.
(* srcdir_find_file, 2138-2178: the directory of the node that is returned *)
Definition src_node (w : fs) (n : name) (r : dir) : option dir :=
  match entries w r n with
  | Some nd => let isfile := match n_kind nd with NDir => false | _ => true end in
               if isfile && (n_derived nd || match disk w r n with Some _ => true | None => false end) then Some r else None
  | None => file_on_disk w r n
  end.
Fixpoint find_src (fuel : nat) (w : fs) (n : name) (l : list dir) : option bool :=
  match l with
  | [] => Some false
  | s :: r => match get_all_rdirs fuel w s with
              | None => None
              | Some rd => match first_some (src_node w n) rd with Some _ => Some true | None => find_src fuel w n r end
              end
  end.
Definition srcdir_find_file (fuel : nat) (w : fs) (d : dir) (n : name) : option (option dir) :=
  match get_all_rdirs fuel w d with
  | None => None
  | Some l => match first_some (src_node w n) l with
              | Some r => Some (Some r)
              | None => match find_src fuel w n (srcdir_list w d) with
                        | None => None
                        | Some true => Some (Some d)                                   (* 2171: File(filename, self) *)
                        | Some false => Some None
                        end
              end
  end.
(* find_file, 3782-3826, for a name without directory: the memo is keyed by name and path list and never cleared *)
Fixpoint find_in (fuel : nat) (w : fs) (n : name) (paths : list dir) : option (option dir) :=
  match paths with
  | [] => Some None
  | d :: r => match srcdir_find_file fuel w d n with
              | None => None
              | Some (Some x) => Some (Some x)
              | Some None => find_in fuel w n r
              end
  end.
Definition fmemo := list ((name * list dir) * option dir).
Fixpoint paths_eqb (a b : list dir) : bool :=
  match a, b with [], [] => true | x :: a, y :: b => dir_eqb x y && paths_eqb a b | _, _ => false end.
Fixpoint memo_get (n : name) (p : list dir) (m : fmemo) : option (option dir) :=
  match m with [] => None | ((n', p'), r) :: t => if (n =? n') && paths_eqb p p' then Some r else memo_get n p t end.
Definition find_file (fuel : nat) (w : fs) (n : name) (paths : list dir) (m : fmemo) : option (option dir * fmemo) :=
  match memo_get n paths m with
  | Some r => Some (r, m)
  | None => match find_in fuel w n paths with None => None | Some r => Some (r, ((n, paths), r) :: m) end
  end.

(* the memos of get_all_rdirs: Repository() adds to Top's repositories and clears the memos of Top and the directories under it *)
Definition rmemo := list (dir * list dir).
Fixpoint rmemo_get (d : dir) (m : rmemo) : option (list dir) :=
  match m with [] => None | (d', l) :: r => if dir_eqb d d' then Some l else rmemo_get d r end.
Definition get_rdirs_memo (fuel : nat) (w : fs) (d : dir) (m : rmemo) : option (list dir * rmemo) :=
  match rmemo_get d m with
  | Some l => Some (l, m)
  | None => match get_all_rdirs fuel w d with None => None | Some l => Some (l, (d, l) :: m) end
  end.
Definition Repository (top r : dir) (w : fs) (m : rmemo) : fs * rmemo :=
  let reps := add_repository top r (repositories w top) in
  (mkF (disk w) (entries w) (fun d => if dir_eqb d top then reps else repositories w d) (srcdir w),
   if dir_eqb r top || existsb (dir_eqb r) (repositories w top) then m else filter (fun dl => negb (is_under (fst dl) top)) m).
