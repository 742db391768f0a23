(* Model of "scons -c": Script/Main.py CleanTask (363-442), Environment.py Clean / NoClean (2556-2573, 2669-2676).
   Not modelled: messages' texts beyond which path they name; that directory components of a path may be symbolic
   links; memoised stat results (a target already removed by an earlier step would give one more "could not remove" line). *)
From Coq Require Import List Arith Bool Lia.
Import ListNotations.

Definition name := nat.
Definition path := list name.

(* What os.path.isfile / islink / isdir / lexists can tell apart (Main.py 367-371, 376): a regular file, a symbolic link to a
   regular file, any other symbolic link (to a directory, dangling, ...), a device, socket or pipe, a directory with its entries in
   the order of sorted(os.listdir()). *)
Inductive ftype := FFile | FLinkFile | FLinkOther | FSpecial.
Inductive tree := Leaf (k : ftype) | Folder (l : list (name * tree)).

Definition isfile (t : tree) : bool := match t with Leaf FFile | Leaf FLinkFile => true | _ => false end.

(* Messages: "Removed p", "Removed directory p", "Could not remove p", "p exists but isn't a file or directory". *)
Inductive msg := Removed (p : path) | RemovedDir (p : path) | CouldNot (p : path) | Odd (p : path).

Section Delete.
Variable rm : bool.               (* the argument remove *)
Variable ok : path -> bool.       (* does the operating system permit unlink / rmdir of this path? *)

(* Main.py 365-390 fs_delete, given what is at the path; returns what is left there.  An OSError raised by os.unlink inside
   the loop ends the loop (the try statement is around the whole body).  delete_loop is the body of the loop of lines 373-380. *)
Definition delete_loop (del : path -> tree -> option tree * list msg) (p : path) : list (name * tree) -> list (name * tree) * list msg * bool :=
  fix loop (l : list (name * tree)) :=
    match l with
    | [] => ([], [], false)
    | (n, c) :: r =>
      if isfile c then
        if rm && negb (ok (p ++ [n])) then ((n, c) :: r, [], true)
        else let '(r', ms, ab) := loop r in (if rm then r' else (n, c) :: r', Removed (p ++ [n]) :: ms, ab)
      else
        let '(c', m) := del (p ++ [n]) c in
        let '(r', ms, ab) := loop r in
        (match c' with Some d => (n, d) :: r' | None => r' end, m ++ ms, ab)
    end.
Fixpoint fs_delete (p : path) (t : tree) : option tree * list msg :=
  match t with
  | Leaf FSpecial => (Some t, [Odd p])
  | Leaf _ => if rm then if ok p then (None, [Removed p]) else (Some t, [CouldNot p]) else (Some t, [Removed p])
  | Folder l =>
    let '(rest, ms, aborted) := delete_loop fs_delete p l in
    if aborted then (Some (Folder rest), ms ++ [CouldNot p])
    else if rm then
      match rest with
      | [] => if ok p then (None, ms ++ [RemovedDir p]) else (Some (Folder rest), ms ++ [CouldNot p])
      | _ => (Some (Folder rest), ms ++ [CouldNot p])     (* os.rmdir: directory not empty *)
      end
    else (Some (Folder rest), ms ++ [RemovedDir p])
  end.
End Delete.

(* The disk below the root directory. *)
Definition entry (l : list (name * tree)) (n : name) : option tree := option_map snd (find (fun x => fst x =? n) l).
Fixpoint lookup (t : tree) (p : path) : option tree :=
  match p with
  | [] => Some t
  | n :: q => match t with Folder l => match entry l n with Some c => lookup c q | None => None end | Leaf _ => None end
  end.
(* replace what is at path p (if anything is there) by the result of f *)
Fixpoint set_entry (l : list (name * tree)) (n : name) (f : tree -> option tree) : list (name * tree) :=
  match l with
  | [] => []
  | (m, c) :: r => if m =? n then match f c with Some d => (m, d) :: r | None => r end else (m, c) :: set_entry r n f
  end.
Fixpoint change (t : tree) (p : path) (f : tree -> option tree) : option tree :=
  match p with
  | [] => f t
  | n :: q => match t with Folder l => Some (Folder (set_entry l n (fun c => change c q f))) | Leaf _ => Some t end
  end.
Definition change_root (t : tree) (p : path) (f : tree -> option tree) : tree := match change t p f with Some t' => t' | None => t end.

(* Nodes: a File, a Dir, or something that is not on disk (Alias, Value); an Entry has become one of the first two when its task
   is made ready (Taskmaster/__init__.py 382).  n_clean holds the value of CleanTargets for this node. *)
Inductive nkind := NFile | NDir | NOther.
Record ninfo := { n_path : path; n_kind : nkind; n_builder : bool; n_side : bool; n_noclean : bool }.

(* FS.py 3182-3187 File.remove, Node/__init__.py 1291-1293 Node.remove, inside Main.py 413-425 *)
Definition unlink_leaf (ok : path -> bool) (p : path) (t : tree) : option tree :=
  match t with Leaf _ => if ok p then None else Some t | Folder _ => Some t end.
Definition remove_node (ok : path -> bool) (i : ninfo) (d : tree) : tree :=
  match n_kind i with NFile => change_root d (n_path i) (unlink_leaf ok (n_path i)) | _ => d end.

Section Task.
Variable info : nat -> ninfo.
Variable cleans : nat -> list nat.       (* Environment.CleanTargets, [] if there is no entry *)
Variable ok : path -> bool.

(* Main.py 392-397 *)
Definition files_to_clean (ts : list nat) : list nat :=
  match ts with
  | [] => []
  | t :: _ => if n_builder (info t) || n_side (info t) then filter (fun t => negb (n_noclean (info t))) ts else []
  end.
(* Main.py 399-404 *)
Definition delete_at (rm : bool) (p : path) (d : tree) : tree := change_root d p (fun t => fst (fs_delete rm ok p t)).
Definition clean_targets (rm : bool) (ts : list nat) (d : tree) : tree :=
  match ts with [] => d | t :: _ => fold_left (fun d f => delete_at rm (n_path (info f)) d) (cleans t) d end.
(* Main.py 412-426 *)
Definition remove_task (ts : list nat) (d : tree) : tree :=
  clean_targets true ts (fold_left (fun d t => remove_node ok (info t) d) (files_to_clean ts) d).
(* Main.py 406-410, disk only *)
Definition show_task (ts : list nat) (d : tree) : tree := clean_targets false ts d.
(* Main.py 1250-1253, and the tasks one after the other *)
Definition clean_run (no_exec : bool) (L : list (list nat)) (d : tree) : tree :=
  fold_left (fun d ts => if no_exec then show_task ts d else remove_task ts d) L d.
End Task.

(* ---- Environment.Clean (Environment.py 2566-2573).  Lists are Python objects: r_ref says which list object a target has, r_list
   the content of each object, r_next the next unused one. ---- *)
Record registry := { r_ref : nat -> option nat; r_list : nat -> list nat; r_next : nat }.
Definition empty_registry : registry := {| r_ref := fun _ => None; r_list := fun _ => []; r_next := 0 |}.
Definition upd {A} (f : nat -> A) (n : nat) (v : A) : nat -> A := fun m => if m =? n then v else f m.
Definition clean_one (flist : nat) (r : registry) (t : nat) : registry :=
  match r_ref r t with
  | Some o => {| r_ref := r_ref r; r_list := upd (r_list r) o (r_list r o ++ r_list r flist); r_next := r_next r |}
  | None => {| r_ref := upd (r_ref r) t (Some flist); r_list := r_list r; r_next := r_next r |}
  end.
Definition clean_call (tf : list nat * list nat) (r : registry) : registry :=
  let flist := r_next r in
  fold_left (clean_one flist) (fst tf) {| r_ref := r_ref r; r_list := upd (r_list r) flist (snd tf); r_next := S flist |}.
Definition registered (r : registry) (t : nat) : list nat := match r_ref r t with Some o => r_list r o | None => [] end.
Definition clean_calls (calls : list (list nat * list nat)) : registry := fold_left (fun r c => clean_call c r) calls empty_registry.
