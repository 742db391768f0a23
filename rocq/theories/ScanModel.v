(* Model of implicit-dependency scanning: SCons/Node/__init__.py (Node.get_implicit_deps 987-1020, _get_scanner 1022-1037, add_to_implicit
   1068-1073, scan 1075-1131, _add_child 1340-1350), SCons/Node/FS.py (File.get_found_includes 2966-2994), SCons/Executor.py
   (scan_targets, scan_sources, scan 472-501), SCons/Scanner/__init__.py (ScannerBase.recurse_nodes 180-183 and 257-263,
   Classic.scan 364-398).  No proofs.

   Nodes, scanners, search paths and include names are numbers (object identities; Node and ScannerBase hash by identity).  What a
   scanner finds in a file is a function of file, scanner and path, that is, the files do not change while they are scanned.
   Not modelled: disambiguate (Entry to File or Dir), scan_check, the kw argument, and a `recursive' callable that looks at more
   than one node at a time (recurse_nodes is a filter here; it is one for every scanner SCons ships). *)
From Coq Require Import List Arith Bool.
Import ListNotations.

Definition node := nat. Definition scanner := nat. Definition path := nat.
(* membership in a Python set of nodes *)
Definition mem (x : nat) (l : list nat) : bool := existsb (Nat.eqb x) l.
(* a dictionary: the last binding put first *)
Fixpoint get {K V} (eqk : K -> K -> bool) (k : K) (d : list (K * V)) : option V :=
  match d with [] => None | (k', v) :: r => if eqk k k' then Some v else get eqk k r end.

Section Scan.
Variable own_scanner : node -> option scanner.            (* initial_scanner.select(node), or the environment's scanner for it: 1023-1030 *)
Variable follows : scanner -> node -> bool.               (* recurse_nodes keeps this node *)
Variable path_func : scanner -> path.                     (* Executor.get_build_scanner_path *)
Variable found : node -> scanner -> path -> list node.    (* scanner(node, env, path), Scanner/__init__.py 195-221 *)

(* Node._get_scanner, 1022-1037 *)
Definition get_scanner (n : node) (root_scanner : option scanner) : option scanner :=
  match own_scanner n with Some s => Some s | None => root_scanner end.
(* scanner.recurse_nodes *)
Definition recurse_nodes (s : scanner) (l : list node) : list node := filter (follows s) l.
(* the per-file memo of File.get_found_includes: one dictionary for all files, the key has the file too; env is fixed *)
Definition fkey := (node * scanner * path)%type.
Definition fkey_eqb (a b : fkey) : bool :=
  let '(n, s, p) := a in let '(n', s', p') := b in (n =? n') && (s =? s') && (p =? p').
Definition fmemo := list (fkey * list node).
Definition get_found_includes (n : node) (s : scanner) (p : path) (m : fmemo) : list node * fmemo :=
  match get fkey_eqb (n, s, p) m with
  | Some r => (r, m)
  | None => let r := found n s p in (r, ((n, s, p), r) :: m)
  end.
(* path_memo, 1004-1008 *)
Definition get_path (s : scanner) (pm : list (scanner * path)) : path * list (scanner * path) :=
  match get Nat.eqb s pm with Some p => (p, pm) | None => let p := path_func s in (p, (s, p) :: pm) end.
(* the while loop, 998-1018; fuel for the iterations, None: out of fuel *)
Fixpoint deps_loop (fuel : nat) (root_scanner : option scanner) (nodes seen deps : list node) (pm : list (scanner * path)) (m : fmemo)
  : option (list node * fmemo) :=
  match nodes with
  | [] => Some (deps, m)
  | n :: rest =>
      match fuel with
      | 0 => None
      | S fuel =>
          match get_scanner n root_scanner with
          | None => deps_loop fuel root_scanner rest seen deps pm m                         (* 1001-1002 *)
          | Some s =>
              let (p, pm') := get_path s pm in
              let (fnd, m') := get_found_includes n s p m in
              let included := filter (fun x => negb (mem x seen)) fnd in                    (* 1012 *)
              deps_loop fuel root_scanner (rest ++ recurse_nodes s included) (seen ++ included) (deps ++ included) pm' m'
          end
      end
  end.
(* Node.get_implicit_deps, 987-1020 *)
Definition get_implicit_deps (fuel : nat) (self : node) (m : fmemo) : option (list node * fmemo) :=
  deps_loop fuel (get_scanner self None) [self] [self] [] [] m.

(* a target's implicit attribute: None, or the list (implicit_set is the same set) *)
(* Node._add_child, 1340-1350 *)
Fixpoint add_child (coll child : list node) : list node :=
  match child with
  | [] => coll
  | c :: r => add_child (if mem c coll then coll else coll ++ [c]) r
  end.
(* Node.add_to_implicit, 1068-1073 *)
Definition add_to_implicit (imp : option (list node)) (deps : list node) : option (list node) :=
  Some (add_child (match imp with None => [] | Some l => l end) deps).
(* Executor.scan, 481-501: the loop over node_list *)
Fixpoint scan_nodes (fuel : nat) (l : list node) (m : fmemo) : option (list node * fmemo) :=
  match l with
  | [] => Some ([], m)
  | n :: r => match get_implicit_deps fuel n m with
              | None => None
              | Some (d, m') => match scan_nodes fuel r m' with None => None | Some (d', m'') => Some (d ++ d', m'') end
              end
  end.
(* the implicit attributes of the executor's targets, in order *)
Definition imps := list (option (list node)).
(* Executor.scan; cmd_deps: Executor.get_implicit_deps 540-550, the nodes of the commands *)
Definition executor_scan (fuel : nat) (cmd_deps : list node) (l : list node) (is : imps) (m : fmemo) : option (imps * fmemo) :=
  match scan_nodes fuel l m with
  | None => None
  | Some (d, m') => Some (map (fun i => add_to_implicit i (d ++ cmd_deps)) is, m')
  end.
End Scan.

(* Node.scan, 1075-1131, of the target at position i of an executor with these sources and targets.  src_*: the source scanner's
   functions, tgt_*: the target scanner's; has_tscan: there is a target scanner.  stored: what get_stored_implicit gives when
   --implicit-cache is on and the dependencies are not declared changed (None otherwise); keep: implicit_deps_unchanged or is_up_to_date. *)
Section NodeScan.
Variable found : node -> scanner -> path -> list node.
Variable path_func : scanner -> path.
Variable follows : scanner -> node -> bool.
Variable src_own tgt_own : node -> option scanner.
Definition node_scan (fuel : nat) (has_builder has_tscan : bool) (sources targets cmd_deps : list node)
           (stored : option (list node)) (keep : bool) (i : nat) (is : imps) (m : fmemo) : option (imps * fmemo) :=
  match nth i is None with
  | Some _ => Some (is, m)                                                                   (* 1081-1082 *)
  | None =>
      let is := firstn i is ++ Some [] :: skipn (S i) is in                                  (* 1083-1084 *)
      if negb has_builder then Some (is, m)
      else
        let full (is : imps) :=
          (* scan_sources, 476-479: nothing without sources *)
          match (match sources with [] => Some (is, m) | _ => executor_scan src_own follows path_func found fuel cmd_deps sources is m end) with
          | None => None
          | Some (is, m) => if has_tscan then executor_scan tgt_own follows path_func found fuel cmd_deps targets is m
                            else Some (is, m)
          end in
        match stored with
        | Some st =>
            let is' := map (fun x => add_to_implicit x st) is in                              (* 1112-1114 *)
            if keep then Some (is', m) else full (map (fun _ => Some []) is)                  (* 1116-1122 *)
        | None => full is
        end
  end.
End NodeScan.

(* Classic.scan, 364-398: the include names are cached in the node (node.includes), whatever scanner put them there.
   names: find_include_names of a scanner, locate: find_include, key: sort_key as a number.  Python sorts (key, node) pairs; two pairs
   with equal keys come from equal names and so have the same node. *)
Section Classic.
Variable names : scanner -> node -> list nat.
Variable locate : scanner -> node -> path -> nat -> option node.
Variable key : scanner -> nat -> nat.
Fixpoint insert (x : nat * node) (l : list (nat * node)) : list (nat * node) :=
  match l with [] => [x] | y :: r => if fst x <=? fst y then x :: l else y :: insert x r end.
Definition sort (l : list (nat * node)) : list (nat * node) := fold_right insert [] l.
Definition includes_memo := list (node * list nat).
Fixpoint located (s : scanner) (n : node) (p : path) (l : list nat) : list (nat * node) :=
  match l with [] => [] | i :: r => match locate s n p i with None => located s n p r | Some f => (key s i, f) :: located s n p r end end.
Definition classic_scan (s : scanner) (n : node) (p : path) (m : includes_memo) : list node * includes_memo :=
  let (inc, m') := match get Nat.eqb n m with Some i => (i, m) | None => (names s n, (n, names s n) :: m) end in
  (map snd (sort (located s n p inc)), m').
End Classic.
