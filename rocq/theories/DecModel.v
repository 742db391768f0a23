(* Model of the rebuild decision: SCons/Node/__init__.py (get_binfo, children, changed) and
   SCons/Node/FS.py (File.get_csig, get_max_drift_csig, visited, changed_*, is_up_to_date).  No proofs.

   Nodes, signatures (hash strings) and paths are natural numbers; signature 0 is the empty string
   (a false value in Python).  A FileNodeInfo object is the record [ninfo]; a missing attribute is None.
   The ninfo objects of the run are the table [st : node -> ninfo]; a stored build info refers to
   these objects, and its signatures are read from the table when the database is written
   (SConsign.store_info keeps references, DB.write pickles at the end of the run).
   Not modelled: --implicit-cache, Alias/Value/Dir nodes, Windows path separators, the memo tables
   (_memo), whose entries are functions of the modelled state within one run. *)
From Coq Require Import List Arith ZArith Bool.
Import ListNotations.

Notation node := nat (only parsing).
Notation sig := nat (only parsing).

(* FS.py 2542-2546 FileNodeInfo *)
Record ninfo := NI { ni_csig : option sig; ni_ts : option nat }.
Definition empty_ninfo : ninfo := NI None None.

(* What is on disk and in the database for each node, as seen by one run *)
Record world := {
  w_exists : node -> bool;
  w_mtime : node -> nat;              (* File.get_timestamp, FS.py 2806-2818 *)
  w_hash : node -> sig;               (* signature of the current content, FS.py 3258-3273; 0 after OSError *)
  w_now : nat;                        (* time.time() *)
  w_drift : Z;                        (* fs.max_drift *)
  w_stored : node -> ninfo }.         (* get_stored_info().ninfo, FS.py 2931-2955 *)

Definition upd (st : node -> ninfo) (n : node) (v : ninfo) : node -> ninfo := fun m => if m =? n then v else st m.
Definition truthy (o : option nat) : bool := match o with Some (S _) => true | _ => false end.

(* FS.py 3222-3246 get_max_drift_csig: 0 stands for "" *)
Definition max_drift_csig (w : world) (n : node) : sig :=
  let old := w_stored w n in
  if (0 <? w_drift w)%Z then
    if (w_drift w <? Z.of_nat (w_now w) - Z.of_nat (w_mtime w n))%Z then
      match ni_ts old, ni_csig old with
      | Some (S t), Some (S c) => if S t =? w_mtime w n then S c else 0
      | _, _ => 0
      end
    else 0
  else if (w_drift w =? 0)%Z then match ni_csig old with Some c => c | None => 0 end
  else 0.

(* FS.py 3248-3279 get_csig: fills in the csig of the node's ninfo *)
Definition get_csig (w : world) (st : node -> ninfo) (n : node) : sig * (node -> ninfo) :=
  match ni_csig (st n) with
  | Some s => (s, st)
  | None => let s := match max_drift_csig w n with 0 => w_hash w n | s => s end in
            (s, upd st n (NI (Some s) (ni_ts (st n))))
  end.

(* FS.py 3031-3052 visited (the parts that touch ninfo; the merge of an old binfo for source files is omitted) *)
Definition visited (w : world) (st : node -> ninfo) (n : node) : node -> ninfo :=
  let c := match max_drift_csig w n with 0 => ni_csig (st n) | s => Some s end in
  upd st n (NI c (Some (w_mtime w n))).

(* Keys of the stored dependency lists: strings when read from disk, Nodes after prepare_dependencies *)
Inductive key := KNode (n : node) | KStr (s : nat).
Definition key_eqb (a b : key) : bool :=
  match a, b with KNode n, KNode m => n =? m | KStr n, KStr m => n =? m | _, _ => false end.

(* BuildInfoBase, __init__.py 451-471 *)
Record binfo := {
  bsources : list key; bdepends : list key; bimplicit : list key;
  bsourcesigs : list ninfo; bdependsigs : list ninfo; bimplicitsigs : list ninfo;
  bactsig : option sig }.
Definition empty_binfo : binfo :=
  {| bsources := []; bdepends := []; bimplicit := []; bsourcesigs := []; bdependsigs := []; bimplicitsigs := []; bactsig := None |}.

(* How a dependency decides (Environment.Decider, Environment.py 1840-1910) *)
Inductive decider := DContent | DTimestampNewer | DTimestampMatch | DTimestampContent.

(* A target as described by the SConscript files and the scanners *)
Record target := {
  t_node : node;
  t_sources : list node;              (* self.sources, without duplicates (_add_child) *)
  t_specific : bool;                  (* self._specific_sources *)
  t_batch : list node;                (* sources of the target's batch in its executor (Executor.py 520-527) *)
  t_depends : list node;
  t_implicit : list node;             (* None and [] behave the same *)
  t_ignore : list node;
  t_builder : bool;                   (* has_builder() *)
  t_action : sig }.                   (* hash_signature(executor.get_contents()) *)

Definition mem (n : node) (l : list node) : bool := existsb (Nat.eqb n) l.
Definition not_ignored (t : target) (l : list node) : list node := filter (fun n => negb (mem n (t_ignore t))) l.

(* __init__.py 1366-1403 _children_get / 1426-1431 children *)
Definition children (t : target) : list node := not_ignored t (t_sources t ++ t_depends t ++ t_implicit t).

(* __init__.py 1213-1214: [s for s in sources if s not in seen and not seen.add(s)] *)
Fixpoint dedupe (seen : list node) (l : list node) : list node :=
  match l with [] => [] | x :: r => if mem x seen then dedupe seen r else x :: dedupe (x :: seen) r end.

(* __init__.py 1176-1235 get_binfo.  The keys are Nodes; the signatures are the ninfo objects.
   Note line 1218: bdependsigs ranges over self.depends, not over bdepends. *)
Definition get_binfo (t : target) (st : node -> ninfo) : binfo :=
  let sources := dedupe [] (not_ignored t (if t_specific t then t_sources t else t_batch t)) in
  {| bsources := map KNode sources; bsourcesigs := map st sources;
     bdepends := map KNode (not_ignored t (t_depends t)); bdependsigs := map st (t_depends t);
     bimplicit := map KNode (not_ignored t (t_implicit t)); bimplicitsigs := map st (not_ignored t (t_implicit t));
     bactsig := if t_builder t then Some (t_action t) else None |}.

(* FS.py 2601-2631 convert_to_sconsign: nodes become strings *)
Definition to_str (str : node -> nat) (k : key) : key := match k with KNode n => KStr (str n) | KStr s => KStr s end.
Definition convert_to_sconsign (str : node -> nat) (b : binfo) : binfo :=
  {| bsources := map (to_str str) (bsources b); bdepends := map (to_str str) (bdepends b); bimplicit := map (to_str str) (bimplicit b);
     bsourcesigs := bsourcesigs b; bdependsigs := bdependsigs b; bimplicitsigs := bimplicitsigs b; bactsig := bactsig b |}.

(* FS.py 3333-3338 changed_content *)
Definition changed_content (w : world) (st : node -> ninfo) (n : node) (prev : option ninfo) : bool * (node -> ninfo) :=
  let (cur, st') := get_csig w st n in
  (match prev with Some p => match ni_csig p with Some c => negb (cur =? c) | None => true end | None => true end, st').

(* FS.py 3535-3547 changed_timestamp_match *)
Definition changed_timestamp_match (w : world) (n : node) (prev : option ninfo) : bool :=
  match prev with Some p => match ni_ts p with Some t => negb (w_mtime w n =? t) | None => true end | None => true end.

(* dict(zip(keys, values)): a later binding of a key replaces an earlier one *)
Definition dmap := list (key * ninfo).
Fixpoint dget (d : dmap) (k : key) : option ninfo :=
  match d with [] => None | (k', v) :: r => match dget r k with Some v' => Some v' | None => if key_eqb k k' then Some v else None end end.
(* FS.py 3349-3376 _build_dependency_map *)
Definition dependency_map (b : binfo) : dmap :=
  match bsourcesigs b ++ bdependsigs b ++ bimplicitsigs b with
  | [] => []
  | sigs => combine (bsources b ++ bdepends b ++ bimplicit b) sigs
  end.

(* FS.py 3378-3391 _add_strings_to_dependency_map *)
Definition key_str (str : node -> nat) (k : key) : nat := match k with KNode n => str n | KStr s => s end.
Definition add_strings (str : node -> nat) (d : dmap) : dmap :=
  match d with
  | [] => []
  | (k, _) :: _ => match dget d (KStr (key_str str k)) with
                   | Some _ => d
                   | None => d ++ map (fun kv => (KStr (key_str str (fst kv)), snd kv)) d
                   end
  end.

Record names := { n_str : node -> nat; n_path : node -> nat; n_rfile : node -> node }.  (* str(node), get_path(), rfile() *)
Definition orelse {A} (a b : option A) : option A := match a with Some _ => a | None => b end.

(* FS.py 3393-3465 _get_previous_signatures (POSIX: os.altsep is None) *)
Definition previous_signatures (N : names) (d : dmap) (n : node) : option ninfo :=
  match d with
  | [] => None
  | _ =>
    orelse (dget d (KNode n)) (orelse (dget d (KNode (n_rfile N n))) (orelse (dget d (KStr (n_str N n)))
      (let d' := add_strings (n_str N) d in orelse (dget d' (KStr (n_str N n))) (dget d' (KStr (n_path N n))))))
  end.

(* FS.py 3467-3527 changed_timestamp_then_content; [bi] is the stored build info of the target *)
Definition changed_timestamp_then_content (N : names) (w : world) (bi : binfo) (st : node -> ninfo) (n : node) : bool * (node -> ninfo) :=
  let d := dependency_map bi in
  match d with
  | [] => (true, snd (get_csig w st n))
  | _ =>
    let prev := previous_signatures N d n in
    if changed_timestamp_match w n prev then changed_content w st n prev
    else (false, match prev with
                 | Some p => match ni_csig p with Some c => upd st n (NI (Some c) (ni_ts (st n))) | None => st end
                 | None => st end)
  end.

(* Environment.py 1844-1883: one dependency [n] of target [t] *)
Definition decide (N : names) (w : world) (bi : binfo) (t : target) (d : decider) (st : node -> ninfo) (n : node) (prev : option ninfo)
  : bool * (node -> ninfo) :=
  match d with
  | DContent => changed_content w st n prev
  | DTimestampNewer => (w_mtime w (t_node t) <? w_mtime w n, st)        (* FS.py 3529-3533 *)
  | DTimestampMatch => (changed_timestamp_match w n prev, st)
  | DTimestampContent => changed_timestamp_then_content N w bi st n
  end.

(* __init__.py 1509-1513: the loop over zip(children, then) *)
Fixpoint changed_loop (N : names) (w : world) (bi : binfo) (t : target) (dec : node -> decider) (st : node -> ninfo)
    (cs : list node) (prevs : list (option ninfo)) (result : bool) : bool * (node -> ninfo) :=
  match cs, prevs with
  | c :: cs, p :: prevs => let (r, st') := decide N w bi t (dec c) st c p in changed_loop N w bi t dec st' cs prevs (result || r)
  | _, _ => (result, st)
  end.

(* __init__.py 1463-1529 changed.  [bi] = node.get_stored_info().binfo *)
Definition changed (N : names) (w : world) (bi : binfo) (dec : node -> decider) (st : node -> ninfo) (t : target) : bool * (node -> ninfo) :=
  let then_ := map Some (bsourcesigs bi ++ bdependsigs bi ++ bimplicitsigs bi) in
  let cs := children t in
  let differ := negb (length cs =? length then_) in
  let then' := then_ ++ repeat None (length cs - length then_) in
  let (r, st') := changed_loop N w bi t dec st cs then' differ in
  (if t_builder t then r || match bactsig bi with Some s => negb (s =? t_action t) | None => true end else r, st').

(* FS.py 3549-3585 is_up_to_date; [repo] is Some binfo when the file exists only in a repository
   (LocalCopy is not modelled) *)
Definition is_up_to_date (N : names) (w : world) (bi : binfo) (repo : option binfo) (dec : node -> decider) (st : node -> ninfo) (t : target)
  : bool * (node -> ninfo) :=
  if w_exists w (t_node t) then let (r, st') := changed N w bi dec st t in (negb r, st')
  else match repo with
       | Some rbi => let (r, st1) := changed N w rbi dec st t in
                     if r then (false, snd (changed N w bi dec st1 t)) else (true, st1)
       | None => (false, snd (changed N w bi dec st t))
       end.
