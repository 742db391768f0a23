(* Model of a sequence of SCons runs (content decider) interleaved with edits by the user: what is on disk,
   and what is in the signature database.  Uses the decision functions of DecModel.v.  No proofs.

   One run processes a list of items in an order chosen by the build engine (C01-C03 say what orders are possible).
   For each target: Task.make_ready_current (Taskmaster/__init__.py 387-430), then, if out of date, the action
   (Task.execute 216-263), File.built (FS.py 3287-3309, Node/__init__.py 779-814) and File.visited (FS.py 3031-3052).  At the end
   of the run SConsign.write merges the node infos (SConsign.py 215-232) and saves the database.
   Actions are functions of the action signature and of the contents of the dependencies.
   The clock advances with every edit and every run; a file written during a run gets the time of the run. *)
From Coq Require Import List Arith ZArith Bool.
Import ListNotations.
From Verif Require Import DecModel DecSpec.

Record sem := {
  s_act : sig -> list (option nat) -> nat;    (* output of an action with a given signature on given dependency contents *)
  s_hash : option nat -> sig }.                (* content signature; None = missing file *)

Record istate := {
  i_disk : node -> option nat;                 (* file contents *)
  i_mtime : node -> nat;
  i_clock : nat;
  i_db : node -> binfo;                        (* stored build infos *)
  i_ni : node -> ninfo }.                      (* stored node infos *)

Definition world_of (S : sem) (drift : Z) (s : istate) : world :=
  {| w_exists := fun n => match i_disk s n with Some _ => true | None => false end; w_mtime := i_mtime s;
     w_hash := fun n => s_hash S (i_disk s n); w_now := i_clock s; w_drift := drift; w_stored := i_ni s |}.

Definition set_file (s : istate) (n : node) (c : option nat) : istate :=
  {| i_disk := fun m => if m =? n then c else i_disk s m; i_mtime := fun m => if m =? n then i_clock s else i_mtime s m; i_clock := i_clock s;
     i_db := i_db s; i_ni := i_ni s |}.

(* Src n: a file without builder; Tgt t ok: a target, ok tells whether its action would succeed *)
Inductive item := Src (n : node) | Tgt (t : target) (ok : bool).

(* state of a run: disk, node infos, processed nodes (with the target description for targets) *)
Definition rstate : Type := istate * (node -> ninfo) * list (node * option target).

Definition run_item (S : sem) (N : names) (drift : Z) (r : rstate) (it : item) : rstate :=
  match r with (s, st, dn) =>
    match it with
    | Src n => (s, visited (world_of S drift s) st n, (n, None) :: dn)
    | Tgt t ok =>
      let (up, st1) := is_up_to_date N (world_of S drift s) (i_db s (t_node t)) None content_decider st t in
      if up then (s, visited (world_of S drift s) st1 (t_node t), (t_node t, Some t) :: dn)
      else if ok then
        let s' := set_file s (t_node t) (Some (s_act S (t_action t) (map (i_disk s) (children t)))) in
        (* built(): new ninfo, then ninfo.update(): csig and timestamp *)
        let st2 := snd (get_csig (world_of S drift s') (upd st1 (t_node t) empty_ninfo) (t_node t)) in
        (s', visited (world_of S drift s') st2 (t_node t), (t_node t, Some t) :: dn)
      else (set_file s (t_node t) None, st1, dn)      (* failed, output removed; nothing is stored *)
    end
  end.

(* NodeInfoBase.merge, Node/__init__.py 386-394, 419-447: only the attributes present in the new object are copied *)
Definition merge_ninfo (old new : ninfo) : ninfo := NI (orelse (ni_csig new) (ni_csig old)) (orelse (ni_ts new) (ni_ts old)).

Definition tgt_of (dn : list (node * option target)) (n : node) : option target :=
  match find (fun p => (fst p =? n)) dn with Some (_, t) => t | None => None end.
Definition was_done (dn : list (node * option target)) (n : node) : bool := existsb (fun p => fst p =? n) dn.

(* SConsign.write *)
Definition save (N : names) (r : rstate) : istate :=
  match r with (s, st, dn) =>
    {| i_disk := i_disk s; i_mtime := i_mtime s; i_clock := S (i_clock s);
       i_db := fun n => match tgt_of dn n with Some t => saved N t st | None => i_db s n end;
       i_ni := fun n => if was_done dn n then merge_ninfo (i_ni s n) (st n) else i_ni s n |}
  end.

Definition run_items (S : sem) (N : names) (drift : Z) (s : istate) (items : list item) : rstate :=
  fold_left (run_item S N drift) items (s, (fun _ => empty_ninfo), []).

Inductive uop :=
  | Edit (n : node) (c : nat)                  (* the user writes a file *)
  | Delete (n : node)                          (* the user removes a file *)
  | Wait (k : nat)
  | Run (drift : Z) (items : list item)        (* a run of SCons that reaches its end, successful or not *)
  | Killed (drift : Z) (items : list item).    (* SCons killed after these items, before writing the database *)

Definition tick (k : nat) (s : istate) : istate :=
  {| i_disk := i_disk s; i_mtime := i_mtime s; i_clock := k + i_clock s; i_db := i_db s; i_ni := i_ni s |}.

Definition apply (S : sem) (N : names) (s : istate) (o : uop) : istate :=
  match o with
  | Edit n c => tick 1 (set_file s n (Some c))
  | Delete n => tick 1 (set_file s n None)
  | Wait k => tick k s
  | Run drift items => save N (run_items S N drift s items)
  | Killed drift items => match run_items S N drift s items with (s', _, _) => tick 1 s' end
  end.

(* before the first run *)
Definition fresh (disk : node -> option nat) : istate :=
  {| i_disk := disk; i_mtime := fun _ => 0; i_clock := 1; i_db := fun _ => empty_binfo; i_ni := fun _ => empty_ninfo |}.

(* Specification side: building everything from scratch, no database involved *)
Fixpoint clean_build (S : sem) (items : list item) (disk : node -> option nat) : node -> option nat :=
  match items with
  | [] => disk
  | Src _ :: r => clean_build S r disk
  | Tgt t _ :: r => clean_build S r (fun m => if m =? t_node t then Some (s_act S (t_action t) (map disk (children t))) else disk m)
  end.
