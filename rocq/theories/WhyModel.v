(* Model of --debug=explain: SCons/Node/__init__.py (Node.explain 1637-1730), SCons/Node/FS.py (FileBuildInfo.prepare_dependencies 2639-2666), SCons/Script/Main.py (BuildTask.make_ready 354-360).  No proofs.
   The stored information, the decision and the deciders are those of DecModel.v.

   Simplified: an explanation is the list of its reasons, not its text; file nodes only, so that str_to_node is a function [node_of] from strings to nodes; the third argument of a decider (repo_node) is not used. *)
From Coq Require Import List Arith ZArith Bool.
Import ListNotations.
From Verif Require Import DecModel.

Inductive reason := Gone (n : node) | Fresh (n : node) | Changed (n : node) | Order | ActContents | ActText.
Inductive explanation := NotThere | Always | NoRecord | Reasons (l : list reason) | Unknown | Crash.

(* what get_stored_info().binfo has: the lists of dependencies and the text of the action may be missing *)
Record stored := { s_binfo : binfo; s_lists : bool; s_bact : option nat }.

(* FS.py 2639-2666 *)
Definition prepare (node_of : nat -> node) (keys : list key) (sigs : list ninfo) : list key :=
  map (fun ki => KNode (match fst ki with KNode n => n | KStr s => node_of s end)) (combine keys sigs).
Definition prepared (node_of : nat -> node) (b : binfo) : binfo :=
  {| bsources := prepare node_of (bsources b) (bsourcesigs b); bdepends := prepare node_of (bdepends b) (bdependsigs b); bimplicit := prepare node_of (bimplicit b) (bimplicitsigs b);
     bsourcesigs := bsourcesigs b; bdependsigs := bdependsigs b; bimplicitsigs := bimplicitsigs b; bactsig := bactsig b |}.
(* 1652-1660 *)
Definition bkids (b : binfo) : list key := bsources b ++ bdepends b ++ bimplicit b.
Definition bkidsigs (b : binfo) : list ninfo := bsourcesigs b ++ bdependsigs b ++ bimplicitsigs b.
Definition kmem (k : key) (l : list key) : bool := existsb (key_eqb k) l.
Definition knode (k : key) : node := match k with KNode n => n | KStr s => s end.       (* all keys are Nodes here *)
Fixpoint keys_eqb (a b : list key) : bool := match a, b with [], [] => true | x :: a, y :: b => key_eqb x y && keys_eqb a b | _, _ => false end.

(* 1678-1682 *)
Definition removed (old new : list key) : list reason := map (fun k => Gone (knode k)) (filter (fun k => negb (kmem k new)) old).
(* 1684-1691 *)
Fixpoint kid_lines (N : names) (w : world) (bi : binfo) (t : target) (dec : node -> decider) (osig : dmap) (old : list key) (st : node -> ninfo) (new : list key) : list reason * (node -> ninfo) :=
  match new with
  | [] => ([], st)
  | k :: r =>
    if negb (kmem k old) then let (l, st) := kid_lines N w bi t dec osig old st r in (Fresh (knode k) :: l, st)
    else let (c, st) := decide N w bi t (dec (knode k)) st (knode k) (dget osig k) in
         let (l, st) := kid_lines N w bi t dec osig old st r in (if c then Changed (knode k) :: l else l, st)
  end.
Definition is_nil {A} (l : list A) : bool := match l with [] => true | _ => false end.
Definition osig_eqb (a b : option nat) : bool := match a, b with Some a, Some b => a =? b | None, None => true | _, _ => false end.
(* 1637-1730; bact: str(executor) *)
Definition explain (N : names) (w : world) (node_of : nat -> node) (always : bool) (s : stored) (bact : nat) (dec : node -> decider) (st : node -> ninfo) (t : target) : explanation :=
  if negb (w_exists w (t_node t)) then NotThere
  else if always then Always
  else if negb (s_lists s) then NoRecord
  else
    let old := prepared node_of (s_binfo s) in
    let new := get_binfo t st in
    let osig := combine (bkids old) (bkidsigs old) in
    let lines := removed (bkids old) (bkids new) ++ fst (kid_lines N w old t dec osig (bkids old) st (bkids new)) in
    let lines := if is_nil lines && negb (keys_eqb (bkids old) (bkids new)) then [Order] else lines in
    if is_nil lines then
      if osig_eqb (bactsig old) (bactsig new) then Unknown
      else match s_bact s with
           | None => Crash                              (* 1711: AttributeError *)
           | Some b => Reasons [if b =? bact then ActContents else ActText]
           end
    else Reasons lines.
