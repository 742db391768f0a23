(* Model of aliases: SCons/Environment.py Alias, AddPreAction and AddPostAction, SCons/Node/Alias.py (build, convert, get_contents), SCons/Executor.py (add_sources, Null._morph, get_action_list),
   the part of SCons/Builder.py _execute that multi builders use, SCons/Node/__init__.py children_are_up_to_date and add_source, SCons/Taskmaster/__init__.py make_ready_current.  No proofs.

   One alias, and the calls made for it in the order of the scripts.  Nodes, actions and environments are abstract.  Not modelled: builder keywords of an Alias call and their overrides,
   side effects, an alias that is also a target of another builder. *)
From Coq Require Import List Bool Arith.
Import ListNotations.
Open Scope list_scope.

Section Calls.
Context {node action env : Type} (node_eqb : node -> node -> bool).
Definition mem (n : node) (l : list node) : bool := existsb (node_eqb n) l.

(* Executor.py 159-177; None: the default environment (_morph, 638-643) *)
Record executor := { pre : list action; acts : list action; post : list action; xenv : option env; xsources : list node }.
Inductive builder := NoBuilder | AliasBuilder | Actions (l : list action).
(* convert() replaces build by really_build (Alias.py 131-135) *)
Record alias := { sources : list node; bld : builder; exec : option executor; really : bool }.
Definition fresh : alias := {| sources := []; bld := NoBuilder; exec := None; really := false |}.

Inductive call :=
| Alias (e : env) (src : list node) (act : list action)             (* act = []: no action *)
| AddPreAction (a : action)
| AddPostAction (a : action).

(* Node/__init__.py 1340-1350 *)
Definition add_child (l new : list node) : list node := fold_left (fun l n => if mem n l then l else l ++ [n]) new l.
(* Executor.py 392-400: those that are in the list already are left out; new ones are not compared with each other *)
Definition add_sources (x : executor) (new : list node) : executor :=
  {| pre := pre x; acts := acts x; post := post x; xenv := xenv x; xsources := xsources x ++ filter (fun n => negb (mem n (xsources x))) new |}.
(* AliasBuilder's own action does nothing and is left out here *)
Definition builder_actions (b : builder) : list action := match b with Actions l => l | _ => [] end.
(* Builder.py 596-631 *)
Definition execute_builder (b : builder) (e : env) (src : list node) (a : alias) : alias :=
  let x := match exec a with
           | Some x => add_sources x src
           | None => {| pre := []; acts := builder_actions b; post := []; xenv := Some e; xsources := src |}
           end in
  {| sources := add_child (sources a) src; bld := b; exec := Some x; really := really a |}.
(* Node/__init__.py 660-679, Executor.py 638-653 *)
Definition executor_of (a : alias) : executor :=
  match exec a with Some x => x | None => {| pre := []; acts := []; post := []; xenv := None; xsources := [] |} end.
Definition with_exec (a : alias) (x : executor) : alias := {| sources := sources a; bld := bld a; exec := Some x; really := really a |}.

(* Environment.py 2458-2519; Alias.py 131-135 *)
Definition step (a : alias) (c : call) : alias :=
  match c with
  | Alias e src [] =>
    match src with
    | [] => a
    | _ => execute_builder (match bld a with NoBuilder => AliasBuilder | b => b end) e src a
    end
  | Alias e src act =>
    let b := match bld a with Actions l => Actions (l ++ act) | _ => Actions act end in
    execute_builder b e (sources a ++ src) {| sources := sources a; bld := NoBuilder; exec := None; really := true |}
  | AddPreAction p => let x := executor_of a in with_exec a {| pre := pre x ++ [p]; acts := acts x; post := post x; xenv := xenv x; xsources := xsources x |}
  | AddPostAction p => let x := executor_of a in with_exec a {| pre := pre x; acts := acts x; post := post x ++ [p]; xenv := xenv x; xsources := xsources x |}
  end.
Definition calls (l : list call) : alias := fold_left step l fresh.

(* Alias.py 120-127 and Executor.py 282-285, 113-131: the actions that are executed when the alias is built, each with its environment, and the sources they see *)
Definition executed (a : alias) : list (action * option env) :=
  match bld a, exec a with
  | NoBuilder, _ | _, None => []
  | _, Some x => if really a || (0 <? length (post x) + length (pre x)) then map (fun p => (p, xenv x)) (pre x ++ acts x ++ post x) else []
  end.
Definition seen_sources (a : alias) : list node := match exec a with Some x => xsources x | None => [] end.
End Calls.

(* what a build has done, as far as aliases are concerned: a node that is a file (or anything else), with whether it was built in this run; an alias with whether it has a builder,
   AlwaysBuild, and its children (sources and Depends) *)
Inductive item := Other (built : bool) | AnAlias (has_builder always : bool) (children : list item).
Inductive state := UpToDate | Executed.
(* Taskmaster/__init__.py 387-423 with Node/__init__.py 1539-1554 *)
Fixpoint state_of (n : item) : state :=
  match n with
  | Other b => if b then Executed else UpToDate
  | AnAlias hb always kids =>
    if negb hb then UpToDate
    else if always then Executed
    else if existsb (fun k => match state_of k with Executed => true | UpToDate => false end) kids then Executed else UpToDate
  end.

(* Alias.py 111-115 and 137-153: what the signature of an alias is made from *)
Definition contents {A : Type} (signatures : list (list A)) : list A := concat signatures.
