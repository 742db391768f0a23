(* What a user relies on of aliases. *)
From Coq Require Import List Bool Arith.
From Verif Require Import AliModel.
Import ListNotations.
Open Scope list_scope.

(* m: the elements of l, each once, in the order in which they were first named *)
Inductive FirstSeen {A : Type} : list A -> list A -> Prop :=
| first_none : FirstSeen [] []
| first_new : forall l m x, FirstSeen l m -> ~ In x l -> FirstSeen (l ++ [x]) (m ++ [x])
| first_again : forall l m x, FirstSeen l m -> In x l -> FirstSeen (l ++ [x]) m.

Section History.
Context {node action env : Type}.
Notation call := (@call node action env).
Definition given_sources (h : list call) : list node := concat (map (fun c => match c with Alias _ src _ => src | _ => [] end) h).
Definition given_actions (h : list call) : list action := concat (map (fun c => match c with Alias _ _ act => act | _ => [] end) h).
Definition given_pre (h : list call) : list action := concat (map (fun c => match c with AddPreAction a => [a] | _ => [] end) h).
Definition given_post (h : list call) : list action := concat (map (fun c => match c with AddPostAction a => [a] | _ => [] end) h).
(* all of them, in one environment *)
Definition In_env (e : option env) (l : list action) : list (action * option env) := map (fun a => (a, e)) l.
End History.

(* the alias has to be built: something it leads to, through aliases that have a builder, was built or is an alias with AlwaysBuild *)
Inductive Runs : item -> Prop :=
| runs_built : Runs (Other true)
| runs_always : forall kids, Runs (AnAlias true true kids)
| runs_child : forall always kids k, In k kids -> Runs k -> Runs (AnAlias true always kids).
