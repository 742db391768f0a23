(* What the options of the cache directory should mean, without the code of CacheDir.py. *)
From Coq Require Import List Bool Arith.
Import ListNotations.
From Verif Require Import CopModel.

(* a build without any cache directory *)
Record plain := { p_disk : node -> option content; p_store : node -> option (list (option content)); p_failed : node -> bool }.
Definition current (p : plain) (T : task) : Prop :=
  forall t, In t (targets T) -> p_disk p t <> None /\ p_store p t = Some (map (p_disk p) (deps T)).
Inductive plain_step (p : plain) (T : task) : plain -> Prop :=
| ps_blocked d : In d (deps T) -> p_failed p d = true ->
    plain_step p T {| p_disk := p_disk p; p_store := p_store p; p_failed := fun m => mem m (targets T) || p_failed p m |}
| ps_current : (forall d, In d (deps T) -> p_failed p d = false) -> current p T -> plain_step p T p
| ps_run f : (forall d, In d (deps T) -> p_failed p d = false) -> ~ current p T -> command T (map (p_disk p) (deps T)) = (true, f) ->
    plain_step p T {| p_disk := fun m => if mem m (targets T) then f m else p_disk p m; p_store := fun m => if mem m (targets T) then Some (map (p_disk p) (deps T)) else p_store p m; p_failed := p_failed p |}
| ps_failed f : (forall d, In d (deps T) -> p_failed p d = false) -> ~ current p T -> command T (map (p_disk p) (deps T)) = (false, f) ->
    plain_step p T {| p_disk := fun m => if mem m (targets T) then f m else p_disk p m; p_store := p_store p; p_failed := fun m => mem m (targets T) || p_failed p m |}.
Inductive plain_run : list task -> plain -> plain -> Prop :=
| pr_nil p : plain_run [] p p
| pr_cons T l p q r : plain_step p T q -> plain_run l q r -> plain_run (T :: l) p r.
(* the state of the files, the records and the failures *)
Definition same (s : state) (p : plain) : Prop :=
  (forall n, disk s n = p_disk p n) /\ (forall n, store s n = p_store p n) /\ (forall n, failed s n = p_failed p n).
Definition plain0 (d : node -> option content) (r : node -> option (list (option content))) : plain := {| p_disk := d; p_store := r; p_failed := fun _ => false |}.

(* the project: every target has one task, and no task depends on itself *)
Definition proper (P : list task) : Prop :=
  (forall T T' t, In T P -> In T' P -> In t (targets T) -> In t (targets T') -> T = T') /\
  (forall T d, In T P -> In d (deps T) -> ~ In d (targets T)).
(* no collisions of signatures *)
Definition injective (key : node -> list (option content) -> sig) : Prop := forall t l t' l', key t l = key t' l' -> t = t' /\ l = l'.
(* whoever put it there, a file in the cache is what the task gives for those dependencies *)
Definition sound (P : list task) (key : node -> list (option content) -> sig) (c : sig -> option content) : Prop :=
  forall T t l x, In T P -> In t (targets T) -> c (key t l) = Some x -> exists f, command T l = (true, f) /\ f t = Some x.
(* nobody has changed a target by hand since it was recorded *)
Definition honest (P : list task) (d : node -> option content) (r : node -> option (list (option content))) : Prop :=
  forall T t l x, In T P -> In t (targets T) -> r t = Some l -> d t = Some x -> exists f, command T l = (true, f) /\ f t = Some x.
(* a command that fails leaves no target *)
Definition tidy (P : list task) : Prop := forall T l f t, In T P -> command T l = (false, f) -> In t (targets T) -> f t = None.
(* every command that succeeds makes all its targets *)
Definition complete (P : list task) : Prop := forall T l f t, In T P -> command T l = (true, f) -> In t (targets T) -> f t <> None.
(* dependencies are built first *)
Definition ordered (l : list task) : Prop :=
  forall l1 T l2, l = l1 ++ T :: l2 -> forall T' d, In T' l2 -> In d (deps T) -> ~ In d (targets T').

(* the tasks of a run, and what other processes alone make of the cache *)
Fixpoint tasks (ls : list label) : list task := match ls with [] => [] | Do T :: r => T :: tasks r | Other _ _ :: r => tasks r end.
Fixpoint others (ls : list label) (c : sig -> option content) : sig -> option content :=
  match ls with [] => c | Do _ :: r => others r c | Other k v :: r => others r (fun k' => if k' =? k then v else c k') end.
(* the other processes keep the cache sound *)
Definition fair (P : list task) (key : node -> list (option content) -> sig) (ls : list label) : Prop :=
  forall k x, In (Other k (Some x)) ls -> forall T t l, In T P -> In t (targets T) -> key t l = k -> exists f, command T l = (true, f) /\ f t = Some x.
(* commands that were executed *)
Definition executed (n : nat) (e : list event) : Prop := In (Ran n) e.
