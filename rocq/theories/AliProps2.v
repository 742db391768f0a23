(* Aliases: a case; what does not hold. *)
From Coq Require Import List Bool Arith Lia.
From Verif Require Import AliModel AliSpec AliProps.
Import ListNotations.
Open Scope list_scope.

(* nodes, actions and environments are numbers *)
Notation ncall := (@call nat nat nat).
Definition ncalls (h : list ncall) := calls Nat.eqb h.
Definition prog := 1. Definition lib := 2. Definition man := 3.
Definition history : list ncall := [Alias 7 [prog; lib] []; Alias 7 [man] [100]; AddPreAction 50; Alias 8 [lib; prog] []; Alias 8 [] [200; 201]; AddPostAction 60; AddPreAction 51].

Theorem C82_case : (forall a b, Nat.eqb a b = true <-> a = b) /\ sources (ncalls history) = [prog; lib; man] /\
  executed (ncalls history) = [(51, Some 8); (100, Some 8); (200, Some 8); (201, Some 8); (60, Some 8)] /\
  executed (ncalls [Alias 7 [prog] []; AddPostAction 60]) = [(60, Some 7)] /\ executed (ncalls [Alias 7 [prog] []]) = [] /\
  state_of (AnAlias true false [AnAlias true false [Other false; Other true]; Other false]) = Executed /\
  state_of (AnAlias true false [AnAlias true false [Other false]; Other false]) = UpToDate /\
  contents [[1; 2]; [3; 4]] <> contents [[3; 4]; [1; 2]].
Proof. split; [exact Nat.eqb_eq|]. repeat split; try (vm_compute; reflexivity). vm_compute. discriminate. Qed.

(* an action given in one environment is executed in that of a later call *)
Theorem C82_environment_refuted : exists h : list ncall, In (Alias 7 [prog] [100]) h /\ executed (ncalls h) = [(100, Some 8); (200, Some 8)].
Proof. exists [Alias 7 [prog] [100]; Alias 8 [man] [200]]. split; [left; reflexivity | vm_compute; reflexivity]. Qed.
(* what AddPreAction and AddPostAction gave is lost with the next call that gives an action *)
Theorem C82_preaction_refuted : exists h : list ncall, In (AddPreAction 50) h /\ In (AddPostAction 60) h /\ executed (ncalls h) = [(100, Some 7)].
Proof. exists [Alias 7 [prog] []; AddPreAction 50; AddPostAction 60; Alias 7 [] [100]]. split; [right; left; reflexivity|]. split; [right; right; left; reflexivity | vm_compute; reflexivity]. Qed.
(* AddPreAction before the alias has sources: executed in the default environment *)
Theorem C82_default_refuted : executed (ncalls [AddPreAction 50; Alias 7 [prog] []]) = [(50, None)] /\ executed (ncalls [Alias 7 [prog] []; AddPreAction 50]) = [(50, Some 7)].
Proof. split; vm_compute; reflexivity. Qed.
(* a source can be twice in $SOURCES *)
Theorem C82_twice_refuted : seen_sources (ncalls [Alias 7 [prog] []; Alias 7 [prog] [100]]) = [prog; prog].
Proof. vm_compute. reflexivity. Qed.
(* the action is not executed when a source that is not built has changed, nor when all that was built is behind an alias that has only Depends; AlwaysBuild does nothing for such an alias *)
Theorem C82_changed_source_refuted : ~ Runs (AnAlias true false [Other false]) /\ ~ Runs (AnAlias true false [AnAlias false false [Other true]]) /\ ~ Runs (AnAlias false true [Other true]).
Proof.
  split; [|split]; intros H; apply C82e_when in H; vm_compute in H; discriminate H.
Qed.
(* texts of values have no fixed length: a target that depends on an alias of values does not see that they have changed *)
Theorem C82_values_refuted : exists l1 l2 : list (list nat), l1 <> l2 /\ length l1 = length l2 /\ contents l1 = contents l2.
Proof. exists [[1; 2]; [3]], [[1]; [2; 3]]. split; [discriminate|]. split; vm_compute; reflexivity. Qed.
Print Assumptions C82_case.
Print Assumptions C82_changed_source_refuted.
