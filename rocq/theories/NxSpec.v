(* C66: what -n and -q tell *)
From Coq Require Import List Bool Arith.
Import ListNotations.
From Verif Require Import IntModel IntSpec.

Section Spec.
Variable P : project.
Variable H : option content -> sig.
(* what a build of ts has to do with: targets, dependencies, Requires, and all targets of an action *)
Inductive involved (w : world) (ts : list node) : node -> Prop :=
| inv_target t : In t ts -> involved w ts t
| inv_child p q : involved w ts p -> In q (children P w p) -> involved w ts q
| inv_require p q : involved w ts p -> In q (prereq P p) -> involved w ts q
| inv_peer p q : involved w ts p -> In q (peers P p) -> involved w ts q.
(* the action of n has to be run, as far as one can tell from the present files *)
Definition outdated (w : world) (n : node) : Prop := exists t, In t (peers P n) /\ (files w t = None \/ ~ current P H w t).
(* the command of n, or of another target of the same action, is among those of tr *)
Definition listed (tr : list node) (n : node) : Prop := exists m, In m tr /\ (m = n \/ In m (peers P n)).
(* no action twice *)
Definition once (tr : list node) : Prop := NoDup tr /\ forall n m, In n tr -> In m tr -> In m (peers P n) -> m = n.
(* what n depends on, at any distance, apart from the targets of its own action *)
Inductive below_ (w : world) (n : node) : node -> Prop :=
| below_child_ t q : In t (peers P n) -> In q (children P w t) \/ In q (prereq P t) -> below_ w n q
| below_next_ p q : below_ w n p -> In q (children P w p) \/ In q (prereq P p) \/ In q (peers P p) -> below_ w n q.
End Spec.
(* what the scripts say ts depends on *)
Inductive fixed (P : project) (ts : list node) : node -> Prop :=
| fixed_target t : In t ts -> fixed P ts t
| fixed_child p q : fixed P ts p -> In q (sources P p) \/ In q (depends P p) \/ In q (prereq P p) \/ In q (peers P p) -> fixed P ts q.
