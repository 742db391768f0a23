(* C64: what a configure test should give: what it gives when all its commands are run.  Uses only the data types of CfgModel. *)
From Coq Require Import List Bool Arith.
Import ListNotations.
From Verif Require Import CfgModel.

Section Spec.
Variable H : option content -> sig.
Variable run : sig -> list (option content) -> bool * option content.
Variable own : node -> Prop.                                 (* the files of the configure directory *)

(* the file n now has the contents c, all others are the same *)
Definition written (d : disk) (n : node) (c : option content) (d2 : disk) : Prop := d2 n = c /\ forall m, m <> n -> d2 m = d m.
(* running the commands one after the other up to the first that fails, beginning with the files d: the result, the files then, and the targets made *)
Inductive fresh : disk -> list step -> bool -> disk -> list node -> Prop :=
| fresh_nil d : fresh d [] true d []
| fresh_ok d s r out d1 d2 b l : run (cmd s) (map d (kids s d)) = (true, out) -> written d (tgt s) out d1 -> fresh d1 r b d2 l -> fresh d (s :: r) b d2 (tgt s :: l)
| fresh_fail d s r out d1 : run (cmd s) (map d (kids s d)) = (false, out) -> written d (tgt s) out d1 -> fresh d (s :: r) false d1 [tgt s].
(* the children of a step are files of the project, or made by an earlier step; and which they are depends on the contents of such files only *)
Inductive plan_ok : list node -> list step -> Prop :=
| plan_nil l : plan_ok l []
| plan_cons l s r : own (tgt s) -> ~ In (tgt s) l -> (forall d n, In n (kids s d) -> ~ own n \/ In n l) ->
    (forall d1 d2, (forall n, ~ own n \/ In n l -> d1 n = d2 n) -> kids s d1 = kids s d2) -> plan_ok (tgt s :: l) r -> plan_ok l (s :: r).
(* the signatures stored for files of the project are those of their contents *)
Definition current (rec : node -> option sig) (d : disk) : Prop := forall n s, rec n = Some s -> ~ own n -> s = H (d n).
(* what may happen: only files of the project are changed, entries are lost, tests are run but not with --config=cache *)
Inductive quiet : disk -> list event -> state -> Prop :=
| quiet_start f : quiet f [] {| files := f; store := fun _ => None |}
| quiet_edit f h st f2 : quiet f h st -> (forall n, own n -> f2 n = files st n) -> quiet f (h ++ [EEdit f2]) (happen H run st (EEdit f2))
| quiet_forget f h st l : quiet f h st -> quiet f (h ++ [EForget l]) (happen H run st (EForget l))
| quiet_test f h st m dry rec plan : quiet f h st -> m <> CACHE -> plan_ok [] plan -> current rec (files st) -> quiet f (h ++ [ETest m dry rec plan]) (happen H run st (ETest m dry rec plan)).
(* the same files of the project, none of the configure directory *)
Definition scratch (st : state) (d : disk) : Prop := forall n, (~ own n -> d n = files st n) /\ (own n -> d n = None).
End Spec.
(* what is recorded for the steps, up to the first failure *)
Inductive recorded (st : state) : list step -> outcome -> Prop :=
| rec_nil : recorded st [] Done
| rec_ok s r e o : store st (tgt s) = Some e -> efail e = false -> recorded st r o -> recorded st (s :: r) o
| rec_fail s r e : store st (tgt s) = Some e -> efail e = true -> recorded st (s :: r) Failed
| rec_none s r : store st (tgt s) = None -> recorded st (s :: r) CacheErr.
