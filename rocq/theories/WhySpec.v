(* C70: why a target is rebuilt. *)
From Coq Require Import List Arith ZArith Bool.
Import ListNotations.
From Verif Require Import DecModel DecSpec WhyModel.

(* what an earlier run, with the target described by t0, the node infos st0 and the action text bact0, leaves in the database *)
Definition left_by (N : names) (t0 : target) (st0 : node -> ninfo) (bact0 : nat) : stored := {| s_binfo := saved N t0 st0; s_lists := true; s_bact := if t_builder t0 then Some bact0 else None |}.

(* dependency n of target t, for which p was recorded, counts as unchanged; the four deciders *)
Definition same (w : world) (t : target) (d : decider) (n : node) (p : ninfo) : Prop :=
  match d with
  | DContent => ni_csig p = Some (w_hash w n)
  | DTimestampNewer => w_mtime w n <= w_mtime w (t_node t)
  | DTimestampMatch => ni_ts p = Some (w_mtime w n)
  | DTimestampContent => ni_ts p = Some (w_mtime w n) \/ ni_csig p = Some (w_hash w n)
  end.
(* the signatures already computed in this run are right; MD5-timestamp may have taken the old one for a file with its old timestamp *)
Definition computed_so_far (w : world) (dec : node -> decider) (st0 st : node -> ninfo) : Prop :=
  forall m s, (dec m = DTimestampContent -> ni_ts (st0 m) <> Some (w_mtime w m)) -> ni_csig (st m) = Some s -> s = w_hash w m.

Section Truth.
Variables (w : world) (dec : node -> decider) (t0 : target) (st0 : node -> ninfo) (bact0 : nat) (t : target) (bact : nat).
(* n was and is a dependency, and its decider says that it changed *)
Definition really_changed (n : node) : Prop := In n (children t) /\ In n (children t0) /\ ~ same w t (dec n) n (st0 n).
Definition no_change : Prop := (forall n, In n (children t) <-> In n (children t0)) /\ forall n, ~ really_changed n.
Definition true_reason (r : reason) : Prop :=
  match r with
  | Gone n => In n (children t0) /\ ~ In n (children t)
  | Fresh n => In n (children t) /\ ~ In n (children t0)
  | Changed n => really_changed n
  | Order => no_change /\ children t <> children t0
  | ActContents => no_change /\ children t = children t0 /\ t_action t <> t_action t0 /\ bact = bact0
  | ActText => no_change /\ children t = children t0 /\ t_action t <> t_action t0 /\ bact <> bact0
  end.
End Truth.
