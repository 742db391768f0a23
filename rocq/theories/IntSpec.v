(* C65: what an interactive session should do: each build command does what a run of scons on the files of that moment does. *)
From Coq Require Import List Bool Arith.
Import ListNotations.
From Verif Require Import IntModel.

(* what the includes i lead to from the files l *)
Inductive found (i : node -> list node) (l : list node) : node -> Prop :=
| found_first x m : In x l -> In m (i x) -> found i l m
| found_next x m : found i l x -> In m (i x) -> found i l m.

Section Spec.
Variable P : project.
Variable H : option content -> sig.
(* separate runs: each starts with nothing but the files and the .sconsign file *)
Inductive runs : world -> list event -> list (list node) -> world -> Prop :=
| runs_nil w : runs w [] [] w
| runs_edit w f es trs w2 : runs {| files := f; store := store w |} es trs w2 -> runs w (Edit f :: es) trs w2
| runs_build w s0 ts es tr s trs w2 : wd s0 = w -> (forall n, mm s0 n = fresh) ->           (* nothing is remembered *)
    steps P H ts s0 tr s -> succeeded ts s \/ failed s -> runs (wd s) es trs w2 -> runs w (Build ts :: es) (tr :: trs) w2.

(* a target is current: it was built by its command from what its children contain now *)
Definition children (w : world) (n : node) : list node := sources P n ++ depends P n ++ if derived P n then closure P (includes P (files w)) (sources P n) else [].
Definition current (w : world) (n : node) : Prop := store w n = Some (map (fun k => H (files w k)) (children w n), cmd P n).
(* what the targets ts need *)
Inductive needed (w : world) (ts : list node) : node -> Prop :=
| needed_target t : In t ts -> needed w ts t
| needed_child p q : needed w ts p -> In q (children w p) -> needed w ts q
| needed_require p q : needed w ts p -> In q (prereq P p) -> needed w ts q.

(* ---- projects ---- *)
Record sound (U : list node) : Prop := {                   (* U: the files of the project *)
  s_self : forall n, peers P n <> [] -> In n (peers P n);
  s_peers : forall n t, In t (peers P n) -> peers P t = peers P n /\ sources P t = sources P n;
  s_inc : forall c, incl (inc P c) U;
  s_found : forall i l m, In m (closure P i l) -> found i l m;
  s_all : forall i l m, (forall x, incl (i x) U) -> found i l m -> In m (closure P i l) \/ In m l;
  s_ext : forall i j l, (forall x, In x l \/ found i l x -> i x = j x) -> closure P i l = closure P j l }.
(* what is included by a generated file is always the same (g), whenever it is there *)
Variable g : node -> list node.
Definition steady_files (f : disk) : Prop := forall n, derived P n = true -> incl (includes P f n) (g n).
Definition steady : Prop := forall n args ok out, derived P n = true -> run P (cmd P n) args = (ok, out) -> forall t, In t (peers P n) ->
  match out t with Some c => incl (inc P c) (g t) /\ (ok = true -> incl (g t) (inc P c)) | None => ok = true -> g t = [] end.
(* what a build of ts could have to look at *)
Inductive could (f : disk) (ts : list node) : node -> Prop :=
| could_target t : In t ts -> could f ts t
| could_child p q : could f ts p -> In q (sources P p) \/ In q (depends P p) -> could f ts q
| could_require p q : could f ts p -> In q (prereq P p) -> could f ts q
| could_peer p q : could f ts p -> In q (peers P p) -> could f ts q
| could_include p q : could f ts p -> In q (includes P f p) -> could f ts q
| could_generated p q : could f ts p -> derived P p = true -> In q (g p) -> could f ts q.
(* sources and Depends, from the targets *)
Inductive below (ts : list node) : node -> Prop :=
| below_target t : In t ts -> below ts t
| below_child p q : below ts p -> In q (sources P p) \/ In q (depends P p) -> below ts q.
(* what Requires names, and the other targets of an action, are also dependencies of the targets *)
Definition covered (f : disk) (ts : list node) : Prop := forall p q, could f ts p -> In q (prereq P p) \/ (In q (peers P p) /\ q <> p) -> below ts q.
Definition fits (w : world) (es : list event) : Prop :=
  steady_files (files w) /\ (forall f, In (Edit f) es -> steady_files f) /\
  forall es1 ts es2 trs w1, es = es1 ++ Build ts :: es2 -> runs w es1 trs w1 -> covered (files w1) ts.
End Spec.
