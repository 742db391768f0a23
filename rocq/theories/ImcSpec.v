(* C67: with --implicit-cache a run still leaves everything up to date, and what it saves. *)
From Coq Require Import List Bool Arith.
Import ListNotations.
From Verif Require Import ImcModel.

(* what the includes i lead to from the files l *)
Inductive found (i : node -> list node) (l : list node) : node -> Prop :=
| found_first x m : In x l -> In m (i x) -> found i l m
| found_next x m : found i l x -> In m (i x) -> found i l m.

Section Spec.
Variable T : tools.
Variable H : option content -> sig.
(* the dependencies of a target; the files f being there *)
Definition implicit_deps (P : project) (f : disk) (n : node) : list node := if derived P n then closure T (includes T P f) (sources P n) else [].
Definition children (P : project) (f : disk) (n : node) : list node := sources P n ++ depends P n ++ implicit_deps P f n.
(* a target is current: it contains what its command makes of what its dependencies contain now *)
Definition current (P : project) (f : disk) (n : node) : Prop := exists out, run T (cmd P n) (map f (children P f n)) = (true, out) /\ f n = out n.
Inductive needed (P : project) (f : disk) (ts : list node) : node -> Prop :=
| needed_target t : In t ts -> needed P f ts t
| needed_child p q : needed P f ts p -> In q (children P f p) -> needed P f ts q
| needed_peer p q : needed P f ts p -> In q (peers P p) -> needed P f ts q.
Definition began (w : world) (s : state) : Prop := wd s = w /\ forall n, mm s n = fresh.

(* ---- scanners and commands ---- *)
Record sound (U : list node) : Prop := {                   (* U: the files there could be *)
  s_hash : forall a b, H a = H b -> a = b;                  (* different contents have different signatures *)
  s_look : forall e c, incl (look T e c) U;
  s_same : forall e1 e2 c, (forall m, e1 m = e2 m) -> look T e1 c = look T e2 c;
  s_found : forall i l m, In m (closure T i l) -> found i l m;
  s_all : forall i l m, (forall x, incl (i x) U) -> found i l m -> In m (closure T i l) \/ In m l;
  s_ext : forall i j l, (forall x, In x l \/ found i l x -> i x = j x) -> closure T i l = closure T j l;
  s_failed : forall c args out n, run T c args = (false, out) -> out n = None }.     (* a command that fails leaves no target behind *)
(* the targets of one action have it in common *)
Record proper (P : project) : Prop := {
  p_self : forall n, peers P n <> [] -> In n (peers P n);
  p_peers : forall n t, In t (peers P n) -> peers P t = peers P n /\ sources P t = sources P n /\ depends P t = depends P n /\ cmd P t = cmd P n }.

(* ---- a project over time: the scripts and the files are changed, scons is run (and may be interrupted) ---- *)
(* files that are built are not edited; they may be removed *)
Definition allowed (P : project) (f : disk) (P2 : project) (f2 : disk) : Prop := forall n, derived P2 n = true -> f2 n = None \/ (derived P n = true /\ f2 n = f n).
Inductive event := Edit (P : project) (f : disk) | Run (mo : mode) (ts : list node).
Inductive history : project -> world -> list event -> project -> world -> Prop :=
| history_nil P w : history P w [] P w
| history_edit P w P2 f es P3 w3 : allowed P (files w) P2 f -> history P2 {| files := f; store := store w |} es P3 w3 -> history P w (Edit P2 f :: es) P3 w3
| history_run P w mo ts es s0 tr s P3 w3 : began w s0 -> steps T H P mo ts s0 tr s -> history P (wd s) es P3 w3 -> history P w (Run mo ts :: es) P3 w3.
Definition new_disk (f : disk) : world := {| files := f; store := fun _ => None |}.
(* the projects and the files of a history, from P and f: those at the start and those after each edit *)
Definition versions (P : project) (f : disk) (es : list event) : list (project * disk) := (P, f) :: flat_map (fun e => match e with Edit P f => [(P, f)] | Run _ _ => [] end) es.
(* the command line of a target names its sources: targets with the same command have the same sources *)
Definition names_sources (src_of : node -> sig -> list node) (P : project) : Prop := forall n, sources P n = src_of n (cmd P n).
(* what is found in a file does not depend on when it is looked for: no file appears or vanishes so that a name in a file stands for another file *)
Definition steady_search (find : content -> list node) (P : project) (f : disk) : Prop := forall c, look T (is_there P f) c = find c.
Definition fits (P : project) (f : disk) (es : list event) (src_of : node -> sig -> list node) (find : content -> list node) : Prop :=
  (forall P2 f2, In (P2, f2) (versions P f es) -> proper P2 /\ names_sources src_of P2 /\ steady_search find P2 f2) /\
  forall mo ts, In (Run mo ts) es -> mo <> Unchanged.
(* ---- what a record says ---- *)
(* the record of a target is what a run would record now *)
Definition recorded (P : project) (w : world) (n : node) : Prop :=
  store w n = Some {| e_src := sources P n; e_dep := depends P n; e_imp := implicit_deps P (files w) n; e_sigs := map (fun k => H (files w k)) (children P (files w) n); e_cmd := Some (cmd P n) |}.
End Spec.
