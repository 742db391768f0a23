(* C62: which targets are selected (man page, "Target Selection"; -u, -D, -U).  Uses only the data types of TgtModel. *)
From Coq Require Import Ascii String List Bool Arith.
Import ListNotations. Open Scope list_scope.
From Verif Require Import NameModel OptModel OptSpec TgtModel.

(* the default targets: those named by Default since the last None *)
Definition all_dargs (h : list sop) : list darg := flat_map (fun o => match o with ODefault l => l | OHand _ => [] end) h.
Definition nodes_of (l : list darg) : list tnode := flat_map (fun d => match d with DNodes l => l | DNone => [] end) l.
Definition default_targets (h : list sop) (ns : list tnode) : Prop :=
  exists before since, all_dargs h = before ++ since /\ (before = [] \/ exists b, before = b ++ [DNone]) /\ ~ In DNone since /\ ns = nodes_of since.
Definition default_called (h : list sop) : Prop := exists l, In (ODefault l) h.
Definition no_hand (h : list sop) : Prop := forall f, ~ In (OHand f) h.
(* the scripts without what they do to BUILD_TARGETS by hand *)
Definition official (h : list sop) : list sop := filter (fun o => match o with ODefault _ => true | OHand _ => false end) h.
(* what the scripts do to BUILD_TARGETS by hand *)
Definition by_hand (h : list sop) (l : list tgt) : list tgt := fold_left (fun l o => match o with OHand f => f l | ODefault _ => l end) h l.

(* the path a name means in a directory: #... below the top directory, /... below the root; . and .. as usual *)
Inductive steps_to : path -> list word -> path -> Prop :=
| st_end p : steps_to p [] p
| st_stay p c l q : c = [] \/ c = ["."]%char -> steps_to p l q -> steps_to p (c :: l) q
| st_up p x l q : steps_to p l q -> steps_to (p ++ [x]) ([".";"."]%char :: l) q
| st_up_root l q : steps_to [] l q -> steps_to [] ([".";"."]%char :: l) q
| st_down p c l q : c <> [] -> c <> ["."]%char -> c <> [".";"."]%char -> steps_to (p ++ [c]) l q -> steps_to p (c :: l) q.
Definition slash : ascii := "/".
Definition hash : ascii := "#".
Fixpoint joined (l : list word) : word := match l with [] => [] | [x] => x | x :: r => x ++ slash :: joined r end.
Definition parts (w : word) (l : list word) : Prop := l <> [] /\ w = joined l /\ Forall (fun c => ~ In slash c) l.
Inductive means (top dir : path) : word -> path -> Prop :=
| means_top r l p : parts r l -> steps_to top l p -> means top dir (hash :: r) p
| means_abs r l p : parts r l -> steps_to [] l p -> means top dir (slash :: r) p
| means_rel w l p : (forall r, w <> hash :: r) -> (forall r, w <> slash :: r) -> parts w l -> steps_to dir l p -> means top dir w p.
Section Named.
Variable alias : word -> option tnode.
Variable entry : path -> tnode.
Variables top start : path.                                  (* the directory of SConstruct, the directory where scons was started *)
Inductive stands_for : tgt -> tnode -> Prop :=
| sf_node n : stands_for (TNode n) n
| sf_alias w n : alias w = Some n -> stands_for (TName w) n
| sf_file w p : alias w = None -> means top start w p -> stands_for (TName w) (entry p).
End Named.
(* ordinary components of paths *)
Definition real (p : path) : Prop := Forall (fun c => c <> [] /\ c <> ["."]%char /\ c <> [".";"."]%char) p.
(* the nearest directory at or above start with a SConstruct *)
Definition nearest (has_script : path -> bool) (start top rest : path) : Prop :=
  start = top ++ rest /\ has_script top = true /\ forall a b, rest = a ++ b -> a <> [] -> has_script (top ++ a) = false.

(* -u: what is at or below the directory; the directory itself for a directory above it; things that are in no directory *)
Definition inside (n : tnode) (d : path) : Prop := match n with NDir p => exists r, p = d ++ r | NFile p _ => exists r, p = d ++ r | NOther _ => True end.
Inductive kept (d : path) : tnode -> list tnode -> Prop :=
| kept_inside n : inside n d -> kept d n [n]
| kept_above p : ~ inside (NDir p) d -> (exists r, d = p ++ r) -> kept d (NDir p) [NDir d]
| kept_not n : ~ inside n d -> (forall p r, n = NDir p -> d <> p ++ r) -> kept d n [].
(* -U: targets of the scripts of the directory *)
Definition of_scripts (srcnode : path -> path) (d : path) (n : tnode) : Prop := match n with NFile _ (Some s) => s = d | NFile _ None => True | NDir p => srcnode p = d | NOther _ => True end.
(* the elements of l for which P holds, in order *)
Inductive those {A} (P : A -> Prop) : list A -> list A -> Prop :=
| those_nil : those P [] []
| those_yes a l r : P a -> those P l r -> those P (a :: l) (a :: r)
| those_no a l r : ~ P a -> those P l r -> those P (a :: l) r.
Definition unless_empty {A B} (l : list A) (r : option (list B)) (P : list B -> Prop) : Prop := (l = [] /\ r = None) \/ (l <> [] /\ exists ns, r = Some ns /\ P ns).
