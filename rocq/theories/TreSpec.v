(* What a user relies on of the printed trees, without the model's functions for printing. *)
From Coq Require Import NArith List Bool.
From Verif Require Import TreModel.
Import ListNotations.
Open Scope list_scope.

(* a tree as a reader sees it: a name, whether it is in brackets, and what is below it *)
Inductive tree := T (n : str) (b : bool) (below : list tree).
Definition top (t : tree) : str := match t with T n _ _ => n end.
Definition below (t : tree) : list tree := match t with T _ _ ts => ts end.

(* the lines (depth, brackets, name) show this tree, the root at depth d *)
Inductive Shows : nat -> tree -> list (nat * bool * str) -> Prop :=
| shows : forall d n b ts l, ShowsAll (S d) ts l -> Shows d (T n b ts) ((d, b, n) :: l)
with ShowsAll : nat -> list tree -> list (nat * bool * str) -> Prop :=
| shows_nil : forall d, ShowsAll d [] []
| shows_cons : forall d t ts l1 l2, Shows d t l1 -> ShowsAll d ts l2 -> ShowsAll d (t :: ts) (l1 ++ l2).

(* the whole tree of dependencies of n *)
Inductive Unfolds {node : Type} (g : graph node) (kids : node -> list node) : node -> tree -> Prop :=
| unfolds : forall n ts, UnfoldsAll g kids (kids n) ts -> Unfolds g kids n (T (name g n) false ts)
with UnfoldsAll {node : Type} (g : graph node) (kids : node -> list node) : list node -> list tree -> Prop :=
| unfolds_nil : UnfoldsAll g kids [] []
| unfolds_cons : forall n l t ts, Unfolds g kids n t -> UnfoldsAll g kids l ts -> UnfoldsAll g kids (n :: l) (t :: ts).

(* the subtrees from the top to the bottom of the page *)
Fixpoint subtrees (t : tree) : list tree := match t with T n b ts => t :: flat_map subtrees ts end.

Inductive Reach {node : Type} (kids : node -> list node) (root : node) : node -> Prop :=
| reach_root : Reach kids root root
| reach_step : forall m c, Reach kids root m -> In c (kids m) -> Reach kids root c.

(* names that can be told from the drawing, on one line *)
Definition Clean (s : str) : Prop := ~ In NL s /\ forall c r, s = c :: r -> c <> OPEN /\ c <> HORIZ /\ c <> HORIZ_DOWN.
