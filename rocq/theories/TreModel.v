(* Model of the printed dependency trees: SCons/Util/__init__.py print_tree (--tree) and render_tree with prune (--debug=includes), SCons/Script/Main.py TreePrinter, SCons/Node/__init__.py all_children.
   No proofs.

   A text is a list of code points.  A node is printed under its name, str().  Files on disk, and the tags that --tree=status prints before the line (print_tree 377-392), are abstract: tags gives
   them for a node.  The lists of dependencies are those after the build.  Not modelled: more than one --tree option; an exception while printing. *)
From Coq Require Import NArith List Bool.
Import ListNotations.
Open Scope list_scope.

Definition str := list N.
Fixpoint str_eqb (a b : str) : bool := match a, b with [], [] => true | x :: a, y :: b => N.eqb x y && str_eqb a b | _, _ => false end.
Definition mem (s : str) (l : list str) : bool := existsb (str_eqb s) l.
Definition NL : N := 10%N.
Definition SPACE : N := 32%N.
Definition PLUS : N := 43%N.
Definition MINUS : N := 45%N.
Definition OPEN : N := 91%N.
Definition CLOSE : N := 93%N.
Definition PIPE : N := 124%N.
(* Util/__init__.py 310-318 *)
Definition HORIZ : N := 9472%N.
Definition VERT : N := 9474%N.
Definition UP_RIGHT : N := 9492%N.
Definition VERT_RIGHT : N := 9500%N.
Definition HORIZ_DOWN : N := 9516%N.

(* Main.py 462-489, SConsOptions.py 1124-1139; render: render_tree with prune *)
Record options := { derived : bool; prune : bool; status : bool; linedraw : bool; render : bool }.
Record graph (node : Type) := { name : node -> str; sources : node -> list node; depends : node -> list node; implicit : node -> list node; has_builder : node -> bool; tags : node -> str }.
Arguments name {node}. Arguments sources {node}. Arguments depends {node}. Arguments implicit {node}. Arguments has_builder {node}. Arguments tags {node}.

Section Print.
Context {node : Type} (g : graph node) (o : options).

(* Node/__init__.py 1404-1426: nothing removed *)
Definition all_children (n : node) : list node := sources g n ++ depends g n ++ implicit g n.
(* Main.py 469-474 *)
Definition children (n : node) : list node := if derived o then filter (has_builder g) (all_children n) else all_children n.

(* what a line is made from: margin[:-1], lastChild, whether there are children, whether it is one that was printed before *)
Record line := { margins : list bool; last : bool; parent : bool; bracket : bool; who : node }.
Definition nonempty {A : Type} (l : list A) : bool := match l with [] => false | _ => true end.

(* the loop over the children: p is given whether there are more *)
Fixpoint each (p : bool -> list str -> node -> option (list line * list str)) (visited : list str) (l : list node) : option (list line * list str) :=
  match l with
  | [] => Some ([], visited)
  | c :: r =>
    match p (nonempty r) visited c with
    | None => None
    | Some (l1, visited) => match each p visited r with None => None | Some (l2, visited) => Some (l1 ++ l2, visited) end
    end
  end.
(* Util/__init__.py 323-450; 255-301 for render (there a node without children is shortened too).  above, own: the list margin without its last element, and that; fuel: the depth of recursion *)
Fixpoint print (fuel : nat) (above : list bool) (own last : bool) (visited : list str) (n : node) : option (list line * list str) :=
  match fuel with
  | 0 => None
  | S fuel =>
    let ch := children n in
    let seen := prune o && mem (name g n) visited && (render o || nonempty ch) in
    let here := {| margins := above; last := last; parent := nonempty ch; bracket := seen; who := n |} in
    if seen then Some ([here], visited)
    else match each (fun more visited c => print fuel (above ++ [own]) more (negb more) visited c) (name g n :: visited) ch with
         | None => None
         | Some (l, visited) => Some (here :: l, visited)
         end
  end.

(* 397-401 *)
Definition margin (m : bool) : str := if m then (if linedraw o then [VERT; SPACE] else [PIPE; SPACE]) else [SPACE; SPACE].
(* 405-419 *)
Definition cross (l : line) : str :=
  if linedraw o then (if last l then [UP_RIGHT; HORIZ] else [VERT_RIGHT; HORIZ]) ++ (if parent l then (if bracket l then [HORIZ] else [HORIZ_DOWN]) else [])
  else [PLUS; MINUS].
(* 421-425 *)
Definition text (l : line) : str :=
  (if status o then tags g (who l) else []) ++ flat_map margin (margins l) ++ cross l ++ (if bracket l then OPEN :: name g (who l) ++ [CLOSE] else name g (who l)).
(* 363-375 *)
Definition output (legend : str) (ls : list line) : str := (if status o then legend else []) ++ flat_map (fun l => text l ++ [NL]) ls.
(* Main.py 476-489 *)
Definition display (fuel : nat) (root : node) : option (list line) := match print fuel [] false true [] root with Some (l, _) => Some l | None => None end.
End Print.
Arguments margins {node}. Arguments last {node}. Arguments parent {node}. Arguments bracket {node}. Arguments who {node}.
