(* C68: which files a C source depends on. *)
From Coq Require Import Ascii String List Bool Arith.
Import ListNotations.
From Verif Require Import CscModel.
Open Scope list_scope.

(* ---- the lines of a text ---- *)
Fixpoint lines (t : text) : list text :=
  match t with
  | [] => [[]]
  | c :: r => if Ascii.eqb c newline then [] :: lines r else match lines r with l :: ls => (c :: l) :: ls | [] => [[c]] end
  end.
Definition blanks (b : text) : Prop := forall c, In c b -> c = " "%char \/ c = "009"%char.
Definition name_char (c : ascii) : Prop := c <> ">"%char /\ c <> """"%char.
(* a line up to the name: # include or # import, and an opening character *)
Definition head_of (q : ascii) (h : text) : Prop := exists b1 b2 w b3,
  h = b1 ++ lit "#" ++ b2 ++ w ++ b3 ++ [q] /\ blanks b1 /\ blanks b2 /\ blanks b3 /\ (w = lit "include" \/ w = lit "import") /\ (q = "<"%char \/ q = """"%char).
(* the line includes the name n, in quotes or angle brackets *)
Definition directive (line : text) (q : ascii) (n : text) : Prop := exists h e rest,
  line = h ++ n ++ e :: rest /\ head_of q h /\ n <> [] /\ (forall c, In c n -> name_char c) /\ (e = ">"%char \/ e = """"%char).
(* the closing character is missing *)
Definition unfinished (line : text) : Prop := exists q h n, line = h ++ n /\ head_of q h /\ forall c, In c n -> name_char c.
(* the names that lines include, in order *)
Inductive includes : list text -> list (ascii * text) -> Prop :=
| includes_nil : includes [] []
| includes_yes l ls q n is_ : directive l q n -> includes ls is_ -> includes (l :: ls) ((q, n) :: is_)
| includes_no l ls is_ : (forall q n, ~ directive l q n) -> includes ls is_ -> includes (l :: ls) is_.

(* ---- files ---- *)
Section Files.
Variables dir node : Type.
Variable root : dir.
Variable enter : dir -> text -> option dir.
Variable here : dir -> text -> option node.
(* a file name is cut at the slashes *)
Fixpoint pieces (t : text) : list text :=
  match t with
  | [] => [[]]
  | c :: r => if Ascii.eqb c "/" then [] :: pieces r else match pieces r with l :: ls => (c :: l) :: ls | [] => [[c]] end
  end.
Definition not_empty (t : text) : bool := match t with [] => false | _ => true end.
Definition dirs_of (t : text) : list text := filter not_empty (removelast (pieces t)).
Definition last_of (t : text) : text := last (pieces t) [].
Fixpoint go (d : dir) (l : list text) : option dir := match l with [] => Some d | x :: l => match enter d x with Some d => go d l | None => None end end.
Definition start_of (d : dir) (t : text) : dir := match t with c :: _ => if Ascii.eqb c "/" then root else d | [] => d end.
(* the file that a name stands for, seen from a directory *)
Definition seen_from (d : dir) (t : text) : option node := match go (start_of d t) (dirs_of t) with Some d => here d (last_of t) | None => None end.
(* the first directory in which it is found *)
Definition found_along (paths : list dir) (t : text) (n : node) : Prop := exists a d b, paths = a ++ d :: b /\ seen_from d t = Some n /\ forall x, In x a -> seen_from x t = None.
(* where to look: a name in quotes first beside the source, a name in angle brackets first along the path *)
Definition order (q : ascii) (source_dir : dir) (path : list dir) : list dir := if Ascii.eqb q """" then source_dir :: path else path ++ [source_dir].
(* what find_file remembers is right *)
Definition faithful (m : memory dir node) : Prop := forall f ps r, In ((f, ps), r) m -> match r with Some n => found_along ps f n | None => forall d, In d ps -> seen_from d f = None end.
End Files.
