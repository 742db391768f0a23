(* Dependency files as compilers write them, independently of the model *)
From Coq Require Import Ascii String List Bool Arith.
Import ListNotations.
Open Scope list_scope.
Notation text := (list ascii).
Definition White (c : ascii) : Prop := 9 <= nat_of_ascii c <= 13 \/ 28 <= nat_of_ascii c <= 32.
Definition newline : ascii := ascii_of_nat 10.
Definition return_ : ascii := ascii_of_nat 13.
Definition backslash : ascii := "\"%char.

(* a text consists of these words, with white space between and around *)
Inductive Words : text -> list text -> Prop :=
| W_end s : Forall White s -> Words s []
| W_word b w s l : Forall White b -> w <> [] -> Forall (fun c => ~ White c) w ->
    (s = [] \/ exists c r, s = c :: r /\ White c) -> Words s l -> Words (b ++ w ++ s) (w :: l).

(* a line cut into pieces: each piece but the last is followed by a backslash, perhaps blanks, and a newline; the last, which
   does not end in a backslash, by a newline *)
Inductive Rendered : list text -> text -> Prop :=
| R_last s : ~ In newline s -> ~ In return_ s -> (forall a b, s = a ++ backslash :: b -> ~ Forall White b) -> Rendered [s] (s ++ [newline])
| R_cont s b segs t : ~ In newline s -> ~ In return_ s -> Forall White b -> ~ In newline b -> ~ In return_ b ->
    Rendered segs t -> Rendered (s :: segs) (s ++ backslash :: b ++ newline :: t).

(* a file: comments, lines without a colon, and rules "targets : dependencies" *)
Inductive File : text -> list (list text * list text) -> Prop :=
| F_nil : File [] []
| F_comment segs c t rest items : Rendered segs t -> List.concat segs = "#"%char :: c -> File rest items -> File (t ++ rest) items
| F_other segs t rest items : Rendered segs t -> ~ In ":"%char (List.concat segs) -> File rest items -> File (t ++ rest) items
| F_rule segs t a b ts ds rest items : Rendered segs t -> List.concat segs = a ++ ":"%char :: b -> ~ In ":"%char a ->
    (forall c, a <> "#"%char :: c) -> Words a ts -> Words b ds -> File rest items -> File (t ++ rest) ((ts, ds) :: items).
