(* C63: what Glob finds (man page, Glob).  Uses only the data types of GlobModel and the meaning of names of TgtSpec. *)
From Coq Require Import Ascii String List Bool Arith.
Import ListNotations. Open Scope list_scope.
From Verif Require Import NameModel OptModel TgtModel TgtSpec GlobModel.

(* ---- patterns ---- *)
Definition star : ascii := "*".
Definition quest : ascii := "?".
Definition open_ : ascii := "[".
Definition close_ : ascii := "]".
Definition bang : ascii := "!".
Definition dash : ascii := "-".
Definition dot : ascii := ".".
Definition between (a c b : ascii) : Prop := nat_of_ascii a <= nat_of_ascii c /\ nat_of_ascii c <= nat_of_ascii b.
(* the characters of a list of characters and ranges *)
Inductive among (c : ascii) : word -> Prop :=
| am_range a b r : between a c b -> among c (a :: dash :: b :: r)
| am_range_later a b r : among c r -> among c (a :: dash :: b :: r)
| am_one r : (forall b r2, r <> dash :: b :: r2) -> among c (c :: r)
| am_later a r : (forall b r2, r <> dash :: b :: r2) -> among c r -> among c (a :: r).
(* the inside of brackets: not empty, and ] only as the first character *)
Definition inner (l : word) : Prop := exists a r, l = a :: r /\ ~ In close_ r.
(* p = inside of brackets (maybe after a !), then ], then rest *)
Inductive bracket : word -> bool -> word -> word -> Prop :=
| br_not l rest : inner l -> bracket (bang :: l ++ close_ :: rest) true l rest
| br_pos l rest : inner l -> (forall r, l <> bang :: r) -> bracket (l ++ close_ :: rest) false l rest.
Inductive fits : word -> word -> Prop :=
| fits_end : fits [] []
| fits_star p u v : fits p v -> fits (star :: p) (u ++ v)
| fits_any p c s : fits p s -> fits (quest :: p) (c :: s)
| fits_in p l rest c s : bracket p false l rest -> among c l -> fits rest s -> fits (open_ :: p) (c :: s)
| fits_out p l rest c s : bracket p true l rest -> ~ among c l -> fits rest s -> fits (open_ :: p) (c :: s)
| fits_open p s : (forall neg l rest, ~ bracket p neg l rest) -> fits p s -> fits (open_ :: p) (open_ :: s)
| fits_char c p s : c <> star -> c <> quest -> c <> open_ -> fits p s -> fits (c :: p) (c :: s).
Definition magic (w : word) : Prop := In star w \/ In quest w \/ In open_ w.

(* ---- the pattern of a path: the directory where the search begins, and the pattern for each level ---- *)
Definition component (c : word) : Prop := c <> [] /\ ~ In slash c.
Inductive pattern (top cwd : path) : word -> path -> list word -> Prop :=
| pat_here c : component c -> pattern top cwd c cwd [c]
| pat_levels c l : component c -> Forall component l -> magic c -> pattern top cwd (joined (c :: l)) cwd (c :: l)
| pat_below fixed base c l : fixed <> [] -> (forall w, fixed <> w ++ [slash]) -> ~ magic fixed -> means top cwd fixed base -> component c -> Forall component l -> l = [] \/ magic c ->
    pattern top cwd (fixed ++ slash :: joined (c :: l)) base (c :: l)
| pat_root c l : component c -> Forall component l -> l = [] \/ magic c -> pattern top cwd (slash :: joined (c :: l)) [] (c :: l).

Section Found.
Variable isfile isdir src_isdir : path -> bool.
Variable listing : path -> option (list word).
Variable search : path -> list path.
Variable ondisk : bool.
Variable st : nodes.                                         (* the nodes when the search begins *)
Definition is_known (p : path) : Prop := exists c, In (p, c) st.
(* a name is found for a directory if it is known, or on disk, in one of the directories searched for it *)
Definition there (d : path) (n : word) : Prop := exists s, In s (search d) /\ (is_known (s ++ [n]) \/ (ondisk = true /\ exists l, listing s = Some l /\ In n l)).
(* known as a directory, or not known as either and a directory on disk (or in the source directory) *)
Definition is_dir (p : path) : Prop := p = [] \/ In (p, CDir) st \/ (~ In (p, CFile) st /\ ~ In (p, CDir) st /\ isfile p = false /\ (isdir p = true \/ src_isdir p = true)).
Definition shown (pat n : word) : Prop := fits pat n /\ ((exists r, n = dot :: r) -> exists r, pat = dot :: r).
Variable excluded : path -> Prop.
Inductive found (base : path) : list word -> path -> Prop :=
| found_base : found base [] base
| found_level l c d n : found base l d -> is_dir d -> there d n -> shown c n -> ~ excluded (d ++ [n]) -> found base (l ++ [c]) (d ++ [n]).
End Found.
Definition none_excluded (p : path) : Prop := False.

(* every path has one node; names are names, and do not begin with # *)
Definition name_ok (n : word) : Prop := n <> [] /\ ~ In slash n /\ n <> [dot] /\ n <> [dot; dot] /\ forall r, n <> hash :: r.
Definition tree (st : nodes) : Prop := NoDup (map fst st) /\ forall p c, In (p, c) st -> exists d n, p = d ++ [n] /\ name_ok n.
(* the same name is not a directory in one place and a file in another *)
Definition agree (isfile isdir src_isdir : path -> bool) (listing : path -> option (list word)) (search : path -> list path) (st : nodes) : Prop :=
  forall d s l n, In s (search d) -> listing s = Some l -> In n l -> is_dir isfile isdir src_isdir st (d ++ [n]) <-> is_dir isfile isdir src_isdir st (s ++ [n]).
Definition searching (search : path -> list path) : Prop := (forall d, In d (search d)) /\ (forall d s t, In s (search d) -> In t (search s) -> In t (search d)).
Definition disk_names (listing : path -> option (list word)) : Prop := forall s l n, listing s = Some l -> In n l -> name_ok n.
(* an order of the elements of a set *)
Definition some_order (order : list word -> list word) : Prop := forall l n, NoDup l -> (NoDup (order l)) /\ (In n (order l) <-> In n l).

(* ---- strings=True: the name, below the string of the directory if the pattern has a directory part ---- *)
Section Strings.
Variable show : path -> word.
Inductive as_string (w : word) (d : path) (n : word) : word -> Prop :=
| as_name : ~ In slash w -> as_string w d n n
| as_empty : In slash w -> show d = [] -> as_string w d n n
| as_slash u : In slash w -> show d = u ++ [slash] -> as_string w d n (u ++ slash :: n)
| as_below : In slash w -> show d <> [] -> (forall u, show d <> u ++ [slash]) -> as_string w d n (show d ++ slash :: n).
Variable isfile isdir src_isdir : path -> bool.
Variable listing : path -> option (list word).
Variable search : path -> list path.
Variable ondisk : bool.
Variable st : nodes.
Notation found := (found isfile isdir src_isdir listing search ondisk st).
Definition found_string (excluded : path -> Prop) (w : word) (base : path) (levels : list word) (t : word) : Prop :=
  exists l c d n, levels = l ++ [c] /\ found excluded base l d /\ is_dir isfile isdir src_isdir st d /\ there listing search ondisk st d n /\ shown c n /\ as_string w d n t.
(* ---- exclude: what some of the patterns find is taken as a pattern ---- *)
Variables top cwd : path.
Definition excluded_node (exclude : list word) (p : path) : Prop :=
  exists x base l e, In x exclude /\ pattern top cwd x base l /\ found none_excluded base l e /\ fits (show e) (show p).
Definition excluded_string (exclude : list word) (t : word) : Prop :=
  exists x base l e, In x exclude /\ pattern top cwd x base l /\ found_string none_excluded x base l e /\ fits e t.
End Strings.
(* the directory where the search begins is a node *)
Definition opened (st : nodes) (d : path) : Prop := d = [] \/ In (d, CDir) st.
Definition ready (top cwd : path) (st : nodes) (w : word) : Prop := exists base l, pattern top cwd w base l /\ opened st base.
(* the order of strings *)
Inductive lex_le : word -> word -> Prop :=
| lex_nil w : lex_le [] w
| lex_lt x y a b : nat_of_ascii x < nat_of_ascii y -> lex_le (x :: a) (y :: b)
| lex_eq x a b : lex_le a b -> lex_le (x :: a) (x :: b).
Definition res_str (show : path -> word) (r : res) : word := match r with RNode p => show p | RStr w => w end.
(* the directories of a path are nodes, none of them a file; nothing else is new *)
Definition opening (isfile : path -> bool) (st : nodes) (base : path) (st1 : nodes) : Prop :=
  opened st1 base /\ (forall p c, In (p, c) st -> exists c', In (p, c') st1 /\ (c <> CEntry -> c' = c)) /\ (forall p c, In (p, c) st1 -> In (p, c) st \/ (c = CDir /\ exists r, base = p ++ r)).
