(* What it means that a directory of the search path has a program. *)
From Coq Require Import Ascii String List Bool Arith.
From Verif Require Import SubstModel WhModel.
From Verif Require NameModel.
Import ListNotations.
Open Scope list_scope.

Section Spec.
Variable fs : fsys.
Definition Directory (d : path) : Prop := d = [] \/ fs d = Some Dir.
(* from directory d the names l lead to x *)
Inductive Leads : path -> list str -> path -> Prop :=
| L_end d : Leads d [] d
| L_here (d : path) (c : str) (l : list str) (x : path) : Directory d -> c = [] \/ c = dot -> Leads d l x -> Leads d (c :: l) x
| L_up (n : str) (d : path) (l : list str) (x : path) : Directory (n :: d) -> Leads d l x -> Leads (n :: d) (dotdot :: l) x
| L_root l x : Leads [] l x -> Leads [] (dotdot :: l) x
| L_name (d : path) (c : str) (l : list str) (e : entry) (x : path) : Directory d -> c <> [] -> c <> dot -> c <> dotdot -> fs (c :: d) = Some e -> (forall t, e <> Link t) -> Leads (c :: d) l x -> Leads d (c :: l) x
| L_link (d : path) (c : str) (l : list str) (t x : path) : Directory d -> c <> [] -> c <> dot -> c <> dotdot -> fs (c :: d) = Some (Link t) -> Leads t l x -> Leads d (c :: l) x.
(* s begins with a slash *)
Definition Absolute (s : str) : Prop := exists r, s = slash :: r.
Definition start (cwd : path) (s : str) : path := match s with c :: _ => if Ascii.eqb c slash then [] else cwd | [] => cwd end.
(* the text s, used in directory cwd, names x *)
Definition Names (cwd : path) (s : str) (x : path) : Prop := Leads (start cwd s) (NameModel.split_on slash s) x.
(* directory p of a search path (nothing stands for the current directory) has the program: x is an executable file, found from p *)
Definition Has (cwd : path) (p file : str) (x : path) : Prop :=
  fs x = Some (File true) /\
  (if absolute file then Names cwd file x
   else exists d, (p = [] /\ d = cwd \/ p <> [] /\ Names cwd p d) /\ Directory d /\ Names d file x).
Definition NoLinks : Prop := forall p t, fs p <> Some (Link t).
End Spec.
