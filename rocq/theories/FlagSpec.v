(* What the documentation of ParseFlags (SCons/Environment.xml 2690-2750) says, written without looking at the code: a table of flags, the longest
   matching flag decides, and every variable gets the values of the command line in order. *)
From Coq Require Import Ascii String List Bool Arith ZArith.
Import ListNotations.
From Verif Require Import NameModel FlagModel.
Open Scope list_scope.

(* how a flag becomes a value *)
Inductive shape :=
| Keep             (* the word itself *)
| Strip            (* the word without the flag *)
| Attached         (* the word without the flag; when nothing is left, the next word *)
| Next             (* the next word *)
| Pair             (* the flag and the next word, as a pair *)
| PairFile         (* the same; the next word names a file *)
| KeepNext.        (* the word itself, then the next word *)
Record row := mkrow { flag : str; exact : bool; cond : str -> Prop; dests : list (var * shape) }.
Definition always : str -> Prop := fun _ => True.
Definition contains_plusplus (s : str) : Prop := exists a b, s = a ++ lit "++" ++ b.
Definition word (f : string) (d : list (var * shape)) : row := mkrow (lit f) true always d.       (* the whole word is the flag *)
Definition prefix (f : string) (d : list (var * shape)) : row := mkrow (lit f) false always d.    (* the word begins with the flag *)

(* the documented table, in the order of the documentation *)
Definition documented : list row :=
  [ word "-arch" [(CCFLAGS, Pair); (LINKFLAGS, Pair)];
    prefix "-D" [(CPPDEFINES, Attached)];
    word "-framework" [(FRAMEWORKS, Next)];
    prefix "-frameworkdir=" [(FRAMEWORKPATH, Strip)];
    word "-fmerge-all-constants" [(CCFLAGS, Keep); (LINKFLAGS, Keep)];
    word "-fopenmp" [(CCFLAGS, Keep); (LINKFLAGS, Keep)];
    prefix "-fsanitize" [(CCFLAGS, Keep); (LINKFLAGS, Keep)];
    word "-include" [(CCFLAGS, PairFile)];
    word "-imacros" [(CCFLAGS, PairFile)];
    word "-isysroot" [(CCFLAGS, Pair); (LINKFLAGS, Pair)];
    word "-isystem" [(CCFLAGS, Pair)];
    word "-iquote" [(CCFLAGS, Pair)];
    word "-idirafter" [(CCFLAGS, Pair)];
    prefix "-I" [(CPPPATH, Attached)];
    prefix "-l" [(LIBS, Attached)];
    prefix "-L" [(LIBPATH, Attached)];
    word "-mno-cygwin" [(CCFLAGS, Keep); (LINKFLAGS, Keep)];
    word "-mwindows" [(LINKFLAGS, Keep)];
    word "-openmp" [(CCFLAGS, Keep); (LINKFLAGS, Keep)];
    word "-pthread" [(CCFLAGS, Keep); (LINKFLAGS, Keep)];
    mkrow (lit "-std=") false (fun rest => ~ contains_plusplus rest) [(CFLAGS, Keep)];
    prefix "-stdlib=" [(CXXFLAGS, Keep)];
    prefix "-Wa," [(ASFLAGS, Strip); (CCFLAGS, Keep)];
    prefix "-Wl,-rpath=" [(RPATH, Strip)];
    prefix "-Wl,-R," [(RPATH, Strip)];
    prefix "-Wl,-R" [(RPATH, Strip)];
    prefix "-Wl," [(LINKFLAGS, Keep)];
    prefix "-Wp," [(CPPFLAGS, Keep)];
    prefix "-" [(CCFLAGS, Keep)];
    prefix "+" [(CCFLAGS, Keep); (LINKFLAGS, Keep)] ].
(* what the code does besides *)
Definition undocumented : list row :=
  [ mkrow (lit "-std=") false contains_plusplus [(CXXFLAGS, Keep)];
    prefix "-F" [(FRAMEWORKPATH, Attached)];
    word "-dylib_file" [(LINKFLAGS, KeepNext)];
    word "--param" [(CCFLAGS, Pair)] ].
Definition table : list row := documented ++ undocumented.

Definition applies (r : row) (w : str) : Prop := exists rest, w = flag r ++ rest /\ cond r rest /\ (exact r = true -> rest = []).
(* the longest flag wins *)
Definition best (t : list row) (r : row) (w : str) : Prop :=
  In r t /\ applies r w /\ forall r', In r' t -> applies r' w -> length (flag r') <= length (flag r).
Definition rest_of (r : row) (w : str) : str := skipn (length (flag r)) w.
(* does the next word belong to this one? *)
Definition takes_next (r : row) (w : str) : Prop :=
  exists v s, In (v, s) (dests r) /\ match s with Keep | Strip => False | Attached => rest_of r w = [] | Next | Pair | PairFile | KeepNext => True end.
(* -D: a name alone, or a name and its value, which may contain further equal signs *)
Definition define_value (text : str) (x : pv) : Prop :=
  (~ In "="%char text /\ x = PStr text) \/
  (exists name value, text = name ++ lit "=" ++ value /\ ~ In "="%char name /\ x = PList [PStr name; PStr value]).
Definition text_value (v : var) (text : str) (x : pv) : Prop := match v with CPPDEFINES => define_value text x | _ => x = PStr text end.
(* the values a flag contributes to one of its variables; next is the following word, [] if there is none *)
Definition contributes (r : row) (w next : str) (d : var * shape) (xs : list pv) : Prop :=
  match snd d with
  | Keep => xs = [PStr w]
  | Strip => xs = [PStr (rest_of r w)]
  | Attached => exists x, text_value (fst d) (match rest_of r w with [] => next | t => t end) x /\ xs = [x]
  | Next => xs = [PStr next]
  | Pair => xs = [PTuple [PStr w; PStr next]]
  | PairFile => xs = [PTuple [PStr w; PFile next]]
  | KeepNext => xs = [PStr w; PStr next]
  end.
Inductive contribution (r : row) (w next : str) : list (var * shape) -> list (var * pv) -> Prop :=
| c_nil : contribution r w next [] []
| c_cons d ds xs cs : contributes r w next d xs -> contribution r w next ds cs -> contribution r w next (d :: ds) (map (pair (fst d)) xs ++ cs).

(* a flag whose argument is missing contributes nothing, but for the word itself when it is kept as a value of its own *)
Definition dangling (r : row) (w : str) : list (var * pv) := flat_map (fun d => match snd d with KeepNext => [(fst d, PStr w)] | _ => [] end) (dests r).

Definition is_option (w : str) : Prop := exists c r, w = c :: r /\ (c = "-"%char \/ c = "+"%char).
(* the words of a command line, read from the left: the values for the variables, in order, and what is left over at the end *)
Inductive reads : list str -> list (var * pv) -> list str -> Prop :=
| reads_end : reads [] [] []
| reads_library w ws cs l : w <> [] -> ~ is_option w -> reads ws cs l -> reads (w :: ws) ((LIBS, PFile w) :: cs) l
| reads_flag w ws r c cs l : is_option w -> best table r w -> ~ takes_next r w -> contribution r w [] (dests r) c -> reads ws cs l -> reads (w :: ws) (c ++ cs) l
| reads_flag_next w x ws r c cs l : is_option w -> best table r w -> takes_next r w -> contribution r w x (dests r) c -> reads ws cs l -> reads (w :: x :: ws) (c ++ cs) l
| reads_dangling w r : is_option w -> best table r w -> takes_next r w -> reads [w] (dangling r w) [w].
(* the values for one variable *)
Definition for_var (v : var) (cs : list (var * pv)) : list pv := map snd (filter (fun c => if var_eq_dec (fst c) v then true else false) cs).

(* MergeFlags: with equal values, path variables keep the left-most, the others the right-most (Environment.xml 2425-2435) *)
Definition right_most (l : list pv) : list pv := nodup pv_eq_dec l.
Definition left_most (l : list pv) : list pv := rev (nodup pv_eq_dec (rev l)).
Definition is_path (key : str) : Prop := exists p, key = p ++ lit "PATH".

(* a value that adds nothing *)
Inductive nothing : pv -> Prop :=
| nothing_none : nothing PNone | nothing_zero : nothing (PInt 0%Z) | nothing_str : nothing (PStr []) | nothing_tuple : nothing (PTuple [])
| nothing_list : nothing (PList []) | nothing_clvar : nothing (PCL []) | nothing_deque : nothing (PDeque []) | nothing_dict : nothing (PDict []).
Lemma nothing_truthy : forall v, nothing v <-> truthy v = false.
Proof.
  intros v. split; [destruct 1; reflexivity|].
  destruct v as [|s|z|f|l|l|l|l|d]; cbn [truthy]; try (destruct s); try (destruct l); try (destruct d); try discriminate; try constructor.
  destruct (Z.eqb z 0) eqn:E; [|discriminate]. apply Z.eqb_eq in E. subst. constructor.
Qed.
Lemma something_truthy : forall v, ~ nothing v <-> truthy v = true.
Proof. intros v. rewrite nothing_truthy. destruct (truthy v); split; congruence. Qed.
(* the elements a value given to MergeFlags stands for: a string is split at white space, another scalar is one element *)
Inductive items : pv -> list pv -> Prop :=
| items_str s : items (PStr s) (map PStr (py_split s))
| items_list l : items (PList l) l
| items_clvar l : items (PCL l) l
| items_tuple l : items (PTuple l) l
| items_int z : items (PInt z) [PInt z]
| items_file f : items (PFile f) [PFile f]
| items_dict d : items (PDict d) [PDict d].
(* the elements before duplicates are removed: those of the variable, then those of the value.
   A string in a variable is a list of words for the flag variables (whose new value is a CLVar) and a single element otherwise. *)
Inductive merged : option pv -> pv -> list pv -> Prop :=
| merged_new o v l : (o = None \/ exists x, o = Some x /\ nothing x) -> items v l -> merged o v l
| merged_list a v l : a <> [] -> items v l -> (forall t, v <> PTuple t) -> merged (Some (PList a)) v (a ++ l)
| merged_clvar a v l : a <> [] -> items v l -> merged (Some (PCL a)) v (a ++ l)
| merged_tuple a l : a <> [] -> merged (Some (PTuple a)) (PTuple l) (a ++ l)
| merged_words s l : s <> [] -> merged (Some (PStr s)) (PCL l) (map PStr (py_split s) ++ l)
| merged_str s v l : s <> [] -> items v l -> l <> [] -> (forall t, v <> PTuple t /\ v <> PCL t) -> merged (Some (PStr s)) v (PStr s :: l).
Definition unique_of (key : str) (l l' : list pv) : Prop := (is_path key -> l' = left_most l) /\ (~ is_path key -> l' = right_most l).
