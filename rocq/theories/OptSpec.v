(* C61: how a command line is read (man page, "Options" and AddOption).  Uses only the data types of OptModel. *)
From Coq Require Import Ascii String List Bool Arith.
Import ListNotations. Open Scope list_scope.
From Verif Require Import OptModel.

Definition word_dec : forall a b : word, {a = b} + {a <> b} := list_eq_dec ascii_dec.
Definition dash : ascii := "-".
Definition equals : ascii := "=".
Definition long (n : word) : word := dash :: dash :: n.                  (* --n *)
Definition long_eq (n v : word) : word := dash :: dash :: n ++ equals :: v.   (* --n=v *)
Definition short (cs : list ascii) : word := dash :: cs.                 (* -abc *)

(* what a part of the command line is: an option of SCons with its value, an option of the project with its value (written --n or -n), a target or variable,
   an option nobody knows, a word after -- *)
Inductive form := FLong | FShort.
Inductive item := Given (o : opt) (v : val) | Local (f : form) (o : opt) (v : val) | Plain (w : word) | Unknown (w : word) | After (w : word).
(* the value of an option that takes one or several words *)
Inductive value_of (o : opt) : list word -> val -> Prop :=
| value_one w v : o_conv o w = Some v -> value_of o [w] v
| value_more w w2 ws l : Forall2 (fun w v => o_conv o w = Some v) (w :: w2 :: ws) l -> value_of o (w :: w2 :: ws) (VList l).

Section Line.
Variables B L : list opt.                                    (* the options of SCons, and those added by the project *)
(* a group -abc of options of SCons, followed by the words r of which those up to r2 are used *)
Inductive group : list ascii -> list word -> list item -> list word -> Prop :=
| group_end r : group [] r [] r
| group_flag o c cs r its r2 : In o B -> In c (o_short o) -> o_arity o = NoArg -> group cs r its r2 -> group (c :: cs) r (Given o VNone :: its) r2
| group_attached o c cs k ws r v : In o B -> In c (o_short o) -> o_arity o = Args k -> cs <> [] -> length ws = k -> value_of o (cs :: ws) v -> group (c :: cs) (ws ++ r) [Given o v] r
| group_separate o c k ws r v : In o B -> In c (o_short o) -> o_arity o = Args k -> length ws = S k -> value_of o ws v -> group [c] (ws ++ r) [Given o v] r.
Inductive line : list word -> list item -> Prop :=
| line_nil : line [] []
| line_end ws : line (long [] :: ws) (map After ws)
| line_plain w r its : (forall cs, w <> short cs) -> line r its -> line (w :: r) (Plain w :: its)
| line_unknown n r its : n <> [] -> ~ In equals n -> (forall o, In o (B ++ L) -> ~ In n (o_long o)) -> line r its -> line (long n :: r) (Unknown (long n) :: its)
| line_unknown_eq n v r its : ~ In equals n -> (forall o, In o (B ++ L) -> ~ In n (o_long o)) -> line r its -> line (long_eq n v :: r) (Unknown (long_eq n v) :: its)
| line_unknown_short c cs r its : c <> dash -> (forall o, In o (B ++ L) -> ~ In c (o_short o)) -> line r its -> line (short (c :: cs) :: r) (Unknown (short (c :: cs)) :: its)
(* options of SCons *)
| line_flag o n r its : In o B -> In n (o_long o) -> o_arity o = NoArg -> line r its -> line (long n :: r) (Given o VNone :: its)
| line_maybe o n c r its : In o B -> In n (o_long o) -> o_arity o = Maybe c -> line r its -> line (long n :: r) (Given o c :: its)
| line_maybe_eq o n c w v r its : In o B -> In n (o_long o) -> o_arity o = Maybe c -> value_of o [w] v -> line r its -> line (long_eq n w :: r) (Given o v :: its)
| line_eq o n k w ws v r its : In o B -> In n (o_long o) -> o_arity o = Args k -> length ws = k -> value_of o (w :: ws) v -> line r its -> line (long_eq n w :: ws ++ r) (Given o v :: its)
| line_separate o n k ws v r its : In o B -> In n (o_long o) -> o_arity o = Args k -> length ws = S k -> value_of o ws v -> line r its -> line (long n :: ws ++ r) (Given o v :: its)
| line_group cs r its r2 its2 : cs <> [] -> group cs r its r2 -> line r2 its2 -> line (short cs :: r) (its ++ its2)
(* options of the project: a value is attached (man page: the behaviour is undefined if it is not) *)
| line_local_flag o n r its : In o L -> In n (o_long o) -> o_arity o = NoArg -> line r its -> line (long n :: r) (Local FLong o VNone :: its)
| line_local_maybe o n c r its : In o L -> In n (o_long o) -> o_arity o = Maybe c -> line r its -> line (long n :: r) (Local FLong o c :: its)
| line_local_eq o n a w v r its : In o L -> In n (o_long o) -> o_arity o = a -> a = Args 0 \/ (exists c, a = Maybe c) -> value_of o [w] v -> line r its ->
    line (long_eq n w :: r) (Local FLong o v :: its)
| line_local_short o c r its : In o L -> In c (o_short o) -> o_arity o = NoArg -> line r its -> line (short [c] :: r) (Local FShort o VNone :: its)
| line_local_short_value o c w v r its : In o L -> In c (o_short o) -> o_arity o = Args 0 -> w <> [] -> value_of o [w] v -> line r its -> line (short (c :: w) :: r) (Local FShort o v :: its).
End Line.

(* what an occurrence of an option makes of the value of d; None: an error *)
Definition told (d : name) (o : opt) (v : val) (cur : option val) : option (option val) :=
  let append l := match cur with None | Some VNone => Some (Some (VList l)) | Some (VList l0) => Some (Some (VList (l0 ++ l))) | Some _ => None end in
  match o_act o with
  | AExit => None
  | ANothing => Some cur
  | AAlso d2 => Some (if word_dec d d2 then Some (VBool true) else if word_dec d (o_dest o) then Some (VBool true) else cur)
  | a =>
    if word_dec d (o_dest o) then
      match a with
      | AConst c => Some (Some c)
      | AAppend => append [v]
      | AAppendConst c => append [c]
      | ACount => match cur with None | Some VNone => Some (Some (VNum 1)) | Some (VNum n) => Some (Some (VNum (S n))) | Some _ => None end
      | AExtend => match cur, v with Some (VList l0), VList l => Some (Some (VList (l0 ++ l))) | _, _ => None end
      | _ => Some (Some v)
      end
    else Some cur
  end.
Definition said (i : item) : list (opt * val) := match i with Given o v => [(o, v)] | Local _ o v => [(o, v)] | _ => [] end.
Definition occurrences (its : list item) : list (opt * val) := flat_map said its.
Fixpoint tell (d : name) (l : list (opt * val)) (cur : option val) : option (option val) :=
  match l with [] => Some cur | (o, v) :: l => match told d o v cur with Some cur => tell d l cur | None => None end end.
(* an option that gives d a value *)
Definition concerns (d : name) (o : opt) : Prop := match o_act o with ANothing | AExit => False | AAlso d2 => d = d2 \/ d = o_dest o | _ => d = o_dest o end.
Definition given (d : name) (its : list item) : Prop := exists o v, In (o, v) (occurrences its) /\ concerns d o.
(* options that add to a list *)
Definition adds_to (o : opt) : Prop := match o_act o with AAppend | AAppendConst _ | AExtend => True | _ => False end.

(* the options a project has added *)
Definition added (h : list op) : list opt := flat_map (fun c => match c with OAdd o => [o] | _ => [] end) h.
(* what SetOption has said about d, the last call first *)
Section Script.
Variable settable0 : list name.
Variable kinds : name -> option setkind.
Definition may_set (h : list op) (n : name) : Prop := In n settable0 \/ exists o, In o (added h) /\ o_settable o = true /\ o_dest o = n.
Inductive script_says : list op -> name -> option val -> Prop :=
| says_nothing d : script_says [] d None
| says_other c h d r : (forall n v, c <> OSet n v) -> script_says h d r -> script_says (c :: h) d r
| says_refused n v h d r : ~ may_set h n -> script_says h d r -> script_says (OSet n v :: h) d r
| says_set v h d : may_set h d -> kinds d = None -> script_says (OSet d v :: h) d (Some v)
| says_conv f v v2 h d : may_set h d -> kinds d = Some (KAs f) -> f v = Some v2 -> script_says (OSet d v :: h) d (Some v2)
| says_rename f n v v2 h d : may_set h n -> kinds n = Some (KRename d f) -> f v = Some v2 -> script_says (OSet n v :: h) d (Some v2)
| says_bad f n v h d r : may_set h n -> (kinds n = Some (KAs f) \/ exists d2, kinds n = Some (KRename d2 f)) -> f v = None -> script_says h d r -> script_says (OSet n v :: h) d r
| says_add l v l2 h d r : may_set h d -> kinds d = Some KAccum -> (v = VList l2 \/ exists w, v = VStr w /\ l2 = [v]) -> script_says h d r -> (r = None /\ l = [] \/ r = Some (VList l)) ->
    script_says (OSet d v :: h) d (Some (VList (l ++ l2)))
| says_implies v h d d2 : may_set h d -> kinds d = Some (KImplies d2) -> script_says (OSet d v :: h) d (Some v)
| says_implied v h d d2 : may_set h d2 -> kinds d2 = Some (KImplies d) -> truthy v = true -> d <> d2 -> script_says (OSet d2 v :: h) d (Some (VBool true))
| says_not_implied v h d d2 r : may_set h d2 -> kinds d2 = Some (KImplies d) -> truthy v = false -> d <> d2 -> script_says h d r -> script_says (OSet d2 v :: h) d r
| says_add_bad v h d r : may_set h d -> kinds d = Some KAccum -> ((forall l, v <> VList l) /\ (forall w, v <> VStr w)) \/ (exists v0, r = Some v0 /\ forall l, v0 <> VList l) ->
    script_says h d r -> script_says (OSet d v :: h) d r
| says_rename_else n v h d d2 f r : may_set h n -> kinds n = Some (KRename d2 f) -> d <> d2 -> script_says h d r -> script_says (OSet n v :: h) d r
| says_else n v h d r : may_set h n -> d <> n -> (forall d2 f, kinds n <> Some (KRename d2 f)) -> kinds n <> Some (KImplies d) -> script_says h d r -> script_says (OSet n v :: h) d r.
End Script.
(* the value of an option: the command line before the scripts before the default *)
Inductive has_value (its : list item) (script : option val) (default : val) (d : name) : val -> Prop :=
| has_given v : given d its -> tell d (occurrences its) (Some default) = Some (Some v) -> has_value its script default d v
| has_script v : ~ given d its -> script = Some v -> has_value its script default d v
| has_default : ~ given d its -> script = None -> has_value its script default d default.

(* ---- projects ---- *)
(* no two options have a name in common *)
Definition unique (T : list opt) : Prop :=
  (forall o1 o2 n, In o1 T -> In o2 T -> In n (o_long o1) -> In n (o_long o2) -> o1 = o2) /\ (forall o1 o2 c, In o1 T -> In o2 T -> In c (o_short o1) -> In c (o_short o2) -> o1 = o2).
(* names without =, letters other than - *)
Definition proper (o : opt) : Prop := (forall n, In n (o_long o) -> n <> [] /\ ~ In equals n) /\ ~ In dash (o_short o) /\ (forall c, o_arity o = Maybe c -> o_short o = []).
Definition is_default (defs0 : map_ val) (h : list op) (d : name) (v : val) : Prop := defs0 d = Some v \/ exists o, In o (added h) /\ o_dest o = d /\ o_default o = v.
(* the options of a project have their own names and variables, and use the ordinary actions *)
Record project (B : list opt) (defs0 : map_ val) (settable0 : list name) (kinds : name -> option setkind) (h : list op) : Prop := {
  pr_unique : unique (B ++ added h);
  pr_apart : forall o1 o2, In o1 B -> In o2 (added h) -> (forall n, In n (o_long o1) -> ~ In n (o_long o2)) /\ (forall c, In c (o_short o1) -> ~ In c (o_short o2));
  pr_proper : forall o, In o (B ++ added h) -> proper o;
  pr_dests : NoDup (map o_dest (added h));
  pr_defaults : forall b d, In b B -> concerns d b -> defs0 d <> None;
  pr_own : forall o, In o (added h) -> defs0 (o_dest o) = None /\ ~ In (o_dest o) settable0 /\ kinds (o_dest o) = None /\
    (forall n f, kinds n <> Some (KRename (o_dest o) f)) /\ (forall n, kinds n <> Some (KImplies (o_dest o)));
  pr_acts : forall o, In o (added h) -> match o_act o with AStore | AConst _ | AAppend | AAppendConst _ | ACount => True | _ => False end }.
(* every value can be used by the action of its option *)
Definition accepted (defs0 : map_ val) (h : list op) (its : list item) : Prop :=
  (forall o v, In (o, v) (occurrences its) -> o_act o <> AExit) /\ forall d v0, is_default defs0 h d v0 -> exists r, tell d (occurrences its) (Some v0) = Some r.
(* the occurrences of an option of the project are all written --name, or all -n *)
Definition one_form (its : list item) : Prop := forall f1 f2 o v1 v2, In (Local f1 o v1) its -> In (Local f2 o v2) its -> f1 = f2.
(* the words of the command line that are not options, and those after -- *)
Definition plain (its : list item) : list word := flat_map (fun i => match i with Plain w => [w] | _ => [] end) its.
Definition after_dashes (its : list item) : list word := flat_map (fun i => match i with After w => [w] | _ => [] end) its.
Definition is_variable (w : word) : bool := if in_dec ascii_dec equals w then true else false.
Definition dquote : ascii := "034".
Definition squote : ascii := "'".
Definition is_empty (w : word) : bool := if in_dec word_dec w [ []; [dquote; dquote]; [squote; squote] ] then true else false.
(* the value of a list that options add to must not come from the script *)
Definition lists_ok (its : list item) (d : name) (v0 : val) (script : option val) : Prop := script = None \/ v0 = VNone \/ forall o v, In (o, v) (occurrences its) -> concerns d o -> ~ adds_to o.

(* ---- what is refused: an option of SCons whose value is missing, is not of its type, or is given although it takes none ---- *)
Definition no_value (o : opt) (ws : list word) : Prop := forall v, ~ value_of o ws v.
(* -abc, followed by the words r: some options without a value, and then the one that is wrong *)
Inductive wrong_group (B : list opt) : list ascii -> list word -> Prop :=
| wrong_later o c cs r : In o B -> In c (o_short o) -> o_arity o = NoArg -> (exists v, o_act o = AConst v) \/ o_act o = ANothing -> wrong_group B cs r -> wrong_group B (c :: cs) r
| wrong_attached o c cs k ws r : In o B -> In c (o_short o) -> o_arity o = Args k -> cs <> [] -> length ws = k -> no_value o (cs :: ws) -> wrong_group B (c :: cs) (ws ++ r)
| wrong_separate o c k ws r : In o B -> In c (o_short o) -> o_arity o = Args k -> length ws = S k -> no_value o ws -> wrong_group B [c] (ws ++ r)
| wrong_attached_few o c cs k r : In o B -> In c (o_short o) -> o_arity o = Args k -> cs <> [] -> length r < k -> wrong_group B (c :: cs) r
| wrong_separate_few o c k r : In o B -> In c (o_short o) -> o_arity o = Args k -> length r <= k -> wrong_group B [c] r.
Inductive refused (B : list opt) : list word -> Prop :=
| refused_flag o n w r : In o B -> In n (o_long o) -> o_arity o = NoArg -> refused B (long_eq n w :: r)
| refused_maybe o n c w r : In o B -> In n (o_long o) -> o_arity o = Maybe c -> no_value o [w] -> refused B (long_eq n w :: r)
| refused_eq o n k w ws r : In o B -> In n (o_long o) -> o_arity o = Args k -> length ws = k -> no_value o (w :: ws) -> refused B (long_eq n w :: ws ++ r)
| refused_separate o n k ws r : In o B -> In n (o_long o) -> o_arity o = Args k -> length ws = S k -> no_value o ws -> refused B (long n :: ws ++ r)
| refused_eq_few o n k w r : In o B -> In n (o_long o) -> o_arity o = Args k -> length r < k -> refused B (long_eq n w :: r)
| refused_few o n k r : In o B -> In n (o_long o) -> o_arity o = Args k -> length r <= k -> refused B (long n :: r)
| refused_group c cs r : wrong_group B (c :: cs) r -> refused B (short (c :: cs) :: r).

(* ---- the calls of SetOption that fail: the name may not be set; or the value cannot be converted, or added to the list ---- *)
Definition not_a_list (v : val) : Prop := (forall l, v <> VList l) /\ (forall w, v <> VStr w).
Definition set_fails (settable0 : list name) (kinds : name -> option setkind) (before : list op) (n : name) (v : val) : Prop :=
  ~ may_set settable0 before n \/
  (exists f, (kinds n = Some (KAs f) \/ exists d, kinds n = Some (KRename d f)) /\ f v = None) \/
  (kinds n = Some KAccum /\ (not_a_list v \/ exists v0, script_says settable0 kinds (rev before) n (Some v0) /\ forall l, v0 <> VList l)).
