(* What reading SConscript files should do, without a call stack: every script has its own variables, its own directory and its own exports, fixed when it is called. *)
From Coq Require Import List Bool Arith.
Import ListNotations.
From Verif Require Import SconModel.

(* the variables h, and those of g that h does not have *)
Definition over (h g : ns) : ns := fun y => match h y with Some v => Some v | None => g y end.
(* the meaning of the two operations on variables shared with the model *)
Lemma nempty_meaning : forall x, nempty x = None.
Proof. reflexivity. Qed.
Lemma nset_meaning : forall g x v, nset g x v x = Some v /\ forall y, y <> x -> nset g x v y = g y.
Proof. intros g x v. unfold nset. split; [rewrite Nat.eqb_refl; reflexivity|]. intros y N. apply Nat.eqb_neq in N. rewrite N. reflexivity. Qed.
(* what belongs to one script *)
Record scope := { vars : ns; given : ns; here : dir; path : list dir; depth : nat; ret : val }.      (* given: by the exports argument *)
(* what all scripts share: the variables exported by Export, the directory of the process, SConscriptChdir, standard input, what was shown *)
Record world := { exported : ns; osdir : dir; chdir_on : bool; input : list stmt; shown : list event }.
Definition with_vars (sc : scope) g := {| vars := g; given := given sc; here := here sc; path := path sc; depth := depth sc; ret := ret sc |}.
Definition with_ret (sc : scope) v := {| vars := vars sc; given := given sc; here := here sc; path := path sc; depth := depth sc; ret := v |}.
Definition with_exported (w : world) g := {| exported := g; osdir := osdir w; chdir_on := chdir_on w; input := input w; shown := shown w |}.
Definition with_osdir (w : world) d := {| exported := exported w; osdir := d; chdir_on := chdir_on w; input := input w; shown := shown w |}.
Definition with_chdir (w : world) b := {| exported := exported w; osdir := osdir w; chdir_on := b; input := input w; shown := shown w |}.
Definition with_input (w : world) i := {| exported := exported w; osdir := osdir w; chdir_on := chdir_on w; input := i; shown := shown w |}.
Definition show (w : world) ev := {| exported := exported w; osdir := osdir w; chdir_on := chdir_on w; input := input w; shown := shown w ++ [ev] |}.

(* the value of a variable: a local one before a global one *)
Inductive has (loc : option ns) (sc : scope) (x : name) : val -> Prop :=
| has_local l v : loc = Some l -> l x = Some v -> has loc sc x v
| has_global v : (forall l, loc = Some l -> l x = None) -> vars sc x = Some v -> has loc sc x v.
Inductive value (loc : option ns) (sc : scope) : expr -> val -> Prop :=
| value_val v : value loc sc (EVal v) v
| value_var x v : has loc sc x v -> value loc sc (EVar x) v.
Definition undefined (loc : option ns) (sc : scope) (e : expr) : Prop := forall v, ~ value loc sc e v.
Definition true_value (v : val) : Prop := v <> VNone /\ v <> VAtom 0 /\ v <> VTuple [].
(* a dictionary display: the last of equal keys counts *)
Inductive display (loc : option ns) (sc : scope) : list (name * expr) -> ns -> ns -> Prop :=
| display_nil g : display loc sc [] g g
| display_cons x e v r g h : value loc sc e v -> display loc sc r (nset g x v) h -> display loc sc ((x, e) :: r) g h.
(* a list of variables to export: names in scope, and dictionaries *)
Inductive collects (loc : option ns) (sc : scope) : list xarg -> ns -> ns -> Prop :=
| collects_nil g : collects loc sc [] g g
| collects_name x v r g h : has loc sc x v -> collects loc sc r (nset g x v) h -> collects loc sc (XName x :: r) g h
| collects_dict d r g g2 h : display loc sc d g g2 -> collects loc sc r g2 h -> collects loc sc (XDict d :: r) g h.
Definition exportable (loc : option ns) (sc : scope) (args : list xarg) : Prop := exists h, collects loc sc args nempty h.
Definition well_defined (loc : option ns) (sc : scope) (a : xarg) : Prop := match a with XName _ => True | XDict d => exists h, display loc sc d nempty h end.
(* Export: the arguments one after the other; the first that names a variable that does not exist ends it *)
Inductive exports_to (loc : option ns) (sc : scope) : list (list xarg) -> ns -> ns -> outcome -> Prop :=
| exports_nil g : exports_to loc sc [] g g ONorm
| exports_cons a r g h g2 o : collects loc sc a nempty h -> exports_to loc sc r (over h g) g2 o -> exports_to loc sc (a :: r) g g2 o
| exports_bad a r g : ~ exportable loc sc a -> exports_to loc sc (a :: r) g g (OExc UserErr).
(* Import: what the caller gave comes before what Export has made known *)
Inductive imports (given exported : ns) : list iarg -> ns -> ns -> outcome -> Prop :=
| imports_nil g : imports given exported [] g g ONorm
| imports_given x v r g g2 o : given x = Some v -> imports given exported r (nset g x v) g2 o -> imports given exported (IName x :: r) g g2 o
| imports_exported x v r g g2 o : given x = None -> exported x = Some v -> imports given exported r (nset g x v) g2 o -> imports given exported (IName x :: r) g g2 o
| imports_missing x r g : given x = None -> exported x = None -> imports given exported (IName x :: r) g g (OExc UserErr)
| imports_star r g g2 o : imports given exported r (over given (over exported g)) g2 o -> imports given exported (IStar :: r) g g2 o.
(* an assignment *)
Definition binds (loc : option ns) (sc : scope) (x : name) (v : val) : option ns * scope :=
  match loc with None => (None, with_vars sc (nset (vars sc) x v)) | Some l => (Some (nset l x v), sc) end.
(* one value, or a tuple *)
Inductive packed : list val -> val -> Prop := packed_one v : packed [v] v | packed_many l : length l <> 1 -> packed l (VTuple l).

Section Spec.
Variable scripts : dir * nat -> option (list stmt).
Variable g0 : ns.
Variable no_missing : bool.
(* the file a name means: relative to the directory of the script that uses it *)
Inductive means (sc : scope) : fname -> dir -> nat -> Prop :=
| means_rel d n : means sc (FRel d n) (here sc ++ d) n
| means_top d n : means sc (FTop d n) d n.
(* a new script, called with the variables h *)
Definition called (sc : scope) (h : ns) (d : dir) : scope := {| vars := g0; given := h; here := d; path := d :: path sc; depth := S (depth sc); ret := VNone |}.
(* the directory of the process, while SConscriptChdir is on, is that of the script *)
Definition moved (w : world) (d : dir) : world := if chdir_on w then with_osdir w d else w.
Definition caught (o : outcome) : outcome := match o with OExc RetExc => ONorm | _ => o end.

Inductive does : stmt -> scope -> option ns -> world -> outcome -> scope -> option ns -> world -> Prop :=
| does_set x e v sc l w l2 sc2 : value l sc e v -> binds l sc x v = (l2, sc2) -> does (SSet x e) sc l w ONorm sc2 l2 w
| does_set_bad x e sc l w : undefined l sc e -> does (SSet x e) sc l w (OExc NameErr) sc l w
| does_print e v sc l w : value l sc e v -> does (SPrint e) sc l w ONorm sc l (show w (EvPrint v))
| does_print_bad e sc l w : undefined l sc e -> does (SPrint e) sc l w (OExc NameErr) sc l w
| does_look sc l w : does SLook sc l w ONorm sc l (show w (EvLook (here sc) (osdir w) (path sc) (depth sc)))
| does_if_true e v a b sc l w o sc2 l2 w2 : value l sc e v -> true_value v -> runs a sc l w o sc2 l2 w2 -> does (SIf e a b) sc l w o sc2 l2 w2
| does_if_false e v a b sc l w o sc2 l2 w2 : value l sc e v -> ~ true_value v -> runs b sc l w o sc2 l2 w2 -> does (SIf e a b) sc l w o sc2 l2 w2
| does_if_bad e a b sc l w : undefined l sc e -> does (SIf e a b) sc l w (OExc NameErr) sc l w
| does_func b sc l w o sc2 l2 w2 : runs b sc (Some nempty) w o sc2 l2 w2 -> does (SFunc b) sc l w o sc2 l w2
| does_try b h sc l w sc2 l2 w2 : runs b sc l w ONorm sc2 l2 w2 -> does (STry b h) sc l w ONorm sc2 l2 w2
| does_catch b h e sc l w sc2 l2 w2 o sc3 l3 w3 : runs b sc l w (OExc e) sc2 l2 w2 -> runs h sc2 l2 w2 o sc3 l3 w3 -> does (STry b h) sc l w o sc3 l3 w3
| does_raise n sc l w : does (SRaise n) sc l w (OExc (OtherErr n)) sc l w
| does_export args kw k g sc l w : (forall a x, In a args -> In x a -> well_defined l sc x) -> display l sc kw nempty k -> exports_to l sc args (exported w) g ONorm ->
    does (SExport args kw) sc l w ONorm sc l (with_exported w (over k g))
| does_export_missing args kw k g e sc l w : (forall a x, In a args -> In x a -> well_defined l sc x) -> display l sc kw nempty k -> exports_to l sc args (exported w) g (OExc e) ->
    does (SExport args kw) sc l w (OExc e) sc l (with_exported w g)
| does_export_bad args kw sc l w : (exists a x, In a args /\ In x a /\ ~ well_defined l sc x) \/ ~ (exists k, display l sc kw nempty k) -> does (SExport args kw) sc l w (OExc NameErr) sc l w
| does_import args g o sc l w : imports (given sc) (exported w) args (vars sc) g o -> does (SImport args) sc l w o (with_vars sc g) l w
| does_return xs vs v (stop : bool) sc l w : Forall2 (fun x v => vars sc x = Some v) xs vs -> packed vs v ->
    does (SReturn xs stop) sc l w (if stop then OExc RetExc else ONorm) (with_ret sc v) l w
| does_return_missing xs (stop : bool) sc l w : (exists x, In x xs /\ vars sc x = None) -> does (SReturn xs stop) sc l w (OExc UserErr) sc l w
| does_call x fns ex me sc l w vs v w2 l2 sc2 : (forall a, In a ex -> well_defined l sc a) -> reads sc l fns ex me w ONorm vs w2 -> packed vs v -> binds l sc x v = (l2, sc2) ->
    does (SCall x fns ex me) sc l w ONorm sc2 l2 w2
| does_call_fails x fns ex me sc l w vs w2 e : (forall a, In a ex -> well_defined l sc a) -> reads sc l fns ex me w (OExc e) vs w2 -> does (SCall x fns ex me) sc l w (OExc e) sc l w2
| does_call_bad x fns ex me sc l w : (exists a, In a ex /\ ~ well_defined l sc a) -> does (SCall x fns ex me) sc l w (OExc NameErr) sc l w
| does_chdir b sc l w : does (SChdir b) sc l w ONorm sc l (with_chdir w b)
with runs : list stmt -> scope -> option ns -> world -> outcome -> scope -> option ns -> world -> Prop :=
| runs_nil sc l w : runs [] sc l w ONorm sc l w
| runs_stop c r e sc l w sc2 l2 w2 : does c sc l w (OExc e) sc2 l2 w2 -> runs (c :: r) sc l w (OExc e) sc2 l2 w2
| runs_cons c r o sc l w sc2 l2 w2 sc3 l3 w3 : does c sc l w ONorm sc2 l2 w2 -> runs r sc2 l2 w2 o sc3 l3 w3 -> runs (c :: r) sc l w o sc3 l3 w3
(* the scripts of one call, one after the other, up to the first that fails; their values.  The scope of the caller is not changed by them *)
with reads : scope -> option ns -> list fname -> list xarg -> bool -> world -> outcome -> list val -> world -> Prop :=
| reads_nil sc l ex me w : reads sc l [] ex me w ONorm [] w
| reads_fails sc l f r ex me w e v w2 : reads1 sc l f ex me w (OExc e) v w2 -> reads sc l (f :: r) ex me w (OExc e) [] w2
| reads_cons sc l f r ex me w v w2 o vs w3 : reads1 sc l f ex me w ONorm v w2 -> reads sc l r ex me w2 o vs w3 -> reads sc l (f :: r) ex me w o (v :: vs) w3
(* one script *)
with reads1 : scope -> option ns -> fname -> list xarg -> bool -> world -> outcome -> val -> world -> Prop :=
| reads1_missing_variable sc l f ex me w : ~ exportable l sc ex -> reads1 sc l f ex me w (OExc UserErr) VNone w
| reads1_script sc l f ex me w h d n body o sc2 l2 w2 : collects l sc ex nempty h -> means sc f d n -> scripts (d, n) = Some body ->
    runs body (called sc h d) None (moved (with_osdir w []) d) o sc2 l2 w2 ->
    reads1 sc l f ex me w (caught o) (ret sc2) (moved w2 (here sc))
| reads1_missing_file sc l f ex (me : bool) w h d n : collects l sc ex nempty h -> means sc f d n -> scripts (d, n) = None ->
    reads1 sc l f ex me w (if me && no_missing then OExc UserErr else ONorm) VNone (moved (with_osdir w []) (here sc))
| reads1_stdin sc l ex me w h o sc2 l2 w2 : collects l sc ex nempty h ->
    runs (input w) {| vars := g0; given := h; here := here sc; path := path sc; depth := S (depth sc); ret := VNone |} None (with_input w []) o sc2 l2 w2 ->
    reads1 sc l FStdin ex me w o (ret sc2) (moved w2 (here sc)).

(* before the SConstruct is read *)
Definition scope0 : scope := {| vars := nempty; given := nempty; here := []; path := []; depth := 0; ret := VNone |}.
Definition world0 (inp : list stmt) : world := {| exported := nempty; osdir := []; chdir_on := true; input := inp; shown := [] |}.
End Spec.
