(* Model of target selection: SCons/Script/__init__.py (TargetList 186-192, _Add_Arguments 212-217, _Add_Targets 219-228, _Set_Default_Targets and _Get_Default_Targets 273-304),
   SCons/Script/Main.py (_main 980-1005: climbing; 1083-1094; _build_targets 1255-1327).  No proofs.

   Simplified: a node is a directory, another file system node with the directory of the script that calls its builder (after srcnode; None if it has none), or something else (an alias, a value);
   what the arguments of Default name has been looked up already (arg2nodes); names are looked up as FS._lookup does (C31: the path a name denotes).  BUILD_TARGETS may also be changed in place by a
   script (OHand).  Interactive mode is not modelled. *)
From Coq Require Import Ascii String List Bool Arith.
Import ListNotations. Open Scope list_scope.
From Verif Require Import NameModel OptModel.

Notation path := (list (list ascii)).
Inductive tnode := NDir (p : path) | NFile (p : path) (script : option path) | NOther (a : list ascii).
Inductive tgt := TName (w : word) | TNode (n : tnode).
Definition dec_path : forall a b : path, {a = b} + {a <> b} := list_eq_dec (list_eq_dec ascii_dec).
Definition dec_node : forall a b : tnode, {a = b} + {a <> b}.
Proof. intros a b. decide equality; try (apply dec_path); try (apply list_eq_dec, ascii_dec). decide equality. apply dec_path. Defined.
Definition dec_tgt : forall a b : tgt, {a = b} + {a <> b}.
Proof. intros a b. decide equality; [apply list_eq_dec, ascii_dec | apply dec_node]. Defined.
Definition path_eqb (a b : path) : bool := if dec_path a b then true else false.
Definition tgts_eqb (a b : list tgt) : bool := if list_eq_dec dec_tgt a b then true else false.

(* ---- the lists ---- *)
Record lists := { cmdline : list word; build : list tgt; plus : list tgt; defaults : list tnode; called : bool; frozen : bool }.
Definition no_lists : lists := {| cmdline := []; build := []; plus := []; defaults := []; called := false; frozen := false |}.
(* 219-228 *)
Definition add_targets (ts : list word) (s : lists) : lists :=
  match ts with
  | [] => s
  | _ => {| cmdline := cmdline s ++ ts; build := build s ++ map TName ts; plus := plus s ++ map TName ts; defaults := defaults s; called := called s; frozen := true |}
  end.
(* 285-304; an argument of Default: None, or the nodes it stands for *)
Inductive darg := DNone | DNodes (l : list tnode).
Definition set_default (s : lists) (d : darg) : lists :=
  match d with
  | DNone => {| cmdline := cmdline s; build := if frozen s then build s else []; plus := if frozen s then plus s else []; defaults := []; called := called s; frozen := frozen s |}
  | DNodes l => {| cmdline := cmdline s; build := if frozen s then build s else build s ++ map TNode l; plus := if frozen s then plus s else plus s ++ map TNode l;
                   defaults := defaults s ++ l; called := called s; frozen := frozen s |}
  end.
Definition set_defaults (l : list darg) (s : lists) : lists :=
  fold_left set_default l {| cmdline := cmdline s; build := build s; plus := plus s; defaults := defaults s; called := true; frozen := frozen s |}.
Inductive sop := ODefault (l : list darg) | OHand (f : list tgt -> list tgt).
Definition script_op (s : lists) (o : sop) : lists :=
  match o with
  | ODefault l => set_defaults l s
  | OHand f => {| cmdline := cmdline s; build := f (build s); plus := plus s; defaults := defaults s; called := called s; frozen := frozen s |}
  end.
Definition scripts (h : list sop) (s : lists) : lists := fold_left script_op h s.

(* ---- climbing, 980-1005: rdir and ttop are the components of script_dir, the last first, and of target_top ---- *)
Section Climb.
Variable has_script : path -> bool.                          (* _SConstruct_exists *)
Fixpoint climb (rdir ttop : path) : option (path * path) :=
  if has_script (rev rdir) then Some (rev rdir, ttop) else match rdir with [] => None | c :: r => climb r (c :: ttop) end.
End Climb.

(* ---- names, FS._lookup (see FsModel) ---- *)
Fixpoint split_slash (w : word) : list word :=
  match w with [] => [[]] | c :: r => if Ascii.eqb c "/" then [] :: split_slash r else match split_slash r with x :: l => (c :: x) :: l | [] => [[c]] end end.
Definition walk1 (p : path) (c : word) : path := if str_eqb c (lit ".."%string) then removelast p else if str_eqb c [] || str_eqb c (lit "."%string) then p else p ++ [c].
Definition walk (p : path) (l : list word) : path := fold_left walk1 l p.
Definition lookup_path (top dir : path) (w : word) : path :=
  match w with
  | c :: r => if Ascii.eqb c "#" then walk top (split_slash r) else if Ascii.eqb c "/" then walk [] (split_slash r) else walk dir (split_slash w)
  | [] => dir
  end.

Section Select.
Variable alias : word -> option tnode.                       (* arg2nodes_lookups *)
Variable entry : path -> tnode.                              (* fs.Entry: what the path is known to be *)
Variable srcnode : path -> path.
Variable top : path.                                         (* the directory of SConstruct *)
(* 1283-1291 check_dir; Dir.cwd is the directory itself (FS.py 1654) *)
Definition check_dir (ttop : path) (n : tnode) : bool :=
  match n with NDir p => path_eqb (srcnode p) ttop | NFile _ (Some d) => path_eqb d ttop | NFile _ None => true | NOther _ => true end.
(* FS.py 817-821, Alias.py 93 *)
Fixpoint prefixb (a b : path) : bool := match a, b with [], _ => true | x :: a, y :: b => str_eqb x y && prefixb a b | _ :: _, [] => false end.
Definition is_under (n : tnode) (d : path) : bool := match n with NDir p => prefixb d p | NFile p _ => prefixb d p | NOther _ => true end.
(* 1303-1325 Entry *)
Definition to_node (ltop : option path) (ttop : option path) (t : tgt) : option tnode :=
  let n := match t with
           | TNode n => n
           | TName w => match alias w with Some n => n | None => entry (lookup_path top (match ltop with Some d => d | None => top end) w) end
           end in
  match ttop with
  | None => Some n
  | Some d => if is_under n d then Some n else match n with NDir p => if prefixb p d then Some (NDir d) else None | _ => None end
  end.
Inductive climbing := NoClimb | LittleU | BigD | BigU.       (* climb_up: 0, 1, 2, 3 *)
Definition keep_some {A B} (f : A -> option B) (l : list A) : list B := flat_map (fun a => match f a with Some b => [b] | None => [] end) l.
(* 1255-1327; targets: the words of the command line before a --; target_top: Some unless NoClimb; None: "No targets specified and no Default() targets found" *)
Definition build_targets (s : lists) (targets : list word) (c : climbing) (target_top : option path) : option (list tnode) :=
  let dir := match target_top with Some t => walk top t | None => top end in
  if negb (match targets with [] => true | _ => false end) || negb (tgts_eqb (build s) (plus s)) then
    match build s with
    | [] => None
    | l => Some (keep_some (to_node (match target_top with Some _ => Some dir | None => None end) None) l)
    end
  else
    let '(d, ttop, ltop) :=
      match target_top, c with
      | Some _, LittleU => (None, Some dir, Some dir)
      | Some _, BigU => (Some (filter (check_dir dir) (defaults s)), None, None)
      | _, _ => (None, None, None)
      end in
    let defs := match d with Some d => d | None => defaults s end in           (* DEFAULT_TARGETS[:] = d *)
    let l := if called s then defs else match d with None => [NDir top] | Some d => d end in
    match l with [] => None | _ => Some (keep_some (to_node ltop ttop) (map TNode l)) end.
End Select.

(* ---- the command line, 1083-1094: words before and after -- ---- *)
Definition started (targets rargs : list word) : lists := add_targets (targets ++ rargs) no_lists.
(* _Add_Arguments *)
Definition arglist (xmit : list word) : list (word * word) := map (fun w => match split_eq w with (a, Some b) => (a, b) | (a, None) => (a, []) end) xmit.
Definition arguments (xmit : list word) : map_ word := fold_left (fun m ab => put m (fst ab) (snd ab)) (arglist xmit) (fun _ => None).
