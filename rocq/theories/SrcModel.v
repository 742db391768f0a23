(* Model of source builders: SCons/Builder.py BuilderBase._create_nodes, _execute, _get_sdict, src_builder_sources, subst_src_suffixes, src_suffixes, add_src_builder,
   set_src_suffix (through CompositeBuilder.add_action).  No proofs.

   A node is its path.  env.arg2nodes() of a string is the one node with the substituted string as its path (strings that expand to lists and look-up of nodes are not modelled,
   see FsModel.v); the checks of _node_errors other than the one for single-source builders, executors and what is recorded in the targets are in BldModel.v.  Prefixes and
   suffixes of a builder are strings, already substituted (a dict or a function of the sources is not modelled); so are the source suffixes.  Names of source builders are
   already looked up in $BUILDERS.  Overrides, chdir and warnings are not modelled. *)
From Coq Require Import Ascii String List Bool Arith.
Import ListNotations.
From Verif Require Import NameModel.
Open Scope list_scope.

Record bconf := { b_suffix : str; b_prefix : str; b_src : list str; b_subs : list nat; b_single : bool; b_ensure : bool;
                  b_emit : list str -> list str -> list str * list str }.        (* without an emitter: the lists themselves *)
Inductive item := Name (s : str) | Node (p : str).
Record call := { c_bld : nat; c_targets : list str; c_sources : list str }.

Definition smem (s : str) (l : list str) : bool := existsb (str_eqb s) l.
(* node.name and the directory, with the slash *)
Definition cut (p : str) : nat := match rfind SLASH p with Some i => S i | None => 0 end.
Definition node_name (p : str) : str := skipn (cut p) p.
Definition node_dir (p : str) : str := firstn (cut p) p.

Section S.
Context (subst : str -> str) (conf : nat -> bconf).

(* 885-902 src_suffixes: append those of a source builder that are not there yet *)
Definition add_new (l new : list str) : list str := fold_left (fun l s => if smem s l then l else l ++ [s]) new l.
(* None: the recursion is too deep (a cycle of builders) *)
Fixpoint src_suffixes (fuel : nat) (b : nat) : option (list str) :=
  match fuel with
  | 0 => None
  | S f => fold_left (fun acc c => match acc, src_suffixes f c with Some l, Some new => Some (add_new l new) | _, _ => None end) (b_subs (conf b)) (Some (b_src (conf b)))
  end.
(* 779-785 match_src_suffix *)
Definition match_src_suffix (sufs : list str) (name : str) : option str :=
  let node_suffixes := map (fun suf => last_n name (length suf)) sufs in find (fun suf => smem suf node_suffixes) sufs.

(* the suffix lists of all builders *)
Context (sufs : nat -> list str).
(* 743-766 _get_sdict: the last source builder with the suffix *)
Definition sdict (b : nat) (suf : str) : option nat := fold_left (fun acc c => if smem suf (sufs c) then Some c else acc) (b_subs (conf b)) None.
(* 694-699 *)
Definition get_src_suffix (b : nat) : str := match sufs b with [] => [] | s :: _ => s end.
(* 475-494 *)
Definition adjust_item (suf : str) (it : item) : item := match it with Name s => Name (adjustixes s [] suf false) | Node p => Node p end.
Definition node_of (it : item) : str := match it with Name s => subst s | Node p => p end.

Definition results := option (list call * list str).
(* 496-557 _create_nodes and the rest of _execute; None: UserError *)
Definition finish (b : nat) (target : option (list str)) (items : list item) (log : list call) : results :=
  let c := conf b in
  let slist := map (fun it => node_of (adjust_item (get_src_suffix b) it)) items in
  let tlist := match target with
               | None => match slist with [] => [] | p :: _ => [node_dir p ++ target_from_source (b_prefix c) (b_suffix c) (sufs b) (node_name p)] end
               | Some ts => map (fun t => subst (adjustixes t (b_prefix c) (b_suffix c) (b_ensure c))) ts
               end in
  let (tlist, slist) := b_emit c tlist slist in
  if b_single c && (1 <? length slist) then None else Some (log ++ [{| c_bld := b; c_targets := tlist; c_sources := slist |}], tlist).

Definition bind_all {A} (f : A -> option (list call * list str)) : list A -> list call -> list str -> results :=
  fix go l log res := match l with [] => Some (log, res) | x :: r => match f x with None => None | Some (lg, ts) => go r (log ++ lg) (res ++ ts) end end.
(* 787-817: what becomes of one source; rec: _execute *)
Definition convert (rec : nat -> option (list str) -> list item -> results) (b : nat) (it : item) : results :=
  let m := match it with Name s => match_src_suffix (sufs b) (subst s) | Node p => match_src_suffix (sufs b) (node_name p) end in
  let it := match it with Name s => match m with
                                    | Some (_ :: _) => it
                                    | _ => if existsb (Ascii.eqb DOT) s then it else adjust_item (get_src_suffix b) it
                                    end
            | Node _ => it
            end in
  match m with
  | Some (c0 :: m0) =>
    match sdict b (c0 :: m0) with
    | None => Some ([], [node_of it])
    | Some c =>
      match rec c None [it] with
      | None => None
      | Some (log, ts) => Some (log, if 1 <? length ts then filter (fun t => match match_src_suffix (sufs b) (node_name t) with Some (_ :: _) => true | _ => false end) ts else ts)
      end
    end
  | _ => Some ([], [node_of it])
  end.
(* 559-633 _execute; None: an error, or the recursion is too deep *)
Fixpoint execute (fuel : nat) (b : nat) (target : option (list str)) (source : list item) : results :=
  match fuel with
  | 0 => None
  | S f =>
    match (match b_subs (conf b) with
           | [] => Some ([], source)
           | _ => match bind_all (convert (execute f) b) source [] [] with None => None | Some (log, ns) => Some (log, map Node ns) end
           end) with
    | None => None
    | Some (log, items) =>
      if b_single (conf b) && (1 <? length items) && match target with None => true | Some _ => false end
      then bind_all (fun it => execute f b None [it]) items log []
      else finish b target items log
    end
  end.
End S.

(* --- the memoised lists of suffixes --- *)
(* what a builder object holds: src_suffix, src_builder, and _memo['subst_src_suffixes'], by environment.  Source suffixes are not substituted here: the memo of
   get_src_builders and what substitution makes of the suffixes in an environment are left out *)
Record bobj := { o_src : list str; o_subs : list nat; o_memo : nat -> option (list str) }.
Definition objs := nat -> bobj.
Inductive sop := Ask (env b : nat) | AddSub (b c : nat) | SetSrc (b : nat) (l : list str).
Definition put (o : objs) (b : nat) (x : bobj) : objs := fun k => if k =? b then x else o k.
Definition put_memo (o : objs) (b env : nat) (l : list str) : objs :=
  put o b {| o_src := o_src (o b); o_subs := o_subs (o b); o_memo := fun e => if e =? env then Some l else o_memo (o b) e |}.
(* 857-902; the list that is returned is the one in the memo, and is appended to in place *)
Fixpoint ask (fuel : nat) (env : nat) (o : objs) (b : nat) : option (objs * list str) :=
  match fuel with
  | 0 => None
  | S f =>
    let l := match o_memo (o b) env with Some l => l | None => o_src (o b) end in
    (fix go (subs : list nat) (o : objs) : option (objs * list str) :=
       match subs with
       | [] => Some (o, match o_memo (o b) env with Some l => l | None => [] end)
       | c :: r => match ask f env o c with
                   | None => None
                   | Some (o1, new) => go r (put_memo o1 b env (add_new (match o_memo (o1 b) env with Some l => l | None => [] end) new))
                   end
       end) (o_subs (o b)) (put_memo o b env l)
  end.
Definition sstep (fuel : nat) (o : objs) (x : sop) : option objs :=
  match x with
  | Ask env b => match ask fuel env o b with Some (o1, _) => Some o1 | None => None end
  | AddSub b c => Some (put o b {| o_src := o_src (o b); o_subs := o_subs (o b) ++ [c]; o_memo := fun _ => None |})       (* 717-725 *)
  | SetSrc b l => Some (put o b {| o_src := map adjust_suffix l; o_subs := o_subs (o b); o_memo := o_memo (o b) |})       (* 684-692 *)
  end.
Fixpoint srun (fuel : nat) (o : objs) (l : list sop) : option objs := match l with [] => Some o | x :: r => match sstep fuel o x with Some o1 => srun fuel o1 r | None => None end end.
