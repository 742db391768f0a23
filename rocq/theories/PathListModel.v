(* Model of SCons/PathList.py: _PathList.__init__ (94-118), subst_path (124-144), PathListCache._PathList_key (177-191), PathListCache.PathList
   (193-217); SCons/Util/__init__.py: flatten, do_flatten, flatten_sequence (453-512).  No proofs.
   Strings are lists of character codes; an object that is neither a string nor a sequence is a number (objects compare by identity and do not
   support `in`).  env.subst and node_conv are arbitrary functions.  os.pathsep is one character. *)
From Coq Require Import List Arith Bool.
From Verif Require Import PathsModel.
Import ListNotations.

Inductive pv := PVStr (s : str) | PVObj (o : nat) | PVSeq (l : list pv).
Inductive leaf := LStr (s : str) | LObj (o : nat).
(* do_flatten, 453-464; the leaves are appended to result *)
Fixpoint do_flatten (v : pv) (result : list leaf) : list leaf :=
  match v with
  | PVStr s => result ++ [LStr s]
  | PVObj o => result ++ [LObj o]
  | PVSeq l => (fix go l result := match l with [] => result | x :: r => go r (do_flatten x result) end) l result
  end.
Definition flatten (v : pv) : list leaf := match v with PVStr s => [LStr s] | PVObj o => [LObj o] | PVSeq l => do_flatten (PVSeq l) [] end.
(* _PathList_key: a sequence becomes a tuple of its leaves *)
Inductive pkey := KStr (s : str) | KObj (o : nat) | KTuple (l : list leaf).
Definition key_of (v : pv) : pkey := match v with PVStr s => KStr s | PVObj o => KObj o | PVSeq l => KTuple (flatten (PVSeq l)) end.
Definition leaf_eqb (a b : leaf) : bool := match a, b with LStr x, LStr y => str_eqb x y | LObj x, LObj y => x =? y | _, _ => false end.
Fixpoint leaves_eqb (a b : list leaf) : bool := match a, b with [], [] => true | x :: a, y :: b => leaf_eqb x y && leaves_eqb a b | _, _ => false end.
Definition key_eqb (a b : pkey) : bool := match a, b with KStr x, KStr y => str_eqb x y | KObj x, KObj y => x =? y | KTuple x, KTuple y => leaves_eqb x y | _, _ => false end.
Inductive ptype := TNoSubst (s : str) | TSubst (s : str) | TObject (o : nat).
Definition DOLLAR := 36.
(* __init__, 94-118 *)
Definition classify (x : leaf) : ptype := match x with LObj o => TObject o | LStr s => if existsb (fun c => c =? DOLLAR) s then TSubst s else TNoSubst s end.
Definition new_pathlist (sep : nat) (k : pkey) (do_split : bool) : list ptype :=
  map classify (match k with
                | KStr s => if do_split then map LStr (split sep s) else [LStr s]
                | KObj o => [LObj o]
                | KTuple l => l
                end).
(* subst_path, 124-144: subst gives a sequence (already flattened: inl) or one value (inr); falsy values are dropped *)
Section Subst.
Variable V : Type. Variable of_str : str -> V. Variable conv : nat -> V. Variable truth : V -> bool.
Variable subst : str -> list V + V.
Fixpoint subst_path (l : list ptype) : list V :=
  match l with
  | [] => []
  | TSubst s :: r => match subst s with inl vs => vs ++ subst_path r | inr v => if truth v then v :: subst_path r else subst_path r end
  | TObject o :: r => if truth (conv o) then conv o :: subst_path r else subst_path r
  | TNoSubst s :: r => match s with [] => subst_path r | _ => of_str s :: subst_path r end
  end.
End Subst.
(* PathListCache: _memo; PathList, 193-217 *)
Definition cache := list (pkey * list ptype).
Fixpoint find (c : cache) (k : pkey) : option (list ptype) := match c with [] => None | (k', v) :: r => if key_eqb k k' then Some v else find r k end.
Definition path_list (sep : nat) (c : cache) (v : pv) (do_split : bool) : cache * list ptype :=
  let k := key_of v in
  match find c k with
  | Some r => (c, r)
  | None => let r := new_pathlist sep k do_split in ((k, r) :: c, r)
  end.
Definition run_cache (sep : nat) (calls : list (pv * bool)) (c : cache) : cache := fold_left (fun c x => fst (path_list sep c (fst x) (snd x))) calls c.
