(* Model of Environment.Clone (Environment.py 1768-1835, Base.Clone: the copy of _dict and BUILDERS), Util/__init__.py semi_deepcopy
   (526-558), Environment.Replace (2265-2281) / copy_non_reserved_keywords (158-175) as far as copying is concerned.
   Python objects live in a heap; a reference is an index.  Not modelled: attributes of the environment object other than its
   dictionary of variables (copy.copy shares them), tools, variables=, parse_flags=, the substitution of $-references to the old value
   in keyword arguments (scons_subst_once), methods added by AddMethod. *)
From Coq Require Import List Arith Bool Lia.
Import ListNotations.

Definition ref := nat.
Definition key := nat.
(* Python values.  Kind distinguishes list, UserList and its subclasses (CLVar, NodeList, UniqueList), deque; resp. dict, UserDict.
   Opaque: everything semi_deepcopy copies by reference although it can be changed - instances of other classes, sets, and
   subclasses of list and dict (type(obj) is looked up exactly, so OrderedDict or defaultdict are not found in the dispatch table).
   Atom: immutable scalars, strings, functions. *)
Inductive cell :=
  | Atom (v : nat)
  | Opaque (state : nat)
  | Tuple (l : list ref)
  | Lst (kind : nat) (l : list ref)
  | Dct (kind : nat) (l : list (key * ref)).
Definition heap := list cell.

Definition elements (c : cell) : list ref :=
  match c with Atom _ | Opaque _ => [] | Tuple l | Lst _ l => l | Dct _ l => map snd l end.

(* [semi_deepcopy(item) for item in obj], threading the heap *)
Fixpoint copy_list (cp : heap -> ref -> option (heap * ref)) (h : heap) (l : list ref) : option (heap * list ref) :=
  match l with
  | [] => Some (h, [])
  | r :: rs => match cp h r with
    | Some (h1, r1) => match copy_list cp h1 rs with Some (h2, rs2) => Some (h2, r1 :: rs2) | None => None end
    | None => None end
  end.
(* Util/__init__.py 544-558; [None] = recursion deeper than fuel (RecursionError) or a dangling reference *)
Fixpoint semi_deepcopy (fuel : nat) (h : heap) (r : ref) : option (heap * ref) :=
  match fuel with
  | 0 => None
  | S fu =>
    match nth_error h r with
    | None => None
    | Some (Atom _) | Some (Opaque _) => Some (h, r)
    | Some (Tuple l) => match copy_list (semi_deepcopy fu) h l with Some (h1, l1) => Some (h1 ++ [Tuple l1], length h1) | None => None end
    | Some (Lst k l) => match copy_list (semi_deepcopy fu) h l with Some (h1, l1) => Some (h1 ++ [Lst k l1], length h1) | None => None end
    | Some (Dct k l) => match copy_list (semi_deepcopy fu) h (map snd l) with Some (h1, l1) => Some (h1 ++ [Dct k (combine (map fst l) l1)], length h1) | None => None end
    end
  end.

(* the variables of an environment (its _dict, BUILDERS excluded) *)
Definition env := list (key * ref).
Fixpoint lookup (e : env) (k : key) : option ref := match e with [] => None | (k', r) :: e' => if k =? k' then Some r else lookup e' k end.
(* Base.Clone: clone._dict = semi_deepcopy_dict(self._dict, ['BUILDERS']) *)
Definition clone_dict (fuel : nat) (h : heap) (e : env) : option (heap * env) :=
  match copy_list (semi_deepcopy fuel) h (map snd e) with Some (h1, l1) => Some (h1, combine (map fst e) l1) | None => None end.
(* Base.Replace with already copied values: update the dictionary *)
Fixpoint set_var (e : env) (k : key) (r : ref) : env :=
  match e with [] => [(k, r)] | (k', r') :: e' => if k =? k' then (k, r) :: e' else (k', r') :: set_var e' k r end.
Definition replace (e : env) (new : env) : env := fold_left (fun e kv => set_var e (fst kv) (snd kv)) new e.
(* Clone(key=value, ...): copy_non_reserved_keywords(kw) copies the values (line 160), Replace copies them once more *)
Definition Clone (fuel : nat) (h : heap) (e : env) (kw : env) : option (heap * env) :=
  match clone_dict fuel h e with
  | Some (h1, e1) =>
    match clone_dict fuel h1 kw with
    | Some (h2, new) => match clone_dict fuel h2 new with Some (h3, new2) => Some (h3, replace e1 new2) | None => None end
    | None => None end
  | None => None end.
