(* Model of construction environments as dictionaries: SCons/Environment.py, SubstitutionEnvironment (610-690), Base.Append,
   Prepend, AppendUnique, PrependUnique, Replace (1578-1767, 2114-2281) and OverrideEnvironment (3013-3239).  No proofs.

   Values are strings, None and references to mutable objects (lists and dictionaries) on a heap, so that sharing
   between environments and changes in place are visible.  Simplifications: the elements of lists and dictionaries are
   strings or None (an operation that would nest one container in another is treated as an exception); the variables BUILDERS,
   SCANNERS (special-cased by __setitem__) and CPPDEFINES (special-cased by Append etc.) and the scanner map are not
   modelled; keyword arguments are one variable at a time.  An exception is the result None, the environments being unchanged. *)
From Coq Require Import List Arith Bool.
Import ListNotations.

Definition key := nat.
Definition loc := nat.
Inductive atom := AStr (s : list nat) | ANone.
Inductive val := VAtom (a : atom) | VRef (l : loc).
Inductive obj := OList (l : list atom) | ODict (d : list (atom * atom)).

Fixpoint nats_eqb (a b : list nat) : bool := match a, b with [], [] => true | x :: a, y :: b => (x =? y) && nats_eqb a b | _, _ => false end.
Definition atom_eqb (a b : atom) : bool := match a, b with AStr x, AStr y => nats_eqb x y | ANone, ANone => true | _, _ => false end.
Definition amem (a : atom) (l : list atom) : bool := existsb (atom_eqb a) l.
Definition truthy (a : atom) : bool := match a with AStr (_ :: _) => true | _ => false end.

(* Python dictionaries: insertion order, assignment to an existing key keeps its place *)
Section Dict.
Context {K V : Type} (eqb : K -> K -> bool).
Fixpoint dget (d : list (K * V)) (k : K) : option V := match d with [] => None | (k', v) :: r => if eqb k k' then Some v else dget r k end.
Fixpoint dset (d : list (K * V)) (k : K) (v : V) : list (K * V) :=
  match d with [] => [(k, v)] | (k', v') :: r => if eqb k k' then (k', v) :: r else (k', v') :: dset r k v end.
Fixpoint ddel (d : list (K * V)) (k : K) : list (K * V) := match d with [] => [] | (k', v) :: r => if eqb k k' then r else (k', v) :: ddel r k end.
Definition dupdate (d e : list (K * V)) : list (K * V) := fold_left (fun d kv => dset d (fst kv) (snd kv)) e d.
End Dict.
Definition dict := list (key * val).
Notation kget := (dget Nat.eqb). Notation kset := (dset Nat.eqb). Notation kdel := (ddel Nat.eqb). Notation kupdate := (dupdate Nat.eqb).
Definition mem (k : key) (l : list key) : bool := existsb (Nat.eqb k) l.
(* list.remove: the first occurrence *)
Fixpoint remove1 (k : key) (l : list key) : list key := match l with [] => [] | x :: r => if k =? x then r else x :: remove1 k r end.

(* An environment is a Base with its _dict, or an override of an earlier one with its overrides and __deleted (3055-3061) *)
Inductive env := EBase (d : dict) | EOver (subject : nat) (ov : dict) (del : list key).
Record store := { envs : list env; heap : list obj }.

Section Env.
Variable reserved : key -> bool.      (* reserved_construction_var_names *)
Variable ident : key -> bool.         (* str.isidentifier *)

Definition opt_bind {A B} (o : option A) (f : A -> option B) : option B := match o with Some a => f a | None => None end.
Fixpoint opt_map {A B} (f : A -> option B) (l : list A) : option (list B) :=
  match l with [] => Some [] | x :: r => opt_bind (f x) (fun y => opt_bind (opt_map f r) (fun ys => Some (y :: ys))) end.

(* __getitem__: 645-646 and 3092-3103; None = KeyError.  get: 666-668, 3137-3148 *)
Fixpoint getf (n : nat) (es : list env) (e : nat) (k : key) : option val :=
  match n with
  | O => None
  | S n => match nth_error es e with
           | None => None
           | Some (EBase d) => kget d k
           | Some (EOver sub ov del) => match kget ov k with Some v => Some v | None => if mem k del then None else getf n es sub k end
           end
  end.
Definition getitem (es : list env) (e : nat) (k : key) : option val := getf (S e) es e k.
(* __contains__: 670-671, 3150-3160 *)
Fixpoint containsf (n : nat) (es : list env) (e : nat) (k : key) : bool :=
  match n with
  | O => false
  | S n => match nth_error es e with
           | None => false
           | Some (EBase d) => match kget d k with Some _ => true | None => false end
           | Some (EOver sub ov del) => match kget ov k with Some _ => true | None => if mem k del then false else containsf n es sub k end
           end
  end.
Definition contains (es : list env) (e : nat) (k : key) : bool := containsf (S e) es e k.
(* Dictionary(): 3174-3179; for a Base, its _dict.  d.update(subject) asks the subject for its keys() and its __getitem__ *)
Fixpoint dictf (n : nat) (es : list env) (e : nat) : option dict :=
  match n with
  | O => None
  | S n => match nth_error es e with
           | None => None
           | Some (EBase d) => Some d
           | Some (EOver sub ov del) =>
               opt_bind (dictf n es sub) (fun sd =>
               opt_bind (opt_map (fun k => opt_bind (getitem es sub k) (fun v => Some (k, v))) (map fst sd)) (fun kvs =>
               Some (filter (fun kv => negb (mem (fst kv) del)) (kupdate (kupdate [] kvs) ov))))
           end
  end.
Definition dictionary (es : list env) (e : nat) : option dict := dictf (S e) es e.
Definition keys (es : list env) (e : nat) : option (list key) := opt_bind (dictionary es e) (fun d => Some (map fst d)).   (* 677-679, 3191-3193 *)
(* gvars/lvars as used by subst: 743-749, 3223-3231; a variable is looked up in lvars, then in gvars *)
Fixpoint gvarsf (n : nat) (es : list env) (e : nat) : dict :=
  match n with O => [] | S n => match nth_error es e with Some (EBase d) => d | Some (EOver sub _ _) => gvarsf n es sub | None => [] end end.
Fixpoint lvarsf (n : nat) (es : list env) (e : nat) : dict :=
  match n with O => [] | S n => match nth_error es e with Some (EOver sub ov _) => kupdate (lvarsf n es sub) ov | _ => [] end end.
Definition subst_lookup (es : list env) (e : nat) (k : key) : option val :=
  match kget (lvarsf (S e) es e) k with Some v => Some v | None => kget (gvarsf (S e) es e) k end.

Fixpoint replace {A} (l : list A) (i : nat) (x : A) : list A := match l, i with [], _ => [] | _ :: r, O => x :: r | y :: r, S i => y :: replace r i x end.
Definition set_env (s : store) (e : nat) (x : env) : store := {| envs := replace (envs s) e x; heap := heap s |}.

(* __setitem__: 648-664 (base), 3105-3115 (override) *)
Definition setitem (s : store) (e : nat) (k : key) (v : val) : option store :=
  match nth_error (envs s) e with
  | Some (EBase d) => if reserved k then Some s                                (* warning, ignored *)
                      else if (match kget d k with Some _ => true | None => ident k end) then Some (set_env s e (EBase (kset d k v))) else None
  | Some (EOver sub ov del) => if ident k then Some (set_env s e (EOver sub (kset ov k v) (if mem k del then remove1 k del else del))) else None
  | None => None
  end.
(* __delitem__: 638-643, 3117-3135 *)
Definition delitem (s : store) (e : nat) (k : key) : option store :=
  match nth_error (envs s) e with
  | Some (EBase d) => match kget d k with Some _ => Some (set_env s e (EBase (kdel d k))) | None => None end
  | Some (EOver sub ov del) =>
      match kget ov k with
      | Some _ => Some (set_env s e (EOver sub (kdel ov k) (del ++ [k])))
      | None => if contains (envs s) sub k then Some (set_env s e (EOver sub ov (del ++ [k]))) else None
      end
  | None => None
  end.
(* setdefault: 689-691, 3199-3205 *)
Definition setdefault (s : store) (e : nat) (k : key) (v : val) : option store :=
  match nth_error (envs s) e with
  | Some (EBase d) => Some (match kget d k with Some _ => s | None => set_env s e (EBase (kset d k v)) end)
  | Some (EOver sub ov del) => Some (match getitem (envs s) e k with Some _ => s | None => set_env s e (EOver sub (kset ov k v) del) end)
  | None => None
  end.
(* _update: 1578-1583, 3209-3211; also the effect of Replace (2265-2281, 3235-3238) for a non-reserved variable *)
Definition update1 (s : store) (e : nat) (k : key) (v : val) : option store :=
  match nth_error (envs s) e with
  | Some (EBase d) => Some (set_env s e (EBase (kset d k v)))
  | Some (EOver sub ov del) => Some (set_env s e (EOver sub (kset ov k v) del))
  | None => None
  end.
(* _update_onlynew: 1585-1595, 3213-3221 *)
Definition update_new1 (s : store) (e : nat) (k : key) (v : val) : option store :=
  match nth_error (envs s) e with
  | Some (EBase d) => Some (match kget d k with Some _ => s | None => set_env s e (EBase (kset d k v)) end)
  | Some (EOver sub ov del) => Some (match kget ov k with Some _ => s | None => set_env s e (EOver sub (kset ov k v) del) end)
  | None => None
  end.
(* self._dict[k] = v in the methods of Base: for an override, _dict is the override itself (3072-3073) *)
Definition raw_set (s : store) (e : nat) (k : key) (v : val) : option store :=
  match nth_error (envs s) e with
  | Some (EBase d) => Some (set_env s e (EBase (kset d k v)))
  | _ => setitem s e k v
  end.

(* contents of values; the values of keyword arguments are copied (semi_deepcopy), so they are given by their content *)
Inductive cont := CAtom (a : atom) | CList (l : list atom) | CDict (d : list (atom * atom)).
Definition content (s : store) (v : val) : option cont :=
  match v with
  | VAtom a => Some (CAtom a)
  | VRef l => match nth_error (heap s) l with Some (OList x) => Some (CList x) | Some (ODict x) => Some (CDict x) | None => None end
  end.
Definition alloc (s : store) (c : cont) : store * val :=
  match c with
  | CAtom a => (s, VAtom a)
  | CList x => ({| envs := envs s; heap := heap s ++ [OList x] |}, VRef (length (heap s)))
  | CDict x => ({| envs := envs s; heap := heap s ++ [ODict x] |}, VRef (length (heap s)))
  end.
Definition mutate (s : store) (v : val) (o : obj) : option store :=
  match v with VRef l => Some {| envs := envs s; heap := replace (heap s) l o |} | VAtom _ => None end.
Definition put (s : store) (e : nat) (k : key) (c : cont) : option store := let (s', v) := alloc s c in raw_set s' e k v.
Notation aupdate := (dupdate atom_eqb). Notation aset := (dset atom_eqb).

(* Append, 1606-1667 *)
Definition append (s : store) (e : nat) (k : key) (c : cont) : option store :=
  match getitem (envs s) e k with
  | None => put s e k c
  | Some orig =>
    opt_bind (content s orig) (fun oc =>
    match oc, c with
    | CDict d, CList l => mutate s orig (ODict (fold_left (fun d v => aset d v ANone) l d))
    | CDict d, CDict x => mutate s orig (ODict (aupdate d x))
    | CDict d, CAtom (AStr []) => Some s                                  (* dict.update('') *)
    | CDict d, CAtom a => mutate s orig (ODict (aset d a ANone))
    | CAtom (AStr x), CAtom (AStr y) => put s e k (CAtom (AStr (x ++ y)))
    | CList x, CList y => put s e k (CList (x ++ y))
    | CList x, CAtom a => if truthy a then mutate s orig (OList (x ++ [a])) else Some s
    | CAtom a, CList y => put s e k (CList (if truthy a then a :: y else y))
    | CAtom a, _ => if truthy a then None else put s e k c                (* val.insert: AttributeError *)
    | CList x, CDict _ => None                                            (* nested: not modelled *)
    end)
  end.
(* Prepend, 2114-2179 *)
Definition prepend (s : store) (e : nat) (k : key) (c : cont) : option store :=
  match getitem (envs s) e k with
  | None => put s e k c
  | Some orig =>
    opt_bind (content s orig) (fun oc =>
    match oc, c with
    | CDict d, CList l => mutate s orig (ODict (fold_left (fun d v => aset d v ANone) l d))
    | CDict d, CDict x => mutate s orig (ODict (aupdate d x))
    | CDict d, CAtom (AStr []) => Some s
    | CDict d, CAtom a => mutate s orig (ODict (aset d a ANone))
    | CAtom (AStr x), CAtom (AStr y) => put s e k (CAtom (AStr (y ++ x)))
    | CList x, CList y => put s e k (CList (y ++ x))
    | CList x, CAtom a => if truthy a then mutate s orig (OList (a :: x)) else Some s
    | CAtom a, CList y => put s e k (CList (if truthy a then y ++ [a] else y))
    | CAtom _, CAtom a => if truthy a then None else Some s               (* orig.insert: AttributeError *)
    | CAtom _, CDict d => match d with [] => Some s | _ => None end
    | CList x, CDict _ => None                                            (* nested: not modelled *)
    end)
  end.
(* _delete_duplicates, 203-219 *)
Fixpoint dedup (seen : list atom) (l : list atom) : list atom :=
  match l with [] => [] | x :: r => if amem x seen then dedup seen r else x :: dedup (x :: seen) r end.
Definition delete_duplicates (l : list atom) (keep_last : bool) : list atom := if keep_last then rev (dedup [] (rev l)) else dedup [] l.
Definition without (l m : list atom) : list atom := filter (fun x => negb (amem x m)) l.
(* AppendUnique, 1720-1766, and PrependUnique, 2217-2263 *)
Definition unique_add (front : bool) (s : store) (e : nat) (delete_existing : bool) (k : key) (c0 : cont) : option store :=
  let join old new := if front then new ++ old else old ++ new in
  let c := match c0 with CList l => CList (delete_duplicates l (if front then negb delete_existing else delete_existing)) | _ => c0 end in
  match getitem (envs s) e k with
  | None => put s e k c
  | Some orig =>
    opt_bind (content s orig) (fun oc =>
    match oc, c with
    | CAtom (AStr []), _ | CAtom ANone, _ => put s e k c
    | CDict d, CDict x => mutate s orig (ODict (aupdate d x))
    | CDict d, CList _ => None                                            (* nested: not modelled *)
    | CDict d, CAtom _ => None                                            (* TypeError *)
    | CList dk, CList v => put s e k (CList (if delete_existing then join (without dk v) v else join dk (without v dk)))
    | CAtom a, CList v => put s e k (CList (if delete_existing then join (without [a] v) v else join [a] (without v [a])))
    | CList dk, CAtom a => if delete_existing then put s e k (CList (join (filter (fun x => negb (atom_eqb x a)) dk) [a]))
                           else if amem a dk then Some s else put s e k (CList (join dk [a]))
    | CList dk, CDict _ => None                                           (* nested: not modelled *)
    | CAtom (AStr x), CAtom (AStr y) => if delete_existing then None      (* list + str: TypeError *)
                                        else put s e k (CAtom (AStr (if front then y ++ x else x ++ y)))
    | CAtom _, _ => None                                                  (* TypeError *)
    end)
  end.

Inductive op :=
| OSet (k : key) (c : cont)              (* env[k] = <new value> *)
| OSetRef (k : key) (l : loc)            (* env[k] = <existing object> *)
| ODel (k : key)
| OSetDefault (k : key) (c : cont)
| OUpdate (k : key) (c : cont) | OUpdateNew (k : key) (c : cont) | OReplace (k : key) (c : cont)
| OAppend (k : key) (c : cont) | OPrepend (k : key) (c : cont)
| OAppendUnique (del : bool) (k : key) (c : cont) | OPrependUnique (del : bool) (k : key) (c : cont).
Definition with_alloc (s : store) (c : cont) (f : store -> val -> option store) : option store := let (s', v) := alloc s c in f s' v.
Definition run_op (s : store) (e : nat) (o : op) : option store :=
  match o with
  | OSet k c => with_alloc s c (fun s v => setitem s e k v)
  | OSetRef k l => setitem s e k (VRef l)
  | ODel k => delitem s e k
  | OSetDefault k c => with_alloc s c (fun s v => setdefault s e k v)
  | OUpdate k c => with_alloc s c (fun s v => update1 s e k v)
  | OUpdateNew k c => with_alloc s c (fun s v => update_new1 s e k v)
  | OReplace k c => if reserved k then Some s else with_alloc s c (fun s v => update1 s e k v)
  | OAppend k c => if reserved k then Some s else append s e k c          (* copy_non_reserved_keywords, 158-166 *)
  | OPrepend k c => if reserved k then Some s else prepend s e k c
  | OAppendUnique b k c => if reserved k then Some s else unique_add false s e b k c
  | OPrependUnique b k c => if reserved k then Some s else unique_add true s e b k c
  end.
(* Python continues after a caught exception: a failing operation changes nothing (what alloc allocated is garbage) *)
Definition run_ops (s : store) (e : nat) (os : list op) : store := fold_left (fun s o => match run_op s e o with Some s' => s' | None => s end) os s.
(* Override(overrides), 961-1002: a new environment on top of e; the values are copies.  Not modelled: the substitution of
   references to the variable itself in the values (scons_subst_once), parse_flags, and that without (non-reserved) keywords
   e itself is returned rather than a new environment *)
Definition override (s : store) (e : nat) (kw : list (key * cont)) : store :=
  let s' := fold_left (fun sd kc => let '(s, d) := sd in if reserved (fst kc) then (s, d) else let (s', v) := alloc s (snd kc) in (s', kset d (fst kc) v)) kw (s, []) in
  {| envs := envs (fst s') ++ [EOver e (snd s') []]; heap := heap (fst s') |}.
(* what a user sees of a variable *)
Definition view (s : store) (e : nat) (k : key) : option cont := opt_bind (getitem (envs s) e k) (content s).
End Env.
