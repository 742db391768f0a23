(* Model of the list utilities of SCons/Util: PrependPath, AppendPath and AddPathIfNotExists (SCons/Util/envs.py 43-132,
   154-242, 245-276), unique, uniquer_hashables and UniqueList (SCons/Util/__init__.py 1005-1075, 1108-1226).  No proofs.

   A string is a list of characters (nat).  Simplifications: the separator is one character; path elements are strings (not Dir
   nodes); an argument that may be a list is a list, never a tuple; os.path.normpath(os.path.normcase(x)) is an
   arbitrary function norm, os.path.normcase is an arbitrary function ncase, canonicalize is an arbitrary function. *)
From Coq Require Import List Arith Bool.
Import ListNotations.

Definition str := list nat.
Fixpoint str_eqb (a b : str) : bool := match a, b with [], [] => true | x :: a, y :: b => (x =? y) && str_eqb a b | _, _ => false end.
Definition smem (x : str) (l : list str) : bool := existsb (str_eqb x) l.
(* s.split(sep): never empty *)
Fixpoint split (sep : nat) (s : str) : list str :=
  match s with
  | [] => [[]]
  | c :: r => if c =? sep then [] :: split sep r else match split sep r with [] => [[c]] | w :: ws => (c :: w) :: ws end
  end.
(* sep.join(l) *)
Fixpoint join (sep : nat) (l : list str) : str := match l with [] => [] | [w] => w | w :: r => w ++ sep :: join sep r end.

(* a path variable: a string with separators or a list *)
Inductive pathv := PStr (s : str) | PList (l : list str).
Definition elements (sep : nat) (p : pathv) : list str := match p with PStr s => split sep s | PList l => l end.

Section Path.
Variable sep : nat.
Variable norm : str -> str.
(* the loops over `path` with `result`/`paths` and `normpaths`: skip empty ones and those whose normpath is known.
   envs.py 91-97, 117-123, 210-216 (and 220-224, 231-236); returns result and normpaths, both in order of insertion *)
Fixpoint add_new (l : list str) (result normpaths : list str) : list str * list str :=
  match l with
  | [] => (result, normpaths)
  | p :: r => match p with
              | [] => add_new r result normpaths
              | _ => if smem (norm p) normpaths then add_new r result normpaths else add_new r (result ++ [p]) (normpaths ++ [norm p])
              end
  end.
(* 98-105: the same, inserting at the head *)
Fixpoint insert_new (l : list str) (result normpaths : list str) : list str * list str :=
  match l with
  | [] => (result, normpaths)
  | p :: r => match p with
              | [] => insert_new r result normpaths
              | _ => if smem (norm p) normpaths then insert_new r result normpaths else insert_new r (p :: result) (normpaths ++ [norm p])
              end
  end.
(* 206-212: the old paths are all kept (if not empty) *)
Fixpoint add_all (l : list str) (result normpaths : list str) : list str * list str :=
  match l with
  | [] => (result, normpaths)
  | p :: r => match p with [] => add_all r result normpaths | _ => add_all r (result ++ [p]) (normpaths ++ [norm p]) end
  end.
Definition return_path (oldpath : pathv) (paths : list str) : pathv := match oldpath with PStr _ => PStr (join sep paths) | PList _ => PList paths end.
Definition new_elements (canonicalize : option (str -> str)) (newpath : pathv) : list str :=
  match canonicalize with Some f => map f (elements sep newpath) | None => elements sep newpath end.
(* PrependPath: the result, and what the caller's newpath argument is afterwards (97: newpaths.reverse() reverses a list
   argument in place, unless it was replaced by list(map(canonicalize, ...))) *)
Definition prepend_path (oldpath newpath : pathv) (delete_existing : bool) (canonicalize : option (str -> str)) : pathv * pathv :=
  let paths := elements sep oldpath in
  let newpaths := new_elements canonicalize newpath in
  if delete_existing then (return_path oldpath (fst (add_new (newpaths ++ paths) [] [])), newpath)
  else let '(result, normpaths) := add_new paths [] [] in
       (return_path oldpath (fst (insert_new (rev newpaths) result normpaths)),
        match newpath, canonicalize with PList l, None => PList (rev l) | _, _ => newpath end).
(* AppendPath *)
Definition append_path (oldpath newpath : pathv) (delete_existing : bool) (canonicalize : option (str -> str)) : pathv * pathv :=
  let paths := elements sep oldpath in
  let newpaths := new_elements canonicalize newpath in
  if delete_existing then (return_path oldpath (rev (fst (add_new (rev (paths ++ newpaths)) [] []))), newpath)
  else let '(result, normpaths) := add_all paths [] [] in (return_path oldpath (fst (add_new newpaths result normpaths)), newpath).
(* AddPathIfNotExists: 259-276; the old value is None when the key is not there *)
Definition add_path_if_not_exists (ncase : str -> str) (old : option pathv) (path : str) : pathv :=
  match old with
  | None => PStr path
  | Some p => let paths := elements sep p in return_path p (if smem (ncase path) (map ncase paths) then paths else path :: paths)
  end.
End Path.

(* ---- unique ---- *)
Section Unique.
Variable A : Type.
Variable eqb : A -> A -> bool.
Definition member (x : A) (l : list A) : bool := existsb (fun y => eqb y x) l.
(* list(dict.fromkeys(seq)): a dictionary keeps its keys in insertion order; 1073-1074, 1044 *)
Fixpoint fromkeys (l keys : list A) : list A := match l with [] => keys | x :: r => fromkeys r (if member x keys then keys else keys ++ [x]) end.
Definition uniquer_hashables (l : list A) : list A := fromkeys l [].
(* the brute force loop, 1066-1070 *)
Fixpoint brute (l u : list A) : list A := match l with [] => u | x :: r => brute r (if member x u then u else u ++ [x]) end.
(* sorted(seq) with elements compared by <: any stable sort; here by insertion *)
Variable ltb : A -> A -> bool.
Fixpoint insert (x : A) (l : list A) : list A := match l with [] => [x] | y :: r => if ltb y x then y :: insert x r else x :: y :: r end.
Fixpoint sorted (l : list A) : list A := match l with [] => [] | x :: r => insert x (sorted r) end.
Fixpoint upd (l : list A) (i : nat) (x : A) : list A := match l, i with [], _ => [] | _ :: r, O => x :: r | y :: r, S i => y :: upd r i x end.
(* the loop on the sorted array t, 1055-1062: i runs over the remaining indices *)
Fixpoint weed (fuel : nat) (t : list A) (last : A) (lasti i : nat) : list A * nat :=
  match fuel with
  | O => (t, lasti)
  | S fuel => match nth_error t i with
              | None => (t, lasti)
              | Some x => if eqb x last then weed fuel t last lasti (S i) else weed fuel (upd t lasti x) x (S lasti) (S i)
              end
  end.
Definition weed_sorted (t : list A) : list A :=
  match t with [] => [] | last :: _ => let '(t', lasti) := weed (length t) t last 1 1 in firstn lasti t' end.
Inductive how := Hashable | Sortable | Neither.      (* which of the three attempts does not raise TypeError *)
Definition unique (h : how) (seq : list A) : list A :=
  match seq with [] => [] | _ => match h with Hashable => fromkeys seq [] | Sortable => weed_sorted (sorted seq) | Neither => brute seq [] end end.

(* ---- UniqueList ---- *)
Record ulist := { data : list A; uniq : bool }.
Definition u_init (l : list A) : ulist := {| data := l; uniq := true |}.                          (* 1116-1118 *)
Definition make_unique (u : ulist) : ulist := if uniq u then u else {| data := uniquer_hashables (data u); uniq := true |}.   (* 1120-1123 *)
Definition insert_at (l : list A) (i : nat) (x : A) : list A := firstn i l ++ x :: skipn i l.
Definition remove_at (l : list A) (i : nat) : list A := firstn i l ++ skipn (S i) l.
Inductive uop :=
| UAppend (x : A) | UExtend (l : list A)              (* append, extend, += : 1177-1180, 1195-1197, 1223-1225 *)
| UAdd (l : list A) | URadd (l : list A)              (* u = u + l, u = l + u : 1167-1175 *)
| UInsert (i : nat) (x : A)                           (* 1199-1201 *)
| USet (i : nat) (x : A)                              (* u[i] = x : 1161-1163 *)
| UReverse                                            (* 1211-1213 *)
| UDel (i : nat) | UPop                               (* inherited from UserList: on data as it is *)
| URead.                                              (* repr, comparison, len, u[i], count, index, iteration: 1125-1159, 1203-1209 *)
Definition u_step (u : ulist) (o : uop) : ulist :=
  match o with
  | UAppend x => {| data := data u ++ [x]; uniq := false |}
  | UExtend l => {| data := data u ++ l; uniq := false |}
  | UAdd l => {| data := data u ++ l; uniq := false |}
  | URadd l => {| data := l ++ data u; uniq := false |}
  | UInsert i x => {| data := insert_at (data u) i x; uniq := false |}
  | USet i x => {| data := upd (data u) i x; uniq := false |}
  | UReverse => let v := make_unique u in {| data := rev (data v); uniq := uniq v |}
  | UDel i => {| data := remove_at (data u) i; uniq := uniq u |}
  | UPop => {| data := removelast (data u); uniq := uniq u |}
  | URead => make_unique u
  end.
(* what len, u[i], iteration, comparison... see *)
Definition contents (u : ulist) : list A := data (make_unique u).
End Unique.
