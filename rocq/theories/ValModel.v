(* Model of Value nodes: SCons/Node/Python.py (ValueWithMemo, Value.read, write, build, get_text_contents, get_csig), SCons/Node/__init__.py changed_since_last_build_python and the comparison of
   children in changed.  No proofs.

   Python values are abstract: text is str(), key is hash((value, name)), None if the value cannot be hashed, truthy its truth value.  A node is its number in the order of creation.
   Not modelled: values computed by several targets' builders, deciders set by the user. *)
From Coq Require Import List Bool Arith ZArith.
Import ListNotations.
Open Scope list_scope.

Section Values.
Context {V K letter : Type} (text : V -> list letter) (key : V -> option (list letter) -> option K) (key_eqb : K -> K -> bool) (truthy : V -> bool).
Notation str := (list letter).

(* the value, the value that read() gives, once there is one; what the action of its builder writes, if it has a builder (None: it writes nothing) *)
Record node := { value : V; built : option V; action : option (option V) }.
Record state := { nodes : list node; memo : list (K * nat) }.
Definition start : state := {| nodes := []; memo := [] |}.
Fixpoint lookup (k : K) (m : list (K * nat)) : option nat := match m with [] => None | (k', i) :: r => if key_eqb k' k then Some i else lookup k r end.

Record call := { arg : V; built_value : option V; name : option str }.
Definition new_node (s : state) (v : V) (b : option V) : state := {| nodes := nodes s ++ [{| value := v; built := b; action := None |}]; memo := memo s |}.
(* Python.py 183-208 *)
Definition value_node (s : state) (c : call) : state * nat :=
  let n := length (nodes s) in
  if match built_value c with Some b => truthy b | None => false end then (new_node s (arg c) (built_value c), n)
  else match key (arg c) (name c) with
       | None => (new_node s (arg c) None, n)
       | Some k =>
         match lookup k (memo s) with
         | Some i => (s, i)
         | None => ({| nodes := nodes (new_node s (arg c) (built_value c)); memo := (k, n) :: memo s |}, n)
         end
       end.
Fixpoint value_nodes (s : state) (l : list call) : state * list nat :=
  match l with [] => (s, []) | c :: r => let (s, i) := value_node s c in let (s, is) := value_nodes s r in (s, i :: is) end.

(* 106-122 *)
Definition update (s : state) (i : nat) (f : node -> node) : state :=
  {| nodes := match nth_error (nodes s) i with Some x => firstn i (nodes s) ++ f x :: skipn (S i) (nodes s) | None => nodes s end; memo := memo s |}.
Definition write (s : state) (i : nat) (v : V) : state := update s i (fun x => {| value := value x; built := Some v; action := action x |}).
Definition build_and_read (x : node) : V :=
  match built x with Some v => v | None => match action x with Some (Some v) => v | _ => value x end end.
Definition read (s : state) (i : nat) : state * option V :=
  match nth_error (nodes s) i with
  | Some x => (update s i (fun x => {| value := value x; built := Some (build_and_read x); action := action x |}), Some (build_and_read x))
  | None => (s, None)
  end.

(* 124-135: kids: the signatures of its children *)
Definition csig (v : V) (kids : list str) : str := text v ++ concat kids.
(* the signatures of nodes without children *)
Definition csigs (s : state) (l : list nat) : list str := flat_map (fun i => match nth_error (nodes s) i with Some x => [csig (value x) []] | None => [] end) l.

Variable letter_eqb : letter -> letter -> bool.
Fixpoint str_eqb (a b : str) : bool := match a, b with [], [] => true | x :: a, y :: b => letter_eqb x y && str_eqb a b | _, _ => false end.
(* Node/__init__.py 1501-1519 and 304-309, for dependencies that are values *)
Fixpoint any_changed (now old : list str) : bool :=
  match now, old with
  | [], _ => false
  | _ :: _, [] => true
  | n :: now, o :: old => negb (str_eqb n o) || any_changed now old
  end.
Definition changed (now old : list str) : bool := negb (length now =? length old) || any_changed now old.

(* a script: other values, then those that the target depends on; what is compared is from the records of the last run *)
Definition signatures (other deps : list call) : list str := let (s, _) := value_nodes start other in let (s, is) := value_nodes s deps in csigs s is.
Definition rebuilt (other1 deps1 other2 deps2 : list call) : bool := changed (signatures other2 deps2) (signatures other1 deps1).
End Values.

(* the hash of integers in CPython (64 bits) *)
Open Scope Z_scope.
Definition int_hash (n : Z) : Z := let h := Z.sgn n * (Z.abs n mod (2 ^ 61 - 1)) in if h =? -1 then -2 else h.
