(* Model of FindSourceFiles: SCons/Environment.py 2979-3002, with Entry.disambiguate (SCons/Node/FS.py 1036-1056).  No proofs.

   A node is abstract; its class, builder, sources and all_children() (sources, depends and, for a directory, the nodes in it: C80) are given.  Not modelled: how a name becomes the node to start from (C26),
   the order in which a Python set gives its elements (the order of the result is not specified). *)
From Coq Require Import List Bool Arith.
Import ListNotations.
Open Scope list_scope.

(* the class of a node, when the call is made: an Entry is a node of which it is not known yet what it is; what is on disk (or, under a variant directory, on disk in the source directory) decides, a name that is not there is that of a file *)
Inductive class := IsFile | IsDir | IsEntry (dir_on_disk : bool) | IsOther.

Section Find.
Context {node : Type} (node_dec : forall a b : node, {a = b} + {a <> b}).
Variables (cls : node -> class) (has_builder : node -> bool) (sources all_children : node -> list node) (srcnode : node -> node).
Definition mem (n : node) (l : list node) : bool := if in_dec node_dec n l then true else false.

(* isinstance(s, Dir): dirs are the entries that disambiguate() has turned into directories *)
Definition is_dir (dirs : list node) (s : node) : bool := match cls s with IsDir => true | IsEntry true => mem s dirs | _ => false end.
(* isinstance(s.disambiguate(), File), and the entries that are directories afterwards *)
Definition disambiguate (dirs : list node) (s : node) : bool * list node := match cls s with IsFile => (true, dirs) | IsEntry false => (true, dirs) | IsEntry true => (false, s :: dirs) | _ => (false, dirs) end.

(* build_source, 2984-2991: the files found and the entries turned into directories; None: deeper than fuel (Python: RecursionError) *)
Fixpoint build_source (fuel : nat) (ss : list node) (st : list node * list node) : option (list node * list node) :=
  match fuel with
  | O => None
  | S k =>
    (fix loop (ss : list node) (st : list node * list node) : option (list node * list node) :=
       match ss with
       | [] => Some st
       | s :: r =>
         let '(found, dirs) := st in
         match (if is_dir dirs s then build_source k (all_children s) st
                else if has_builder s then build_source k (sources s) st
                else let '(file, dirs') := disambiguate dirs s in Some (if file then found ++ [s] else found, dirs')) with
         | Some st' => loop r st'
         | None => None
         end
       end) ss st
  end.

(* final_source, 2995-2998; None: no end within fuel steps (Python: an endless loop) *)
Fixpoint final_source (fuel : nat) (n : node) : option node := if node_dec n (srcnode n) then Some n else match fuel with O => None | S k => final_source k (srcnode n) end.
Fixpoint finals (fuel : nat) (l : list node) : option (list node) :=
  match l with [] => Some [] | n :: r => match final_source fuel n, finals fuel r with Some x, Some y => Some (x :: y) | _, _ => None end end.
(* FindSourceFiles from the node mynode; list(set(..)) *)
Definition find_source_files (fuel : nat) (mynode : node) : option (list node) :=
  match build_source fuel (all_children mynode) ([], []) with
  | None => None
  | Some (found, _) => match finals fuel found with None => None | Some l => Some (nodup node_dec l) end
  end.
End Find.
