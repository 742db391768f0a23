(* ParseDepends: SCons/Environment.py 2063-2107, with SCons/Util/__init__.py 1078-1105 (logical_lines), and Depends, Environment.py
   2625-2635, SCons/Node/__init__.py (add_dependency, _add_child).
   Simplifications: 8-bit characters; the names of files stand for their nodes (they contain no dollar sign; aliases are omitted); the name
   of the file to be read is already expanded. *)
From Coq Require Import Ascii String List Bool Arith.
From Verif Require Import SubstModel.
Import ListNotations.
Open Scope list_scope.

Definition nl : ascii := ascii_of_nat 10.
Definition cr : ascii := ascii_of_nat 13.
Definition bslash : ascii := "\"%char.
(* open(filename) in text mode: universal newlines *)
Fixpoint universal (s : str) : str :=
  match s with
  | [] => []
  | c :: r => if Ascii.eqb c cr then (match r with d :: r' => if Ascii.eqb d nl then nl :: universal r' else nl :: universal r | [] => [nl] end)
              else c :: universal r
  end.
(* iterating over the file: lines with their newline; [acc] is the current line, reversed *)
Fixpoint lines (acc s : str) : list str :=
  match s with
  | [] => match acc with [] => [] | _ => [rev acc] end
  | c :: r => if Ascii.eqb c nl then rev (c :: acc) :: lines [] r else lines (c :: acc) r
  end.
(* str.rstrip(), str.endswith('\\') *)
Definition rstrip (s : str) : str := rev (lstrip (rev s)).
Definition ends_bslash (s : str) : bool := match rev s with c :: _ => Ascii.eqb c bslash | [] => false end.
(* logical_lines, Util/__init__.py 1078-1092; [acc]: the joined parts of logical_line, [some]: logical_line is not empty *)
Fixpoint logical (acc : str) (some : bool) (l : list str) : list str :=
  match l with
  | [] => if some then [acc] else []
  | x :: r => let stripped := rstrip x in
              if ends_bslash stripped then logical (acc ++ removelast stripped) true r
              else (acc ++ x) :: logical [] false r
  end.
(* line.split(':', 1) with two parts *)
Fixpoint split_colon (s : str) : option (str * str) :=
  match s with
  | [] => None
  | c :: r => if Ascii.eqb c ":"%char then Some ([], r)
              else match split_colon r with Some (a, b) => Some (c :: a, b) | None => None end
  end.
(* str.split(); [acc]: the current word, reversed *)
Fixpoint words (acc s : str) : list str :=
  match s with
  | [] => match acc with [] => [] | _ => [rev acc] end
  | c :: r => if is_space c then match acc with [] => words [] r | _ => rev acc :: words [] r end else words (c :: acc) r
  end.
Definition comment (s : str) : bool := match s with c :: _ => Ascii.eqb c "#"%char | [] => false end.
(* lines 2087-2097 *)
Definition tdlist (text : str) : list (list str * list str) :=
  flat_map (fun l => match split_colon l with Some (t, d) => [(words [] t, words [] d)] | None => [] end)
           (filter (fun l => negb (comment l)) (logical [] false (lines [] (universal text)))).

(* _add_child, Node/__init__.py: what is there is not added again *)
Definition mem (s : str) (l : list str) : bool := existsb (str_eqb s) l.
Definition add_child (l : list str) (x : str) : list str := if mem x l then l else l ++ [x].
Definition deps_of := str -> list str.
(* Depends, Environment.py 2631-2634 *)
Definition add_dependency (ds : list str) (D : deps_of) (t : str) : deps_of :=
  fun u => if str_eqb u t then fold_left add_child ds (D t) else D u.
Definition depends (ts ds : list str) (D : deps_of) : deps_of := fold_left (add_dependency ds) ts D.
Inductive result := Done (D : deps_of) | NotFound | TooMany.
(* ParseDepends: [file]: what is in the file, if it can be read *)
Definition parse_depends (file : option str) (must_exist only_one : bool) (D : deps_of) : result :=
  match file with
  | None => if must_exist then NotFound else Done D
  | Some text =>
      let td := tdlist text in
      if only_one && (1 <? List.length (flat_map fst td)) then TooMany
      else Done (fold_left (fun D x => depends (fst x) (snd x) D) td D)
  end.
