(* Model of how names of targets are made: SCons/Util/__init__.py (splitext, adjustixes, Selector), SCons/Builder.py (match_splitext, DictCmdGenerator, adjust_suffix,
   BuilderBase._adjustixes), SCons/Node/__init__.py (target_from_source_base), and the parts of Python's posixpath they use.  POSIX only.  No proofs.

   A string is a list of characters.  Digits are the ASCII digits (str.isdigit() accepts other Unicode digits too). *)
From Coq Require Import Ascii String List Bool Arith.
Import ListNotations.
Open Scope list_scope.

Definition str := list ascii.
Definition lit (s : string) : str := list_ascii_of_string s.
Fixpoint str_eqb (a b : str) : bool := match a, b with [], [] => true | x :: a, y :: b => Ascii.eqb x y && str_eqb a b | _, _ => false end.
Definition SLASH : ascii := "/"%char.
Definition DOT : ascii := "."%char.

(* str.rfind(c); None for -1 *)
Fixpoint rfind (c : ascii) (s : str) : option nat :=
  match s with
  | [] => None
  | x :: r => match rfind c r with Some i => Some (S i) | None => if Ascii.eqb x c then Some 0 else None end
  end.
(* s[-n:] and s[:-n] *)
Definition last_n (s : str) (n : nat) : str := if n =? 0 then s else skipn (length s - n) s.
Definition but_last_n (s : str) (n : nat) : str := if n =? 0 then [] else firstn (length s - n) s.
Fixpoint startswith (s pre : str) : bool := match pre, s with [], _ => true | p :: pre, x :: s => Ascii.eqb x p && startswith s pre | _ :: _, [] => false end.
Definition endswith (s suf : str) : bool := startswith (rev s) (rev suf).
Definition is_digit (c : ascii) : bool := (48 <=? nat_of_ascii c) && (nat_of_ascii c <=? 57).
Definition isdigit (s : str) : bool := match s with [] => false | _ => forallb is_digit s end.

(* Util/__init__.py 159-170; rightmost_separator is rfind of the separator on POSIX *)
Definition splitext (path : str) : str * str :=
  match rfind DOT path with
  | None => (path, [])
  | Some dot =>
    if (match rfind SLASH path with None => true | Some sep => sep <? dot end) && negb (isdigit (skipn (dot + 1) path))
    then (firstn dot path, skipn dot path)
    else (path, [])
  end.

(* Builder.py 119-125; max() of the pairs (len, suffix): the longest, the first of equal ones (they are equal strings) *)
Fixpoint longest (l : list str) : str :=
  match l with [] => [] | s :: r => let m := longest r in if length m <=? length s then s else m end.
Definition match_splitext (path : str) (suffixes : list str) : str * str :=
  match filter (fun s => str_eqb (last_n path (length s)) s) suffixes with
  | [] => splitext path
  | matchsuf => let suf := longest matchsuf in (but_last_n path (length suf), last_n path (length suf))
  end.

(* posixpath.normpath: the components, and the number of leading slashes *)
Fixpoint split_on (c : ascii) (s : str) : list str :=
  match s with
  | [] => [[]]
  | x :: r => if Ascii.eqb x c then [] :: split_on c r else match split_on c r with w :: l => (x :: w) :: l | [] => [[x]] end
  end.
Fixpoint join_with (c : ascii) (l : list str) : str := match l with [] => [] | [w] => w | w :: r => w ++ c :: join_with c r end.
Definition slashes (path : str) : nat :=
  if startswith path (lit "/") then if startswith path (lit "//") && negb (startswith path (lit "///")) then 2 else 1 else 0.
Definition norm_step (abs : bool) (new : list str) (comp : str) : list str :=      (* new: the components kept so far, last first *)
  if str_eqb comp [] || str_eqb comp (lit ".") then new
  else if negb (str_eqb comp (lit "..")) || (negb abs && match new with [] => true | _ => false end) || match new with w :: _ => str_eqb w (lit "..") | [] => false end
       then comp :: new
       else match new with _ :: r => r | [] => [] end.
Definition comps (path : str) : list str := rev (fold_left (norm_step (negb (slashes path =? 0))) (split_on SLASH path) []).
Definition normpath (path : str) : str :=
  match path with
  | [] => lit "."
  | _ => match repeat SLASH (slashes path) ++ join_with SLASH (comps path) with [] => lit "." | p => p end
  end.
(* posixpath.split, join *)
Definition rstrip (c : ascii) (s : str) : str := rev ((fix go l := match l with x :: r => if Ascii.eqb x c then go r else l | [] => [] end) (rev s)).
Definition path_split (p : str) : str * str :=
  let i := match rfind SLASH p with Some i => S i | None => 0 end in
  let head := firstn i p in
  (if negb (forallb (Ascii.eqb SLASH) head) then rstrip SLASH head else head, skipn i p).
Definition path_join (a b : str) : str :=
  if startswith b (lit "/") then b else match a with [] => b | _ => if endswith a (lit "/") then a ++ b else a ++ SLASH :: b end.

(* Util/__init__.py 974-996 *)
Definition adjustixes (fname pre suf : str) (ensure_suffix : bool) : str :=
  let fname := match pre with
               | [] => fname
               | _ => let (path, fn) := path_split (normpath fname) in
                      if negb (startswith fn pre) || str_eqb fn pre then path_join path (pre ++ fn) else fname
               end in
  match suf with
  | [] => fname
  | _ => if negb (endswith fname suf) && (ensure_suffix || match snd (splitext fname) with [] => true | _ => false end) then fname ++ suf else fname
  end.

(* Node/__init__.py 239-240: the name, in the directory of the source *)
Definition target_from_source (prefix suffix : str) (suffixes : list str) (name : str) : str := prefix ++ fst (match_splitext name suffixes) ++ suffix.

(* Builder.py 667-670; c: suff[0] *)
Definition adjust_suffix (suff : str) : str :=
  match suff with
  | [] => []
  | c :: _ => if Ascii.eqb c "." || Ascii.eqb c "_" || Ascii.eqb c "$" then suff else DOT :: suff
  end.

Section Sel.
(* what env.subst() makes of a key; the actions (or emitters, prefixes ...) *)
Context {V : Type} (subst : str -> str).
(* a dict with keys in insertion order; the key None is None *)
Definition dict := list (option str * V).
Definition okey_eqb (a b : option str) : bool := match a, b with Some a, Some b => str_eqb a b | None, None => true | _, _ => false end.
Fixpoint dget (d : dict) (k : option str) : option V := match d with [] => None | (k', v) :: r => if okey_eqb k' k then Some v else dget r k end.
(* d[k] = v *)
Fixpoint dset (d : dict) (k : option str) (v : V) : dict := match d with [] => [(k, v)] | (k', v') :: r => if okey_eqb k' k then (k', v) :: r else (k', v') :: dset r k v end.
Inductive sel := Found (v : V) | NotFound | Ambiguous.
(* Util/__init__.py 940-950: the dict with substituted keys; None: two keys are the same *)
Fixpoint s_dict (d : dict) (acc : dict) : option dict :=
  match d with
  | [] => Some acc
  | (None, _) :: r => s_dict r acc
  | (Some k, v) :: r => match dget acc (Some (subst k)) with Some _ => None | None => s_dict r (acc ++ [(Some (subst k), v)]) end
  end.
(* 929-957, with ext given *)
Definition select (d : dict) (ext : str) : sel :=
  match dget d (Some ext) with
  | Some v => Found v
  | None =>
    match s_dict d [] with
    | None => Ambiguous
    | Some sd => match dget sd (Some ext) with Some v => Found v | None => match dget d None with Some v => Found v | None => NotFound end end
    end
  end.

Inductive gen := Nothing | Act (v : V) | DifferentExts | NoExt | AmbiguousSuffixes | NoAction.
(* Builder.py 138-139: the keys (None, allowed for Selector, is not a suffix; a dict with it makes match_splitext fail with TypeError: not modelled) *)
Definition keys (d : dict) : list str := flat_map (fun kv => match fst kv with Some k => [k] | None => [] end) d.
Definition ext_of (d : dict) (name : str) : str := snd (match_splitext name (keys d)).
(* 149-157: the last ext, or the complaint *)
Fixpoint same_ext (d : dict) (ext : str) (source : list str) : option str :=
  match source with
  | [] => Some ext
  | src :: r => let my := ext_of d src in match ext with [] => same_ext d my r | _ => if str_eqb my ext then same_ext d my r else None end
  end.
(* 146-175; match_ext: source_ext_match *)
Definition dict_cmd (d : dict) (match_ext : bool) (source : list str) : gen :=
  match source with
  | [] => Nothing
  | s0 :: _ =>
    match (if match_ext then same_ext d [] source else Some (ext_of d s0)) with
    | None => DifferentExts
    | Some [] => NoExt
    | Some ext => match select d ext with Found v => Act v | Ambiguous => AmbiguousSuffixes | NotFound => NoAction end
    end
  end.
(* 141-144 *)
Definition add_action (d : dict) (suffix : str) (v : V) : dict := dset d (Some suffix) v.
End Sel.
