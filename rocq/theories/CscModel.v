(* Model of the C scanner: SCons/Scanner/C.py (CScanner 219-240: the regular expression), SCons/Scanner/__init__.py (Classic.find_include_names 364-365, Classic.scan 367-401, ClassicCPP.find_include 412-421, sort_key 424-425),
   SCons/Node/FS.py (FileFinder.filedir_lookup 3738-3774, find_file 3783-3831).  No proofs.

   Simplified: a text is a list of characters; what is in a directory (Dir.entries, dir_on_disk, srcdir_find_file with variant directories and repositories: C39, C57) is given; POSIX paths, _my_normcase is the identity;
   warnings for files not found are not modelled. *)
From Coq Require Import Ascii String List Bool Arith.
Import ListNotations.
Open Scope list_scope.

Notation text := (list ascii).
Definition lit (s : string) : text := list_ascii_of_string s.
Definition newline : ascii := "010"%char.
Definition is (a c : ascii) : bool := Ascii.eqb a c.

(* ---- C.py 233-238: the regular expression, in parts; [ \t]* *)
Definition blank (c : ascii) : bool := is " " c || is "009" c.
Fixpoint skip_blanks (t : text) : text := match t with c :: r => if blank c then skip_blanks r else t | [] => [] end.
(* a literal *)
Fixpoint after (w t : text) : option text :=
  match w, t with
  | [], _ => Some t
  | a :: w, c :: t => if is a c then after w t else None
  | _ :: _, [] => None
  end.
(* include|import *)
Definition keyword (t : text) : option text := match after (lit "include") t with Some r => Some r | None => after (lit "import") t end.
Definition opening (c : ascii) : bool := is "<" c || is """" c.
Definition closing (c : ascii) : bool := is ">" c || is """" c.
(* the longest part without closing characters; it goes on over the ends of lines *)
Fixpoint name_at (t : text) : text * text :=
  match t with
  | [] => ([], [])
  | c :: r => if closing c then ([], t) else let '(n, e) := name_at r in (c :: n, e)
  end.
(* an opening character, a name that is not empty, a closing character: the groups 1 and 2, and the rest of the text *)
Definition quoted (t : text) : option ((ascii * text) * text) :=
  match t with
  | q :: r =>
    if opening q then
      match name_at r with
      | (n, _ :: e) => match n with [] => None | _ => Some ((q, n), e) end
      | (_, []) => None
      end
    else None
  | [] => None
  end.
Definition match_at (t : text) : option ((ascii * text) * text) :=
  match skip_blanks t with
  | c :: r => if is "#" c then match keyword (skip_blanks r) with Some r => quoted (skip_blanks r) | None => None end else None
  | [] => None
  end.
(* __init__.py 364-365: findall with re.M; k characters are part of the last match; bol: this is the beginning of a line *)
Fixpoint findall (k : nat) (bol : bool) (t : text) : list (ascii * text) :=
  match t with
  | [] => []
  | c :: r =>
    match k with
    | S k => findall k (is newline c) r
    | 0 =>
      match (if bol then match_at t else None) with
      | Some (i, rest) => i :: findall (length t - length rest - 1) (is newline c) r
      | None => findall 0 (is newline c) r
      end
    end
  end.
Definition include_names (t : text) : list (ascii * text) := findall 0 true t.

(* ---- os.path.split: the last slash; the slashes before the last name are taken away ---- *)
Fixpoint rsplit (t : text) : text * text :=                       (* up to and with the last slash; what follows it *)
  match t with
  | [] => ([], [])
  | c :: r => let '(h, n) := rsplit r in match h with [] => if is "/" c then ([c], n) else ([], c :: n) | _ => (c :: h, n) end
  end.
Fixpoint rstrip (t : text) : text := match t with [] => [] | c :: r => match rstrip r with [] => if is "/" c then [] else [c] | r => c :: r end end.
Definition all_slashes (t : text) : bool := forallb (is "/") t.
Definition os_split (t : text) : text * text := let '(h, n) := rsplit t in (if all_slashes h then h else rstrip h, n).

(* ---- FileFinder ---- *)
Section Find.
Variables dir node : Type.
Variable root : dir.
Variable enter : dir -> text -> option dir.        (* 3763-3774: entries, dir_on_disk *)
Variable here : dir -> text -> option node.        (* srcdir_find_file *)
(* 3738-3774; fuel: the length of fd *)
Fixpoint filedir_lookup (fuel : nat) (p : dir) (fd : text) : option dir :=
  match fuel with
  | 0 => None
  | S fuel =>
    let '(d, n) := os_split fd in
    match n, d with
    | [], c :: _ => if is "/" c then Some root else None
    | _, [] => enter p n
    | _, _ => match filedir_lookup fuel p d with Some p => enter p n | None => None end
    end
  end.
Fixpoint first_found (n : text) (paths : list dir) : option node :=
  match paths with [] => None | d :: r => match here d n with Some x => Some x | None => first_found n r end end.
Definition filter_map (f : dir -> option dir) (l : list dir) : list dir := flat_map (fun d => match f d with Some x => [x] | None => [] end) l.
(* 3812-3827, without the memory *)
Definition search (filename : text) (paths : list dir) : option node :=
  let '(fd, n) := os_split filename in
  first_found n (match fd with [] => paths | _ => filter_map (fun p => filedir_lookup (S (length fd)) p fd) paths end).
(* 3783-3831 with the memory: what was looked for, and the results *)
Variable dir_eqb : dir -> dir -> bool.
Fixpoint list_eqb {A} (e : A -> A -> bool) (a b : list A) : bool := match a, b with [], [] => true | x :: a, y :: b => e x y && list_eqb e a b | _, _ => false end.
Definition memory := list ((text * list dir) * option node).
Fixpoint recall (m : memory) (f : text) (ps : list dir) : option (option node) :=
  match m with [] => None | ((f2, ps2), r) :: m => if list_eqb Ascii.eqb f f2 && list_eqb dir_eqb ps ps2 then Some r else recall m f ps end.
Definition find_file (m : memory) (f : text) (ps : list dir) : option node * memory :=
  match recall m f ps with Some r => (r, m) | None => let r := search f ps in (r, ((f, ps), r) :: m) end.

(* ---- ClassicCPP ---- *)
Definition paths_for (q : ascii) (source_dir : dir) (path : list dir) : list dir := if is """" q then source_dir :: path else path ++ [source_dir].
Definition sort_key (i : ascii * text) : text := fst i :: " "%char :: snd i.
(* comparison of strings *)
Fixpoint leb (a b : text) : bool :=
  match a, b with
  | [], _ => true
  | _ :: _, [] => false
  | x :: a, y :: b => if nat_of_ascii x =? nat_of_ascii y then leb a b else nat_of_ascii x <? nat_of_ascii y
  end.
Fixpoint insert (x : text * node) (l : list (text * node)) : list (text * node) :=
  match l with [] => [x] | y :: r => if leb (fst x) (fst y) then x :: l else y :: insert x r end.
Fixpoint sort (l : list (text * node)) : list (text * node) := match l with [] => [] | x :: r => insert x (sort r) end.
(* 367-401: the includes the node remembers, or those in its text *)
Fixpoint find_all (m : memory) (source_dir : dir) (path : list dir) (is_ : list (ascii * text)) : list (text * node) * memory :=
  match is_ with
  | [] => ([], m)
  | i :: r =>
    let '(x, m) := find_file m (snd i) (paths_for (fst i) source_dir path) in
    let '(l, m) := find_all m source_dir path r in
    (match x with Some n => (sort_key i, n) :: l | None => l end, m)
  end.
Definition scan (m : memory) (includes : option (list (ascii * text))) (contents : text) (source_dir : dir) (path : list dir) : list node * option (list (ascii * text)) * memory :=
  let is_ := match includes with Some l => l | None => include_names contents end in
  let '(l, m) := find_all m source_dir path is_ in
  (map snd (sort l), Some is_, m).
End Find.
