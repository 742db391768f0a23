(* Model of Glob: SCons/Node/FS.py (Dir.glob 2224-2285, Dir._glob1 2289-2352, File._glob1 990-991, Entry._glob1 1146-1147, Entry.disambiguate 1037-1081, has_glob_magic 1609-1612,
   RootDir._lookup_abs 2472-2512), SCons/Environment.py Glob 2765-2774 after substitution; and, of the standard library, fnmatch.translate and os.path.split, join.  No proofs.

   Simplified: POSIX names; the directories searched for a directory (get_all_rdirs of itself and of its source directories) are given and exist as nodes; the string of a node
   does not change during the call; a set is iterated in any order (set_order); a class of characters that begins with a reversed range followed by ! is not modelled. *)
From Coq Require Import Ascii String List Bool Arith.
Import ListNotations. Open Scope list_scope.
From Verif Require Import NameModel OptModel TgtModel.

(* ---- fnmatch ---- *)
Definition ch (a : ascii) (c : ascii) : bool := Ascii.eqb c a.
Inductive item := One (a : ascii) | Range (a b : ascii).
Definition in_item (c : ascii) (i : item) : bool :=
  match i with One a => Ascii.eqb c a | Range a b => (nat_of_ascii a <=? nat_of_ascii c) && (nat_of_ascii c <=? nat_of_ascii b) end.
(* translate: the chunks between dashes *)
Fixpoint items (l : word) : list item :=
  match l with
  | [] => []
  | a :: r =>
    match r with
    | d :: r2 => match r2 with
                 | b :: r3 => if ch "-" d then Range a b :: items r3 else One a :: items r
                 | [] => One a :: items r
                 end
    | [] => [One a]
    end
  end.
Fixpoint until (l : word) : option (word * word) := match l with [] => None | c :: r => if ch "]" c then Some ([], r) else match until r with Some (a, b) => Some (c :: a, b) | None => None end end.
(* translate: from after the [ ; negated, the characters, what follows *)
Definition class_end (neg : bool) (r : word) : option (bool * word * word) :=
  match r with
  | c :: r2 => if ch "]" c then match until r2 with Some (a, b) => Some (neg, c :: a, b) | None => None end else match until r with Some (a, b) => Some (neg, a, b) | None => None end
  | [] => None
  end.
Definition class_of (r : word) : option (bool * word * word) := match r with c :: r2 => if ch "!" c then class_end true r2 else class_end false r | [] => None end.
Fixpoint fnm (fuel : nat) (p s : word) : bool :=
  match fuel with
  | 0 => false
  | S f =>
    match p with
    | [] => match s with [] => true | _ => false end
    | c :: r =>
      if ch "*" c then (fix any (s : word) : bool := fnm f r s || match s with [] => false | _ :: t => any t end) s
      else match s with
           | [] => false
           | x :: t => if ch "?" c then fnm f r t
                       else if ch "[" c then match class_of r with
                                             | Some (neg, body, rest) => xorb neg (existsb (in_item x) (items body)) && fnm f rest t
                                             | None => Ascii.eqb x c && fnm f r t
                                             end
                       else Ascii.eqb x c && fnm f r t
           end
    end
  end.
Definition fnmatch (s p : word) : bool := fnm (S (length p)) p s.
(* 1609-1612 *)
Definition has_magic (w : word) : bool := existsb (fun c => ch "*" c || ch "?" c || ch "[" c) w.

(* ---- os.path ---- *)
Fixpoint drop_slashes (rw : word) : word := match rw with c :: r => if ch "/" c then drop_slashes r else rw | [] => [] end.
Fixpoint cut_last (rw : word) : word * word := match rw with [] => ([], []) | c :: r => if ch "/" c then ([], rw) else let '(a, b) := cut_last r in (c :: a, b) end.
Definition split_path (w : word) : word * word :=
  let '(t, h) := cut_last (rev w) in (match drop_slashes h with [] => rev h | h2 => rev h2 end, rev t).
Definition join_path (a b : word) : word := match rev a with c :: _ => if ch "/" c then a ++ b else a ++ "/"%char :: b | [] => b end.

(* ---- sorted(result, key=str) ---- *)
Fixpoint wle (a b : word) : bool :=
  match a, b with
  | [], _ => true
  | _ :: _, [] => false
  | x :: a, y :: b => if nat_of_ascii x <? nat_of_ascii y then true else if nat_of_ascii y <? nat_of_ascii x then false else wle a b
  end.
Fixpoint insert {A} (key : A -> word) (x : A) (l : list A) : list A := match l with [] => [x] | y :: r => if wle (key x) (key y) then x :: l else y :: insert key x r end.
Definition sort_by {A} (key : A -> word) (l : list A) : list A := fold_right (insert key) [] l.

(* ---- nodes ---- *)
Inductive cls := CEntry | CFile | CDir.
Notation nodes := (list (path * cls)).
Definition cls_of (st : nodes) (p : path) : option cls := match p with [] => Some CDir | _ => match find (fun e => path_eqb (fst e) p) st with Some e => Some (snd e) | None => None end end.
Definition known (st : nodes) (p : path) : bool := match cls_of st p with Some _ => true | None => false end.
Definition set_cls (st : nodes) (p : path) (c : cls) : nodes := map (fun e => if path_eqb (fst e) p then (p, c) else e) st.
(* the names in dir.entries *)
Definition child (d p : path) : list word := match rev p with n :: r => if path_eqb (rev r) d then [n] else [] | [] => [] end.
Definition entries (st : nodes) (d : path) : list word := flat_map (fun e => child d (fst e)) st.

Inductive res := RNode (p : path) | RStr (w : word).

Section Glob.
Variable isfile isdir src_isdir : path -> bool.              (* on disk; src_isdir: 1064-1071, the source of the path is a directory on disk *)
Variable listing : path -> option (list word).               (* os.listdir, None: os.error *)
Variable search : path -> list path.                         (* 2304-2306 *)
Variable top : path.
Variable show : path -> word.                                (* str(node) *)
Variable set_order : list word -> list word.                 (* the order in which a set of these elements is iterated *)

(* 2472-2512, with the reversed path *)
Fixpoint make (st : nodes) (rp : path) (c : cls) : option nodes :=
  match cls_of st (rev rp) with
  | Some k => match c, k with CEntry, _ => Some st | _, CEntry => Some (set_cls st (rev rp) c) | CDir, CDir => Some st | CFile, CFile => Some st | _, _ => None end
  | None => match rp with
            | [] => Some st
            | _ :: up => match make st up CDir with
                         | None => None
                         | Some st => match c with CDir => if isfile (rev rp) then None else Some (st ++ [(rev rp, c)]) | CFile => if isdir (rev rp) then None else Some (st ++ [(rev rp, c)]) | CEntry => Some (st ++ [(rev rp, c)]) end
                         end
            end
  end.
(* dir.Entry('./' + name) *)
Definition entry (st : nodes) (d : path) (n : word) : nodes := if known st (d ++ [n]) then st else st ++ [(d ++ [n], CEntry)].
(* 1037-1081 *)
Definition look (p : path) : cls := if isfile p then CFile else if isdir p then CDir else if src_isdir p then CDir else CFile.
Definition disambiguate (st : nodes) (p : path) : nodes := match cls_of st p with Some CEntry => set_cls st p (look p) | _ => st end.

Definition dot_first (w : word) : bool := match w with c :: _ => ch "." c | [] => false end.
Definition visible (pattern : word) (l : list word) : list word := filter (fun x => fnmatch x pattern) (if dot_first pattern then l else filter (fun x => negb (dot_first x)) l).
(* 2321: selfEntry(name) *)
Fixpoint self_entries (st : nodes) (d : path) (names : list word) : option nodes :=
  match names with [] => Some st | n :: r => match make st (rev (lookup_path top d n)) CEntry with Some st => self_entries st d r | None => None end end.
(* 2338-2346 *)
Definition disk_entry (d s : path) (st : nodes) (n : word) : nodes :=
  let st := disambiguate (entry st s n) (s ++ [n]) in
  let st := entry st d n in
  match cls_of st (s ++ [n]), cls_of st (d ++ [n]) with
  | Some CFile, Some CFile => st | Some CDir, Some CDir => st
  | Some c, _ => set_cls st (d ++ [n]) c
  | None, _ => st
  end.
(* 2310-2346 *)
Fixpoint collect (st : nodes) (d : path) (pattern : word) (ondisk strings : bool) (dirs : list path) (names : list word) : option (list word * nodes) :=
  match dirs with
  | [] => Some (names, st)
  | s :: r =>
    let node_names := entries st s in
    match (if strings then Some st else self_entries st d node_names) with
    | None => None
    | Some st =>
      if ondisk then
        match listing s with
        | None => collect st d pattern ondisk strings r (names ++ node_names)
        | Some l => collect (if strings then st else fold_left (disk_entry d s) (visible pattern l) st) d pattern ondisk strings r (names ++ node_names ++ l)
        end
      else collect st d pattern ondisk strings r (names ++ node_names)
    end
  end.
(* 2289-2352 for a Dir; the argument source is not used by the code *)
Definition glob1_dir (st : nodes) (d : path) (pattern : word) (ondisk source strings : bool) : option (list res * nodes) :=
  match pattern with
  | [] => None                                               (* IndexError *)
  | _ =>
    match collect st d pattern ondisk strings (search d) [] with
    | None => None
    | Some (names, st) =>
      let names := visible pattern (set_order (nodup (list_eq_dec ascii_dec) names)) in
      if strings then Some (map RStr names, st)
      else if forallb (fun n => known st (d ++ [n])) names then Some (map (fun n => RNode (d ++ [n])) names, st)
      else None                                              (* KeyError *)
    end
  end.
(* 990, 1146 *)
Definition glob1 (st : nodes) (d : path) (pattern : word) (ondisk source strings : bool) : option (list res * nodes) :=
  let st := disambiguate st d in
  match cls_of st d with Some CDir => glob1_dir st d pattern ondisk source strings | _ => Some ([], st) end.
Definition str (r : res) : word := match r with RNode p => show p | RStr w => w end.
(* 2272-2277 *)
Fixpoint glob_dirs (st : nodes) (dirs : list res) (pattern : word) (ondisk source strings : bool) : option (list res * nodes) :=
  match dirs with
  | [] => Some ([], st)
  | RStr _ :: r => None
  | RNode d :: r =>
    match glob1 st d pattern ondisk source strings with
    | None => None
    | Some (x, st) =>
      match glob_dirs st r pattern ondisk source strings with
      | None => None
      | Some (y, st) => Some ((if strings then map (fun e => RStr (join_path (show d) (str e))) x else x) ++ y, st)
      end
    end
  end.
(* 2265-2285; ex: the elements excluded, None: no exclude argument *)
Fixpoint glob_gen (ex : option (nodes -> bool -> option (list res * nodes))) (fuel : nat) (st : nodes) (self : path) (pathname : word) (ondisk source strings : bool) : option (list res * nodes) :=
  match fuel with
  | 0 => None
  | S f =>
    let '(dirname, basename) := split_path pathname in
    match (match dirname with
           | [] => glob1 st self basename ondisk source strings
           | _ => match (if has_magic dirname then glob_gen ex f st self dirname ondisk source false
                         else match make st (rev (lookup_path top self dirname)) CDir with Some st => Some ([RNode (lookup_path top self dirname)], st) | None => None end) with
                  | None => None
                  | Some (dirs, st) => glob_dirs st dirs basename ondisk source strings
                  end
           end) with
    | None => None
    | Some (result, st) =>
      match ex with
      | None => Some (sort_by str result, st)
      | Some e => match e st strings with
                  | None => None
                  | Some (excludes, st) => Some (sort_by str (filter (fun x => negb (existsb (fun y => fnmatch (str x) (str y)) excludes)) result), st)
                  end
      end
    end
  end.
Definition glob_plain (st : nodes) (self : path) (pathname : word) (ondisk source strings : bool) := glob_gen None (S (length pathname)) st self pathname ondisk source strings.
(* 2279-2283 *)
Fixpoint all_excluded (self : path) (ondisk source : bool) (l : list word) (st : nodes) (strings : bool) : option (list res * nodes) :=
  match l with
  | [] => Some ([], st)
  | x :: r => match glob_plain st self x ondisk source strings with
              | None => None
              | Some (a, st) => match all_excluded self ondisk source r st strings with Some (b, st) => Some (a ++ b, st) | None => None end
              end
  end.
Definition glob (st : nodes) (self : path) (pathname : word) (ondisk source strings : bool) (exclude : list word) : option (list res * nodes) :=
  glob_gen (match exclude with [] => None | _ => Some (all_excluded self ondisk source exclude) end) (S (length pathname)) st self pathname ondisk source strings.
End Glob.
