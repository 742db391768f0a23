(* Fortran sources: F90Scanner.scan and the regular expressions of FortranScan, SCons/Scanner/Fortran.py 66-115 and 195-313;
   _fortranEmitter, SCons/Tool/FortranCommon.py 58-82.
   Simplifications: 8-bit characters (white space and letters are those of ASCII); how files are found (find_file, the subject of C68) is
   a parameter; the suffix of module files is given, and not empty or not does not matter; sorted(nodes) compares names, all different. *)
From Coq Require Import Ascii String List Bool Arith.
From Verif Require Import SubstModel.
From Verif Require CscModel.
Import ListNotations.
Open Scope list_scope.

Definition newline : ascii := ascii_of_nat 10.
Definition semicolon : ascii := ";"%char.
Definition lit (s : string) : str := list_ascii_of_string s.
(* str.lower() *)
Definition lower1 (c : ascii) : ascii := let n := nat_of_ascii c in if (65 <=? n) && (n <=? 90) then ascii_of_nat (n + 32) else c.
Definition lower (s : str) : str := map lower1 s.
(* \w *)
Definition word_char (c : ascii) : bool := is_alpha_ c || is_digit c.
(* \s* *)
Fixpoint skip (t : str) : str := match t with c :: r => if is_space c then skip r else t | [] => [] end.
(* a word (written in lower case) in any case: what follows *)
Fixpoint ci (w t : str) : option str :=
  match w, t with
  | [], _ => Some t
  | x :: w, c :: r => if Ascii.eqb x (lower1 c) then ci w r else None
  | _ :: _, [] => None
  end.
(* (\w+) *)
Definition word (t : str) : option (str * str) := match span word_char t with ([], _) => None | (w, r) => Some (w, r) end.
Definition after_char (x : ascii) (t : str) : option str := match t with c :: r => if Ascii.eqb c x then Some r else None | [] => None end.

(* lines 195: \s*USE(?:\s+|(?:(?:\s*,\s*(?:NON_)?INTRINSIC)?\s*::))\s*(\w+) *)
Definition spaced_word (t : str) : option (str * str) := match t with c :: _ => if is_space c then word (skip t) else None | [] => None end.
Definition intrinsic (t : str) : str :=
  match after_char ","%char (skip t) with
  | Some q => let q := skip q in
              match ci (lit "intrinsic") (match ci (lit "non_") q with Some z => z | None => q end) with Some z => z | None => t end
  | None => t
  end.
Definition colons (t : str) : option (str * str) :=
  match after_char ":"%char (skip (intrinsic t)) with
  | Some r => match after_char ":"%char r with Some r => word (skip r) | None => None end
  | None => None
  end.
Definition use (t : str) : option (str * str) :=
  match ci (lit "use") (skip t) with
  | Some r => match spaced_word r with Some x => Some x | None => colons r end
  | None => None
  end.
(* 302: \s*MODULE\s+(?!PROCEDURE|SUBROUTINE|FUNCTION|PURE|ELEMENTAL)(\w+) *)
Definition reserved : list str := [lit "procedure"; lit "subroutine"; lit "function"; lit "pure"; lit "elemental"].
Definition module (t : str) : option (str * str) :=
  match ci (lit "module") (skip t) with
  | Some ((c :: _) as r) => if is_space c then
                              let r := skip r in
                              if existsb (fun w => match ci w r with Some _ => true | None => false end) reserved then None else word r
                            else None
  | _ => None
  end.
(* 269: \s*INCLUDE\s+(?:\w+_)?[<"'](.+?)(?=["'>]); what follows begins with the quote *)
Definition open_quote (c : ascii) : bool := Ascii.eqb c "<"%char || Ascii.eqb c (ascii_of_nat 34) || Ascii.eqb c (ascii_of_nat 39).
Definition close_quote (c : ascii) : bool := Ascii.eqb c ">"%char || Ascii.eqb c (ascii_of_nat 34) || Ascii.eqb c (ascii_of_nat 39).
Fixpoint up_to_quote (t : str) : option (str * str) :=
  match t with
  | c :: r => if close_quote c then Some ([], t) else if Ascii.eqb c newline then None
              else match up_to_quote r with Some (a, b) => Some (c :: a, b) | None => None end
  | [] => None
  end.
Definition kind (t : str) : str := match span word_char t with (w, r) => match rev w with c :: _ :: _ => if Ascii.eqb c "_"%char then r else t | _ => t end end.
Definition include (t : str) : option (str * str) :=
  match ci (lit "include") (skip t) with
  | Some ((c :: _) as r) => if is_space c then
                              match kind (skip r) with
                              | d :: x :: r => if open_quote d && negb (Ascii.eqb x newline)
                                               then match up_to_quote r with Some (a, b) => Some (x :: a, b) | None => None end
                                               else None
                              | _ => None
                              end
                            else None
  | _ => None
  end.
(* where a match may begin, re.M: ^ is true at the beginning and after newlines *)
Definition at_line (m : str -> option (str * str)) (bol : bool) (t : str) : option (str * str) := if bol then m t else None.
Definition at_statement (m : str -> option (str * str)) (bol : bool) (t : str) : option (str * str) :=
  match at_line m bol t with
  | Some x => Some x
  | None => match after_char semicolon t with Some r => m r | None => None end
  end.
Definition at_include (bol : bool) (t : str) : option (str * str) :=
  match at_line include bol t with
  | Some x => Some x
  | None => match t with c :: r => if close_quote c then match after_char semicolon (skip r) with Some r => include r | None => None end else None | [] => None end
  end.
(* re.findall: from the left, after each match from its end; fuel: the length of the text *)
Fixpoint findall (at_ : bool -> str -> option (str * str)) (fuel : nat) (bol : bool) (t : str) : list str :=
  match fuel with
  | O => []
  | S fuel => match at_ bol t with
              | Some (m, q) => m :: findall at_ fuel false q
              | None => match t with [] => [] | c :: r => findall at_ fuel (Ascii.eqb c newline) r end
              end
  end.
Definition uses (t : str) : list str := findall (at_statement use) (List.length t) true t.
Definition includes (t : str) : list str := findall at_include (List.length t) true t.
Definition modules (t : str) : list str := findall (at_line module) (List.length t) true t.

Definition mem (s : str) (l : list str) : bool := existsb (str_eqb s) l.
(* Util.unique: dict.fromkeys *)
Definition unique (l : list str) : list str := fold_left (fun r x => if mem x r then r else r ++ [x]) l [].
(* Fortran.py 72-93: the names of the files a source depends on *)
Definition names (suffix : str) (t : str) : list str :=
  let d := map lower (modules t) in
  let ms := filter (fun m => negb (mem (lower m) d)) (uses t) in
  unique (includes t ++ map (fun x => lower x ++ suffix) ms).
(* 95-115; [find] looks in the directory of the source and then in the path *)
Definition scan {node} (find : str -> option node) (suffix : str) (t : str) : list node :=
  map snd (CscModel.sort node (flat_map (fun dep => match find dep with Some n => [(dep, n)] | None => [] end) (names suffix t))).
(* FortranCommon.py 70-81: the names of the module files in FORTRANMODDIR that become targets *)
Definition emitted (suffix : str) (t : str) : list str := map (fun m => lower m ++ suffix) (unique (modules t)).
