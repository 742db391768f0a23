(* Model of conditional include scanning: SCons/cpp.py, class PreProcessor (_process_tuples 317-331, save/restore 361-376,
   start_handling_includes 448-463, stop_handling_includes 465-479, _do_if_else_condition 485-499, do_ifdef .. do_include 501-602,
   find_include_file 428-440, resolve_include 624-656) and DumbPreProcessor (664-681).  No proofs.

   A file is the list of its directive tuples (tupleize, 332-359); the regular expressions that make the tuples are not modelled
   except for one finding in CppProps.  Macro names, include names, files, and the texts of conditions and macro bodies are numbers; what a
   condition or a macro body evaluates to in a namespace is a parameter (eval_expression 408-420, eval_constant_expression 389-406).
   current_file (only used in messages) is not kept; function-like macros in #include lines, #import (do_import does nothing) and
   the `all' option are not modelled.  #include_next is #include (604-620). *)
From Coq Require Import List Arith Bool.
Import ListNotations.

Definition name := nat. Definition file := nat. Definition expr := nat. Definition body := nat.
(* the value of a macro, as far as resolve_include looks at it: a quoted or bracketed file name, a name, another text, or something that
   is not a string (a number, None), on which `replace' raises *)
Inductive value := VFile (bracket : bool) (f : nat) | VName (x : name) | VText | VNotString.
Definition ns := list (name * value).
Fixpoint lookup (x : name) (n : ns) : option value :=
  match n with [] => None | (y, v) :: r => if x =? y then Some v else lookup x r end.
Fixpoint remove (x : name) (n : ns) : ns :=
  match n with [] => [] | (y, v) :: r => if x =? y then remove x r else (y, v) :: remove x r end.
Inductive arg := AFile (bracket : bool) (f : nat) | AName (x : name).
Inductive tuple :=
| TIf (e : expr) | TIfdef (x : name) | TIfndef (x : name) | TElif (e : expr) | TElse | TEndif
| TDefine (x : name) (b : body) | TUndef (x : name) | TInclude (a : arg) | TCurrent.      (* scons_current_file *)

(* resolve_include, 624-656: fuel for the while loop *)
Inductive resolved := RFile (bracket : bool) (f : nat) | RNone | RRaise | RHang.
Fixpoint resolve (fuel : nat) (a : arg) (n : ns) : resolved :=
  match a with
  | AFile b f => RFile b f
  | AName x =>
      match fuel with
      | 0 => RHang
      | S fuel => match lookup x n with
                  | None => RNone                                   (* 640-652 *)
                  | Some (VFile b f) => RFile b f
                  | Some (VName y) => resolve fuel (AName y) n
                  | Some VText => RNone
                  | Some VNotString => RRaise                       (* 639: AttributeError *)
                  end
      end
  end.
(* names that are not seen again cannot be more than the namespace has: with more steps than that the loop does not end *)
Definition resolve_include (a : arg) (n : ns) : resolved := resolve (S (length n)) a n.

(* the dispatch table: which handler the directives have.  if, ifdef, ifndef and endif never change *)
Inductive h_elif := HElif | HElifStop.                   (* do_elif, stop_handling_includes *)
Inductive h_else := HPass | HStart | HElseStop.          (* do_else, start_handling_includes, stop_handling_includes *)
Record table := mkT { t_inc : bool;                      (* import, include, include_next: do_.. or do_nothing *)
                      t_def : bool;                      (* define, undef *)
                      t_elif : h_elif; t_else : h_else }.
Definition default_table : table := mkT true true HElif HPass.       (* 282-289 *)
Record st := mkS { s_ns : ns; s_result : list file }.
Record mst := mkM { m_table : table; m_stack : list table; m_st : st; m_tuples : list tuple }.

Section Cpp.
Variable evalc : expr -> ns -> option bool.              (* eval_expression as a truth value; None: an exception that is not caught *)
Variable expand : body -> ns -> option value.            (* what do_define 541-560 binds the name to; None: exception *)
Variable find : bool -> nat -> option file.              (* find_include_file *)
Variable contents : file -> list tuple.                  (* tupleize(read_file(file)) *)
Variable depth : option nat.                             (* self.depth, None is -1 *)

(* 448-463 *)
Definition start_handling (stack : list table) (d : table) : table :=
  let p := match stack with [] => default_table | p :: _ => p end in mkT (t_inc p) (t_def p) (t_elif d) (t_else d).
(* 465-479 *)
Definition stop_handling (d : table) : table := mkT false false (t_elif d) (t_else d).
(* 485-499, with save 361-367 *)
Definition if_else_condition (c : bool) (m : mst) : mst :=
  let stack := m_table m :: m_stack m in
  let d := default_table in
  let d := if c then let d := start_handling stack d in mkT (t_inc d) (t_def d) HElifStop HElseStop
           else let d := stop_handling d in mkT (t_inc d) (t_def d) HElif HStart in
  mkM d stack (m_st m) (m_tuples m).
Definition set_table (m : mst) (d : table) : mst := mkM d (m_stack m) (m_st m) (m_tuples m).
Definition set_st (m : mst) (s : st) : mst := mkM (m_table m) (m_stack m) s (m_tuples m).
Inductive outcome := Next (m : mst) | Raised | Hung.
Definition count_current (l : list tuple) : nat :=
  length (filter (fun t => match t with TCurrent => true | _ => false end) l).
(* do_include, 576-602 *)
Definition do_include (a : arg) (m : mst) : outcome :=
  match resolve_include a (s_ns (m_st m)) with
  | RRaise => Raised
  | RHang => Hung
  | RNone => Next m
  | RFile b f =>
      match find b f with
      | None => Next m
      | Some g =>
          if existsb (Nat.eqb g) (s_result (m_st m)) then Next m
          else let m := set_st m (mkS (s_ns (m_st m)) (s_result (m_st m) ++ [g])) in
               let stop := match depth with None => false | Some n => n <=? count_current (m_tuples m) end in   (* 589-595 *)
               if stop then Next m
               else Next (mkM (m_table m) (m_stack m) (m_st m) (TCurrent :: contents g ++ TCurrent :: m_tuples m))
      end
  end.
(* dispatch_table[t[0]](t), for the tuple t taken off m's list *)
Definition step (t : tuple) (m : mst) : outcome :=
  match t with
  | TIf e => match evalc e (s_ns (m_st m)) with None => Raised | Some c => Next (if_else_condition c m) end
  | TIfdef x => Next (if_else_condition (match lookup x (s_ns (m_st m)) with Some _ => true | None => false end) m)
  | TIfndef x => Next (if_else_condition (match lookup x (s_ns (m_st m)) with Some _ => false | None => true end) m)
  | TElif e =>
      match t_elif (m_table m) with
      | HElifStop => Next (set_table m (stop_handling (m_table m)))
      | HElif => match evalc e (s_ns (m_st m)) with                                        (* do_elif, 519-527 *)
                 | None => Raised
                 | Some true => let d := start_handling (m_stack m) (m_table m) in
                                Next (set_table m (mkT (t_inc d) (t_def d) HElifStop HElseStop))
                 | Some false => Next m
                 end
      end
  | TElse =>
      match t_else (m_table m) with
      | HPass => Next m
      | HStart => Next (set_table m (start_handling (m_stack m) (m_table m)))
      | HElseStop => Next (set_table m (stop_handling (m_table m)))
      end
  | TEndif => match m_stack m with                                                         (* restore, 369-376 *)
              | [] => Next m
              | d :: r => Next (mkM d r (m_st m) (m_tuples m))
              end
  | TDefine x b => if t_def (m_table m) then
                     match expand b (s_ns (m_st m)) with
                     | None => Raised
                     | Some v => Next (set_st m (mkS ((x, v) :: s_ns (m_st m)) (s_result (m_st m))))
                     end
                   else Next m
  | TUndef x => Next (if t_def (m_table m) then set_st m (mkS (remove x (s_ns (m_st m))) (s_result (m_st m))) else m)
  | TInclude a => if t_inc (m_table m) then do_include a m else Next m
  | TCurrent => Next m
  end.
(* the loop of _process_tuples, 324-330; None: out of fuel *)
Inductive final := Done (m : mst) | FRaised | FHung.
Fixpoint run (fuel : nat) (m : mst) : option final :=
  match m_tuples m with
  | [] => Some (Done m)
  | t :: r => match fuel with
              | 0 => None
              | S fuel => match step t (mkM (m_table m) (m_stack m) (m_st m) r) with
                          | Next m' => run fuel m' | Raised => Some FRaised | Hung => Some FHung
                          end
              end
  end.
(* PreProcessor.__call__ / process_file / _process_tuples, 292-331: result[1:] is what is returned *)
Definition process_file (fuel : nat) (defs : ns) (f : file) : option final :=
  run fuel (mkM default_table [] (mkS defs [f]) (contents f)).
Definition includes_of (r : option final) : option (list file) :=
  match r with Some (Done m) => Some (tl (s_result (m_st m))) | _ => None end.

(* DumbPreProcessor, 664-681: the conditionals do nothing *)
Definition dumb_step (t : tuple) (m : mst) : outcome :=
  match t with TIf _ | TIfdef _ | TIfndef _ | TElif _ | TElse | TEndif => Next m | _ => step t m end.
Fixpoint dumb_run (fuel : nat) (m : mst) : option final :=
  match m_tuples m with
  | [] => Some (Done m)
  | t :: r => match fuel with
              | 0 => None
              | S fuel => match dumb_step t (mkM (m_table m) (m_stack m) (m_st m) r) with
                          | Next m' => dumb_run fuel m' | Raised => Some FRaised | Hung => Some FHung
                          end
              end
  end.
End Cpp.

(* ---- how a directive line is taken apart ---- *)
From Coq Require Import String Ascii.
Local Open Scope string_scope.
(* the keywords in the order of Table.keys(), i.e. of cpp_lines_dict 39-66, as they are joined with `|' in CPP_Expression 82-99 *)
Definition keywords : list string :=
  ["if"; "elif"; "ifdef"; "ifndef"; "import"; "include"; "include_next"; "else"; "endif"; "define"; "undef"].
Fixpoint strip_prefix (p s : string) : option string :=
  match p, s with
  | EmptyString, _ => Some s
  | String a p, String b s => if Ascii.eqb a b then strip_prefix p s else None
  | String _ _, EmptyString => None
  end.
(* one alternative: the keyword, with if(?!n?def) for if *)
Definition try_keyword (k s : string) : option string :=
  match strip_prefix k s with
  | Some r => if String.eqb k "if" && (match strip_prefix "def" r with Some _ => true | None => false end
                                       || match strip_prefix "ndef" r with Some _ => true | None => false end) then None else Some r
  | None => None
  end.
(* re alternation: the first alternative that matches; the rest of the line is the second group *)
Fixpoint first_keyword (ks : list string) (s : string) : option (string * string) :=
  match ks with
  | [] => None
  | k :: r => match try_keyword k s with Some t => Some (k, t) | None => first_keyword r s end
  end.
(* the directive after `#' and blanks *)
Definition directive (s : string) : option (string * string) := first_keyword keywords s.

(* CPP_Expression_Cleaner_RE, 101-112: blanks and then a block comment up to the last close of the line, an unclosed block comment, a line
   comment or a carriage return are replaced by nothing, on a text without newlines *)
Definition is_space (c : ascii) : bool := Ascii.eqb c " " || Ascii.eqb c "009" || Ascii.eqb c "011" || Ascii.eqb c "012" || Ascii.eqb c "013".
(* what follows the last comment close of the text *)
Fixpoint after_last_close (s : string) : option string :=
  match s with
  | EmptyString => None
  | String a r => match after_last_close r with
                  | Some t => Some t
                  | None => match s with String "*" (String "/" t) => Some t | _ => None end
                  end
  end.
Fixpoint skip_spaces (s : string) : string :=
  match s with String c r => if is_space c then skip_spaces r else s | EmptyString => s end.
(* what follows the last \r of the leading blanks *)
Fixpoint after_cr (s : string) : option string :=
  match s with
  | String c r => if is_space c then match after_cr r with
                                     | Some t => Some t
                                     | None => if Ascii.eqb c "013" then Some r else None
                                     end else None
  | EmptyString => None
  end.
(* what follows a match at the start of s *)
Definition clean_match (s : string) : option string :=
  match skip_spaces s with
  | String "/" (String "*" r) => match after_last_close r with Some t => Some t | None => Some "" end
  | String "/" (String "/" r) => Some ""
  | _ => after_cr s
  end.
(* fuel: the length of the text *)
Fixpoint clean (fuel : nat) (s : string) : string :=
  match fuel with
  | 0 => s
  | S fuel => match clean_match s with
              | Some t => clean fuel t
              | None => match s with EmptyString => EmptyString | String c r => String c (clean fuel r) end
              end
  end.
Definition cleanup (s : string) : string := clean (S (String.length s)) s.
