(* Model of how expanded command words reach a program: Platform/posix.py escape (43-54), subprocess_spawn (60-61),
   Subst.py quote_spaces (133-138), CmdStringHolder.escape (157-176), escape_list (178-189), Action.py 1093-1096, and of response files:
   Platform/__init__.py TempFileMunge.__call__ (206-340).
   Characters are numbers (code points).  Not modelled: encodings, the messages printed, Windows' escape and spawn. *)
From Coq Require Import List Arith Bool Lia.
Import ListNotations.

Definition str := list nat.
Definition BSL := 92. Definition DQ := 34. Definition DOLLAR := 36. Definition TICK := 96.
Definition SP := 32. Definition TAB := 9. Definition NL := 10.

(* str.replace(c, slash+c) *)
Definition replace_char (c : nat) (s : str) : str := flat_map (fun x => if x =? c then [BSL; x] else [x]) s.
(* posix.py 42-53 *)
Definition posix_escape (arg : str) : str := [DQ] ++ replace_char DOLLAR (replace_char DQ (replace_char BSL arg)) ++ [DQ].

Definition has_blank (s : str) : bool := existsb (Nat.eqb SP) s || existsb (Nat.eqb TAB) s.
(* Subst.py 133-138 *)
Definition quote_spaces (s : str) : str := if has_blank s then [DQ] ++ s ++ [DQ] else s.

(* a word of an expanded command: CmdStringHolder(data, literal); file names are literal (Node.is_literal) *)
Record word := { data : str; literal : bool }.
(* Subst.py 157-176 *)
Definition escape_word (escape_func : str -> str) (w : word) : str := if literal w then escape_func (data w) else if has_blank (data w) then quote_spaces (data w) else data w.
(* ' '.join *)
Fixpoint join (sep : str) (l : list str) : str := match l with [] => [] | [x] => x | x :: r => x ++ sep ++ join sep r end.
(* Action.py 1093-1096 and posix.py 60-61: the argument of sh -c *)
Definition shell_line (ws : list word) : str := join [SP] (map (escape_word posix_escape) ws).

(* ---- TempFileMunge.__call__ (not for_signature) ---- *)
Inductive munged := Direct | ViaFile (command : str) (file_arg : str).
(* files written so far: name and content; tempfile.mkstemp takes a new name each time (here the number of files) *)
Record tstate := { t_files : list (nat * str); t_cache : list ((nat * nat) * munged) }.   (* cache: (node, self.cmd) *)
Definition words_length (ws : list str) : nat := list_sum (map (@length nat) ws).
(* lines 225-230: sum of the lengths plus one blank between two words *)
Definition line_length (ws : list str) : nat := words_length ws + (length ws - 1).
Definition keyb (a b : nat * nat) : bool := (fst a =? fst b) && (snd a =? snd b).
Fixpoint assoc (k : nat * nat) (l : list ((nat * nat) * munged)) : option munged :=
  match l with [] => None | (k', v) :: r => if keyb k k' then Some v else assoc k r end.
Section Munge.
Variable esc : str -> str.           (* TEMPFILEARGESCFUNC, quote_spaces by default *)
Variable sep : str.                  (* TEMPFILEARGJOIN, a blank by default *)
Variable prefix : str.               (* TEMPFILEPREFIX *)
Variable maxline : nat.
Variable tmp_name : nat -> str.
Definition rsp_content (args : list str) : str := join sep (map esc args) ++ [NL].
Definition munge (node key : nat) (cmd : list str) (s : tstate) : munged * tstate :=
  if line_length cmd <=? maxline then (Direct, s)
  else match assoc (node, key) (t_cache s) with
  | Some m => (m, s)
  | None =>
    match cmd with
    | [] => (Direct, s)            (* cmd[0] raises IndexError; cannot happen as the line is too long *)
    | c0 :: args =>
      let f := length (t_files s) in
      let m := ViaFile c0 (prefix ++ tmp_name f) in
      (m, {| t_files := t_files s ++ [(f, rsp_content args)]; t_cache := ((node, key), m) :: t_cache s |})
    end
  end.
End Munge.
