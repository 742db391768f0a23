(* Long command lines in temporary files: TempFileMunge.__call__, SCons/Platform/__init__.py 206-348, and quote_spaces,
   SCons/Subst.py 133-138.
   Simplifications: 8-bit characters; the command is given with what it expands to (env.subst_list, the subject of C13); the name the
   file system finds for a temporary file is a parameter, and so is the encoding; TEMPFILEDIR exists; SHELL is not "sh" or the name of the
   temporary file has no backslash; the message is what matters of printing, not how it is printed. *)
From Coq Require Import Ascii String List Bool Arith ZArith.
From Verif Require Import SubstModel.
Import ListNotations.
Open Scope list_scope.

Definition blank : ascii := " "%char.
Definition tab : ascii := ascii_of_nat 9.
Definition lf : ascii := ascii_of_nat 10.
Definition dquote : ascii := ascii_of_nat 34.

(* Subst.py 133-138 *)
Definition quote_spaces (arg : str) : str :=
  if existsb (fun c => Ascii.eqb c blank || Ascii.eqb c tab) arg then dquote :: arg ++ [dquote] else arg.
(* str.join *)
Fixpoint join (sep : str) (l : list str) : str :=
  match l with
  | [] => []
  | [x] => x
  | x :: r => x ++ sep ++ join sep r
  end.

Record settings := Settings {
  maxlinelength : option Z;             (* int(env.subst('$MAXLINELENGTH')), if it is a number *)
  arg_esc : str -> str;                 (* TEMPFILEARGESCFUNC *)
  arg_join : str;                       (* TEMPFILEARGJOIN *)
  encode : str -> option str;           (* TEMPFILEENCODING *)
  prefix : str                          (* TEMPFILEPREFIX *)
}.
(* the defaults, 226-227, 257-261, 338-341, for texts that can be encoded *)
Definition defaults : settings :=
  {| maxlinelength := None; arg_esc := quote_spaces; arg_join := [blank]; encode := fun s => Some s; prefix := ["@"%char] |}.

(* a disk: names and contents, the first entry of a name counts *)
Definition disk := list (str * str).
Fixpoint get (d : disk) (f : str) : option str :=
  match d with
  | [] => None
  | (g, t) :: r => if str_eqb f g then Some t else get r f
  end.
Definition node := nat.
(* what the run remembers: the disk, node.attributes.tempfile_cmdlist, the files to be removed at exit, and the messages *)
Record state := State {
  files : disk;
  cmdlist : list ((node * str) * list str);
  cleanup : list str;
  messages : list str
}.
Inductive result := Unchanged | Words (l : list str) | EncodingError.

Definition key_eqb (a b : node * str) : bool := Nat.eqb (fst a) (fst b) && str_eqb (snd a) (snd b).
Fixpoint lookup (k : node * str) (l : list ((node * str) * list str)) : option (list str) :=
  match l with
  | [] => None
  | (k', v) :: r => if key_eqb k k' then Some v else lookup k r
  end.
(* 229-232 *)
Definition line_length (cmd : list str) : Z := (fold_left (fun n c => n + Z.of_nat (List.length c)) cmd 0 + Z.of_nat (List.length cmd) - 1)%Z.
(* 260 *)
Definition contents (s : settings) (cmd : list str) : str := join (arg_join s) (map (arg_esc s) (tl cmd)) ++ [lf].
Definition write (f : str) (t : str) (d : disk) : disk := (f, t) :: d.
Definition remove (f : str) (d : disk) : disk := filter (fun x => negb (str_eqb (fst x) f)) d.

Section Munge.
Variable mkstemp : disk -> str.        (* tempfile.mkstemp: a name that is not on the disk *)

(* one call: [target] is the first target, [cmd] the text of the command, [lines] its expansion, [show]: actions are printed, and there is
   no message of the user's *)
Definition munge (st : state) (s : settings) (target : option node) (cmd : str) (lines : list (list str)) (for_signature show : bool)
  : state * result :=
  if for_signature then (st, Unchanged)                                                            (* 211-218 *)
  else
    let words := hd [] lines in                                                                    (* 223 *)
    let maxline := match maxlinelength s with Some m => m | None => 2048%Z end in                  (* 224-227 *)
    if (line_length words <=? maxline)%Z then (st, Unchanged)                                      (* 233-234 *)
    else
      match match target with Some n => lookup (n, cmd) (cmdlist st) | None => None end with       (* 250-253 *)
      | Some l => (st, Words l)
      | None =>
          match encode s (contents s words) with
          | None => (st, EncodingError)                                                            (* 264-272 *)
          | Some t =>
              let f := mkstemp (files st) in                                                       (* 288-292 *)
              let l := [hd [] words; prefix s ++ f] in                                             (* 342 *)
              (State (write f t (files st))
                     (match target with Some n => ((n, cmd), l) :: cmdlist st | None => cmdlist st end)   (* 346-351 *)
                     (f :: cleanup st)                                                             (* 301 *)
                     (if show then f :: messages st else messages st),                             (* 318-331 *)
               Words l)
          end
      end.
Record call := Call { c_set : settings; c_target : option node; c_cmd : str; c_lines : list (list str); c_sig : bool; c_show : bool }.
Definition step (st : state) (c : call) : state * result := munge st (c_set c) (c_target c) (c_cmd c) (c_lines c) (c_sig c) (c_show c).
Fixpoint run (st : state) (h : list call) : state * list result :=
  match h with
  | [] => (st, [])
  | c :: r => let (st1, x) := step st c in let (st2, l) := run st1 r in (st2, x :: l)
  end.
(* atexit, 297-301 *)
Definition at_exit (st : state) : disk := fold_left (fun d f => remove f d) (cleanup st) (files st).
End Munge.
