(* Model of how SConscript files are read: SCons/Script/SConscript.py (compute_exports 88-107, Frame 109-124, Return 131-148, handle_missing_SConscript 153-178, _SConscript 180-346,
   Export 523-526, Import 559-575, SConscriptChdir 624-627) and SCons/Node/FS.py (chdir 1301-1314).  No proofs.

   A script is a list of statements: assignments, prints, conditionals, try, functions called where they are defined (with local variables), and the calls modelled.
   Simplified: no variant_dir, src_dir and repositories (the directory of a script exists and is read from there), the SConstruct is in the top directory, values are opaque
   (a change inside an object is not visible here), functions defined in one script and called from another are not modelled, and a variable of a function is looked up in its
   locals and then in the script's globals. *)
From Coq Require Import List Bool Arith.
Import ListNotations.

Definition name := nat.
Definition dir := list nat.                                  (* path from the top directory *)
Inductive val := VNone | VAtom (n : nat) | VTuple (l : list val).
Definition ns := name -> option val.                         (* a namespace: a dictionary of Python variables *)
Definition nempty : ns := fun _ => None.
Definition nset (g : ns) (x : name) (v : val) : ns := fun y => if y =? x then Some v else g y.
Definition nupdate (g h : ns) : ns := fun y => match h y with Some v => Some v | None => g y end.   (* g.update(h) *)

Inductive expr := EVal (v : val) | EVar (x : name).
Inductive fname := FRel (d : dir) (n : nat) | FTop (d : dir) (n : nat) | FStdin.       (* 'd/n', '#d/n', '-' *)
Inductive xarg := XName (x : name) | XDict (l : list (name * expr)).
Inductive iarg := IName (x : name) | IStar.
Inductive stmt :=
| SSet (x : name) (e : expr)
| SPrint (e : expr)
| SLook                                                      (* shows the directories and the depth *)
| SIf (e : expr) (a b : list stmt)
| SFunc (body : list stmt)
| STry (body handler : list stmt)                            (* try: body except Exception: handler *)
| SRaise (n : nat)
| SExport (args : list (list xarg)) (kw : list (name * expr))
| SImport (args : list iarg)
| SReturn (xs : list name) (stop : bool)
| SCall (x : name) (files : list fname) (exports : list xarg) (must_exist : bool)      (* x = SConscript(files, exports=exports, must_exist=must_exist) *)
| SChdir (b : bool).                                         (* SConscriptChdir(b) *)

Inductive exc := UserErr | RetExc | NameErr | OtherErr (n : nat).        (* RetExc: SConscriptReturn *)
Inductive outcome := ONorm | OExc (e : exc).
Inductive event := EvPrint (v : val) | EvLook (fs os : dir) (path : list dir) (depth : nat).

(* 109-124; fid of a frame is its place in the heap *)
Record frame := { fglobals : ns; fret : val; fprev : dir; fexports : ns }.
Record st := { heap : list frame; stack : list nat; gex : ns; fcwd : dir; ocwd : dir; chf : bool; spath : list dir; reading : nat; stdin : list stmt; out : list event }.
Definition set_heap (s : st) h := {| heap := h; stack := stack s; gex := gex s; fcwd := fcwd s; ocwd := ocwd s; chf := chf s; spath := spath s; reading := reading s; stdin := stdin s; out := out s |}.
Definition set_stack (s : st) k := {| heap := heap s; stack := k; gex := gex s; fcwd := fcwd s; ocwd := ocwd s; chf := chf s; spath := spath s; reading := reading s; stdin := stdin s; out := out s |}.
Definition set_gex (s : st) g := {| heap := heap s; stack := stack s; gex := g; fcwd := fcwd s; ocwd := ocwd s; chf := chf s; spath := spath s; reading := reading s; stdin := stdin s; out := out s |}.
Definition set_chf (s : st) b := {| heap := heap s; stack := stack s; gex := gex s; fcwd := fcwd s; ocwd := ocwd s; chf := b; spath := spath s; reading := reading s; stdin := stdin s; out := out s |}.
Definition set_spath (s : st) p := {| heap := heap s; stack := stack s; gex := gex s; fcwd := fcwd s; ocwd := ocwd s; chf := chf s; spath := p; reading := reading s; stdin := stdin s; out := out s |}.
Definition set_reading (s : st) n := {| heap := heap s; stack := stack s; gex := gex s; fcwd := fcwd s; ocwd := ocwd s; chf := chf s; spath := spath s; reading := n; stdin := stdin s; out := out s |}.
Definition set_stdin (s : st) b := {| heap := heap s; stack := stack s; gex := gex s; fcwd := fcwd s; ocwd := ocwd s; chf := chf s; spath := spath s; reading := reading s; stdin := b; out := out s |}.
Definition emit (s : st) ev := {| heap := heap s; stack := stack s; gex := gex s; fcwd := fcwd s; ocwd := ocwd s; chf := chf s; spath := spath s; reading := reading s; stdin := stdin s; out := out s ++ [ev] |}.
(* FS.py 1301-1314 chdir *)
Definition fs_chdir (d : dir) (change_os_dir : bool) (s : st) :=
  {| heap := heap s; stack := stack s; gex := gex s; fcwd := d; ocwd := if change_os_dir then d else ocwd s; chf := chf s; spath := spath s; reading := reading s; stdin := stdin s; out := out s |}.

Fixpoint upd_nth {A} (l : list A) (i : nat) (f : A -> A) : list A := match l, i with [], _ => [] | x :: r, 0 => f x :: r | x :: r, S i => x :: upd_nth r i f end.
Definition no_frame : frame := {| fglobals := nempty; fret := VNone; fprev := []; fexports := nempty |}.
Definition frame_of (s : st) (i : nat) : frame := nth i (heap s) no_frame.
Definition set_globals (s : st) (i : nat) (g : ns) : st :=
  set_heap s (upd_nth (heap s) i (fun f => {| fglobals := g; fret := fret f; fprev := fprev f; fexports := fexports f |})).
Definition set_ret (s : st) (i : nat) (v : val) : st :=
  set_heap s (upd_nth (heap s) i (fun f => {| fglobals := fglobals f; fret := v; fprev := fprev f; fexports := fexports f |})).
Definition top_of (s : st) : nat := hd 0 (stack s).          (* call_stack[-1] *)

Definition lookup (loc : option ns) (glob : ns) (x : name) : option val :=
  match loc with Some l => match l x with Some v => Some v | None => glob x end | None => glob x end.
Definition eval (loc : option ns) (glob : ns) (e : expr) : option val := match e with EVal v => Some v | EVar x => lookup loc glob x end.
Fixpoint eval_dict (loc : option ns) (glob : ns) (l : list (name * expr)) (acc : ns) : option ns :=
  match l with [] => Some acc | (x, e) :: r => match eval loc glob e with Some v => eval_dict loc glob r (nset acc x v) | None => None end end.
(* 88-107; a dictionary argument has been evaluated before (NameErr), a name is looked up here (UserErr) *)
Fixpoint compute_exports (loc : option ns) (glob : ns) (args : list xarg) (acc : ns) : ns + exc :=
  match args with
  | [] => inl acc
  | XName x :: r => match lookup loc glob x with Some v => compute_exports loc glob r (nset acc x v) | None => inr UserErr end
  | XDict d :: r => match eval_dict loc glob d acc with Some acc => compute_exports loc glob r acc | None => inr NameErr end
  end.
(* evaluation of dictionary displays comes before the call *)
Definition dicts_ok (loc : option ns) (glob : ns) (args : list xarg) : bool :=
  forallb (fun a => match a with XName _ => true | XDict d => match eval_dict loc glob d nempty with Some _ => true | None => false end end) args.
(* 523-526 *)
Fixpoint do_export (loc : option ns) (glob : ns) (args : list (list xarg)) (g : ns) : ns * option exc :=
  match args with
  | [] => (g, None)
  | a :: r => match compute_exports loc glob a nempty with inl h => do_export loc glob r (nupdate g h) | inr e => (g, Some e) end
  end.
(* 559-575 *)
Fixpoint do_import (exports global_exports : ns) (args : list iarg) (g : ns) : ns * option exc :=
  match args with
  | [] => (g, None)
  | IStar :: r => do_import exports global_exports r (nupdate (nupdate g global_exports) exports)
  | IName x :: r =>
    match exports x with
    | Some v => do_import exports global_exports r (nset g x v)
    | None => match global_exports x with Some v => do_import exports global_exports r (nset g x v) | None => (g, Some UserErr) end
    end
  end.
Fixpoint all_values (g : ns) (xs : list name) : option (list val) :=
  match xs with [] => Some [] | x :: r => match g x with Some v => match all_values g r with Some l => Some (v :: l) | None => None end | None => None end end.
Definition one_or_tuple (l : list val) : val := match l with [v] => v | _ => VTuple l end.
Definition out_of (e : option exc) : outcome := match e with None => ONorm | Some e => OExc e end.

Section Run.
Variable scripts : dir * nat -> option (list stmt).          (* the script files *)
Variable g0 : ns.                                            (* 695-709 BuildDefaultGlobals *)
Variable no_missing : bool.                                  (* SCons.Script._no_missing_sconscript *)

Definition resolve (cwd : dir) (f : fname) : dir * nat := match f with FRel d n => (cwd ++ d, n) | FTop d n => (d, n) | FStdin => (cwd, 0) end.
Definition is_stdin (f : fname) : bool := match f with FStdin => true | _ => false end.
(* the run of a body of statements, by script me *)
Definition runner := nat -> list stmt -> option ns -> st -> option (outcome * option ns * st).
(* 189-192: a new frame on the stack *)
Definition enter (ex : ns) (s : st) : st :=
  let s1 := set_stack (set_heap s (heap s ++ [{| fglobals := g0; fret := VNone; fprev := fcwd s; fexports := ex |}])) (length (heap s) :: stack s) in
  set_reading s1 (S (reading s1)).
(* 303-335: the finally clause, and the value of the frame *)
Definition leave (old_path : list dir) (o : outcome) (s3 : st) : option (outcome * val * st) :=
  let s4 := set_spath (set_reading s3 (pred (reading s3))) old_path in
  let fr := frame_of s4 (top_of s4) in
  let s5 := set_stack s4 (tl (stack s4)) in
  Some (o, fret fr, fs_chdir (fprev fr) (chf s5) s5).
(* 188-335: one script file; the outcome and the value returned.  None: does not end *)
Definition one_file (rec : runner) (me : nat) (loc : option ns) (exports : list xarg) (must_exist : bool) (fn : fname) (s : st) : option (outcome * val * st) :=
  match compute_exports loc (fglobals (frame_of s me)) exports nempty with
  | inr e => Some (OExc e, VNone, s)                                                                   (* 189, before the try *)
  | inl ex =>
    let id := length (heap s) in
    let s2 := enter ex s in
    if is_stdin fn then
      match rec id (stdin s2) None (set_stdin s2 []) with None => None | Some (o, _, s3) => leave (spath s) o s3 end     (* 193-194 *)
    else
      let f := resolve (fcwd s2) fn in                                                                 (* 196-199 *)
      let s3 := fs_chdir [] true s2 in                                                                 (* 206 *)
      match scripts f with
      | Some body =>
        let s4 := fs_chdir (fst f) (chf s3) s3 in                                                      (* 242-252 *)
        let s5 := set_spath s4 (fst f :: spath s4) in                                                  (* 266 *)
        match rec id body None s5 with
        | None => None
        | Some (o, _, s6) => leave (spath s) (match o with OExc RetExc => ONorm | _ => o end) s6       (* 286-291 *)
        end
      | None => leave (spath s) (if must_exist && no_missing then OExc UserErr else ONorm) s3          (* 300-301 *)
      end
  end.
(* 186-188, 337-342 *)
Fixpoint all_files (rec : runner) (me : nat) (loc : option ns) (exports : list xarg) (must_exist : bool) (fns : list fname) (results : list val) (s : st) : option (outcome * list val * st) :=
  match fns with
  | [] => Some (ONorm, results, s)
  | fn :: r =>
    match one_file rec me loc exports must_exist fn s with
    | None => None
    | Some (ONorm, v, s) => all_files rec me loc exports must_exist r (results ++ [v]) s
    | Some (OExc e, v, s) => Some (OExc e, results, s)
    end
  end.
(* an assignment in a script changes its globals, in a function a local variable *)
Definition assign (me : nat) (loc : option ns) (s : st) (x : name) (v : val) : option ns * st :=
  match loc with None => (None, set_globals s me (nset (fglobals (frame_of s me)) x v)) | Some l => (Some (nset l x v), s) end.
Definition do_stmt (rec : runner) (me : nat) (c : stmt) (loc : option ns) (s : st) : option (outcome * option ns * st) :=
  let glob := fglobals (frame_of s me) in
  match c with
  | SSet x e => match eval loc glob e with None => Some (OExc NameErr, loc, s) | Some v => let '(l, s) := assign me loc s x v in Some (ONorm, l, s) end
  | SPrint e => match eval loc glob e with None => Some (OExc NameErr, loc, s) | Some v => Some (ONorm, loc, emit s (EvPrint v)) end
  | SLook => Some (ONorm, loc, emit s (EvLook (fcwd s) (ocwd s) (spath s) (reading s)))
  | SIf e a b =>
    match eval loc glob e with None => Some (OExc NameErr, loc, s) | Some VNone => rec me b loc s | Some (VTuple []) => rec me b loc s | Some (VAtom 0) => rec me b loc s | Some _ => rec me a loc s end
  | SFunc body => match rec me body (Some nempty) s with None => None | Some (o, _, s) => Some (o, loc, s) end
  | STry body handler => match rec me body loc s with Some (OExc _, l, s) => rec me handler l s | r => r end
  | SRaise n => Some (OExc (OtherErr n), loc, s)
  | SExport args kw =>
    if negb (forallb (dicts_ok loc glob) args) then Some (OExc NameErr, loc, s)
    else match eval_dict loc glob kw nempty with
         | None => Some (OExc NameErr, loc, s)
         | Some k => match do_export loc glob args (gex s) with
                     | (g, None) => Some (ONorm, loc, set_gex s (nupdate g k))
                     | (g, Some e) => Some (OExc e, loc, set_gex s g)
                     end
         end
  | SImport args =>
    let fr := frame_of s (top_of s) in
    let '(g, e) := do_import (fexports fr) (gex s) args (fglobals fr) in
    Some (out_of e, loc, set_globals s (top_of s) g)
  | SReturn xs stop =>
    match all_values (fglobals (frame_of s (top_of s))) xs with
    | None => Some (OExc UserErr, loc, s)
    | Some l => Some (if stop then OExc RetExc else ONorm, loc, set_ret s (top_of s) (one_or_tuple l))
    end
  | SCall x fns exports must_exist =>
    if negb (dicts_ok loc glob exports) then Some (OExc NameErr, loc, s)
    else match all_files rec me loc exports must_exist fns [] s with
         | None => None
         | Some (OExc e, _, s) => Some (OExc e, loc, s)
         | Some (ONorm, l, s) => let '(lo, s) := assign me loc s x (one_or_tuple l) in Some (ONorm, lo, s)
         end
  | SChdir b => Some (ONorm, loc, set_chf s b)
  end.
Fixpoint run (fuel : nat) : runner := fun me body loc s =>
  match fuel with
  | 0 => None
  | S f =>
    match body with
    | [] => Some (ONorm, loc, s)
    | c :: r => match do_stmt (run f) me c loc s with Some (ONorm, l, s) => run f me r l s | x => x end
    end
  end.
(* Main.py 1118-1120: the SConstruct files are read, with nothing on the stack.  Frame 0 stands for the namespace of Main.py, which no script can see *)
Definition start (input : list stmt) : st :=
  {| heap := [no_frame]; stack := []; gex := nempty; fcwd := []; ocwd := []; chf := true; spath := []; reading := 0; stdin := input; out := [] |}.
Definition read_all (fuel : nat) (files : list fname) (input : list stmt) : option (outcome * list val * st) :=
  all_files (run fuel) 0 None [] true files [] (start input).
End Run.
