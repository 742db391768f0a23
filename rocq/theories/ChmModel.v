(* Model of the Chmod() action: SCons/Defaults.py 178-245 (permission_dic, chmod_func).  No proofs.

   Simplified: POSIX; the user may change every file; a name in the list leads to the same file throughout (`at_`, which follows symbolic links, as os.stat and os.chmod do);
   os.chmod takes the twelve low bits of its argument.  invalidate_node_memos (203) has no effect on files.  str.strip() takes the six ASCII white-space characters away. *)
From Coq Require Import Ascii String List Bool Arith NArith.
Import ListNotations.
From Verif Require Import NameModel.
Open Scope list_scope.

(* 178-194 *)
Definition permission_dic (u p : ascii) : option N :=
  if Ascii.eqb u "u" then (if Ascii.eqb p "r" then Some 256 else if Ascii.eqb p "w" then Some 128 else if Ascii.eqb p "x" then Some 64 else None)%N
  else if Ascii.eqb u "g" then (if Ascii.eqb p "r" then Some 32 else if Ascii.eqb p "w" then Some 16 else if Ascii.eqb p "x" then Some 8 else None)%N
  else if Ascii.eqb u "o" then (if Ascii.eqb p "r" then Some 4 else if Ascii.eqb p "w" then Some 2 else if Ascii.eqb p "x" then Some 1 else None)%N
  else None.

Section Chm.
Variable at_ : list ascii -> option nat.     (* the file a name leads to; None: os.stat and os.chmod raise OSError *)
Variable kind : nat -> N.                    (* the bits of st_mode that tell what kind of file it is *)

(* the permissions of the files *)
Notation files := (nat -> N).
Inductive outcome := Done (s : files) | SyntaxError_ (s : files) | OSError_ (s : files) | ValueError_ (s : files).
Definition os_chmod (i : nat) (m : N) (s : files) : files := fun j => if j =? i then N.land m 4095 else s j.
Definition st_mode (i : nat) (s : files) : N := N.lor (kind i) (s i).

(* 208: all characters are digits; 209: int(mode, 8) *)
Definition digit8 (c : ascii) : option N := let n := nat_of_ascii c in if (48 <=? n) && (n <=? 55) then Some (N.of_nat (n - 48)) else None.
Fixpoint int8_go (acc : N) (t : list ascii) : option N :=
  match t with [] => Some acc | c :: t => match digit8 c with Some d => int8_go (N.add (N.mul acc 8) d) t | None => None end end.
Definition int8 (t : list ascii) : option N := match t with [] => None | _ => int8_go 0 t end.

(* 210-212 *)
Fixpoint set_all (dest : list (list ascii)) (m : N) (s : files) : outcome :=
  match dest with
  | [] => Done s
  | d :: r => match at_ d with None => OSError_ s | Some i => set_all r m (os_chmod i m s) end
  end.

(* 216-227; str.strip(), str.replace(a, ugo) *)
Definition mem (c : ascii) (t : list ascii) : bool := existsb (Ascii.eqb c) t.
Definition operator (t : list ascii) : option ascii :=
  if mem "=" t then Some "="%char else if mem "+" t then Some "+"%char else if mem "-" t then Some "-"%char else None.
Definition white (c : ascii) : bool := let n := nat_of_ascii c in ((9 <=? n) && (n <=? 13)) || (n =? 32).
Fixpoint lstrip (t : list ascii) : list ascii := match t with c :: r => if white c then lstrip r else t | [] => [] end.
Definition strip (t : list ascii) : list ascii := rev (lstrip (rev (lstrip t))).
Definition all_users (t : list ascii) : list ascii := flat_map (fun c => if Ascii.eqb c "a" then lit "ugo" else [c]) t.
(* 228-234 *)
Fixpoint perms_of (u : ascii) (ps : list ascii) (acc : N) : option N :=
  match ps with [] => Some acc | p :: r => match permission_dic u p with Some b => perms_of u r (N.lor acc b) | None => None end end.
Fixpoint new_perm (us ps : list ascii) (acc : N) : option N :=
  match us with [] => Some acc | u :: r => match perms_of u ps acc with Some acc => new_perm r ps acc | None => None end end.
Definition parse (t : list ascii) : option (ascii * N) :=
  match operator t with
  | None => None
  | Some o => match split_on o t with
              | [a; b] => match new_perm (all_users (strip a)) (strip b) 0 with Some n => Some (o, n) | None => None end
              | _ => None
              end
  end.
(* 235-242 *)
Definition combine (o : ascii) (cur n : N) : N := if Ascii.eqb o "=" then n else if Ascii.eqb o "+" then N.lor cur n else N.ldiff cur n.
Fixpoint apply_all (dest : list (list ascii)) (o : ascii) (n : N) (s : files) : outcome :=
  match dest with
  | [] => Done s
  | d :: r => match at_ d with None => OSError_ s | Some i => apply_all r o n (os_chmod i (combine o (st_mode i s) n) s) end
  end.
Fixpoint operations (ops : list (list ascii)) (dest : list (list ascii)) (s : files) : outcome :=
  match ops with
  | [] => Done s
  | t :: r => match parse t with
              | None => SyntaxError_ s
              | Some (o, n) => match apply_all dest o n s with Done s => operations r dest s | e => e end
              end
  end.

(* 196-242 *)
Inductive mode := Num (m : N) | Str (t : list ascii).
Definition chmod_func (dest : list (list ascii)) (m : mode) (s : files) : outcome :=
  match m with
  | Num m => set_all dest m s
  | Str t => if forallb is_digit t then match int8 t with Some m => set_all dest m s | None => ValueError_ s end
             else operations (split_on "," t) dest s
  end.
End Chm.
