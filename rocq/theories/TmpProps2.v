(* C77: cases, and what does not hold. *)
From Coq Require Import Ascii String List Bool Arith ZArith Lia.
From Verif Require Import SubstModel TmpModel TmpSpec TmpProps.
Import ListNotations.
Open Scope list_scope.
Definition lit (s : string) : str := list_ascii_of_string s.

Definition is_safe (a : text) : bool :=
  match a with [] => false | _ => forallb (fun c => negb (Ascii.eqb c squote) && negb (Ascii.eqb c TmpSpec.dquote) && negb (Ascii.eqb c backslash) && (negb (white c) || Ascii.eqb c " "%char || Ascii.eqb c (ascii_of_nat 9))) a end.
Lemma is_safe_spec a : is_safe a = true -> Safe a.
Proof.
  unfold is_safe. destruct a as [|c a]; [discriminate|]. intros H. split; [discriminate|]. rewrite forallb_forall in H. apply Forall_forall. intros x Hx.
  specialize (H x Hx). rewrite !andb_true_iff in H. destruct H as [[[H1 H2] H3] H4]. apply negb_true_iff, Ascii.eqb_neq in H1. apply negb_true_iff, Ascii.eqb_neq in H2. apply negb_true_iff, Ascii.eqb_neq in H3.
  split; [exact H1|]. split; [exact H2|]. split; [exact H3|]. intros W. rewrite W in H4. cbn [negb orb] in H4. apply orb_true_iff in H4. destruct H4 as [H4|H4]; apply Ascii.eqb_eq in H4; [left | right]; exact H4.
Qed.
Definition few (m : Z) : settings := {| maxlinelength := Some m; arg_esc := quote_spaces; arg_join := [lf]; encode := fun s => Some s; prefix := lit "@" |}.
Definition link : list str := [lit "ld"; lit "-o"; lit "my prog"; lit "a.o"; lit "b.o"].
Definition empty : state := State [(lit "/tmp/0", lit "mine")] [] [] [].
(* a stand-in for mkstemp that is right for the disks of the cases; see C77_case_fresh for one that is always right *)
Definition names (d : disk) : str :=
  match get d (lit "/tmp/0") with None => lit "/tmp/0" | Some _ => match get d (lit "/tmp/1") with None => lit "/tmp/1" | Some _ => match get d (lit "/tmp/2") with None => lit "/tmp/2" | Some _ => lit "/tmp/3" end end end.
Definition cl (n : node) (w : list str) : call := Call (few 20) (Some n) (lit "$LINK") [w] false true.

Theorem C77_case :
  Forall Safe (tl link) /\ contents (few 20) link = lit "-o" ++ [lf] ++ TmpSpec.dquote :: lit "my prog" ++ [TmpSpec.dquote; lf] ++ lit "a.o" ++ [lf] ++ lit "b.o" ++ [lf]
  /\ arguments (contents (few 20) link) = tl link /\ arguments (contents defaults link) = tl link
  /\ List.length (typed link) = 21
  /\ Consistent [cl 1 link; cl 1 link; cl 2 link]
  /\ (let (st, rs) := run names empty [cl 1 link; cl 1 link; cl 2 link] in
      rs = [Words [lit "ld"; lit "@/tmp/1"]; Words [lit "ld"; lit "@/tmp/1"]; Words [lit "ld"; lit "@/tmp/2"]]
      /\ get (files st) (lit "/tmp/1") = Some (contents (few 20) link) /\ get (files st) (lit "/tmp/0") = Some (lit "mine")
      /\ messages st = [lit "/tmp/2"; lit "/tmp/1"]
      /\ get (at_exit st) (lit "/tmp/1") = None /\ get (at_exit st) (lit "/tmp/2") = None /\ get (at_exit st) (lit "/tmp/0") = Some (lit "mine"))
  /\ snd (step names empty (Call (few 21) (Some 1) (lit "$LINK") [link] false true)) = Unchanged
  /\ snd (step names empty (Call (few 20) (Some 1) (lit "$LINK") [link] true true)) = Unchanged
  (* without a limit: 2048 *)
  /\ snd (step names empty (Call defaults (Some 1) (lit "$LINK") [[repeat "x"%char 2048]] false true)) = Unchanged
  /\ snd (step names empty (Call defaults (Some 1) (lit "$LINK") [[repeat "x"%char 2049]] false true)) = Words [repeat "x"%char 2049; lit "@/tmp/1"]
  (* what cannot be encoded *)
  /\ snd (step names empty (Call {| maxlinelength := Some 20%Z; arg_esc := quote_spaces; arg_join := [lf]; encode := fun _ => None; prefix := lit "@" |} (Some 1) (lit "$LINK") [link] false true)) = EncodingError.
Proof.
  split; [repeat (constructor; [apply is_safe_spec; reflexivity|]); constructor|].
  split; [reflexivity|]. split; [reflexivity|]. split; [reflexivity|]. split; [reflexivity|]. split.
  - intros c c' Hc Hc' _ _. assert (Z : forall x, In x [cl 1 link; cl 1 link; cl 2 link] -> c_lines x = [link] /\ c_set x = few 20).
    { intros x [<- | [<- | [<- | []]]]; split; reflexivity. }
    destruct (Z c Hc) as [-> ->]. destruct (Z c' Hc') as [-> ->]. split; reflexivity.
  - split; [vm_compute; repeat split; reflexivity|]. repeat split; vm_compute; reflexivity.
Qed.
(* there are functions that always find a new name *)
Definition longest (d : disk) : str := repeat "x"%char (S (list_max (map (fun x => List.length (fst x)) d))).
Theorem C77_case_fresh : forall d, get d (longest d) = None.
Proof.
  intros d. assert (Z : forall n, list_max (map (fun x : str * str => List.length (fst x)) d) < n -> get d (repeat "x"%char n) = None).
  { induction d as [|[g t] d IH]; intros n H; [reflexivity|]. cbn [get]. unfold list_max in *. cbn [map fold_right fst] in H.
    destruct (str_eqb (repeat "x"%char n) g) eqn:E.
    - apply str_eqb_spec in E. subst g. exfalso. refine (Nat.lt_irrefl n _). refine (Nat.le_lt_trans _ _ _ _ H). rewrite repeat_length. apply Nat.le_max_l.
    - apply IH. refine (Nat.le_lt_trans _ _ _ _ H). apply Nat.le_max_r. }
  apply Z. apply Nat.lt_succ_diag_r.
Qed.
(* empty arguments are lost, and newlines, quotes and backslashes in arguments are not protected *)
Theorem C77_refuted_arguments :
  arguments (contents defaults [lit "ar"; []; lit "x"]) = [lit "x"]
  /\ arguments (contents defaults [lit "ar"; lit "a" ++ [lf] ++ lit "b"]) = [lit "a"; lit "b"]
  /\ arguments (contents defaults [lit "cl"; lit "C:" ++ [backslash] ++ lit "x.c"]) = [lit "C:x.c"]
  /\ arguments (contents defaults [lit "cc"; lit "-DS=" ++ [TmpSpec.dquote] ++ lit "a" ++ [TmpSpec.dquote]]) = [lit "-DS=a"].
Proof. repeat split; reflexivity. Qed.
(* a second command that expands from the same text for the same target gets the file of the first *)
Theorem C77_refuted_stale :
  snd (run names empty [cl 1 link; cl 1 (link ++ [lit "c.o"])]) = [Words [lit "ld"; lit "@/tmp/1"]; Words [lit "ld"; lit "@/tmp/1"]]
  /\ (let (st, _) := run names empty [cl 1 link; cl 1 (link ++ [lit "c.o"])] in arguments (contents (few 20) link) = tl link /\ get (files st) (lit "/tmp/1") = Some (contents (few 20) link)).
Proof. split; [vm_compute; reflexivity | vm_compute; split; reflexivity]. Qed.
(* only the first line of a command of several lines is looked at: it is all that is run if it is long, and a long second line stays long *)
Theorem C77_refuted_lines : forall st rest, files st = files empty -> cmdlist st = [] ->
  snd (munge names st (few 20) (Some 1) (lit "$CMDS") (link :: rest) false true) = Words [lit "ld"; lit "@/tmp/1"]
  /\ snd (munge names st (few 20) (Some 1) (lit "$CMDS") ([lit "true"] :: rest) false true) = Unchanged.
Proof. intros [d m c s] rest E1 E2. cbn in E1, E2. subst d m. split; vm_compute; reflexivity. Qed.
(* the limit is compared with the words, not with what is typed: quotes come on top *)
Theorem C77_refuted_limit : List.length (typed link) = 21 /\ List.length (join [blank] (map quote_spaces link)) = 23
  /\ snd (step names empty (Call (few 21) (Some 1) (lit "$LINK") [link] false true)) = Unchanged.
Proof. repeat split; vm_compute; reflexivity. Qed.
Print Assumptions C77_case.
Print Assumptions C77_case_fresh.
Print Assumptions C77_refuted_arguments.
Print Assumptions C77_refuted_stale.
Print Assumptions C77_refuted_lines.
Print Assumptions C77_refuted_limit.
