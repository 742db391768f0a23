(* C51: command words reach the program unchanged. *)
From Coq Require Import List Arith Bool Lia.
Import ListNotations.
From Verif Require Import QuoteModel QuoteSpec.

Lemma join_cons2 sep a b r : join sep (a :: b :: r) = a ++ sep ++ join sep (b :: r).
Proof. reflexivity. Qed.
Section Lex.
Definition esc1 (x : nat) : str := if (x =? BSL) || (x =? DQ) || (x =? DOLLAR) then [BSL; x] else [x].
Lemma replace_all s : replace_char DOLLAR (replace_char DQ (replace_char BSL s)) = flat_map esc1 s.
Proof.
  induction s as [|x s IH]; [reflexivity|]. unfold replace_char in *. cbn [flat_map]. rewrite !flat_map_app, IH. f_equal. unfold esc1.
  destruct (x =? BSL) eqn:E1; [apply Nat.eqb_eq in E1; subst; reflexivity|]. cbn [flat_map app orb]. destruct (x =? DQ) eqn:E2; [apply Nat.eqb_eq in E2; subst; reflexivity|]. cbn [flat_map app orb].
  destruct (x =? DOLLAR); reflexivity.
Qed.
Lemma lex_escaped s : forall w rest, ~ In TICK s -> sh_lex In_quotes (Some w) (flat_map esc1 s ++ DQ :: rest) = sh_lex Out (Some (rev s ++ w)) rest.
Proof.
  induction s as [|x s IH]; intros w rest H; [reflexivity|]. cbn [flat_map rev]. rewrite <- !app_assoc. unfold esc1.
  assert (Hx : x <> TICK) by (intros ->; apply H; left; reflexivity). assert (H' : ~ In TICK s) by (intros Q; apply H; right; exact Q).
  destruct (x =? BSL) eqn:E1; [apply Nat.eqb_eq in E1; subst; apply (IH (BSL :: w) rest H')|]. destruct (x =? DQ) eqn:E2; [apply Nat.eqb_eq in E2; subst; apply (IH (DQ :: w) rest H')|].
  destruct (x =? DOLLAR) eqn:E3; [apply Nat.eqb_eq in E3; subst; apply (IH (DOLLAR :: w) rest H')|]. cbn [orb app sh_lex]. rewrite E2, E3, E1.
  replace (x =? TICK) with false by (symmetry; apply Nat.eqb_neq; exact Hx). cbn [orb]. apply (IH (x :: w) rest H').
Qed.
Lemma lex_tick s : forall w rest, In TICK s -> sh_lex In_quotes (Some w) (flat_map esc1 s ++ rest) = None.
Proof.
  induction s as [|x s IH]; intros w rest H; [elim H|]. cbn [flat_map]. rewrite <- !app_assoc. unfold esc1. destruct (Nat.eq_dec x TICK) as [->|Hx]; [reflexivity|].
  destruct H as [H|H]; [congruence|].
  destruct (x =? BSL) eqn:E1; [apply Nat.eqb_eq in E1; subst; apply (IH (BSL :: w) rest H)|]. destruct (x =? DQ) eqn:E2; [apply Nat.eqb_eq in E2; subst; apply (IH (DQ :: w) rest H)|].
  destruct (x =? DOLLAR) eqn:E3; [apply Nat.eqb_eq in E3; subst; apply (IH (DOLLAR :: w) rest H)|]. cbn [orb app sh_lex]. rewrite E2, E3, E1.
  replace (x =? TICK) with false by (symmetry; apply Nat.eqb_neq; exact Hx). cbn [orb]. apply (IH (x :: w) rest H).
Qed.
Lemma lex_quoted s : forall w rest, quotable s -> sh_lex In_quotes (Some w) (s ++ DQ :: rest) = sh_lex Out (Some (rev s ++ w)) rest.
Proof.
  induction s as [|x s IH]; intros w rest H; [reflexivity|]. inversion H as [|y l (A & B & C & D) H' E]. subst. cbn [rev app sh_lex]. rewrite <- app_assoc.
  apply Nat.eqb_neq in A, B, C, D. rewrite A, B, C, D. cbn [orb]. apply (IH (x :: w) rest H').
Qed.
Lemma lex_plain s : forall w rest, Forall (fun c => blank c = false /\ active c = false /\ c <> DQ /\ c <> BSL) s -> sh_lex Out (Some w) (s ++ rest) = sh_lex Out (Some (rev s ++ w)) rest.
Proof.
  induction s as [|x s IH]; intros w rest H; [reflexivity|]. inversion H as [|y l (A & B & C & D) H' E]. subst. cbn [rev app sh_lex]. rewrite <- app_assoc.
  apply Nat.eqb_neq in C, D. rewrite A, C, B, D. apply (IH (x :: w) rest H').
Qed.
Lemma lex_word w rest : transportable w -> sh_lex Out None (escape_word posix_escape w ++ rest) = sh_lex Out (Some (rev (data w))) rest.
Proof.
  unfold transportable, escape_word. destruct (literal w).
  - intros H. unfold posix_escape. rewrite replace_all. rewrite <- app_assoc. cbn [app sh_lex]. change (blank DQ) with false. cbn [Nat.eqb DQ]. rewrite <- app_assoc. cbn [app].
    change (sh_lex In_quotes (Some []) (flat_map esc1 (data w) ++ DQ :: rest) = sh_lex Out (Some (rev (data w))) rest). rewrite lex_escaped by exact H. rewrite app_nil_r. reflexivity.
  - destruct (has_blank (data w)) eqn:B.
    + intros H. unfold quote_spaces. rewrite B. change (sh_lex In_quotes (Some []) ((data w ++ [DQ]) ++ rest) = sh_lex Out (Some (rev (data w))) rest). rewrite <- app_assoc. cbn [app]. rewrite lex_quoted by exact H. rewrite app_nil_r. reflexivity.
    + intros (H1 & H2 & H3). destruct (data w) as [|c s]; [elim H1; reflexivity|]. inversion H2 as [|y l (X & Y & C & D) H' E]. subst. cbn [app sh_lex].
      apply Nat.eqb_neq in C, D. rewrite X, C, Y, D, (H3 c s eq_refl). rewrite lex_plain by exact H'. reflexivity.
Qed.
End Lex.

(* C51.  The text given to "sh -c" is, for the shell, exactly the list of words of the expanded command. *)
Theorem C51_words_reach_program : forall ws, Forall transportable ws -> sh_words (shell_line ws) = Some (map data ws).
Proof.
  intros ws H. unfold sh_words, shell_line. induction H as [|w ws Hw H IH]; [reflexivity|]. cbn [map]. destruct ws as [|w2 ws].
  - cbn [map join]. rewrite <- (app_nil_r (escape_word posix_escape w)), lex_word by exact Hw. cbn. rewrite rev_involutive. reflexivity.
  - cbn [map] in *. rewrite join_cons2, lex_word by exact Hw. cbn [app sh_lex]. change (blank SP) with true. cbv iota. rewrite IH, rev_involutive. reflexivity.
Qed.
Print Assumptions C51_words_reach_program.
(* C51b.  In particular, literal words (file names) may contain anything but a backquote ... *)
Theorem C51b_file_names : forall names, Forall (fun s => ~ In TICK s) names -> sh_words (shell_line (map (fun s => {| data := s; literal := true |}) names)) = Some names.
Proof.
  intros names H. rewrite C51_words_reach_program; [rewrite map_map; cbn; rewrite map_id; reflexivity|]. apply Forall_map. unfold transportable. cbn. exact H.
Qed.
Print Assumptions C51b_file_names.
(* ... and (refuted part) every backquote in a literal word is acted upon by the shell: escape() does not escape it. *)
Theorem C51_backquote_refuted : forall w ws, literal w = true -> In TICK (data w) -> sh_words (shell_line (w :: ws)) = None.
Proof.
  intros w ws L H. unfold sh_words, shell_line. cbn [map]. assert (G : forall rest, sh_lex Out None (escape_word posix_escape w ++ rest) = None).
  { intros rest. unfold escape_word. rewrite L. unfold posix_escape. rewrite replace_all. rewrite <- !app_assoc. change (sh_lex In_quotes (Some []) (flat_map esc1 (data w) ++ ([DQ] ++ rest)) = None). apply lex_tick, H. }
  destruct (map (escape_word posix_escape) ws) as [|x r]; cbn [join]; [rewrite <- (app_nil_r (escape_word posix_escape w))|]; apply G.
Qed.
Print Assumptions C51_backquote_refuted.

(* ---- response files ---- *)
Section Rsp.
(* arguments a response file can hold: not empty, no double quote, no newline outside a word with blanks *)
Definition rsp_arg (s : str) : Prop := s <> [] /\ ~ In DQ s /\ (has_blank s = false -> ~ In NL s).
Lemma rsp_quoted s : forall w rest, ~ In DQ s -> rsp_lex In_quotes (Some w) (s ++ DQ :: rest) = rsp_lex Out (Some (rev s ++ w)) rest.
Proof.
  induction s as [|x s IH]; intros w rest H; [reflexivity|]. cbn [rev app rsp_lex]. rewrite <- app_assoc. replace (x =? DQ) with false by (symmetry; apply Nat.eqb_neq; intros ->; apply H; left; reflexivity).
  apply (IH (x :: w) rest). intros Q. apply H. right. exact Q.
Qed.
Lemma rsp_plain s : forall w rest, ~ In DQ s -> ~ In NL s -> has_blank s = false -> rsp_lex Out (Some w) (s ++ rest) = rsp_lex Out (Some (rev s ++ w)) rest.
Proof.
  induction s as [|x s IH]; intros w rest H N B; [reflexivity|]. cbn [rev app rsp_lex]. rewrite <- app_assoc. replace (x =? DQ) with false by (symmetry; apply Nat.eqb_neq; intros ->; apply H; left; reflexivity).
  unfold has_blank in B. cbn [existsb] in B. apply orb_false_iff in B. destruct B as [B1 B2]. apply orb_false_iff in B1, B2. destruct B1 as [B1 B3], B2 as [B2 B4].
  unfold blank. rewrite (Nat.eqb_sym x SP), B1, (Nat.eqb_sym x TAB), B2. replace (x =? NL) with false by (symmetry; apply Nat.eqb_neq; intros ->; apply N; left; reflexivity). cbn [orb].
  apply (IH (x :: w) rest); [intros Q; apply H; right; exact Q | intros Q; apply N; right; exact Q | unfold has_blank; rewrite B3, B4; reflexivity].
Qed.
Lemma rsp_word s rest : rsp_arg s -> rsp_lex Out None (quote_spaces s ++ rest) = rsp_lex Out (Some (rev s)) rest.
Proof.
  intros (Ne & Hq & Hn). unfold quote_spaces. destruct (has_blank s) eqn:B.
  - change (rsp_lex In_quotes (Some []) ((s ++ [DQ]) ++ rest) = rsp_lex Out (Some (rev s)) rest). rewrite <- app_assoc. cbn [app]. rewrite rsp_quoted by exact Hq. rewrite app_nil_r. reflexivity.
  - specialize (Hn eq_refl). replace (rsp_lex Out None (s ++ rest)) with (rsp_lex Out (Some []) (s ++ rest)); [rewrite rsp_plain by assumption; rewrite app_nil_r; reflexivity|].
    destruct s as [|x s]; [elim Ne; reflexivity|]. cbn [app rsp_lex]. replace (x =? DQ) with false by (symmetry; apply Nat.eqb_neq; intros ->; apply Hq; left; reflexivity).
    unfold has_blank in B. cbn [existsb] in B. apply orb_false_iff in B. destruct B as [B1 B2]. apply orb_false_iff in B1, B2. destruct B1 as [B1 B3], B2 as [B2 B4].
    unfold blank. rewrite (Nat.eqb_sym x SP), B1, (Nat.eqb_sym x TAB), B2. replace (x =? NL) with false by (symmetry; apply Nat.eqb_neq; intros ->; apply Hn; left; reflexivity). reflexivity.
Qed.
End Rsp.

(* A separator is white space. *)
Definition separator (sep : str) : Prop := sep <> [] /\ Forall (fun c => blank c = true \/ c = NL) sep.
Lemma rsp_white sep : Forall (fun c => blank c = true \/ c = NL) sep -> forall rest, rsp_lex Out None (sep ++ rest) = rsp_lex Out None rest.
Proof.
  induction 1 as [|c l Hc H IH]; intros rest; [reflexivity|]. cbn [app rsp_lex]. assert (E : blank c || (c =? NL) = true) by (destruct Hc as [-> | ->]; [reflexivity | apply orb_true_r]).
  assert (Q : (c =? DQ) = false) by (apply Nat.eqb_neq; intros ->; discriminate). rewrite Q, E. apply IH.
Qed.
Lemma rsp_sep sep w rest : separator sep -> rsp_lex Out (Some w) (sep ++ rest) = option_map (cons (rev w)) (rsp_lex Out None rest).
Proof.
  intros [Ne H]. destruct H as [|c l Hc H]; [elim Ne; reflexivity|]. cbn [app rsp_lex]. assert (E : blank c || (c =? NL) = true) by (destruct Hc as [-> | ->]; [reflexivity | apply orb_true_r]).
  assert (Q : (c =? DQ) = false) by (apply Nat.eqb_neq; intros ->; discriminate). rewrite Q, E. rewrite rsp_white by exact H. reflexivity.
Qed.
(* C51c.  A command that is too long is replaced by the same command with a response file that holds exactly its arguments; all states
   of the cache that earlier calls for the same commands can have left. *)
Definition honest_cache (prefix : str) (tmp : nat -> str) (sep : str) (commands : nat -> nat -> list str) (s : tstate) : Prop :=
  forall node key m, assoc (node, key) (t_cache s) = Some m ->
    exists c0 args f, commands node key = c0 :: args /\ m = ViaFile c0 (prefix ++ tmp f) /\ nth_error (t_files s) f = Some (f, rsp_content quote_spaces sep args).
Theorem C51c_response_file : forall sep prefix maxline tmp commands node key s, separator sep -> honest_cache prefix tmp sep commands s ->
  let '(m, s') := munge quote_spaces sep prefix maxline tmp node key (commands node key) s in
  honest_cache prefix tmp sep commands s'
  /\ (exists more, t_files s' = t_files s ++ more)
  /\ (line_length (commands node key) <= maxline -> m = Direct /\ s' = s)
  /\ (maxline < line_length (commands node key) -> exists c0 args f content, commands node key = c0 :: args /\ m = ViaFile c0 (prefix ++ tmp f)
        /\ nth_error (t_files s') f = Some (f, content) /\ (Forall rsp_arg args -> rsp_words content = Some args)).
Proof.
  intros sep prefix maxline tmp commands node key s Sp Hc. unfold munge.
  assert (Rw : forall args, Forall rsp_arg args -> rsp_words (rsp_content quote_spaces sep args) = Some args).
  { unfold rsp_words, rsp_content. intros args H. induction H as [|a args Ha H IH]; [reflexivity|]. cbn [map]. destruct args as [|b args].
    - cbn [map join]. rewrite rsp_word by exact Ha. cbn. rewrite rev_involutive. reflexivity.
    - cbn [map] in *. rewrite join_cons2, <- !app_assoc. rewrite rsp_word by exact Ha. rewrite rsp_sep by exact Sp. rewrite IH, rev_involutive. reflexivity. }
  destruct (line_length (commands node key) <=? maxline) eqn:L.
  - apply Nat.leb_le in L. split; [exact Hc|]. split; [exists []; symmetry; apply app_nil_r|]. split; [auto | lia].
  - apply Nat.leb_gt in L. destruct (assoc (node, key) (t_cache s)) as [m|] eqn:A.
    + split; [exact Hc|]. split; [exists []; symmetry; apply app_nil_r|]. split; [lia|]. intros _. destruct (Hc node key m A) as (c0 & args & f & E1 & E2 & E3). exists c0, args, f, (rsp_content quote_spaces sep args). auto.
    + destruct (commands node key) as [|c0 args] eqn:E; [cbn in L; lia|]. cbn [t_files t_cache]. split; [|split; [eexists; reflexivity | split; [lia|]]].
      * intros n k m H. cbn [assoc t_cache] in H. destruct (keyb (n, k) (node, key)) eqn:K.
        -- injection H as <-. unfold keyb in K. cbn in K. apply andb_true_iff in K. destruct K as [K1 K2]. apply Nat.eqb_eq in K1, K2. subst. exists c0, args, (length (t_files s)).
           split; [exact E|]. split; [reflexivity|]. cbn [t_files]. rewrite nth_error_app2, Nat.sub_diag by lia. reflexivity.
        -- destruct (Hc n k m H) as (c1 & args1 & f & E1 & E2 & E3). exists c1, args1, f. split; [exact E1|]. split; [exact E2|]. cbn [t_files]. rewrite nth_error_app1; [exact E3|]. apply nth_error_Some. congruence.
      * intros _. exists c0, args, (length (t_files s)), (rsp_content quote_spaces sep args). split; [reflexivity|]. split; [reflexivity|]. cbn [t_files]. rewrite nth_error_app2, Nat.sub_diag by lia. split; [reflexivity | apply Rw].
Qed.
Print Assumptions C51c_response_file.
(* The cache of written files is empty at the start, so it is honest as long as a command text means the same whenever it is expanded for
   a target; refuted otherwise: the second expansion of the same text for the same target gets the first one's file. *)
Theorem C51_changed_command_refuted : exists cmd1 cmd2 s1 m1 m2 s2, munge quote_spaces [SP] [64] 3 (fun f => [f]) 0 0 cmd1 {| t_files := []; t_cache := [] |} = (m1, s1)
  /\ munge quote_spaces [SP] [64] 3 (fun f => [f]) 0 0 cmd2 s1 = (m2, s2) /\ cmd1 <> cmd2 /\ hd [] cmd1 = hd [] cmd2 /\ m1 = m2 /\ s1 = s2.
Proof. exists [[99]; [97; 97; 97]], [[99]; [98; 98; 98]]. do 4 eexists. split; [reflexivity|]. split; [reflexivity|]. split; [discriminate|]. repeat split; reflexivity. Qed.
Print Assumptions C51_changed_command_refuted.
(* Refuted: an empty argument is lost in the response file; and the line actually given to the shell can be longer than MAXLINELENGTH,
   which is compared before quoting. *)
Theorem C51_empty_argument_refuted : rsp_words (rsp_content quote_spaces [SP] [[97]; []; [98]]) = Some [[97]; [98]].
Proof. reflexivity. Qed.
Print Assumptions C51_empty_argument_refuted.
Theorem C51_length_refuted : exists ws maxline, line_length (map data ws) <= maxline /\ maxline < length (shell_line ws).
Proof. exists [{| data := [97]; literal := false |}; {| data := [98]; literal := true |}], 3. cbn. lia. Qed.
Print Assumptions C51_length_refuted.

(* witness: a command word, a word with a blank, a file name with blank, single and double quote and dollar, and one with star, semicolon and backslash *)
Example C51_witness : let ws := [ {| data := [99; 99]; literal := false |}; {| data := [45; 68; 88; 61; 97; 32; 98]; literal := false |}; {| data := [97; 32; 98; 39; 34; 36; 46; 99]; literal := true |}; {| data := [42; 59; 92]; literal := true |} ] in
  Forall transportable ws /\ sh_words (shell_line ws) = Some (map data ws) /\ separator [SP] /\ separator [NL] /\ honest_cache [64] (fun f => [f]) [SP] (fun _ _ => [[99]]) {| t_files := []; t_cache := [] |}.
Proof.
  cbv zeta. assert (F : Forall transportable [ {| data := [99; 99]; literal := false |}; {| data := [45; 68; 88; 61; 97; 32; 98]; literal := false |}; {| data := [97; 32; 98; 39; 34; 36; 46; 99]; literal := true |}; {| data := [42; 59; 92]; literal := true |} ]).
  { constructor; [|constructor; [|constructor; [|constructor; [|constructor]]]]; unfold transportable; cbn [literal data].
    - change (plain [99; 99]). split; [discriminate|]. split; [repeat constructor; discriminate|]. intros c r H. injection H as <- _. reflexivity.
    - change (quotable [45; 68; 88; 61; 97; 32; 98]). repeat constructor; discriminate.
    - cbn. intros H. repeat (destruct H as [H|H]; [discriminate|]). exact H.
    - cbn. intros H. repeat (destruct H as [H|H]; [discriminate|]). exact H. }
  split; [exact F|]. split; [apply C51_words_reach_program, F|]. split; [split; [discriminate | repeat constructor]|]. split; [split; [discriminate | repeat constructor; right; reflexivity]|]. intros n k m H. discriminate.
Qed.
