(* C76: a concrete case, and what is not so *)
From Coq Require Import Ascii String List Bool Arith Lia.
From Verif Require Import SubstModel PdModel PdSpec PdProps.
Import ListNotations.
Open Scope list_scope.
Notation lit s := (list_ascii_of_string s%string).
Definition n1 : text := [newline].

(* as gcc -MMD writes it *)
Definition seg1 : text := lit "out/a.o: src/a.c src/a.h ".
Definition seg2 : text := lit " /usr/include/x.h  C:/y.h".
Definition sample : text := lit "# made by gcc" ++ n1 ++ seg1 ++ lit "\" ++ n1 ++ seg2 ++ n1 ++ n1 ++ lit "src/a.h:" ++ n1.
Definition rules : list (list text * list text) :=
  [([lit "out/a.o"], [lit "src/a.c"; lit "src/a.h"; lit "/usr/include/x.h"; lit "C:/y.h"]); ([lit "src/a.h"], [])].
Ltac notin := let Q := fresh in intros Q; cbn in Q; repeat (destruct Q as [Q|Q]; [discriminate Q|]); exact Q.
Ltac white := repeat (constructor; [first [left; vm_compute; lia | right; vm_compute; lia]|]); constructor.
Ltac black := repeat (constructor; [let H := fresh in intros [H|H]; vm_compute in H; lia|]); constructor.
(* one more word: s = b ++ w ++ r *)
Ltac word b w r := refine (W_word b w r _ _ _ _ _ _);
  [white | discriminate | black | first [left; reflexivity | right; eexists; eexists; split; [reflexivity | right; vm_compute; lia]] | ].
Lemma no_backslash s : ~ In backslash s -> forall a b, s = a ++ backslash :: b -> ~ Forall White b.
Proof. intros H a b -> _. apply H. apply in_or_app. right. left. reflexivity. Qed.
Lemma one_line s : ~ In newline s -> ~ In return_ s -> ~ In backslash s -> Rendered [s] (s ++ [newline]).
Proof. intros A B C. apply R_last; [exact A | exact B | apply no_backslash; exact C]. Qed.

Theorem C76_case : File sample rules
  /\ (exists D, parse_depends (Some sample) false false (fun t => if str_eqb t (lit "out/a.o") then [lit "src/a.h"; lit "z"] else []) = Done D
      /\ D (lit "out/a.o") = [lit "src/a.h"; lit "z"; lit "src/a.c"; lit "/usr/include/x.h"; lit "C:/y.h"] /\ D (lit "src/a.h") = [])
  /\ tdlist (crlf sample) = rules /\ tdlist (lit "a b : c") = [([lit "a"; lit "b"], [lit "c"])].
Proof.
  split; [|split].
  - unfold sample, rules.
    change (File ((lit "# made by gcc" ++ n1) ++ (seg1 ++ backslash :: [] ++ newline :: (seg2 ++ [newline])) ++ ([] ++ n1) ++ (lit "src/a.h:" ++ n1) ++ [])
      [([lit "out/a.o"], [lit "src/a.c"; lit "src/a.h"; lit "/usr/include/x.h"; lit "C:/y.h"]); ([lit "src/a.h"], [])]).
    apply (F_comment [lit "# made by gcc"] (lit " made by gcc")); [apply one_line; notin | reflexivity|].
    apply (F_rule [seg1; seg2] _ (lit "out/a.o") (lit " src/a.c src/a.h  /usr/include/x.h  C:/y.h")).
    + apply R_cont; [notin | notin | constructor | intros [] | intros []|]. apply one_line; notin.
    + reflexivity.
    + notin.
    + intros c E. discriminate E.
    + word (@nil ascii) (lit "out/a.o") (@nil ascii). apply W_end. constructor.
    + word (lit " ") (lit "src/a.c") (lit " src/a.h  /usr/include/x.h  C:/y.h").
      word (lit " ") (lit "src/a.h") (lit "  /usr/include/x.h  C:/y.h").
      word (lit "  ") (lit "/usr/include/x.h") (lit "  C:/y.h").
      word (lit "  ") (lit "C:/y.h") (@nil ascii). apply W_end. constructor.
    + apply (F_other [[]]); [apply one_line; notin | notin|].
      apply (F_rule [lit "src/a.h:"] _ (lit "src/a.h") []); [apply one_line; notin | reflexivity | notin | intros c E; discriminate E | | apply W_end; constructor | apply F_nil].
      word (@nil ascii) (lit "src/a.h") (@nil ascii). apply W_end. constructor.
  - eexists. split; [reflexivity|]. split; vm_compute; reflexivity.
  - split; vm_compute; reflexivity.
Qed.

(* What is not so *)
(* a continuation line joins the words, which make keeps apart *)
Theorem C76_refuted_continuation : tdlist (lit "a.o: b.h\" ++ n1 ++ lit "c.h" ++ n1) = [([lit "a.o"], [lit "b.hc.h"])].
Proof. vm_compute. reflexivity. Qed.
(* names with blanks, as compilers escape them *)
Theorem C76_refuted_blank : tdlist (lit "a.o: my\ file.h" ++ n1) = [([lit "a.o"], [lit "my\"; lit "file.h"])].
Proof. vm_compute. reflexivity. Qed.
(* a target with a colon in its name *)
Theorem C76_refuted_drive : tdlist (lit "C:\a.o: b.h" ++ n1) = [([lit "C"], [lit "\a.o:"; lit "b.h"])].
Proof. vm_compute. reflexivity. Qed.
(* comments that do not begin a line, and an indented one *)
Theorem C76_refuted_comment : tdlist (lit "a.o: b.h # why: x" ++ n1 ++ lit " # c: d" ++ n1) =
  [([lit "a.o"], [lit "b.h"; lit "#"; lit "why:"; lit "x"]); ([lit "#"; lit "c"], [lit "d"])].
Proof. vm_compute. reflexivity. Qed.
(* variables and double colons of a makefile *)
Theorem C76_refuted_makefile : tdlist (lit "CC := gcc" ++ n1 ++ lit "a:: b" ++ n1) = [([lit "CC"], [lit "="; lit "gcc"]); ([lit "a"], [lit ":"; lit "b"])].
Proof. vm_compute. reflexivity. Qed.
(* only_one with the empty rules that gcc -MP adds, or with the same target twice *)
Theorem C76_refuted_only_one : forall D, parse_depends (Some (lit "a.o: b.h" ++ n1 ++ lit "b.h:" ++ n1)) false true D = TooMany
  /\ parse_depends (Some (lit "a.o: b.h" ++ n1 ++ lit "a.o: c.h" ++ n1)) false true D = TooMany.
Proof. intros D. split; reflexivity. Qed.
(* a file that ends after a backslash *)
Theorem C76_case_unfinished : tdlist (lit "a: b " ++ [backslash] ++ n1) = [([lit "a"], [lit "b"])] /\ tdlist (lit "a: b " ++ [backslash]) = [([lit "a"], [lit "b"])].
Proof. split; reflexivity. Qed.
Print Assumptions C76_case_unfinished.
Print Assumptions C76_case.
Print Assumptions C76_refuted_continuation.
Print Assumptions C76_refuted_blank.
Print Assumptions C76_refuted_drive.
Print Assumptions C76_refuted_comment.
Print Assumptions C76_refuted_makefile.
Print Assumptions C76_refuted_only_one.
