(* C74: a concrete case, and what is not so *)
From Coq Require Import Ascii String List Bool Arith Lia Permutation.
From Verif Require Import SubstModel TxtModel TxtSpec TxtProps TxtProps2.
Import ListNotations.
Open Scope list_scope.
Notation lit s := (list_ascii_of_string s%string).

Definition E0 (extra : dict) : senv :=
  {| gv := extra ++ [(lit "SUBSTFILEPREFIX", VStr []); (lit "SUBSTFILESUFFIX", VStr []); (lit "TEXTFILEPREFIX", VStr []); (lit "TEXTFILESUFFIX", VStr (lit ".txt"))];
     ev := fun _ _ => EAllowed; strict := false; f_ok := fun _ => false; f_call := fun _ _ _ => VNone; f_str := fun _ _ => [] |}.
Definition mk (extra : dict) (d : option sdict) (sep : str) (enc : str) : tenv := {| te_env := E0 extra; te_dict := d; te_sep := Some sep; te_enc := enc |}.
Definition utf8 : str := lit "utf-8".
Definition nl : str := [ascii_of_nat 10].
Definition crlf : str := [ascii_of_nat 13; ascii_of_nat 10].
Definition ident (x : ascii) : bool := is_alpha_ x || is_digit x.
Definition at_ : ascii := "@"%char.

(* the case: @NAME@ references *)
Definition tmpl : list piece := [Lit (lit "name="); Ref (lit "NAME"); Lit (lit " in "); Ref (lit "PREFIX"); Lit (lit "/bin, "); Ref (lit "OTHER")].
Definition dd : list (text * text) := [(lit "NAME", lit "it's"); (lit "PREFIX", lit "/usr")].
Lemma name_ok n : n = lit "NAME" \/ n = lit "PREFIX" \/ n = lit "OTHER" -> IsName at_ at_ ident n.
Proof.
  intros H. destruct H as [-> | [-> | ->]]; (split; [discriminate|]); (split; [repeat constructor|]);
    split; intros Q; repeat (destruct Q as [Q|Q]; [discriminate Q|]); exact Q.
Qed.
Theorem C74_case :
  WellFormed at_ at_ ident tmpl /\ GoodDict at_ at_ ident dd /\ NoDup (map fst dd)
  /\ do_subst (map (fun nv => (key at_ at_ (fst nv), snd nv)) dd) (lit "name=@NAME@ in @PREFIX@/bin, @OTHER@") = lit "name=it's in /usr/bin, @OTHER@"
  /\ SigReady subst_varlist (mk [] (Some (SDict (strs (map (fun nv => (key at_ at_ (fst nv), snd nv)) dd)))) (lit "|*") utf8)
       (map (fun nv => (key at_ at_ (fst nv), snd nv)) dd) (lit "|*") [] []
  /\ signature 2 (lit "CODE") subst_varlist [] (mk [] (Some (SDict (strs (map (fun nv => (key at_ at_ (fst nv), snd nv)) dd)))) (lit "|*") utf8)
     = Ok (lit "CODE{'@NAME@': " ++ [q2] ++ lit "it's" ++ [q2] ++ lit ", '@PREFIX@': '/usr'}|*")
  /\ textfile 5 (mk [] None nl utf8) [lit "install"] 1 [SrcStr (lit "lalala"); SrcList [SrcStr (lit "Goethe"); SrcNode (lit "42")]; SrcStr []]
     = Ok (lit "lalala" ++ nl ++ lit "Goethe" ++ nl ++ lit "42" ++ nl).
Proof.
  assert (Hn : ~ In at_ (lit "name=") /\ ~ In at_ (lit " in ") /\ ~ In at_ (lit "/bin, ") /\ ~ In at_ (lit "it's") /\ ~ In at_ (lit "/usr")).
  { split; [|split; [|split; [|split]]]; intros Q; cbn in Q; repeat (destruct Q as [Q|Q]; [discriminate Q|]); exact Q. }
  destruct Hn as [H1 [H2 [H3 [H4 H5]]]].
  split.
  { unfold tmpl. cbn [WellFormed]. split; [exact H1|]. split; [apply name_ok; tauto|]. split; [right; reflexivity|].
    split; [exact H2|]. split; [apply name_ok; tauto|]. split; [right; reflexivity|]. split; [exact H3|].
    split; [apply name_ok; tauto|]. split; [right; exact Logic.I | exact Logic.I]. }
  split.
  { constructor; [split; [apply name_ok; cbn; tauto | exact H4]|]. constructor; [split; [apply name_ok; cbn; tauto | exact H5]|]. constructor. }
  split.
  { repeat constructor; intros Q; cbn in Q; repeat (destruct Q as [Q|Q]; [discriminate Q|]); exact Q. }
  split; [vm_compute; reflexivity|]. split.
  { split; [reflexivity|]. split; [reflexivity|]. split.
    - repeat constructor; cbn; try discriminate; intros [Q1 Q2]; discriminate.
    - split; [|split; [reflexivity|]; split; [reflexivity|]; split; intros []].
      split; [cbn; repeat split; try discriminate; intros [Q1 Q2]; discriminate|].
      split; [intros x Q; cbn in Q; repeat (destruct Q as [<-|Q]; [discriminate|]); contradiction|].
      split.
      + intros x r Q. injection Q as <- _. unfold visible. vm_compute. lia.
      + intros x r Q. change (lit "|*") with ([("|"%char)] ++ ["*"%char]) in Q. apply last_of in Q. subst x. unfold visible. vm_compute. lia. }
  split; [vm_compute; reflexivity | vm_compute; reflexivity].
Qed.

(* What is rebuilt: claims that do not hold.  Each: the same signature, another text. *)
Definition same_sig (T1 T2 : tenv) : Prop :=
  exists s, signature 6 [] subst_varlist [] T1 = Ok s /\ signature 6 [] subst_varlist [] T2 = Ok s.
Definition other_text (T1 T2 : tenv) : Prop :=
  exists srcs t1 t2, action_text 6 T1 srcs = Ok t1 /\ action_text 6 T2 srcs = Ok t2 /\ t1 <> t2.
Ltac wit srcs := split; [eexists; split; vm_compute; reflexivity | exists srcs; eexists; eexists; (split; [vm_compute; reflexivity|]); (split; [vm_compute; reflexivity|]); vm_compute; discriminate].

(* LINESEPARATOR from \n to \r\n *)
Theorem C74_refuted_line_separator : same_sig (mk [] None nl utf8) (mk [] None crlf utf8) /\ other_text (mk [] None nl utf8) (mk [] None crlf utf8).
Proof. wit [lit "a"; lit "b"]. Qed.
(* a construction variable named in a value of a dictionary *)
Definition verd (v : string) : tenv := mk [(lit "VERSION", VStr (lit v))] (Some (SDict [(lit "@v@", TvStr (lit "$VERSION"))])) nl utf8.
Theorem C74_refuted_variable_in_value : same_sig (verd "1.0") (verd "2.0") /\ other_text (verd "1.0") (verd "2.0").
Proof. wit [lit "v=@v@"]. Qed.
(* with a list of pairs, the same change is seen *)
Definition vers (v : string) : tenv := mk [(lit "VERSION", VStr (lit v))] (Some (SSeq [(lit "@v@", TvStr (lit "$VERSION"))])) nl utf8.
Theorem C74_case_sequence : ~ same_sig (vers "1.0") (vers "2.0") /\ signature 6 [] subst_varlist [] (vers "1.0") = Ok (lit "@v@ 1.0").
Proof.
  split; [|vm_compute; reflexivity]. intros [s [S1 S2]]. vm_compute in S1, S2. rewrite <- S1 in S2. discriminate S2.
Qed.
(* but the pairs run together *)
Definition seqd (k v : string) : tenv := mk [] (Some (SSeq [(lit k, TvStr (lit v))])) nl utf8.
Theorem C74_refuted_pairs : same_sig (seqd "a" "b c") (seqd "a b" "c") /\ other_text (seqd "a" "b c") (seqd "a b" "c").
Proof. wit [lit "a b"]. Qed.
(* the order of a dictionary, when a value contains another key *)
Definition ord1 : tenv := mk [] (Some (SDict [(lit "@a@", TvStr (lit "@b@")); (lit "@b@", TvStr (lit "x"))])) nl utf8.
Definition ord2 : tenv := mk [] (Some (SDict [(lit "@b@", TvStr (lit "x")); (lit "@a@", TvStr (lit "@b@"))])) nl utf8.
Theorem C74_refuted_order : same_sig ord1 ord2 /\ other_text ord1 ord2.
Proof. wit [lit "@a@"]. Qed.
(* blanks in a value, before an opening brace; the part of a value between $( and $) *)
Definition val1 (v : string) : tenv := mk [] (Some (SDict [(lit "@v@", TvStr (lit v))])) nl utf8.
Theorem C74_refuted_blanks : same_sig (val1 "int  x {") (val1 "int x {") /\ other_text (val1 "int  x {") (val1 "int x {").
Proof. wit [lit "@v@"]. Qed.
Theorem C74_refuted_paren : same_sig (val1 "a $( b $) c") (val1 "a $( d $) c") /\ other_text (val1 "a $( b $) c") (val1 "a $( d $) c").
Proof. wit [lit "@v@"]. Qed.
(* a callable whose repr stays and whose result changes *)
Definition call1 (v : string) : tenv := mk [] (Some (SDict [(lit "@v@", TvFun (lit "<built-in function getcwd>") true (lit v))])) nl utf8.
Theorem C74_refuted_callable : same_sig (call1 "/a") (call1 "/b") /\ other_text (call1 "/a") (call1 "/b").
Proof. wit [lit "@v@"]. Qed.
(* FILE_ENCODING: the text is the same, the bytes are not *)
Definition enc16 (name t : str) : str := if str_eqb name utf8 then t else flat_map (fun x => [x; ascii_of_nat 0]) t.
Theorem C74_refuted_encoding : exists T1 T2 srcs b1 b2, same_sig T1 T2
  /\ action_bytes enc16 6 T1 srcs = Ok b1 /\ action_bytes enc16 6 T2 srcs = Ok b2 /\ b1 <> b2.
Proof.
  exists (mk [] None nl utf8), (mk [] None nl (lit "utf-16-le")), [lit "a"]. eexists. eexists.
  split; [eexists; split; vm_compute; reflexivity|]. split; [vm_compute; reflexivity|]. split; [vm_compute; reflexivity|]. vm_compute. discriminate.
Qed.
(* a value with a $( of its own: the text could be written, but the signature is an error and the build fails *)
Theorem C74_refuted_open_paren : exists t, action_text 6 (val1 "cost $(5") [lit "@v@"] = Ok t /\ signature 6 [] subst_varlist [] (val1 "cost $(5") = Err.
Proof. eexists. split; vm_compute; reflexivity. Qed.

(* What is written: claims that do not hold *)
(* without the condition on literals, @..@ keys depend on the order: the @b@ between two other references *)
Theorem C74_refuted_same_delimiter :
  do_subst [(lit "@b@", lit "X"); (lit "@a@", lit "1"); (lit "@c@", lit "2")] (lit "@a@b@c@") = lit "@aXc@"
  /\ do_subst [(lit "@a@", lit "1"); (lit "@b@", lit "X"); (lit "@c@", lit "2")] (lit "@a@b@c@") = lit "1b2".
Proof. split; vm_compute; reflexivity. Qed.
(* a line of a Textfile that is the name of an alias cannot be written *)
Theorem C74_refuted_alias_line : exists aliases s, ~ In "$"%char s /\ textfile 6 (mk [] None nl utf8) aliases 1 [SrcStr s] = Err
  /\ textfile 6 (mk [] None nl utf8) [] 1 [SrcStr s] = Ok s.
Proof.
  exists [lit "install"], (lit "install"). split; [intros Q; cbn in Q; repeat (destruct Q as [Q|Q]; [discriminate Q|]); exact Q|].
  split; vm_compute; reflexivity.
Qed.
(* an empty key *)
Theorem C74_refuted_empty_key : do_subst [([], lit "-")] (lit "ab") = lit "-a-b-".
Proof. vm_compute. reflexivity. Qed.
(* values: expanded without the treatment of blanks that command lines get; callables called, and their strings expanded; other objects as text *)
Theorem C74_case_values :
  action_text 6 (mk [(lit "X", VStr (lit "1"))] (Some (SDict [(lit "@v@", TvStr (lit "$X  $( b  ")); (lit "@f@", TvFun (lit "<function>") true (lit "${X}2")); (lit "@g@", TvFun (lit "<function>") false (lit "$X")); (lit "@o@", TvObj (lit "[$X]"))])) nl utf8)
    [lit "@v@|@f@|@g@|@o@"] = Ok (lit "1  $( b  |12|$X|[$X]").
Proof. vm_compute. reflexivity. Qed.
Print Assumptions C74_case_values.
Print Assumptions C74_case.
Print Assumptions C74_refuted_line_separator.
Print Assumptions C74_refuted_variable_in_value.
Print Assumptions C74_case_sequence.
Print Assumptions C74_refuted_pairs.
Print Assumptions C74_refuted_order.
Print Assumptions C74_refuted_blanks.
Print Assumptions C74_refuted_paren.
Print Assumptions C74_refuted_callable.
Print Assumptions C74_refuted_encoding.
Print Assumptions C74_refuted_open_paren.
Print Assumptions C74_refuted_same_delimiter.
Print Assumptions C74_refuted_alias_line.
Print Assumptions C74_refuted_empty_key.
