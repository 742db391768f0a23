(* C58: a concrete case of every theorem, and claims that fail. *)
From Coq Require Import Ascii String List Bool Arith Lia.
Import ListNotations.
From Verif Require Import NameModel NameProps FlagModel FlagSpec FlagProps FlagProps2 FlagProps3 FlagProps4.
Open Scope list_scope.

Definition nobt : str -> res str := fun _ => Err OSError.
Definition L (s : string) : pv := PStr (lit s).
Definition got (r : res mapping) : mapping := match r with Ok m => m | Err _ => empty_mapping end.
Definition isok {A} (r : res A) : bool := match r with Ok _ => true | Err _ => false end.
Lemma got_ok : forall r, isok r = true -> r = Ok (got r).
Proof. intros [m|e] H; [reflexivity | discriminate]. Qed.
Definition line1 := lit "-I/usr/include -I inc -DA=b=c -DB -lm -Wl,-rpath=/x -Wl,-z -std=c++17 -std=c99 -isysroot '/s d' -pthread foo.a -Wa,-g -O2".
Definition p1 := got (ParseFlags nobt [FStr line1]).
Example C58_case_parse : ParseFlags nobt [FStr line1] = Ok p1 /\
  p1 CPPPATH = [L "/usr/include"; L "inc"] /\ p1 CPPDEFINES = [PList [L "A"; L "b=c"]; L "B"] /\ p1 LIBS = [L "m"; PFile (lit "foo.a")] /\ p1 RPATH = [L "/x"] /\
  p1 LINKFLAGS = [L "-Wl,-z"; PTuple [L "-isysroot"; L "/s d"]; L "-pthread"] /\ p1 CXXFLAGS = [L "-std=c++17"] /\ p1 CFLAGS = [L "-std=c99"] /\
  p1 CCFLAGS = [PTuple [L "-isysroot"; L "/s d"]; L "-pthread"; L "-Wa,-g"; L "-O2"] /\ p1 ASFLAGS = [L "-g"].
Proof. split; [apply got_ok; vm_compute; reflexivity|]. repeat split; vm_compute; reflexivity. Qed.
Example C58_case_reads : exists rs, Forall2 (fun s (r : list (var * pv)) => exists ws l, words_of nobt s ws /\ reads ws r l) [line1] rs /\ forall v, p1 v = for_var v (concat rs).
Proof. destruct C58_case_parse as [H _]. exact (proj1 (C58a_flags_go_where_documented nobt [FStr line1]) p1 H). Qed.
Example C58_case_nested : ParseFlags nobt [FSeq [FStr (lit "-O2"); FSeq [FStr (lit "-Dfoo -Dbar=1")]]] = ParseFlags nobt [FStr (lit "-O2"); FStr (lit "-Dfoo -Dbar=1")].
Proof. apply C58b_nesting_is_irrelevant. reflexivity. Qed.
Lemma reads_one : forall w ws cs l, is_option w -> takes (rw w) w = false -> reads ws cs l -> reads (w :: ws) (contrib (rw w) w [] ++ cs) l.
Proof. intros. apply reads_flag with (r := rw w); auto using rw_best, contrib_spec. intros T. apply takes_spec in T. congruence. Qed.
Lemma dash : forall r, is_option ("-"%char :: r).
Proof. intros r. exists "-"%char, r. auto. Qed.
(* the documentation's three calls, Environment.xml 2755-2760 *)
Example C58_case_doc_example :
  ParseFlags nobt [FStr (lit "-O2 -Dfoo -Dbar=1")] = ParseFlags nobt [FStr (lit "-O2"); FStr (lit "-Dfoo"); FStr (lit "-Dbar=1")] /\
  ParseFlags nobt [FStr (lit "-O2 -Dfoo -Dbar=1")] = ParseFlags nobt [FSeq [FStr (lit "-O2"); FStr (lit "-Dfoo -Dbar=1")]].
Proof.
  split.
  - apply (C58c_words_may_be_split nobt _ (lit "-O2 -Dfoo -Dbar=1") [lit "-O2"; lit "-Dfoo"; lit "-Dbar=1"] [lit "-O2"; lit "-Dfoo"; lit "-Dbar=1"]
      [([lit "-O2"], contrib (rw (lit "-O2")) (lit "-O2") [] ++ []); ([lit "-Dfoo"], contrib (rw (lit "-Dfoo")) (lit "-Dfoo") [] ++ []); ([lit "-Dbar=1"], contrib (rw (lit "-Dbar=1")) (lit "-Dbar=1") [] ++ [])] [] []).
    + reflexivity.
    + right. right. split; [discriminate|]. split; [discriminate | vm_compute; reflexivity].
    + repeat (constructor; [split; [right; right; split; [discriminate | split; [discriminate | vm_compute; reflexivity]] | apply reads_one; [apply dash | vm_compute; reflexivity | constructor]]|]). constructor.
    + reflexivity.
  - rewrite (C58b_nesting_is_irrelevant nobt [FSeq [FStr (lit "-O2"); FStr (lit "-Dfoo -Dbar=1")]] [FStr (lit "-O2"); FStr (lit "-Dfoo -Dbar=1")]) by reflexivity.
    apply (C58e_one_string_or_two nobt (lit "-O2") (lit "-Dfoo -Dbar=1") [lit "-O2"] [lit "-Dfoo"; lit "-Dbar=1"]
      (contrib (rw (lit "-O2")) (lit "-O2") [] ++ []) (contrib (rw (lit "-Dfoo")) (lit "-Dfoo") [] ++ contrib (rw (lit "-Dbar=1")) (lit "-Dbar=1") [] ++ []));
      try discriminate; try (vm_compute; reflexivity); repeat (apply reads_one; [apply dash | vm_compute; reflexivity |]); constructor.
Qed.
Ltac plainw := repeat (constructor; [unfold harmless; cbn; first [left; lia | right; left; lia | right; right; left; lia | right; right; right; tauto]|]); constructor.
Ltac noin := cbn; let K := fresh in intros K; repeat (destruct K as [K | K]; [discriminate|]); exact K.
Example C58_case_quotes : shlex_split (lit "-Dx=1 '-DMSG=it'""'""'s here' '' ""a\""b\c\\""\ d") = Ok [lit "-Dx=1"; lit "-DMSG=it's here"; []; lit "a""b\c\ d"].
Proof.
  apply (C58d_quoted_words_arrive [lit "-Dx=1"; lit "-DMSG=it's here"; []; lit "a""b\c\ d"] [lit "-Dx=1"; lit "'-DMSG=it'""'""'s here'"; lit "''"; lit """a\""b\c\\""\ d"]).
  constructor; [apply quotes_plain; [discriminate | plainw]|].
  constructor.
  { apply (quotes_more (lit "-DMSG=it") (lit "'-DMSG=it'") (lit "'s here") (lit """'""'s here'")); [apply (piece_single (lit "-DMSG=it")); noin|].
    apply (quotes_more (lit "'") (lit """'""") (lit "s here") (lit "'s here'")); [apply (piece_double (lit "'") (lit "'")); repeat constructor; discriminate|].
    apply quotes_one, (piece_single (lit "s here")). noin. }
  constructor; [apply quotes_one, (piece_single []); noin|]. constructor; [|constructor].
  apply (quotes_more (lit "a""b\c\") (lit """a\""b\c\\""") (lit " d") (lit "\ d")).
  - apply (piece_double (lit "a""b\c\") (lit "a\""b\c\\")). apply bd_char; [discriminate | discriminate|]. apply bd_escaped; [left; reflexivity|]. apply bd_char; [discriminate | discriminate|].
    apply bd_backslash; [discriminate | discriminate|]. apply bd_escaped; [right; reflexivity|]. constructor.
  - apply (quotes_more (lit " ") (lit "\ ") (lit "d") (lit "d")); [apply piece_escaped|]. apply quotes_plain; [discriminate | plainw].
Qed.
Example C58_case_accepted : exists m, ParseFlags nobt [FStr line1] = Ok m.
Proof.
  apply C58f_accepted. intros s [<- | []]. eexists. split; [right; right; split; [discriminate | split; [discriminate | vm_compute; reflexivity]]|].
  cbn. intros H. repeat (destruct H as [H | H]; [discriminate|]). exact H.
Qed.
Definition e0 : env := upd (upd (upd (fun _ => None) (lit "CPPPATH") (PList [L "inc"; L "z"])) (lit "CCFLAGS") (PCL [L "-O2"; L "-g"])) (lit "CC") (L "gcc").
Lemma e0_listlike : forall x, listlike (e0 (var_name x)).
Proof. intros []; exact Logic.I. Qed.
Definition gote (r : res env) : env := match r with Ok m => m | Err _ => e0 end.
Lemma gote_ok : forall r, isok r = true -> r = Ok (gote r).
Proof. intros [m|e] H; [reflexivity | discriminate]. Qed.
Example C58_case_merge : exists e1 t1 t2, MergeFlags nobt e0 (FStr line1) = Ok e1 /\
  e1 (lit "CPPPATH") = Some (PList t1) /\ t1 = [L "inc"; L "z"; L "/usr/include"] /\
  e1 (lit "CCFLAGS") = Some (PList t2) /\ t2 = [L "-g"; PTuple [L "-isysroot"; L "/s d"]; L "-pthread"; L "-Wa,-g"; L "-O2"] /\ e1 (lit "CC") = Some (L "gcc") /\
  exists e2, MergeFlags nobt e1 (FStr line1) = Ok e2 /\ forall k, e2 k = e1 k.
Proof.
  assert (G : MergeFlags nobt e0 (FStr line1) = Ok (gote (MergeFlags nobt e0 (FStr line1)))) by (apply gote_ok; vm_compute; reflexivity).
  exists (gote (MergeFlags nobt e0 (FStr line1))).
  exists [L "inc"; L "z"; L "/usr/include"], [L "-g"; PTuple [L "-isysroot"; L "/s d"]; L "-pthread"; L "-Wa,-g"; L "-O2"].
  split; [exact G|]. split; [vm_compute; reflexivity|]. split; [reflexivity|]. split; [vm_compute; reflexivity|]. split; [reflexivity|]. split; [vm_compute; reflexivity|].
  apply (C58j_merge_twice nobt e0 (FStr line1) _ G e0_listlike).
Qed.
Example C58_case_merge_dict : exists e' args', MergeFlags_dict e0 [(lit "CCFLAGS", L "-Wall -g"); (lit "LIBS", PList [L "m"]); (lit "CPPPATH", PList [])] = Ok (e', args') /\
  e' (lit "CCFLAGS") = Some (PList [L "-O2"; L "-Wall"; L "-g"]) /\ e' (lit "LIBS") = Some (PList [L "m"]) /\ e' (lit "CPPPATH") = e0 (lit "CPPPATH").
Proof.
  destruct (C58g_merge_removes_duplicates [(lit "CCFLAGS", L "-Wall -g"); (lit "LIBS", PList [L "m"]); (lit "CPPPATH", PList [])] e0) as (e' & a' & E & H1 & H2).
  - assert (K : nodup str_eq_dec [lit "CCFLAGS"; lit "LIBS"; lit "CPPPATH"] = [lit "CCFLAGS"; lit "LIBS"; lit "CPPPATH"]) by (vm_compute; reflexivity). cbn [map fst]. rewrite <- K. apply NoDup_nodup.
  - intros k v H T. destruct H as [H | [H | [H | []]]]; injection H as <- <-.
    + exists ([L "-O2"; L "-g"] ++ [L "-Wall"; L "-g"]). apply merged_clvar; [discriminate | apply (items_str (lit "-Wall -g"))].
    + exists [L "m"]. apply merged_new; [left; reflexivity | constructor].
    + exfalso. apply T. constructor.
  - exists e', a'. split; [exact E|]. split; [|split].
    + destruct (H1 (lit "CCFLAGS") (L "-Wall -g") ([L "-O2"; L "-g"] ++ [L "-Wall"; L "-g"])) as (t & -> & U); [left; reflexivity | apply something_truthy; reflexivity | |].
      * apply merged_clvar; [discriminate | apply (items_str (lit "-Wall -g"))].
      * rewrite (proj2 U); [vm_compute; reflexivity|]. intros P. apply path_key in P. vm_compute in P. discriminate.
    + destruct (H1 (lit "LIBS") (PList [L "m"]) [L "m"]) as (t & -> & U); [right; left; reflexivity | apply something_truthy; reflexivity | |].
      * apply merged_new; [left; reflexivity | constructor].
      * rewrite (proj2 U); [vm_compute; reflexivity|]. intros P. apply path_key in P. vm_compute in P. discriminate.
    + apply H2. intros v [H | [H | [H | []]]]; try (exfalso; vm_compute in H; discriminate). injection H as <-. constructor.
Qed.
Example C58_case_defines : exists m, ParseFlags nobt [FStr (lit "-DA=1 -DB")] = Ok m /\ processDefines (var_value m CPPDEFINES) = Ok [lit "A=1"; lit "B"] /\ forall x, x <> CPPDEFINES -> m x = [].
Proof.
  apply (C58l_define_flags nobt [lit "A=1"; lit "B"]); [|discriminate].
  repeat (constructor; [split; [discriminate | repeat (constructor; [unfold harmless; cbn; first [left; lia | right; left; lia | right; right; left; lia | right; right; right; tauto]|]); constructor]|]). constructor.
Qed.

(* ---- claims that fail ---- *)
(* every well-quoted string is accepted: an empty word stops ParseFlags with an IndexError *)
Theorem C58_every_string_accepted_refuted : ~ forall s ws, shlex_split s = Ok ws -> exists m, ParseFlags nobt [FStr s] = Ok m.
Proof. intros H. destruct (H (lit "-O2 ''") [lit "-O2"; []]) as (m & E); [vm_compute; reflexivity|]. vm_compute in E. discriminate. Qed.
(* a list of words is read like the words in one string: a flag is separated from its argument, is lost, and its argument becomes a library *)
Theorem C58_list_of_words_refuted : ~ forall ws, Forall (fun w => w <> [] /\ Forall harmless w) ws -> ParseFlags nobt [FSeq (map FStr ws)] = ParseFlags nobt [FStr (join_with " "%char ws)].
Proof.
  intros H. assert (E := H [lit "-isystem"; lit "inc"]). assert (F : got (ParseFlags nobt [FSeq (map FStr [lit "-isystem"; lit "inc"])]) LIBS = got (ParseFlags nobt [FStr (join_with " "%char [lit "-isystem"; lit "inc"])]) LIBS).
  { rewrite E; [reflexivity|].
    repeat (constructor; [split; [discriminate | repeat (constructor; [unfold harmless; cbn; first [left; lia | right; left; lia | right; right; left; lia | right; right; right; tauto]|]); constructor]|]). constructor. }
  vm_compute in F. discriminate.
Qed.
Example C58_lost_flag : exists m, ParseFlags nobt [FSeq [FStr (lit "-isystem"); FStr (lit "inc")]] = Ok m /\ m CCFLAGS = [] /\ m LIBS = [PFile (lit "inc")].
Proof. exists (got (ParseFlags nobt [FSeq [FStr (lit "-isystem"); FStr (lit "inc")]])). split; [apply got_ok; vm_compute; reflexivity | split; vm_compute; reflexivity]. Qed.
(* -std= flags go to CFLAGS, as the table says: those of C++ go to CXXFLAGS *)
Theorem C58_std_refuted : ~ forall w m, ParseFlags nobt [FStr (lit "-std=" ++ w)] = Ok m -> m CXXFLAGS = [].
Proof. intros H. assert (E := H (lit "c++17") (got (ParseFlags nobt [FStr (lit "-std=c++17")]))). assert (K : ParseFlags nobt [FStr (lit "-std=c++17")] = Ok (got (ParseFlags nobt [FStr (lit "-std=c++17")]))) by (apply got_ok; vm_compute; reflexivity). specialize (E K). vm_compute in E. discriminate. Qed.
(* MergeFlags leaves the caller's dictionary alone: the old value of the variable is put into the caller's list, and from there into the next environment *)
Definition eA : env := upd (fun _ => None) (lit "LIBS") (L "m").
Definition eB : env := fun _ => None.
Theorem C58_merge_keeps_the_dictionary_refuted : ~ forall e args e' args', MergeFlags_dict e args = Ok (e', args') -> args' = args.
Proof.
  intros H. assert (E := H eA [(lit "LIBS", PList [L "z"])] (upd eA (lit "LIBS") (PList [L "m"; L "z"])) [(lit "LIBS", PList [L "m"; L "z"])]).
  assert (F : [(lit "LIBS", PList [L "m"; L "z"])] = [(lit "LIBS", PList [L "z"])]) by (apply E; vm_compute; reflexivity). discriminate.
Qed.
Example C58_merge_leak : exists e1 args1 e2 args2,
  MergeFlags_dict eA [(lit "LIBS", PList [L "z"])] = Ok (e1, args1) /\ MergeFlags_dict eB args1 = Ok (e2, args2) /\ e2 (lit "LIBS") = Some (PList [L "m"; L "z"]).
Proof. do 4 eexists. split; [cbn; reflexivity|]. split; [cbn; reflexivity|]. vm_compute. reflexivity. Qed.
(* values of a construction variable of another environment can be merged: not those of CPPDEFINES after an Append, which are a deque *)
Theorem C58_merge_deque_refuted : ~ forall e v, ~ nothing v -> exists r, MergeFlags_dict e [(CPPDEFINES_key, v)] = Ok r.
Proof. intros H. destruct (H eB (PDeque [L "A"]) ltac:(apply something_truthy; reflexivity)) as (r & E). vm_compute in E. discriminate. Qed.
(* nor can a tuple be merged into a string; into a list it goes as one element *)
Theorem C58_merge_tuple_refuted : ~ forall e k v, ~ nothing v -> (forall q, v <> PDeque q) -> exists r, MergeFlags_dict e [(k, v)] = Ok r.
Proof. intros H. destruct (H eA (lit "LIBS") (PTuple [L "a"]) ltac:(apply something_truthy; reflexivity)) as (r & E); [discriminate|]. vm_compute in E. discriminate. Qed.
Theorem C58_merge_tuple_elements_refuted : ~ forall e k l e' a x, MergeFlags_dict e [(k, PTuple l)] = Ok (e', a) -> In x l -> exists t, e' k = Some (PList t) /\ In x t.
Proof.
  intros H. set (e := upd (fun _ => None) (lit "LIBS") (PList [L "m"])).
  destruct (H e (lit "LIBS") [L "a"; L "b"] (upd e (lit "LIBS") (PList [L "m"; PTuple [L "a"; L "b"]])) [(lit "LIBS", PTuple [L "a"; L "b"])] (L "a")) as (t & E & I).
  - vm_compute. reflexivity.
  - left. reflexivity.
  - vm_compute in E. injection E as <-. destruct I as [E | [E | []]]; discriminate.
Qed.
Print Assumptions C58_case_parse.
Print Assumptions C58_case_reads.
Print Assumptions C58_case_nested.
Print Assumptions C58_case_doc_example.
Print Assumptions C58_case_quotes.
Print Assumptions C58_case_accepted.
Print Assumptions C58_case_merge.
Print Assumptions C58_case_merge_dict.
Print Assumptions C58_case_defines.
Print Assumptions C58_every_string_accepted_refuted.
Print Assumptions C58_list_of_words_refuted.
Print Assumptions C58_lost_flag.
Print Assumptions C58_std_refuted.
Print Assumptions C58_merge_keeps_the_dictionary_refuted.
Print Assumptions C58_merge_leak.
Print Assumptions C58_merge_deque_refuted.
Print Assumptions C58_merge_tuple_refuted.
Print Assumptions C58_merge_tuple_elements_refuted.
