(* C61: what does not hold *)
From Coq Require Import Ascii String List Bool Arith Lia.
Import ListNotations. Open Scope list_scope.
From Verif Require Import NameModel OptModel OptSpec OptProps OptProps5 OptProps6.

Definition outcome (argv : list word) (h : list op) : option (list res) := match start B1 D1 S1 argv with inl (p0, _) => match steps kinds1 p0 h with inl (_, l) => Some l | inr _ => None end | inr _ => None end.
Definition status (argv : list word) (h : list op) : option nat := match start B1 D1 S1 argv with inl (p0, _) => match steps kinds1 p0 h with inl _ => None | inr e => Some e end | inr e => Some e end.
(* the argument of an option of the project in a word of its own: the program ends, and the words were targets anyway (the man page says that the behaviour is undefined) *)
Definition foo := mk ["foo"%string] ["f"%char] "foo" (Args 0) AStore text VNone true.
Definition bar := mk ["bar"%string] [] "bar" (Args 0) AStore text VNone true.
Theorem C61_separate_refuted : status (map lit ["--foo"; "a"; "--bar"; "b"]%string) [OAdd foo; OAdd bar] = Some 2 /\
  status (map lit ["--foo=a"; "--bar=b"]%string) [OAdd foo; OAdd bar] = None /\
  exists p0 rest, start B1 D1 S1 (map lit ["--foo"; "a"; "--bar"; "b"]%string) = inl (p0, rest) /\ cl_targets (largs p0) rest = [lit "a"; lit "b"].
Proof. split; [vm_compute; reflexivity|]. split; [vm_compute; reflexivity|]. eexists _, _. split; vm_compute; reflexivity. Qed.
(* a word - keeps the options after it from being read when AddOption is called: GetOption gives the default, until all scripts have been read *)
Theorem C61_dash_word_refuted : outcome (map lit ["-"; "--foo=a"]%string) [OAdd foo; OGet (lit "foo")] = Some [RDone; RVal VNone] /\
  outcome (map lit ["--foo=a"; "-"]%string) [OAdd foo; OGet (lit "foo")] = Some [RDone; RVal (sv "a")] /\
  exists p0 rest p l p2, start B1 D1 S1 (map lit ["-"; "--foo=a"]%string) = inl (p0, rest) /\ steps kinds1 p0 [OAdd foo; OGet (lit "foo")] = inl (p, l) /\ validate p = inl p2 /\ get_option p2 (lit "foo") = RVal (sv "a").
Proof. split; [vm_compute; reflexivity|]. split; [vm_compute; reflexivity|]. eexists _, _, _, _, _. split; [vm_compute; reflexivity|]. split; [vm_compute; reflexivity|]. split; vm_compute; reflexivity. Qed.
(* --foo=a -fb: the last one wins, unless another option was added before *)
Theorem C61_two_forms_refuted : outcome (map lit ["--foo=a"; "-fb"]%string) [OAdd foo; OGet (lit "foo")] = Some [RDone; RVal (sv "b")] /\
  outcome (map lit ["--foo=a"; "-fb"]%string) [OAdd bar; OAdd foo; OGet (lit "foo")] = Some [RDone; RDone; RVal (sv "a")].
Proof. split; vm_compute; reflexivity. Qed.
(* an option that adds to a list which is not empty by default: the command line changes the default, and SetOption overrides it *)
Definition inc := mk ["inc"%string] [] "inc" (Args 0) AAppend text (VList [sv "std"]) true.
Theorem C61_append_default_refuted :
  outcome (map lit ["--inc=a"]%string) [OAdd inc; OGet (lit "inc"); OSet (lit "inc") (VList [sv "b"]); OGet (lit "inc")] = Some [RDone; RVal (VList [sv "std"; sv "a"]); RDone; RVal (VList [sv "b"])] /\
  outcome (map lit ["--foo=a"]%string) [OAdd foo; OGet (lit "foo"); OSet (lit "foo") (sv "b"); OGet (lit "foo")] = Some [RDone; RVal (sv "a"); RDone; RVal (sv "a")].
Proof. split; vm_compute; reflexivity. Qed.
(* hash_chunksize may be set, and not be asked for: it is stored as md5_chunksize *)
Theorem C61_chunksize_refuted : outcome [] [OSet (lit "hash_chunksize") (VNum 8); OGet (lit "hash_chunksize"); OGet (lit "md5_chunksize")] = Some [RDone; RError; RVal (VNum 8)].
Proof. vm_compute. reflexivity. Qed.
(* SetOption of implicit_deps_changed: GetOption says so, but what is used when building was taken before the scripts were read; implicit_cache is taken afterwards *)
Theorem C61_implicit_deps_refuted : exists p0 rest p l, start B1 D1 S1 [] = inl (p0, rest) /\ steps kinds1 p0 [OSet (lit "implicit_deps_changed") (VBool true)] = inl (p, l) /\
  get_option p (lit "implicit_deps_changed") = RVal (VBool true) /\ engine_deps p0 (lit "implicit_deps_changed") = Some (VBool false) /\ engine_cache p (lit "implicit_cache") = Some (VBool true).
Proof. eexists _, _, _, _. split; [vm_compute; reflexivity|]. split; [vm_compute; reflexivity|]. split; [vm_compute; reflexivity|]. split; vm_compute; reflexivity. Qed.
Print Assumptions C61a_precedence. Print Assumptions C61b_unknown. Print Assumptions C61c_targets. Print Assumptions C61_script_one. Print Assumptions C61_value_one. Print Assumptions C61_case. Print Assumptions C61_case_values.
Print Assumptions C61_case_unknown. Print Assumptions C61_separate_refuted. Print Assumptions C61_dash_word_refuted. Print Assumptions C61_two_forms_refuted. Print Assumptions C61_append_default_refuted.
Print Assumptions C61_chunksize_refuted. Print Assumptions C61_implicit_deps_refuted.
