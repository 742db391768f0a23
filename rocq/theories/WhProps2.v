(* C78: cases, and what does not hold. *)
From Coq Require Import Ascii String List Bool Arith Lia.
From Verif Require Import SubstModel WhModel WhSpec WhProps.
From Verif Require NameModel PdModel PdSpec.
Import ListNotations.
Open Scope list_scope.
Definition lit (s : string) : str := list_ascii_of_string s.
Definition at_ (s : string) : path := rev (filter (fun w => negb (str_eqb w [])) (NameModel.split_on slash (lit s))).
Fixpoint path_eqb (a b : path) : bool := match a, b with [], [] => true | x :: a, y :: b => str_eqb x y && path_eqb a b | _, _ => false end.
Fixpoint table (l : list (string * entry)) (p : path) : option entry :=
  match l with [] => None | (s, e) :: r => if path_eqb p (at_ s) then Some e else table r p end.
Definition tree : list (string * entry) :=
  [("/", Dir); ("/usr", Dir); ("/usr/bin", Dir); ("/usr/bin/gcc", File true); ("/usr/bin/notes", File false); ("/usr/bin/sub", Dir); ("/usr/bin/sub/tool", File true);
   ("/home", Dir); ("/home/u", Dir); ("/home/u/bin", Dir); ("/home/u/bin/gcc", File true); ("/home/u/bin/cc", File false); ("/usr/bin/cc", File true); ("/home/u/mine", File true)]%string.
Definition fs := table tree.
Definition home : path := at_ "/home/u".
Lemma table_nolinks l : (forall s e, In (s, e) l -> forall t, e <> Link t) -> NoLinks (table l).
Proof.
  intros H p t. induction l as [|[s e] l IH]; cbn [table]; [discriminate|]. destruct (path_eqb p (at_ s)).
  - intros E. injection E as E. exact (H s e (or_introl eq_refl) t E).
  - apply IH. intros s' e' Hi. apply (H s' e'). right. exact Hi.
Qed.
Definition PATH := Some (PText (lit "bin:/usr/bin:")).
Theorem C78_case :
  fs [] = Some Dir /\ NoLinks fs
  /\ whereis fs home None (lit "gcc") PATH [] = Some (lit "bin/gcc")
  /\ whereis fs home None (lit "gcc") PATH [lit "bin/gcc"] = Some (lit "/usr/bin/gcc")
  (* bin/cc cannot be executed; the empty entry at the end is the current directory *)
  /\ whereis fs home None (lit "cc") PATH [] = Some (lit "/usr/bin/cc")
  /\ whereis fs home None (lit "mine") PATH [] = Some (lit "mine")
  /\ whereis fs home None (lit "sub") PATH [] = None /\ whereis fs home None (lit "notes") PATH [] = None
  /\ whereis fs home (Some (lit "/usr/bin")) (lit "gcc") None [] = Some (lit "/usr/bin/gcc") /\ whereis fs home None (lit "gcc") None [] = None
  /\ whereis fs home None (lit "/usr/bin/../bin/gcc") PATH [] = Some (lit "/usr/bin/gcc")
  /\ whereis fs home None (lit "gcc") (Some (PList [lit "../u/./bin/"; lit "/usr/bin"])) [] = Some (lit "../u/bin/gcc")
  /\ env_whereis fs home None PATH None (lit " cc -m32") [] = Found (lit "/usr/bin/cc")
  /\ env_whereis fs home None PATH (Some (PText (lit "/home/u/bin"))) (lit "cc") [] = NotFound
  /\ detect fs home None PATH [lit "icc"; lit "notes"; lit "cc -m32"; lit "gcc"] = Found (lit "cc -m32")
  /\ detect fs home None PATH [lit "icc"] = NotFound.
Proof.
  split; [reflexivity|]. split.
  - apply table_nolinks. intros s e H t ->. repeat (destruct H as [H|H]; [discriminate H|]). exact H.
  - repeat split; vm_compute; reflexivity.
Qed.
(* .. is taken out of the result together with the name before it: through a symbolic link the result names something else, or nothing *)
Definition linked := table ([("/", Dir); ("/opt", Link (at_ "/x/y")); ("/x", Dir); ("/x/y", Dir); ("/x/bin", Dir); ("/x/bin/gcc", File true); ("/bin", Dir); ("/bin/gcc", File false)]%string).
Theorem C78_refuted_links :
  whereis linked [] None (lit "gcc") (Some (PText (lit "/opt/../bin"))) [] = Some (lit "/bin/gcc")
  /\ Has linked [] (lit "/opt/../bin") (lit "gcc") (at_ "/x/bin/gcc")
  /\ Names linked [] (lit "/bin/gcc") (at_ "/bin/gcc") /\ linked (at_ "/bin/gcc") = Some (File false).
Proof.
  split; [vm_compute; reflexivity|]. split.
  - apply (has_names linked [] (lit "/opt/../bin") (lit "gcc") (at_ "/x/bin/gcc") eq_refl). split; [discriminate|]. split; [reflexivity|]. apply leads_walk. vm_compute. reflexivity.
  - split; [apply leads_walk; vm_compute; reflexivity | reflexivity].
Qed.
(* reject is compared with the path before it is normalized *)
Theorem C78_refuted_reject : whereis fs home None (lit "gcc") (Some (PText (lit "/usr//bin"))) [lit "/usr/bin/gcc"] = Some (lit "/usr/bin/gcc").
Proof. vm_compute. reflexivity. Qed.
(* a name with a slash is looked for in the search path too, which a shell does not do *)
Theorem C78_refuted_slash : whereis fs home None (lit "sub/tool") (Some (PText (lit "/usr/bin"))) [] = Some (lit "/usr/bin/sub/tool") /\ executable fs home (lit "sub/tool") = false.
Proof. split; vm_compute; reflexivity. Qed.
(* the result may be relative: in another directory it names something else, and a shell would look for it in its own search path *)
Theorem C78_refuted_relative : whereis fs home None (lit "mine") (Some (PText (lit "."))) [] = Some (lit "mine") /\ executable fs (at_ "/usr") (lit "mine") = false.
Proof. split; vm_compute; reflexivity. Qed.
(* a search path that is empty is one empty entry, the current directory *)
Theorem C78_refuted_empty : env_whereis fs home (Some (lit "/usr/bin")) (Some (PText [])) None (lit "mine") [] = Found (lit "mine") /\ env_whereis fs home (Some (lit "/usr/bin")) (Some (PText [])) None (lit "gcc") [] = NotFound.
Proof. split; vm_compute; reflexivity. Qed.
(* a name of blanks is an error *)
Theorem C78_refuted_blank : env_whereis fs home None PATH None (lit " ") [] = IndexError /\ detect fs home None PATH [lit " "; lit "gcc"] = IndexError.
Proof. split; reflexivity. Qed.
Print Assumptions C78_case.
Print Assumptions C78_refuted_links.
Print Assumptions C78_refuted_reject.
Print Assumptions C78_refuted_slash.
Print Assumptions C78_refuted_relative.
Print Assumptions C78_refuted_empty.
Print Assumptions C78_refuted_blank.
