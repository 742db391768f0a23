(* Package and path variables: a case, and what the theorems leave out. *)
From Coq Require Import Ascii String List Bool Permutation Lia Arith.
Import ListNotations.
From Verif Require Import VarModel VarSpec VarProps VarProps2 PkvModel PkvSpec PkvProps.
Open Scope string_scope.
Open Scope list_scope.

Definition plain_expand (e : venv) (s : string) : string := s.
Definition with_args (o : list variable) (args : dict) : variables := {| vs_options := o; vs_files := []; vs_args := args; vs_unknown := fun _ => None; vs_defaulted := [] |}.
Definition only (paths : list string) (s : string) : bool := mem s paths.
Definition result (o : variable) (args : dict) : option (option val) := match update plain_expand (with_args [o] args) (fun _ => None) None with Some (e, _) => Some (e (v_key o)) | None => None end.
Definition x11 (d : val) : variable := package_variable (only ["/usr/X11"; "/opt/X11"]) "X11" ["x11"] d.

(* the hypotheses of the theorems are met, and the values are as they say *)
Theorem C90_case : let o := x11 (VStr "/usr/X11") in
  subst_ok plain_expand (fun s => s) /\ norm_stable (fun s => s) /\ norm_ok (fun s => s) /\ names_distinct [o] /\
  setting [] [("x11", VStr "YES")] o (Some (VStr "YES")) /\ result o [("x11", VStr "YES")] = Some (Some (VStr "/usr/X11")) /\ PackageValue "/usr/X11" "YES" (VStr "/usr/X11") /\
  result o [] = Some (Some (VStr "/usr/X11")) /\ result o [("X11", VStr "Off")] = Some (Some (VBool false)) /\
  result o [("X11", VStr "no"); ("x11", VStr "/opt/X11")] = Some (Some (VStr "/opt/X11")) /\ result o [("X11", VStr "/X11")] = None /\
  result (x11 (VStr "no")) [] = Some (Some (VBool false)) /\ result (x11 (VStr "no")) [("X11", VStr "search")] = Some (Some (VBool true)) /\
  result (path_variable (only ["/d"]) (only ["/f"]) (only ["/d"; "/f"]) "P" [] (Some (VStr "/f")) None) [("P", VStr "/d")] = Some (Some (VStr "/d")) /\
  result (path_variable (only ["/d"]) (only ["/f"]) (only ["/d"; "/f"]) "P" [] (Some (VStr "/f")) (Some PathIsDir)) [] = None.
Proof.
  cbv zeta. split; [intros e s _; reflexivity|]. split; [intros s H; exact H|]. split; [intros s _; reflexivity|]. split; [apply single|]. split.
  { apply from_command_line. exists [], "x11", []. split; [reflexivity|]. split; [right; left; reflexivity|]. intros a v []. }
  split; [vm_compute; reflexivity|]. split; [apply the_default; [cbn; tauto|]; intros H; repeat (destruct H as [H | H]; [discriminate H|]); exact H|].
  repeat split; vm_compute; reflexivity.
Qed.

(* the words are recognised in any case as a value, but as the default only in lower case: with the default Yes nothing is accepted that enables the package, nor the default itself; with the default No, an enabling word is refused *)
Theorem C90_default_case_refuted : Enabling "Yes" /\ Disabling "No" /\
  result (x11 (VStr "Yes")) [] = None /\ result (x11 (VStr "Yes")) [("X11", VStr "yes")] = None /\ result (x11 (VStr "No")) [("X11", VStr "yes")] = None /\ result (x11 (VStr "No")) [] = Some (Some (VBool false)).
Proof. repeat split; vm_compute; tauto. Qed.
(* with the default False (not the string) enabling the package leaves it disabled *)
Theorem C90_default_false_refuted : forall t, Enabling t -> result (x11 (VBool false)) [("X11", VStr t)] = Some (Some (VBool false)).
Proof.
  intros t E. assert (mem (lower t) PkvModel.DISABLE_STRINGS = false) as D by (destruct (mem (lower t) PkvModel.DISABLE_STRINGS) eqn:D; [apply disabling_spec in D; exfalso; exact (not_both t E D) | reflexivity]).
  apply enabling_spec in E. assert (package_conv (VBool false) (VStr t) = Some (VBool false)) as PC by (cbn [package_conv]; rewrite D, E; reflexivity).
  cbv -[package_conv]. rewrite PC. reflexivity.
Qed.
Print Assumptions C90a_package.
Print Assumptions C90b_accepts.
Print Assumptions C90c_save.
Print Assumptions C90d_path.
Print Assumptions C90e_path_accepts.
Print Assumptions C90_case.
Print Assumptions C90_default_case_refuted.
Print Assumptions C90_default_false_refuted.
