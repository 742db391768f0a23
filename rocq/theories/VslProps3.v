(* Versioned loadable modules; cases; what does not hold. *)
From Coq Require Import Ascii String List Bool Arith Lia.
From Verif Require Import NameModel NameProps NameProps2 VslModel VslSpec VslProps VslProps2.
Import ListNotations.
Open Scope list_scope.

(* C81i: a loadable module in the top directory has the links a shared library has *)
Theorem C81i_module : forall e v base, Version e v -> base <> [] ->
  module_links e [] (prefix e ++ base ++ suffix e ++ DOT :: v) = links e (prefix e ++ base ++ suffix e ++ DOT :: v).
Proof.
  intros e v base V NB. unfold module_links, links. f_equal. rewrite (stem_eq _ _ _ V NB). unfold module_stem, module_path.
  rewrite starts_app, (full_suffix_eq _ _ V). rewrite (proj2 (nth_firstn_app (prefix e) (base ++ suffix e ++ DOT :: v) _ eq_refl)).
  rewrite ends_app. apply but_last_app. destruct (suffix e); discriminate.
Qed.
Print Assumptions C81i_module.

(* a typical library *)
Definition vers (s : string) : option str := Some (lit s).
Definition sets (v so sov : option str) (no : string) : settings := {| prefix := lit "lib"; suffix := lit ".so"; version := v; soname := so; soversion := sov; noversionsymlinks := lit no |}.
Definition e123 : settings := sets (vers "1.2.3") None None "".
Definition e20 : settings := sets (vers "2.0") None None "".
Definition plain_foo : str := lit "libfoo.so".
Definition lib123 : str := lit "libfoo.so.1.2.3".
Definition lib20 : str := lit "libfoo.so.2.0".

Theorem C81_case : Version e123 (lit "1.2.3") /\ file_called (lit "foo") (lit "foo") /\ ~ (begins (lit "foo") (prefix e123) /\ lit "foo" <> prefix e123) /\ ~ has_ext (prefix e123 ++ lit "foo") /\
  ~ ends (prefix e123 ++ lit "foo") (suffix e123 ++ DOT :: lit "1.2.3") /\
  library_name e123 (lit "foo") = lib123 /\ recorded e123 lib123 = Some (lit "libfoo.so.1") /\ links e123 lib123 = Some [lit "libfoo.so.1"; plain_foo] /\
  Soname e123 (lit "1.2.3") plain_foo (lit "libfoo.so.1") /\ library_name e123 (lit "lib/foo") = lit "lib/libfoo.so.1.2.3" /\
  recorded (sets (vers "0.1.2") None (vers "2") "") (lit "libtest.so.0.1.2") = Some (lit "libtest.so.2") /\
  links (sets (vers "0.1.2") (vers "libtest.so.2") None "") (lit "libtest.so.0.1.2") = Some [lit "libtest.so.2"; lit "libtest.so"] /\
  links (sets (vers "4") None None "") (lit "libtest.so.4") = Some [lit "libtest.so"] /\
  links (sets (vers "1.2") None None "True") (lit "libtest.so.1.2") = Some [] /\
  links (sets (vers "1.2") (vers "a") (vers "b") "") (lit "libtest.so.1.2") = None.
Proof.
  assert (NE : ~ has_ext (prefix e123 ++ lit "foo")) by (pose proof (has_ext_dec (prefix e123 ++ lit "foo")) as H; vm_compute in H; vm_compute; exact H).
  split; [split; [reflexivity | discriminate]|]. split; [split; [|left; reflexivity]; split; [discriminate|]; split; [discriminate|]; split; [discriminate|]; intros H; cbn in H; intuition discriminate|].
  split; [intros [[r H] _]; discriminate H|]. split; [exact NE|]. split; [intros H; apply endswith_spec in H; vm_compute in H; discriminate H|].
  split; [vm_compute; reflexivity|]. split; [vm_compute; reflexivity|]. split; [vm_compute; reflexivity|].
  split; [exact (by_version e123 (lit "1.2.3") plain_foo (lit "1") eq_refl eq_refl (conj (fun H : In DOT (lit "1") => match H with or_introl h => ltac:(discriminate h) | or_intror h => h end) (or_intror (ex_intro _ (lit "2.3") eq_refl))))|].
  repeat split; vm_compute; reflexivity.
Qed.

(* directories and contents are numbers *)
Definition disk := fs nat nat.
Definition nowhere (d : nat) (n : str) : nat := S d.
Definition empty_disk : disk := fun _ => None.
Definition after (r : option (result nat nat)) : disk := match r with Some (Done _ _ f) => f | Some (Failed _ _ f) => f | None => empty_disk end.
Definition disk1 : disk := after (build_library nat Nat.eqb nat e123 0 lib123 11 empty_disk).
Definition disk2 : disk := after (build_library nat Nat.eqb nat e20 0 lib20 22 disk1).
Definition is_done (r : option (result nat nat)) : bool := match r with Some (Done _ _ _) => true | _ => false end.
Definition is_failed (r : option (result nat nat)) : bool := match r with Some (Failed _ _ _) => true | _ => false end.

Theorem C81_case_disk : (forall a b, Nat.eqb a b = true <-> a = b) /\ SameBut e123 e20 /\
  is_done (build_library nat Nat.eqb nat e123 0 lib123 11 empty_disk) = true /\ is_done (build_library nat Nat.eqb nat e20 0 lib20 22 disk1) = true /\
  disk1 (0, plain_foo) = Some (Link nat lib123) /\ disk2 (0, plain_foo) = Some (Link nat lib20) /\ disk2 (0, lit "libfoo.so.1") = Some (Link nat lib123) /\
  disk2 (0, lit "libfoo.so.2") = Some (Link nat lib20) /\ disk2 (0, lib123) = Some (File nat 11) /\ disk2 (0, lib20) = Some (File nat 22) /\
  Leads disk2 (0, plain_foo) 22 /\ Leads disk2 (0, lit "libfoo.so.1") 11 /\
  clean_library nat Nat.eqb nat 0 lib123 [lit "libfoo.so.1"; plain_foo] disk1 (0, plain_foo) = None.
Proof.
  split; [exact Nat.eqb_eq|]. split; [repeat split|].
  assert (A : disk2 (0, plain_foo) = Some (Link nat lib20)) by (vm_compute; reflexivity). assert (B : disk2 (0, lib20) = Some (File nat 22)) by (vm_compute; reflexivity).
  assert (C : disk2 (0, lit "libfoo.so.1") = Some (Link nat lib123)) by (vm_compute; reflexivity). assert (D : disk2 (0, lib123) = Some (File nat 11)) by (vm_compute; reflexivity).
  split; [vm_compute; reflexivity|]. split; [vm_compute; reflexivity|]. split; [vm_compute; reflexivity|]. split; [exact A|]. split; [exact C|]. split; [vm_compute; reflexivity|].
  split; [exact D|]. split; [exact B|]. split; [exact (leads_link disk2 _ _ _ _ A (leads_file disk2 _ _ B))|]. split; [exact (leads_link disk2 _ _ _ _ C (leads_file disk2 _ _ D)) | vm_compute; reflexivity].
Qed.

(* a library given with its suffix is built without its version; the recorded name and the links have the suffix twice *)
Theorem C81_extension_refuted : library_name e123 (lit "libfoo.so") = lit "libfoo.so" /\ recorded e123 (lit "libfoo.so") = Some (lit "libfoo.so.so.1") /\
  links e123 (lit "libfoo.so") = Some [lit "libfoo.so.so.1"; lit "libfoo.so.so"].
Proof. repeat split; vm_compute; reflexivity. Qed.
(* without SHLIBVERSION, SONAME and SOVERSION do nothing *)
Theorem C81_soname_alone_refuted : exists e e' name, soname e = Some (lit "libfoo.so.7") /\ soversion e' = Some (lit "7") /\ recorded e name = None /\ recorded e' name = None /\ links e name = Some [] /\ links e' name = Some [].
Proof. exists (sets None (vers "libfoo.so.7") None ""), (sets None None (vers "7") ""), plain_foo. repeat split; vm_compute; reflexivity. Qed.
(* going from version 1 to 1.1 fails: the old library has the name that is now to be a link *)
Theorem C81_one_part_refuted : exists (f1 : disk),
  build_library nat Nat.eqb nat (sets (vers "1") None None "") 0 (lit "libfoo.so.1") 11 empty_disk = Some (Done nat nat f1) /\
  is_failed (build_library nat Nat.eqb nat (sets (vers "1.1") None None "") 0 (lit "libfoo.so.1.1") 22 f1) = true.
Proof. eexists. split; [reflexivity | vm_compute; reflexivity]. Qed.
(* installing over a directory with the name of the library succeeds and installs no library: it is inside the directory, and the links lead to the directory *)
Definition blocked : disk := fun p => if path_eqb nat Nat.eqb p (0, lib123) then Some (Dir nat) else None.
Theorem C81_directory_refuted : exists g : disk, install_library nat Nat.eqb nowhere nat 0 lib123 11 [lit "libfoo.so.1"; plain_foo] blocked = Done nat nat g /\
  g (0, lib123) = Some (Dir nat) /\ g (0, plain_foo) = Some (Link nat lib123) /\ g (1, lib123) = Some (File nat 11) /\ forall c, ~ Leads g (0, plain_foo) c.
Proof.
  eexists. split; [reflexivity|]. split; [vm_compute; reflexivity|]. split; [vm_compute; reflexivity|]. split; [vm_compute; reflexivity|].
  intros c H. inversion H as [p k X | d l n k X Y]; subst.
  - vm_compute in X. discriminate X.
  - vm_compute in X. injection X as <-. inversion Y as [p k X | d l n k X Z]; subst; vm_compute in X; discriminate X.
Qed.
(* "yes" does not turn the links off *)
Theorem C81_yes_refuted : exists ls, links (sets (vers "1.2.3") None None "yes") lib123 = Some ls /\ ls <> [].
Proof. eexists. split; [vm_compute; reflexivity | discriminate]. Qed.
(* a loadable module in a subdirectory: the directory gets into the names *)
Theorem C81_module_subdirectory_refuted : module_links e123 (lit "mods") lib123 = Some [lit "libmods/libfoo.so.1"; lit "libmods/libfoo.so"] /\ links e123 lib123 = Some [lit "libfoo.so.1"; lit "libfoo.so"].
Proof. split; vm_compute; reflexivity. Qed.
Print Assumptions C81_case.
Print Assumptions C81_case_disk.
Print Assumptions C81_directory_refuted.
Theorem C81_case_off : ~ Off (noversionsymlinks e123) /\ Off (noversionsymlinks (sets (vers "1.2") None None "1")).
Proof. split; [intros [H | [H | H]]; discriminate H | left; reflexivity]. Qed.
