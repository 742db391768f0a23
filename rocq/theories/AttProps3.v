(* Attributes of nodes: attributes of attributes, cases, and what the manual says that does not hold. *)
From Coq Require Import Ascii String List Bool Arith Lia.
Import ListNotations.
From Verif Require Import NameModel NameProps NameProps2 AttModel AttSpec AttProps AttProps2.
Open Scope string_scope.
Open Scope list_scope.
Open Scope nat_scope.

(* C86e: attributes can be combined, like ${TARGET.srcpath.base}, exactly if all but the last are attributes that stand for files or directories: posix, srcpath, srcdir, dir *)
Definition ForFiles (a : attr) : Prop := In a [Posix; Srcpath; Srcdir; Dir].
Lemma stays_error : forall ls cwd top l, get_attrs ls cwd top l VError = VError.
Proof. intros ls cwd top. induction l as [|a l IH]; [reflexivity | exact IH]. Qed.
Lemma files_node : forall ls cwd top a p k, ForFiles a <-> exists q k', get_attr ls cwd top a (VNode p k) = VNode q k'.
Proof.
  intros ls cwd top a p k. unfold ForFiles. split.
  - intros [<- | [<- | [<- | [<- | []]]]]; cbn [get_attr]; eexists; eexists; reflexivity.
  - intros [q [k' E]]. destruct a; cbn [get_attr] in E; try discriminate E; cbn [In]; tauto.
Qed.
Theorem C86e_combined : forall ls cwd top l a p k, (exists t, text_of cwd (get_attrs ls cwd top (l ++ [a]) (VNode p k)) = Some t) <-> (forall b, In b l -> ForFiles b).
Proof.
  intros ls cwd top l a. induction l as [|b l IH]; intros p k.
  - cbn [app]. unfold get_attrs. cbn [fold_left]. split; [intros _ b [] | intros _; destruct a; cbn [get_attr text_of]; eexists; reflexivity].
  - cbn [app]. change (get_attrs ls cwd top (b :: l ++ [a]) (VNode p k)) with (get_attrs ls cwd top (l ++ [a]) (get_attr ls cwd top b (VNode p k))). split.
    + intros [t E]. assert (ForFiles b) as FB.
      { apply (files_node ls cwd top b p k). destruct (get_attr ls cwd top b (VNode p k)) as [q k'|s|] eqn:Z; [exists q, k'; reflexivity | exfalso | rewrite stays_error in E; discriminate].
        destruct l as [|c l]; cbn [app] in E; unfold get_attrs in E; cbn [fold_left get_attr] in E; [discriminate|]. change (text_of cwd (get_attrs ls cwd top (l ++ [a]) VError) = Some t) in E. rewrite stays_error in E. discriminate. }
      apply (files_node ls cwd top b p k) in FB as Z. destruct Z as [q [k' Z]]. rewrite Z in E. pose proof (proj1 (IH q k') (ex_intro _ t E)) as H. intros c [<- | IN]; [exact FB | apply H; exact IN].
    + intros H. assert (ForFiles b) as FB by (apply H; left; reflexivity). apply (files_node ls cwd top b p k) in FB as [q [k' Z]]. rewrite Z. apply IH. intros c IN. apply H. right. exact IN.
Qed.
(* and each attribute is then that of the node the ones before lead to *)
Theorem C86e_each : forall ls cwd top l a p k q k', get_attrs ls cwd top l (VNode p k) = VNode q k' -> get_attrs ls cwd top (l ++ [a]) (VNode p k) = get_attr ls cwd top a (VNode q k').
Proof. intros ls cwd top l a p k q k' E. unfold get_attrs in *. rewrite fold_left_app, E. reflexivity. Qed.

(* C86a, C86b for the attributes *)
Theorem C86ab_attributes : forall ls cwd top p k, Named p -> Named top ->
  let v := VNode p k in exists path abspath relpath, text_of cwd v = Some path /\ texts ls cwd top v Abspath abspath /\ texts ls cwd top v Relpath relpath /\
    Leads cwd path p /\ (forall d, Leads d abspath p) /\ Leads top relpath p /\
    (forall q k', Named q -> text_of cwd (VNode q k') = Some path \/ texts ls cwd top (VNode q k') Abspath abspath \/ texts ls cwd top (VNode q k') Relpath relpath -> q = p).
Proof.
  intros ls cwd top p k HP HT v. exists (get_path p cwd), (get_abspath p), (get_relpath p top). split; [reflexivity|]. split; [reflexivity|]. split; [reflexivity|].
  split; [apply C86a_path; exact HP|]. split; [intros d; apply C86a_abspath; exact HP|]. split; [apply C86a_relpath; assumption|].
  intros q k' HQ [E | [E | E]]; unfold texts in E; cbn [get_attr text_of] in E; injection E as E.
  - apply (C86b_path q p cwd); assumption.
  - apply C86b_abspath; assumption.
  - apply (C86b_relpath q p top); assumption.
Qed.

(* ---- cases: the ones of the manual ---- *)
Definition TOP : place := [lit "top"; lit "dir"].
Definition FILE : place := TOP ++ [lit "sub"; lit "dir"; lit "file.x"].
Definition LINKS : links := [(TOP ++ [lit "sub"; lit "dir"], TOP ++ [lit "src"])].
Theorem C86_case :
  let t := fun l => text_of TOP (get_attrs [] TOP TOP l (VNode FILE false)) in let s := fun l => text_of TOP (get_attrs LINKS TOP TOP l (VNode FILE false)) in
  Named FILE /\ Named TOP /\ FILE <> TOP /\ Linked LINKS (TOP ++ [lit "sub"; lit "dir"]) (TOP ++ [lit "src"]) /\
  t [Base] = Some (lit "sub/dir/file") /\ t [Dir] = Some (lit "sub/dir") /\ t [File] = Some (lit "file.x") /\ t [Filebase] = Some (lit "file") /\ t [Suffix] = Some (lit ".x") /\
  t [Abspath] = Some (lit "/top/dir/sub/dir/file.x") /\ t [Relpath] = Some (lit "sub/dir/file.x") /\ t [Windows] = Some (lit "sub\dir\file.x") /\
  s [Srcpath] = Some (lit "src/file.x") /\ s [Srcdir] = Some (lit "src") /\ s [Srcpath; Base] = Some (lit "src/file") /\
  rel_path 9 (TOP ++ [lit "lib"; lit "a"]) FILE = Some (lit "../../sub/dir/file.x").
Proof.
  assert (forall l, forallb (fun n => (nonempty n && negb (str_eqb n (lit ".")) && negb (str_eqb n (lit "..")) && negb (existsb (Ascii.eqb SLASH) n))%bool) l = true -> Named l) as D.
  { intros l H n IN. rewrite forallb_forall in H. specialize (H n IN). apply andb_true_iff in H as [H H4]. apply andb_true_iff in H as [H H3]. apply andb_true_iff in H as [H1 H2].
    apply negb_true_iff in H2, H3, H4. split; [intros ->; discriminate H1|]. split; [intros ->; discriminate H2|]. split; [intros ->; discriminate H3|].
    intros IS. assert (existsb (Ascii.eqb SLASH) n = true) as X by (apply existsb_exists; exists SLASH; split; [exact IS | apply Ascii.eqb_refl]). congruence. }
  cbv zeta. split; [apply D; reflexivity|]. split; [apply D; reflexivity|]. split; [discriminate|]. split; [exists [], []; split; [reflexivity | intros s []]|].
  repeat split; vm_compute; reflexivity.
Qed.
(* the manual: for a target ../dir2/file.x, $TARGET is ../dir2/file.x; it is the absolute path.  relpath is what the manual says *)
Theorem C86_outside_refuted : let v := VNode [lit "top"; lit "dir2"; lit "file.x"] false in
  text_of TOP v = Some (lit "/top/dir2/file.x") /\ text_of TOP (get_attrs [] TOP TOP [Relpath] v) = Some (lit "../dir2/file.x").
Proof. split; vm_compute; reflexivity. Qed.
(* the manual: modifiers can be combined, like ${TARGET.file.suffix}; that is an AttributeError *)
Theorem C86_file_suffix_refuted : get_attrs [] TOP TOP [File; Suffix] (VNode FILE false) = VError.
Proof. reflexivity. Qed.
(* splitext: same as os.path.splitext but faster; os.path.splitext gives .1 for lib.so.1, and no suffix for .profile *)
Theorem C86_splitext_refuted : splitext (lit "lib.so.1") = (lit "lib.so.1", []) /\ splitext (lit ".profile") = ([], lit ".profile").
Proof. split; vm_compute; reflexivity. Qed.
(* the current directory: its path is a dot, and base and suffix are those of different texts *)
Theorem C86_cwd_refuted : let v := VNode (TOP ++ [lit "a.b"]) true in let cwd := TOP ++ [lit "a.b"] in
  text_of cwd v = Some (lit ".") /\ text_of cwd (get_attrs [] cwd TOP [Base] v) = Some [] /\ text_of cwd (get_attrs [] cwd TOP [Suffix] v) = Some (lit ".b").
Proof. repeat split; vm_compute; reflexivity. Qed.
(* a variant of a variant: srcpath goes one step *)
Theorem C86_nested_case : let ls := [(TOP ++ [lit "v1"], TOP ++ [lit "src"]); (TOP ++ [lit "v2"], TOP ++ [lit "v1"])] in
  text_of TOP (get_attrs ls TOP TOP [Srcpath] (VNode (TOP ++ [lit "v2"; lit "f.c"]) false)) = Some (lit "v1/f.c") /\
  text_of TOP (get_attrs ls TOP TOP [Srcpath; Srcpath] (VNode (TOP ++ [lit "v2"; lit "f.c"]) false)) = Some (lit "src/f.c").
Proof. split; vm_compute; reflexivity. Qed.

Print Assumptions C86a_path. Print Assumptions C86a_abspath. Print Assumptions C86a_relpath. Print Assumptions C86a_rel_path. Print Assumptions C86b_path. Print Assumptions C86b_abspath. Print Assumptions C86b_relpath.
Print Assumptions C86c_parts. Print Assumptions C86c_windows. Print Assumptions C86d_srcpath. Print Assumptions C86e_combined. Print Assumptions C86e_each. Print Assumptions C86ab_attributes.
