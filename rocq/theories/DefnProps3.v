(* C59, last part: PrependUnique with delete_existing, MergeFlags with a deque, cases, and claims that fail. *)
From Coq Require Import Ascii String List Bool Arith Lia Permutation ZArith.
Import ListNotations.
From Verif Require Import NameModel NameProps FlagModel FlagSpec FlagProps FlagProps2 FlagProps3 FlagProps4 DefnProps DefnProps2.
Open Scope list_scope.

Lemma texts_rev : forall q, Forall usual q -> texts (rev q) = rev (texts q).
Proof.
  intros q H. induction H as [|x q Hx H IH]; [reflexivity|]. cbn [rev]. rewrite texts_app, IH. destruct (usual_text x Hx) as (t & E). change (texts (x :: q)) with (txt x ++ texts q).
  change (texts [x]) with (txt x ++ []). rewrite E. reflexivity.
Qed.
Lemma fold_delete_front : forall items q a done, Forall usual q -> Forall usual items -> NoDup a -> NoDup (done ++ texts items) -> texts q = rev done ++ filter (differs done) a ->
  Forall usual (fold_left (add_item true true true) items q) /\ texts (fold_left (add_item true true true) items q) = rev (done ++ texts items) ++ filter (differs (done ++ texts items)) a.
Proof.
  induction items as [|x items IH]; intros q a done U Ui Na Nd E; cbn [fold_left]; [change (texts []) with (@nil str); rewrite app_nil_r; auto|].
  inversion Ui as [|? ? Ux Ui2]. subst. destruct (usual_text x Ux) as (t & Tx). change (texts (x :: items)) with (txt x ++ texts items) in *. rewrite Tx in *. cbn [app] in *.
  assert (Nt : ~ In t done) by (intros H; apply NoDup_remove_2 in Nd; apply Nd; apply in_or_app; left; exact H).
  assert (Nq : NoDup (texts q)).
  { rewrite E. assert (ND : NoDup done) by (clear - Nd; induction done as [|d done IH]; [constructor|]; cbn in Nd; inversion Nd as [|? ? H1 H2]; subst; constructor; [intros H; apply H1; apply in_or_app; left; exact H | apply IH; exact H2]).
    apply NoDup_app2; [apply NoDup_rev; exact ND | apply nodup_filter; exact Na |]. intros u Hd Hu. apply in_rev in Hd. apply filter_In in Hu. destruct Hu as [_ Hu]. unfold differs in Hu. destruct (in_dec str_eq_dec u done); [discriminate | contradiction]. }
  destruct (step_delete q x t U Ux Nq Tx) as (q' & U' & E' & Eq).
  assert (A : add_item true true true q x = x :: q') by (unfold add_item, add_define; rewrite <- Eq; destruct (is_in x q) as [m|]; [destruct (truthy m)|]; reflexivity).
  rewrite A. destruct (IH (x :: q') a (done ++ [t])) as [I1 I2].
  - constructor; assumption.
  - exact Ui2.
  - exact Na.
  - rewrite <- app_assoc. exact Nd.
  - change (texts (x :: q')) with (txt x ++ texts q'). rewrite Tx, E', E, filter_app, filter_more, (filter_id (rev done) t), rev_app_distr by (rewrite <- in_rev; exact Nt). cbn [rev app]. f_equal. f_equal.
    apply filter_perm. intros u. split; intros H; [destruct H as [<- | H]; apply in_or_app; [right; left; reflexivity | left; exact H] | apply in_app_or in H; destruct H as [H | [<- | []]]; [right; exact H | left; reflexivity]].
  - split; [exact I1|]. rewrite I2. rewrite <- !app_assoc. reflexivity.
Qed.
(* C59h: PrependUnique with delete_existing moves them to the front, the last one given first *)
Theorem C59h_prepend_unique_moves : forall cur val q a b,
  usual_value cur q -> container cur -> container val -> Forall usual (pieces val) -> processDefines cur = Ok a -> processDefines val = Ok b -> NoDup a -> NoDup b ->
  exists n, add_cppdefines (Some cur) val true true true = Ok n /\ processDefines n = Ok (rev b ++ filter (differs b) a).
Proof.
  intros cur val q a b [Hq Uq] Cc Cv Up Ha Hb Na Nb. destruct (deque_shown cur a Cc Ha) as (q' & Hq' & Vq & Tq). rewrite Hq in Hq'. injection Hq' as <-.
  destruct (pieces_shown val b Cv Hb) as [Vp Tp]. eexists. split; [apply (add_shown cur q val b); assumption|]. apply shown_deque. unfold extend. destruct (all_at_once val).
  - destruct (list_delete (pieces val) q [] a Uq Up) as (q2 & E & U2 & T2); [rewrite Tq; exact Na | symmetry; exact Tq |]. rewrite E. cbn [app].
    split; [apply Forall_app; split; [apply Forall_rev; exact Vp | apply usual_list_texts; exact U2]|]. rewrite texts_app, texts_rev, T2, Tp by exact Up. reflexivity.
  - destruct (fold_delete_front (pieces val) q a [] Uq Up Na) as [U E]; [rewrite Tp; exact Nb | |].
    + cbn [rev app]. rewrite Tq. symmetry. clear. induction a as [|u l IHl]; [reflexivity|]. cbn [filter]. unfold differs at 1. cbn. rewrite IHl. reflexivity.
    + split; [apply usual_list_texts; exact U|]. cbn [app] in E. rewrite E, Tp. reflexivity.
Qed.
(* C59i: MergeFlags into an environment whose CPPDEFINES has been amended before (a deque): the macros merged come last, no macro is there twice, and no other variable changes *)
Theorem C59i_merge_into_deque : forall e q l a b,
  e CPPDEFINES_key = Some (PDeque q) -> q <> [] -> l <> [] -> Forall usual q -> Forall usual l -> processDefines (PDeque q) = Ok a -> processDefines (PList l) = Ok b -> NoDup a -> NoDup b ->
  exists e' args n, MergeFlags_dict e [(CPPDEFINES_key, PList l)] = Ok (e', args) /\ e' CPPDEFINES_key = Some n /\ processDefines n = Ok (filter (differs b) a ++ b) /\ (forall k, k <> CPPDEFINES_key -> e' k = e k).
Proof.
  intros e q l a b He Hq Hl Uq Ul Ha Hb Na Nb. unfold MergeFlags_dict. cbn [merge_items]. unfold merge_one.
  replace (truthy (PList l)) with true by (destruct l; [congruence | reflexivity]). cbn [negb Split]. rewrite He.
  replace (truthy (PDeque q)) with true by (destruct q; [congruence | reflexivity]). replace (truthy (PList l)) with true by (destruct l; [congruence | reflexivity]). cbn [negb py_add]. rewrite upd_same.
  destruct (C59g_append_unique_moves (PDeque q) (PList l) q a b) as (n & E & P); auto; try exact Logic.I; [split; [reflexivity | exact Uq]|].
  rewrite E. cbn [bind fst snd]. eexists. eexists. exists n. split; [reflexivity|]. split; [apply upd_same|]. split; [exact P|]. intros k Hk. rewrite !upd_other by exact Hk. reflexivity.
Qed.

(* ---- cases ---- *)
Definition L (s : string) : pv := PStr (lit s).
Definition T2 (a b : string) : pv := PTuple [L a; L b].
Definition cur1 : pv := PList [L "A=1"; PTuple [L "B"; PNone]; PDict [(lit "C", L "3"); (lit "D", PNone)]].
Definition val1 : pv := PDict [(lit "E", PInt 5); (lit "B", PNone); (lit "A", L "1")].
Example C59_case_append : exists n, add_cppdefines (Some cur1) val1 false false false = Ok n /\ processDefines n = Ok [lit "A=1"; lit "B"; lit "C=3"; lit "D"; lit "E=5"; lit "B"; lit "A=1"].
Proof. apply (C59b_append cur1 val1 [lit "A=1"; lit "B"; lit "C=3"; lit "D"] [lit "E=5"; lit "B"; lit "A=1"]); try exact Logic.I; vm_compute; reflexivity. Qed.
Example C59_case_prepend : exists n, add_cppdefines (Some cur1) val1 true false false = Ok n /\ processDefines n = Ok [lit "A=1"; lit "B"; lit "E=5"; lit "A=1"; lit "B"; lit "C=3"; lit "D"].
Proof.
  destruct (C59c_prepend cur1 val1 [lit "A=1"; lit "B"; lit "C=3"; lit "D"] [lit "E=5"; lit "B"; lit "A=1"]) as (n & ll & E & _ & _ & _); try exact Logic.I; try (vm_compute; reflexivity).
  exists n. split; [exact E|]. vm_compute in E. injection E as <-. vm_compute. reflexivity.
Qed.
Example C59_case_unique : exists n b', add_cppdefines (Some cur1) val1 false true false = Ok n /\ processDefines n = Ok ([lit "A=1"; lit "B"; lit "C=3"; lit "D"] ++ b') /\
  sublist b' [lit "E=5"; lit "B"; lit "A=1"] /\ incl [lit "E=5"; lit "B"; lit "A=1"] ([lit "A=1"; lit "B"; lit "C=3"; lit "D"] ++ b').
Proof. apply (C59e_append_unique cur1 val1); try exact Logic.I; vm_compute; reflexivity. Qed.
Lemma oneq : forall s, count_occ ascii_dec s EQC <= 1 -> one_eq s.
Proof. intros s H a b c ->. rewrite count_occ_app in H. cbn [count_occ] in H. destruct (ascii_dec EQC EQC) as [_ | H2]; [|congruence]. rewrite count_occ_app in H. cbn [count_occ] in H. destruct (ascii_dec EQC EQC) as [_ | H2]; [lia | congruence]. Qed.
Lemma noeq : forall s, existsb (Ascii.eqb EQC) s = false -> no_eq s.
Proof. intros s H Hi. assert (existsb (Ascii.eqb EQC) s = true); [|congruence]. apply existsb_exists. exists EQC. split; [exact Hi | apply Ascii.eqb_refl]. Qed.
Ltac us1 := first [apply usual_str; [discriminate | apply oneq; vm_compute; lia] | apply usual_pair; apply noeq; reflexivity | apply usual_name; apply noeq; reflexivity].
Ltac us := lazymatch goal with |- Forall usual ?l => let l' := eval hnf in l in change (Forall usual l'); lazymatch l' with nil => apply Forall_nil | _ => apply Forall_cons; [us1 | us] end end.
Definition q1 : list pv := [L "A=1"; PTuple [L "B"; PNone]; T2 "C" "3"].
Definition val2 : pv := PStr (lit "C=3 E B").
Ltac nd0 := repeat (constructor; [cbn; let K := fresh in intros K; repeat (destruct K as [K | K]; [discriminate|]); exact K|]); constructor.
Ltac side := match goal with
  | |- NoDup _ => nd0
  | |- usual_value _ _ => split; [reflexivity | us]
  | |- Forall usual _ => us
  | |- container _ => exact Logic.I
  | |- _ = Ok _ => vm_compute; reflexivity
  | |- _ => first [discriminate | exact Logic.I] end.
Example C59_case_no_duplicates : exists n l, add_cppdefines (Some (PDeque q1)) val2 true true false = Ok n /\ processDefines n = Ok l /\ NoDup l /\ forall t, In t l <-> In t [lit "A=1"; lit "B"; lit "C=3"] \/ In t [lit "C=3"; lit "E"; lit "B"].
Proof.
  apply (C59f_unique_no_duplicates (PDeque q1) val2 q1); side.
Qed.
Example C59_case_move : exists n, add_cppdefines (Some (PDeque q1)) val2 false true true = Ok n /\ processDefines n = Ok [lit "A=1"; lit "C=3"; lit "E"; lit "B"].
Proof. apply (C59g_append_unique_moves (PDeque q1) val2 q1 [lit "A=1"; lit "B"; lit "C=3"] [lit "C=3"; lit "E"; lit "B"]); side. Qed.
Example C59_case_move_front : exists n, add_cppdefines (Some (PDeque q1)) val2 true true true = Ok n /\ processDefines n = Ok [lit "B"; lit "E"; lit "C=3"; lit "A=1"].
Proof. apply (C59h_prepend_unique_moves (PDeque q1) val2 q1 [lit "A=1"; lit "B"; lit "C=3"] [lit "C=3"; lit "E"; lit "B"]); side. Qed.
Example C59_case_merge : exists e' args n, MergeFlags_dict (upd (fun _ => None) CPPDEFINES_key (PDeque q1)) [(CPPDEFINES_key, PList [L "C=3"; L "E"])] = Ok (e', args) /\
  e' CPPDEFINES_key = Some n /\ processDefines n = Ok [lit "A=1"; lit "B"; lit "C=3"; lit "E"] /\ forall k, k <> CPPDEFINES_key -> e' k = None.
Proof.
  destruct (C59i_merge_into_deque (upd (fun _ => None) CPPDEFINES_key (PDeque q1)) q1 [L "C=3"; L "E"] [lit "A=1"; lit "B"; lit "C=3"] [lit "C=3"; lit "E"]) as (e' & args & n & E & E2 & P & O); try side; try apply upd_same.
  exists e', args, n. split; [exact E|]. split; [exact E2|]. split; [exact P|]. intros k Hk. rewrite (O k Hk). apply upd_other. exact Hk.
Qed.

(* ---- claims that fail ---- *)
(* Prepend keeps the order of the macros given, as it does for other variables (C43) *)
Theorem C59_prepend_order_refuted : ~ forall cur val a b n, processDefines cur = Ok a -> processDefines val = Ok b -> add_cppdefines (Some cur) val true false false = Ok n -> processDefines n = Ok (b ++ a).
Proof.
  intros H. assert (E := H (PList [L "Z"]) (L "A B") [lit "Z"] [lit "A"; lit "B"] (PDeque [L "B"; L "A"; L "Z"]) eq_refl eq_refl). specialize (E ltac:(vm_compute; reflexivity)). vm_compute in E. discriminate.
Qed.
(* AppendUnique never puts a macro on the command line twice: a number and its digits are different to it *)
Definition dup_free_claim (okv : pv -> Prop) : Prop :=
  forall cur val a n l, okv cur -> okv val -> processDefines cur = Ok a -> NoDup a -> add_cppdefines (Some cur) val false true false = Ok n -> processDefines n = Ok l -> NoDup l.
Lemma dup_counter : forall (okv : pv -> Prop) x y t, okv (PList [x]) -> okv (PList [y]) -> macros_of_entry x = Ok [t] -> macros_of_entry y = Ok [t] ->
  add_cppdefines (Some (PList [x])) (PList [y]) false true false = Ok (PDeque [x; y]) -> ~ dup_free_claim okv.
Proof.
  intros okv x y t O1 O2 Hx Hy E H. assert (N : NoDup [t; t]).
  { apply (H (PList [x]) (PList [y]) [t] (PDeque [x; y]) [t; t]); auto.
    - cbn. rewrite Hx. reflexivity.
    - constructor; [intros [] | constructor].
    - cbn. rewrite Hx, Hy. reflexivity. }
  inversion N as [|? ? Hn _]. apply Hn. left. reflexivity.
Qed.
Theorem C59_unique_numbers_refuted : ~ dup_free_claim (fun v => True).
Proof. apply (dup_counter _ (PTuple [L "FOO"; PInt 1]) (L "FOO=1") (lit "FOO=1")); auto; vm_compute; reflexivity. Qed.
(* ... and so are "A=b=c" and ("A", "b=c") *)
Definition strings_only (v : pv) : Prop := forall x y, In x (elems v) -> In y (elems x) -> exists s, y = PStr s.
Theorem C59_unique_equal_signs_refuted : ~ dup_free_claim strings_only.
Proof.
  apply (dup_counter _ (L "A=b=c") (T2 "A" "b=c") (lit "A=b=c")); try (vm_compute; reflexivity).
  - intros x y [<- | []] [].
  - intros x y [<- | []] [<- | [<- | []]]; eexists; reflexivity.
Qed.
(* ... and "A" and ("A",) *)
Theorem C59_unique_one_tuple_refuted : ~ dup_free_claim (fun v => forall x y s, In x (elems v) -> In y (elems x) -> y = PStr s -> no_eq s).
Proof.
  apply (dup_counter _ (L "A") (PTuple [L "A"]) (lit "A")); try (vm_compute; reflexivity).
  - intros x y s [<- | []] [].
  - intros x y s [<- | []] [<- | []] E. injection E as <-. apply noeq. reflexivity.
Qed.
(* ... and a list is compared with what was there, not with itself *)
Theorem C59_unique_within_list_refuted : ~ forall cur val q a b n l, usual_value cur q -> container cur -> container val -> Forall usual (pieces val) -> processDefines cur = Ok a -> processDefines val = Ok b -> NoDup a ->
  add_cppdefines (Some cur) val false true false = Ok n -> processDefines n = Ok l -> NoDup l.
Proof.
  intros H. assert (N := H (PList [L "Z"]) (PList [L "A"; L "A"]) [L "Z"] [lit "Z"] [lit "A"; lit "A"] (PDeque [L "Z"; L "A"; L "A"]) [lit "Z"; lit "A"; lit "A"]).
  assert (ND : NoDup [lit "Z"; lit "A"; lit "A"]) by (apply N; side).
  inversion ND as [|? ? _ ND2]. inversion ND2 as [|? ? Hn _]. apply Hn. left. reflexivity.
Qed.
(* the documentation's example (Environment.xml 718-731): a pair, and then a list appended; it says -DMACRO1 -DMACRO2 -DMACRO3=MACRO4 *)
Theorem C59_doc_example_refuted : ~ exists n, add_cppdefines (Some (T2 "MACRO1" "MACRO2")) (PList [T2 "MACRO3" "MACRO4"]) false false false = Ok n /\ processDefines n = Ok [lit "MACRO1"; lit "MACRO2"; lit "MACRO3=MACRO4"].
Proof. intros (n & E & P). vm_compute in E. injection E as <-. vm_compute in P. discriminate. Qed.
(* Append adds what processDefines would show for the value alone: a value that is neither a string nor a container is dropped without a word *)
Theorem C59_append_scalar_refuted : ~ forall cur val a b n, container cur -> processDefines cur = Ok a -> processDefines val = Ok b -> add_cppdefines (Some cur) val false false false = Ok n -> processDefines n = Ok (a ++ b).
Proof. intros H. assert (E := H (L "A") (PInt 5) [lit "A"] [lit "5"] (PDeque [L "A"]) Logic.I eq_refl eq_refl eq_refl). vm_compute in E. discriminate. Qed.
Print Assumptions C59h_prepend_unique_moves.
Print Assumptions C59i_merge_into_deque.
Print Assumptions C59_case_append.
Print Assumptions C59_case_prepend.
Print Assumptions C59_case_unique.
Print Assumptions C59_case_no_duplicates.
Print Assumptions C59_case_move.
Print Assumptions C59_case_move_front.
Print Assumptions C59_case_merge.
Print Assumptions C59_prepend_order_refuted.
Print Assumptions C59_unique_numbers_refuted.
Print Assumptions C59_unique_equal_signs_refuted.
Print Assumptions C59_unique_one_tuple_refuted.
Print Assumptions C59_unique_within_list_refuted.
Print Assumptions C59_doc_example_refuted.
Print Assumptions C59_append_scalar_refuted.
