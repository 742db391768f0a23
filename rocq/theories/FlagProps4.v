(* C58, last part: merging twice, macros of -D, documented destinations, cases, and claims that fail. *)
From Coq Require Import Ascii String List Bool Arith Lia.
Import ListNotations.
From Verif Require Import NameModel NameProps FlagModel FlagSpec FlagProps FlagProps2 FlagProps3.
Open Scope list_scope.

(* what left_most and right_most mean *)
Lemma right_most_facts : forall l, NoDup (right_most l) /\ (forall x, In x (right_most l) <-> In x l) /\
  (forall a x b, l = a ++ x :: b -> ~ In x b -> exists a', right_most l = a' ++ x :: right_most b).
Proof.
  intros l. unfold right_most. split; [apply NoDup_nodup|]. split; [intros x; apply nodup_In|].
  intros a x b -> Hx. induction a as [|y a IH]; cbn [app nodup].
  - destruct (in_dec pv_eq_dec x b); [contradiction|]. exists []. reflexivity.
  - destruct IH as (a' & IH). destruct (in_dec pv_eq_dec y (a ++ x :: b)); [exists a'; exact IH|]. exists (y :: a'). rewrite IH. reflexivity.
Qed.
Lemma left_most_facts : forall l, NoDup (left_most l) /\ (forall x, In x (left_most l) <-> In x l) /\
  (forall a x b, l = a ++ x :: b -> ~ In x a -> exists b', left_most l = left_most a ++ x :: b').
Proof.
  intros l. unfold left_most. destruct (right_most_facts (rev l)) as (N & I1 & I2). unfold right_most in *.
  split; [apply NoDup_rev; exact N|]. split; [intros x; rewrite <- in_rev, I1, <- in_rev; reflexivity|].
  intros a x b -> Hx. destruct (I2 (rev b) x (rev a)) as (a' & E); [rewrite rev_app_distr; cbn [rev]; rewrite <- app_assoc; reflexivity | rewrite <- in_rev; exact Hx |].
  exists (rev a'). rewrite E, rev_app_distr. cbn [rev]. rewrite <- app_assoc. reflexivity.
Qed.
(* C58h: after a merge no value is there twice, nothing is lost and nothing is invented *)
Theorem C58h_merge_same_elements : forall k l t, unique_of k l t -> NoDup t /\ forall x, In x t <-> In x l.
Proof.
  intros k l t [H1 H2]. destruct (str_eqb (last_n k 4) (lit "PATH")) eqn:E.
  - apply path_key in E. rewrite (H1 E). destruct (left_most_facts l) as (N & I1 & _). split; assumption.
  - rewrite H2; [|intros H; apply path_key in H; congruence]. destruct (right_most_facts l) as (N & I1 & _). split; assumption.
Qed.

Definition notin (l : list pv) (x : pv) : bool := if in_dec pv_eq_dec x l then false else true.
Lemma nodup_app : forall a l, nodup pv_eq_dec (a ++ l) = filter (notin l) (nodup pv_eq_dec a) ++ nodup pv_eq_dec l.
Proof.
  induction a as [|x a IH]; intros l; [reflexivity|]. cbn [app nodup].
  destruct (in_dec pv_eq_dec x (a ++ l)) as [H | H]; destruct (in_dec pv_eq_dec x a) as [Ha | Ha].
  - apply IH.
  - cbn [filter]. unfold notin at 1. apply in_app_or in H. destruct H as [H | H]; [contradiction|]. destruct (in_dec pv_eq_dec x l); [apply IH | contradiction].
  - exfalso. apply H. apply in_or_app. left. exact Ha.
  - cbn [filter]. unfold notin at 1. destruct (in_dec pv_eq_dec x l) as [Hl | Hl]; [exfalso; apply H; apply in_or_app; right; exact Hl|]. cbn [app]. rewrite IH. reflexivity.
Qed.
Lemma filter_none : forall (f : pv -> bool) l, (forall x, In x l -> f x = false) -> filter f l = [].
Proof. induction l as [|x l IH]; intros H; [reflexivity|]. cbn [filter]. rewrite (H x (or_introl eq_refl)). apply IH. intros y Hy. apply H. right. exact Hy. Qed.
Lemma filter_twice : forall (f : pv -> bool) l, filter f (filter f l) = filter f l.
Proof. induction l as [|x l IH]; [reflexivity|]. cbn [filter]. destruct (f x) eqn:E; [cbn [filter]; rewrite E, IH; reflexivity | exact IH]. Qed.
Lemma right_twice : forall o l, right_most (right_most (o ++ l) ++ l) = right_most (o ++ l).
Proof.
  unfold right_most. intros o l. rewrite (nodup_app _ l), nodup_fixed_point by apply NoDup_nodup. rewrite nodup_app at 1. rewrite filter_app, filter_twice.
  rewrite (filter_none (notin l) (nodup pv_eq_dec l)); [rewrite app_nil_r; symmetry; apply nodup_app|].
  intros x Hx. apply nodup_In in Hx. unfold notin. destruct (in_dec pv_eq_dec x l); [reflexivity | contradiction].
Qed.
Lemma left_twice : forall o l, left_most (left_most (o ++ l) ++ l) = left_most (o ++ l).
Proof.
  unfold left_most. intros o l. f_equal. rewrite rev_app_distr, rev_involutive. rewrite (rev_app_distr o l). rewrite (nodup_app (rev l) (nodup _ _)), (nodup_fixed_point pv_eq_dec (NoDup_nodup _ _)).
  rewrite filter_none; [reflexivity|]. intros x Hx. apply nodup_In in Hx. unfold notin. destruct (in_dec pv_eq_dec x _) as [H | H]; [reflexivity|].
  exfalso. apply H. apply nodup_In. apply in_or_app. left. exact Hx.
Qed.
Lemma unique_twice : forall k o l t t2, unique_of k (o ++ l) t -> unique_of k (t ++ l) t2 -> t2 = t.
Proof.
  intros k o l t t2 [A1 A2] [B1 B2]. destruct (str_eqb (last_n k 4) (lit "PATH")) eqn:E.
  - apply path_key in E. rewrite (B1 E), (A1 E). apply left_twice.
  - assert (N : ~ is_path k) by (intros H; apply path_key in H; congruence). rewrite (B2 N), (A2 N). apply right_twice.
Qed.

(* a variable that is absent, empty, a list or a CLVar *)
Definition listlike (o : option pv) : Prop := match o with None | Some (PList _) | Some (PCL _) => True | Some x => nothing x end.
Lemma dict_keys : forall m, map fst (dict_of m) = map var_name all_vars.
Proof. reflexivity. Qed.
Lemma names_nodup : NoDup (map var_name all_vars).
Proof. assert (E : nodup str_eq_dec (map var_name all_vars) = map var_name all_vars) by (vm_compute; reflexivity). rewrite <- E. apply NoDup_nodup. Qed.
Lemma dict_value : forall m k v, In (k, v) (dict_of m) -> exists x, k = var_name x /\ (v = PList (m x) \/ v = PCL (m x)).
Proof.
  intros m k v H. unfold dict_of in H. apply in_map_iff in H. destruct H as (x & E & _). injection E as <- <-. exists x. split; [reflexivity|]. destruct x; cbn; auto.
Qed.
Lemma listlike_merged : forall o v l, listlike o -> truthy v = true -> v = PList l \/ v = PCL l -> exists a, merged o v (a ++ l) /\ l <> [].
Proof.
  intros o v l Ho Tv Hv. assert (Hi : items v l) by (destruct Hv as [-> | ->]; constructor). assert (Hl : l <> []) by (destruct Hv as [-> | ->]; intros ->; discriminate).
  assert (F : forall x, nothing x -> exists a, merged (Some x) v (a ++ l) /\ l <> []).
  { intros x Hx. exists []. split; [|exact Hl]. constructor; [right; exists x; auto | exact Hi]. }
  destruct o as [x|]; [|exists []; split; [constructor; [left; reflexivity | exact Hi] | exact Hl]]. cbn in Ho.
  destruct x as [|s|z|f|a|a|a|a|d]; try (apply F; exact Ho).
  - destruct a as [|y a]; [apply F; constructor|]. exists (y :: a). split; [|exact Hl]. apply merged_list; [discriminate | exact Hi |]. intros t. destruct Hv as [-> | ->]; discriminate.
  - destruct a as [|y a]; [apply F; constructor|]. exists (y :: a). split; [|exact Hl]. apply merged_clvar; [discriminate | exact Hi].
Qed.
Lemma merge_parsed : forall m e, (forall x, listlike (e (var_name x))) ->
  exists e1 args, merge_items e (dict_of m) = Ok (e1, args) /\
    (forall x, m x <> [] -> exists o t, merged (e (var_name x)) (var_value m x) (o ++ m x) /\ e1 (var_name x) = Some (PList t) /\ unique_of (var_name x) (o ++ m x) t) /\
    (forall k, (forall x, m x <> [] -> k <> var_name x) -> e1 k = e k).
Proof.
  intros m e Hl. destruct (merge_removes_duplicates (dict_of m) e) as (e1 & args & E & H1 & H2).
  - rewrite dict_keys. exact names_nodup.
  - intros k v Hin Tv. destruct (dict_value m k v Hin) as (x & -> & Hv). destruct (listlike_merged _ v (m x) (Hl x) Tv Hv) as (a & M & _). exists (a ++ m x). exact M.
  - exists e1, args. split; [exact E|]. split.
    + intros x Hx. assert (Hin : In (var_name x, var_value m x) (dict_of m)) by (unfold dict_of; apply in_map_iff; exists x; split; [reflexivity | destruct x; cbn; tauto]).
      assert (Tv : truthy (var_value m x) = true) by (destruct x; cbn; match goal with |- context [m ?y] => destruct (m y) end; congruence).
      assert (Hv : var_value m x = PList (m x) \/ var_value m x = PCL (m x)) by (destruct x; cbn; auto).
      destruct (listlike_merged _ _ (m x) (Hl x) Tv Hv) as (a & M & _). destruct (H1 _ _ _ Hin Tv M) as (t & Et & Ut). exists a, t. auto.
    + intros k Hk. apply H2. intros v Hin. destruct (dict_value m k v Hin) as (x & -> & Hv). destruct (m x) as [|y l] eqn:Em; [destruct Hv as [-> | ->]; reflexivity|].
      exfalso. apply (Hk x); [rewrite Em; discriminate | reflexivity].
Qed.
(* C58i: MergeFlags of flags given as strings: every variable gets its flags after what it had, without duplicates; other variables are left alone *)
Theorem C58i_merge_flags : forall bt e a m,
  ParseFlags bt [a] = Ok m -> (forall x, listlike (e (var_name x))) ->
  exists e1, MergeFlags bt e a = Ok e1 /\
    (forall x, m x <> [] -> exists o t, merged (e (var_name x)) (var_value m x) (o ++ m x) /\ e1 (var_name x) = Some (PList t) /\ unique_of (var_name x) (o ++ m x) t) /\
    (forall k, (forall x, m x <> [] -> k <> var_name x) -> e1 k = e k).
Proof.
  intros bt e a m P Hl. unfold MergeFlags. rewrite P. cbn [bind]. destruct (merge_parsed m e Hl) as (e1 & args & -> & H1 & H2). exists e1. cbn. split; [reflexivity|]. split; assumption.
Qed.
(* C58j: merging the same flags again changes nothing *)
Theorem C58j_merge_twice : forall bt e a e1, MergeFlags bt e a = Ok e1 -> (forall x, listlike (e (var_name x))) ->
  exists e2, MergeFlags bt e1 a = Ok e2 /\ forall k, e2 k = e1 k.
Proof.
  intros bt e a e1 H Hl. destruct (ParseFlags bt [a]) as [m|x] eqn:P; [|unfold MergeFlags in H; rewrite P in H; discriminate].
  destruct (C58i_merge_flags bt e a m P Hl) as (e1' & E1 & H1 & H2). rewrite E1 in H. injection H as ->.
  assert (Hl1 : forall x, listlike (e1 (var_name x))).
  { intros x. destruct (m x) as [|y l] eqn:Em; [|destruct (H1 x) as (o & t & _ & -> & _); [rewrite Em; discriminate | exact Logic.I]].
    destruct (list_eq_dec pv_eq_dec (m x) []) as [_ | Hn]; [|congruence].
    rewrite H2; [apply Hl|]. intros y Hy E. assert (x = y) by (destruct x, y; try reflexivity; vm_compute in E; discriminate). subst. congruence. }
  destruct (C58i_merge_flags bt e1 a m P Hl1) as (e2 & E2 & G1 & G2). exists e2. split; [exact E2|]. intros k.
  destruct (existsb (fun x => str_eqb k (var_name x) && negb (match m x with [] => true | _ => false end)) all_vars) eqn:Ex.
  - apply existsb_exists in Ex. destruct Ex as (x & _ & Hx). apply andb_true_iff in Hx. destruct Hx as [Hk Hm]. apply str_eqb_spec in Hk. subst k.
    assert (Hn : m x <> []) by (destruct (m x); [discriminate | discriminate]). destruct (H1 x Hn) as (o & t & _ & Et & Ut). destruct (G1 x Hn) as (o2 & t2 & M2 & Et2 & Ut2).
    rewrite Et2, Et. f_equal. f_equal. rewrite Et in M2.
    assert (Eo : o2 = t).
    { assert (Nt : t <> []) by (intros ->; destruct (C58h_merge_same_elements _ _ _ Ut) as [_ I]; destruct (m x) as [|y l] eqn:Em; [congruence|]; apply (I y); apply in_or_app; right; left; reflexivity).
      assert (Hv : items (var_value m x) (m x)) by (destruct x; constructor).
      assert (U : forall o l l2, o = Some (PList t) -> merged o (var_value m x) l2 -> l2 = l -> l = t ++ m x).
      { intros oo l l2 Eq M Eql. subst l2. revert Eq. inversion M as [q v l3 Ho Hi|q v l3 Ha Hi Hnt|q v l3 Ha Hi|q l3 Ha|s l3 Hs|s v l3 Hs Hi Hl3 Hn3]; subst; intros Eq.
        - destruct Ho as [-> | (z & -> & Tz)]; [discriminate|]. injection Eq as ->. destruct t; [congruence | inversion Tz].
        - injection Eq as ->. f_equal. destruct x; cbn in Hi; inversion Hi; reflexivity.
        - discriminate.
        - discriminate.
        - discriminate.
        - discriminate. }
      apply (app_inv_tail (m x)). apply (U _ _ _ eq_refl M2 eq_refl). }
    subst o2. apply (unique_twice _ _ _ _ _ Ut Ut2).
  - apply G2. intros x Hx ->. assert (existsb (fun y => str_eqb (var_name x) (var_name y) && negb (match m y with [] => true | _ => false end)) all_vars = true); [|congruence].
    apply existsb_exists. exists x. split; [destruct x; cbn; tauto|]. rewrite str_eqb_refl. destruct (m x); [congruence | reflexivity].
Qed.

(* C58k: the macros of -D flags reach the command line as they were written *)
Lemma mapM_ok : forall (A B : Type) (f : A -> res B) (g : A -> B) l, (forall x, In x l -> f x = Ok (g x)) -> mapM f l = Ok (map g l).
Proof. induction l as [|x l IH]; intros H; [reflexivity|]. cbn [mapM map]. rewrite (H x (or_introl eq_refl)), IH; [reflexivity | intros y Hy; apply H; right; exact Hy]. Qed.
Theorem C58k_macros_survive : forall ds, processDefines (PList (map define_entry ds)) = Ok ds.
Proof.
  intros ds. cbn [processDefines]. replace (mapM macros_of_entry (map define_entry ds)) with (Ok (map (fun d => [d]) ds)).
  - cbn [bind]. f_equal. induction ds as [|d ds IH]; [reflexivity|]. cbn. rewrite IH. reflexivity.
  - induction ds as [|d ds IH]; [reflexivity|]. cbn [map mapM]. rewrite <- IH.
    destruct (define_entry_spec d) as [[_ ->] | (n & v & -> & _ & ->)]; reflexivity.
Qed.
Theorem C58l_define_flags : forall bt ds, Forall (fun d => d <> [] /\ Forall harmless d) ds -> ds <> [] ->
  exists m, ParseFlags bt [FStr (join_with " "%char (map (fun d => lit "-D" ++ d) ds))] = Ok m /\ processDefines (var_value m CPPDEFINES) = Ok ds /\ forall x, x <> CPPDEFINES -> m x = [].
Proof.
  intros bt ds H Hn.
  assert (Sp : shlex_split (join_with " "%char (map (fun d => lit "-D" ++ d) ds)) = Ok (map (fun d => lit "-D" ++ d) ds)).
  { apply C58d_quoted_words_arrive. clear Hn. induction H as [|d ds [Hd Hh] H IH]; [constructor|]. cbn [map]. constructor; [|exact IH]. apply quotes_plain; [discriminate|].
    cbn. constructor; [right; right; right; vm_compute; tauto|]. constructor; [right; left; cbn; lia|]. exact Hh. }
  set (cs := map (fun d => (CPPDEFINES, define_entry d)) ds).
  assert (R : reads (map (fun d => lit "-D" ++ d) ds) cs []).
  { unfold cs. clear Sp Hn cs. induction H as [|d ds [Hd Hh] H IH]; [constructor|]. cbn [map].
    change ((CPPDEFINES, define_entry d) :: map (fun d => (CPPDEFINES, define_entry d)) ds) with ([(CPPDEFINES, define_entry d)] ++ map (fun d => (CPPDEFINES, define_entry d)) ds).
    assert (Ho : is_option (lit "-D" ++ d)) by (eexists; eexists; split; [reflexivity | left; reflexivity]).
    assert (Er : rw (lit "-D" ++ d) = prefix "-D" [(CPPDEFINES, Attached)]).
    { unfold rw. repeat match goal with |- (if ?b then _ else _) = _ => first [replace b with false by reflexivity | replace b with true by (cbn; rewrite sw_nil; reflexivity); reflexivity] end. }
    apply reads_flag with (r := rw (lit "-D" ++ d)); [exact Ho | apply rw_best; exact Ho | | | exact IH].
    - rewrite Er. intros T. apply takes_spec in T. cbv [takes rest_of prefix dests flag existsb snd] in T. change (skipn (length (lit "-D")) (lit "-D" ++ d)) with d in T. destruct d; [congruence | discriminate].
    - rewrite Er. change (dests (prefix "-D" [(CPPDEFINES, Attached)])) with [(CPPDEFINES, Attached)].
      change [(CPPDEFINES, define_entry d)] with (map (pair (fst (CPPDEFINES, Attached))) [define_entry d] ++ []). constructor; [|constructor].
      cbn [contributes snd]. exists (define_entry d). split; [|reflexivity].
      change (rest_of (prefix "-D" [(CPPDEFINES, Attached)]) (lit "-D" ++ d)) with d. destruct d as [|c d]; [congruence|]. apply (tvalue_spec CPPDEFINES). }
  destruct (proj2 (C58a_flags_go_where_documented bt [FStr (join_with " "%char (map (fun d => lit "-D" ++ d) ds))]) [cs]) as (m & P & Hm).
  { cbn [flat_map leaves app]. constructor; [|constructor]. exists (map (fun d => lit "-D" ++ d) ds), []. split; [|exact R]. right. right.
    destruct ds as [|d ds]; [congruence|]. split; [destruct ds; discriminate|]. split; [|exact Sp]. intros c E. destruct ds; discriminate. }
  exists m. split; [exact P|]. cbn [concat] in Hm. rewrite app_nil_r in Hm. split.
  - cbn [var_value]. rewrite Hm. replace (for_var CPPDEFINES cs) with (map define_entry ds); [apply C58k_macros_survive|].
    unfold cs, for_var. clear. induction ds as [|d ds IH]; [reflexivity|]. cbn. rewrite IH. reflexivity.
  - intros x Hx. rewrite Hm. unfold cs, for_var. clear - Hx. induction ds as [|d ds IH]; [reflexivity|]. cbn [map filter fst].
    destruct (var_eq_dec CPPDEFINES x); [congruence | exact IH].
Qed.
Print Assumptions C58h_merge_same_elements.
Print Assumptions C58i_merge_flags.
Print Assumptions C58j_merge_twice.
Print Assumptions C58k_macros_survive.
Print Assumptions C58l_define_flags.
