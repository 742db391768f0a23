(* Construction environments: C26 (overrides never modify their parent), C27 (an override is a layered dictionary), C28 (unique). *)
From Coq Require Import List Arith Bool Lia.
Import ListNotations.
From Verif Require Import EnvModel.

Section Env.
Variables (reserved ident : key -> bool).
Notation run_op := (run_op reserved ident). Notation run_ops := (run_ops reserved ident).

(* ---- dictionaries ---- *)
Lemma kget_set (d : dict) k v k' : kget (kset d k v) k' = if k' =? k then Some v else kget d k'.
Proof.
  induction d as [|[x w] d IH]; cbn; [destruct (k' =? k); reflexivity|]. destruct (k =? x) eqn:E; cbn.
  - apply Nat.eqb_eq in E. subst x. destruct (k' =? k); reflexivity.
  - rewrite IH. destruct (k' =? x) eqn:F; [|reflexivity]. apply Nat.eqb_eq in F. subst x. rewrite Nat.eqb_sym, E. reflexivity.
Qed.
Lemma kget_in (d : dict) k v : kget d k = Some v -> In (k, v) d.
Proof. induction d as [|[x w] d IH]; cbn; [discriminate|]. destruct (k =? x) eqn:E; [|auto]. apply Nat.eqb_eq in E. intros H. injection H as ->. subst. auto. Qed.
Lemma kget_none (d : dict) k : kget d k = None <-> ~ In k (map fst d).
Proof.
  induction d as [|[x w] d IH]; cbn; [tauto|]. destruct (k =? x) eqn:E; [apply Nat.eqb_eq in E; subst; split; [discriminate | tauto]|]. apply Nat.eqb_neq in E. rewrite IH.
  split; [intros H [Q|Q]; [congruence | auto] | tauto].
Qed.
Lemma in_kset (d : dict) k v x w : In (x, w) (kset d k v) -> In (x, w) d \/ (x = k /\ w = v).
Proof.
  induction d as [|[y u] d IH]; cbn; [intros [H|[]]; injection H as <- <-; auto|]. destruct (k =? y) eqn:E; cbn.
  - apply Nat.eqb_eq in E. subst. intros [H|H]; [injection H as <- <-; auto | auto].
  - intros [H|H]; [auto|]. destruct (IH H); auto.
Qed.
Lemma in_kdel (d : dict) k x : In x (kdel d k) -> In x d.
Proof. induction d as [|[y u] d IH]; cbn; [tauto|]. destruct (k =? y); cbn; [auto|]. intros [H|H]; auto. Qed.
Lemma keys_kset (d : dict) k v x : In x (map fst (kset d k v)) <-> In x (map fst d) \/ x = k.
Proof.
  induction d as [|[y u] d IH]; cbn; [intuition|]. destruct (k =? y) eqn:E; cbn; [apply Nat.eqb_eq in E; subst; intuition | rewrite IH; intuition].
Qed.
Lemma nodup_kset (d : dict) k v : NoDup (map fst d) -> NoDup (map fst (kset d k v)).
Proof.
  induction d as [|[y u] d IH]; cbn; intros H; [repeat constructor; intros []|]. inversion H as [|a b H1 H2]; subst. destruct (k =? y) eqn:E; cbn; [constructor; assumption|].
  constructor; [|auto]. rewrite keys_kset. apply Nat.eqb_neq in E. intros [Q|Q]; [auto | congruence].
Qed.
Lemma nodup_kdel (d : dict) k : NoDup (map fst d) -> NoDup (map fst (kdel d k)).
Proof.
  induction d as [|[y u] d IH]; cbn; intros H; [constructor|]. inversion H as [|a b H1 H2]; subst. destruct (k =? y); [exact H2|]. cbn. constructor; [|auto].
  intros Q. apply H1. apply in_map_iff in Q. destruct Q as ((p & q) & <- & Q). apply in_map_iff. exists (p, q). split; [reflexivity | eapply in_kdel, Q].
Qed.
Lemma kget_del (d : dict) k k' : NoDup (map fst d) -> kget (kdel d k) k' = if k' =? k then None else kget d k'.
Proof.
  induction d as [|[y u] d IH]; cbn; intros H; [destruct (k' =? k); reflexivity|]. inversion H as [|a b H1 H2]; subst. destruct (k =? y) eqn:E.
  - apply Nat.eqb_eq in E. subst y. destruct (k' =? k) eqn:F; [|reflexivity]. apply Nat.eqb_eq in F. subst. apply kget_none, H1.
  - cbn. rewrite (IH H2). destruct (k' =? y) eqn:F; [|reflexivity]. apply Nat.eqb_eq in F. subst y. rewrite Nat.eqb_sym, E. reflexivity.
Qed.
Lemma nth_replace {A} (l : list A) i x j : nth_error (replace l i x) j = if j =? i then (match nth_error l i with Some _ => Some x | None => None end) else nth_error l j.
Proof. revert i j. induction l as [|y l IH]; intros [|i] [|j]; cbn; try reflexivity; [destruct (j =? i); reflexivity | apply IH]. Qed.
Lemma replace_length {A} (l : list A) i x : length (replace l i x) = length l.
Proof. revert i. induction l as [|y l IH]; intros [|i]; cbn; auto. Qed.

(* ---- C26 ---- *)
(* below es e a: a is e itself or one of the environments e is (transitively) an override of *)
Inductive below (es : list env) : nat -> nat -> Prop :=
| below_refl e : below es e e
| below_step e sub ov del a : nth_error es e = Some (EOver sub ov del) -> below es sub a -> below es e a.
Definition dict_of (x : env) : dict := match x with EBase d => d | EOver _ ov _ => ov end.
Definition same_shape (x y : env) : Prop := match x, y with EBase _, EBase _ => True | EOver a _ _, EOver b _ _ => a = b | _, _ => False end.
(* overrides are made of earlier environments, and references point to existing objects *)
Record wf (s : store) : Prop := {
  wf_sub : forall e sub ov del, nth_error (envs s) e = Some (EOver sub ov del) -> sub < e;
  wf_ref : forall e x k l, nth_error (envs s) e = Some x -> In (k, VRef l) (dict_of x) -> l < length (heap s) }.
(* the operation changes, in place, the object that the variable refers to *)
Definition inplace (s : store) (e : nat) (o : op) : bool :=
  match o with
  | OAppend k c | OPrepend k c => match view s e k, c with Some (CList _), CAtom _ => true | Some (CDict _), _ => true | _, _ => false end
  | OAppendUnique _ k c | OPrependUnique _ k c => match view s e k, c with Some (CDict _), CDict _ => true | _, _ => false end
  | _ => false
  end.
Definition op_key (o : op) : key :=
  match o with OSet k _ | OSetRef k _ | ODel k | OSetDefault k _ | OUpdate k _ | OUpdateNew k _ | OReplace k _ | OAppend k _ | OPrepend k _ | OAppendUnique _ k _ | OPrependUnique _ k _ => k end.
Definition refers (o : op) (l : loc) : Prop := match o with OSetRef _ l' => l' = l | _ => False end.

(* what one operation on e can change *)
Record step_ok (s : store) (e : nat) (o : op) (s' : store) : Prop := {
  st_env : forall e', e' <> e -> nth_error (envs s') e' = nth_error (envs s) e';
  st_shape : forall x, nth_error (envs s) e = Some x -> exists y, nth_error (envs s') e = Some y /\ same_shape x y
               /\ forall k l, In (k, VRef l) (dict_of y) -> In (k, VRef l) (dict_of x) \/ (length (heap s) <= l < length (heap s')) \/ refers o l;
  st_len : length (envs s') = length (envs s);
  st_heap_len : length (heap s) <= length (heap s');
  st_heap : forall l, l < length (heap s) -> nth_error (heap s') l = nth_error (heap s) l
               \/ (inplace s e o = true /\ getitem (envs s) e (op_key o) = Some (VRef l)) }.
Lemma shape_refl x : same_shape x x. Proof. destruct x; cbn; auto. Qed.
Lemma step_id s e o : step_ok s e o s.
Proof. split; auto. intros x H. exists x. split; [exact H|]. split; [apply shape_refl | auto]. Qed.
Lemma set_env_ok s s0 e o x y : envs s0 = envs s -> (exists ext, heap s0 = heap s ++ ext) -> nth_error (envs s) e = Some x -> same_shape x y ->
  (forall k l, In (k, VRef l) (dict_of y) -> In (k, VRef l) (dict_of x) \/ (length (heap s) <= l < length (heap s0)) \/ refers o l) -> step_ok s e o (set_env s0 e y).
Proof.
  intros Ee (ext & Eh) Hx Sh R. assert (L : length (heap s) <= length (heap s0)) by (rewrite Eh, app_length; lia). split; cbn [set_env envs heap].
  - intros e' N. rewrite nth_replace, Ee. apply Nat.eqb_neq in N. rewrite N. reflexivity.
  - intros x' Hx'. rewrite Hx in Hx'. injection Hx' as <-. exists y. rewrite nth_replace, Nat.eqb_refl, Ee, Hx. auto.
  - rewrite replace_length, Ee. reflexivity.
  - exact L.
  - intros l Hl. left. rewrite Eh. apply nth_error_app1, Hl.
Qed.
Definition fresh_val (s s0 : store) (v : val) : Prop := match v with VAtom _ => True | VRef l => length (heap s) <= l < length (heap s0) end.
Lemma alloc_ok s c s0 v : alloc s c = (s0, v) -> envs s0 = envs s /\ (exists ext, heap s0 = heap s ++ ext) /\ fresh_val s s0 v /\ content s0 v = Some c.
Proof.
  destruct c as [a|x|x]; cbn; intros H; injection H as <- <-; (split; [reflexivity|]).
  - split; [exists []; rewrite app_nil_r; reflexivity | split; [exact Logic.I | reflexivity]].
  - split; [eexists; reflexivity|]. split; [cbn; rewrite app_length; cbn; lia|]. cbn. rewrite nth_error_app2, Nat.sub_diag by lia. reflexivity.
  - split; [eexists; reflexivity|]. split; [cbn; rewrite app_length; cbn; lia|]. cbn. rewrite nth_error_app2, Nat.sub_diag by lia. reflexivity.
Qed.
Definition new_val (o : op) (s s0 : store) (v : val) : Prop := fresh_val s s0 v \/ exists l, v = VRef l /\ refers o l.
Lemma kset_refs o s s0 v (d : dict) k : new_val o s s0 v -> forall k' l, In (k', VRef l) (kset d k v) -> In (k', VRef l) d \/ (length (heap s) <= l < length (heap s0)) \/ refers o l.
Proof. intros F k' l H. apply in_kset in H. destruct H as [H|[_ <-]]; [auto|]. destruct F as [F|(l' & Q & F)]; [right; left; exact F | injection Q as ->; auto]. Qed.
Lemma setitem_ok o s s0 e k v s' : envs s0 = envs s -> (exists ext, heap s0 = heap s ++ ext) -> new_val o s s0 v -> setitem reserved ident s0 e k v = Some s' -> step_ok s e o s'.
Proof.
  intros Ee Eh F. unfold setitem. rewrite Ee. destruct (nth_error (envs s) e) as [[d|sub ov del]|] eqn:N; [| |discriminate].
  - destruct (reserved k). { intros H. injection H as <-. destruct Eh as (ext & Eh). split; [intros; rewrite Ee; reflexivity| |rewrite Ee; reflexivity|rewrite Eh, app_length; lia|intros l L; left; rewrite Eh; apply nth_error_app1, L].
      intros x Hx. exists x. rewrite Ee. split; [exact Hx|]. split; [apply shape_refl | auto]. }
    destruct (match kget d k with Some _ => true | None => ident k end); [|discriminate]. intros H. injection H as <-. eapply set_env_ok; [exact Ee | exact Eh | exact N | exact Logic.I | apply kset_refs, F].
  - destruct (ident k); [|discriminate]. intros H. injection H as <-. eapply set_env_ok; [exact Ee | exact Eh | exact N | reflexivity | apply kset_refs, F].
Qed.
Lemma grow_ok o s s0 e : envs s0 = envs s -> (exists ext, heap s0 = heap s ++ ext) -> step_ok s e o s0.
Proof.
  intros Ee (ext & Eh). split; [intros; rewrite Ee; reflexivity| |rewrite Ee; reflexivity|rewrite Eh, app_length; lia|intros l L; left; rewrite Eh; apply nth_error_app1, L].
  intros x Hx. exists x. rewrite Ee. split; [exact Hx|]. split; [apply shape_refl | auto].
Qed.
Lemma raw_set_ok o s s0 e k v s' : envs s0 = envs s -> (exists ext, heap s0 = heap s ++ ext) -> new_val o s s0 v -> raw_set reserved ident s0 e k v = Some s' -> step_ok s e o s'.
Proof.
  intros Ee Eh F. unfold raw_set. destruct (nth_error (envs s0) e) as [[d|sub ov del]|] eqn:N; [|apply setitem_ok; assumption|apply setitem_ok; assumption].
  intros H. injection H as <-. rewrite Ee in N. eapply set_env_ok; [exact Ee | exact Eh | exact N | exact Logic.I | apply kset_refs, F].
Qed.
Lemma put_ok o s e k c s' : put reserved ident s e k c = Some s' -> step_ok s e o s'.
Proof. unfold put. destruct (alloc s c) as [s0 v] eqn:A. destruct (alloc_ok _ _ _ _ A) as (Ee & Eh & F & _). apply raw_set_ok; [exact Ee | exact Eh | left; exact F]. Qed.
Lemma mutate_ok o s e orig x s' : getitem (envs s) e (op_key o) = Some orig -> inplace s e o = true -> mutate s orig x = Some s' -> step_ok s e o s'.
Proof.
  intros G I. destruct orig as [a|l]; [discriminate|]. cbn. intros H. injection H as <-. split; cbn [envs heap]; auto.
  - intros y Hy. exists y. split; [exact Hy|]. split; [apply shape_refl | auto].
  - rewrite replace_length. auto.
  - intros l' L. rewrite nth_replace. destruct (l' =? l) eqn:Q; [apply Nat.eqb_eq in Q; subst; right; auto | left; reflexivity].
Qed.
Lemma view_of s e k v c : getitem (envs s) e k = Some v -> content s v = Some c -> view s e k = Some c.
Proof. intros G C. unfold view. rewrite G. exact C. Qed.
Lemma run_op_ok s e o s' : run_op s e o = Some s' -> step_ok s e o s'.
Proof.
  assert (WA : forall c f, (forall s0 v, envs s0 = envs s -> (exists ext, heap s0 = heap s ++ ext) -> new_val o s s0 v -> f s0 v = Some s' -> step_ok s e o s') -> with_alloc s c f = Some s' -> step_ok s e o s').
  { intros c f H. unfold with_alloc. destruct (alloc s c) as [s0 v] eqn:A. destruct (alloc_ok _ _ _ _ A) as (Ee & Eh & F & _). apply H; auto. left; exact F. }
  assert (U : forall c k, with_alloc s c (fun s v => update1 s e k v) = Some s' -> step_ok s e o s').
  { intros c k. apply WA. intros s0 v Ee Eh F. unfold update1. destruct (nth_error (envs s0) e) as [[d|sub ov del]|] eqn:N; [| |discriminate]; intros H; injection H as <-; rewrite Ee in N;
    (eapply set_env_ok; [exact Ee | exact Eh | exact N | try exact Logic.I; reflexivity | apply kset_refs, F]). }
  destruct o as [k c|k l|k|k c|k c|k c|k c|k c|k c|b k c|b k c]; cbn [EnvModel.run_op].
  - apply WA. intros s0 v Ee Eh F. apply setitem_ok; assumption.
  - apply setitem_ok; [reflexivity | exists []; rewrite app_nil_r; reflexivity | right; exists l; split; reflexivity].
  - unfold delitem. assert (Sub : forall (d : dict) k' l, In (k', VRef l) (kdel d k) -> In (k', VRef l) d \/ (length (heap s) <= l < length (heap s)) \/ refers (ODel k) l) by (intros d k' l H; left; eapply in_kdel, H).
    assert (Id : exists ext, heap s = heap s ++ ext) by (exists []; rewrite app_nil_r; reflexivity).
    destruct (nth_error (envs s) e) as [[d|sub ov del]|] eqn:N; [| |discriminate].
    + destruct (kget d k); [|discriminate]. intros H. injection H as <-. eapply set_env_ok; [reflexivity | exact Id | exact N | exact Logic.I | apply Sub].
    + destruct (kget ov k); [|destruct (contains (envs s) sub k); [|discriminate]]; intros H; injection H as <-; (eapply set_env_ok; [reflexivity | exact Id | exact N | reflexivity|]); [apply Sub | cbn [dict_of]; auto].
  - apply WA. intros s0 v Ee Eh F. unfold setdefault. destruct (nth_error (envs s0) e) as [[d|sub ov del]|] eqn:N; [| |discriminate]; intros H; injection H as <-; rewrite Ee in N.
    + destruct (kget d k); [apply grow_ok; assumption|]. eapply set_env_ok; [exact Ee | exact Eh | exact N | exact Logic.I | apply kset_refs, F].
    + destruct (getitem (envs s0) e k); [apply grow_ok; assumption|]. eapply set_env_ok; [exact Ee | exact Eh | exact N | reflexivity | apply kset_refs, F].
  - apply U.
  - apply WA. intros s0 v Ee Eh F. unfold update_new1. destruct (nth_error (envs s0) e) as [[d|sub ov del]|] eqn:N; [| |discriminate]; intros H; injection H as <-; rewrite Ee in N.
    + destruct (kget d k); [apply grow_ok; assumption|]. eapply set_env_ok; [exact Ee | exact Eh | exact N | exact Logic.I | apply kset_refs, F].
    + destruct (kget ov k); [apply grow_ok; assumption|]. eapply set_env_ok; [exact Ee | exact Eh | exact N | reflexivity | apply kset_refs, F].
  - destruct (reserved k); [intros H; injection H as <-; apply step_id | apply U].
  - destruct (reserved k); [intros H; injection H as <-; apply step_id|]. unfold append. destruct (getitem (envs s) e k) as [orig|] eqn:G; [|apply put_ok]. unfold opt_bind at 1. destruct (content s orig) as [oc|] eqn:C; [|discriminate].
    pose proof (view_of _ _ _ _ _ G C) as V. destruct oc as [[[|x0 x]|]|x|x]; destruct c as [[[|y0 y]|]|y|y]; cbn [truthy]; try discriminate; try apply put_ok; try (intros H; injection H as <-; apply step_id);
    (apply mutate_ok; [exact G | cbn [inplace]; rewrite V; reflexivity]).
  - destruct (reserved k); [intros H; injection H as <-; apply step_id|]. unfold prepend. destruct (getitem (envs s) e k) as [orig|] eqn:G; [|apply put_ok]. unfold opt_bind at 1. destruct (content s orig) as [oc|] eqn:C; [|discriminate].
    pose proof (view_of _ _ _ _ _ G C) as V. destruct oc as [[[|x0 x]|]|x|x]; destruct c as [[[|y0 y]|]|y|y]; cbn [truthy]; try discriminate; try apply put_ok; try (intros H; injection H as <-; apply step_id);
    try (apply mutate_ok; [exact G | cbn [inplace]; rewrite V; reflexivity]); (destruct y; [intros H; injection H as <-; apply step_id | discriminate]).
  - destruct (reserved k); [intros H; injection H as <-; apply step_id|]. unfold unique_add. destruct (getitem (envs s) e k) as [orig|] eqn:G; [|apply put_ok]. unfold opt_bind at 1. destruct (content s orig) as [oc|] eqn:C; [|discriminate].
    pose proof (view_of _ _ _ _ _ G C) as V. destruct oc as [[[|x0 x]|]|x|x]; destruct c as [[[|y0 y]|]|y|y]; try discriminate; try apply put_ok; try (intros H; injection H as <-; apply step_id);
    try (apply mutate_ok; [exact G | cbn [inplace]; rewrite V; reflexivity]); destruct b; try discriminate; try apply put_ok; destruct (amem _ x); try apply put_ok; intros H; injection H as <-; apply step_id.
  - destruct (reserved k); [intros H; injection H as <-; apply step_id|]. unfold unique_add. destruct (getitem (envs s) e k) as [orig|] eqn:G; [|apply put_ok]. unfold opt_bind at 1. destruct (content s orig) as [oc|] eqn:C; [|discriminate].
    pose proof (view_of _ _ _ _ _ G C) as V. destruct oc as [[[|x0 x]|]|x|x]; destruct c as [[[|y0 y]|]|y|y]; try discriminate; try apply put_ok; try (intros H; injection H as <-; apply step_id);
    try (apply mutate_ok; [exact G | cbn [inplace]; rewrite V; reflexivity]); destruct b; try discriminate; try apply put_ok; destruct (amem _ x); try apply put_ok; intros H; injection H as <-; apply step_id.
Qed.

Lemma below_same es es' e a : length es' = length es -> (forall b, below es e b -> nth_error es' b = nth_error es b) -> below es' e a -> below es e a.
Proof.
  intros _ H B. induction B as [e|e sub ov del a N B IH]; [constructor|]. rewrite (H e (below_refl es e)) in N. eapply below_step; [exact N|]. apply IH. intros b Hb. apply H. eapply below_step; eauto.
Qed.
Section Chain.
Variables (es es' : list env).
Let agree (e : nat) : Prop := forall b, below es e b -> nth_error es' b = nth_error es b.
Lemma agree_sub e sub ov del : agree e -> nth_error es e = Some (EOver sub ov del) -> agree sub.
Proof. intros A N b B. apply A. eapply below_step; eauto. Qed.
Lemma getf_same : forall n e k, agree e -> getf n es' e k = getf n es e k.
Proof.
  induction n as [|n IH]; intros e k A; [reflexivity|]. cbn [getf]. rewrite (A e (below_refl es e)). destruct (nth_error es e) as [[d|sub ov del]|] eqn:N; try reflexivity.
  destruct (kget ov k); [reflexivity|]. destruct (mem k del); [reflexivity|]. apply IH. eapply agree_sub; eauto.
Qed.
Lemma containsf_same : forall n e k, agree e -> containsf n es' e k = containsf n es e k.
Proof.
  induction n as [|n IH]; intros e k A; [reflexivity|]. cbn [containsf]. rewrite (A e (below_refl es e)). destruct (nth_error es e) as [[d|sub ov del]|] eqn:N; try reflexivity.
  destruct (kget ov k); [reflexivity|]. destruct (mem k del); [reflexivity|]. apply IH. eapply agree_sub; eauto.
Qed.
Lemma opt_map_ext {A B} (f g : A -> option B) l : (forall x, f x = g x) -> opt_map f l = opt_map g l.
Proof. intros H. induction l as [|x l IH]; [reflexivity|]. cbn. rewrite H, IH. reflexivity. Qed.
Lemma dictf_same : forall n e, agree e -> dictf n es' e = dictf n es e.
Proof.
  induction n as [|n IH]; intros e A; [reflexivity|]. cbn [dictf]. rewrite (A e (below_refl es e)). destruct (nth_error es e) as [[d|sub ov del]|] eqn:N; try reflexivity.
  assert (As : agree sub) by (eapply agree_sub; eauto). rewrite (IH sub As). destruct (dictf n es sub) as [sd|]; [|reflexivity]. cbn [opt_bind].
  rewrite (opt_map_ext (fun k => opt_bind (getitem es' sub k) (fun v => Some (k, v))) (fun k => opt_bind (getitem es sub k) (fun v => Some (k, v)))); [reflexivity|].
  intros k. unfold getitem. rewrite (getf_same _ _ _ As). reflexivity.
Qed.
Lemma gvarsf_same : forall n e, agree e -> gvarsf n es' e = gvarsf n es e.
Proof. induction n as [|n IH]; intros e A; [reflexivity|]. cbn [gvarsf]. rewrite (A e (below_refl es e)). destruct (nth_error es e) as [[d|sub ov del]|] eqn:N; try reflexivity. apply IH. eapply agree_sub; eauto. Qed.
Lemma lvarsf_same : forall n e, agree e -> lvarsf n es' e = lvarsf n es e.
Proof. induction n as [|n IH]; intros e A; [reflexivity|]. cbn [lvarsf]. rewrite (A e (below_refl es e)). destruct (nth_error es e) as [[d|sub ov del]|] eqn:N; try reflexivity. rewrite IH; [reflexivity|]. eapply agree_sub; eauto. Qed.
End Chain.

(* a value obtained from an environment is stored in it or in one it is an override of *)
Lemma getf_origin es : forall n e k v, getf n es e k = Some v -> exists b x, below es e b /\ nth_error es b = Some x /\ In (k, v) (dict_of x).
Proof.
  induction n as [|n IH]; intros e k v; cbn [getf]; [discriminate|]. destruct (nth_error es e) as [[d|sub ov del]|] eqn:N; [| |discriminate].
  - intros H. exists e, (EBase d). split; [constructor|]. split; [exact N | apply kget_in, H].
  - destruct (kget ov k) eqn:G; [intros H; injection H as ->; exists e, (EOver sub ov del); split; [constructor|]; split; [exact N | apply kget_in, G]|].
    destruct (mem k del); [discriminate|]. intros H. destruct (IH _ _ _ H) as (b & x & B & Nb & I). exists b, x. split; [eapply below_step; eauto | auto].
Qed.

(* everything a user can observe of environment e' is the same *)
Definition same_env (s s' : store) (e' : nat) : Prop :=
  (forall k, getitem (envs s') e' k = getitem (envs s) e' k /\ view s' e' k = view s e' k /\ contains (envs s') e' k = contains (envs s) e' k
     /\ subst_lookup (envs s') e' k = subst_lookup (envs s) e' k) /\ dictionary (envs s') e' = dictionary (envs s) e'.
Lemma same_env_refl s e : same_env s s e. Proof. split; auto. Qed.
Lemma same_env_trans s s' s'' e : same_env s s' e -> same_env s' s'' e -> same_env s s'' e.
Proof. intros [A1 A2] [B1 B2]. split; [|congruence]. intros k. destruct (A1 k) as (a & b & c & d), (B1 k) as (a' & b' & c' & d'). repeat split; congruence. Qed.
Lemma step_below s e o s' e' : step_ok s e o s' -> ~ below (envs s) e' e -> ~ below (envs s') e' e.
Proof.
  intros St NB B. apply NB. clear NB. induction B as [x|x sub ov del a N B IH]; [constructor|]. destruct (Nat.eq_dec x a) as [->|Ne]; [constructor|].
  rewrite (st_env _ _ _ _ St x Ne) in N. eapply below_step; eauto.
Qed.
Lemma step_same s e o s' e' : step_ok s e o s' -> ~ below (envs s) e' e ->
  (forall b x k l, below (envs s) e' b -> nth_error (envs s) b = Some x -> In (k, VRef l) (dict_of x) -> nth_error (heap s') l = nth_error (heap s) l) -> same_env s s' e'.
Proof.
  intros St NB Hh. assert (A : forall b, below (envs s) e' b -> nth_error (envs s') b = nth_error (envs s) b).
  { intros b B. apply (st_env _ _ _ _ St). intros ->. contradiction. }
  assert (G : forall k, getitem (envs s') e' k = getitem (envs s) e' k) by (intros k; apply getf_same, A).
  split; [|apply dictf_same, A]. intros k. split; [apply G|]. split; [|split; [apply containsf_same, A|]].
  - unfold view. rewrite G. destruct (getitem (envs s) e' k) as [[a|l]|] eqn:Q; try reflexivity. cbn [opt_bind content]. destruct (getf_origin _ _ _ _ _ Q) as (b & x & B & Nb & I). rewrite (Hh b x k l B Nb I). reflexivity.
  - unfold subst_lookup. rewrite (lvarsf_same (envs s) (envs s') _ _ A), (gvarsf_same (envs s) (envs s') _ _ A). reflexivity.
Qed.
Lemma step_wf s e o s' : wf s -> step_ok s e o s' -> (forall l, refers o l -> l < length (heap s)) -> wf s'.
Proof.
  intros [W1 W2] St R. pose proof (st_heap_len _ _ _ _ St) as HL. split.
  - intros e1 sub ov del N. destruct (Nat.eq_dec e1 e) as [->|Ne]; [|rewrite (st_env _ _ _ _ St e1 Ne) in N; eapply W1, N].
    destruct (nth_error (envs s) e) as [x|] eqn:Nx.
    + destruct (st_shape _ _ _ _ St x Nx) as (y & Ny & Sh & _). rewrite Ny in N. injection N as ->. destruct x as [d|a b c]; cbn in Sh; [contradiction|]. subst a. eapply W1, Nx.
    + exfalso. apply nth_error_None in Nx. rewrite <- (st_len _ _ _ _ St) in Nx. apply nth_error_None in Nx. congruence.
  - intros e1 y k l N I. destruct (Nat.eq_dec e1 e) as [->|Ne]; [|rewrite (st_env _ _ _ _ St e1 Ne) in N; specialize (W2 _ _ _ _ N I); lia].
    destruct (nth_error (envs s) e) as [x|] eqn:Nx.
    + destruct (st_shape _ _ _ _ St x Nx) as (y' & Ny & _ & Rf). rewrite Ny in N. injection N as ->. destruct (Rf k l I) as [Q|[Q|Q]]; [specialize (W2 _ _ _ _ Nx Q); lia | lia | specialize (R l Q); lia].
    + exfalso. apply nth_error_None in Nx. rewrite <- (st_len _ _ _ _ St) in Nx. apply nth_error_None in Nx. congruence.
Qed.

(* a condition on every operation of a sequence, in the state where it is applied *)
Definition step (s : store) (e : nat) (o : op) : store := match run_op s e o with Some s' => s' | None => s end.
Fixpoint along (P : store -> op -> Prop) (s : store) (e : nat) (os : list op) : Prop :=
  match os with [] => True | o :: r => P s o /\ along P (step s e o) e r end.
Lemma step_step_ok s e o : step_ok s e o (step s e o).
Proof. unfold step. destruct (run_op s e o) eqn:R; [eapply run_op_ok, R | apply step_id]. Qed.

(* C26.  Whatever sequence of assignments, deletions, setdefault, update, Replace, Append..., PrependUnique calls is made on an
   environment e, nothing observable changes in any environment that is not an override of e (in particular, not in
   the environments e is an override of) - provided no object is changed in place. *)
Theorem C26_parent_untouched : forall os s e, wf s ->
  along (fun s o => inplace s e o = false /\ forall l, refers o l -> l < length (heap s)) s e os ->
  forall e', ~ below (envs s) e' e -> same_env s (run_ops s e os) e'.
Proof.
  induction os as [|o os IH]; intros s e W A e' NB; [apply same_env_refl|]. destruct A as ((A1 & A2) & A3). cbn [EnvModel.run_ops fold_left]. fold (step s e o).
  pose proof (step_step_ok s e o) as St. eapply same_env_trans; [|apply (IH (step s e o) e); [eapply step_wf; eauto | exact A3 | eapply step_below; eauto]].
  eapply step_same; [exact St | exact NB|]. intros b x k l _ Nb I. destruct (st_heap _ _ _ _ St l (wf_ref _ W _ _ _ _ Nb I)) as [Q|[Q _]]; [exact Q | congruence].
Qed.

(* C26b.  Changes in place are harmless when the variable has been set in the override itself (by the keyword arguments that
   created it, or by an earlier operation that was not an assignment of an existing object). *)
Definition owned (s : store) (e : nat) : Prop := exists sub ov del, nth_error (envs s) e = Some (EOver sub ov del)
  /\ forall k l e' x k', In (k, VRef l) ov -> e' <> e -> nth_error (envs s) e' = Some x -> ~ In (k', VRef l) (dict_of x).
Definition set_in (s : store) (e : nat) (k : key) : Prop := exists sub ov del, nth_error (envs s) e = Some (EOver sub ov del) /\ kget ov k <> None.
Theorem C26b_own_variables : forall os s e, wf s -> owned s e ->
  along (fun s o => (inplace s e o = true -> set_in s e (op_key o)) /\ forall l, ~ refers o l) s e os ->
  forall e', ~ below (envs s) e' e -> same_env s (run_ops s e os) e'.
Proof.
  induction os as [|o os IH]; intros s e W Ow A e' NB; [apply same_env_refl|]. destruct A as ((A1 & A2) & A3). cbn [EnvModel.run_ops fold_left]. fold (step s e o).
  pose proof (step_step_ok s e o) as St. destruct Ow as (sub & ov & del & N & Own).
  assert (W' : wf (step s e o)) by (eapply step_wf; eauto; intros l Q; elim (A2 l Q)).
  assert (Ow' : owned (step s e o) e).
  { destruct (st_shape _ _ _ _ St _ N) as (y & Ny & Sh & Rf). destruct y as [d|sub' ov' del']; cbn in Sh; [contradiction|]. exists sub', ov', del'. split; [exact Ny|].
    intros k l e1 x k' I Ne Nx J. rewrite (st_env _ _ _ _ St e1 Ne) in Nx. destruct (Rf k l I) as [Q|[Q|Q]]; [eapply Own; eauto | | elim (A2 l Q)]. pose proof (wf_ref _ W _ _ _ _ Nx J). lia. }
  eapply same_env_trans; [|apply (IH (step s e o) e W' Ow' A3); eapply step_below; eauto].
  eapply step_same; [exact St | exact NB|]. intros b x k l Bb Nb I. destruct (st_heap _ _ _ _ St l (wf_ref _ W _ _ _ _ Nb I)) as [Q|[Q Gi]]; [exact Q|]. exfalso.
  destruct (A1 Q) as (sub1 & ov1 & del1 & N1 & Set1). rewrite N in N1. injection N1 as <- <- <-. unfold getitem in Gi. cbn [getf] in Gi. rewrite N in Gi. destruct (kget ov (op_key o)) as [v|] eqn:Gk; [|contradiction].
  injection Gi as ->. apply kget_in in Gk. refine (Own _ _ b x k Gk _ Nb I). intros ->. contradiction.
Qed.

(* ---- C27 ---- *)
(* a plain dictionary on which the same operations are made; a failing deletion changes nothing *)
Definition plain (s : store) (f : key -> option val) (o : op) : key -> option val :=
  let upd k v := fun k' => if k' =? k then v else f k' in
  let new c := Some (snd (alloc s c)) in
  match o with
  | OSet k c => if ident k then upd k (new c) else f
  | OSetRef k l => if ident k then upd k (Some (VRef l)) else f
  | ODel k => upd k None
  | OSetDefault k c => match f k with Some _ => f | None => upd k (new c) end
  | OUpdate k c => upd k (new c)
  | OReplace k c => if reserved k then f else upd k (new c)
  | _ => f
  end.
Definition dict_op (o : op) : bool := match o with OSet _ _ | OSetRef _ _ | ODel _ | OSetDefault _ _ | OUpdate _ _ | OReplace _ _ => true | _ => false end.
Fixpoint plain_run (s : store) (e : nat) (f : key -> option val) (os : list op) : key -> option val :=
  match os with [] => f | o :: r => plain_run (step s e o) e (plain s f o) r end.
Definition over_ok (s : store) (e : nat) : Prop := exists sub ov del, nth_error (envs s) e = Some (EOver sub ov del) /\ sub < e /\ NoDup (map fst ov).

Lemma getf_enough es : (forall e sub ov del, nth_error es e = Some (EOver sub ov del) -> sub < e) -> forall n e k, e < n -> getf n es e k = getitem es e k.
Proof.
  intros W. assert (G : forall n m e k, e < n -> e < m -> getf n es e k = getf m es e k).
  { induction n as [|n IH]; intros m e k L1 L2; [lia|]. destruct m as [|m]; [lia|]. cbn [getf]. destruct (nth_error es e) as [[d|sub ov del]|] eqn:N; try reflexivity.
    destruct (kget ov k); [reflexivity|]. destruct (mem k del); [reflexivity|]. pose proof (W _ _ _ _ N). apply IH; lia. }
  intros n e k L. apply G; lia.
Qed.
Lemma containsf_getf es : forall n e k, containsf n es e k = match getf n es e k with Some _ => true | None => false end.
Proof.
  induction n as [|n IH]; intros e k; [reflexivity|]. cbn. destruct (nth_error es e) as [[d|sub ov del]|]; [destruct (kget d k); reflexivity| |reflexivity]. destruct (kget ov k); [reflexivity|]. destruct (mem k del); [reflexivity | apply IH].
Qed.
Lemma mem_in k l : mem k l = true <-> In k l.
Proof. unfold mem. rewrite existsb_exists. split; [intros (x & H & Q); apply Nat.eqb_eq in Q; subst; exact H | intros H; exists k; split; [exact H | apply Nat.eqb_refl]]. Qed.
Lemma mem_remove1 k k' l : k' <> k -> mem k' (remove1 k l) = mem k' l.
Proof.
  intros N. induction l as [|x l IH]; [reflexivity|]. cbn [remove1]. destruct (k =? x) eqn:E.
  - apply Nat.eqb_eq in E. subst x. cbn [mem existsb]. apply Nat.eqb_neq in N. rewrite N. reflexivity.
  - cbn [mem existsb]. fold (mem k' (remove1 k l)) (mem k' l). rewrite IH. reflexivity.
Qed.
Lemma mem_app k l x : mem k (l ++ [x]) = (mem k l || (k =? x)).
Proof. unfold mem. rewrite existsb_app. cbn. rewrite orb_false_r. reflexivity. Qed.
Lemma getitem_over es e sub ov del k : (forall e sub ov del, nth_error es e = Some (EOver sub ov del) -> sub < e) -> nth_error es e = Some (EOver sub ov del) ->
  getitem es e k = match kget ov k with Some v => Some v | None => if mem k del then None else getitem es sub k end.
Proof. intros W N. unfold getitem at 1. cbn [getf]. rewrite N. destruct (kget ov k); [reflexivity|]. destruct (mem k del); [reflexivity|]. apply getf_enough; [exact W | eapply W, N]. Qed.
(* the effect of one operation on the override layer *)
Lemma getitem_set s e sub ov del ov' del' k : wf s -> nth_error (envs s) e = Some (EOver sub ov del) ->
  getitem (envs (set_env s e (EOver sub ov' del'))) e k = match kget ov' k with Some v => Some v | None => if mem k del' then None else getitem (envs s) sub k end.
Proof.
  intros W N. cbn [set_env envs]. pose proof (wf_sub _ W _ _ _ _ N) as L.
  assert (W' : forall e0 sub0 ov0 del0, nth_error (replace (envs s) e (EOver sub ov' del')) e0 = Some (EOver sub0 ov0 del0) -> sub0 < e0).
  { intros e0 sub0 ov0 del0 H. rewrite nth_replace, N in H. destruct (e0 =? e) eqn:Q; [apply Nat.eqb_eq in Q; injection H as <- <- <-; lia | eapply (wf_sub _ W), H]. }
  rewrite (getitem_over _ e sub ov' del' k W'); [|rewrite nth_replace, Nat.eqb_refl, N; reflexivity]. destruct (kget ov' k); [reflexivity|]. destruct (mem k del'); [reflexivity|].
  apply getf_same. intros b B. rewrite nth_replace. assert (b <= sub). { clear -B W. induction B as [|e sub ov del a N B IH]; [lia|]. pose proof (wf_sub _ W _ _ _ _ N). lia. }
  destruct (b =? e) eqn:Q; [apply Nat.eqb_eq in Q; lia | reflexivity].
Qed.
Lemma step_over s e sub ov del : wf s -> nth_error (envs s) e = Some (EOver sub ov del) -> NoDup (map fst ov) -> forall o, dict_op o = true -> (forall l, refers o l -> l < length (heap s)) ->
  (forall k, getitem (envs (step s e o)) e k = plain s (getitem (envs s) e) o k)
  /\ exists ov' del', nth_error (envs (step s e o)) e = Some (EOver sub ov' del') /\ NoDup (map fst ov').
Proof.
  intros W N ND o Ho Ro. pose proof (wf_sub _ W _ _ _ _ N) as Ls.
  assert (Same : (forall k, getitem (envs s) e k = getitem (envs s) e k) /\ exists ov' del', nth_error (envs s) e = Some (EOver sub ov' del') /\ NoDup (map fst ov')) by (split; [reflexivity | exists ov, del; auto]).
  assert (Al : forall c, exists s0 v, alloc s c = (s0, v) /\ envs s0 = envs s /\ wf s0) by (intros c; destruct (alloc s c) as [s0 v] eqn:A; exists s0, v; destruct (alloc_ok _ _ _ _ A) as (Ee & (ext & Eh) & _); repeat split; auto;
    intros; rewrite ?Eh, ?app_length; rewrite Ee in *; [eapply (wf_sub _ W); eauto | pose proof (wf_ref _ W _ _ _ _ H H0); lia]).
  assert (SetE : forall s0, wf s0 -> envs s0 = envs s -> forall ov' del', NoDup (map fst ov') ->
    (forall k, getitem (envs (set_env s0 e (EOver sub ov' del'))) e k = match kget ov' k with Some v => Some v | None => if mem k del' then None else getitem (envs s) sub k end)
    /\ exists ov'' del'', nth_error (envs (set_env s0 e (EOver sub ov' del'))) e = Some (EOver sub ov'' del'') /\ NoDup (map fst ov'')).
  { intros s0 W0 E0 ov' del' ND'. split; [intros k; rewrite <- E0; apply (getitem_set s0 e sub ov del); [exact W0 | rewrite E0; exact N]|]. exists ov', del'. split; [|exact ND']. cbn [set_env envs]. rewrite nth_replace, Nat.eqb_refl, E0, N. reflexivity. }
  assert (G0 : forall k, getitem (envs s) e k = match kget ov k with Some v => Some v | None => if mem k del then None else getitem (envs s) sub k end) by (intros k; apply getitem_over; [apply (wf_sub _ W) | exact N]).
  assert (SetI : forall s0 k v, wf s0 -> envs s0 = envs s -> ident k = true ->
    (forall k', getitem (envs (match setitem reserved ident s0 e k v with Some s' => s' | None => s end)) e k' = if k' =? k then Some v else getitem (envs s) e k')
    /\ exists ov'' del'', nth_error (envs (match setitem reserved ident s0 e k v with Some s' => s' | None => s end)) e = Some (EOver sub ov'' del'') /\ NoDup (map fst ov'')).
  { intros s0 k v W0 E0 Ik. unfold setitem. rewrite E0, N, Ik. destruct (SetE s0 W0 E0 (kset ov k v) (if mem k del then remove1 k del else del) (nodup_kset ov k v ND)) as [A B]. split; [|exact B].
    intros k'. rewrite A, kget_set, G0. destruct (k' =? k) eqn:Q; [reflexivity|]. destruct (kget ov k'); [reflexivity|]. apply Nat.eqb_neq in Q. destruct (mem k del); [rewrite (mem_remove1 k k' del Q)|]; reflexivity. }
  assert (Upd : forall s0 k v, wf s0 -> envs s0 = envs s ->
    (forall k', getitem (envs (set_env s0 e (EOver sub (kset ov k v) del))) e k' = if k' =? k then Some v else getitem (envs s) e k')
    /\ exists ov'' del'', nth_error (envs (set_env s0 e (EOver sub (kset ov k v) del))) e = Some (EOver sub ov'' del'') /\ NoDup (map fst ov'')).
  { intros s0 k v W0 E0. destruct (SetE s0 W0 E0 (kset ov k v) del (nodup_kset ov k v ND)) as [A B]. split; [|exact B]. intros k'. rewrite A, kget_set, G0. destruct (k' =? k); reflexivity. }
  destruct o as [k c|k l|k|k c|k c|k c|k c|k c|k c|b k c|b k c]; try discriminate; unfold step; cbn [EnvModel.run_op plain].
  - unfold with_alloc. destruct (Al c) as (s0 & v & A & E0 & W0). rewrite A. cbn [snd]. destruct (ident k) eqn:Ik; [apply SetI; assumption|]. unfold setitem. rewrite E0, N, Ik. apply Same.
  - destruct (ident k) eqn:Ik; [apply (SetI s k (VRef l) W eq_refl Ik)|]. unfold setitem. rewrite N, Ik. apply Same.
  - unfold delitem. rewrite N. destruct (kget ov k) as [v|] eqn:G.
    + destruct (SetE s W eq_refl (kdel ov k) (del ++ [k]) (nodup_kdel ov k ND)) as [A B]. split; [|exact B]. intros k'. rewrite A, (kget_del ov k k' ND), mem_app, G0. destruct (k' =? k) eqn:Q; [rewrite orb_true_r; reflexivity | rewrite orb_false_r; reflexivity].
    + destruct (contains (envs s) sub k) eqn:C.
      * destruct (SetE s W eq_refl ov (del ++ [k]) ND) as [A B]. split; [|exact B]. intros k'. rewrite A, mem_app, G0. destruct (k' =? k) eqn:Q; [apply Nat.eqb_eq in Q; subst; rewrite G, orb_true_r; reflexivity | rewrite orb_false_r; reflexivity].
      * split; [|apply Same]. intros k'. destruct (k' =? k) eqn:Q; [|reflexivity]. apply Nat.eqb_eq in Q. subst. rewrite G0, G. unfold contains in C. rewrite containsf_getf in C. fold (getitem (envs s) sub k) in C. destruct (getitem (envs s) sub k); [discriminate|]. destruct (mem k del); reflexivity.
  - unfold with_alloc, setdefault. destruct (Al c) as (s0 & v & A & E0 & W0). rewrite A, E0, N. cbn [snd]. destruct (getitem (envs s) e k) eqn:G; [rewrite E0; apply Same|]. apply Upd; assumption.
  - unfold with_alloc, update1. destruct (Al c) as (s0 & v & A & E0 & W0). rewrite A, E0, N. apply Upd; assumption.
  - destruct (reserved k); [apply Same|]. unfold with_alloc, update1. destruct (Al c) as (s0 & v & A & E0 & W0). rewrite A, E0, N. apply Upd; assumption.
Qed.
(* C27.  After any sequence of assignments, deletions, setdefault, update and Replace calls, lookup and membership in
   an override environment are those of a plain dictionary with the parent's variables on which the same calls are made. *)
Theorem C27_lookup_like_dictionary : forall os s e, wf s -> over_ok s e -> along (fun s o => dict_op o = true /\ forall l, refers o l -> l < length (heap s)) s e os ->
  forall k, getitem (envs (run_ops s e os)) e k = plain_run s e (getitem (envs s) e) os k
    /\ contains (envs (run_ops s e os)) e k = match plain_run s e (getitem (envs s) e) os k with Some _ => true | None => false end.
Proof.
  intros os s e W O A k. assert (G : getitem (envs (run_ops s e os)) e k = plain_run s e (getitem (envs s) e) os k); [|split; [exact G|]; rewrite <- G; apply containsf_getf].
  assert (Gen : forall os s f, wf s -> over_ok s e -> along (fun s o => dict_op o = true /\ forall l, refers o l -> l < length (heap s)) s e os -> (forall k, getitem (envs s) e k = f k) ->
    getitem (envs (run_ops s e os)) e k = plain_run s e f os k); [|apply (Gen os s _ W O A); reflexivity].
  clear. induction os as [|o os IH]; intros s f W (sub & ov & del & N & L & ND) A F; [apply F|]. destruct A as ((A1 & A2) & A3). cbn [EnvModel.run_ops fold_left plain_run]. fold (step s e o).
  destruct (step_over s e sub ov del W N ND o A1 A2) as (S1 & ov' & del' & S2 & S3). apply IH; [eapply step_wf; [exact W | apply step_step_ok | exact A2] | exists sub, ov', del'; auto | exact A3|].
  intros k'. rewrite S1. unfold plain. destruct o; try discriminate; rewrite <- ?F; try reflexivity; repeat match goal with |- context [match ?x with _ => _ end] => destruct x end; auto.
Qed.

(* ---- the dictionary view ---- *)
Definition tidy_env (x : env) : Prop := match x with EBase d => NoDup (map fst d) | EOver _ ov del => NoDup (map fst ov) /\ NoDup del /\ forall k, In k del -> kget ov k = None end.
Definition tidy (s : store) : Prop := forall e x, nth_error (envs s) e = Some x -> tidy_env x.
Lemma kget_update (e d : dict) k : NoDup (map fst e) -> kget (kupdate d e) k = match kget e k with Some v => Some v | None => kget d k end.
Proof.
  unfold dupdate. revert d. induction e as [|[x w] e IH]; intros d ND; [reflexivity|]. cbn [fold_left fst snd]. inversion ND as [|a b H1 H2]; subst. rewrite (IH _ H2), kget_set. cbn [dget].
  destruct (k =? x) eqn:Q; [|reflexivity]. apply Nat.eqb_eq in Q. subst. rewrite (proj2 (kget_none e x) H1). reflexivity.
Qed.
Lemma nodup_update (e d : dict) : NoDup (map fst d) -> NoDup (map fst (kupdate d e)).
Proof. unfold dupdate. revert d. induction e as [|[x w] e IH]; intros d ND; [exact ND|]. cbn [fold_left fst snd]. apply IH, nodup_kset, ND. Qed.
Lemma kget_filter (d : dict) p k : kget (filter (fun kv => p (fst kv)) d) k = if p k then kget d k else None.
Proof.
  induction d as [|[x w] d IH]; [destruct (p k); reflexivity|]. cbn [filter fst]. destruct (p x) eqn:Px; cbn [dget]; rewrite IH; destruct (k =? x) eqn:Q; try reflexivity; apply Nat.eqb_eq in Q; subst; rewrite Px; reflexivity.
Qed.
Lemma nodup_filter (d : dict) p : NoDup (map fst d) -> NoDup (map fst (filter p d)).
Proof.
  induction d as [|[x w] d IH]; intros ND; [constructor|]. inversion ND as [|a b H1 H2]; subst. cbn [filter]. destruct (p (x, w)); cbn [map fst]; [constructor; [|auto] | auto].
  intros Q. apply H1. apply in_map_iff in Q. destruct Q as (y & <- & Q). apply in_map_iff. exists y. split; [reflexivity|]. apply filter_In in Q. apply Q.
Qed.
Lemma opt_map_pairs (f : key -> option val) l : (forall k, In k l -> f k <> None) -> exists r, opt_map (fun k => opt_bind (f k) (fun v => Some (k, v))) l = Some r /\ map fst r = l /\ forall k v, In (k, v) r -> f k = Some v.
Proof.
  induction l as [|x l IH]; intros H; [exists []; cbn; repeat split; intros k v []|]. destruct (IH (fun k Hk => H k (or_intror Hk))) as (r & R1 & R2 & R3). cbn [opt_map].
  destruct (f x) as [v|] eqn:Fx; [|elim (H x (or_introl eq_refl) Fx)]. cbn [opt_bind]. rewrite R1. exists ((x, v) :: r). cbn. rewrite R2. repeat split. intros k v0 [Q|Q]; [injection Q as <- <-; exact Fx | apply R3, Q].
Qed.
Lemma dict_ok s : wf s -> tidy s -> forall n e, e < n -> e < length (envs s) -> exists d, dictf n (envs s) e = Some d /\ NoDup (map fst d) /\ forall k, kget d k = getitem (envs s) e k.
Proof.
  intros W T. induction n as [|n IH]; intros e L Le; [lia|]. cbn [dictf]. destruct (nth_error (envs s) e) as [[d|sub ov del]|] eqn:N; [| |apply nth_error_None in N; lia].
  - exists d. split; [reflexivity|]. split; [apply (T e _ N)|]. intros k. unfold getitem. cbn [getf]. rewrite N. reflexivity.
  - pose proof (wf_sub _ W _ _ _ _ N) as Ls. destruct (T e _ N) as (T1 & T2 & T3). destruct (IH sub ltac:(lia) ltac:(lia)) as (sd & D1 & D2 & D3). rewrite D1. cbn [opt_bind].
    destruct (opt_map_pairs (getitem (envs s) sub) (map fst sd)) as (kvs & K1 & K2 & K3). { intros k Hk Q. rewrite <- D3 in Q. apply kget_none in Q. contradiction. }
    rewrite K1. cbn [opt_bind]. eexists. split; [reflexivity|]. assert (NDk : NoDup (map fst kvs)) by (rewrite K2; exact D2). split.
    + apply (nodup_filter _ (fun kv => negb (mem (fst kv) del))). apply nodup_update, nodup_update. constructor.
    + intros k. rewrite (kget_filter _ (fun k => negb (mem k del)) k), (kget_update ov _ k T1), (getitem_over _ e sub ov del k (wf_sub _ W) N).
      assert (Kv : kget kvs k = getitem (envs s) sub k). { destruct (kget kvs k) as [v|] eqn:Q; [symmetry; apply K3, kget_in, Q|]. apply kget_none in Q. rewrite K2 in Q. apply kget_none in Q. rewrite <- D3, Q. reflexivity. }
      destruct (mem k del) eqn:M; cbn [negb]; [apply mem_in in M; rewrite (T3 k M); reflexivity|]. destruct (kget ov k); [reflexivity|]. etransitivity; [apply (kget_update kvs [] k NDk)|]. rewrite Kv. destruct (getitem (envs s) sub k); reflexivity.
Qed.
(* k has been deleted in the override e, and not assigned since *)
Definition deleted (s : store) (e : nat) (k : key) : bool := match nth_error (envs s) e with Some (EOver _ _ del) => mem k del | _ => false end.
(* deletions are of visible variables; a deleted variable comes back only by assignment (or Append...) *)
Definition clean_op (s : store) (e : nat) (o : op) : Prop :=
  match o with
  | ODel k => getitem (envs s) e k <> None
  | OSetDefault k _ | OUpdate k _ | OUpdateNew k _ | OReplace k _ => deleted s e k = false
  | _ => True
  end.
Lemma not_in_remove1 k l : NoDup l -> ~ In k (remove1 k l).
Proof. induction l as [|x l IH]; intros H; [intros []|]. inversion H as [|a b H1 H2]; subst. cbn. destruct (k =? x) eqn:E; [apply Nat.eqb_eq in E; subst; exact H1|]. apply Nat.eqb_neq in E. intros [Q|Q]; [congruence | apply (IH H2 Q)]. Qed.
Lemma in_remove1 k x l : In x (remove1 k l) -> In x l.
Proof. induction l as [|y l IH]; [intros []|]. cbn. destruct (k =? y); [right; assumption|]. intros [Q|Q]; [left; exact Q | right; apply IH, Q]. Qed.
Lemma nodup_remove1 k l : NoDup l -> NoDup (remove1 k l).
Proof. induction l as [|x l IH]; intros H; [constructor|]. inversion H as [|a b H1 H2]; subst. cbn. destruct (k =? x); [exact H2|]. constructor; [intros Q; apply H1; eapply in_remove1, Q | apply IH, H2]. Qed.
Lemma tidy_set s s0 e y : envs s0 = envs s -> tidy s -> tidy_env y -> tidy (set_env s0 e y).
Proof. intros E T Ty e1 x. cbn [set_env envs]. rewrite nth_replace, E. destruct (e1 =? e); [destruct (nth_error (envs s) e); intros H; [injection H as <-; exact Ty | discriminate] | apply T]. Qed.
Lemma tidy_setitem s s0 e k v s' : envs s0 = envs s -> tidy s -> setitem reserved ident s0 e k v = Some s' -> tidy s'.
Proof.
  intros E T. unfold setitem. rewrite E. destruct (nth_error (envs s) e) as [[d|sub ov del]|] eqn:N; [| |discriminate]; pose proof (T e _ N) as Te; cbn in Te.
  - destruct (reserved k); [intros H; injection H as <-; unfold tidy; rewrite E; exact T|]. destruct (match kget d k with Some _ => true | None => ident k end); [|discriminate]. intros H; injection H as <-. eapply tidy_set; eauto. apply nodup_kset, Te.
  - destruct (ident k); [|discriminate]. intros H; injection H as <-. eapply tidy_set; eauto. destruct Te as (T1 & T2 & T3). cbn. split; [apply nodup_kset, T1|]. destruct (mem k del) eqn:M.
    + split; [apply nodup_remove1, T2|]. intros k' Hk. rewrite kget_set. destruct (k' =? k) eqn:Q; [apply Nat.eqb_eq in Q; subst; elim (not_in_remove1 k del T2 Hk) | apply T3; eapply in_remove1, Hk].
    + split; [exact T2|]. intros k' Hk. rewrite kget_set. destruct (k' =? k) eqn:Q; [apply Nat.eqb_eq in Q; subst; apply mem_in in Hk; congruence | apply T3, Hk].
Qed.
Lemma tidy_raw s s0 e k v s' : envs s0 = envs s -> tidy s -> raw_set reserved ident s0 e k v = Some s' -> tidy s'.
Proof.
  intros E T. unfold raw_set. destruct (nth_error (envs s0) e) as [[d|sub ov del]|] eqn:N; try (apply tidy_setitem with (s := s); assumption). intros H; injection H as <-. rewrite E in N. eapply tidy_set; eauto. apply nodup_kset. apply (T e _ N).
Qed.
Lemma tidy_put s e k c s' : tidy s -> put reserved ident s e k c = Some s' -> tidy s'.
Proof. intros T. unfold put. destruct (alloc s c) as [s0 v] eqn:A. destruct (alloc_ok _ _ _ _ A) as (Ee & _). apply tidy_raw with (s := s); assumption. Qed.
Lemma tidy_mutate s v o s' : tidy s -> mutate s v o = Some s' -> tidy s'.
Proof. intros T. destruct v; [discriminate|]. cbn. intros H; injection H as <-. exact T. Qed.
Lemma nodup_snoc (l : list key) x : NoDup l -> ~ In x l -> NoDup (l ++ [x]).
Proof. induction l as [|y l IH]; intros H Hx; [repeat constructor; intros []|]. inversion H as [|a b H1 H2]; subst. cbn. constructor; [|apply IH; [exact H2 | intros Q; apply Hx; right; exact Q]]. intros Q. apply in_app_or in Q. destruct Q as [Q|[Q|[]]]; [contradiction | apply Hx; left; auto]. Qed.
Lemma tidy_step s e o : wf s -> tidy s -> clean_op s e o -> tidy (step s e o).
Proof.
  intros W T C. unfold step. destruct (run_op s e o) as [s'|] eqn:R; [|exact T].
  assert (Id : forall s0, envs s0 = envs s -> tidy s0) by (intros s0 E; unfold tidy; rewrite E; exact T).
  assert (Kset : forall k v sub ov del, nth_error (envs s) e = Some (EOver sub ov del) -> deleted s e k = false -> tidy_env (EOver sub (kset ov k v) del)).
  { intros k v sub ov del N D. unfold deleted in D. rewrite N in D. destruct (T e _ N) as (T1 & T2 & T3). split; [apply nodup_kset, T1|]. split; [exact T2|]. intros k' Hk. rewrite kget_set. destruct (k' =? k) eqn:Q; [|apply T3, Hk].
    apply Nat.eqb_eq in Q. subst. apply mem_in in Hk. congruence. }
  assert (U : forall c k, deleted s e k = false -> with_alloc s c (fun s v => update1 s e k v) = Some s' -> tidy s').
  { intros c k D. unfold with_alloc, update1. destruct (alloc s c) as [s0 v] eqn:A. destruct (alloc_ok _ _ _ _ A) as (Ee & _). rewrite Ee. destruct (nth_error (envs s) e) as [[d|sub ov del]|] eqn:N; [| |discriminate]; intros H; injection H as <-; eapply tidy_set; eauto. apply nodup_kset. apply (T e _ N). }
  destruct o as [k c|k l|k|k c|k c|k c|k c|k c|k c|b k c|b k c]; cbn [EnvModel.run_op clean_op] in *.
  - revert R. unfold with_alloc. destruct (alloc s c) as [s0 v] eqn:A. destruct (alloc_ok _ _ _ _ A) as (Ee & _). apply tidy_setitem with (s := s); assumption.
  - revert R. apply tidy_setitem with (s := s); [reflexivity | exact T].
  - revert R. unfold delitem. destruct (nth_error (envs s) e) as [[d|sub ov del]|] eqn:N; [| |discriminate].
    + destruct (kget d k); [|discriminate]. intros H; injection H as <-. eapply tidy_set; eauto. apply nodup_kdel. apply (T e _ N).
    + destruct (T e _ N) as (T1 & T2 & T3). rewrite (getitem_over _ e sub ov del k (wf_sub _ W) N) in C.
      assert (Nk : ~ In k del) by (intros Hk; rewrite (T3 k Hk), (proj2 (mem_in k del) Hk) in C; contradiction).
      assert (ND : NoDup (del ++ [k])) by (apply nodup_snoc; assumption).
      destruct (kget ov k) eqn:G; [|destruct (contains (envs s) sub k); [|discriminate]]; intros H; injection H as <-; eapply tidy_set; eauto; cbn.
      * split; [apply nodup_kdel, T1|]. split; [exact ND|]. intros k' Hk. rewrite (kget_del ov k k' T1). destruct (k' =? k) eqn:Q; [reflexivity|]. apply T3. apply in_app_or in Hk. destruct Hk as [Hk|[Hk|[]]]; [exact Hk | apply Nat.eqb_neq in Q; congruence].
      * split; [exact T1|]. split; [exact ND|]. intros k' Hk. apply in_app_or in Hk. destruct Hk as [Hk|[<-|[]]]; [apply T3, Hk | exact G].
  - revert R. unfold with_alloc, setdefault. destruct (alloc s c) as [s0 v] eqn:A. destruct (alloc_ok _ _ _ _ A) as (Ee & _). rewrite Ee. destruct (nth_error (envs s) e) as [[d|sub ov del]|] eqn:N; [| |discriminate]; intros H; injection H as <-.
    + destruct (kget d k); [apply Id, Ee|]. eapply tidy_set; eauto. apply nodup_kset. apply (T e _ N).
    + destruct (getitem (envs s) e k); [apply Id, Ee|]. eapply tidy_set; eauto.
  - eapply U; eauto.
  - revert R. unfold with_alloc, update_new1. destruct (alloc s c) as [s0 v] eqn:A. destruct (alloc_ok _ _ _ _ A) as (Ee & _). rewrite Ee. destruct (nth_error (envs s) e) as [[d|sub ov del]|] eqn:N; [| |discriminate]; intros H; injection H as <-.
    + destruct (kget d k); [apply Id, Ee|]. eapply tidy_set; eauto. apply nodup_kset. apply (T e _ N).
    + destruct (kget ov k); [apply Id, Ee|]. eapply tidy_set; eauto.
  - destruct (reserved k); [injection R as <-; exact T | eapply U; eauto].
  - destruct (reserved k); [injection R as <-; exact T|]. revert R. unfold append. destruct (getitem (envs s) e k) as [orig|]; [|apply tidy_put, T]. unfold opt_bind. destruct (content s orig) as [oc|]; [|discriminate].
    destruct oc as [[[|x0 x]|]|x|x]; destruct c as [[[|y0 y]|]|y|y]; cbn [truthy]; try discriminate; try (apply tidy_put, T); try (apply tidy_mutate, T); intros H; injection H as <-; exact T.
  - destruct (reserved k); [injection R as <-; exact T|]. revert R. unfold prepend. destruct (getitem (envs s) e k) as [orig|]; [|apply tidy_put, T]. unfold opt_bind. destruct (content s orig) as [oc|]; [|discriminate].
    destruct oc as [[[|x0 x]|]|x|x]; destruct c as [[[|y0 y]|]|y|y]; cbn [truthy]; try discriminate; try (apply tidy_put, T); try (apply tidy_mutate, T); try (destruct y; [|discriminate]); intros H; injection H as <-; exact T.
  - destruct (reserved k); [injection R as <-; exact T|]. revert R. unfold unique_add. destruct (getitem (envs s) e k) as [orig|]; [|apply tidy_put, T]. unfold opt_bind. destruct (content s orig) as [oc|]; [|discriminate].
    destruct oc as [[[|x0 x]|]|x|x]; destruct c as [[[|y0 y]|]|y|y]; try discriminate; try (apply tidy_put, T); try (apply tidy_mutate, T); destruct b; try discriminate; try (apply tidy_put, T); destruct (amem _ x); try (apply tidy_put, T); intros H; injection H as <-; exact T.
  - destruct (reserved k); [injection R as <-; exact T|]. revert R. unfold unique_add. destruct (getitem (envs s) e k) as [orig|]; [|apply tidy_put, T]. unfold opt_bind. destruct (content s orig) as [oc|]; [|discriminate].
    destruct oc as [[[|x0 x]|]|x|x]; destruct c as [[[|y0 y]|]|y|y]; try discriminate; try (apply tidy_put, T); try (apply tidy_mutate, T); destruct b; try discriminate; try (apply tidy_put, T); destruct (amem _ x); try (apply tidy_put, T); intros H; injection H as <-; exact T.
Qed.
(* C27b.  If moreover deletions are of visible variables and deleted variables come back only by assignment, the
   dictionary view and the list of keys agree with lookup and membership, after any sequence of operations. *)
Theorem C27b_dictionary_view : forall os s e, wf s -> tidy s -> e < length (envs s) ->
  along (fun s o => clean_op s e o /\ forall l, refers o l -> l < length (heap s)) s e os ->
  exists d, dictionary (envs (run_ops s e os)) e = Some d /\ NoDup (map fst d)
    /\ (forall k, kget d k = getitem (envs (run_ops s e os)) e k)
    /\ (forall k, In k (map fst d) <-> contains (envs (run_ops s e os)) e k = true).
Proof.
  induction os as [|o os IH]; intros s e W T L A.
  - destruct (dict_ok s W T (S e) e ltac:(lia) L) as (d & D1 & D2 & D3). exists d. split; [exact D1|]. split; [exact D2|]. split; [exact D3|]. intros k. unfold contains. rewrite containsf_getf. fold (getitem (envs s) e k).
    change (envs (run_ops s e [])) with (envs s). fold (getitem (envs s) e k). rewrite <- D3. destruct (kget d k) eqn:Q; [split; [reflexivity|]; intros _; apply kget_in in Q; apply in_map_iff; exists (k, v); auto|]. apply kget_none in Q. split; [contradiction | discriminate].
  - destruct A as ((A1 & A2) & A3). cbn [EnvModel.run_ops fold_left]. fold (step s e o). pose proof (step_step_ok s e o) as St. apply IH; [eapply step_wf; eauto | apply tidy_step; assumption | rewrite (st_len _ _ _ _ St); exact L | exact A3].
Qed.
(* C27c.  Substitution sees the same variables as lookup, as long as nothing is deleted in the override or below it. *)
Theorem C27c_substitution_view : forall s e, wf s -> tidy s -> e < length (envs s) -> (forall b sub ov del, below (envs s) e b -> nth_error (envs s) b = Some (EOver sub ov del) -> del = []) ->
  forall k, subst_lookup (envs s) e k = getitem (envs s) e k.
Proof.
  intros s e W T L ND k. unfold subst_lookup.
  assert (G : forall n e, e < n -> e < length (envs s) -> (forall b sub ov del, below (envs s) e b -> nth_error (envs s) b = Some (EOver sub ov del) -> del = []) ->
    match kget (lvarsf n (envs s) e) k with Some v => Some v | None => kget (gvarsf n (envs s) e) k end = getitem (envs s) e k); [|apply G; [lia | exact L | exact ND]].
  clear e L ND. induction n as [|n IH]; intros e Ln L ND; [lia|]. cbn [lvarsf gvarsf]. destruct (nth_error (envs s) e) as [[d|sub ov del]|] eqn:N; [| |apply nth_error_None in N; lia].
  - unfold getitem. cbn [getf]. rewrite N. reflexivity.
  - pose proof (wf_sub _ W _ _ _ _ N) as Ls. destruct (T e _ N) as (T1 & _). rewrite (kget_update ov _ k T1), (getitem_over _ e sub ov del k (wf_sub _ W) N), (ND e sub ov del (below_refl _ _) N). cbn [mem existsb].
    destruct (kget ov k); [reflexivity|]. apply IH; [lia | lia |]. intros b sub' ov' del' B Nb. eapply ND; [eapply below_step; eauto | exact Nb].
Qed.

(* ---- C28 ---- *)
Lemma nats_eqb_eq a b : nats_eqb a b = true <-> a = b.
Proof. revert b. induction a as [|x a IH]; intros [|y b]; cbn; try (split; [discriminate | discriminate]); [tauto|]. rewrite andb_true_iff, Nat.eqb_eq, IH. split; [intros [-> ->]; reflexivity | intros H; injection H; auto]. Qed.
Lemma atom_eqb_eq a b : atom_eqb a b = true <-> a = b.
Proof. destruct a as [x|], b as [y|]; cbn; try (split; [discriminate | discriminate]); [|tauto]. rewrite nats_eqb_eq. split; [intros ->; reflexivity | intros H; injection H; auto]. Qed.
Lemma amem_in a l : amem a l = true <-> In a l.
Proof. unfold amem. rewrite existsb_exists. split; [intros (x & H & Q); apply atom_eqb_eq in Q; subst; exact H | intros H; exists a; split; [exact H | apply atom_eqb_eq; reflexivity]]. Qed.
Lemma dedup_in l : forall seen x, In x (dedup seen l) <-> In x l /\ ~ In x seen.
Proof.
  induction l as [|y l IH]; intros seen x; [cbn; tauto|]. cbn [dedup]. destruct (amem y seen) eqn:M.
  - apply amem_in in M. rewrite IH. cbn. split; [tauto | intros ([->|H] & Q); [contradiction | auto]].
  - cbn [In]. rewrite IH. cbn [In]. assert (~ In y seen) by (intros Q; apply amem_in in Q; congruence). split; [intros [->|[H1 H2]]; tauto | intros ([->|H1] & H2); [auto|]].
    destruct (atom_eqb y x) eqn:Q; [apply atom_eqb_eq in Q; auto|]. right. split; [exact H1|]. intros [->|R]; [rewrite (proj2 (atom_eqb_eq x x) eq_refl) in Q; discriminate | contradiction].
Qed.
Lemma dedup_nodup l : forall seen, NoDup (dedup seen l).
Proof. induction l as [|y l IH]; intros seen; [constructor|]. cbn [dedup]. destruct (amem y seen); [apply IH|]. constructor; [|apply IH]. rewrite dedup_in. intros [_ H]. apply H. left. reflexivity. Qed.
Lemma dd_in l b x : In x (delete_duplicates l b) <-> In x l.
Proof. unfold delete_duplicates. destruct b; [rewrite <- in_rev, dedup_in, <- in_rev | rewrite dedup_in]; cbn; tauto. Qed.
Lemma dd_nodup l b : NoDup (delete_duplicates l b).
Proof. unfold delete_duplicates. destruct b; [apply NoDup_rev|]; apply dedup_nodup. Qed.
Lemma without_in l m x : In x (without l m) <-> In x l /\ ~ In x m.
Proof. unfold without. rewrite filter_In, negb_true_iff. split; intros [H Q]; (split; [exact H|]); [intros R; apply amem_in in R; congruence | destruct (amem x m) eqn:R; [apply amem_in in R; contradiction | reflexivity]]. Qed.
(* l is m with some elements left out: the order is kept *)
Inductive subseq {A} : list A -> list A -> Prop := sub_nil : subseq [] [] | sub_skip x l m : subseq l m -> subseq l (x :: m) | sub_keep x l m : subseq l m -> subseq (x :: l) (x :: m).
Lemma subseq_refl {A} (l : list A) : subseq l l. Proof. induction l; [constructor | apply sub_keep; assumption]. Qed.
Lemma subseq_trans {A} (a b c : list A) : subseq a b -> subseq b c -> subseq a c.
Proof. intros H1 H2. revert a H1. induction H2 as [|x l m H IH|x l m H IH]; intros a H1; [exact H1 | apply sub_skip; auto|]. inversion H1 as [|y l' m' P|y l' m' P]; subst; [apply sub_skip; auto | apply sub_keep; auto]. Qed.
Lemma subseq_snoc {A} (l m : list A) x : subseq l m -> subseq l (m ++ [x]) /\ subseq (l ++ [x]) (m ++ [x]).
Proof.
  induction 1 as [|y l m H [IH1 IH2]|y l m H [IH1 IH2]]; cbn; split.
  - apply sub_skip, sub_nil.
  - apply sub_keep, sub_nil.
  - apply sub_skip; assumption.
  - apply sub_skip; assumption.
  - apply sub_keep; assumption.
  - apply sub_keep; assumption.
Qed.
Lemma subseq_rev {A} (l m : list A) : subseq l m -> subseq (rev l) (rev m).
Proof. induction 1 as [|x l m H IH|x l m H IH]; cbn; [constructor | apply subseq_snoc, IH | apply subseq_snoc, IH]. Qed.
Lemma subseq_filter {A} (p : A -> bool) l : subseq (filter p l) l.
Proof. induction l as [|x l IH]; [constructor|]. cbn. destruct (p x); [apply sub_keep | apply sub_skip]; exact IH. Qed.
Lemma dedup_subseq l : forall seen, subseq (dedup seen l) l.
Proof. induction l as [|x l IH]; intros seen; [constructor|]. cbn. destruct (amem x seen); [apply sub_skip | apply sub_keep]; apply IH. Qed.
Lemma dd_subseq l b : subseq (delete_duplicates l b) l.
Proof. unfold delete_duplicates. destruct b; [|apply dedup_subseq]. rewrite <- (rev_involutive l) at 2. apply subseq_rev, dedup_subseq. Qed.
Lemma view_put s e k c s' x : wf s -> nth_error (envs s) e = Some x -> put reserved ident s e k c = Some s' -> reserved k = false -> view s' e k = Some c.
Proof.
  intros W N. unfold put. destruct (alloc s c) as [s0 v] eqn:A. destruct (alloc_ok _ _ _ _ A) as (Ee & _ & _ & C). unfold raw_set, setitem. rewrite Ee, N. intros H R.
  assert (G : forall y, s' = set_env s0 e y -> kget (dict_of y) k = Some v -> view s' e k = Some c).
  { intros y -> G. unfold view, getitem. cbn [getf set_env envs]. rewrite nth_replace, Nat.eqb_refl, Ee, N. destruct y as [d|sub ov del]; cbn [dict_of] in G; rewrite G; cbn [opt_bind]; exact C. }
  destruct x as [d|sub ov del]; [injection H as <-; eapply G; [reflexivity|]; cbn; rewrite kget_set, Nat.eqb_refl; reflexivity|]. destruct (ident k); [|discriminate]. injection H as <-. eapply G; [reflexivity|]. cbn. rewrite kget_set, Nat.eqb_refl. reflexivity.
Qed.
Definition unique_op (front : bool) (b : bool) k c : op := if front then OPrependUnique b k c else OAppendUnique b k c.
Lemma run_unique front b k c s e : reserved k = false -> run_op s e (unique_op front b k c) = unique_add reserved ident front s e b k c.
Proof. intros R. destruct front; cbn; rewrite R; reflexivity. Qed.
(* C28.  AppendUnique / PrependUnique of a list to a list variable, existing values staying where they are: the old list is
   kept unchanged at its end, the new values are those not already there, each once, in their order. *)
Theorem C28_adds_new_only : forall front s e k old new s' x, wf s -> nth_error (envs s) e = Some x -> reserved k = false -> view s e k = Some (CList old) ->
  run_op s e (unique_op front false k (CList new)) = Some s' ->
  exists added, view s' e k = Some (CList (if front then added ++ old else old ++ added))
    /\ NoDup added /\ subseq added new /\ (forall a, In a added <-> In a new /\ ~ In a old) /\ (NoDup old -> NoDup (if front then added ++ old else old ++ added)).
Proof.
  intros front s e k old new s' x W N R V H. rewrite run_unique in H by exact R. unfold unique_add in H. unfold view in V. destruct (getitem (envs s) e k) as [orig|]; [|discriminate]. cbn [opt_bind] in V, H. rewrite V in H. cbn [opt_bind] in H.
  set (v := delete_duplicates new (if front then negb false else false)) in *. exists (without v old). split; [|split; [|split; [|split]]].
  - eapply view_put; eauto.
  - apply NoDup_filter, dd_nodup.
  - eapply subseq_trans; [apply subseq_filter | apply dd_subseq].
  - intros a. rewrite without_in. unfold v. rewrite dd_in. reflexivity.
  - intros ND. assert (X : NoDup (without v old)) by apply NoDup_filter, dd_nodup. assert (D : forall a, In a (without v old) -> ~ In a old) by (intros a Ha; apply without_in in Ha; apply Ha).
    assert (Ap : forall l m : list atom, NoDup l -> NoDup m -> (forall a, In a l -> ~ In a m) -> NoDup (l ++ m)).
    { clear. induction l as [|y l IH]; intros m H1 H2 D; [exact H2|]. inversion H1 as [|p q P1 P2]; subst. cbn. constructor; [|apply IH; auto; intros a Ha; apply D; right; exact Ha]. intros Q. apply in_app_or in Q. destruct Q as [Q|Q]; [contradiction | apply (D y (or_introl eq_refl) Q)]. }
    destruct front; apply Ap; auto. intros a Ha Q. apply (D a Q Ha).
Qed.
(* C28b.  With delete_existing, the given values are moved to the end (the front), each once; the other old values keep
   their order. *)
Theorem C28b_moves : forall front s e k old new s' x, wf s -> nth_error (envs s) e = Some x -> reserved k = false -> view s e k = Some (CList old) ->
  run_op s e (unique_op front true k (CList new)) = Some s' ->
  exists moved, view s' e k = Some (CList (if front then moved ++ filter (fun a => negb (amem a new)) old else filter (fun a => negb (amem a new)) old ++ moved))
    /\ NoDup moved /\ subseq moved new /\ (forall a, In a moved <-> In a new).
Proof.
  intros front s e k old new s' x W N R V H. rewrite run_unique in H by exact R. unfold unique_add in H. unfold view in V. destruct (getitem (envs s) e k) as [orig|]; [|discriminate]. cbn [opt_bind] in V, H. rewrite V in H. cbn [opt_bind] in H.
  set (v := delete_duplicates new (if front then negb true else true)) in *. exists v. split; [|split; [apply dd_nodup | split; [apply dd_subseq | intros a; apply dd_in]]].
  assert (Q : without old v = filter (fun a => negb (amem a new)) old). { unfold without. apply filter_ext. intros a. f_equal. destruct (amem a v) eqn:M1, (amem a new) eqn:M2; try reflexivity; [apply amem_in in M1; unfold v in M1; apply dd_in in M1; apply amem_in in M1; congruence | apply amem_in in M2; apply (dd_in new (if front then negb true else true) a) in M2; apply amem_in in M2; unfold v in M1; congruence]. }
  rewrite <- Q. eapply view_put; eauto.
Qed.
(* C28c.  One string: added only if missing; with delete_existing it is moved. *)
Theorem C28c_single : forall front b s e k old a s' x, wf s -> nth_error (envs s) e = Some x -> reserved k = false -> view s e k = Some (CList old) ->
  run_op s e (unique_op front b k (CAtom a)) = Some s' ->
  view s' e k = Some (CList (if b then (let rest := filter (fun y => negb (atom_eqb y a)) old in if front then a :: rest else rest ++ [a])
                             else if amem a old then old else if front then a :: old else old ++ [a])).
Proof.
  intros front b s e k old a s' x W N R V H. rewrite run_unique in H by exact R. unfold unique_add in H. pose proof V as V0. unfold view in V. destruct (getitem (envs s) e k) as [orig|]; [|discriminate]. cbn [opt_bind] in V, H. rewrite V in H. cbn [opt_bind] in H.
  destruct b; [destruct front; eapply view_put in H; eauto|]. destruct (amem a old) eqn:M; [injection H as <-; exact V0|]. destruct front; eapply view_put in H; eauto.
Qed.
(* C28d.  A variable that does not exist yet is set to the values, each once. *)
Theorem C28d_new_variable : forall front b s e k new s' x, wf s -> nth_error (envs s) e = Some x -> reserved k = false -> getitem (envs s) e k = None ->
  run_op s e (unique_op front b k (CList new)) = Some s' -> exists l, view s' e k = Some (CList l) /\ NoDup l /\ subseq l new /\ forall a, In a l <-> In a new.
Proof.
  intros front b s e k new s' x W N R G H. rewrite run_unique in H by exact R. unfold unique_add in H. rewrite G in H. eexists. split; [eapply view_put; eauto|]. split; [apply dd_nodup | split; [apply dd_subseq | intros a; apply dd_in]].
Qed.

(* ---- Append / Prepend ---- *)
(* the documented effect on a variable with content old (a list is extended at the given end, a string is lengthened there) *)
Definition extended (front : bool) (old new : cont) : option cont :=
  match old, new with
  | CList x, CList y => Some (CList (if front then y ++ x else x ++ y))
  | CList x, CAtom (AStr (c :: t)) => Some (CList (if front then AStr (c :: t) :: x else x ++ [AStr (c :: t)]))
  | CAtom (AStr (c :: t)), CList y => Some (CList (if front then y ++ [AStr (c :: t)] else AStr (c :: t) :: y))
  | CAtom (AStr x), CAtom (AStr y) => Some (CAtom (AStr (if front then y ++ x else x ++ y)))
  | CList x, CAtom _ => Some (CList x)                   (* an empty value adds nothing *)
  | CAtom _, CList y => Some (CList y)                   (* an empty old value is replaced *)
  | _, _ => None
  end.
Definition add_op (front : bool) k c : op := if front then OPrepend k c else OAppend k c.
Lemma view_mutate s e k v o s' : wf s -> getitem (envs s) e k = Some v -> mutate s v o = Some s' -> view s' e k = Some (match o with OList x => CList x | ODict x => CDict x end).
Proof.
  intros W G. destruct v as [a|l]; [discriminate|]. cbn. intros H. injection H as <-. unfold view. cbn [envs heap]. rewrite G. cbn [opt_bind content heap]. rewrite nth_replace, Nat.eqb_refl.
  destruct (getf_origin _ _ _ _ _ G) as (b & x & _ & Nb & J). pose proof (wf_ref _ W _ _ _ _ Nb J) as L. apply nth_error_Some in L. destruct (nth_error (heap s) l); [|contradiction]. destruct o; reflexivity.
Qed.
(* C43.  Append and Prepend of a value to a list or string variable succeed and give the old value with the new one at the
   documented end. *)
Theorem C43_append_prepend : forall front s e k old new r x, wf s -> nth_error (envs s) e = Some x -> reserved k = false -> ident k = true -> view s e k = Some old ->
  extended front old new = Some r -> exists s', run_op s e (add_op front k new) = Some s' /\ view s' e k = Some r.
Proof.
  intros front s e k old new r x W N R Id V X. unfold view in V. destruct (getitem (envs s) e k) as [v|] eqn:G; [|discriminate]. cbn [opt_bind] in V.
  assert (P : forall c, exists s', put reserved ident s e k c = Some s' /\ view s' e k = Some c).
  { intros c. assert (exists s', put reserved ident s e k c = Some s') as (s' & H).
    { unfold put. destruct (alloc s c) as [s0 w] eqn:A. destruct (alloc_ok _ _ _ _ A) as (Ee & _). unfold raw_set, setitem. rewrite Ee, N, Id. destruct x; eexists; reflexivity. }
    exists s'. split; [exact H | eapply view_put; eauto]. }
  assert (M : forall o, (exists x, old = CList x) -> exists s', mutate s v o = Some s' /\ view s' e k = Some (match o with OList x => CList x | ODict x => CDict x end)).
  { intros o (y & ->). destruct v as [a|l]; [discriminate|]. eexists. split; [reflexivity|]. eapply view_mutate; [exact W | exact G | reflexivity]. }
  unfold add_op. destruct front; cbn [EnvModel.run_op]; rewrite R; unfold append, prepend; rewrite G; cbn [opt_bind]; rewrite V; cbn [opt_bind];
    destruct old as [[[|c0 t0]|]|xs|d], new as [[[|c t]|]|ys|d']; cbn [extended] in X; try discriminate; injection X as <-; cbn [truthy];
    first [exists s; split; [reflexivity | unfold view; rewrite G; exact V] | apply P | apply (M (OList _)); eexists; reflexivity].
Qed.
Theorem C43b_new_variable : forall front s e k new s' x, wf s -> nth_error (envs s) e = Some x -> reserved k = false -> getitem (envs s) e k = None ->
  run_op s e (add_op front k new) = Some s' -> view s' e k = Some new.
Proof.
  intros front s e k new s' x W N R G H. unfold add_op in H. destruct front; cbn [EnvModel.run_op] in H; rewrite R in H; unfold append, prepend in H; rewrite G in H; eapply view_put; eauto.
Qed.
(* ---- creating an override ---- *)
(* the last value given for k by the keyword arguments *)
Fixpoint kw_get (kw : list (key * cont)) (k : key) : option cont :=
  match kw with [] => None | (k', c) :: r => match kw_get r k with Some c' => Some c' | None => if (k =? k') && negb (reserved k) then Some c else None end end.
Lemma override_fold kw : forall s d s' d', fold_left (fun sd kc => let '(s, d) := sd in if reserved (fst kc) then (s, d) else let (s', v) := alloc s (snd kc) in (s', kset d (fst kc) v)) kw (s, d) = (s', d') ->
  NoDup (map fst d) -> envs s' = envs s /\ (exists ext, heap s' = heap s ++ ext) /\ NoDup (map fst d') /\ (forall k l, In (k, VRef l) d' -> In (k, VRef l) d \/ length (heap s) <= l < length (heap s'))
  /\ forall k, match kw_get kw k with Some c => exists v, kget d' k = Some v /\ content s' v = Some c | None => kget d' k = kget d k end.
Proof.
  induction kw as [|[k0 c0] kw IH]; intros s d s' d' H ND.
  - cbn in H. injection H as <- <-. repeat split; auto. exists []. rewrite app_nil_r. reflexivity.
  - cbn [fold_left fst snd] in H. destruct (reserved k0) eqn:R0.
    + destruct (IH _ _ _ _ H ND) as (E & Hx & N' & Rf & G). repeat (split; [assumption|]). intros k. specialize (G k). cbn [kw_get]. destruct (kw_get kw k); [exact G|]. destruct (k =? k0) eqn:Q; cbn [andb]; [|exact G]. apply Nat.eqb_eq in Q. subst. rewrite R0. exact G.
    + destruct (alloc s c0) as [s1 v] eqn:A. destruct (alloc_ok _ _ _ _ A) as (Ee & (ex1 & Eh) & F & C). destruct (IH _ _ _ _ H (nodup_kset _ _ _ ND)) as (E & (ex2 & Hx) & N' & Rf & G).
      split; [congruence|]. split; [exists (ex1 ++ ex2); rewrite Hx, Eh, app_assoc; reflexivity|]. split; [exact N'|]. split.
      * intros k l J. destruct (Rf k l J) as [Q|Q]; [|right; rewrite Hx, Eh, !app_length in *; lia]. apply in_kset in Q. destruct Q as [Q|[-> <-]]; [auto|]. right. cbn in F. rewrite Hx, app_length. lia.
      * intros k. specialize (G k). cbn [kw_get]. destruct (kw_get kw k); [exact G|]. rewrite G, kget_set. destruct (k =? k0) eqn:Q; cbn [andb]; [|reflexivity]. apply Nat.eqb_eq in Q. subst. rewrite R0. cbn [negb]. exists v. split; [reflexivity|].
        destruct v as [a|l]; [exact C|]. cbn [content] in *. cbn in F. rewrite Hx, nth_error_app1 by lia. exact C.
Qed.
(* C26c.  Override(keywords) changes nothing in the existing environments, and gives a new one that has the (last) given
   value for each keyword that is not reserved, and otherwise the parent's variables.  It satisfies the hypotheses of C26 and C27. *)
Theorem C26c_override : forall s e kw, wf s -> tidy s -> e < length (envs s) ->
  let s' := override reserved s e kw in let n := length (envs s) in
  wf s' /\ tidy s' /\ owned s' n /\ over_ok s' n /\ (forall e', e' < n -> same_env s s' e' /\ ~ below (envs s') e' n)
  /\ forall k, view s' n k = match kw_get kw k with Some c => Some c | None => view s e k end.
Proof.
  intros s e kw W T L. cbv zeta. unfold override. destruct (fold_left _ kw (s, [])) as [s1 d1] eqn:Fo. cbn [fst snd]. destruct (override_fold _ _ _ _ _ Fo (NoDup_nil _)) as (Ee & (ext & Eh) & ND & Rf & G).
  set (n := length (envs s)). set (s' := {| envs := envs s1 ++ [EOver e d1 []]; heap := heap s1 |}).
  assert (Nn : nth_error (envs s') n = Some (EOver e d1 [])) by (cbn; rewrite Ee, nth_error_app2 by (unfold n; lia); unfold n; rewrite Nat.sub_diag; reflexivity).
  assert (No : forall b, b < n -> nth_error (envs s') b = nth_error (envs s) b) by (intros b Lb; cbn; rewrite Ee; apply nth_error_app1, Lb).
  assert (Ln : forall b y, nth_error (envs s') b = Some y -> b = n /\ y = EOver e d1 [] \/ b < n /\ nth_error (envs s) b = Some y).
  { intros b y H. assert (B : b < length (envs s')) by (apply nth_error_Some; congruence). cbn in B. rewrite Ee, app_length in B. cbn in B. fold n in B. destruct (Nat.eq_dec b n) as [->|Ne]; [left; rewrite Nn in H; injection H as <-; auto | right; assert (b < n) by lia; rewrite No in H by assumption; auto]. }
  assert (W' : wf s').
  { split.
    - intros b sub ov del H. destruct (Ln _ _ H) as [[-> Q]|[_ Q]]; [injection Q as -> _ _; exact L | eapply (wf_sub _ W), Q].
    - intros b y k l H J. destruct (Ln _ _ H) as [[-> ->]|[_ Q]]; [destruct (Rf k l J) as [[]|Q]; cbn; lia | pose proof (wf_ref _ W _ _ _ _ Q J); cbn; rewrite Eh, app_length; lia]. }
  assert (Bl : forall e' b, below (envs s') e' b -> e' < n -> b < n).
  { intros e' b B. induction B as [|x sub ov del a H B IH]; [auto|]. intros Lx. apply IH. pose proof (wf_sub _ W' _ _ _ _ H). lia. }
  assert (Bl0 : forall e' b, below (envs s) e' b -> e' < n -> b < n).
  { intros e' b B. induction B as [|x sub ov del a H B IH]; [auto|]. intros Lx. apply IH. pose proof (wf_sub _ W _ _ _ _ H). lia. }
  assert (Same : forall e', e' < n -> same_env s s' e').
  { intros e' Le. assert (A : forall b, below (envs s) e' b -> nth_error (envs s') b = nth_error (envs s) b) by (intros b B; apply No; eapply Bl0; eauto).
    assert (Gt : forall k, getitem (envs s') e' k = getitem (envs s) e' k) by (intros k; apply getf_same, A). split; [|apply dictf_same, A].
    intros k. split; [apply Gt|]. split; [|split; [apply containsf_same, A|]].
    - unfold view. rewrite Gt. destruct (getitem (envs s) e' k) as [[a|l]|] eqn:Q; try reflexivity. cbn [opt_bind content]. destruct (getf_origin _ _ _ _ _ Q) as (b & x & B & Nb & J). unfold s'. cbn [heap]. rewrite Eh, nth_error_app1 by (eapply (wf_ref _ W); eauto). reflexivity.
    - unfold subst_lookup. rewrite (lvarsf_same (envs s) (envs s') _ _ A), (gvarsf_same (envs s) (envs s') _ _ A). reflexivity. }
  split; [exact W'|]. split; [|split; [|split; [|split]]].
  - intros b y H. destruct (Ln _ _ H) as [[-> ->]|[_ Q]]; [|apply (T _ _ Q)]. cbn. split; [exact ND|]. split; [constructor | intros k []].
  - exists e, d1, []. split; [exact Nn|]. intros k l b y k' J Ne H J'. destruct (Ln _ _ H) as [[-> ->]|[_ Q]]; [contradiction|]. destruct (Rf k l J) as [[]|Q']. pose proof (wf_ref _ W _ _ _ _ Q J'). lia.
  - exists e, d1, []. split; [exact Nn|]. split; [exact L | exact ND].
  - intros e' Le. split; [apply Same, Le|]. intros B. pose proof (Bl _ _ B Le). lia.
  - intros k. specialize (G k). unfold view at 1. rewrite (getitem_over _ n e d1 [] k (wf_sub _ W') Nn). destruct (kw_get kw k) as [c|]; [destruct G as (v & -> & C); cbn [opt_bind]; destruct v; exact C|]. rewrite G. cbn [dget mem existsb].
    destruct (Same e L) as [Sv _]. destruct (Sv k) as (_ & Q & _). exact Q.
Qed.
End Env.
Print Assumptions C43_append_prepend.
Print Assumptions C43b_new_variable.
Print Assumptions C26c_override.
Print Assumptions C26_parent_untouched.
Print Assumptions C26b_own_variables.
Print Assumptions C27_lookup_like_dictionary.
Print Assumptions C27b_dictionary_view.
Print Assumptions C27c_substitution_view.
Print Assumptions C28_adds_new_only.
Print Assumptions C28b_moves.
Print Assumptions C28c_single.
Print Assumptions C28d_new_variable.

(* ---- concrete cases ---- *)
Definition nr : key -> bool := fun _ => false.
Definition all : key -> bool := fun _ => true.
(* a base environment with variables 1 = ["a"] and 2 = "b", and an override of it *)
Definition w0 : store := {| envs := [EBase [(1, VRef 0); (2, VAtom (AStr [7]))]; EOver 0 [(3, VRef 1)] []]; heap := [OList [AStr [5]]; OList []] |}.
Lemma wf_w0 : wf w0.
Proof.
  split.
  - intros [|[|[|e]]] sub ov del H; cbn in H; try discriminate. injection H as <- <- <-. lia.
  - intros [|[|[|e]]] x k l H I; cbn in H; try discriminate; injection H as <-; cbn in I; repeat (destruct I as [I|I]; [try discriminate; injection I as <- <-; cbn; lia|]); destruct I.
Qed.
Lemma tidy_w0 : tidy w0.
Proof. intros [|[|[|e]]] x H; cbn in H; try discriminate; injection H as <-; cbn; repeat split; repeat constructor; cbn; try (intros [Q|[]]; discriminate); try (intros []); tauto. Qed.
Example C26_witness : wf w0 /\ owned w0 1 /\ ~ below (envs w0) 0 1
  /\ along nr all (fun s o => (inplace s 1 o = true -> set_in s 1 (op_key o)) /\ forall l, ~ refers o l) w0 1 [OAppend 1 (CList [AStr [6]]); ODel 2; OAppend 3 (CAtom (AStr [9]))]
  /\ view (run_ops nr all w0 1 [OAppend 1 (CList [AStr [6]]); ODel 2; OAppend 3 (CAtom (AStr [9]))]) 1 3 = Some (CList [AStr [9]]).
Proof.
  split; [exact wf_w0|]. split.
  - exists 0, [(3, VRef 1)], []. split; [reflexivity|]. intros k l [|[|[|e]]] x k' [I|[]] Ne H J; try contradiction; cbn in H; try discriminate. injection I as <- <-. injection H as <-. cbn in J. destruct J as [J|[J|[]]]; discriminate.
  - split; [intros B; inversion B; subst; discriminate|]. split; [|vm_compute; reflexivity]. cbn [along]. repeat split; try (intros l []); try (vm_compute; discriminate).
    intros _. eexists; eexists; eexists. split; [vm_compute; reflexivity | vm_compute; discriminate].
Qed.
(* The parent is changed by Append of a string to a list variable that only the parent has (also noted in the docstring). *)
Theorem C26_append_refuted : exists s e e' o, wf s /\ ~ below (envs s) e' e /\ view (run_ops nr all s e [o]) e' 1 <> view s e' 1.
Proof. exists w0, 1, 0, (OAppend 1 (CAtom (AStr [6]))). split; [exact wf_w0|]. split; [intros B; inversion B; subst; discriminate | vm_compute; discriminate]. Qed.
Print Assumptions C26_append_refuted.
(* Deleting twice (no KeyError) and assigning again: lookup finds the variable, the dictionary view does not. *)
Theorem C27_deleted_twice_refuted : exists s e k, wf s /\ tidy s /\
  let s' := run_ops nr all s e [ODel k; ODel k; OSet k (CAtom ANone)] in contains (envs s') e k = true /\ opt_bind (keys (envs s') e) (fun l => Some (mem k l)) = Some false.
Proof. exists w0, 1, 1. split; [exact wf_w0|]. split; [exact tidy_w0 | vm_compute; split; reflexivity]. Qed.
Print Assumptions C27_deleted_twice_refuted.
(* Deleting and then Replace: the same. *)
Theorem C27_replace_refuted : exists s e k, wf s /\ tidy s /\
  let s' := run_ops nr all s e [ODel k; OReplace k (CAtom (AStr [4]))] in contains (envs s') e k = true /\ opt_bind (keys (envs s') e) (fun l => Some (mem k l)) = Some false.
Proof. exists w0, 1, 2. split; [exact wf_w0|]. split; [exact tidy_w0 | vm_compute; split; reflexivity]. Qed.
Print Assumptions C27_replace_refuted.
(* A deleted variable is still expanded by subst with the parent's value. *)
Theorem C27_subst_refuted : exists s e k v, wf s /\ tidy s /\
  let s' := run_ops nr all s e [ODel k] in getitem (envs s') e k = None /\ subst_lookup (envs s') e k = Some v.
Proof. exists w0, 1, 2, (VAtom (AStr [7])). split; [exact wf_w0|]. split; [exact tidy_w0 | vm_compute; split; reflexivity]. Qed.
Print Assumptions C27_subst_refuted.
Example C27_witness : over_ok w0 1 /\ along nr all (fun s o => clean_op s 1 o /\ forall l, refers o l -> l < length (heap s)) w0 1 [ODel 2; OSet 2 (CList []); OSetDefault 4 (CAtom ANone); OAppend 2 (CAtom (AStr [3])); ODel 1].
Proof.
  split; [exists 0, [(3, VRef 1)], []; repeat split; [lia | repeat constructor; intros []]|]. cbn [along]. repeat split; try (intros l []); try (vm_compute; discriminate); try (vm_compute; reflexivity).
Qed.
Example C28_witness : view w0 0 1 = Some (CList [AStr [5]]) /\ view (run_ops nr all w0 0 [OAppendUnique false 1 (CList [AStr [6]; AStr [5]; AStr [6]])]) 0 1 = Some (CList [AStr [5]; AStr [6]])
  /\ view (run_ops nr all w0 0 [OAppendUnique false 1 (CList [AStr [6]]); OPrependUnique true 1 (CList [AStr [6]; AStr [6]])]) 0 1 = Some (CList [AStr [6]; AStr [5]]).
Proof. vm_compute. repeat split. Qed.
Example C43_witness : nth_error (envs w0) 1 <> None /\ view w0 1 1 = Some (CList [AStr [5]]) /\ extended true (CList [AStr [5]]) (CList [AStr [6]; AStr [7]]) = Some (CList [AStr [6]; AStr [7]; AStr [5]]).
Proof. vm_compute. repeat split; discriminate. Qed.
