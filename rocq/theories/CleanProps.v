(* C50: what "scons -c" removes. *)
From Coq Require Import List Arith Bool Lia Permutation.
Import ListNotations.
From Verif Require Import CleanModel.

(* ---- specification: what is at a path ---- *)
Inductive what := WLeaf (k : ftype) | WFolder.
Definition shape (t : tree) : what := match t with Leaf k => WLeaf k | Folder _ => WFolder end.
Definition at_path (d : tree) (q : path) : option what := option_map shape (lookup d q).
(* a disk: names in a directory are distinct *)
Inductive disk_ok : tree -> Prop :=
  | ok_leaf k : disk_ok (Leaf k)
  | ok_folder l : NoDup (map fst l) -> (forall n c, In (n, c) l -> disk_ok c) -> disk_ok (Folder l).
Definition below (p q : path) : Prop := exists r, q = p ++ r.
(* nothing was added or changed, only removed *)
Definition only_removed (d d' : tree) : Prop := forall q, at_path d' q = None \/ at_path d' q = at_path d q.

Section Facts.
Fixpoint tree_ind2 (P : tree -> Prop) (HL : forall k, P (Leaf k)) (HF : forall l, (forall n c, In (n, c) l -> P c) -> P (Folder l)) (t : tree) : P t :=
  match t with
  | Leaf k => HL k
  | Folder l => HF l ((fix go (l : list (name * tree)) : forall n c, In (n, c) l -> P c :=
      match l with
      | [] => fun n c H => match H with end
      | (m, c0) :: r => fun n c H => match H with
          | or_introl E => eq_ind c0 P (tree_ind2 P HL HF c0) c (f_equal snd E)
          | or_intror H' => go r n c H' end
      end) l)
  end.

Lemma entry_cons m c r n : entry ((m, c) :: r) n = if m =? n then Some c else entry r n.
Proof. unfold entry. cbn. destruct (m =? n); reflexivity. Qed.
Lemma entry_in l n c : entry l n = Some c -> In (n, c) l.
Proof.
  induction l as [|[m d] l IH]; [discriminate|]. rewrite entry_cons. destruct (m =? n) eqn:E; [|intros H; right; apply IH, H].
  apply Nat.eqb_eq in E. intros H. injection H as <-. left. congruence.
Qed.
Lemma entry_none l n : ~ In n (map fst l) -> entry l n = None.
Proof. induction l as [|[m d] l IH]; [reflexivity|]. rewrite entry_cons. cbn. intros H. destruct (m =? n) eqn:E; [apply Nat.eqb_eq in E; tauto | apply IH; tauto]. Qed.
Lemma in_entry l n c : NoDup (map fst l) -> In (n, c) l -> entry l n = Some c.
Proof.
  induction l as [|[m d] l IH]; [intros _ []|]. cbn [map fst]. intros H. apply NoDup_cons_iff in H. destruct H as [H1 H2]. rewrite entry_cons. intros [H|H].
  - injection H as -> ->. rewrite Nat.eqb_refl. reflexivity.
  - destruct (m =? n) eqn:E; [|apply IH; assumption]. apply Nat.eqb_eq in E. subst. elim H1. apply (in_map fst) in H. exact H.
Qed.

(* the shrinking relation on trees *)
Definition smaller (t' t : tree) : Prop := disk_ok t' /\ only_removed t t'.
Lemma smaller_refl t : disk_ok t -> smaller t t.
Proof. intros H. split; [exact H|]. intros q. right. reflexivity. Qed.
Lemma only_removed_trans a b c : only_removed a b -> only_removed b c -> only_removed a c.
Proof. intros H1 H2 q. destruct (H2 q) as [H|H]; [left; exact H|]. destruct (H1 q) as [H'|H']; [left | right]; congruence. Qed.
Lemma smaller_trans a b c : smaller a b -> smaller b c -> smaller a c.
Proof. intros [H1 H2] [_ H3]. split; [exact H1 | eapply only_removed_trans; eassumption]. Qed.

(* entries of a folder, shrunk one by one *)
Inductive shrunk : list (name * tree) -> list (name * tree) -> Prop :=
  | sh_nil : shrunk [] []
  | sh_keep n c c' l' l : smaller c' c -> shrunk l' l -> shrunk ((n, c') :: l') ((n, c) :: l)
  | sh_drop n c l' l : shrunk l' l -> shrunk l' ((n, c) :: l).
Lemma shrunk_names l' l : shrunk l' l -> forall n, In n (map fst l') -> In n (map fst l).
Proof. induction 1 as [|n c c' l' l _ _ IH|n c l' l _ IH]; intros m; cbn; [tauto | intros [H|H]; auto | auto]. Qed.
Lemma shrunk_smaller l' l : disk_ok (Folder l) -> shrunk l' l -> smaller (Folder l') (Folder l).
Proof.
  intros H Sh. inversion H as [|l0 N C E]. subst.
  assert (Ok : NoDup (map fst l') /\ forall n c, In (n, c) l' -> disk_ok c).
  { clear H. induction Sh as [|n c c' l' l Sm Sh IH|n c l' l Sh IH]; [split; [constructor | intros n c []]| |].
    - cbn in N. apply NoDup_cons_iff in N. destruct N as [N1 N2]. destruct IH as [A B]; [exact N2 | intros m d Hm; apply (C m); right; exact Hm|]. split.
      + cbn. constructor; [intros Q; apply N1; eapply shrunk_names; eassumption | exact A].
      + intros m d [Q|Q]; [injection Q as <- <-; apply Sm | eapply B, Q].
    - cbn in N. apply NoDup_cons_iff in N. destruct N as [N1 N2]. apply IH; [exact N2 | intros m d Hm; apply (C m); right; exact Hm]. }
  split; [constructor; apply Ok|]. intros [|n q]; [right; reflexivity|]. unfold at_path. cbn [lookup].
  assert (E : entry l' n = None \/ exists c c', entry l n = Some c /\ entry l' n = Some c' /\ smaller c' c).
  { clear H C Ok. induction Sh as [|m c c' l' l Sm Sh IH|m c l' l Sh IH]; [left; reflexivity| |].
    - cbn in N. apply NoDup_cons_iff in N. rewrite !entry_cons. destruct (m =? n); [right; exists c, c'; auto | apply IH, N].
    - cbn in N. apply NoDup_cons_iff in N. rewrite entry_cons. destruct N as [N1 N2]. destruct (m =? n) eqn:E; [|apply IH, N2].
      apply Nat.eqb_eq in E. subst. left. apply entry_none. intros Q. apply N1. eapply shrunk_names; eassumption. }
  destruct E as [-> | (c & c' & -> & -> & _ & Sm)]; [left; reflexivity | exact (Sm q)].
Qed.
Lemma shrunk_refl l : (forall n c, In (n, c) l -> disk_ok c) -> shrunk l l.
Proof. induction l as [|[n c] l IH]; intros H; [constructor|]. constructor; [apply smaller_refl, (H n); left; reflexivity | apply IH; intros m d Hm; apply (H m); right; exact Hm]. Qed.

Lemma delete_loop_cons rm ok del p n c r : delete_loop rm ok del p ((n, c) :: r) =
  if isfile c then
    if rm && negb (ok (p ++ [n])) then ((n, c) :: r, [], true)
    else let '(r', ms, ab) := delete_loop rm ok del p r in (if rm then r' else (n, c) :: r', Removed (p ++ [n]) :: ms, ab)
  else
    let '(c', m) := del (p ++ [n]) c in
    let '(r', ms, ab) := delete_loop rm ok del p r in
    (match c' with Some d => (n, d) :: r' | None => r' end, m ++ ms, ab).
Proof. reflexivity. Qed.
Lemma fs_delete_smaller rm ok t : disk_ok t -> forall p t', fst (fs_delete rm ok p t) = Some t' -> smaller t' t.
Proof.
  induction t as [k|l IH] using tree_ind2; intros H p t' E.
  - cbn in E. destruct k; try (destruct rm; [destruct (ok p)|]; cbn in E; try discriminate; injection E as <-; apply smaller_refl; constructor).
  - inversion H as [|l0 N C Q]. subst.
    assert (Sh : forall rest ms ab, delete_loop rm ok (fs_delete rm ok) p l = (rest, ms, ab) -> shrunk rest l).
    { clear E H N. induction l as [|[n c] l IHl]; intros rest ms ab E; [injection E as <- _ _; constructor|]. rewrite delete_loop_cons in E.
      assert (Cc : disk_ok c) by (apply (C n); left; reflexivity). assert (C' : forall m d, In (m, d) l -> disk_ok d) by (intros m d Hm; apply (C m); right; exact Hm).
      assert (IH' : forall n c, In (n, c) l -> disk_ok c -> forall p t', fst (fs_delete rm ok p c) = Some t' -> smaller t' c) by (intros m d Hm; apply (IH m); right; exact Hm).
      destruct (isfile c).
      - destruct (rm && negb (ok (p ++ [n]))); [injection E as <- _ _; apply shrunk_refl; exact C|].
        destruct (delete_loop rm ok (fs_delete rm ok) p l) as [[r' ms'] ab']. injection E as <- _ _.
        destruct rm; [apply sh_drop | apply sh_keep; [apply smaller_refl, Cc|]]; apply (IHl IH' C' _ _ _ eq_refl).
      - destruct (fs_delete rm ok (p ++ [n]) c) as [c' m] eqn:Ec.
        destruct (delete_loop rm ok (fs_delete rm ok) p l) as [[r' ms'] ab']. injection E as <- _ _. specialize (IHl IH' C' _ _ _ eq_refl).
        destruct c' as [d|]; [apply sh_keep; [|exact IHl] | apply sh_drop, IHl]. apply (IH n c (or_introl eq_refl) Cc (p ++ [n])). rewrite Ec. reflexivity. }
    cbn [fs_delete] in E. destruct (delete_loop rm ok (fs_delete rm ok) p l) as [[rest ms] ab]. specialize (Sh _ _ _ eq_refl).
    assert (G : smaller (Folder rest) (Folder l)) by (apply shrunk_smaller; assumption).
    destruct ab; [cbn in E; injection E as <-; exact G|]. destruct rm; [|cbn in E; injection E as <-; exact G].
    destruct rest as [|x rest]; [destruct (ok p)|]; cbn in E; try discriminate; injection E as <-; exact G.
Qed.

Lemma fs_delete_all ok t : disk_ok t -> (forall q, at_path t q <> Some (WLeaf FSpecial)) -> forall p, (forall r, ok (p ++ r) = true) -> fst (fs_delete true ok p t) = None.
Proof.
  induction t as [k|l IH] using tree_ind2; intros H Sp p Ho.
  - assert (Op : ok p = true) by (specialize (Ho []); rewrite app_nil_r in Ho; exact Ho). cbn. rewrite Op. destruct k; try reflexivity. elim (Sp []). reflexivity.
  - inversion H as [|l0 N C Q]. subst. cbn [fs_delete].
    assert (E : exists ms, delete_loop true ok (fs_delete true ok) p l = ([], ms, false)).
    { assert (Sp' : forall n c, In (n, c) l -> forall q, at_path c q <> Some (WLeaf FSpecial)).
      { intros n c Hn q Q. apply (Sp (n :: q)). unfold at_path in *. cbn [lookup]. rewrite (in_entry _ _ _ N Hn). exact Q. }
      clear H N Sp. induction l as [|[n c] l IHl]; [exists []; reflexivity|]. rewrite delete_loop_cons.
      destruct IHl as [ms E]; [intros m d Hm; apply (IH m); right; exact Hm | intros m d Hm; apply (C m); right; exact Hm | intros m d Hm; apply (Sp' m); right; exact Hm|]. rewrite E, Ho. cbn [andb negb].
      destruct (isfile c); [eexists; reflexivity|].
      assert (X : fst (fs_delete true ok (p ++ [n]) c) = None).
      { apply (IH n c (or_introl eq_refl)); [apply (C n); left; reflexivity | apply (Sp' n); left; reflexivity|]. intros r. rewrite <- app_assoc. apply Ho. }
      destruct (fs_delete true ok (p ++ [n]) c) as [c' m]. cbn in X. subst c'. eexists; reflexivity. }
    destruct E as [ms ->]. assert (Op : ok p = true) by (specialize (Ho []); rewrite app_nil_r in Ho; exact Ho). rewrite Op. reflexivity.
Qed.
Lemma fs_delete_show ok t : forall p, fst (fs_delete false ok p t) = Some t.
Proof.
  induction t as [k|l IH] using tree_ind2; intros p; [destruct k; reflexivity|]. cbn [fs_delete].
  assert (E : exists ms, delete_loop false ok (fs_delete false ok) p l = (l, ms, false)).
  { induction l as [|[n c] l IHl]; [exists []; reflexivity|]. rewrite delete_loop_cons. destruct IHl as [ms E]; [intros m d Hm; apply (IH m); right; exact Hm|]. rewrite E. cbn [andb].
    destruct (isfile c); [eexists; reflexivity|]. specialize (IH n c (or_introl eq_refl) (p ++ [n])). destruct (fs_delete false ok (p ++ [n]) c) as [c' m]. cbn in IH. subst c'. eexists; reflexivity. }
  destruct E as [ms ->]. reflexivity.
Qed.

(* ---- changing one place of the disk ---- *)
Definition shrinks (f : tree -> option tree) : Prop := forall t t', disk_ok t -> f t = Some t' -> smaller t' t.
Lemma change_smaller f : shrinks f -> forall p t, disk_ok t -> forall t', change t p f = Some t' -> smaller t' t.
Proof.
  intros Hf. induction p as [|n p IH]; intros t Ht t' E; [apply Hf; assumption|]. cbn [change] in E. destruct t as [k|l]; injection E as <-; [apply smaller_refl, Ht|].
  apply shrunk_smaller; [exact Ht|]. inversion Ht as [|l0 N C Q]. subst. clear Ht N. induction l as [|[m c] l IHl]; [constructor|]. cbn [set_entry].
  assert (Cc : disk_ok c) by (apply (C m); left; reflexivity). assert (C' : forall m d, In (m, d) l -> disk_ok d) by (intros x d Hm; apply (C x); right; exact Hm).
  destruct (m =? n).
  - destruct (change c p f) as [d|] eqn:E; [apply sh_keep; [apply (IH c Cc d E) | apply shrunk_refl, C'] | apply sh_drop, shrunk_refl, C'].
  - apply sh_keep; [apply smaller_refl, Cc | apply IHl, C'].
Qed.
Lemma change_root_smaller f p t : shrinks f -> disk_ok t -> smaller (change_root t p f) t.
Proof. intros Hf Ht. unfold change_root. destruct (change t p f) as [t'|] eqn:E; [eapply change_smaller; eassumption | apply smaller_refl, Ht]. Qed.
Lemma entry_set_entry l n f m : NoDup (map fst l) -> entry (set_entry l n f) m = if m =? n then match entry l n with Some c => f c | None => None end else entry l m.
Proof.
  induction l as [|[x c] l IH]; intros N; [destruct (m =? n); reflexivity|]. cbn [map fst] in N. apply NoDup_cons_iff in N. destruct N as [N1 N2]. cbn [set_entry]. destruct (x =? n) eqn:E1.
  - apply Nat.eqb_eq in E1. subst x. rewrite entry_cons, Nat.eqb_refl. destruct (m =? n) eqn:E2.
    + apply Nat.eqb_eq in E2. subst m. destruct (f c) as [d|]; [rewrite entry_cons, Nat.eqb_refl; reflexivity | apply entry_none, N1].
    + rewrite (Nat.eqb_sym n m), E2 || idtac. assert (E3 : (n =? m) = false) by (rewrite Nat.eqb_sym; exact E2). destruct (f c); rewrite ?entry_cons, ?E3; reflexivity.
  - rewrite !entry_cons, E1, IH by exact N2. destruct (x =? m) eqn:E2; [|reflexivity]. apply Nat.eqb_eq in E2. subst x. rewrite E1. reflexivity.
Qed.
(* what is at the changed place afterwards *)
Lemma lookup_change f : forall p t, disk_ok t -> p <> [] -> lookup (change_root t p f) p = match lookup t p with Some c => f c | None => None end.
Proof.
  assert (G : forall p t, disk_ok t -> p <> [] -> match change t p f with Some t' => lookup t' p | None => None end = match lookup t p with Some c => f c | None => None end).
  { induction p as [|n p IH]; intros t Ht Hp; [elim Hp; reflexivity|]. cbn [change lookup]. destruct t as [k|l]; [reflexivity|].
    inversion Ht as [|l0 N C Q]. subst. rewrite entry_set_entry, Nat.eqb_refl by exact N. destruct (entry l n) as [c|] eqn:E; [|reflexivity].
    destruct p as [|m p]; [cbn [change lookup]; destruct (f c); reflexivity|]. specialize (IH c (C _ _ (entry_in _ _ _ E)) ltac:(discriminate)). destruct (change c (m :: p) f); exact IH. }
  intros p t Ht Hp. rewrite <- (G p t Ht Hp). unfold change_root. destruct p as [|n p]; [elim Hp; reflexivity|]. cbn [change]. destruct t; reflexivity.
Qed.
(* and everywhere else *)
Lemma lookup_change_frame f : forall p t q, disk_ok t -> p <> [] -> ~ below p q -> at_path (change_root t p f) q = at_path t q.
Proof.
  assert (G : forall p t q, disk_ok t -> ~ below p q -> match change t p f with Some t' => at_path t' q | None => None end = at_path t q).
  { induction p as [|n p IH]; intros t q Ht Hb; [elim Hb; exists q; reflexivity|]. cbn [change]. destruct t as [k|l]; [reflexivity|].
    inversion Ht as [|l0 N C Q]. subst. destruct q as [|m q]; [reflexivity|]. unfold at_path. cbn [lookup]. rewrite entry_set_entry by exact N.
    destruct (m =? n) eqn:E; [|reflexivity]. apply Nat.eqb_eq in E. subst m. destruct (entry l n) as [c|] eqn:Ec; [|reflexivity].
    assert (Hb' : ~ below p q) by (intros [r ->]; apply Hb; exists r; reflexivity).
    specialize (IH c q (C _ _ (entry_in _ _ _ Ec)) Hb'). destruct (change c p f) as [d|]; exact IH. }
  intros p t q Ht Hp Hb. rewrite <- (G p t q Ht Hb). unfold change_root. destruct p as [|n p]; [elim Hp; reflexivity|]. cbn [change]. destruct t; reflexivity.
Qed.
Lemma change_root_id p t f : disk_ok t -> (forall c, lookup t p = Some c -> f c = Some c) -> change_root t p f = t.
Proof.
  assert (G : forall p t, disk_ok t -> (forall c, lookup t p = Some c -> f c = Some c) -> change t p f = Some t).
  { clear p t. induction p as [|n p IH]; intros t Ht H; [apply H; reflexivity|]. cbn [change]. destruct t as [k|l]; [reflexivity|]. do 2 f_equal.
    inversion Ht as [|l0 N C Q]. subst. clear Ht. induction l as [|[m c] l IHl]; [reflexivity|]. cbn [set_entry]. cbn [map fst] in N. apply NoDup_cons_iff in N. cbn [lookup] in H. rewrite entry_cons in H.
    destruct (m =? n); [rewrite (IH c); [reflexivity | apply (C m); left; reflexivity | exact H]|]. f_equal. apply IHl; [exact H | exact (proj2 N) | intros x d Hx; apply (C x); right; exact Hx]. }
  intros Ht H. unfold change_root. rewrite (G p t Ht H). reflexivity.
Qed.
End Facts.

From Verif Require Import TMModel TMSpec TMBase TMSafe TMSafe2 TMEnd TMProps JobProofs.

(* ---- one clean run ---- *)
Section Run.
Context (info : nat -> ninfo) (cleans : nat -> list nat) (ok : path -> bool).
(* nobody asks for the removal of the root directory *)
Definition not_root : Prop := forall n, n_path (info n) <> [].
Definition derived (t : nat) : Prop := n_builder (info t) = true \/ n_side (info t) = true.
(* the removal of q is asked for by a task with first target t0 and further targets ts: q is one of its files, it is a
   built or side-effect file and not marked NoClean, or q is at or below something given to Clean() for t0 *)
Definition asked (d : tree) (t0 : nat) (ts : list nat) (q : path) : Prop :=
  (derived t0 /\ exists t, In t (t0 :: ts) /\ n_kind (info t) = NFile /\ n_noclean (info t) = false /\ n_path (info t) = q /\ at_path d q <> Some WFolder)
  \/ exists f, In f (cleans t0) /\ below (n_path (info f)) q.

Lemma unlink_shrinks p : shrinks (unlink_leaf ok p).
Proof. intros t t' Ht E. unfold unlink_leaf in E. destruct t as [k|l]; [destruct (ok p); [discriminate|]|]; injection E as <-; apply smaller_refl, Ht. Qed.
Lemma fs_delete_shrinks rm p : shrinks (fun t => fst (fs_delete rm ok p t)).
Proof. intros t t' Ht E. eapply fs_delete_smaller; eassumption. Qed.
Lemma remove_node_smaller i d : disk_ok d -> smaller (remove_node ok i d) d.
Proof. intros H. unfold remove_node. destruct (n_kind i); try (apply smaller_refl, H). apply change_root_smaller; [apply unlink_shrinks | exact H]. Qed.
Lemma delete_at_smaller rm p d : disk_ok d -> smaller (delete_at ok rm p d) d.
Proof. intros H. apply change_root_smaller; [apply fs_delete_shrinks | exact H]. Qed.
Lemma fold_smaller {A} (f : tree -> A -> tree) l : (forall d x, disk_ok d -> smaller (f d x) d) -> forall d, disk_ok d -> smaller (fold_left f l d) d.
Proof. intros Hf. induction l as [|x l IH]; intros d H; [apply smaller_refl, H|]. cbn. eapply smaller_trans; [apply IH; apply Hf; exact H | apply Hf, H]. Qed.
Lemma remove_task_smaller ts d : disk_ok d -> smaller (remove_task info cleans ok ts d) d.
Proof.
  intros H. unfold remove_task. assert (A : smaller (fold_left (fun d t => remove_node ok (info t) d) (files_to_clean info ts) d) d) by (apply fold_smaller; [intros; apply remove_node_smaller; assumption | exact H]).
  eapply smaller_trans; [|exact A]. unfold clean_targets. destruct ts as [|t ts]; [apply smaller_refl, A|]. apply fold_smaller; [intros; apply delete_at_smaller; assumption | apply A].
Qed.

Definition is_folder (d : tree) (q : path) : bool := match at_path d q with Some WFolder => true | _ => false end.
Lemma remove_node_frame (Nr : not_root) n d q : disk_ok d -> at_path (remove_node ok (info n) d) q <> at_path d q -> n_kind (info n) = NFile /\ n_path (info n) = q /\ at_path d q <> Some WFolder.
Proof.
  intros H Hq. unfold remove_node in Hq. destruct (n_kind (info n)) eqn:K; try (elim Hq; reflexivity). split; [reflexivity|].
  set (p := n_path (info n)) in *. assert (Hp : p <> []) by apply Nr.
  destruct (lookup d p) as [[k|l]|] eqn:E.
  - assert (Q : below p q -> q = p \/ at_path d q = None).
    { intros [[|m r] ->]; [left; apply app_nil_r|]. right. unfold at_path. clear Hq Hp. revert E. generalize d. generalize p. clear. induction p as [|x p IH]; intros t E; [cbn in *; injection E as ->; reflexivity|].
      cbn [lookup app] in *. destruct t as [|l]; [reflexivity|]. destruct (entry l x) as [c|]; [apply IH, E | discriminate]. }
    assert (B : {below p q} + {~ below p q}).
    { clear. revert q. induction p as [|x p IH]; intros q; [left; exists q; reflexivity|]. destruct q as [|y q]; [right; intros [r Hr]; discriminate|].
      destruct (Nat.eq_dec x y) as [->|Ne]; [|right; intros [r Hr]; injection Hr; congruence]. destruct (IH q) as [Y|N]; [left; destruct Y as [r ->]; exists r; reflexivity | right; intros [r Hr]; injection Hr as ->; apply N; exists r; reflexivity]. }
    destruct B as [B|B]; [|elim Hq; apply lookup_change_frame; assumption].
    destruct (Q B) as [-> | Q']; [split; [reflexivity|]; unfold at_path; rewrite E; discriminate|].
    exfalso. apply Hq. destruct (change_root_smaller (unlink_leaf ok p) p d (unlink_shrinks p) H) as [_ Sm]. destruct (Sm q) as [X|X]; congruence.
  - elim Hq. rewrite change_root_id; [reflexivity | exact H|]. intros c Hc. assert (c = Folder l) by congruence. subst c. reflexivity.
  - elim Hq. rewrite change_root_id; [reflexivity | exact H|]. intros c Hc. congruence.
Qed.
Lemma delete_at_frame p rm d q : p <> [] -> disk_ok d -> at_path (delete_at ok rm p d) q <> at_path d q -> ~ ~ below p q.
Proof. intros Hp H Hq Hb. apply Hq. apply lookup_change_frame; assumption. Qed.
Lemma below_dec p q : {below p q} + {~ below p q}.
Proof.
  revert q. induction p as [|x p IH]; intros q; [left; exists q; reflexivity|]. destruct q as [|y q]; [right; intros [r Hr]; discriminate|].
  destruct (Nat.eq_dec x y) as [->|Ne]; [|right; intros [r Hr]; injection Hr; congruence]. destruct (IH q) as [Y|N]; [left; destruct Y as [r ->]; exists r; reflexivity | right; intros [r Hr]; injection Hr as ->; apply N; exists r; reflexivity].
Qed.
Definition what_dec (a b : option what) : {a = b} + {a <> b}.
Proof. decide equality. decide equality. decide equality. Defined.
Lemma fold_frame {A} (f : tree -> A -> tree) (P : A -> Prop) q l : (forall d x, disk_ok d -> smaller (f d x) d) ->
  forall d0 d, disk_ok d -> only_removed d0 d -> (forall d x, disk_ok d -> only_removed d0 d -> at_path (f d x) q <> at_path d q -> P x) -> at_path (fold_left f l d) q <> at_path d q -> exists x, In x l /\ P x.
Proof.
  intros Hs d0. induction l as [|x l IH]; intros d H Or Hp Hq; [elim Hq; reflexivity|]. cbn in Hq.
  destruct (what_dec (at_path (f d x) q) (at_path d q)) as [E|E]; [|exists x; split; [left; reflexivity | apply (Hp d); assumption]].
  rewrite <- E in Hq. destruct (Hs d x H) as [S1 S2]. destruct (IH (f d x) S1 (only_removed_trans _ _ _ Or S2) Hp Hq) as (y & Hy & Py). exists y; split; [right; exact Hy | exact Py].
Qed.
Lemma remove_task_frame (Nr : not_root) d0 ts d q : disk_ok d -> only_removed d0 d -> at_path (remove_task info cleans ok ts d) q <> at_path d q ->
  exists t0 r, ts = t0 :: r /\ asked d t0 r q.
Proof.
  intros H Or Hq. unfold remove_task in Hq. set (d1 := fold_left (fun d t => remove_node ok (info t) d) (files_to_clean info ts) d) in *.
  assert (S1 : smaller d1 d) by (apply fold_smaller; [intros; apply remove_node_smaller; assumption | exact H]).
  destruct ts as [|t0 r]; [elim Hq; reflexivity|]. exists t0, r. split; [reflexivity|].
  destruct (what_dec (at_path d1 q) (at_path d q)) as [E|E].
  - rewrite <- E in Hq. right. unfold clean_targets in Hq.
    apply (fold_frame _ (fun f => below (n_path (info f)) q) q (cleans t0)) with (d0 := d1) in Hq; [exact Hq | intros; apply delete_at_smaller; assumption | apply S1 | intros x; right; reflexivity|].
    intros d' x Hd' _ Hx. destruct (below_dec (n_path (info x)) q) as [B|B]; [exact B|]. elim (delete_at_frame _ _ _ _ (Nr x) Hd' Hx B).
  - left. unfold d1 in E.
    assert (E1 := fold_frame _ (fun t => n_kind (info t) = NFile /\ n_path (info t) = q /\ at_path d q <> Some WFolder) q (files_to_clean info (t0 :: r))
      (fun d x Hd => remove_node_smaller (info x) d Hd) d d H (fun x => or_intror eq_refl)).
    destruct E1 as (t & Ht & K & P & F); [|exact E|].
    + intros d' x Hd' Or' Hx. destruct (remove_node_frame Nr x d' q Hd' Hx) as (A & B & C). split; [exact A|]. split; [exact B|]. intros W. apply C. destruct (Or' q) as [X|X]; [|congruence].
      exfalso. apply Hx. destruct (remove_node_smaller (info x) d' Hd') as [_ Sm]. destruct (Sm q) as [Y|Y]; congruence.
    + unfold files_to_clean in Ht. destruct (n_builder (info t0) || n_side (info t0)) eqn:Db; [|elim Ht]. apply filter_In in Ht. destruct Ht as [Ht Nc]. apply negb_true_iff in Nc.
      split; [apply orb_true_iff in Db; exact Db | exists t; auto].
Qed.
End Run.

(* C50.  Whatever "scons -c" changes on disk is a removal asked for by one of its tasks (see [asked]); everything else is left alone. *)
Theorem C50_removes_only_asked : forall info cleans ok L d q, disk_ok d -> not_root info ->
  at_path (clean_run info cleans ok false L d) q <> at_path d q ->
  at_path (clean_run info cleans ok false L d) q = None /\ exists t0 ts, In (t0 :: ts) L /\ asked info cleans d t0 ts q.
Proof.
  intros info cleans ok L d q H Nr Hq. unfold clean_run in *. split.
  - assert (Sm : smaller (fold_left (fun d ts => remove_task info cleans ok ts d) L d) d) by (apply fold_smaller; [intros; apply remove_task_smaller; assumption | exact H]).
    destruct (proj2 Sm q) as [X|X]; [exact X | contradiction].
  - assert (E := fold_frame (fun d ts => remove_task info cleans ok ts d) (fun ts => exists t0 r, ts = t0 :: r /\ asked info cleans d t0 r q) q L (fun d x Hd => remove_task_smaller info cleans ok x d Hd) d d H (fun x => or_intror eq_refl)).
    destruct E as (ts & Hts & t0 & r & -> & A); [|exact Hq | exists t0, r; auto].
    intros d' ts Hd' Or Hx. destruct (remove_task_frame info cleans ok Nr d' ts d' q Hd' (fun x => or_intror eq_refl) Hx) as (t0 & r & -> & A). exists t0, r. split; [reflexivity|].
    destruct A as [(Dv & t & Ht & K & Nc & P & F)|(f & Hf & B)]; [left | right; eauto].
    split; [exact Dv|]. exists t. split; [exact Ht|]. split; [exact K|]. split; [exact Nc|]. split; [exact P|]. intros W. apply F. destruct (Or q) as [X|X]; [|congruence].
    exfalso. apply Hx. destruct (remove_task_smaller info cleans ok (t0 :: r) d' Hd') as [_ Sm]. destruct (Sm q) as [Y|Y]; congruence.
Qed.
Print Assumptions C50_removes_only_asked.

Lemma gone_stays {A} (f : tree -> A -> tree) l q : (forall d x, disk_ok d -> smaller (f d x) d) -> forall d, disk_ok d -> at_path d q = None -> at_path (fold_left f l d) q = None.
Proof. intros Hf d H E. destruct (proj2 (fold_smaller f l Hf d H) q) as [X|X]; congruence. Qed.
Lemma fold_split {A} (f : tree -> A -> tree) l x : In x l -> exists l1 l2, l = l1 ++ x :: l2 /\ forall d, fold_left f l d = fold_left f l2 (f (fold_left f l1 d) x).
Proof. intros H. apply in_split in H. destruct H as (l1 & l2 & ->). exists l1, l2. split; [reflexivity|]. intros d. rewrite fold_left_app. reflexivity. Qed.

Lemma lookup_ok : forall p t c, lookup t p = Some c -> disk_ok t -> disk_ok c.
Proof.
  induction p as [|n p IH]; intros t c E Dk; [cbn in E; congruence|]. cbn [lookup] in E. destruct t as [|l]; [discriminate|].
  destruct (entry l n) as [c0|] eqn:Ec; [|discriminate]. inversion Dk as [|l0 N C Q]. subst. apply (IH c0 c E). apply (C n). apply entry_in, Ec.
Qed.
Lemma lookup_app : forall p t x, lookup t (p ++ x) = match lookup t p with Some c => lookup c x | None => None end.
Proof. induction p as [|n p IH]; intros t x; [reflexivity|]. cbn [lookup app]. destruct t as [|l]; [reflexivity|]. destruct (entry l n); [apply IH | reflexivity]. Qed.
(* C50b.  And what is asked for is gone afterwards, if the operating system permits it: files of the tasks, and everything given to
   Clean() for the first target of a task (directories with all they contain, not following symbolic links). *)
Theorem C50b_removes_all_asked : forall info cleans ok L d t0 ts q, disk_ok d -> not_root info -> In (t0 :: ts) L ->
  asked info cleans d t0 ts q -> (forall f, In f (cleans t0) -> forall r, ok (n_path (info f) ++ r) = true /\ at_path d (n_path (info f) ++ r) <> Some (WLeaf FSpecial)) -> ok q = true ->
  at_path (clean_run info cleans ok false L d) q = None.
Proof.
  intros info cleans ok L d t0 ts q H Nr Hin A Hf Hok. unfold clean_run.
  destruct (fold_split (fun d ts => remove_task info cleans ok ts d) L _ Hin) as (l1 & l2 & -> & E). rewrite E. clear E.
  assert (Rs : forall d x, disk_ok d -> smaller (remove_task info cleans ok x d) d) by (intros; apply remove_task_smaller; assumption).
  set (d1 := fold_left (fun d ts => remove_task info cleans ok ts d) l1 d).
  assert (S1 : smaller d1 d) by (apply fold_smaller; assumption).
  apply gone_stays; [exact Rs | apply Rs; apply S1|]. unfold remove_task.
  assert (Rn : forall d x, disk_ok d -> smaller (remove_node ok (info x) d) d) by (intros; apply remove_node_smaller; assumption).
  set (d2 := fold_left (fun d t => remove_node ok (info t) d) (files_to_clean info (t0 :: ts)) d1). assert (S2 : smaller d2 d1) by (apply fold_smaller; [exact Rn | apply S1]).
  destruct A as [(Dv & t & Ht & K & Nc & P & F)|(f & Hff & B)].
  - assert (G : at_path d2 q = None).
    { unfold d2, files_to_clean. replace (n_builder (info t0) || n_side (info t0)) with true by (symmetry; apply orb_true_iff; exact Dv).
      assert (Hi : In t (filter (fun t => negb (n_noclean (info t))) (t0 :: ts))) by (apply filter_In; rewrite Nc; split; [exact Ht | reflexivity]).
      destruct (fold_split (fun d t => remove_node ok (info t) d) _ _ Hi) as (a & b & _ & E). rewrite E. clear E.
      set (d3 := fold_left (fun d t => remove_node ok (info t) d) a d1). assert (S3 : smaller d3 d1) by (apply fold_smaller; [exact Rn | apply S1]).
      apply gone_stays; [exact Rn | apply Rn, S3|]. unfold remove_node. rewrite K. unfold at_path. rewrite <- P. rewrite lookup_change; [|apply S3 | apply Nr].
      destruct (lookup d3 (n_path (info t))) as [[k|l]|] eqn:E; [|exfalso|reflexivity].
      - cbn. rewrite P, Hok. reflexivity.
      - apply F. rewrite P in E. assert (X : at_path d3 q = Some WFolder) by (unfold at_path; rewrite E; reflexivity).
        destruct (proj2 S3 q) as [Y|Y]; [congruence|]. destruct (proj2 S1 q) as [Z|Z]; congruence. }
    unfold clean_targets. apply gone_stays; [intros; apply delete_at_smaller; assumption | apply S2 | exact G].
  - unfold clean_targets. destruct (fold_split (fun d f => delete_at ok true (n_path (info f)) d) _ _ Hff) as (a & b & _ & E). rewrite E. clear E.
    assert (Rd : forall d x, disk_ok d -> smaller (delete_at ok true (n_path (info x)) d) d) by (intros; apply delete_at_smaller; assumption).
    set (d3 := fold_left (fun d f => delete_at ok true (n_path (info f)) d) a d2). assert (S3 : smaller d3 d2) by (apply fold_smaller; [exact Rd | apply S2]).
    apply gone_stays; [exact Rd | apply Rd, S3|]. destruct B as [r ->].
    assert (G : lookup (delete_at ok true (n_path (info f)) d3) (n_path (info f)) = None).
    { unfold delete_at. rewrite lookup_change; [|apply S3 | apply Nr]. destruct (lookup d3 (n_path (info f))) as [c|] eqn:E; [|reflexivity].
      apply fs_delete_all.
      - exact (lookup_ok _ _ _ E (proj1 S3)).
      - intros x Hx. apply (proj2 (Hf f Hff x)). assert (X : at_path d3 (n_path (info f) ++ x) = Some (WLeaf FSpecial)).
        { unfold at_path in *. rewrite lookup_app, E. exact Hx. }
        destruct (proj2 S3 (n_path (info f) ++ x)) as [Y|Y]; [congruence|]. destruct (proj2 S2 (n_path (info f) ++ x)) as [Z|Z]; [congruence|]. destruct (proj2 S1 (n_path (info f) ++ x)) as [Z'|Z']; congruence.
      - intros x. apply (proj1 (Hf f Hff x)). }
    unfold at_path. rewrite lookup_app, G. reflexivity.
Qed.
Print Assumptions C50b_removes_all_asked.

(* C50c.  "scons -c -n" changes nothing. *)
Theorem C50c_dry_run : forall info cleans ok L d, disk_ok d -> clean_run info cleans ok true L d = d.
Proof.
  intros info cleans ok L d H. unfold clean_run. induction L as [|ts L IH]; [reflexivity|]. cbn [fold_left]. replace (show_task info cleans ok ts d) with d; [exact IH|].
  unfold show_task, clean_targets. destruct ts as [|t ts]; [reflexivity|]. clear IH L ts. induction (cleans t) as [|f l IH]; [reflexivity|]. cbn [fold_left].
  replace (delete_at ok false (n_path (info f)) d) with d; [exact IH|]. symmetry. apply change_root_id; [exact H|]. intros c _. apply fs_delete_show.
Qed.
Print Assumptions C50c_dry_run.

(* ---- a whole run ---- *)
(* a clean run: every task is out of date (CleanTask.make_ready is make_ready_all, needs_execute is always true) *)
Definition clean_mode (ops : list op) : Prop := Forall (fun o => forall n, e_ready (op_env o) n = ROutOfDate) ops.

Lemma clean_trace c ops s : cfg_wf c -> reachable c ops s -> clean_mode ops ->
  (forall ts, ~ In (ECurrent ts) (trace s)) /\ (forall ts, In (EFinish ts) (trace s) -> exists m, ts = all_targets c m).
Proof.
  intros W [Ho [fuel H]] Cm.
  pose (P := fun s => dinv c s /\ (forall ts, ~ In (ECurrent ts) (trace s)) /\ (forall ts, In (EFinish ts) (trace s) -> exists m, ts = all_targets c m)).
  enough (X : P s) by apply X.
  refine (run_inv P (fun o => env_ok c (op_env o) /\ forall n, e_ready (op_env o) n = ROutOfDate) c _ ops fuel (init c) s _ _ H).
  - clear ops fuel s Ho Cm H. intros fuel s o s' [Eo Cm] (D & Nc & Ru) H. split; [eapply step_dinv; eassumption|]. pose proof (env_ok_wf c _ Eo) as We. destruct o as [e|i out e|e]; cbn [step op_env] in *.
    + unfold next_task in H. pose proof (search_dinv c e W We fuel s D) as Q. destruct (find_ready fuel c e s) as [|z|z m exc]; [discriminate| |].
      * injection H as <-. destruct Q as [(_ & Et & Er) _]. rewrite Et. auto.
      * rewrite Cm in H. destruct Q as [(Dz & Pm & Et & Er & _) _].
        destruct (make_ready_rest c ROutOfDate z (all_targets c m)) as (M1 & M2 & _ & _ & _ & [_ _ _ _ _ M11]).
        assert (R1 : refok (make_ready c ROutOfDate z (all_targets c m))) by (destruct Dz as [[Da Db] _ _ _ _ _ _]; split; [rewrite M2; exact Da | intros p; rewrite M1, M2; apply Db]).
        set (z1 := make_ready c ROutOfDate z (all_targets c m)) in *.
        assert (T1 : trace z1 = trace s) by congruence.
        assert (Hx : match all_targets c m with t :: _ => nstate_eqb (nst z1 t) Executing | [] => false end = true).
        { pose proof (cw_self c W m) as Hs. destruct (all_targets c m) as [|t r] eqn:Ea; [elim Hs|]. destruct (make_ready_nst c ROutOfDate z (t :: r) t) as [[_ X]|[(_ & X & _)|(X & _)]].
          - elim X; [discriminate | left; reflexivity].
          - unfold z1. rewrite X. reflexivity.
          - discriminate. }
        rewrite Hx in H. destruct exc.
        -- cbn [orb] in H. set (ev := match e_now e with OOk => EIgnored (all_targets c m) | _ => EFail (all_targets c m) end) in *.
           destruct (retire fuel c e (e_now e) (emit z1 ev) (all_targets c m)) as [y|] eqn:Ey; [|discriminate]. injection H as <-.
           destruct (retire_trace _ _ _ _ _ _ _ We (R1 : refok (emit z1 ev)) Ey) as (Y1 & _). cbn [trace emit] in Y1. rewrite Y1, T1. unfold ev.
           split; intros ts; rewrite in_app_iff; intros [Q|[Q|Q]]; try (destruct (e_now e); [elim Q | elim Q | destruct Q as [Q|[]]; discriminate]); try (destruct (e_now e); discriminate); [eapply Nc, Q | apply Ru, Q].
        -- cbn [orb] in H. injection H as <-. cbn [trace emit set_running]. rewrite T1. split; intros ts [Q|Q]; try discriminate; [eapply Nc, Q | apply Ru, Q].
    + destruct (take_nth i (running s)) as [[ts rest]|] eqn:Et; [|injection H as <-; auto]. destruct (take_nth_In _ _ _ _ Et) as [Ht _]. pose proof D as [D1 _ _ D4 D5 _ _].
      destruct (D4 ts (or_introl (D5 ts Ht))) as [m Hm].
      set (ev := match out with OOk => EFinish ts | _ => EFail ts end) in *.
      destruct (retire_trace _ _ _ _ _ _ _ We (D1 : refok (emit (set_running s rest) ev)) H) as (Y1 & _). cbn [trace emit set_running] in Y1. rewrite Y1. unfold ev.
      split; intros us; rewrite in_app_iff; intros [Q|[Q|Q]]; try (destruct out; [elim Q | elim Q | destruct Q as [Q|[]]; discriminate]); try (destruct out; discriminate); [eapply Nc, Q | | apply Ru, Q].
      exists m. destruct out; try discriminate. congruence.
    + injection H as <-. cbn [trace emit set_stopped]. split; intros ts [Q|Q]; try discriminate; [exact (Nc ts Q) | apply Ru, Q].
  - unfold ops_ok, clean_mode in *. rewrite Forall_forall in *. intros o Hin. split; [apply (Ho o Hin) | apply (Cm o Hin)].
  - split; [apply init_dinv|]. split; intros ts [].
Qed.

(* C50d.  A complete run of "scons -c" in which no task failed (cleaning tasks report what they cannot remove and go on): for everything a
   requested target transitively depends on, the built or side-effect file is gone unless marked NoClean.  L: the tasks that were
   run, in any order of execution. *)
Theorem C50d_whole_run : forall c kids ops s t n info cleans ok L d,
  cfg_wf c -> graph_wf c kids -> ended c ops s -> static kids ops -> acyclic kids -> clean_mode ops -> no_failure (trace s) ->
  In t (tops c) -> ~ is_side_effect c t -> depends0 kids t n -> (forall ts, In (EFinish ts) (trace s) -> In ts L) ->
  disk_ok d -> not_root info -> ok (n_path (info n)) = true ->
  n_kind (info n) = NFile -> n_noclean (info n) = false -> derived info (hd n (all_targets c n)) -> at_path d (n_path (info n)) <> Some WFolder ->
  (forall f r, In f (cleans (hd n (all_targets c n))) -> ok (n_path (info f) ++ r) = true /\ at_path d (n_path (info f) ++ r) <> Some (WLeaf FSpecial)) ->
  at_path (clean_run info cleans ok false L d) (n_path (info n)) = None.
Proof.
  intros c kids ops s t n info cleans ok L d W G En St Ac Cm Nf Ht Hs Dp HL Hd Nr Hok K Nc Dv Fo Hc.
  destruct (C05_complete c kids ops s t n W G En St Ac Nf Ht Hs Dp) as (ts & Hn & Hf).
  assert (Q : (forall ts, ~ In (ECurrent ts) (trace s)) /\ (forall ts, In (EFinish ts) (trace s) -> exists m, ts = all_targets c m)).
  { destruct En as (ops0 & e & s0 & fuel & -> & R & Eo & Rn & H). apply (clean_trace c (ops0 ++ [Next e]) s W); [|exact Cm].
    apply (JobProofs.reachable_step c ops0 s0 (Next e) fuel s R Eo). cbn. rewrite H. reflexivity. }
  destruct Q as [Q1 Q2]. destruct Hf as [Hf|[Hf|Hf]]; [|elim (Q1 _ Hf)|elim (proj2 (proj2 Nf ts) Hf)].
  destruct (Q2 _ Hf) as [m ->]. pose proof (cw_share c W m n Hn) as E. destruct (all_targets c m) as [|t0 r] eqn:Em; [elim Hn|]. rewrite E in Dv, Hc. cbn [hd] in Dv, Hc.
  apply (C50b_removes_all_asked info cleans ok L d t0 r); auto. left. split; [exact Dv|]. exists n. auto 6.
Qed.
Print Assumptions C50d_whole_run.

(* ---- Clean() ---- *)
Definition requested (calls : list (list nat * list nat)) (t f : nat) : Prop := exists c, In c calls /\ In t (fst c) /\ In f (snd c).

Section Registry.
Definition fresh (r : registry) : Prop := forall t o, r_ref r t = Some o -> o < r_next r.
Lemma fold_clean_one x : forall ts r, (forall t o, r_ref r t = Some o -> o < S x) ->
  let r' := fold_left (clean_one x) ts r in
  r_next r' = r_next r /\ (forall t o, r_ref r' t = Some o -> o < S x)
  /\ (forall o f, In f (r_list r o) -> In f (r_list r' o)) /\ (forall t o, r_ref r t = Some o -> r_ref r' t = Some o)
  /\ (forall t f, In t ts -> In f (r_list r x) -> In f (registered r' t)).
Proof.
  induction ts as [|t ts IH]; intros r Fr; [cbn; auto 8; repeat split; auto; intros t f []|].
  cbn [fold_left]. assert (L : forall o f, In f (r_list r o) -> In f (r_list (clean_one x r t) o)).
  { intros o f H. unfold clean_one. destruct (r_ref r t) as [p|]; [|exact H]. cbn. unfold CleanModel.upd. destruct (o =? p) eqn:E; [apply Nat.eqb_eq in E; subst; apply in_or_app; left; exact H | exact H]. }
  assert (Rf : forall u o, r_ref r u = Some o -> r_ref (clean_one x r t) u = Some o).
  { intros u o H. unfold clean_one. destruct (r_ref r t) as [p|] eqn:E; [exact H|]. cbn. unfold CleanModel.upd. destruct (u =? t) eqn:Q; [apply Nat.eqb_eq in Q; congruence | exact H]. }
  assert (Fr' : forall u o, r_ref (clean_one x r t) u = Some o -> o < S x).
  { intros u o H. unfold clean_one in H. destruct (r_ref r t) as [p|] eqn:E; [apply (Fr u o H)|]. cbn in H. unfold CleanModel.upd in H. destruct (u =? t); [injection H as <-; lia | apply (Fr u o H)]. }
  assert (Me : forall f, In f (r_list r x) -> In f (registered (clean_one x r t) t)).
  { intros f H. unfold registered, clean_one. destruct (r_ref r t) as [p|] eqn:E; cbn.
    - rewrite E. unfold CleanModel.upd. rewrite Nat.eqb_refl. apply in_or_app. right. exact H.
    - unfold CleanModel.upd. rewrite Nat.eqb_refl. exact H. }
  assert (Nx : r_next (clean_one x r t) = r_next r) by (unfold clean_one; destruct (r_ref r t); reflexivity).
  destruct (IH _ Fr') as (A & B & C & D & E). cbv zeta. split; [congruence|]. split; [exact B|]. split; [auto|]. split; [auto|].
  intros u f [<-|Hu] Hf; [|apply E; auto]. specialize (Me f Hf). unfold registered in *. destruct (r_ref (clean_one x r t) t) as [o|] eqn:Q; [|elim Me]. rewrite (D _ _ Q). apply C, Me.
Qed.
Lemma clean_call_facts c r : fresh r -> fresh (clean_call c r)
  /\ (forall t f, In f (registered r t) -> In f (registered (clean_call c r) t)) /\ (forall t f, In t (fst c) -> In f (snd c) -> In f (registered (clean_call c r) t)).
Proof.
  intros Fr. unfold clean_call. set (x := r_next r). set (r0 := {| r_ref := r_ref r; r_list := CleanModel.upd (r_list r) x (snd c); r_next := S x |}).
  destruct (fold_clean_one x (fst c) r0) as (A & B & C & D & E); [intros t o H; specialize (Fr t o H); unfold x; lia|].
  split; [intros t o H; rewrite A; apply (B t o H)|]. split.
  - intros t f H. unfold registered in *. destruct (r_ref r t) as [o|] eqn:Q; [|elim H]. rewrite (D t o Q). apply C. cbn. unfold CleanModel.upd. destruct (o =? x) eqn:Z; [|exact H]. apply Nat.eqb_eq in Z. specialize (Fr t o Q). unfold x in Z. lia.
  - intros t f Ht Hf. apply E; [exact Ht|]. cbn. unfold CleanModel.upd. rewrite Nat.eqb_refl. exact Hf.
Qed.
End Registry.

(* C50e.  Every file given to Clean() for a target is removed with it; if each call names one target, only those are. *)
Theorem C50e_clean_is_additive : forall calls t f, requested calls t f -> In f (registered (clean_calls calls) t).
Proof.
  intros calls t f. unfold clean_calls.
  assert (G : forall calls r, fresh r -> forall t f, In f (registered r t) \/ requested calls t f -> In f (registered (fold_left (fun r c => clean_call c r) calls r) t)).
  { clear. induction calls as [|c calls IH]; intros r Fr t f H; [destruct H as [H|(c & [] & _)]; exact H|]. cbn [fold_left]. destruct (clean_call_facts c r Fr) as (A & B & C). apply IH; [exact A|].
    destruct H as [H|(c' & [<-|Hc] & Ht & Hf)]; [left; apply B, H | left; apply C; assumption | right; exists c'; auto]. }
  intros H. apply G; [intros u o Q; discriminate | right; exact H].
Qed.
Print Assumptions C50e_clean_is_additive.
Theorem C50f_clean_is_exact : forall calls, (forall c, In c calls -> exists t, fst c = [t]) -> forall t f, In f (registered (clean_calls calls) t) <-> requested calls t f.
Proof.
  intros calls H t f. split; [|apply C50e_clean_is_additive]. unfold clean_calls.
  pose (inj := fun r : registry => fresh r /\ forall t u o, r_ref r t = Some o -> r_ref r u = Some o -> t = u).
  assert (G : forall calls r, (forall c, In c calls -> exists t, fst c = [t]) -> inj r -> In f (registered (fold_left (fun r c => clean_call c r) calls r) t) -> In f (registered r t) \/ requested calls t f).
  { clear calls H. induction calls as [|c calls IH]; intros r Hc [Fr Hi] Hf; [left; exact Hf|]. cbn [fold_left] in Hf. destruct (Hc c (or_introl eq_refl)) as [u Eu].
    apply IH in Hf; [|intros c' Hc'; apply Hc; right; exact Hc'|].
    - destruct Hf as [Hf|(c' & Hc' & A & B)]; [|right; exists c'; split; [right; exact Hc' | auto]].
      unfold clean_call in Hf. rewrite Eu in Hf. cbn [fold_left] in Hf. unfold clean_one, registered in *. cbn [r_ref r_list r_next] in Hf. destruct (r_ref r u) as [o|] eqn:Q; cbn [r_ref r_list] in Hf.
      + destruct (r_ref r t) as [o'|] eqn:Q'; [|elim Hf]. unfold CleanModel.upd in Hf. pose proof (Fr _ _ Q). pose proof (Fr _ _ Q'). destruct (o' =? o) eqn:Z.
        * apply Nat.eqb_eq in Z. subst o'. assert (t = u) by (eapply Hi; eassumption). subst u. destruct (o =? r_next r) eqn:Z1; [apply Nat.eqb_eq in Z1; lia|]. rewrite Nat.eqb_refl in Hf. apply in_app_iff in Hf.
          destruct Hf as [Hf|Hf]; [left; exact Hf | right; exists c; split; [left; reflexivity|]; split; [rewrite Eu; left; reflexivity | exact Hf]].
        * destruct (o' =? r_next r) eqn:Z1; [apply Nat.eqb_eq in Z1; lia|]. left. exact Hf.
      + unfold CleanModel.upd in Hf. destruct (t =? u) eqn:Z.
        * apply Nat.eqb_eq in Z. subst u. rewrite Nat.eqb_refl in Hf. right. exists c. split; [left; reflexivity|]. split; [rewrite Eu; left; reflexivity | exact Hf].
        * destruct (r_ref r t) as [o'|] eqn:Q'; [|elim Hf]. pose proof (Fr _ _ Q'). destruct (o' =? r_next r) eqn:Z1; [apply Nat.eqb_eq in Z1; lia|]. left. exact Hf.
    - split; [apply clean_call_facts, Fr|]. intros a b o. unfold clean_call. rewrite Eu. cbn [fold_left]. unfold clean_one. cbn [r_ref]. destruct (r_ref r u) as [p|] eqn:Q; cbn [r_ref]; [apply Hi|].
      unfold CleanModel.upd. destruct (a =? u) eqn:Za, (b =? u) eqn:Zb; intros Ha Hb.
      + apply Nat.eqb_eq in Za, Zb. congruence.
      + injection Ha as <-. specialize (Fr _ _ Hb). lia.
      + injection Hb as <-. specialize (Fr _ _ Ha). lia.
      + eapply Hi; eassumption. }
  intros Hf. apply G in Hf; [|exact H | split; [intros u o Q; discriminate | intros u v o Q; discriminate]]. destruct Hf as [[]|Hf]; exact Hf.
Qed.
Print Assumptions C50f_clean_is_exact.
(* Refuted when a call names two targets: Clean(['a','b'],'x'); Clean('a','y') - "scons -c b" removes y as well, because both
   targets got the same list object. *)
Theorem C50_shared_list_refuted : exists calls t f, In f (registered (clean_calls calls) t) /\ ~ requested calls t f.
Proof.
  exists [([1; 2], [10]); ([1], [11])], 2, 11. split; [cbn; auto|]. intros (c & [<-|[<-|[]]] & A & B); cbn in A, B; [destruct B as [B|[]]; discriminate | destruct A as [A|[]]; discriminate].
Qed.
Print Assumptions C50_shared_list_refuted.

(* ---- further differences from the documentation ---- *)
(* /src/a.c is a source, /out/a and /out/b are built by one task, /out holds more files; all permitted *)
Definition xdisk : tree := Folder [(1, Folder [(10, Leaf FFile)]); (2, Folder [(20, Leaf FFile); (21, Leaf FFile); (22, Leaf FFile); (23, Leaf FLinkOther)])].
Definition xinfo (n : nat) : ninfo := {| n_path := match n with 10 => [1; 10] | 2 => [2] | _ => [2; n] end; n_kind := if n =? 2 then NDir else NFile; n_builder := (n =? 20) || (n =? 21); n_side := false; n_noclean := n =? 22 |}.
Fixpoint disk_okb (t : tree) : bool :=
  match t with
  | Leaf _ => true
  | Folder l => (fix nodup (l : list nat) : bool := match l with [] => true | x :: r => negb (existsb (Nat.eqb x) r) && nodup r end) (map fst l) && forallb (fun x => disk_okb (snd x)) l
  end.
Lemma disk_okb_ok t : disk_okb t = true -> disk_ok t.
Proof.
  induction t as [k|l IH] using tree_ind2; intros H; [constructor|]. cbn [disk_okb] in H. apply andb_true_iff in H. destruct H as [H1 H2]. constructor.
  - revert H1. generalize (map fst l). clear. induction l as [|x l IH]; intros H; [constructor|]. apply andb_true_iff in H. destruct H as [H1 H2]. constructor; [|apply IH, H2].
    intros Hx. apply negb_true_iff in H1. rewrite <- not_true_iff_false in H1. apply H1. apply existsb_exists. exists x. split; [exact Hx | apply Nat.eqb_refl].
  - intros n c Hc. apply (IH n c Hc). rewrite forallb_forall in H2. apply (H2 (n, c) Hc).
Qed.
Lemma xdisk_ok : disk_ok xdisk.
Proof. apply disk_okb_ok. reflexivity. Qed.
Lemma xnot_root : not_root xinfo.
Proof. intros n. unfold xinfo. cbn. repeat (destruct n; try discriminate). Qed.
(* Documented: NoClean() wins over Clean() for the same file.  Node 22 is marked NoClean and given to Clean(). *)
Theorem C50_noclean_refuted : exists info cleans f d, disk_ok d /\ not_root info /\ n_noclean (info f) = true /\ at_path d (n_path (info f)) = Some (WLeaf FFile)
  /\ at_path (clean_run info cleans (fun _ => true) false [[20; 21]] d) (n_path (info f)) = None.
Proof. exists xinfo, (fun n => if n =? 20 then [22] else []), 22, xdisk. split; [apply xdisk_ok|]. split; [apply xnot_root|]. repeat split; reflexivity. Qed.
Print Assumptions C50_noclean_refuted.
(* Clean() for the second target of a task is not looked at. *)
Theorem C50_second_target_refuted : exists info calls t f d, disk_ok d /\ not_root info /\ requested calls t f /\ n_noclean (info f) = false /\ at_path d (n_path (info f)) = Some (WLeaf FFile)
  /\ at_path (clean_run info (registered (clean_calls calls)) (fun _ => true) false [[20; t]] d) (n_path (info f)) = Some (WLeaf FFile).
Proof.
  exists xinfo, [([21], [10])], 21, 10, xdisk. split; [apply xdisk_ok|]. split; [apply xnot_root|]. split; [exists ([21], [10]); cbn; auto|]. repeat split; reflexivity.
Qed.
Print Assumptions C50_second_target_refuted.
(* One file that cannot be removed keeps the files after it in the directory from being removed. *)
Theorem C50_sibling_refuted : exists info cleans ok d q, disk_ok d /\ not_root info /\ asked info cleans d 20 [] q /\ ok q = true /\ at_path d q = Some (WLeaf FFile)
  /\ at_path (clean_run info cleans ok false [[20]] d) q = Some (WLeaf FFile).
Proof.
  exists xinfo, (fun n => if n =? 20 then [2] else []), (fun p => match p with [2; 21] => false | _ => true end), xdisk, [2; 22]. split; [apply xdisk_ok|]. split; [apply xnot_root|].
  split; [right; exists 2; split; [left; reflexivity | exists [22]; reflexivity]|]. repeat split; reflexivity.
Qed.
Print Assumptions C50_sibling_refuted.

(* witness: targets 20 and 21 removed, source 10 and unrelated 22 kept; the directory /out given to Clean() takes everything below with
   it, the link 23 included, and nothing else *)
Example C50_witness : clean_run xinfo (fun _ => []) (fun _ => true) false [[10]; [20; 21]] xdisk = Folder [(1, Folder [(10, Leaf FFile)]); (2, Folder [(22, Leaf FFile); (23, Leaf FLinkOther)])]
  /\ clean_run xinfo (fun n => if n =? 20 then [2] else []) (fun _ => true) false [[10]; [20; 21]] xdisk = Folder [(1, Folder [(10, Leaf FFile)])]
  /\ (forall f r, In f ((fun n => if n =? 20 then [2] else []) 20) -> (fun _ : path => true) (n_path (xinfo f) ++ r) = true /\ at_path xdisk (n_path (xinfo f) ++ r) <> Some (WLeaf FSpecial)).
Proof.
  split; [reflexivity|]. split; [reflexivity|]. intros f r [<-|[]]. split; [reflexivity|]. cbn [xinfo n_path app].
  destruct r as [|a [|b r]]; [discriminate| |]; unfold at_path, xdisk; cbn [lookup entry find fst snd option_map Nat.eqb app];
  destruct (Nat.eq_dec a 20) as [->|N1]; try discriminate; destruct (Nat.eq_dec a 21) as [->|N2]; try discriminate; destruct (Nat.eq_dec a 22) as [->|N3]; try discriminate; destruct (Nat.eq_dec a 23) as [->|N4]; try discriminate;
  apply Nat.eqb_neq in N1, N2, N3, N4; rewrite (Nat.eqb_sym) in N1, N2, N3, N4; unfold entry; cbn [find fst]; rewrite ?N1, ?N2, ?N3, ?N4; discriminate.
Qed.
(* witness for C50d: the diamond of TMProps cleaned; 3 is a source *)
Definition cle := xenv dk (fun _ => ROutOfDate) OOk.
Definition clops := [Next cle; Done 0 OOk cle; Next cle; Next cle; Done 1 OOk cle; Done 0 OOk cle; Next cle; Done 0 OOk cle].
Example C50d_witness : exists s, ended dc (clops ++ [Next cle]) s /\ static dk (clops ++ [Next cle]) /\ clean_mode (clops ++ [Next cle]) /\ acyclic dk /\ no_failure (trace s) /\ depends0 dk 0 2
  /\ forall ts, In (EFinish ts) (trace s) -> In ts [[3]; [2]; [1]; [0]].
Proof.
  destruct (ended_ex dc clops cle [EFinish [0]; EStart [0]; EFinish [2]; EFinish [1]; EStart [2]; EStart [1]; EFinish [3]; EStart [3]]) as (s & H & Ht);
    [apply xenv_ok | apply (xreach dc dk clops); [unfold clops; repeat (constructor; [cbn; do 2 eexists; reflexivity|]); constructor | apply xenv_ok] | vm_compute; auto|].
  exists s. split; [exact H|]. split; [apply (xreach dc dk (clops ++ [Next cle])); [unfold clops; repeat (constructor; [cbn; do 2 eexists; reflexivity|]); constructor | apply xenv_ok]|].
  split; [unfold clops; repeat (constructor; [reflexivity|]); constructor|]. split; [apply dk_acyclic|]. split.
  - rewrite Ht; unfold no_failure; simpl. split; [intuition discriminate|]. intros ts; split; intuition discriminate.
  - split; [apply d1 with 2; [simpl; auto | apply d0]|]. rewrite Ht. intros ts Q. simpl in Q. repeat (destruct Q as [Q|Q]; [first [discriminate | injection Q as <-; simpl; auto]|]). elim Q.
Qed.
