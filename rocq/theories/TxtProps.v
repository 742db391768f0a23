(* C74: what Textfile and Substfile write *)
From Coq Require Import Ascii String List Bool Arith Lia Permutation.
From Verif Require Import SubstModel TxtModel TxtSpec.
Import ListNotations.
Open Scope list_scope.

Lemma starts_spec k : forall s, starts k s = true <-> exists b, s = k ++ b.
Proof.
  induction k as [|a k IH]; intros s; cbn [starts].
  - split; [intros _; exists s; reflexivity | reflexivity].
  - destruct s as [|b s].
    + split; [discriminate | intros [x X]; discriminate].
    + rewrite andb_true_iff, Ascii.eqb_eq, IH. split.
      * intros [-> [x ->]]. exists x. reflexivity.
      * intros [x X]. cbn in X. injection X as X1 X2. split; [congruence | exists x; exact X2].
Qed.
Lemma rep_skip k v : forall n s, rep k v n s = rep k v 0 (skipn n s).
Proof.
  induction n as [|n IH]; intros s; [reflexivity|].
  destruct s as [|c r]; [reflexivity|]. cbn [rep skipn]. apply IH.
Qed.
Lemma rep_at a k v b : rep (a :: k) v 0 ((a :: k) ++ b) = v ++ rep (a :: k) v 0 b.
Proof.
  assert (S0 : starts (a :: k) ((a :: k) ++ b) = true) by (apply starts_spec; exists b; reflexivity).
  change ((a :: k) ++ b) with (a :: (k ++ b)) in *.
  cbn [rep]. rewrite S0. f_equal. rewrite rep_skip. f_equal.
  replace (List.length (a :: k) - 1) with (List.length k) by (cbn; lia).
  induction k as [|x k IHk]; [reflexivity|]. cbn [List.length app skipn].
  clear IHk S0. induction k as [|y k IHk]; [reflexivity|]. exact IHk.
Qed.
Lemma rep_off k v c r : starts k (c :: r) = false -> rep k v 0 (c :: r) = c :: rep k v 0 r.
Proof. intros H. cbn [rep]. rewrite H. reflexivity. Qed.

Lemma replaced_off k v c r r' : starts k (c :: r) = false -> Replaced k v r r' -> Replaced k v (c :: r) (c :: r').
Proof.
  intros S0 R.
  assert (Z : forall b, k ++ b <> c :: r).
  { intros b B. assert (starts k (c :: r) = true) by (apply starts_spec; exists b; symmetry; exact B). congruence. }
  destruct R as [s Hn | a s s' Hf R].
  - apply Rep_none. intros [a [b B]]. destruct a as [|x a].
    + cbn in B. exact (Z b (eq_sym B)).
    + cbn in B. injection B as -> B. apply Hn. exists a, b. exact B.
  - apply (Rep_next k v (c :: a) s s'); [|exact R].
    intros a' b' B. destruct a' as [|x a'].
    + cbn [app] in B. exfalso. exact (Z b' B).
    + cbn [app] in B. injection B as -> B. cbn [List.length]. specialize (Hf a' b' B). lia.
Qed.

(* C74a: the replacement of a key *)
Theorem C74a_replace : forall k v s, k <> [] -> Replaced k v s (replace k v s).
Proof.
  intros k v s Hk. destruct k as [|a k]; [congruence|]. cbn [replace]. clear Hk.
  remember (List.length s) as n eqn:En. assert (Hn : List.length s <= n) by lia. clear En.
  revert s Hn. induction n as [|n IH]; intros s Hn.
  - destruct s as [|c r]; [|cbn in Hn; lia]. cbn [rep]. apply Rep_none.
    intros [x [y X]]. destruct x; discriminate.
  - destruct s as [|c r].
    + cbn [rep]. apply Rep_none. intros [x [y X]]. destruct x; discriminate.
    + destruct (starts (a :: k) (c :: r)) eqn:S0.
      * pose proof S0 as S1. apply starts_spec in S1. destruct S1 as [b B]. rewrite B, rep_at.
        apply (Rep_next (a :: k) v [] b (rep (a :: k) v 0 b)); [intros; cbn; lia|].
        apply IH. assert (L : List.length (c :: r) = List.length ((a :: k) ++ b)) by (rewrite B; reflexivity).
        rewrite app_length in L. cbn in L, Hn. lia.
      * rewrite rep_off by exact S0. apply replaced_off; [exact S0|]. apply IH. cbn in Hn. lia.
Qed.

(* and there is only one such result *)
Lemma first_occ_eq (k a s a' s' : list ascii) : a ++ k ++ s = a' ++ k ++ s' -> List.length a = List.length a' -> a = a' /\ s = s'.
Proof.
  revert a'. induction a as [|x a IH]; intros [|y a'] E L; cbn in L; try discriminate.
  - cbn in E. split; [reflexivity|]. exact (app_inv_head k s s' E).
  - cbn in E. injection E as -> E. destruct (IH a' E) as [-> ->]; [lia|]. split; reflexivity.
Qed.
Theorem C74a_unique : forall k v s t t', Replaced k v s t -> Replaced k v s t' -> t = t'.
Proof.
  intros k v s t t' R. revert t'. induction R as [s Hn | a s s' Hf R IH]; intros t' R'.
  - inversion R' as [z Hz E1 E2 | a z z' Hf R2 E1 E2]; subst; [reflexivity|].
    exfalso. apply Hn. exists a, z. reflexivity.
  - inversion R' as [z Hz E1 E2 | a2 z z' Hf2 R2 E1 E2]; subst.
    + exfalso. apply Hz. exists a, s. reflexivity.
    + pose proof (Hf a2 z E1) as L1. pose proof (Hf2 a s (eq_sym E1)) as L2.
      destruct (first_occ_eq k a s a2 z (eq_sym E1)) as [-> ->]; [lia|].
      rewrite (IH z' R2). reflexivity.
Qed.

(* C74b: text in which no key occurs stays as it is *)
Lemma replace_none k v s : k <> [] -> ~ Occurs k s -> replace k v s = s.
Proof.
  intros Hk Hn. exact (C74a_unique k v s _ _ (C74a_replace k v s Hk) (Rep_none k v s Hn)).
Qed.
Theorem C74b_untouched : forall subs s,
  Forall (fun kv => fst kv <> [] /\ ~ Occurs (fst kv) s) subs -> do_subst subs s = s.
Proof.
  unfold do_subst. induction subs as [|[k v] subs IH]; intros s H; [reflexivity|].
  inversion H as [|x l [Hk Hn] H']; subst. cbn [fold_left fst snd] in *. rewrite (replace_none k v s Hk Hn). apply IH. exact H'.
Qed.

(* ---- templates ---- *)
Section Template.
Variables (o c : ascii) (N : ascii -> bool).
Notation key := (key o c). Notation written := (written o c). Notation WF := (WellFormed o c N).

Lemma key_prefix n m rest : ~ In c n -> ~ In c m -> starts (n ++ [c]) (m ++ c :: rest) = true -> n = m.
Proof.
  revert m. induction n as [|x n IH]; intros [|y m] Hn Hm H; cbn [app starts] in H.
  - reflexivity.
  - rewrite andb_true_r, Ascii.eqb_eq in H. subst. exfalso. apply Hm. left. reflexivity.
  - apply andb_true_iff in H. destruct H as [H _]. apply Ascii.eqb_eq in H. subst. exfalso. apply Hn. left. reflexivity.
  - apply andb_true_iff in H. destruct H as [H1 H2]. apply Ascii.eqb_eq in H1. subst. f_equal.
    apply IH; [intros Q; apply Hn; right; exact Q | intros Q; apply Hm; right; exact Q | exact H2].
Qed.
Lemma starts_other n x r : x <> o -> starts (key n) (x :: r) = false.
Proof.
  intros H. unfold key. cbn [starts]. assert (E : Ascii.eqb o x = false) by (apply Ascii.eqb_neq; congruence).
  rewrite E. reflexivity.
Qed.
Lemma rep_lit n v s r : ~ In o s -> rep (key n) v 0 (s ++ r) = s ++ rep (key n) v 0 r.
Proof.
  induction s as [|x s IH]; intros H; [reflexivity|].
  cbn [app]. rewrite rep_off; [|apply starts_other; intros E; apply H; left; exact E].
  f_equal. apply IH. intros Q. apply H. right. exact Q.
Qed.
Definition fill1 (n v : text) (p : piece) : piece :=
  match p with Lit s => Lit s | Ref m => if list_eq_dec ascii_dec m n then Lit v else Ref m end.

Lemma rep_template n v l : IsName o c N n -> WF l -> rep (key n) v 0 (written l) = written (map (fill1 n v) l).
Proof.
  intros [Hn0 [HnN [Hno Hnc]]]. induction l as [|p l IH]; intros W; [reflexivity|].
  destruct p as [s|m].
  - destruct W as [Hs W]. unfold written. cbn [flat_map map fill1]. fold (written l). fold (written (map (fill1 n v) l)).
    rewrite rep_lit by exact Hs. f_equal. apply IH. exact W.
  - destruct W as [[Hm0 [HmN [Hmo Hmc]]] [Hsep W]].
    unfold written. cbn [flat_map map fill1]. fold (written l). fold (written (map (fill1 n v) l)).
    destruct (list_eq_dec ascii_dec m n) as [->|Hneq].
    + unfold key. change ((o :: n ++ [c]) ++ written l) with ((o :: (n ++ [c])) ++ written l).
      rewrite rep_at. f_equal. apply IH. exact W.
    + assert (Kout : key m ++ written l = o :: (m ++ (c :: written l))).
      { unfold key. cbn [app]. rewrite <- app_assoc. reflexivity. }
      rewrite Kout. rewrite rep_off.
      2:{ unfold key. cbn [starts]. rewrite Ascii.eqb_refl. cbn [andb].
          destruct (starts (n ++ [c]) (m ++ c :: written l)) eqn:S0; [|reflexivity].
          exfalso. apply Hneq. symmetry. exact (key_prefix n m _ Hnc Hmc S0). }
      rewrite rep_lit by exact Hmo.
      rewrite rep_off.
      2:{ destruct Hsep as [Hoc|Hsep].
          - apply starts_other. congruence.
          - unfold key. cbn [starts]. destruct (Ascii.eqb o c); [|reflexivity]. cbn [andb].
            destruct n as [|n0 n]; [congruence|]. cbn [app].
            destruct l as [|[[|x s]|q] l]; try contradiction.
            + reflexivity.
            + unfold written. cbn [flat_map app starts].
              inversion HnN as [|z zs Hz _]; subst.
              assert (E : Ascii.eqb n0 x = false) by (apply Ascii.eqb_neq; intros E0; subst; congruence).
              rewrite E. reflexivity. }
      rewrite IH by exact W. unfold key. cbn [app]. rewrite <- app_assoc. reflexivity.
Qed.
Lemma fill1_wf n v l : ~ In o v -> WF l -> WF (map (fill1 n v) l).
Proof.
  intros Hv. induction l as [|p l IH]; intros W; [exact W|].
  destruct p as [s|m]; cbn [map fill1].
  - destruct W as [Hs W]. split; [exact Hs | apply IH; exact W].
  - destruct W as [Hm [Hsep W]]. destruct (list_eq_dec ascii_dec m n) as [->|Hneq].
    + split; [exact Hv | apply IH; exact W].
    + split; [exact Hm|]. split; [|apply IH; exact W].
      destruct Hsep as [Hoc|Hsep]; [left; exact Hoc|]. right.
      destruct l as [|[[|x s]|q] l]; try contradiction; cbn [map fill1]; exact Hsep.
Qed.

(* C74c: Substfile fills in the template *)
Theorem C74c_template : forall d l, GoodDict o c N d -> WF l ->
  do_subst (map (fun nv => (key (fst nv), snd nv)) d) (written l) = filled o c d l.
Proof.
  unfold do_subst. induction d as [|[n v] d IH]; intros l G W.
  - cbn [map fold_left]. unfold written, filled. clear W. induction l as [|[s|m] l IHl]; cbn [flat_map value_of]; [reflexivity| |];
      rewrite IHl; reflexivity.
  - inversion G as [|x xs [Hn Hv] G']; subst. cbn [map fold_left fst snd] in *.
    unfold replace. change (key n) with (o :: n ++ [c]) at 1.
    cbv iota. rewrite rep_template by assumption.
    rewrite IH; [|exact G'|apply fill1_wf; assumption].
    unfold filled. clear. induction l as [|[s|m] l IHl]; cbn [map fill1 flat_map]; [reflexivity| |].
    + rewrite IHl. reflexivity.
    + rewrite IHl. cbn [value_of]. destruct (list_eq_dec ascii_dec m n) as [->|Hneq]; reflexivity.
Qed.

(* C74d: the order of the entries does not matter then *)
Lemma value_of_in d n v : NoDup (map fst d) -> In (n, v) d -> value_of d n = Some v.
Proof.
  induction d as [|[m w] d IH]; intros D H; [contradiction|]. cbn [map fst] in D. inversion D as [|x xs Hx D']; subst.
  cbn [value_of]. destruct H as [H|H].
  - injection H as -> ->. destruct (list_eq_dec ascii_dec n n); congruence.
  - destruct (list_eq_dec ascii_dec n m) as [->|_]; [|apply IH; assumption].
    exfalso. apply Hx. apply in_map_iff. exists (m, v). split; [reflexivity | exact H].
Qed.
Lemma value_of_none d n : value_of d n = None -> forall v, ~ In (n, v) d.
Proof.
  induction d as [|[m w] d IH]; intros H v HI; [contradiction|]. cbn [value_of] in H.
  destruct (list_eq_dec ascii_dec n m) as [->|Hneq]; [discriminate|].
  destruct HI as [E|HI]; [injection E as -> ->; congruence | exact (IH H v HI)].
Qed.
Lemma value_of_some d n v : value_of d n = Some v -> In (n, v) d.
Proof.
  induction d as [|[m w] d IH]; intros H; cbn [value_of] in H; [discriminate|].
  destruct (list_eq_dec ascii_dec n m) as [->|Hneq]; [injection H as ->; left; reflexivity | right; exact (IH H)].
Qed.
Lemma value_of_perm d d' n : Permutation d d' -> NoDup (map fst d) -> value_of d n = value_of d' n.
Proof.
  intros P D. assert (D' : NoDup (map fst d')) by (eapply Permutation_NoDup; [apply Permutation_map; exact P | exact D]).
  destruct (value_of d n) as [v|] eqn:V.
  - symmetry. apply value_of_in; [exact D'|]. eapply Permutation_in; [exact P | apply value_of_some; exact V].
  - destruct (value_of d' n) as [v|] eqn:V'; [|reflexivity].
    exfalso. apply (value_of_none d n V v). eapply Permutation_in; [apply Permutation_sym; exact P | apply value_of_some; exact V'].
Qed.
Theorem C74d_order : forall d d' l, GoodDict o c N d -> WF l -> NoDup (map fst d) -> Permutation d d' ->
  do_subst (map (fun nv => (key (fst nv), snd nv)) d) (written l) =
  do_subst (map (fun nv => (key (fst nv), snd nv)) d') (written l).
Proof.
  intros d d' l G W D P.
  assert (G' : GoodDict o c N d').
  { unfold GoodDict in *. rewrite Forall_forall in *. intros x Hx. apply G. eapply Permutation_in; [apply Permutation_sym; exact P | exact Hx]. }
  rewrite !C74c_template by assumption. unfold filled. clear G G' W. induction l as [|[s|m] l IHl]; cbn [flat_map]; [reflexivity| |].
  - rewrite IHl. reflexivity.
  - rewrite IHl, (value_of_perm d d' m P D). reflexivity.
Qed.
End Template.

(* ---- lines ---- *)
Lemma write_lines_rest sep x r : exists t, write_lines sep sep (x :: r) = sep ++ t /\ Joined sep (x :: r) t.
Proof.
  revert x. induction r as [|y r IH]; intros x.
  - exists x. cbn [write_lines]. rewrite app_nil_r. split; [reflexivity | apply J_one].
  - destruct (IH y) as [t [E J]]. exists (x ++ sep ++ t). split.
    + change (write_lines sep sep (x :: y :: r)) with (sep ++ x ++ write_lines sep sep (y :: r)). rewrite E. reflexivity.
    + apply J_more. exact J.
Qed.
Lemma write_lines_joined sep l : Joined sep l (write_lines sep [] l).
Proof.
  destruct l as [|x [|y r]].
  - apply J_nil.
  - cbn [write_lines app]. rewrite app_nil_r. apply J_one.
  - destruct (write_lines_rest sep y r) as [t [E J]].
    assert (Q : write_lines sep [] (x :: y :: r) = x ++ sep ++ t) by (rewrite <- E; reflexivity).
    rewrite Q. apply J_more. exact J.
Qed.

Lemma mapM_ok {A B} (f : A -> res B) (g : A -> B) l : (forall x, In x l -> f x = Ok (g x)) -> mapM f l = Ok (map g l).
Proof.
  induction l as [|x l IH]; intros H; [reflexivity|]. cbn [mapM map].
  rewrite (H x (or_introl eq_refl)). cbn [bind]. rewrite IH by (intros y Hy; apply H; right; exact Hy). reflexivity.
Qed.

(* the strings and nodes in nested lists of sources, in order *)
Inductive Leaves : src -> list str -> Prop :=
| L_str s : Leaves (SrcStr s) [s]
| L_node t : Leaves (SrcNode t) [t]
| L_nil : Leaves (SrcList []) []
| L_cons x l a b : Leaves x a -> Leaves (SrcList l) b -> Leaves (SrcList (x :: l)) (a ++ b).
(* every string in it is without dollar and not the name of an alias *)
Inductive PlainSrc (aliases : list str) : src -> Prop :=
| P_str s : ~ In "$"%char s -> ~ In s aliases -> PlainSrc aliases (SrcStr s)
| P_node t : PlainSrc aliases (SrcNode t)
| P_list l : (forall x, In x l -> PlainSrc aliases x) -> PlainSrc aliases (SrcList l).
Lemma no_dollar s : ~ In "$"%char s -> has_dollar s = false.
Proof.
  intros H. destruct (has_dollar s) eqn:E; [|reflexivity]. exfalso. apply H.
  unfold has_dollar in E. apply existsb_exists in E. destruct E as [x [HI Hx]]. apply Ascii.eqb_eq in Hx. subst. exact HI.
Qed.
Lemma str_eqb_true a : forall b, str_eqb a b = true -> a = b.
Proof.
  induction a as [|x a IH]; intros [|y b] H; cbn in H; try discriminate; [reflexivity|].
  apply andb_true_iff in H. destruct H as [H1 H2]. apply Ascii.eqb_eq in H1. rewrite H1, (IH b H2). reflexivity.
Qed.
Lemma mem_false s l : ~ In s l -> mem s l = false.
Proof.
  intros H. destruct (mem s l) eqn:E; [|reflexivity]. exfalso. apply H. unfold mem in E. apply existsb_exists in E.
  destruct E as [x [HI Hx]]. apply str_eqb_true in Hx. subst. exact HI.
Qed.
Lemma leaves_flat fuel E aliases x l : Leaves x l -> PlainSrc aliases x ->
  mapM (src_text fuel E aliases) (flat x) = Ok l.
Proof.
  intros L. induction L as [s|t| |x r a b L1 IH1 L2 IH2]; intros P.
  - inversion P as [z Hd Ha| |]; subst. cbn [flat mapM src_text]. rewrite (mem_false s aliases Ha).
    unfold subst. rewrite (no_dollar s Hd). reflexivity.
  - reflexivity.
  - reflexivity.
  - inversion P as [ | |z HP]; subst.
    assert (P1 : PlainSrc aliases x) by (apply HP; left; reflexivity).
    assert (P2 : PlainSrc aliases (SrcList r)) by (constructor; intros y Hy; apply HP; right; exact Hy).
    specialize (IH1 P1). specialize (IH2 P2). cbn [flat flat_map] in *.
    clear -IH1 IH2. revert a IH1. generalize (flat x) as fx. induction fx as [|y fx IH]; intros a IH1.
    + cbn [mapM] in IH1. injection IH1 as <-. exact IH2.
    + cbn [mapM app] in *. destruct (src_text fuel E aliases y) as [t| |]; cbn [bind] in *; try discriminate.
      destruct (mapM (src_text fuel E aliases) fx) as [ts| |] eqn:M; cbn [bind] in *; try discriminate.
      injection IH1 as <-. rewrite (IH ts eq_refl). reflexivity.
Qed.
Definition strs (d : list (text * text)) : list (str * tval) := map (fun kv => (fst kv, TvStr (snd kv))) d.
Lemma make_subs_plain fuel T d : (te_dict T = Some (SDict (strs d)) \/ te_dict T = Some (SSeq (strs d))) ->
  Forall (fun kv => ~ In "$"%char (snd kv)) d -> make_subs fuel T = Ok d.
Proof.
  intros Hd F. unfold make_subs.
  assert (Q : mapM (fun kv => bind (value_text fuel (full_env T) (snd kv)) (fun v => Ok (fst kv, v))) (strs d) = Ok d).
  { clear Hd. induction F as [|[k v] d Hv F IH]; [reflexivity|]. cbn [strs map fst snd mapM value_text].
    unfold subst at 1. rewrite (no_dollar v Hv). cbn [bind]. fold (strs d).
    change (mapM _ (strs d)) with (mapM (fun kv => bind (value_text fuel (full_env T) (snd kv)) (fun w => Ok (fst kv, w))) (strs d)).
    rewrite IH. reflexivity. }
  destruct Hd as [-> | ->]; cbn [pairs]; exact Q.
Qed.

(* C74e: what is written *)
Theorem C74e_written : forall fuel T aliases srcs lines d,
  Leaves (SrcList srcs) lines -> PlainSrc aliases (SrcList srcs) ->
  (te_dict T = None /\ d = []
   \/ (te_dict T = Some (SDict (strs d)) \/ te_dict T = Some (SSeq (strs d))) /\ Forall (fun kv => ~ In "$"%char (snd kv)) d) ->
  exists t, textfile fuel T aliases 1 srcs = Ok t
    /\ Joined (match te_sep T with Some s => s | None => [ascii_of_nat 10] end) (map (do_subst d) lines) t.
Proof.
  intros fuel T aliases srcs lines d L P Hd. unfold textfile. cbn [Nat.eqb].
  pose proof (leaves_flat fuel (full_env T) aliases (SrcList srcs) lines L P) as M.
  change (flat (SrcList srcs)) with (flat_map flat srcs) in M. rewrite M. cbn [bind]. unfold action_text.
  assert (Ms : make_subs fuel T = Ok d).
  { destruct Hd as [[H1 H2]|[H1 H2]].
    - unfold make_subs. rewrite H1, H2. reflexivity.
    - apply make_subs_plain; assumption. }
  rewrite Ms. cbn [bind]. eexists. split; [reflexivity|]. apply write_lines_joined.
Qed.
Theorem C74e_one_target : forall fuel T aliases n srcs t, textfile fuel T aliases n srcs = Ok t -> n = 1.
Proof.
  intros fuel T aliases n srcs t H. unfold textfile in H. destruct (n =? 1) eqn:E; [apply Nat.eqb_eq; exact E | discriminate].
Qed.
Print Assumptions C74a_replace.
Print Assumptions C74a_unique.
Print Assumptions C74b_untouched.
Print Assumptions C74c_template.
Print Assumptions C74d_order.
Print Assumptions C74e_written.
Print Assumptions C74e_one_target.
