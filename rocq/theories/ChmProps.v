(* C72: Chmod(). *)
From Coq Require Import Ascii String List Bool Arith NArith Lia.
Import ListNotations.
From Verif Require Import NameModel ChmModel ChmSpec.
Open Scope list_scope.

(* ---- strings ---- *)
Lemma split_none : forall c b, (forall x, In x b -> Ascii.eqb x c = false) -> split_on c b = [b].
Proof.
  intros c b; induction b as [| x b IH]; intros H; [reflexivity |]. cbn [split_on].
  rewrite (H x (or_introl eq_refl)), (IH (fun y Hy => H y (or_intror Hy))). reflexivity.
Qed.
Lemma split_app : forall c a b, (forall x, In x a -> Ascii.eqb x c = false) -> split_on c (a ++ c :: b) = a :: split_on c b.
Proof.
  intros c a b; induction a as [| x a IH]; intros H; cbn [app split_on].
  - rewrite Ascii.eqb_refl. reflexivity.
  - rewrite (H x (or_introl eq_refl)), (IH (fun y Hy => H y (or_intror Hy))). reflexivity.
Qed.
Lemma split_join : forall c t, exists l, split_on c t = l /\ l <> [].
Proof.
  intros c t. exists (split_on c t). split; [reflexivity |].
  destruct t as [| x t]; cbn [split_on]; [discriminate |].
  destruct (Ascii.eqb x c); [discriminate |]. destruct (split_on c t); discriminate.
Qed.

Definition lower (f : ascii -> bool) (t : list ascii) : Prop := forall x, In x t -> f x = false.
Lemma lstrip_none : forall t, lower white t -> lstrip t = t.
Proof. intros [| c t] H; [reflexivity |]. cbn [lstrip]. rewrite (H c (or_introl eq_refl)). reflexivity. Qed.
Lemma strip_none : forall t, lower white t -> strip t = t.
Proof.
  intros t H. unfold strip. rewrite (lstrip_none t H), (lstrip_none (rev t)), rev_involutive; [reflexivity |].
  intros x Hx. apply H. apply in_rev. exact Hx.
Qed.
Lemma mem_false : forall c t, (forall x, In x t -> Ascii.eqb c x = false) -> mem c t = false.
Proof.
  intros c t H. unfold mem. induction t as [| x t IH]; [reflexivity |]. cbn [existsb].
  rewrite (H x (or_introl eq_refl)). apply IH. intros y Hy. apply H. right. exact Hy.
Qed.
Lemma mem_app : forall c a b, mem c (a ++ b) = mem c a || mem c b.
Proof. intros c a b. unfold mem. apply existsb_app. Qed.

Lemma in_who : forall ws x, In x (map show_who ws) -> x = "u"%char \/ x = "g"%char \/ x = "o"%char \/ x = "a"%char.
Proof.
  intros ws x H. apply in_map_iff in H. destruct H as [w [<- _]]. destruct w as [[] |]; cbn [show_who]; tauto.
Qed.
Lemma in_perm : forall ps x, In x (map show_perm ps) -> x = "r"%char \/ x = "w"%char \/ x = "x"%char.
Proof. intros ps x H. apply in_map_iff in H. destruct H as [w [<- _]]. destruct w; cbn [show_perm]; tauto. Qed.

(* ---- the bits ---- *)
Definition classes (ws : list who) : list cls := flat_map (fun w => match w with Cls c => [c] | All => [U; G; O] end) ws.
Definition letter (c : cls) : ascii := show_who (Cls c).
Lemma all_users_who : forall ws, all_users (map show_who ws) = map letter (classes ws).
Proof.
  induction ws as [| w ws IH]; [reflexivity |]. unfold all_users, classes in *. cbn [map flat_map]. rewrite map_app, <- IH.
  destruct w as [[] |]; reflexivity.
Qed.
Lemma dic_bit : forall c p, permission_dic (letter c) (show_perm p) = Some (2 ^ bit c p)%N.
Proof. intros [] []; reflexivity. Qed.
Lemma perms_bits : forall c ps acc, exists n, perms_of (letter c) (map show_perm ps) acc = Some n /\
  forall j, N.testbit n j = N.testbit acc j || existsb (fun p => N.eqb (bit c p) j) ps.
Proof.
  intros c ps; induction ps as [| p ps IH]; intros acc; cbn [map perms_of existsb].
  - exists acc. split; [reflexivity |]. intros j. rewrite orb_false_r. reflexivity.
  - rewrite dic_bit. destruct (IH (N.lor acc (2 ^ bit c p))) as [n [E Hn]]. exists n. split; [exact E |].
    intros j. rewrite Hn, N.lor_spec, N.pow2_bits_eqb, orb_assoc. reflexivity.
Qed.
Lemma new_bits : forall cs ps acc, exists n, new_perm (map letter cs) (map show_perm ps) acc = Some n /\
  forall j, N.testbit n j = N.testbit acc j || existsb (fun c => existsb (fun p => N.eqb (bit c p) j) ps) cs.
Proof.
  intros cs ps; induction cs as [| c cs IH]; intros acc; cbn [map new_perm existsb].
  - exists acc. split; [reflexivity |]. intros j. rewrite orb_false_r. reflexivity.
  - destruct (perms_bits c ps acc) as [n [E Hn]]. rewrite E. destruct (IH n) as [m [E2 Hm]]. exists m. split; [exact E2 |].
    intros j. rewrite Hm, Hn, orb_assoc. reflexivity.
Qed.
Lemma bit_eqb : forall c p d q, N.eqb (bit c p) (bit d q) = cls_eqb c d && perm_eqb q p.
Proof. intros [] [] [] []; reflexivity. Qed.
Lemma bit_small : forall c p, (bit c p < 9)%N.
Proof. intros [] []; reflexivity. Qed.
Lemma bit_low : forall c p j, (9 <= j)%N -> N.eqb (bit c p) j = false.
Proof. intros c p j H. apply N.eqb_neq. pose proof (bit_small c p). lia. Qed.
Lemma existsb_const : forall (A : Type) (f : A -> bool) l, (forall x, f x = false) -> existsb f l = false.
Proof. intros A f l H. induction l as [| x l IH]; [reflexivity |]. cbn [existsb]. rewrite H. exact IH. Qed.
Lemma existsb_perms : forall c d q ps, existsb (fun p => N.eqb (bit c p) (bit d q)) ps = cls_eqb c d && names_perm ps q.
Proof.
  intros c d q ps. unfold names_perm. induction ps as [| p ps IH]; cbn [existsb]; [rewrite andb_false_r; reflexivity |].
  rewrite IH, bit_eqb. destruct (cls_eqb c d), (perm_eqb q p); reflexivity.
Qed.
Lemma existsb_classes : forall ws ps d q, existsb (fun c => existsb (fun p => N.eqb (bit c p) (bit d q)) ps) (classes ws) = names_cls ws d && names_perm ps q.
Proof.
  intros ws ps d q. unfold names_cls, classes. induction ws as [| w ws IH]; cbn [flat_map existsb]; [reflexivity |].
  rewrite existsb_app, IH. destruct w as [c |]; cbn [existsb]; rewrite ?existsb_perms.
  - destruct (cls_eqb c d), (names_perm ps q); cbn [orb andb]; rewrite ?orb_true_r, ?andb_true_r, ?andb_false_r; reflexivity.
  - destruct d, (names_perm ps q); cbn [cls_eqb orb andb]; rewrite ?orb_true_r, ?andb_true_r, ?andb_false_r; reflexivity.
Qed.

(* one clause is read as it is written *)
Lemma parse_clause : forall k, exists n, parse (show_clause k) = Some (show_op (op_ k), n) /\
  (forall c p, N.testbit n (bit c p) = names_cls (who_ k) c && names_perm (perms k) p) /\
  (forall j, (9 <= j)%N -> N.testbit n j = false).
Proof.
  intros [ws o ps]. unfold show_clause. cbn [who_ op_ perms].
  destruct (new_bits (classes ws) ps 0) as [n [E Hn]]. exists n.
  assert (HW : forall c x, In x (map show_who ws) -> c = "="%char \/ c = "+"%char \/ c = "-"%char -> Ascii.eqb c x = false /\ Ascii.eqb x c = false).
  { intros c x Hx Hc. apply in_who in Hx. destruct Hc as [-> | [-> | ->]], Hx as [-> | [-> | [-> | ->]]]; split; reflexivity. }
  assert (HP : forall c x, In x (map show_perm ps) -> c = "="%char \/ c = "+"%char \/ c = "-"%char -> Ascii.eqb c x = false /\ Ascii.eqb x c = false).
  { intros c x Hx Hc. apply in_perm in Hx. destruct Hc as [-> | [-> | ->]], Hx as [-> | [-> | ->]]; split; reflexivity. }
  assert (HO : operator (map show_who ws ++ show_op o :: map show_perm ps) = Some (show_op o)).
  { assert (M : forall c, c = "="%char \/ c = "+"%char \/ c = "-"%char -> mem c (map show_who ws ++ show_op o :: map show_perm ps) = Ascii.eqb c (show_op o)).
    { intros c Hc. rewrite mem_app. rewrite (mem_false c (map show_who ws)) by (intros x Hx; apply (HW c x Hx Hc)).
      change (show_op o :: map show_perm ps) with ([show_op o] ++ map show_perm ps). rewrite mem_app.
      rewrite (mem_false c (map show_perm ps)) by (intros x Hx; apply (HP c x Hx Hc)). cbn [mem existsb orb]. rewrite !orb_false_r. reflexivity. }
    unfold operator. rewrite !M by tauto. destruct o; reflexivity. }
  assert (Ho : show_op o = "="%char \/ show_op o = "+"%char \/ show_op o = "-"%char) by (destruct o; cbn [show_op]; tauto).
  split; [| split].
  - unfold parse. rewrite HO, split_app by (intros x Hx; apply (HW _ x Hx Ho)).
    rewrite split_none by (intros x Hx; apply (HP _ x Hx Ho)).
    rewrite !strip_none, all_users_who, E; [reflexivity | |].
    + intros x Hx. apply in_perm in Hx. destruct Hx as [-> | [-> | ->]]; reflexivity.
    + intros x Hx. apply in_who in Hx. destruct Hx as [-> | [-> | [-> | ->]]]; reflexivity.
  - intros c p. rewrite Hn, N.bits_0, existsb_classes. reflexivity.
  - intros j Hj. rewrite Hn, N.bits_0. cbn [orb]. apply existsb_const. intros c. apply existsb_const. intros p. apply bit_low. exact Hj.
Qed.

Lemma clause_no_comma : forall k x, In x (show_clause k) -> Ascii.eqb x "," = false.
Proof.
  intros [ws o ps] x H. unfold show_clause in H. cbn [who_ op_ perms] in H. apply in_app_or in H. destruct H as [H | [<- | H]].
  - apply in_who in H. destruct H as [-> | [-> | [-> | ->]]]; reflexivity.
  - destruct o; reflexivity.
  - apply in_perm in H. destruct H as [-> | [-> | ->]]; reflexivity.
Qed.
Lemma split_show : forall ks, ks <> [] -> split_on "," (show ks) = map show_clause ks.
Proof.
  induction ks as [| k ks IH]; intros H; [congruence |]. destruct ks as [| k2 ks].
  - cbn [show map]. apply split_none. apply clause_no_comma.
  - change (show (k :: k2 :: ks)) with (show_clause k ++ ","%char :: show (k2 :: ks)).
    rewrite split_app by apply clause_no_comma. rewrite IH by discriminate. reflexivity.
Qed.
Lemma show_not_number : forall ks, ks <> [] -> forallb is_digit (show ks) = false.
Proof.
  assert (C : forall k, forallb is_digit (show_clause k) = false).
  { intros [ws o ps]. unfold show_clause. cbn [who_ op_ perms]. rewrite forallb_app. cbn [forallb].
    assert (is_digit (show_op o) = false) as -> by (destruct o; reflexivity). rewrite andb_false_r. reflexivity. }
  intros [| k [| k2 ks]] H; [congruence | apply C |].
  change (show (k :: k2 :: ks)) with (show_clause k ++ ","%char :: show (k2 :: ks)). rewrite forallb_app, C. reflexivity.
Qed.

Section Chm.
Variable at_ : list ascii -> option nat.
Variable kind : nat -> N.
Notation files := (nat -> N).
Hypothesis kind_high : forall i, N.land (kind i) 4095 = 0%N.       (* the kind of file is not among the twelve bits *)

Definition named (dest : list (list ascii)) (i : nat) : Prop := exists d, In d dest /\ at_ d = Some i.
Definition present (dest : list (list ascii)) : Prop := forall d, In d dest -> at_ d <> None.
Definition permissions (s : files) : Prop := forall i, N.land (s i) 4095 = s i.

Lemma land_bits : forall a j, N.testbit (N.land a 4095) j = N.testbit a j && (j <? 12)%N.
Proof.
  intros a j. change 4095%N with (N.ones 12). rewrite N.land_spec. f_equal.
  destruct (N.ltb_spec j 12); [apply N.ones_spec_low | apply N.ones_spec_high]; lia.
Qed.
Lemma kind_low : forall i j, (j < 12)%N -> N.testbit (kind i) j = false.
Proof.
  intros i j H. assert (E := land_bits (kind i) j). rewrite kind_high, N.bits_0 in E.
  apply N.ltb_lt in H. rewrite H, andb_true_r in E. congruence.
Qed.
Lemma perm_high : forall (s : files), permissions s -> forall i j, (12 <= j)%N -> N.testbit (s i) j = false.
Proof. intros s H i j Hj. rewrite <- (H i), land_bits. apply N.ltb_ge in Hj. rewrite Hj, andb_false_r. reflexivity. Qed.

(* the result of one operation, for a file that is named *)
Definition one (o : ascii) (n m : N) : N := N.land (combine o m n) 4095.
Lemma one_kind : forall o n i (s : files), N.land (combine o (st_mode kind i s) n) 4095 = one o n (s i).
Proof.
  intros o n i s. unfold one, st_mode. apply N.bits_inj. intros j. rewrite !land_bits. destruct (N.ltb_spec j 12) as [L | L]; [| rewrite !andb_false_r; reflexivity].
  rewrite !andb_true_r. unfold combine. destruct (Ascii.eqb o "="); [reflexivity |].
  destruct (Ascii.eqb o "+"); rewrite ?N.lor_spec, ?N.ldiff_spec, ?N.lor_spec, (kind_low i j L); reflexivity.
Qed.
Lemma one_one : forall o n m, one o n (one o n m) = one o n m.
Proof.
  intros o n m. unfold one. apply N.bits_inj. intros j. rewrite !land_bits. destruct (N.ltb_spec j 12) as [L | L]; [| rewrite !andb_false_r; reflexivity].
  rewrite !andb_true_r. unfold combine. destruct (Ascii.eqb o "="); [reflexivity |].
  assert (E : (j <? 12)%N = true) by (apply N.ltb_lt; exact L).
  destruct (Ascii.eqb o "+"); rewrite ?N.lor_spec, ?N.ldiff_spec, ?land_bits, ?N.lor_spec, ?N.ldiff_spec, E, andb_true_r; destruct (N.testbit m j), (N.testbit n j); reflexivity.
Qed.

Lemma apply_all_spec : forall dest o n s, present dest -> exists s', apply_all at_ kind dest o n s = Done s' /\
  (forall i, named dest i -> s' i = one o n (s i)) /\ (forall i, ~ named dest i -> s' i = s i).
Proof.
  induction dest as [| d dest IH]; intros o n s HP; cbn [apply_all].
  - exists s. split; [reflexivity |]. split; [| reflexivity]. intros i [d [[] _]].
  - destruct (at_ d) as [i0 |] eqn:Ed; [| exfalso; exact (HP d (or_introl eq_refl) Ed)].
    destruct (IH o n (os_chmod i0 (combine o (st_mode kind i0 s) n) s) (fun x Hx => HP x (or_intror Hx))) as [s' [E [HN HO]]].
    assert (D : forall i, named dest i \/ ~ named dest i).
    { intros i. clear. induction dest as [| d dest IH]; [right; intros [d [[] _]] |].
      destruct IH as [[x [Hx Ex]] | IH]; [left; exists x; split; [right |]; assumption |].
      destruct (at_ d) as [j |] eqn:Ed.
      - destruct (Nat.eq_dec j i) as [-> | N]; [left; exists d; split; [left; reflexivity | exact Ed] |].
        right. intros [x [[-> | Hx] Ex]]; [rewrite Ed in Ex; injection Ex as Ex; congruence |]. apply IH. exists x. split; assumption.
      - right. intros [x [[-> | Hx] Ex]]; [congruence |]. apply IH. exists x. split; assumption. }
    exists s'. split; [exact E |]. split.
    + intros i Hi. destruct (D i) as [Y | Y].
      * rewrite (HN i Y). unfold os_chmod. destruct (i =? i0) eqn:Ei; [| reflexivity].
        apply Nat.eqb_eq in Ei. subst i. rewrite one_kind. apply one_one.
      * rewrite (HO i Y). destruct Hi as [x [[<- | Hx] Ex]]; [| exfalso; apply Y; exists x; split; assumption].
        assert (i0 = i) by congruence. subst i0. unfold os_chmod. rewrite Nat.eqb_refl. apply one_kind.
    + intros i Hi. rewrite HO; [unfold os_chmod; destruct (i =? i0) eqn:Ei; [| reflexivity] |].
      * apply Nat.eqb_eq in Ei. subst i. exfalso. apply Hi. exists d. split; [left; reflexivity | exact Ed].
      * intros [x [Hx Ex]]. apply Hi. exists x. split; [right; exact Hx | exact Ex].
Qed.

Definition whole (k : clause) : Prop := op_ k = Set_ -> forall c, names_cls (who_ k) c = true.
Lemma one_effect : forall k n m, whole k ->
  (forall c p, N.testbit n (bit c p) = names_cls (who_ k) c && names_perm (perms k) p) -> (forall j, (9 <= j)%N -> N.testbit n j = false) ->
  (forall c p, N.testbit (one (show_op (op_ k)) n m) (bit c p) = clause_effect k c p (N.testbit m (bit c p))) /\
  (forall j, (9 <= j < 12)%N -> N.testbit (one (show_op (op_ k)) n m) j = match op_ k with Set_ => false | _ => N.testbit m j end).
Proof.
  intros k n m HW Hn Hh. split.
  - intros c p. unfold one. rewrite land_bits.
    assert ((bit c p <? 12)%N = true) as -> by (apply N.ltb_lt; pose proof (bit_small c p); lia). rewrite andb_true_r.
    unfold clause_effect. unfold whole in HW. destruct (op_ k); cbn [show_op combine].
    + unfold combine. cbn [Ascii.eqb Bool.eqb andb]. rewrite N.lor_spec, Hn. destruct (names_cls (who_ k) c), (names_perm (perms k) p), (N.testbit m (bit c p)); reflexivity.
    + unfold combine. cbn [Ascii.eqb Bool.eqb andb]. rewrite N.ldiff_spec, Hn. destruct (names_cls (who_ k) c), (names_perm (perms k) p), (N.testbit m (bit c p)); reflexivity.
    + unfold combine. cbn [Ascii.eqb Bool.eqb andb]. rewrite Hn, (HW eq_refl c). reflexivity.
  - intros j Hj. unfold one. rewrite land_bits. assert ((j <? 12)%N = true) as -> by (apply N.ltb_lt; lia). rewrite andb_true_r.
    assert (Z : N.testbit n j = false) by (apply Hh; lia).
    destruct (op_ k); unfold combine; cbn [show_op Ascii.eqb Bool.eqb andb]; rewrite ?N.lor_spec, ?N.ldiff_spec, Z; destruct (N.testbit m j); reflexivity.
Qed.

Lemma operations_spec : forall ks dest s, present dest -> (forall k, In k ks -> whole k) ->
  exists s', operations at_ kind (map show_clause ks) dest s = Done s' /\
  (forall i, named dest i -> (forall c p, N.testbit (s' i) (bit c p) = effect ks c p (N.testbit (s i) (bit c p))) /\
     ((forall k, In k ks -> op_ k <> Set_) -> forall j, (9 <= j < 12)%N -> N.testbit (s' i) j = N.testbit (s i) j)) /\
  (forall i, ~ named dest i -> s' i = s i).
Proof.
  induction ks as [| k ks IH]; intros dest s HP HW; cbn [map operations effect].
  - exists s. split; [reflexivity |]. split; [| reflexivity]. intros i _. split; reflexivity.
  - destruct (parse_clause k) as [n [E [Hn Hh]]]. rewrite E.
    destruct (apply_all_spec dest (show_op (op_ k)) n s HP) as [s1 [E1 [HN HO]]]. rewrite E1.
    destruct (IH dest s1 HP (fun x Hx => HW x (or_intror Hx))) as [s2 [E2 [HN2 HO2]]]. exists s2. split; [exact E2 |]. split.
    + intros i Hi. destruct (HN2 i Hi) as [A B]. destruct (one_effect k n (s i) (HW k (or_introl eq_refl)) Hn Hh) as [F1 F2]. split.
      * intros c p. rewrite A, (HN i Hi), F1. reflexivity.
      * intros NS j Hj. rewrite (B (fun x Hx => NS x (or_intror Hx)) j Hj), (HN i Hi), (F2 j Hj).
        specialize (NS k (or_introl eq_refl)). destruct (op_ k); [reflexivity | reflexivity | congruence].
    + intros i Hi. rewrite (HO2 i Hi). apply HO. exact Hi.
Qed.
End Chm.

(* C72a: a symbolic mode of clauses that each name a class and, if with =, all of them, does what chmod(1) does, to every file of the list, whatever leads to it and however often, and to no other file. *)
Theorem C72a_symbolic : forall at_ kind, (forall i, N.land (kind i) 4095 = 0%N) ->
  forall dest ks s, present at_ dest -> ks <> [] -> (forall k, In k ks -> who_ k <> [] /\ (op_ k = Set_ -> forall c, names_cls (who_ k) c = true)) ->
  exists s', chmod_func at_ kind dest (Str (show ks)) s = Done s' /\
    (forall i, named at_ dest i -> forall c p, N.testbit (s' i) (bit c p) = effect ks c p (N.testbit (s i) (bit c p))) /\
    ((forall k, In k ks -> op_ k <> Set_) -> forall i, named at_ dest i -> forall j, (9 <= j < 12)%N -> N.testbit (s' i) j = N.testbit (s i) j) /\
    (forall i, ~ named at_ dest i -> s' i = s i).
Proof.
  intros at_ kind HK dest ks s HP HN HW. cbn [chmod_func]. rewrite (show_not_number ks HN), (split_show ks HN).
  destruct (operations_spec at_ kind HK ks dest s HP (fun k Hk => proj2 (HW k Hk))) as [s' [E [A B]]].
  exists s'. split; [exact E |]. split; [intros i Hi; apply (A i Hi) |]. split; [intros NS i Hi; apply (A i Hi); exact NS | exact B].
Qed.

(* C72b: a number, or its octal digits in a string, becomes the mode of every file of the list, and of no other. *)
Lemma set_all_spec : forall at_ dest m s, present at_ dest ->
  exists s', set_all at_ dest m s = Done s' /\ (forall i, named at_ dest i -> s' i = N.land m 4095) /\ (forall i, ~ named at_ dest i -> s' i = s i).
Proof.
  intros at_ dest m. induction dest as [| d dest IH]; intros s HP; cbn [set_all].
  - exists s. split; [reflexivity |]. split; [| reflexivity]. intros i [d [[] _]].
  - destruct (at_ d) as [i0 |] eqn:Ed; [| exfalso; exact (HP d (or_introl eq_refl) Ed)].
    destruct (IH (os_chmod i0 m s) (fun x Hx => HP x (or_intror Hx))) as [s' [E [HN HO]]].
    assert (D : forall i, named at_ dest i \/ ~ named at_ dest i).
    { intros i. clear. induction dest as [| d dest IH]; [right; intros [d [[] _]] |].
      destruct IH as [[x [Hx Ex]] | IH]; [left; exists x; split; [right |]; assumption |].
      destruct (at_ d) as [j |] eqn:Ed.
      - destruct (Nat.eq_dec j i) as [-> | N]; [left; exists d; split; [left; reflexivity | exact Ed] |].
        right. intros [x [[-> | Hx] Ex]]; [rewrite Ed in Ex; injection Ex as Ex; congruence |]. apply IH. exists x. split; assumption.
      - right. intros [x [[-> | Hx] Ex]]; [congruence |]. apply IH. exists x. split; assumption. }
    exists s'. split; [exact E |]. split.
    + intros i Hi. destruct (D i) as [Y | Y]; [exact (HN i Y) |].
      rewrite (HO i Y). destruct Hi as [x [[<- | Hx] Ex]]; [| exfalso; apply Y; exists x; split; assumption].
      assert (i0 = i) by congruence. subst i0. unfold os_chmod. rewrite Nat.eqb_refl. reflexivity.
    + intros i Hi. rewrite HO; [unfold os_chmod; destruct (i =? i0) eqn:Ei; [| reflexivity] |].
      * apply Nat.eqb_eq in Ei. subst i. exfalso. apply Hi. exists d. split; [left; reflexivity | exact Ed].
      * intros [x [Hx Ex]]. apply Hi. exists x. split; [right; exact Hx | exact Ex].
Qed.
Lemma digit_code : forall d, d < 8 -> nat_of_ascii (ascii_of_nat (48 + d)) = 48 + d.
Proof. intros d H. apply nat_ascii_embedding. lia. Qed.
Lemma int8_octal : forall ds acc, (forall d, In d ds -> d < 8) -> int8_go acc (show_octal ds) = Some (octal_value acc ds).
Proof.
  induction ds as [| d ds IH]; intros acc H; [reflexivity |]. cbn [show_octal map int8_go octal_value]. unfold digit8. rewrite digit_code by (apply H; left; reflexivity).
  assert (HD : d < 8) by (apply H; left; reflexivity).
  assert ((48 <=? 48 + d) && (48 + d <=? 55) = true) as -> by (apply andb_true_iff; split; apply Nat.leb_le; lia).
  replace (48 + d - 48) with d by lia. apply IH. intros x Hx. apply H. right. exact Hx.
Qed.
Lemma digits_octal : forall ds, (forall d, In d ds -> d < 8) -> forallb is_digit (show_octal ds) = true.
Proof.
  intros ds H. apply forallb_forall. intros x Hx. apply in_map_iff in Hx. destruct Hx as [d [<- Hd]]. unfold is_digit. specialize (H d Hd). rewrite digit_code by exact H.
  apply andb_true_iff. split; apply Nat.leb_le; lia.
Qed.
Theorem C72b_numeric : forall at_ kind dest m s, present at_ dest ->
  (exists s', chmod_func at_ kind dest (Num m) s = Done s' /\ (forall i, named at_ dest i -> s' i = N.land m 4095) /\ (forall i, ~ named at_ dest i -> s' i = s i)) /\
  (forall ds, ds <> [] -> (forall d, In d ds -> d < 8) -> octal_value 0 ds = m -> chmod_func at_ kind dest (Str (show_octal ds)) s = chmod_func at_ kind dest (Num m) s).
Proof.
  intros at_ kind dest m s HP. split; [exact (set_all_spec at_ dest m s HP) |].
    intros ds HN HD HM. cbn [chmod_func]. rewrite (digits_octal ds HD). destruct ds as [| d ds]; [congruence |]. subst m.
    unfold int8. rewrite (int8_octal (d :: ds) 0 HD). destruct (show_octal (d :: ds)) eqn:E; [discriminate E |]. reflexivity.
Qed.

(* C72c: whatever the mode and whatever happens, no file that is not in the list is changed; and if a mode is not understood, what has been done is what its clauses before the first wrong one do. *)
Definition state_of (o : outcome) : nat -> N := match o with Done s | SyntaxError_ s | OSError_ s | ValueError_ s => s end.
Lemma apply_others : forall at_ kind dest o n s i, ~ named at_ dest i -> state_of (apply_all at_ kind dest o n s) i = s i.
Proof.
  intros at_ kind dest o n. induction dest as [| d dest IH]; intros s i Hi; cbn [apply_all]; [reflexivity |].
  destruct (at_ d) as [i0 |] eqn:Ed; [| reflexivity]. rewrite IH.
  - unfold os_chmod. destruct (i =? i0) eqn:Ei; [| reflexivity]. apply Nat.eqb_eq in Ei. subst i. exfalso. apply Hi. exists d. split; [left; reflexivity | exact Ed].
  - intros [x [Hx Ex]]. apply Hi. exists x. split; [right; exact Hx | exact Ex].
Qed.
Lemma set_others : forall at_ dest m s i, ~ named at_ dest i -> state_of (set_all at_ dest m s) i = s i.
Proof.
  intros at_ dest m. induction dest as [| d dest IH]; intros s i Hi; cbn [set_all]; [reflexivity |].
  destruct (at_ d) as [i0 |] eqn:Ed; [| reflexivity]. rewrite IH.
  - unfold os_chmod. destruct (i =? i0) eqn:Ei; [| reflexivity]. apply Nat.eqb_eq in Ei. subst i. exfalso. apply Hi. exists d. split; [left; reflexivity | exact Ed].
  - intros [x [Hx Ex]]. apply Hi. exists x. split; [right; exact Hx | exact Ex].
Qed.
Theorem C72c_only_named : forall at_ kind dest m s i, ~ named at_ dest i -> state_of (chmod_func at_ kind dest m s) i = s i.
Proof.
  intros at_ kind dest m s i Hi. destruct m as [m | t]; cbn [chmod_func]; [apply set_others; exact Hi |].
  destruct (forallb is_digit t); [destruct (int8 t); [apply set_others; exact Hi | reflexivity] |].
  revert s. induction (split_on "," t) as [| c ops IH]; intros s; cbn [operations]; [reflexivity |].
  destruct (parse c) as [[o n] |]; [| reflexivity].
  assert (A := apply_others at_ kind dest o n s i Hi). destruct (apply_all at_ kind dest o n s) as [s1 | s1 | s1 | s1]; cbn [state_of] in *; try exact A.
  rewrite IH. exact A.
Qed.

Lemma apply_no_syntax : forall at_ kind dest o n s s', apply_all at_ kind dest o n s <> SyntaxError_ s'.
Proof. intros at_ kind dest o n. induction dest as [| d dest IH]; intros s s'; cbn [apply_all]; [discriminate |]. destruct (at_ d); [apply IH | discriminate]. Qed.
Theorem C72d_not_understood : forall at_ kind dest t s s', chmod_func at_ kind dest (Str t) s = SyntaxError_ s' ->
  exists before bad after, split_on "," t = before ++ bad :: after /\ parse bad = None /\ operations at_ kind before dest s = Done s' /\
    (forall k, bad <> show_clause k).
Proof.
  intros at_ kind dest t s s' H. cbn [chmod_func] in H. destruct (forallb is_digit t).
  - destruct (int8 t); [| discriminate H]. exfalso. revert s H. induction dest as [| d dest IH]; intros s H; cbn [set_all] in H; [discriminate H |]. destruct (at_ d); [exact (IH _ H) | discriminate H].
  - revert s H. induction (split_on "," t) as [| c ops IH]; intros s H; cbn [operations] in H; [discriminate H |].
    destruct (parse c) as [[o n] |] eqn:Ec.
    + destruct (apply_all at_ kind dest o n s) as [s1 | s1 | s1 | s1] eqn:Ea; try discriminate H.
      * destruct (IH s1 H) as [b [x [a [E1 [E2 [E3 E4]]]]]]. exists (c :: b), x, a. split; [rewrite E1; reflexivity |]. split; [exact E2 |]. split; [| exact E4].
        cbn [operations]. rewrite Ec, Ea. exact E3.
      * exfalso. exact (apply_no_syntax _ _ _ _ _ _ _ Ea).
    + injection H as <-. exists [], c, ops. split; [reflexivity |]. split; [exact Ec |]. split; [reflexivity |].
      intros k Ek. destruct (parse_clause k) as [n [E _]]. subst c. congruence.
Qed.

Print Assumptions C72a_symbolic.
Print Assumptions C72b_numeric.
Print Assumptions C72c_only_named.
Print Assumptions C72d_not_understood.
