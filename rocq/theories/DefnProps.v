(* C59: CPPDEFINES.  Everything is said in terms of the macros that appear on the command line: processDefines v = Ok l. *)
From Coq Require Import Ascii String List Bool Arith Lia Permutation ZArith.
Import ListNotations.
From Verif Require Import NameModel NameProps FlagModel FlagSpec FlagProps FlagProps2 FlagProps3 FlagProps4.
Open Scope list_scope.

(* the texts of an entry, [] when it is in error *)
Definition txt (e : pv) : list str := match macros_of_entry e with Ok t => t | Err _ => [] end.
Definition valid (e : pv) : Prop := exists t, macros_of_entry e = Ok t.
Definition texts (q : list pv) : list str := flat_map txt q.
Lemma valid_txt : forall e, valid e -> macros_of_entry e = Ok (txt e).
Proof. intros e (t & H). unfold txt. rewrite H. reflexivity. Qed.
Lemma mapM_inv : forall (A B : Type) (f : A -> res B) l r, mapM f l = Ok r -> Forall2 (fun x y => f x = Ok y) l r.
Proof.
  induction l as [|x l IH]; intros r H; cbn [mapM] in H; [injection H as <-; constructor|].
  destruct (f x) as [y|e] eqn:E; [|discriminate]. cbn [bind] in H. destruct (mapM f l) as [ys|e] eqn:E2; [|discriminate]. cbn [bind] in H. injection H as <-.
  constructor; [exact E | apply IH; reflexivity].
Qed.
Lemma entries : forall l r, mapM macros_of_entry l = Ok r <-> Forall valid l /\ r = map txt l.
Proof.
  intros l r. split.
  - intros H. apply mapM_inv in H. induction H as [|x y l r E H [I1 I2]]; [split; [constructor | reflexivity]|].
    split; [constructor; [exists y; exact E | exact I1]|]. cbn [map]. unfold txt at 1. rewrite E, I2. reflexivity.
  - intros [H ->]. apply mapM_ok. intros x Hx. apply valid_txt. rewrite Forall_forall in H. apply H. exact Hx.
Qed.
Lemma shown_deque : forall q b, processDefines (PDeque q) = Ok b <-> Forall valid q /\ b = texts q.
Proof.
  intros q b. cbn [processDefines]. split.
  - destruct (mapM macros_of_entry q) as [ll|e] eqn:E; [|discriminate]. cbn [bind]. intros H. injection H as <-. apply entries in E. destruct E as [H ->].
    split; [exact H|]. unfold texts. rewrite flat_map_concat_map. reflexivity.
  - intros [H ->]. rewrite (proj2 (entries q (map txt q))) by (split; [exact H | reflexivity]). cbn [bind]. unfold texts. rewrite flat_map_concat_map. reflexivity.
Qed.
Lemma texts_app : forall a b, texts (a ++ b) = texts a ++ texts b.
Proof. intros. apply flat_map_app. Qed.

(* ---- the entries a value stands for ---- *)
Definition container (v : pv) : Prop := match v with PNone | PInt _ | PFile _ => False | _ => True end.
Definition pieces (v : pv) : list pv :=
  match v with
  | PStr s => map PStr (py_split s) | PDict d => dict_items d | PTuple [x] => [PTuple [x; PNone]] | PTuple l => [PTuple l] | PList l | PCL l | PDeque l => l
  | _ => []
  end.
Lemma words_valid : forall ws, Forall valid (map PStr ws) /\ texts (map PStr ws) = ws.
Proof. induction ws as [|w ws [I1 I2]]; [split; [constructor | reflexivity]|]. split; [constructor; [eexists; reflexivity | exact I1]|]. cbn. f_equal. exact I2. Qed.
Lemma dict_item_text : forall kv t, macro_of_item kv = Ok t -> macros_of_entry (PTuple [PStr (fst kv); snd kv]) = Ok [t].
Proof.
  intros [k v] t H. unfold macro_of_item in H. cbn [fst snd] in *. cbn [macros_of_entry macro_of_seq py_str bind].
  destruct v; cbn [py_str bind] in *; try discriminate; injection H as <-; reflexivity.
Qed.
Lemma dict_valid : forall d b, mapM macro_of_item d = Ok b -> Forall valid (dict_items d) /\ texts (dict_items d) = b.
Proof.
  intros d b H. apply mapM_inv in H. induction H as [|kv t d b E H [I1 I2]]; [split; [constructor | reflexivity]|].
  apply dict_item_text in E. split; [constructor; [eexists; exact E | exact I1]|]. change (texts (dict_items (kv :: d))) with (txt (PTuple [PStr (fst kv); snd kv]) ++ texts (dict_items d)).
  unfold txt. rewrite E, I2. reflexivity.
Qed.
Lemma macro_seq_scalar : forall l t, macro_of_seq l = Ok t -> exists a b, pieces (PTuple l) = [PTuple [a; b]] /\ is_scalar a = true /\ is_scalar b = true /\ macros_of_entry (PTuple [a; b]) = Ok [t] /\ length l <= 2 /\
  match (match l with [x] => [x; PNone] | _ => l end) with [a'; b'] => a' = a /\ b' = b | _ => False end.
Proof.
  intros l t H. destruct l as [|a [|b [|c l]]]; cbn [macro_of_seq] in H; try discriminate.
  - exists a, PNone. split; [reflexivity|]. split; [destruct a; try reflexivity; discriminate|]. split; [reflexivity|]. cbn [macros_of_entry macro_of_seq]. rewrite H. cbn. split; [reflexivity|]. split; [lia|]. split; reflexivity.
  - assert (Ha : is_scalar a = true) by (destruct a; try reflexivity; destruct b; discriminate).
    assert (Hb : is_scalar b = true) by (destruct b; try reflexivity; destruct a; discriminate).
    exists a, b. split; [reflexivity|]. split; [exact Ha|]. split; [exact Hb|]. cbn [macros_of_entry macro_of_seq]. rewrite H. cbn. split; [reflexivity|]. split; [lia|]. split; reflexivity.
  - destruct b; discriminate.
Qed.
Lemma pieces_shown : forall v b, container v -> processDefines v = Ok b -> Forall valid (pieces v) /\ texts (pieces v) = b.
Proof.
  intros v b C H. assert (L : forall l, processDefines (PDeque l) = Ok b -> Forall valid l /\ texts l = b) by (intros l E; apply shown_deque in E; destruct E as [E ->]; auto).
  destruct v as [|s|z|f|l|l|l|l|d]; cbn in C; try contradiction; try (apply L; exact H).
  - cbn in H. injection H as <-. apply words_valid.
  - cbn [processDefines] in H. destruct (macro_of_seq l) as [t|e] eqn:E; [|discriminate]. cbn [bind] in H. injection H as <-.
    destruct (macro_seq_scalar l t E) as (x & y & -> & _ & _ & M & _). split; [constructor; [exists [t]; exact M | constructor]|]. cbn. unfold txt. rewrite M. reflexivity.
  - cbn in H. apply dict_valid. exact H.
Qed.
Lemma deque_shown : forall cur a, container cur -> processDefines cur = Ok a -> exists q, to_deque cur = Ok q /\ Forall valid q /\ texts q = a.
Proof.
  intros v b C H. assert (L : forall l, processDefines (PDeque l) = Ok b -> Forall valid l /\ texts l = b) by (intros l E; apply shown_deque in E; destruct E as [E ->]; auto).
  assert (LD : forall l, processDefines (PDeque l) = Ok b ->
    Forall valid (flat_map (fun x => match x with PDict d => dict_items d | _ => [x] end) l) /\ texts (flat_map (fun x => match x with PDict d => dict_items d | _ => [x] end) l) = b).
  { intros l E. apply L in E. destruct E as [E <-]. clear - E. induction E as [|x l Hx E [I1 I2]]; [split; [constructor | reflexivity]|]. cbn [flat_map].
    assert (K : Forall valid (match x with PDict d => dict_items d | _ => [x] end) /\ texts (match x with PDict d => dict_items d | _ => [x] end) = txt x).
    { assert (D : forall y, valid y -> Forall valid [y] /\ texts [y] = txt y) by (intros y Hy; split; [constructor; [exact Hy | constructor] | cbn; apply app_nil_r]).
      destruct x; try (apply D; exact Hx). destruct Hx as (t & Ht). unfold txt. rewrite Ht. apply dict_valid. exact Ht. }
    destruct K as [K1 K2]. split; [apply Forall_app; split; assumption|]. rewrite texts_app, K2, I2. reflexivity. }
  destruct v as [|s|z|f|l|l|l|l|d]; cbn in C; try contradiction; cbn [to_deque].
  - cbn in H. injection H as <-. eexists. split; [reflexivity|]. apply words_valid.
  - cbn [processDefines] in H. destruct (macro_of_seq l) as [t|e] eqn:E; [|discriminate]. cbn [bind] in H. injection H as <-.
    destruct (macro_seq_scalar l t E) as (x & y & _ & _ & _ & M & Ln & _). replace (2 <? length l) with false by (symmetry; apply Nat.ltb_ge; exact Ln).
    exists [PTuple l]. split; [reflexivity|]. assert (M2 : macros_of_entry (PTuple l) = Ok [t]) by (cbn [macros_of_entry]; rewrite E; reflexivity).
    split; [constructor; [eexists; exact M2 | constructor]|]. cbn. unfold txt. rewrite M2. reflexivity.
  - eexists. split; [reflexivity|]. apply LD. exact H.
  - eexists. split; [reflexivity|]. apply LD. exact H.
  - exists l. split; [reflexivity|]. apply L. exact H.
  - eexists. split; [reflexivity|]. cbn in H. apply dict_valid. exact H.
Qed.
(* adding = turning into a deque, and adding the pieces one after the other, or all at once for a list *)
Definition all_at_once (v : pv) : bool := match v with PList _ | PCL _ | PDeque _ => true | _ => false end.
Definition extend (prepend unique del : bool) (q : list pv) (val : pv) : list pv :=
  if all_at_once val then let '(q, tmp) := add_list unique del q [] (pieces val) in if prepend then rev tmp ++ q else q ++ tmp
  else fold_left (add_item prepend unique del) (pieces val) q.
Lemma add_shown : forall cur q val b p u d, to_deque cur = Ok q -> container val -> processDefines val = Ok b -> add_cppdefines (Some cur) val p u d = Ok (PDeque (extend p u d q val)).
Proof.
  intros cur q val b p u d Hq C H. cbn [add_cppdefines]. rewrite Hq. cbn [bind]. unfold extend.
  destruct val as [|s|z|f|l|l|l|l|dd]; cbn in C; try contradiction; cbn [all_at_once pieces]; try reflexivity;
    try (destruct (add_list u d q [] l); destruct p; reflexivity).
  cbn [processDefines] in H. destruct (macro_of_seq l) as [t|e] eqn:E; [|discriminate].
  destruct (macro_seq_scalar l t E) as (x & y & P & Sx & Sy & _ & _ & M).
  destruct (match l with [x0] => [x0; PNone] | _ => l end) as [|a' [|b' [|c' l']]] eqn:El; try contradiction. destruct M as [-> ->].
  rewrite Sx, Sy. cbn [andb]. unfold pieces in P. rewrite P. cbn [fold_left]. reflexivity.
Qed.

(* ---- without unique ---- *)
Lemma add_list_plain : forall l q tmp d, add_list false d q tmp l = (q, tmp ++ l).
Proof. induction l as [|x l IH]; intros q tmp d; cbn [add_list]; [rewrite app_nil_r; reflexivity|]. rewrite IH, <- app_assoc. reflexivity. Qed.
Lemma extend_plain : forall p d q val, extend p false d q val = if p then rev (pieces val) ++ q else q ++ pieces val.
Proof.
  intros p d q val. unfold extend. destruct (all_at_once val).
  - rewrite add_list_plain. reflexivity.
  - generalize (pieces val) as l. intros l. revert q. induction l as [|x l IH]; intros q; cbn [fold_left rev]; [destruct p; [reflexivity | rewrite app_nil_r; reflexivity]|].
    rewrite IH. unfold add_item, add_define. destruct p; rewrite <- app_assoc; reflexivity.
Qed.
(* C59a: a first value is used as it is *)
Theorem C59a_first_value : forall val b p u d, processDefines val = Ok b -> exists n, add_cppdefines None val p u d = Ok n /\ processDefines n = Ok b.
Proof.
  intros val b p u d H. cbn [add_cppdefines]. eexists. split; [reflexivity|]. destruct val as [|s|z|f|l|l|l|l|dd]; try exact H.
  cbn in H. injection H as <-. destruct (words_valid (py_split s)) as [W1 W2]. change (processDefines (PList (map PStr (py_split s)))) with (processDefines (PDeque (map PStr (py_split s)))).
  apply shown_deque. split; [exact W1 | symmetry; exact W2].
Qed.
(* C59b: Append puts the macros after those that were there, all of them, in order *)
Theorem C59b_append : forall cur val a b, container cur -> container val -> processDefines cur = Ok a -> processDefines val = Ok b ->
  exists n, add_cppdefines (Some cur) val false false false = Ok n /\ processDefines n = Ok (a ++ b).
Proof.
  intros cur val a b Cc Cv Ha Hb. destruct (deque_shown cur a Cc Ha) as (q & Hq & Vq & Tq). destruct (pieces_shown val b Cv Hb) as [Vp Tp].
  eexists. split; [apply (add_shown cur q val b); assumption|]. rewrite extend_plain. apply shown_deque. split; [apply Forall_app; auto|]. rewrite texts_app, Tq, Tp. reflexivity.
Qed.
(* C59c: Prepend puts them before, entry by entry: the entries come out in reverse *)
Theorem C59c_prepend : forall cur val a b, container cur -> container val -> processDefines cur = Ok a -> processDefines val = Ok b ->
  exists n ll, add_cppdefines (Some cur) val true false false = Ok n /\ b = concat ll /\ length ll = length (pieces val) /\ processDefines n = Ok (concat (rev ll) ++ a).
Proof.
  intros cur val a b Cc Cv Ha Hb. destruct (deque_shown cur a Cc Ha) as (q & Hq & Vq & Tq). destruct (pieces_shown val b Cv Hb) as [Vp Tp].
  eexists. exists (map txt (pieces val)). split; [apply (add_shown cur q val b); assumption|]. split; [rewrite <- Tp; apply flat_map_concat_map|]. split; [apply map_length|].
  rewrite extend_plain. apply shown_deque. split; [apply Forall_app; split; [apply Forall_rev; exact Vp | exact Vq]|]. rewrite texts_app, Tq. f_equal.
  unfold texts. rewrite flat_map_concat_map, map_rev. reflexivity.
Qed.
Corollary C59c_prepend_one : forall cur val x a b, container cur -> container val -> pieces val = [x] -> processDefines cur = Ok a -> processDefines val = Ok b ->
  exists n, add_cppdefines (Some cur) val true false false = Ok n /\ processDefines n = Ok (b ++ a).
Proof.
  intros cur val x a b Cc Cv Hx Ha Hb. destruct (C59c_prepend cur val a b Cc Cv Ha Hb) as (n & ll & E & -> & Ll & P). exists n. split; [exact E|]. rewrite P.
  rewrite Hx in Ll. destruct ll as [|y [|z ll]]; try discriminate. reflexivity.
Qed.
Lemma perm_concat_rev : forall (ll : list (list str)), Permutation (concat (rev ll)) (concat ll).
Proof.
  induction ll as [|l ll IH]; [constructor|]. cbn [rev concat]. rewrite concat_app. cbn [concat]. rewrite app_nil_r.
  eapply Permutation_trans; [apply Permutation_app_comm|]. apply Permutation_app_head. exact IH.
Qed.
Theorem C59d_nothing_lost : forall cur val a b p, container cur -> container val -> processDefines cur = Ok a -> processDefines val = Ok b ->
  exists n l, add_cppdefines (Some cur) val p false false = Ok n /\ processDefines n = Ok l /\ Permutation l (a ++ b).
Proof.
  intros cur val a b p Cc Cv Ha Hb. destruct p.
  - destruct (C59c_prepend cur val a b Cc Cv Ha Hb) as (n & ll & E & -> & _ & P). exists n. eexists. split; [exact E|]. split; [exact P|].
    eapply Permutation_trans; [apply Permutation_app_comm|]. apply Permutation_app_head. apply perm_concat_rev.
  - destruct (C59b_append cur val a b Cc Cv Ha Hb) as (n & E & P). exists n, (a ++ b). split; [exact E|]. split; [exact P | apply Permutation_refl].
Qed.

(* ---- unique ---- *)
Lemma join_inj_parts : forall s s2, split_on EQC s = split_on EQC s2 -> s = s2.
Proof. intros s s2 H. rewrite <- (join_split s), H. apply join_split. Qed.
Lemma map_PStr_inj : forall a b, map PStr a = map PStr b -> a = b.
Proof. induction a as [|x a IH]; intros [|y b] H; try discriminate; [reflexivity|]. cbn in H. injection H as -> H. f_equal. apply IH. exact H. Qed.
(* what _macro_conv makes of a string *)
Lemma conv_str : forall s, (~ In EQC s /\ macro_conv (PStr s) = PList [PStr s; PNone]) \/
  (exists n v, s = n ++ EQC :: v /\ ~ In EQC n /\ ((~ In EQC v /\ macro_conv (PStr s) = PList [PStr n; PStr v]) \/ exists x y z r, macro_conv (PStr s) = PList (map PStr (x :: y :: z :: r)) /\ split_on EQC s = x :: y :: z :: r)).
Proof.
  intros s. unfold macro_conv. destruct (split_on_eq s) as [[Hn E] | (n & v & -> & Hn & E)]; rewrite E; [left; auto|].
  right. exists n, v. split; [reflexivity|]. split; [exact Hn|]. destruct (split_on_eq v) as [[Hv E2] | (n2 & v2 & -> & Hn2 & E2)]; rewrite E2; [left; split; [exact Hv | reflexivity]|].
  right. destruct (split_on EQC v2) as [|w r] eqn:E3; [destruct (split_on_eq v2) as [[_ E4] | (? & ? & _ & _ & E4)]; congruence|]. exists n, n2, w, r. split; reflexivity.
Qed.
(* the texts of a sequence are those of what _macro_conv makes of it *)
Definition seq_txt (v : pv) : res (list str) := match v with PList l => bind (macro_of_seq l) (fun s => Ok [s]) | _ => macros_of_entry v end.
Lemma conv_text : forall x y, macro_conv x = macro_conv y -> valid x -> valid y -> txt x = txt y.
Proof.
  assert (T : forall s l, macro_conv (PStr s) = PList l -> (exists t, macro_of_seq l = Ok t) -> macro_of_seq l = Ok s).
  { intros s l H (t & Ht). destruct (conv_str s) as [[_ E] | (n & v & -> & _ & [[_ E] | (a & b & c & r & E & _)])]; rewrite E in H; injection H as <-.
    - reflexivity.
    - reflexivity.
    - cbn in Ht. discriminate. }
  intros x y H (t & Hx) (u & Hy). unfold txt. rewrite Hx, Hy.
  assert (SQ : forall v w l, macro_conv v = PList l -> macros_of_entry v = Ok w -> (exists s, v = PStr s) \/ bind (macro_of_seq l) (fun s => Ok [s]) = Ok w).
  { intros v w l E Hw. destruct v; cbn [macro_conv] in E; try discriminate; try (left; eexists; reflexivity); injection E as <-; right; exact Hw. }
  destruct x as [|s|z|f|l|l|l|l|d]; cbn [macro_conv] in H.
  - destruct y as [|s2|z2|f2|l2|l2|l2|l2|d2]; cbn [macro_conv] in H; try discriminate; [congruence|]. destruct (split_on EQC s2) as [|? [|? ?]]; discriminate.
  - fold (macro_conv (PStr s)) in H. cbn in Hx. injection Hx as <-.
    assert (EL : exists l, macro_conv (PStr s) = PList l) by (unfold macro_conv; destruct (split_on EQC s) as [|? [|? ?]]; eexists; reflexivity). destruct EL as (l & EL).
    rewrite EL in H. symmetry in H. destruct (SQ y u l H Hy) as [(s2 & ->) | Hs].
    + cbn in Hy. injection Hy as <-. rewrite <- H in EL. f_equal.
      destruct (conv_str s) as [[_ E] | (n & v & Es & _ & [[_ E] | (a & b & c & r & E & Sp)])]; destruct (conv_str s2) as [[_ E2] | (n2 & v2 & Es2 & _ & [[_ E2] | (a2 & b2 & c2 & r2 & E2 & Sp2)])];
        rewrite E, E2 in EL; try (cbn [map] in EL; congruence).
      apply join_inj_parts. rewrite Sp, Sp2. injection EL as E1 E3 E4 E5. subst. apply map_PStr_inj in E5. subst. reflexivity.
    + destruct (macro_of_seq l) as [t|e] eqn:Em; [|discriminate]. cbn [bind] in Hs. injection Hs as <-. rewrite (T s l EL) in Em; [injection Em as <-; reflexivity | eauto].
  - cbn in Hx. discriminate.
  - cbn in Hx. discriminate.
  - symmetry in H. destruct (SQ y u l H Hy) as [(s2 & ->) | Hs]; [|cbn [macros_of_entry] in Hx; congruence].
    cbn in Hy. injection Hy as <-. cbn [macros_of_entry] in Hx. destruct (macro_of_seq l) as [t2|e] eqn:Em; [|discriminate]. cbn [bind] in Hx. injection Hx as <-.
    rewrite (T s2 l H) in Em; [injection Em as <-; reflexivity | eauto].
  - symmetry in H. destruct (SQ y u l H Hy) as [(s2 & ->) | Hs]; [|cbn [macros_of_entry] in Hx; congruence].
    cbn in Hy. injection Hy as <-. cbn [macros_of_entry] in Hx. destruct (macro_of_seq l) as [t2|e] eqn:Em; [|discriminate]. cbn [bind] in Hx. injection Hx as <-.
    rewrite (T s2 l H) in Em; [injection Em as <-; reflexivity | eauto].
  - destruct y as [|s2|z2|f2|l2|l2|l2|l2|d2]; cbn [macro_conv] in H; try discriminate; [|congruence]. destruct (split_on EQC s2) as [|? [|? ?]]; discriminate.
  - destruct y as [|s2|z2|f2|l2|l2|l2|l2|d2]; cbn [macro_conv] in H; try discriminate; [|congruence]. destruct (split_on EQC s2) as [|? [|? ?]]; discriminate.
  - destruct y as [|s2|z2|f2|l2|l2|l2|l2|d2]; cbn [macro_conv] in H; try discriminate; [|congruence]. destruct (split_on EQC s2) as [|? [|? ?]]; discriminate.
Qed.
Print Assumptions C59a_first_value.
Print Assumptions C59b_append.
Print Assumptions C59c_prepend.
Print Assumptions C59c_prepend_one.
Print Assumptions C59d_nothing_lost.
