(* C52: a clone and its original are independent. *)
From Coq Require Import List Arith Bool Lia.
Import ListNotations.
From Verif Require Import CloneModel.

(* ---- specification ---- *)
(* the value a user sees behind a reference, unfolded to a given depth (opaque objects are seen with their identity) *)
Inductive value := VAtom (v : nat) | VOpaque (r : ref) (state : nat) | VTuple (l : list value) | VList (kind : nat) (l : list value) | VDict (kind : nat) (l : list (key * value)) | VDeep.
Fixpoint view (depth : nat) (h : heap) (r : ref) : value :=
  match depth with
  | 0 => VDeep
  | S d => match nth_error h r with
    | None => VDeep
    | Some (Atom v) => VAtom v
    | Some (Opaque s) => VOpaque r s
    | Some (Tuple l) => VTuple (map (view d h) l)
    | Some (Lst k l) => VList k (map (view d h) l)
    | Some (Dct k l) => VDict k (map (fun kv => (fst kv, view d h (snd kv))) l)
    end
  end.
(* the value of a variable *)
Definition var (depth : nat) (h : heap) (e : env) (k : key) : option value := option_map (view depth h) (lookup e k).
(* objects that can be got at through a reference, through an environment *)
Inductive reach (h : heap) : ref -> ref -> Prop :=
  | r_here r : reach h r r
  | r_in r c x y : nth_error h r = Some c -> In x (elements c) -> reach h x y -> reach h r y.
Definition reaches (h : heap) (roots : list ref) (y : ref) : Prop := exists r, In r roots /\ reach h r y.
Definition mutable (h : heap) (x : ref) : Prop := exists c, nth_error h x = Some c /\ match c with Lst _ _ | Dct _ _ => True | _ => False end.
(* what a script can do with the objects it has got from one environment: make a new object out of them, change a list or dictionary
   in place, assign variables (the roots: variables of the environment and variables of the script that hold such objects) *)
Inductive act : heap * list ref -> heap * list ref -> Prop :=
  | act_new h rs c : (forall x, In x (elements c) -> reaches h rs x) -> act (h, rs) (h ++ [c], length h :: rs)
  | act_change h rs x c h' : reaches h rs x -> mutable h x -> (forall y, In y (elements c) -> reaches h rs y) ->
      nth_error h' x = Some c -> length h' = length h -> (forall y, y <> x -> nth_error h' y = nth_error h y) -> act (h, rs) (h', rs)
  | act_assign h rs rs' : (forall r, In r rs' -> reaches h rs r) -> act (h, rs) (h, rs').
(* nothing dangles; nothing mutable is reachable from both *)
Definition closed (h : heap) (rs : list ref) : Prop := forall r, reaches h rs r -> r < length h.
Definition separate (h : heap) (A B : list ref) : Prop := forall x, reaches h A x -> reaches h B x -> ~ mutable h x.

Section Facts.
Lemma reach_trans h a b c : reach h a b -> reach h b c -> reach h a c.
Proof. induction 1 as [r|r cc x y E I R IH]; intros H; [exact H | eapply r_in; eauto]. Qed.
Lemma reaches_trans h rs x y : reaches h rs x -> reach h x y -> reaches h rs y.
Proof. intros (r & Hr & H) H2. exists r. split; [exact Hr | eapply reach_trans; eassumption]. Qed.
(* views and reachability depend only on the reachable cells *)
Lemma reach_agree h h' r y : (forall z, reach h r z -> nth_error h' z = nth_error h z) -> reach h r y -> reach h' r y.
Proof.
  intros H R. induction R as [r|r c x y E I R IH]; [constructor|]. eapply r_in; [rewrite H; [exact E | constructor] | exact I | apply IH; intros z Hz; apply H; eapply r_in; eassumption].
Qed.
Lemma reach_agree' h h' r y : (forall z, reach h r z -> nth_error h' z = nth_error h z) -> reach h' r y -> reach h r y.
Proof.
  intros H R. induction R as [r|r c x y E I R IH]; [constructor|]. rewrite H in E by constructor. eapply r_in; [exact E | exact I | apply IH; intros z Hz; apply H; eapply r_in; eassumption].
Qed.
Lemma view_agree h h' d : forall r, (forall z, reach h r z -> nth_error h' z = nth_error h z) -> view d h' r = view d h r.
Proof.
  induction d as [|d IH]; intros r H; [reflexivity|]. cbn [view]. rewrite H by constructor. destruct (nth_error h r) as [c|] eqn:E; [|reflexivity].
  assert (G : forall x, In x (elements c) -> view d h' x = view d h x) by (intros x Hx; apply IH; intros z Hz; apply H; eapply r_in; eassumption).
  destruct c as [v|s|l|k l|k l]; cbn [elements] in G; [reflexivity | reflexivity | f_equal; apply map_ext_in, G | f_equal; apply map_ext_in, G|].
  f_equal. apply map_ext_in. intros kv Hk. f_equal. apply G. apply in_map, Hk.
Qed.
Lemma nth_app (h l : heap) (x : ref) : x < length h -> nth_error (h ++ l) x = nth_error h x.
Proof. apply nth_error_app1. Qed.

(* one action through A: B sees no difference and separation is kept *)
Lemma act_step h A B h' A' : closed h A -> closed h B -> separate h A B -> act (h, A) (h', A') ->
  (forall z, reaches h B z -> nth_error h' z = nth_error h z) /\ closed h' A' /\ closed h' B /\ separate h' A' B.
Proof.
  intros CA CB Sp H. inversion H as [h0 rs c Hc E1 E2|h0 rs x c h1 Hx Hm Hc N1 N2 N3 E1 E2|h0 rs rs' Hr E1 E2]; subst; clear H.
  - assert (Ag : forall z, reaches h B z -> nth_error (h ++ [c]) z = nth_error h z) by (intros z Hz; apply nth_app, CB, Hz).
    assert (Rb : forall z, reaches (h ++ [c]) B z -> reaches h B z).
    { intros z (r & Hr & R). exists r. split; [exact Hr|]. apply (reach_agree' h (h ++ [c])); [intros w Hw; apply Ag; exists r; auto | exact R]. }
    assert (Ra0 : forall x z, reaches h A x -> reach (h ++ [c]) x z -> reach h x z).
    { intros x z Hx R. apply (reach_agree' h (h ++ [c])); [|exact R]. intros w Hw. apply nth_app, CA. eapply reaches_trans; eassumption. }
    assert (Ra : forall z, reaches (h ++ [c]) (length h :: A) z -> z = length h \/ reaches h A z).
    { intros z (r & [<-|Hr] & R).
      - inversion R as [r|r c0 x y E I R']; subst; [left; reflexivity|]. right. rewrite nth_error_app2, Nat.sub_diag in E by lia. injection E as <-. specialize (Hc x I).
        eapply reaches_trans; [exact Hc | apply Ra0; assumption].
      - right. assert (Rr : reaches h A r) by (exists r; split; [exact Hr | constructor]). eapply reaches_trans; [exact Rr | apply Ra0; assumption]. }
    split; [exact Ag|]. split; [intros z Hz; rewrite app_length; cbn; destruct (Ra z Hz) as [-> | Hz']; [lia | specialize (CA z Hz'); lia]|].
    split; [intros z Hz; rewrite app_length; cbn; specialize (CB z (Rb z Hz)); lia|].
    intros z Ha Hb (c1 & Ec & Mc). apply Rb in Hb. specialize (CB z Hb). rewrite nth_app in Ec by exact CB. destruct (Ra z Ha) as [-> | Ha']; [lia|]. apply (Sp z Ha' Hb). exists c1. auto.
  - assert (Xb : forall z, reaches h B z -> z <> x) by (intros z Hz ->; apply (Sp x Hx Hz Hm)).
    assert (Ag : forall z, reaches h B z -> nth_error h' z = nth_error h z) by (intros z Hz; apply N3, Xb, Hz).
    assert (Rb : forall z, reaches h' B z -> reaches h B z).
    { intros z (r & Hr & R). exists r. split; [exact Hr|]. apply (reach_agree' h h'); [intros w Hw; apply Ag; exists r; auto | exact R]. }
    assert (Ra0 : forall y z, reaches h A' y -> reach h' y z -> reaches h A' z).
    { intros y z Hy R. induction R as [r|r c0 u v E I R IH]; [exact Hy|]. apply IH. destruct (Nat.eq_dec r x) as [->|Ne].
      - rewrite N1 in E. injection E as <-. apply Hc, I.
      - rewrite N3 in E by exact Ne. eapply reaches_trans; [exact Hy|]. eapply r_in; [exact E | exact I | constructor]. }
    assert (Ra : forall z, reaches h' A' z -> reaches h A' z).
    { intros z (r & Hr & R). apply (Ra0 r z); [exists r; split; [exact Hr | constructor] | exact R]. }
    split; [exact Ag|]. split; [intros z Hz; rewrite N2; apply CA, Ra, Hz|]. split; [intros z Hz; rewrite N2; apply CB, Rb, Hz|].
    intros z Ha Hb (c1 & Ec & Mc). apply Rb in Hb. rewrite Ag in Ec by exact Hb. apply (Sp z (Ra z Ha) Hb). exists c1. auto.
  - assert (Ra : forall z, reaches h' A' z -> reaches h' A z) by (intros z (r & Hr' & R); eapply reaches_trans; [apply Hr, Hr' | exact R]).
    split; [reflexivity|]. split; [intros z Hz; apply CA, Ra, Hz|]. split; [exact CB|]. intros z Ha Hb. apply (Sp z (Ra z Ha) Hb).
Qed.
End Facts.

(* Histories: actions through the first and through the second environment, interleaved; the history says what each saw. *)
Inductive history : heap -> list ref -> list ref -> heap -> list ref -> list ref -> Prop :=
  | h_nil h A B : history h A B h A B
  | h_first h A B h1 A1 h2 A2 B2 : act (h, A) (h1, A1) -> history h1 A1 B h2 A2 B2 -> history h A B h2 A2 B2
  | h_second h A B h1 B1 h2 A2 B2 : act (h, B) (h1, B1) -> history h1 A B1 h2 A2 B2 -> history h A B h2 A2 B2.

Section Copy.
(* everything got at through the list rs exists, and its lists and dictionaries are numbered from n on (they did not exist in a heap of length n) *)
Definition fresh (n : nat) (h : heap) (rs : list ref) : Prop := forall y, reaches h rs y -> y < length h /\ (mutable h y -> n <= y).
Lemma reaches_app h rs1 rs2 y : reaches h (rs1 ++ rs2) y -> reaches h rs1 y \/ reaches h rs2 y.
Proof. intros (r & Hr & R). apply in_app_iff in Hr as [Hr|Hr]; [left|right]; exists r; auto. Qed.
Lemma reaches_incl h rs1 rs2 y : incl rs1 rs2 -> reaches h rs1 y -> reaches h rs2 y.
Proof. intros H (r & Hr & R). exists r. auto. Qed.
Lemma closed_ext_reach (h new : heap) rs y : closed h rs -> reaches (h ++ new) rs y -> reaches h rs y.
Proof.
  intros C (r & Hr & R). exists r. split; [exact Hr|]. apply (reach_agree' h (h ++ new)); [|exact R].
  intros z Hz. apply nth_app, C. exists r. auto.
Qed.
Lemma closed_ext (h new : heap) rs : closed h rs -> closed (h ++ new) rs.
Proof. intros C y Hy. apply closed_ext_reach in Hy; [|exact C]. rewrite app_length. specialize (C y Hy). lia. Qed.
Lemma closed_view (h new : heap) rs d r : closed h rs -> In r rs -> view d (h ++ new) r = view d h r.
Proof. intros C Hr. apply view_agree. intros z Hz. apply nth_app, C. exists r. auto. Qed.
Lemma fresh_closed n h rs : fresh n h rs -> closed h rs.
Proof. intros F y Hy. apply (F y Hy). Qed.
Lemma fresh_ext n (h new : heap) rs : fresh n h rs -> fresh n (h ++ new) rs.
Proof.
  intros F y Hy. apply closed_ext_reach in Hy; [|apply (fresh_closed n), F]. destruct (F y Hy) as (L & M).
  split; [rewrite app_length; lia|]. intros (c & Ec & Mc). apply M. exists c. rewrite nth_app in Ec by exact L. auto.
Qed.
Lemma fresh_weaken n m h rs : n <= m -> fresh m h rs -> fresh n h rs.
Proof. intros Le F y Hy. destruct (F y Hy) as (L & M). split; [exact L|]. intros X. specialize (M X). lia. Qed.

Definition good (cp : heap -> ref -> option (heap * ref)) : Prop := forall h r h' r', closed h [r] -> cp h r = Some (h', r') ->
  exists new, h' = h ++ new /\ (forall d, view d h' r' = view d h r) /\ fresh (length h) h' [r'].
Lemma copy_list_good cp : good cp -> forall l h h' l', closed h l -> copy_list cp h l = Some (h', l') ->
  exists new, h' = h ++ new /\ (forall d, map (view d h') l' = map (view d h) l) /\ fresh (length h) h' l'.
Proof.
  intros G. induction l as [|r rs IH]; intros h h' l' C E; cbn [copy_list] in E.
  - injection E as <- <-. exists []. rewrite app_nil_r. split; [reflexivity|]. split; [reflexivity|]. intros y (r & [] & _).
  - destruct (cp h r) as [[h1 r1]|] eqn:E1; [|discriminate]. destruct (copy_list cp h1 rs) as [[h2 rs2]|] eqn:E2; [|discriminate]. injection E as <- <-.
    assert (Cr : closed h [r]) by (intros y Hy; apply C; eapply reaches_incl; [|exact Hy]; intros z [<-|[]]; left; reflexivity).
    assert (Cs : closed h rs) by (intros y Hy; apply C; eapply reaches_incl; [|exact Hy]; intros z Hz; right; exact Hz).
    destruct (G _ _ _ _ Cr E1) as (n1 & -> & V1 & F1). destruct (IH _ _ _ (closed_ext h n1 rs Cs) E2) as (n2 & -> & V2 & F2).
    exists (n1 ++ n2). rewrite app_assoc. split; [reflexivity|]. split.
    + intros d. cbn [map]. f_equal.
      * rewrite (closed_view (h ++ n1) n2 [r1]); [apply V1 | apply (fresh_closed (length h)), F1 | left; reflexivity].
      * rewrite V2. apply map_ext_in. intros x Hx. apply (closed_view h n1 rs); assumption.
    + intros y Hy. apply (reaches_app _ [r1] rs2) in Hy as [Hy|Hy].
      * apply (fresh_ext _ _ n2 _ F1 y Hy).
      * assert (Le : length h <= length (h ++ n1)) by (rewrite app_length; lia). apply (fresh_weaken (length h) _ _ _ Le F2 y Hy).
Qed.
Lemma copy_list_length cp : forall l h h' l', copy_list cp h l = Some (h', l') -> length l' = length l.
Proof.
  induction l as [|r rs IH]; intros h h' l' E; cbn [copy_list] in E; [injection E as <- <-; reflexivity|].
  destruct (cp h r) as [[h1 r1]|]; [|discriminate]. destruct (copy_list cp h1 rs) as [[h2 rs2]|] eqn:E2; [|discriminate]. injection E as <- <-. cbn [length]. f_equal. eapply IH; eassumption.
Qed.
Lemma view_S d h r : view (S d) h r = match nth_error h r with
    | None => VDeep | Some (Atom v) => VAtom v | Some (Opaque s) => VOpaque r s
    | Some (Tuple l) => VTuple (map (view d h) l) | Some (Lst k l) => VList k (map (view d h) l)
    | Some (Dct k l) => VDict k (map (fun kv => (fst kv, view d h (snd kv))) l) end.
Proof. reflexivity. Qed.
Lemma combine_snd {A B} : forall (l : list A) (l' : list B), length l' = length l -> map snd (combine l l') = l'.
Proof. induction l as [|a l IH]; intros [|b l'] E; try discriminate; [reflexivity|]. cbn [combine map snd]. f_equal. apply IH. injection E as E. exact E. Qed.
Lemma combine_views {K} (f g : ref -> value) : forall (l : list (K * ref)) l', map f l' = map g (map snd l) ->
  map (fun kv => (fst kv, f (snd kv))) (combine (map fst l) l') = map (fun kv => (fst kv, g (snd kv))) l.
Proof.
  induction l as [|[k r] l IH]; intros [|r' l'] E; try discriminate; [reflexivity|]. cbn [map combine fst snd] in *.
  injection E as E1 E2. rewrite E1. f_equal. apply IH, E2.
Qed.
(* a new cell whose elements are fresh *)
Lemma fresh_cell n h c : n <= length h -> fresh n h (elements c) -> fresh n (h ++ [c]) [length h].
Proof.
  intros Le F y (r & [<-|[]] & R). inversion R as [r|r c0 x z E I R']; subst.
  - rewrite app_length. cbn [length]. split; [lia | intros _; exact Le].
  - rewrite nth_error_app2, Nat.sub_diag in E by lia. injection E as <-. apply (fresh_ext n h [c] _ F). exists x. auto.
Qed.
Lemma view_new d h c : view d (h ++ [c]) (length h) = match d with 0 => VDeep | S d => match c with
   | Atom v => VAtom v | Opaque s => VOpaque (length h) s | Tuple l => VTuple (map (view d (h ++ [c])) l) | Lst k l => VList k (map (view d (h ++ [c])) l)
   | Dct k l => VDict k (map (fun kv => (fst kv, view d (h ++ [c]) (snd kv))) l) end end.
Proof. destruct d as [|d]; [reflexivity|]. rewrite view_S. rewrite nth_error_app2, Nat.sub_diag by lia. cbn [nth_error]. destruct c; reflexivity. Qed.
Lemma semi_deepcopy_good : forall fu, good (semi_deepcopy fu).
Proof.
  induction fu as [|fu IH]; intros h r h' r' C E; cbn [semi_deepcopy] in E; [discriminate|].
  assert (CE : forall c, nth_error h r = Some c -> closed h (elements c)).
  { intros c Ec y (x & Hx & R). apply C. exists r. split; [left; reflexivity|]. eapply r_in; eassumption. }
  destruct (nth_error h r) as [[v|s|l|k l|k l]|] eqn:En; [| | | | |discriminate].
  - injection E as <- <-. exists []. rewrite app_nil_r. split; [reflexivity|]. split; [reflexivity|]. intros y Hy. split; [apply C, Hy|].
    intros (c & Ec & Mc). destruct Hy as (z & [<-|[]] & R). inversion R as [z|z c0 x w E I R']; subst; [rewrite En in Ec; injection Ec as <-; destruct Mc | rewrite En in E; injection E as <-; destruct I].
  - injection E as <- <-. exists []. rewrite app_nil_r. split; [reflexivity|]. split; [reflexivity|]. intros y Hy. split; [apply C, Hy|].
    intros (c & Ec & Mc). destruct Hy as (z & [<-|[]] & R). inversion R as [z|z c0 x w E I R']; subst; [rewrite En in Ec; injection Ec as <-; destruct Mc | rewrite En in E; injection E as <-; destruct I].
  - specialize (CE _ eq_refl). cbn [elements] in CE. destruct (copy_list (semi_deepcopy fu) h l) as [[h1 l1]|] eqn:El; [|discriminate]. injection E as <- <-.
    destruct (copy_list_good _ IH _ _ _ _ CE El) as (new & -> & V & F). exists (new ++ [Tuple l1]). rewrite app_assoc. split; [reflexivity|]. split.
    + intros [|d]; [reflexivity|]. rewrite view_new, view_S, En. f_equal. rewrite <- V. apply map_ext_in. intros x Hx. apply (closed_view _ _ l1); [apply (fresh_closed (length h)), F | exact Hx].
    + apply fresh_cell; [rewrite app_length; lia | exact F].
  - specialize (CE _ eq_refl). cbn [elements] in CE. destruct (copy_list (semi_deepcopy fu) h l) as [[h1 l1]|] eqn:El; [|discriminate]. injection E as <- <-.
    destruct (copy_list_good _ IH _ _ _ _ CE El) as (new & -> & V & F). exists (new ++ [Lst k l1]). rewrite app_assoc. split; [reflexivity|]. split.
    + intros [|d]; [reflexivity|]. rewrite view_new, view_S, En. f_equal. rewrite <- V. apply map_ext_in. intros x Hx. apply (closed_view _ _ l1); [apply (fresh_closed (length h)), F | exact Hx].
    + apply fresh_cell; [rewrite app_length; lia | exact F].
  - specialize (CE _ eq_refl). cbn [elements] in CE. destruct (copy_list (semi_deepcopy fu) h (map snd l)) as [[h1 l1]|] eqn:El; [|discriminate]. injection E as <- <-.
    pose proof (copy_list_length _ _ _ _ _ El) as Len. rewrite map_length in Len.
    destruct (copy_list_good _ IH _ _ _ _ CE El) as (new & -> & V & F). exists (new ++ [Dct k (combine (map fst l) l1)]). rewrite app_assoc. split; [reflexivity|]. split.
    + intros [|d]; [reflexivity|]. rewrite view_new, view_S, En. f_equal. apply combine_views. rewrite <- V. apply map_ext_in. intros x Hx. apply (closed_view _ _ l1); [apply (fresh_closed (length h)), F | exact Hx].
    + apply fresh_cell; [rewrite app_length; lia|]. cbn [elements]. rewrite combine_snd by (rewrite map_length; exact Len). exact F.
Qed.
Lemma lookup_combine {X} (f g : ref -> X) : forall (e : env) l' k, map f l' = map g (map snd e) -> option_map f (lookup (combine (map fst e) l') k) = option_map g (lookup e k).
Proof.
  induction e as [|[k0 r] e IH]; intros [|r' l'] k E; try discriminate; [reflexivity|]. cbn [map combine fst snd lookup] in *.
  injection E as E1 E2. destruct (k =? k0); [cbn [option_map]; f_equal; exact E1 | apply IH, E2].
Qed.
Lemma clone_dict_good fu h e h' e' : closed h (map snd e) -> clone_dict fu h e = Some (h', e') ->
  exists new, h' = h ++ new /\ map fst e' = map fst e /\ (forall d k, var d h' e' k = var d h e k) /\ fresh (length h) h' (map snd e').
Proof.
  unfold clone_dict. intros C E. destruct (copy_list (semi_deepcopy fu) h (map snd e)) as [[h1 l1]|] eqn:El; [|discriminate]. injection E as <- <-.
  pose proof (copy_list_length _ _ _ _ _ El) as Len. rewrite map_length in Len.
  destruct (copy_list_good _ (semi_deepcopy_good fu) _ _ _ _ C El) as (new & -> & V & F). exists new. split; [reflexivity|]. split.
  { clear -Len. revert l1 Len. induction e as [|[k r] e IH]; intros [|r' l1] L; try discriminate; [reflexivity|]. cbn [map combine fst]. f_equal. apply IH. injection L as L. exact L. }
  split; [intros d k; unfold var; apply lookup_combine, V|]. rewrite combine_snd by (rewrite map_length; exact Len). exact F.
Qed.
Lemma lookup_set_var e k r k' : lookup (set_var e k r) k' = if k' =? k then Some r else lookup e k'.
Proof.
  induction e as [|[k0 r0] e IH]; cbn [set_var lookup]; [reflexivity|]. destruct (k =? k0) eqn:E; cbn [lookup].
  - apply Nat.eqb_eq in E as ->. destruct (k' =? k0); reflexivity.
  - rewrite IH. destruct (k' =? k0) eqn:E2; [|reflexivity]. apply Nat.eqb_eq in E2 as ->. rewrite Nat.eqb_sym, E. reflexivity.
Qed.
Lemma lookup_none e k : ~ In k (map fst e) -> lookup e k = None.
Proof. induction e as [|[k0 r0] e IH]; cbn; [reflexivity|]. intros H. destruct (Nat.eqb_spec k k0) as [->|_]; [exfalso; apply H; left; reflexivity | apply IH; intros X; apply H; right; exact X]. Qed.
Lemma lookup_replace new : forall e k, NoDup (map fst new) -> lookup (replace e new) k = match lookup new k with Some r => Some r | None => lookup e k end.
Proof.
  unfold replace. induction new as [|[k0 r0] new IH]; intros e k N; [reflexivity|]. cbn [fold_left fst snd map] in *. inversion N as [|x l Nin N']; subst.
  rewrite IH by exact N'. rewrite lookup_set_var. cbn [lookup]. destruct (Nat.eqb_spec k k0) as [->|_]; [|reflexivity]. rewrite lookup_none by exact Nin. reflexivity.
Qed.
Lemma set_var_incl e k r : incl (map snd (set_var e k r)) (r :: map snd e).
Proof.
  induction e as [|[k0 r0] e IH]; cbn [set_var]; [intros x Hx; exact Hx|]. destruct (k =? k0); cbn [map snd]; intros x [<-|Hx].
  - left; reflexivity.
  - right; right; exact Hx.
  - right; left; reflexivity.
  - apply IH in Hx as [<-|Hx]; [left; reflexivity | right; right; exact Hx].
Qed.
Lemma replace_incl new : forall e, incl (map snd (replace e new)) (map snd e ++ map snd new).
Proof.
  unfold replace. induction new as [|[k0 r0] new IH]; intros e x Hx; cbn [fold_left fst snd map] in *; [apply in_or_app; left; exact Hx|].
  apply IH in Hx. apply in_app_iff in Hx as [Hx|Hx]; [apply set_var_incl in Hx as [<-|Hx]|]; apply in_or_app; [right; left; reflexivity | left; exact Hx | right; right; exact Hx].
Qed.
End Copy.

(* C52b: a clone has the variables and values of the original, with the given ones replaced; the original and the values given by the caller are
   not changed; and no list or dictionary that existed before can be got at through the clone. *)
Theorem C52b_clone_values fuel h e kw h' e' :
  closed h (map snd e ++ map snd kw) -> NoDup (map fst kw) -> Clone fuel h e kw = Some (h', e') ->
  (forall d k, var d h' e' k = match lookup kw k with Some _ => var d h kw k | None => var d h e k end) /\
  (forall r d, In r (map snd e ++ map snd kw) -> view d h' r = view d h r) /\
  (forall x, reaches h' (map snd e') x -> mutable h' x -> length h <= x < length h') /\
  (forall x c, nth_error h x = Some c -> nth_error h' x = Some c).
Proof.
  unfold Clone. intros C N E. destruct (clone_dict fuel h e) as [[h1 e1]|] eqn:E1; [|discriminate]. destruct (clone_dict fuel h1 kw) as [[h2 new1]|] eqn:E2; [|discriminate].
  destruct (clone_dict fuel h2 new1) as [[h3 new2]|] eqn:E3; [|discriminate]. injection E as <- <-.
  assert (Ce : closed h (map snd e)) by (intros y Hy; apply C; eapply reaches_incl; [|exact Hy]; intros z Hz; apply in_or_app; left; exact Hz).
  assert (Ck : closed h (map snd kw)) by (intros y Hy; apply C; eapply reaches_incl; [|exact Hy]; intros z Hz; apply in_or_app; right; exact Hz).
  destruct (clone_dict_good _ _ _ _ _ Ce E1) as (n1 & -> & K1 & V1 & F1).
  destruct (clone_dict_good _ _ _ _ _ (closed_ext h n1 _ Ck) E2) as (n2 & -> & K2 & V2 & F2).
  destruct (clone_dict_good _ _ _ _ _ (fresh_closed _ _ _ F2) E3) as (n3 & -> & K3 & V3 & F3).
  set (H3 := ((h ++ n1) ++ n2) ++ n3) in *.
  assert (EH : H3 = h ++ (n1 ++ n2 ++ n3)) by (unfold H3; rewrite !app_assoc; reflexivity).
  assert (Vx : forall hh nn (ee : env) d k, closed hh (map snd ee) -> var d (hh ++ nn) ee k = var d hh ee k).
  { intros hh nn ee d k Cc. unfold var. destruct (lookup ee k) as [r|] eqn:El; [|reflexivity]. cbn [option_map]. f_equal. apply (closed_view hh nn (map snd ee)); [exact Cc|].
    clear -El. induction ee as [|[k0 r0] ee IH]; cbn [lookup map snd] in *; [discriminate|]. destruct (k =? k0); [injection El as ->; left; reflexivity | right; apply IH, El]. }
  split; [|split; [|split]].
  - intros d k. unfold var at 1. rewrite lookup_replace by (rewrite K3, K2; exact N).
    assert (Q : var d H3 new2 k = var d h kw k) by (unfold H3; rewrite V3, V2; apply Vx, Ck). unfold var in Q at 1.
    destruct (lookup new2 k) as [r|] eqn:El; cbn [option_map] in *.
    + destruct (lookup kw k) as [r2|] eqn:Ek; [exact Q | unfold var in Q; rewrite Ek in Q; discriminate].
    + destruct (lookup kw k) as [r2|] eqn:Ek; [unfold var in Q; rewrite Ek in Q; discriminate|]. rewrite <- V1.
      change (option_map (view d H3) (lookup e1 k)) with (var d H3 e1 k). unfold H3. rewrite <- (app_assoc (h ++ n1)). apply Vx, (fresh_closed (length h)), F1.
  - intros r d Hr. rewrite EH. apply (closed_view h _ _ d r C Hr).
  - intros x Hx Mx. apply (reaches_incl _ _ _ _ (replace_incl new2 e1)) in Hx. apply reaches_app in Hx as [Hx|Hx].
    + unfold H3 in Hx, Mx. rewrite <- (app_assoc (h ++ n1)) in Hx, Mx. destruct (fresh_ext _ _ (n2 ++ n3) _ F1 x Hx) as (L & M). specialize (M Mx). rewrite EH. rewrite !app_length in *. lia.
    + destruct (F3 x Hx) as (L & M). specialize (M Mx). fold H3 in L. rewrite !app_length in M. lia.
  - intros x c Ec. rewrite EH, nth_app by (apply nth_error_Some; rewrite Ec; discriminate). exact Ec.
Qed.

Section Independent.
Lemma separate_sym h A B : separate h A B -> separate h B A.
Proof. intros H x Hb Ha. apply (H x Ha Hb). Qed.
Lemma history_inv h A B h' A' B' : history h A B h' A' B' -> closed h A -> closed h B -> separate h A B -> closed h' A' /\ closed h' B' /\ separate h' A' B'.
Proof.
  induction 1 as [h A B|h A B h1 A1 h2 A2 B2 H _ IH|h A B h1 B1 h2 A2 B2 H _ IH]; intros CA CB Sp; [auto| |].
  - destruct (act_step _ _ _ _ _ CA CB Sp H) as (_ & CA' & CB' & Sp'). apply IH; assumption.
  - destruct (act_step _ _ _ _ _ CB CA (separate_sym _ _ _ Sp) H) as (_ & CB' & CA' & Sp'). apply IH; [assumption | assumption | apply separate_sym, Sp'].
Qed.
Lemma clone_separate fuel h e kw h' e' : closed h (map snd e ++ map snd kw) -> NoDup (map fst kw) -> Clone fuel h e kw = Some (h', e') ->
  closed h' (map snd e ++ map snd kw) /\ closed h' (map snd e') /\ separate h' (map snd e ++ map snd kw) (map snd e').
Proof.
  intros C N E. destruct (C52b_clone_values _ _ _ _ _ _ C N E) as (_ & _ & F & P).
  assert (Ag : forall z, reaches h (map snd e ++ map snd kw) z -> nth_error h' z = nth_error h z).
  { intros z Hz. apply C in Hz. destruct (nth_error h z) as [c|] eqn:Ez; [apply P, Ez | apply nth_error_None in Ez; lia]. }
  assert (R : forall z, reaches h' (map snd e ++ map snd kw) z -> reaches h (map snd e ++ map snd kw) z).
  { intros z (r & Hr & Rz). exists r. split; [exact Hr|]. apply (reach_agree' h h'); [intros w Hw; apply Ag; exists r; auto | exact Rz]. }
  assert (C1 : closed h' (map snd e ++ map snd kw)).
  { intros y Hy. apply R in Hy. specialize (C y Hy). destruct (nth_error h y) as [c|] eqn:Ey; [|apply nth_error_None in Ey; lia]. apply P in Ey. apply nth_error_Some. rewrite Ey. discriminate. }
  split; [exact C1|]. split.
  - unfold Clone in E. destruct (clone_dict fuel h e) as [[h1 e1]|] eqn:E1; [|discriminate]. destruct (clone_dict fuel h1 kw) as [[h2 new1]|] eqn:E2; [|discriminate].
    destruct (clone_dict fuel h2 new1) as [[h3 new2]|] eqn:E3; [|discriminate]. injection E as <- <-.
    assert (Ce : closed h (map snd e)) by (intros y Hy; apply C; eapply reaches_incl; [|exact Hy]; intros z Hz; apply in_or_app; left; exact Hz).
    assert (Ck : closed h (map snd kw)) by (intros y Hy; apply C; eapply reaches_incl; [|exact Hy]; intros z Hz; apply in_or_app; right; exact Hz).
    destruct (clone_dict_good _ _ _ _ _ Ce E1) as (n1 & -> & K1 & V1 & F1).
    destruct (clone_dict_good _ _ _ _ _ (closed_ext h n1 _ Ck) E2) as (n2 & -> & K2 & V2 & F2).
    destruct (clone_dict_good _ _ _ _ _ (fresh_closed _ _ _ F2) E3) as (n3 & -> & K3 & V3 & F3).
    intros y Hy. apply (reaches_incl _ _ _ _ (replace_incl new2 e1)) in Hy. apply reaches_app in Hy as [Hy|Hy]; [|apply (F3 y Hy)].
    rewrite <- (app_assoc (h ++ n1)) in Hy |- *. apply (fresh_ext _ _ (n2 ++ n3) _ F1 y Hy).
  - intros x Ha Hb M. specialize (F x Hb M). apply R in Ha. specialize (C x Ha). lia.
Qed.
End Independent.

(* C52: make a clone; let the script do anything, in any order, with the lists and dictionaries it gets from the original environment (and
   those it gave to Clone) on the one hand, and from the clone on the other.  Whatever is done through one of the two changes
   nothing that is seen through the other. *)
Theorem C52_independent fuel h e kw h0 e' hn An Bn :
  closed h (map snd e ++ map snd kw) -> NoDup (map fst kw) -> Clone fuel h e kw = Some (h0, e') ->
  history h0 (map snd e ++ map snd kw) (map snd e') hn An Bn ->
  (forall h' A', act (hn, An) (h', A') -> forall r d, In r Bn -> view d h' r = view d hn r) /\
  (forall h' B', act (hn, Bn) (h', B') -> forall r d, In r An -> view d h' r = view d hn r).
Proof.
  intros C N E H. destruct (clone_separate _ _ _ _ _ _ C N E) as (CA & CB & Sp). destruct (history_inv _ _ _ _ _ _ H CA CB Sp) as (CA' & CB' & Sp').
  split; intros h' X' Hact r d Hr; apply view_agree; intros z Hz.
  - apply (act_step _ _ _ _ _ CA' CB' Sp' Hact). exists r. auto.
  - apply (act_step _ _ _ _ _ CB' CA' (separate_sym _ _ _ Sp') Hact). exists r. auto.
Qed.
(* So after any number of changes through the original only, the clone still has the values of the moment of cloning. *)
Inductive acts : heap -> list ref -> heap -> list ref -> Prop :=
  | acts_nil h A : acts h A h A
  | acts_cons h A h1 A1 h2 A2 : act (h, A) (h1, A1) -> acts h1 A1 h2 A2 -> acts h A h2 A2.
Theorem C52d_snapshot fuel h e kw h0 e' hn An :
  closed h (map snd e ++ map snd kw) -> NoDup (map fst kw) -> Clone fuel h e kw = Some (h0, e') -> acts h0 (map snd e ++ map snd kw) hn An ->
  forall d k, var d hn e' k = match lookup kw k with Some _ => var d h kw k | None => var d h e k end.
Proof.
  intros C N E H d k. rewrite <- (proj1 (C52b_clone_values _ _ _ _ _ _ C N E)). destruct (clone_separate _ _ _ _ _ _ C N E) as (CA & CB & Sp). clear C N E.
  revert CA CB Sp. induction H as [h1 A|h1 A h2 A2 h3 A3 Hact _ IH]; intros CA CB Sp; [reflexivity|].
  destruct (act_step _ _ _ _ _ CA CB Sp Hact) as (Ag & CA' & CB' & Sp'). rewrite IH by assumption.
  unfold var. destruct (lookup e' k) as [r|] eqn:El; [|reflexivity]. cbn [option_map]. f_equal. apply view_agree. intros z Hz. apply Ag. exists r. split; [|exact Hz].
  clear -El. induction e' as [|[k0 r0] ee IH]; cbn [lookup map snd] in *; [discriminate|]. destruct (k =? k0); [injection El as ->; left; reflexivity | right; apply IH, El].
Qed.

(* C52c: Clone returns when no value contains itself: values nested at most d deep need d nested calls. *)
Inductive nested (h : heap) : nat -> ref -> Prop :=
  | nest d r c : nth_error h r = Some c -> (forall x, In x (elements c) -> nested h d x) -> nested h (S d) r.
Section Total.
Lemma nested_ext (h new : heap) d r : nested h d r -> nested (h ++ new) d r.
Proof. induction 1 as [d r c E _ IH]. apply nest with c; [|exact IH]. rewrite nth_error_app1; [exact E|]. apply nth_error_Some. rewrite E. discriminate. Qed.
Definition total (d : nat) (cp : heap -> ref -> option (heap * ref)) : Prop :=
  forall h r, nested h d r -> exists new r', cp h r = Some (h ++ new, r') /\ nested (h ++ new) d r'.
Lemma copy_list_total d cp : total d cp -> forall l h, (forall x, In x l -> nested h d x) -> exists new l', copy_list cp h l = Some (h ++ new, l') /\ forall x, In x l' -> nested (h ++ new) d x.
Proof.
  intros T. induction l as [|r rs IH]; intros h N; cbn [copy_list].
  - exists [], []. rewrite app_nil_r. split; [reflexivity | intros x []].
  - destruct (T h r (N r (or_introl eq_refl))) as (n1 & r1 & -> & N1). destruct (IH (h ++ n1)) as (n2 & rs2 & -> & N2).
    { intros x Hx. apply nested_ext, N. right. exact Hx. }
    exists (n1 ++ n2), (r1 :: rs2). rewrite <- app_assoc. split; [reflexivity|]. rewrite <- app_assoc in N2. intros x [<-|Hx]; [rewrite app_assoc; apply nested_ext, N1 | apply N2, Hx].
Qed.
Lemma nested_cell h d c : (forall x, In x (elements c) -> nested h d x) -> nested (h ++ [c]) (S d) (length h).
Proof. intros H. apply nest with c; [rewrite nth_error_app2, Nat.sub_diag by lia; reflexivity|]. intros x Hx. apply nested_ext, H, Hx. Qed.
Lemma semi_deepcopy_total : forall d, total d (semi_deepcopy d).
Proof.
  induction d as [|d IH]; intros h r H; inversion H as [d' r' c E N E1 E2]; subst. cbn [semi_deepcopy]. rewrite E.
  destruct c as [v|s|l|k l|k l]; cbn [elements] in N.
  - exists [], r. rewrite app_nil_r. auto.
  - exists [], r. rewrite app_nil_r. auto.
  - destruct (copy_list_total d _ IH l h N) as (new & l' & -> & N'). exists (new ++ [Tuple l']), (length (h ++ new)). rewrite app_assoc. split; [reflexivity | apply nested_cell, N'].
  - destruct (copy_list_total d _ IH l h N) as (new & l' & -> & N'). exists (new ++ [Lst k l']), (length (h ++ new)). rewrite app_assoc. split; [reflexivity | apply nested_cell, N'].
  - destruct (copy_list_total d _ IH (map snd l) h N) as (new & l' & Ec & N'). rewrite Ec. exists (new ++ [Dct k (combine (map fst l) l')]), (length (h ++ new)). rewrite app_assoc.
    split; [reflexivity | apply nested_cell]. cbn [elements]. apply copy_list_length in Ec. rewrite map_length in Ec. rewrite combine_snd by (rewrite map_length; exact Ec). exact N'.
Qed.
Lemma clone_dict_total d h e : (forall x, In x (map snd e) -> nested h d x) -> exists new e', clone_dict d h e = Some (h ++ new, e') /\ forall x, In x (map snd e') -> nested (h ++ new) d x.
Proof.
  intros N. unfold clone_dict. destruct (copy_list_total d _ (semi_deepcopy_total d) _ _ N) as (new & l' & E & N'). rewrite E. exists new, (combine (map fst e) l'). split; [reflexivity|].
  apply copy_list_length in E. rewrite map_length in E. rewrite combine_snd by (rewrite map_length; exact E). exact N'.
Qed.
End Total.
Theorem C52c_clone_returns d h e kw : (forall r, In r (map snd e ++ map snd kw) -> nested h d r) -> exists h' e', Clone d h e kw = Some (h', e').
Proof.
  intros N. unfold Clone. destruct (clone_dict_total d h e) as (n1 & e1 & -> & N1); [intros x Hx; apply N, in_or_app; left; exact Hx|].
  destruct (clone_dict_total d (h ++ n1) kw) as (n2 & e2 & -> & N2); [intros x Hx; apply nested_ext, N, in_or_app; right; exact Hx|].
  destruct (clone_dict_total d _ e2 N2) as (n3 & e3 & -> & N3). eauto.
Qed.
(* ... and does not return at all when a list contains itself, which Python allows (RecursionError) *)
Theorem C52_refuted_cycle : let h := [Lst 0 [0]] in closed h [0] /\ forall fuel, Clone fuel h [(7, 0)] [] = None.
Proof.
  split.
  - intros r (x & [<-|[]] & R). assert (G : forall a b, reach [Lst 0 [0]] a b -> a = 0 -> b = 0).
    { induction 1 as [a|a c y z E I R' IH]; intros ->; [reflexivity|]. apply IH. cbn in E. injection E as <-. destruct I as [<-|[]]. reflexivity. }
    rewrite (G 0 r R eq_refl). cbn. lia.
  - intros fuel. assert (G : semi_deepcopy fuel [Lst 0 [0]] 0 = None).
    { induction fuel as [|fu IH]; [reflexivity|]. cbn [semi_deepcopy nth_error copy_list]. rewrite IH. reflexivity. }
    unfold Clone, clone_dict. cbn [map snd copy_list]. rewrite G. reflexivity.
Qed.
(* Objects of other types - sets, OrderedDict, instances - are shared: changing one through the original is seen through the clone, for every such
   object.  (The docstring of Clone says that changes to the clone do not affect the original.) *)
Theorem C52_refuted_opaque h k r s : nth_error h r = Some (Opaque s) -> exists h' e', Clone 1 h [(k, r)] [] = Some (h', e') /\
  forall s' h2, nth_error h2 r = Some (Opaque s') -> var 1 h2 e' k = Some (VOpaque r s').
Proof.
  intros E. exists h, [(k, r)]. split.
  - unfold Clone, clone_dict. cbn [map snd copy_list semi_deepcopy]. rewrite E. reflexivity.
  - intros s' h2 E2. unfold var. cbn [lookup]. rewrite Nat.eqb_refl. cbn [option_map view]. rewrite E2. reflexivity.
Qed.

(* Witness: CPPPATH = ['a', 'b'], CPPDEFINES = {1: CPPPATH} (a shared list inside a dictionary); Clone(CPPPATH = ['c']). *)
Definition wh : heap := [Atom 97; Atom 98; Lst 0 [0; 1]; Dct 0 [(1, 2)]; Atom 99; Lst 0 [4]].
Example C52_witness : exists h' e', Clone 5 wh [(10, 2); (11, 3)] [(10, 5)] = Some (h', e') /\ closed wh [2; 3; 5] /\
  var 5 h' e' 10 = Some (VList 0 [VAtom 99]) /\ var 5 h' e' 11 = Some (VDict 0 [(1, VList 0 [VAtom 97; VAtom 98])]) /\
  (* append 'a' to the original's CPPPATH in place: an act through the original *)
  exists h2, act (h', [2; 3; 5]) (h2, [2; 3; 5]) /\ var 5 h2 [(10, 2); (11, 3)] 11 = Some (VDict 0 [(1, VList 0 [VAtom 97; VAtom 98; VAtom 97])]) /\
  var 5 h2 e' 11 = Some (VDict 0 [(1, VList 0 [VAtom 97; VAtom 98])]).
Proof.
  assert (Cw : closed wh [2; 3; 5]).
  { assert (G : forall a b, reach wh a b -> a < 6 -> b < 6).
    { induction 1 as [a|a c y z E I R' IH]; intros La; [exact La|]. apply IH. do 6 (destruct a as [|a]; [cbn in E; injection E as <-; cbn in I; lia|]). lia. }
    intros r (x & Hx & R). apply (G x r R). cbn in Hx. lia. }
  eexists. eexists. split; [vm_compute; reflexivity|]. split; [exact Cw|]. split; [vm_compute; reflexivity|]. split; [vm_compute; reflexivity|].
  match goal with |- exists h2, act (?h, _) _ /\ _ => set (h' := h) end. exists (firstn 2 h' ++ [Lst 0 [0; 1; 0]] ++ skipn 3 h'). split; [|split; vm_compute; reflexivity].
  apply act_change with (x := 2) (c := Lst 0 [0; 1; 0]).
  - exists 2. split; [left; reflexivity | constructor].
  - exists (Lst 0 [0; 1]). split; [reflexivity | exact I].
  - assert (R : forall y, In y [0; 1] -> reaches h' [2; 3; 5] y).
    { intros y Hy. exists 2. split; [left; reflexivity|]. eapply r_in; [reflexivity | exact Hy | constructor]. }
    intros y [<-|[<-|[<-|[]]]]; apply R; cbn; auto.
  - reflexivity.
  - reflexivity.
  - intros y Ny. do 14 (destruct y as [|y]; [first [reflexivity | exfalso; apply Ny; reflexivity]|]). reflexivity.
Qed.
Print Assumptions C52_independent.
Print Assumptions C52b_clone_values.
Print Assumptions C52c_clone_returns.
Print Assumptions C52d_snapshot.
