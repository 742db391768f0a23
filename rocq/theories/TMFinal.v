(* Consequences of the fixed-graph invariant.  Proof file. *)
From Coq Require Import List Arith ZArith Bool Lia Permutation.
Import ListNotations.
From Verif Require Import TMModel TMBase TMSpec TMSafe TMSafe2 TMStatic TMStatic2 TMStatic3.

Lemma event_dec (f : event -> bool) (tr : list event) : {exists e, In e tr /\ f e = true} + {forall e, In e tr -> f e = false}.
Proof.
  induction tr as [|a tr [IH|IH]].
  - right; intros e [].
  - left. destruct IH as (e & A & B); exists e; split; [right; exact A | exact B].
  - destruct (f a) eqn:E; [left; exists a; split; [left; reflexivity | exact E] | right; intros e [<-|H]; auto].
Qed.
Lemma finished_dec tr n : {finished tr n} + {~ finished tr n}.
Proof.
  destruct (event_dec (fun e => match e with EFinish ts | ECurrent ts | EIgnored ts => mem n ts | _ => false end) tr) as [H|H].
  - left. destruct H as (e & A & B). destruct e; try discriminate; apply mem_In in B; exists ts; split; auto.
  - right. intros (ts & A & B). apply mem_In in A. destruct B as [B|[B|B]]; apply H in B; congruence.
Qed.

(* a set of nodes inside a finite list, each with a child in the set, contains a cycle *)
Lemma no_descent kids (P : node -> Prop) (L : list node) :
  acyclic kids -> (forall n, P n -> In n L /\ exists k, In k (kids n) /\ P k) -> forall n, ~ P n.
Proof.
  intros Ac H n Pn.
  assert (Chain : forall len n, P n -> exists l, length l = len /\ NoDup l /\ incl l L /\ forall x, In x l -> x = n \/ depends kids n x).
  { induction len as [|len IH]; intros m Pm.
    - exists []. repeat split; [constructor | intros x [] | intros x []].
    - destruct (H m Pm) as [Hm (k & Hk & Pk)]. destruct (IH k Pk) as (l & A & B & C & D).
      assert (Dx : forall x, In x l -> depends kids m x).
      { intros x Hx. destruct (D x Hx) as [->|Q]; [apply dep1; exact Hk | eapply depS; eassumption]. }
      exists (m :: l). repeat split.
      + simpl; congruence.
      + constructor; [intros Q; exact (Ac m (Dx m Q)) | exact B].
      + intros x [<-|Hx]; [exact Hm | apply C; exact Hx].
      + intros x [<-|Hx]; [left; reflexivity | right; apply Dx; exact Hx]. }
  destruct (Chain (S (length L)) n Pn) as (l & A & B & C & _).
  pose proof (NoDup_incl_length B C). lia.
Qed.

Section Final.
Context (c : cfg) (kids : node -> list node).
Context (W : cfg_wf c) (G : graph_wf c kids).

Lemma done_closed X s n m : sinv c kids X s -> done (nst s n) = true -> depends0 kids n m -> done (nst s m) = true.
Proof.
  intros S D H. induction H as [n|n k m Hk _ IH]; [exact D|]. apply IH.
  apply (F_task _ _ _ _ S n (F_dtask _ _ _ _ S n D) k Hk).
Qed.

(* the state in which a run ends *)
Record final (s : tm) : Prop := {
  fi_sinv : sinv c kids [] s; fi_dinv : dinv c s; fi_run : running s = []; fi_cands : cands s = []; fi_tops : topsleft s = [] }.

Lemma final_seen s : final s -> acyclic kids -> forall n, In n (seen s) -> ~ tainted kids (trace s) n -> finished (trace s) n.
Proof.
  intros [S D R C T] Ac n Hn Ht.
  destruct (finished_dec (trace s) n) as [F|F]; [exact F|]. exfalso.
  apply (no_descent kids (fun n => In n (seen s) /\ ~ tainted kids (trace s) n /\ ~ finished (trace s) n) (seen s) Ac) with n; [|auto].
  clear n Hn Ht F. intros n (Hn & Ht & Hf). split; [exact Hn|].
  assert (Over : forall x, tasked (trace s) x -> ~ tainted kids (trace s) x -> finished (trace s) x).
  { intros x Tx Nx. destruct (F_over _ _ _ _ S x Tx) as [Q|[Q|(ts & Q & _)]]; [exact Q | | rewrite R in Q; elim Q].
    elim Nx. exists x; split; [apply d0 | exact Q]. }
  destruct (F_J _ _ _ _ S n Hn) as [Q|[(k & Q)|(se & ts & _ & Q & _)]]; auto.
  - rewrite C in Q; elim Q.
  - destruct (F_edge1 _ _ _ _ S k n Q) as (K1 & K2 & _). exists k; split; [exact K1|].
    assert (Nt : ~ tainted kids (trace s) k) by (intros X; apply Ht; eapply taint_kid; eassumption).
    assert (Nf : ~ finished (trace s) k) by (intros X; apply (F_fin _ _ _ _ S) in X; congruence).
    split; [|split; assumption].
    destruct (F_edge2 _ _ _ _ S k n Q) as [K|[K|[K|[K|(ts & K & _)]]]]; [rewrite C in K; elim K | exact K | | contradiction | rewrite R in K; elim K].
    elim Nf. apply Over; assumption.
  - rewrite R in Q; elim Q.
Qed.

Lemma final_covered s : final s -> acyclic kids -> forall n, covered c s n -> ~ tainted kids (trace s) n -> finished (trace s) n.
Proof.
  intros Fi Ac n (n' & A & B) Ht. assert (S := fi_sinv s Fi).
  assert (An : In n (all_targets c n')) by (rewrite (cw_share c W n n' A); apply cw_self; exact W).
  assert (Ht' : ~ tainted kids (trace s) n').
  { intros X. apply Ht. eapply (taint_share c kids); [exact G | exact W | exact An | exact (F_ftgt _ _ _ _ S) | exact X]. }
  pose proof (final_seen s Fi Ac n' B Ht') as F.
  pose proof (F_tgt _ _ _ _ S n' n (finished_tasked c kids [] s S n' F) An) as T.
  destruct (F_over _ _ _ _ S n T) as [Q|[Q|(ts & Q & _)]]; [exact Q | | rewrite (fi_run s Fi) in Q; elim Q].
  elim Ht. exists n; split; [apply d0 | exact Q].
Qed.

Lemma final_reaches s : final s -> forall t n, reaches c kids t n -> covered c s t -> covered c s n.
Proof.
  intros Fi t n H. induction H as [n _|n k m Hn Hk H IH]; [auto|]. intros (n' & A & B). apply IH.
  assert (Nk : ~ is_side_effect c k) by (inversion H; assumption).
  rewrite <- (gw_share c kids G n n' A) in Hk.
  destruct (F_V _ _ _ _ (fi_sinv s Fi) n' k B Hk Nk) as [Q|Q]; [rewrite (fi_cands s Fi) in Q; elim Q | exact Q].
Qed.

Lemma final_top s t : final s -> In t (tops c) -> ~ is_side_effect c t -> covered c s t.
Proof.
  intros Fi H1 H2. destruct (F_tops _ _ _ _ (fi_sinv s Fi) t H1 H2) as [Q|[Q|Q]]; [| |exact Q].
  - rewrite (fi_tops s Fi) in Q; elim Q.
  - rewrite (fi_cands s Fi) in Q; elim Q.
Qed.

Lemma final_closed s : final s -> forall t n, finished (trace s) t -> depends0 kids t n -> finished (trace s) n.
Proof.
  intros Fi t n F H. apply (di_done _ _ (fi_dinv s Fi)). eapply (done_closed [] s); [apply fi_sinv; exact Fi | apply (F_fin _ _ _ _ (fi_sinv s Fi)); exact F | exact H].
Qed.

Lemma untainted_nofail s n : (forall ts, ~ In (EFail ts) (trace s)) -> ~ tainted kids (trace s) n.
Proof. intros H (m & _ & ts & _ & Q). exact (H ts Q). Qed.

(* nothing is left waiting after a run without failures on an acyclic graph *)
Lemma final_no_edges s : final s -> acyclic kids -> (forall ts, ~ In (EFail ts) (trace s)) -> wpE s = [] /\ pend s = [].
Proof.
  intros Fi Ac Nf. assert (S := fi_sinv s Fi).
  assert (E : wpE s = []).
  { destruct (wpE s) as [|[k p] l] eqn:E; [reflexivity|]. exfalso.
    assert (In (k, p) (wpE s)) as H by (rewrite E; left; reflexivity).
    destruct (F_edge1 _ _ _ _ S k p H) as (A & B & C).
    pose proof (final_seen s Fi Ac p C (untainted_nofail s p Nf)) as F.
    rewrite (F_task _ _ _ _ S p (finished_tasked c kids [] s S p F) k A) in B. discriminate. }
  split; [exact E|]. destruct (pend s) as [|x l] eqn:Ep; [reflexivity|]. exfalso.
  destruct (F_pend _ _ _ _ S x) as [p Q]; [rewrite Ep; left; reflexivity | rewrite E in Q; elim Q].
Qed.

(* a node on a cycle is never handed out *)
Definition issued (tr : list event) (n : node) : Prop := exists ts, In n ts /\ (In (EStart ts) tr \/ In (ECurrent ts) tr).
Lemma ordered_issued l n : ordered kids l -> noign l -> finished l n -> issued l n.
Proof.
  intros O Ni (ts & Hn & [H|[H|H]]); [|exists ts; auto | elim (Ni ts H)].
  exists ts; split; [exact Hn|]. left.
  induction l as [|e l IH]; [elim H|].
  assert (Ni' : noign l) by (intros q Q; apply (Ni q); right; exact Q).
  destruct H as [->|H]; [right; apply O | right; apply IH; auto]. destruct e; cbn in O; tauto.
Qed.
Lemma depends_trans a b d : depends kids a b -> depends kids b d -> depends kids a d.
Proof. induction 1; intros H1; [eapply depS; eassumption | eapply depS; eauto]. Qed.
Lemma ordered_acyclic : forall len l, length l <= len -> ordered kids l -> noign l -> forall n, issued l n -> ~ depends kids n n.
Proof.
  induction len as [|len IH]; intros l Hl O Ni n (ts & Hn & Hi) Hd.
  - destruct l; [destruct Hi as [[]|[]] | simpl in Hl; lia].
  - assert (Sp : exists ev l1 l2, l = l1 ++ ev :: l2 /\ is_issue ev ts).
    { destruct Hi as [Hi|Hi]; apply in_split in Hi; destruct Hi as (l1 & l2 & Hi); eexists _, l1, l2; (split; [exact Hi|]); [left|right]; reflexivity. }
    destruct Sp as (ev & l1 & l2 & El & Hev).
    assert (O2 : ordered kids (ev :: l2)).
    { clear - O El. subst l. induction l1 as [|a l1 IH]; [exact O|]. apply IH. destruct a; cbn in O; tauto. }
    assert (Ni2 : noign l2) by (intros q Q; apply (Ni q); rewrite El; apply in_or_app; right; right; exact Q).
    assert (Hk : forall k, In k (kids n) -> finished l2 k).
    { intros k Hk. destruct Hev as [-> | ->]; destruct O2 as [[Q _] _]; eapply Q; eassumption. }
    assert (O3 : ordered kids l2) by (destruct Hev as [-> | ->]; apply O2).
    assert (Hl2 : length l2 <= len) by (rewrite El, app_length in Hl; simpl in Hl; lia).
    inversion Hd as [a b Hin|a k b Hin Hdk]; subst.
    + apply (IH l2 Hl2 O3 Ni2 n); [apply ordered_issued; auto | exact Hd].
    + apply (IH l2 Hl2 O3 Ni2 k); [apply ordered_issued; auto | eapply depends_trans; [exact Hdk | apply dep1; exact Hin]].
Qed.

(* position of a node in the order of first consideration *)
Fixpoint pos (l : list node) (x : node) : nat :=
  match l with [] => 0 | a :: r => if Nat.eq_dec a x then S (length r) else pos r x end.
Lemma pos_le l x : pos l x <= length l.
Proof. induction l as [|a l IH]; simpl; [lia|]. destruct (Nat.eq_dec a x); lia. Qed.
Lemma before_seen_pos l p k : NoDup l -> before l p k -> In k l -> pos l p < pos l k.
Proof.
  intros Nd (l1 & l2 & -> & Hk) Hin. apply in_app_iff in Hin. destruct Hin as [Hin|Hin]; [|contradiction].
  assert (Hp : pos (l1 ++ p :: l2) p = S (length l2)).
  { clear Hk Hin. induction l1 as [|a l1 IH]; simpl.
    - destruct (Nat.eq_dec p p); congruence.
    - destruct (Nat.eq_dec a p) as [->|N]; [exfalso | apply IH; inversion Nd; assumption].
      inversion Nd; subst. apply H1, in_or_app; right; left; reflexivity. }
  rewrite Hp. clear Hp Nd Hk. induction l1 as [|a l1 IH]; [elim Hin|]. simpl.
  destruct (Nat.eq_dec a k) as [->|N]; [rewrite app_length; simpl; lia|]. apply IH. destruct Hin as [->|Hin]; [congruence | exact Hin].
Qed.

(* no pending children recorded (and no side effects, no failures): everything considered is finished *)
Lemma final_pend_nil s : final s -> NoDup (seen s) -> (forall n, ~ is_side_effect c n) -> (forall ts, ~ In (EFail ts) (trace s)) -> pend s = [] ->
  forall n, In n (seen s) -> finished (trace s) n.
Proof.
  intros Fi Nd Nse Nf Hp. assert (S := fi_sinv s Fi). assert (R := fi_run s Fi). assert (C := fi_cands s Fi).
  assert (Over : forall x, tasked (trace s) x -> finished (trace s) x).
  { intros x Tx. destruct (F_over _ _ _ _ S x Tx) as [Q|[(ts & _ & Q)|(ts & Q & _)]]; [exact Q | elim (Nf ts Q) | rewrite R in Q; elim Q]. }
  assert (Gen : forall len n, length (seen s) - pos (seen s) n <= len -> In n (seen s) -> finished (trace s) n).
  { induction len as [|len IH]; intros n Hl Hn.
    all: destruct (finished_dec (trace s) n) as [F|F]; [exact F|].
    all: destruct (F_J _ _ _ _ S n Hn) as [Q|[(k & Q)|(se & ts & _ & Q & _)]];
      [ intros [] | apply untainted_nofail; exact Nf | intros Q; apply F, Over; exact Q | rewrite C in Q; elim Q | | rewrite R in Q; elim Q].
    all: destruct (F_edge1 _ _ _ _ S k n Q) as (K1 & K2 & _).
    all: assert (Fk : ~ finished (trace s) k) by (intros X; apply (F_fin _ _ _ _ S) in X; congruence).
    all: assert (Sk : In k (seen s)) by
      (destruct (F_edge2 _ _ _ _ S k n Q) as [K|[K|[K|[K|(ts & K & _)]]]];
        [rewrite C in K; elim K | exact K | elim Fk; apply Over; exact K | elim (untainted_nofail s k Nf K) | rewrite R in K; elim K]).
    all: assert (Bf : before (seen s) n k) by
      (destruct (F_L _ _ _ _ S k n Q) as [K|[K|[(ts & K & _)|K]]]; [rewrite Hp in K; elim K | elim (Nse k K) | rewrite R in K; elim K | exact K]).
    all: pose proof (before_seen_pos _ _ _ Nd Bf Sk); pose proof (pos_le (seen s) k).
    - lia.
    - elim Fk. apply IH; [lia | exact Sk]. }
  intros n Hn. eapply Gen; [reflexivity | exact Hn].
Qed.
End Final.
