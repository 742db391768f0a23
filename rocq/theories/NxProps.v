(* C66: proofs *)
From Coq Require Import List Bool Arith Lia.
Import ListNotations.
From Verif Require Import IntModel IntSpec IntProps IntProps2 NxModel NxSpec.

Section Nx.
Variables (P : project) (H : option content -> sig) (U : list node).
Hypothesis SO : sound P U.
Variable w : world.
Notation ch := (children P w).
(* what is remembered about the nodes of D is right *)
Section Right.
Variable D : node -> Prop.
Definition over (n : node) : Prop := forall x, In x (ch n) -> D x.
Record right (s : state) : Prop := {
  r_files : forall n, D n -> files (wd s) n = files w n;
  r_store : forall n, D n -> store (wd s) n = store w n;
  r_incs : forall n l, D n -> incs (mm s n) = Some l -> l = includes P (files w) n;
  r_csig : forall n x, D n -> csig (mm s n) = Some x -> x = H (files w n);
  r_impl : forall n l, over n -> impl (mm s n) = Some l -> l = if derived P n then closure P (includes P (files w)) (sources P n) else [] }.
Lemma includes_eq : forall f g n, f n = g n -> includes P f n = includes P g n.
Proof. intros f g n E. unfold includes. rewrite E. reflexivity. Qed.
Lemma right_now : forall s x, right s -> D x -> incs_now P s x = includes P (files w) x.
Proof. intros s x R Hx. unfold incs_now. destruct (incs (mm s x)) as [l|] eqn:E; [apply (r_incs s R x l Hx E) | apply includes_eq, (r_files s R x Hx)]. Qed.
Lemma right_closure : forall s n, right s -> derived P n = true -> over n -> closure P (incs_now P s) (sources P n) = closure P (includes P (files w)) (sources P n).
Proof.
  intros s n R Hd O. symmetry. apply (s_ext P U SO). intros x Hx. symmetry. apply right_now; [exact R|]. apply O. unfold children. rewrite Hd, !in_app_iff. destruct Hx as [Hx|Hx]; [auto|].
  destruct (s_all P U SO (includes P (files w)) (sources P n) x); [intros y; apply (includes_U P U SO) | exact Hx | auto | auto].
Qed.
Lemma right_scan : forall s n, right s -> over n -> scan P s n = if derived P n then closure P (includes P (files w)) (sources P n) else [].
Proof. intros s n R O. unfold scan. destruct (impl (mm s n)) as [l|] eqn:E; [apply (r_impl s R n l O E)|]. destruct (derived P n) eqn:Hd; [apply right_closure; assumption | reflexivity]. Qed.
Lemma right_kids : forall s n, right s -> over n -> kids P s n = ch n.
Proof. intros s n R O. unfold kids, children. rewrite (right_scan s n R O). reflexivity. Qed.
Lemma right_sig : forall s n, right s -> D n -> csig_now H s n = H (files w n).
Proof. intros s n R Hn. unfold csig_now. destruct (csig (mm s n)) as [x|] eqn:E; [apply (r_csig s R n x Hn E) | rewrite (r_files s R n Hn); reflexivity]. Qed.
Lemma right_info : forall s n, right s -> over n -> info P H s n = (map (fun k => H (files w k)) (ch n), cmd P n).
Proof. intros s n R O. unfold info. rewrite (right_kids s n R O). f_equal. apply map_ext_in. intros k Hk. apply (right_sig s k R), O, Hk. Qed.
Lemma right_uptodate : forall s t, right s -> over t -> files (wd s) t = files w t -> store (wd s) t = store w t -> (uptodate P H s t = true <-> files w t <> None /\ current P H w t).
Proof.
  intros s t R O Ef Es. unfold uptodate, current. rewrite Ef, Es, (right_info s t R O). destruct (files w t) as [c|]; [|split; [discriminate | intros [X _]; contradiction]].
  destruct (store w t) as [e|]; [|split; [discriminate | intros [_ X]; discriminate]]. destruct (entry_eq e (map (fun k => H (files w k)) (ch t), cmd P t)) as [-> |Ne]; split; intros X; try discriminate; try reflexivity; [split; [discriminate | reflexivity]|].
  destruct X as [_ X]. injection X as X. contradiction.
Qed.
Lemma right_start : forall s, (forall m, mm s m = fresh) -> wd s = w -> right s.
Proof. intros s Hf Hw. constructor; try (intros; rewrite Hf in *; discriminate); intros; rewrite Hw; reflexivity. Qed.
Lemma right_consider : forall s n, right s -> right (consider P s n).
Proof.
  intros s n R. constructor.
  - intros m Hm. apply (r_files s R m Hm).
  - intros m Hm. apply (r_store s R m Hm).
  - intros m l Hm. rewrite consider_incs. destruct (sc P s n m); [intros X; injection X as <-; apply (right_now s m R Hm) | apply (r_incs s R m l Hm)].
  - intros m x Hm. rewrite consider_csig. apply (r_csig s R m x Hm).
  - intros m l Hm. rewrite consider_impl. destruct (mem m (task P n)); [intros X; injection X as <-; apply (right_scan s m R Hm) | apply (r_impl s R m l Hm)].
Qed.
Lemma right_done : forall s l, right s -> right (set_done H s l).
Proof.
  intros s l R. constructor; intros m; cbn [set_done wd mm].
  - apply (r_files s R).
  - apply (r_store s R).
  - intros x Hm. destruct (mem m l); cbn [incs]; apply (r_incs s R m x Hm).
  - intros x Hm. destruct (mem m l); cbn [csig]; [intros X; injection X as <-; apply (right_sig s m R Hm) | apply (r_csig s R m x Hm)].
  - intros x Hm. destruct (mem m l); cbn [impl]; apply (r_impl s R m x Hm).
Qed.
Lemma right_failed : forall s l, right s -> right (set_failed s l).
Proof.
  intros s l R. constructor; intros m; cbn [set_failed wd mm].
  - apply (r_files s R).
  - apply (r_store s R).
  - intros x Hm. destruct (mem m l); cbn [incs]; apply (r_incs s R m x Hm).
  - intros x Hm. destruct (mem m l); cbn [csig]; apply (r_csig s R m x Hm).
  - intros x Hm. destruct (mem m l); cbn [impl]; apply (r_impl s R m x Hm).
Qed.
(* a command that writes nothing of D *)
Lemma right_execute : forall s n, right s -> (forall t, In t (task P n) -> ~ D t) -> right (execute P H s n).
Proof.
  intros s n R Hn. assert (M : forall m, D m -> mem m (task P n) = false) by (intros m Hm; apply mem_false; intros X; apply (Hn m X Hm)).
  unfold execute. destruct (run P (cmd P n) (map (files (wd s)) (kids P s n))) as [ok out]. destruct ok.
  - constructor; intros m; cbn [wd mm files store].
    + intros Hm. rewrite (M m Hm). apply (r_files s R m Hm).
    + intros Hm. rewrite (M m Hm). apply (r_store s R m Hm).
    + intros l Hm. rewrite (M m Hm). cbn [incs]. apply (r_incs s R m l Hm).
    + intros l Hm. rewrite (M m Hm). cbn [csig]. apply (r_csig s R m l Hm).
    + intros l Hm. destruct (mem m (task P n)); cbn [impl]; [apply (r_impl s R m l Hm)|]. destruct (waiting P s (task P n) m); [discriminate | apply (r_impl s R m l Hm)].
  - apply right_failed. constructor; intros m; cbn [wd mm files store].
    + intros Hm. rewrite (M m Hm). apply (r_files s R m Hm).
    + apply (r_store s R m).
    + apply (r_incs s R m).
    + apply (r_csig s R m).
    + apply (r_impl s R m).
Qed.
(* -n *)
Lemma right_perform : forall s n, right s -> right (perform P H (flags_of true) s n).
Proof.
  intros s n R. unfold perform, call, stored, flags_of. cbn [execute_actions do_store_info negb]. constructor; intros m; cbn [wd mm files store].
  - intros Hm. destruct (mem m (task P n)); apply (r_files s R m Hm).
  - apply (r_store s R m).
  - intros l Hm. destruct (mem m (task P n)); cbn [incs]; [discriminate | apply (r_incs s R m l Hm)].
  - intros l Hm. destruct (mem m (task P n)); cbn [csig]; [intros X; injection X as <-; rewrite (r_files s R m Hm); reflexivity | apply (r_csig s R m l Hm)].
  - intros l Hm. destruct (mem m (task P n)); cbn [impl]; [apply (r_impl s R m l Hm)|]. destruct (waiting P s (task P n) m); [discriminate | apply (r_impl s R m l Hm)].
Qed.
(* nodes that are looked at *)
Variables (ts : list node) (V : node -> Prop).
Hypothesis V_target : forall t, In t ts -> V t.
Hypothesis V_child : forall p q, V p -> In q (ch p) -> V q.
Hypothesis V_require : forall p q, V p -> In q (prereq P p) -> V q.
Hypothesis V_peer : forall p q, V p -> In q (peers P p) -> V q.
Hypothesis V_over : forall p, V p -> over p.
Definition within (s : state) : Prop := forall n, st (mm s n) <> NoState -> V n.
Lemma V_task : forall n t, V n -> In t (task P n) -> V t.
Proof. intros n t Hn Ht. destruct (task_derived P n t Ht) as [-> |[Hp _]]; [exact Hn | apply (V_peer n t Hn Hp)]. Qed.
Lemma V_waits : forall s n k, right s -> V n -> In k (waits_for P s n) -> V k.
Proof.
  intros s n k R Hn Hk. unfold waits_for in Hk. apply in_app_iff in Hk. destruct Hk as [Hk|Hk]; apply in_flat_map in Hk; destruct Hk as (t & Ht & Hk); pose proof (V_task n t Hn Ht) as Vt; [apply (V_require t k Vt Hk)|].
  rewrite (right_kids s t R (V_over t Vt)) in Hk. apply (V_child t k Vt Hk).
Qed.
Lemma V_wanted : forall s n, right s -> within s -> wanted P ts s n -> V n.
Proof. intros s n R W [Hn|(p & Hp & Hn & _)]; [apply V_target, Hn|]. apply (V_waits s p n R); [apply W; rewrite Hp; discriminate | exact Hn]. Qed.
Lemma within_consider : forall s n, right s -> within s -> wanted P ts s n -> within (consider P s n).
Proof. intros s n R W Hw m Hm. rewrite consider_st in Hm. destruct (m =? n) eqn:E; [apply Nat.eqb_eq in E; rewrite E; apply (V_wanted s n R W Hw) | apply W, Hm]. Qed.
Lemma within_set : forall s s2 n, within s -> st (mm s n) <> NoState -> (forall m, ~ In m (task P n) -> st (mm s2 m) = st (mm s m)) -> within s2.
Proof. intros s s2 n W Hn He m Hm. destruct (in_dec Nat.eq_dec m (task P n)) as [Hi|Hi]; [apply (V_task n m (W n Hn) Hi) | apply W; rewrite <- (He m Hi); exact Hm]. Qed.
End Right.

Lemma set_done_st : forall s l m, st (mm (set_done H s l) m) = if mem m l then UpToDate else st (mm s m).
Proof. intros s l m. cbn [set_done mm]. destruct (mem m l); reflexivity. Qed.
Lemma set_failed_st : forall s l m, st (mm (set_failed s l) m) = if mem m l then Failed else st (mm s m).
Proof. intros s l m. cbn [set_failed mm]. destruct (mem m l); reflexivity. Qed.
Lemma perform_st : forall s n m, st (mm (perform P H (flags_of true) s n) m) = if mem m (task P n) then Executed else st (mm s m).
Proof. intros s n m. unfold perform, call, flags_of. cbn [execute_actions negb mm]. destruct (mem m (task P n)); reflexivity. Qed.
Lemma mem_in : forall m l, In m l -> mem m l = true. Proof. intros m l. apply mem_In. Qed.
Lemma mem_out : forall m l, ~ In m l -> mem m l = false. Proof. intros m l. apply mem_false. Qed.

(* ---- runs that leave the files alone: -n and -q ---- *)
Section Dry.
Variable ts : list node.
Definition All (n : node) : Prop := True.
Notation V := (involved P w ts).
Lemma all_over : forall n, over All n. Proof. intros n x _. exact Logic.I. Qed.
Record told (tr : list node) (s : state) : Prop := {
  t_right : right All s;
  t_within : within V s;
  t_late : forall n t, In t (task P n) -> late (st (mm s n)) -> st (mm s t) = st (mm s n);
  t_done : forall n t k, done (st (mm s n)) = true -> In t (task P n) -> In k (ch t) \/ In k (prereq P t) -> done (st (mm s k)) = true;
  t_up : forall n, st (mm s n) = UpToDate -> ~ outdated P H w n;
  t_src : forall n, derived P n = false -> done (st (mm s n)) = true -> In n ts -> files w n <> None;
  t_exe : forall n, st (mm s n) = Executed -> exists m, In m tr /\ In m (task P n);
  t_tr : forall n, In n tr -> derived P n = true /\ outdated P H w n /\ st (mm s n) = Executed;
  t_once : once P tr }.
Lemma outdated_task : forall s n, right All s -> derived P n = true -> (forallb (uptodate P H s) (task P n) = false <-> outdated P H w n).
Proof.
  intros s n R Hd. assert (E : task P n = peers P n) by (unfold task, derived in *; destruct (peers P n); [discriminate | reflexivity]). rewrite E. unfold outdated. split.
  - intros Hf. destruct (forallb_forall (uptodate P H s) (peers P n)) as [_ F].
    assert (X : exists t, In t (peers P n) /\ uptodate P H s t = false).
    { clear F E. revert Hf. induction (peers P n) as [|a l IH]; cbn [forallb]; [discriminate|]. intros Hf. destruct (uptodate P H s a) eqn:Ea; [|exists a; split; [left; reflexivity | exact Ea]].
      destruct (IH Hf) as (t & H1 & H2). exists t. split; [right; exact H1 | exact H2]. }
    destruct X as (t & Ht & Hu). exists t. split; [exact Ht|]. destruct (files w t) as [c|] eqn:Ef; [|left; reflexivity]. right. intros Hc.
    assert (uptodate P H s t = true) by (apply (right_uptodate All s t R (all_over t) (r_files All s R t Logic.I) (r_store All s R t Logic.I)); rewrite Ef; split; [discriminate | exact Hc]). congruence.
  - intros (t & Ht & Ho). destruct (forallb (uptodate P H s) (peers P n)) eqn:F; [|reflexivity]. rewrite forallb_forall in F. specialize (F t Ht).
    apply (right_uptodate All s t R (all_over t) (r_files All s R t Logic.I) (r_store All s R t Logic.I)) in F. destruct F as [F1 F2]. destruct Ho; contradiction.
Qed.
Lemma outdated_same : forall n t, In t (task P n) -> outdated P H w t <-> outdated P H w n.
Proof. intros n t Ht. destruct (task_derived P n t Ht) as [-> |[Hp _]]; [reflexivity|]. unfold outdated. destruct (s_peers P U SO n t Hp) as [-> _]. reflexivity. Qed.
Lemma ready_waits : forall s n t k, right All s -> ready P s n = true -> In t (task P n) -> In k (ch t) \/ In k (prereq P t) -> done (st (mm s k)) = true.
Proof.
  intros s n t k R Hr Ht Hk. destruct (ready_kids P s n t Hr Ht) as (_ & K1 & K2). destruct Hk as [Hk|Hk]; [|apply K2, Hk]. apply K1. rewrite (right_kids All s t R (all_over t)). exact Hk.
Qed.
Lemma plain_outdated : forall n, derived P n = false -> ~ outdated P H w n.
Proof. intros n Hd (t & Ht & _). unfold derived in Hd. destruct (peers P n); [destruct Ht | discriminate]. Qed.
Lemma told_start : forall s, (forall m, mm s m = fresh) -> wd s = w -> told [] s.
Proof.
  intros s Hf Hw. constructor; try (intros; rewrite Hf in *; discriminate).
  - apply right_start; assumption.
  - intros n Hn. rewrite Hf in Hn. contradiction.
  - intros n t _ Hl. rewrite Hf in Hl. destruct Hl.
  - intros n Hn. destruct Hn.
  - split; [constructor | intros n m Hn; destruct Hn].
Qed.
Lemma told_consider : forall tr s n, told tr s -> wanted P ts s n -> st (mm s n) = NoState \/ st (mm s n) = Pending -> told tr (consider P s n).
Proof.
  intros tr s n T Hw Hn. assert (E : forall m, late (st (mm s m)) -> st (mm (consider P s n) m) = st (mm s m)).
  { intros m Hm. rewrite consider_st. destruct (Nat.eqb_spec m n) as [-> |Hne]; [|reflexivity]. destruct Hn as [Hn|Hn]; rewrite Hn in Hm; destruct Hm. }
  assert (B : forall m, late (st (mm (consider P s n) m)) -> late (st (mm s m)) /\ st (mm (consider P s n) m) = st (mm s m)).
  { intros m. rewrite consider_st. destruct (Nat.eqb_spec m n) as [-> |Hne]; [|auto]. destruct Hn as [Hn|Hn]; rewrite Hn; cbn; contradiction. }
  constructor.
  - apply right_consider, (t_right tr s T).
  - apply (within_consider All ts V); [intros t Ht; apply inv_target, Ht | intros p q; apply inv_child | intros p q; apply inv_require | intros p q; apply inv_peer | intros p _; apply all_over | apply (t_right tr s T) | apply (t_within tr s T) | exact Hw].
  - intros m t Ht Hl. destruct (B m Hl) as [Hl2 Em]. rewrite Em. pose proof (t_late tr s T m t Ht Hl2) as X. rewrite E; [exact X | rewrite X; exact Hl2].
  - intros m t k Hd Ht Hk. destruct (B m (done_late _ Hd)) as [_ Em]. rewrite Em in Hd. pose proof (t_done tr s T m t k Hd Ht Hk) as X. rewrite E; [exact X | apply done_late, X].
  - intros m Hm. destruct (B m) as [_ Em]; [rewrite Hm; exact Logic.I|]. apply (t_up tr s T). congruence.
  - intros m Hd Hm. destruct (B m (done_late _ Hm)) as [_ Em]. rewrite Em in Hm. apply (t_src tr s T m Hd Hm).
  - intros m Hm. destruct (B m) as [_ Em]; [rewrite Hm; exact Logic.I|]. apply (t_exe tr s T). congruence.
  - intros m Hm. destruct (t_tr tr s T m Hm) as (X1 & X2 & X3). split; [exact X1|]. split; [exact X2|]. rewrite E; [exact X3 | rewrite X3; exact Logic.I].
  - apply (t_once tr s T).
Qed.
(* the targets of a task get a new state, after everything it waits for *)
Lemma told_set : forall tr tr2 s s2 n x, told tr s -> st (mm s n) = Pending -> right All s2 -> (forall m, st (mm s2 m) = if mem m (task P n) then x else st (mm s m)) -> late x ->
  (done x = true -> ready P s n = true) -> (x = UpToDate -> ~ outdated P H w n) -> (derived P n = false -> done x = true -> In n ts -> files w n <> None) ->
  (x = Executed /\ tr2 = tr ++ [n] /\ derived P n = true /\ outdated P H w n \/ x <> Executed /\ tr2 = tr) -> told tr2 s2.
Proof.
  intros tr tr2 s s2 n x T Hn R E Lx Hr Hu Hsrc Hx.
  assert (NL : forall t, In t (task P n) -> ~ late (st (mm s t))).
  { intros t Ht Hl. pose proof (t_late tr s T t n (task_sym P U SO n t Ht) Hl) as X. rewrite Hn in X. rewrite <- X in Hl. exact Hl. }
  assert (K : forall m, late (st (mm s m)) -> st (mm s2 m) = st (mm s m)) by (intros m Hm; rewrite E, mem_out; [reflexivity | intros X; apply (NL m X Hm)]).
  assert (Sub : incl tr tr2) by (destruct Hx as [(_ & -> & _)|(_ & ->)]; [apply incl_appl, incl_refl | apply incl_refl]).
  constructor.
  - exact R.
  - apply (within_set V) with (s := s) (n := n); [intros p q; apply inv_peer | apply (t_within tr s T) | rewrite Hn; discriminate | intros m Hm; rewrite E, mem_out by exact Hm; reflexivity].
  - intros m t Ht Hl. rewrite E in Hl. rewrite !E. destruct (in_dec Nat.eq_dec m (task P n)) as [Hm|Hm].
    + assert (Ht2 : In t (task P n)) by (destruct (task_same P U SO n m Hm) as (X & _); rewrite <- X; exact Ht). rewrite !mem_in by assumption. reflexivity.
    + assert (Ht2 : ~ In t (task P n)) by (intros X; apply Hm; destruct (task_same P U SO n t X) as (Y & _); rewrite <- Y; apply (task_sym P U SO), Ht).
      rewrite (mem_out m) in * by exact Hm. rewrite mem_out by exact Ht2. apply (t_late tr s T m t Ht Hl).
  - intros m t k Hd Ht Hk. destruct (in_dec Nat.eq_dec m (task P n)) as [Hm|Hm].
    + rewrite E, mem_in in Hd by exact Hm. assert (Ht2 : In t (task P n)) by (destruct (task_same P U SO n m Hm) as (X & _); rewrite <- X; exact Ht).
      pose proof (ready_waits s n t k (t_right tr s T) (Hr Hd) Ht2 Hk) as X. rewrite K; [exact X | apply done_late, X].
    + rewrite E, mem_out in Hd by exact Hm. pose proof (t_done tr s T m t k Hd Ht Hk) as X. rewrite K; [exact X | apply done_late, X].
  - intros m Hm. destruct (in_dec Nat.eq_dec m (task P n)) as [Hi|Hi]; rewrite E in Hm; [rewrite mem_in in Hm by exact Hi; rewrite (outdated_same n m Hi); apply Hu, Hm | rewrite mem_out in Hm by exact Hi; apply (t_up tr s T m Hm)].
  - intros m Hd Hm. destruct (in_dec Nat.eq_dec m (task P n)) as [Hi|Hi]; rewrite E in Hm; [rewrite mem_in in Hm by exact Hi | rewrite mem_out in Hm by exact Hi; apply (t_src tr s T m Hd Hm)].
    destruct (task_same P U SO n m Hi) as (_ & X & _). assert (Hdn : derived P n = false) by congruence. rewrite (plain_task P n Hdn) in Hi. destruct Hi as [<- |[]]. apply Hsrc; assumption.
  - intros m Hm. destruct (in_dec Nat.eq_dec m (task P n)) as [Hi|Hi]; rewrite E in Hm.
    + rewrite mem_in in Hm by exact Hi. destruct Hx as [(_ & -> & _)|(X & _)]; [|contradiction]. exists n. split; [apply in_app_iff; right; left; reflexivity | apply (task_sym P U SO), Hi].
    + rewrite mem_out in Hm by exact Hi. destruct (t_exe tr s T m Hm) as (y & Y1 & Y2). exists y. split; [apply Sub, Y1 | exact Y2].
  - intros m Hm. assert (X : In m tr \/ m = n /\ x = Executed /\ derived P n = true /\ outdated P H w n).
    { destruct Hx as [(X1 & -> & X2 & X3)|(_ & ->)]; [|left; exact Hm]. apply in_app_iff in Hm. destruct Hm as [Hm|[<- |[]]]; [left; exact Hm | right; auto]. }
    destruct X as [X|(-> & X1 & X2 & X3)].
    + destruct (t_tr tr s T m X) as (X1 & X2 & X3). split; [exact X1|]. split; [exact X2|]. rewrite K; [exact X3 | rewrite X3; exact Logic.I].
    + split; [exact X2|]. split; [exact X3|]. rewrite E, mem_in by apply (self_task P U SO). exact X1.
  - destruct Hx as [(_ & -> & Hd & _)|(_ & ->)]; [|apply (t_once tr s T)]. destruct (t_once tr s T) as [O1 O2].
    assert (Out : forall m, In m tr -> ~ In m (task P n)) by (intros m Hm Hi; apply (NL m Hi); destruct (t_tr tr s T m Hm) as (_ & _ & ->); exact Logic.I).
    split.
    + rewrite <- rev_involutive, rev_app_distr. apply NoDup_rev. cbn [rev app]. constructor; [rewrite <- in_rev; intros X; apply (Out n X), (self_task P U SO) | apply NoDup_rev, O1].
    + intros a b Ha Hb Hp. apply in_app_iff in Ha, Hb. destruct Ha as [Ha|[<- |[]]], Hb as [Hb|[<- |[]]]; [apply (O2 a b Ha Hb Hp) | | | reflexivity]; exfalso.
      * apply (Out a Ha). destruct (s_peers P U SO a n Hp) as [X _]. unfold task. rewrite X. assert (Y : In a (peers P a)) by (apply (s_self P U SO); intros Z; rewrite Z in Hp; destruct Hp). destruct (peers P a); [destruct Hp | exact Y].
      * apply (Out b Hb). unfold task. destruct (peers P n); [destruct Hp | exact Hp].
Qed.
Lemma done_n : forall tr s n, told tr s -> ready P s n = true -> (derived P n = true -> forallb (uptodate P H s) (task P n) = true) -> (derived P n = false -> In n ts -> files w n <> None) -> told tr (set_done H s (task P n)).
Proof.
  intros tr s n T Hr Hu Hs. apply (told_set tr tr s _ n UpToDate T); [apply (ready_pending P s n Hr) | apply right_done, (t_right tr s T) | intros m; apply set_done_st | exact Logic.I | intros _; exact Hr | | intros Hd _; apply Hs, Hd | right; split; [discriminate | reflexivity]].
  intros _ Ho. destruct (derived P n) eqn:Hd; [|apply (plain_outdated n Hd Ho)]. apply (outdated_task s n (t_right tr s T) Hd) in Ho. rewrite (Hu eq_refl) in Ho. discriminate.
Qed.
Lemma failed_n : forall tr s n, told tr s -> st (mm s n) = Pending -> told tr (set_failed s (task P n)).
Proof.
  intros tr s n T Hn. apply (told_set tr tr s _ n Failed T); [exact Hn | apply right_failed, (t_right tr s T) | intros m; apply set_failed_st | exact Logic.I | discriminate | discriminate | discriminate | right; split; [discriminate | reflexivity]].
Qed.
Lemma told_pstep : forall tr s l s2, told tr s -> pstep P H (flags_of true) ts s l s2 -> told (tr ++ l) s2.
Proof.
  intros tr s l s2 T Hs. destruct Hs as [n H1 H2|n H1 H2 H3|n H1 H2 H3|n H1 H2 H3|n H1 H2 H3|n H1 H2]; rewrite ?app_nil_r.
  - apply told_consider; assumption.
  - rewrite <- (plain_task P n H2). apply done_n; [exact T | exact H1 | congruence|]. intros _ _. unfold missing in H3. rewrite (r_files All s (t_right tr s T) n Logic.I) in H3. destruct (files w n); [discriminate | discriminate H3].
  - rewrite <- (plain_task P n H2). apply failed_n; [exact T | apply (ready_pending P s n H1)].
  - apply done_n; [exact T | exact H1 | intros _; exact H3 | congruence].
  - apply (told_set tr (tr ++ [n]) s _ n Executed T); [apply (ready_pending P s n H1) | apply right_perform, (t_right tr s T) | intros m; apply perform_st | exact Logic.I | intros _; exact H1 | discriminate | congruence|].
    left. split; [reflexivity|]. split; [reflexivity|]. split; [exact H2 | apply (outdated_task s n (t_right tr s T) H2), H3].
  - apply failed_n; assumption.
Qed.
Lemma told_psteps : forall s l s2, psteps P H (flags_of true) ts s l s2 -> forall tr, told tr s -> told (tr ++ l) s2.
Proof.
  intros s l s2 Hs. induction Hs as [s|s l s1 l1 s2 H1 H2 IH]; intros tr T; [rewrite app_nil_r; exact T|]. rewrite app_assoc. apply IH, (told_pstep tr s l s1 T H1).
Qed.
Lemma all_done : forall tr s, told tr s -> succeeded ts s -> forall n, V n -> done (st (mm s n)) = true.
Proof.
  intros tr s T Hok n Hn. induction Hn as [t Ht|p q Hp IH Hq|p q Hp IH Hq|p q Hp IH Hq].
  - apply Hok, Ht.
  - apply (t_done tr s T p p q IH (self_task P U SO p)). left. exact Hq.
  - apply (t_done tr s T p p q IH (self_task P U SO p)). right. exact Hq.
  - assert (Hi : In q (task P p)) by (unfold task; destruct (peers P p); [destruct Hq | exact Hq]). rewrite (t_late tr s T p q Hi (done_late _ IH)). exact IH.
Qed.
Lemma lists : forall tr s, told tr s -> succeeded ts s -> forall n, listed P tr n <-> V n /\ outdated P H w n.
Proof.
  intros tr s T Hok n. split.
  - intros (m & Hm & Hn). destruct (t_tr tr s T m Hm) as (D1 & D2 & D3). assert (Vm : V m) by (apply (t_within tr s T); rewrite D3; discriminate).
    destruct Hn as [<- |Hn]; [split; assumption|]. assert (Hi : In m (task P n)) by (unfold task; destruct (peers P n); [destruct Hn | exact Hn]).
    split; [|apply (outdated_same n m Hi), D2]. apply (inv_peer P w ts m n Vm). destruct (s_peers P U SO n m Hn) as [-> _]. apply (s_self P U SO). intros X. rewrite X in Hn. destruct Hn.
  - intros [Vn On]. pose proof (all_done tr s T Hok n Vn) as Dn. destruct (st (mm s n)) eqn:E; try discriminate; [exfalso; apply (t_up tr s T n E On)|].
    destruct (t_exe tr s T n E) as (m & M1 & M2). exists m. split; [exact M1|]. destruct (task_derived P n m M2) as [-> |[X _]]; auto.
Qed.
End Dry.
End Nx.
