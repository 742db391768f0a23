(* From invariants to the property statements.  Proof file. *)
From Coq Require Import List Arith ZArith Bool Lia Permutation.
Import ListNotations.
From Verif Require Import TMModel TMBase TMSpec TMSafe TMSafe2 TMStatic TMStatic2 TMStatic3 TMFinal TMCycle.

Section End.
Context (c : cfg) (kids : node -> list node).
Context (W : cfg_wf c) (G : graph_wf c kids).

Lemma stop_iff ops s : reachable c ops s -> (stopped s = false <-> ~ In EStop (trace s)).
Proof.
  intros R. pose proof (di_stop _ _ (reachable_dinv c ops s W R)) as D. destruct (stopped s); split; intros H; try congruence.
  - elim H. apply D; reflexivity.
  - intros X. apply D in X; discriminate.
Qed.

Lemma ended_final ops s : ended c ops s -> static kids ops -> ~ In EStop (trace s) -> noign (trace s) -> final c kids s.
Proof.
  intros (ops0 & e & s0 & fuel & -> & R & Eo & Rn & H) St Ns Ni.
  apply Forall_app in St. destruct St as [St0 St1]. inversion St1 as [|x l Kd _]; subst. cbn in Kd.
  pose proof (reachable_dinv c ops0 s0 W R) as D.
  assert (St : stopped s0 = false).
  { apply (stop_iff ops0 s0 R). intros X. destruct (next_events _ _ _ _ _ _ W Eo D H) as [E|(m & ev & l & E & _)]; apply Ns; rewrite E; [exact X|].
    apply in_or_app; right; right; exact X. }
  assert (Ni0 : noign (trace s0)).
  { intros q X. destruct (next_events _ _ _ _ _ _ W Eo D H) as [E|(m & ev & l & E & _)]; apply (Ni q); rewrite E; [exact X|].
    apply in_or_app; right; right; exact X. }
  pose proof (reachable_sinv c kids W G ops0 s0 R St0 (conj St Ni0)) as Sv.
  pose proof (search_sinv c kids W G e Eo Kd fuel s0 Sv D St) as Q. unfold next_task in H.
  destruct (find_ready fuel c e s0) as [|z|z m exc]; [discriminate | |].
  - injection H as <-. destruct Q as (Q1 & Q2 & Q3 & Q4 & Q5 & Q6 & Q7). constructor; auto. congruence.
  - exfalso. destruct (exc || _); [destruct (retire _ _ _ _ _ _); discriminate|].
    destruct (match all_targets c m with t :: _ => nstate_eqb (nst (make_ready c (e_ready e m) z (all_targets c m)) t) Executing | [] => false end); [discriminate|].
    destruct (retire _ _ _ _ _ _); discriminate.
Qed.

Lemma deps_first ops s fuel e s' l ts t :
  reachable c ops s -> env_ok c e -> step fuel c s (Next e) = Some s' ->
  trace s' = l ++ trace s -> In (EStart ts) l \/ In (ECurrent ts) l -> In t ts ->
  exists deps, e_kids e t = Some deps /\ forall k, In k deps -> finished (trace s) k.
Proof.
  intros R Eo H El Hi Ht. cbn in H. destruct (next_task fuel c e s) as [[z b]|] eqn:En; [|discriminate]. injection H as <-.
  destruct (next_events _ _ _ _ _ _ W Eo (reachable_dinv c ops s W R) En) as [E|(m & ev & l' & E & Hl & _ & K & _)].
  - rewrite E in El. assert (length (trace s) = length (l ++ trace s)) as X by (f_equal; exact El).
    rewrite app_length in X. destruct l; [simpl in Hi; tauto | simpl in X; lia].
  - rewrite E in El. change (l' ++ ev :: trace s) with (l' ++ [ev] ++ trace s) in El. rewrite app_assoc in El. apply app_inv_tail in El. subst l.
    assert (Hev : is_issue ev ts).
    { rewrite !in_app_iff in Hi. simpl in Hi. destruct Hl as [-> | ->]; simpl in Hi; unfold is_issue; intuition congruence. }
    destruct (K ts Hev) as (-> & ch & K1 & K2). exists ch. split; [|exact K2].
    rewrite (eo_kids c e Eo m t Ht). exact K1.
Qed.

(* the same issue seen from a whole trace, for a fixed graph: nothing under it has failed *)
Lemma no_failed_below ops s fuel e s' l ts t m :
  reachable c ops s -> static kids (ops ++ [Next e]) -> env_ok c e -> noign (trace s) -> step fuel c s (Next e) = Some s' ->
  trace s' = l ++ trace s -> In (EStart ts) l \/ In (ECurrent ts) l -> In t ts -> depends kids t m -> ~ failed (trace s) m.
Proof.
  intros R St Eo Ni H El Hi Ht Hd Hf.
  apply Forall_app in St. destruct St as [St0 St1]. inversion St1 as [|x y Kd _]; subst. cbn in Kd.
  destruct (deps_first ops s fuel e s' l ts t R Eo H El Hi Ht) as (ch & K1 & K2). rewrite Kd in K1. injection K1 as <-.
  pose proof (reachable_dinv c ops s W R) as D.
  assert (Hs : stopped s = false).
  { cbn in H. destruct (next_task fuel c e s) as [[z b]|] eqn:En; [|discriminate]. injection H as <-.
    destruct (next_events _ _ _ _ _ _ W Eo D En) as [E|(q & ev & l' & E & _ & Q & _)]; [|exact Q].
    rewrite E in El. assert (length (trace s) = length (l ++ trace s)) as X by (f_equal; exact El).
    rewrite app_length in X. destruct l; [simpl in Hi; tauto | simpl in X; lia]. }
  pose proof (reachable_sinv c kids W G ops s R St0 (conj Hs Ni)) as Sv.
  apply (F_fail _ _ _ _ Sv) in Hf.
  assert (exists k, In k (kids t) /\ depends0 kids k m) as (k & Hk & Hkm).
  { clear - Hd. inversion Hd as [a b A|a k b A B]; subst; [exists m; split; [exact A | apply d0]|].
    exists k; split; [exact A|]. clear - B. induction B; [eapply d1; [eassumption | apply d0] | eapply d1; eassumption]. }
  pose proof (done_closed c kids [] s k m Sv (F_fin _ _ _ _ Sv k (K2 k Hk)) Hkm) as Q. rewrite Hf in Q. discriminate.
Qed.

Lemma stop_final ops s fuel e s' :
  reachable c ops s -> env_ok c e -> In EStop (trace s) -> step fuel c s (Next e) = Some s' -> trace s' = trace s.
Proof.
  intros R Eo Hs H. pose proof (reachable_dinv c ops s W R) as D.
  cbn in H. destruct (next_task fuel c e s) as [[z b]|] eqn:En; [|discriminate]. injection H as <-.
  destruct (next_events _ _ _ _ _ _ W Eo D En) as [E|(q & ev & l' & E & _ & Q & _)]; [exact E|].
  apply (di_stop _ _ D) in Hs. congruence.
Qed.

Lemma complete_all ops s t n : ended c ops s -> static kids ops -> acyclic kids -> no_failure (trace s) ->
  In t (tops c) -> ~ is_side_effect c t -> depends0 kids t n -> finished (trace s) n.
Proof.
  intros He St Ac [N1 N2] Ht Hs Hd.
  assert (Fi : final c kids s) by (apply (ended_final ops); [assumption | assumption | assumption | intros q; apply (N2 q)]).
  eapply (final_closed c kids s Fi t n); [|exact Hd].
  apply (final_covered c kids W G s Fi Ac t); [eapply final_top; eassumption|].
  apply untainted_nofail. intros q; apply (N2 q).
Qed.

Lemma complete_keep_going ops s t n : ended c ops s -> static kids ops -> acyclic kids -> ~ In EStop (trace s) -> noign (trace s) ->
  In t (tops c) -> reaches c kids t n -> ~ tainted kids (trace s) n -> finished (trace s) n.
Proof.
  intros He St Ac N1 N2 Ht Hr Hn.
  assert (Fi : final c kids s) by (apply (ended_final ops); assumption).
  apply (final_covered c kids W G s Fi Ac n); [|exact Hn].
  apply (final_reaches c kids G s Fi t n Hr). apply (final_top c kids s t Fi Ht). inversion Hr; assumption.
Qed.

Lemma cycle_silent ops s e : ended c ops s -> static kids ops -> acyclic kids -> no_failure (trace s) -> forall fuel, cleanup_raises fuel e s = Some false.
Proof.
  intros He St Ac [N1 N2] fuel.
  assert (Fi : final c kids s) by (apply (ended_final ops); [assumption | assumption | assumption | intros q; apply (N2 q)]).
  destruct (final_no_edges c kids s Fi Ac (fun q => proj1 (N2 q))) as [_ E].
  unfold cleanup_raises. rewrite E. reflexivity.
Qed.

Lemma cycle_reported ops s e : ended c ops s -> static kids ops -> env_ok c e -> (forall n, ~ is_side_effect c n) -> no_failure (trace s) ->
  (exists t n, In t (tops c) /\ depends0 kids t n /\ depends kids n n) ->
  exists F, forall fuel, fuel >= F -> cleanup_raises fuel e s = Some true.
Proof.
  intros He St Eo Nse [N1 N2] (t & n & Ht & Hd & Hc).
  assert (Fi : final c kids s) by (apply (ended_final ops); [assumption | assumption | assumption | intros q; apply (N2 q)]).
  assert (Ni : noign (trace s)) by (intros q; apply (N2 q)).
  assert (Sv := fi_sinv c kids s Fi).
  assert (Ord := F_ord _ _ _ _ Sv).
  destruct (pend s) as [|p r] eqn:Ep.
  - exfalso.
    pose proof (final_pend_nil c kids s Fi (F_nd _ _ _ _ Sv) Nse (fun q => proj1 (N2 q)) Ep) as AllF.
    assert (Ft : finished (trace s) t).
    { destruct (final_top c kids s t Fi Ht (Nse t)) as (t' & A & B). pose proof (AllF t' B) as F'.
      assert (At : In t (all_targets c t')) by (rewrite (cw_share c W t t' A); apply cw_self; exact W).
      destruct (F_over _ _ _ _ Sv t (F_tgt _ _ _ _ Sv t' t (finished_tasked c kids [] s Sv t' F') At)) as [Q|[(q & _ & Q)|(q & Q & _)]];
        [exact Q | elim (proj1 (N2 q) Q) | rewrite (fi_run _ _ _ Fi) in Q; elim Q]. }
    pose proof (final_closed c kids s Fi t n Ft Hd) as Fn.
    apply (ordered_acyclic kids (length (trace s)) (trace s) (le_n _) Ord Ni n); [|exact Hc].
    apply ordered_issued with (kids := kids); assumption.
  - destruct (cleanup_total e s (env_ok_wf c e Eo)) as [F HF]. exists F. intros fuel Hf.
    rewrite cleanup_eq. rewrite Ep. destruct (HF fuel Hf (p :: r)) as [b Hb]; [rewrite Ep; intros x Hx; exact Hx|].
    destruct b; [exact Hb|]. exfalso. revert Hb. apply cleanup_raise_head.
    intros X. destruct (F_pend _ _ _ _ Sv p) as [q Q]; [rewrite Ep; left; reflexivity|].
    apply (F_edge1 _ _ _ _ Sv) in Q. destruct Q as (_ & Q & _). rewrite X in Q. discriminate.
Qed.

(* every cycle that find_cycle reports is a cycle of the dependency graph *)
Lemma cycle_genuine ops s e fuel n r v : reachable c ops s -> static kids ops -> clean s -> env_ok c e ->
  find_cycle fuel s e n [n] [] = Some (Some r, v) ->
  (exists l, r = n :: l ++ [n]) /\ (forall l1 a b l2, r = l1 ++ a :: b :: l2 -> In a (kids b)) /\ depends kids n n.
Proof.
  intros R St Cl Eo H. pose proof (reachable_sinv c kids W G ops s R St Cl) as Sv.
  destruct (find_cycle_sound e s n (env_ok_wf c e Eo) fuel [n] [] r v H) as (A & [l1 B] & [l2 C] & D); [exact Logic.I | exists []; reflexivity|].
  assert (exists l, r = n :: l ++ [n]) as [l Er].
  { destruct l2 as [|x l2]; [rewrite C in D; simpl in D; lia|]. rewrite B in C. cbn in C. injection C as <- C. exists l2. rewrite B, C. reflexivity. }
  assert (K : forall a b, In (a, b) (wpE s) -> In a (kids b)) by (intros a b Q; apply (F_edge1 _ _ _ _ Sv a b Q)).
  split; [exists l; exact Er|]. split.
  - intros q1 a b q2 Eq. apply K. clear - A Eq. subst r. induction q1 as [|x q1 IH]; [exact (proj1 A)|].
    apply IH. destruct q1; cbn in *; tauto.
  - rewrite Er in A. exact (walk_depends kids (wpE s) n l n K A).
Qed.
End End.
