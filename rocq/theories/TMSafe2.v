(* Consequences of the general invariant: what one step adds to the trace.  Proof file. *)
From Coq Require Import List Arith ZArith Bool Lia Permutation.
Import ListNotations.
From Verif Require Import TMModel TMBase TMSpec TMSafe.

Definition is_issue (ev : event) (ts : list node) : Prop := ev = EStart ts \/ ev = ECurrent ts.

Lemma next_events c e fuel s s' b :
  cfg_wf c -> env_ok c e -> dinv c s -> next_task fuel c e s = Some (s', b) ->
  trace s' = trace s \/
  exists m ev l, trace s' = l ++ ev :: trace s /\ (l = [] \/ l = [EStop]) /\ stopped s = false
     /\ (forall ts, is_issue ev ts -> ts = all_targets c m /\
           exists ch, e_kids e m = Some ch /\ forall k, In k ch -> finished (trace s) k)
     /\ ev <> EStop.
Proof.
  intros W Eo D H. pose proof (env_ok_wf c e Eo) as We.
  pose proof (search_dinv c e W We fuel s D) as S. unfold next_task in H.
  destruct (find_ready fuel c e s) as [|z|z m exc] eqn:Ef; [discriminate | injection H as <- _; left; tauto |].
  assert (Hst : stopped s = false).
  { destruct fuel as [|fuel]; [discriminate|]. simpl in Ef. unfold next_candidate in Ef. destruct (stopped s); [|reflexivity].
    destruct (cands s); [discriminate|]. destruct (will_not_build _ _ _ _ _); discriminate. }
  destruct S as [([D1 D2 D3 D4 D5 D6 D7] & Pm & T & R & K) St].
  set (ts := all_targets c m) in *.
  set (z1 := make_ready c (e_ready e m) z ts) in *.
  destruct (make_ready_rest c (e_ready e m) z ts) as (M1 & M2 & M3 & M4 & M5 & [M6 M7 M8 M9 M10 M11]). fold z1 in M1, M2, M3, M4, M5, M6, M7, M8, M9, M10, M11.
  assert (R1 : refok z1) by (destruct D1 as [Da Db]; split; [rewrite M2; exact Da | intros p; rewrite M1, M2; apply Db]).
  right. exists m.
  assert (Ret : forall ev y, retire fuel c e (e_now e) (emit z1 ev) ts = Some y ->
    trace y = (match e_now e with OFailStop => [EStop] | _ => [] end) ++ ev :: trace s).
  { intros ev y Hy. assert (Re : refok (emit z1 ev)) by exact R1.
    destruct (retire_trace _ _ _ _ _ _ _ We Re Hy) as (Y1 & _). rewrite Y1. cbn. rewrite M11, T. reflexivity. }
  destruct (exc || match e_ready e m with RExc => true | _ => false end) eqn:Ex.
  - destruct (retire fuel c e (e_now e) _ ts) as [y|] eqn:Hy; [|discriminate]. injection H as <- _.
    apply Ret in Hy. eexists _, _. split; [exact Hy|]. split; [destruct (e_now e); auto|]. split; [exact Hst|].
    split; [|destruct (e_now e); discriminate]. intros q [Q|Q]; destruct (e_now e); discriminate.
  - apply orb_false_iff in Ex. destruct Ex as [Ex1 Ex2]. specialize (K Ex1). destruct K as (ch & K1 & K2).
    assert (K3 : exists ch, e_kids e m = Some ch /\ forall k, In k ch -> finished (trace s) k).
    { exists ch; split; [exact K1|]. intros k Hk. rewrite <- T. apply D2, K2; exact Hk. }
    destruct (match ts with t :: _ => nstate_eqb (nst z1 t) Executing | [] => false end) eqn:Ee.
    + injection H as <- _. exists (EStart ts), []. cbn. rewrite M11, T. split; [reflexivity|]. split; [auto|]. split; [exact Hst|].
      split; [|discriminate]. intros q [Q|Q]; [injection Q as <-; auto | discriminate].
    + destruct (retire fuel c e (e_now e) _ ts) as [y|] eqn:Hy; [|discriminate]. injection H as <- _.
      apply Ret in Hy. eexists _, _. split; [exact Hy|]. split; [destruct (e_now e); auto|]. split; [exact Hst|].
      split; [|destruct (e_now e); discriminate]. intros q [Q|Q]; destruct (e_now e); try discriminate. injection Q as <-; auto.
Qed.

Lemma done_events c e fuel s i out s' : env_ok c e -> dinv c s -> step fuel c s (Done i out e) = Some s' ->
  exists l, trace s' = l ++ trace s /\ forall ev, In ev l -> (exists ts, ev = EFinish ts \/ ev = EFail ts) \/ ev = EStop.
Proof.
  intros Eo D H. pose proof (env_ok_wf c e Eo) as We. cbn in H.
  destruct (take_nth i (running s)) as [[ts rest]|]; [|injection H as <-; exists []; split; [reflexivity | intros ev []]].
  assert (Re : refok (emit (set_running s rest) (match out with OOk => EFinish ts | _ => EFail ts end))) by exact (di_ref _ _ D).
  destruct (retire_trace _ _ _ _ _ _ _ We Re H) as (Y1 & _). cbn in Y1.
  exists (match out with OFailStop => [EStop] | _ => [] end ++ [match out with OOk => EFinish ts | _ => EFail ts end]).
  rewrite <- app_assoc; split; [exact Y1|]. intros ev Hv. apply in_app_iff in Hv.
  destruct out; simpl in Hv; destruct Hv as [Hv|Hv]; try tauto; destruct Hv as [<-|[]]; try (right; reflexivity); left; exists ts; auto.
Qed.

Lemma once_twice c tr : once c tr -> forall l1 ev l2 ts n,
  tr = l1 ++ ev :: l2 -> is_issue ev ts -> In n ts -> ~ is_side_effect c n -> ~ handed_out (l1 ++ l2) n.
Proof.
  induction tr as [|e0 tr IH]; intros O l1 ev l2 ts n E Hi Hn Hs Hh.
  - destruct l1; discriminate.
  - destruct l1 as [|x l1]; cbn in E; injection E as -> E.
    + subst tr. cbn in Hh, O. destruct Hi as [-> | ->]; destruct O as [O _]; exact (O n Hn Hs Hh).
    + cbn in Hh. apply handed_cons in Hh. destruct Hh as [Hh|(q & Hq & Hx)].
      * assert (O' : once c tr) by (destruct x; cbn in O; tauto). exact (IH O' l1 ev l2 ts n E Hi Hn Hs Hh).
      * assert (Hr : handed_out tr n).
        { exists ts; split; [exact Hn|]. subst tr. rewrite !in_app_iff. destruct Hi as [-> | ->]; simpl; auto. }
        destruct Hx as [-> | ->]; destruct O as [O _]; exact (O n Hq Hs Hr).
Qed.
