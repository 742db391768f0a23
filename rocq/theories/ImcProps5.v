(* C67: a run without --implicit-cache, or with --implicit-deps-changed, scans the sources of all targets it needs, and all it finds there *)
From Coq Require Import List Bool Arith Lia.
Import ListNotations.
From Verif Require Import ImcModel ImcSpec ImcProps ImcProps2.

Section Scans.
Variables (T : tools) (H : option content -> sig) (P : project) (mo : mode).
Hypothesis PP : proper P.
Hypothesis MO : mo = Off \/ mo = Changed.
(* tr: all that was done so far *)
Definition seen (tr : list act) (s : state) : Prop := forall t i k, derived P t = true -> impl (mm s t) = Some (i, k) -> forall x, In x (sources P t ++ i) -> In (Scanned x) tr.
Lemma seen_more : forall tr tr2 s, seen tr s -> seen (tr ++ tr2) s.
Proof. intros tr tr2 s X t i k Hd Hi x Hx. apply in_app_iff. left. apply (X t i k Hd Hi x Hx). Qed.
Lemma seen_step : forall ts s tr0 tr s1, step T H P mo ts s tr s1 -> seen tr0 s -> seen (tr0 ++ tr) s1.
Proof.
  intros ts s tr0 tr s1 Hs X. destruct Hs as [n Hw Hn|n Hr Hd|n Hr Hd Hu|n Hr Hd Hu Hl|n Hr Hd Hu Hl|n Hp Hf].
  - intros t i k Hd Hi x Hx. cbn [consider mm impl] in Hi. cbv zeta in Hi. cbn [impl] in Hi. apply in_app_iff. unfold reads. destruct (needs_scan s (task P n)) eqn:En; cbn [andb] in Hi; [|left; apply (X t i k Hd Hi x Hx)].
    destruct (mem t (task P n)) eqn:Et; [|left; apply (X t i k Hd Hi x Hx)]. right. apply mem_In in Et. destruct (task_same P PP n t Et) as (E1 & E2 & E3 & _).
    assert (Dn : derived P n = true) by congruence. apply in_map. unfold scanned. rewrite Dn. cbv zeta. injection Hi as Hi. unfold new_impl in Hi. rewrite Dn in Hi. cbv zeta in Hi.
    unfold stored in Hi |- *. destruct MO as [E|E]; rewrite E in Hi |- *; injection Hi as <- _; rewrite E3 in Hx; exact Hx.
  - rewrite app_nil_r. intros t i k Hdt Hi x Hx. cbn [set_done mm] in Hi. cbv zeta in Hi. apply (X t i k Hdt); [destruct (mem t [n]); exact Hi | exact Hx].
  - rewrite app_nil_r. intros t i k Hdt Hi x Hx. cbn [set_done mm] in Hi. cbv zeta in Hi. apply (X t i k Hdt); [destruct (mem t (task P n)); exact Hi | exact Hx].
  - rewrite app_nil_r. intros t i k Hdt Hi x Hx. cbn [set_failed mm] in Hi. cbv zeta in Hi. apply (X t i k Hdt); [destruct (mem t (task P n)); exact Hi | exact Hx].
  - apply seen_more. unfold execute. cbv zeta. destruct (run T (cmd P n) (map (files (wd s)) (deps P s n))) as [ok out]. destruct ok; intros t i k Hdt Hi x Hx.
    + cbn [mm] in Hi. cbv zeta in Hi. destruct (mem t (task P n)).
      * cbn [impl] in Hi. destruct (impl (mm s t)) as [[i2 k2]|] eqn:Ei; [|discriminate]. injection Hi as -> _. apply (X t i k2 Hdt Ei x Hx).
      * cbn [impl] in Hi. destruct (waiting P s (task P n) t); [discriminate|]. apply (X t i k Hdt Hi x Hx).
    + cbn [set_failed mm] in Hi. cbv zeta in Hi. apply (X t i k Hdt); [destruct (mem t (task P n)); exact Hi | exact Hx].
  - rewrite app_nil_r. intros t i k Hdt Hi x Hx. cbn [set_failed mm] in Hi. cbv zeta in Hi. apply (X t i k Hdt); [destruct (mem t (task P n)); exact Hi | exact Hx].
Qed.
Lemma seen_steps : forall ts s tr s2, steps T H P mo ts s tr s2 -> forall tr0, seen tr0 s -> seen (tr0 ++ tr) s2.
Proof. intros ts s tr s2 Hs. induction Hs as [s|s tr s1 tr1 s2 H1 H2 IH]; intros tr0 X; [rewrite app_nil_r; exact X|]. rewrite app_assoc. apply IH, (seen_step ts s tr0 tr s1 H1 X). Qed.
End Scans.
Theorem C67e_changed : forall T H U src_of find P f es P2 w mo ts s0 tr s,
  sound T H U -> fits T P f es src_of find -> history T H P (new_disk f) es P2 w -> mo = Off \/ mo = Changed -> began w s0 -> steps T H P2 mo ts s0 tr s -> succeeded ts s ->
  forall m, needed T P2 (files (wd s)) ts m -> derived P2 m = true -> forall x, In x (sources P2 m) \/ In x (implicit_deps T P2 (files (wd s)) m) -> In (Scanned x) tr.
Proof.
  intros T H U src_of find P f es P2 w mo ts s0 tr s SO (F1 & F4) Hh Hm Hb Hs Hok m Hn Hd x Hx.
  assert (Hmu : mo <> Unchanged) by (destruct Hm; congruence).
  assert (Hon : honest T H src_of find P2 w).
  { apply (history_honest T H U SO src_of find P (new_disk f) es P2 w Hh); [|intros P3 f3 Hi; apply F1; right; apply in_flat_map; exists (Edit P3 f3); split; [exact Hi | left; reflexivity] | exact F4].
    destruct (F1 P f (or_introl eq_refl)) as (V1 & V2 & V3). split; [exact V1|]. split; [exact V2|]. split; [exact V3|]. intros t e He. discriminate. }
  destruct (run_honest T H U SO src_of find P2 w mo ts s0 tr s Hon Hmu Hb Hs) as [V _]. assert (PP : proper P2) by apply Hon.
  assert (D : done (st (mm s m)) = true) by (eapply needed_done; eassumption).
  assert (DC := D). eapply done_children in DC; [|eassumption..]. destruct DC as (_ & _ & E). specialize (E Hd).
  destruct (j_done _ _ _ _ _ _ _ V m D) as [(l & G1) _ _ _].
  assert (X : seen P2 ([] ++ tr) s). { apply (seen_steps T H P2 mo PP Hm ts s0 tr s Hs). intros t i k _ Ei. destruct Hb as [_ Hb]. rewrite Hb in Ei. discriminate. }
  apply (X m l l Hd G1). apply in_app_iff. destruct Hx as [Hx|Hx]; [left; exact Hx | right]. rewrite <- E in Hx. unfold implicit in Hx. rewrite G1 in Hx. exact Hx.
Qed.
Print Assumptions C67e_changed.
