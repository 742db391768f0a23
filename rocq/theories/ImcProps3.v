(* C67: states that agree everywhere behave alike (used to compute runs step by step) *)
From Coq Require Import List Bool Arith Lia.
Import ListNotations.
From Verif Require Import ImcModel ImcSpec ImcProps.

Record eqs (s s2 : state) : Prop := { eq_files : forall n, files (wd s) n = files (wd s2) n; eq_store : forall n, store (wd s) n = store (wd s2) n; eq_mm : forall n, mm s n = mm s2 n }.
Lemma eqs_sym : forall s s2, eqs s s2 -> eqs s2 s.
Proof. intros s s2 [E1 E2 E3]. constructor; intros n; symmetry; auto. Qed.
Lemma eqs_trans : forall s s2 s3, eqs s s2 -> eqs s2 s3 -> eqs s s3.
Proof. intros s s2 s3 [E1 E2 E3] [F1 F2 F3]. constructor; intros n; congruence. Qed.
Lemma eqs_refl : forall s, eqs s s.
Proof. intros s. constructor; reflexivity. Qed.
Lemma existsb_ext : forall (A : Type) (p q : A -> bool) (l : list A), (forall x, p x = q x) -> existsb p l = existsb q l.
Proof. intros A p q l E. induction l as [|a l IH]; [reflexivity | cbn [existsb]; rewrite E, IH; reflexivity]. Qed.
Lemma forallb_ext : forall (A : Type) (p q : A -> bool) (l : list A), (forall x, p x = q x) -> forallb p l = forallb q l.
Proof. intros A p q l E. induction l as [|a l IH]; [reflexivity | cbn [forallb]; rewrite E, IH; reflexivity]. Qed.
Lemma flat_map_ext2 : forall (A B : Type) (p q : A -> list B) (l : list A), (forall x, p x = q x) -> flat_map p l = flat_map q l.
Proof. intros A B p q l E. induction l as [|a l IH]; [reflexivity | cbn [flat_map]; rewrite E, IH; reflexivity]. Qed.
Section Eq.
Variables (T : tools) (H : option content -> sig) (U : list node).
Hypothesis SO : sound T H U.
Variables (P : project) (mo : mode).
Lemma there_ext : forall f g, (forall m, f m = g m) -> forall m, is_there P f m = is_there P g m.
Proof. intros f g E m. unfold is_there. rewrite E. reflexivity. Qed.
Lemma includes_ext : forall f g, (forall m, f m = g m) -> forall x, includes T P f x = includes T P g x.
Proof. intros f g E x. unfold includes. rewrite E. destruct (g x) as [c|]; [|reflexivity]. apply (s_same T H U SO), there_ext, E. Qed.
Section One.
Variables s s2 : state.
Hypothesis E : eqs s s2.
Let Ef := eq_files s s2 E. Let Es := eq_store s s2 E. Let Em := eq_mm s s2 E.
Lemma e_now : forall n, incs_now T P s n = incs_now T P s2 n.
Proof. intros n. unfold incs_now. rewrite Em, (includes_ext _ _ Ef). reflexivity. Qed.
Lemma e_full : forall n, full T P s n = full T P s2 n.
Proof. intros l. apply (s_ext T H U SO). intros x _. apply e_now. Qed.
Lemma e_csig : forall n, csig_now H s n = csig_now H s2 n.
Proof. intros n. unfold csig_now. rewrite Em, Ef. reflexivity. Qed.
Lemma e_same : forall t l, same H P s t l = same H P s2 t l.
Proof. intros t l. unfold same. rewrite Ef, Es. destruct (files (wd s2) t); [|reflexivity]. destruct (store (wd s2) t) as [e|]; [|reflexivity]. do 2 f_equal. apply map_ext, e_csig. Qed.
Lemma e_stored : forall t, stored mo s t = stored mo s2 t.
Proof. intros t. unfold stored. rewrite Es. reflexivity. Qed.
Lemma e_use : forall t l, use_stored H P mo s t l = use_stored H P mo s2 t l.
Proof. intros t l. unfold use_stored. rewrite e_same. reflexivity. Qed.
Lemma e_new : forall n t, new_impl T H P mo s n t = new_impl T H P mo s2 n t.
Proof. intros n t. unfold new_impl. cbv zeta. rewrite e_stored, e_full. destruct (derived P n); [|reflexivity]. destruct (stored mo s2 (first_target P n)) as [l|]; [|reflexivity]. rewrite e_use. reflexivity. Qed.
Lemma e_signed : forall n, signed P mo s n = signed P mo s2 n.
Proof. intros n. unfold signed. cbv zeta. rewrite e_stored. reflexivity. Qed.
Lemma e_scanned : forall n, scanned T H P mo s n = scanned T H P mo s2 n.
Proof. intros n. unfold scanned. cbv zeta. rewrite e_stored, e_full. destruct (derived P n); [|reflexivity]. destruct (stored mo s2 (first_target P n)) as [l|]; [|reflexivity]. rewrite e_use. reflexivity. Qed.
Lemma e_needs : forall l, needs_scan s l = needs_scan s2 l.
Proof. intros l. apply existsb_ext. intros x. rewrite Em. reflexivity. Qed.
Lemma e_consider : forall n, eqs (consider T H P mo s n) (consider T H P mo s2 n).
Proof. intros n. constructor; intros m; cbn [consider wd mm]; [apply Ef | apply Es|]. cbv zeta. rewrite e_needs, e_scanned, e_signed, e_new, e_now, e_csig, Em. reflexivity. Qed.
Lemma e_reads : forall n, reads T H P mo s n = reads T H P mo s2 n.
Proof. intros n. unfold reads. rewrite e_needs, e_scanned. reflexivity. Qed.
Lemma e_implicit : forall t, implicit s t = implicit s2 t.
Proof. intros t. unfold implicit. rewrite Em. reflexivity. Qed.
Lemma e_deps : forall t, deps P s t = deps P s2 t.
Proof. intros t. unfold deps. rewrite e_implicit. reflexivity. Qed.
Lemma e_child : forall t, child_implicit s t = child_implicit s2 t.
Proof. intros t. unfold child_implicit. rewrite Em. reflexivity. Qed.
Lemma e_kids : forall n, kids P s n = kids P s2 n.
Proof. intros n. unfold kids. rewrite e_child. reflexivity. Qed.
Lemma e_waits : forall n, waits_for P s n = waits_for P s2 n.
Proof. intros n. unfold waits_for. apply flat_map_ext2, e_kids. Qed.
Lemma e_all : forall n, all_scanned P s n = all_scanned P s2 n.
Proof. intros n. unfold all_scanned. rewrite e_needs. reflexivity. Qed.
Lemma e_ready : forall n, ready P s n = ready P s2 n.
Proof. intros n. unfold ready. rewrite Em, e_all, e_waits. destruct (st (mm s2 n)); try reflexivity. f_equal. apply forallb_ext. intros x. rewrite Em. reflexivity. Qed.
Lemma e_missing : forall k, missing P s k = missing P s2 k.
Proof. intros k. unfold missing. rewrite (there_ext _ _ Ef). reflexivity. Qed.
Lemma e_lacks : forall n, lacks P s n = lacks P s2 n.
Proof. intros n. apply existsb_ext. intros t. rewrite e_deps. apply existsb_ext, e_missing. Qed.
Lemma e_uptodate : forall t, uptodate H P s t = uptodate H P s2 t.
Proof. intros t. unfold uptodate. rewrite e_child, e_same. reflexivity. Qed.
Lemma e_record : forall t, record H P s t = record H P s2 t.
Proof. intros t. unfold record. rewrite e_implicit, e_deps. f_equal. apply map_ext, e_csig. Qed.
Lemma e_done : forall l, eqs (set_done H P s l) (set_done H P s2 l).
Proof. intros l. constructor; intros m; cbn [set_done wd mm files store]; [apply Ef | rewrite e_record, Es; reflexivity|]. cbv zeta. rewrite e_csig, Em. reflexivity. Qed.
Lemma e_failed : forall l, eqs (set_failed s l) (set_failed s2 l).
Proof. intros l. constructor; intros m; cbn [set_failed wd mm]; [apply Ef | apply Es|]. rewrite Em. reflexivity. Qed.
Lemma e_waiting : forall l p, waiting P s l p = waiting P s2 l p.
Proof. intros l p. unfold waiting. rewrite e_waits. f_equal. apply existsb_ext. intros x. unfold pending. rewrite Em. reflexivity. Qed.
Lemma e_wanted : forall ts n, wanted P ts s n -> wanted P ts s2 n.
Proof. intros ts n [W|(p & W1 & W2 & W3)]; [left; exact W | right; exists p]. rewrite <- Em, <- e_waits, <- e_all. auto. Qed.
Lemma e_bad : forall l, existsb (fun k => match st (mm s k) with Failed => true | _ => false end) l = existsb (fun k => match st (mm s2 k) with Failed => true | _ => false end) l.
Proof. intros l. apply existsb_ext. intros x. rewrite Em. reflexivity. Qed.
Lemma e_succeeded : forall ts, succeeded ts s -> succeeded ts s2.
Proof. intros ts Hs t Ht. rewrite <- Em. apply Hs, Ht. Qed.
End One.
Lemma e_execute : forall s s2 n, eqs s s2 -> eqs (execute T H P s n) (execute T H P s2 n).
Proof.
  intros s s2 n E. assert (A : map (files (wd s)) (deps P s n) = map (files (wd s2)) (deps P s2 n)) by (rewrite (e_deps s s2 E); apply map_ext, (eq_files s s2 E)).
  unfold execute. cbv zeta. rewrite A. destruct (run T (cmd P n) (map (files (wd s2)) (deps P s2 n))) as [ok out]. destruct ok.
  - constructor; intros m; cbn [wd files store mm].
    + rewrite (eq_files s s2 E). reflexivity.
    + rewrite (e_record s s2 E), (eq_store s s2 E). reflexivity.
    + cbv zeta. rewrite (eq_mm s s2 E), (e_waiting s s2 E), (eq_files s s2 E). reflexivity.
  - apply e_failed. constructor; intros m; cbn [wd files store mm]; [rewrite (eq_files s s2 E); reflexivity | apply (eq_store s s2 E) | apply (eq_mm s s2 E)].
Qed.
Lemma e_step : forall ts s s2 tr s1, eqs s s2 -> step T H P mo ts s tr s1 -> exists s3, step T H P mo ts s2 tr s3 /\ eqs s1 s3.
Proof.
  intros ts s s2 tr s1 E Hs. pose proof (eq_mm s s2 E) as Em.
  assert (EU : forall l, forallb (uptodate H P s) l = forallb (uptodate H P s2) l) by (intros l; apply forallb_ext, (e_uptodate s s2 E)).
  destruct Hs as [n H1 H2|n H1 H2|n H1 H2 H3|n H1 H2 H3 H4|n H1 H2 H3 H4|n H1 H2].
  - eexists. split; [rewrite (e_reads s s2 E); apply step_consider; [apply (e_wanted s s2 E), H1 | rewrite <- Em; exact H2] | apply (e_consider s s2 E)].
  - eexists. split; [apply step_source; [rewrite <- (e_ready s s2 E); exact H1 | exact H2] | apply (e_done s s2 E)].
  - eexists. split; [apply step_uptodate; [rewrite <- (e_ready s s2 E); exact H1 | exact H2 | rewrite <- EU; exact H3] | apply (e_done s s2 E)].
  - eexists. split; [apply step_lacks; [rewrite <- (e_ready s s2 E); exact H1 | exact H2 | rewrite <- EU; exact H3 | rewrite <- (e_lacks s s2 E); exact H4] | apply (e_failed s s2 E)].
  - eexists. split; [apply step_execute; [rewrite <- (e_ready s s2 E); exact H1 | exact H2 | rewrite <- EU; exact H3 | rewrite <- (e_lacks s s2 E); exact H4] | apply (e_execute s s2 n E)].
  - eexists. split; [apply step_failed; [rewrite <- Em; exact H1 | rewrite <- (e_waits s s2 E), <- (e_bad s s2 E); exact H2] | apply (e_failed s s2 E)].
Qed.
End Eq.

(* ---- tables ---- *)
Record tab := { tf : list (option content); tst : list (option entry); tm : list memo }.
Fixpoint at_ {A} (l : list A) (d : A) (n : nat) : A := match l with [] => d | x :: l => match n with 0 => x | S n => at_ l d n end end.
Definition state_of (t : tab) : state := {| wd := {| files := at_ (tf t) None; store := at_ (tst t) None |}; mm := at_ (tm t) fresh |}.
Definition table (k : nat) (s : state) : tab := {| tf := map (files (wd s)) (seq 0 k); tst := map (store (wd s)) (seq 0 k); tm := map (mm s) (seq 0 k) |}.
Definition again (s : state) : state := {| wd := wd s; mm := fun _ => fresh |}.
Definition anew (f : disk) (s : state) : state := {| wd := {| files := f; store := store (wd s) |}; mm := fun _ => fresh |}.
Section Tables.
Variables (T : tools) (H : option content -> sig) (U : list node).
Hypothesis SO : sound T H U.
Definition goes (P : project) (mo : mode) (ts : list node) (t : tab) (tr : list act) (t2 : tab) : Prop := forall s, eqs (state_of t) s -> exists s2, steps T H P mo ts s tr s2 /\ eqs (state_of t2) s2.
Lemma goes_nil : forall P mo ts t, goes P mo ts t [] t.
Proof. intros P mo ts t s E. exists s. split; [constructor | exact E]. Qed.
Lemma goes_cons : forall P mo ts t tr1 s1 t1 tr2 t2, step T H P mo ts (state_of t) tr1 s1 -> eqs s1 (state_of t1) -> goes P mo ts t1 tr2 t2 -> goes P mo ts t (tr1 ++ tr2) t2.
Proof.
  intros P mo ts t tr1 s1 t1 tr2 t2 H1 E1 H2 s E. destruct (e_step T H U SO P mo ts (state_of t) s tr1 s1 E H1) as (s3 & H3 & E3). destruct (H2 s3) as (s4 & H4 & E4).
  - apply (eqs_trans _ s1); [apply eqs_sym, E1 | exact E3].
  - exists s4. split; [apply (steps_cons T H P mo ts s tr1 s3 tr2 s4 H3 H4) | exact E4].
Qed.
(* a history, from the files and records of t to those of t2 *)
Definition lasts (P : project) (t : tab) (es : list event) (P2 : project) (t2 : tab) : Prop := forall w, eqs (again (state_of t)) {| wd := w; mm := fun _ => fresh |} ->
  exists w2, history T H P w es P2 w2 /\ eqs (again (state_of t2)) {| wd := w2; mm := fun _ => fresh |}.
Lemma lasts_nil : forall P t, lasts P t [] P t.
Proof. intros P t w E. exists w. split; [constructor | exact E]. Qed.
Lemma lasts_edit : forall P t P1 f t1 es P2 t2, allowed P (files (wd (state_of t))) P1 f -> eqs (anew f (state_of t)) (state_of t1) -> lasts P1 t1 es P2 t2 -> lasts P t (Edit P1 f :: es) P2 t2.
Proof.
  intros P t P1 f t1 es P2 t2 Al [A1 A2 A3] H2 w [E1 E2 E3]. destruct (H2 {| files := f; store := store w |}) as (w2 & H3 & E4); [|exists w2; split; [apply history_edit; [intros n Hn; destruct (Al n Hn) as [Y|[Y1 Y2]]; [left; exact Y | right; split; [exact Y1 | rewrite Y2; apply E1]] | exact H3] | exact E4]].
  constructor; intros n; cbn [wd mm files store again]; [rewrite <- A1; reflexivity | rewrite <- A2; apply E2 | reflexivity].
Qed.
Lemma lasts_run : forall P t mo ts tr t1 t3 es P2 t2, goes P mo ts t tr t1 -> (forall n, mm (state_of t) n = fresh) -> eqs (again (state_of t1)) (state_of t3) -> lasts P t3 es P2 t2 -> lasts P t (Run mo ts :: es) P2 t2.
Proof.
  intros P t mo ts tr t1 t3 es P2 t2 H1 Hf [A1 A2 A3] H2 w [E1 E2 E3]. destruct (H1 {| wd := w; mm := fun _ => fresh |}) as (s1 & S1 & [F1 F2 F3]).
  { constructor; intros n; [apply E1 | apply E2 | apply Hf]. }
  destruct (H2 (wd s1)) as (w2 & H3 & E4); [|exists w2; split; [|exact E4]].
  - constructor; intros n; cbn [wd mm again]; [rewrite <- A1; apply F1 | rewrite <- A2; apply F2 | reflexivity].
  - apply (history_run T H P w mo ts es {| wd := w; mm := fun _ => fresh |} tr s1 P2 w2); [split; reflexivity | exact S1 | exact H3].
Qed.
Lemma implicit_eqs : forall P f g, (forall n, f n = g n) -> forall n, implicit_deps T P f n = implicit_deps T P g n.
Proof. intros P f g E n. unfold implicit_deps. destruct (derived P n); [|reflexivity]. apply (s_ext T H U SO). intros x _. apply (includes_ext T H U SO P f g E). Qed.
Lemma children_eqs : forall P f g, (forall n, f n = g n) -> forall n, children T P f n = children T P g n.
Proof. intros P f g E n. unfold children. rewrite (implicit_eqs P f g E). reflexivity. Qed.
Lemma needed_eqs : forall P f g, (forall n, f n = g n) -> forall ts n, needed T P f ts n -> needed T P g ts n.
Proof. intros P f g E ts n Hn. induction Hn as [t Ht|p q Hp IH Hq|p q Hp IH Hq]; [apply needed_target, Ht | apply (needed_child T P _ ts p q IH); rewrite <- (children_eqs P f g E); exact Hq | apply (needed_peer T P _ ts p q IH Hq)]. Qed.
Lemma current_eqs : forall P f g, (forall n, f n = g n) -> forall n, current T P g n -> current T P f n.
Proof.
  intros P f g E n (out & H1 & H2). exists out. rewrite (children_eqs P f g E), E. split; [|exact H2]. rewrite <- H1. f_equal. apply map_ext, E.
Qed.
End Tables.
