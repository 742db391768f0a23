(* C65: states that agree everywhere behave alike (used to compute sessions step by step) *)
From Coq Require Import List Bool Arith Lia.
Import ListNotations.
From Verif Require Import IntModel IntSpec IntProps.

Record eqs (s s2 : state) : Prop := { eq_files : forall n, files (wd s) n = files (wd s2) n; eq_store : forall n, store (wd s) n = store (wd s2) n; eq_mm : forall n, mm s n = mm s2 n }.
Lemma eqs_sym : forall s s2, eqs s s2 -> eqs s2 s.
Proof. intros s s2 [E1 E2 E3]. constructor; intros n; symmetry; auto. Qed.
Lemma eqs_trans : forall s s2 s3, eqs s s2 -> eqs s2 s3 -> eqs s s3.
Proof. intros s s2 s3 [E1 E2 E3] [F1 F2 F3]. constructor; intros n; congruence. Qed.
Lemma eqs_refl : forall s, eqs s s.
Proof. intros s. constructor; reflexivity. Qed.
Lemma existsb_ext : forall (A : Type) (p q : A -> bool) (l : list A), (forall x, p x = q x) -> existsb p l = existsb q l.
Proof. intros A p q l E. induction l as [|a l IH]; [reflexivity | cbn [existsb]; rewrite E, IH; reflexivity]. Qed.
Lemma forallb_ext : forall (A : Type) (p q : A -> bool) (l : list A), (forall x, p x = q x) -> forallb p l = forallb q l.
Proof. intros A p q l E. induction l as [|a l IH]; [reflexivity | cbn [forallb]; rewrite E, IH; reflexivity]. Qed.
Lemma flat_map_ext2 : forall (A B : Type) (p q : A -> list B) (l : list A), (forall x, p x = q x) -> flat_map p l = flat_map q l.
Proof. intros A B p q l E. induction l as [|a l IH]; [reflexivity | cbn [flat_map]; rewrite E, IH; reflexivity]. Qed.
Section Eq.
Variables (P : project) (H : option content -> sig) (U : list node).
Hypothesis SO : sound P U.
Section One.
Variables s s2 : state.
Hypothesis E : eqs s s2.
Let Ef := eq_files s s2 E. Let Es := eq_store s s2 E. Let Em := eq_mm s s2 E.
Lemma e_now : forall n, incs_now P s n = incs_now P s2 n.
Proof. intros n. unfold incs_now, includes. rewrite Em, Ef. reflexivity. Qed.
Lemma e_closure : forall l, closure P (incs_now P s) l = closure P (incs_now P s2) l.
Proof. intros l. apply (s_ext P U SO). intros x _. apply e_now. Qed.
Lemma e_scan : forall n, scan P s n = scan P s2 n.
Proof. intros n. unfold scan. rewrite Em, e_closure. reflexivity. Qed.
Lemma e_kids : forall n, kids P s n = kids P s2 n.
Proof. intros n. unfold kids. rewrite e_scan. reflexivity. Qed.
Lemma e_csig : forall n, csig_now H s n = csig_now H s2 n.
Proof. intros n. unfold csig_now. rewrite Em, Ef. reflexivity. Qed.
Lemma e_needs : forall l, needs_scan s l = needs_scan s2 l.
Proof. intros l. apply existsb_ext. intros x. rewrite Em. reflexivity. Qed.
Lemma e_scanned : forall n, scanned P s n = scanned P s2 n.
Proof. intros n. unfold scanned. rewrite e_closure. reflexivity. Qed.
Lemma e_consider : forall n, eqs (consider P s n) (consider P s2 n).
Proof. intros n. constructor; intros m; cbn [consider wd mm]; [apply Ef | apply Es|]. rewrite e_needs, e_scanned, e_scan, e_now, Em. reflexivity. Qed.
Lemma e_waits : forall n, waits_for P s n = waits_for P s2 n.
Proof. intros n. unfold waits_for. f_equal. apply flat_map_ext2, e_kids. Qed.
Lemma e_all : forall n, all_scanned P s n = all_scanned P s2 n.
Proof. intros n. apply forallb_ext. intros x. rewrite Em. reflexivity. Qed.
Lemma e_ready : forall n, ready P s n = ready P s2 n.
Proof. intros n. unfold ready. rewrite Em, e_all, e_waits. destruct (st (mm s2 n)); try reflexivity. f_equal. apply forallb_ext. intros x. rewrite Em. reflexivity. Qed.
Lemma e_info : forall n, info P H s n = info P H s2 n.
Proof. intros n. unfold info. rewrite e_kids. f_equal. apply map_ext, e_csig. Qed.
Lemma e_uptodate : forall n, uptodate P H s n = uptodate P H s2 n.
Proof. intros n. unfold uptodate. rewrite Ef, Es, e_info. reflexivity. Qed.
Lemma e_done : forall l, eqs (set_done H s l) (set_done H s2 l).
Proof. intros l. constructor; intros m; cbn [set_done wd mm]; [apply Ef | apply Es|]. rewrite e_csig, Em. reflexivity. Qed.
Lemma e_failed : forall l, eqs (set_failed s l) (set_failed s2 l).
Proof. intros l. constructor; intros m; cbn [set_failed wd mm]; [apply Ef | apply Es|]. rewrite Em. reflexivity. Qed.
Lemma e_missing : forall n, missing s n = missing s2 n.
Proof. intros n. unfold missing. rewrite Ef. reflexivity. Qed.
Lemma e_waiting : forall l p, waiting P s l p = waiting P s2 l p.
Proof. intros l p. unfold waiting. rewrite e_waits. f_equal. apply existsb_ext. intros x. unfold pending. rewrite Em. reflexivity. Qed.
Lemma e_wanted : forall ts n, wanted P ts s n -> wanted P ts s2 n.
Proof. intros ts n [W|(p & W1 & W2 & W3)]; [left; exact W | right; exists p]. rewrite <- Em, <- e_waits, <- e_all. auto. Qed.
Lemma e_bad : forall l, existsb (fun k => match st (mm s k) with Failed => true | _ => false end) l = existsb (fun k => match st (mm s2 k) with Failed => true | _ => false end) l.
Proof. intros l. apply existsb_ext. intros x. rewrite Em. reflexivity. Qed.
Lemma e_edit : forall f, eqs (edit f s) (edit f s2).
Proof. intros f. constructor; intros m; cbn [edit wd mm files store]; [reflexivity | apply Es | apply Em]. Qed.
Lemma e_clear : forall l, eqs (clear s l) (clear s2 l).
Proof. intros l. constructor; intros m; cbn [clear wd mm]; [apply Ef | apply Es | rewrite Em; reflexivity]. Qed.
Lemma e_unseen : forall l n, unseen P s l n = unseen P s2 l n.
Proof. intros l n. unfold unseen. rewrite e_kids. reflexivity. Qed.
Lemma e_walk : forall stk seen r, walk P s stk seen r -> walk P s2 stk seen r.
Proof.
  intros stk seen r W. induction W as [seen|n k w stk seen r Hk W IH|n k w stk seen r Hk W IH|n stk seen r W IH]; [apply walk_end | apply walk_cycle; assumption | | apply walk_up, IH].
  apply walk_down; [exact Hk|]. rewrite <- e_unseen. exact IH.
Qed.
Lemma e_walks : forall ts seen r, walks P s ts seen r -> walks P s2 ts seen r.
Proof. intros ts seen r W. induction W as [seen|t ts seen s1 s3 W1 W2 IH]; [constructor|]. apply (walks_cons P s2 t ts seen s1 s3); [rewrite <- e_unseen; apply e_walk, W1 | exact IH]. Qed.
Lemma e_succeeded : forall ts, succeeded ts s -> succeeded ts s2.
Proof. intros ts Hs t Ht. rewrite <- Em. apply Hs, Ht. Qed.
Lemma e_fails : failed s -> failed s2.
Proof. intros (n & Hn). exists n. rewrite <- Em. exact Hn. Qed.
End One.
Lemma e_execute : forall s s2 n, eqs s s2 -> eqs (execute P H s n) (execute P H s2 n).
Proof.
  intros s s2 n E. assert (A : map (files (wd s)) (kids P s n) = map (files (wd s2)) (kids P s2 n)) by (rewrite (e_kids s s2 E); apply map_ext, (eq_files s s2 E)).
  unfold execute. rewrite A. destruct (run P (cmd P n) (map (files (wd s2)) (kids P s2 n))) as [ok out]. destruct ok.
  - constructor; intros m; cbn [wd files store mm].
    + rewrite (eq_files s s2 E). reflexivity.
    + rewrite (e_info s s2 E), (eq_store s s2 E). reflexivity.
    + rewrite (eq_mm s s2 E), (e_waiting s s2 E), (eq_files s s2 E). reflexivity.
  - apply e_failed. constructor; intros m; cbn [wd files store mm]; [rewrite (eq_files s s2 E); reflexivity | apply (eq_store s s2 E) | apply (eq_mm s s2 E)].
Qed.
Lemma e_step : forall ts s s2 tr s1, eqs s s2 -> step P H ts s tr s1 -> exists s3, step P H ts s2 tr s3 /\ eqs s1 s3.
Proof.
  intros ts s s2 tr s1 E Hs. pose proof (eq_mm s s2 E) as Em. destruct Hs as [n H1 H2|n H1 H2 H3|n H1 H2 H3|n H1 H2 H3|n H1 H2 H3|n H1 H2].
  - eexists. split; [apply step_consider; [apply (e_wanted s s2 E), H1 | rewrite <- Em; exact H2] | apply (e_consider s s2 E)].
  - eexists. split; [apply step_source; [rewrite <- (e_ready s s2 E); exact H1 | exact H2 | rewrite <- (e_missing s s2 E); exact H3] | apply (e_done s s2 E)].
  - eexists. split; [apply step_nosource; [rewrite <- (e_ready s s2 E); exact H1 | exact H2 | rewrite <- (e_missing s s2 E); exact H3] | apply (e_failed s s2 E)].
  - eexists. split; [apply step_uptodate; [rewrite <- (e_ready s s2 E); exact H1 | exact H2 | rewrite <- H3; apply forallb_ext; intros x; symmetry; apply (e_uptodate s s2 E)] | apply (e_done s s2 E)].
  - eexists. split; [apply step_execute; [rewrite <- (e_ready s s2 E); exact H1 | exact H2 | rewrite <- H3; apply forallb_ext; intros x; symmetry; apply (e_uptodate s s2 E)] | apply (e_execute s s2 n E)].
  - eexists. split; [apply step_failed; [rewrite <- Em; exact H1 | rewrite <- (e_waits s s2 E), <- (e_bad s s2 E); exact H2] | apply (e_failed s s2 E)].
Qed.

(* ---- tables ---- *)
Record tab := { tf : list (option content); tst : list (option entry); tm : list memo }.
Fixpoint at_ {A} (l : list A) (d : A) (n : nat) : A := match l with [] => d | x :: l => match n with 0 => x | S n => at_ l d n end end.
Definition state_of (t : tab) : state := {| wd := {| files := at_ (tf t) None; store := at_ (tst t) None |}; mm := at_ (tm t) fresh |}.
Definition table (k : nat) (s : state) : tab := {| tf := map (files (wd s)) (seq 0 k); tst := map (store (wd s)) (seq 0 k); tm := map (mm s) (seq 0 k) |}.
(* from a state like that of t, the steps tr lead to one like that of t2 *)
Definition goes (ts : list node) (t : tab) (tr : list node) (t2 : tab) : Prop := forall s, eqs (state_of t) s -> exists s2, steps P H ts s tr s2 /\ eqs (state_of t2) s2.
Lemma goes_nil : forall ts t, goes ts t [] t.
Proof. intros ts t s E. exists s. split; [constructor | exact E]. Qed.
Lemma goes_cons : forall ts t tr1 s1 t1 tr2 t2, step P H ts (state_of t) tr1 s1 -> eqs s1 (state_of t1) -> goes ts t1 tr2 t2 -> goes ts t (tr1 ++ tr2) t2.
Proof.
  intros ts t tr1 s1 t1 tr2 t2 H1 E1 H2 s E. destruct (e_step ts (state_of t) s tr1 s1 E H1) as (s3 & H3 & E3). destruct (H2 s3) as (s4 & H4 & E4).
  - apply (eqs_trans _ s1); [apply eqs_sym, E1 | exact E3].
  - exists s4. split; [apply (steps_cons P H ts s tr1 s3 tr2 s4 H3 H4) | exact E4].
Qed.
Definition lasts (t : tab) (es : list event) (trs : list (list node)) (t2 : tab) : Prop := forall s, eqs (state_of t) s -> exists s2, session P H s es trs s2 /\ eqs (state_of t2) s2.
Lemma lasts_nil : forall t, lasts t [] [] t.
Proof. intros t s E. exists s. split; [constructor | exact E]. Qed.
Lemma lasts_edit : forall t f t1 es trs t2, eqs (edit f (state_of t)) (state_of t1) -> lasts t1 es trs t2 -> lasts t (Edit f :: es) trs t2.
Proof.
  intros t f t1 es trs t2 E1 H2 s E. destruct (H2 (edit f s)) as (s2 & H3 & E2); [|exists s2; split; [apply session_edit, H3 | exact E2]].
  apply (eqs_trans _ (edit f (state_of t))); [apply eqs_sym, E1 | apply e_edit, E].
Qed.
Lemma lasts_build : forall t ts tr t1 seen t2 es trs t3, goes ts t tr t1 -> succeeded ts (state_of t1) \/ failed (state_of t1) -> walks P (state_of t1) ts [] seen -> eqs (clear (state_of t1) seen) (state_of t2) ->
  lasts t2 es trs t3 -> lasts t (Build ts :: es) (tr :: trs) t3.
Proof.
  intros t ts tr t1 seen t2 es trs t3 H1 H2 H3 E2 H4 s E. destruct (H1 s E) as (s1 & S1 & E1). destruct (H4 (clear s1 seen)) as (s3 & S3 & E3).
  - apply (eqs_trans _ (clear (state_of t1) seen)); [apply eqs_sym, E2 | apply e_clear, E1].
  - exists s3. split; [|exact E3]. apply (session_build P H s ts es tr s1 seen trs s3 S1); [|apply (e_walks (state_of t1) s1 E1), H3 | exact S3].
    destruct H2 as [H2|H2]; [left; apply (e_succeeded (state_of t1) s1 E1), H2 | right; apply (e_fails (state_of t1) s1 E1), H2].
Qed.
End Eq.
