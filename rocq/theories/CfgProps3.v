(* C64: cases that meet the hypotheses, and refuted statements *)
From Coq Require Import List Bool Arith Lia.
Import ListNotations.
From Verif Require Import CfgModel CfgSpec CfgProps CfgProps2.

(* 0: the text of the test, 1: a header of the project; 10: conftest.c, 11: conftest.o, 12: conftest, 13: conftest.out.  A header with the contents 9 does not compile, and neither does the text 5 *)
Definition own1 (n : node) : Prop := 10 <= n.
Definition H1 (c : option content) : sig := match c with None => 0 | Some c => S c end.
Definition run1 (c : sig) (l : list (option content)) : bool * option content :=
  match c, l with
  | 1, [Some t] => (true, Some t)                                             (* write the text *)
  | 2, [Some 5; _] => (false, None)
  | 2, [Some _; Some 9] => (false, None)
  | 2, [Some t; Some x] => (true, Some (100 + 10 * t + x))                    (* compile *)
  | 3, [Some o] => (true, Some (1000 + o))                                    (* link *)
  | 4, [Some p] => (true, Some (p * 2))                                       (* run *)
  | _, _ => (false, None)
  end.
Definition src1 : step := {| tgt := 10; kids := fun _ => [0]; cmd := 1 |}.
Definition obj1 : step := {| tgt := 11; kids := fun d => match d 1 with Some _ => [10; 1] | None => [10] end; cmd := 2 |}.    (* the scanner finds the header if it is there *)
Definition prog1 : step := {| tgt := 12; kids := fun _ => [11]; cmd := 3 |}.
Definition out1 : step := {| tgt := 13; kids := fun _ => [12]; cmd := 4 |}.
Definition link1 : list step := [src1; obj1; prog1].
Definition on_disk (text header : content) : disk := fun n => match n with 0 => Some text | 1 => Some header | _ => None end.
Definition norec (n : node) : option sig := None.
(* the header is h now, the configure directory as it is *)
Definition header (h : content) (st : state) : state := happen H1 run1 st (EEdit (fun n => if n =? 1 then Some h else files st n)).
Definition test (m : mode) (st : state) : state := happen H1 run1 st (ETest m false norec (link1 ++ [out1])).
Definition start1 : state := {| files := on_disk 3 1; store := fun _ => None |}.

Lemma inj1 : one_to_one H1.
Proof. intros [a|] [b|] E; cbn in E; congruence. Qed.
Lemma plan1 : plan_ok own1 [] (link1 ++ [out1]).
Proof.
  unfold link1. cbn [app]. apply plan_cons; [unfold own1; cbn; lia | intros [] | | reflexivity |].
  { intros d n [<-|[]]. left. unfold own1. lia. }
  apply plan_cons; [unfold own1; cbn; lia | cbn; intros [X|[]]; discriminate | | |].
  { intros d n Hn. cbn in *. destruct (d 1); cbn in Hn; unfold own1; [destruct Hn as [<-|[<-|[]]]; [right; left; reflexivity | left; lia] | destruct Hn as [<-|[]]; right; left; reflexivity]. }
  { intros d1 d2 E. cbn. rewrite (E 1); [reflexivity | left; unfold own1; lia]. }
  apply plan_cons; [unfold own1; cbn; lia | cbn; intros [X|[X|[]]]; discriminate | | reflexivity |].
  { intros d n [<-|[]]. right. left. reflexivity. }
  apply plan_cons; [unfold own1; cbn; lia | cbn; intros [X|[X|[X|[]]]]; discriminate | | reflexivity | constructor].
  intros d n [<-|[]]. right. left. reflexivity.
Qed.
Lemma norec1 : forall d, current H1 own1 norec d.
Proof. intros d n s E. discriminate. Qed.
(* built; the header is changed, and changed back *)
Definition state1 : state := header 1 (test AUTO (header 2 (test AUTO start1))).
Lemma quiet1 : exists h, quiet H1 run1 own1 (on_disk 3 1) h state1.
Proof.
  eexists. unfold state1. apply quiet_edit; [|intros n N; unfold own1 in N; assert (X : n =? 1 = false) by (apply Nat.eqb_neq; lia); rewrite X; reflexivity].
  unfold test at 1. apply quiet_test; [|discriminate | exact plan1 | apply norec1]. unfold header. apply quiet_edit; [|intros n N; unfold own1 in N; assert (X : n =? 1 = false) by (apply Nat.eqb_neq; lia); rewrite X; reflexivity].
  unfold test. apply quiet_test; [apply quiet_start | discriminate | exact plan1 | apply norec1].
Qed.
Lemma scratch1 : scratch own1 state1 (on_disk 3 1).
Proof.
  intros n. unfold own1. split.
  - intros N. do 10 (destruct n as [|n]; [vm_compute; reflexivity|]). exfalso. lia.
  - intros N. do 10 (destruct n as [|n]; [exfalso; lia|]). reflexivity.
Qed.
Theorem C64_case : one_to_one H1 /\ plan_ok own1 [] (link1 ++ [out1]) /\ current H1 own1 norec (files state1) /\ (exists h, quiet H1 run1 own1 (on_disk 3 1) h state1) /\ scratch own1 state1 (on_disk 3 1) /\
  (let '(o, out, st) := try_run H1 run1 norec AUTO false state1 link1 out1 in (o, out)) = (Done, Some (Some 2262)) /\
  (let '(o, st, ran) := build H1 run1 norec AUTO false state1 (link1 ++ [out1]) in (o, ran)) = (Done, [11; 12; 13]) /\
  (let '(o, st, ran) := build H1 run1 norec FORCE false state1 (link1 ++ [out1]) in (o, ran)) = (Done, [10; 11; 12; 13]) /\
  (let '(o, st, ran) := build H1 run1 norec AUTO false (test AUTO state1) (link1 ++ [out1]) in (o, ran)) = (Done, []) /\
  (let '(o, st, ran) := build H1 run1 norec AUTO false (test AUTO (header 9 state1)) (link1 ++ [out1]) in (o, ran)) = (Failed, []) /\
  (let '(o, st, ran) := build H1 run1 norec AUTO true state1 (link1 ++ [out1]) in (o, ran)) = (DryErr, []) /\
  (let '(o, st, ran) := build H1 run1 norec CACHE false start1 (link1 ++ [out1]) in (o, ran)) = (CacheErr, []).
Proof.
  split; [exact inj1|]. split; [exact plan1|]. split; [apply norec1|]. split; [exact quiet1|]. split; [exact scratch1|]. repeat split; vm_compute; reflexivity.
Qed.
(* ---- refuted statements ---- *)
Fixpoint fresh_b (run : sig -> list (option content) -> bool * option content) (d : disk) (plan : list step) : bool * disk * list node :=
  match plan with
  | [] => (true, d, [])
  | s :: r => let '(ok, out) := run (cmd s) (map d (kids s d)) in
              if ok then let '(b, d2, l) := fresh_b run (upd d (tgt s) out) r in (b, d2, tgt s :: l) else (false, upd d (tgt s) out, [tgt s])
  end.
Lemma fresh_b_ok : forall run plan d, let '(b, d2, l) := fresh_b run d plan in fresh run d plan b d2 l.
Proof.
  intros run plan. induction plan as [|s r IH]; intros d; cbn [fresh_b]; [constructor|]. destruct (run (cmd s) (map d (kids s d))) as [ok out] eqn:R.
  assert (W : written d (tgt s) out (upd d (tgt s) out)) by (split; [apply upd_same | intros n N; apply upd_other; exact N]). destruct ok.
  - specialize (IH (upd d (tgt s) out)). destruct (fresh_b run (upd d (tgt s) out) r) as [[b d2] l]. eapply fresh_ok; eassumption.
  - eapply fresh_fail; eassumption.
Qed.
Lemma fresh_is : forall run plan d b l, (let '(b, d2, l) := fresh_b run d plan in (b, l)) = (b, l) -> exists d2, fresh run d plan b d2 l.
Proof. intros run plan d b l E. assert (F := fresh_b_ok run plan d). destruct (fresh_b run d plan) as [[b2 d2] l2]. injection E as -> ->. eauto. Qed.
(* a header was changed after the build that recorded its signature: while tests are made the recorded one counts (max_drift is 0), so the result of before is given *)
Definition recorded1 (n : node) : option sig := if n =? 1 then Some (H1 (Some 1)) else None.
Theorem C64_stale_header_refuted : let st := header 9 (test AUTO start1) in
  (let '(o, st, ran) := build H1 run1 recorded1 AUTO false st link1 in (o, ran)) = (Done, []) /\ exists d2, fresh run1 (on_disk 3 9) link1 false d2 [10; 11].
Proof. cbn zeta. split; [vm_compute; reflexivity | apply fresh_is; vm_compute; reflexivity]. Qed.
(* the files of the configure directory were removed, the recorded results were not: the text is not written again, so the test fails, and so it does from then on *)
Definition removed (st : state) : state := happen H1 run1 st (EEdit (fun n => if 10 <=? n then None else files st n)).
Theorem C64_removed_directory_refuted : let st := removed (test AUTO start1) in
  (let '(o, st2, ran) := build H1 run1 norec AUTO false st link1 in (o, ran)) = (Failed, [11]) /\ (exists d2, fresh run1 (on_disk 3 1) link1 true d2 [10; 11; 12]) /\
  (let '(o, st2, ran) := build H1 run1 norec AUTO false (test AUTO st) link1 in (o, ran)) = (Failed, []).
Proof. cbn zeta. split; [vm_compute; reflexivity|]. split; [apply fresh_is; vm_compute; reflexivity | vm_compute; reflexivity]. Qed.
(* --config=cache after a header was changed: the files made from it are removed, TryRun gives no output; and with the header as before, the next test fails *)
Theorem C64_cache_removes_refuted : let st := header 2 (test AUTO start1) in
  (let '(o, out, st2) := try_run H1 run1 norec AUTO false start1 link1 out1 in (o, out)) = (Done, Some (Some 2262)) /\
  (let '(o, out, st2) := try_run H1 run1 norec CACHE false st link1 out1 in (o, out, files st2 11)) = (Done, Some None, None) /\ files st 11 = Some 131 /\
  (let '(o, st2, ran) := build H1 run1 norec AUTO false (header 1 (test CACHE st)) link1 in (o, ran)) = (Failed, [12]) /\ exists d2, fresh run1 (on_disk 3 1) link1 true d2 [10; 11; 12].
Proof. cbn zeta. repeat split; try (vm_compute; reflexivity). apply fresh_is. vm_compute. reflexivity. Qed.
Print Assumptions C64_case.
Print Assumptions C64_stale_header_refuted.
Print Assumptions C64_removed_directory_refuted.
Print Assumptions C64_cache_removes_refuted.
