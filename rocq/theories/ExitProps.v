(* C40: exit functions are called last in, first out, each once *)
From Coq Require Import List Arith Lia.
From Verif Require Import ExitModel.
Import ListNotations.

(* ---- specification, on the sequence of events ---- *)
(* every call is of the function that was registered last among those not yet called *)
Definition lifo (evs : list event) : Prop :=
  forall a b i, evs = a ++ ECall i :: b -> In (EReg i) a /\ ~ In (ECall i) a /\ forall j, In (EReg j) a -> ~ In (ECall j) a -> j <= i.
Definition all_called (evs : list event) : Prop := forall i, In (EReg i) evs -> In (ECall i) evs.

Section Proofs.
Variable F : Type.
Variable body : F -> list event -> list F * bool.
(* serial numbers are given in the order of registration *)
Record inv (s : state F) : Prop := {
  i_pend : forall i, In i (map fst (handlers F s)) <-> In (EReg i) (events F s) /\ ~ In (ECall i) (events F s);
  i_sorted : forall a i b, map fst (handlers F s) = a ++ i :: b -> forall j, In j a -> j < i;
  i_next : forall i, In (EReg i) (events F s) -> i < next F s;
  i_call : forall i, In (ECall i) (events F s) -> In (EReg i) (events F s);
  i_lifo : lifo (events F s) }.
Lemma lifo_snoc_reg evs n : lifo evs -> lifo (evs ++ [EReg n]).
Proof. intros L a b i E. destruct b as [|x b] using rev_ind; [apply app_inj_tail in E; destruct E as [_ E]; discriminate|]. rewrite app_comm_cons, app_assoc in E. apply app_inj_tail in E. destruct E as [E _]. apply (L a b i E). Qed.
Lemma inv_initial : inv (initial F).
Proof. split; cbn; try contradiction; [intros i; tauto | intros [|] i b E; discriminate | intros [|] b i E; discriminate]. Qed.
Lemma inv_register s f : inv s -> inv (register F s f).
Proof.
  intros [A B C D E]. assert (Fr : ~ In (EReg (next F s)) (events F s)) by (intros H; apply C in H; lia). split; cbn.
  - intros i. rewrite map_app, !in_app_iff, A. cbn. split.
    + intros [(H1 & H2)|[<-|[]]]; [split; [auto | intros [H|[H|[]]]; [contradiction | discriminate]]|]. split; [auto | intros [H|[H|[]]]; [apply D in H; contradiction | discriminate]].
    + intros [[H|[H|[]]] H2]; [left; split; [exact H | intros Q; apply H2; auto] | injection H as <-; right; auto].
  - intros a i b Q j Hj. rewrite map_app in Q. cbn in Q. destruct b as [|y b] using rev_ind.
    + apply app_inj_tail in Q. destruct Q as [<- <-]. apply A in Hj. apply C, Hj.
    + clear IHb. rewrite app_comm_cons, app_assoc in Q. apply app_inj_tail in Q. destruct Q as [Q _]. apply (B a i b Q j Hj).
  - intros i H. apply in_app_or in H. destruct H as [H|[H|[]]]; [apply C in H; lia | injection H as <-; lia].
  - intros i H. apply in_app_or in H. destruct H as [H|[H|[]]]; [apply in_or_app; left; apply D, H | discriminate].
  - apply lifo_snoc_reg, E.
Qed.
Lemma inv_registers l : forall s, inv s -> inv (fold_left (register F) l s).
Proof. induction l as [|f l IH]; intros s V; [exact V|]. cbn. apply IH, inv_register, V. Qed.
Lemma inv_pop s i f rest : inv s -> rev (handlers F s) = (i, f) :: rest -> inv {| handlers := rev rest; events := events F s ++ [ECall i]; next := next F s |}.
Proof.
  intros [A B C D E] R. assert (H : handlers F s = rev rest ++ [(i, f)]) by (rewrite <- (rev_involutive (handlers F s)), R; reflexivity).
  assert (Hm : map fst (handlers F s) = map fst (rev rest) ++ [i]) by (rewrite H, map_app; reflexivity).
  assert (Pi : In (EReg i) (events F s) /\ ~ In (ECall i) (events F s)) by (apply A; rewrite Hm; apply in_or_app; right; left; reflexivity).
  assert (Lt : forall j, In j (map fst (rev rest)) -> j < i) by (apply (B _ i [] Hm)).
  split; cbn.
  - intros j. split.
    + intros Hj. assert (Hj' : In j (map fst (handlers F s))) by (rewrite Hm; apply in_or_app; auto). apply A in Hj'. destruct Hj' as [P Q]. split; [apply in_or_app; auto|]. intros X. apply in_app_or in X. destruct X as [X|[X|[]]]; [contradiction|]. injection X as <-. apply Lt in Hj. lia.
    + intros [P Q]. apply in_app_or in P. destruct P as [P|[P|[]]]; [|discriminate]. assert (Hj : In j (map fst (handlers F s))) by (apply A; split; [exact P | intros X; apply Q, in_or_app; auto]). rewrite Hm in Hj. apply in_app_or in Hj. destruct Hj as [Hj|[<-|[]]]; [exact Hj|]. elim Q. apply in_or_app. right. left. reflexivity.
  - intros a k b Q j Hj. apply (B a k (b ++ [i])); [rewrite Hm, Q, <- app_assoc; reflexivity | exact Hj].
  - intros j X. apply in_app_or in X. destruct X as [X|[X|[]]]; [apply C, X | discriminate].
  - intros j X. apply in_or_app. left. apply in_app_or in X. destruct X as [X|[X|[]]]; [apply D, X | injection X as <-; apply Pi].
  - intros a b k Q. destruct b as [|y b] using rev_ind.
    + apply app_inj_tail in Q. destruct Q as [<- Q]. injection Q as <-. split; [apply Pi|]. split; [apply Pi|]. intros j P1 P2. assert (Hj : In j (map fst (handlers F s))) by (apply A; auto). rewrite Hm in Hj. apply in_app_or in Hj. destruct Hj as [Hj|[<-|[]]]; [apply Lt in Hj; lia | lia].
    + clear IHb. rewrite app_comm_cons, app_assoc in Q. apply app_inj_tail in Q. destruct Q as [Q _]. apply (E a b k Q).
Qed.
Lemma run_inv fuel : forall s s' r, inv s -> run_exitfuncs F body fuel s = (s', r) -> inv s' /\ (r = Finished -> handlers F s' = []).
Proof.
  induction fuel as [|fuel IH]; intros s s' r V H; [injection H as <- <-; split; [exact V | discriminate]|]. cbn [run_exitfuncs] in H. destruct (rev (handlers F s)) as [|[i f] rest] eqn:R.
  - injection H as <- <-. split; [exact V|]. intros _. rewrite <- (rev_involutive (handlers F s)), R. reflexivity.
  - destruct (body f _) as [regs raises] eqn:Bd. pose proof (inv_registers regs _ (inv_pop s i f rest V R)) as V2. destruct raises; [injection H as <- <-; split; [exact V2 | discriminate]|]. apply (IH _ _ _ V2 H).
Qed.
(* C40: in every history, calls are last in first out and never repeated, also for functions registered during the exit phase;
   if the exit phase ends without an exception, every registered function has been called *)
Theorem C40_exit_functions regs fuel s r : program F body regs fuel = (s, r) -> lifo (events F s) /\ (r = Finished -> all_called (events F s)).
Proof.
  intros H. unfold program in H. destruct (run_inv fuel _ s r (inv_registers regs _ inv_initial) H) as (V & Fin). split; [apply V|]. intros Q i Hi. specialize (Fin Q).
  destruct (in_dec (fun x y : event => ltac:(decide equality; apply Nat.eq_dec)) (ECall i) (events F s)) as [X|X]; [exact X|]. exfalso. assert (P : In i (map fst (handlers F s))) by (apply (i_pend _ V); auto). rewrite Fin in P. destruct P.
Qed.
(* the exit phase ends unless functions go on registering: if calls register nothing, as many steps as functions suffice *)
Lemma run_finishes fuel : forall s, (forall f evs, body f evs = ([], false)) -> length (handlers F s) < fuel -> snd (run_exitfuncs F body fuel s) = Finished.
Proof.
  induction fuel as [|fuel IH]; intros s B L; [lia|]. cbn [run_exitfuncs]. destruct (rev (handlers F s)) as [|[i f] rest] eqn:R; [reflexivity|]. rewrite B. cbn [fold_left]. apply IH; [exact B|]. cbn. rewrite rev_length. apply (f_equal (@length _)) in R. rewrite rev_length in R. cbn in R. lia.
Qed.
Theorem C40b_terminates regs fuel : (forall f evs, body f evs = ([], false)) -> length regs < fuel -> snd (program F body regs fuel) = Finished.
Proof.
  intros B L. unfold program. apply run_finishes; [exact B|]. assert (G : forall l s, length (handlers F (fold_left (register F) l s)) = length (handlers F s) + length l). { induction l as [|f l IH]; intros s; [cbn; lia|]. cbn [fold_left]. rewrite IH. cbn. rewrite app_length. cbn. lia. } rewrite G. cbn. exact L.
Qed.
End Proofs.
(* a function that raises: those registered before it are never called *)
Theorem C40_refuted_exception : exists (body : nat -> list event -> list nat * bool) s, program nat body [0; 1] 10 = (s, Raised) /\ In (EReg 0) (events nat s) /\ ~ In (ECall 0) (events nat s).
Proof. exists (fun f _ => ([], f =? 1)). eexists. split; [reflexivity|]. cbn. split; [auto|]. intros [H|[H|[H|[]]]]; discriminate. Qed.
Example C40_witness : exists s, program nat (fun f evs => if f =? 1 then ([5; 6], false) else ([], false)) [0; 1; 2] 10 = (s, Finished) /\
  events nat s = [EReg 0; EReg 1; EReg 2; ECall 2; ECall 1; EReg 3; EReg 4; ECall 4; ECall 3; ECall 0].
Proof. eexists. split; reflexivity. Qed.
Print Assumptions C40_exit_functions. Print Assumptions C40b_terminates. Print Assumptions C40_refuted_exception.
