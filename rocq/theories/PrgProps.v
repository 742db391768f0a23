(* Progress(). *)
From Coq Require Import Ascii String List Bool Arith Lia.
Import ListNotations.
From Verif Require Import TxtModel TxtSpec TxtProps PrgModel PrgSpec.
Open Scope list_scope.
Open Scope nat_scope.

Lemma contains_not : forall k v s, contains k s = false -> k <> [] -> replace k v s = s.
Proof.
  intros k v s H NE. unfold replace. destruct k as [|a k0] eqn:EK; [congruence|]. rewrite <- EK in *. clear EK a k0.
  induction s as [|c r IH]; [reflexivity|]. cbn [contains] in H. apply orb_false_iff in H as [H1 H2]. rewrite rep_off by exact H1. rewrite IH by exact H2. reflexivity.
Qed.

Section Props.
Context {node : Type} (str : node -> text).
Notation run := (run str).
Notation func := (func str).
Notation call := (call str).
Definition Fine (o : obj) : Prop := o <> Strings [].

(* the event, and nothing else, is added *)
Lemma func_shows : forall o n (p : @progressor node), Fine o -> exists e, log (func o n p) = log p ++ [e] /\ Shows str (count p) n o e /\ count (func o n p) = count p /\
  (forall t, e = Wrote t -> prev (func o n p) = t) /\ (o = Callable -> prev (func o n p) = prev p).
Proof.
  intros o n p F. destruct o as [|l|s]; cbn [PrgModel.func].
  - exists (Called n). split; [reflexivity|]. split; [constructor|]. split; [reflexivity|]. split; [discriminate | reflexivity].
  - exists (Wrote (spinner l p)). split; [reflexivity|]. split; [|split; [reflexivity|]; split; [intros t [= <-]; reflexivity | discriminate]].
    constructor. unfold spinner. apply nth_error_nth'. apply Nat.mod_upper_bound. destruct l; [exfalso; apply F; reflexivity | discriminate].
  - exists (Wrote (if contains TARGET s then replace TARGET (str n) s else s)). split; [reflexivity|]. split; [|split; [reflexivity|]; split; [intros t [= <-]; reflexivity | discriminate]].
    constructor. destruct (contains TARGET s) eqn:C; [apply C74a_replace; discriminate|]. rewrite <- (contains_not TARGET (str n) s C) at 2 by discriminate. apply C74a_replace. discriminate.
Qed.
Lemma erase_count : forall p : @progressor node, count (erase_previous p) = count p.
Proof. intros p. unfold erase_previous. destruct (prev p); reflexivity. Qed.
Lemma count_call : forall o i ov n (p : @progressor node), Fine o -> count (call o i ov n p) = S (count p).
Proof.
  intros o i ov n p F. unfold PrgModel.call. set (q := {| count := count p + 1; prev := prev p; log := log p |}). cbv zeta. assert (count q = S (count p)) as E by (cbn; lia). rewrite <- E.
  destruct (count q mod i =? 0); [|reflexivity]. destruct ov; [|destruct (func_shows o n q F) as [e [_ [_ [H _]]]]; exact H].
  destruct (func_shows o n (erase_previous q) F) as [e [_ [_ [H _]]]]. rewrite H. apply erase_count.
Qed.
Lemma run_snoc : forall o i ov ns n, run o i ov (ns ++ [n]) = call o i ov n (run o i ov ns).
Proof. intros o i ov ns n. unfold PrgModel.run. rewrite fold_left_app. reflexivity. Qed.
Lemma run_count : forall o i ov ns, Fine o -> count (run o i ov ns) = length ns.
Proof. intros o i ov ns F. induction ns as [|n ns IH] using rev_ind; [reflexivity|]. rewrite run_snoc, count_call, IH, app_length by exact F. cbn [length]. lia. Qed.
Lemma div_step : forall m i, i <> 0 -> S m / i = if S m mod i =? 0 then S (m / i) else m / i.
Proof.
  intros m i NZ. pose proof (Nat.div_mod m i NZ) as DM. pose proof (Nat.mod_upper_bound m i NZ) as UB. destruct (Nat.eq_dec (S (m mod i)) i) as [E | E].
  - assert (S m = i * S (m / i)) as EM by nia. rewrite EM, Nat.mul_comm, Nat.mod_mul, Nat.div_mul by exact NZ. reflexivity.
  - assert (S m / i = m / i) as -> by (symmetry; apply (Nat.div_unique (S m) i (m / i) (S (m mod i))); lia).
    assert (S m mod i = S (m mod i)) as -> by (symmetry; apply (Nat.mod_unique (S m) i (m / i) (S (m mod i))); lia). reflexivity.
Qed.
Lemma mod_zero_mult : forall m i, i <> 0 -> m mod i = 0 -> m / i * i = m.
Proof. intros m i NZ E. pose proof (Nat.div_mod m i NZ). lia. Qed.

(* C88a: without overwrite, and for a callable always, every interval-th node that is evaluated shows its text or calls the callable, and no other does *)
Theorem C88a_interval : forall o i ov ns, i <> 0 -> Fine o -> o = Callable \/ ov = false ->
  let evs := log (run o i ov ns) in length evs = length ns / i /\
  forall k, k < length ns / i -> exists n e, nth_error ns (S k * i - 1) = Some n /\ nth_error evs k = Some e /\ Shows str (S k * i) n o e.
Proof.
  intros o i ov ns NZ F OV. cbv zeta.
  assert ((o = Callable -> prev (run o i ov ns) = []) /\ length (log (run o i ov ns)) = length ns / i /\
    forall k, k < length ns / i -> exists n e, nth_error ns (S k * i - 1) = Some n /\ nth_error (log (run o i ov ns)) k = Some e /\ Shows str (S k * i) n o e) as [_ R]; [|exact R].
  induction ns as [|n ns IH] using rev_ind.
  - cbn [length]. rewrite Nat.div_0_l by exact NZ. split; [reflexivity|]. split; [reflexivity | intros k LT; lia].
  - destruct IH as [P [L IH]]. rewrite run_snoc, app_length. cbn [length]. replace (length ns + 1) with (S (length ns)) by lia. rewrite (div_step _ _ NZ).
    unfold PrgModel.call. rewrite (run_count o i ov ns F). replace (length ns + 1) with (S (length ns)) by lia. cbn [count].
    set (q := {| count := S (length ns); prev := prev (run o i ov ns); log := log (run o i ov ns) |}). cbv zeta.
    assert ((if ov then erase_previous q else q) = q) as EQ. { destruct OV as [OV | ->]; [|reflexivity]. destruct ov; [|reflexivity]. unfold erase_previous. subst q. cbn [prev]. rewrite (P OV). reflexivity. }
    destruct (S (length ns) mod i =? 0) eqn:M.
    + rewrite EQ. apply Nat.eqb_eq in M. destruct (func_shows o n q F) as [e [EL [SH [_ [_ PC]]]]]. rewrite EL. split; [intros OC; rewrite (PC OC); exact (P OC)|].
      subst q. cbn [count log] in *. split; [rewrite app_length, L; cbn [length]; lia|]. intros k LT. destruct (Nat.eq_dec k (length ns / i)) as [-> | NK].
      * exists n, e. pose proof (div_step (length ns) i NZ) as DS. rewrite M in DS. cbn [Nat.eqb] in DS. pose proof (mod_zero_mult _ _ NZ M) as MM. rewrite DS in MM. rewrite MM.
        replace (S (length ns) - 1) with (length ns) by lia. rewrite nth_error_app2, Nat.sub_diag by lia. rewrite <- L, nth_error_app2, Nat.sub_diag by lia. split; [reflexivity|]. split; [reflexivity | exact SH].
      * destruct (IH k) as [m [f [E1 [E2 E3]]]]; [lia|]. exists m, f. rewrite nth_error_app1 by (apply nth_error_Some; congruence). rewrite nth_error_app1 by (rewrite L; lia). auto.
    + split; [exact P|]. split; [exact L|]. intros k LT. destruct (IH k LT) as [m [f [E1 [E2 E3]]]]. exists m, f. rewrite nth_error_app1 by (apply nth_error_Some; congruence). auto.
Qed.

(* ---- the terminal ---- *)
Lemma display_plain : forall t s, Plain t -> forall a b c, line s = a ++ b ++ c -> col s = length a -> length b = length t \/ (length b <= length t /\ c = []) ->
  display s t = {| above := above s; line := a ++ t ++ c; col := length a + length t |}.
Proof.
  induction t as [|x t IH]; intros s PL a b c EL EC LB.
  - cbn [length app]. rewrite Nat.add_0_r. unfold display. cbn [fold_left]. cbn [length] in LB. assert (b = []) as -> by (destruct b; [reflexivity | cbn [length] in LB; lia]). cbn [app] in EL.
    destruct s as [ab li co]. cbn [line col above] in *. subst. reflexivity.
  - destruct PL as [P1 P2]. unfold display. cbn [fold_left]. change (fold_left put t (put s x)) with (display (put s x) t).
    assert (put s x = {| above := above s; line := firstn (col s) (line s) ++ x :: skipn (S (col s)) (line s); col := S (col s) |}) as EP.
    { unfold put. destruct (ascii_dec x CR) as [-> | _]; [exfalso; apply P1; left; reflexivity|]. destruct (ascii_dec x LF) as [-> | _]; [exfalso; apply P2; left; reflexivity | reflexivity]. }
    assert (firstn (col s) (line s) = a) as F1. { rewrite EL, EC, firstn_app, firstn_all, Nat.sub_diag. cbn [firstn]. apply app_nil_r. }
    assert (skipn (S (col s)) (line s) = tl b ++ c) as F2.
    { rewrite EL, EC, skipn_app. rewrite skipn_all2 by lia. replace (S (length a) - length a) with 1 by lia. cbn [app]. destruct b as [|y b]; [|reflexivity]. cbn [app tl length] in *. destruct LB as [LB | [_ ->]]; [discriminate | reflexivity]. }
    rewrite EP, F1, F2. rewrite (IH _ (conj (fun H => P1 (or_intror H)) (fun H => P2 (or_intror H))) (a ++ [x]) (tl b) c).
    + cbn [above length]. rewrite app_length, <- app_assoc. cbn [length app]. f_equal. lia.
    + cbn [line]. rewrite <- app_assoc. reflexivity.
    + cbn [col]. rewrite app_length, EC. cbn [length]. lia.
    + destruct b as [|y b]; cbn [tl length] in *; [|destruct LB as [LB | [LB ->]]; [left; lia | right; split; [lia | reflexivity]]]. destruct LB as [LB | [_ ->]]; [discriminate | right; split; [lia | reflexivity]].
Qed.
Lemma display_app : forall s a b, display s (a ++ b) = display (display s a) b.
Proof. intros s a b. unfold display. apply fold_left_app. Qed.
(* a text with a carriage return, from the start of a line of blanks *)
Lemma display_line : forall s t b, Plain t -> line s = repeat SP b -> col s = 0 -> let r := display s (t ++ [CR]) in above r = above s /\ col r = 0 /\ Looks (line r) t.
Proof.
  intros s t b PL EL EC. cbv zeta. rewrite display_app. rewrite (display_plain t s PL [] (repeat SP (Nat.min b (length t))) (repeat SP (b - length t))).
  - unfold display. cbn [fold_left]. unfold put. cbn [above col line]. destruct (ascii_dec CR CR) as [_ | N]; [|congruence]. cbn [above col line app]. split; [reflexivity|]. split; [reflexivity|]. exists (b - length t). reflexivity.
  - rewrite EL. cbn [app]. rewrite <- repeat_app. f_equal. lia.
  - exact EC.
  - rewrite repeat_length. destruct (le_lt_dec (length t) b) as [L | L]; [left; lia | right]. split; [lia|]. replace (b - length t) with 0 by lia. reflexivity.
Qed.
Lemma plain_blanks : forall n, Plain (repeat SP n).
Proof. intros n. split; intros IN; apply repeat_spec in IN; discriminate IN. Qed.
Lemma erase_line : forall s t, Looks (line s) t -> col s = 0 -> let r := display s (repeat SP (length t) ++ [CR]) in above r = above s /\ col r = 0 /\ exists b, line r = repeat SP b.
Proof.
  intros s t [b EL] EC. cbv zeta. rewrite display_app. rewrite (display_plain (repeat SP (length t)) s (plain_blanks _) [] t (repeat SP b)).
  - unfold display. cbn [fold_left]. unfold put. cbn [above col line]. destruct (ascii_dec CR CR) as [_ | N]; [|congruence]. cbn [above col line app]. split; [reflexivity|]. split; [reflexivity|]. exists (length t + b). symmetry. apply repeat_app.
  - exact EL.
  - exact EC.
  - left. symmetry. apply repeat_length.
Qed.
Lemma show_app : forall s (a b : list (event node)), show s (a ++ b) = show (show s a) b.
Proof. intros s a b. unfold show. apply fold_left_app. Qed.

(* C88b: with overwrite, and texts of one line that end in a carriage return, the line of the terminal shows the text of the last node that was to be shown and nothing else, whatever was shown before *)
Definition blank (ab : list text) : screen := {| above := ab; line := []; col := 0 |}.
Theorem C88b_overwrite : forall o i ns ab, i <> 0 -> Fine o -> (forall m n e, Shows str m n o e -> exists t, e = Wrote (t ++ [CR]) /\ Plain t) ->
  let s := show (blank ab) (log (run o i true ns)) in above s = ab /\ col s = 0 /\
  (length ns / i = 0 -> line s = []) /\
  (length ns / i <> 0 -> exists n t, nth_error ns (length ns / i * i - 1) = Some n /\ Shows str (length ns / i * i) n o (Wrote (t ++ [CR])) /\ Looks (line s) t).
Proof.
  intros o i ns ab NZ F HS. cbv zeta.
  assert (let s := show (blank ab) (log (run o i true ns)) in above s = ab /\ col s = 0 /\
    ((length ns / i = 0 /\ line s = [] /\ prev (run o i true ns) = []) \/
     (length ns / i <> 0 /\ exists n t, nth_error ns (length ns / i * i - 1) = Some n /\ Shows str (length ns / i * i) n o (Wrote (t ++ [CR])) /\ Looks (line s) t /\ prev (run o i true ns) = t ++ [CR]))) as H.
  2: { cbv zeta in H. destruct H as [A [C H]]. split; [exact A|]. split; [exact C|]. destruct H as [[Z [L _]] | [Z [n [t [E [S0 [L _]]]]]]]; (split; intros Q; [|]); try contradiction; [exact L | exists n, t; auto]. }
  induction ns as [|n ns IH] using rev_ind.
  - cbn [length]. rewrite Nat.div_0_l by exact NZ. split; [reflexivity|]. split; [reflexivity|]. left. split; [reflexivity|]. split; reflexivity.
  - cbv zeta in *. rewrite run_snoc, app_length. cbn [length]. replace (length ns + 1) with (S (length ns)) by lia. rewrite (div_step _ _ NZ).
    unfold PrgModel.call. rewrite (run_count o i true ns F). replace (length ns + 1) with (S (length ns)) by lia. cbn [count].
    set (p := run o i true ns) in *. set (q := {| count := S (length ns); prev := prev p; log := log p |}). cbv zeta. destruct IH as [A [C IH]].
    destruct (S (length ns) mod i =? 0) eqn:M.
    + apply Nat.eqb_eq in M.
      assert (exists b, let s := show (blank ab) (log (erase_previous q)) in above s = ab /\ col s = 0 /\ line s = repeat SP b) as [b [A1 [C1 L1]]].
      { unfold erase_previous. subst q. cbn [prev]. destruct IH as [[_ [L P]] | [_ [m [t [_ [_ [L P]]]]]]]; rewrite P.
        - exists 0. cbn [log]. auto.
        - assert (last (t ++ [CR]) SP = CR) as LC by apply last_last. destruct (t ++ [CR]) as [|y w] eqn:ET; [destruct t; discriminate|]. rewrite <- ET. rewrite <- ET in LC. rewrite LC. change (Ascii.eqb CR LF || Ascii.eqb CR CR)%bool with true. cbv iota.
          unfold write. cbn [log count]. rewrite show_app. rewrite app_length. cbn [length]. replace (length t + 1 - 1) with (length t) by lia. unfold show at 1. cbn [fold_left].
          destruct (erase_line (show (blank ab) (log p)) t L C) as [X1 [X2 [b X3]]]. exists b. rewrite X1. auto. }
      destruct (func_shows o n (erase_previous q) F) as [e [EL [SH [_ [PW _]]]]]. rewrite erase_count in SH. subst q. cbn [count] in SH. destruct (HS _ _ _ SH) as [t [-> PL]].
      set (q := {| count := S (length ns); prev := prev p; log := log p |}) in *. rewrite EL, show_app. assert (forall s u, show s [@Wrote node u] = display s u) as SW by reflexivity. rewrite !SW.
      destruct (display_line (show (blank ab) (log (erase_previous q))) t b PL L1 C1) as [X1 [X2 X3]]. split; [rewrite X1; exact A1|]. split; [exact X2|]. right. split; [lia|].
      exists n, t. pose proof (div_step (length ns) i NZ) as DS. rewrite M in DS. cbn [Nat.eqb] in DS. pose proof (mod_zero_mult _ _ NZ M) as MM. rewrite DS in MM. rewrite MM.
      replace (S (length ns) - 1) with (length ns) by lia. rewrite nth_error_app2, Nat.sub_diag by lia. split; [reflexivity|]. split; [exact SH|]. split; [exact X3 | exact (PW _ eq_refl)].
    + subst q. cbn [log prev]. split; [exact A|]. split; [exact C|]. destruct IH as [IH | [Z [m [t [E1 R]]]]]; [left; exact IH | right]. split; [exact Z|]. exists m, t. rewrite nth_error_app1 by (apply nth_error_Some; congruence). split; [exact E1 | exact R].
Qed.
End Props.
