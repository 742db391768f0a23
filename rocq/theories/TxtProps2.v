(* C74: the signature of the Textfile and Substfile action *)
From Coq Require Import Ascii String List Bool Arith Lia Permutation.
From Verif Require Import SubstModel TxtModel TxtSpec TxtProps.
Import ListNotations.
Open Scope list_scope.

(* ---- repr can be read back ---- *)
Definition unhex (c : ascii) : nat := let n := nat_of_ascii c in if n <=? 57 then n - 48 else n - 87.
Definition decode (s : str) : option (ascii * str) :=
  match s with
  | [] => None
  | b :: r =>
      if Ascii.eqb b bsl then
        match r with
        | [] => None
        | e :: r1 =>
            if Ascii.eqb e "t"%char then Some (ascii_of_nat 9, r1)
            else if Ascii.eqb e "n"%char then Some (ascii_of_nat 10, r1)
            else if Ascii.eqb e "r"%char then Some (ascii_of_nat 13, r1)
            else if Ascii.eqb e "x"%char then match r1 with h :: l :: r2 => Some (ascii_of_nat (16 * unhex h + unhex l), r2) | _ => None end
            else Some (e, r1)
        end
      else Some (b, r)
  end.
Lemma decode_esc q c u : q = q1 \/ q = q2 -> decode (esc q c ++ u) = Some (c, u).
Proof.
  intros [-> | ->]; destruct c as [[] [] [] [] [] [] [] []]; vm_compute; reflexivity.
Qed.
Lemma esc_head q c u : q = q1 \/ q = q2 -> exists x r, esc q c ++ u = x :: r /\ x <> q.
Proof.
  intros [-> | ->]; destruct c as [[] [] [] [] [] [] [] []]; eexists; eexists; (split; [vm_compute; reflexivity | vm_compute; discriminate]).
Qed.
Lemma body_inj q a : (q = q1 \/ q = q2) -> forall b x y,
  flat_map (esc q) a ++ q :: x = flat_map (esc q) b ++ q :: y -> a = b /\ x = y.
Proof.
  intros Hq. induction a as [|c a IH]; intros [|d b] x y E.
  - cbn [flat_map app] in E. injection E as E. split; [reflexivity | exact E].
  - cbn [flat_map app] in E. rewrite <- app_assoc in E.
    destruct (esc_head q d (flat_map (esc q) b ++ q :: y) Hq) as [z [r [Z Hz]]]. rewrite Z in E. injection E as E1 _. congruence.
  - cbn [flat_map app] in E. rewrite <- app_assoc in E.
    destruct (esc_head q c (flat_map (esc q) a ++ q :: x) Hq) as [z [r [Z Hz]]]. rewrite Z in E. injection E as E1 _. congruence.
  - cbn [flat_map] in E. rewrite <- !app_assoc in E.
    pose proof (decode_esc q c (flat_map (esc q) a ++ q :: x) Hq) as D1.
    pose proof (decode_esc q d (flat_map (esc q) b ++ q :: y) Hq) as D2.
    rewrite E in D1. rewrite D2 in D1. injection D1 as D3 D4.
    destruct (IH b x y (eq_sym D4)) as [-> ->]. rewrite D3. split; reflexivity.
Qed.
Lemma repr_inj a b x y : repr a ++ x = repr b ++ y -> a = b /\ x = y.
Proof.
  unfold repr.
  assert (Hq : forall s : str, let q := (if has q1 s && negb (has q2 s) then q2 else q1) in q = q1 \/ q = q2).
  { intros s. cbn zeta. destruct (has q1 s && negb (has q2 s)); [right | left]; reflexivity. }
  pose proof (Hq a) as Ha. pose proof (Hq b) as Hb. cbn zeta in Ha, Hb. clear Hq. revert Ha Hb.
  generalize (if has q1 a && negb (has q2 a) then q2 else q1) as qa.
  generalize (if has q1 b && negb (has q2 b) then q2 else q1) as qb. intros qb qa Ha Hb E.
  cbn zeta in E. cbn [app] in E. injection E as -> E. rewrite <- !app_assoc in E. cbn [app] in E.
  exact (body_inj qb a Hb b x y E).
Qed.
Lemma repr_head s u : exists q r, repr s ++ u = q :: r /\ (q = q1 \/ q = q2).
Proof.
  unfold repr. cbn zeta. eexists. eexists. cbn [app]. split; [reflexivity|].
  destruct (has q1 s && negb (has q2 s)); [right | left]; reflexivity.
Qed.

(* ---- entries and dictionaries ---- *)
Lemma colon_ne : list_ascii_of_string ": " <> []. Proof. discriminate. Qed.
Lemma entry_inj k v k' v' x y :
  entry (k, TvStr v) ++ x = entry (k', TvStr v') ++ y -> k = k' /\ v = v' /\ x = y.
Proof.
  unfold entry. cbn [fst snd vrepr]. rewrite <- !app_assoc. intros E.
  apply repr_inj in E. destruct E as [-> E]. apply app_inv_head in E. apply repr_inj in E. destruct E as [-> ->]. repeat split.
Qed.
Definition comma : str := list_ascii_of_string ", ".
Lemma join_cons2 (sep : str) x y r : join sep (x :: y :: r) = x ++ sep ++ join sep (y :: r).
Proof. reflexivity. Qed.
Lemma entry_head kv u : exists q r, entry kv ++ u = q :: r /\ (q = q1 \/ q = q2).
Proof. unfold entry. rewrite <- app_assoc. apply repr_head. Qed.
Lemma join_head kv l u : exists q r, join comma (entry kv :: map entry l) ++ u = q :: r /\ (q = q1 \/ q = q2).
Proof.
  destruct l as [|kv2 l].
  - cbn [map join]. apply entry_head.
  - cbn [map]. rewrite join_cons2, <- app_assoc. apply entry_head.
Qed.
Lemma brace_not_quote q : q = q1 \/ q = q2 -> q <> "}"%char.
Proof. intros [-> | ->]; vm_compute; discriminate. Qed.
Lemma entries_inj l : forall l' x y,
  join comma (map entry (strs l)) ++ "}"%char :: x = join comma (map entry (strs l')) ++ "}"%char :: y -> l = l' /\ x = y.
Proof.
  induction l as [|[k v] l IH]; intros [|[k' v'] l'] x y E.
  - cbn in E. injection E as E. split; [reflexivity | exact E].
  - destruct (join_head (k', TvStr v') (strs l') ("}"%char :: y)) as [q [r [Z Hq]]].
    assert (E0 : "}"%char :: x = q :: r) by (rewrite <- Z; exact E). injection E0 as E1 _. exfalso. exact (brace_not_quote q Hq (eq_sym E1)).
  - destruct (join_head (k, TvStr v) (strs l) ("}"%char :: x)) as [q [r [Z Hq]]].
    assert (E0 : q :: r = "}"%char :: y) by (rewrite <- Z; exact E). injection E0 as E1 _. exfalso. exact (brace_not_quote q Hq E1).
  - destruct l as [|[k2 v2] l]; destruct l' as [|[k2' v2'] l'].
    + cbn [strs map fst snd join] in E. apply entry_inj in E. destruct E as [-> [-> E]]. injection E as ->. split; reflexivity.
    + cbn [strs map fst snd] in E. rewrite join_cons2 in E. cbn [join] in E. rewrite <- !app_assoc in E.
      apply entry_inj in E. destruct E as [_ [_ E]]. unfold comma in E. cbn in E. discriminate E.
    + cbn [strs map fst snd] in E. rewrite join_cons2 in E. cbn [join] in E. rewrite <- !app_assoc in E.
      apply entry_inj in E. destruct E as [_ [_ E]]. unfold comma in E. cbn in E. discriminate E.
    + cbn [strs map fst snd] in E. rewrite !join_cons2, <- !app_assoc in E.
      apply entry_inj in E. destruct E as [-> [-> E]]. apply app_inv_head in E.
      destruct (IH ((k2', v2') :: l') x y E) as [-> ->]. split; reflexivity.
Qed.
Lemma insert_perm p l : Permutation (insert p l) (p :: l).
Proof.
  induction l as [|q l IH]; [reflexivity|]. cbn [insert]. destruct (key_leb (fst p) (fst q)); [reflexivity|].
  rewrite IH. apply perm_swap.
Qed.
Lemma sort_perm l : Permutation (sort l) l.
Proof. induction l as [|p l IH]; [reflexivity|]. unfold sort in *. cbn [fold_right]. rewrite insert_perm, IH. reflexivity. Qed.
Lemma sort_strs l : exists l', sort (strs l) = strs l' /\ Permutation l' l.
Proof.
  induction l as [|[k v] l IH]; [exists []; split; reflexivity|].
  destruct IH as [l' [E P]].
  change (sort (strs ((k, v) :: l))) with (insert (k, TvStr v) (sort (strs l))). rewrite E. clear E.
  assert (Q : forall m, exists m', insert (k, TvStr v) (strs m) = strs m' /\ Permutation m' ((k, v) :: m)).
  { induction m as [|[k2 v2] m [m' [Em Pm]]].
    - exists [(k, v)]. split; reflexivity.
    - cbn [strs map fst snd insert]. destruct (key_leb k k2).
      + exists ((k, v) :: (k2, v2) :: m). split; reflexivity.
      + fold (strs m). rewrite Em. exists ((k2, v2) :: m'). split; [reflexivity|]. rewrite Pm. apply perm_swap. }
  destruct (Q l') as [m' [Em Pm]]. exists m'. split; [exact Em|]. rewrite Pm, P. reflexivity.
Qed.
Lemma pformat_inj l l' x y : pformat (strs l) ++ x = pformat (strs l') ++ y -> Permutation l l' /\ x = y.
Proof.
  unfold pformat. destruct (sort_strs l) as [m [Em Pm]]. destruct (sort_strs l') as [m' [Em' Pm']]. rewrite Em, Em'.
  intros E. cbn [app] in E. injection E as E. rewrite <- !app_assoc in E. cbn [app] in E. fold comma in E.
  destruct (entries_inj m m' x y E) as [-> ->]. split; [|reflexivity]. rewrite <- Pm, <- Pm'. reflexivity.
Qed.

(* ---- the signature text of a quiet string is the string ---- *)
Definition step (p : bool) (c : ascii) : option bool :=
  if Ascii.eqb c dollar || Ascii.eqb c (ascii_of_nat 9) then None
  else if Ascii.eqb c " "%char then if p then None else Some true else Some false.
Fixpoint run (p : bool) (s : str) : option bool :=
  match s with [] => Some p | c :: r => match step p c with None => None | Some p' => run p' r end end.
Lemma run_app p a b : run p (a ++ b) = match run p a with None => None | Some p' => run p' b end.
Proof. revert p. induction a as [|c a IH]; intros p; [reflexivity|]. cbn [app run]. destruct (step p c); [apply IH | reflexivity]. Qed.
Lemma run_dollar p s : run p s <> None -> has_dollar s = false.
Proof.
  revert p. induction s as [|c s IH]; intros p H; [reflexivity|]. unfold has_dollar in *. cbn [run existsb] in *.
  unfold step in H. destruct (Ascii.eqb c dollar) eqn:E; cbn [orb] in *; [congruence|].
  destruct (Ascii.eqb c (ascii_of_nat 9)); [congruence|].
  destruct (Ascii.eqb c " "%char); [destruct p; [congruence|]|]; eapply IH; exact H.
Qed.
Lemma run_compress s : forall p p', run p s <> None -> (p' = true -> p = true) -> compress p' s = s.
Proof.
  induction s as [|c s IH]; intros p p' H Hp; [reflexivity|]. cbn [run compress] in *. unfold step, is_blank in *.
  destruct (Ascii.eqb c dollar); [cbn in H; congruence|].
  destruct (Ascii.eqb c (ascii_of_nat 9)); [rewrite orb_true_r in H; congruence|].
  cbn [orb] in H. rewrite orb_false_r. destruct (Ascii.eqb c " "%char) eqn:Eb.
  - destruct p; [congruence|]. destruct p'; [specialize (Hp eq_refl); discriminate|].
    cbn [andb]. apply Ascii.eqb_eq in Eb. subst c.
    destruct (negb (in_braces s)); f_equal.
    + apply (IH true true H). reflexivity.
    + apply (IH true false H). discriminate.
  - cbn [andb]. f_equal. apply (IH false false H). discriminate.
Qed.
Lemma split_sig_quiet s : forall p acc, has_dollar s = false -> split_sig p acc s = [PcText (rev acc ++ s)].
Proof.
  induction s as [|c s IH]; intros p acc H; [cbn; rewrite app_nil_r; reflexivity|].
  unfold has_dollar in H. cbn [existsb] in H. apply orb_false_iff in H. destruct H as [H1 H2].
  cbn [split_sig]. rewrite H1, andb_false_r. cbn [andb].
  destruct s as [|d s].
  - cbn [rev]. reflexivity.
  - rewrite IH by exact H2. cbn [rev]. rewrite <- app_assoc. reflexivity.
Qed.
Lemma undouble_quiet s : has_dollar s = false -> undouble s = s.
Proof.
  induction s as [|c s IH]; intros H; [reflexivity|]. unfold has_dollar in H. cbn [existsb] in H. apply orb_false_iff in H. destruct H as [H1 H2].
  cbn [undouble]. destruct s as [|d s]; [reflexivity|]. rewrite H1. cbn [andb]. f_equal. apply IH. exact H2.
Qed.
Definition edges_ok (s : str) : Prop :=
  (forall x r, s = x :: r -> is_space x = false) /\ (forall x r, s = r ++ [x] -> is_space x = false).
Lemma strip_edges s : edges_ok s -> strip s = s.
Proof.
  intros [H1 H2]. unfold strip.
  assert (L : lstrip s = s) by (destruct s as [|x r]; [reflexivity|]; cbn [lstrip]; rewrite (H1 x r eq_refl); reflexivity).
  rewrite L.
  assert (R : lstrip (rev s) = rev s).
  { destruct (rev s) as [|x r] eqn:E; [reflexivity|]. cbn [lstrip].
    assert (Es : s = rev r ++ [x]) by (rewrite <- (rev_involutive s), E; reflexivity).
    rewrite (H2 x (rev r) Es). reflexivity. }
  rewrite R. apply rev_involutive.
Qed.
Lemma finish_quiet s : run false s <> None -> edges_ok s -> finish SIG s = Ok s.
Proof.
  intros H He. unfold finish. pose proof (run_dollar false s H) as Hd. rewrite split_sig_quiet by exact Hd.
  cbn [rev app remove_list Nat.eqb join]. rewrite (run_compress s false false H) by discriminate.
  rewrite (strip_edges s He), undouble_quiet by exact Hd. reflexivity.
Qed.

(* ---- the formatted dictionary is quiet ---- *)
Lemma run_esc q p c : q = q1 \/ q = q2 -> c <> "$"%char -> run p (esc q c) = if Ascii.eqb c " "%char then (if p then None else Some true) else Some false.
Proof.
  intros [-> | ->] Hc; destruct p; destruct c as [[] [] [] [] [] [] [] []];
    first [vm_compute; reflexivity | exfalso; apply Hc; reflexivity].
Qed.
Lemma run_body q s : q = q1 \/ q = q2 -> forall p, Tame s -> (p = true -> match s with x :: _ => x <> " "%char | [] => True end) ->
  exists p', run p (flat_map (esc q) s) = Some p'.
Proof.
  intros Hq. induction s as [|c s IH]; intros p Ht Hp; [exists p; reflexivity|].
  destruct Ht as [Hc [Hb Ht]]. cbn [flat_map]. rewrite run_app, (run_esc q p c Hq Hc).
  destruct (Ascii.eqb c " "%char) eqn:Eb.
  - apply Ascii.eqb_eq in Eb. subst c. destruct p; [exfalso; exact (Hp eq_refl eq_refl)|].
    apply IH; [exact Ht|]. intros _. destruct s as [|d s]; [exact Logic.I|]. intros Ed. apply Hb. split; [reflexivity | exact Ed].
  - apply IH; [exact Ht|]. discriminate.
Qed.
Lemma step_quote q p : q = q1 \/ q = q2 -> step p q = Some false.
Proof. intros [-> | ->]; vm_compute; reflexivity. Qed.
Lemma run_repr s p : Tame s -> run p (repr s) = Some false.
Proof.
  intros Ht. unfold repr. cbn zeta.
  assert (Hq : (if has q1 s && negb (has q2 s) then q2 else q1) = q1 \/ (if has q1 s && negb (has q2 s) then q2 else q1) = q2)
    by (destruct (has q1 s && negb (has q2 s)); [right | left]; reflexivity).
  revert Hq. generalize (if has q1 s && negb (has q2 s) then q2 else q1) as q. intros q Hq.
  cbn [run]. rewrite (step_quote q p Hq). rewrite run_app.
  destruct (run_body q s Hq false Ht) as [p' ->]; [discriminate|]. cbn [run]. rewrite (step_quote q p' Hq). reflexivity.
Qed.
Definition TameDict (d : list (text * text)) : Prop := Forall (fun kv => Tame (fst kv) /\ Tame (snd kv)) d.
Lemma run_entry k v p : Tame k -> Tame v -> run p (entry (k, TvStr v)) = Some false.
Proof.
  intros Hk Hv. unfold entry. cbn [fst snd vrepr]. rewrite run_app, (run_repr k p Hk), run_app.
  change (run false (list_ascii_of_string ": ")) with (Some true). apply run_repr. exact Hv.
Qed.
Lemma run_join d p : d <> [] -> TameDict d -> run p (join comma (map entry (strs d))) = Some false.
Proof.
  intros Hne Hd. revert p. induction Hd as [|[k v] d [Hk Hv] Hd IH]; intros p; [congruence|].
  destruct d as [|[k2 v2] d].
  - cbn [strs map fst snd join]. apply run_entry; assumption.
  - cbn [strs map fst snd]. rewrite join_cons2, run_app, (run_entry k v p Hk Hv), run_app.
    change (run false comma) with (Some true). apply IH. discriminate.
Qed.
Lemma run_pformat d : TameDict d -> run false (pformat (strs d)) = Some false.
Proof.
  intros Hd. unfold pformat. destruct (sort_strs d) as [m [-> Pm]].
  assert (Hm : TameDict m).
  { unfold TameDict in *. rewrite Forall_forall in *. intros x Hx. apply Hd. eapply Permutation_in; [exact Pm | exact Hx]. }
  fold comma. cbn [run]. change (step false "{"%char) with (Some false). cbv iota. rewrite run_app.
  destruct m as [|kv m]; [reflexivity|]. rewrite run_join; [reflexivity | discriminate | exact Hm].
Qed.
Lemma last_of {A} (r r' : list A) x y : r ++ [x] = r' ++ [y] -> x = y.
Proof. intros E. apply app_inj_tail in E. destruct E as [_ E]. exact E. Qed.
Lemma edges_pformat l : edges_ok (pformat l).
Proof.
  unfold pformat. split.
  - intros x r E. injection E as E _. subst x. reflexivity.
  - intros x r E. rewrite app_comm_cons in E. apply last_of in E. subst x. reflexivity.
Qed.
Lemma run_visible s : forall p, Tame s -> (forall x, In x s -> x <> ascii_of_nat 9) -> (p = true -> match s with x :: _ => x <> " "%char | [] => True end) ->
  run p s <> None.
Proof.
  induction s as [|c s IH]; intros p Ht H9 Hp; [discriminate|]. destruct Ht as [Hc [Hb Ht]]. cbn [run]. unfold step.
  assert (E1 : Ascii.eqb c dollar = false) by (apply Ascii.eqb_neq; exact Hc). rewrite E1.
  assert (E2 : Ascii.eqb c (ascii_of_nat 9) = false) by (apply Ascii.eqb_neq; apply H9; left; reflexivity). rewrite E2. cbn [orb].
  assert (H9' : forall x, In x s -> x <> ascii_of_nat 9) by (intros x Hx; apply H9; right; exact Hx).
  destruct (Ascii.eqb c " "%char) eqn:Eb.
  - apply Ascii.eqb_eq in Eb. subst c. destruct p; [exfalso; exact (Hp eq_refl eq_refl)|].
    apply IH; [exact Ht | exact H9' |]. intros _. destruct s as [|d s]; [exact Logic.I|]. intros Ed. apply Hb. split; [reflexivity | exact Ed].
  - apply IH; [exact Ht | exact H9' | discriminate].
Qed.
Lemma visible_space x : visible x -> is_space x = false.
Proof.
  unfold visible, is_space. cbn zeta. intros [H1 H2].
  destruct (nat_of_ascii x <=? 13) eqn:A; [apply Nat.leb_le in A; lia|].
  destruct (nat_of_ascii x <=? 32) eqn:B; [apply Nat.leb_le in B; lia|].
  rewrite !andb_false_r. reflexivity.
Qed.
Lemma finish_visible s : Visible s -> finish SIG s = Ok s.
Proof.
  intros [Ht [H9 [H1 H2]]]. apply finish_quiet.
  - apply run_visible; [exact Ht | exact H9 | discriminate].
  - split; [intros x r E; apply visible_space; exact (H1 x r E) | intros x r E; apply visible_space; exact (H2 x r E)].
Qed.

(* ---- the signature ---- *)
Lemma lex_ref v : lex (ref nm_dict) = [TRef nm_dict] /\ lex (ref nm_sep) = [TRef nm_sep] /\
  (In v (skipn 2 text_varlist) \/ In v (skipn 2 subst_varlist) -> lex (ref v) = [TRef v]).
Proof.
  split; [vm_compute; reflexivity|]. split; [vm_compute; reflexivity|].
  intros [H|H]; cbn [skipn text_varlist subst_varlist In] in H; destruct H as [<-|[<-|[]]]; vm_compute; reflexivity.
Qed.
Lemma has_dollar_ref v : has_dollar (ref v) = true.
Proof. reflexivity. Qed.
Lemma expand_ref fuel m E lv v w : lex (ref v) = [TRef v] -> lookup E lv v = Ok (Some w) ->
  subst (S fuel) m E lv (ref v) =
  bind (match plain w with Some s => Ok s | None => bind (expand fuel m E ((var_of v, VStr []) :: lv) w) (fun r => Ok (conv E m r)) end)
       (fun s => finish m s).
Proof.
  intros L K. unfold subst. rewrite has_dollar_ref. cbn [expand]. rewrite L. cbn [mapM]. rewrite K. cbn [bind].
  destruct (plain w) as [s|].
  - cbn [bind concat]. rewrite app_nil_r. destruct m; reflexivity.
  - destruct (expand fuel m E ((var_of v, VStr []) :: lv) w) as [r| |]; cbn [bind concat]; try reflexivity.
    rewrite app_nil_r. destruct m; reflexivity.
Qed.
Lemma sig_dict fuel lv T d : te_dict T = Some (SDict (strs d)) -> dget lv nm_dict = None -> TameDict d ->
  subst (S (S fuel)) SIG (full_env T) lv (ref nm_dict) = Ok (pformat (strs d)).
Proof.
  intros HT Hl Hd.
  rewrite (expand_ref (S fuel) SIG (full_env T) lv nm_dict (VObj (pystr (strs d)) (pformat (strs d)))).
  - cbn [plain expand bind conv]. apply finish_quiet; [rewrite run_pformat by exact Hd; discriminate | apply edges_pformat].
  - exact (proj1 (lex_ref [])).
  - unfold lookup. rewrite Hl. unfold full_env. rewrite HT. cbn [gv app dict_val].
    change (dget ((nm_dict, VObj (pystr (strs d)) (pformat (strs d))) :: ((nm_sep, match te_sep T with Some s => VStr s | None => VNone end)
       :: (nm_enc, VStr (te_enc T)) :: gv (te_env T))) nm_dict) with (Some (VObj (pystr (strs d)) (pformat (strs d)))).
    reflexivity.
Qed.
Lemma str_eqb_refl a : str_eqb a a = true.
Proof. induction a as [|x a IH]; [reflexivity|]. cbn [str_eqb]. rewrite Ascii.eqb_refl, IH. reflexivity. Qed.
Lemma tame_dollar s : Tame s -> has_dollar s = false.
Proof.
  induction s as [|c s IH]; intros Ht; [reflexivity|]. destruct Ht as [Hc [_ Ht]]. unfold has_dollar in *. cbn [existsb].
  rewrite (IH Ht). assert (E1 : Ascii.eqb c dollar = false) by (apply Ascii.eqb_neq; exact Hc). rewrite E1. reflexivity.
Qed.
Lemma sig_sep fuel lv T d s : te_dict T = Some d -> te_sep T = Some s -> dget lv nm_sep = None -> Visible s ->
  subst (S fuel) SIG (full_env T) lv (ref nm_sep) = Ok s.
Proof.
  intros HT HS Hl Hv. rewrite (expand_ref fuel SIG (full_env T) lv nm_sep (VStr s)).
  - cbn [plain]. rewrite (tame_dollar s (proj1 Hv)). cbn [bind]. apply finish_visible. exact Hv.
  - exact (proj1 (proj2 (lex_ref []))).
  - unfold lookup. rewrite Hl. unfold full_env. rewrite HT, HS. cbn [gv app dget].
    change (str_eqb nm_sep nm_dict) with false. cbv iota. rewrite str_eqb_refl. reflexivity.
Qed.
Lemma sig_other fuel lv T d v p : te_dict T = Some d -> In v (skipn 2 text_varlist) \/ In v (skipn 2 subst_varlist) -> dget lv v = None ->
  dget (gv (te_env T)) v = Some (VStr p) -> ~ In "$"%char p ->
  subst (S fuel) SIG (full_env T) lv (ref v) = finish SIG p.
Proof.
  intros HT Hv Hl Hg Hp. rewrite (expand_ref fuel SIG (full_env T) lv v (VStr p)).
  - cbn [plain]. rewrite (no_dollar p Hp). reflexivity.
  - exact (proj2 (proj2 (lex_ref v)) Hv).
  - unfold lookup. rewrite Hl. unfold full_env. rewrite HT. cbn [gv app dget].
    assert (N1 : str_eqb v nm_dict = false /\ str_eqb v nm_sep = false /\ str_eqb v nm_enc = false).
    { destruct Hv as [H|H]; cbn [skipn text_varlist subst_varlist In] in H; destruct H as [<-|[<-|[]]]; repeat split; reflexivity. }
    destruct N1 as [-> [-> ->]]. rewrite Hg. reflexivity.
Qed.
Lemma finish_no_dollar p : ~ In "$"%char p -> exists t, finish SIG p = Ok t.
Proof.
  intros Hp. unfold finish. rewrite split_sig_quiet by (apply no_dollar; exact Hp). cbn [rev app remove_list Nat.eqb].
  eexists. reflexivity.
Qed.

(* an environment with a quiet dictionary and separator, and the given prefix and suffix *)
Definition SigReady (vl : list str) (T : tenv) (d : list (text * text)) (sep pre suf : text) : Prop :=
  te_dict T = Some (SDict (strs d)) /\ te_sep T = Some sep /\ TameDict d /\ Visible sep
  /\ dget (gv (te_env T)) (nth 2 vl []) = Some (VStr pre) /\ dget (gv (te_env T)) (nth 3 vl []) = Some (VStr suf)
  /\ ~ In "$"%char pre /\ ~ In "$"%char suf.
Lemma signature_text fuel presig vl lv T d sep pre suf :
  (vl = text_varlist \/ vl = subst_varlist) -> (forall v, In v vl -> dget lv v = None) -> SigReady vl T d sep pre suf ->
  exists tp ts, finish SIG pre = Ok tp /\ finish SIG suf = Ok ts
    /\ signature (S (S fuel)) presig vl lv T = Ok (presig ++ pformat (strs d) ++ sep ++ tp ++ ts).
Proof.
  intros Hvl Hlv [HT [HS [Hd [Hv [Hp [Hx [Np Ns]]]]]]].
  destruct (finish_no_dollar pre Np) as [tp Tp]. destruct (finish_no_dollar suf Ns) as [ts Ts].
  exists tp, ts. split; [exact Tp|]. split; [exact Ts|].
  unfold signature.
  assert (Q : mapM (fun v => subst (S (S fuel)) SIG (full_env T) lv (ref v)) vl = Ok [pformat (strs d); sep; tp; ts]).
  { assert (V : vl = [nm_dict; nm_sep; nth 2 vl []; nth 3 vl []]) by (destruct Hvl as [-> | ->]; reflexivity).
    assert (I2 : In (nth 2 vl []) (skipn 2 text_varlist) \/ In (nth 2 vl []) (skipn 2 subst_varlist))
      by (destruct Hvl as [-> | ->]; [left | right]; cbn; left; reflexivity).
    assert (I3 : In (nth 3 vl []) (skipn 2 text_varlist) \/ In (nth 3 vl []) (skipn 2 subst_varlist))
      by (destruct Hvl as [-> | ->]; [left | right]; cbn; right; left; reflexivity).
    revert V Hp Hx I2 I3. generalize (nth 2 vl []) as v2. generalize (nth 3 vl []) as v3. intros v3 v2 V Hp Hx I2 I3. subst vl.
    cbn [mapM].
    rewrite (sig_dict fuel lv T d HT (Hlv nm_dict (or_introl eq_refl)) Hd). cbn [bind].
    rewrite (sig_sep (S fuel) lv T _ sep HT HS (Hlv nm_sep (or_intror (or_introl eq_refl))) Hv). cbn [bind].
    rewrite (sig_other (S fuel) lv T _ v2 pre HT I2 (Hlv v2 (or_intror (or_intror (or_introl eq_refl)))) Hp Np), Tp. cbn [bind].
    rewrite (sig_other (S fuel) lv T _ v3 suf HT I3 (Hlv v3 (or_intror (or_intror (or_intror (or_introl eq_refl))))) Hx Ns), Ts. reflexivity. }
  rewrite Q. cbn [bind concat]. rewrite app_nil_r. reflexivity.
Qed.

(* C74f: equal signatures: the same entries and the same separator *)
Theorem C74f_signature : forall fuel presig vl lv T1 T2 d1 d2 sep1 sep2 pre suf,
  (vl = text_varlist \/ vl = subst_varlist) -> (forall v, In v vl -> dget lv v = None) ->
  SigReady vl T1 d1 sep1 pre suf -> SigReady vl T2 d2 sep2 pre suf ->
  (exists s, signature (S (S fuel)) presig vl lv T1 = Ok s)
  /\ (signature (S (S fuel)) presig vl lv T1 = signature (S (S fuel)) presig vl lv T2 -> Permutation d1 d2 /\ sep1 = sep2).
Proof.
  intros fuel presig vl lv T1 T2 d1 d2 sep1 sep2 pre suf Hvl Hlv R1 R2.
  destruct (signature_text fuel presig vl lv T1 d1 sep1 pre suf Hvl Hlv R1) as [tp [ts [Tp [Ts S1]]]].
  destruct (signature_text fuel presig vl lv T2 d2 sep2 pre suf Hvl Hlv R2) as [tp' [ts' [Tp' [Ts' S2]]]].
  rewrite Tp in Tp'. injection Tp' as <-. rewrite Ts in Ts'. injection Ts' as <-.
  split; [eexists; exact S1|]. rewrite S1, S2. intros E. injection E as E. apply app_inv_head in E.
  apply pformat_inj in E. destruct E as [P E]. split; [exact P|]. exact (app_inv_tail _ _ _ E).
Qed.

(* C74g: and then the text is the same, for templates *)
Theorem C74g_same_text : forall fuel fuel' presig vl lv T1 T2 o c N d1 d2 sep1 sep2 pre suf srcs,
  (vl = text_varlist \/ vl = subst_varlist) -> (forall v, In v vl -> dget lv v = None) ->
  SigReady vl T1 (map (fun nv => (key o c (fst nv), snd nv)) d1) sep1 pre suf ->
  SigReady vl T2 (map (fun nv => (key o c (fst nv), snd nv)) d2) sep2 pre suf ->
  GoodDict o c N d1 -> NoDup (map fst d1) -> Forall (WellFormed o c N) srcs ->
  signature (S (S fuel)) presig vl lv T1 = signature (S (S fuel)) presig vl lv T2 ->
  exists t, action_text fuel' T1 (map (written o c) srcs) = Ok t /\ action_text fuel' T2 (map (written o c) srcs) = Ok t
    /\ Joined sep1 (map (filled o c d1) srcs) t.
Proof.
  intros fuel fuel' presig vl lv T1 T2 o c N d1 d2 sep1 sep2 pre suf srcs Hvl Hlv R1 R2 G D W E.
  destruct (C74f_signature fuel presig vl lv T1 T2 _ _ sep1 sep2 pre suf Hvl Hlv R1 R2) as [_ Q].
  destruct (Q E) as [P <-]. clear Q E.
  assert (Kinj : forall n m, key o c n = key o c m -> n = m).
  { intros n m K. unfold key in K. injection K as K. apply app_inj_tail in K. exact (proj1 K). }
  assert (P' : Permutation d1 d2).
  { clear - P Kinj. assert (J : forall x y : text * text, (key o c (fst x), snd x) = (key o c (fst y), snd y) -> x = y).
    { intros [n v] [m w] K. cbn [fst snd] in K. injection K as K1 K2. apply app_inj_tail in K1. destruct K1 as [K1 _]. congruence. }
    apply Permutation_sym in P. destruct (Permutation_map_inv _ _ P) as [d3 [E3 P3]].
    assert (E4 : d2 = d3).
    { clear - E3 J. revert d3 E3. induction d2 as [|x d IH]; intros [|y d3] E3; cbn in E3; try discriminate; [reflexivity|].
      injection E3 as K1 K2 E3. rewrite (IH d3 E3). f_equal. apply J. f_equal; [|exact K2]. unfold key. rewrite K1. reflexivity. }
    subst d3. exact P3. }
  destruct R1 as [HT1 [HS1 [HD1 [HV1 _]]]]. destruct R2 as [HT2 [HS2 [HD2 [HV2 _]]]].
  assert (ND : forall d : list (text * text), TameDict d -> Forall (fun kv => ~ In "$"%char (snd kv)) d).
  { clear. intros d H. unfold TameDict in H. eapply Forall_impl; [|exact H]. intros [k v] [_ Hv]. cbn [snd] in *. clear -Hv.
    induction v as [|x v IH]; [intros []|]. destruct Hv as [Hx [_ Hv]]. intros [Q|Q]; [congruence | exact (IH Hv Q)]. }
  unfold action_text.
  rewrite (make_subs_plain fuel' T1 _ (or_introl HT1) (ND _ HD1)).
  rewrite (make_subs_plain fuel' T2 _ (or_introl HT2) (ND _ HD2)). cbn [bind]. unfold line_sep. rewrite HS1, HS2.
  eexists. split; [reflexivity|]. rewrite !map_map. split.
  - f_equal. f_equal. apply map_ext_in. intros l Hl. symmetry. apply (C74d_order o c N); [exact G | rewrite Forall_forall in W; exact (W l Hl) | exact D | exact P'].
  - assert (M : map (filled o c d1) srcs = map (fun x => do_subst (map (fun nv => (key o c (fst nv), snd nv)) d1) (written o c x)) srcs).
    { apply map_ext_in. intros l Hl. symmetry. apply (C74c_template o c N); [exact G | rewrite Forall_forall in W; exact (W l Hl)]. }
    rewrite M. apply write_lines_joined.
Qed.
Print Assumptions C74f_signature.
Print Assumptions C74g_same_text.
