(* C61: the first reading of the command line *)
From Coq Require Import Ascii String List Bool Arith Lia.
Import ListNotations. Open Scope list_scope.
From Verif Require Import NameModel OptModel OptSpec OptProps.

Inductive applies : list (opt * val) -> values -> values -> Prop :=
| applies_nil vs : applies [] vs vs
| applies_cons o v l vs vs1 vs2 : take_action o v vs = inl vs1 -> effect o v vs vs1 -> applies l vs1 vs2 -> applies ((o, v) :: l) vs vs2.
Lemma applies_app : forall l1 l2 vs vs1 vs2, applies l1 vs vs1 -> applies l2 vs1 vs2 -> applies (l1 ++ l2) vs vs2.
Proof. intros l1 l2 vs vs1 vs2 H. induction H as [vs|o v l vs vsa vsb H1 H2 H3 IH]; intros H4; [exact H4|]. cbn [app]. econstructor; [exact H1 | exact H2 | apply IH; exact H4]. Qed.
Lemma tell_app : forall d l1 l2 cur, tell d (l1 ++ l2) cur = match tell d l1 cur with Some c => tell d l2 c | None => None end.
Proof. intros d l1 l2. induction l1 as [|[o v] l1 IH]; intros cur; [reflexivity|]. cbn [app tell]. destruct (told d o v cur) as [c|]; [apply IH | reflexivity]. Qed.
Definition calm (l : list (opt * val)) (vs : values) : Prop := forall o v d, In (o, v) l -> concerns d o -> scr vs d = None.
Definition speaks (l : list (opt * val)) (vs : values) : Prop := forall d, exists r, tell d l (getattr vs d) = Some r.
Lemma concerns_dec : forall d o, {concerns d o} + {~ concerns d o}.
Proof.
  intros d o. unfold concerns. destruct (o_act o) as [|c| |c| | |d2| |]; try apply word_dec; try (right; tauto).
  destruct (word_dec d d2) as [H|H]; [left; auto|]. destruct (word_dec d (o_dest o)) as [H2|H2]; [left; auto | right; tauto].
Qed.
Lemma told_other : forall d o v cur, o_act o <> AExit -> ~ concerns d o -> told d o v cur = Some cur.
Proof.
  intros d o v cur He H. unfold told, concerns in *. destruct (o_act o); try (destruct (word_dec d (o_dest o)); [contradiction | reflexivity]); try reflexivity; try contradiction.
  destruct (word_dec d d0); [tauto|]. destruct (word_dec d (o_dest o)); [tauto | reflexivity].
Qed.
Lemma told_exit : forall d o v cur r, told d o v cur = Some r -> o_act o <> AExit.
Proof. intros d o v cur r H He. unfold told in H. rewrite He in H. discriminate. Qed.
(* after the first occurrence the rest still speaks *)
Lemma speaks_next : forall o v l vs vs1, calm ((o, v) :: l) vs -> speaks ((o, v) :: l) vs -> effect o v vs vs1 -> o_act o <> AExit -> speaks l vs1 /\ calm l vs1.
Proof.
  intros o v l vs vs1 C S_ E He. split.
  - intros d. destruct (S_ d) as (r & Hr). cbn [tell] in Hr. destruct (concerns_dec d o) as [Hc|Hc].
    + rewrite (ef_get _ _ _ _ E d) in Hr; [exists r; exact Hr|]. apply (C o v d); [left; reflexivity | exact Hc].
    + rewrite told_other in Hr by assumption. destruct (ef_other _ _ _ _ E d Hc) as [E1 E2]. exists r. rewrite <- Hr. f_equal. unfold getattr. rewrite E1, E2, (ef_scr _ _ _ _ E). reflexivity.
  - intros o2 v2 d Hi Hc. rewrite (ef_scr _ _ _ _ E). apply (C o2 v2 d); [right; exact Hi | exact Hc].
Qed.
Lemma speaks_head : forall o v l vs, calm ((o, v) :: l) vs -> speaks ((o, v) :: l) vs -> exists vs1, take_action o v vs = inl vs1 /\ effect o v vs vs1 /\ speaks l vs1 /\ calm l vs1.
Proof.
  intros o v l vs C S_. destruct (take_told o v vs) as (vs1 & E1 & E2).
  - intros d Hc. apply (C o v d); [left; reflexivity | exact Hc].
  - intros d. destruct (S_ d) as (r & Hr). cbn [tell] in Hr. destruct (told d o v (getattr vs d)) as [c|]; [exists c; reflexivity | discriminate].
  - assert (He : o_act o <> AExit) by (destruct (S_ (o_dest o)) as (r & Hr); cbn [tell] in Hr; destruct (told (o_dest o) o v _) as [c|] eqn:Et; [apply (told_exit _ _ _ _ _ Et) | discriminate]).
    exists vs1. split; [exact E1|]. split; [exact E2|]. apply (speaks_next o v l vs vs1); assumption.
Qed.
(* what a list of occurrences does *)
Lemma applies_scr : forall l vs vs2, applies l vs vs2 -> scr vs2 = scr vs.
Proof. intros l vs vs2 H. induction H as [vs|o v l vs vs1 vs2 H1 H2 H3 IH]; [reflexivity|]. rewrite IH. apply (ef_scr _ _ _ _ H2). Qed.
Lemma applies_get : forall l vs vs2, applies l vs vs2 -> forall d, scr vs d = None -> tell d l (getattr vs d) = Some (getattr vs2 d).
Proof.
  intros l vs vs2 H. induction H as [vs|o v l vs vs1 vs2 H1 H2 H3 IH]; intros d Hd; [reflexivity|]. cbn [tell]. rewrite (ef_get _ _ _ _ H2 d Hd). apply IH. rewrite (ef_scr _ _ _ _ H2). exact Hd.
Qed.
Lemma applies_cmd : forall l vs vs2, applies l vs vs2 -> forall d, cmd vs d <> None -> cmd vs2 d <> None.
Proof. intros l vs vs2 H. induction H as [vs|o v l vs vs1 vs2 H1 H2 H3 IH]; intros d Hd; [exact Hd|]. apply IH, (ef_cmd _ _ _ _ H2), Hd. Qed.
Lemma applies_other : forall l vs vs2, applies l vs vs2 -> forall d, (forall o v, In (o, v) l -> ~ concerns d o) -> cmd vs2 d = cmd vs d /\ defs vs2 d = defs vs d.
Proof.
  intros l vs vs2 H. induction H as [vs|o v l vs vs1 vs2 H1 H2 H3 IH]; intros d Hd; [auto|]. destruct (IH d) as [A1 A2]; [intros o2 v2 Hi; apply (Hd o2 v2); right; exact Hi|].
  destruct (ef_other _ _ _ _ H2 d) as [B1 B2]; [apply (Hd o v); left; reflexivity|]. split; congruence.
Qed.
Lemma applies_sets : forall l vs vs2, applies l vs vs2 -> forall d, (exists o v, In (o, v) l /\ concerns d o) ->
  ((forall o v, In (o, v) l -> concerns d o -> ~ adds_to o) \/ getattr vs d = None \/ getattr vs d = Some VNone) -> cmd vs2 d <> None.
Proof.
  intros l vs vs2 H. induction H as [vs|o v l vs vs1 vs2 H1 H2 H3 IH]; intros d (o1 & v1 & Hi & Hc) Hp; [contradiction|].
  destruct (concerns_dec d o) as [Hco|Hco].
  - apply (applies_cmd _ _ _ H3). apply (ef_sets _ _ _ _ H2 d Hco). intros (X1 & X2 & X3). destruct Hp as [Hp|[Hp|Hp]]; [|congruence | congruence]. apply (Hp o v); [left; reflexivity | exact Hco | exact X1].
  - destruct Hi as [Hi|Hi]; [injection Hi as -> ->; contradiction|]. apply IH; [exists o1, v1; auto|]. destruct (ef_other _ _ _ _ H2 d Hco) as [E1 E2].
    assert (Eg : getattr vs1 d = getattr vs d) by (unfold getattr; rewrite E1, E2, (ef_scr _ _ _ _ H2); reflexivity). rewrite Eg.
    destruct Hp as [Hp|Hp]; [left; intros o2 v2 Hi2; apply (Hp o2 v2); right; exact Hi2 | right; exact Hp].
Qed.

(* ---- the items of a command line ---- *)
Definition builtin (i : item) : list (opt * val) := match i with Given o v => [(o, v)] | _ => [] end.
Definition stays (i : item) : bool := match i with Given _ _ => false | After _ => false | _ => true end.
Definition after (i : item) : list word := match i with After w => [w] | _ => [] end.
Section First.
Variables B L : list opt.
(* a word of its own *)
Inductive single : word -> item -> Prop :=
| single_plain w : (forall cs, w <> short cs) -> single w (Plain w)
| single_unknown w n v : classify w = KLong n v -> (forall o, In o (B ++ L) -> ~ In n (o_long o)) -> single w (Unknown w)
| single_unknown_short w c cs : classify w = KShort (c :: cs) -> (forall o, In o (B ++ L) -> ~ In c (o_short o)) -> single w (Unknown w)
| single_long w n wv o v : classify w = KLong n wv -> In o L -> In n (o_long o) ->
    (o_arity o = NoArg /\ wv = None /\ v = VNone \/ o_arity o = Maybe v /\ wv = None \/ (o_arity o = Args 0 \/ exists c, o_arity o = Maybe c) /\ exists x, wv = Some x /\ convert o [x] = Some v) ->
    single w (Local FLong o v)
| single_short w c cs o v : classify w = KShort (c :: cs) -> In o L -> In c (o_short o) ->
    (o_arity o = NoArg /\ cs = [] /\ v = VNone \/ o_arity o = Args 0 /\ cs <> [] /\ convert o [cs] = Some v) -> single w (Local FShort o v).
Hypothesis U : unique (B ++ L).
Hypothesis P : forall o, In o (B ++ L) -> proper o.
Hypothesis apart : forall o1 o2, In o1 B -> In o2 L -> (forall n, In n (o_long o1) -> ~ In n (o_long o2)) /\ (forall c, In c (o_short o1) -> ~ In c (o_short o2)).
Lemma uniqueB : unique B.
Proof. destruct U as [U1 U2]. split; intros o1 o2 n H1 H2; [apply U1 | apply U2]; apply in_or_app; auto. Qed.
Lemma properB : forall o n, In o B -> In n (o_long o) -> n <> [] /\ ~ In equals n.
Proof. intros o n H1 H2. destruct (P o) as [P1 _]; [apply in_or_app; auto|]. apply P1, H2. Qed.
Lemma properL : forall o n, In o L -> In n (o_long o) -> n <> [] /\ ~ In equals n.
Proof. intros o n H1 H2. destruct (P o) as [P1 _]; [apply in_or_app; auto|]. apply P1, H2. Qed.
Lemma nodash : forall o c, In o (B ++ L) -> In c (o_short o) -> c <> dash.
Proof. intros o c H1 H2 ->. destruct (P o H1) as (_ & P2 & _). contradiction. Qed.
Lemma group_ok : forall cs r its r2, group B cs r its r2 -> forall arg keep largs vs more, calm (flat_map builtin its ++ more) vs -> speaks (flat_map builtin its ++ more) vs ->
  exists vs2, process_short B keep arg cs r largs vs = inl (largs, r2, vs2) /\ applies (flat_map builtin its) vs vs2 /\ calm more vs2 /\ speaks more vs2 /\ filter stays its = [] /\ flat_map after its = [].
Proof.
  intros cs r its r2 H. induction H as [r|o c cs r its r2 H1 H2 H3 H4 IH|o c cs k ws r v H1 H2 H3 H4 H5 H6|o c k ws r v H1 H2 H3 H4 H5]; intros arg keep largs vs more C S_.
  - exists vs. cbn in *. repeat split; auto. constructor.
  - cbn [flat_map builtin app] in C, S_. destruct (speaks_head _ _ _ _ C S_) as (vs1 & E1 & E2 & S1 & C1). destruct (IH arg keep largs vs1 more C1 S1) as (vs2 & A1 & A2 & A3 & A4 & A5 & A6).
    exists vs2. cbn [process_short]. rewrite (find_short_in B o c uniqueB H1 H2), H3. unfold process_opt. rewrite E1. split; [exact A1|]. split; [cbn; econstructor; eassumption|]. auto.
  - cbn [flat_map builtin app] in C, S_. destruct (speaks_head _ _ _ _ C S_) as (vs1 & E1 & E2 & S1 & C1). exists vs1. cbn [process_short]. rewrite (find_short_in B o c uniqueB H1 H2), H3.
    destruct cs as [|c2 cs2]; [contradiction|]. set (cs := c2 :: cs2) in *. cbv zeta. change (cs :: ws ++ r) with ((cs :: ws) ++ r).
    destruct (Nat.ltb_spec (length ((cs :: ws) ++ r)) (S k)) as [Hl|Hl]; [rewrite app_length in Hl; cbn [length] in Hl; lia|].
    assert (Hk : S k = length (cs :: ws)) by (cbn [length]; lia). rewrite Hk, firstn_app, firstn_all, Nat.sub_diag, firstn_O, app_nil_r, skipn_app, skipn_all, Nat.sub_diag. cbn [skipn app].
    rewrite (convert_ok _ _ _ H6). unfold process_opt. rewrite E1. split; [reflexivity|]. split; [cbn; econstructor; [eassumption | eassumption | constructor]|]. auto.
  - cbn [flat_map builtin app] in C, S_. destruct (speaks_head _ _ _ _ C S_) as (vs1 & E1 & E2 & S1 & C1). exists vs1. cbn [process_short]. rewrite (find_short_in B o c uniqueB H1 H2), H3. cbv zeta.
    destruct (Nat.ltb_spec (length (ws ++ r)) (S k)) as [Hl|Hl]; [rewrite app_length in Hl; lia|].
    rewrite <- H4, firstn_app, firstn_all, Nat.sub_diag, firstn_O, app_nil_r, skipn_app, skipn_all, Nat.sub_diag. cbn [skipn app].
    rewrite (convert_ok _ _ _ H5). unfold process_opt. rewrite E1. split; [reflexivity|]. split; [cbn; econstructor; [eassumption | eassumption | constructor]|]. auto.
Qed.
Lemma group_shrinks : forall cs r its r2, group B cs r its r2 -> length r2 <= length r.
Proof. intros cs r its r2 H. induction H; rewrite ?app_length; lia. Qed.
Lemma group_first : forall c cs r its r2, group B (c :: cs) r its r2 -> c <> dash.
Proof. intros c cs r its r2 H. inversion H; subst; (eapply nodash; [apply in_or_app; left; eassumption | eassumption]). Qed.
(* one step of the first reading *)
Definition outcome_of (its : list item) (largs : list word) (vs : values) (res : pres) : Prop :=
  exists tl vs2, res = inl (largs ++ map fst tl, flat_map after its, vs2) /\ applies (flat_map builtin its) vs vs2 /\ Forall (fun t => single (fst t) (snd t)) tl /\ map snd tl = filter stays its.
Lemma first_ok : forall ws its, line B L ws its -> forall fuel largs vs, length ws < fuel -> calm (flat_map builtin its) vs -> speaks (flat_map builtin its) vs ->
  outcome_of its largs vs (process_args fuel B true ws largs vs).
Proof.
  assert (Keep : forall w i r its, line B L r its -> single w i -> stays i = true -> builtin i = [] -> after i = [] ->
    (forall fuel largs vs, length r < fuel -> calm (flat_map builtin its) vs -> speaks (flat_map builtin its) vs -> outcome_of its largs vs (process_args fuel B true r largs vs)) ->
    (forall f largs vs, process_args (S f) B true (w :: r) largs vs = process_args f B true r (largs ++ [w]) vs) ->
    forall fuel largs vs, length (w :: r) < fuel -> calm (flat_map builtin (i :: its)) vs -> speaks (flat_map builtin (i :: its)) vs -> outcome_of (i :: its) largs vs (process_args fuel B true (w :: r) largs vs)).
  { intros w i r its Hl Hs Hst Hb Ha IH Hp fuel largs vs Hf C S_. cbn [flat_map] in C, S_. rewrite Hb in C, S_. cbn [app] in C, S_. destruct fuel as [|f]; [cbn in Hf; lia|]. rewrite Hp.
    destruct (IH f (largs ++ [w]) vs) as (tl & vs2 & E1 & E2 & E3 & E4); [cbn in Hf; lia | exact C | exact S_|]. exists ((w, i) :: tl), vs2. cbn [flat_map map filter]. rewrite Hb, Ha, Hst. cbn [app map fst snd].
    rewrite E1, <- app_assoc. split; [reflexivity|]. split; [exact E2|]. split; [constructor; assumption | rewrite E4; reflexivity]. }
  assert (Opt : forall w o v r its rest, line B L r its -> 
    (forall fuel largs vs, length r < fuel -> calm (flat_map builtin its) vs -> speaks (flat_map builtin its) vs -> outcome_of its largs vs (process_args fuel B true r largs vs)) ->
    length r <= length rest ->
    (forall f largs vs vs1, take_action o v vs = inl vs1 -> process_args (S f) B true (w :: rest) largs vs = process_args f B true r largs vs1) ->
    forall fuel largs vs, length (w :: rest) < fuel -> calm (flat_map builtin (Given o v :: its)) vs -> speaks (flat_map builtin (Given o v :: its)) vs ->
    outcome_of (Given o v :: its) largs vs (process_args fuel B true (w :: rest) largs vs)).
  { intros w o v r its rest Hl IH Hr Hp fuel largs vs Hf C S_. cbn [flat_map builtin app] in C, S_. destruct (speaks_head _ _ _ _ C S_) as (vs1 & E1 & E2 & S1 & C1).
    destruct fuel as [|f]; [cbn in Hf; lia|]. rewrite (Hp f largs vs vs1 E1). destruct (IH f largs vs1) as (tl & vs2 & A1 & A2 & A3 & A4); [cbn in Hf; lia | exact C1 | exact S1|].
    exists tl, vs2. split; [exact A1|]. split; [cbn; econstructor; eassumption|]. split; assumption. }
  assert (OutB : forall n, (forall o, In o (B ++ L) -> ~ In n (o_long o)) -> find_long B n = None) by (intros n Hn; apply find_long_out; intros o Ho; apply Hn, in_or_app; auto).
  assert (OutBs : forall c, (forall o, In o (B ++ L) -> ~ In c (o_short o)) -> find_short B c = None) by (intros n Hn; apply find_short_out; intros o Ho; apply Hn, in_or_app; auto).
  assert (OutL : forall o n, In o L -> In n (o_long o) -> find_long B n = None) by (intros o n Ho Hn; apply find_long_out; intros o2 Ho2 Hn2; destruct (apart o2 o Ho2 Ho) as [A _]; apply (A n); assumption).
  assert (OutLs : forall o n, In o L -> In n (o_short o) -> find_short B n = None) by (intros o n Ho Hn; apply find_short_out; intros o2 Ho2 Hn2; destruct (apart o2 o Ho2 Ho) as [_ A]; apply (A n); assumption).
  intros ws its H. induction H as [|ws|w r its H1 H2 IH|n r its H0 H1 H2 H3 IH|n v r its H1 H2 H3 IH|c cs r its H1 H2 H3 IH|o n r its H1 H2 H3 H4 IH|o n c r its H1 H2 H3 H4 IH|o n c w v r its H1 H2 H3 H4 H5 IH
    |o n k w ws v r its H1 H2 H3 H4 H5 H6 IH|o n k ws v r its H1 H2 H3 H4 H5 H6 IH|cs r its r2 its2 H1 H2 H3 IH|o n r its H1 H2 H3 H4 IH|o n c r its H1 H2 H3 H4 IH|o n a w v r its H1 H2 H3 H4 H5 H6 IH|o c r its H1 H2 H3 H4 IH|o c w v r its H1 H2 H3 H4 H5 H6 IH].
  - intros fuel largs vs Hf C S_. destruct fuel as [|f]; [lia|]. exists [], vs. cbn. rewrite app_nil_r. repeat split; constructor.
  - intros fuel largs vs Hf C S_. destruct fuel as [|f]; [lia|]. exists [], vs. cbn [process_args]. rewrite classify_stop. cbn [map]. rewrite app_nil_r.
    assert (A : flat_map after (map After ws) = ws) by (clear; induction ws as [|w ws IHw]; [reflexivity | cbn; rewrite IHw; reflexivity]).
    assert (A2 : flat_map builtin (map After ws) = []) by (clear; induction ws as [|w ws IHw]; [reflexivity | cbn; exact IHw]).
    assert (A3 : filter stays (map After ws) = []) by (clear; induction ws as [|w ws IHw]; [reflexivity | cbn; exact IHw]). rewrite A, A2, A3. repeat split; constructor.
  - apply (Keep w (Plain w) r its H2); auto; [constructor; exact H1|]. intros f largs vs. cbn [process_args]. rewrite (classify_plain w H1). reflexivity.
  - assert (Ek := classify_long n H0 H1). apply (Keep _ (Unknown (long n)) r its H3); auto; [eapply single_unknown; eassumption|]. intros f largs vs. cbn [process_args]. rewrite Ek. unfold process_long. rewrite (OutB n H2). reflexivity.
  - assert (Ek := classify_long_eq n v H1). apply (Keep _ (Unknown (long_eq n v)) r its H3); auto; [eapply single_unknown; eassumption|]. intros f largs vs. cbn [process_args]. rewrite Ek. unfold process_long. rewrite (OutB n H2). reflexivity.
  - assert (Ek := classify_short c cs H1). apply (Keep _ (Unknown (short (c :: cs))) r its H3); auto; [eapply single_unknown_short; eassumption|]. intros f largs vs. cbn [process_args]. rewrite Ek. cbn [process_short]. rewrite (OutBs c H2). reflexivity.
  - destruct (properB o n H1 H2) as [Q1 Q2]. assert (Ek := classify_long n Q1 Q2). apply (Opt _ o VNone r its r H4 IH (le_n _)). intros f largs vs vs1 Ht. cbn [process_args]. rewrite Ek. unfold process_long. rewrite (find_long_in B o n uniqueB H1 H2), H3. unfold process_opt. rewrite Ht. reflexivity.
  - destruct (properB o n H1 H2) as [Q1 Q2]. assert (Ek := classify_long n Q1 Q2). apply (Opt _ o c r its r H4 IH (le_n _)). intros f largs vs vs1 Ht. cbn [process_args]. rewrite Ek. unfold process_long. rewrite (find_long_in B o n uniqueB H1 H2), H3. unfold process_opt. rewrite Ht. reflexivity.
  - destruct (properB o n H1 H2) as [Q1 Q2]. assert (Ek := classify_long_eq n w Q2). apply (Opt _ o v r its r H5 IH (le_n _)). intros f largs vs vs1 Ht. cbn [process_args]. rewrite Ek. unfold process_long. rewrite (find_long_in B o n uniqueB H1 H2), H3.
    rewrite (convert_ok _ _ _ H4). unfold process_opt. rewrite Ht. reflexivity.
  - destruct (properB o n H1 H2) as [Q1 Q2]. assert (Ek := classify_long_eq n w Q2). apply (Opt _ o v r its (ws ++ r) H6 IH); [rewrite app_length; lia|]. intros f largs vs vs1 Ht. cbn [process_args]. rewrite Ek. unfold process_long. rewrite (find_long_in B o n uniqueB H1 H2), H3.
    cbv zeta. change (opt_list (Some w) ++ ws ++ r) with ((w :: ws) ++ r). destruct (Nat.ltb_spec (length ((w :: ws) ++ r)) (S k)) as [Hl|Hl]; [rewrite app_length in Hl; cbn [length] in Hl; lia|].
    assert (Hk : S k = length (w :: ws)) by (cbn [length]; lia). rewrite Hk, firstn_app, firstn_all, Nat.sub_diag, firstn_O, app_nil_r, skipn_app, skipn_all, Nat.sub_diag. cbn [skipn app]. rewrite (convert_ok _ _ _ H5). unfold process_opt. rewrite Ht. reflexivity.
  - destruct (properB o n H1 H2) as [Q1 Q2]. assert (Ek := classify_long n Q1 Q2). apply (Opt _ o v r its (ws ++ r) H6 IH); [rewrite app_length; lia|]. intros f largs vs vs1 Ht. cbn [process_args]. rewrite Ek. unfold process_long. rewrite (find_long_in B o n uniqueB H1 H2), H3.
    cbv zeta. cbn [opt_list app]. destruct (Nat.ltb_spec (length (ws ++ r)) (S k)) as [Hl|Hl]; [rewrite app_length in Hl; lia|].
    rewrite <- H4, firstn_app, firstn_all, Nat.sub_diag, firstn_O, app_nil_r, skipn_app, skipn_all, Nat.sub_diag. cbn [skipn app]. rewrite (convert_ok _ _ _ H5). unfold process_opt. rewrite Ht. reflexivity.
  - intros fuel largs vs Hf C S_. rewrite flat_map_app in C, S_. destruct fuel as [|f]; [lia|]. destruct cs as [|c cs]; [contradiction|]. cbn [process_args]. rewrite (classify_short c cs (group_first _ _ _ _ _ H2)).
    destruct (group_ok _ _ _ _ H2 (short (c :: cs)) true largs vs _ C S_) as (vs1 & A1 & A2 & A3 & A4 & A5 & A6). rewrite A1.
    destruct (IH f largs vs1) as (tl & vs2 & E1 & E2 & E3 & E4); [cbn [length] in Hf; assert (X := group_shrinks _ _ _ _ H2); lia | exact A3 | exact A4|]. exists tl, vs2. rewrite !flat_map_app, A6, filter_app, A5. cbn [app].
    repeat split; auto. eapply applies_app; eassumption.
  - destruct (properL o n H1 H2) as [Q1 Q2]. assert (Ek := classify_long n Q1 Q2). apply (Keep _ (Local FLong o VNone) r its H4); auto; [eapply single_long; [exact Ek | exact H1 | exact H2 | auto]|].
    intros f largs vs. cbn [process_args]. rewrite Ek. unfold process_long. rewrite (OutL o n H1 H2). reflexivity.
  - destruct (properL o n H1 H2) as [Q1 Q2]. assert (Ek := classify_long n Q1 Q2). apply (Keep _ (Local FLong o c) r its H4); auto; [eapply single_long; [exact Ek | exact H1 | exact H2 | auto]|].
    intros f largs vs. cbn [process_args]. rewrite Ek. unfold process_long. rewrite (OutL o n H1 H2). reflexivity.
  - destruct (properL o n H1 H2) as [Q1 Q2]. assert (Ek := classify_long_eq n w Q2). apply (Keep _ (Local FLong o v) r its H6); auto.
    + eapply single_long; [exact Ek | exact H1 | exact H2|]. right. right. split; [rewrite H3; exact H4|]. exists w. split; [reflexivity | apply convert_ok; exact H5].
    + intros f largs vs. cbn [process_args]. rewrite Ek. unfold process_long. rewrite (OutL o n H1 H2). reflexivity.
  - assert (Hd : c <> dash) by (apply (nodash o); [apply in_or_app; auto | exact H2]). assert (Ek := classify_short c [] Hd). apply (Keep _ (Local FShort o VNone) r its H4); auto; [eapply single_short; [exact Ek | exact H1 | exact H2 | auto]|].
    intros f largs vs. cbn [process_args]. rewrite Ek. cbn [process_short]. rewrite (OutLs o c H1 H2). reflexivity.
  - assert (Hd : c <> dash) by (apply (nodash o); [apply in_or_app; auto | exact H2]). assert (Ek := classify_short c w Hd). apply (Keep _ (Local FShort o v) r its H6); auto.
    + eapply single_short; [exact Ek | exact H1 | exact H2|]. right. split; [exact H3|]. split; [exact H4 | apply convert_ok; exact H5].
    + intros f largs vs. cbn [process_args]. rewrite Ek. cbn [process_short]. rewrite (OutLs o c H1 H2). reflexivity.
Qed.
End First.
