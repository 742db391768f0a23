(* C61: reading again what was left, when an option is added *)
From Coq Require Import Ascii String List Bool Arith Lia.
Import ListNotations. Open Scope list_scope.
From Verif Require Import NameModel OptModel OptSpec OptProps OptProps2.

Definition islong (t : word * item) : bool := match classify (fst t) with KLong _ _ => true | _ => false end.
Definition known (K : list opt) (t : word * item) : bool := match snd t with Local _ o _ => mem (o_dest o) (map o_dest K) | _ => false end.
Definition fresh (K : list opt) (t : word * item) : bool := negb (known K t).
Definition occ (i : item) : list (opt * val) := match i with Local _ o v => [(o, v)] | _ => [] end.
Section Stage.
Variables B L : list opt.
Hypothesis U : unique (B ++ L).
Hypothesis apart : forall o1 o2, In o1 B -> In o2 L -> (forall n, In n (o_long o1) -> ~ In n (o_long o2)) /\ (forall c, In c (o_short o1) -> ~ In c (o_short o2)).
Hypothesis dests : forall o1 o2, In o1 L -> In o2 L -> o_dest o1 = o_dest o2 -> o1 = o2.
Notation sgl := (fun t => single B L (fst t) (snd t)).
Variable K : list opt.
Hypothesis KL : incl K L.
Lemma uniqueT : unique (B ++ K).
Proof.
  destruct U as [U1 U2]. assert (I_ : forall o, In o (B ++ K) -> In o (B ++ L)) by (intros o Ho; apply in_app_or in Ho; apply in_or_app; destruct Ho as [Ho|Ho]; [left; exact Ho | right; apply KL; exact Ho]).
  split; intros o1 o2 n H1 H2; [apply U1 | apply U2]; apply I_; assumption.
Qed.
Lemma known_in : forall o, In o L -> mem (o_dest o) (map o_dest K) = true <-> In o K.
Proof.
  intros o Ho. rewrite mem_In, in_map_iff. split.
  - intros (o2 & E & H2). assert (o2 = o) as <- by (apply dests; auto). exact H2.
  - intros H. exists o. auto.
Qed.
Lemma long_known : forall o n, In o L -> In n (o_long o) -> find_long (B ++ K) n = if mem (o_dest o) (map o_dest K) then Some o else None.
Proof.
  intros o n Ho Hn. destruct (mem (o_dest o) (map o_dest K)) eqn:E.
  - apply find_long_in; [apply uniqueT | apply in_or_app; right; apply known_in; assumption | exact Hn].
  - apply find_long_out. intros o2 Ho2 Hn2. apply in_app_or in Ho2. destruct Ho2 as [Ho2|Ho2].
    + destruct (apart o2 o Ho2 Ho) as [A _]. apply (A n); assumption.
    + assert (o2 = o) as <- by (destruct U as [U1 _]; apply (U1 o2 o n); try assumption; apply in_or_app; right; auto). apply known_in in Ho2; [congruence | exact Ho].
Qed.
Lemma short_known : forall o n, In o L -> In n (o_short o) -> find_short (B ++ K) n = if mem (o_dest o) (map o_dest K) then Some o else None.
Proof.
  intros o n Ho Hn. destruct (mem (o_dest o) (map o_dest K)) eqn:E.
  - apply find_short_in; [apply uniqueT | apply in_or_app; right; apply known_in; assumption | exact Hn].
  - apply find_short_out. intros o2 Ho2 Hn2. apply in_app_or in Ho2. destruct Ho2 as [Ho2|Ho2].
    + destruct (apart o2 o Ho2 Ho) as [_ A]. apply (A n); assumption.
    + assert (o2 = o) as <- by (destruct U as [_ U1]; apply (U1 o2 o n); try assumption; apply in_or_app; right; auto). apply known_in in Ho2; [congruence | exact Ho].
Qed.
Lemma sub_out : forall (Q : opt -> Prop), (forall o, In o (B ++ L) -> Q o) -> forall o, In o (B ++ K) -> Q o.
Proof. intros Q H o Ho. apply H. apply in_app_or in Ho. apply in_or_app. destruct Ho as [Ho|Ho]; [left; exact Ho | right; apply KL; exact Ho]. Qed.
(* one word *)
Lemma step_fresh : forall w i, single B L w i -> known K (w, i) = false -> forall f r largs vs, process_args (S f) (B ++ K) true (w :: r) largs vs = process_args f (B ++ K) true r (largs ++ [w]) vs.
Proof.
  intros w i H Hk f r largs vs. cbn [process_args]. destruct H as [w H|w n v H1 H2|w c cs H1 H2|w n wv o v H1 H2 H3 H4|w c cs o v H1 H2 H3 H4].
  - rewrite (classify_plain w H). reflexivity.
  - rewrite H1. unfold process_long. rewrite find_long_out; [reflexivity|]. apply (sub_out _ H2).
  - rewrite H1. cbn [process_short]. rewrite find_short_out; [reflexivity|]. apply (sub_out _ H2).
  - rewrite H1. unfold process_long. rewrite (long_known o n H2 H3). unfold known in Hk. cbn [snd] in Hk. rewrite Hk. reflexivity.
  - rewrite H1. cbn [process_short]. rewrite (short_known o c H2 H3). unfold known in Hk. cbn [snd] in Hk. rewrite Hk. reflexivity.
Qed.
Lemma step_known : forall w i, single B L w i -> known K (w, i) = true -> exists o v, occ i = [(o, v)] /\
  forall f r largs vs vs1, take_action o v vs = inl vs1 -> process_args (S f) (B ++ K) true (w :: r) largs vs = process_args f (B ++ K) true r largs vs1.
Proof.
  intros w i H Hk. destruct H as [w H|w n v H1 H2|w c cs H1 H2|w n wv o v H1 H2 H3 H4|w c cs o v H1 H2 H3 H4]; try discriminate; exists o, v; (split; [reflexivity|]); intros f r largs vs vs1 Ht; cbn [process_args]; rewrite H1.
  - unfold process_long. rewrite (long_known o n H2 H3). unfold known in Hk. cbn [snd] in Hk. rewrite Hk. destruct H4 as [(E1 & -> & ->)|[(E1 & ->)|([E1|(c & E1)] & x & -> & E2)]]; rewrite E1.
    + unfold process_opt. rewrite Ht. reflexivity.
    + unfold process_opt. rewrite Ht. reflexivity.
    + cbn [opt_list app length]. change (S (length r) <? 1) with false. cbv iota. cbn [firstn skipn]. rewrite E2. unfold process_opt. rewrite Ht. reflexivity.
    + rewrite E2. unfold process_opt. rewrite Ht. reflexivity.
  - cbn [process_short]. rewrite (short_known o c H2 H3). unfold known in Hk. cbn [snd] in Hk. rewrite Hk. destruct H4 as [(E1 & -> & ->)|(E1 & E2 & E3)]; rewrite E1.
    + unfold process_opt. rewrite Ht. reflexivity.
    + destruct cs as [|c2 cs2]; [contradiction|]. cbv zeta. cbn [length]. change (S (length r) <? 1) with false. cbv iota. cbn [firstn skipn]. rewrite E3. unfold process_opt. rewrite Ht. reflexivity.
Qed.
Lemma stage_ok : forall q, Forall sgl q -> forall fuel largs vs, length q < fuel -> calm (flat_map occ (map snd (filter (known K) q))) vs -> speaks (flat_map occ (map snd (filter (known K) q))) vs ->
  exists vs2, process_args fuel (B ++ K) true (map fst q) largs vs = inl (largs ++ map fst (filter (fresh K) q), [], vs2) /\ applies (flat_map occ (map snd (filter (known K) q))) vs vs2.
Proof.
  intros q H. induction H as [|[w i] q H1 H2 IH]; intros fuel largs vs Hf C S_.
  - destruct fuel as [|f]; [cbn in Hf; lia|]. exists vs. cbn. rewrite app_nil_r. split; [reflexivity | constructor].
  - destruct fuel as [|f]; [cbn in Hf; lia|]. cbn [map fst filter]. unfold fresh at 1. cbn [fst snd] in H1. cbn [filter] in C, S_. destruct (known K (w, i)) eqn:Ek; cbn [negb].
    + destruct (step_known w i H1 Ek) as (o & v & Eo & St). cbn [map snd flat_map] in C, S_ |- *. rewrite Eo in C, S_ |- *. cbn [app] in C, S_ |- *. destruct (speaks_head _ _ _ _ C S_) as (vs1 & E1 & E2 & S1 & C1). rewrite (St f _ largs vs vs1 E1).
      destruct (IH f largs vs1) as (vs2 & A1 & A2); [cbn in Hf; lia | exact C1 | exact S1|]. exists vs2. split; [exact A1 | econstructor; eassumption].
    + rewrite (step_fresh w i H1 Ek f). destruct (IH f (largs ++ [w]) vs) as (vs2 & A1 & A2); [cbn in Hf; lia | exact C | exact S_|]. exists vs2. split; [|exact A2]. cbn [map fst]. rewrite A1, <- app_assoc. reflexivity.
Qed.
(* which words are read again *)
Definition held (t : word * item) : bool := islong t && fresh K t.
Lemma reparse_words : forall q, Forall sgl q -> to_reparse (B ++ K) (map fst q) = (map fst (filter (fun t => negb (held t)) q), map fst (filter held q)).
Proof.
  intros q H. induction H as [|[w i] q H1 H2 IH]; [reflexivity|]. cbn [map fst to_reparse filter]. rewrite IH. cbn [fst snd] in *.
  assert (Eh : held (w, i) = match classify w with KLong _ _ => negb (known K (w, i)) | _ => false end) by (unfold held, islong, fresh; cbn [fst]; destruct (classify w); reflexivity). rewrite Eh.
  destruct H1 as [w H|w n v H1 H3|w c cs H1 H3|w n wv o v H1 H3 H4 H5|w c cs o v H1 H3 H4 H5].
  - rewrite (classify_plain w H), (classify_dash w H). reflexivity.
  - rewrite H1. rewrite find_long_out; [reflexivity|]. apply (sub_out _ H3).
  - rewrite H1. rewrite str_eqb_neq; [reflexivity|]. intros ->. discriminate H1.
  - rewrite H1, (long_known o n H3 H4). unfold known. cbn [snd]. destruct (mem (o_dest o) (map o_dest K)); reflexivity.
  - rewrite H1. rewrite str_eqb_neq; [reflexivity|]. intros ->. discriminate H1.
Qed.
End Stage.
(* the last reading *)
Lemma final_ok : forall B L q, Forall (fun t => single B L (fst t) (snd t)) q -> (forall t, In t q -> match snd t with Local _ _ _ => False | _ => True end) ->
  forall fuel largs vs, length q < fuel -> process_args fuel (B ++ L) false (map fst q) largs vs = if existsb (fun t => match snd t with Unknown _ => true | _ => false end) q then inr 2 else inl (largs ++ map fst q, [], vs).
Proof.
  intros B L q H. induction H as [|[w i] q H1 H2 IH]; intros Hl fuel largs vs Hf.
  - destruct fuel as [|f]; [cbn in Hf; lia|]. cbn. rewrite app_nil_r. reflexivity.
  - destruct fuel as [|f]; [cbn in Hf; lia|]. cbn [map fst existsb snd process_args]. assert (Hw := Hl (w, i) (or_introl eq_refl)). cbn [snd fst] in Hw, H1. destruct H1 as [w H|w n v H1 H3|w c cs H1 H3|w n wv o v H1 H3 H4 H5|w c cs o v H1 H3 H4 H5]; try contradiction.
    + rewrite (classify_plain w H). cbn [orb]. rewrite IH; [|intros t Ht; apply Hl; right; exact Ht | cbn in Hf; lia]. rewrite <- app_assoc. reflexivity.
    + rewrite H1. unfold process_long. rewrite find_long_out by assumption. reflexivity.
    + rewrite H1. cbn [process_short]. rewrite find_short_out by assumption. reflexivity.
Qed.
