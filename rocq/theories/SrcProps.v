(* Source builders: theorems about SrcModel.v. *)
From Coq Require Import Ascii String List Bool Arith Lia Permutation.
Import ListNotations.
From Verif Require Import NameModel NameProps NameProps2 SrcModel.
Open Scope list_scope.

(* ---------- specification ---------- *)
(* suf is the first of the suffixes that the name ends with *)
Definition first_suffix (l : list str) (name suf : str) : Prop :=
  suf <> [] /\ ends name suf /\ exists l1 l2, l = l1 ++ suf :: l2 /\ forall s, In s l1 -> s <> [] -> ~ ends name s.
Definition no_suffix (l : list str) (name : str) : Prop := forall s, In s l -> s <> [] -> ~ ends name s.
(* n is made from s by the recorded calls *)
Inductive derives (log : list call) (s : str) : str -> Prop :=
| d_same : derives log s s
| d_call : forall m n c, derives log s m -> In c log -> In m (c_sources c) -> In n (c_targets c) -> derives log s n.

(* ---------- matching ---------- *)
Lemma smem_spec : forall s l, smem s l = true <-> In s l.
Proof.
  intros s l. unfold smem. rewrite existsb_exists. split.
  - intros [x [IN E]]. apply str_eqb_spec in E. subst. exact IN.
  - intros IN. exists s. split; [exact IN | apply str_eqb_refl].
Qed.
Lemma matches : forall l name suf, In suf l -> (smem suf (map (fun s => last_n name (length s)) l) = true <-> suf <> [] /\ ends name suf \/ suf = [] /\ name = []).
Proof.
  intros l name suf IN. rewrite smem_spec, in_map_iff. split.
  - intros [s [E IS]]. unfold last_n in E. destruct (Nat.eqb_spec (length s) 0) as [Z | NZ].
    + subst suf. destruct name as [|c n]; [right; auto | left; split; [discriminate | exists []; reflexivity]].
    + destruct suf as [|c suf0].
      * right; split; [reflexivity|]. destruct name as [|x n]; [reflexivity|]. exfalso. apply (f_equal (@length _)) in E. rewrite skipn_length in E. cbn [length] in E. lia.
      * left; split; [discriminate|]. rewrite <- E. exists (firstn (length name - length s) name). symmetry. apply firstn_skipn.
  - intros [[NE EN] | [-> ->]].
    + exists suf. split; [apply last_n_ends; assumption | exact IN].
    + exists []. split; [reflexivity | exact IN].
Qed.
Lemma find_first : forall {A} (f : A -> bool) l x, find f l = Some x -> f x = true /\ exists l1 l2, l = l1 ++ x :: l2 /\ forall y, In y l1 -> f y = false.
Proof.
  intros A f. induction l as [|a l IH]; intros x H; cbn [find] in H; [discriminate|]. destruct (f a) eqn:E.
  - inversion H; subst. split; [exact E|]. exists [], l. split; [reflexivity | intros y []].
  - destruct (IH _ H) as [F [l1 [l2 [-> P]]]]. split; [exact F|]. exists (a :: l1), l2. split; [reflexivity|]. intros y [<- | IN]; [exact E | apply P; exact IN].
Qed.
Lemma match_some : forall l name c0 m0, match_src_suffix l name = Some (c0 :: m0) -> first_suffix l name (c0 :: m0).
Proof.
  intros l name c0 m0 H. unfold match_src_suffix in H. apply find_first in H. destruct H as [F [l1 [l2 [E P]]]].
  assert (In (c0 :: m0) l) as IN by (rewrite E; apply in_or_app; right; left; reflexivity). apply (matches l name _ IN) in F. destruct F as [[NE EN] | [X _]]; [|discriminate].
  split; [exact NE|]. split; [exact EN|]. exists l1, l2. split; [exact E|]. intros s IS NS EN2. specialize (P s IS).
  assert (smem s (map (fun s => last_n name (length s)) l) = true) as T; [|congruence]. apply matches; [rewrite E; apply in_or_app; left; exact IS | left; auto].
Qed.
Lemma match_other : forall l name, match match_src_suffix l name with Some (_ :: _) => False | _ => True end -> no_suffix l name.
Proof.
  intros l name H s IN NE EN. unfold match_src_suffix in H. destruct (find _ l) as [x|] eqn:F.
  - destruct x as [|c x]; [|destruct H]. apply find_first in F. destruct F as [F [l1 [l2 [E P]]]].
    assert (In [] l) as IN0 by (rewrite E; apply in_or_app; right; left; reflexivity). apply (matches l name _ IN0) in F. destruct F as [[X _] | [_ ->]]; [congruence|].
    destruct EN as [r EN]. destruct r; [|discriminate]. cbn in EN. congruence.
  - apply find_none with (x := s) in F; [|exact IN]. assert (smem s (map (fun s => last_n name (length s)) l) = true) as T; [|congruence]. apply matches; [exact IN | left; auto].
Qed.
Lemma match_ends : forall l name s, In s l -> s <> [] -> ends name s -> exists c m, match_src_suffix l name = Some (c :: m).
Proof.
  intros l name s IN NE EN. destruct (match_src_suffix l name) as [[|c m]|] eqn:M; [| exists c, m; reflexivity |]; exfalso; apply (match_other l name) with (s := s); auto; rewrite M; exact Logic.I.
Qed.
(* suffixes of the name and of the path *)
Lemma node_parts : forall p, p = node_dir p ++ node_name p.
Proof. intros p. unfold node_dir, node_name. symmetry. apply firstn_skipn. Qed.
Lemma name_ends : forall p s, ~ In SLASH s -> (ends (node_name p) s <-> ends p s).
Proof.
  intros p s NS. split; intros [r E].
  - exists (node_dir p ++ r). rewrite <- app_assoc, <- E. apply node_parts.
  - unfold node_name, cut. pose proof (rfind_spec SLASH p) as R. destruct (rfind SLASH p) as [i|].
    + destruct R as [a [b [E2 [NB L]]]]. assert (skipn (S i) p = b) as SK.
      { rewrite E2. replace (a ++ SLASH :: b) with ((a ++ [SLASH]) ++ b) by (rewrite <- app_assoc; reflexivity). apply nth_firstn_app. rewrite app_length. cbn. lia. }
      rewrite SK. rewrite E in E2. destruct (app_eq_app _ _ _ _ E2) as [m [[Ea Eb] | [Ea Eb]]].
      * destruct m as [|y m]; cbn in Eb; [exfalso; apply NS; rewrite <- Eb; left; reflexivity|]. inversion Eb; subst. exists m; reflexivity.
      * exfalso; apply NS. rewrite Eb. apply in_or_app; right; left; reflexivity.
    + exists r. exact E.
Qed.

Section P.
Context (subst : str -> str) (conf : nat -> bconf) (sufs : nat -> list str).
Notation execute := (execute subst conf sufs).
Notation convert := (convert subst conf sufs).
Notation finish := (finish subst conf sufs).
Notation sdict := (sdict conf sufs).

(* the source builder that takes a suffix: the last one that knows it *)
Definition taker (b : nat) (suf : str) (c : nat) : Prop := exists l1 l2, b_subs (conf b) = l1 ++ c :: l2 /\ In suf (sufs c) /\ forall c', In c' l2 -> ~ In suf (sufs c').
Lemma sdict_spec : forall b suf, match sdict b suf with Some c => taker b suf c | None => forall c, In c (b_subs (conf b)) -> ~ In suf (sufs c) end.
Proof.
  intros b suf. unfold SrcModel.sdict, taker. generalize (b_subs (conf b)). intros l. induction l as [|c l IH] using rev_ind.
  - cbn. intros c [].
  - rewrite fold_left_app. cbn [fold_left]. destruct (smem suf (sufs c)) eqn:E.
    + exists l, []. split; [reflexivity|]. split; [apply smem_spec; exact E | intros c' []].
    + assert (~ In suf (sufs c)) as NI by (rewrite <- smem_spec, E; discriminate). destruct (fold_left _ l None) as [c1|].
      * destruct IH as [l1 [l2 [-> [IN P]]]]. exists l1, (l2 ++ [c]). split; [rewrite <- app_assoc; reflexivity|]. split; [exact IN|]. intros c' X. apply in_app_or in X. destruct X as [X | [<- | []]]; [apply P; exact X | exact NI].
      * intros c' X. apply in_app_or in X. destruct X as [X | [<- | []]]; [apply IH; exact X | exact NI].
Qed.
Lemma taker_sub : forall b suf c, taker b suf c -> In c (b_subs (conf b)).
Proof. intros b suf c [l1 [l2 [-> _]]]. apply in_or_app; right; left; reflexivity. Qed.

Lemma bind_all_spec : forall {A} (f : A -> option (list call * list str)) l log0 res0 log res, bind_all f l log0 res0 = Some (log, res) ->
  exists pieces, Forall2 (fun x pc => f x = Some pc) l pieces /\ log = log0 ++ concat (map fst pieces) /\ res = res0 ++ concat (map snd pieces).
Proof.
  intros A f. induction l as [|x l IH]; intros log0 res0 log res H; cbn [bind_all] in H.
  - inversion H; subst. exists []. split; [constructor|]. cbn. rewrite !app_nil_r. auto.
  - destruct (f x) as [[lg ts]|] eqn:E; [|discriminate]. destruct (IH _ _ _ _ H) as [pieces [F [-> ->]]]. exists ((lg, ts) :: pieces). split; [constructor; [exact E | exact F]|]. cbn. rewrite <- !app_assoc. auto.
Qed.
Lemma bind_all_intro : forall {A} (f : A -> option (list call * list str)) l pieces log0 res0, Forall2 (fun x pc => f x = Some pc) l pieces ->
  bind_all f l log0 res0 = Some (log0 ++ concat (map fst pieces), res0 ++ concat (map snd pieces)).
Proof.
  intros A f l pieces log0 res0 F. revert log0 res0. induction F as [|x pc l pieces E F IH]; intros log0 res0; cbn [bind_all map concat].
  - rewrite !app_nil_r. reflexivity.
  - rewrite E. destruct pc as [lg ts]. rewrite IH. cbn [fst snd]. rewrite <- !app_assoc. reflexivity.
Qed.

(* ---------- what a source becomes ---------- *)
(* sources given as nodes.  p is kept if no source builder takes it; else the source builder for its suffix is called for it, and of several targets those this builder can use are taken *)
Definition usable (b : nat) (t : str) : Prop := ~ no_suffix (sufs b) (node_name t).
Inductive becomes (f : nat) (b : nat) (p : str) : list call -> list str -> Prop :=
| b_none : no_suffix (sufs b) (node_name p) -> becomes f b p [] [p]
| b_own : forall suf, first_suffix (sufs b) (node_name p) suf -> (forall c, In c (b_subs (conf b)) -> ~ In suf (sufs c)) -> becomes f b p [] [p]
| b_made : forall suf c log ts ns, first_suffix (sufs b) (node_name p) suf -> taker b suf c -> execute f c None [Node p] = Some (log, ts) ->
    (length ts <= 1 /\ ns = ts \/ 1 < length ts /\ exists keep, ns = filter keep ts /\ forall t, keep t = true <-> usable b t) -> becomes f b p log ns.
Lemma usable_spec : forall b t, match match_src_suffix (sufs b) (node_name t) with Some (_ :: _) => true | _ => false end = true <-> usable b t.
Proof.
  intros b t. destruct (match_src_suffix (sufs b) (node_name t)) as [[|c m]|] eqn:M.
  - split; [discriminate | intros U; exfalso; apply U, match_other; rewrite M; exact Logic.I].
  - split; [|reflexivity]. intros _ NS. apply match_some in M. destruct M as [NE [EN [l1 [l2 [E _]]]]]. apply (NS (c :: m)); [rewrite E; apply in_or_app; right; left; reflexivity | exact NE | exact EN].
  - split; [discriminate | intros U; exfalso; apply U, match_other; rewrite M; exact Logic.I].
Qed.
Lemma convert_becomes : forall f b p log ns, convert (execute f) b (Node p) = Some (log, ns) -> becomes f b p log ns.
Proof.
  intros f b p log ns H. unfold SrcModel.convert in H. destruct (match_src_suffix (sufs b) (node_name p)) as [[|c0 m0]|] eqn:M.
  - inversion H; subst. apply b_none. apply match_other. rewrite M. exact Logic.I.
  - pose proof (match_some _ _ _ _ M) as FS. pose proof (sdict_spec b (c0 :: m0)) as SD. destruct (sdict b (c0 :: m0)) as [c|].
    + destruct (execute f c None [Node p]) as [[lg ts]|] eqn:E; [|discriminate]. inversion H; subst. apply (b_made f b p (c0 :: m0) c log ts); [exact FS | exact SD | exact E|].
      destruct (Nat.ltb_spec 1 (length ts)) as [LT | GE]; [right | left; auto]. split; [exact LT|]. eexists. split; [reflexivity|]. intros t. apply usable_spec.
    + inversion H; subst. apply (b_own f b p (c0 :: m0)); assumption.
  - inversion H; subst. apply b_none. apply match_other. rewrite M. exact Logic.I.
Qed.
Lemma map_node_items : forall suf ns, map (fun it => node_of subst (adjust_item suf it)) (map Node ns) = ns.
Proof. intros suf ns. rewrite map_map. cbn. apply map_id. Qed.
Lemma forall2_nodes : forall (P : item -> list call * list str -> Prop) ps pieces, Forall2 P (map Node ps) pieces -> Forall2 (fun p pc => P (Node p) pc) ps pieces.
Proof.
  induction ps as [|p ps IH]; intros pieces F; cbn [map] in F; inversion F; subst; constructor; [assumption | apply IH; assumption].
Qed.

(* C56i: with a target given, a builder that has source builders is called with what its sources become, in the order of the sources *)
Theorem C56i_sources_in_order : forall f b ts ps log res, b_subs (conf b) <> [] -> execute (S f) b (Some ts) (map Node ps) = Some (log, res) ->
  exists pieces, Forall2 (fun p piece => becomes f b p (fst piece) (snd piece)) ps pieces /\
    exists c, log = concat (map fst pieces) ++ [c] /\ c_bld c = b /\ c_targets c = res /\ exists tl, (res, c_sources c) = b_emit (conf b) tl (concat (map snd pieces)).
Proof.
  intros f b ts ps log res NS H. cbn [SrcModel.execute] in H. destruct (b_subs (conf b)) as [|c0 cs] eqn:SB; [congruence|].
  destruct (bind_all (convert (execute f) b) (map Node ps) [] []) as [[lg ns]|] eqn:B; [|discriminate]. rewrite andb_false_r in H.
  destruct (bind_all_spec _ _ _ _ _ _ B) as [pieces [F [-> ->]]]. apply forall2_nodes in F. exists pieces. split.
  - clear - F. induction F as [|p pc ps pieces E F IH]; constructor; [|exact IH]. destruct pc as [lg ns]. apply convert_becomes. exact E.
  - unfold SrcModel.finish in H. rewrite map_node_items in H. cbn [app] in H. match type of H with (let (_, _) := ?e in _) = _ => destruct e as [T1 S1] eqn:EM end.
    destruct (b_single (conf b) && (1 <? length S1)); [discriminate|]. inversion H; subst. eexists. split; [reflexivity|]. cbn. split; [reflexivity|]. split; [reflexivity|]. eexists. symmetry. exact EM.
Qed.

(* ---------- nothing is lost ---------- *)
Lemma derives_incl : forall log log' s n, incl log log' -> derives log s n -> derives log' s n.
Proof. intros log log' s n IN D. induction D as [|m n c D IH IC IM IT]; [constructor | apply (d_call _ _ m n c); auto]. Qed.
Lemma derives_trans : forall log a b c, derives log a b -> derives log b c -> derives log a c.
Proof. intros log a b c D1 D2. induction D2 as [|m n x D IH IC IM IT]; [exact D1 | apply (d_call _ _ m n x); auto]. Qed.

(* emitters only add targets and sources; a source builder makes files that its parent can use *)
Definition emitters_add : Prop := forall b T S T' S', b_emit (conf b) T S = (T', S') -> incl T T' /\ incl S S'.
Definition suitable : Prop := forall b c, In c (b_subs (conf b)) -> b_suffix (conf c) <> [] /\ ~ In SLASH (b_suffix (conf c)) /\ In (b_suffix (conf c)) (sufs b).
Hypothesis EA : emitters_add.
Hypothesis SU : suitable.

Lemma finish_call : forall b target ns log0 log res, finish b target (map Node ns) log0 = Some (log, res) ->
  exists c, log = log0 ++ [c] /\ c_bld c = b /\ c_targets c = res /\ incl ns (c_sources c) /\ (target = None -> ns <> [] -> exists t, In t res /\ ends t (b_suffix (conf b))).
Proof.
  intros b target ns log0 log res H. unfold SrcModel.finish in H. rewrite map_node_items in H. match type of H with (let (_, _) := ?e in _) = _ => destruct e as [T1 S1] eqn:EM end.
  destruct (b_single (conf b) && (1 <? length S1)); [discriminate|]. inversion H; subst. apply EA in EM. destruct EM as [IT IS]. eexists. split; [reflexivity|]. cbn. split; [reflexivity|]. split; [reflexivity|]. split; [exact IS|].
  intros -> NE. destruct ns as [|p ns]; [congruence|]. eexists. split; [apply IT; left; reflexivity|]. unfold target_from_source. eexists. rewrite !app_assoc. reflexivity.
Qed.
Lemma execute_nodes : forall f b target ps log res, execute (S f) b target (map Node ps) = Some (log, res) ->
  exists log1 ns pieces, (b_subs (conf b) = [] /\ ns = ps /\ log1 = [] \/ Forall2 (fun p piece => becomes f b p (fst piece) (snd piece)) ps pieces /\ log1 = concat (map fst pieces) /\ ns = concat (map snd pieces)) /\
    (b_single (conf b) && (1 <? length ns) && match target with None => true | Some _ => false end = true /\ bind_all (fun it => execute f b None [it]) (map Node ns) log1 [] = Some (log, res) \/
     b_single (conf b) && (1 <? length ns) && match target with None => true | Some _ => false end = false /\ finish b target (map Node ns) log1 = Some (log, res)).
Proof.
  intros f b target ps log res H. cbn [SrcModel.execute] in H.
  assert (forall log1 ns, (if b_single (conf b) && (1 <? length (map Node ns)) && match target with None => true | Some _ => false end
            then bind_all (fun it => execute f b None [it]) (map Node ns) log1 [] else finish b target (map Node ns) log1) = Some (log, res) ->
          (b_single (conf b) && (1 <? length ns) && match target with None => true | Some _ => false end = true /\ bind_all (fun it => execute f b None [it]) (map Node ns) log1 [] = Some (log, res) \/
           b_single (conf b) && (1 <? length ns) && match target with None => true | Some _ => false end = false /\ finish b target (map Node ns) log1 = Some (log, res))) as AUX.
  { intros log1 ns X. rewrite map_length in X. destruct (b_single (conf b) && (1 <? length ns) && match target with None => true | Some _ => false end); [left | right]; auto. }
  destruct (b_subs (conf b)) as [|c0 cs] eqn:SB.
  - exists [], ps, []. split; [left; auto|]. apply AUX. exact H.
  - destruct (bind_all (convert (execute f) b) (map Node ps) [] []) as [[lg ns]|] eqn:B; [|discriminate]. destruct (bind_all_spec _ _ _ _ _ _ B) as [pieces [F [-> ->]]]. apply forall2_nodes in F.
    cbn [app] in *. exists (concat (map fst pieces)), (concat (map snd pieces)), pieces. split; [right; split; [|auto]|apply AUX; exact H].
    clear - F. induction F as [|p pc ps pieces E F IH]; constructor; [|exact IH]. destruct pc as [lg ns]. apply convert_becomes. exact E.
Qed.
Lemma forall2_in : forall {A B} (R : A -> B -> Prop) l l' x, Forall2 R l l' -> In x l -> exists y, In y l' /\ R x y.
Proof. intros A B R l l' x F. induction F as [|a b l l' H F IH]; intros IN; [destruct IN|]. destruct IN as [<- | IN]; [exists b; split; [left; reflexivity | exact H] | destruct (IH IN) as [y [IY HY]]; exists y; split; [right; exact IY | exact HY]]. Qed.
Lemma concat_in : forall {A B} (g : A -> list B) l x, In x l -> incl (g x) (concat (map g l)).
Proof. intros A B g l x IN y IY. apply in_concat. exists (g x). split; [apply in_map; exact IN | exact IY]. Qed.

Lemma kept_sources : forall f b target ps log res, execute f b target (map Node ps) = Some (log, res) -> forall p, In p ps ->
  exists c, In c log /\ c_bld c = b /\ incl (c_targets c) res /\ (exists n, In n (c_sources c) /\ derives log p n) /\ (target = None -> exists t, In t (c_targets c) /\ ends t (b_suffix (conf b))).
Proof.
  induction f as [|f IH]; intros b target ps log res H p IP; [discriminate|]. apply execute_nodes in H. destruct H as [log1 [ns [pieces [HC HF]]]].
  (* the source becomes some n *)
  assert (exists n, In n ns /\ derives log1 p n) as [n [INn DN]].
  { destruct HC as [[_ [-> _]] | [F [-> ->]]]; [exists p; split; [exact IP | constructor]|]. destruct (forall2_in _ _ _ _ F IP) as [[lg t1] [IPC BC]]. cbn [fst snd] in BC.
    assert (exists n, In n t1 /\ derives lg p n) as [n [I1 D1]].
    { inversion BC; subst; [exists p; split; [left; reflexivity | constructor] | exists p; split; [left; reflexivity | constructor]|].
      match goal with E : execute f c None [Node p] = Some _ |- _ => destruct (IH c None [p] _ _ E p (or_introl eq_refl)) as [k [IK [BK [IT [[m [IM DM]] TT]]]]] end.
      destruct (TT eq_refl) as [t [It Et]]. exists t. split.
      - match goal with X : _ \/ _ |- _ => destruct X as [[_ ->] | [_ [keep [-> KP]]]] end; [apply IT; exact It|]. apply filter_In. split; [apply IT; exact It|]. apply KP.
        match goal with T : taker b _ c |- _ => apply taker_sub in T; destruct (SU _ _ T) as [S1 [S2 S3]] end. intros NSX. apply (NSX _ S3 S1). apply name_ends; assumption.
      - apply (d_call _ _ m t k); assumption. }
    exists n. split; [apply (concat_in snd pieces (lg, t1) IPC); exact I1 | apply (derives_incl lg); [apply (concat_in fst pieces (lg, t1) IPC) | exact D1]]. }
  destruct HF as [[SC BA] | [SC FI]].
  - destruct (bind_all_spec _ _ _ _ _ _ BA) as [parts [FP [-> ->]]]. apply forall2_nodes in FP. destruct (forall2_in _ _ _ _ FP INn) as [[lg t1] [IPC E]].
    destruct (IH b None [n] _ _ E n (or_introl eq_refl)) as [k [IK [BK [IT [[m [IM DM]] TT]]]]]. exists k. cbn [app].
    assert (incl lg (log1 ++ concat (map fst parts))) as IL by (intros x IX; apply in_or_app; right; apply (concat_in fst parts (lg, t1) IPC); exact IX).
    split; [apply IL; exact IK|]. split; [exact BK|]. split; [intros x IX; apply (concat_in snd parts (lg, t1) IPC); apply IT; exact IX|]. split.
    + exists m. split; [exact IM|]. apply (derives_trans _ p n m); [apply (derives_incl log1); [intros x IX; apply in_or_app; left; exact IX | exact DN] | apply (derives_incl lg); assumption].
    + intros _. exact (TT eq_refl).
  - destruct (finish_call _ _ _ _ _ _ FI) as [c [-> [BC [TC [IS TT]]]]]. exists c. split; [apply in_or_app; right; left; reflexivity|]. split; [exact BC|]. split; [rewrite TC; intros x; auto|]. split.
    + exists n. split; [apply IS; exact INn | apply (derives_incl log1); [intros x IX; apply in_or_app; left; exact IX | exact DN]].
    + intros TN. rewrite TC. apply TT; [exact TN | intros ->; destruct INn].
Qed.
(* C56j: no source is lost: every source is made, by the calls of source builders, into a source of a call of the builder itself, whose targets are returned *)
Theorem C56j_no_source_lost : forall f b target ps log res, execute f b target (map Node ps) = Some (log, res) -> forall p, In p ps ->
  exists c n, In c log /\ c_bld c = b /\ incl (c_targets c) res /\ In n (c_sources c) /\ derives log p n.
Proof.
  intros f b target ps log res H p IP. destruct (kept_sources _ _ _ _ _ _ H p IP) as [c [A [B [C [[n [D E]] _]]]]]. exists c, n. repeat (split; [assumption|]). exact E.
Qed.
(* and everything that is returned is made from one of the sources *)
Theorem C56k_nothing_else : forall f b target ps log res, ps <> [] -> execute f b target (map Node ps) = Some (log, res) -> forall t, In t res -> exists p, In p ps /\ derives log p t.
Proof.
  induction f as [|f IH]; intros b target ps log res NE H t IT; [discriminate|]. pose proof (kept_sources _ _ _ _ _ _ H) as KS. apply execute_nodes in H. destruct H as [log1 [ns [pieces [HC HF]]]].
  assert (forall n, In n ns -> exists p, In p ps /\ derives log1 p n) as BACK.
  { intros n INn. destruct HC as [[_ [-> _]] | [F [-> ->]]]; [exists n; split; [exact INn | constructor]|]. apply in_concat in INn. destruct INn as [l [IL INl]]. apply in_map_iff in IL. destruct IL as [[lg t1] [<- IPC]]. cbn [snd] in INl.
    assert (exists p, In p ps /\ becomes f b p lg t1) as [p [IP BC]]. { clear - F IPC. induction F as [|a pc l pcs E F IH]; [destruct IPC|]. destruct IPC as [-> | IPC]; [exists a; split; [left; reflexivity | exact E] | destruct (IH IPC) as [p [X Y]]; exists p; split; [right; exact X | exact Y]]. }
    exists p. split; [exact IP|]. apply (derives_incl lg); [apply (concat_in fst pieces (lg, t1) IPC)|].
    inversion BC; subst; [destruct INl as [<- | []]; constructor | destruct INl as [<- | []]; constructor|].
    assert (In n ts) as INt by (match goal with X : _ \/ _ |- _ => destruct X as [[_ ->] | [_ [keep [-> KP]]]] end; [exact INl | apply filter_In in INl; apply INl]).
    match goal with E : execute f c None [Node p] = Some _ |- _ => destruct (IH c None [p] _ _ ltac:(discriminate) E n INt) as [p' [[<- | []] D]] end. exact D. }
  destruct HF as [[SC BA] | [SC FI]].
  - destruct (bind_all_spec _ _ _ _ _ _ BA) as [parts [FP [-> ->]]]. apply forall2_nodes in FP. cbn [app] in IT. apply in_concat in IT. destruct IT as [l [IL ITl]]. apply in_map_iff in IL. destruct IL as [[lg t1] [<- IPC]]. cbn [snd] in ITl.
    assert (exists n, In n ns /\ execute f b None [Node n] = Some (lg, t1)) as [n [INn E]]. { clear - FP IPC. induction FP as [|a pc l pcs E F IH]; [destruct IPC|]. destruct IPC as [-> | IPC]; [exists a; split; [left; reflexivity | exact E] | destruct (IH IPC) as [p [X Y]]; exists p; split; [right; exact X | exact Y]]. }
    destruct (IH b None [n] _ _ ltac:(discriminate) E t ITl) as [n' [[<- | []] D]]. destruct (BACK _ INn) as [p [IP DP]]. exists p. split; [exact IP|].
    apply (derives_trans _ p n t); [apply (derives_incl log1); [intros x IX; apply in_or_app; left; exact IX | exact DP] | apply (derives_incl lg); [intros x IX; apply in_or_app; right; apply (concat_in fst parts (lg, t1) IPC); exact IX | exact D]].
  - destruct (finish_call _ _ _ _ _ _ FI) as [c [E [BC [TC [IS TT]]]]]. destruct ps as [|p0 ps]; [congruence|]. destruct (KS p0 (or_introl eq_refl)) as [c' [IC' _]].
    assert (exists n, In n ns) as [n INn].
    { destruct HC as [[_ [-> _]] | [F [-> ->]]]; [exists p0; left; reflexivity|]. destruct (forall2_in _ _ _ _ F (or_introl eq_refl : In p0 (p0 :: ps))) as [[lg t1] [IPC BCC]]. cbn [fst snd] in BCC.
      assert (exists n, In n t1) as [n I1].
      { inversion BCC; subst; [exists p0; left; reflexivity | exists p0; left; reflexivity|].
        match goal with E : execute f c0 None [Node p0] = Some _ |- _ => destruct (kept_sources f c0 None [p0] _ _ E p0 (or_introl eq_refl)) as [k [IK [BK [ITk [_ TTk]]]]] end.
        destruct (TTk eq_refl) as [t0 [It Et]]. exists t0.
        match goal with X : _ \/ _ |- _ => destruct X as [[_ ->] | [_ [keep [-> KP]]]] end; [apply ITk; exact It|]. apply filter_In. split; [apply ITk; exact It|]. apply KP.
        match goal with T : taker _ _ c0 |- _ => apply taker_sub in T; destruct (SU _ _ T) as [S1 [S2 S3]] end. intros NSX. apply (NSX _ S3 S1). apply name_ends; assumption. }
      exists n. apply (concat_in snd pieces (lg, t1) IPC). exact I1. }
    destruct (BACK _ INn) as [p [IP DP]]. exists p. split; [exact IP|]. subst log. apply (d_call _ _ n t c); [apply (derives_incl log1); [intros x IX; apply in_or_app; left; exact IX | exact DP] | apply in_or_app; right; left; reflexivity | apply IS; exact INn | rewrite TC; exact IT].
Qed.
End P.
