(* Source builders: a list of sources for a single-source builder, names of sources, and the memoised suffixes. *)
From Coq Require Import Ascii String List Bool Arith Lia Permutation.
Import ListNotations.
From Verif Require Import NameModel NameProps NameProps2 SrcModel SrcProps.
Open Scope list_scope.

Lemma Forall2_length : forall {A B} (R : A -> B -> Prop) l l', Forall2 R l l' -> length l = length l'.
Proof. intros A B R l l' F. induction F as [|x y l l' H F IH]; cbn; [reflexivity | rewrite IH; reflexivity]. Qed.
Section P.
Context (subst : str -> str) (conf : nat -> bconf) (sufs : nat -> list str).
Notation execute := (execute subst conf sufs).
Notation convert := (convert subst conf sufs).
Notation finish := (finish subst conf sufs).
Notation becomes := (becomes subst conf sufs).

(* ---------- fuel ---------- *)
Lemma bind_all_mono : forall {A} (f g : A -> option (list call * list str)) l log0 res0 r, (forall x r, In x l -> f x = Some r -> g x = Some r) -> bind_all f l log0 res0 = Some r -> bind_all g l log0 res0 = Some r.
Proof.
  intros A f g. induction l as [|x l IH]; intros log0 res0 r M H; cbn [bind_all] in *; [exact H|]. destruct (f x) as [[lg ts]|] eqn:E; [|discriminate]. rewrite (M x _ (or_introl eq_refl) E). apply IH; [|exact H].
  intros y q IN. apply M. right; exact IN.
Qed.
Lemma convert_mono : forall rec rec' b it r, (forall c t l q, rec c t l = Some q -> rec' c t l = Some q) -> convert rec b it = Some r -> convert rec' b it = Some r.
Proof.
  intros rec rec' b it r M H. unfold SrcModel.convert in *. match type of H with match ?x with _ => _ end = _ => destruct x as [[|c0 m0]|] end; try exact H.
  destruct (sdict conf sufs b (c0 :: m0)) as [c|]; [|exact H]. match type of H with match ?x with _ => _ end = _ => destruct x as [[lg ts]|] eqn:E end; [|discriminate]. rewrite (M _ _ _ _ E). exact H.
Qed.
Lemma execute_mono : forall f b t l r, execute f b t l = Some r -> execute (S f) b t l = Some r.
Proof.
  induction f as [|f IH]; intros b t l r H; [discriminate|]. cbn [SrcModel.execute] in H. change (SrcModel.execute subst conf sufs (S (S f)) b t l) with
    (match (match b_subs (conf b) with [] => Some ([], l) | _ => match bind_all (convert (execute (S f)) b) l [] [] with None => None | Some (log, ns) => Some (log, map Node ns) end end) with
     | None => None
     | Some (log, items) => if b_single (conf b) && (1 <? length items) && match t with None => true | Some _ => false end then bind_all (fun it => execute (S f) b None [it]) items log [] else finish b t items log end).
  destruct (b_subs (conf b)) as [|c0 cs].
  - destruct (b_single (conf b) && (1 <? length l) && match t with None => true | Some _ => false end); [|exact H]. revert H. apply bind_all_mono. intros x q _. apply IH.
  - destruct (bind_all (convert (execute f) b) l [] []) as [[lg ns]|] eqn:B; [|discriminate].
    assert (bind_all (convert (execute (S f)) b) l [] [] = Some (lg, ns)) as ->. { revert B. apply bind_all_mono. intros x q _. apply convert_mono. intros c t0 l0 q0. apply IH. }
    destruct (b_single (conf b) && (1 <? length (map Node ns)) && match t with None => true | Some _ => false end); [|exact H]. revert H. apply bind_all_mono. intros x q _. apply IH.
Qed.

(* ---------- one call for a list of sources ---------- *)
(* what becomes of a source of this builder is not taken by a source builder again *)
Definition settled (b : nat) : Prop := forall f p log ns n suf, becomes f b p log ns -> In n ns -> first_suffix (sufs b) (node_name n) suf -> forall c, In c (b_subs (conf b)) -> ~ In suf (sufs c).
Lemma convert_kept : forall f b n, (forall suf, first_suffix (sufs b) (node_name n) suf -> forall c, In c (b_subs (conf b)) -> ~ In suf (sufs c)) -> convert (execute f) b (Node n) = Some ([], [n]).
Proof.
  intros f b n H. unfold SrcModel.convert. destruct (match_src_suffix (sufs b) (node_name n)) as [[|c0 m0]|] eqn:M; try reflexivity. apply match_some in M. pose proof (sdict_spec conf sufs b (c0 :: m0)) as SD.
  destruct (sdict conf sufs b (c0 :: m0)) as [c|]; [|reflexivity]. exfalso. apply (H _ M c); [apply (taker_sub conf sufs _ _ _ SD) | destruct SD as [l1 [l2 [_ [X _]]]]; exact X].
Qed.
Hypothesis EA : emitters_add conf.
Hypothesis SU : suitable conf sufs.
Lemma becomes_some : forall f b p log ns, becomes f b p log ns -> ns <> [].
Proof.
  intros f b p log ns BC. inversion BC; subst; try discriminate.
  match goal with E : execute f c None [Node p] = Some _ |- _ => destruct (kept_sources subst conf sufs EA SU f c None [p] _ _ E p (or_introl eq_refl)) as [k [IK [BK [ITk [_ TTk]]]]] end.
  destruct (TTk eq_refl) as [t0 [It Et]]. assert (In t0 ns) as X; [|intros ->; exact X].
  match goal with Y : _ \/ _ |- _ => destruct Y as [[_ ->] | [_ [keep [-> KP]]]] end; [apply ITk; exact It|]. apply filter_In. split; [apply ITk; exact It|]. apply KP.
  match goal with T : taker _ _ _ _ c |- _ => apply taker_sub in T; destruct (SU _ _ T) as [S1 [S2 S3]] end. intros NSX. apply (NSX _ S3 S1). apply name_ends; assumption.
Qed.
Lemma execute_one : forall f b n, b_subs (conf b) = [] \/ convert (execute f) b (Node n) = Some ([], [n]) -> execute (S f) b None [Node n] = finish b None [Node n] [].
Proof.
  intros f b n H. cbn [SrcModel.execute]. destruct (b_subs (conf b)) as [|c0 cs]; [rewrite andb_false_r; reflexivity|]. destruct H as [H | H]; [discriminate|]. cbn [bind_all]. rewrite H. cbn. rewrite andb_false_r. reflexivity.
Qed.
Lemma finish_log : forall b t items log0, finish b t items log0 = match finish b t items [] with Some (lg, ts) => Some (log0 ++ lg, ts) | None => None end.
Proof.
  intros b t items log0. unfold SrcModel.finish. match goal with |- (let (_, _) := ?e in _) = _ => destruct e as [T1 S1] end. destruct (b_single (conf b) && (1 <? length S1)); reflexivity.
Qed.
Lemma concat_split : forall (l : list (list call * list call)), Permutation (concat (map fst l) ++ concat (map snd l)) (concat (map (fun x => fst x ++ snd x) l)).
Proof.
  induction l as [|[a b] l IH]; [constructor|]. cbn [map concat fst snd]. rewrite <- !app_assoc. apply Permutation_app_head. rewrite Permutation_app_swap_app. apply Permutation_app_head. exact IH.
Qed.
(* the pieces of a list of lists *)
Lemma forall2_concat : forall {A B} (R : A -> B -> Prop) (ls : list (list A)) out, Forall2 R (concat ls) out -> exists outs, out = concat outs /\ Forall2 (Forall2 R) ls outs.
Proof.
  intros A B R. induction ls as [|l ls IH]; intros out F; cbn [concat] in F.
  - inversion F; subst. exists []. split; [reflexivity | constructor].
  - apply Forall2_app_inv_l in F. destruct F as [o1 [o2 [F1 [F2 ->]]]]. destruct (IH _ F2) as [outs [-> FO]]. exists (o1 :: outs). split; [reflexivity | constructor; assumption].
Qed.

(* C56l: a single-source builder called for a list of sources, without a target, is called for each of them *)
Theorem C56l_each_source : forall f b ps log res, b_single (conf b) = true -> settled b -> ps <> [] -> execute f b None (map Node ps) = Some (log, res) ->
  exists pieces, Forall2 (fun p piece => execute f b None [Node p] = Some piece) ps pieces /\ res = concat (map snd pieces) /\ Permutation log (concat (map fst pieces)).
Proof.
  intros f b ps log res SG ST NE H. destruct f as [|f]; [discriminate|].
  destruct ps as [|p0 [|p1 ps0]]; [congruence | |].
  { exists [(log, res)]. split; [constructor; [exact H | constructor]|]. cbn. rewrite !app_nil_r. split; [reflexivity | apply Permutation_refl]. }
  set (ps := p0 :: p1 :: ps0) in *. pose proof H as H0. cbn [SrcModel.execute] in H. rewrite SG in H. cbn [andb] in H. destruct (b_subs (conf b)) as [|c0 cs] eqn:SB.
  - assert ((1 <? length (map Node ps)) && true = true) as L2 by reflexivity. rewrite L2 in H. destruct (bind_all_spec _ _ _ _ _ _ H) as [pieces [F [-> ->]]]. apply forall2_nodes in F. exists pieces. cbn [app].
    split; [|split; [reflexivity | apply Permutation_refl]]. clear - F. induction F as [|p pc l pcs E F IH]; constructor; [apply execute_mono; exact E | exact IH].
  - destruct (bind_all (convert (execute f) b) (map Node ps) [] []) as [[lg ns]|] eqn:B; [|discriminate]. destruct (bind_all_spec _ _ _ _ _ _ B) as [conv [FC [EL EN]]]. cbn [app] in EL, EN. apply forall2_nodes in FC.
    assert (Forall (fun x => snd x <> []) conv) as NN.
    { clear - FC EA SU. induction FC as [|p pc l pcs E F IH]; constructor; [|exact IH]. destruct pc as [lg ns]. apply convert_becomes in E. apply becomes_some in E. exact E. }
    assert (1 < length ns) as LT.
    { subst ns. inversion FC as [|? q1 ? cv E1 FC1]; subst. inversion FC1 as [|? q2 ? cv2 E2 FC2]; subst. cbn [map concat]. inversion NN as [|? ? N1 NN1]; subst. inversion NN1 as [|? ? N2 NN2]; subst. rewrite !app_length.
      destruct (snd q1); [congruence|]. destruct (snd q2); [congruence|]. cbn [length]. lia. }
    rewrite map_length in H. apply Nat.ltb_lt in LT. rewrite LT in H. cbn [andb] in H. destruct (bind_all_spec _ _ _ _ _ _ H) as [parts [FP [-> ->]]]. cbn [app]. apply forall2_nodes in FP.
    (* every n is handled alone *)
    assert (forall n pc, In n ns -> execute f b None [Node n] = Some pc -> finish b None [Node n] [] = Some pc) as ALONE.
    { intros n pc IN E. destruct f as [|f']; [discriminate|]. rewrite <- E. symmetry. apply execute_one. right. apply convert_kept. subst ns.
      apply in_concat in IN. destruct IN as [l [IL INl]]. apply in_map_iff in IL. destruct IL as [[lg1 t1] [<- IPC]]. cbn [snd] in INl.
      assert (exists p, convert (execute (S f')) b (Node p) = Some (lg1, t1)) as [p EP]. { clear - FC IPC. induction FC as [|a pc l pcs E F IH]; [destruct IPC|]. destruct IPC as [-> | IPC]; [exists a; exact E | apply IH; exact IPC]. }
      apply convert_becomes in EP. intros suf FS. exact (ST _ _ _ _ _ _ EP INl FS). }
    subst ns. destruct (forall2_concat _ _ _ FP) as [outs [-> FO]].
    set (mk := fun x : (list call * list str) * list (list call * list str) => (fst (fst x) ++ concat (map fst (snd x)), concat (map snd (snd x)))).
    exists (map mk (combine conv outs)).
    assert (length conv = length outs) as LCO. { apply Forall2_length in FO. rewrite map_length in FO. exact FO. }
    split; [|split].
    + assert (forall n, In n (concat (map snd conv)) -> forall pc, execute f b None [Node n] = Some pc -> finish b None [Node n] [] = Some pc) as AL2 by (intros n IN pc; apply ALONE; exact IN).
      clear H0 H B NE LT EL lg FP ALONE. generalize dependent outs. revert AL2 NN. clearbody ps. induction FC as [|p pc l conv E F IH]; intros AL2 NN outs FO LCO; [destruct outs; [constructor | discriminate LCO]|].
      destruct outs as [|o outs]; [discriminate|]. inversion FO as [|? ? ? ? FO1 FO2]; subst. inversion NN as [|? ? N1 N2]; subst. cbn [combine map]. constructor.
      * destruct pc as [lg1 ns1]. cbn [snd] in *. unfold mk. cbn [fst snd]. cbn [SrcModel.execute]. rewrite SB. cbn [bind_all]. rewrite E. cbn [app]. rewrite SG, map_length. cbn [andb].
        destruct (Nat.ltb_spec 1 (length ns1)) as [L1 | L1]; cbn [andb].
        -- rewrite (bind_all_intro (fun it => execute f b None [it]) (map Node ns1) o lg1 []); [reflexivity|]. clear - FO1. induction FO1 as [|n q l1 l2 X FX IHX]; cbn [map]; constructor; assumption.
        -- destruct ns1 as [|n [|n2 ns2]]; [congruence | | cbn in L1; lia]. inversion FO1 as [|? q ? ? X1 X2]; subst. inversion X2; subst. cbn [map concat]. rewrite !app_nil_r.
           assert (finish b None [Node n] [] = Some q) as FQ by (apply AL2; [left; reflexivity | exact X1]). rewrite finish_log, FQ. destruct q; reflexivity.
      * apply IH; [intros n IN; apply AL2; cbn [map concat]; apply in_or_app; right; exact IN | exact N2 | exact FO2 | cbn in LCO; lia].
    + clear - LCO. revert conv LCO. induction outs as [|o outs IH]; intros [|cv conv] LCO; try discriminate; [reflexivity|]. cbn [concat map combine]. rewrite map_app, concat_app. cbn [mk snd]. rewrite (IH conv) by (cbn in LCO; lia). reflexivity.
    + rewrite EL. clear - LCO. assert (concat (map fst (concat outs)) = concat (map snd (combine (map fst conv) (map (fun o => concat (map fst o)) outs))) /\ concat (map fst conv) = concat (map fst (combine (map fst conv) (map (fun o => concat (map fst o)) outs))) /\
        concat (map fst (map mk (combine conv outs))) = concat (map (fun x => fst x ++ snd x) (combine (map fst conv) (map (fun o => concat (map fst o)) outs)))) as [-> [-> ->]]; [|apply concat_split].
      revert conv LCO. induction outs as [|o outs IH]; intros [|cv conv] LCO; try discriminate; [auto|]. destruct (IH conv) as [A [B C]]; [cbn in LCO; lia|]. cbn [concat map combine fst snd]. rewrite map_app, concat_app. rewrite A, <- B, C. auto.
Qed.

(* ---------- names ---------- *)
(* C56m: a source given by its name is treated as the node if the name has an extension and no variables *)
Definition same_item (a b : item) : Prop := a = b \/ exists s, a = Name s /\ b = Node s /\ subst s = s /\ has_ext s.
Lemma ext_parts : forall s, has_ext s -> snd (splitext s) <> [] /\ In DOT s /\ node_name s <> [].
Proof.
  intros s H. pose proof (splitext_ordinary s) as O. pose proof (H _ _ O) as NE. split; [exact NE|]. destruct O as [E [[Z _] | [t [ET [D1 [D2 D3]]]]]]; [congruence|]. rewrite ET in E. split.
  - rewrite E. apply in_or_app; right; left; reflexivity.
  - intros Z. assert (ends (node_name s) (DOT :: t)) as [r R]. { apply name_ends; [intros [X | X]; [discriminate | exact (D2 X)] | exists (fst (splitext s)); exact E]. } rewrite Z in R. destruct r; discriminate.
Qed.
Lemma find_ext : forall {A} (f g : A -> bool) l, (forall x, In x l -> f x = g x) -> find f l = find g l.
Proof. intros A f g. induction l as [|a l IH]; intros H; [reflexivity|]. cbn [find]. rewrite (H a (or_introl eq_refl)). destruct (g a); [reflexivity|]. apply IH. intros x IN; apply H; right; exact IN. Qed.
Lemma match_name : forall l s, (forall x, In x l -> ~ In SLASH x) -> has_ext s -> match_src_suffix l s = match_src_suffix l (node_name s).
Proof.
  intros l s NS HX. destruct (ext_parts s HX) as [_ [ID NN]]. unfold match_src_suffix. apply find_ext. intros x IN. apply eq_true_iff_eq. rewrite !matches by exact IN. split; (intros [[NE EN] | [-> Z]]; [left; split; [exact NE|]|]).
  - apply name_ends; [apply NS; exact IN | exact EN].
  - rewrite Z in ID. destruct ID.
  - apply (proj1 (name_ends s x (NS x IN))). exact EN.
  - congruence.
Qed.
Lemma adjust_has_ext : forall s suf, has_ext s -> adjustixes s [] suf false = s.
Proof.
  intros s suf HX. destruct (ext_parts s HX) as [NE _]. unfold adjustixes. destruct suf; [reflexivity|]. destruct (snd (splitext s)); [congruence|]. cbn [orb]. rewrite andb_false_r. reflexivity.
Qed.
Theorem C56m_names : (forall b s, In s (sufs b) -> ~ In SLASH s) -> forall f b t l l', Forall2 same_item l l' -> execute f b t l = execute f b t l'.
Proof.
  intros NS. induction f as [|f IH]; intros b t l l' F; [reflexivity|]. cbn [SrcModel.execute].
  assert (forall it it', same_item it it' -> convert (execute f) b it = convert (execute f) b it') as CV.
  { intros it it' [-> | [s [-> [-> [SS HX]]]]]; [reflexivity|]. unfold SrcModel.convert. rewrite SS, (match_name _ _ (NS b) HX). destruct (ext_parts s HX) as [_ [ID _]].
    assert (existsb (Ascii.eqb DOT) s = true) as DB by (apply existsb_exists; exists DOT; split; [exact ID | reflexivity]). rewrite DB. cbn [node_of]. rewrite ?SS.
    destruct (match_src_suffix (sufs b) (node_name s)) as [[|c0 m0]|]; [cbn [node_of]; rewrite ?SS; reflexivity | | cbn [node_of]; rewrite ?SS; reflexivity]. destruct (sdict conf sufs b (c0 :: m0)) as [c|]; [|cbn [node_of]; rewrite ?SS; reflexivity].
    rewrite (IH c None [Name s] [Node s]); [reflexivity|]. constructor; [right; exists s; auto | constructor]. }
  destruct (b_subs (conf b)) as [|c0 cs].
  - assert (length l = length l') as LE by (apply Forall2_length in F; exact F). rewrite LE. destruct (b_single (conf b) && (1 <? length l') && match t with None => true | Some _ => false end).
    + assert (forall log res, bind_all (fun it => execute f b None [it]) l log res = bind_all (fun it => execute f b None [it]) l' log res) as X; [|apply X].
      clear LE. induction F as [|x y l l' H F IHF]; intros log res; [reflexivity|]. cbn [bind_all]. rewrite (IH b None [x] [y]) by (constructor; [exact H | constructor]). destruct (execute f b None [y]) as [[lg ts]|]; [apply IHF | reflexivity].
    + unfold SrcModel.finish. assert (map (fun it => node_of subst (adjust_item (get_src_suffix sufs b) it)) l = map (fun it => node_of subst (adjust_item (get_src_suffix sufs b) it)) l') as ->; [|reflexivity].
      clear LE. induction F as [|x y l l' H F IHF]; [reflexivity|]. cbn [map]. rewrite IHF. f_equal. destruct H as [-> | [s [-> [-> [SS HX]]]]]; [reflexivity|]. cbn [adjust_item node_of]. rewrite adjust_has_ext by exact HX. exact SS.
  - assert (forall log res, bind_all (convert (execute f) b) l log res = bind_all (convert (execute f) b) l' log res) as ->; [|reflexivity].
    induction F as [|x y l l' H F IHF]; intros log res; [reflexivity|]. cbn [bind_all]. rewrite (CV x y H). destruct (convert (execute f) b y) as [[lg ts]|]; [apply IHF | reflexivity].
Qed.
End P.

(* ---------- memoised suffixes ---------- *)
(* what the builders were told: the source suffixes set last, and the source builders added, after those they had *)
Fixpoint set_last (h : list sop) (b : nat) (l : list str) : list str :=
  match h with [] => l | SetSrc b' l' :: r => set_last r b (if b' =? b then map adjust_suffix l' else l) | _ :: r => set_last r b l end.
Definition added (h : list sop) (b : nat) : list nat := flat_map (fun x => match x with AddSub b' c => if b' =? b then [c] else [] | _ => [] end) h.
Definition told (o : objs) (h : list sop) : objs := fun b => {| o_src := set_last h b (o_src (o b)); o_subs := o_subs (o b) ++ added h b; o_memo := fun _ => None |}.
(* the suffixes a builder takes: its own and those of its source builders *)
Inductive takes (o : objs) : nat -> str -> Prop :=
| t_own : forall b s, In s (o_src (o b)) -> takes o b s
| t_sub : forall b c s, In c (o_subs (o b)) -> takes o c s -> takes o b s.
Definition no_ask (x : sop) : Prop := match x with Ask _ _ => False | _ => True end.
Definition no_set (x : sop) : Prop := match x with SetSrc _ _ => False | _ => True end.

Lemma add_new_spec : forall new l, (forall s, In s (add_new l new) <-> In s l \/ In s new) /\ exists t, add_new l new = l ++ t.
Proof.
  induction new as [|x new IH]; intros l; unfold add_new; cbn [fold_left].
  - split; [intros s; split; [auto | intros [H | []]; exact H] | exists []; rewrite app_nil_r; reflexivity].
  - destruct (smem x l) eqn:E.
    + destruct (IH l) as [A B]. unfold add_new in *. split; [|exact B]. intros s. rewrite A. cbn [In]. apply smem_spec in E. split; [tauto|]. intros [H | [<- | H]]; auto.
    + destruct (IH (l ++ [x])) as [A [t B]]. unfold add_new in *. split; [|exists (x :: t); rewrite B, <- app_assoc; reflexivity]. intros s. rewrite A, in_app_iff. cbn [In]. tauto.
Qed.
Definition same_conf (o o1 : objs) : Prop := forall b, o_src (o1 b) = o_src (o b) /\ o_subs (o1 b) = o_subs (o b).
Lemma takes_same : forall o o1, same_conf o o1 -> forall b s, takes o b s <-> takes o1 b s.
Proof.
  intros o o1 SC b s. split; intros H.
  - induction H as [b s H | b c s H T IH]; [apply t_own; rewrite (proj1 (SC b)); exact H | apply (t_sub _ _ c); [rewrite (proj2 (SC b)); exact H | exact IH]].
  - induction H as [b s H | b c s H T IH]; [apply t_own; rewrite <- (proj1 (SC b)); exact H | apply (t_sub _ _ c); [rewrite <- (proj2 (SC b)); exact H | exact IH]].
Qed.
Definition memo_ok (o : objs) : Prop := forall b env l, o_memo (o b) env = Some l -> (exists t, l = o_src (o b) ++ t) /\ forall s, In s l -> takes o b s.
Definition grows (o o1 : objs) : Prop := forall b env l, o_memo (o b) env = Some l -> exists t, o_memo (o1 b) env = Some (l ++ t).
Lemma put_memo_conf : forall o b env l, same_conf o (put_memo o b env l).
Proof. intros o b env l k. unfold put_memo, put. destruct (Nat.eqb_spec k b) as [-> | _]; auto. Qed.
Lemma put_memo_get : forall o b env l, o_memo (put_memo o b env l b) env = Some l.
Proof. intros o b env l. unfold put_memo, put. rewrite Nat.eqb_refl. cbn. rewrite Nat.eqb_refl. reflexivity. Qed.
Lemma put_memo_ok : forall o b env l, memo_ok o -> (exists t, l = o_src (o b) ++ t) -> (forall s, In s l -> takes o b s) -> memo_ok (put_memo o b env l).
Proof.
  intros o b env l OK P T k e m H. pose proof (takes_same _ _ (put_memo_conf o b env l)) as TS. rewrite (proj1 (put_memo_conf o b env l k)).
  assert (k = b /\ e = env /\ m = l \/ o_memo (o k) e = Some m) as [[-> [-> ->]] | X].
  { unfold put_memo, put in H. destruct (Nat.eqb_spec k b) as [-> | _]; [|right; exact H]. cbn in H. destruct (Nat.eqb_spec e env) as [-> | _]; [left; inversion H; auto | right; exact H]. }
  - split; [exact P|]. intros s IN. apply TS, T, IN.
  - destruct (OK _ _ _ X) as [A B]. split; [exact A|]. intros s IN. apply TS, B, IN.
Qed.
Lemma put_memo_grows : forall o b env l, (forall l0, o_memo (o b) env = Some l0 -> exists t, l = l0 ++ t) -> grows o (put_memo o b env l).
Proof.
  intros o b env l H k e m X. unfold put_memo, put. destruct (Nat.eqb_spec k b) as [-> | _]; [|exists []; rewrite app_nil_r; exact X]. cbn. destruct (Nat.eqb_spec e env) as [-> | _].
  - destruct (H _ X) as [t ->]. exists t; reflexivity.
  - exists []. rewrite app_nil_r. exact X.
Qed.
Lemma grows_trans : forall a b c, grows a b -> grows b c -> grows a c.
Proof. intros a b c G1 G2 k e l X. destruct (G1 _ _ _ X) as [t1 Y]. destruct (G2 _ _ _ Y) as [t2 Z]. exists (t1 ++ t2). rewrite app_assoc. exact Z. Qed.
Lemma conf_trans : forall a b c, same_conf a b -> same_conf b c -> same_conf a c.
Proof. intros a b c H1 H2 k. destruct (H1 k) as [A B]. destruct (H2 k) as [C D]. split; congruence. Qed.
Lemma ask_spec : forall f env o b o1 r, memo_ok o -> ask f env o b = Some (o1, r) ->
  memo_ok o1 /\ same_conf o o1 /\ grows o o1 /\ (exists t, r = o_src (o b) ++ t) /\ forall s, In s r <-> takes o b s.
Proof.
  induction f as [|f IH]; intros env o b o1 r OK H; [discriminate|]. cbn [ask] in H.
  set (l0 := match o_memo (o b) env with Some l => l | None => o_src (o b) end) in *.
  assert ((exists t, l0 = o_src (o b) ++ t) /\ (forall s, In s l0 -> takes o b s)) as [P0 T0].
  { subst l0. destruct (o_memo (o b) env) as [l|] eqn:M; [apply (OK _ _ _ M)|]. split; [exists []; rewrite app_nil_r; reflexivity | intros s IN; apply t_own; exact IN]. }
  match type of H with ?g _ _ = _ => set (go := g) in H end.
  assert (forall subs o2 o3 r3, memo_ok o2 -> same_conf o o2 -> (exists l, o_memo (o2 b) env = Some l) -> incl subs (o_subs (o b)) -> go subs o2 = Some (o3, r3) ->
    memo_ok o3 /\ same_conf o o3 /\ grows o2 o3 /\ o_memo (o3 b) env = Some r3 /\ forall c s, In c subs -> takes o c s -> In s r3) as LOOP.
  { induction subs as [|c subs IHs]; intros o2 o3 r3 OK2 SC2 [l ML] IN X.
    - cbn in X. rewrite ML in X. inversion X; subst. split; [exact OK2|]. split; [exact SC2|]. split; [intros k e m Y; exists []; rewrite app_nil_r; exact Y|]. split; [exact ML | intros c s []].
    - change (go (c :: subs) o2) with (match ask f env o2 c with None => None | Some (oa, new) => go subs (put_memo oa b env (add_new (match o_memo (oa b) env with Some l => l | None => [] end) new)) end) in X.
      destruct (ask f env o2 c) as [[oa new]|] eqn:AC; [|discriminate]. destruct (IH _ _ _ _ _ OK2 AC) as [OKa [SCa [GRa [_ NEW]]]]. destruct (GRa _ _ _ ML) as [t ML2]. rewrite ML2 in X.
      destruct (add_new_spec new (l ++ t)) as [AN [t2 AT]]. set (l2 := add_new (l ++ t) new) in *. pose proof (conf_trans _ _ _ SC2 SCa) as SC3.
      assert (memo_ok (put_memo oa b env l2)) as OKb.
      { apply put_memo_ok; [exact OKa | |].
        - destruct (OKa _ _ _ ML2) as [[t3 E3] _]. rewrite AT, E3. exists (t3 ++ t2). rewrite app_assoc. reflexivity.
        - intros s IS. apply AN in IS. destruct IS as [IS | IS]; [apply (OKa _ _ _ ML2); exact IS|]. apply (t_sub _ _ c); [rewrite (proj2 (SC3 b)); apply IN; left; reflexivity|]. apply (takes_same o2 oa SCa). apply NEW. exact IS. }
      assert (same_conf o (put_memo oa b env l2)) as SCb by (apply (conf_trans _ oa); [exact SC3 | apply put_memo_conf]).
      destruct (IHs _ _ _ OKb SCb (ex_intro _ l2 (put_memo_get oa b env l2)) (fun x i => IN x (or_intror i)) X) as [OK3 [SC4 [GR3 [MR TR]]]].
      assert (grows o2 o3) as GG.
      { apply (grows_trans _ oa); [exact GRa|]. apply (grows_trans _ (put_memo oa b env l2)); [|exact GR3]. apply put_memo_grows. intros m Y. rewrite ML2 in Y. inversion Y; subst. exists t2. exact AT. }
      split; [exact OK3|]. split; [exact SC4|]. split; [exact GG|]. split; [exact MR|]. intros c' s [<- | IC] TK; [|apply (TR c'); assumption].
      destruct (GR3 _ _ _ (put_memo_get oa b env l2)) as [t4 Y]. rewrite MR in Y. inversion Y; subst. apply in_or_app; left. apply AN. right. apply NEW. apply (takes_same o o2 SC2). exact TK. }
  assert (memo_ok (put_memo o b env l0)) as OK0 by (apply put_memo_ok; assumption).
  destruct (LOOP _ _ _ _ OK0 (put_memo_conf o b env l0) (ex_intro _ l0 (put_memo_get o b env l0)) (fun x i => i) H) as [OK1 [SC1 [GR1 [MR TR]]]].
  split; [exact OK1|]. split; [exact SC1|]. split.
  { apply (grows_trans _ (put_memo o b env l0)); [|exact GR1]. apply put_memo_grows. intros m Y. subst l0. rewrite Y. exists []. rewrite app_nil_r. reflexivity. }
  destruct (OK1 _ _ _ MR) as [[t E] T1]. rewrite (proj1 (SC1 b)) in E. split; [exists t; exact E|]. intros s. split.
  - intros IN. apply (takes_same o o1 SC1). apply T1; exact IN.
  - intros TK. inversion TK as [b' s' IN | b' c s' IC T]; subst; [apply in_or_app; left; exact IN | apply (TR c); assumption].
Qed.
Lemma ask_conf : forall f env o b o1 r, ask f env o b = Some (o1, r) -> same_conf o o1.
Proof.
  induction f as [|f IH]; intros env o b o1 r H; [discriminate|]. cbn [ask] in H. set (l0 := match o_memo (o b) env with Some l => l | None => o_src (o b) end) in *.
  match type of H with ?g _ _ = _ => set (go := g) in H end.
  assert (forall subs o2 o3 r3, same_conf o o2 -> go subs o2 = Some (o3, r3) -> same_conf o o3) as LOOP.
  { induction subs as [|c subs IHs]; intros o2 o3 r3 SC X; [cbn in X; inversion X; subst; exact SC|].
    change (go (c :: subs) o2) with (match ask f env o2 c with None => None | Some (oa, new) => go subs (put_memo oa b env (add_new (match o_memo (oa b) env with Some l => l | None => [] end) new)) end) in X.
    destruct (ask f env o2 c) as [[oa new]|] eqn:AC; [|discriminate]. apply (IHs _ _ _ (conf_trans _ _ _ (conf_trans _ _ _ SC (IH _ _ _ _ _ AC)) (put_memo_conf _ _ _ _)) X). }
  apply (LOOP _ _ _ _ (put_memo_conf o b env l0) H).
Qed.
Lemma sstep_ok : forall f o x o1, memo_ok o -> no_set x -> sstep f o x = Some o1 -> memo_ok o1.
Proof.
  intros f o x o1 OK NS H. destruct x as [env b | b c | b l]; cbn [sstep] in H; [| |destruct NS].
  - destruct (ask f env o b) as [[o2 r]|] eqn:A; [|discriminate]. inversion H; subst. apply (ask_spec _ _ _ _ _ _ OK A).
  - inversion H; subst. intros k e m X. unfold put in *. destruct (Nat.eqb_spec k b) as [-> | NE]; cbn in X; [discriminate|]. destruct (OK _ _ _ X) as [A B]. split; [exact A|]. intros s IN. specialize (B s IN). clear - B.
    induction B as [k s H | k d s H T IH].
    + apply t_own. destruct (Nat.eqb_spec k b) as [-> | _]; exact H.
    + apply (t_sub _ _ d); [|exact IH]. destruct (Nat.eqb_spec k b) as [-> | _]; [cbn; apply in_or_app; left; exact H | exact H].
Qed.
Lemma setup_ok : forall f h o o1, (forall b e, o_memo (o b) e = None) -> Forall no_ask h -> srun f o h = Some o1 -> forall b e, o_memo (o1 b) e = None.
Proof.
  intros f. induction h as [|x h IH]; intros o o1 Z F H; cbn [srun] in H; [inversion H; subst; exact Z|]. inversion F as [|? ? NA FH]; subst. destruct (sstep f o x) as [o2|] eqn:E; [|discriminate]. apply (IH o2); [|exact FH | exact H].
  intros k e. destruct x as [env b | b c | b l]; [destruct NA | |]; cbn [sstep] in E; inversion E; subst; unfold put; destruct (Nat.eqb_spec k b) as [-> | _]; cbn [o_memo]; try reflexivity; apply Z.
Qed.
Lemma srun_told : forall f h o o1, srun f o h = Some o1 -> (forall b, o_src (o1 b) = set_last h b (o_src (o b)) /\ o_subs (o1 b) = o_subs (o b) ++ added h b).
Proof.
  intros f. induction h as [|x h IH]; intros o o1 H b; cbn [srun] in H.
  - inversion H; subst. cbn. rewrite app_nil_r. auto.
  - destruct (sstep f o x) as [o2|] eqn:E; [|discriminate]. destruct (IH _ _ H b) as [A B]. rewrite A, B. destruct x as [env k | k c | k l]; cbn [sstep] in E.
    + destruct (ask f env o k) as [[o3 r]|] eqn:AK; [|discriminate]. inversion E; subst. cbn [set_last]. change (added (Ask env k :: h) b) with (added h b). destruct (ask_conf _ _ _ _ _ _ AK b) as [-> ->]. auto.
    + inversion E; subst. cbn [set_last]. change (added (AddSub k c :: h) b) with ((if k =? b then [c] else []) ++ added h b). unfold put. rewrite (Nat.eqb_sym k b). destruct (Nat.eqb_spec b k) as [-> | _]; [cbn [o_src o_subs]; rewrite <- app_assoc; auto | auto].
    + inversion E; subst. cbn [set_last]. change (added (SetSrc k l :: h) b) with (added h b). unfold put. rewrite (Nat.eqb_sym k b). destruct (Nat.eqb_spec b k) as [-> | _]; auto.
Qed.
(* C56n: the suffixes a builder takes, its default first, are those of the builder and of its source builders as they are now, whatever was asked before and however source
   builders are added, if source suffixes are set before the builders are used *)
Theorem C56n_suffixes_current : forall f o0 setup use o env b o1 r, (forall b e, o_memo (o0 b) e = None) -> Forall no_ask setup -> Forall no_set use ->
  srun f o0 (setup ++ use) = Some o -> ask f env o b = Some (o1, r) ->
  (forall s, In s r <-> takes (told o0 (setup ++ use)) b s) /\ exists t, r = set_last setup b (o_src (o0 b)) ++ t.
Proof.
  intros f o0 setup use o env b o1 r Z FS FU H A. pose proof (srun_told _ _ _ _ H) as TD.
  assert (exists om, srun f o0 setup = Some om /\ srun f om use = Some o) as [om [H1 H2]].
  { clear A FS FU Z TD. revert o0 H. induction setup as [|x l IH]; intros o0 H; cbn [app srun] in *; [exists o0; auto|]. destruct (sstep f o0 x) as [o2|]; [apply IH; exact H | discriminate]. }
  pose proof (setup_ok _ _ _ _ Z FS H1) as ZM. assert (memo_ok om) as OK by (intros k e l X; rewrite ZM in X; discriminate).
  assert (memo_ok o) as OK2. { clear H1 H A ZM TD. revert om OK H2. induction use as [|x l IH]; intros om OK H2; cbn [srun] in H2; [inversion H2; subst; exact OK|]. inversion FU as [|? ? N F2]; subst. destruct (sstep f om x) as [o2|] eqn:E; [|discriminate]. apply (IH F2 o2); [apply (sstep_ok _ _ _ _ OK N E) | exact H2]. }
  destruct (ask_spec _ _ _ _ _ _ OK2 A) as [_ [_ [_ [P Q]]]]. split.
  - intros s. rewrite Q. apply takes_same. intros k. destruct (TD k) as [A1 A2]. cbn [told o_src o_subs]. rewrite A1, A2. auto.
  - destruct P as [t P]. exists t. rewrite P, (proj1 (TD b)). cbn [told o_src]. f_equal. clear - FU. revert FU. generalize (o_src (o0 b)). induction setup as [|x l IH]; intros l0 FU; cbn [app set_last].
    + induction use as [|x l IH]; [reflexivity|]. inversion FU as [|? ? N F]; subst. destruct x; cbn [set_last]; [apply IH; exact F | apply IH; exact F | destruct N].
    + destruct x; apply IH; exact FU.
Qed.
