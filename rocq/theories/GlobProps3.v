(* C63: the theorems *)
From Coq Require Import Ascii String List Bool Arith Lia Permutation Sorted.
Import ListNotations. Open Scope list_scope.
From Verif Require Import NameModel OptModel OptProps TgtModel TgtSpec TgtProps2 GlobModel GlobSpec GlobProps GlobProps2.

(* ---- patterns ---- *)
Lemma pattern_ne : forall top cwd w base l, pattern top cwd w base l -> l <> [].
Proof. intros top cwd w base l H. inversion H; discriminate. Qed.
Lemma lookup_root : forall top cwd, lookup_path top cwd [slash] = [].
Proof. reflexivity. Qed.
Lemma not_magic : forall w, ~ magic w -> has_magic w = false.
Proof. intros w H. destruct (has_magic w) eqn:E; [apply has_magic_spec in E; contradiction | reflexivity]. Qed.
Lemma magic_app : forall a b, magic a -> magic (a ++ b).
Proof. intros a b [H|[H|H]]; unfold magic; rewrite !in_app_iff; auto. Qed.
Lemma magic_app_r : forall a b, magic b -> magic (a ++ b).
Proof. intros a b [H|[H|H]]; unfold magic; rewrite !in_app_iff; auto. Qed.
Lemma magic_cons : forall a b, magic b -> magic (a :: b).
Proof. intros a b [H|[H|H]]; unfold magic; cbn [In]; auto. Qed.
Lemma joined_magic : forall c l, magic c -> magic (joined (c :: l)).
Proof. intros c l H. destruct l as [|x l]; [exact H|]. change (joined (c :: x :: l)) with (c ++ slash :: joined (x :: l)). apply magic_app. exact H. Qed.
Lemma pattern_one : forall top cwd w base c, pattern top cwd w base [c] -> component c /\
  ((split_path w = ([], c) /\ base = cwd /\ ~ In slash w) \/ (exists h, h <> [] /\ split_path w = (h, c) /\ has_magic h = false /\ lookup_path top cwd h = base /\ In slash w)).
Proof.
  intros top cwd w base c H. inversion H as [c' C|c' l C F M E1 E2|fixed base' c' l F1 F2 F3 F4 C F5 F6|c' l C F5 F6]; subst.
  - split; [exact C|]. left. split; [apply split_name, C | split; [reflexivity | apply C]].
  - split; [exact C|]. left. cbn [joined]. split; [apply split_name, C | split; [reflexivity | apply C]].
  - split; [exact C|]. right. exists fixed. split; [exact F1|]. cbn [joined]. split; [apply split_below; [exact F1 | exact F2 | apply C]|]. split; [apply not_magic; exact F3|].
    split; [eapply C62_means_one; [apply lookup_means | exact F4] | apply in_or_app; right; left; reflexivity].
  - split; [exact C|]. right. exists [slash]. split; [discriminate|]. cbn [joined]. split; [apply split_root, C|]. split; [reflexivity|]. split; [reflexivity | left; reflexivity].
Qed.
Lemma pattern_more : forall top cwd w base l c, pattern top cwd w base (l ++ [c]) -> l <> [] ->
  component c /\ exists h, h <> [] /\ split_path w = (h, c) /\ has_magic h = true /\ pattern top cwd h base l /\ length h < length w /\ In slash w.
Proof.
  intros top cwd w base l c H N. destruct l as [|x l]; [congruence|]. clear N. inversion H as [c' C E1 E2|c' l' C F M E1 E2|fixed base' c' l' F1 F2 F3 F4 C F5 F6 E1|c' l' C F5 F6 E1]; subst.
  - destruct l; discriminate.
  - apply Forall_app in F. destruct F as (G1 & G2). inversion G2 as [|y q G3 _]; subst. split; [exact G3|]. exists (joined (x :: l)). destruct (joined_end l x C G1) as (J1 & J2).
    rewrite app_comm_cons, joined_snoc. split; [exact J1|]. split; [apply split_below; [exact J1 | exact J2 | apply G3]|]. split; [apply has_magic_spec, joined_magic; exact M|]. split; [apply pat_levels; assumption|].
    split; [rewrite app_length; cbn [length]; lia | apply in_or_app; right; left; reflexivity].
  - apply Forall_app in F5. destruct F5 as (G1 & G2). inversion G2 as [|y q G3 _]; subst. split; [exact G3|]. exists (fixed ++ slash :: joined (x :: l)). destruct (joined_end l x C G1) as (J1 & J2).
    assert (M : magic x) by (destruct F6 as [F6|F6]; [destruct l; discriminate | exact F6]).
    rewrite app_comm_cons, joined_snoc. replace (fixed ++ slash :: joined (x :: l) ++ slash :: c) with ((fixed ++ slash :: joined (x :: l)) ++ slash :: c) by (rewrite <- app_assoc; reflexivity).
    split; [intros X; apply app_eq_nil in X; destruct X; discriminate|]. split.
    { apply split_below; [intros X; apply app_eq_nil in X; destruct X; discriminate | | apply G3]. intros w X. destruct (joined (x :: l)) as [|z j _] using rev_ind; [congruence|]. rewrite app_comm_cons, app_assoc in X. apply app_inj_tail in X. destruct X as (_ & ->). apply (J2 j). reflexivity. }
    split; [apply has_magic_spec, magic_app_r, magic_cons, joined_magic; exact M|]. split; [apply pat_below; auto|]. split; [rewrite !app_length; cbn [length]; rewrite ?app_length; cbn [length]; lia | apply in_or_app; right; left; reflexivity].
  - apply Forall_app in F5. destruct F5 as (G1 & G2). inversion G2 as [|y q G3 _]; subst. split; [exact G3|]. exists (slash :: joined (x :: l)). destruct (joined_end l x C G1) as (J1 & J2).
    assert (M : magic x) by (destruct F6 as [F6|F6]; [destruct l; discriminate | exact F6]).
    rewrite app_comm_cons, joined_snoc. split; [discriminate|]. split.
    { rewrite app_comm_cons. apply split_below; [discriminate | | apply G3]. intros w X. destruct (joined (x :: l)) as [|z j _] using rev_ind; [congruence|]. rewrite app_comm_cons in X. apply app_inj_tail in X. destruct X as (_ & ->). apply (J2 j). reflexivity. }
    split; [apply has_magic_spec, magic_cons, joined_magic; exact M|]. split; [apply pat_root; auto|]. split; [cbn [length]; rewrite app_length; cbn [length]; lia | left; reflexivity].
Qed.
Lemma as_string_name : forall show w d n t, ~ In slash w -> (as_string show w d n t <-> t = n).
Proof. intros show w d n t H. split; [intros K; inversion K; subst; [reflexivity | contradiction | contradiction | contradiction] | intros ->; apply as_name; exact H]. Qed.
Lemma as_string_join : forall show w d n t, In slash w -> (as_string show w d n t <-> t = join_path (show d) n).
Proof.
  intros show w d n t H. unfold join_path. destruct (show d) as [|x u _] eqn:E using rev_ind.
  - cbn. split; [intros K; inversion K as [N|N E1|u N E1|N E1 E2]; subst; [contradiction | reflexivity | rewrite E in E1; destruct u; discriminate | congruence] | intros ->; apply as_empty; assumption].
  - rewrite rev_app_distr. cbn [rev app]. destruct (ch "/" x) eqn:C.
    + apply ch_eq in C. subst x. rewrite <- app_assoc. cbn [app]. split.
      * intros K; inversion K as [N|N E1|u' N E1|N E1 E2]; subst; [contradiction | rewrite E in E1; destruct u; discriminate | rewrite E in E1; apply app_inj_tail in E1; destruct E1 as (-> & _); reflexivity | exfalso; apply (E2 u); exact E].
      * intros ->. apply as_slash; assumption.
    + apply ch_neq in C. split.
      * intros K; inversion K as [N|N E1|u' N E1|N E1 E2]; subst; [contradiction | rewrite E in E1; destruct u; discriminate | rewrite E in E1; apply app_inj_tail in E1; destruct E1 as (_ & X); unfold slash in X; congruence | rewrite E; reflexivity].
      * intros ->. rewrite <- E. apply as_below; [exact H | rewrite E; intros X; apply app_eq_nil in X; destruct X; discriminate|]. intros v X. rewrite E in X. apply app_inj_tail in X. destruct X as (_ & X). unfold slash in X. congruence.
Qed.

Section All.
Variable isfile isdir src_isdir : path -> bool.
Variable listing : path -> option (list word).
Variable search : path -> list path.
Variables top cwd : path.
Variable show : path -> word.
Variable set_order : list word -> list word.
Variable ondisk : bool.
Variable st0 : nodes.
Notation is_dir := (is_dir isfile isdir src_isdir st0).
Notation there := (there listing search ondisk st0).
Notation found := (found isfile isdir src_isdir listing search ondisk st0).
Notation found_string := (found_string show isfile isdir src_isdir listing search ondisk st0).
Notation Inv := (Inv isfile isdir src_isdir listing search ondisk st0).
Notation glob_dirs := (glob_dirs isfile isdir src_isdir listing search top show set_order).
Notation glob_gen := (glob_gen isfile isdir src_isdir listing search top show set_order).
Notation pattern := (pattern top cwd).
Hypothesis SE : searching search.
Hypothesis DN : disk_names listing.
Hypothesis AG : agree isfile isdir src_isdir listing search st0.
Hypothesis SO : some_order set_order.

Lemma found_snoc : forall ex base l c p, found ex base (l ++ [c]) p <-> exists d n, p = d ++ [n] /\ found ex base l d /\ is_dir d /\ there d n /\ shown c n /\ ~ ex (d ++ [n]).
Proof.
  intros ex base l c p. split.
  - intros H. inversion H as [E1 E2|l' c' d n H1 H2 H3 H4 H5 E1 E2]; [symmetry in E1; apply app_eq_nil in E1; destruct E1; discriminate|]. apply app_inj_tail in E1. destruct E1 as (-> & ->). exists d, n. auto 10.
  - intros (d & n & -> & H1 & H2 & H3 & H4 & H5). apply found_level; assumption.
Qed.
Lemma glob_dirs_ok : forall pat source strings ds st, Inv st -> NoDup ds -> (forall d, In d ds -> opened st d \/ exists c, In (d, c) st) -> pat <> [] ->
  exists res st', glob_dirs st (map RNode ds) pat ondisk source strings = Some (res, st') /\ Inv st' /\ grew st st' /\
    (strings = false -> NoDup res /\ (forall r, In r res <-> exists d n, In d ds /\ r = RNode (d ++ [n]) /\ is_dir d /\ there d n /\ shown pat n) /\ forall p, In (RNode p) res -> exists c, In (p, c) st') /\
    (strings = true -> forall r, In r res <-> exists d n, In d ds /\ r = RStr (join_path (show d) n) /\ is_dir d /\ there d n /\ shown pat n).
Proof.
  intros pat source strings ds. induction ds as [|d ds IH]; intros st IN ND KN P.
  - exists [], st. split; [reflexivity|]. split; [exact IN|]. split; [apply grew_refl|]. split.
    + intros _. split; [constructor|]. split; [|intros p []]. intros r. split; [intros [] | intros (d & n & [] & _)].
    + intros _ r. split; [intros [] | intros (d & n & [] & _)].
  - cbn [map GlobModel.glob_dirs]. destruct (glob1_ok isfile isdir src_isdir listing search top show set_order ondisk st0 SE DN AG SO st d pat source strings IN (KN d (or_introl eq_refl)) P) as (ns & st1 & A1 & A2 & A3 & A4 & A5 & A6).
    rewrite A1. inversion ND as [|d' ds' N1 N2]; subst. destruct (IH st1 A2 N2) as (res & st2 & B1 & B2 & B3 & B4 & B5); [|exact P|].
    { intros e He. destruct (KN e (or_intror He)) as [K|(c & K)]; [left; eapply opened_grew; eassumption | right; destruct (A3 _ _ K) as (c' & K' & _); eauto]. }
    rewrite B1. eexists _, st2. split; [reflexivity|]. split; [exact B2|]. split; [eapply grew_trans; eassumption|]. split.
    + intros F. rewrite F in *. destruct (B4 eq_refl) as (C1 & C2 & C3). clear B4 B5. split; [|split].
      * apply (Permutation_NoDup (l := res ++ map (fun n => RNode (d ++ [n])) ns)); [apply Permutation_app_comm|]. clear - C1 C2 A4 N1. induction res as [|r res IHr]; cbn [app].
        -- clear - A4. induction A4 as [|n ns H A4 IHn]; cbn [map]; constructor; [|exact IHn]. intros X. apply in_map_iff in X. destruct X as (m & E & X). injection E as E. apply app_inj_tail in E. destruct E as (_ & ->). contradiction.
        -- inversion C1 as [|r' res' D1 D2]; subst. assert (Z : forall ns', incl ns' ns -> ~ In r (map (fun n => RNode (d ++ [n])) ns')).
           { intros ns' _ X. apply in_map_iff in X. destruct X as (m & E & X). destruct (proj1 (C2 r) (or_introl eq_refl)) as (d2 & n2 & D3 & -> & _). injection E as E. apply app_inj_tail in E. destruct E as (-> & _). contradiction. }
           apply NoDup_cons; [intros X; apply in_app_or in X; destruct X as [X|X]; [contradiction | apply (Z ns (incl_refl _) X)]|].
           assert (W : forall l, NoDup l -> (forall r, In r l -> exists d2 n2, In d2 ds /\ r = RNode (d2 ++ [n2])) -> NoDup (l ++ map (fun n => RNode (d ++ [n])) ns)).
           { clear - A4 N1. intros l L1 L2. induction l as [|r l IHl]; cbn [app].
             - induction A4 as [|n ns H A4 IHn]; cbn [map]; constructor; [|exact IHn]. intros X. apply in_map_iff in X. destruct X as (m & E & X). injection E as E. apply app_inj_tail in E. destruct E as (_ & ->). contradiction.
             - inversion L1 as [|r' l' L3 L4]; subst. constructor; [|apply IHl; [exact L4 | intros q Hq; apply L2; right; exact Hq]]. intros X. apply in_app_or in X. destruct X as [X|X]; [contradiction|]. apply in_map_iff in X. destruct X as (m & E & X).
               destruct (L2 r (or_introl eq_refl)) as (d2 & n2 & M1 & ->). injection E as E. apply app_inj_tail in E. destruct E as (-> & _). contradiction. }
           apply W; [exact D2|]. intros q Hq. destruct (proj1 (C2 q) (or_intror Hq)) as (d2 & n2 & M1 & M2 & _). eauto.
      * intros r. rewrite in_app_iff, in_map_iff, C2. split.
        -- intros [(n & <- & H)|(e & n & H1 & H2)]; [exists d, n; apply A5 in H; split; [left; reflexivity|]; split; [reflexivity | exact H] | exists e, n; split; [right; exact H1 | exact H2]].
        -- intros (e & n & [<-|H1] & H2 & H3); [left; exists n; split; [symmetry; exact H2 | apply A5; exact H3] | right; exists e, n; auto].
      * intros p H. apply in_app_or in H. destruct H as [H|H]; [|apply C3; exact H]. apply in_map_iff in H. destruct H as (n & E & H). injection E as <-. destruct (A6 eq_refl n H) as (c & K). destruct (B3 _ _ K) as (c' & K' & _). eauto.
    + intros F. rewrite F in *. intros r. rewrite map_map, in_app_iff, in_map_iff, (B5 eq_refl). cbn [GlobModel.str]. split.
      * intros [(n & <- & H)|(e & n & H1 & H2)]; [exists d, n; apply A5 in H; split; [left; reflexivity|]; split; [reflexivity | exact H] | exists e, n; split; [right; exact H1 | exact H2]].
      * intros (e & n & [<-|H1] & H2 & H3); [left; exists n; split; [symmetry; exact H2 | apply A5; exact H3] | right; exists e, n; auto].
Qed.
Definition ex_ok (ex : option (nodes -> bool -> option (list res * nodes))) (En : path -> Prop) (Es : word -> Prop) : Prop :=
  match ex with
  | None => (forall p, ~ En p) /\ (forall t, ~ Es t)
  | Some e => forall st strings, Inv st -> grew st0 st -> exists l st', e st strings = Some (l, st') /\ Inv st' /\ grew st st' /\
                (strings = false -> forall p, (exists y, In y l /\ fits (str show y) (show p)) <-> En p) /\ (strings = true -> forall t, (exists y, In y l /\ fits (str show y) t) <-> Es t)
  end.
Lemma nodes_list : forall res, (forall r, In r res -> exists p, r = RNode p) -> exists ds, res = map RNode ds.
Proof.
  intros res. induction res as [|r res IH]; intros H; [exists []; reflexivity|]. destruct (H r (or_introl eq_refl)) as (p & ->). destruct (IH (fun q Hq => H q (or_intror Hq))) as (ds & ->). exists (p :: ds). reflexivity.
Qed.
(* after the search: excluding and sorting *)
Lemma finish_ok : forall ex En Es strings l st, ex_ok ex En Es -> Inv st -> grew st0 st ->
  (strings = false -> NoDup l /\ (forall r, In r l -> exists p c, r = RNode p /\ In (p, c) st)) -> (strings = true -> forall r, In r l -> exists t, r = RStr t) ->
  exists res st', match ex with None => Some (sort_by (str show) l, st) | Some e => match e st strings with None => None | Some (excludes, st) => Some (sort_by (str show) (filter (fun x => negb (existsb (fun y => fnmatch (str show x) (str show y)) excludes)) l), st) end end
    = Some (res, st') /\ Inv st' /\ grew st st' /\ StronglySorted (by_key (str show)) res /\
    (strings = false -> NoDup res /\ (forall p, In (RNode p) res <-> In (RNode p) l /\ ~ En p) /\ forall r, In r res -> exists p c, r = RNode p /\ In (p, c) st') /\
    (strings = true -> (forall t, In (RStr t) res <-> In (RStr t) l /\ ~ Es t) /\ forall r, In r res -> exists t, r = RStr t).
Proof.
  intros ex En Es strings l st EX IN G HN HS.
  assert (Pm : forall q : list res, Permutation (sort_by (str show) q) q) by (intros q; apply sort_perm).
  assert (Pi : forall (q : list res) r, In r (sort_by (str show) q) <-> In r q) by (intros q r; split; apply Permutation_in; [apply Pm | apply Permutation_sym, Pm]).
  destruct ex as [e|]; cbn [ex_ok] in EX.
  - destruct (EX st strings IN G) as (xs & st' & E1 & E2 & E3 & E4 & E5). rewrite E1. eexists _, st'. split; [reflexivity|]. split; [exact E2|]. split; [exact E3|]. split; [apply sort_sorted|].
    assert (FI : forall r, negb (existsb (fun y => fnmatch (str show r) (str show y)) xs) = true <-> ~ exists y, In y xs /\ fits (str show y) (str show r)).
    { intros r. rewrite negb_true_iff, <- not_true_iff_false, existsb_exists. split; intros H (y & H1 & H2); apply H; exists y; (split; [exact H1|]); [apply C63e_fnmatch; exact H2 | apply C63e_fnmatch in H2; exact H2]. }
    split.
    + intros F. destruct (HN F) as (N1 & N2). split; [eapply Permutation_NoDup; [apply Permutation_sym, Pm | apply NoDup_filter; exact N1]|]. split.
      * intros p. rewrite Pi, filter_In, FI. cbn [str]. rewrite (E4 F p). reflexivity.
      * intros r H. rewrite Pi, filter_In in H. destruct H as (H & _). destruct (N2 r H) as (p & c & -> & K). destruct (E3 _ _ K) as (c' & K' & _). eauto.
    + intros F. split; [intros t; rewrite Pi, filter_In, FI; cbn [str]; rewrite (E5 F t); reflexivity|]. intros r H. rewrite Pi, filter_In in H. apply (HS F). apply H.
  - destruct EX as (X1 & X2). eexists _, st. split; [reflexivity|]. split; [exact IN|]. split; [apply grew_refl|]. split; [apply sort_sorted|]. split.
    + intros F. destruct (HN F) as (N1 & N2). split; [eapply Permutation_NoDup; [apply Permutation_sym, Pm | exact N1]|]. split; [intros p; rewrite Pi; split; [intros H; split; [exact H | apply X1] | intros (H & _); exact H]|]. intros r H. rewrite Pi in H. apply N2. exact H.
    + intros F. split; [intros t; rewrite Pi; split; [intros H; split; [exact H | apply X2] | intros (H & _); exact H]|]. intros r H. rewrite Pi in H. apply (HS F). exact H.
Qed.
Definition ok_result (En : path -> Prop) (Es : word -> Prop) (w : word) (base : path) (comps : list word) (strings : bool) (st : nodes) (r : option (list res * nodes)) : Prop :=
  exists res st', r = Some (res, st') /\ Inv st' /\ grew st st' /\ StronglySorted (by_key (str show)) res /\
    (strings = false -> NoDup res /\ (forall r, In r res <-> exists p, r = RNode p /\ found En base comps p) /\ forall p, In (RNode p) res -> exists c, In (p, c) st') /\
    (strings = true -> forall r, In r res <-> exists t, r = RStr t /\ found_string En w base comps t /\ ~ Es t).
Lemma gen_ok : forall ex En Es, ex_ok ex En Es -> forall comps w base, pattern w base comps -> opened st0 base -> forall fuel st source strings, length w < fuel -> Inv st -> grew st0 st ->
  ok_result En Es w base comps strings st (glob_gen ex fuel st cwd w ondisk source strings).
Proof.
  intros ex En Es EX comps. induction comps as [|c comps IH] using rev_ind; intros w base PA OP fuel st source strings L IN G; [exfalso; eapply pattern_ne; eauto|].
  destruct fuel as [|f]; [lia|]. cbn [GlobModel.glob_gen].
  (* the search *)
  assert (MAIN : exists l st1, (let '(dirname, basename) := split_path w in
      match dirname with
      | [] => GlobModel.glob1 isfile isdir src_isdir listing search top set_order st cwd basename ondisk source strings
      | _ => match (if has_magic dirname then glob_gen ex f st cwd dirname ondisk source false
                    else match make isfile isdir st (rev (lookup_path top cwd dirname)) CDir with Some st => Some ([RNode (lookup_path top cwd dirname)], st) | None => None end) with
             | None => None
             | Some (dirs, st) => glob_dirs st dirs basename ondisk source strings
             end
      end) = Some (l, st1) /\ Inv st1 /\ grew st st1 /\
      (strings = false -> NoDup l /\ (forall r, In r l <-> exists d n, found En base comps d /\ r = RNode (d ++ [n]) /\ is_dir d /\ there d n /\ shown c n) /\ forall p, In (RNode p) l -> exists k, In (p, k) st1) /\
      (strings = true -> forall r, In r l <-> exists d n t, found En base comps d /\ r = RStr t /\ is_dir d /\ there d n /\ shown c n /\ as_string show w d n t)).
  { destruct comps as [|c0 comps].
    - destruct (pattern_one _ _ _ _ _ PA) as ((C1 & C2) & [(E1 & E2 & E3)|(h & H1 & E1 & E2 & E3 & E4)]); rewrite E1.
      + subst base. destruct (glob1_ok isfile isdir src_isdir listing search top show set_order ondisk st0 SE DN AG SO st cwd c source strings IN (or_introl (opened_grew _ _ _ G OP)) C1) as (ns & st1 & A1 & A2 & A3 & A4 & A5 & A6).
        rewrite A1. eexists _, st1. split; [reflexivity|]. split; [exact A2|]. split; [exact A3|]. split; intros F; rewrite F in *.
        * split; [|split].
          -- clear - A4. induction A4 as [|n ns H A4 IHn]; cbn [map]; constructor; [|exact IHn]. intros X. apply in_map_iff in X. destruct X as (m & E & X). injection E as E. apply app_inj_tail in E. destruct E as (_ & ->). contradiction.
          -- intros r. rewrite in_map_iff. split; [intros (n & <- & H); apply A5 in H; exists cwd, n; split; [constructor|]; auto|]. intros (d & n & H1 & -> & H2). inversion H1 as [X1 X2|l' c' d' n' K1 K2 K3 K4 K5 X1 X2]; [subst d | destruct l'; discriminate]. exists n. split; [reflexivity | apply A5; exact H2].
          -- intros p H. apply in_map_iff in H. destruct H as (n & E & H). injection E as <-. apply A6; auto.
        * intros r. rewrite in_map_iff. split; [intros (n & <- & H); apply A5 in H; exists cwd, n, n; split; [constructor|]; split; [reflexivity|]; destruct H as (K1 & K2 & K3); split; [exact K1|]; split; [exact K2|]; split; [exact K3 | apply as_string_name; auto]|].
          intros (d & n & t & H1 & -> & K1 & K2 & K3 & K4). inversion H1 as [X1 X2|l' c' d' n' Z1 Z2 Z3 Z4 Z5 X1 X2]; [subst d | destruct l'; discriminate]. apply as_string_name in K4; [|exact E3]. subst t. exists n. split; [reflexivity | apply A5; auto].
      + assert (O1 : opened st base) by (eapply opened_grew; eassumption). destruct h as [|h0 h]; [congruence|]. rewrite E2. set (hh := h0 :: h) in *. rewrite E3.
        assert (M : make isfile isdir st (rev base) CDir = Some st) by (destruct (rev base) eqn:R; cbn [make]; rewrite <- R, rev_involutive, (opened_cls isfile isdir src_isdir listing search ondisk st0 st base IN O1); reflexivity). rewrite M.
        destruct (glob_dirs_ok c source strings [base] st IN) as (res & st1 & A1 & A2 & A3 & A4 & A5); [constructor; [intros [] | constructor] | intros d [<-|[]]; left; exact O1 | exact C1|]. cbn [map] in A1. rewrite A1.
        exists res, st1. split; [reflexivity|]. split; [exact A2|]. split; [exact A3|]. split; intros F.
        * destruct (A4 F) as (B1 & B2 & B3). split; [exact B1|]. split; [|exact B3]. intros r. rewrite B2. split; intros (d & n & K1 & K2); exists d, n; (split; [|exact K2]); [destruct K1 as [<-|[]]; constructor | inversion K1 as [X1 X2|l' c' d' n' Z1 Z2 Z3 Z4 Z5 X1 X2]; [left; reflexivity | destruct l'; discriminate]].
        * intros r. rewrite (A5 F). split.
          -- intros (d & n & [<-|[]] & -> & K1 & K2 & K3). eexists base, n, _. split; [constructor|]. split; [reflexivity|]. split; [exact K1|]. split; [exact K2|]. split; [exact K3|]. apply as_string_join; auto.
          -- intros (d & n & t & H2 & -> & K1 & K2 & K3 & K4). inversion H2 as [X1 X2|l' c' d' n' Z1 Z2 Z3 Z4 Z5 X1 X2]; [subst d | destruct l'; discriminate]. apply as_string_join in K4; [|exact E4]. subst t. exists base, n. split; [left; reflexivity | auto].
    - destruct (pattern_more _ _ _ _ _ _ PA ltac:(discriminate)) as ((C1 & C2) & h & H1 & E1 & E2 & E3 & E4 & E5). rewrite E1. destruct h as [|h0 h]; [congruence|]. rewrite E2.
      destruct (IH (h0 :: h) base E3 OP f st source false ltac:(lia) IN G) as (res & st1 & A1 & A2 & A3 & _ & A4 & _). rewrite A1. destruct (A4 eq_refl) as (B1 & B2 & B3). clear A4.
      destruct (nodes_list res) as (ds & Eds); [intros r Hr; apply B2 in Hr; destruct Hr as (p & -> & _); eauto|]. rewrite Eds in *. clear res Eds.
      assert (NDs : NoDup ds) by (apply (NoDup_map_inv RNode); exact B1). assert (Kd : forall d, In d ds <-> found En base (c0 :: comps) d).
      { intros d. split; [intros H; assert (X : In (RNode d) (map RNode ds)) by (apply in_map; exact H); apply B2 in X; destruct X as (p & E & X); injection E as ->; exact X|].
        intros H. assert (X : In (RNode d) (map RNode ds)) by (apply B2; eauto). apply in_map_iff in X. destruct X as (p & E & X). injection E as ->. exact X. }
      destruct (glob_dirs_ok c source strings ds st1 A2 NDs) as (res & st2 & D1 & D2 & D3 & D4 & D5); [intros d Hd; right; apply B3; apply in_map; exact Hd | exact C1|]. rewrite D1.
      exists res, st2. split; [reflexivity|]. split; [exact D2|]. split; [eapply grew_trans; eassumption|]. split; intros F.
      + destruct (D4 F) as (F1 & F2 & F3). split; [exact F1|]. split; [|exact F3]. intros r. rewrite F2. split; intros (d & n & K1 & K2); exists d, n; (split; [apply Kd; exact K1 | exact K2]).
      + intros r. rewrite (D5 F). split.
        * intros (d & n & K0 & -> & K1 & K2 & K3). eexists d, n, _. split; [apply Kd; exact K0|]. split; [reflexivity|]. split; [exact K1|]. split; [exact K2|]. split; [exact K3|]. apply as_string_join; auto.
        * intros (d & n & t & H2 & -> & K1 & K2 & K3 & K4). apply as_string_join in K4; [|exact E5]. subst t. exists d, n. split; [apply Kd; exact H2 | auto]. }
  destruct MAIN as (l & st1 & M1 & M2 & M3 & M4 & M5). destruct (split_path w) as [dirname basename]. rewrite M1. clear M1.
  destruct (finish_ok ex En Es strings l st1 EX M2 (grew_trans _ _ _ G M3)) as (res & st2 & F1 & F2 & F3 & F4 & F5 & F6).
  - intros F. destruct (M4 F) as (N1 & N2 & N3). split; [exact N1|]. intros r Hr. assert (X := proj1 (N2 r) Hr). destruct X as (d & n & _ & -> & _). destruct (N3 _ Hr) as (k & K). eauto.
  - intros F r Hr. apply (M5 F) in Hr. destruct Hr as (d & n & t & _ & -> & _). eauto.
  - exists res, st2. split; [exact F1|]. split; [exact F2|]. split; [eapply grew_trans; eassumption|]. split; [exact F4|]. split.
    + intros F. destruct (M4 F) as (N1 & N2 & N3). destruct (F5 F) as (G1 & G2 & G3). split; [exact G1|]. split.
      * intros r. split.
        -- intros Hr. destruct (G3 r Hr) as (p & k & -> & _). exists p. split; [reflexivity|]. apply G2 in Hr. destruct Hr as (Hr & NE). apply N2 in Hr. destruct Hr as (d & n & K0 & E & K1). injection E as ->. apply found_snoc. exists d, n. intuition.
        -- intros (p & -> & K). apply found_snoc in K. destruct K as (d & n & -> & K0 & K1 & K2 & K3 & K4). apply G2. split; [|exact K4]. apply N2. exists d, n. auto 10.
      * intros p Hp. destruct (G3 _ Hp) as (p' & k & E & K). injection E as ->. eauto.
    + intros F r. destruct (F6 F) as (G1 & G2). split.
      * intros Hr. destruct (G2 r Hr) as (t & ->). exists t. split; [reflexivity|]. apply G1 in Hr. destruct Hr as (Hr & NE). split; [|exact NE]. apply (M5 F) in Hr. destruct Hr as (d & n & t' & K0 & E & K1 & K2 & K3 & K4). injection E as <-. exists comps, c, d, n. auto 10.
      * intros (t & -> & (l' & c' & d & n & E & K0 & K1 & K2 & K3 & K4) & NE). apply app_inj_tail in E. destruct E as (<- & <-). apply G1. split; [|exact NE]. apply (M5 F). exists d, n, t. auto 10.
Qed.
(* the excluded *)
Lemma pattern_det : forall l1 w b1 b2 l2, pattern w b1 l1 -> pattern w b2 l2 -> b1 = b2 /\ l1 = l2.
Proof.
  intros l1. induction l1 as [|c1 l1 IH] using rev_ind; intros w b1 b2 l2 P1 P2; [exfalso; apply (pattern_ne _ _ _ _ _ P1); reflexivity|].
  destruct l2 as [|c2 l2 _] using rev_ind; [exfalso; apply (pattern_ne _ _ _ _ _ P2); reflexivity|].
  destruct l1 as [|x1 l1]; destruct l2 as [|x2 l2].
  - destruct (pattern_one _ _ _ _ _ P1) as (_ & [(E1 & E2 & _)|(h & H1 & E1 & _ & E2 & _)]); destruct (pattern_one _ _ _ _ _ P2) as (_ & [(F1 & F2 & _)|(k & K1 & F1 & _ & F2 & _)]); rewrite E1 in F1; inversion F1; subst; try congruence; split; congruence.
  - destruct (pattern_one _ _ _ _ _ P1) as (_ & [(E1 & E2 & _)|(h & H1 & E1 & E2 & _)]); destruct (pattern_more _ _ _ _ _ _ P2 ltac:(discriminate)) as (_ & k & K1 & F1 & F2 & _); rewrite E1 in F1; injection F1 as F1 _; congruence.
  - destruct (pattern_one _ _ _ _ _ P2) as (_ & [(E1 & E2 & _)|(h & H1 & E1 & E2 & _)]); destruct (pattern_more _ _ _ _ _ _ P1 ltac:(discriminate)) as (_ & k & K1 & F1 & F2 & _); rewrite E1 in F1; injection F1 as F1 _; congruence.
  - destruct (pattern_more _ _ _ _ _ _ P1 ltac:(discriminate)) as (_ & h & H1 & E1 & _ & Q1 & _). destruct (pattern_more _ _ _ _ _ _ P2 ltac:(discriminate)) as (_ & k & K1 & F1 & _ & Q2 & _).
    rewrite E1 in F1. injection F1 as <- <-. destruct (IH h b1 b2 (x2 :: l2) Q1 Q2) as (-> & ->). auto.
Qed.
Notation excluded_node := (excluded_node show isfile isdir src_isdir listing search ondisk st0 top cwd).
Notation excluded_string := (excluded_string show isfile isdir src_isdir listing search ondisk st0 top cwd).
Notation all_excluded := (all_excluded isfile isdir src_isdir listing search top show set_order).
Notation glob := (glob isfile isdir src_isdir listing search top show set_order).
Lemma plain_ex_ok : ex_ok None none_excluded (fun _ => False).
Proof. split; intros x []. Qed.
Lemma excluded_ok : forall source exclude, Forall (ready top cwd st0) exclude -> ex_ok (Some (all_excluded cwd ondisk source exclude)) (excluded_node exclude) (excluded_string exclude).
Proof.
  intros source exclude R. cbn [ex_ok]. induction R as [|x exclude (base & l & PA & OP) R IH]; intros st strings IN G; cbn [GlobModel.all_excluded].
  - exists [], st. split; [reflexivity|]. split; [exact IN|]. split; [apply grew_refl|]. split; intros _ t; (split; [intros (y & [] & _) | intros (x & base & l & e & [] & _)]).
  - unfold glob_plain. destruct (gen_ok None none_excluded (fun _ => False) plain_ex_ok l x base PA OP (S (length x)) st source strings ltac:(lia) IN G) as (res & st1 & A1 & A2 & A3 & _ & A4 & A5). rewrite A1.
    destruct (IH st1 strings A2 (grew_trans _ _ _ G A3)) as (more & st2 & B1 & B2 & B3 & B4 & B5). rewrite B1. eexists _, st2. split; [reflexivity|]. split; [exact B2|]. split; [eapply grew_trans; eassumption|]. split.
    + intros F p. destruct (A4 F) as (_ & A6 & _). split.
      * intros (y & H & K). apply in_app_or in H. destruct H as [H|H].
        -- apply A6 in H. destruct H as (e & -> & H). exists x, base, l, e. split; [left; reflexivity | auto].
        -- destruct (proj1 (B4 F p)) as (x' & b' & l' & e' & X1 & X2); [eauto|]. exists x', b', l', e'. split; [right; exact X1 | exact X2].
      * intros (x' & b' & l' & e' & [<-|X1] & X2 & X3 & X4).
        -- destruct (pattern_det _ _ _ _ _ X2 PA) as (-> & ->). exists (RNode e'). split; [apply in_or_app; left; apply A6; eauto | exact X4].
        -- destruct (proj2 (B4 F p)) as (y & Y1 & Y2); [exists x', b', l', e'; auto|]. exists y. split; [apply in_or_app; right; exact Y1 | exact Y2].
    + intros F t. assert (A6 := A5 F). split.
      * intros (y & H & K). apply in_app_or in H. destruct H as [H|H].
        -- apply A6 in H. destruct H as (e & -> & H & _). exists x, base, l, e. split; [left; reflexivity | auto].
        -- destruct (proj1 (B5 F t)) as (x' & b' & l' & e' & X1 & X2); [eauto|]. exists x', b', l', e'. split; [right; exact X1 | exact X2].
      * intros (x' & b' & l' & e' & [<-|X1] & X2 & X3 & X4).
        -- destruct (pattern_det _ _ _ _ _ X2 PA) as (-> & ->). exists (RStr e'). split; [apply in_or_app; left; apply A6; eauto | exact X4].
        -- destruct (proj2 (B5 F t)) as (y & Y1 & Y2); [exists x', b', l', e'; auto|]. exists y. split; [apply in_or_app; right; exact Y1 | exact Y2].
Qed.
Lemma glob_ok : forall w base comps source strings exclude st, tree st0 -> pattern w base comps -> opened st0 base -> Forall (ready top cwd st0) exclude -> Inv st -> grew st0 st ->
  ok_result (excluded_node exclude) (excluded_string exclude) w base comps strings st (glob st cwd w ondisk source strings exclude).
Proof.
  intros w base comps source strings exclude st T PA OP R IN G. unfold GlobModel.glob. apply gen_ok; [|exact PA | exact OP | lia | exact IN | exact G].
  destruct exclude as [|x exclude]; [|apply excluded_ok; exact R]. split; [intros p (x & b & l & e & [] & _) | intros t (x & b & l & e & [] & _)].
Qed.
End All.
