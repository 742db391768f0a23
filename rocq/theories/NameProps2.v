(* Names of targets: prefixes and suffixes. *)
From Coq Require Import Ascii String List Bool Arith Lia.
Import ListNotations.
From Verif Require Import NameModel NameProps.
Open Scope list_scope.

(* ---------- specification ---------- *)
(* walking a path from the directory cwd (the innermost component first) *)
Definition walk_step (cwd : list str) (comp : str) : list str :=
  if str_dec comp [] then cwd else if str_dec comp (lit ".") then cwd else if str_dec comp (lit "..") then tl cwd else comp :: cwd.
Definition start (cwd : list str) (path : str) : list str := match path with c :: _ => if ascii_dec c SLASH then [] else cwd | [] => cwd end.
Definition walk (cwd : list str) (path : str) : list str := fold_left walk_step (split_on SLASH path) (start cwd path).
(* path names a file called w, in some directory *)
Definition good (w : str) : Prop := w <> [] /\ w <> lit "." /\ w <> lit ".." /\ ~ In SLASH w.
Definition file_called (path w : str) : Prop := good w /\ (path = w \/ exists q, path = q ++ SLASH :: w).

(* ---------- walking ---------- *)
Lemma split_on_app : forall a b, split_on SLASH (a ++ SLASH :: b) = split_on SLASH a ++ split_on SLASH b.
Proof.
  induction a as [|x a IH]; intros b.
  - cbn [app split_on]. rewrite Ascii.eqb_refl. reflexivity.
  - cbn [app split_on]. rewrite IH. destruct (Ascii.eqb x SLASH); [reflexivity|]. destruct (split_on SLASH a) as [|w l] eqn:Z; [|reflexivity].
    exfalso. destruct a as [|y a]; cbn [split_on] in Z; [discriminate|]. destruct (Ascii.eqb y SLASH); [discriminate|]. destruct (split_on SLASH a); discriminate.
Qed.
Lemma split_on_free : forall w, ~ In SLASH w -> split_on SLASH w = [w].
Proof.
  induction w as [|x w IH]; intros NI; [reflexivity|]. cbn [split_on]. destruct (Ascii.eqb_spec x SLASH) as [-> | NE]; [exfalso; apply NI; left; reflexivity|].
  rewrite IH by (intros IN; apply NI; right; exact IN). reflexivity.
Qed.
Lemma split_on_elems : forall p w, In w (split_on SLASH p) -> ~ In SLASH w.
Proof.
  induction p as [|x p IH]; intros w; cbn [split_on].
  - intros [<- | []] [].
  - destruct (Ascii.eqb_spec x SLASH) as [-> | NE].
    + intros [<- | IN]; [intros [] | apply IH; exact IN].
    + destruct (split_on SLASH p) as [|w0 l] eqn:Z.
      * intros [<- | []] [E | []]. congruence.
      * intros [<- | IN]; [|apply IH; right; exact IN]. intros [E | IN]; [congruence|]. apply (IH w0); [left; reflexivity | exact IN].
Qed.
Lemma split_join : forall l, (forall w, In w l -> ~ In SLASH w) -> l <> [] -> split_on SLASH (join_with SLASH l) = l.
Proof.
  induction l as [|w l IH]; intros FR NE; [congruence|]. destruct l as [|w2 l2].
  - cbn [join_with]. apply split_on_free. apply FR; left; reflexivity.
  - change (join_with SLASH (w :: w2 :: l2)) with (w ++ SLASH :: join_with SLASH (w2 :: l2)). rewrite split_on_app, split_on_free by (apply FR; left; reflexivity).
    rewrite IH; [reflexivity | intros x IN; apply FR; right; exact IN | discriminate].
Qed.
Definition ordinary (w : str) : Prop := w <> [] /\ w <> lit ".".
Lemma walk_noop : forall cwd w, ~ ordinary w -> walk_step cwd w = cwd.
Proof.
  intros cwd w N. unfold walk_step. destruct (str_dec w []); [reflexivity|]. destruct (str_dec w (lit ".")); [reflexivity|]. exfalso; apply N; split; assumption.
Qed.
Lemma walk_good : forall cwd w, good w -> walk_step cwd w = w :: cwd.
Proof.
  intros cwd w [N1 [N2 [N3 _]]]. unfold walk_step. destruct (str_dec w []); [congruence|]. destruct (str_dec w (lit ".")); [congruence|]. destruct (str_dec w (lit "..")); congruence.
Qed.
Lemma walk_dotdot : forall cwd, walk_step cwd (lit "..") = tl cwd.
Proof.
  intros cwd. unfold walk_step. destruct (str_dec (lit "..") []); [discriminate|]. destruct (str_dec (lit "..") (lit ".")); [discriminate|]. destruct (str_dec (lit "..") (lit "..")); congruence.
Qed.
(* the stack of norm_step walks where the components walk *)
Lemma norm_walk : forall abs l new base, (abs = true -> base = []) -> (forall w, In w new -> ordinary w) ->
  (forall w, In w (fold_left (norm_step abs) l new) -> ordinary w) /\
  fold_left walk_step (rev (fold_left (norm_step abs) l new)) base = fold_left walk_step l (fold_left walk_step (rev new) base).
Proof.
  intros abs. induction l as [|c l IH]; intros new base AB OR; [split; [exact OR | reflexivity]|]. cbn [fold_left].
  assert ((forall w, In w (norm_step abs new c) -> ordinary w) /\ fold_left walk_step (rev (norm_step abs new c)) base = walk_step (fold_left walk_step (rev new) base) c) as [O1 W1].
  { unfold norm_step. destruct (str_eqb c [] || str_eqb c (lit ".")) eqn:E1.
    - split; [exact OR|]. symmetry. apply walk_noop. intros [N1 N2]. apply orb_true_iff in E1. destruct E1 as [E | E]; apply str_eqb_spec in E; congruence.
    - apply orb_false_iff in E1. destruct E1 as [N1 N2]. apply str_eqb_neq in N1. apply str_eqb_neq in N2.
      destruct (str_eqb c (lit "..")) eqn:E2; cbn [negb orb].
      + apply str_eqb_spec in E2. destruct new as [|w r].
        * rewrite andb_true_r. destruct abs; cbn [negb orb].
          -- split; [intros w []|]. cbn [rev fold_left]. rewrite (AB eq_refl), E2. rewrite walk_dotdot. reflexivity.
          -- split; [intros w [<- | []]; split; assumption|]. reflexivity.
        * rewrite andb_false_r. cbn [orb]. destruct (str_eqb w (lit "..")) eqn:E3.
          -- split; [intros x [<- | IN]; [split; assumption | apply OR; exact IN]|]. cbn [rev]. rewrite fold_left_app. reflexivity.
          -- split; [intros x IN; apply OR; right; exact IN|]. cbn [rev]. rewrite fold_left_app. cbn [fold_left]. apply str_eqb_neq in E3.
             destruct (OR w (or_introl eq_refl)) as [W1 W2]. rewrite E2, walk_dotdot. unfold walk_step at 2.
             destruct (str_dec w []); [congruence|]. destruct (str_dec w (lit ".")); [congruence|]. destruct (str_dec w (lit "..")); [congruence|]. reflexivity.
      + split; [intros x [<- | IN]; [split; assumption | apply OR; exact IN]|]. cbn [rev]. rewrite fold_left_app. reflexivity. }
  destruct (IH (norm_step abs new c) base AB O1) as [O2 W2]. split; [exact O2|]. rewrite W2, W1. reflexivity.
Qed.
Lemma norm_from : forall abs l new w, In w (fold_left (norm_step abs) l new) -> In w new \/ In w l.
Proof.
  intros abs. induction l as [|c l IH]; intros new w H; cbn [fold_left] in H; [left; exact H|]. destruct (IH _ _ H) as [H1 | H1]; [|right; right; exact H1].
  revert H1. unfold norm_step. destruct (str_eqb c [] || str_eqb c (lit ".")); [auto|]. match goal with |- context [if ?b then _ else _] => destruct b end.
  - intros [<- | IN]; [right; left; reflexivity | left; exact IN].
  - destruct new; [intros [] | intros IN; left; right; exact IN].
Qed.
Lemma slashes_abs : forall p, slashes p = 0 <-> start [[]] p = [[]].
Proof.
  intros [|c p]; [split; reflexivity|]. unfold slashes. change (lit "/") with [SLASH]. cbn [startswith start]. destruct (ascii_dec c SLASH) as [-> | NE].
  - rewrite Ascii.eqb_refl. destruct p; cbn [startswith andb]; match goal with |- context [if ?b then 2 else 1] => destruct b end; split; discriminate.
  - destruct (Ascii.eqb_spec c SLASH); [congruence|]. split; reflexivity.
Qed.
Lemma start_cases : forall cwd p, (slashes p = 0 /\ start cwd p = cwd) \/ (slashes p <> 0 /\ start cwd p = []).
Proof.
  intros cwd p. destruct (Nat.eq_dec (slashes p) 0) as [E | E].
  - left; split; [exact E|]. apply slashes_abs in E. destruct p as [|c p]; [reflexivity|]. cbn [start] in *. destruct (ascii_dec c SLASH); [discriminate | reflexivity].
  - right; split; [exact E|]. assert (start [[]] p <> [[]]) as N by (intros Z; apply E, slashes_abs; exact Z). destruct p as [|c p]; [exfalso; apply N; reflexivity|]. cbn [start] in *. destruct (ascii_dec c SLASH); [reflexivity | congruence].
Qed.
Lemma fold_noop : forall l cwd, (forall w, In w l -> ~ ordinary w) -> fold_left walk_step l cwd = cwd.
Proof.
  induction l as [|w l IH]; intros cwd H; [reflexivity|]. cbn [fold_left]. rewrite walk_noop by (apply H; left; reflexivity). apply IH. intros x IN; apply H; right; exact IN.
Qed.
Lemma not_ord_nil : ~ ordinary [].
Proof. intros [H _]; congruence. Qed.
(* slashes in front only make a path absolute *)
Lemma walk_slashes : forall k cwd p, k <> 0 -> walk cwd (repeat SLASH k ++ p) = fold_left walk_step (split_on SLASH p) [].
Proof.
  intros k cwd p NZ. unfold walk. replace (start cwd (repeat SLASH k ++ p)) with (@nil str).
  2: { destruct k; [congruence|]. cbn. reflexivity. }
  clear NZ. induction k as [|k IH]; [reflexivity|]. cbn [repeat app split_on]. rewrite Ascii.eqb_refl. cbn [fold_left]. rewrite walk_noop by apply not_ord_nil. exact IH.
Qed.
Lemma start_join : forall cwd l, (forall w, In w l -> ~ In SLASH w /\ ordinary w) -> start cwd (join_with SLASH l) = cwd.
Proof.
  intros cwd [|w l] H; [reflexivity|]. destruct (H w (or_introl eq_refl)) as [NI [NE _]]. destruct w as [|c w]; [congruence|].
  assert (exists z, join_with SLASH ((c :: w) :: l) = c :: z) as [z ->] by (destruct l; eexists; reflexivity). cbn [start]. destruct (ascii_dec c SLASH) as [-> | NC]; [exfalso; apply NI; left; reflexivity | reflexivity].
Qed.
Lemma comps_elems : forall p w, In w (comps p) -> ~ In SLASH w /\ ordinary w.
Proof.
  intros p w IN. unfold comps in IN. apply in_rev in IN. split.
  - destruct (norm_from _ _ _ _ IN) as [[] | H]. apply (split_on_elems p); exact H.
  - destruct (norm_walk (negb (slashes p =? 0)) (split_on SLASH p) [] [] (fun _ => eq_refl) (fun w F => match F with end)) as [O _]. apply O; exact IN.
Qed.
(* the path of the components is where the path is *)
Lemma walk_comps : forall cwd p, walk cwd (repeat SLASH (slashes p) ++ join_with SLASH (comps p)) = walk cwd p.
Proof.
  intros cwd p.
  assert (fold_left walk_step (comps p) (start cwd p) = walk cwd p) as W.
  { unfold walk, comps. destruct (norm_walk (negb (slashes p =? 0)) (split_on SLASH p) [] (start cwd p)) as [_ E].
    - destruct (start_cases cwd p) as [[Z _] | [_ Z]]; [rewrite Z; discriminate | intros _; exact Z].
    - intros w [].
    - exact E. }
  assert (forall b, fold_left walk_step (split_on SLASH (join_with SLASH (comps p))) b = fold_left walk_step (comps p) b) as SJ.
  { intros b. destruct (comps p) as [|w l] eqn:C; [reflexivity|]. rewrite split_join; [reflexivity | | discriminate]. intros x IN. apply (comps_elems p). rewrite C. exact IN. }
  destruct (start_cases cwd p) as [[Z S0] | [Z S0]].
  - rewrite Z. cbn [repeat app]. unfold walk at 1. rewrite start_join by apply comps_elems. rewrite SJ. rewrite <- W, S0. reflexivity.
  - rewrite walk_slashes by exact Z. rewrite SJ, <- W, S0. reflexivity.
Qed.

(* ---------- files ---------- *)
Lemma walk_file : forall cwd q w, good w -> walk cwd (q ++ SLASH :: w) = w :: walk cwd (q ++ [SLASH]).
Proof.
  intros cwd q w G. unfold walk. rewrite !split_on_app, !fold_left_app. destruct G as [G1 [G2 [G3 G4]]]. rewrite (split_on_free w) by exact G4.
  change (split_on SLASH []) with [@nil ascii]. cbn [fold_left]. rewrite walk_good by (split; [exact G1 | split; [exact G2 | split; assumption]]). rewrite walk_noop by apply not_ord_nil.
  assert (start cwd (q ++ SLASH :: w) = start cwd (q ++ [SLASH])) as -> by (destruct q; reflexivity). reflexivity.
Qed.
Lemma walk_name : forall cwd w, good w -> walk cwd w = w :: cwd.
Proof.
  intros cwd w G. unfold walk. destruct G as [G1 [G2 [G3 G4]]]. rewrite split_on_free by exact G4. cbn [fold_left].
  assert (start cwd w = cwd) as ->. { destruct w as [|c w]; [reflexivity|]. cbn [start]. destruct (ascii_dec c SLASH) as [-> | NE]; [exfalso; apply G4; left; reflexivity | reflexivity]. }
  apply walk_good. split; [exact G1 | split; [exact G2 | split; assumption]].
Qed.
Lemma good_pre : forall pre w, good w -> ~ In SLASH pre -> good (pre ++ w).
Proof.
  intros pre w [G1 [G2 [G3 G4]]] NS. split; [|split; [|split]].
  - destruct pre; [exact G1 | discriminate].
  - intros E. apply (f_equal (@length _)) in E as L. rewrite app_length in L. cbn in L. destruct w as [|c w]; [congruence|]. destruct pre as [|x pre]; [apply G2; exact E | cbn in L; lia].
  - intros E. apply (f_equal (@length _)) in E as L. rewrite app_length in L. cbn in L. destruct w as [|c w]; [congruence|]. destruct pre as [|x pre]; [apply G3; exact E|].
    destruct pre as [|y pre]; [|cbn in L; lia]. cbn in E. apply G2. injection E as _ E1 E2. rewrite E1, E2. reflexivity.
  - intros IN. apply in_app_or in IN. tauto.
Qed.
Lemma good_suf : forall w suf, good w -> ~ In SLASH suf -> good (w ++ suf).
Proof.
  intros w suf [G1 [G2 [G3 G4]]] NS. split; [|split; [|split]].
  - destruct w; [congruence | discriminate].
  - intros E. apply (f_equal (@length _)) in E as L. rewrite app_length in L. cbn in L. destruct w as [|c w]; [congruence|]. destruct suf as [|x suf]; [apply G2; rewrite app_nil_r in E; exact E | cbn in L; lia].
  - intros E. apply (f_equal (@length _)) in E as L. rewrite app_length in L. cbn in L. destruct w as [|c w]; [congruence|]. destruct suf as [|x suf]; [apply G3; rewrite app_nil_r in E; exact E|].
    destruct w as [|y w]; [|cbn in L; lia]. cbn in E. injection E as E1 _ _. apply G2. rewrite E1. reflexivity.
  - intros IN. apply in_app_or in IN. tauto.
Qed.
(* the last component of the normalised path *)
Lemma comps_file : forall p w, file_called p w -> exists d, comps p = d ++ [w].
Proof.
  intros p w [[G1 [G2 [G3 G4]]] F]. assert (exists l, split_on SLASH p = l ++ [w]) as [l E].
  { destruct F as [-> | [q ->]]; [exists []; apply split_on_free; exact G4 | exists (split_on SLASH q); rewrite split_on_app, (split_on_free w) by exact G4; reflexivity]. }
  unfold comps. rewrite E, fold_left_app. cbn [fold_left]. unfold norm_step at 1. set (st := fold_left _ l []).
  apply str_eqb_neq in G1. apply str_eqb_neq in G2. apply str_eqb_neq in G3. rewrite G1, G2, G3. cbn [orb negb]. cbn [rev]. exists (rev st); reflexivity.
Qed.
Lemma join_snoc : forall d w, join_with SLASH (d ++ [w]) = match d with [] => w | _ => join_with SLASH d ++ SLASH :: w end.
Proof.
  induction d as [|x d IH]; intros w; [reflexivity|]. destruct d as [|y d]; [reflexivity|]. change (join_with SLASH ((x :: y :: d) ++ [w])) with (x ++ SLASH :: join_with SLASH ((y :: d) ++ [w])).
  rewrite IH. change (join_with SLASH (x :: y :: d)) with (x ++ SLASH :: join_with SLASH (y :: d)). rewrite <- app_assoc. reflexivity.
Qed.
Lemma rfind_last : forall (h w : str), ~ In SLASH w -> (h = [] /\ rfind SLASH (h ++ w) = None) \/ (h <> [] /\ forall h', h = h' ++ [SLASH] -> rfind SLASH (h ++ w) = Some (length h')).
Proof.
  intros h w NI. destruct h as [|c h0].
  - left; split; [reflexivity|]. cbn [app]. pose proof (rfind_spec SLASH w) as R. destruct (rfind SLASH w); [|reflexivity]. destruct R as [a [b [-> _]]]. exfalso; apply NI, in_or_app; right; left; reflexivity.
  - right; split; [discriminate|]. intros h' ->. pose proof (rfind_spec SLASH ((h' ++ [SLASH]) ++ w)) as R. rewrite <- app_assoc in *. cbn [app] in *. destruct (rfind SLASH (h' ++ SLASH :: w)) as [i|].
    + destruct R as [a [b [E [NB L]]]]. destruct (last_occ_unique _ _ _ _ _ NI NB E) as [-> _]. rewrite L. reflexivity.
    + exfalso; apply R, in_or_app; right; left; reflexivity.
Qed.
(* os.path.split of a directory part and a name *)
Lemma rstrip_app : forall s, exists k, s = rstrip SLASH s ++ repeat SLASH k.
Proof.
  intros s. unfold rstrip. set (go := fix go l := match l with x :: r => if Ascii.eqb x SLASH then go r else l | [] => [] end).
  assert (forall l, exists k, l = repeat SLASH k ++ go l) as G.
  { induction l as [|x l [k IH]]; [exists 0; reflexivity|]. cbn [go]. destruct (Ascii.eqb_spec x SLASH) as [-> | NE]; [exists (S k); cbn [repeat app]; rewrite <- IH; reflexivity | exists 0; reflexivity]. }
  destruct (G (rev s)) as [k E]. exists k. apply (f_equal (@rev _)) in E. rewrite rev_involutive, rev_app_distr in E. rewrite E at 1. f_equal.
  clear. induction k as [|k IH]; [reflexivity|]. cbn [repeat rev]. rewrite IH. clear. induction k as [|k IH]; [reflexivity|]. cbn [repeat app]. rewrite IH. reflexivity.
Qed.
Lemma path_split_file : forall h w, ~ In SLASH w -> (h = [] \/ exists h', h = h' ++ [SLASH]) ->
  snd (path_split (h ++ w)) = w /\
  (fst (path_split (h ++ w)) = h /\ forallb (Ascii.eqb SLASH) h = true \/ forallb (Ascii.eqb SLASH) h = false /\ exists k, h = fst (path_split (h ++ w)) ++ repeat SLASH k /\ fst (path_split (h ++ w)) = rstrip SLASH h).
Proof.
  intros h w NI [-> | [h' E]].
  - unfold path_split. destruct (rfind_last [] w NI) as [[_ R] | [N _]]; [|congruence]. cbn [app] in *. rewrite R. cbn. split; [reflexivity | left; auto].
  - unfold path_split. destruct (rfind_last h w NI) as [[-> _] | [_ R]]; [destruct h'; discriminate|]. rewrite (R _ E). cbn [fst snd].
    assert (length h = S (length h')) as L by (rewrite E, app_length; cbn; lia). rewrite <- L.
    destruct (nth_firstn_app h w (length h) eq_refl) as [F1 F2]. rewrite F1, F2. split; [reflexivity|].
    destruct (forallb (Ascii.eqb SLASH) h) eqn:FB; cbn [negb]; [left; auto | right; split; [reflexivity|]]. destruct (rstrip_app h) as [k K]. exists k; split; [exact K | reflexivity].
Qed.
Lemma walk_trailing : forall cwd x k, x <> [] -> walk cwd (x ++ repeat SLASH k) = walk cwd x.
Proof.
  intros cwd x k NE. induction k as [|k IH]; [rewrite app_nil_r; reflexivity|].
  assert (repeat SLASH (S k) = repeat SLASH k ++ [SLASH]) as -> by (clear; induction k as [|k IH]; [reflexivity | cbn [repeat app] in *; rewrite <- IH; reflexivity]).
  rewrite app_assoc. set (y := x ++ repeat SLASH k) in *. assert (y <> []) as NY by (subst y; destruct x; [congruence | discriminate]). rewrite <- IH.
  unfold walk. rewrite split_on_app, fold_left_app. change (split_on SLASH []) with [@nil ascii]. cbn [fold_left]. rewrite walk_noop by apply not_ord_nil. destruct y; [congruence | reflexivity].
Qed.
(* joining a new name to the directory of the normalised path *)
Lemma rename : forall p w w', file_called p w -> good w' -> forall path fn, path_split (normpath p) = (path, fn) ->
  fn = w /\ file_called (path_join path w') w' /\ exists D, forall cwd, walk cwd p = w :: D cwd /\ walk cwd (path_join path w') = w' :: D cwd.
Proof.
  intros p w w' FC G path fn PS. pose proof FC as [GW _]. destruct (comps_file p w FC) as [d CD].
  assert (normpath p = (repeat SLASH (slashes p) ++ match d with [] => [] | _ => join_with SLASH d ++ [SLASH] end) ++ w) as NP.
  { unfold normpath. assert (repeat SLASH (slashes p) ++ join_with SLASH (comps p) = (repeat SLASH (slashes p) ++ match d with [] => [] | _ => join_with SLASH d ++ [SLASH] end) ++ w) as E.
    { rewrite CD, join_snoc, <- app_assoc. f_equal. destruct d; [reflexivity | rewrite <- app_assoc; reflexivity]. }
    rewrite E. destruct p as [|c p]. { destruct FC as [[N _] [X | [q X]]]; [congruence | destruct q; discriminate]. }
    match goal with |- match ?x with _ => _ end = _ => destruct x eqn:Z end; [|reflexivity]. apply app_eq_nil in Z. destruct Z as [_ Z]. destruct GW as [N _]. congruence. }
  set (h := repeat SLASH (slashes p) ++ match d with [] => [] | _ => join_with SLASH d ++ [SLASH] end) in *.
  assert (h = [] \/ exists h', h = h' ++ [SLASH]) as HF.
  { subst h. destruct d as [|x d].
    - rewrite app_nil_r. destruct (slashes p) as [|k]; [left; reflexivity | right; exists (repeat SLASH k)]. clear. induction k as [|k IH]; [reflexivity | cbn [repeat app] in *; rewrite <- IH; reflexivity].
    - right. eexists. rewrite app_assoc. reflexivity. }
  assert (forall cwd, walk cwd (h ++ w) = walk cwd p) as WH.
  { intros cwd. rewrite <- (walk_comps cwd p). subst h. rewrite CD, join_snoc, <- app_assoc. f_equal. destruct d; [reflexivity | rewrite <- app_assoc; reflexivity]. }
  rewrite NP in PS. destruct (path_split_file h w (proj2 (proj2 (proj2 GW))) HF) as [F2 F1]. rewrite PS in F1, F2. cbn [fst snd] in F1, F2. subst fn. split; [reflexivity|].
  assert (startswith w' (lit "/") = false) as NS.
  { destruct w' as [|c w']; [reflexivity|]. change (lit "/") with [SLASH]. cbn [startswith]. destruct (Ascii.eqb_spec c SLASH) as [-> | NE]; [exfalso; apply (proj2 (proj2 (proj2 G))); left; reflexivity | reflexivity]. }
  assert (h = [] /\ path = [] \/ h <> [] /\ exists h2, path_join path w' = h2 ++ SLASH :: w' /\ forall cwd, walk cwd (h2 ++ [SLASH]) = walk cwd h) as J.
  { unfold path_join. rewrite NS. destruct F1 as [[-> FB] | [FB [k [K R]]]].
    - destruct HF as [-> | [h' E]]; [left; auto | right]. split; [rewrite E; destruct h'; discriminate|]. exists h'. rewrite <- E. split; [|reflexivity].
      destruct h as [|c h0]; [destruct h'; discriminate|]. replace (endswith (c :: h0) (lit "/")) with true.
      + rewrite E, <- app_assoc. reflexivity.
      + symmetry. apply endswith_spec. exists h'. exact E.
    - right. assert (h <> []) as HN by (intros ->; discriminate). split; [exact HN|].
      assert (path <> []) as PN. { intros ->. cbn [app] in K. rewrite K in FB. clear - FB. induction k as [|k IH]; [discriminate|]. cbn in FB. auto. }
      assert (endswith path (lit "/") = false) as NE.
      { rewrite R. apply not_true_iff_false. rewrite endswith_spec. intros [z E]. change (lit "/") with [SLASH] in E. unfold rstrip in E. set (go := fix go l := match l with x :: r => if Ascii.eqb x SLASH then go r else l | [] => [] end) in E.
        apply (f_equal (@rev _)) in E. rewrite rev_involutive, rev_app_distr in E. cbn [rev app] in E. revert E. generalize (rev h). induction l as [|x l IH]; cbn [go]; [discriminate|].
        destruct (Ascii.eqb_spec x SLASH) as [-> | NX]; [exact IH | intros E; inversion E; congruence]. }
      exists path. destruct path as [|c path']; [congruence|]. rewrite NE. split; [reflexivity|]. intros cwd. rewrite K. rewrite (walk_trailing cwd (c :: path') k) by discriminate. apply (walk_trailing cwd (c :: path') 1). discriminate. }
  destruct J as [[-> ->] | [HN [h2 [-> W2]]]].
  - unfold path_join. rewrite NS. split; [split; [exact G | left; reflexivity]|]. exists (fun cwd => cwd). intros cwd. rewrite <- WH. cbn [app]. rewrite !walk_name by assumption. auto.
  - split; [split; [exact G | right; exists h2; reflexivity]|]. exists (fun cwd => walk cwd h). intros cwd. rewrite <- WH. split.
    + destruct HF as [-> | [h' E]]; [congruence|]. rewrite E, <- app_assoc. cbn [app]. apply walk_file. exact GW.
    + rewrite walk_file by exact G. rewrite W2. reflexivity.
Qed.

(* ---------- prefixes and suffixes ---------- *)
Definition has_ext (w : str) : Prop := forall root ext, ordinary_ext w root ext -> ext <> [].
(* the name a file called w gets: the prefix unless it begins with it (and is more than it); the suffix unless it ends with it, or has an extension of its own and that is enough *)
Definition prefixed (pre w w1 : str) : Prop := (begins w pre /\ w <> pre \/ pre = []) /\ w1 = w \/ ~ (begins w pre /\ w <> pre) /\ pre <> [] /\ w1 = pre ++ w.
Definition suffixed (suf : str) (ensure : bool) (w w1 : str) : Prop :=
  (ends w suf \/ ensure = false /\ has_ext w) /\ w1 = w \/ ~ (ends w suf \/ ensure = false /\ has_ext w) /\ w1 = w ++ suf.

Lemma has_ext_dec : forall w, match snd (splitext w) with [] => ~ has_ext w | _ => has_ext w end.
Proof.
  intros w. pose proof (splitext_ordinary w) as O. destruct (snd (splitext w)) as [|c e] eqn:E.
  - intros H. exact (H _ _ O eq_refl).
  - intros r x OX. destruct (ordinary_unique _ _ _ _ _ O OX) as [_ <-]. discriminate.
Qed.
(* a path has the extension of its file name *)
Lemma ordinary_path : forall q w root ext, ~ In SLASH w -> ordinary_ext w root ext -> ordinary_ext (q ++ SLASH :: w) (q ++ SLASH :: root) ext.
Proof.
  intros q w root ext NI [E H]. split; [rewrite E, <- app_assoc; reflexivity|]. destruct H as [[-> H] | H]; [left; split; [reflexivity|] | right; exact H].
  intros r t E2 ND NS. destruct (app_eq_app _ _ _ _ E2) as [m [[Ea Eb] | [Ea Eb]]].
  - destruct m as [|y m]; cbn in Eb; [discriminate Eb|]. exfalso. inversion Eb; subst. apply NS, in_or_app; right; left; reflexivity.
  - destruct m as [|y m]; cbn in Eb; [discriminate Eb|]. inversion Eb; subst. apply (H m t); auto.
Qed.
Lemma path_has_ext : forall p w, file_called p w -> (has_ext p <-> has_ext w).
Proof.
  intros p w [[_ [_ [_ NI]]] [-> | [q ->]]]; [reflexivity|]. pose proof (splitext_ordinary w) as O. pose proof (ordinary_path q _ _ _ NI O) as OP. split; intros H r x OX.
  - destruct (ordinary_unique _ _ _ _ _ O OX) as [_ <-]. apply (H _ _ OP).
  - destruct (ordinary_unique _ _ _ _ _ OP OX) as [_ <-]. apply (H _ _ O).
Qed.
Lemma path_ends : forall p w suf, file_called p w -> ~ In SLASH suf -> (ends p suf <-> ends w suf).
Proof.
  intros p w suf [_ [-> | [q ->]]] NI; [reflexivity|]. split; intros [r E].
  - destruct (app_eq_app _ _ _ _ E) as [m [[Ea Eb] | [Ea Eb]]].
    + exfalso; apply NI. rewrite Eb. apply in_or_app; right; left; reflexivity.
    + destruct m as [|y m]; cbn in Eb; [exfalso; apply NI; rewrite <- Eb; left; reflexivity|]. inversion Eb; subst. exists m; reflexivity.
  - exists (q ++ SLASH :: r). rewrite E, <- app_assoc. reflexivity.
Qed.
Definition add_prefix (fname pre : str) : str :=
  match pre with
  | [] => fname
  | _ => let (path, fn) := path_split (normpath fname) in if negb (startswith fn pre) || str_eqb fn pre then path_join path (pre ++ fn) else fname
  end.
Definition add_suffix (fname suf : str) (ensure : bool) : str :=
  match suf with
  | [] => fname
  | _ => if negb (endswith fname suf) && (ensure || match snd (splitext fname) with [] => true | _ => false end) then fname ++ suf else fname
  end.
Lemma adjustixes_eq : forall f pre suf e, adjustixes f pre suf e = add_suffix (add_prefix f pre) suf e.
Proof. reflexivity. Qed.
Lemma add_prefix_spec : forall f w pre, file_called f w -> ~ In SLASH pre ->
  exists w1 D, prefixed pre w w1 /\ file_called (add_prefix f pre) w1 /\ forall cwd, walk cwd f = w :: D cwd /\ walk cwd (add_prefix f pre) = w1 :: D cwd.
Proof.
  intros f w pre FC NI. unfold add_prefix. pose proof FC as [GW _].
  assert (exists D, forall cwd, walk cwd f = w :: D cwd) as [D HD].
  { destruct FC as [_ [-> | [q ->]]]; [exists (fun cwd => cwd); intros; apply walk_name; exact GW | eexists; intros; apply walk_file; exact GW]. }
  destruct pre as [|c pre0]; [exists w, D; split; [left; auto | split; [exact FC | intros; auto]]|]. set (pre := c :: pre0) in *.
  destruct (path_split (normpath f)) as [path fn] eqn:PS. assert (good (pre ++ w)) as GP by (apply good_pre; assumption).
  destruct (rename f w (pre ++ w) FC GP path fn PS) as [-> [FJ [D2 W2]]].
  destruct (negb (startswith w pre) || str_eqb w pre) eqn:B.
  - exists (pre ++ w), D2. split; [right|].
    + split; [|split; [discriminate | reflexivity]]. intros [BG NE]. apply orb_true_iff in B. destruct B as [B | B]; [apply negb_true_iff in B; apply startswith_spec in BG; congruence | apply str_eqb_spec in B; congruence].
    + split; [exact FJ | exact W2].
  - apply orb_false_iff in B. destruct B as [B1 B2]. apply negb_false_iff, startswith_spec in B1. apply str_eqb_neq in B2. exists w, D. split; [left; auto | split; [exact FC | intros; auto]].
Qed.
Lemma add_suffix_spec : forall f w suf e, file_called f w -> ~ In SLASH suf ->
  exists w1 D, suffixed suf e w w1 /\ file_called (add_suffix f suf e) w1 /\ forall cwd, walk cwd f = w :: D cwd /\ walk cwd (add_suffix f suf e) = w1 :: D cwd.
Proof.
  intros f w suf e FC NI. unfold add_suffix. pose proof FC as [GW _].
  assert (exists D, forall cwd, walk cwd f = w :: D cwd) as [D HD].
  { destruct FC as [_ [-> | [q ->]]]; [exists (fun cwd => cwd); intros; apply walk_name; exact GW | eexists; intros; apply walk_file; exact GW]. }
  destruct suf as [|c suf0]; [exists w, D; split; [left; split; [left; exists w; rewrite app_nil_r; reflexivity | reflexivity] | split; [exact FC | intros; auto]]|]. set (suf := c :: suf0) in *.
  pose proof (path_ends f w suf FC NI) as PE. pose proof (path_has_ext f w FC) as PX. pose proof (has_ext_dec f) as HX.
  assert (suffixed suf e w (if negb (endswith f suf) && (e || match snd (splitext f) with [] => true | _ => false end) then w ++ suf else w)) as SF.
  { destruct (endswith f suf) eqn:EB; cbn [negb andb].
    - left; split; [left; apply PE, endswith_spec; exact EB | reflexivity].
    - assert (~ ends w suf) as NW by (intros H; apply PE, endswith_spec in H; congruence). destruct e; cbn [orb].
      + right; split; [intros [H | [H _]]; [apply NW; exact H | discriminate] | reflexivity].
      + destruct (snd (splitext f)) as [|x l].
        * right; split; [intros [H | [_ H]]; [apply NW; exact H | apply HX, PX; exact H] | reflexivity].
        * left; split; [right; split; [reflexivity | apply PX; exact HX] | reflexivity]. }
  match goal with |- context [if ?b then _ else _] => destruct b end.
  - assert (good (w ++ suf)) as GS by (apply good_suf; assumption). exists (w ++ suf), D. split; [exact SF|]. destruct FC as [_ [-> | [q ->]]].
    + split; [split; [exact GS | left; reflexivity]|]. intros cwd. split; [apply HD|]. specialize (HD cwd). rewrite walk_name in HD by exact GW. rewrite walk_name by exact GS. injection HD as <-. reflexivity.
    + rewrite <- app_assoc. cbn [app]. split; [split; [exact GS | right; exists q; reflexivity]|]. intros cwd. split; [apply HD|]. specialize (HD cwd). rewrite walk_file in HD by exact GW. rewrite walk_file by exact GS. injection HD as <-. reflexivity.
  - exists w, D. split; [exact SF | split; [exact FC | intros; auto]].
Qed.

(* C56c: the file whose name is adjusted stays in its directory, whatever directory names are relative to; its name gets the prefix, then the suffix *)
Theorem C56c_adjusted_name : forall fname w pre suf ensure, file_called fname w -> ~ In SLASH pre -> ~ In SLASH suf ->
  exists w1 w2 D, prefixed pre w w1 /\ suffixed suf ensure w1 w2 /\ file_called (adjustixes fname pre suf ensure) w2 /\
    forall cwd, walk cwd fname = w :: D cwd /\ walk cwd (adjustixes fname pre suf ensure) = w2 :: D cwd.
Proof.
  intros f w pre suf e FC NP NS. rewrite adjustixes_eq. destruct (add_prefix_spec f w pre FC NP) as [w1 [D [P1 [F1 W1]]]]. destruct (add_suffix_spec _ w1 suf e F1 NS) as [w2 [D2 [S2 [F2 W2]]]].
  exists w1, w2, D. split; [exact P1|]. split; [exact S2|]. split; [exact F2|]. intros cwd. split; [apply W1|]. destruct (W1 cwd) as [_ A]. destruct (W2 cwd) as [B ->]. rewrite A in B. injection B as ->. reflexivity.
Qed.
(* C56d: adjusting a name again changes nothing, and with no prefix and suffix nothing is changed at all *)
Lemma begins_long : forall w pre, begins w pre /\ w <> pre <-> exists r, r <> [] /\ w = pre ++ r.
Proof.
  intros w pre. split.
  - intros [[r ->] NE]. exists r. split; [intros ->; apply NE, app_nil_r | reflexivity].
  - intros [r [NE ->]]. split; [exists r; reflexivity | intros E; apply NE]. rewrite <- (app_nil_r pre) in E at 2. apply app_inv_head in E. exact E.
Qed.
Lemma add_prefix_id : forall f w pre, file_called f w -> ~ In SLASH pre -> (begins w pre /\ w <> pre \/ pre = []) -> add_prefix f pre = f.
Proof.
  intros f w pre FC NI H. unfold add_prefix. destruct pre as [|c pre0]; [reflexivity|]. destruct H as [[B NE] | H]; [|discriminate]. set (pre := c :: pre0) in *.
  destruct (path_split (normpath f)) as [path fn] eqn:PS. destruct (rename f w w FC (proj1 FC) path fn PS) as [-> _]. apply startswith_spec in B. apply str_eqb_neq in NE. rewrite B, NE. reflexivity.
Qed.
Lemma add_suffix_id : forall f w suf e, file_called f w -> ~ In SLASH suf -> (ends w suf \/ e = false /\ has_ext w) -> add_suffix f suf e = f.
Proof.
  intros f w suf e FC NI H. unfold add_suffix. destruct suf as [|c suf0]; [reflexivity|]. set (suf := c :: suf0) in *. destruct H as [H | [-> H]].
  - apply (path_ends f w suf FC NI), endswith_spec in H. rewrite H. reflexivity.
  - apply (path_has_ext f w FC) in H. pose proof (has_ext_dec f) as HX. destruct (snd (splitext f)); [contradiction|]. cbn [orb]. rewrite andb_false_r. reflexivity.
Qed.
Theorem C56d_adjust_idempotent : forall fname w pre suf ensure, file_called fname w -> ~ In SLASH pre -> ~ In SLASH suf ->
  adjustixes (adjustixes fname pre suf ensure) pre suf ensure = adjustixes fname pre suf ensure /\ adjustixes fname [] [] ensure = fname /\ (has_ext w -> adjustixes fname [] suf false = fname).
Proof.
  intros f w pre suf e FC NP NS. split; [|split; [reflexivity|]].
  - destruct (C56c_adjusted_name f w pre suf e FC NP NS) as [w1 [w2 [D [P1 [S2 [F2 _]]]]]]. set (r := adjustixes f pre suf e) in *.
    assert (begins w2 pre /\ w2 <> pre \/ pre = []) as B2.
    { destruct pre as [|c pre0]; [right; reflexivity | left]. set (pre := c :: pre0) in *. apply begins_long.
      assert (exists x, x <> [] /\ w1 = pre ++ x) as [x [NX EX]].
      { destruct P1 as [[[B | B] ->] | [_ [_ ->]]]; [apply begins_long; exact B | discriminate B | exists w; split; [apply FC | reflexivity]]. }
      destruct S2 as [[_ ->] | [_ ->]]; [exists x; auto | exists (x ++ suf); split; [destruct x; [congruence | discriminate] | rewrite EX, <- app_assoc; reflexivity]]. }
    assert (ends w2 suf \/ e = false /\ has_ext w2) as E2.
    { destruct S2 as [[H ->] | [_ ->]]; [exact H | left; exists w1; reflexivity]. }
    rewrite adjustixes_eq, (add_prefix_id r w2 pre F2 NP B2). apply (add_suffix_id r w2 suf e F2 NS E2).
  - intros H. rewrite adjustixes_eq. cbn [add_prefix]. apply (add_suffix_id f w suf false FC NS). right; auto.
Qed.

(* the comment of adjustixes says that a file called like the suffix still gets the suffix; it does not.  And a name with a trailing slash can get the prefix twice *)
Theorem C56_suffix_alone_refuted : exists f suf, file_called f f /\ ~ In SLASH suf /\ f = suf /\ adjustixes f [] suf true = f.
Proof. exists (lit ".o"), (lit ".o"). split; [|split; [|split; reflexivity]]; [split; [split; [discriminate | split; [discriminate | split; [discriminate|]]] | left; reflexivity] |]; cbn; intros [H | [H | []]]; discriminate. Qed.
Theorem C56_trailing_slash_refuted : exists f pre suf, adjustixes (adjustixes f pre suf false) pre suf false <> adjustixes f pre suf false.
Proof. exists (lit "libx/"), (lit "lib"), (lit ".a"). cbn. discriminate. Qed.

(* names differ only in the extension: same target *)
Theorem C56_two_sources_one_target_refuted : exists n1 n2, n1 <> n2 /\ target_from_source [] (lit ".o") [lit ".c"; lit ".cpp"] n1 = target_from_source [] (lit ".o") [lit ".c"; lit ".cpp"] n2.
Proof. exists (lit "a.c"), (lit "a.cpp"). split; [discriminate | reflexivity]. Qed.

Example C56_name_witness :
  match_splitext (lit "parse.tab.c") [lit ".c"; lit ".tab.c"] = (lit "parse", lit ".tab.c") /\ match_splitext (lit "lib/libz.so.1") [lit ".c"] = (lit "lib/libz.so.1", []) /\
  target_from_source (lit "lib") (lit ".os") [lit ".c"] (lit "x.y.c") = lit "libx.y.os" /\
  file_called (lit "a/./b/../foo") (lit "foo") /\ adjustixes (lit "a/./b/../foo") (lit "lib") (lit ".a") false = lit "a/libfoo.a" /\
  walk [lit "top"] (lit "a/./b/../foo") = [lit "foo"; lit "a"; lit "top"] /\ adjustixes (lit "libfoo.so.1") (lit "lib") (lit ".so") false = lit "libfoo.so.1.so" /\ adjustixes (lit "x.c") [] (lit ".o") false = lit "x.c" /\
  adjustixes (lit "x.c") [] (lit ".o") true = lit "x.c.o" /\ adjustixes (lit "/../lib") (lit "lib") [] false = lit "/liblib".
Proof.
  split; [reflexivity|]. split; [reflexivity|]. split; [reflexivity|]. split.
  { split; [split; [discriminate | split; [discriminate | split; [discriminate | cbn; intros [H | [H | [H | []]]]; discriminate]]] | right; exists (lit "a/./b/.."); reflexivity]. }
  split; [reflexivity|]. split; [|repeat split; reflexivity].
  unfold walk.
  change (start [lit "top"] (lit "a/./b/../foo")) with (if ascii_dec "a" SLASH then [] else [lit "top"]). destruct (ascii_dec "a" SLASH); [discriminate|].
  change (split_on SLASH (lit "a/./b/../foo")) with [lit "a"; lit "."; lit "b"; lit ".."; lit "foo"]. cbn [fold_left].
  rewrite (walk_good _ (lit "a")) by (split; [discriminate | split; [discriminate | split; [discriminate | cbn; intros [H | []]; discriminate]]]).
  rewrite (walk_noop _ (lit ".")) by (intros [_ H]; congruence).
  rewrite (walk_good _ (lit "b")) by (split; [discriminate | split; [discriminate | split; [discriminate | cbn; intros [H | []]; discriminate]]]).
  rewrite walk_dotdot. apply walk_good. split; [discriminate | split; [discriminate | split; [discriminate | cbn; intros [H | [H | [H | []]]]; discriminate]]].
Qed.
