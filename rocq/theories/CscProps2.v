(* C68: the files found *)
From Coq Require Import Ascii String List Bool Arith Lia Permutation.
Import ListNotations.
From Verif Require Import CscModel CscSpec CscProps.
Open Scope list_scope.

Definition slash : ascii := "/"%char.
Definition comps (t : text) : list text := filter not_empty (pieces t).
Lemma pieces_slash : forall a b, pieces (a ++ slash :: b) = pieces a ++ pieces b.
Proof.
  induction a as [|c a IH]; intros b; [reflexivity|]. cbn [app pieces]. destruct (Ascii.eqb c "/"); rewrite IH; [reflexivity|]. destruct (pieces a) as [|x l] eqn:E; [|reflexivity].
  exfalso. destruct a as [|c2 a]; cbn [pieces] in E; [discriminate|]. destruct (Ascii.eqb c2 "/"); [discriminate|]. destruct (pieces a); discriminate.
Qed.
Lemma pieces_plain : forall n, ~ In slash n -> pieces n = [n].
Proof.
  induction n as [|c n IH]; intros N; [reflexivity|]. cbn [pieces]. destruct (Ascii.eqb c "/") eqn:E; [apply Ascii.eqb_eq in E; exfalso; apply N; left; exact E|]. rewrite IH; [reflexivity | intros X; apply N; right; exact X].
Qed.
Lemma comps_slash : forall a b, comps (a ++ slash :: b) = comps a ++ comps b.
Proof. intros a b. unfold comps. rewrite pieces_slash, filter_app. reflexivity. Qed.
Lemma comps_plain : forall n, ~ In slash n -> n <> [] -> comps n = [n].
Proof. intros n N E. unfold comps. rewrite (pieces_plain n N). destruct n; [contradiction | reflexivity]. Qed.
Lemma rsplit_spec : forall t, exists h n, rsplit t = (h, n) /\ t = h ++ n /\ ~ In slash n /\ (h = [] \/ exists h2, h = h2 ++ [slash]).
Proof.
  induction t as [|c t (h & n & E & T & N & Hh)]; [exists [], []; repeat split; auto|]. cbn [rsplit]. rewrite E. destruct h as [|x h].
  - cbn [app] in T. subst t. destruct (is "/" c) eqn:Ec.
    + apply is_eq in Ec. subst c. exists [slash], n. split; [reflexivity|]. split; [reflexivity|]. split; [exact N | right; exists []; reflexivity].
    + exists [], (c :: n). split; [reflexivity|]. split; [reflexivity|]. split; [|left; reflexivity]. intros [X|X]; [apply is_ne in Ec; apply Ec; exact X | apply N, X].
  - exists (c :: x :: h), n. split; [reflexivity|]. split; [cbn [app] in T |- *; f_equal; exact T|]. split; [exact N|]. right. destruct Hh as [Hh|(h2 & Hh)]; [discriminate|]. exists (c :: h2). cbn [app]. f_equal. exact Hh.
Qed.
Lemma slashes_repeat : forall t, all_slashes t = true -> t = repeat slash (length t).
Proof. induction t as [|c t IH]; intros E; [reflexivity|]. cbn [all_slashes forallb] in E. apply andb_true_iff in E as [E1 E2]. apply is_eq in E1. subst. cbn [length repeat]. f_equal. apply IH, E2. Qed.
Lemma comps_slashes : forall t, all_slashes t = true -> comps t = [].
Proof. induction t as [|c t IH]; intros E; [reflexivity|]. cbn [all_slashes forallb] in E. apply andb_true_iff in E as [E1 E2]. apply is_eq in E1. subst. change ("/"%char :: t) with ([] ++ slash :: t). rewrite comps_slash, (IH E2). reflexivity. Qed.
Lemma rstrip_spec : forall t, exists k, t = rstrip t ++ repeat slash k /\ (rstrip t = [] \/ exists a c, rstrip t = a ++ [c] /\ c <> slash).
Proof.
  induction t as [|c t (k & E & R)]; [exists 0; split; [reflexivity | left; reflexivity]|]. cbn [rstrip]. destruct (rstrip t) as [|x r] eqn:Er.
  - destruct (is "/" c) eqn:Ec.
    + apply is_eq in Ec. subst c. exists (S k). split; [cbn [app repeat] in *; f_equal; exact E | left; reflexivity].
    + exists k. split; [cbn [app] in *; f_equal; exact E|]. right. exists [], c. split; [reflexivity | apply is_ne, Ec].
  - exists k. split; [cbn [app] in *; f_equal; exact E|]. right. destruct R as [R|(a & d & R & D)]; [discriminate|]. exists (c :: a), d. rewrite R. auto.
Qed.
Lemma comps_repeat : forall a k, comps (a ++ repeat slash k) = comps a.
Proof.
  intros a k. destruct k as [|k]; [rewrite app_nil_r; reflexivity|]. cbn [repeat]. rewrite comps_slash. rewrite (comps_slashes (repeat slash k)), app_nil_r; [reflexivity|]. induction k as [|k IH]; [reflexivity | cbn [repeat all_slashes forallb]; exact IH].
Qed.
Lemma dirs_comps : forall t h n, rsplit t = (h, n) -> dirs_of t = comps h /\ last_of t = n.
Proof.
  intros t h n E. destruct (rsplit_spec t) as (h2 & n2 & E2 & T & N & Hh). rewrite E in E2. injection E2 as <- <-. unfold dirs_of, last_of. subst t. destruct Hh as [-> |(h2 & ->)].
  - cbn [app]. rewrite (pieces_plain n N). auto.
  - rewrite <- app_assoc. cbn [app]. rewrite pieces_slash, (pieces_plain n N), last_last, removelast_last. split; [|reflexivity]. unfold comps. rewrite (pieces_slash h2 []), filter_app. cbn [pieces filter not_empty]. rewrite app_nil_r. reflexivity.
Qed.
(* the part before the last name, as find_file gives it to filedir_lookup *)
Definition clean (fd : text) : Prop := fd <> [] /\ (all_slashes fd = true \/ exists a c, fd = a ++ [c] /\ c <> slash).
Definition begins_slash (t : text) : bool := match t with c :: _ => Ascii.eqb c "/" | [] => false end.
Lemma split_clean : forall t d n, os_split t = (d, n) -> dirs_of t = comps d /\ last_of t = n /\ (d = [] \/ clean d) /\ (d <> [] -> begins_slash t = begins_slash d) /\ (d = [] -> begins_slash t = false) /\ ~ In slash n /\ length d <= length t /\ (n <> [] -> length d < length t) /\ (t = n \/ d <> []).
Proof.
  intros t d n E. unfold os_split in E. destruct (rsplit_spec t) as (h & n2 & E2 & T & N & Hh). rewrite E2 in E. injection E as Ed <-. destruct (dirs_comps t h n2 E2) as [D1 D2].
  assert (Lt : length t = length h + length n2) by (rewrite T, app_length; reflexivity).
  assert (Hno : h = [] -> begins_slash t = false).
  { intros ->. cbn [app] in T. subst t. destruct n2 as [|c n2]; [reflexivity|]. cbn [begins_slash]. destruct (Ascii.eqb c "/") eqn:Ec; [|reflexivity]. apply Ascii.eqb_eq in Ec. exfalso. apply N. left. exact Ec. }
  assert (Hb : h <> [] -> begins_slash t = begins_slash h) by (intros Hn; subst t; destruct h; [contradiction | reflexivity]).
  destruct (all_slashes h) eqn:As.
  - subst d. split; [exact D1|]. split; [exact D2|]. split; [destruct h as [|x h]; [left; reflexivity | right; split; [discriminate | left; exact As]]|]. split; [exact Hb|]. split; [exact Hno|]. split; [exact N|]. split; [lia|]. split; [intros X; destruct n2; [contradiction | cbn [length] in Lt; lia]|].
    destruct h; [left; exact T | right; discriminate].
  - destruct (rstrip_spec h) as (k & Ek & R). rewrite Ed in *. assert (Dn : d <> []).
    { intros ->. cbn [app] in Ek. rewrite Ek in As. assert (X : all_slashes (repeat slash k) = true) by (clear; induction k as [|k IH]; [reflexivity | exact IH]). congruence. }
    assert (Ld : length d <= length h) by (rewrite Ek, app_length; lia).
    split; [rewrite D1, Ek, comps_repeat; reflexivity|]. split; [exact D2|]. split; [right; split; [exact Dn | right; destruct R; [contradiction | assumption]]|].
    split; [intros _; rewrite Hb; [rewrite Ek; destruct d; [contradiction | reflexivity] | intros ->; destruct d; [contradiction | discriminate]]|]. split; [contradiction|]. split; [exact N|]. split; [lia|]. split; [intros X; destruct n2; [contradiction | cbn [length] in Lt; lia] | right; exact Dn].
Qed.
Section Files.
Variables dir node : Type.
Variable root : dir.
Variable enter : dir -> text -> option dir.
Variable here : dir -> text -> option node.
Notation go := (go dir enter). Notation start_of := (start_of dir root). Notation seen_from := (seen_from dir node root enter here). Notation found_along := (found_along dir node root enter here).
Notation search := (search dir node root enter here). Notation lookup := (filedir_lookup dir root enter).
Lemma go_app : forall a b d, go d (a ++ b) = match go d a with Some x => go x b | None => None end.
Proof. induction a as [|x a IH]; intros b d; [reflexivity|]. cbn [app CscSpec.go]. destruct (enter d x); [apply IH | reflexivity]. Qed.
Lemma start_same : forall d t u, begins_slash t = begins_slash u -> start_of d t = start_of d u.
Proof. intros d t u E. assert (K : forall v, start_of d v = if begins_slash v then root else d) by (intros [|c v]; reflexivity). rewrite !K, E. reflexivity. Qed.
Lemma comps_name : forall t d n, os_split t = (d, n) -> n <> [] -> comps t = comps d ++ [n].
Proof.
  intros t d n E Hn. destruct (split_clean t d n E) as (D1 & D2 & _ & _ & _ & N & _). rewrite <- D1, <- D2. unfold comps, dirs_of, last_of. assert (P : pieces t <> []).
  { destruct t as [|c t]; [discriminate|]. cbn [pieces]. destruct (Ascii.eqb c "/"); [discriminate|]. destruct (pieces t); discriminate. }
  rewrite (app_removelast_last [] P) at 1. rewrite filter_app. f_equal. unfold last_of in D2. rewrite D2. destruct n; [contradiction | reflexivity].
Qed.
Lemma lookup_go : forall fuel fd p, clean fd -> length fd < fuel -> lookup fuel p fd = go (start_of p fd) (comps fd).
Proof.
  induction fuel as [|fuel IH]; intros fd p [Ne W] Lf; [lia|]. cbn [filedir_lookup]. destruct (os_split fd) as [d n] eqn:E. destruct (split_clean fd d n E) as (_ & _ & C & B1 & B2 & N & L1 & L2 & TE).
  destruct n as [|x n].
  - assert (As : all_slashes fd = true).
    { destruct W as [W|(a & c & -> & Hc)]; [exact W|]. exfalso. unfold os_split in E. destruct (rsplit_spec (a ++ [c])) as (h & n2 & E2 & T & _ & Hh). rewrite E2 in E. injection E as _ ->. rewrite app_nil_r in T.
      destruct Hh as [-> |(h2 & ->)]; [destruct a; discriminate|]. apply app_inj_tail in T as [_ T]. contradiction. }
    destruct d as [|c d]; [destruct TE; congruence|]. assert (Bc : begins_slash fd = true) by (destruct fd as [|y fd]; [contradiction|]; cbn [all_slashes forallb] in As; apply andb_true_iff in As as [As _]; apply is_eq in As; subst; reflexivity).
    rewrite (B1 ltac:(discriminate)) in Bc. cbn [begins_slash] in Bc. apply Ascii.eqb_eq in Bc. subst c. change (is "/" "/") with true. cbv iota. rewrite (comps_slashes fd As). unfold CscSpec.start_of. destruct fd as [|y fd]; [contradiction|].
    cbn [all_slashes forallb] in As. apply andb_true_iff in As as [As _]. apply is_eq in As. subst y. reflexivity.
  - rewrite (comps_name fd d (x :: n) E) by discriminate. destruct d as [|c d].
    + cbn [CscSpec.go app]. rewrite (start_same p fd [] (B2 eq_refl)). cbn. destruct (enter p (x :: n)); reflexivity.
    + rewrite (IH (c :: d) p); [|destruct C as [C|C]; [discriminate | exact C] | specialize (L2 ltac:(discriminate)); lia]. rewrite go_app, (start_same p fd (c :: d) (B1 ltac:(discriminate))).
      destruct (go (start_of p (c :: d)) (comps (c :: d))) as [p2|]; [|reflexivity]. cbn [CscSpec.go]. destruct (enter p2 (x :: n)); reflexivity.
Qed.
Lemma first_found_spec : forall n ps, first_found dir node here n ps = match find (fun d => match here d n with Some _ => true | None => false end) ps with Some d => here d n | None => None end.
Proof. intros n ps. induction ps as [|d ps IH]; [reflexivity|]. cbn [first_found find]. destruct (here d n) eqn:E; [rewrite E; reflexivity | exact IH]. Qed.
Fixpoint first_seen (t : text) (ps : list dir) : option node := match ps with [] => None | d :: ps => match seen_from d t with Some x => Some x | None => first_seen t ps end end.
Lemma search_seen : forall t ps, search t ps = first_seen t ps.
Proof.
  intros t ps. unfold CscModel.search. destruct (os_split t) as [d n] eqn:E. destruct (split_clean t d n E) as (D1 & D2 & C & B1 & B2 & _). induction ps as [|p ps IH].
  - destruct d; reflexivity.
  - cbn [first_seen]. rewrite <- IH. clear IH. unfold CscSpec.seen_from. rewrite D1, D2. destruct d as [|c d].
    + rewrite (start_same p t [] (B2 eq_refl)). cbn. reflexivity.
    + assert (Cd : clean (c :: d)) by (destruct C as [C|C]; [discriminate | exact C]). cbn [filter_map flat_map]. rewrite (lookup_go (S (length (c :: d))) (c :: d) p Cd) by lia. rewrite (start_same p t (c :: d) (B1 ltac:(discriminate))).
      destruct (go (start_of p (c :: d)) (comps (c :: d))) as [p2|]; reflexivity.
Qed.
Lemma seen_some : forall t ps n, first_seen t ps = Some n <-> found_along ps t n.
Proof.
  intros t ps n. split.
  - induction ps as [|p ps IH]; intros E; [discriminate|]. cbn [first_seen] in E. destruct (seen_from p t) as [x|] eqn:Ep.
    + injection E as ->. exists [], p, ps. split; [reflexivity|]. split; [exact Ep | intros y []].
    + destruct (IH E) as (a & d & b & -> & H1 & H2). exists (p :: a), d, b. split; [reflexivity|]. split; [exact H1|]. intros y [<- |Hy]; [exact Ep | apply H2, Hy].
  - intros (a & d & b & -> & H1 & H2). induction a as [|p a IH]; cbn [app first_seen]; [rewrite H1; reflexivity|]. rewrite (H2 p (or_introl eq_refl)). apply IH. intros y Hy. apply H2. right. exact Hy.
Qed.
Lemma seen_none : forall t ps, first_seen t ps = None <-> forall d, In d ps -> seen_from d t = None.
Proof.
  intros t ps. induction ps as [|p ps IH]; [split; [intros _ d [] | reflexivity]|]. cbn [first_seen]. split.
  - destruct (seen_from p t) eqn:E; [discriminate|]. intros X d [<- |Hd]; [exact E | apply (proj1 IH X d Hd)].
  - intros X. rewrite (X p (or_introl eq_refl)). apply IH. intros d Hd. apply X. right. exact Hd.
Qed.
(* ---- with the memory ---- *)
Variable dir_eqb : dir -> dir -> bool.
Hypothesis DE : forall a b, dir_eqb a b = true <-> a = b.
Notation faithful := (faithful dir node root enter here).
Lemma list_eqb_eq : forall (A : Type) (e : A -> A -> bool), (forall a b, e a b = true -> a = b) -> forall a b, list_eqb e a b = true -> a = b.
Proof. intros A e He. induction a as [|x a IH]; intros [|y b] X; try discriminate; [reflexivity|]. cbn [list_eqb] in X. apply andb_true_iff in X as [X1 X2]. f_equal; [apply He, X1 | apply IH, X2]. Qed.
Lemma recall_in : forall m f ps r, recall dir node dir_eqb m f ps = Some r -> In ((f, ps), r) m.
Proof.
  induction m as [|[[f2 ps2] r2] m IH]; intros f ps r X; [discriminate|]. cbn [recall] in X. destruct (list_eqb Ascii.eqb f f2 && list_eqb dir_eqb ps ps2) eqn:E; [|right; apply IH, X]. injection X as ->. apply andb_true_iff in E as [E1 E2].
  apply list_eqb_eq in E1; [|intros a b; apply Ascii.eqb_eq]. apply list_eqb_eq in E2; [|intros a b; apply DE]. subst. left. reflexivity.
Qed.
Lemma find_file_seen : forall m f ps x m2, faithful m -> find_file dir node root enter here dir_eqb m f ps = (x, m2) -> x = first_seen f ps /\ faithful m2.
Proof.
  intros m f ps x m2 F E. unfold find_file in E. destruct (recall dir node dir_eqb m f ps) as [r|] eqn:Er.
  - injection E as <- <-. split; [|exact F]. specialize (F f ps r (recall_in m f ps r Er)). destruct r as [n|]; symmetry; [apply seen_some, F | apply seen_none, F].
  - rewrite search_seen in E. injection E as <- <-. split; [reflexivity|]. intros f2 ps2 r [X|X]; [|apply (F f2 ps2 r X)]. injection X as -> -> <-. destruct (first_seen f2 ps2) as [n|] eqn:Es; [apply seen_some, Es | apply seen_none, Es].
Qed.
(* C68d: a file that is found is the first one along the directories; if none is found there is none *)
Theorem C68d_find_file : forall m f ps x m2, faithful m -> find_file dir node root enter here dir_eqb m f ps = (x, m2) ->
  faithful m2 /\ match x with Some n => found_along ps f n | None => forall d, In d ps -> seen_from d f = None end.
Proof. intros m f ps x m2 F E. destruct (find_file_seen m f ps x m2 F E) as [-> F2]. split; [exact F2|]. destruct (first_seen f ps) as [n|] eqn:Es; [apply seen_some, Es | apply seen_none, Es]. Qed.

(* ---- scan ---- *)
Variables (source_dir : dir) (path : list dir).
Definition one (i : ascii * text) : list (text * node) := match first_seen (snd i) (order dir (fst i) source_dir path) with Some n => [(sort_key i, n)] | None => [] end.
Lemma paths_order : forall q, paths_for dir q source_dir path = order dir q source_dir path.
Proof. intros q. unfold paths_for, order, is. rewrite (Ascii.eqb_sym """" q). reflexivity. Qed.
Lemma find_all_eq : forall is_ m l m2, faithful m -> find_all dir node root enter here dir_eqb m source_dir path is_ = (l, m2) -> l = flat_map one is_ /\ faithful m2.
Proof.
  induction is_ as [|i is_ IH]; intros m l m2 F E; [cbn in E; injection E as <- <-; auto|]. cbn [find_all] in E. rewrite paths_order in E.
  destruct (find_file dir node root enter here dir_eqb m (snd i) (order dir (fst i) source_dir path)) as [x m1] eqn:E1. destruct (find_file_seen _ _ _ _ _ F E1) as [-> F1].
  destruct (find_all dir node root enter here dir_eqb m1 source_dir path is_) as [l2 m3] eqn:E2. destruct (IH m1 l2 m3 F1 E2) as [-> F2]. cbn [flat_map]. unfold one at 1. destruct (first_seen (snd i) (order dir (fst i) source_dir path)); injection E as <- <-; auto.
Qed.
Lemma leb_total : forall a b, leb a b = true \/ leb b a = true.
Proof.
  induction a as [|x a IH]; intros [|y b]; cbn [leb]; auto. destruct (nat_of_ascii x =? nat_of_ascii y) eqn:E.
  - rewrite Nat.eqb_sym in E. rewrite E. apply IH.
  - rewrite Nat.eqb_sym in E. rewrite E. apply Nat.eqb_neq in E. destruct (Nat.lt_ge_cases (nat_of_ascii x) (nat_of_ascii y)); [left | right]; apply Nat.ltb_lt; lia.
Qed.
Lemma leb_trans : forall a b c, leb a b = true -> leb b c = true -> leb a c = true.
Proof.
  induction a as [|x a IH]; intros [|y b] [|z c] H1 H2; cbn [leb] in *; try reflexivity; try discriminate.
  destruct (nat_of_ascii x =? nat_of_ascii y) eqn:E1, (nat_of_ascii y =? nat_of_ascii z) eqn:E2.
  - apply Nat.eqb_eq in E1, E2. rewrite E1, E2, Nat.eqb_refl. apply (IH b c H1 H2).
  - apply Nat.eqb_eq in E1. rewrite E1, E2. exact H2.
  - apply Nat.eqb_eq in E2. rewrite <- E2, E1. exact H1.
  - apply Nat.ltb_lt in H1, H2. assert (X : nat_of_ascii x =? nat_of_ascii z = false) by (apply Nat.eqb_neq; lia). rewrite X. apply Nat.ltb_lt. lia.
Qed.
Lemma leb_anti : forall a b, leb a b = true -> leb b a = true -> a = b.
Proof.
  induction a as [|x a IH]; intros [|y b] H1 H2; cbn [leb] in *; try reflexivity; try discriminate. destruct (nat_of_ascii x =? nat_of_ascii y) eqn:E.
  - rewrite Nat.eqb_sym, E in H2. apply Nat.eqb_eq in E. f_equal; [rewrite <- (ascii_nat_embedding x), <- (ascii_nat_embedding y), E; reflexivity | apply (IH b H1 H2)].
  - rewrite Nat.eqb_sym, E in H2. apply Nat.ltb_lt in H1, H2. lia.
Qed.
Notation insert := (insert node). Notation sort := (sort node).
Lemma insert_perm : forall x l, Permutation (x :: l) (insert x l).
Proof. intros x l. induction l as [|y l IH]; [reflexivity|]. cbn [CscModel.insert]. destruct (leb (fst x) (fst y)); [reflexivity|]. rewrite perm_swap. constructor. exact IH. Qed.
Lemma sort_perm : forall l, Permutation l (sort l).
Proof. induction l as [|x l IH]; [constructor|]. cbn [CscModel.sort]. rewrite <- insert_perm. constructor. exact IH. Qed.
Inductive ordered : list (text * node) -> Prop := o_nil : ordered [] | o_cons x l : (forall y, In y l -> leb (fst x) (fst y) = true) -> ordered l -> ordered (x :: l).
Lemma insert_ordered : forall x l, ordered l -> ordered (insert x l).
Proof.
  intros x l O. induction O as [|y l Hy O IH]; [constructor; [intros z []|constructor]|]. cbn [CscModel.insert]. destruct (leb (fst x) (fst y)) eqn:E.
  - constructor; [|constructor; assumption]. intros z [<- |Hz]; [exact E | apply (leb_trans _ _ _ E (Hy z Hz))].
  - constructor; [|exact IH]. intros z Hz. apply (Permutation_in z (Permutation_sym (insert_perm x l))) in Hz. destruct Hz as [<- |Hz]; [|apply Hy, Hz]. destruct (leb_total (fst x) (fst y)) as [X|X]; [congruence | exact X].
Qed.
Lemma sort_ordered : forall l, ordered (sort l).
Proof. induction l as [|x l IH]; [constructor | apply insert_ordered, IH]. Qed.
Lemma ordered_unique : forall l l2, ordered l -> ordered l2 -> Permutation l l2 -> (forall x y, In x l -> In y l -> fst x = fst y -> x = y) -> l = l2.
Proof.
  intros l l2 O. revert l2. induction O as [|x l Hx O IH]; intros l2 O2 P K; [apply Permutation_nil in P; congruence|]. destruct O2 as [|y l2 Hy O2]; [symmetry in P; apply Permutation_nil in P; discriminate|].
  assert (E : x = y).
  { apply K; [left; reflexivity | apply (Permutation_in y (Permutation_sym P)); left; reflexivity|]. apply leb_anti.
    - assert (X : In y (x :: l)) by (apply (Permutation_in y (Permutation_sym P)); left; reflexivity). destruct X as [<- |X]; [destruct (leb_total (fst x) (fst x)); assumption | apply Hx, X].
    - assert (X : In x (y :: l2)) by (apply (Permutation_in x P); left; reflexivity). destruct X as [<- |X]; [destruct (leb_total (fst y) (fst y)); assumption | apply Hy, X]. }
  subst y. f_equal. apply IH; [exact O2 | apply (Permutation_cons_inv P) | intros a b Ha Hb; apply K; right; assumption].
Qed.
Lemma one_key : forall i j x y, In x (one i) -> In y (one j) -> fst x = fst y -> x = y.
Proof.
  intros i j x y Hx Hy E. assert (Ei : fst x = sort_key i) by (unfold one in Hx; destruct (first_seen (snd i) _); [destruct Hx as [<- |[]]; reflexivity | destruct Hx]).
  assert (Ej : fst y = sort_key j) by (unfold one in Hy; destruct (first_seen (snd j) _); [destruct Hy as [<- |[]]; reflexivity | destruct Hy]). rewrite Ei, Ej in E. unfold sort_key in E. injection E as E1 E2.
  assert (X : i = j) by (destruct i, j; cbn in *; congruence). subst j. unfold one in Hx, Hy. destruct (first_seen (snd i) _); [|destruct Hx]. destruct Hx as [<- |[]], Hy as [<- |[]]. reflexivity.
Qed.
Notation scan := (scan dir node root enter here dir_eqb).
(* C68e: the files a text depends on are those its names stand for; what the node and find_file remember makes no difference *)
Theorem C68e_scan : forall m mem contents r mem2 m2, faithful m -> (forall l, mem = Some l -> l = include_names contents) -> scan m mem contents source_dir path = (r, mem2, m2) ->
  faithful m2 /\ mem2 = Some (include_names contents) /\ forall n, In n r <-> exists q f, In (q, f) (include_names contents) /\ found_along (order dir q source_dir path) f n.
Proof.
  intros m mem contents r mem2 m2 F HM E. unfold CscModel.scan in E. assert (EI : match mem with Some l => l | None => include_names contents end = include_names contents) by (destruct mem as [l|]; [apply HM|]; reflexivity). rewrite EI in E.
  destruct (find_all dir node root enter here dir_eqb m source_dir path (include_names contents)) as [l m3] eqn:Ef. destruct (find_all_eq _ _ _ _ F Ef) as [-> F2]. injection E as <- <- <-. split; [exact F2|]. split; [reflexivity|]. intros n. rewrite in_map_iff. split.
  - intros ([k x] & <- & Hx). apply (Permutation_in _ (Permutation_sym (sort_perm _))) in Hx. apply in_flat_map in Hx as ([q f] & Hi & Hx). exists q, f. split; [exact Hi|]. unfold one in Hx. cbn [fst snd] in Hx. destruct (first_seen f (order dir q source_dir path)) as [z|] eqn:Es; [|destruct Hx].
    destruct Hx as [Hx|[]]. injection Hx as _ ->. apply seen_some, Es.
  - intros (q & f & Hi & Hf). apply seen_some in Hf. exists (sort_key (q, f), n). split; [reflexivity|]. apply (Permutation_in _ (sort_perm _)). apply in_flat_map. exists (q, f). split; [exact Hi|]. unfold one. cbn [fst snd]. rewrite Hf. left. reflexivity.
Qed.
(* C68f: the order of the lines makes no difference, and neither does where the files are found *)
Theorem C68f_order : forall m m2 contents contents2 r1 r2 i1 i2 m3 m4, faithful m -> faithful m2 -> Permutation (include_names contents) (include_names contents2) ->
  scan m None contents source_dir path = (r1, i1, m3) -> scan m2 None contents2 source_dir path = (r2, i2, m4) -> r1 = r2.
Proof.
  intros m m2 c1 c2 r1 r2 i1 i2 m3 m4 F1 F2 P E1 E2. unfold CscModel.scan in E1, E2.
  destruct (find_all dir node root enter here dir_eqb m source_dir path (include_names c1)) as [l1 n1] eqn:Ef1. destruct (find_all_eq _ _ _ _ F1 Ef1) as [-> _].
  destruct (find_all dir node root enter here dir_eqb m2 source_dir path (include_names c2)) as [l2 n2] eqn:Ef2. destruct (find_all_eq _ _ _ _ F2 Ef2) as [-> _]. injection E1 as <- _ _. injection E2 as <- _ _. f_equal.
  apply ordered_unique; [apply sort_ordered | apply sort_ordered | |].
  - rewrite <- !sort_perm. apply Permutation_flat_map. exact P.
  - intros x y Hx Hy. apply (Permutation_in _ (Permutation_sym (sort_perm _))) in Hx, Hy. apply in_flat_map in Hx as (i & _ & Hx). apply in_flat_map in Hy as (j & _ & Hy). apply (one_key i j x y Hx Hy).
Qed.
End Files.
Print Assumptions C68d_find_file. Print Assumptions C68e_scan. Print Assumptions C68f_order.
