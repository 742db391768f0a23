(* C69: LIBS: the library the linker picks is a dependency. *)
From Coq Require Import Ascii String List Bool Arith Lia.
Import ListNotations.
From Verif Require Import NameModel NameProps NameProps2 LibModel LibSpec LibProps LibProps2.
From Verif Require CscModel CscSpec CscProps2 FlagModel.
Open Scope list_scope.

Lemma no_ext_ordinary : forall n, ~ has_ext n -> ordinary_ext n n [].
Proof. intros n H. pose proof (has_ext_dec n) as D. pose proof (splitext_ordinary n) as O. destruct (snd (splitext n)); [|contradiction]. destruct O as [_ O]. split; [symmetry; apply app_nil_r | exact O]. Qed.
Lemma ordinary_no_ext : forall n, ordinary_ext n n [] -> ~ has_ext n.
Proof. intros n O H. exact (H _ _ O eq_refl). Qed.
Lemma no_ext_prefix : forall p n, ~ In DOT p -> (~ has_ext n <-> ~ has_ext (p ++ n)).
Proof.
  intros p n Hp. split; intros H; apply no_ext_ordinary in H; apply ordinary_no_ext; destruct H as [_ H]; (split; [symmetry; apply app_nil_r|]); left; (split; [reflexivity|]); destruct H as [[_ H]|(t & X & _)]; try discriminate; intros r t E ND NS.
  - destruct (app_eq_app _ _ _ _ E) as (k & [[E1 E2]|[E1 E2]]).
    + destruct k as [|c k]; cbn in E2; [symmetry in E2; apply (H [] t E2 ND NS)|]. injection E2 as <- E2. exfalso. apply Hp. rewrite E1. apply in_or_app. right. left. reflexivity.
    + apply (H k t E2 ND NS).
  - apply (H (p ++ r) t); [rewrite E, app_assoc; reflexivity | exact ND | exact NS].
Qed.
Lemma suffix_ext : forall n s, lib_suffix s -> ends n s -> has_ext n.
Proof.
  intros n s (t & -> & H1 & H2 & H3) [r ->] root ext O. assert (O2 : ordinary_ext (r ++ DOT :: t) r (DOT :: t)) by (split; [reflexivity|]; right; exists t; split; [reflexivity | split; [exact H1 | split; [exact H2 | right; exact H3]]]).
  destruct (ordinary_unique _ _ _ _ _ O O2) as [_ ->]. discriminate.
Qed.
Lemma suffix_slash : forall s, lib_suffix s -> ~ In SLASH s.
Proof. intros s (t & -> & _ & H & _) [X|X]; [discriminate | contradiction]. Qed.
Lemma pieces_plain : forall n, ~ In SLASH n -> CscSpec.pieces n = [n].
Proof. induction n as [|c n IH]; intros H; [reflexivity|]. cbn [CscSpec.pieces]. destruct (Ascii.eqb c "/") eqn:E; [apply Ascii.eqb_eq in E as ->; exfalso; apply H; left; reflexivity|]. rewrite IH; [reflexivity | intros X; apply H; right; exact X]. Qed.
Lemma strip_plain : forall pre ss n, lib_prefix pre -> (forall s, In s ss -> lib_suffix s) -> ~ has_ext n -> n <> pre -> n <> [] ->
  exists m, strip [pre] ss n = m /\ m <> [] /\ ~ has_ext m /\ (n = pre ++ m \/ ~ begins n pre /\ m = n).
Proof.
  intros pre ss n [HD HS] Hss NX NP NN. assert (G : exists m, strip_prefix [pre] n = m /\ m <> [] /\ ~ has_ext m /\ (n = pre ++ m \/ ~ begins n pre /\ m = n)).
  { cbn [strip_prefix]. destruct (startswith n pre) eqn:E.
    - apply startswith_spec in E as [m ->]. exists m. rewrite skipn_app, skipn_all, Nat.sub_diag. split; [reflexivity|]. split; [intros ->; apply NP, app_nil_r|]. split; [apply (no_ext_prefix pre m HD), NX | left; reflexivity].
    - exists n. split; [reflexivity|]. split; [exact NN|]. split; [exact NX|]. right. split; [|reflexivity]. intros B. apply startswith_spec in B. congruence. }
  destruct G as (m & E & M1 & M2 & M3). exists m. split; [|auto]. unfold strip. rewrite E. destruct (strip_suffix_cut ss m) as [a s b r E1 E2 E3 _|_]; [|reflexivity]. exfalso. apply M2, (suffix_ext m s); [apply Hss; rewrite E1; apply in_or_app; right; left; reflexivity | exists r; exact E3].
Qed.

Section Lib.
Variable node : Type.
Variable is_file : node -> bool.
Variable name_of : node -> text.
Variable dir : Type.
Variable root : dir.
Variable enter : dir -> text -> option dir.
Variable here : dir -> text -> option node.
Variable dir_eqb : dir -> dir -> bool.
Hypothesis DE : forall a b, dir_eqb a b = true <-> a = b.
Notation faithful := (CscSpec.faithful dir node root enter here).
Notation found_along := (CscSpec.found_along dir node root enter here).
Notation scan := (scan node dir root enter here dir_eqb).
Notation flags := (lib_flags node is_file name_of).
Notation linked := (linked node dir here).
Notation plain_libs := (plain_libs node is_file).

Lemma seen_plain : forall d n, ~ In SLASH n -> CscSpec.seen_from dir node root enter here d n = here d n.
Proof.
  intros d n H. unfold CscSpec.seen_from, CscSpec.dirs_of, CscSpec.last_of. rewrite pieces_plain by exact H. cbn [removelast filter CscSpec.go last]. unfold CscSpec.start_of. destruct n as [|c n]; [reflexivity|].
  destruct (Ascii.eqb c "/") eqn:E; [|reflexivity]. apply Ascii.eqb_eq in E as ->. exfalso. apply H. left. reflexivity.
Qed.
Lemma picks_found : forall pre ss path stem n, ~ In SLASH pre -> ~ In SLASH stem -> (forall s, In s ss -> ~ In SLASH s) -> picks node dir here pre ss path stem n -> exists s, In s ss /\ found_along path (pre ++ stem ++ s) n.
Proof.
  intros pre ss path stem n HP HT HS (a & d & b & -> & (s & Hs & E) & N). exists s. split; [exact Hs|]. assert (NS : ~ In SLASH (pre ++ stem ++ s)) by (rewrite !in_app_iff; intros [X|[X|X]]; [exact (HP X) | exact (HT X) | exact (HS s Hs X)]).
  exists a, d, b. split; [reflexivity|]. split; [rewrite seen_plain by exact NS; exact E|]. intros x Hx. rewrite seen_plain by exact NS. destruct (here x (pre ++ stem ++ s)) as [n2|] eqn:E2; [|reflexivity]. exfalso. apply (N x Hx n2). exists s. split; assumption.
Qed.
(* the case of one name *)
Lemma name_linked : forall pre ss literal path nm w n, lib_prefix pre -> (forall s, In s ss -> lib_suffix s) -> plain_name pre literal nm ->
  In w (concat_one node (lit "-l") [] (stripped node is_file name_of [pre] ss literal (Name nm))) -> linked pre ss path w n -> exists s, In s ss /\ found_along path (adjustixes nm pre s false) n.
Proof.
  intros pre ss literal path nm w n HP HS (G & NX & NP & NL & ND & NDP & NB) Hw L. cbn [stripped] in Hw. fold (stem_of [pre] ss literal nm) in Hw. unfold stem_of in Hw.
  assert (EL : nonempty literal && startswith nm literal = false).
  { destruct (nonempty literal && startswith nm literal) eqn:E; [|reflexivity]. exfalso. apply andb_true_iff in E as [E1 E2]. apply NL. split; [destruct literal; discriminate | apply startswith_spec, E2]. }
  rewrite EL in Hw. destruct (strip_plain pre ss nm HP HS NX NP (proj1 G)) as (m & Em & M1 & M2 & M3). rewrite Em in Hw. destruct (concat_dash node m M1) as (w2 & E2 & D). rewrite E2 in Hw. destruct Hw as [<- |[]]. destruct L as (stem & E & PK).
  assert (NB2 : ~ begins m (lit "-l")) by (destruct M3 as [->|[_ ->]]; [|exact ND]; intros [t ->]; apply NDP; exists t; apply app_assoc).
  destruct D as [[X _]|[_ D]]; [contradiction|]. rewrite D in E. apply app_inv_head in E. subst stem. assert (HSs : forall s, In s ss -> ~ In SLASH s) by (intros s Hs; apply suffix_slash, HS, Hs).
  assert (NSm : ~ In SLASH m) by (destruct G as (_ & _ & _ & G); destruct M3 as [->|[_ ->]]; [intros X; apply G, in_or_app; right; exact X | exact G]).
  destruct (picks_found pre ss path m n (proj2 HP) NSm HSs PK) as (s & Hs & FA). exists s. split; [exact Hs|].
  destruct (adjust_good nm pre s G (proj2 HP) (HSs s Hs)) as (w1 & w & A1 & A2 & -> & _). assert (w1 = pre ++ m) as ->.
  { destruct A1 as [[A ->]|(A & A2' & ->)]; destruct M3 as [M|[MB M]].
    - exact M.
    - destruct A as [[A _]|A]; [contradiction|]. subst pre. exact (eq_sym M).
    - exfalso. apply A. split; [exists m; exact M | intros X; apply NP; exact X].
    - rewrite M. reflexivity. }
  destruct A2 as [[[X|[_ X]] ->]|[_ ->]].
  - exfalso. apply (suffix_ext _ s (HS s Hs)) in X. revert X. apply (no_ext_prefix pre m (proj1 HP)), M2.
  - exfalso. revert X. apply (no_ext_prefix pre m (proj1 HP)), M2.
  - rewrite <- app_assoc. exact FA.
Qed.
Lemma split_plain : forall s, ~ In ":"%char s -> split_on ":" s = [s].
Proof. induction s as [|c s IH]; intros H; [reflexivity|]. cbn [split_on]. destruct (Ascii.eqb c ":") eqn:E; [apply Ascii.eqb_eq in E as ->; exfalso; apply H; left; reflexivity|]. rewrite IH; [reflexivity | intros X; apply H; right; exact X]. Qed.
(* C69c: with libraries by plain names and as File nodes, whatever library the linker reads for a word of the command line, the program depends on it: whichever suffix the linker prefers *)
Theorem C69c_linked_library : forall m l pre ss literal path r m2 w n, faithful m -> lib_prefix pre -> (forall s, In s ss -> lib_suffix s) -> plain_libs pre literal l ->
  scan m (Some l) (Some [pre]) (Some ss) path = (r, m2) -> In w (flags l [pre] ss literal) -> linked pre ss path w n -> In n r.
Proof.
  intros m l pre ss literal path r m2 w n Fm HP HS PL E Hw L. apply (proj2 (scan_in node dir root enter here dir_eqb DE m l [pre] ss path r m2 Fm E) n). rewrite flags_eq in Hw. apply in_flat_map in Hw as (x & Hx & Hw). unfold path_list in Hx. apply filter_In in Hx as [Hx _].
  assert (X : forall nm, x = Name nm -> plain_name pre literal nm -> wanted_name node l nm -> wanted_node node l n \/ exists lib p s, wanted_name node l lib /\ In p [pre] /\ In s ss /\ found_along path (adjustixes lib p s false) n).
  { intros nm -> PN WN. right. destruct (name_linked pre ss literal path nm w n HP HS PN Hw L) as (s & Hs & FA). exists nm, pre, s. split; [exact WN|]. split; [left; reflexivity|]. split; assumption. }
  destruct l as [s|its]; cbn [LibSpec.plain_libs] in PL.
  - destruct PL as [PN NC]. apply (X s); [|exact PN | cbn [LibSpec.wanted_name]; rewrite split_word; [left; reflexivity | apply PN | apply PN]].
    rewrite split_plain in Hx by exact NC. destruct (negb (str_eqb literal colon)); destruct Hx as [<- |[]]; reflexivity.
  - specialize (PL x Hx). destruct x as [nm|o]; cbn [LibSpec.plain_item] in PL.
    + apply (X nm); [reflexivity | exact PL|]. cbn [LibSpec.wanted_name]. exists nm. split; [exact Hx|]. rewrite split_word; [left; reflexivity | apply PL | apply PL].
    + left. cbn [stripped] in Hw. rewrite PL in Hw. destruct Hw as [<- |[]]. cbn [LibSpec.linked] in L. subst n. exact Hx.
Qed.
End Lib.
Print Assumptions C69c_linked_library.
