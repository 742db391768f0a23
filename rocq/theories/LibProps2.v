(* C69: LIBS: the files a program depends on. *)
From Coq Require Import Ascii String List Bool Arith Lia.
Import ListNotations.
From Verif Require Import NameModel NameProps NameProps2 LibModel LibSpec LibProps.
From Verif Require CscModel CscSpec CscProps2 FlagModel.
Open Scope list_scope.

Lemma split_word : forall s, s <> [] -> (forall c, In c s -> FlagModel.is_space c = false) -> FlagModel.py_split s = [s].
Proof.
  intros s Hs Hc. unfold FlagModel.py_split. assert (G : forall r cur, (forall c, In c r -> FlagModel.is_space c = false) -> cur ++ r <> [] -> FlagModel.words_acc cur r = [cur ++ r]).
  { induction r as [|c r IH]; intros cur Hr Hn; cbn [FlagModel.words_acc].
    - rewrite app_nil_r in *. destruct cur; [contradiction | reflexivity].
    - rewrite (Hr c (or_introl eq_refl)). rewrite IH; [rewrite <- app_assoc; reflexivity | intros x Hx; apply Hr; right; exact Hx | rewrite <- app_assoc; exact Hn]. }
  apply (G s []); assumption.
Qed.
Lemma adjust_good : forall n p s, good n -> ~ In SLASH p -> ~ In SLASH s -> exists w1 w, prefixed p n w1 /\ suffixed s false w1 w /\ adjustixes n p s false = w /\ good w.
Proof.
  intros n p s G Hp Hs. rewrite adjustixes_eq. assert (FC : file_called n n) by (split; [exact G | left; reflexivity]).
  destruct (add_prefix_spec n n p FC Hp) as (w1 & D & P1 & F1 & W1). destruct (add_suffix_spec _ w1 s false F1 Hs) as (w & D2 & S2 & F2 & W2). exists w1, w. split; [exact P1 | split; [exact S2|]].
  assert (E : add_prefix n p = w1).
  { unfold add_prefix. destruct p as [|c p]; [destruct P1 as [[_ ->]|[_ [X _]]]; [reflexivity | contradiction]|].
    destruct (path_split (normpath n)) as [path fn] eqn:PS. assert (GP : good ((c :: p) ++ n)) by (apply good_pre; assumption). destruct (rename n n ((c :: p) ++ n) FC GP path fn PS) as [-> _].
    assert (path = []) as ->.
    { clear - PS G. destruct G as (G1 & G2 & G3 & G4). assert (EN : normpath n = n).
      { unfold normpath, comps. rewrite split_on_free by exact G4. assert (S0 : slashes n = 0) by (unfold slashes; destruct (startswith n (lit "/")) eqn:E; [exfalso; apply startswith_spec in E as [t ->]; apply G4; left; reflexivity | reflexivity]). rewrite S0. cbn [Nat.eqb negb repeat app fold_left]. unfold norm_step.
        destruct (str_eqb n []) eqn:E1; [apply str_eqb_spec in E1; contradiction|]. destruct (str_eqb n (lit ".")) eqn:E2; [apply str_eqb_spec in E2; contradiction|]. destruct (str_eqb n (lit "..")) eqn:E3; [apply str_eqb_spec in E3; contradiction|]. cbn [orb negb rev app join_with]. destruct n; [contradiction | reflexivity]. }
      rewrite EN in PS. unfold path_split in PS. destruct (rfind SLASH n) as [i|] eqn:E.
      - exfalso. pose proof (rfind_spec SLASH n) as R. rewrite E in R. apply G4. destruct R as (a & b & -> & _). apply in_or_app. right. left. reflexivity.
      - cbn in PS. injection PS as <-. reflexivity. }
    destruct P1 as [[[[B N]|X] ->]|(N & _ & ->)]; [|discriminate|].
    - apply startswith_spec in B. rewrite B. apply str_eqb_neq in N. rewrite N. reflexivity.
    - replace (negb (startswith n (c :: p)) || str_eqb n (c :: p)) with true; [|symmetry; apply orb_true_iff; destruct (startswith n (c :: p)) eqn:B; [right; apply str_eqb_spec; destruct (str_dec n (c :: p)) as [X|X]; [exact X | exfalso; apply N; split; [apply startswith_spec, B | exact X]] | left; reflexivity]].
      unfold path_join. destruct (startswith ((c :: p) ++ n) (lit "/")) eqn:B; [|reflexivity]. reflexivity. }
  rewrite E in *. clear E W2 D2. assert (G1 : good w1) by apply F1. split; [|apply F2].
  unfold add_suffix in *. destruct s as [|c s]; [destruct S2 as [[_ ->]|[X ->]]; [reflexivity | exfalso; apply X; left; exists w1; symmetry; apply app_nil_r]|].
  pose proof (has_ext_dec w1) as HX. destruct S2 as [[[X|[_ X]] ->]|[X ->]].
  - apply endswith_spec in X. rewrite X. reflexivity.
  - destruct (snd (splitext w1)); [contradiction|]. rewrite andb_false_r. reflexivity.
  - destruct (endswith w1 (c :: s)) eqn:B; [exfalso; apply X; left; apply endswith_spec, B|]. destruct (snd (splitext w1)); [reflexivity|]. exfalso. apply X. right. split; [reflexivity | exact HX].
Qed.

Section Lib.
Variable node : Type.
Variable dir : Type.
Variable root : dir.
Variable enter : dir -> text -> option dir.
Variable here : dir -> text -> option node.
Variable dir_eqb : dir -> dir -> bool.
Hypothesis DE : forall a b, dir_eqb a b = true <-> a = b.
Notation faithful := (CscSpec.faithful dir node root enter here).
Notation found_along := (CscSpec.found_along dir node root enter here).
Notation first_seen := (CscProps2.first_seen dir node root enter here).
Notation scan := (scan node dir root enter here dir_eqb).
Notation find_libs := (find_libs node dir root enter here dir_eqb).
Notation find_pairs := (find_pairs node dir root enter here dir_eqb).

Lemma find_pairs_in : forall path lib prs m l m2, faithful m -> find_pairs m path lib prs = (l, m2) ->
  faithful m2 /\ forall n, In n l <-> exists p s, In (p, s) prs /\ found_along path (adjustixes lib p s false) n.
Proof.
  intros path lib. induction prs as [|[p s] prs IH]; intros m l m2 Fm E; cbn [LibModel.find_pairs] in E.
  - injection E as <- <-. split; [exact Fm|]. intros n. split; [intros [] | intros (p & s & [] & _)].
  - destruct (CscModel.find_file dir node root enter here dir_eqb m (adjustixes lib p s false) path) as [x m1] eqn:E1. destruct (CscProps2.find_file_seen dir node root enter here dir_eqb DE m _ path x m1 Fm E1) as [-> F1].
    destruct (find_pairs m1 path lib prs) as [l1 m3] eqn:E2. injection E as <- <-. destruct (IH m1 l1 m3 F1 E2) as [F3 H]. split; [exact F3|]. intros n.
    destruct (first_seen (adjustixes lib p s false) path) as [x|] eqn:Ex.
    + split.
      * intros [<- |Hn]; [exists p, s; split; [left; reflexivity | apply CscProps2.seen_some, Ex]|]. apply H in Hn as (p2 & s2 & H1 & H2). exists p2, s2. split; [right; exact H1 | exact H2].
      * intros (p2 & s2 & [X|X] & H2); [injection X as <- <-; left; apply CscProps2.seen_some in H2; congruence|]. right. apply H. exists p2, s2. split; assumption.
    + split; intros X.
      * apply H in X as (p2 & s2 & H1 & H2). exists p2, s2. split; [right; exact H1 | exact H2].
      * apply H. destruct X as (p2 & s2 & [X|X] & H2); [injection X as <- <-; apply CscProps2.seen_some in H2; congruence|]. exists p2, s2. split; assumption.
Qed.
Lemma find_libs_in : forall path prs its m l m2, faithful m -> find_libs m path prs its = (l, m2) ->
  faithful m2 /\ forall n, In n l <-> In (Obj n) its \/ exists lib p s, In (Name lib) its /\ In (p, s) prs /\ found_along path (adjustixes lib p s false) n.
Proof.
  intros path prs. induction its as [|[lib|o] its IH]; intros m l m2 Fm E; cbn [LibModel.find_libs] in E.
  - injection E as <- <-. split; [exact Fm|]. intros n. split; [intros [] | intros [[]|(lib & p & s & [] & _)]].
  - destruct (find_pairs m path lib prs) as [a m1] eqn:E1. destruct (find_libs m1 path prs its) as [b m3] eqn:E2. injection E as <- <-. destruct (find_pairs_in path lib prs m a m1 Fm E1) as [F1 H1]. destruct (IH m1 b m3 F1 E2) as [F3 H3].
    split; [exact F3|]. intros n. rewrite in_app_iff, H1, H3. split.
    + intros [(p & s & X1 & X2)|[X|(lib2 & p & s & X1 & X2 & X3)]]; [right; exists lib, p, s; split; [left; reflexivity | split; assumption] | left; right; exact X | right; exists lib2, p, s; split; [right; exact X1 | split; assumption]].
    + intros [[X|X]|(lib2 & p & s & [X1|X1] & X2 & X3)]; [discriminate | right; left; exact X | injection X1 as <-; left; exists p, s; split; assumption | right; right; exists lib2, p, s; split; [exact X1 | split; assumption]].
  - destruct (find_libs m path prs its) as [b m3] eqn:E2. injection E as <- <-. destruct (IH m b m3 Fm E2) as [F3 H3]. split; [exact F3|]. intros n. cbn [In]. rewrite H3. split.
    + intros [-> |[X|(lib2 & p & s & X1 & X2 & X3)]]; [left; left; reflexivity | left; right; exact X | right; exists lib2, p, s; split; [right; exact X1 | split; assumption]].
    + intros [[X|X]|(lib2 & p & s & [X1|X1] & X2 & X3)]; [injection X as ->; left; reflexivity | right; left; exact X | discriminate | right; right; exists lib2, p, s; split; [exact X1 | split; assumption]].
Qed.
Lemma pairs_in : forall ps ss p s, In (p, s) (pairs ps ss) <-> In p ps /\ In s ss.
Proof.
  intros ps ss p s. unfold pairs. rewrite in_flat_map. split.
  - intros (s2 & H1 & H2). apply in_map_iff in H2 as (p2 & X & H2). injection X as -> ->. split; assumption.
  - intros [H1 H2]. exists s. split; [exact H2|]. apply in_map_iff. exists p. split; [reflexivity | exact H1].
Qed.
Notation wanted_name := (wanted_name node).
Notation wanted_node := (wanted_node node).
Lemma subst_libs_in : forall l, (forall n, In (Name n) (subst_libs node l) <-> wanted_name l n) /\ (forall n, In (Obj n) (subst_libs node l) <-> wanted_node l n).
Proof.
  intros [s|its]; cbn [subst_libs LibSpec.wanted_name LibSpec.wanted_node].
  - split; intros n; rewrite in_map_iff; [|split; [intros (x & X & _); discriminate | intros []]]. split; [intros (x & X & H); injection X as <-; exact H | intros H; exists n; split; [reflexivity | exact H]].
  - split; intros n; rewrite in_flat_map; split.
    + intros ([s|o] & H1 & H2); cbn [subst_item] in H2; [|destruct H2 as [X|[]]; discriminate]. apply in_map_iff in H2 as (x & X & H2). injection X as <-. exists s. split; assumption.
    + intros (s & H1 & H2). exists (Name s). split; [exact H1|]. cbn [subst_item]. apply in_map. exact H2.
    + intros ([s|o] & H1 & H2); cbn [subst_item] in H2; [apply in_map_iff in H2 as (x & X & _); discriminate|]. destruct H2 as [X|[]]. injection X as <-. exact H1.
    + intros H. exists (Obj n). split; [exact H | left; reflexivity].
Qed.
Lemma scan_in : forall m l ps ss path r m2, faithful m -> scan m (Some l) (Some ps) (Some ss) path = (r, m2) ->
  faithful m2 /\ forall n, In n r <-> wanted_node l n \/ exists lib p s, wanted_name l lib /\ In p ps /\ In s ss /\ found_along path (adjustixes lib p s false) n.
Proof.
  intros m l ps ss path r m2 Fm E. unfold LibModel.scan in E. cbn [or_empty] in E. destruct (find_libs_in path _ _ m r m2 Fm E) as [F2 H]. split; [exact F2|]. intros n. rewrite H. destruct (subst_libs_in l) as [S1 S2]. rewrite S2. split; intros [X|(lib & p & s & X)].
  - left; exact X.
  - right. exists lib, p, s. rewrite S1, pairs_in in X. tauto.
  - left; exact X.
  - right. exists lib, p, s. rewrite S1, pairs_in. tauto.
Qed.
(* C69b: the program depends on the nodes in LIBS, and for each name, prefix and suffix on the first file along LIBPATH called so: the prefix is put before a name that has not got it, the suffix behind a name that has not got it and has no other extension *)
Theorem C69b_dependencies : forall m l ps ss path r m2, faithful m -> (forall n, wanted_name l n -> good n) -> (forall p, In p ps -> ~ In SLASH p) -> (forall s, In s ss -> ~ In SLASH s) ->
  scan m (Some l) (Some ps) (Some ss) path = (r, m2) ->
  faithful m2 /\ forall n, In n r <-> wanted_node l n \/ exists lib p s w1 w, wanted_name l lib /\ In p ps /\ In s ss /\ prefixed p lib w1 /\ suffixed s false w1 w /\ found_along path w n.
Proof.
  intros m l ps ss path r m2 Fm HG HP HS E. destruct (scan_in m l ps ss path r m2 Fm E) as [F2 H]. split; [exact F2|]. intros n. rewrite H. split; intros [X|X]; [left; exact X | right | left; exact X | right].
  - destruct X as (lib & p & s & X1 & X2 & X3 & X4). destruct (adjust_good lib p s (HG lib X1) (HP p X2) (HS s X3)) as (w1 & w & A1 & A2 & A3 & _). exists lib, p, s, w1, w. rewrite <- A3 at 2. tauto.
  - destruct X as (lib & p & s & w1 & w & X1 & X2 & X3 & X4 & X5 & X6). exists lib, p, s. split; [exact X1 | split; [exact X2 | split; [exact X3|]]]. destruct (adjust_good lib p s (HG lib X1) (HP p X2) (HS s X3)) as (v1 & v & A1 & A2 & -> & _).
    assert (v1 = w1) as -> by (destruct A1 as [[A1 ->]|(A1 & A1b & ->)]; destruct X4 as [[B1 ->]|(B1 & B1b & ->)]; try reflexivity; exfalso; tauto).
    assert (v = w) as -> by (destruct A2 as [[A2 ->]|(A2 & ->)]; destruct X5 as [[B2 ->]|(B2 & ->)]; try reflexivity; exfalso; tauto). exact X6.
Qed.
End Lib.
Print Assumptions C69b_dependencies.
