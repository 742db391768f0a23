(* C31, C32: node identity is path identity; relative paths *)
From Coq Require Import List Arith Bool Lia.
From Verif Require Import PathsModel PathsProps FsModel.
Import ListNotations.

(* ---- specification ---- *)
(* the directory or file reached by following the components cs from the absolute location at_ (a list of names) *)
Fixpoint walk (at_ : list str) (cs : list str) : list str :=
  match cs with
  | [] => at_
  | c :: r => if str_eqb c [] || str_eqb c [46] then walk at_ r           (* "" and "." *)
              else if str_eqb c [46; 46] then walk (removelast at_) r     (* ".." *)
              else walk (at_ ++ [c]) r
  end.
(* the absolute location a path string denotes: relative to the top directory (#), the root (/), or the given directory *)
Definition denotes (top dir : list str) (p : str) : list str :=
  match p with 35 :: q => walk top (split 47 q) | 47 :: q => walk [] (split 47 q) | _ => walk dir (split 47 p) end.
(* the location of a node, from its name and its directory *)
Fixpoint pathf (fuel : nat) (l : list node) (n : nat) : list str :=
  match fuel with
  | O => []
  | S fuel => match n with O => [] | _ => match nth_error l n with Some x => pathf fuel l (dir x) ++ [name x] | None => [] end end
  end.
Definition path (s : fs) (n : nat) : list str := pathf (S n) (nodes s) n.
(* path strings that are handled: no newline, and not two or more slashes only *)
Definition good (p : str) : Prop := ~ In 10 p /\ ~ (exists n, p = repeat 47 (S (S n))).

(* ---- strings ---- *)
Definition valid (w : str) : Prop := w <> [] /\ w <> dot /\ w <> dotdot /\ ~ In SL w.
Definition abs (names : list str) : str := SL :: join SL names.
Definition labs (names : list str) : str := concat (map (cons SL) names).
Lemma str_eqb_refl a : str_eqb a a = true. Proof. apply str_eqb_eq. reflexivity. Qed.
Lemma str_eqb_neq a b : a <> b -> str_eqb a b = false.
Proof. intros H. destruct (str_eqb a b) eqn:E; [apply str_eqb_eq in E; contradiction | reflexivity]. Qed.
Lemma labs_abs names : names <> [] -> labs names = abs names.
Proof.
  induction names as [|w r IH]; intros H; [contradiction|]. destruct r as [|v r]; [cbn; rewrite app_nil_r; reflexivity|]. specialize (IH ltac:(discriminate)). unfold labs in *. cbn [map concat] in *. rewrite IH. reflexivity.
Qed.
Lemma labs_app a b : labs (a ++ b) = labs a ++ labs b. Proof. unfold labs. rewrite map_app, concat_app. reflexivity. Qed.
Lemma split_app_gen a b : split SL (a ++ SL :: b) = split SL a ++ split SL b.
Proof.
  induction a as [|c a IH]; [cbn [app split]; rewrite Nat.eqb_refl; reflexivity|]. cbn [app split]. destruct (c =? SL); [rewrite IH; reflexivity|]. rewrite IH. destruct (split SL a) as [|w ws] eqn:E; [elim (split_nonempty SL a E) | reflexivity].
Qed.
Lemma split_abs names : (forall w, In w names -> valid w) -> names <> [] -> split SL (join SL names) = names.
Proof. intros V N. apply split_join; [exact N | intros w Hw; apply (V w Hw)]. Qed.
Lemma abs_inj a b : (forall w, In w a -> valid w) -> (forall w, In w b -> valid w) -> abs a = abs b -> a = b.
Proof.
  intros Va Vb H. injection H as H. assert (E : forall l, (forall w, In w l -> valid w) -> join SL l = [] -> l = []).
  { intros [|w l] V Q; [reflexivity|]. exfalso. destruct (V w (or_introl eq_refl)) as (N & _). destruct l; cbn in Q; [contradiction|]. destruct w; [contradiction | discriminate]. }
  destruct a as [|x a]; [symmetry; apply E; [exact Vb | symmetry; exact H]|]. destruct b as [|y b]; [apply E; [exact Va | exact H]|].
  rewrite <- (split_abs (x :: a) Va), <- (split_abs (y :: b) Vb) by discriminate. rewrite H. reflexivity.
Qed.
Lemma walk_app cs1 : forall d cs2, walk d (cs1 ++ cs2) = walk (walk d cs1) cs2.
Proof. induction cs1 as [|c cs IH]; intros d cs2; [reflexivity|]. cbn [app walk]. destruct (str_eqb c [] || str_eqb c [46]); [apply IH|]. destruct (str_eqb c [46; 46]); apply IH. Qed.
Lemma valid_tests w : valid w -> str_eqb w [] = false /\ str_eqb w [46] = false /\ str_eqb w [46; 46] = false.
Proof. intros (A & B & C & _). repeat split; apply str_eqb_neq; assumption. Qed.
Lemma walk_valid cs : forall d, (forall w, In w cs -> valid w) -> walk d cs = d ++ cs.
Proof.
  induction cs as [|c cs IH]; intros d V; [rewrite app_nil_r; reflexivity|]. cbn [walk]. destruct (valid_tests c (V c (or_introl eq_refl))) as (-> & -> & ->). cbn [orb]. rewrite IH by (intros w Hw; apply V; right; exact Hw). rewrite <- app_assoc. reflexivity.
Qed.
Lemma fold_norm cs : forall d, fold_left norm_step cs d = walk d cs.
Proof.
  induction cs as [|c cs IH]; intros d; [reflexivity|]. cbn [fold_left walk]. rewrite IH. unfold norm_step, dotdot, dot, DOT. destruct (str_eqb c [46; 46]) eqn:E; [|destruct (str_eqb c [] || str_eqb c [46]); reflexivity].
  apply str_eqb_eq in E. subst c. reflexivity.
Qed.
Lemma in_removelast {A} (l : list A) x : In x (removelast l) -> In x l.
Proof. induction l as [|a l IH]; [intros []|]. destruct l as [|b l]; [intros []|]. cbn. intros [->|H]; [left; reflexivity | right; apply IH, H]. Qed.
Lemma walk_ok cs : forall d, (forall w, In w d -> valid w) -> (forall w, In w cs -> ~ In SL w) -> forall w, In w (walk d cs) -> valid w.
Proof.
  induction cs as [|c cs IH]; intros d V H w; [apply V|]. cbn [walk]. destruct (str_eqb c [] || str_eqb c [46]) eqn:E1; [apply IH; [exact V | intros v Hv; apply H; right; exact Hv]|]. destruct (str_eqb c [46; 46]) eqn:E2.
  - apply IH; [intros v Hv; apply V, in_removelast, Hv | intros v Hv; apply H; right; exact Hv].
  - apply orb_false_iff in E1. destruct E1 as [E0 E1]. apply IH; [|intros v Hv; apply H; right; exact Hv]. intros v Hv. apply in_app_or in Hv. destruct Hv as [Hv|[<-|[]]]; [apply V, Hv|].
    repeat split; [intros -> | intros -> | intros -> | apply H; left; reflexivity]; [rewrite str_eqb_refl in E0 | unfold dot, DOT in E1; rewrite str_eqb_refl in E1 | unfold dotdot, DOT in E2; rewrite str_eqb_refl in E2]; discriminate.
Qed.

(* ---- needs_norm ---- *)
Lemma dotstar_at f q r : ~ In NL q -> f r = true -> dotstar f (q ++ r) = true.
Proof.
  induction q as [|c q IH]; intros N F; [destruct r; cbn in *; rewrite F; reflexivity|]. cbn [app dotstar]. rewrite IH; [|intros H; apply N; right; exact H | exact F].
  assert (c =? NL = false) by (apply Nat.eqb_neq; intros ->; apply N; left; reflexivity). rewrite H. cbn. apply orb_true_r.
Qed.
(* a component and its surroundings *)
Definition closed (post : str) : Prop := post = [] \/ exists q, post = SL :: q.
Lemma split_head p : forall v vs, split SL p = v :: vs -> exists post, p = v ++ post /\ closed post.
Proof.
  induction p as [|d p IH]; intros v vs Es; cbn [split] in Es; [injection Es as <- <-; exists []; split; [reflexivity | left; reflexivity]|].
  destruct (d =? SL) eqn:E; [apply Nat.eqb_eq in E; subst; injection Es as <- <-; exists (SL :: p); split; [reflexivity | right; eexists; reflexivity]|].
  destruct (split SL p) as [|u us] eqn:Es'; [elim (split_nonempty SL p Es')|]. injection Es as <- <-. destruct (IH u us eq_refl) as (post & -> & Q). exists post. auto.
Qed.
Lemma split_tail p : forall v vs w, split SL p = v :: vs -> In w vs -> exists q post, p = q ++ SL :: w ++ post /\ closed post.
Proof.
  induction p as [|d p IH]; intros v vs w Es Hw; cbn [split] in Es; [injection Es as <- <-; destruct Hw|]. destruct (split SL p) as [|u us] eqn:Es'; [elim (split_nonempty SL p Es')|]. destruct (d =? SL) eqn:E.
  - apply Nat.eqb_eq in E. subst d. injection Es as <- <-. destruct Hw as [<-|Hw].
    + destruct (split_head _ _ _ Es') as (post & -> & Q). exists [], post. auto.
    + destruct (IH _ _ _ eq_refl Hw) as (q & post & -> & Q). exists (SL :: q), post. auto.
  - injection Es as <- <-. destruct (IH _ _ _ eq_refl Hw) as (q & post & -> & Q). exists (d :: q), post. auto.
Qed.
Lemma closed_end post : closed post -> slash_or_end post = true.
Proof. intros [->|(q & ->)]; [reflexivity|]. unfold slash_or_end. cbn. destruct q; reflexivity. Qed.
(* the regular expression is complete: if it does not match, all components are names *)
Lemma match_parts p : needs_norm p = false ->
  dotstar (starts2 SL SL (fun _ => true)) p = false /\ starts2 DOT DOT slash_or_end p = false /\ dotstar (fun q => match q with c :: r => (c =? SL) && starts2 DOT DOT slash_or_end r | [] => false end) p = false
  /\ starts2 DOT SL (fun _ => true) p = false /\ dotstar (starts2 SL DOT slash_or_end) p = false.
Proof. unfold needs_norm. rewrite !orb_false_iff. tauto. Qed.
Lemma tail_valid p q w post : ~ In NL p -> needs_norm p = false -> p = q ++ SL :: w ++ post -> closed post -> (forall r, p <> r ++ [SL]) -> ~ In SL w -> valid w.
Proof.
  intros N M -> C E F. destruct (match_parts _ M) as (M1 & M2 & M3 & M4 & M5). assert (Nq : ~ In NL q) by (intros H; apply N, in_or_app; auto). repeat split; [intros -> | intros -> | intros -> | exact F].
  - cbn [app] in *. destruct C as [->|(r & ->)]; [apply (E q); reflexivity|]. rewrite dotstar_at in M1; [discriminate | exact Nq | reflexivity].
  - rewrite dotstar_at in M5; [discriminate | exact Nq|]. cbn. apply closed_end, C.
  - rewrite dotstar_at in M3; [discriminate | exact Nq|]. cbn. apply closed_end, C.
Qed.
Lemma not_needed_relative p : ~ In NL p -> needs_norm p = false -> p <> [] -> p <> dot -> (forall q, p <> SL :: q) -> (forall r, p <> r ++ [SL]) -> forall w, In w (split SL p) -> valid w.
Proof.
  intros N M P1 P2 P3 P4 w Hw. pose proof (split_free SL p w Hw) as F. destruct (split SL p) as [|v vs] eqn:Es; [destruct Hw|]. destruct Hw as [->|Hw].
  - destruct (split_head _ _ _ Es) as (post & E & C). destruct (match_parts _ M) as (M1 & M2 & M3 & M4 & M5). repeat split; [intros -> | intros -> | intros -> | exact F].
    + destruct C as [->|(q & ->)]; [apply P1, E | apply (P3 q), E].
    + destruct C as [->|(q & ->)]; [apply P2, E | subst p; discriminate].
    + subst p. cbn in M2. rewrite (closed_end _ C) in M2. discriminate.
  - destruct (split_tail _ _ _ _ Es Hw) as (q & post & E & C). eapply tail_valid; eauto.
Qed.
Lemma not_needed_absolute p : ~ In NL (SL :: p) -> needs_norm (SL :: p) = false -> p <> [] -> (forall r, SL :: p <> r ++ [SL]) -> forall w, In w (split SL p) -> valid w.
Proof.
  intros N M P1 P4 w Hw. pose proof (split_free SL p w Hw) as F. assert (Es : split SL (SL :: p) = [] :: split SL p) by reflexivity.
  destruct (split_tail _ _ _ _ Es Hw) as (q & post & E & C). eapply tail_valid; eauto.
Qed.

(* ---- stripping slashes ---- *)
Lemma lstrip_spec p : exists n, p = repeat SL n ++ lstrip p /\ forall q, lstrip p <> SL :: q.
Proof.
  induction p as [|c p (n & E & H)]; [exists 0; split; [reflexivity | discriminate]|]. cbn [lstrip]. destruct (c =? SL) eqn:Q; [apply Nat.eqb_eq in Q; subst c; exists (S n); split; [cbn; f_equal; exact E | exact H]|].
  exists 0. split; [reflexivity|]. intros q R. injection R as -> _. rewrite Nat.eqb_refl in Q. discriminate.
Qed.
Lemma repeat_rev (n : nat) (x : nat) : rev (repeat x n) = repeat x n.
Proof. induction n as [|n IH]; [reflexivity|]. cbn. rewrite IH. clear. induction n as [|n IH]; [reflexivity|]. cbn. rewrite IH. reflexivity. Qed.
Lemma rstrip_spec p : exists n, p = rstrip p ++ repeat SL n /\ forall q, rstrip p <> q ++ [SL].
Proof.
  destruct (lstrip_spec (rev p)) as (n & E & H). exists n. unfold rstrip. split.
  - apply (f_equal (@rev nat)) in E. rewrite rev_involutive, rev_app_distr, repeat_rev in E. exact E.
  - intros q Q. apply (H (rev q)). apply (f_equal (@rev nat)) in Q. rewrite rev_involutive, rev_app_distr in Q. exact Q.
Qed.
Lemma split_slashes n p : split SL (repeat SL n ++ p) = repeat [] n ++ split SL p.
Proof. induction n as [|n IH]; [reflexivity|]. cbn [repeat app split]. rewrite Nat.eqb_refl, IH. reflexivity. Qed.
Lemma split_slashes_r p n : split SL (p ++ repeat SL n) = split SL p ++ repeat [] n.
Proof.
  destruct n as [|n]; [cbn; rewrite !app_nil_r; reflexivity|]. cbn [repeat]. rewrite split_app_gen. f_equal. replace (repeat SL n) with (repeat SL n ++ []) by apply app_nil_r. rewrite split_slashes. cbn [split].
  clear. induction n as [|n IH]; [reflexivity|]. cbn. f_equal. exact IH.
Qed.
Lemma walk_empty n : forall d, walk d (repeat [] n) = d. Proof. induction n as [|n IH]; intros d; [reflexivity | apply IH]. Qed.
Lemma walk_rstrip d p : walk d (split SL (rstrip p)) = walk d (split SL p).
Proof. destruct (rstrip_spec p) as (n & E & _). rewrite E at 2. rewrite split_slashes_r, walk_app, walk_empty. reflexivity. Qed.
Lemma walk_strip d p : walk d (split SL (strip p)) = walk d (split SL p).
Proof. unfold strip. rewrite walk_rstrip. destruct (lstrip_spec p) as (n & E & _). rewrite E at 2. rewrite split_slashes, walk_app, walk_empty. reflexivity. Qed.

(* ---- the tree ---- *)
Record inv (s : fs) : Prop := {
  i_root : exists x, nth_error (nodes s) 0 = Some x /\ kind x = KDir;
  i_node : forall n x, nth_error (nodes s) (S n) = Some x -> dir x < S n /\ valid (name x) /\ exists y, nth_error (nodes s) (dir x) = Some y /\ kind y = KDir;
  i_root_key : dict_get (dict s) [] = Some 0;
  i_dict : forall k n, dict_get (dict s) k = Some n -> n < length (nodes s) /\ (k = abs (path s n) \/ n = 0 /\ (k = [] \/ k = [SL; SL]));
  i_reg : forall n, n < length (nodes s) -> dict_get (dict s) (abs (path s n)) = Some n;
  i_top : exists x, nth_error (nodes s) (top s) = Some x /\ kind x = KDir;
  i_cwd : exists x, nth_error (nodes s) (cwd s) = Some x /\ kind x = KDir;
  i_name : exists x, nth_error (nodes s) 0 = Some x /\ name x = [SL] }.
(* s' has the nodes of s, and possibly more; an Entry may have become something else *)
Record ext (s s' : fs) : Prop := {
  e_node : forall n x, nth_error (nodes s) n = Some x -> exists y, nth_error (nodes s') n = Some y /\ name y = name x /\ dir y = dir x /\ (kind x <> KEntry -> kind y = kind x);
  e_top : top s' = top s; e_cwd : cwd s' = cwd s }.
Lemma ext_refl s : ext s s. Proof. split; [intros n x H; exists x; auto | reflexivity | reflexivity]. Qed.
Lemma ext_nodes_trans s s1 s2 : ext s s1 -> ext s1 s2 -> ext s s2.
Proof. intros [A B C] [A' B' C']. split; [|congruence|congruence]. intros n x H. destruct (A n x H) as (y & Hy & N1 & D1 & K1). destruct (A' n y Hy) as (z & Hz & N2 & D2 & K2). exists z. split; [exact Hz|]. repeat split; [congruence | congruence|]. intros Q. rewrite K2; [apply K1, Q | rewrite K1; exact Q]. Qed.
Lemma ext_len s s' : ext s s' -> length (nodes s) <= length (nodes s').
Proof. intros E. destruct (length (nodes s)) as [|m] eqn:L; [lia|]. destruct (nth_error (nodes s) m) as [x|] eqn:N; [|apply nth_error_None in N; lia]. destruct (e_node _ _ E m x N) as (y & Hy & _). assert (m < length (nodes s')) by (apply nth_error_Some; congruence). lia. Qed.
Lemma pathf_enough (l : list node) : (forall n x, nth_error l (S n) = Some x -> dir x < S n) -> forall f n, n < f -> pathf f l n = pathf (S n) l n.
Proof.
  intros W. assert (G : forall m f g n, n < m -> n < f -> n < g -> pathf f l n = pathf g l n).
  { induction m as [|m IH]; intros f g n L1 L2 L3; [lia|]. destruct f as [|f]; [lia|]. destruct g as [|g]; [lia|]. cbn [pathf]. destruct n as [|n]; [reflexivity|]. destruct (nth_error l (S n)) as [x|] eqn:E; [|reflexivity]. pose proof (W n x E). rewrite (IH f g (dir x)) by lia. reflexivity. }
  intros f n L. apply (G (S n)); lia.
Qed.
Lemma path_step s n x : inv s -> nth_error (nodes s) (S n) = Some x -> path s (S n) = path s (dir x) ++ [name x].
Proof.
  intros V H. unfold path. change (pathf (S (S n)) (nodes s) (S n)) with (match nth_error (nodes s) (S n) with Some x => pathf (S n) (nodes s) (dir x) ++ [name x] | None => [] end). rewrite H. f_equal.
  apply pathf_enough; [intros m y E; apply (i_node _ V m y E) | apply (i_node _ V n x H)].
Qed.
Lemma path_valid s : inv s -> forall n, n < length (nodes s) -> forall w, In w (path s n) -> valid w.
Proof.
  intros V. assert (G : forall m n, n < m -> n < length (nodes s) -> forall w, In w (path s n) -> valid w).
  { induction m as [|m IH]; intros n L1 L2 w Hw; [lia|]. destruct n as [|n]; [destruct Hw|]. destruct (nth_error (nodes s) (S n)) as [x|] eqn:E; [|apply nth_error_None in E; lia]. destruct (i_node _ V n x E) as (D & Vn & _). rewrite (path_step s n x V E) in Hw. apply in_app_or in Hw. destruct Hw as [Hw|[<-|[]]]; [|exact Vn]. apply (IH (dir x)) in Hw; [exact Hw | lia | lia]. }
  intros n L. apply (G (S n)); [lia | exact L].
Qed.
Lemma pathf_ext s s' : ext s s' -> forall f n, n < length (nodes s) -> (forall n x, nth_error (nodes s) (S n) = Some x -> dir x < S n) -> pathf f (nodes s') n = pathf f (nodes s) n.
Proof.
  intros E. induction f as [|f IH]; intros n L W; [reflexivity|]. cbn [pathf]. destruct n as [|n]; [reflexivity|]. destruct (nth_error (nodes s) (S n)) as [x|] eqn:N; [|apply nth_error_None in N; lia].
  destruct (e_node _ _ E _ _ N) as (y & -> & Ny & Dy & _). rewrite Ny, Dy. pose proof (W n x N). rewrite IH by (assumption || lia). reflexivity.
Qed.
Lemma path_ext s s' n : inv s -> ext s s' -> n < length (nodes s) -> path s' n = path s n.
Proof. intros V E L. apply pathf_ext; [exact E | exact L | intros m x H; apply (i_node _ V m x H)]. Qed.
Lemma labspath_path l : forall f n, labspath f l n = labs (pathf f l n).
Proof. induction f as [|f IH]; intros n; [reflexivity|]. cbn [labspath pathf]. destruct n as [|n]; [reflexivity|]. destruct (nth_error l (S n)); [|reflexivity]. rewrite IH, labs_app. f_equal. unfold labs. cbn. rewrite app_nil_r. reflexivity. Qed.
Lemma get_labspath_path s n : get_labspath s n = labs (path s n). Proof. apply labspath_path. Qed.
(* two nodes at the same location are the same node *)
Lemma path_inj s n m : inv s -> n < length (nodes s) -> m < length (nodes s) -> path s n = path s m -> n = m.
Proof. intros V L1 L2 E. pose proof (i_reg _ V n L1) as R1. rewrite E, (i_reg _ V m L2) in R1. injection R1. auto. Qed.

Lemma upd_node_nth l i x j : nth_error (upd_node l i x) j = if j =? i then (match nth_error l i with Some _ => Some x | None => None end) else nth_error l j.
Proof. revert i j. induction l as [|y l IH]; intros [|i] [|j]; cbn; try reflexivity; [destruct (j =? i); reflexivity | apply IH]. Qed.
Lemma upd_node_len l i x : length (upd_node l i x) = length l.
Proof. revert i. induction l as [|y l IH]; intros [|i]; cbn; auto. Qed.
Lemma inv_morph s n x k : inv s -> nth_error (nodes s) n = Some x -> kind x = KEntry ->
  let s' := set_nodes s (upd_node (nodes s) n {| name := name x; dir := dir x; kind := k |}) in inv s' /\ ext s s' /\ length (nodes s') = length (nodes s).
Proof.
  intros V N K s'. assert (E : ext s s').
  { split; [|reflexivity|reflexivity]. intros m y H. cbn. rewrite upd_node_nth. destruct (m =? n) eqn:Q; [|exists y; auto]. apply Nat.eqb_eq in Q. subst m. rewrite N in *. injection H as <-. eexists. split; [reflexivity|]. cbn. repeat split. intros H. contradiction. }
  assert (L : length (nodes s') = length (nodes s)) by apply upd_node_len. split; [|split; [exact E | exact L]].
  assert (Kd : forall m y, nth_error (nodes s) m = Some y -> kind y = KDir -> exists z, nth_error (nodes s') m = Some z /\ kind z = KDir).
  { intros m y H Q. destruct (e_node _ _ E m y H) as (z & Hz & _ & _ & Kz). exists z. split; [exact Hz|]. rewrite Kz; [exact Q | rewrite Q; discriminate]. }
  split.
  - destruct (i_root _ V) as (r & R1 & R2). apply (Kd 0 r R1 R2).
  - intros m y H. assert (exists y0, nth_error (nodes s) (S m) = Some y0 /\ name y0 = name y /\ dir y0 = dir y) as (y0 & H0 & Nn & Dd).
    { destruct (nth_error (nodes s) (S m)) as [y0|] eqn:H0; [|apply nth_error_None in H0; assert (S m < length (nodes s')) by (apply nth_error_Some; congruence); lia]. exists y0. destruct (e_node _ _ E _ _ H0) as (z & Hz & A & B & _). rewrite H in Hz. injection Hz as <-. auto. }
    destruct (i_node _ V m y0 H0) as (A & B & (c & C1 & C2)). rewrite <- Nn, <- Dd. split; [exact A|]. split; [exact B | apply (Kd _ c C1 C2)].
  - apply (i_root_key _ V).
  - intros k0 m H. cbn [dict s' set_nodes] in H. destruct (i_dict _ V k0 m H) as (A & B). split; [lia|]. rewrite (path_ext s s' m V E A). exact B.
  - intros m Lm. rewrite L in Lm. rewrite (path_ext s s' m V E Lm). apply (i_reg _ V m Lm).
  - destruct (i_top _ V) as (r & R1 & R2). apply (Kd (top s) r R1 R2).
  - destruct (i_cwd _ V) as (r & R1 & R2). apply (Kd (cwd s) r R1 R2).
  - destruct (i_name _ V) as (r & R1 & R2). destruct (e_node _ _ E 0 r R1) as (z & Hz & Nz & _). exists z. split; [exact Hz | congruence].
Qed.
Lemma must_ok s n k s' : inv s -> must_be_same s n k = Some s' -> inv s' /\ ext s s' /\ length (nodes s') = length (nodes s) /\ exists y, nth_error (nodes s') n = Some y /\ (k <> KEntry -> kind y = k).
Proof.
  intros V. unfold must_be_same. destruct (nth_error (nodes s) n) as [x|] eqn:N; [|discriminate].
  assert (Other : (if klass_eqb (kind x) k || klass_eqb k KEntry then Some s else None) = Some s' -> inv s' /\ ext s s' /\ length (nodes s') = length (nodes s) /\ exists y, nth_error (nodes s') n = Some y /\ (k <> KEntry -> kind y = k)).
  { destruct (_ || _) eqn:B; [|discriminate]. intros H. injection H as <-. split; [exact V|]. split; [apply ext_refl|]. split; [reflexivity|]. exists x. split; [exact N|]. intros Q. destruct (kind x), k; cbn in B; try discriminate; congruence. }
  destruct (kind x) eqn:K; [|exact Other|exact Other]. intros H. injection H as <-. destruct (inv_morph s n x k V N K) as (A & B & C). split; [exact A|]. split; [exact B|]. split; [exact C|]. cbn. rewrite upd_node_nth, Nat.eqb_refl, N. eexists. split; [reflexivity | reflexivity].
Qed.
Lemma rsplit_none p : ~ In SL p -> rsplit p = None.
Proof. induction p as [|c p IH]; intros H; [reflexivity|]. cbn [rsplit]. rewrite IH by (intros Q; apply H; right; exact Q). destruct (c =? SL) eqn:E; [apply Nat.eqb_eq in E; subst; elim H; left; reflexivity | reflexivity]. Qed.
Lemma rsplit_app a w : ~ In SL w -> rsplit (a ++ SL :: w) = Some (a, w).
Proof. intros H. induction a as [|c a IH]; cbn [app rsplit]; [rewrite (rsplit_none w H), Nat.eqb_refl; reflexivity|]. rewrite IH. reflexivity. Qed.
Lemma abs_snoc names w : abs (names ++ [w]) = labs names ++ SL :: w.
Proof. rewrite <- labs_abs by (destruct names; discriminate). rewrite labs_app. f_equal. unfold labs. cbn. rewrite app_nil_r. reflexivity. Qed.

Lemma dict_names s names n : inv s -> (forall w, In w names -> valid w) -> dict_get (dict s) (abs names) = Some n -> n < length (nodes s) /\ path s n = names.
Proof.
  intros V Vn H. destruct (i_dict _ V _ _ H) as (L & [E|(-> & [E|E])]).
  - split; [exact L|]. symmetry. apply abs_inj; [exact Vn | apply path_valid; assumption | exact E].
  - discriminate.
  - exfalso. unfold abs in E. injection E as E. destruct names as [|w names]; [discriminate|]. destruct (Vn w (or_introl eq_refl)) as (A & _ & _ & B). destruct w as [|c w]; [contradiction|]. assert (c = SL) by (destruct names; cbn in E; injection E; auto). subst c. apply B. left. reflexivity.
Qed.
(* registering a new node *)
Lemma inv_new s d x names k w : inv s -> nth_error (nodes s) d = Some x -> kind x = KDir -> path s d = names -> valid w -> dict_get (dict s) (abs (names ++ [w])) = None ->
  let n := length (nodes s) in let s' := {| nodes := nodes s ++ [{| name := w; dir := d; kind := k |}]; dict := (abs (names ++ [w]), n) :: dict s; top := top s; cwd := cwd s |} in
  inv s' /\ ext s s' /\ path s' n = names ++ [w] /\ length (nodes s') = S n.
Proof.
  intros V Nd Kd Pd Vw Fr n s'. assert (Ld : d < n) by (apply nth_error_Some; congruence).
  assert (Old : forall m, m < n -> nth_error (nodes s') m = nth_error (nodes s) m) by (intros m L; cbn; apply nth_error_app1, L).
  assert (E : ext s s'). { split; [|reflexivity|reflexivity]. intros m y H. exists y. rewrite Old by (apply nth_error_Some; congruence). auto. }
  assert (Nn : nth_error (nodes s') n = Some {| name := w; dir := d; kind := k |}) by (cbn; rewrite nth_error_app2 by (unfold n; lia); unfold n; rewrite Nat.sub_diag; reflexivity).
  assert (Ln : length (nodes s') = S n) by (cbn; rewrite app_length; cbn; unfold n; lia).
  assert (N0 : n <> 0) by lia.
  assert (Wf : forall m y, nth_error (nodes s') (S m) = Some y -> dir y < S m /\ valid (name y) /\ exists z, nth_error (nodes s') (dir y) = Some z /\ kind z = KDir).
  { intros m y H. destruct (Nat.eq_dec (S m) n) as [Q|Q].
    - rewrite Q in *. rewrite Nn in H. injection H as <-. cbn [dir name]. split; [exact Ld|]. split; [exact Vw|]. exists x. rewrite Old by exact Ld. auto.
    - assert (S m < n) by (assert (S m < length (nodes s')) by (apply nth_error_Some; congruence); lia). rewrite Old in H by assumption. destruct (i_node _ V m y H) as (A & B & (z & C1 & C2)). split; [exact A|]. split; [exact B|]. exists z. rewrite Old by (apply nth_error_Some; congruence). auto. }
  assert (Pn : path s' n = names ++ [w]).
  { destruct n as [|m] eqn:En; [lia|]. unfold path. change (pathf (S (S m)) (nodes s') (S m)) with (match nth_error (nodes s') (S m) with Some x => pathf (S m) (nodes s') (dir x) ++ [name x] | None => [] end). rewrite Nn. cbn [dir name]. f_equal.
    rewrite pathf_enough; [|intros q y H; apply (Wf q y H) | exact Ld]. rewrite <- Pd. apply (path_ext s s' d V E). apply nth_error_Some. congruence. }
  split; [|split; [exact E | split; [exact Pn | exact Ln]]]. split.
  - destruct (i_root _ V) as (r & R1 & R2). exists r. rewrite Old by lia. auto.
  - exact Wf.
  - change (dict s') with ((abs (names ++ [w]), n) :: dict s). cbn [dict_get]. unfold abs. cbn [str_eqb]. apply (i_root_key _ V).
  - intros k0 m H. change (dict s') with ((abs (names ++ [w]), n) :: dict s) in H. cbn [dict_get] in H. destruct (str_eqb k0 (abs (names ++ [w]))) eqn:Q.
    + injection H as <-. apply str_eqb_eq in Q. split; [lia|]. left. rewrite Pn. exact Q.
    + destruct (i_dict _ V k0 m H) as (A & B). split; [unfold n in Ln; lia|]. rewrite (path_ext s s' m V E A). exact B.
  - intros m Lm. rewrite Ln in Lm. change (dict s') with ((abs (names ++ [w]), n) :: dict s). cbn [dict_get]. destruct (Nat.eq_dec m n) as [->|Q]; [rewrite Pn, str_eqb_refl; reflexivity|].
    assert (Lm' : m < n) by lia. rewrite (path_ext s s' m V E Lm'). pose proof (i_reg _ V m Lm') as R. destruct (str_eqb (abs (path s m)) (abs (names ++ [w]))) eqn:Z; [apply str_eqb_eq in Z; rewrite Z, Fr in R; discriminate | exact R].
  - destruct (i_top _ V) as (r & R1 & R2). exists r. cbn [top s']. rewrite Old by (apply nth_error_Some; congruence). auto.
  - destruct (i_cwd _ V) as (r & R1 & R2). exists r. cbn [cwd s']. rewrite Old by (apply nth_error_Some; congruence). auto.
  - destruct (i_name _ V) as (r & R1 & R2). exists r. rewrite Old by lia. auto.
Qed.
Lemma lookup_abs_ok clash : forall fuel s p names k create s' r, inv s -> (forall w, In w names -> valid w) -> p = abs names \/ p = labs names -> length p < fuel ->
  lookup_abs fuel clash s p k create = (s', r) ->
  inv s' /\ ext s s' /\ (forall m, length (nodes s) <= m < length (nodes s') -> length (path s' m) <= length names)
  /\ forall n, r = Some n -> path s' n = names /\ exists y, nth_error (nodes s') n = Some y /\ (k <> KEntry -> kind y = k).
Proof.
  induction fuel as [|fuel IH]; intros s p names k create s' r V Vn P F H; [lia|]. cbn [lookup_abs] in H. destruct (dict_get (dict s) p) as [n|] eqn:G.
  - assert (Pn : path s n = names /\ n < length (nodes s)).
    { destruct P as [-> | ->]; [destruct (dict_names s names n V Vn G); auto|]. destruct names as [|w names]; [cbn in G; rewrite (i_root_key _ V) in G; injection G as <-; split; [reflexivity|]; destruct (i_root _ V) as (x & R & _); apply nth_error_Some; congruence|].
      rewrite labs_abs in G by discriminate. destruct (dict_names s _ n V Vn G); auto. }
    destruct (must_be_same s n k) as [s1|] eqn:M; injection H as <- <-.
    + destruct (must_ok s n k s1 V M) as (A & B & C & D). split; [exact A|]. split; [exact B|]. split; [intros m Lm; lia|]. intros n' Q. injection Q as <-. split; [|exact D]. rewrite (path_ext s s1 n V B) by apply Pn. apply Pn.
    + split; [exact V|]. split; [apply ext_refl|]. split; [intros m Lm; lia | discriminate].
  - assert (Fail : inv s /\ ext s s /\ (forall m, length (nodes s) <= m < length (nodes s) -> length (path s m) <= length names) /\ forall n, None = Some n -> path s n = names /\ exists y, nth_error (nodes s) n = Some y /\ (k <> KEntry -> kind y = k)).
    { split; [exact V|]. split; [apply ext_refl|]. split; [intros m Lm; lia | discriminate]. }
    destruct create; cbn [negb] in H; [|injection H as <- <-; exact Fail].
    destruct (rev names) as [|w rn] eqn:Rn.
    { apply (f_equal (@rev str)) in Rn. rewrite rev_involutive in Rn. cbn in Rn. subst names. exfalso. destruct P as [-> | ->]; [|cbn in G; rewrite (i_root_key _ V) in G; discriminate]. pose proof (i_reg _ V 0) as R. change (path s 0) with (@nil str) in R. destruct (i_root _ V) as (x & R0 & _). rewrite R in G by (apply nth_error_Some; congruence). discriminate. }
    apply (f_equal (@rev str)) in Rn. rewrite rev_involutive in Rn. cbn [rev] in Rn. set (names' := rev rn) in *. subst names.
    assert (Pa : p = abs (names' ++ [w])) by (destruct P as [-> | ->]; [reflexivity | apply labs_abs; destruct names'; discriminate]). clear P. subst p.
    assert (Vw : valid w) by (apply Vn, in_or_app; right; left; reflexivity). assert (Vn' : forall v, In v names' -> valid v) by (intros v Hv; apply Vn, in_or_app; left; exact Hv).
    rewrite abs_snoc, rsplit_app in H by apply Vw. destruct (lookup_abs fuel clash s (labs names') KDir true) as [s1 [d|]] eqn:L1.
    2:{ injection H as <- <-. destruct (IH s (labs names') names' KDir true s1 None V Vn' (or_intror eq_refl)) as (A & B & C & D); [rewrite abs_snoc, app_length in F; cbn in F; lia | exact L1|]. split; [exact A|]. split; [exact B|]. split; [|discriminate]. intros m Lm. specialize (C m Lm). rewrite app_length. lia. }
    destruct (IH s (labs names') names' KDir true s1 (Some d) V Vn' (or_intror eq_refl)) as (A & B & C & D); [rewrite abs_snoc, app_length in F; cbn in F; lia | exact L1|].
    destruct (D d eq_refl) as (Pd & (y & Ny & Ky)). specialize (Ky ltac:(discriminate)).
    assert (C' : forall m, length (nodes s) <= m < length (nodes s1) -> length (path s1 m) <= length (names' ++ [w])) by (intros m Lm; specialize (C m Lm); rewrite app_length; lia).
    rewrite <- abs_snoc in H. destruct (clash k (abs (names' ++ [w]))); [injection H as <- <-; split; [exact A|]; split; [exact B|]; split; [exact C' | discriminate]|].
    assert (Fr : dict_get (dict s1) (abs (names' ++ [w])) = None).
    { destruct (dict_get (dict s1) (abs (names' ++ [w]))) as [m|] eqn:Gm; [|reflexivity]. exfalso. destruct (dict_names s1 _ m A Vn Gm) as (Lm & Pm). destruct (le_lt_dec (length (nodes s)) m) as [Q|Q].
      - specialize (C m (conj Q Lm)). rewrite Pm, app_length in C. cbn in C. lia.
      - pose proof (i_reg _ V m Q) as R. rewrite <- (path_ext s s1 m V B Q), Pm, G in R. discriminate. }
    destruct (inv_new s1 d y names' k w A Ny Ky Pd Vw Fr) as (I2 & E2 & P2 & L2). injection H as <- <-. split; [exact I2|]. split; [eapply ext_nodes_trans; eassumption|]. split.
    + intros m Lm. destruct (Nat.eq_dec m (length (nodes s1))) as [->|Q]; [rewrite P2; lia|]. assert (m < length (nodes s1)) by (cbn [nodes] in Lm; rewrite app_length in Lm; cbn in Lm; lia). rewrite (path_ext s1 _ m A E2) by assumption. apply C'. lia.
    + intros n Q. injection Q as <-. split; [exact P2|]. eexists. split; [cbn [nodes]; rewrite nth_error_app2, Nat.sub_diag by lia; reflexivity | reflexivity].
Qed.

(* ---- lookup ---- *)
Lemma join_split p : join SL (split SL p) = p.
Proof.
  induction p as [|c p IH]; [reflexivity|]. cbn [split]. destruct (c =? SL) eqn:E; [apply Nat.eqb_eq in E; subst c|]; (destruct (split SL p) as [|w ws] eqn:Es; [elim (split_nonempty SL p Es)|]); [cbn [join app]; f_equal; exact IH | destruct ws; cbn [join app] in *; f_equal; exact IH].
Qed.
Lemma m35 {A} (p : str) (a : str -> A) (b : A) : match p with 35 :: q => a q | _ => b end = match p with c :: q => if c =? 35 then a q else b | [] => b end.
Proof. destruct p as [|c q]; [reflexivity|]. do 35 (destruct c as [|c]; [reflexivity|]). destruct c; reflexivity. Qed.
Lemma m47 {A} (p : str) (a b : A) : match p with 47 :: _ => a | _ => b end = match p with c :: _ => if c =? 47 then a else b | [] => b end.
Proof. destruct p as [|c q]; [reflexivity|]. do 47 (destruct c as [|c]; [reflexivity|]). destruct c; reflexivity. Qed.
Lemma denotes_eq t d p : denotes t d p = match p with c :: q => if c =? 35 then walk t (split SL q) else if c =? 47 then walk [] (split SL q) else walk d (split SL p) | [] => d end.
Proof. destruct p as [|c q]; [reflexivity|]. unfold denotes. do 35 (destruct c as [|c]; [reflexivity|]). destruct c as [|c]; [reflexivity|]. do 11 (destruct c as [|c]; [reflexivity|]). destruct c; reflexivity. Qed.
Lemma in_rstrip p c : In c (rstrip p) -> In c p. Proof. destruct (rstrip_spec p) as (n & E & _). rewrite E at 2. intros H. apply in_or_app. left. exact H. Qed.
Lemma in_strip p c : In c (strip p) -> In c p. Proof. unfold strip. intros H. apply in_rstrip in H. destruct (lstrip_spec p) as (n & E & _). rewrite E. apply in_or_app. right. exact H. Qed.
Lemma rstrip_head p c q : rstrip p = c :: q -> exists r, p = c :: r.
Proof. destruct (rstrip_spec p) as (n & E & _). intros H. rewrite H in E. eexists. exact E. Qed.
Lemma rstrip_nil p : rstrip p = [] -> exists n, p = repeat SL n. Proof. destruct (rstrip_spec p) as (n & E & _). intros H. rewrite H in E. exists n. exact E. Qed.
(* the string that is finally looked up, for a relative and for an absolute path *)
Lemma finish_full s p d : inv s -> d < length (nodes s) -> (forall q, p <> SL :: q) -> (forall q, p <> q ++ [SL]) -> ~ In NL p ->
  let full := if str_eqb p [] || str_eqb p dot then get_labspath s d else get_labspath s d ++ SL :: p in
  let full := if needs_norm p then normalise full else full in
  full = abs (walk (path s d) (split SL p)) \/ full = labs (walk (path s d) (split SL p)).
Proof.
  intros V Ld P1 P2 N. pose proof (path_valid s V d Ld) as Vd. cbv zeta. rewrite get_labspath_path. destruct (str_eqb p [] || str_eqb p dot) eqn:T.
  - assert (needs_norm p = false /\ walk (path s d) (split SL p) = path s d) as (Ea & Eb) by (apply orb_true_iff in T; destruct T as [T|T]; apply str_eqb_eq in T; subst p; split; reflexivity). rewrite Ea, Eb. right. reflexivity.
  - apply orb_false_iff in T. destruct T as [T1 T2]. destruct (needs_norm p) eqn:M.
    + left. unfold normalise, abs. f_equal. f_equal. rewrite fold_norm, split_app_gen.
      assert (Sl : split SL (labs (path s d)) = [] :: path s d).
      { destruct (path s d) as [|w l] eqn:E; [reflexivity|]. rewrite labs_abs by discriminate. unfold abs. cbn [split]. rewrite Nat.eqb_refl. f_equal. apply split_abs; [exact Vd | discriminate]. }
      rewrite Sl. cbn [app tl]. rewrite walk_app, (walk_valid (path s d) []) by exact Vd. reflexivity.
    + assert (Vp : forall w, In w (split SL p) -> valid w). { apply not_needed_relative; auto; intros Q; subst p; [rewrite str_eqb_refl in T1 | rewrite str_eqb_refl in T2]; discriminate. }
      right. rewrite (walk_valid _ _ Vp), labs_app. f_equal. rewrite labs_abs by apply split_nonempty. unfold abs. rewrite join_split. reflexivity.
Qed.
Lemma finish_abs_full p : (p = [] \/ forall q, SL :: p <> q ++ [SL]) -> ~ In NL (SL :: p) ->
  let full := if needs_norm (SL :: p) then normalise (SL :: p) else SL :: p in full = abs (walk [] (split SL p)) \/ full = labs (walk [] (split SL p)).
Proof.
  intros P N. cbv zeta. left. destruct (needs_norm (SL :: p)) eqn:M.
  - unfold normalise, abs. rewrite fold_norm. reflexivity.
  - destruct P as [->|P]; [reflexivity|]. assert (Np : p <> []) by (intros ->; apply (P []); reflexivity). pose proof (not_needed_absolute p N M Np P) as Vp. rewrite (walk_valid _ _ Vp). cbn [app]. unfold abs. rewrite join_split. reflexivity.
Qed.
(* lookup is lookup_abs of the location that the string denotes; `directory` becomes a Dir if the path is relative *)
Definition base (s : fs) (directory : option nat) : nat := match directory with Some d => d | None => cwd s end.
Lemma lookup_full clash s p directory k create : inv s -> good p ->
  (lookup clash s p directory k create = (s, None) /\ exists d, directory = Some d /\ must_be_same s d KDir = None) \/
  exists s0 full, (s0 = s \/ exists d, directory = Some d /\ must_be_same s d KDir = Some s0) /\ inv s0 /\ ext s s0 /\ length (nodes s0) = length (nodes s) /\
    (let names := denotes (path s (top s)) (path s (base s directory)) p in (full = abs names \/ full = labs names) /\ forall w, In w names -> valid w) /\
    lookup clash s p directory k create = lookup_abs (S (length full)) clash s0 full k create.
Proof.
  intros V (G1 & G2). assert (Lt : top s < length (nodes s)) by (destruct (i_top _ V) as (x & Q & _); apply nth_error_Some; congruence).
  unfold lookup. rewrite m35. rewrite denotes_eq.
  assert (Rel : forall L : fs -> fs * option nat, (forall q, p <> SL :: q) ->
    (forall s9, L s9 = let full := if str_eqb (rstrip p) [] || str_eqb (rstrip p) dot then get_labspath s9 (base s directory) else get_labspath s9 (base s directory) ++ SL :: rstrip p in
        let full := if needs_norm (rstrip p) then normalise full else full in lookup_abs (S (length full)) clash s9 full k create) ->
    let X := match (match directory with Some d => must_be_same s d KDir | None => Some s end) with None => (s, None) | Some s9 => L s9 end in
    (X = (s, None) /\ exists d, directory = Some d /\ must_be_same s d KDir = None) \/
    exists s0 full, (s0 = s \/ exists d, directory = Some d /\ must_be_same s d KDir = Some s0) /\ inv s0 /\ ext s s0 /\ length (nodes s0) = length (nodes s) /\
      (let names := walk (path s (base s directory)) (split SL p) in (full = abs names \/ full = labs names) /\ forall w, In w names -> valid w) /\ X = lookup_abs (S (length full)) clash s0 full k create).
  { intros L Np HL X.
    assert (Common : forall s0, (s0 = s \/ exists d, directory = Some d /\ must_be_same s d KDir = Some s0) -> inv s0 -> ext s s0 -> length (nodes s0) = length (nodes s) -> base s directory < length (nodes s) -> X = L s0 ->
       exists s0 full, (s0 = s \/ exists d, directory = Some d /\ must_be_same s d KDir = Some s0) /\ inv s0 /\ ext s s0 /\ length (nodes s0) = length (nodes s) /\
      (let names := walk (path s (base s directory)) (split SL p) in (full = abs names \/ full = labs names) /\ forall w, In w names -> valid w) /\ X = lookup_abs (S (length full)) clash s0 full k create).
    { intros s0 O0 V0 E0 L0 Ld XL. rewrite HL in XL. cbv zeta in XL. eexists s0, _. split; [exact O0|]. split; [exact V0|]. split; [exact E0|]. split; [exact L0|]. split; [|exact XL]. cbv zeta.
      split; [|apply walk_ok; [exact (path_valid s V _ Ld) | apply split_free]].
      rewrite <- (path_ext s s0 _ V E0 Ld), <- walk_rstrip. apply (finish_full s0 (rstrip p) (base s directory) V0).
      - rewrite L0. exact Ld.
      - intros q Q. destruct (rstrip_head _ _ _ Q) as (r0 & Q'). apply (Np r0 Q').
      - destruct (rstrip_spec p) as (n & _ & Q). exact Q.
      - intros Q. apply G1, in_rstrip, Q. }
    destruct directory as [d0|].
    - unfold X. destruct (must_be_same s d0 KDir) as [s0|] eqn:M; [|left; split; [reflexivity | exists d0; auto]].
      right. destruct (must_ok s d0 KDir s0 V M) as (A & B & C & (y & D & _)). apply (Common s0); [right; exists d0; auto | exact A | exact B | exact C | cbn; rewrite <- C; apply nth_error_Some; congruence | reflexivity].
    - right. apply (Common s); [left; reflexivity | exact V | apply ext_refl | reflexivity | cbn; destruct (i_cwd _ V) as (x & Q & _); apply nth_error_Some; congruence | reflexivity]. }
  assert (Direct : forall full names, (full = abs names \/ full = labs names) -> (forall w, In w names -> valid w) -> forall X, X = lookup_abs (S (length full)) clash s full k create ->
    (X = (s, None) /\ exists d, directory = Some d /\ must_be_same s d KDir = None) \/
    exists s0 full, (s0 = s \/ exists d, directory = Some d /\ must_be_same s d KDir = Some s0) /\ inv s0 /\ ext s s0 /\ length (nodes s0) = length (nodes s) /\ ((full = abs names \/ full = labs names) /\ forall w, In w names -> valid w) /\ X = lookup_abs (S (length full)) clash s0 full k create).
  { intros full names F W X E. right. exists s, full. split; [left; reflexivity|]. split; [exact V|]. split; [apply ext_refl|]. split; [reflexivity|]. auto. }
  destruct p as [|c q].
  { change (str_eqb [] [SL]) with false. cbv iota. change (rstrip []) with (@nil nat). cbv iota. refine (Rel _ _ _); [discriminate|]. intros s9. reflexivity. }
  destruct (c =? 35) eqn:C35.
  - apply Nat.eqb_eq in C35. subst c. cbv zeta. eapply Direct; [|  | reflexivity]; rewrite <- walk_strip; [|apply walk_ok; [exact (path_valid s V _ Lt) | apply split_free]]. apply (finish_full s (strip q) (top s) V Lt).
    + intros x Q. unfold strip in Q. destruct (rstrip_head _ _ _ Q) as (y & Q'). destruct (lstrip_spec q) as (n & _ & Z). apply (Z y Q').
    + unfold strip. destruct (rstrip_spec (lstrip q)) as (n & _ & Q). exact Q.
    + intros Q. apply G1. right. apply in_strip, Q.
  - cbv zeta. rewrite m47. destruct (c =? 47) eqn:C47.
    + apply Nat.eqb_eq in C47. subst c. assert (Wv : forall w, In w (walk [] (split SL q)) -> valid w) by (apply walk_ok; [intros w [] | apply split_free]). destruct (str_eqb (47 :: q) [SL]) eqn:Q.
      * apply str_eqb_eq in Q. injection Q as ->. change (47 =? 47) with true. cbv iota. eapply Direct; [|exact Wv | reflexivity]. apply (finish_abs_full [] (or_introl eq_refl) G1).
      * destruct (rstrip (47 :: q)) as [|c' q'] eqn:R.
        { exfalso. destruct (rstrip_nil _ R) as ([|[|n]] & E); [discriminate | rewrite E in Q; discriminate | apply G2; exists n; exact E]. }
        destruct (rstrip_head _ _ _ R) as (r0 & Q'). injection Q' as <- <-. change (47 =? 47) with true. cbv iota.
        assert (W : walk [] (split SL q) = walk [] (split SL q')). { pose proof (walk_rstrip [] (47 :: q)) as X. rewrite R in X. symmetry. exact X. }
        eapply Direct; [|exact Wv | reflexivity]. rewrite W. apply finish_abs_full; [right; intros z Z; destruct (rstrip_spec (47 :: q)) as (n & _ & Y); rewrite R in Y; apply (Y z Z) | intros Z; apply G1, in_rstrip; rewrite R; exact Z].
    + assert (Np : forall x, c :: q <> SL :: x) by (intros x X; injection X as -> _; discriminate).
      assert (Q : str_eqb (c :: q) [SL] = false) by (apply str_eqb_neq; apply Np). rewrite Q.
      destruct (rstrip (c :: q)) as [|c' q'] eqn:R; [refine (Rel _ Np _); intros s9; reflexivity|]. destruct (rstrip_head _ _ _ R) as (r0 & Q'). injection Q' as <- _. rewrite C47. refine (Rel _ Np _). intros s9. reflexivity.
Qed.
Lemma lookup_ok clash s p directory k create s' r : inv s -> good p -> lookup clash s p directory k create = (s', r) ->
  inv s' /\ ext s s' /\ forall n, r = Some n ->
    path s' n = denotes (path s (top s)) (path s (base s directory)) p /\ exists y, nth_error (nodes s') n = Some y /\ (k <> KEntry -> kind y = k).
Proof.
  intros V G H. destruct (lookup_full clash s p directory k create V G) as [(E & _)|(s0 & full & O & V0 & E0 & L0 & (F & W) & E)]; rewrite E in H.
  - injection H as <- <-. split; [exact V|]. split; [apply ext_refl | discriminate].
  - destruct (lookup_abs_ok clash (S (length full)) s0 full _ k create s' r V0 W F ltac:(lia) H) as (A & B & _ & D). split; [exact A|]. split; [eapply ext_nodes_trans; eassumption | exact D].
Qed.

(* ---- success ---- *)
Definition compatible (x k : klass) : Prop := k = KEntry \/ x = k \/ x = KEntry.
Lemma must_compatible s n x k : nth_error (nodes s) n = Some x -> compatible (kind x) k -> exists s', must_be_same s n k = Some s'.
Proof. intros N C. unfold must_be_same. rewrite N. destruct (kind x) eqn:K; [eexists; reflexivity | |]; (destruct C as [-> | [<- | C]]; [|  | discriminate]); eexists; cbn; try rewrite orb_true_r; reflexivity. Qed.
Lemma dict_node s n names p : inv s -> n < length (nodes s) -> path s n = names -> p = abs names \/ p = labs names -> dict_get (dict s) p = Some n.
Proof.
  intros V L P [-> | ->]; [rewrite <- P; apply (i_reg _ V n L)|]. destruct names as [|w r]; [|rewrite labs_abs by discriminate; rewrite <- P; apply (i_reg _ V n L)].
  change (labs []) with (@nil nat). rewrite (i_root_key _ V). f_equal. apply (path_inj s 0 n V); [lia | exact L | rewrite P; reflexivity].
Qed.
Lemma lookup_abs_found clash f s p names n x k create : inv s -> nth_error (nodes s) n = Some x -> path s n = names -> p = abs names \/ p = labs names -> compatible (kind x) k ->
  exists s', lookup_abs (S f) clash s p k create = (s', Some n).
Proof.
  intros V N P F C. assert (L : n < length (nodes s)) by (apply nth_error_Some; congruence). cbn [lookup_abs]. rewrite (dict_node s n names p V L P F). destruct (must_compatible s n x k N C) as (s' & ->). exists s'. reflexivity.
Qed.
Lemma lookup_abs_makes (clash : klass -> str -> bool) : forall fuel s p names k, inv s -> (forall w, In w names -> valid w) -> p = abs names \/ p = labs names -> length p < fuel -> (forall k p, clash k p = false) ->
  (forall n x rest, nth_error (nodes s) n = Some x -> names = path s n ++ rest -> compatible (kind x) (match rest with [] => k | _ => KDir end)) ->
  exists s' n, lookup_abs fuel clash s p k true = (s', Some n).
Proof.
  induction fuel as [|fuel IH]; intros s p names k V Vn P F Cl C; [lia|]. cbn [lookup_abs]. destruct (dict_get (dict s) p) as [n|] eqn:G.
  - assert (Pn : path s n = names /\ n < length (nodes s)).
    { destruct P as [-> | ->]; [destruct (dict_names s names n V Vn G); auto|]. destruct names as [|w names]; [cbn in G; rewrite (i_root_key _ V) in G; injection G as <-; split; [reflexivity|]; destruct (i_root _ V) as (x & R & _); apply nth_error_Some; congruence|].
      rewrite labs_abs in G by discriminate. destruct (dict_names s _ n V Vn G); auto. }
    destruct Pn as [Pn Ln]. destruct (nth_error (nodes s) n) as [x|] eqn:N; [|apply nth_error_None in N; lia].
    destruct (must_compatible s n x k N) as (s' & ->); [|exists s', n; reflexivity]. apply (C n x [] N). rewrite Pn, app_nil_r. reflexivity.
  - cbn [negb]. destruct (rev names) as [|w rn] eqn:Rn.
    { apply (f_equal (@rev str)) in Rn. rewrite rev_involutive in Rn. cbn in Rn. subst names. exfalso. destruct (i_root _ V) as (x & R0 & _). rewrite (dict_node s 0 [] p V) in G; [discriminate | apply nth_error_Some; congruence | reflexivity | exact P]. }
    apply (f_equal (@rev str)) in Rn. rewrite rev_involutive in Rn. cbn [rev] in Rn. set (names' := rev rn) in *. subst names.
    assert (Pa : p = abs (names' ++ [w])) by (destruct P as [-> | ->]; [reflexivity | apply labs_abs; destruct names'; discriminate]). clear P. subst p.
    assert (Vw : valid w) by (apply Vn, in_or_app; right; left; reflexivity).
    rewrite abs_snoc, rsplit_app by apply Vw. destruct (IH s (labs names') names' KDir V) as (s1 & d & ->).
    + intros v Hv. apply Vn, in_or_app. left. exact Hv.
    + right. reflexivity.
    + rewrite abs_snoc, app_length in F. cbn in F. lia.
    + exact Cl.
    + intros n x rest N E. specialize (C n x (rest ++ [w]) N). rewrite E, app_assoc in C. specialize (C eq_refl). destruct rest; exact C.
    + rewrite Cl. eexists _, _. reflexivity.
Qed.

(* ---- histories ---- *)
Definition run_fs (ops : list fsop) (s : fs) : fs := fold_left fs_step ops s.
Definition good_op (o : fsop) : Prop := match o with FLookup _ p _ _ _ => good p | _ => True end.
(* like ext, without top and cwd *)
Definition grows (s s' : fs) : Prop := forall n x, nth_error (nodes s) n = Some x -> exists y, nth_error (nodes s') n = Some y /\ name y = name x /\ dir y = dir x /\ (kind x <> KEntry -> kind y = kind x).
Lemma inv_root : inv fs_root.
Proof.
  split; cbn.
  - eexists. split; reflexivity.
  - intros [|n] x H; discriminate.
  - reflexivity.
  - intros k n H. destruct (str_eqb k []) eqn:E0; [apply str_eqb_eq in E0; injection H as <-; split; [lia | right; auto]|]. destruct (str_eqb k [SL]) eqn:E1; [apply str_eqb_eq in E1; injection H as <-; split; [lia | left; exact E1]|].
    destruct (str_eqb k [SL; SL]) eqn:E2; [apply str_eqb_eq in E2; injection H as <-; split; [lia | right; auto] | discriminate].
  - intros n L. assert (n = 0) by lia. subst n. reflexivity.
  - eexists. split; reflexivity.
  - eexists. split; reflexivity.
  - eexists. split; reflexivity.
Qed.
Lemma step_ok s o : inv s -> good_op o -> inv (fs_step s o) /\ grows s (fs_step s o).
Proof.
  intros V G. assert (Gr : grows s s) by (intros n x H; exists x; auto). destruct o as [clash p d k b | n | n | n k]; cbn [fs_step].
  - destruct (lookup clash s p d k b) as [s' r] eqn:L. destruct (lookup_ok _ _ _ _ _ _ _ _ V G L) as (A & B & _). split; [exact A | exact (e_node _ _ B)].
  - unfold is_dir. destruct (nth_error (nodes s) n) as [x|] eqn:N; [|auto]. destruct (klass_eqb (kind x) KDir) eqn:K; [|auto]. split; [|exact Gr]. assert (kind x = KDir) by (destruct (kind x); [discriminate | discriminate | reflexivity]). destruct V. split; cbn; try assumption; exists x; auto.
  - unfold is_dir. destruct (nth_error (nodes s) n) as [x|] eqn:N; [|auto]. destruct (klass_eqb (kind x) KDir) eqn:K; [|auto]. split; [|exact Gr]. assert (kind x = KDir) by (destruct (kind x); [discriminate | discriminate | reflexivity]). destruct V. split; cbn; try assumption; exists x; auto.
  - destruct (nth_error (nodes s) n) as [x|] eqn:N; [|auto]. destruct (kind x) eqn:K; [|auto|auto]. destruct (inv_morph s n x k V N K) as (A & B & _). split; [exact A | exact (e_node _ _ B)].
Qed.
Lemma grows_trans a b c : grows a b -> grows b c -> grows a c.
Proof. intros A B n x H. destruct (A n x H) as (y & Hy & N1 & D1 & K1). destruct (B n y Hy) as (z & Hz & N2 & D2 & K2). exists z. split; [exact Hz|]. repeat split; [congruence | congruence|]. intros Q. rewrite K2; [apply K1, Q | rewrite K1; exact Q]. Qed.
Lemma run_ok ops : forall s, inv s -> Forall good_op ops -> inv (run_fs ops s) /\ grows s (run_fs ops s).
Proof.
  induction ops as [|o ops IH]; intros s V G; [split; [exact V | intros n x H; exists x; auto]|]. unfold run_fs. cbn [fold_left]. destruct (step_ok s o V (Forall_inv G)) as (A & B). destruct (IH _ A (Forall_inv_tail G)) as (C & D). split; [exact C | eapply grows_trans; eassumption].
Qed.
Lemma path_grows s s' n : inv s -> grows s s' -> n < length (nodes s) -> path s' n = path s n.
Proof.
  intros V G L. set (s'' := {| nodes := nodes s'; dict := dict s'; top := top s; cwd := cwd s |}). change (path s' n) with (path s'' n). apply path_ext; [exact V | split; [exact G | reflexivity | reflexivity] | exact L].
Qed.
Lemma grows_len s s' n : grows s s' -> n < length (nodes s) -> n < length (nodes s').
Proof. intros G L. destruct (nth_error (nodes s) n) as [x|] eqn:N; [|apply nth_error_None in N; lia]. destruct (G n x N) as (y & Hy & _). apply nth_error_Some. congruence. Qed.

(* the state of the file-system object after a history of calls from its creation *)
Definition reachable (s : fs) : Prop := exists ops, Forall good_op ops /\ s = run_fs ops fs_root.
Lemma reach_inv s : reachable s -> inv s.
Proof. intros (ops & G & ->). apply run_ok; [apply inv_root | exact G]. Qed.
(* where a lookup points *)
Definition target (s : fs) (directory : option nat) (p : str) : list str := denotes (path s (top s)) (path s (match directory with Some d => d | None => cwd s end)) p.

(* C31: in any history, two lookups return the same node exactly when the paths denote the same location, whatever
   happened in between, and however the two paths were written *)
Theorem C31_node_identity s c1 p1 d1 k1 b1 s1 n1 ops c2 p2 d2 k2 b2 s3 n2 : reachable s -> good p1 -> good p2 -> Forall good_op ops ->
  lookup c1 s p1 d1 k1 b1 = (s1, Some n1) -> let s2 := run_fs ops s1 in lookup c2 s2 p2 d2 k2 b2 = (s3, Some n2) ->
  (n1 = n2 <-> target s d1 p1 = target s2 d2 p2).
Proof.
  intros R G1 G2 G L1 s2 L2. pose proof (reach_inv s R) as V. destruct (lookup_ok _ _ _ _ _ _ _ _ V G1 L1) as (V1 & E1 & T1). destruct (T1 n1 eq_refl) as (P1 & (y1 & N1 & _)).
  destruct (run_ok ops s1 V1 G) as (V2 & Gr). destruct (lookup_ok _ _ _ _ _ _ _ _ V2 G2 L2) as (V3 & E3 & T2). destruct (T2 n2 eq_refl) as (P2 & (y2 & N2 & _)).
  assert (Len1 : n1 < length (nodes s1)) by (apply nth_error_Some; congruence). assert (Len2 : n2 < length (nodes s3)) by (apply nth_error_Some; congruence).
  assert (Gr3 : grows s1 s3) by (eapply grows_trans; [exact Gr | exact (e_node _ _ E3)]).
  assert (P1' : path s3 n1 = target s d1 p1) by (rewrite (path_grows s1 s3 n1 V1 Gr3 Len1); exact P1). change (path s3 n2 = target s2 d2 p2) in P2. rewrite <- P1', <- P2. split; [intros ->; reflexivity|].
  apply path_inj; [exact V3 | eapply grows_len; eassumption | exact Len2].
Qed.
(* the node returned is at the location the path denotes, has the requested class, and no existing node has moved or changed class (except an Entry that became a File or a Dir) *)
Theorem C31b_lookup s c p d k b s' r : reachable s -> good p -> lookup c s p d k b = (s', r) ->
  (forall n, r = Some n -> path s' n = target s d p /\ exists y, nth_error (nodes s') n = Some y /\ (k <> KEntry -> kind y = k)) /\
  (forall n x, nth_error (nodes s) n = Some x -> path s' n = path s n /\ exists y, nth_error (nodes s') n = Some y /\ (kind x <> KEntry -> kind y = kind x)).
Proof.
  intros R G L. pose proof (reach_inv s R) as V. destruct (lookup_ok _ _ _ _ _ _ _ _ V G L) as (V1 & E1 & T1). split; [exact T1|]. intros n x N. split; [apply (path_ext s s' n V E1); apply nth_error_Some; congruence|].
  destruct (e_node _ _ E1 n x N) as (y & Hy & _ & _ & K). exists y. auto.
Qed.
(* a lookup that may create nodes fails only if a File is in the way, or the node exists with another class (or the disk says so) *)
Theorem C31c_lookup_succeeds s (c : klass -> str -> bool) p d k : reachable s -> good p -> (forall k p, c k p = false) ->
  (forall n, d = Some n -> exists x, nth_error (nodes s) n = Some x /\ kind x <> KFile) ->
  (forall n x rest, nth_error (nodes s) n = Some x -> target s d p = path s n ++ rest -> compatible (kind x) (match rest with [] => k | _ => KDir end)) ->
  (forall n x, d = Some n -> nth_error (nodes s) n = Some x -> kind x = KEntry -> target s d p = path s n -> k <> KFile) ->
  exists s' n, lookup c s p d k true = (s', Some n).
Proof.
  intros R G Cl Hd C Self. pose proof (reach_inv s R) as V. destruct (lookup_full c s p d k true V G) as [(_ & (n & Dn & M))|(s0 & full & O & V0 & E0 & L0 & (F & W) & E)].
  - exfalso. destruct (Hd n Dn) as (x & N & K). destruct (must_compatible s n x KDir N) as (s' & Q); [|rewrite Q in M; discriminate]. destruct (kind x); [right; right; reflexivity | contradiction | right; left; reflexivity].
  - rewrite E. apply (lookup_abs_makes c (S (length full)) s0 full (target s d p) k V0 W F ltac:(lia) Cl).
    destruct O as [->|(n0 & Dn0 & M0)]; [exact C|]. intros n x rest N Q. assert (Ln : n < length (nodes s)) by (rewrite <- L0; apply nth_error_Some; congruence). rewrite (path_ext s s0 n V E0 Ln) in Q.
    destruct (nth_error (nodes s) n) as [x0|] eqn:N0; [|apply nth_error_None in N0; lia]. pose proof (C n x0 rest N0 Q) as C0.
    destruct (Nat.eq_dec n n0) as [->|Ne].
    + destruct (must_ok s n0 KDir s0 V M0) as (_ & _ & _ & (y & Ny & Ky)). rewrite N in Ny. injection Ny as <-. rewrite Ky by discriminate. destruct rest as [|w rest]; [|right; left; reflexivity].
      destruct k; [left; reflexivity | | right; left; reflexivity]. exfalso. rewrite app_nil_r in Q. destruct (kind x0) eqn:K0.
      * apply (Self n0 x0 Dn0 N0 K0 Q). reflexivity.
      * destruct (Hd n0 Dn0) as (z & Hz & Kz). rewrite N0 in Hz. injection Hz as <-. contradiction.
      * destruct C0 as [C0|[C0|C0]]; discriminate.
    + assert (x = x0). { unfold must_be_same in M0. destruct (nth_error (nodes s) n0) as [z|]; [|discriminate]. destruct (kind z); [|destruct (_ || _); [injection M0 as <-; congruence | discriminate]|destruct (_ || _); [injection M0 as <-; congruence | discriminate]]. injection M0 as <-. cbn in N. rewrite upd_node_nth in N. rewrite (proj2 (Nat.eqb_neq n n0) Ne) in N. congruence. } subst x0. exact C0.
Qed.
(* a node that exists is found, with or without create *)
Theorem C31d_existing_found s c p d k b n x : reachable s -> good p -> nth_error (nodes s) n = Some x -> path s n = target s d p -> compatible (kind x) k ->
  (forall m, d = Some m -> exists y, nth_error (nodes s) m = Some y /\ kind y = KDir) -> exists s', lookup c s p d k b = (s', Some n).
Proof.
  intros R G N P C Hd. pose proof (reach_inv s R) as V. assert (Same : forall m s', d = Some m -> must_be_same s m KDir = Some s' -> s' = s).
  { intros m s' Dm M. destruct (Hd m Dm) as (y & Hy & Ky). unfold must_be_same in M. rewrite Hy, Ky in M. cbn in M. injection M as <-. reflexivity. }
  destruct (lookup_full c s p d k b V G) as [(_ & (m & Dm & M))|(s0 & full & O & V0 & E0 & L0 & (F & W) & E)].
  - exfalso. destruct (Hd m Dm) as (y & Hy & Ky). unfold must_be_same in M. rewrite Hy, Ky in M. discriminate.
  - assert (s0 = s) by (destruct O as [->|(m & Dm & M)]; [reflexivity | apply (Same m s0 Dm M)]). subst s0. rewrite E. eapply lookup_abs_found; eauto.
Qed.

(* ---- C32: relative paths ---- *)
Lemma elems_enough (l : list node) : (forall n x, nth_error l (S n) = Some x -> dir x < S n) -> forall f n, n < f -> path_elements f l n = path_elements (S n) l n.
Proof.
  intros W. assert (G : forall m f g n, n < m -> n < f -> n < g -> path_elements f l n = path_elements g l n).
  { induction m as [|m IH]; intros f g n L1 L2 L3; [lia|]. destruct f as [|f]; [lia|]. destruct g as [|g]; [lia|]. cbn [path_elements]. destruct n as [|n]; [reflexivity|]. destruct (nth_error l (S n)) as [x|] eqn:E; [|reflexivity]. pose proof (W n x E). rewrite (IH f g (dir x)) by lia. reflexivity. }
  intros f n L. apply (G (S n)); lia.
Qed.
Lemma elems_step s n x : inv s -> nth_error (nodes s) (S n) = Some x -> elems s (S n) = elems s (dir x) ++ [S n].
Proof.
  intros V H. unfold elems. change (path_elements (S (S n)) (nodes s) (S n)) with (match nth_error (nodes s) (S n) with Some x => path_elements (S n) (nodes s) (dir x) ++ [S n] | None => [] end). rewrite H. f_equal.
  apply elems_enough; [intros m y E; apply (i_node _ V m y E) | apply (i_node _ V n x H)].
Qed.
(* induction on the depth of a node *)
Lemma node_ind s (P : nat -> Prop) : inv s -> P 0 -> (forall n x, nth_error (nodes s) (S n) = Some x -> dir x < length (nodes s) -> P (dir x) -> P (S n)) -> forall n, n < length (nodes s) -> P n.
Proof.
  intros V P0 PS. assert (G : forall m n, n < m -> n < length (nodes s) -> P n).
  { induction m as [|m IH]; intros n L1 L2; [lia|]. destruct n as [|n]; [exact P0|]. destruct (nth_error (nodes s) (S n)) as [x|] eqn:E; [|apply nth_error_None in E; lia]. destruct (i_node _ V n x E) as (D & _). apply (PS n x E); [lia|]. apply IH; lia. }
  intros n L. apply (G (S n)); [lia | exact L].
Qed.
Lemma elems_path s n : inv s -> n < length (nodes s) -> exists t, elems s n = 0 :: t /\ map (node_name s) t = path s n.
Proof.
  intros V. revert n. apply (node_ind s); [exact V | exists []; split; reflexivity|]. intros n x N L (t & E & M). exists (t ++ [S n]). rewrite (elems_step s n x V N), (path_step s n x V N), E, map_app, M. split; [reflexivity|]. cbn. unfold node_name at 1. rewrite N. reflexivity.
Qed.
Lemma elems_last s n : inv s -> n < length (nodes s) -> exists t, elems s n = t ++ [n].
Proof. intros V. revert n. apply (node_ind s); [exact V | exists []; reflexivity|]. intros n x N _ _. rewrite (elems_step s n x V N). eexists. reflexivity. Qed.
Lemma index_some x l i : index x l = Some i -> exists a b, l = a ++ x :: b /\ length a = i /\ ~ In x a.
Proof.
  revert i. induction l as [|y l IH]; intros i H; [discriminate|]. cbn [index] in H. destruct (x =? y) eqn:E; [apply Nat.eqb_eq in E; subst y; injection H as <-; exists [], l; auto|].
  destruct (index x l) as [j|]; [|discriminate]. injection H as <-. destruct (IH j eq_refl) as (a & b & -> & <- & Na). exists (y :: a), b. split; [reflexivity|]. split; [reflexivity|]. intros [->|Q]; [rewrite Nat.eqb_refl in E; discriminate | contradiction].
Qed.
Lemma index_none x l : index x l = None -> ~ In x l.
Proof. induction l as [|y l IH]; intros H; [intros []|]. cbn [index] in H. destruct (x =? y) eqn:E; [discriminate|]. destruct (index x l); [discriminate|]. intros [->|Q]; [rewrite Nat.eqb_refl in E; discriminate | apply IH; auto]. Qed.
(* an element of the chain: its own chain is a prefix *)
Lemma elems_prefix s n d a b : inv s -> n < length (nodes s) -> elems s n = a ++ d :: b -> elems s d = a ++ [d] /\ d < length (nodes s).
Proof.
  intros V L. revert n L d a b. apply (node_ind s (fun n => forall d a b, elems s n = a ++ d :: b -> elems s d = a ++ [d] /\ d < length (nodes s))); [exact V| |].
  - intros d a b E. change (elems s 0) with [0] in E. destruct a as [|y [|z a]]; [|discriminate|discriminate]. injection E as <- <-. split; [reflexivity|]. destruct (i_root _ V) as (x & Q & _). apply nth_error_Some. congruence.
  - intros n x N L IH d a b E. rewrite (elems_step s n x V N) in E. destruct (rev b) as [|z rb] eqn:Rb.
    + apply (f_equal (@rev nat)) in Rb. rewrite rev_involutive in Rb. cbn in Rb. subst b. apply app_inj_tail in E. destruct E as [<- <-]. split; [apply (elems_step s n x V N) | apply nth_error_Some; congruence].
    + apply (f_equal (@rev nat)) in Rb. rewrite rev_involutive in Rb. cbn in Rb. subst b. rewrite app_comm_cons, app_assoc in E. apply app_inj_tail in E. destruct E as [E _]. apply (IH d a (rev rb) E).
Qed.
Lemma ancestor_path s n d a b : inv s -> n < length (nodes s) -> elems s n = a ++ d :: b -> path s n = path s d ++ map (node_name s) b.
Proof.
  intros V L E. destruct (elems_prefix s n d a b V L E) as (Ed & Ld). destruct (elems_path s n V L) as (t & En & Mn). destruct (elems_path s d V Ld) as (t' & Ed' & Md). rewrite <- Mn, <- Md, <- map_app. f_equal.
  rewrite Ed' in Ed. rewrite En in E. assert (0 :: t = (0 :: t') ++ b) by (rewrite Ed, <- app_assoc; exact E). cbn in H. injection H. auto.
Qed.
Lemma walk_ups (k : nat) : forall base (names : list str), length names = k -> walk (base ++ names) (repeat dotdot k) = base.
Proof.
  induction k as [|k IH]; intros base0 names L; [destruct names; [rewrite app_nil_r; reflexivity | discriminate]|]. cbn [repeat walk]. change (str_eqb dotdot [] || str_eqb dotdot [46]) with false. change (str_eqb dotdot [46; 46]) with true. cbv iota.
  destruct (rev names) as [|w rn] eqn:Rn; [apply (f_equal (@rev str)) in Rn; rewrite rev_involutive in Rn; subst names; discriminate|]. apply (f_equal (@rev str)) in Rn. rewrite rev_involutive in Rn. cbn in Rn. subst names.
  rewrite app_assoc, removelast_last. apply IH. rewrite app_length in L. cbn in L. lia.
Qed.
Lemma split_join_ups k : split SL (join SL (repeat dotdot (S k))) = repeat dotdot (S k).
Proof. apply split_join; [discriminate|]. intros w Hw. apply repeat_spec in Hw. subst w. cbn. unfold SL, DOT. intros [H|[H|[]]]; discriminate. Qed.
Lemma rel_pathf_ok s self : inv s -> self < length (nodes s) -> forall fuel other, other < fuel -> other < length (nodes s) -> walk (path s self) (split SL (rel_pathf fuel s self other)) = path s other.
Proof.
  intros V Ls. induction fuel as [|fuel IH]; intros other F Lo; [lia|]. cbn [rel_pathf]. destruct (self =? other) eqn:Es; [apply Nat.eqb_eq in Es; subst other; reflexivity|]. apply Nat.eqb_neq in Es.
  destruct (index other (elems s self)) as [i|] eqn:Ix.
  - destruct (index_some _ _ _ Ix) as (a & b & E & La & _). destruct (elems_prefix s self other a b V Ls E) as (Eo & _). rewrite Eo, E. replace (skipn (i + 1) (a ++ [other])) with (@nil nat) by (symmetry; apply skipn_all2; rewrite app_length; cbn; lia).
    cbn [map]. rewrite app_nil_r. replace (length (a ++ other :: b) - (i + 1)) with (length b) by (rewrite app_length; cbn; lia). rewrite (ancestor_path s self other a b V Ls E).
    destruct b as [|y b]; [exfalso; destruct (elems_last s self V Ls) as (t & Et); rewrite Et in E; apply app_inj_tail in E; destruct E as [_ ->]; contradiction|].
    cbn [length]. rewrite split_join_ups. apply walk_ups. rewrite map_length. reflexivity.
  - apply index_none in Ix. destruct other as [|o]; [exfalso; apply Ix; destruct (elems_path s self V Ls) as (t & -> & _); left; reflexivity|].
    destruct (nth_error (nodes s) (S o)) as [x|] eqn:N; [|apply nth_error_None in N; lia]. destruct (i_node _ V o x N) as (D & Vx & _). rewrite (path_step s o x V N). specialize (IH (dir x) ltac:(lia) ltac:(lia)).
    assert (Wx : forall d, walk d (split SL (name x)) = d ++ [name x]). { intros d. rewrite split_word by apply Vx. apply walk_valid. intros w [<-|[]]. exact Vx. }
    destruct (str_eqb (rel_pathf fuel s self (dir x)) dot) eqn:Q; [apply str_eqb_eq in Q; rewrite Q in IH; rewrite Wx; f_equal; exact IH|]. rewrite split_app_gen, walk_app, IH, Wx. reflexivity.
Qed.
(* C32: following self.rel_path(other) from self leads to other *)
Theorem C32_rel_path s self other : reachable s -> self < length (nodes s) -> other < length (nodes s) -> walk (path s self) (split 47 (rel_path s self other)) = path s other.
Proof. intros R L1 L2. apply rel_pathf_ok; [apply reach_inv, R | exact L1 | lia | exact L2]. Qed.
Lemma rel_pathf_head s self : inv s -> self < length (nodes s) -> forall fuel other, other < fuel -> other < length (nodes s) -> rel_pathf fuel s self other <> [] /\ forall q, rel_pathf fuel s self other <> SL :: q.
Proof.
  intros V Ls. induction fuel as [|fuel IH]; intros other F Lo; [lia|]. cbn [rel_pathf]. destruct (self =? other) eqn:Es; [split; discriminate|]. apply Nat.eqb_neq in Es.
  destruct (index other (elems s self)) as [i|] eqn:Ix.
  - destruct (index_some _ _ _ Ix) as (a & b & E & La & _). destruct (elems_prefix s self other a b V Ls E) as (Eo & _). rewrite Eo, E. replace (skipn (i + 1) (a ++ [other])) with (@nil nat) by (symmetry; apply skipn_all2; rewrite app_length; cbn; lia).
    cbn [map]. rewrite app_nil_r. replace (length (a ++ other :: b) - (i + 1)) with (length b) by (rewrite app_length; cbn; lia).
    destruct b as [|y b]; [exfalso; destruct (elems_last s self V Ls) as (t & Et); rewrite Et in E; apply app_inj_tail in E; destruct E as [_ ->]; contradiction|]. cbn [length repeat]. destruct b; split; discriminate.
  - apply index_none in Ix. destruct other as [|o]; [exfalso; apply Ix; destruct (elems_path s self V Ls) as (t & -> & _); left; reflexivity|].
    destruct (nth_error (nodes s) (S o)) as [x|] eqn:N; [|apply nth_error_None in N; lia]. destruct (i_node _ V o x N) as (D & Vx & _). destruct (IH (dir x) ltac:(lia) ltac:(lia)) as (H1 & H2).
    destruct (str_eqb (rel_pathf fuel s self (dir x)) dot); [split; [apply Vx | intros q Q; destruct Vx as (_ & _ & _ & Vx); apply Vx; rewrite Q; left; reflexivity]|].
    destruct (rel_pathf fuel s self (dir x)) as [|c r]; [contradiction|]. split; [discriminate|]. intros q Q. injection Q as -> _. apply (H2 r). reflexivity.
Qed.
(* looking up self.rel_path(other) in self returns other itself; excluded: a newline in a name, and a first name that begins with # (see C32_refuted) *)
Theorem C32b_rel_path_lookup s self other x y c b : reachable s -> nth_error (nodes s) self = Some x -> kind x = KDir -> nth_error (nodes s) other = Some y ->
  ~ In 10 (rel_path s self other) -> (forall q, rel_path s self other <> 35 :: q) -> exists s', lookup c s (rel_path s self other) (Some self) KEntry b = (s', Some other).
Proof.
  intros R Nx Kx Ny G1 G2. assert (L1 : self < length (nodes s)) by (apply nth_error_Some; congruence). assert (L2 : other < length (nodes s)) by (apply nth_error_Some; congruence). pose proof (reach_inv s R) as V.
  destruct (rel_pathf_head s self V L1 (S other) other ltac:(lia) L2) as (H1 & H2). fold (rel_path s self other) in H1, H2.
  apply (C31d_existing_found s c _ (Some self) KEntry b other y R).
  - split; [exact G1|]. intros (n & E). apply (H2 (repeat 47 (S n))). exact E.
  - exact Ny.
  - rewrite <- (C32_rel_path s self other R L1 L2). unfold target. rewrite denotes_eq. destruct (rel_path s self other) as [|ch q] eqn:E; [contradiction|].
    destruct (ch =? 35) eqn:E1; [apply Nat.eqb_eq in E1; subst; elim (G2 q eq_refl)|]. destruct (ch =? 47) eqn:E2; [apply Nat.eqb_eq in E2; subst; elim (H2 q eq_refl)|]. reflexivity.
  - left. reflexivity.
  - intros m Q. injection Q as <-. exists x. auto.
Qed.
Lemma elems_nz s n : inv s -> n < length (nodes s) -> exists t, elems s n = 0 :: t /\ Forall (fun e => e <> 0) t.
Proof. intros V. revert n. apply (node_ind s); [exact V | exists []; split; [reflexivity | constructor]|]. intros n x N L (t & E & M). exists (t ++ [S n]). rewrite (elems_step s n x V N), E. split; [reflexivity|]. apply Forall_app. split; [exact M|]. constructor; [discriminate | constructor]. Qed.
Lemma cat_join s es n : Forall (fun e => e <> 0) es -> concat (map (dirname s) es) ++ node_name s n = join SL (map (node_name s) (es ++ [n])).
Proof.
  induction es as [|e es IH]; intros H; [reflexivity|]. cbn [map concat app]. rewrite <- app_assoc, IH by exact (Forall_inv_tail H). pose proof (Forall_inv H) as H0. cbn beta in H0. destruct e as [|e]; [contradiction|]. cbn [dirname]. rewrite <- app_assoc. destruct es as [|e' es]; reflexivity.
Qed.
(* get_path(dir) denotes the node, relative to dir if the node is below it, absolute otherwise *)
Theorem C32c_get_path s n d t : reachable s -> n < length (nodes s) -> (forall q, get_path s n d <> 35 :: q) -> denotes t (path s d) (get_path s n d) = path s n.
Proof.
  intros R L NH. pose proof (reach_inv s R) as V. unfold get_path in *. destruct (n =? d) eqn:Q; [apply Nat.eqb_eq in Q; subst d; reflexivity|]. apply Nat.eqb_neq in Q. cbv zeta in *.
  destruct (elems_last s n V L) as (tl & El). destruct (elems_nz s n V L) as (t0 & Et & Nz). destruct (index d (elems s n)) as [i|] eqn:Ix.
  - destruct (index_some _ _ _ Ix) as (a & b & E & La & _). rewrite (ancestor_path s n d a b V L E).
    assert (Sk : skipn (i + 1) (elems s n) = b). { rewrite E. replace (a ++ d :: b) with ((a ++ [d]) ++ b) by (rewrite <- app_assoc; reflexivity). rewrite skipn_app, skipn_all2 by (rewrite app_length; cbn; lia). cbn [app]. rewrite app_length. cbn [length]. replace (i + 1 - (length a + 1)) with 0 by lia. reflexivity. }
    rewrite Sk in *. clear Sk. destruct (rev b) as [|z rb] eqn:Rb; apply (f_equal (@rev nat)) in Rb; rewrite rev_involutive in Rb; cbn [rev] in Rb; subst b.
    { exfalso. rewrite El in E. apply app_inj_tail in E. destruct E as [_ E]. contradiction. }
    set (b' := rev rb) in *. assert (z = n). { rewrite El in E. rewrite app_comm_cons, app_assoc in E. apply app_inj_tail in E. symmetry. apply E. } subst z.
    assert (Nb : Forall (fun e => e <> 0) b'). { assert (G : Forall (fun e => e <> 0) (b' ++ [n])); [|apply Forall_app in G; apply G]. rewrite Et in E. destruct a as [|e a]; injection E as E0 E; [rewrite <- E; exact Nz | rewrite E in Nz; apply Forall_app in Nz; destruct Nz as [_ Nz]; exact (Forall_inv_tail Nz)]. }
    rewrite removelast_last in *. rewrite (cat_join s b' n Nb) in *. set (names := map (node_name s) (b' ++ [n])) in *.
    assert (Vn : forall w, In w names -> valid w). { intros w Hw. apply (path_valid s V n L). rewrite (ancestor_path s n d a (b' ++ [n]) V L E). apply in_or_app. right. exact Hw. }
    assert (Ne : names <> []) by (unfold names; destruct b'; discriminate). rewrite denotes_eq. destruct (join SL names) as [|ch q] eqn:J.
    + exfalso. rewrite <- (split_abs names Vn Ne), J in Vn. destruct (Vn [] (or_introl eq_refl)) as (X & _). contradiction.
    + destruct (ch =? 35) eqn:E1; [apply Nat.eqb_eq in E1; subst; elim (NH q eq_refl)|]. destruct (ch =? 47) eqn:E2.
      * exfalso. apply Nat.eqb_eq in E2. subst ch. pose proof (split_abs names Vn Ne) as X. rewrite J in X. cbn [split] in X. change (47 =? SL) with true in X. cbv iota in X. destruct (Vn []) as (Y & _); [rewrite <- X; left; reflexivity | contradiction].
      * rewrite <- J, (split_abs names Vn Ne). apply walk_valid, Vn.
  - destruct (elems_path s n V L) as (t1 & Et1 & Mt). rewrite Et in Et1. injection Et1 as <-. rewrite Et. rewrite Et in El. destruct (rev t0) as [|z rt] eqn:Rt; apply (f_equal (@rev nat)) in Rt; rewrite rev_involutive in Rt; cbn [rev] in Rt; subst t0.
    + assert (n = 0) by (apply (app_inj_tail [] tl 0 n) in El; symmetry; apply El). subst n. cbn [removelast map concat app]. unfold node_name. destruct (i_name _ V) as (r & -> & ->). reflexivity.
    + set (t' := rev rt) in *. assert (z = n) by (rewrite app_comm_cons in El; apply app_inj_tail in El; apply El). subst z. rewrite app_comm_cons, removelast_last. cbn [map concat dirname app].
      apply Forall_app in Nz. destruct Nz as [Nz _]. rewrite (cat_join s t' n Nz), Mt. rewrite denotes_eq. change (SL =? 35) with false. change (SL =? 47) with true. cbv iota.
      rewrite split_abs; [apply walk_valid; apply (path_valid s V n L) | apply (path_valid s V n L) | rewrite <- Mt; destruct t'; discriminate].
Qed.

Lemma good_dec p : (existsb (fun c => c =? 10) p = false) -> (existsb (fun c => negb (c =? 47)) p = true \/ length p <= 1) -> good p.
Proof.
  intros A B. split.
  - intros H. rewrite <- not_true_iff_false in A. apply A. apply existsb_exists. exists 10. split; [exact H | reflexivity].
  - intros (n & E). destruct B as [B|B]; [|rewrite E in B; cbn in B; lia]. apply existsb_exists in B. destruct B as (c & H & Q). rewrite E in H. apply repeat_spec in H. subst c. discriminate.
Qed.
Ltac good_tac := apply good_dec; [reflexivity | first [left; reflexivity | right; cbn; lia]].

(* ---- what the code does for the paths that are excluded ---- *)
Definition no_clash (k : klass) (p : str) : bool := false.
(* "//" is the root directory, but looking it up relative to a directory gives that directory *)
Theorem C31_refuted_slashes : exists s p n s', reachable s /\ lookup no_clash s p None KDir true = (s', Some n) /\ path s' n <> target s None p.
Proof.
  exists (run_fs [FLookup no_clash [SL; 97] None KDir true; FChdir 1] fs_root), [SL; SL], 1. eexists. split; [eexists; split; [|reflexivity]; apply Forall_cons; [cbn; good_tac | apply Forall_cons; [exact I | constructor]]|]. split; [reflexivity|]. cbn. discriminate.
Qed.
(* a newline hides a later ".." from the test whether a path must be normalised *)
Theorem C31_refuted_newline : exists s p n s', reachable s /\ lookup no_clash s p None KFile true = (s', Some n) /\ path s' n <> target s None p.
Proof.
  exists fs_root, [97; 10; 98; SL; DOT; DOT; SL; 99], 3. eexists. split; [exists []; split; [constructor | reflexivity]|]. split; [reflexivity|]. vm_compute. discriminate.
Qed.
(* the relative path of a file whose name begins with # is looked up from the top directory instead *)
Theorem C32_refuted_hash : exists s self other s' n, reachable s /\ self < length (nodes s) /\ other < length (nodes s) /\ lookup no_clash s (rel_path s self other) (Some self) KEntry true = (s', Some n) /\ n <> other.
Proof.
  exists (run_fs [FLookup no_clash [SL; 97] None KDir true; FLookup no_clash [SL; 97; SL; 35; 98] None KFile true] fs_root), 1, 2. eexists _, _. split.
  { eexists. split; [|reflexivity]. apply Forall_cons; [cbn; good_tac | apply Forall_cons; [cbn; good_tac | constructor]]. }
  split; [cbn; lia|]. split; [cbn; lia|]. split; [reflexivity|]. discriminate.
Qed.

(* ---- a concrete history meeting the hypotheses: Top = /p, cwd = /p/s; "../b/./c", "#b/c", "/p/b//c" are one node; "c" is another ---- *)
Definition h0 : list fsop := [FLookup no_clash [SL; 112] None KDir true; FTop 1; FLookup no_clash [115] None KDir true; FChdir 2].
Definition up_b_c : str := [DOT; DOT; SL; 98; SL; DOT; SL; 99].
Lemma good_h0 : Forall good_op h0. Proof. unfold h0. repeat (apply Forall_cons; [cbn; first [exact I | good_tac]|]). apply Forall_nil. Qed.
Example C31_witness : let s := run_fs h0 fs_root in reachable s /\ good up_b_c /\ good [HASH; 98; SL; 99] /\ good [SL; 112; SL; 98; SL; SL; 99] /\
  exists s1, lookup no_clash s up_b_c None KFile true = (s1, Some 4) /\ exists s2, lookup no_clash s1 [HASH; 98; SL; 99] None KEntry true = (s2, Some 4) /\
  (exists s3, lookup no_clash s2 [SL; 112; SL; 98; SL; SL; 99] (Some 1) KFile false = (s3, Some 4)) /\ (exists s4, lookup no_clash s2 [99] None KFile true = (s4, Some 5)) /\
  rel_path s2 2 4 = [DOT; DOT; SL; 98; SL; 99] /\ rel_path s2 4 2 = [DOT; DOT; SL; DOT; DOT; SL; 115] /\ get_path s2 4 1 = [98; SL; 99].
Proof.
  cbv zeta. split; [exists h0; split; [apply good_h0 | reflexivity]|]. split; [good_tac|]. split; [good_tac|]. split; [good_tac|]. eexists. split; [reflexivity|]. eexists. split; [reflexivity|]. split; [eexists; reflexivity|]. split; [eexists; reflexivity|]. split; [reflexivity|]. split; reflexivity.
Qed.
Print Assumptions C31_node_identity. Print Assumptions C31b_lookup. Print Assumptions C31c_lookup_succeeds. Print Assumptions C31d_existing_found.
Print Assumptions C32_rel_path. Print Assumptions C32b_rel_path_lookup. Print Assumptions C32c_get_path.
Print Assumptions C31_refuted_slashes. Print Assumptions C31_refuted_newline. Print Assumptions C32_refuted_hash.
