(* C29, C30: path lists and duplicate removal *)
From Coq Require Import List Arith Bool Lia Permutation.
From Verif Require Import PathsModel.
Import ListNotations.

(* ---- specification ---- *)
(* firsts_after before l r: r consists, in order, of the elements of l that satisfy ok and whose key is not that of an earlier
   element (of before or of l) satisfying ok *)
Inductive firsts_after {A K} (ok : A -> Prop) (key : A -> K) : list A -> list A -> list A -> Prop :=
| fa_nil before : firsts_after ok key before [] []
| fa_keep before x l r : ok x -> (forall y, In y before -> ok y -> key y <> key x) -> firsts_after ok key (before ++ [x]) l r -> firsts_after ok key before (x :: l) (x :: r)
| fa_drop before x l r : (~ ok x \/ exists y, In y before /\ ok y /\ key y = key x) -> firsts_after ok key (before ++ [x]) l r -> firsts_after ok key before (x :: l) r.
Definition firsts {A K} (ok : A -> Prop) (key : A -> K) (l r : list A) : Prop := firsts_after ok key [] l r.
(* ... not that of a later element *)
Definition lasts {A K} (ok : A -> Prop) (key : A -> K) (l r : list A) : Prop := firsts ok key (rev l) (rev r).
Lemma firsts_unique {A K} (ok : A -> Prop) (key : A -> K) b l : forall r r', firsts_after ok key b l r -> firsts_after ok key b l r' -> r = r'.
Proof.
  revert b. induction l as [|x l IH]; intros b r r' H H'; inversion H as [|p1 p2 p3 p4 o1 n1 f1|p1 p2 p3 p4 d1 f1]; inversion H' as [|q1 q2 q3 q4 o2 n2 f2|q1 q2 q3 q4 d2 f2]; subst; try reflexivity;
    try (f_equal; eapply IH; eassumption); try (eapply IH; eassumption).
  - destruct d2 as [Q|(y & Iy & Oy & Ky)]; [contradiction | elim (n1 y Iy Oy Ky)].
  - destruct d1 as [Q|(y & Iy & Oy & Ky)]; [contradiction | elim (n2 y Iy Oy Ky)].
Qed.
(* consequences: exactly the keys that occur, once each *)
Lemma firsts_in {A K} (ok : A -> Prop) (key : A -> K) b l r : firsts_after ok key b l r -> forall x, In x r -> In x l /\ ok x /\ forall y, In y b -> ok y -> key y <> key x.
Proof.
  induction 1 as [b|b x l r O N F IH|b x l r D F IH]; intros z Hz; [destruct Hz| |].
  - destruct Hz as [->|Hz]; [split; [left; reflexivity | auto]|]. destruct (IH z Hz) as (H1 & H2 & H3). split; [right; exact H1|]. split; [exact H2|]. intros y Hy. apply H3, in_or_app. left. exact Hy.
  - destruct (IH z Hz) as (H1 & H2 & H3). split; [right; exact H1|]. split; [exact H2|]. intros y Hy. apply H3, in_or_app. left. exact Hy.
Qed.
Lemma firsts_nodup {A K} (ok : A -> Prop) (key : A -> K) b l r : firsts_after ok key b l r -> NoDup (map key r).
Proof.
  induction 1 as [b|b x l r O N F IH|b x l r D F IH]; [constructor| |exact IH]. cbn. constructor; [|exact IH]. intros Q. apply in_map_iff in Q. destruct Q as (y & Ky & Iy).
  destruct (firsts_in _ _ _ _ _ F y Iy) as (_ & _ & H). apply (H x); [apply in_or_app; right; left; reflexivity | exact O | congruence].
Qed.
Lemma firsts_keys {A K} (ok : A -> Prop) (key : A -> K) b l r : firsts_after ok key b l r -> (forall x, ok x \/ ~ ok x) -> forall x, In x l -> ok x -> (exists y, In y r /\ key y = key x) \/ exists y, In y b /\ ok y /\ key y = key x.
Proof.
  intros H Dec. induction H as [b|b x l r O N F IH|b x l r D F IH]; intros z Hz Oz; [destruct Hz| |].
  - destruct Hz as [->|Hz]; [left; exists z; split; [left; reflexivity | reflexivity]|]. destruct (IH z Hz Oz) as [(y & Iy & Ky)|(y & Iy & Oy & Ky)]; [left; exists y; split; [right; exact Iy | exact Ky]|].
    apply in_app_or in Iy. destruct Iy as [Iy|[->|[]]]; [right; exists y; auto | left; exists y; split; [left; reflexivity | exact Ky]].
  - destruct Hz as [->|Hz]; [destruct D as [Q|D]; [contradiction | right; exact D]|]. destruct (IH z Hz Oz) as [Q|(y & Iy & Oy & Ky)]; [left; exact Q|].
    apply in_app_or in Iy. destruct Iy as [Iy|[->|[]]]; [right; exists y; auto|]. destruct D as [Q|(w & Iw & Ow & Kw)]; [contradiction | right; exists w; repeat split; [assumption | assumption | congruence]].
Qed.

(* ---- strings ---- *)
Lemma str_eqb_eq a : forall b, str_eqb a b = true <-> a = b.
Proof.
  induction a as [|x a IH]; intros [|y b]; cbn; try (split; [discriminate | discriminate]); [tauto|]. rewrite andb_true_iff, Nat.eqb_eq, IH. split; [intros [-> ->]; reflexivity | intros H; injection H; auto].
Qed.
Lemma smem_in x l : smem x l = true <-> In x l.
Proof. unfold smem. rewrite existsb_exists. split; [intros (y & H & Q); apply str_eqb_eq in Q; subst; exact H | intros H; exists x; split; [exact H | apply str_eqb_eq; reflexivity]]. Qed.
Lemma split_nonempty sep s : split sep s <> [].
Proof. destruct s as [|c s]; cbn; [discriminate|]. destruct (c =? sep); [discriminate|]. destruct (split sep s); discriminate. Qed.
Lemma split_free sep s : forall w, In w (split sep s) -> ~ In sep w.
Proof.
  induction s as [|c s IH]; intros w; cbn [split]; [intros [<-|[]] []|]. destruct (c =? sep) eqn:Q.
  - intros [<-|H]; [intros [] | apply IH, H].
  - apply Nat.eqb_neq in Q. destruct (split sep s) as [|v ws] eqn:E; [intros [<-|[]] [Z|[]]; congruence|]. intros [<-|H]; [intros [Z|Z]; [congruence | apply (IH v (or_introl eq_refl) Z)] | apply IH; right; exact H].
Qed.
Lemma split_word sep w : ~ In sep w -> split sep w = [w].
Proof. induction w as [|c w IH]; intros H; [reflexivity|]. cbn [split]. destruct (c =? sep) eqn:Q; [apply Nat.eqb_eq in Q; subst; elim H; left; reflexivity|]. rewrite IH; [reflexivity|]. intros Z. apply H. right. exact Z. Qed.
Lemma split_app sep w s : ~ In sep w -> split sep (w ++ sep :: s) = w :: split sep s.
Proof. induction w as [|c w IH]; intros H; cbn [app split]; [rewrite Nat.eqb_refl; reflexivity|]. destruct (c =? sep) eqn:Q; [apply Nat.eqb_eq in Q; subst; elim H; left; reflexivity|]. rewrite IH; [reflexivity|]. intros Z. apply H. right. exact Z. Qed.
Lemma split_join sep l : l <> [] -> (forall w, In w l -> ~ In sep w) -> split sep (join sep l) = l.
Proof.
  induction l as [|w l IH]; intros N H; [contradiction|]. destruct l as [|v l]; [apply split_word, H; left; reflexivity|]. cbn [join]. etransitivity; [apply split_app, H; left; reflexivity|].
  f_equal. apply IH; [discriminate|]. intros u Hu. apply H. right. exact Hu.
Qed.

(* ---- C29 ---- *)
Section Path.
Variable sep : nat.
Variable norm : str -> str.
Definition nonempty (p : str) : Prop := p <> [].
Notation Firsts := (firsts nonempty norm). Notation Lasts := (lasts nonempty norm).
(* the elements of a path variable, without the empty ones *)
Definition entries (p : pathv) : list str := filter (fun w => match w with [] => false | _ => true end) (elements sep p).

Lemma add_new_ok l : forall b r n, (forall k, In k n <-> exists y, In y b /\ nonempty y /\ norm y = k) -> exists s, fst (add_new norm l r n) = r ++ s /\ firsts_after nonempty norm b l s.
Proof.
  induction l as [|p l IH]; intros b r n H; [exists []; rewrite app_nil_r; split; [reflexivity | constructor]|]. cbn [add_new].
  destruct p as [|c p].
  - destruct (IH (b ++ [[]]) r n) as (s & E & F). { intros k. rewrite H. split; intros (y & Iy & Oy & Ky); exists y; (split; [|auto]); [apply in_or_app; auto | apply in_app_or in Iy; destruct Iy as [Iy|[<-|[]]]; [exact Iy | elim Oy; reflexivity]]. }
    exists s. split; [exact E|]. apply fa_drop; [left; intros Q; apply Q; reflexivity | exact F].
  - set (q := c :: p). destruct (smem (norm q) n) eqn:M.
    + apply smem_in in M. pose proof (proj1 (H _) M) as D. destruct (IH (b ++ [q]) r n) as (s & E & F).
      { intros k. rewrite H. split; intros (y & Iy & Oy & Ky); [exists y; split; [apply in_or_app; auto | auto]|]. apply in_app_or in Iy. destruct Iy as [Iy|[<-|[]]]; [exists y; auto|]. destruct D as (z & Iz & Oz & Kz). exists z. repeat split; [assumption | assumption | congruence]. }
      exists s. split; [exact E|]. apply fa_drop; [right; exact D | exact F].
    + destruct (IH (b ++ [q]) (r ++ [q]) (n ++ [norm q])) as (s & E & F).
      { intros k. split; [intros Q; apply in_app_or in Q; destruct Q as [Q|[<-|[]]]; [apply H in Q; destruct Q as (y & Iy & Oy & Ky); exists y; split; [apply in_or_app; auto | auto] | exists q; split; [apply in_or_app; right; left; reflexivity | split; [discriminate | reflexivity]]]|].
        intros (y & Iy & Oy & Ky). apply in_app_or in Iy. apply in_or_app. destruct Iy as [Iy|[<-|[]]]; [left; apply H; exists y; auto | right; left; exact Ky]. }
      exists (q :: s). split; [etransitivity; [exact E | rewrite <- app_assoc; reflexivity]|]. apply fa_keep; [discriminate | | exact F]. intros y Iy Oy Ky. assert (In (norm q) n) by (apply H; exists y; auto). apply smem_in in H0. congruence.
Qed.
Lemma add_new_firsts l : Firsts l (fst (add_new norm l [] [])).
Proof. destruct (add_new_ok l [] [] []) as (s & E & F); [intros k; split; [intros [] | intros (y & [] & _)]|]. rewrite E. exact F. Qed.
Lemma add_new_norms l : forall r n, (forall k, In k n <-> In k (map norm r)) -> forall k, In k (snd (add_new norm l r n)) <-> In k (map norm (fst (add_new norm l r n))).
Proof.
  induction l as [|p l IH]; intros r n H k; [apply H|]. cbn [add_new]. destruct p as [|c p]; [apply IH, H|]. destruct (smem (norm (c :: p)) n); [apply IH, H|]. apply IH. intros k'. rewrite map_app, !in_app_iff, H. reflexivity.
Qed.
(* inserting at the head *)
Lemma insert_new_ok l : forall b r n, (forall k, In k n <-> exists y, In y b /\ nonempty y /\ norm y = k) -> exists s, fst (insert_new norm l r n) = rev s ++ r /\ firsts_after nonempty norm b l s.
Proof.
  intros b r n H. destruct (add_new_ok l b [] n H) as (s & E & F). exists s. split; [|exact F]. cbn in E. subst s.
  assert (G : forall l r a n, fst (insert_new norm l (rev a ++ r) n) = rev (fst (add_new norm l a n)) ++ r).
  { clear. induction l as [|p l IH]; intros r a n; [reflexivity|]. cbn [insert_new add_new]. destruct p as [|c p]; [apply IH|]. destruct (smem (norm (c :: p)) n); [apply IH|]. rewrite <- IH, rev_app_distr. reflexivity. }
  apply (G l r [] n).
Qed.
Lemma add_all_ok l : forall r n, fst (add_all norm l r n) = r ++ filter (fun w => match w with [] => false | _ => true end) l /\ snd (add_all norm l r n) = n ++ map norm (filter (fun w => match w with [] => false | _ => true end) l).
Proof.
  induction l as [|p l IH]; intros r n; [cbn; rewrite !app_nil_r; auto|]. cbn [add_all]. destruct p as [|c p]; [apply IH|]. destruct (IH (r ++ [c :: p]) (n ++ [norm (c :: p)])) as [E1 E2]. split; (etransitivity; [first [exact E1 | exact E2]|]); rewrite <- !app_assoc; reflexivity.
Qed.

(* what the caller gets back: the entries of the returned path variable *)
Definition result_of (p : pathv) : list str := entries p.
Lemma return_entries old r : (forall w, In w r -> nonempty w) -> (match old with PStr _ => forall w, In w r -> ~ In sep w | PList _ => True end) -> result_of (return_path sep old r) = r.
Proof.
  intros N H. unfold result_of, entries. assert (Fr : filter (fun w : str => match w with [] => false | _ => true end) r = r).
  { clear H. induction r as [|w r IH]; [reflexivity|]. cbn. destruct w; [elim (N [] (or_introl eq_refl)); reflexivity|]. f_equal. apply IH. intros v Hv. apply N. right. exact Hv. }
  destruct old as [s|l]; cbn [return_path elements]; [|exact Fr]. destruct r as [|w r]; [reflexivity|]. rewrite split_join; [exact Fr | discriminate | exact H].
Qed.
Definition cased (c : option (str -> str)) (l : list str) : list str := match c with Some f => map f l | None => l end.
(* no element of the arguments contains the separator (automatic for string arguments, unless canonicalize adds it) *)
Definition sep_free (l : list str) : Prop := forall w, In w l -> ~ In sep w.
Lemma firsts_sep l r : Firsts l r -> sep_free l -> sep_free r.
Proof. intros F H w Hw. apply H. apply (firsts_in _ _ _ _ _ F w Hw). Qed.
Lemma firsts_ne l r : Firsts l r -> forall w, In w r -> nonempty w.
Proof. intros F w Hw. apply (firsts_in _ _ _ _ _ F w Hw). Qed.

(* C29.  PrependPath: the new elements (canonicalised) and then the old ones; empty elements are dropped and of the elements
   with the same normalised path only the first is kept.  The newpath argument is unchanged. *)
Theorem C29_prepend : forall old new c, let news := cased c (elements sep new) in
  (match old with PStr _ => sep_free news | PList _ => True end) ->
  Firsts (news ++ elements sep old) (result_of (fst (prepend_path sep norm old new true c))) /\ snd (prepend_path sep norm old new true c) = new.
Proof.
  intros old new c news H. split; [|reflexivity]. cbn [prepend_path fst]. fold news. unfold new_elements. fold (cased c (elements sep new)). fold news. pose proof (add_new_firsts (news ++ elements sep old)) as F. rewrite return_entries; [exact F | apply (firsts_ne _ _ F)|].
  destruct old as [s|l]; [|exact Logic.I]. apply (firsts_sep _ _ F). intros w Hw. apply in_app_or in Hw. destruct Hw as [Hw|Hw]; [apply H, Hw | apply (split_free sep s w Hw)].
Qed.
(* AppendPath: the old elements and then the new ones, keeping the last of equal ones *)
Theorem C29b_append : forall old new c, let news := cased c (elements sep new) in
  (match old with PStr _ => sep_free news | PList _ => True end) ->
  Lasts (elements sep old ++ news) (result_of (fst (append_path sep norm old new true c))) /\ snd (append_path sep norm old new true c) = new.
Proof.
  intros old new c news H. split; [|reflexivity]. cbn [append_path fst]. unfold new_elements. fold (cased c (elements sep new)). fold news. pose proof (add_new_firsts (rev (elements sep old ++ news))) as F. rewrite return_entries.
  - unfold lasts. rewrite rev_involutive. exact F.
  - intros w Hw. apply in_rev in Hw. apply (firsts_ne _ _ F w Hw).
  - destruct old as [s|l]; [|exact Logic.I]. intros w Hw. apply in_rev in Hw. revert w Hw. apply (firsts_sep _ _ F). intros w Hw. apply in_rev in Hw. apply in_app_or in Hw. destruct Hw as [Hw|Hw]; [apply (split_free sep s w Hw) | apply H, Hw].
Qed.
(* With delete_existing=False the old elements stay where they are, and the new ones not among them are added at the front,
   the last one of equal ones (PrependPath) ... *)
Theorem C29c_prepend_keep : forall old new c, let news := cased c (elements sep new) in
  (match old with PStr _ => sep_free news | PList _ => True end) ->
  exists added kept, result_of (fst (prepend_path sep norm old new false c)) = added ++ kept /\ Firsts (elements sep old) kept
    /\ firsts_after nonempty norm (elements sep old) (rev news) (rev added).
Proof.
  intros old new c news H. unfold prepend_path, new_elements. fold (cased c (elements sep new)). fold news. destruct (add_new norm (elements sep old) [] []) as [kept n] eqn:E.
  pose proof (add_new_firsts (elements sep old)) as F. pose proof (add_new_norms (elements sep old) [] [] ltac:(cbn; tauto)) as Nn. rewrite E in F, Nn. cbn [fst snd] in *.
  destruct (insert_new_ok (rev news) (elements sep old) kept n) as (s & E2 & F2).
  { intros k. rewrite Nn. split.
    - intros Q. apply in_map_iff in Q. destruct Q as (y & Ky & Iy). exists y. destruct (firsts_in _ _ _ _ _ F y Iy) as (H1 & H2 & _). auto.
    - intros (y & Iy & Oy & Ky). destruct (firsts_keys _ _ _ _ _ F ltac:(intros [|? ?]; [right; intros Q; apply Q; reflexivity | left; discriminate]) y Iy Oy) as [(z & Iz & Kz)|(z & [] & _)]. apply in_map_iff. exists z. split; [congruence | exact Iz]. }
  exists (rev s), kept. rewrite rev_involutive. rewrite E2. split; [|split; [exact F | exact F2]]. apply return_entries.
  - intros w Hw. apply in_app_or in Hw. destruct Hw as [Hw|Hw]; [apply in_rev in Hw; apply (firsts_in _ _ _ _ _ F2 w Hw) | apply (firsts_ne _ _ F w Hw)].
  - destruct old as [so|l]; [|exact Logic.I]. intros w Hw. apply in_app_or in Hw. destruct Hw as [Hw|Hw]; [apply in_rev in Hw; apply H, in_rev; apply (firsts_in _ _ _ _ _ F2 w Hw) | apply (split_free sep so w), (firsts_in _ _ _ _ _ F w Hw)].
Qed.
(* ... or at the end, the first one of equal ones (AppendPath) *)
Theorem C29d_append_keep : forall old new c, let news := cased c (elements sep new) in
  (match old with PStr _ => sep_free news | PList _ => True end) ->
  exists added, result_of (fst (append_path sep norm old new false c)) = entries old ++ added /\ firsts_after nonempty norm (elements sep old) news added /\ snd (append_path sep norm old new false c) = new.
Proof.
  intros old new c news H. unfold append_path, new_elements. fold (cased c (elements sep new)). fold news. destruct (add_all norm (elements sep old) [] []) as [kept n] eqn:E.
  destruct (add_all_ok (elements sep old) [] []) as [E1 E2]. rewrite E in E1, E2. cbn [fst snd app] in *. change (filter _ (elements sep old)) with (entries old) in E1, E2. subst kept n.
  assert (Ie : forall y, In y (entries old) <-> In y (elements sep old) /\ nonempty y).
  { intros y. unfold entries. rewrite filter_In. split; intros [H1 H2]; (split; [exact H1|]); destruct y; [discriminate | discriminate | elim H2; reflexivity | reflexivity]. }
  destruct (add_new_ok news (elements sep old) (entries old) (map norm (entries old))) as (s & E2 & F2).
  { intros k. rewrite in_map_iff. split; [intros (y & Ky & Iy); apply Ie in Iy; exists y; tauto | intros (y & Iy & Oy & Ky); exists y; split; [exact Ky | apply Ie; auto]]. }
  exists s. cbn [fst snd]. rewrite E2. split; [|split; [exact F2 | reflexivity]]. apply return_entries.
  - intros w Hw. apply in_app_or in Hw. destruct Hw as [Hw|Hw]; [apply Ie in Hw; apply Hw | apply (firsts_in _ _ _ _ _ F2 w Hw)].
  - destruct old as [so|l]; [|exact Logic.I]. intros w Hw. apply in_app_or in Hw. destruct Hw as [Hw|Hw]; [apply Ie in Hw; apply (split_free sep so w), Hw | apply H, (firsts_in _ _ _ _ _ F2 w Hw)].
Qed.
(* C29e.  AddPathIfNotExists: nothing is lost; the path is added in front exactly if no element equals it up to normcase *)
Theorem C29e_add_if_not_exists : forall ncase old path, sep_free [path] ->
  elements sep (add_path_if_not_exists sep ncase (Some old) path) = if in_dec (list_eq_dec Nat.eq_dec) (ncase path) (map ncase (elements sep old)) then elements sep old else path :: elements sep old.
Proof.
  intros ncase old path H. unfold add_path_if_not_exists. destruct (in_dec _ _ _) as [D|D].
  - rewrite (proj2 (smem_in _ _) D). destruct old as [s|l]; [|reflexivity]. cbn [return_path elements]. apply split_join; [apply split_nonempty | apply split_free].
  - destruct (smem _ _) eqn:M; [apply smem_in in M; contradiction|]. destruct old as [s|l]; [|reflexivity]. cbn [return_path elements]. apply split_join; [discriminate|]. intros w [<-|Hw]; [apply H; left; reflexivity | apply (split_free sep s w Hw)].
Qed.
End Path.
Print Assumptions C29_prepend.
Print Assumptions C29b_append.
Print Assumptions C29c_prepend_keep.
Print Assumptions C29d_append_keep.
Print Assumptions C29e_add_if_not_exists.
(* PrependPath(delete_existing=False) reverses the caller's list *)
Theorem C29_argument_refuted : exists old new, snd (prepend_path 58 (fun x => x) old new false None) <> new.
Proof. exists (PStr []), (PList [[1]; [2]]). vm_compute. discriminate. Qed.
(* AppendPath(delete_existing=False) keeps duplicates among the old elements *)
Theorem C29_old_duplicates_refuted : exists old new, ~ NoDup (result_of 58 (fst (append_path 58 (fun x => x) old new false None))).
Proof. exists (PStr [1; 58; 1]), (PStr [2]). vm_compute. intros H. inversion H as [|a b H1 H2]. apply H1. left. reflexivity. Qed.
(* PrependPath(delete_existing=False) keeps the last, not the first, of equal new elements *)
Theorem C29_first_one_refuted : exists old new, ~ exists added kept, result_of 58 (fst (prepend_path 58 (fun x => x) old new false None)) = added ++ kept
   /\ firsts (nonempty) (fun x => x) (elements 58 old) kept /\ firsts_after nonempty (fun x : str => x) (elements 58 old) (elements 58 new) added.
Proof.
  exists (PStr [3]), (PStr [1; 58; 2; 58; 1]). intros (added & kept & E & F1 & F2). vm_compute in E.
  assert (K : kept = [[3]]). { eapply firsts_unique; [exact F1|]. apply fa_keep; [discriminate | intros y [] | constructor]. }
  assert (Ad : added = [[1]; [2]]). { eapply firsts_unique; [exact F2|]. vm_compute. apply fa_keep; [discriminate | intros y [<-|[]] _; discriminate|]. apply fa_keep; [discriminate | intros y [<-|[<-|[]]] _; discriminate|]. apply fa_drop; [right; exists [1]; split; [right; left; reflexivity | split; [discriminate | reflexivity]] | constructor]. }
  subst. discriminate.
Qed.
Print Assumptions C29_argument_refuted.
Print Assumptions C29_old_duplicates_refuted.
Print Assumptions C29_first_one_refuted.
Example C29_witness : result_of 58 (fst (prepend_path 58 (fun x => x) (PStr [1; 2; 58; 1]) (PStr [3; 58; 58; 1]) true None)) = [[3]; [1]; [1; 2]]
  /\ result_of 58 (fst (append_path 58 (fun x => x) (PStr [1; 2; 58; 1]) (PStr [3; 58; 1]) true None)) = [[1; 2]; [3]; [1]] /\ sep_free 58 (cased None (elements 58 (PStr [3; 58; 1]))).
Proof. vm_compute. repeat split; auto. intros w [<-|[<-|[]]] [Q|[]]; discriminate. Qed.

(* ---- C30 ---- *)
Section Unique.
Variable A : Type.
Variable eqb : A -> A -> bool.
Hypothesis eqb_eq : forall a b, eqb a b = true <-> a = b.
Notation Once := (firsts (fun _ : A => True) (fun x : A => x)).
Lemma member_in x l : member A eqb x l = true <-> In x l.
Proof. unfold member. rewrite existsb_exists. split; [intros (y & H & Q); apply eqb_eq in Q; subst; exact H | intros H; exists x; split; [exact H | apply eqb_eq; reflexivity]]. Qed.
Lemma fromkeys_ok l : forall b keys, (forall x, In x keys <-> In x b) -> exists s, fromkeys A eqb l keys = keys ++ s /\ firsts_after (fun _ => True) (fun x => x) b l s.
Proof.
  induction l as [|x l IH]; intros b keys H; [exists []; rewrite app_nil_r; split; [reflexivity | constructor]|]. cbn [fromkeys]. destruct (member A eqb x keys) eqn:M.
  - apply member_in in M. destruct (IH (b ++ [x]) keys) as (s & E & F). { intros y. rewrite in_app_iff. cbn. rewrite <- H. split; [auto | intros [Q|[<-|[]]]; auto]. }
    exists s. split; [exact E|]. apply fa_drop; [right; exists x; repeat split; apply H, M | exact F].
  - destruct (IH (b ++ [x]) (keys ++ [x])) as (s & E & F). { intros y. rewrite !in_app_iff, H. reflexivity. }
    exists (x :: s). split; [rewrite E, <- app_assoc; reflexivity|]. apply fa_keep; [exact Logic.I | | exact F]. intros y Iy _ ->. apply H, member_in in Iy. congruence.
Qed.
(* C30.  uniquer_hashables keeps the first occurrence of each element, in order *)
Theorem C30_first_occurrences : forall l, Once l (uniquer_hashables A eqb l).
Proof. intros l. destruct (fromkeys_ok l [] []) as (s & E & F); [tauto|]. unfold uniquer_hashables. rewrite E. exact F. Qed.
Lemma brute_fromkeys l : forall u, brute A eqb l u = fromkeys A eqb l u.
Proof. induction l as [|x l IH]; intros u; [reflexivity|]. cbn. apply IH. Qed.

(* unique, when the elements can be compared by a total order *)
Variable ltb : A -> A -> bool.
Hypothesis lt_irrefl : forall a, ltb a a = false.
Hypothesis lt_trans : forall a b c, ltb a b = true -> ltb b c = true -> ltb a c = true.
Hypothesis lt_total : forall a b, ltb a b = false -> ltb b a = false -> a = b.
Definition le (a b : A) : Prop := ltb b a = false.
Inductive Sorted : list A -> Prop := so_nil : Sorted [] | so_cons x l : (forall y, In y l -> le x y) -> Sorted l -> Sorted (x :: l).
Lemma le_trans a b c : le a b -> le b c -> le a c.
Proof. unfold le. intros H1 H2. destruct (ltb c a) eqn:Q; [|reflexivity]. destruct (ltb b c) eqn:R; [rewrite (lt_trans _ _ _ R Q) in H1; discriminate|]. rewrite (lt_total _ _ H2 R) in Q. congruence. Qed.
Lemma insert_perm x l : Permutation (x :: l) (insert A ltb x l).
Proof. induction l as [|y l IH]; [apply Permutation_refl|]. cbn. destruct (ltb y x); [|apply Permutation_refl]. eapply perm_trans; [apply perm_swap | apply perm_skip, IH]. Qed.
Lemma sorted_perm l : Permutation l (sorted A ltb l).
Proof. induction l as [|x l IH]; [constructor|]. cbn. eapply perm_trans; [apply perm_skip, IH | apply insert_perm]. Qed.
Lemma insert_sorted x l : Sorted l -> Sorted (insert A ltb x l).
Proof.
  induction 1 as [|y l H S1 IH]; [repeat constructor; intros y []|]. cbn. destruct (ltb y x) eqn:Q.
  - constructor; [|exact IH]. intros z Hz. apply (Permutation_in z (Permutation_sym (insert_perm x l))) in Hz. destruct Hz as [->|Hz]; [|apply H, Hz]. unfold le. destruct (ltb z y) eqn:R; [|reflexivity]. pose proof (lt_trans _ _ _ R Q). rewrite lt_irrefl in H0. discriminate.
  - constructor; [|constructor; assumption]. intros z [<-|Hz]; [exact Q | apply (le_trans x y z); [exact Q | apply H, Hz]].
Qed.
Lemma sorted_sorted l : Sorted (sorted A ltb l). Proof. induction l as [|x l IH]; [constructor | apply insert_sorted, IH]. Qed.
(* the array loop removes adjacent duplicates *)
Fixpoint adj (last : A) (l : list A) : list A := match l with [] => [] | x :: r => if eqb x last then adj last r else x :: adj x r end.
Lemma upd_app (p q : list A) y x : upd A (p ++ y :: q) (length p) x = p ++ x :: q.
Proof. induction p as [|z p IH]; [reflexivity|]. cbn. rewrite IH. reflexivity. Qed.
Lemma weed_ok : forall rest fuel done gap last, length rest <= fuel -> done <> [] ->
  exists tail, weed A eqb fuel (done ++ gap ++ rest) last (length done) (length done + length gap) = (done ++ adj last rest ++ tail, length done + length (adj last rest)).
Proof.
  induction rest as [|x rest IH]; intros fuel done gap last L Nd.
  - exists gap. cbn [adj]. destruct fuel as [|fuel]; cbn [weed]; [rewrite Nat.add_0_r, app_nil_r; reflexivity|].
    rewrite (proj2 (nth_error_None _ _)) by (rewrite !app_length; cbn; lia). rewrite Nat.add_0_r, app_nil_r. reflexivity.
  - destruct fuel as [|fuel]; [cbn in L; lia|]. cbn [weed]. rewrite app_assoc, nth_error_app2, app_length, Nat.sub_diag by (rewrite app_length; lia). cbn [nth_error].
    cbn [adj]. destruct (eqb x last) eqn:Q.
    + destruct (IH fuel done (gap ++ [x]) last ltac:(cbn in L; lia) Nd) as (t & E). exists t. rewrite <- E. f_equal; [rewrite <- !app_assoc; reflexivity | rewrite app_length; cbn; lia].
    + destruct gap as [|g gap].
      * destruct (IH fuel (done ++ [x]) [] x ltac:(cbn in L; lia) ltac:(destruct done; discriminate)) as (t & E). exists t. rewrite app_nil_r, upd_app. rewrite app_length in E. cbn [length app] in *. rewrite <- !app_assoc in E. cbn [app] in E.
        replace (S (length done)) with (length done + 1) by lia. replace (S (length done + 0)) with (length done + 1 + 0) by lia. rewrite E. f_equal. lia.
      * destruct (IH fuel (done ++ [x]) (gap ++ [x]) x ltac:(cbn in L; lia) ltac:(destruct done; discriminate)) as (t & E). exists t.
        assert (U : upd A ((done ++ g :: gap) ++ x :: rest) (length done) x = (done ++ [x]) ++ (gap ++ [x]) ++ rest) by (rewrite <- !app_assoc; cbn [app]; rewrite upd_app; reflexivity).
        rewrite U. rewrite !app_length in E. cbn [length] in *. replace (S (length done)) with (length done + 1) by lia. replace (S (length done + S (length gap))) with (length done + 1 + (length gap + 1)) by lia. rewrite E. rewrite <- !app_assoc. cbn [app]. f_equal. lia.
Qed.
Lemma weed_sorted_adj x l : weed_sorted A eqb (x :: l) = x :: adj x l.
Proof.
  unfold weed_sorted. destruct (weed_ok l (length l) [x] [] x ltac:(lia) ltac:(discriminate)) as (t & E).
  assert (E' : weed A eqb (length (x :: l)) (x :: l) x 1 1 = (x :: adj x l ++ t, 1 + length (adj x l)) \/ True) by (right; exact Logic.I). clear E'.
  destruct (weed_ok l (length (x :: l)) [x] [] x ltac:(cbn; lia) ltac:(discriminate)) as (t' & E2). cbn [app length] in E2. change (1 + 0) with 1 in E2. cbn [length app]. rewrite E2.
  cbn [firstn Nat.add]. f_equal. rewrite firstn_app, Nat.sub_diag. cbn. rewrite app_nil_r. apply firstn_all.
Qed.
Lemma adj_ok l : forall last, (forall y, In y l -> le last y) -> Sorted l -> (forall y, In y (adj last l) <-> In y l /\ y <> last) /\ NoDup (adj last l).
Proof.
  induction l as [|x l IH]; intros last H Sl; [cbn; split; [tauto | constructor]|]. inversion Sl as [|p q Hx Sl']; subst. cbn [adj]. destruct (eqb x last) eqn:Q.
  - apply eqb_eq in Q. subst x. destruct (IH last (fun y Hy => H y (or_intror Hy)) Sl') as [H1 H2]. split; [|exact H2]. intros y. rewrite H1. cbn. split; [tauto | intros [[->|K] N]; [contradiction | auto]].
  - assert (Nx : x <> last) by (intros ->; rewrite (proj2 (eqb_eq last last) eq_refl) in Q; discriminate). destruct (IH x Hx Sl') as [H1 H2]. split.
    + intros y. cbn [In]. rewrite H1. split.
      * intros [->|[K N]]; [auto|]. split; [auto|]. intros ->. apply Nx. apply lt_total; [apply (H x (or_introl eq_refl)) | apply (Hx last K)] || (symmetry; apply lt_total; [apply (Hx last K) | apply (H x (or_introl eq_refl))]).
      * intros [[->|K] N]; [auto|]. destruct (eqb x y) eqn:R; [apply eqb_eq in R; auto|]. right. split; [exact K|]. intros ->. rewrite (proj2 (eqb_eq x x) eq_refl) in R. discriminate.
    + constructor; [|exact H2]. rewrite H1. intros [_ N]. apply N. reflexivity.
Qed.
(* C30b.  unique returns each element exactly once, whichever of its three methods applies (its documentation ignores
   the order) *)
Theorem C30b_unique : forall h l, NoDup (unique A eqb ltb h l) /\ forall x, In x (unique A eqb ltb h l) <-> In x l.
Proof.
  intros h l. assert (F : NoDup (fromkeys A eqb l []) /\ forall x, In x (fromkeys A eqb l []) <-> In x l).
  { pose proof (C30_first_occurrences l) as F. unfold uniquer_hashables in F. split; [rewrite <- map_id; apply (firsts_nodup _ _ _ _ _ F)|]. intros x. split; [apply (firsts_in _ _ _ _ _ F)|].
    intros Hx. destruct (firsts_keys _ _ _ _ _ F ltac:(auto) x Hx Logic.I) as [(y & Iy & ->)|(y & [] & _)]. exact Iy. }
  unfold unique. destruct l as [|x0 l0]; [split; [constructor | tauto]|]. destruct h; [exact F | | rewrite brute_fromkeys; exact F]. set (l := x0 :: l0) in *.
  pose proof (sorted_perm l) as P. pose proof (sorted_sorted l) as So. destruct (sorted A ltb l) as [|x t] eqn:E; [apply Permutation_sym, Permutation_nil in P; discriminate|].
  rewrite weed_sorted_adj. inversion So as [|p q Hx St]; subst. destruct (adj_ok t x Hx St) as [H1 H2]. split.
  - constructor; [|exact H2]. rewrite H1. intros [_ N]. apply N. reflexivity.
  - intros y. cbn [In]. rewrite H1. split.
    + intros Q. apply (Permutation_in y (Permutation_sym P)). cbn. tauto.
    + intros Hy. apply (Permutation_in y P) in Hy. destruct Hy as [->|Hy]; [auto|]. destruct (eqb x y) eqn:R; [apply eqb_eq in R; auto|]. right. split; [exact Hy|]. intros ->. rewrite (proj2 (eqb_eq x x) eq_refl) in R. discriminate.
Qed.

(* ---- UniqueList ---- *)
Lemma firsts_fun l r : Once l r -> r = uniquer_hashables A eqb l.
Proof. intros H. eapply firsts_unique; [exact H | apply C30_first_occurrences]. Qed.
Notation U := (uniquer_hashables A eqb).
Lemma firsts_weaken l r : forall b b', (forall x, In x b <-> In x b') -> firsts_after (fun _ : A => True) (fun x => x) b l r -> firsts_after (fun _ : A => True) (fun x => x) b' l r.
Proof.
  revert r. induction l as [|x l IH]; intros r b b' H F; inversion F as [|p1 p2 p3 p4 o1 n1 f1|p1 p2 p3 p4 d1 f1]; subst; [constructor| |].
  - apply fa_keep; [exact o1 | intros y Hy; apply n1, H, Hy|]. eapply IH; [|exact f1]. intros y. rewrite !in_app_iff, H. reflexivity.
  - apply fa_drop; [destruct d1 as [Q|(y & Iy & Q)]; [left; exact Q | right; exists y; split; [apply H, Iy | exact Q]]|]. eapply IH; [|exact f1]. intros y. rewrite !in_app_iff, H. reflexivity.
Qed.
Lemma firsts_app b l r l2 r2 : firsts_after (fun _ : A => True) (fun x => x) b l r -> firsts_after (fun _ : A => True) (fun x => x) (b ++ l) l2 r2 -> firsts_after (fun _ : A => True) (fun x => x) b (l ++ l2) (r ++ r2).
Proof.
  induction 1 as [b|b x l r O N F IH|b x l r D F IH]; intros G; cbn [app].
  - rewrite app_nil_r in G. exact G.
  - apply fa_keep; [exact O | exact N|]. apply IH. rewrite <- app_assoc. exact G.
  - apply fa_drop; [exact D|]. apply IH. rewrite <- app_assoc. exact G.
Qed.
Lemma U_in l x : In x (U l) <-> In x l.
Proof. exact (proj2 (C30b_unique Hashable l) x) || (destruct l; [tauto | exact (proj2 (C30b_unique Hashable (a :: l)) x)]). Qed.
Lemma U_once l : firsts_after (fun _ : A => True) (fun x => x) [] (U l) (U l).
Proof.
  assert (G : forall r b, NoDup r -> (forall x, In x r -> ~ In x b) -> firsts_after (fun _ : A => True) (fun x => x) b r r).
  { induction r as [|x r IH]; intros b N H; [constructor|]. inversion N as [|p q N1 N2]; subst. apply fa_keep; [exact Logic.I | intros y Hy _ ->; apply (H x (or_introl eq_refl) Hy)|]. apply IH; [exact N2|]. intros y Hy Q. apply in_app_or in Q. destruct Q as [Q|[->|[]]]; [apply (H y (or_intror Hy) Q) | contradiction]. }
  apply G; [|intros x _ []]. rewrite <- map_id. apply (firsts_nodup _ _ _ _ _ (C30_first_occurrences l)).
Qed.
Lemma after_exists b l : exists r, firsts_after (fun _ : A => True) (fun x => x) b l r.
Proof. destruct (fromkeys_ok l b b ltac:(tauto)) as (s & _ & F). exists s. exact F. Qed.
Lemma U_app_l l m : U (U l ++ m) = U (l ++ m).
Proof.
  destruct (after_exists l m) as (r & F). symmetry. apply firsts_fun. unfold firsts.
  assert (E : U (l ++ m) = U l ++ r) by (symmetry; apply firsts_fun; apply firsts_app; [apply C30_first_occurrences | exact F]). rewrite E.
  apply firsts_app; [apply U_once|]. eapply firsts_weaken; [|exact F]. intros x. cbn. symmetry. apply U_in.
Qed.
Lemma after_U b l : forall r, firsts_after (fun _ : A => True) (fun x => x) b l r -> firsts_after (fun _ : A => True) (fun x => x) b (U l) r.
Proof.
  (* dropping repeated elements does not matter *)
  assert (G : forall l s b r, firsts_after (fun _ : A => True) (fun x => x) s l r -> forall q, (forall x, In x s -> In x b) -> firsts_after (fun _ : A => True) (fun x => x) b l q -> firsts_after (fun _ : A => True) (fun x => x) b r q).
  { clear l b. induction l as [|x l IH]; intros s b r F q H Q; inversion F as [|p1 p2 p3 p4 o1 n1 f1|p1 p2 p3 p4 d1 f1]; subst; inversion Q as [|q1 q2 q3 q4 o2 n2 f2|q1 q2 q3 q4 d2 f2]; subst.
    - constructor.
    - apply fa_keep; [exact o2 | exact n2|]. eapply (IH (s ++ [x])); [exact f1 | intros y Hy; apply in_app_or in Hy; apply in_or_app; destruct Hy; auto | exact f2].
    - apply fa_drop; [exact d2|]. eapply (IH (s ++ [x])); [exact f1 | intros y Hy; apply in_app_or in Hy; apply in_or_app; destruct Hy; auto | exact f2].
    - destruct d1 as [Z|(y & Iy & _ & ->)]; [elim Z; exact Logic.I|]. elim (n2 x (H x Iy) Logic.I eq_refl).
    - destruct d1 as [Z|(y & Iy & _ & ->)]; [elim Z; exact Logic.I|]. assert (Eb : forall z, In z (b ++ [x]) <-> In z b) by (intros z; rewrite in_app_iff; cbn; split; [intros [Z|[<-|[]]]; auto | auto]).
      eapply (IH s b); [|exact H | eapply firsts_weaken; [exact Eb | exact f2]]. eapply firsts_weaken; [|exact f1]. intros z. rewrite in_app_iff. cbn. split; [intros [Z|[<-|[]]]; auto | auto]. }
  intros r F. eapply (G l [] b); [apply C30_first_occurrences | intros x [] | exact F].
Qed.
Lemma U_app_r l m : U (l ++ U m) = U (l ++ m).
Proof.
  destruct (after_exists l m) as (r & F). assert (E : U (l ++ m) = U l ++ r) by (symmetry; apply firsts_fun; apply firsts_app; [apply C30_first_occurrences | exact F]). rewrite E. symmetry. apply firsts_fun.
  apply firsts_app; [apply C30_first_occurrences | apply after_U, F].
Qed.
Lemma U_U l : U (U l) = U l. Proof. symmetry. apply firsts_fun, U_once. Qed.

(* an ideal list without duplicates on which the same operations are made: after each operation only the first
   occurrence of each element is kept *)
Definition ideal (l : list A) (o : uop A) : list A :=
  match o with
  | UAppend _ x => U (l ++ [x]) | UExtend _ m | UAdd _ m => U (l ++ m) | URadd _ m => U (m ++ l)
  | UInsert _ i x => U (insert_at A l i x) | USet _ i x => U (upd A l i x) | UReverse _ => rev l
  | UDel _ i => remove_at A l i | UPop _ => removelast l | URead _ => l
  end.
(* the operations whose effect does not depend on positions; inserting is at the front *)
Definition end_op (o : uop A) : bool := match o with UInsert _ 0 _ => true | UInsert _ _ _ | USet _ _ _ | UDel _ _ | UPop _ => false | _ => true end.
Definition good (u : ulist A) : Prop := uniq A u = true -> U (data A u) = data A u.
Lemma contents_U u : good u -> contents A eqb u = U (data A u).
Proof. intros G. unfold contents, make_unique. destruct (uniq A u) eqn:E; [symmetry; apply G, E | reflexivity]. Qed.
Lemma rev_U_nodup l : NoDup l -> U l = l.
Proof.
  intros N. symmetry. apply firsts_fun. unfold firsts. assert (G : forall r b, NoDup r -> (forall x, In x r -> ~ In x b) -> firsts_after (fun _ : A => True) (fun x => x) b r r).
  { induction r as [|x r IH]; intros b N' H; [constructor|]. inversion N' as [|p q N1 N2]; subst. apply fa_keep; [exact Logic.I | intros y Hy _ ->; apply (H x (or_introl eq_refl) Hy)|]. apply IH; [exact N2|]. intros y Hy Q. apply in_app_or in Q. destruct Q as [Q|[->|[]]]; [apply (H y (or_intror Hy) Q) | contradiction]. }
  apply G; [exact N | intros x _ []].
Qed.
Lemma U_nodup l : NoDup (U l). Proof. rewrite <- map_id. apply (firsts_nodup _ _ _ _ _ (C30_first_occurrences l)). Qed.
Lemma mk_good u : good u -> make_unique A eqb u = {| data := U (data A u); uniq := true |}.
Proof. intros G. unfold make_unique. destruct u as [d f]. destruct f; [|reflexivity]. cbn [uniq data]. pose proof (G eq_refl) as E. cbn [data] in E. rewrite E. reflexivity. Qed.
Lemma step_good u o : good u -> end_op o = true -> good (u_step A eqb u o) /\ contents A eqb (u_step A eqb u o) = ideal (contents A eqb u) o.
Proof.
  intros G E. assert (C : contents A eqb u = U (data A u)) by (apply contents_U, G). destruct o as [x|l|l|l|i x|i x| |i| |]; cbn [end_op] in E; try discriminate; cbn [u_step ideal].
  - split; [intros Q; discriminate|]. unfold contents at 1. cbn. rewrite C, U_app_l. reflexivity.
  - split; [intros Q; discriminate|]. unfold contents at 1. cbn. rewrite C, U_app_l. reflexivity.
  - split; [intros Q; discriminate|]. unfold contents at 1. cbn. rewrite C, U_app_l. reflexivity.
  - split; [intros Q; discriminate|]. unfold contents at 1. cbn. rewrite C, U_app_r. reflexivity.
  - destruct i; [|discriminate]. split; [intros Q; discriminate|]. unfold contents at 1. cbn. rewrite C. unfold insert_at. cbn [firstn skipn app]. symmetry. apply (U_app_r [x] (data A u)).
  - rewrite (mk_good u G). cbn [data uniq]. assert (R : U (rev (U (data A u))) = rev (U (data A u))) by (apply rev_U_nodup, NoDup_rev, U_nodup). split; [intros _; exact R|]. unfold contents at 1. cbn. rewrite C. reflexivity.
  - rewrite (mk_good u G). split; [intros _; apply U_U|]. unfold contents at 1. cbn. rewrite C. reflexivity.
Qed.
(* C30c.  A UniqueList created empty (or from a list without duplicates) and changed by appending, extending, adding at either
   end, inserting in front, reversing and reading, in any order, always looks like a list without duplicates to which the same
   operations were applied. *)
Theorem C30c_unique_list : forall os l, NoDup l -> forallb end_op os = true ->
  let u := fold_left (u_step A eqb) os (u_init A l) in contents A eqb u = fold_left ideal os l /\ NoDup (contents A eqb u).
Proof.
  intros os l N H. cbv zeta. assert (G : forall os u, good u -> forallb end_op os = true -> good (fold_left (u_step A eqb) os u) /\ contents A eqb (fold_left (u_step A eqb) os u) = fold_left ideal os (contents A eqb u)).
  { clear os l N H. induction os as [|o os IH]; intros u G H; [split; [exact G | reflexivity]|]. cbn in H. apply andb_true_iff in H. destruct H as [H1 H2]. destruct (step_good u o G H1) as [G' E]. cbn [fold_left]. destruct (IH _ G' H2) as [G2 E2]. split; [exact G2|]. rewrite E2, E. reflexivity. }
  assert (G0 : good (u_init A l)) by (intros _; apply rev_U_nodup, N). destruct (G os _ G0 H) as [G1 E]. split; [exact E|]. rewrite (contents_U _ G1). apply U_nodup.
Qed.
End Unique.
Print Assumptions C30_first_occurrences.
Print Assumptions C30b_unique.
Print Assumptions C30c_unique_list.
(* UniqueList([x, x]) has two elements *)
Theorem C30_init_refuted : exists l, ~ NoDup (contents nat Nat.eqb (u_init nat l)).
Proof. exists [1; 1]. vm_compute. intros H. inversion H as [|a b H1 H2]. apply H1. left. reflexivity. Qed.
(* pop() after appending an element that is already there removes nothing visible *)
Theorem C30_pop_refuted : exists l x, NoDup l /\ let u := u_step nat Nat.eqb (u_init nat l) (UAppend nat x) in
  contents nat Nat.eqb (u_step nat Nat.eqb u (UPop nat)) <> ideal nat Nat.eqb (contents nat Nat.eqb u) (UPop nat).
Proof. exists [1; 2], 1. split; [repeat constructor; cbn; intuition discriminate|]. vm_compute. discriminate. Qed.
(* unique of unhashable elements whose < does not raise TypeError but is not total (sets compared by inclusion; here no two
   elements are comparable) leaves duplicates *)
Theorem C30_partial_order_refuted : exists (ltb : nat -> nat -> bool) l, (forall a, ltb a a = false) /\ (forall a b c, ltb a b = true -> ltb b c = true -> ltb a c = true) /\ ~ NoDup (unique nat Nat.eqb ltb Sortable l).
Proof. exists (fun _ _ => false), [1; 2; 1]. split; [reflexivity|]. split; [discriminate|]. vm_compute. intros H. inversion H as [|a b H1 H2]. apply H1. right. left. reflexivity. Qed.
Print Assumptions C30_init_refuted.
Print Assumptions C30_pop_refuted.
Print Assumptions C30_partial_order_refuted.
Example C30_witness : unique nat Nat.eqb Nat.ltb Sortable [3; 1; 3; 2; 1] = [1; 2; 3] /\ uniquer_hashables nat Nat.eqb [3; 1; 3; 2; 1] = [3; 1; 2]
  /\ contents nat Nat.eqb (fold_left (u_step nat Nat.eqb) [UAppend nat 4; UExtend nat [4; 1]; UReverse nat; UInsert nat 0 1] (u_init nat [1; 2])) = [1; 4; 2].
Proof. vm_compute. auto. Qed.
