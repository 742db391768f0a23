(* C24: expansion terminates *)
From Coq Require Import Ascii String List Arith Bool Lia Wf_nat.
Import ListNotations.
From Verif Require Import SubstModel SubstProofs SubstProps.
Local Open Scope list_scope.

(* ---- more fuel does not change a result ---- *)
Lemma mapM_mono {A B} (f g : A -> res B) l : (forall x, f x <> Timeout -> g x = f x) -> mapM f l <> Timeout -> mapM g l = mapM f l.
Proof.
  intros H. induction l as [|x l IH]; intros N; [reflexivity|]. cbn [mapM] in *. destruct (f x) as [y| |] eqn:E; cbn [bind] in N |- *; [|rewrite (H x), E by (rewrite E; discriminate); reflexivity | contradiction].
  rewrite (H x), E by (rewrite E; discriminate). cbn [bind]. rewrite IH; [reflexivity|]. intros Q. rewrite Q in N. apply N. reflexivity.
Qed.
Lemma bind_mono {A B} (x y : res A) (f : A -> res B) : (x <> Timeout -> y = x) -> bind x f <> Timeout -> bind y f = bind x f.
Proof. intros H N. rewrite H; [reflexivity|]. intros Q. rewrite Q in N. apply N. reflexivity. Qed.
Lemma expand_S : forall fuel m E lv v, expand fuel m E lv v <> Timeout -> expand (S fuel) m E lv v = expand fuel m E lv v.
Proof.
  induction fuel as [|fuel IH]; intros m E lv v N; [exfalso; apply N; reflexivity|]. destruct v as [s| |l|f|p s].
  - change (expand (S (S fuel)) m E lv (VStr s)) with (bind (mapM (etok (S fuel) m E lv) (lex s)) (fun ps => Ok (VStr (List.concat ps)))).
    change (expand (S fuel) m E lv (VStr s)) with (bind (mapM (etok fuel m E lv) (lex s)) (fun ps => Ok (VStr (List.concat ps)))) in *.
    apply bind_mono; [|exact N]. intros N'. apply mapM_mono; [|exact N']. intros t Nt. destruct t as [c| | | |key]; try reflexivity. cbn [etok] in *.
    destruct (lookup E lv key) as [[w|]| |]; cbn [bind] in *; try reflexivity. destruct (plain w); [reflexivity|]. apply bind_mono; [apply IH | exact Nt].
  - reflexivity.
  - cbn [expand] in N |- *. change (fix expand (fuel0 : nat) (m0 : mode) (E0 : senv) (lv0 : dict) (v : val) {struct fuel0} : res val := _) with expand in *.
    apply bind_mono; [|exact N]. intros N'. apply mapM_mono; [|exact N']. intros w Nw. apply bind_mono; [apply IH | exact Nw].
  - change (expand (S (S fuel)) m E lv (VFun f)) with (if f_ok E f then expand (S fuel) m E lv (f_call E f lv (mode_eqb m SIG)) else if mode_eqb m RAW then Ok (VFun f) else expand (S fuel) m E lv (VStr (conv E m (VFun f)))).
    change (expand (S fuel) m E lv (VFun f)) with (if f_ok E f then expand fuel m E lv (f_call E f lv (mode_eqb m SIG)) else if mode_eqb m RAW then Ok (VFun f) else expand fuel m E lv (VStr (conv E m (VFun f)))) in *.
    destruct (f_ok E f); [apply IH, N|]. destruct (mode_eqb m RAW); [reflexivity | apply IH, N].
  - reflexivity.
Qed.
Lemma lexpand_S : forall fuel m E lv wi v, lexpand fuel m E lv wi v <> Timeout -> lexpand (S fuel) m E lv wi v = lexpand fuel m E lv wi v.
Proof.
  induction fuel as [|fuel IH]; intros m E lv wi v N; [exfalso; apply N; reflexivity|]. destruct v as [s| |l|f|p s].
  - change (lexpand (S (S fuel)) m E lv wi (VStr s)) with (bind (mapM (ltev (S fuel) m E lv wi) (group (lex s))) (fun es => Ok (List.concat es))).
    change (lexpand (S fuel) m E lv wi (VStr s)) with (bind (mapM (ltev fuel m E lv wi) (group (lex s))) (fun es => Ok (List.concat es))) in *.
    apply bind_mono; [|exact N]. intros N'. apply mapM_mono; [|exact N']. intros t Nt. destruct t as [t|w|w]; try reflexivity. destruct t as [c| | | |key]; try reflexivity. cbn [ltev] in *.
    destruct (lookup E lv key) as [[w|]| |]; cbn [bind] in *; try reflexivity. destruct (expanded w); [reflexivity|]. apply bind_mono; [apply IH | exact Nt].
  - reflexivity.
  - cbn [lexpand] in N |- *. change (fix lexpand (fuel0 : nat) (m0 : mode) (E0 : senv) (lv0 : dict) (wi0 : bool) (v : val) {struct fuel0} : res (list levent) := _) with lexpand in *.
    apply bind_mono; [|exact N]. intros N'. apply mapM_mono; [|exact N']. intros w Nw. apply bind_mono; [apply IH | exact Nw].
  - change (lexpand (S (S fuel)) m E lv wi (VFun f)) with (if f_ok E f then lexpand (S fuel) m E lv wi (f_call E f lv (mode_eqb m SIG)) else if mode_eqb m RAW then Ok [LAppend (VFun f)] else lexpand (S fuel) m E lv wi (VStr (conv E m (VFun f)))).
    change (lexpand (S fuel) m E lv wi (VFun f)) with (if f_ok E f then lexpand fuel m E lv wi (f_call E f lv (mode_eqb m SIG)) else if mode_eqb m RAW then Ok [LAppend (VFun f)] else lexpand fuel m E lv wi (VStr (conv E m (VFun f)))) in *.
    destruct (f_ok E f); [apply IH, N|]. destruct (mode_eqb m RAW); [reflexivity | apply IH, N].
  - reflexivity.
Qed.

(* ---- termination ---- *)
(* What is asked of the environment.  K: the finitely many references that occur in the values of variables and in what
   callables and evaluated expressions return; rank: callables return only callables of smaller rank (in particular a callable
   does not return itself).  A reference with attribute access such as ${X.y} is looked up by eval(); if X is the empty string that
   gives an exception or a string without $ (an attribute of the empty string). *)
Fixpoint tame (K : list str) (rank : nat -> nat) (n : nat) (v : val) : Prop :=
  match v with
  | VStr s => forall key, In (TRef key) (lex s) -> In key K
  | VSeq l => (fix go l := match l with [] => True | x :: r => tame K rank n x /\ go r end) l
  | VFun f => rank f < n
  | VNone | VObj _ _ => True
  end.
Definition settled (v : val) : Prop := match v with VStr s => text s | VObj _ _ | VNone => True | _ => False end.
Record tame_env (K : list str) (rank : nat -> nat) (E : senv) : Prop := {
  te_gv : forall k v, dget (gv E) k = Some v -> exists n, tame K rank n v;
  te_ev : forall k d v, ev E k d = EVal v -> exists n, tame K rank n v;
  te_call : forall f d b, tame K rank (rank f) (f_call E f d b);
  te_str : forall f b n, tame K rank n (VStr (f_str E f b));
  te_dot : forall k v, dget (gv E) k = Some v -> var_of k = k;
  te_guard : forall k d v, var_of k <> k -> dget d (var_of k) = Some (VStr []) -> ev E k d = EVal v -> settled v }.
Definition tame_dict (K : list str) (rank : nat -> nat) (lv : dict) : Prop :=
  (forall k v, dget lv k = Some v -> exists n, tame K rank n v) /\ (forall k v, dget lv k = Some v -> var_of k = k).

Definition terminates {A} (f : nat -> res A) : Prop := exists N, forall fuel, N <= fuel -> f fuel <> Timeout.
Lemma term_mapM {A B} (F : nat -> A -> res B) l : (forall x, In x l -> terminates (fun fuel => F fuel x)) -> terminates (fun fuel => mapM (F fuel) l).
Proof.
  induction l as [|x l IH]; intros H; [exists 0; intros; discriminate|]. destruct (H x (or_introl eq_refl)) as (N1 & H1). destruct IH as (N2 & H2); [intros y Hy; apply H; right; exact Hy|].
  exists (N1 + N2). intros fuel L. cbn [mapM]. specialize (H1 fuel ltac:(lia)). specialize (H2 fuel ltac:(lia)). destruct (F fuel x); cbn [bind]; [|discriminate|contradiction]. destruct (mapM (F fuel) l); cbn [bind]; [discriminate|discriminate|contradiction].
Qed.
Lemma term_bind {A B} (f : nat -> res A) (g : A -> B) : terminates f -> terminates (fun fuel => bind (f fuel) (fun a => Ok (g a))).
Proof. intros (N & H). exists N. intros fuel L. specialize (H fuel L). destruct (f fuel); cbn; [discriminate|discriminate|contradiction]. Qed.
Lemma term_S {A} (f : nat -> res A) (g : nat -> res A) : (forall fuel, g (S fuel) = f fuel) -> terminates f -> terminates g.
Proof. intros H (N & T). exists (S N). intros [|fuel] L; [lia|]. rewrite H. apply T. lia. Qed.
Lemma term_const {A} (r : res A) : r <> Timeout -> terminates (fun _ => r).
Proof. intros H. exists 0. intros _ _. exact H. Qed.

(* how many variables are not yet blanked *)
Definition blank (lv : dict) (x : str) : bool := match dget lv x with Some (VStr []) => true | _ => false end.
Definition live (K : list str) (lv : dict) : nat := length (filter (fun k => negb (blank lv (var_of k))) K).
Lemma blank_cons lv x y : blank ((y, VStr []) :: lv) x = (str_eqb x y || blank lv x).
Proof. unfold blank. cbn [dget]. destruct (str_eqb x y); reflexivity. Qed.
Lemma live_blank K lv k : In k K -> blank lv (var_of k) = false -> live K ((var_of k, VStr []) :: lv) < live K lv.
Proof.
  unfold live. intros H B.
  assert (Le : forall L, length (filter (fun j => negb (blank ((var_of k, VStr []) :: lv) (var_of j))) L) <= length (filter (fun j => negb (blank lv (var_of j))) L)).
  { induction L as [|j L IH]; [apply le_n|]. cbn [filter]. rewrite blank_cons. destruct (str_eqb (var_of j) (var_of k)); cbn [orb negb]; [destruct (negb (blank lv (var_of j))); cbn; lia|]. destruct (negb (blank lv (var_of j))); cbn; lia. }
  induction K as [|j K IH]; [destruct H|]. cbn [filter]. rewrite blank_cons. destruct H as [->|H].
  - rewrite str_eqb_refl, B. cbn [orb negb List.length]. specialize (Le K). lia.
  - specialize (IH H). specialize (Le K). destruct (str_eqb (var_of j) (var_of k)); cbn [orb negb]; [destruct (negb (blank lv (var_of j))); cbn [List.length]; lia|]. destruct (negb (blank lv (var_of j))); cbn [List.length]; lia.
Qed.
Lemma tame_VSeq K rank n l : tame K rank n (VSeq l) <-> Forall (tame K rank n) l.
Proof. split; [induction l as [|x l IH]; intros H; constructor; [apply H | apply IH, H] | induction 1; cbn; auto]. Qed.
Fixpoint val_size (v : val) : nat := match v with VSeq l => S ((fix go l := match l with [] => 0 | x :: r => val_size x + go r end) l) | _ => 1 end.
Lemma size_in l x : In x l -> val_size x < val_size (VSeq l).
Proof. intros H. cbn [val_size]. apply Nat.lt_succ_r. induction l as [|y l IH]; [destruct H|]. destruct H as [->|H]; [lia | specialize (IH H); lia]. Qed.

Lemma lookup_found E lv key w : lookup E lv key = Ok (Some w) -> (dget lv key = Some w) \/ (dget lv key = None /\ dget (gv E) key = Some w) \/ (dget lv key = None /\ dget (gv E) key = None /\ ev E key lv = EVal w).
Proof.
  unfold lookup. set (found := fun v : val => match v with VNone => if strict E then Err else Ok None | _ => Ok (Some v) end).
  assert (F : forall u, found u = Ok (Some w) -> u = w) by (intros [s| |l|f|p s]; unfold found; cbn; [| destruct (strict E); discriminate | | |]; intros Q; injection Q as <-; reflexivity).
  destruct (dget lv key) as [v|]; [intros Q; apply F in Q; subst; auto|]. destruct (dget (gv E) key) as [v|]; [intros Q; apply F in Q; subst; auto|].
  destruct (ev E key lv); try discriminate. intros Q; apply F in Q; subst; auto.
Qed.
Lemma lookup_tame K rank E lv key w : tame_env K rank E -> tame_dict K rank lv -> lookup E lv key = Ok (Some w) -> exists n, tame K rank n w.
Proof. intros T [D _] H. apply lookup_found in H. destruct H as [H|[[_ H]|(_ & _ & H)]]; [eapply D, H | eapply te_gv, H; exact T | eapply te_ev, H; exact T]. Qed.
(* a reference to a blanked variable is settled at once *)
Lemma guarded K rank E lv key w : tame_env K rank E -> tame_dict K rank lv -> blank lv (var_of key) = true -> lookup E lv key = Ok (Some w) -> settled w.
Proof.
  intros T [_ D] B H. unfold blank in B. destruct (dget lv (var_of key)) as [[[|c s]| |l|f|p s]|] eqn:Q; try discriminate. apply lookup_found in H.
  assert (Eq : var_of key = key -> dget lv key = Some w -> settled w) by (intros X Y; rewrite X in Q; rewrite Q in Y; injection Y as <-; intros []).
  destruct H as [H|[[H0 H]|(H0 & H1 & H)]].
  - apply Eq; [eapply D, H | exact H].
  - exfalso. pose proof (te_dot _ _ _ T _ _ H) as X. rewrite X in Q. congruence.
  - destruct (list_eq_dec ascii_dec (var_of key) key) as [X|X]; [rewrite X in Q; congruence|]. eapply te_guard; eauto.
Qed.
Lemma var_of_var k : var_of (var_of k) = var_of k.
Proof.
  unfold var_of. set (p := fun c => negb (Ascii.eqb c "."%char)). pose proof (span_all p k) as F. revert F. generalize (fst (span p k)). intros l; induction l as [|c l IH]; intros F; [reflexivity|].
  cbn [span]. rewrite (Forall_inv F). specialize (IH (Forall_inv_tail F)). destruct (span p l) as [a b]. cbn in *. congruence.
Qed.
Lemma tame_blank K rank lv k : tame_dict K rank lv -> tame_dict K rank ((var_of k, VStr []) :: lv).
Proof.
  intros [D1 D2]. split; intros k' v; cbn [dget]; destruct (str_eqb k' (var_of k)) eqn:Q.
  - intros H. injection H as <-. exists 0. cbn. rewrite lex_nil. intros key [].
  - apply D1.
  - intros _. apply str_eqb_eq in Q. subst. apply var_of_var.
  - apply D2.
Qed.

Section Term.
Variables (K : list str) (rank : nat -> nat) (E : senv) (m : mode).
Hypothesis T : tame_env K rank E.

(* a generic evaluator that recurses like expand and lexpand *)
Variable A : Type.
Variable ex : nat -> dict -> bool -> val -> res A.
Variable ref : nat -> dict -> bool -> str -> res A.      (* one reference *)
Definition ref_ok : Prop := forall lv wi key,
  (forall w, lookup E lv key = Ok (Some w) -> plain w = None -> expanded w = false -> forall wi', terminates (fun fuel => ex fuel ((var_of key, VStr []) :: lv) wi' w)) -> terminates (fun fuel => ref fuel lv wi key).
Definition str_ok : Prop := forall lv wi s,
  (forall key, In (TRef key) (lex s) -> terminates (fun fuel => ref fuel lv wi key)) -> terminates (fun fuel => ex fuel lv wi (VStr s)).
Definition seq_ok : Prop := forall lv wi l, (forall w, In w l -> forall wi', terminates (fun fuel => ex fuel lv wi' w)) -> terminates (fun fuel => ex fuel lv wi (VSeq l)).
Definition fun_ok : Prop := forall lv wi f, (f_ok E f = true -> terminates (fun fuel => ex fuel lv wi (f_call E f lv (mode_eqb m SIG)))) ->
  (f_ok E f = false -> terminates (fun fuel => ex fuel lv wi (VStr (conv E m (VFun f))))) -> terminates (fun fuel => ex fuel lv wi (VFun f)).
Definition leaf_ok : Prop := forall lv wi v, match v with VNone | VObj _ _ => True | _ => False end -> terminates (fun fuel => ex fuel lv wi v).
Hypotheses (Href : ref_ok) (Hstr : str_ok) (Hseq : seq_ok) (Hfun : fun_ok) (Hleaf : leaf_ok).
Lemma term_all : forall c n z lv wi v, live K lv = c -> val_size v < z -> tame_dict K rank lv -> tame K rank n v -> terminates (fun fuel => ex fuel lv wi v).
Proof.
  induction c as [c IHc] using (well_founded_induction lt_wf).
  assert (Str : forall lv wi s, live K lv = c -> tame_dict K rank lv -> (forall key, In (TRef key) (lex s) -> In key K) -> terminates (fun fuel => ex fuel lv wi (VStr s))).
  { intros lv wi s L D Hk. apply Hstr. intros key Hkey. apply Href. intros w Lk Pl _ wi'. destruct (blank lv (var_of key)) eqn:B.
    - pose proof (guarded K rank E lv key w T D B Lk) as Se. destruct w as [u| |l|f|p u]; try contradiction; [|apply Hleaf; exact Logic.I | apply Hleaf; exact Logic.I].
      cbn in Se. apply has_dollar_false in Se. cbn in Pl. rewrite Se in Pl. discriminate.
    - destruct (lookup_tame K rank E lv key w T D Lk) as (n & Tn).
      apply (IHc (live K ((var_of key, VStr []) :: lv)) ltac:(rewrite <- L; apply live_blank; auto) n (S (val_size w))); [reflexivity | lia | apply tame_blank, D | exact Tn]. }
  induction n as [n IHn] using (well_founded_induction lt_wf). induction z as [|z IHz]; intros lv wi v L Sz D Tv; [lia|]. destruct v as [s| |l|f|p s].
  - apply Str; auto.
  - apply Hleaf. exact Logic.I.
  - apply Hseq. intros w Hw wi'. apply IHz; [exact L | pose proof (size_in l w Hw); lia | exact D | apply tame_VSeq in Tv; rewrite Forall_forall in Tv; apply Tv, Hw].
  - apply Hfun; intros _.
    + apply (IHn (rank f) Tv (S (val_size (f_call E f lv (mode_eqb m SIG))))); [exact L | lia | exact D | apply (te_call _ _ _ T)].
    + apply Str; [exact L | exact D |]. pose proof (te_str _ _ _ T f) as Q. destruct m; cbn [conv to_str]; [apply (Q false 0) | apply (Q false 0) | apply (Q true 0)].
  - apply Hleaf. exact Logic.I.
Qed.
End Term.

Lemma expand_terminates K rank E m lv n v : tame_env K rank E -> tame_dict K rank lv -> tame K rank n v -> terminates (fun fuel => expand fuel m E lv v).
Proof.
  intros T D Tv.
  apply (term_all K rank E m T _ (fun fuel lv (_ : bool) v => expand fuel m E lv v) (fun fuel lv _ key => bind (etok fuel m E lv (TRef key)) (fun r => Ok (VStr r)))) with (c := live K lv) (n := n) (z := S (val_size v)); auto; try exact false.
  - intros lv' wi key H. cbn [etok]. destruct (lookup E lv' key) as [[w|]| |] eqn:L; cbn [bind]; try (apply term_const; discriminate). 2: { exfalso. clear -L. unfold lookup in L. destruct (dget lv' key) as [[]|]; try discriminate; [destruct (strict E); discriminate|]. destruct (dget (gv E) key) as [[]|]; try discriminate; [destruct (strict E); discriminate|]. destruct (ev E key lv') as [[]| |]; try discriminate. destruct (strict E); discriminate. }
    destruct (plain w) eqn:P; [apply term_const; discriminate|]. apply term_bind, term_bind, (H w eq_refl P); [|exact false].
    destruct w as [u| | | |]; try reflexivity. cbn in P. destruct u as [|c u]; [reflexivity|]. cbn [expanded]. apply negb_false_iff, existsb_exists.
    destruct (has_dollar (c :: u)) eqn:Hd; [|discriminate]. unfold has_dollar in Hd. apply existsb_exists in Hd. destruct Hd as (x & X1 & X2). exists x. split; [exact X1|]. rewrite X2. apply orb_true_r.
  - intros lv' wi s H. eapply term_S with (f := fun fuel => bind (mapM (etok fuel m E lv') (lex s)) (fun ps => Ok (VStr (List.concat ps)))); [reflexivity|]. apply term_bind, term_mapM.
    intros t Ht. destruct t as [c| | | |key]; [exists 0; cbn; discriminate | exists 0; cbn; discriminate | exists 0; cbn; discriminate | exists 0; cbn; discriminate|]. destruct (H key Ht) as (N & HN). exists N. intros fuel Hf Q. apply (HN fuel Hf). rewrite Q. reflexivity.
  - intros lv' wi l H. eapply term_S with (f := fun fuel => bind (mapM (fun w => bind (expand fuel m E lv' w) (fun r => Ok (VStr (conv E m r)))) l) (fun ws => Ok (VSeq ws))); [reflexivity|].
    apply term_bind, (term_mapM (fun fuel w => bind (expand fuel m E lv' w) (fun r => Ok (VStr (conv E m r))))). intros w Hw. apply term_bind, (H w Hw false).
  - intros lv' wi f H1 H2. eapply term_S with (f := fun fuel => if f_ok E f then expand fuel m E lv' (f_call E f lv' (mode_eqb m SIG)) else if mode_eqb m RAW then Ok (VFun f) else expand fuel m E lv' (VStr (conv E m (VFun f)))); [reflexivity|].
    destruct (f_ok E f); [apply H1; reflexivity|]. destruct (mode_eqb m RAW); [apply term_const; discriminate | apply H2; reflexivity].
  - intros lv' wi v0 Hv. eapply term_S with (f := fun _ => match v0 with VNone => Ok (VStr []) | _ => Ok v0 end); [intros fuel; destruct v0; try contradiction; reflexivity|]. apply term_const. destruct v0; discriminate.
Qed.
Lemma lexpand_terminates K rank E m lv wi n v : tame_env K rank E -> tame_dict K rank lv -> tame K rank n v -> terminates (fun fuel => lexpand fuel m E lv wi v).
Proof.
  intros T D Tv.
  apply (term_all K rank E m T _ (fun fuel lv wi v => lexpand fuel m E lv wi v) (fun fuel lv wi key => ltev fuel m E lv wi (LTExp (TRef key)))) with (c := live K lv) (n := n) (z := S (val_size v)) (wi := wi); auto.
  - intros lv' wi' key H. cbn [ltev]. destruct (lookup E lv' key) as [[w|]| |] eqn:L; cbn [bind]; try (apply term_const; discriminate). 2: { exfalso. clear -L. unfold lookup in L. destruct (dget lv' key) as [[]|]; try discriminate; [destruct (strict E); discriminate|]. destruct (dget (gv E) key) as [[]|]; try discriminate; [destruct (strict E); discriminate|]. destruct (ev E key lv') as [[]| |]; try discriminate. destruct (strict E); discriminate. }
    destruct (expanded w) eqn:P; [apply term_const; discriminate|]. apply term_bind. destruct (plain w) eqn:Q; [|apply (H w eq_refl Q P)].
    (* a plain string with white space (or the empty string) *)
    destruct w as [u| | | |]; cbn in Q; try discriminate. destruct (has_dollar u) eqn:Hd; [discriminate|]. apply has_dollar_false in Hd.
    eapply term_S with (f := fun fuel => bind (mapM (ltev fuel m E ((var_of key, VStr []) :: lv') false) (group (lex u))) (fun es => Ok (List.concat es))); [reflexivity|]. apply term_bind, term_mapM.
    intros t Ht. rewrite (lex_text u Hd) in Ht. assert (X : forall l t, In t (group (map TChar l)) -> match t with LTExp _ => False | _ => True end).
    { clear. induction l as [|c l IH]; intros t Ht; [destruct Ht|]. cbn [map group] in Ht. destruct (Ascii.eqb c dollar); [destruct Ht as [<-|Ht]; [exact Logic.I | apply IH, Ht]|].
      destruct (is_space c); destruct (group (map TChar l)) as [|[x|x|[|d x]] g]; try (destruct (Ascii.eqb d dollar)); repeat (destruct Ht as [<-|Ht]; [try exact Logic.I; try (apply (IH (LTExp x)); left; reflexivity)|]); try (destruct Ht; fail); apply IH; try (right; exact Ht); exact Ht. }
    specialize (X _ _ Ht). destruct t as [t|w|w]; [contradiction| |]; exists 0; intros fuel _; cbn [ltev]; [|discriminate]. destruct (negb _); [discriminate|]. destruct (existsb _ w); discriminate.
  - intros lv' wi' s H. eapply term_S with (f := fun fuel => bind (mapM (ltev fuel m E lv' wi') (group (lex s))) (fun es => Ok (List.concat es))); [reflexivity|]. apply term_bind, term_mapM.
    intros t Ht. destruct t as [t|w|w]; [|exists 0; intros fuel _; cbn [ltev]; destruct (negb _); [discriminate|]; destruct (existsb _ w); [discriminate|]; destruct wi'; discriminate | exists 0; intros fuel _; discriminate].
    destruct t as [c| | | |key]; [exists 0; cbn; discriminate | exists 0; cbn; discriminate | exists 0; cbn; discriminate | exists 0; cbn; discriminate|]. apply H.
    assert (X : forall l, In (LTExp (TRef key)) (group l) -> In (TRef key) l).
    { clear. induction l as [|t l IH]; intros Ht; [destruct Ht|]. destruct t as [c| | | |k]; cbn [group] in Ht; try (destruct Ht as [Q|Ht]; [first [discriminate | injection Q as ->; left; reflexivity] | right; apply IH, Ht]). right. apply IH.
      destruct (Ascii.eqb c dollar); [destruct Ht as [Q|Ht]; [discriminate | exact Ht]|].
      destruct (is_space c); destruct (group l) as [|[x|x|[|d x]] g]; try (destruct (Ascii.eqb d dollar)); destruct Ht as [Q|Ht]; try discriminate; try exact Ht; right; exact Ht. }
    apply X, Ht.
  - intros lv' wi' l H. eapply term_S with (f := fun fuel => bind (mapM (fun w => bind (lexpand fuel m E lv' true w) (fun es => Ok (es ++ [LNextWord]))) l) (fun es => Ok (List.concat es))); [reflexivity|].
    apply term_bind, (term_mapM (fun fuel w => bind (lexpand fuel m E lv' true w) (fun es => Ok (es ++ [LNextWord])))). intros w Hw. apply term_bind, (H w Hw true).
  - intros lv' wi' f H1 H2. eapply term_S with (f := fun fuel => if f_ok E f then lexpand fuel m E lv' wi' (f_call E f lv' (mode_eqb m SIG)) else if mode_eqb m RAW then Ok [LAppend (VFun f)] else lexpand fuel m E lv' wi' (VStr (conv E m (VFun f)))); [reflexivity|].
    destruct (f_ok E f); [apply H1; reflexivity|]. destruct (mode_eqb m RAW); [apply term_const; discriminate | apply H2; reflexivity].
  - intros lv' wi' v0 Hv. eapply term_S with (f := fun _ => match v0 with VNone => Ok [LThisWord] | _ => Ok [LAppend v0] end); [intros fuel; destruct v0; try contradiction; reflexivity|]. apply term_const. destruct v0; discriminate.
Qed.
Lemma stable {A} (f : nat -> res A) : (forall fuel, f fuel <> Timeout -> f (S fuel) = f fuel) -> terminates f -> exists r, r <> Timeout /\ exists N, forall fuel, N <= fuel -> f fuel = r.
Proof.
  intros M (N & H). exists (f N). split; [apply H; lia|]. exists N. intros fuel L. induction L as [|fuel L IH]; [reflexivity|]. rewrite M; [exact IH|]. apply H, L.
Qed.
(* C24.  In a tame environment the expansion of any string whose references are among K terminates: with enough fuel the
   result (a string, or an error) does not depend on the fuel, however the variables refer to each other. *)
Theorem C24_terminates : forall K rank E m lv s, tame_env K rank E -> tame_dict K rank lv -> (forall key, In (TRef key) (lex s) -> In key K) ->
  (exists r, r <> Timeout /\ exists N, forall fuel, N <= fuel -> subst fuel m E lv s = r)
  /\ (exists r, r <> Timeout /\ exists N, forall fuel, N <= fuel -> subst_list fuel m E lv s = r).
Proof.
  intros K rank E m lv s T D Hk. assert (Tv : tame K rank 0 (VStr s)) by exact Hk. split.
  - destruct (stable _ (fun fuel => expand_S fuel m E lv (VStr s)) (expand_terminates K rank E m lv 0 (VStr s) T D Tv)) as (r & Nr & N & H).
    unfold subst. destruct (has_dollar s); [|exists (Ok s); split; [discriminate | exists 0; reflexivity]]. exists (bind r (fun v => finish m (conv E m v))). split; [|exists N; intros fuel L; rewrite (H fuel L); reflexivity].
    destruct r as [v| |]; [|discriminate|contradiction]. cbn. destruct m; cbn; try discriminate. destruct (remove_list 0 _); discriminate.
  - destruct (stable _ (fun fuel => lexpand_S fuel m E lv false (VStr s)) (lexpand_terminates K rank E m lv false 0 (VStr s) T D Tv)) as (r & Nr & N & H).
    unfold subst_list. eexists (bind r _). split; [|exists N; intros fuel L; rewrite (H fuel L); reflexivity]. destruct r as [v| |]; [|discriminate|contradiction]. discriminate.
Qed.
Print Assumptions C24_terminates.

(* an environment with mutual and self references meets the hypotheses *)
Definition we : senv := env0 [(s_ "A", VStr (s_ "a $B ${A}")); (s_ "B", VSeq [VStr (s_ "$A"); VStr (s_ "b")])].
Example C24_witness : tame_env [s_ "A"; s_ "B"] (fun _ => 0) we /\ tame_dict [s_ "A"; s_ "B"] (fun _ => 0) [] /\ subst 9 RAW we [] (s_ "$A$B") = Ok (s_ "a  b a   b").
Proof.
  split; [|split; [split; discriminate | vm_compute; reflexivity]]. constructor; cbn [we env0 gv ev f_call f_str]; try discriminate.
  - intros k v. cbn [dget]. destruct (str_eqb k (s_ "A")); [intros H; injection H as <-; exists 0; intros key H; vm_compute in H; repeat (destruct H as [H|H]; [try discriminate; injection H as <-; cbn; auto|]); destruct H|].
    destruct (str_eqb k (s_ "B")); [|discriminate]. intros H; injection H as <-. exists 0. cbn [tame]. repeat split; intros key H; vm_compute in H; repeat (destruct H as [H|H]; [try discriminate; injection H as <-; cbn; auto|]); destruct H.
  - intros f d b key H. rewrite lex_nil in H. destruct H.
  - intros f b n key H. rewrite lex_nil in H. destruct H.
  - intros k v. cbn [dget]. destruct (str_eqb k (s_ "A")) eqn:Q; [apply str_eqb_eq in Q; subst; reflexivity|]. destruct (str_eqb k (s_ "B")) eqn:Q2; [apply str_eqb_eq in Q2; subst; reflexivity | discriminate].
Qed.

(* The protection against recursion blanks the part of the reference before the first dot.  For an expression such as
   ${(A or B.c)} that is not a variable name, so a variable A that refers to this expression recurses for ever (RecursionError). *)
Definition loop_key : str := s_ "(A or B.c)".
Definition loop_env : senv :=
  {| gv := [(s_ "A", VStr (s_ "${(A or B.c)}"))];
     ev := fun key lv => if str_eqb key loop_key
                         then match dget lv (s_ "A") with           (* Python: A or B.c, where B is not defined *)
                              | Some (VStr []) | Some VNone => EAllowed
                              | Some v => EVal v
                              | None => EVal (VStr (s_ "${(A or B.c)}")) end
                         else EAllowed;
     strict := false; f_ok := fun _ => true; f_call := fun _ _ _ => VStr []; f_str := fun _ _ => [] |}.
Theorem C24_dotted_expression_refuted : forall fuel m, subst fuel m loop_env [] (s_ "${(A or B.c)}") = Timeout.
Proof.
  intros fuel m. change (bind (expand fuel m loop_env [] (VStr (s_ "${(A or B.c)}"))) (fun v => finish m (conv loop_env m v)) = Timeout).
  assert (H : forall fuel lv, dget lv (s_ "A") = None -> dget lv loop_key = None -> expand fuel m loop_env lv (VStr (s_ "${(A or B.c)}")) = Timeout); [|rewrite H; reflexivity].
  clear fuel. induction fuel as [|fuel IH]; intros lv H1 H2; [reflexivity|].
  change (expand (S fuel) m loop_env lv (VStr (s_ "${(A or B.c)}"))) with (bind (mapM (etok fuel m loop_env lv) (lex (s_ "${(A or B.c)}"))) (fun ps => Ok (VStr (List.concat ps)))).
  assert (L : lex (s_ "${(A or B.c)}") = [TRef loop_key]) by (vm_compute; reflexivity). rewrite L. cbn [mapM etok]. unfold lookup. rewrite H2. 
  change (dget (gv loop_env) loop_key) with (@None val). change (ev loop_env loop_key lv) with (match dget lv (s_ "A") with Some (VStr []) | Some VNone => EAllowed | Some v => EVal v | None => EVal (VStr (s_ "${(A or B.c)}")) end). rewrite H1.
  cbn [bind]. change (plain (VStr (s_ "${(A or B.c)}"))) with (@None str). cbv iota. rewrite IH; [reflexivity | |].
  - change (var_of loop_key) with (s_ "(A or B"). exact H1.
  - change (var_of loop_key) with (s_ "(A or B"). exact H2.
Qed.
Print Assumptions C24_dotted_expression_refuted.
