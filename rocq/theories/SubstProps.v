(* Properties C22, C23, C25 of variable substitution (C24 is in SubstTerm.v) *)
From Coq Require Import Ascii String List Arith Bool Lia.
Import ListNotations.
From Verif Require Import SubstModel SubstProofs.
Local Open Scope list_scope.

(* Vocabulary (SubstProofs.v): [text s]: no dollar sign occurs in s.  [clean s]: every dollar sign in s starts one of
   the tokens $$ $( $) $name ${...}.  [clean_env]: the same for all values of variables, results of callables and of evaluated expressions;
   the strings of Nodes and other objects contain no dollar sign.  [no_ext b]: b does not start with a
   character that could continue a variable name. *)

(* ================= C22 ================= *)
(* Text without $ is not changed, in any mode and environment. *)
Theorem C22_no_dollar : forall fuel m E lv s, text s -> subst fuel m E lv s = Ok s.
Proof. intros fuel m E lv s H. unfold subst. apply has_dollar_false in H. rewrite H. reflexivity. Qed.
Print Assumptions C22_no_dollar.

Lemma raw_sub fuel E lv s : subst (S fuel) RAW E lv s = bind (expansion (S fuel) RAW E lv s) (fun r => Ok (undouble r)).
Proof.
  destruct (has_dollar s) eqn:H; [apply (subst_expansion (S fuel) RAW E lv s H)|]. apply has_dollar_false in H.
  rewrite (C22_no_dollar _ _ _ _ _ H), (expansion_text _ _ _ _ _ H). cbn [bind]. rewrite (undouble_text _ H). reflexivity.
Qed.
(* Text in front of anything else is kept as it is ... *)
Theorem C22b_text_before : forall fuel E lv t b, text t ->
  subst (S fuel) RAW E lv (t ++ b) = bind (subst (S fuel) RAW E lv b) (fun r => Ok (t ++ r)).
Proof.
  intros fuel E lv t b H. rewrite !raw_sub. rewrite expansion_lex_app by (rewrite (lex_text_app t b H), (lex_text t H); reflexivity).
  rewrite (expansion_text _ _ _ _ _ H). cbn [bind]. rewrite !bind_assoc. apply bind_ext. intros r. cbn. rewrite (undouble_app t r (evd_text t H)), (undouble_text t H). reflexivity.
Qed.
Print Assumptions C22b_text_before.
(* ... and so is text after a complete reference. *)
Theorem C22c_text_after : forall fuel E lv a t, clean_env E lv -> clean a -> text t -> no_ext t ->
  subst (S fuel) RAW E lv (a ++ t) = bind (subst (S fuel) RAW E lv a) (fun r => Ok (r ++ t)).
Proof.
  intros fuel E lv a t Ce Ca Ht N. rewrite !raw_sub, (expansion_lex_app _ _ _ _ _ _ (lex_app a t Ca N)). rewrite (expansion_text _ _ _ _ _ Ht). cbn [bind]. rewrite !bind_assoc.
  destruct (expansion (S fuel) RAW E lv a) as [ra| |] eqn:X; cbn; [|reflexivity|reflexivity]. rewrite (undouble_app ra t (expansion_evd _ _ _ _ _ _ Ce Ca X)), (undouble_text t Ht). reflexivity.
Qed.
Print Assumptions C22c_text_after.

(* The words of a string: maximal runs of characters that are not white space *)
Fixpoint words (s : str) : list str :=
  match s with
  | [] => []
  | c :: r => if is_space c then words r
              else match r with
                   | d :: _ => if is_space d then [c] :: words r else match words r with w :: ws => (c :: w) :: ws | [] => [[c]] end
                   | [] => [[c]]
                   end
  end.
(* one line, only the usual white space characters *)
Definition one_line (s : str) : Prop := forall c, In c s -> c <> newline /\ (is_space c = true -> is_space0 c = true).

Fixpoint alt (prev : bool) (g : list ltok) : Prop :=   (* no two adjacent texts *)
  match g with [] => True | LTText w :: r => prev = false /\ w <> [] /\ alt true r | LTSpace w :: r => w <> [] /\ one_line w /\ Forall (fun c => is_space c = true) w /\ alt false r | LTExp _ :: _ => False end.
Definition texts (g : list ltok) : list str := flat_map (fun t => match t with LTText w => [w] | _ => [] end) g.
Definition ev_of (t : ltok) : levent := match t with LTText w => LAppend (VStr w) | _ => LNextWord end.
Lemma group_text : forall s, text s -> one_line s ->
  alt false (group (map TChar s)) /\ texts (group (map TChar s)) = words s
  /\ match s with [] => group (map TChar s) = [] | c :: _ => if is_space c then exists w g, group (map TChar s) = LTSpace w :: g else exists w g, group (map TChar s) = LTText (c :: w) :: g end
  /\ Forall (fun t => match t with LTText w => text w | _ => True end) (group (map TChar s)).
Proof.
  induction s as [|c s IH]; intros T O; [cbn; repeat split; constructor|].
  assert (T' : text s) by (intros D; apply T; right; exact D). assert (O' : one_line s) by (intros d D; apply O; right; exact D).
  destruct (IH T' O') as (A & W & P & F). assert (Nc : c <> dollar) by (intros ->; apply T; left; reflexivity). pose proof (proj2 (Ascii.eqb_neq _ _) Nc) as Nb.
  cbn [map group words]. rewrite Nb. destruct (is_space c) eqn:Ec.
  - assert (Oc : forall w, one_line w -> one_line (c :: w)) by (intros w Hw d [<-|D]; [apply O; left; reflexivity | apply Hw, D]).
    destruct s as [|d s].
    + cbn. split; [split; [discriminate|]; split; [apply Oc; intros x []|]; split; [constructor; [exact Ec | constructor] | exact Logic.I]|]. split; [reflexivity|]. split; [eexists; eexists; reflexivity | constructor; [exact Logic.I | constructor]].
    + destruct (is_space d) eqn:Ed.
      * destruct P as (w & g & P). rewrite P in *. cbn [alt texts flat_map] in *. destruct A as (A1 & A2 & A3 & A4). split; [split; [discriminate|]; split; [apply Oc, A2|]; split; [constructor; assumption | exact A4]|].
        split; [exact W|]. split; [eexists; eexists; reflexivity|]. inversion F; constructor; auto.
      * destruct P as (w & g & P). rewrite P in *. cbn [alt] in *. destruct A as (A1 & A2 & A3). split; [split; [discriminate|]; split; [apply Oc; intros x []|]; split; [constructor; [exact Ec | constructor]|]; repeat split; assumption|].
        split; [exact W|]. split; [eexists; eexists; reflexivity|]. constructor; [exact Logic.I | exact F].
  - destruct s as [|d s].
    + cbn. split; [repeat split; discriminate|]. split; [reflexivity|]. split; [eexists; eexists; reflexivity|]. constructor; [|constructor]. intros [D|[]]. apply Nc. exact D.
    + destruct (is_space d) eqn:Ed.
      * destruct P as (w & g & P). rewrite P in *. cbn [alt texts flat_map app] in *. split; [split; [reflexivity|]; split; [discriminate | exact A]|]. split; [f_equal; exact W|]. split; [eexists; eexists; reflexivity|].
        constructor; [|exact F]. intros [D|[]]. apply Nc. exact D.
      * destruct P as (w & g & P). rewrite P in *. assert (Nd : Ascii.eqb d dollar = false) by (apply Ascii.eqb_neq; intros ->; apply T'; left; reflexivity). rewrite Nd.
        cbn [alt texts flat_map app] in *. destruct A as (A1 & A2 & A3). split; [split; [reflexivity|]; split; [discriminate | exact A3]|]. split; [rewrite <- W; reflexivity|].
        split; [eexists; eexists; reflexivity|]. inversion F as [|x l F1 F2 Q]; subst. constructor; [|exact F2]. intros [D|D]; [apply Nc; exact D | apply F1, D].
Qed.
Lemma run_alt E m : forall g prev ws, alt prev g ->
  lrun E m (map ev_of g) {| l_lines := [ws]; l_new := negb prev; l_strip := false |} =
  {| l_lines := [rev (texts g) ++ ws]; l_new := match rev g with [] => negb prev | LTText _ :: _ => false | _ => true end; l_strip := false |}.
Proof.
  unfold lrun. induction g as [|t g IH]; intros prev ws A; [reflexivity|]. destruct t as [t|w|w]; cbn [alt] in A; [contradiction| |].
  - destruct A as (A1 & A2 & A3 & A4). cbn [map fold_left ev_of lstep texts flat_map app l_lines l_strip]. specialize (IH false ws A4). cbn [negb] in IH. rewrite IH. f_equal. cbn [rev]. destruct (rev g) as [|[| |] r]; reflexivity.
  - destruct A as (-> & A2 & A3). cbn [map fold_left ev_of lstep]. unfold lappend. cbn [l_new negb]. unfold add_new. cbn [l_lines l_strip andb]. rewrite conv_VStr. specialize (IH true (w :: ws) A3). cbn [negb] in IH. rewrite IH.
    cbn [texts flat_map]. f_equal; [cbn [app rev]; rewrite <- app_assoc; reflexivity|]. cbn [rev]. destruct (rev g) as [|[| |] r]; reflexivity.
Qed.
(* A command line without $ is split at white space and not changed otherwise. *)
Theorem C22d_words : forall fuel m E lv s, text s -> one_line s -> subst_list (S fuel) m E lv s = Ok [words s].
Proof.
  intros fuel m E lv s T O. unfold subst_list. cbn [lexpand]. rewrite (lex_text s T). destruct (group_text s T O) as (A & W & _).
  rewrite (mapM_all_ok _ (fun t => [ev_of t])).
  - cbn [bind]. assert (C : List.concat (map (fun t => [ev_of t]) (group (map TChar s))) = map ev_of (group (map TChar s))) by (generalize (group (map TChar s)); induction l as [|x l IH]; cbn; [reflexivity | f_equal; exact IH]).
    rewrite C. pose proof (run_alt E m _ false [] A) as R. cbn [negb] in R. change {| l_lines := [[]]; l_new := true; l_strip := false |} with linit in R. rewrite R. unfold ldata. cbn. rewrite app_nil_r, rev_involutive, W. reflexivity.
  - assert (G : forall p g, alt p g -> forall t, In t g -> match t with LTText _ => True | LTSpace w => w <> [] /\ one_line w /\ Forall (fun c => is_space c = true) w | LTExp _ => False end).
    { intros p g. revert p. induction g as [|x g IH]; intros p Ag t Ht; [destruct Ht|]. destruct x as [x|w|w]; cbn [alt] in Ag; [contradiction| |]; destruct Ht as [<-|Ht]; try tauto; eapply IH; try exact Ht; apply Ag. }
    intros t Ht. specialize (G _ _ A t Ht). destruct t as [t|w|w]; [contradiction| |reflexivity]. destruct G as (G1 & G2 & G3). destruct w as [|c w]; [contradiction|].
    cbn [negb]. rewrite (proj2 (G2 c (or_introl eq_refl)) (Forall_inv G3)). cbn [negb].
    assert (N : existsb (Ascii.eqb newline) (c :: w) = false).
    { destruct (existsb (Ascii.eqb newline) (c :: w)) eqn:X; [|reflexivity]. apply existsb_exists in X. destruct X as (x & X1 & X2). apply Ascii.eqb_eq in X2. subst x. exfalso. apply (proj1 (G2 _ X1)). reflexivity. }
    rewrite N. reflexivity.
Qed.
Print Assumptions C22d_words.

Definition s_ (x : string) : str := list_ascii_of_string x.
Definition env0 (g : dict) : senv := {| gv := g; ev := fun _ _ => EAllowed; strict := false; f_ok := fun _ => true; f_call := fun _ _ _ => VStr []; f_str := fun _ _ => [] |}.
Ltac by_in := unfold text; cbn; intros H; repeat (destruct H as [H|H]; [discriminate|]); exact H.
Lemma text_dec s : has_dollar s = false -> text s. Proof. apply has_dollar_false. Qed.
Example C22_witness : subst 9 RAW (env0 [(s_ "X", VStr (s_ "1 $Y")); (s_ "Y", VStr (s_ "2"))]) [] (s_ "a  b${X}, c") = Ok (s_ "a  b1 2, c")
  /\ subst_list 9 CMD (env0 []) [] (s_ " gcc  -c >x ") = Ok [[s_ "gcc"; s_ "-c"; s_ ">x"]].
Proof. split; vm_compute; reflexivity. Qed.

(* ================= C23 ================= *)
(* In raw mode every $$ gives exactly one dollar sign, which is not interpreted again: what is before and what is
   after it are expanded as if they were alone. *)
Theorem C23_one_dollar : forall fuel E lv a b, clean_env E lv -> clean a ->
  subst (S fuel) RAW E lv (a ++ s_ "$$" ++ b) =
  bind (subst (S fuel) RAW E lv a) (fun ra => bind (subst (S fuel) RAW E lv b) (fun rb => Ok (ra ++ s_ "$" ++ rb))).
Proof.
  intros fuel E lv a b Ce Ca. rewrite !raw_sub. cbn [s_ list_ascii_of_string app].
  rewrite (expansion_lex_app _ _ _ _ _ _ (lex_app a _ Ca (no_ext_dollar _))). rewrite expansion_dd. rewrite !bind_assoc.
  destruct (expansion (S fuel) RAW E lv a) as [ra| |] eqn:X; cbn [bind]; [|reflexivity|reflexivity]. rewrite !bind_assoc. apply bind_ext. intros rb. cbn [bind].
  rewrite (undouble_app ra _ (expansion_evd _ _ _ _ _ _ Ce Ca X)). reflexivity.
Qed.
Print Assumptions C23_one_dollar.
(* The hypothesis on the environment is needed: two stray dollar signs meeting after expansion become one. *)
Theorem C23_stray_refuted : exists E lv, subst 9 RAW E lv (s_ "$X") = Ok (s_ "$") /\ subst 9 RAW E lv (s_ "$X$X") = Ok (s_ "$").
Proof. exists (env0 [(s_ "X", VStr (s_ "$"))]), []. split; vm_compute; reflexivity. Qed.
Print Assumptions C23_stray_refuted.
(* In the default mode of env.subst the escape does not protect a following parenthesis: it is lost. *)
Theorem C23_cmd_paren_refuted : exists E lv, clean_env E lv /\ clean (s_ "echo $$(pwd)") /\ subst 9 CMD E lv (s_ "echo $$(pwd)") = Ok (s_ "echo $pwd)").
Proof.
  exists (env0 []), []. split; [|split; [|vm_compute; reflexivity]].
  - repeat split; cbn; try discriminate; intros; try apply text_clean; intros [].
  - intros D. vm_compute in D. repeat (destruct D as [D|D]; [discriminate|]). exact D.
Qed.
Print Assumptions C23_cmd_paren_refuted.
(* For a list argument $$ is not turned into $ at all. *)
Theorem C23_list_refuted : exists E lv, subst_seq 9 RAW E lv [VStr (s_ "a$$b")] = Ok [s_ "a$$b"] /\ subst 9 RAW E lv (s_ "a$$b") = Ok (s_ "a$b").
Proof. exists (env0 []), []. split; vm_compute; reflexivity. Qed.
Print Assumptions C23_list_refuted.
(* A literal dollar directly in front of $( makes the signature of the command an error. *)
Theorem C23_sig_refuted : exists E lv, subst 9 CMD E lv (s_ "a $$$(b$) c") = Ok (s_ "a $b c") /\ subst 9 SIG E lv (s_ "a $$$(b$) c") = Err.
Proof. exists (env0 []), []. split; vm_compute; reflexivity. Qed.
Print Assumptions C23_sig_refuted.

(* number of dollar signs *)
Definition ndollar (s : str) : nat := length (filter (fun c => Ascii.eqb c dollar) s).
Definition no_paren_next (l : list tok) : Prop :=
  forall a b c, l = a ++ TDollar :: TChar c :: b -> c <> "("%char /\ c <> ")"%char.
Lemma ndollar_app a b : ndollar (a ++ b) = ndollar a + ndollar b.
Proof. unfold ndollar. rewrite filter_app, app_length. reflexivity. Qed.
Lemma nd_char c s : c <> dollar -> ndollar (c :: s) = ndollar s.
Proof. intros H. unfold ndollar. cbn [filter]. apply Ascii.eqb_neq in H. rewrite H. reflexivity. Qed.
Lemma nd_dollar s : ndollar (dollar :: s) = S (ndollar s).
Proof. reflexivity. Qed.
Definition nd_toks (l : list tok) : nat := length (filter (fun t => match t with TDollar => true | _ => false end) l).
Definition tok_text (t : tok) : str := match t with TChar c => [c] | _ => [dollar; dollar] end.
Definition simple (l : list tok) : Prop := Forall (fun t => match t with TChar c => c <> dollar | TDollar => True | _ => False end) l.
(* strings made of non-dollar characters and $$ *)
Inductive dbl : nat -> str -> Prop :=
  | dbl_nil : dbl 0 []
  | dbl_char n c s : c <> dollar -> dbl n s -> dbl n (c :: s)
  | dbl_dd n s : dbl n s -> dbl (S n) (dollar :: dollar :: s).
Lemma dbl_undouble n s : dbl n s -> ndollar (undouble s) = n.
Proof.
  induction 1 as [|n c s N H IH|n s H IH]; [reflexivity| |].
  - rewrite undouble_char by exact N. rewrite nd_char by exact N. exact IH.
  - change (undouble (dollar :: dollar :: s)) with (dollar :: undouble s). rewrite nd_dollar, IH. reflexivity.
Qed.
Lemma dbl_compress n s p : dbl n s -> dbl n (compress p s).
Proof.
  intros H. revert p. induction H as [|n c s N H IH|n s H IH]; intros p; [constructor| |].
  - cbn [compress]. destruct (is_blank c && negb (in_braces s)); [destruct p; [apply IH | apply dbl_char; [discriminate | apply IH]] | apply dbl_char; [exact N | apply IH]].
  - cbn. apply dbl_dd, IH.
Qed.
Lemma dbl_app n m a b : dbl n a -> dbl m b -> dbl (n + m) (a ++ b).
Proof. intros H K. induction H; cbn; [exact K | apply dbl_char; auto | apply dbl_dd; auto]. Qed.
Lemma dbl_rev n s : dbl n s -> dbl n (rev s).
Proof.
  induction 1 as [|n c s N H IH|n s H IH]; [constructor| |]; cbn.
  - rewrite <- (Nat.add_0_r n). apply dbl_app; [exact IH | apply dbl_char; [exact N | constructor]].
  - rewrite <- app_assoc. cbn. replace (S n) with (n + 1) by lia. apply dbl_app; [exact IH | apply dbl_dd; constructor].
Qed.
Lemma dbl_lstrip n s : dbl n s -> dbl n (lstrip s).
Proof. induction 1 as [|n c s N H IH|n s H IH]; [constructor| |]; cbn [lstrip]; [destruct (is_space c); [exact IH | apply dbl_char; assumption] | apply dbl_dd, H]. Qed.
Lemma dbl_strip n s : dbl n s -> dbl n (strip s).
Proof. intros H. unfold strip. apply dbl_rev, dbl_lstrip, dbl_rev, dbl_lstrip, H. Qed.
Lemma rm_char c r : c <> dollar -> rm (c :: r) = c :: rm r.
Proof. intros N. cbn [rm]. apply Ascii.eqb_neq in N. rewrite N. destruct r; reflexivity. Qed.
Lemma rm_dbl l : simple l -> no_paren_next l -> rm (List.concat (map tok_text l)) = List.concat (map tok_text l) /\ dbl (nd_toks l) (List.concat (map tok_text l)).
Proof.
  intros H. induction H as [|t l Ht H IH]; intros P; [split; [reflexivity | constructor]|].
  assert (P' : no_paren_next l) by (intros a b c ->; apply (P (t :: a) b c); reflexivity). destruct (IH P') as [R D]. destruct t as [c| | | |k]; try contradiction; cbn [map tok_text List.concat app].
  - split; [rewrite rm_char by exact Ht; f_equal; exact R | apply dbl_char; assumption].
  - split; [|unfold nd_toks; cbn [filter List.length]; apply dbl_dd; exact D].
    destruct l as [|u l]; [reflexivity|]. destruct u as [c| | | |k]; try (inversion H; contradiction).
    + destruct (P [] l c eq_refl) as [P1 P2]. cbn [map tok_text List.concat app] in *. cbn [rm] in *. apply Ascii.eqb_neq in P1. apply Ascii.eqb_neq in P2.
      replace (Ascii.eqb dollar "("%char || Ascii.eqb dollar ")"%char) with false by reflexivity. rewrite P1, P2. cbn [orb]. rewrite !andb_false_r. f_equal. f_equal. exact R.
    + cbn [map tok_text List.concat app] in *. cbn [rm]. cbn [rm] in R. cbn. f_equal. f_equal. exact R.
Qed.
(* In command mode each $$ also gives exactly one dollar sign, provided no parenthesis follows it directly. *)
Theorem C23b_cmd_count : forall fuel E lv s, simple (lex s) -> no_paren_next (lex s) ->
  exists r, subst (S fuel) CMD E lv s = Ok r /\ ndollar r = nd_toks (lex s).
Proof.
  intros fuel E lv s S P. assert (X : expansion (Datatypes.S fuel) CMD E lv s = Ok (List.concat (map tok_text (lex s)))).
  { cbn [expansion]. rewrite (mapM_all_ok _ tok_text); [reflexivity|]. intros t Ht. unfold simple in S. rewrite Forall_forall in S. specialize (S t Ht). destruct t; try contradiction; reflexivity. }
  destruct (rm_dbl _ S P) as [R D]. destruct (has_dollar s) eqn:H.
  - rewrite (subst_expansion _ _ _ _ _ H), X. cbn [bind finish]. eexists. split; [reflexivity|]. rewrite R. apply dbl_undouble, dbl_strip, dbl_compress, D.
  - apply has_dollar_false in H. rewrite (C22_no_dollar _ _ _ _ _ H). exists s. split; [reflexivity|]. rewrite (lex_text s H). clear -H. induction s as [|c s IH]; [reflexivity|].
    rewrite nd_char by (intros ->; apply H; left; reflexivity). change (nd_toks (map TChar (c :: s))) with (nd_toks (map TChar s)). apply IH. intros D. apply H. right. exact D.
Qed.
Print Assumptions C23b_cmd_count.
Fixpoint no_paren_b (l : list tok) : bool :=
  match l with [] => true | t :: r => match t, r with TDollar, TChar c :: _ => negb (Ascii.eqb c "("%char || Ascii.eqb c ")"%char) | _, _ => true end && no_paren_b r end.
Lemma no_paren_ok l : no_paren_b l = true -> no_paren_next l.
Proof.
  induction l as [|t l IH]; intros H a b c E; [destruct a; discriminate|]. cbn [no_paren_b] in H. apply andb_prop in H. destruct H as [H1 H2]. destruct a as [|t' a].
  - injection E as -> ->. apply negb_true_iff, orb_false_iff in H1. destruct H1 as [H1 H3]. apply Ascii.eqb_neq in H1. apply Ascii.eqb_neq in H3. auto.
  - injection E as -> E. eapply IH; eauto.
Qed.
Example C23_witness : clean (s_ "a${X}$$$X$(y$)") /\ simple (lex (s_ "cost: $$5  $$ (x)")) /\ no_paren_next (lex (s_ "cost: $$5  $$ (x)"))
  /\ subst 9 CMD (env0 []) [] (s_ "cost: $$5  $$ (x)") = Ok (s_ "cost: $5 $ (x)").
Proof.
  split; [intros D; vm_compute in D; repeat (destruct D as [D|D]; [discriminate|]); exact D|]. split; [vm_compute; repeat constructor; discriminate|]. split; [|vm_compute; reflexivity].
  apply no_paren_ok. vm_compute. reflexivity.
Qed.

(* ================= C25 ================= *)
(* Text (after expansion of variables) in which $( and $) are properly nested and no literal dollar precedes one of them *)
Definition ends_dollar (s : str) : bool := match rev s with c :: _ => Ascii.eqb c dollar | [] => false end.
Definition starts_marker (s : str) : bool := match s with c :: d :: _ => Ascii.eqb c dollar && (Ascii.eqb d "("%char || Ascii.eqb d ")"%char) | _ => false end.
Inductive balanced : str -> Prop :=
  | bal_nil : balanced []
  | bal_char c s : c <> dollar -> balanced s -> balanced (c :: s)
  | bal_dd s : starts_marker s = false -> balanced s -> balanced (dollar :: dollar :: s)
  | bal_strip x s : balanced x -> ends_dollar x = false -> balanced s -> balanced (s_ "$(" ++ x ++ s_ "$)" ++ s).

(* splitting at a marker *)
Lemma split_marker : forall u prev acc d w, (d = "("%char \/ d = ")"%char) -> (match u with [] => prev = false | _ => ends_dollar u = false end) ->
  split_sig prev acc (u ++ dollar :: d :: w) = split_sig prev acc u ++ (if Ascii.eqb d "("%char then PcOpen else PcClose) :: split_sig false [] w.
Proof.
  assert (ends_cons : forall c e u, ends_dollar (c :: e :: u) = ends_dollar (e :: u)).
  { intros c e u. unfold ends_dollar. cbn [rev]. destruct (rev u ++ [e]) as [|x r] eqn:Q; [destruct (rev u); discriminate | reflexivity]. }
  assert (G : forall n u prev acc d w, length u < n -> (d = "("%char \/ d = ")"%char) -> (match u with [] => prev = false | _ => ends_dollar u = false end) ->
    split_sig prev acc (u ++ dollar :: d :: w) = split_sig prev acc u ++ (if Ascii.eqb d "("%char then PcOpen else PcClose) :: split_sig false [] w).
  { induction n as [|n IH]; intros u prev acc d w L Hd He; [lia|]. destruct u as [|c u].
    - subst prev. cbn [app split_sig negb andb]. assert ((Ascii.eqb d "("%char || Ascii.eqb d ")"%char) = true) as -> by (destruct Hd; subst; reflexivity). reflexivity.
    - destruct u as [|e u].
      + assert (Hc : Ascii.eqb c dollar = false) by exact He. cbn [app]. cbn [split_sig]. rewrite Hc, !andb_false_r. cbn [andb]. cbn [negb andb]. rewrite Ascii.eqb_refl.
        assert ((Ascii.eqb d "("%char || Ascii.eqb d ")"%char) = true) as -> by (destruct Hd; subst; reflexivity). reflexivity.
      + rewrite ends_cons in He. cbn [app]. cbn [List.length] in L. change (split_sig prev acc (c :: e :: u ++ dollar :: d :: w)) with
          (if negb prev && Ascii.eqb c dollar && (Ascii.eqb e "("%char || Ascii.eqb e ")"%char)
           then PcText (rev acc) :: (if Ascii.eqb e "("%char then PcOpen else PcClose) :: split_sig false [] (u ++ dollar :: d :: w)
           else split_sig (Ascii.eqb c dollar) (c :: acc) ((e :: u) ++ dollar :: d :: w)).
        change (split_sig prev acc (c :: e :: u)) with
          (if negb prev && Ascii.eqb c dollar && (Ascii.eqb e "("%char || Ascii.eqb e ")"%char)
           then PcText (rev acc) :: (if Ascii.eqb e "("%char then PcOpen else PcClose) :: split_sig false [] u
           else split_sig (Ascii.eqb c dollar) (c :: acc) (e :: u)).
        destruct (negb prev && Ascii.eqb c dollar && (Ascii.eqb e "("%char || Ascii.eqb e ")"%char)).
        * cbn [app]. do 2 f_equal. apply IH; [lia | exact Hd|]. destruct u as [|f u]; [reflexivity | rewrite ends_cons in He; exact He].
        * apply IH; [cbn; lia | exact Hd | exact He]. }
  intros u prev acc d w. apply (G (S (length u))). lia.
Qed.
Lemma mk_strip a x b : a ++ s_ "$(" ++ x ++ s_ "$)" ++ b = a ++ dollar :: "("%char :: x ++ dollar :: ")"%char :: b.
Proof. reflexivity. Qed.
Lemma bal_remove : forall x, balanced x -> forall prev acc k R, (prev = true -> starts_marker x = false) ->
  remove_list (S k) (split_sig prev acc x ++ R) = remove_list (S k) R.
Proof.
  intros x H. induction H as [|c s N H IH|s M H IH|x s Hx IHx Ex Hs IHs]; intros prev acc k R P.
  - reflexivity.
  - destruct s as [|d s]; [reflexivity|]. cbn [split_sig]. apply Ascii.eqb_neq in N. rewrite N, andb_false_r. cbn [andb]. apply IH. discriminate.
  - cbn [split_sig]. replace (Ascii.eqb dollar "("%char || Ascii.eqb dollar ")"%char) with false by reflexivity. rewrite andb_false_r.
    destruct s as [|d s]; [reflexivity|]. rewrite (Ascii.eqb_refl dollar). cbn [negb andb]. apply (IH true). intros _. exact M.
  - destruct prev; [specialize (P eq_refl); discriminate|]. change (s_ "$(" ++ x ++ s_ "$)" ++ s) with (dollar :: "("%char :: x ++ dollar :: ")"%char :: s).
    change (split_sig false acc (dollar :: "("%char :: x ++ dollar :: ")"%char :: s)) with (PcText (rev acc) :: PcOpen :: split_sig false [] (x ++ dollar :: ")"%char :: s)).
    rewrite split_marker; [|right; reflexivity | destruct x; [reflexivity | exact Ex]]. cbn [app remove_list Nat.eqb]. rewrite <- app_assoc.
    rewrite IHx by discriminate. cbn [app]. change (remove_list (S (S k)) ((if Ascii.eqb ")"%char "("%char then PcOpen else PcClose) :: split_sig false [] s ++ R)) with (remove_list (S k) (split_sig false [] s ++ R)).
    apply IHs. discriminate.
Qed.
Lemma remove_list_cong P : forall Q1 Q2, (forall k, remove_list k Q1 = remove_list k Q2) -> forall d, remove_list d (P ++ Q1) = remove_list d (P ++ Q2).
Proof.
  induction P as [|p P IH]; intros Q1 Q2 H d; [apply H|]. destruct p as [t| |]; cbn [app remove_list].
  - destruct (d =? 0); [rewrite (IH Q1 Q2 H d); reflexivity | apply IH, H].
  - apply IH, H.
  - destruct d; [reflexivity | apply IH, H].
Qed.
Lemma finish_sig_ignores ra rx ry rb : ends_dollar ra = false -> balanced rx -> balanced ry -> ends_dollar rx = false -> ends_dollar ry = false ->
  finish SIG (ra ++ s_ "$(" ++ rx ++ s_ "$)" ++ rb) = finish SIG (ra ++ s_ "$(" ++ ry ++ s_ "$)" ++ rb).
Proof.
  intros Ea Bx By Ex Ey. unfold finish.
  assert (Q : forall r, balanced r -> ends_dollar r = false -> forall d, remove_list d (split_sig false [] (ra ++ s_ "$(" ++ r ++ s_ "$)" ++ rb)) = remove_list d (split_sig false [] ra ++ split_sig false [] rb)).
  { intros r Br Er d. rewrite mk_strip. rewrite split_marker; [|left; reflexivity | destruct ra; [reflexivity | exact Ea]].
    apply remove_list_cong. intros k. change (remove_list k (PcOpen :: split_sig false [] (r ++ dollar :: ")"%char :: rb)) = remove_list k (split_sig false [] rb)). cbn [remove_list].
    rewrite split_marker; [|right; reflexivity | destruct r; [reflexivity | exact Er]]. rewrite bal_remove by (auto; discriminate). reflexivity. }
  rewrite !Q by assumption. reflexivity.
Qed.
Lemma exp_strip fuel m E lv a x b : clean a -> clean x ->
  expansion (S fuel) m E lv (a ++ s_ "$(" ++ x ++ s_ "$)" ++ b) =
  bind (expansion (S fuel) m E lv a) (fun ra => bind (expansion (S fuel) m E lv x) (fun rx => bind (expansion (S fuel) m E lv b) (fun rb => Ok (ra ++ s_ "$(" ++ rx ++ s_ "$)" ++ rb)))).
Proof.
  intros Ca Cx. cbn [s_ list_ascii_of_string app]. rewrite (expansion_lex_app _ _ _ _ _ _ (lex_app a _ Ca (no_ext_dollar _))), expansion_open.
  apply bind_ext. intros ra. rewrite (expansion_lex_app _ _ _ _ _ _ (lex_app x _ Cx (no_ext_dollar _))), expansion_close. rewrite !bind_assoc. apply bind_ext. intros rx. cbn [bind]. rewrite !bind_assoc. reflexivity.
Qed.
Lemma has_dollar_app a b : has_dollar (a ++ b) = has_dollar a || has_dollar b.
Proof. unfold has_dollar. apply existsb_app. Qed.

(* C25.  The signature of a command does not depend on what stands between $( and $): not on the text, and not
   on the variables used there.  (expansion m E lv s is the text of s after expansion of its variables, still with the markers.) *)
Theorem C25_signature_ignores : forall fuel E1 lv1 E2 lv2 a b x y rx ry,
  clean a -> clean x -> clean y ->
  expansion (S fuel) SIG E1 lv1 a = expansion (S fuel) SIG E2 lv2 a -> expansion (S fuel) SIG E1 lv1 b = expansion (S fuel) SIG E2 lv2 b ->
  (forall ra, expansion (S fuel) SIG E1 lv1 a = Ok ra -> ends_dollar ra = false) ->
  expansion (S fuel) SIG E1 lv1 x = Ok rx -> balanced rx -> ends_dollar rx = false ->
  expansion (S fuel) SIG E2 lv2 y = Ok ry -> balanced ry -> ends_dollar ry = false ->
  subst (S fuel) SIG E1 lv1 (a ++ s_ "$(" ++ x ++ s_ "$)" ++ b) = subst (S fuel) SIG E2 lv2 (a ++ s_ "$(" ++ y ++ s_ "$)" ++ b).
Proof.
  intros fuel E1 lv1 E2 lv2 a b x y rx ry Ca Cx Cy Ea Eb Na Ex Bx Nx Ey By Ny.
  assert (D : forall z, has_dollar (a ++ s_ "$(" ++ z ++ s_ "$)" ++ b) = true) by (intros z; rewrite has_dollar_app; apply orb_true_iff; right; reflexivity).
  rewrite !subst_expansion by apply D. rewrite !exp_strip by assumption. rewrite <- Ea, <- Eb, Ex, Ey. destruct (expansion (S fuel) SIG E1 lv1 a) as [ra| |]; cbn [bind]; [|reflexivity|reflexivity].
  destruct (expansion (S fuel) SIG E1 lv1 b) as [rb| |]; cbn [bind]; [|reflexivity|reflexivity]. apply finish_sig_ignores; auto.
Qed.
Print Assumptions C25_signature_ignores.

(* the simplest instance: fixed text between the markers, set off by a blank *)
Lemma ends_dollar_app a b : b <> [] -> ends_dollar (a ++ b) = ends_dollar b.
Proof. intros H. unfold ends_dollar. rewrite rev_app_distr. destruct (rev b) eqn:Q; [|reflexivity]. apply (f_equal (@rev ascii)) in Q. rewrite rev_involutive in Q. contradiction. Qed.
Lemma text_ends t : text t -> ends_dollar t = false.
Proof.
  intros H. unfold ends_dollar. destruct (rev t) as [|c r] eqn:Q; [reflexivity|]. apply Ascii.eqb_neq. intros ->. apply H. apply in_rev. rewrite Q. left. reflexivity.
Qed.
Lemma text_balanced t : text t -> balanced t.
Proof. induction t as [|c t IH]; intros H; [constructor|]. apply bal_char; [intros ->; apply H; left; reflexivity | apply IH; intros D; apply H; right; exact D]. Qed.
Lemma blank_no_ext w : no_ext (" "%char :: w). Proof. reflexivity. Qed.
Lemma clean_blank a : clean a -> clean (a ++ s_ " ").
Proof. intros H. apply clean_app; [exact H | apply blank_no_ext | apply text_clean; intros [D|[]]; discriminate]. Qed.
Theorem C25b_fixed_text : forall fuel E lv a b x y, clean a -> text x -> text y ->
  subst (S fuel) SIG E lv (a ++ s_ " $(" ++ x ++ s_ "$)" ++ b) = subst (S fuel) SIG E lv (a ++ s_ " $(" ++ y ++ s_ "$)" ++ b).
Proof.
  intros fuel E lv a b x y Ca Tx Ty. assert (R : forall z, a ++ s_ " $(" ++ z = (a ++ s_ " ") ++ s_ "$(" ++ z) by (intros z; rewrite <- app_assoc; reflexivity).
  rewrite (R (x ++ s_ "$)" ++ b)), (R (y ++ s_ "$)" ++ b)).
  apply (C25_signature_ignores fuel E lv E lv (a ++ s_ " ") b x y x y); auto using text_clean, clean_blank, text_balanced, text_ends, expansion_text.
  intros ra H. rewrite (expansion_lex_app _ _ _ _ _ _ (lex_app a (s_ " ") Ca (blank_no_ext []))) in H. destruct (expansion (S fuel) SIG E lv a) as [r| |]; cbn [bind] in H; try discriminate.
  rewrite expansion_text in H by (intros [D|[]]; discriminate). cbn [bind] in H. injection H as <-. rewrite ends_dollar_app by discriminate. reflexivity.
Qed.
Print Assumptions C25b_fixed_text.

(* In the command itself the markers disappear and the text stays. *)
Lemma rm_app u w : ends_dollar u = false -> rm (u ++ w) = rm u ++ rm w.
Proof.
  assert (G : forall n u, length u < n -> ends_dollar u = false -> rm (u ++ w) = rm u ++ rm w).
  { induction n as [|n IH]; intros v L H; [lia|]. destruct v as [|c v]; [reflexivity|]. destruct v as [|d v].
    - assert (Hc : Ascii.eqb c dollar = false) by exact H. cbn [app]. rewrite (rm_char c w) by (apply Ascii.eqb_neq; exact Hc). reflexivity.
    - assert (Hd : ends_dollar (d :: v) = false). { unfold ends_dollar in *. cbn [rev] in *. destruct (rev v ++ [d]) as [|x r] eqn:Q; [destruct (rev v); discriminate | exact H]. }
      cbn [List.length] in L. change (rm ((c :: d :: v) ++ w)) with (if Ascii.eqb c dollar && (Ascii.eqb d "("%char || Ascii.eqb d ")"%char) then rm (v ++ w) else c :: rm ((d :: v) ++ w)).
      change (rm (c :: d :: v)) with (if Ascii.eqb c dollar && (Ascii.eqb d "("%char || Ascii.eqb d ")"%char) then rm v else c :: rm (d :: v)).
      destruct (Ascii.eqb c dollar && (Ascii.eqb d "("%char || Ascii.eqb d ")"%char)).
      + apply IH; [lia|]. destruct v as [|e v]; [reflexivity|]. unfold ends_dollar in *. cbn [rev] in *. destruct (rev v ++ [e]) as [|x r] eqn:Q; [destruct (rev v); discriminate | exact Hd].
      + rewrite (IH (d :: v)); [reflexivity | cbn; lia | exact Hd]. }
  apply (G (S (length u)) u). lia.
Qed.
Lemma lex_blank a w : clean a -> lex (a ++ " "%char :: w) = lex a ++ TChar " "%char :: lex w.
Proof. intros H. rewrite (lex_app a _ H (blank_no_ext w)), lex_char by discriminate. reflexivity. Qed.
Lemma expansion_blank fuel m E lv a w : clean a ->
  expansion (S fuel) m E lv (a ++ " "%char :: w) = bind (expansion (S fuel) m E lv a) (fun ra => bind (expansion (S fuel) m E lv w) (fun rw => Ok (ra ++ " "%char :: rw))).
Proof.
  intros H. rewrite (expansion_lex_app _ _ _ _ _ _ (lex_app a _ H (blank_no_ext w))). apply bind_ext. intros ra.
  change (" "%char :: w) with ([" "%char] ++ w). assert (T : text [" "%char]) by (intros [D|[]]; discriminate).
  rewrite expansion_lex_app by (rewrite (lex_text_app _ w T), (lex_text _ T); reflexivity). rewrite (expansion_text _ _ _ _ _ T). cbn [bind]. rewrite !bind_assoc. reflexivity.
Qed.
Theorem C25c_command_keeps : forall fuel E lv a x b, clean a -> clean x -> ~ text (a ++ x ++ b) ->
  subst (S fuel) CMD E lv (a ++ s_ " $(" ++ x ++ s_ " $)" ++ b) = subst (S fuel) CMD E lv (a ++ s_ " " ++ x ++ s_ " " ++ b).
Proof.
  intros fuel E lv a x b Ca Cx D.
  assert (H1 : has_dollar (a ++ s_ " $(" ++ x ++ s_ " $)" ++ b) = true) by (rewrite has_dollar_app; apply orb_true_iff; right; reflexivity).
  assert (H2 : has_dollar (a ++ s_ " " ++ x ++ s_ " " ++ b) = true).
  { destruct (has_dollar (a ++ s_ " " ++ x ++ s_ " " ++ b)) eqn:Q; [reflexivity|]. exfalso. apply D. apply has_dollar_false. rewrite !has_dollar_app in *. apply orb_false_iff in Q. destruct Q as [-> Q]. apply orb_false_iff in Q.
    destruct Q as [_ Q]. apply orb_false_iff in Q. destruct Q as [-> Q]. apply orb_false_iff in Q. destruct Q as [_ ->]. reflexivity. }
  rewrite !subst_expansion by assumption. cbn [s_ list_ascii_of_string app]. rewrite !expansion_blank by assumption. rewrite expansion_open. rewrite !bind_assoc. apply bind_ext. intros ra. rewrite !bind_assoc.
  rewrite !expansion_blank by assumption. rewrite !bind_assoc. cbn [bind]. apply bind_ext. intros rx. rewrite expansion_close, !bind_assoc. apply bind_ext. intros rb. cbn [bind finish].
  f_equal. f_equal. f_equal. f_equal.
  assert (A : forall r w, rm (r ++ " "%char :: w) = rm (r ++ [" "%char]) ++ rm w).
  { intros r w. change (" "%char :: w) with ([" "%char] ++ w). rewrite app_assoc. apply rm_app. rewrite ends_dollar_app by discriminate. reflexivity. }
  rewrite (A ra). change (rm (dollar :: "("%char :: rx ++ " "%char :: dollar :: ")"%char :: rb)) with (rm (rx ++ " "%char :: dollar :: ")"%char :: rb)). rewrite (A rx).
  change (rm (dollar :: ")"%char :: rb)) with (rm rb). rewrite (A ra (rx ++ " "%char :: rb)), (A rx rb). reflexivity.
Qed.
Print Assumptions C25c_command_keeps.

(* ---- the same for the command line that is executed (subst_list) ---- *)
Definition ltev (fuel : nat) (m : mode) (E : senv) (lv : dict) (within : bool) (t : ltok) : res (list levent) :=
  match t with
  | LTSpace w => if negb (match w with c :: _ => is_space0 c | [] => false end) then Ok [LAppend (VStr w)]
                 else if existsb (Ascii.eqb newline) w then Ok [LNextLine] else if within then Ok [LAppend (VStr w)] else Ok [LNextWord]
  | LTText w => Ok [LAppend (VStr w)]
  | LTExp (TChar c) => Ok [LAppend (VStr [c])]
  | LTExp TDollar => Ok [LAppend (VStr [dollar])]
  | LTExp TOpen => Ok [LOpenStrip]
  | LTExp TClose => Ok [LCloseStrip]
  | LTExp (TRef key) =>
      bind (lookup E lv key) (fun o => match o with
        | None => Ok []
        | Some w => if expanded w then Ok [LAppend w] else bind (lexpand fuel m E ((var_of key, VStr []) :: lv) false w) (fun es => Ok (es ++ [LThisWord]))
        end)
  end.
Definition lev (fuel : nat) (m : mode) (E : senv) (lv : dict) (g : list ltok) : res (list levent) :=
  bind (mapM (ltev fuel m E lv false) g) (fun es => Ok (List.concat es)).
Lemma lexpand_VStr fuel m E lv s : lexpand (S fuel) m E lv false (VStr s) = lev fuel m E lv (group (lex s)).
Proof. reflexivity. Qed.
Definition seq (r1 r2 : res (list levent)) : res (list levent) := bind r1 (fun a => bind r2 (fun b => Ok (a ++ b))).
Lemma lev_app fuel m E lv g1 g2 : lev fuel m E lv (g1 ++ g2) = seq (lev fuel m E lv g1) (lev fuel m E lv g2).
Proof. unfold lev, seq. rewrite mapM_app, !bind_assoc. apply bind_ext. intros a. cbn [bind]. rewrite !bind_assoc. apply bind_ext. intros b. cbn [bind]. rewrite concat_app. reflexivity. Qed.
Definition steq (s1 s2 : lstate) : Prop := l_lines s1 = l_lines s2 /\ l_new s1 = l_new s2.
Lemma lstep_steq E e s1 s2 : steq s1 s2 -> steq (lstep E CMD s1 e) (lstep E CMD s2 e).
Proof.
  intros [H1 H2]. destruct e as [v| | | | |]; cbn; unfold steq, lappend, add_new, add_cur; rewrite ?H2.
  - destruct (l_new s2); [cbn; rewrite !andb_false_r, H1; auto|]. cbn [mode_eqb]. rewrite !andb_false_r, H1. destruct (l_lines s2) as [|[|w ws] ls] eqn:L2; [| |destruct (last_char_special w)]; cbn; rewrite ?andb_false_r, ?H1, ?L2; auto.
  - cbn; auto. - cbn. rewrite H1. auto. - cbn; auto. - cbn; auto. - cbn; auto.
Qed.
Definition eqv (E : senv) (r1 r2 : res (list levent)) : Prop :=
  match r1, r2 with Ok e1, Ok e2 => forall s1 s2, steq s1 s2 -> steq (lrun E CMD e1 s1) (lrun E CMD e2 s2) | Err, Err => True | Timeout, Timeout => True | _, _ => False end.
Lemma lrun_steq E es : forall s1 s2, steq s1 s2 -> steq (lrun E CMD es s1) (lrun E CMD es s2).
Proof. unfold lrun. induction es as [|e es IH]; intros s1 s2 H; [exact H|]. cbn [fold_left]. apply IH, lstep_steq, H. Qed.
Lemma eqv_refl E r : eqv E r r. Proof. destruct r; cbn; auto. intros s1 s2. apply lrun_steq. Qed.
Lemma steq_trans a b c : steq a b -> steq b c -> steq a c. Proof. intros [A1 A2] [B1 B2]. split; congruence. Qed.
Lemma eqv_trans E a b c : eqv E a b -> eqv E b c -> eqv E a c.
Proof. destruct a as [a| |], b as [b| |], c as [c| |]; cbn; try tauto. intros H K s1 s2 Q. eapply steq_trans; [apply H, Q | apply K]. split; reflexivity. Qed.
Lemma eqv_sym E a b : eqv E a b -> eqv E b a.
Proof. destruct a as [a| |], b as [b| |]; cbn; try tauto. intros H s1 s2 [Q1 Q2]. destruct (H s2 s1) as [A B]; [split; auto|]. split; auto. Qed.
Lemma eqv_seq E a a' b b' : eqv E a a' -> eqv E b b' -> eqv E (seq a b) (seq a' b').
Proof.
  destruct a as [a| |], a' as [a'| |]; cbn; try tauto. intros H. destruct b as [b| |], b' as [b'| |]; cbn; try tauto. intros K s1 s2 Q. unfold lrun. rewrite !fold_left_app. apply K, H, Q.
Qed.
Lemma seq_assoc a b c : seq (seq a b) c = seq a (seq b c).
Proof. unfold seq. destruct a as [a| |]; cbn; [|reflexivity|reflexivity]. destruct b as [b| |]; cbn; [|reflexivity|reflexivity]. destruct c; cbn; [rewrite app_assoc|..]; reflexivity. Qed.
(* grouping from the right *)
Definition gcons (t : tok) (g : list ltok) : list ltok :=
  match t with
  | TChar c => if Ascii.eqb c dollar then LTText [c] :: g
      else if is_space c then match g with LTSpace s :: g' => LTSpace (c :: s) :: g' | _ => LTSpace [c] :: g end
      else match g with LTText (d :: s) :: g' => if Ascii.eqb d dollar then LTText [c] :: LTText (d :: s) :: g' else LTText (c :: d :: s) :: g' | _ => LTText [c] :: g end
  | _ => LTExp t :: g
  end.
Lemma group_fold l : group l = fold_right gcons [] l.
Proof. induction l as [|t l IH]; [reflexivity|]. cbn [fold_right]. rewrite <- IH. destruct t as [c| | | |k]; try reflexivity. cbn [group gcons]. destruct (Ascii.eqb c dollar); [reflexivity|]. destruct (is_space c); destruct (group l) as [|[?|?|[|d w]] g]; reflexivity. Qed.
Lemma group_app l1 l2 : group (l1 ++ l2) = fold_right gcons (group l2) l1.
Proof. rewrite !group_fold. apply fold_right_app. Qed.
Definition sp : ascii := " "%char.
Lemma gcons_case t : (exists c, t = TChar c) \/ forall g, gcons t g = LTExp t :: g.
Proof. destruct t as [c| | | |k]; [left; exists c; reflexivity | right; reflexivity ..]. Qed.
(* blanks at the end of the first part *)
Lemma fold_space l : exists P w', (forall c, In c w' -> In (TChar c) l) /\ forall w g, fold_right gcons (LTSpace w :: g) l = P ++ LTSpace (w' ++ w) :: g.
Proof.
  induction l as [|t l (P & w' & I & H)].
  - exists [], []. split; [intros c []|reflexivity].
  - destruct P as [|p P].
    + (* so far only blanks *)
      destruct (gcons_case t) as [(c & ->)|Gt]; [|exists [LTExp t], w'; split; [intros d D; right; apply I, D | intros w g; cbn [fold_right]; rewrite H, Gt; reflexivity]].
      destruct (Ascii.eqb c dollar) eqn:Ed; [exists [LTText [c]], w'; split; [intros d D; right; apply I, D | intros w g; cbn [fold_right gcons]; rewrite H, Ed; reflexivity]|].
      destruct (is_space c) eqn:Es.
      * exists [], (c :: w'). split; [intros d [<-|D]; [left; reflexivity | right; apply I, D]|]. intros w g. cbn [fold_right gcons]. rewrite H, Ed, Es. reflexivity.
      * exists [LTText [c]], w'. split; [intros d D; right; apply I, D|]. intros w g. cbn [fold_right gcons]. rewrite H, Ed, Es. reflexivity.
    + exists (match t with
              | TChar c => if Ascii.eqb c dollar then LTText [c] :: p :: P
                  else if is_space c then match p with LTSpace s => LTSpace (c :: s) :: P | _ => LTSpace [c] :: p :: P end
                  else match p with LTText (d :: s) => if Ascii.eqb d dollar then LTText [c] :: LTText (d :: s) :: P else LTText (c :: d :: s) :: P | _ => LTText [c] :: p :: P end
              | _ => LTExp t :: p :: P end), w'.
      split; [intros d D; right; apply I, D|]. intros w g. cbn [fold_right]. rewrite H. destruct t as [c| | | |k]; cbn [gcons app]; try reflexivity.
      destruct (Ascii.eqb c dollar); [reflexivity|]. destruct (is_space c); [destruct p; reflexivity|]. destruct p as [p|s|[|d s]]; try reflexivity. destruct (Ascii.eqb d dollar); reflexivity.
Qed.
Definition tok_line (l : list tok) : Prop := forall c, In (TChar c) l -> c <> newline /\ (is_space c = true -> is_space0 c = true).
Lemma group_spaces l : tok_line l -> match group l with LTSpace w :: _ => Forall (fun c => is_space c = true) w /\ w <> [] /\ one_line w | _ => True end.
Proof.
  induction l as [|t l IH]; intros T; [exact Logic.I|]. assert (T' : tok_line l) by (intros c D; apply T; right; exact D). specialize (IH T'). destruct t as [c| | | |k]; cbn [group]; try exact Logic.I.
  destruct (Ascii.eqb c dollar); [exact Logic.I|]. destruct (is_space c) eqn:Es.
  - assert (Tc := T c (or_introl eq_refl)). destruct (group l) as [|[t|w|w] g]; try (split; [constructor; [exact Es | constructor]|]; split; [discriminate | intros d [<-|[]]; exact Tc]).
    destruct IH as (A & B & C). split; [constructor; assumption|]. split; [discriminate|]. intros d [<-|D]; [exact Tc | apply C, D].
  - destruct (group l) as [|[t|w|[|d w]] g]; try exact Logic.I. destruct (Ascii.eqb d dollar); exact Logic.I.
Qed.
Lemma ltev_space fuel m E lv w : w <> [] -> Forall (fun c => is_space c = true) w -> one_line w -> ltev fuel m E lv false (LTSpace w) = Ok [LNextWord].
Proof.
  intros N F O. cbn [ltev]. destruct w as [|c w]; [contradiction|]. rewrite (proj2 (O c (or_introl eq_refl)) (Forall_inv F)). cbn [negb].
  assert (X : existsb (Ascii.eqb newline) (c :: w) = false); [|rewrite X; reflexivity].
  destruct (existsb (Ascii.eqb newline) (c :: w)) eqn:X; [|reflexivity]. apply existsb_exists in X. destruct X as (x & X1 & X2). apply Ascii.eqb_eq in X2. subst x. exfalso. apply (proj1 (O _ X1)). reflexivity.
Qed.
Lemma fold_space_sp l : tok_line l -> exists P w', Forall (fun c => is_space c = true) w' /\ one_line w' /\ forall w g, fold_right gcons (LTSpace w :: g) l = P ++ LTSpace (w' ++ w) :: g.
Proof.
  intros T. destruct (fold_space l) as (P & w' & I & H). exists P, w'. split; [|split; [intros c D; apply T, I, D | exact H]].
  (* all the characters merged in front of a blank are white space: look at a tail of l *)
  clear T I. revert P w' H. induction l as [|t l IH]; intros P w' H.
  - specialize (H [sp] []). cbn in H. destruct P as [|p P]; [injection H as H; destruct w' as [|c w']; [constructor | destruct w'; discriminate] | destruct P; discriminate].
  - destruct (fold_space l) as (P1 & w1 & _ & H1). specialize (IH P1 w1 H1).
    pose proof (H [sp] []) as Q. cbn [fold_right] in Q. rewrite H1 in Q. destruct P1 as [|p P1].
    + destruct (gcons_case t) as [(c & ->)|Gt]; [|rewrite Gt in Q; apply (app_inj_tail [LTExp t] P) in Q; destruct Q as [_ Q]; injection Q as Q; apply app_inv_tail in Q; subst; exact IH].
      cbn [gcons app] in Q. destruct (Ascii.eqb c dollar); [apply (app_inj_tail [LTText [c]] P) in Q; destruct Q as [_ Q]; injection Q as Q; apply app_inv_tail in Q; subst; exact IH|].
      destruct (is_space c) eqn:Es.
      * apply (app_inj_tail [] P) in Q. destruct Q as [_ Q]. injection Q as Q. change (c :: w1 ++ [sp]) with ((c :: w1) ++ [sp]) in Q. apply app_inv_tail in Q. subst w'. constructor; assumption.
      * apply (app_inj_tail [LTText [c]] P) in Q; destruct Q as [_ Q]; injection Q as Q; apply app_inv_tail in Q; subst; exact IH.
    + assert (X : exists P2, gcons t ((p :: P1) ++ [LTSpace (w1 ++ [sp])]) = P2 ++ [LTSpace (w1 ++ [sp])]).
      { destruct (gcons_case t) as [(c & ->)|Gt]; [|rewrite Gt; exists (LTExp t :: p :: P1); reflexivity]. cbn [gcons app]. destruct (Ascii.eqb c dollar); [exists (LTText [c] :: p :: P1); reflexivity|].
        destruct (is_space c); [destruct p as [p|s|s]; [exists (LTSpace [c] :: LTExp p :: P1) | exists (LTSpace (c :: s) :: P1) | exists (LTSpace [c] :: LTText s :: P1)]; reflexivity|].
        destruct p as [p|s|[|d s]]; [exists (LTText [c] :: LTExp p :: P1); reflexivity | exists (LTText [c] :: LTSpace s :: P1); reflexivity | exists (LTText [c] :: LTText [] :: P1); reflexivity|].
        destruct (Ascii.eqb d dollar); [exists (LTText [c] :: LTText (d :: s) :: P1) | exists (LTText (c :: d :: s) :: P1)]; reflexivity. }
      destruct X as (P2 & X). rewrite X in Q. apply app_inj_tail in Q. destruct Q as [_ Q]. injection Q as Q. apply app_inv_tail in Q. subst. exact IH.
Qed.
Lemma lev_cons fuel m E lv t g : lev fuel m E lv (t :: g) = seq (ltev fuel m E lv false t) (lev fuel m E lv g).
Proof. change (t :: g) with ([t] ++ g). rewrite lev_app. f_equal. unfold lev. cbn [mapM]. destruct (ltev fuel m E lv false t); cbn; [rewrite app_nil_r|..]; reflexivity. Qed.
Lemma seq_nil fuel m E lv r : seq (lev fuel m E lv []) r = r.
Proof. destruct r; reflexivity. Qed.
Lemma lev_blank fuel E lv l r : tok_line l -> tok_line r ->
  eqv E (lev fuel CMD E lv (group (l ++ TChar sp :: r))) (seq (lev fuel CMD E lv (group (l ++ [TChar sp]))) (lev fuel CMD E lv (group r))).
Proof.
  intros Tl Tr. rewrite !group_app. cbn [group]. destruct (fold_space_sp l Tl) as (P & w' & F & O & H).
  assert (Osp : forall w, one_line w -> one_line (sp :: w)) by (intros w Hw c [<-|D]; [split; [discriminate | reflexivity] | apply Hw, D]).
  assert (Oapp : forall a b, one_line a -> one_line b -> one_line (a ++ b)) by (intros a b Ha Hb c D; apply in_app_or in D; destruct D; auto).
  assert (K : forall w, Forall (fun c => is_space c = true) w -> one_line w -> ltev fuel CMD E lv false (LTSpace (w' ++ sp :: w)) = Ok [LNextWord]).
  { intros w Fw Ow. apply ltev_space; [destruct w'; discriminate | apply Forall_app; split; [exact F | constructor; [reflexivity | exact Fw]] | apply Oapp; [exact O | apply Osp, Ow]]. }
  assert (Nil : one_line []) by (intros c []).
  change (Ascii.eqb sp dollar) with false. change (is_space sp) with true. cbv iota.
  assert (G : match group r with LTSpace s :: g => Forall (fun c => is_space c = true) s /\ s <> [] /\ one_line s | _ => True end) by (pose proof (group_spaces r Tr) as X; destruct (group r) as [|[?|?|?] ?]; auto).
  rewrite H, lev_app, lev_cons. rewrite (K [] (Forall_nil _) Nil). 
  destruct (group r) as [|[t|s|s] g].
  - rewrite H, lev_app, lev_cons, (K [] (Forall_nil _) Nil). rewrite seq_assoc. apply eqv_seq; [apply eqv_refl|]. rewrite seq_assoc, seq_nil. apply eqv_refl.
  - rewrite H, lev_app, lev_cons, (K [] (Forall_nil _) Nil). rewrite seq_assoc. apply eqv_seq; [apply eqv_refl|]. rewrite seq_assoc, seq_nil. apply eqv_refl.
  - destruct G as (G1 & G2 & G3). rewrite H, lev_app, lev_cons, (K s G1 G3). rewrite seq_assoc. apply eqv_seq; [apply eqv_refl|]. rewrite seq_assoc, seq_nil, lev_cons, (ltev_space fuel CMD E lv s G2 G1 G3).
    destruct (lev fuel CMD E lv g) as [e| |]; cbn; auto. intros s1 s2 Q. unfold lrun. cbn [fold_left]. apply lrun_steq. destruct Q as [Q1 Q2]. split; cbn; auto.
  - rewrite H, lev_app, lev_cons, (K [] (Forall_nil _) Nil). rewrite seq_assoc. apply eqv_seq; [apply eqv_refl|]. rewrite seq_assoc, seq_nil. apply eqv_refl.
Qed.
Lemma lex_in_char : forall n s c, length s < n -> In (TChar c) (lex s) -> In c s.
Proof.
  induction n as [|n IH]; intros s c L H; [lia|]. rewrite lex_eq in H. destruct s as [|d r]; [destruct H|]. cbn [List.length] in L. cbn [lex_step] in H.
  destruct (Ascii.eqb d dollar).
  - destruct r as [|e r']; [destruct H as [H|[]]; injection H as ->; left; reflexivity|]. cbn [List.length] in L.
    assert (R : forall u, length u < n -> In (TChar c) (lex u) -> (forall x, In x u -> In x (d :: e :: r')) -> In c (d :: e :: r')) by (intros u Lu Hu Su; apply Su, (IH u c Lu Hu)).
    destruct (Ascii.eqb e dollar); [destruct H as [H|H]; [discriminate | apply (R r'); [lia | exact H | intros x X; right; right; exact X]]|].
    destruct (Ascii.eqb e "("%char); [destruct H as [H|H]; [discriminate | apply (R r'); [lia | exact H | intros x X; right; right; exact X]]|].
    destruct (Ascii.eqb e ")"%char); [destruct H as [H|H]; [discriminate | apply (R r'); [lia | exact H | intros x X; right; right; exact X]]|].
    destruct (is_alpha_ e).
    + pose proof (span_split is_name_char r') as Sp. destruct (span is_name_char r') as [u v]. cbn in Sp. destruct H as [H|H]; [discriminate|]. apply (R v); [rewrite Sp, app_length in L; lia | exact H | intros x X; right; right; rewrite Sp; apply in_or_app; right; exact X].
    + destruct (Ascii.eqb e "{"%char).
      * pose proof (span_split (fun x => negb (Ascii.eqb x "}"%char)) r') as Sp. destruct (span (fun x => negb (Ascii.eqb x "}"%char)) r') as [u [|y v]]; cbn in Sp.
        -- destruct H as [H|H]; [injection H as ->; left; reflexivity | right; apply (IH (e :: r') c); [cbn; lia | exact H]].
        -- destruct H as [H|H]; [discriminate|]. apply (R v); [rewrite Sp, app_length in L; cbn in L; lia | exact H | intros x X; right; right; rewrite Sp; apply in_or_app; right; right; exact X].
      * destruct H as [H|H]; [injection H as ->; left; reflexivity | right; apply (IH (e :: r') c); [cbn; lia | exact H]].
  - destruct H as [H|H]; [injection H as ->; left; reflexivity | right; apply (IH r c); [lia | exact H]].
Qed.
Lemma lex_line s : one_line s -> tok_line (lex s).
Proof. intros H c D. apply H. apply (lex_in_char (S (length s)) s c); [lia | exact D]. Qed.
Lemma tok_line_app a b : tok_line a -> tok_line b -> tok_line (a ++ b).
Proof. intros A B c D. apply in_app_or in D. destruct D; auto. Qed.
Lemma tok_line_cons t a : (forall c, t = TChar c -> c <> newline /\ (is_space c = true -> is_space0 c = true)) -> tok_line a -> tok_line (t :: a).
Proof. intros T A c [->|D]; auto. Qed.
(* The command line that is executed contains the text between $( and $) and not the markers. *)
Theorem C25d_command_line_keeps : forall fuel E lv a x b, clean a -> clean x -> one_line a -> one_line x -> one_line b ->
  subst_list (S fuel) CMD E lv (a ++ s_ " $(" ++ x ++ s_ " $)" ++ b) = subst_list (S fuel) CMD E lv (a ++ s_ " " ++ x ++ s_ " " ++ b).
Proof.
  intros fuel E lv a x b Ca Cx Oa Ox Ob. unfold subst_list. rewrite !lexpand_VStr. cbn [s_ list_ascii_of_string app].
  rewrite !(lex_blank a) by exact Ca. rewrite lex_open. rewrite !(lex_blank x) by exact Cx. rewrite lex_close.
  assert (V : eqv E (lev fuel CMD E lv (group (lex a ++ TChar " "%char :: TOpen :: lex x ++ TChar " "%char :: TClose :: lex b)))
                    (lev fuel CMD E lv (group (lex a ++ TChar " "%char :: lex x ++ TChar " "%char :: lex b)))).
  { assert (Ta := lex_line a Oa). assert (Tx := lex_line x Ox). assert (Tb := lex_line b Ob).
    assert (Tsp : forall l, tok_line l -> tok_line (TChar sp :: l)) by (intros l Hl; apply tok_line_cons; [intros c Q; injection Q as <-; split; [discriminate | reflexivity] | exact Hl]).
    assert (To : forall l, tok_line l -> tok_line (TOpen :: l)) by (intros l Hl; apply tok_line_cons; [discriminate | exact Hl]).
    assert (Tc : forall l, tok_line l -> tok_line (TClose :: l)) by (intros l Hl; apply tok_line_cons; [discriminate | exact Hl]).
    change " "%char with sp.
    eapply eqv_trans; [apply lev_blank; [exact Ta | apply To, tok_line_app; [exact Tx | apply Tsp, Tc, Tb]]|].
    eapply eqv_trans; [|apply eqv_sym, lev_blank; [exact Ta | apply tok_line_app; [exact Tx | apply Tsp, Tb]]].
    apply eqv_seq; [apply eqv_refl|]. cbn [group]. rewrite lev_cons.
    assert (Skip : forall e r1 r2, (e = LOpenStrip \/ e = LCloseStrip) -> eqv E r1 r2 -> eqv E (seq (Ok [e]) r1) r2).
    { intros e r1 r2 He K. destruct r1 as [e1| |], r2 as [e2| |]; cbn in *; auto. intros s1 s2 Q. unfold lrun. cbn [fold_left app]. apply K. destruct Q as [Q1 Q2]. destruct He as [-> | ->]; split; cbn; auto. }
    apply Skip; [left; reflexivity|].
    eapply eqv_trans; [apply lev_blank; [exact Tx | apply Tc, Tb]|]. eapply eqv_trans; [|apply eqv_sym, lev_blank; [exact Tx | exact Tb]].
    apply eqv_seq; [apply eqv_refl|]. cbn [group]. rewrite lev_cons. apply Skip; [right; reflexivity | apply eqv_refl]. }
  destruct (lev fuel CMD E lv (group (lex a ++ TChar " "%char :: TOpen :: lex x ++ TChar " "%char :: TClose :: lex b))) as [e1| |],
           (lev fuel CMD E lv (group (lex a ++ TChar " "%char :: lex x ++ TChar " "%char :: lex b))) as [e2| |]; cbn in V |- *; try contradiction; try reflexivity.
  f_equal. unfold ldata. rewrite (proj1 (V linit linit (conj eq_refl eq_refl))). reflexivity.
Qed.
Print Assumptions C25d_command_line_keeps.
(* Nested markers: scons_subst counts them, scons_subst_list (used for the implicit command dependencies) does not. *)
Theorem C25_list_nesting_refuted : exists E lv s, subst 9 SIG E lv s = Ok (s_ "a d") /\ subst_list 9 SIG E lv s = Ok [[s_ "a"; s_ "c"; s_ "d"]].
Proof. exists (env0 []), [], (s_ "a $( $( b $) c $) d"). split; vm_compute; reflexivity. Qed.
Print Assumptions C25_list_nesting_refuted.
Example C25_witness : clean (s_ "gcc $FLAGS") /\ balanced (s_ "-v $( x$) ") /\ one_line (s_ "gcc $FLAGS")
  /\ subst 9 SIG (env0 [(s_ "V", VStr (s_ "$(-v$)"))]) [] (s_ "gcc $( $V -q $) -c") = Ok (s_ "gcc -c")
  /\ subst 9 CMD (env0 [(s_ "V", VStr (s_ "$(-v$)"))]) [] (s_ "gcc $( $V -q $) -c") = Ok (s_ "gcc -v -q -c").
Proof.
  split; [intros D; vm_compute in D; repeat (destruct D as [D|D]; [discriminate|]); exact D|]. split; [|split; [|split; vm_compute; reflexivity]].
  - apply (bal_char "-"%char); [discriminate|]. apply (bal_char "v"%char); [discriminate|]. apply (bal_char " "%char); [discriminate|]. apply (bal_strip (s_ " x") (s_ " ")); [apply text_balanced; apply text_dec; reflexivity | reflexivity | apply text_balanced, text_dec; reflexivity].
  - intros c D. cbn in D. repeat (destruct D as [<-|D]; [split; [discriminate | reflexivity || discriminate]|]). destruct D.
Qed.
