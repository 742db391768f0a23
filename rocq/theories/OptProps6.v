(* C61: what the scripts say is one value; a case; what does not hold *)
From Coq Require Import Ascii String List Bool Arith Lia.
Import ListNotations. Open Scope list_scope.
From Verif Require Import NameModel OptModel OptSpec OptProps OptProps5.

Theorem C61_script_one : forall s0 kinds h d r1, script_says s0 kinds h d r1 -> forall r2, script_says s0 kinds h d r2 -> r1 = r2.
Proof.
  intros s0 kinds h d r1 H. induction H as [d|c h d r H1 H2 IH|n v h d r H1 H2 IH|v h d H1 H2|f v v2 h d H1 H2 H3|f n v v2 h d H1 H2 H3|f n v h d r H1 H2 H3 H4 IH|l v l2 h d r H1 H2 H3 H4 IH H5|v h d d2 H1 H2|v h d d2 H1 H2 H3 H4
    |v h d d2 r H1 H2 H3 H4 H5 IH|v h d r H1 H2 H3 H4 IH|n v h d d2 f r H1 H2 H3 H4 IH|n v h d r H1 H2 H3 H4 H5 IH]; intros r2 K; inversion K; subst; try reflexivity; try contradiction; try (apply IH; assumption);
    try (exfalso; eapply H1; reflexivity); try congruence;
    repeat match goal with
    | X : _ \/ exists _, _ = Some (KRename _ _) |- _ => destruct X as [X|(? & X)]
    | X : forall n v, OSet _ _ <> OSet n v |- _ => exfalso; eapply X; reflexivity
    | X : forall d2 f, _ <> Some (KRename d2 f) |- _ => solve [exfalso; eapply X; eassumption] || clear X
    end; try congruence.
  all: repeat match goal with Q : script_says _ _ ?h ?d ?r, IH : forall r2, script_says _ _ ?h ?d r2 -> _ = r2 |- _ => apply IH in Q; subst end.
  all: repeat match goal with X : _ = None /\ _ |- _ => destruct X as [? ?] | X : _ \/ _ |- _ => destruct X | X : exists _, _ |- _ => destruct X | X : _ /\ _ |- _ => destruct X end; subst; try congruence.
  all: try (match goal with X : forall w, _ <> _ |- _ => exfalso; eapply X; (reflexivity || eassumption) end).
  all: try (match goal with X : Some (VList ?l) = Some _ |- _ => injection X as <- end).
Qed.
Theorem C61_value_one : forall its r v0 d v1 v2, has_value its r v0 d v1 -> has_value its r v0 d v2 -> v1 = v2.
Proof. intros its r v0 d v1 v2 H1 H2. inversion H1; subst; inversion H2; subst; try contradiction; congruence. Qed.

(* ---- a case: scons -kj2 --prefix=/usr -V prog X=1 -V -- -odd ---- *)
Definition sv (s : string) : val := VStr (lit s).
Definition numb (w : word) : option val := match w with [c] => Some (VNum (nat_of_ascii c - 48)) | _ => None end.
Definition text (w : word) : option val := Some (VStr w).
Definition mk (l : list string) (s : list ascii) (d : string) (a : arity) (act : action) (c : word -> option val) (v : val) (b : bool) : opt :=
  {| o_long := map lit l; o_short := s; o_dest := lit d; o_arity := a; o_act := act; o_conv := c; o_default := v; o_settable := b |}.
Definition keep_going := mk ["keep-going"%string] ["k"%char] "keep_going" NoArg (AConst (VBool true)) text VNone false.
Definition jobs := mk ["jobs"%string] ["j"%char] "num_jobs" (Args 0) AStore numb VNone false.
Definition random := mk ["random"%string] [] "random" NoArg (AConst (VBool true)) text VNone false.
Definition deps := mk ["implicit-deps-changed"%string] [] "implicit_deps_changed" NoArg (AAlso (lit "implicit_cache")) text VNone false.
Definition debug := mk ["debug"%string] [] "debug" (Args 0) AAppend text VNone false.
Definition prefix := mk ["prefix"%string] [] "prefix" (Args 0) AStore text VNone true.
Definition verbose := mk ["verbose"%string] ["V"%char] "verbose" NoArg ACount text (VNum 0) false.
Definition B1 : list opt := [keep_going; jobs; random; deps; debug].
Definition D1 : map_ val := put (put (put (put (put (put (fun _ => None) (lit "keep_going") (VBool false)) (lit "num_jobs") (VNum 1)) (lit "random") (VBool false)) (lit "implicit_deps_changed") (VBool false)) (lit "implicit_cache") (VBool false)) (lit "debug") (VList []).
Definition S1 : list name := [lit "num_jobs"; lit "random"; lit "implicit_deps_changed"; lit "implicit_cache"; lit "hash_chunksize"].
Definition positive (v : val) : option val := match v with VNum (S n) => Some v | _ => None end.
(* 149-233 *)
Definition kinds1 (n : name) : option setkind :=
  if str_eqb n (lit "num_jobs") then Some (KAs positive) else if str_eqb n (lit "implicit_deps_changed") then Some (KImplies (lit "implicit_cache")) else if str_eqb n (lit "hash_chunksize") then Some (KRename (lit "md5_chunksize") positive) else None.
Definition h1 : list op := [OSet (lit "num_jobs") (VNum 4); OAdd prefix; OSet (lit "prefix") (sv "/opt"); OSet (lit "random") (VBool true); OAdd verbose; OGet (lit "prefix")].
Definition argv1 : list word := map lit ["-kj2"; "--prefix=/usr"; "-V"; "prog"; "X=1"; "-V"; "--"; "-odd"]%string.
Definition its1 : list item := [Given keep_going VNone; Given jobs (VNum 2); Local FLong prefix (sv "/usr"); Local FShort verbose VNone; Plain (lit "prog"); Plain (lit "X=1"); Local FShort verbose VNone; After (lit "-odd")].

Ltac inl := cbn; repeat (try (left; reflexivity); right).
Lemma D1_cases : forall d v, D1 d = Some v -> In d (map lit ["keep_going"; "num_jobs"; "random"; "implicit_deps_changed"; "implicit_cache"; "debug"]%string).
Proof.
  intros d v H. unfold D1, put in H. cbv beta in H. repeat match type of H with (if str_eqb ?a ?b then _ else _) = _ => let K := fresh in destruct (str_eqb a b) eqn:K; [apply str_eqb_eq in K; subst d; cbn [map In]; tauto|] end. discriminate.
Qed.
Ltac one := match goal with H1 : In (Local ?f1 ?o ?v1) _, H2 : In (Local ?f2 ?o ?v2) _ |- _ =>
  unfold its1 in H1, H2; cbn [In] in H1, H2; repeat (destruct H1 as [H1|H1]; [try discriminate H1; injection H1 as <- <- <-; repeat (destruct H2 as [H2|H2]; [try discriminate H2; try (injection H2 as <- <-; reflexivity)|]); contradiction|]); contradiction end.
Theorem C61_case : project B1 D1 S1 kinds1 h1 /\ line B1 (added h1) argv1 its1 /\ one_form its1 /\ accepted D1 h1 its1.
Proof.
  split; [|split; [|split]].
  - split.
    + split; intros o1 o2 n H1 H2 N1 N2; cbn in H1, H2;
      repeat (destruct H1 as [<-|H1]); try contradiction; repeat (destruct H2 as [<-|H2]); try contradiction; try reflexivity; exfalso; cbn in N1, N2; intuition; subst; discriminate.
    + intros o1 o2 H1 H2. cbn in H1, H2. split; intros n N1 N2; repeat (destruct H1 as [<-|H1]); try contradiction; repeat (destruct H2 as [<-|H2]); try contradiction; cbn in N1, N2; intuition; subst; discriminate.
    + intros o H. cbn in H. repeat (destruct H as [<-|H]); try contradiction; (split; [intros n N; cbn in N; repeat (destruct N as [<-|N]); try contradiction; (split; [discriminate | intros X; cbn in X; intuition; discriminate])|]; split; [cbn; intuition; discriminate | intros c X; discriminate || reflexivity]).
    + vm_compute. repeat constructor; cbn; intuition; discriminate.
    + intros b d H C. cbn in H. repeat (destruct H as [<-|H]); try contradiction; cbn in C; subst; try (vm_compute; discriminate). destruct C as [-> | ->]; vm_compute; discriminate.
    + intros o H. cbn in H. destruct H as [<-|[<-|[]]]; (split; [reflexivity|]; split; [cbn; intuition; discriminate|]; split; [reflexivity|]; split; [intros n f | intros n]; unfold kinds1; repeat (destruct (str_eqb n _); [discriminate|]); discriminate).
    + intros o H. cbn in H. destruct H as [<-|[<-|[]]]; exact Logic.I.
  - change argv1 with (short (lit "kj2") :: long_eq (lit "prefix") (lit "/usr") :: short ["V"%char] :: lit "prog" :: lit "X=1" :: short ["V"%char] :: long [] :: [lit "-odd"]).
    change its1 with ([Given keep_going VNone; Given jobs (VNum 2)] ++ [Local FLong prefix (sv "/usr"); Local FShort verbose VNone; Plain (lit "prog"); Plain (lit "X=1"); Local FShort verbose VNone] ++ map After [lit "-odd"]).
    eapply line_group; [discriminate | |].
    + apply group_flag; [inl | inl | reflexivity|]. apply (group_attached B1 jobs "j"%char (lit "2") 0 [] _ (VNum 2)); [inl | inl | reflexivity | discriminate | reflexivity | apply value_one; reflexivity].
    + cbn [app]. apply (line_local_eq _ _ prefix (lit "prefix") (Args 0)); [inl | inl | reflexivity | left; reflexivity | apply value_one; reflexivity|].
      apply line_local_short; [inl | inl | reflexivity|]. apply line_plain; [intros cs X; discriminate|]. apply line_plain; [intros cs X; discriminate|].
      apply line_local_short; [inl | inl | reflexivity|]. apply line_end.
  - intros f1 f2 o v1 v2 H1 H2. one.
  - split.
    + intros o v H. cbn in H. intuition; match goal with X : (_, _) = (_, _) |- _ => injection X as <- <- end; discriminate.
    + intros d v0 [H|(o & Ho & <- & <-)].
      * apply D1_cases in H as Hi. cbn [map In] in Hi. repeat (destruct Hi as [<-|Hi]); try contradiction; vm_compute in H; injection H as <-; eexists; vm_compute; reflexivity.
      * cbn in Ho. destruct Ho as [<-|[<-|[]]]; eexists; vm_compute; reflexivity.
Qed.
(* prefix and the number of jobs come from the command line, random from SetOption; -odd and prog are targets; an unknown option would end the program *)
Definition final1 : option (parser * parser) :=
  match start B1 D1 S1 argv1 with inl (p0, _) => match steps kinds1 p0 h1 with inl (p, _) => Some (p0, p) | inr _ => None end | inr _ => None end.
Theorem C61_case_values : exists p0 p rest l, start B1 D1 S1 argv1 = inl (p0, rest) /\ steps kinds1 p0 h1 = inl (p, l) /\
  get_option p (lit "prefix") = RVal (sv "/usr") /\ get_option p (lit "num_jobs") = RVal (VNum 2) /\ get_option p (lit "random") = RVal (VBool true) /\ get_option p (lit "verbose") = RVal (VNum 2) /\
  cl_targets (largs p0) rest = [lit "prog"; lit "-odd"] /\ cl_args (largs p0) = [lit "X=1"].
Proof.
  destruct C61_case as (PR & LN & ONE & ACC). destruct (C61c_targets _ _ _ _ _ _ _ PR LN ACC) as (p0 & rest & E1 & E2 & E3). destruct (C61a_precedence _ _ _ _ _ _ _ PR LN ONE ACC) as (p0' & rest' & F1 & F2).
  rewrite E1 in F1. injection F1 as <- <-. destruct (F2 h1 [] (eq_sym (app_nil_r h1))) as (p & l & F3 & F4). exists p0, p, rest, l. split; [exact E1|]. split; [exact F3|].
  split; [|split; [|split; [|split; [|split; [rewrite E2; vm_compute; reflexivity | rewrite E3; vm_compute; reflexivity]]]]].
  - destruct (F4 (lit "prefix")) as (r & R1 & R2 & _). destruct (R2 VNone) as (v & V1 & V2); [right; exists prefix; cbn; auto | right; left; reflexivity|]. rewrite V2. f_equal. inversion V1 as [v' G T| v' G T|G T]; subst; [vm_compute in T; injection T as <-; reflexivity | |]; exfalso; apply G; exists prefix, (sv "/usr"); (split; [inl | reflexivity]).
  - destruct (F4 (lit "num_jobs")) as (r & R1 & R2 & _). destruct (R2 (VNum 1)) as (v & V1 & V2); [left; reflexivity | right; right; intros o v H C; cbn in H; intuition; match goal with X : (_, _) = (_, _) |- _ => injection X as <- <- end; cbn in *; contradiction|].
    rewrite V2. f_equal. inversion V1 as [v' G T| v' G T|G T]; subst; [vm_compute in T; injection T as <-; reflexivity | |]; exfalso; apply G; exists jobs, (VNum 2); (split; [inl | reflexivity]).
  - destruct (F4 (lit "random")) as (r & R1 & R2 & _).
    assert (R3 : script_says S1 kinds1 (rev h1) (lit "random") (Some (VBool true))). { cbn [rev h1 app]. apply says_other; [discriminate|]. apply says_other; [discriminate|]. apply says_set; [left; inl | reflexivity]. }
    rewrite (C61_script_one _ _ _ _ _ R1 _ R3) in R2. assert (NG : ~ given (lit "random") its1) by (intros (o & v & H & C); cbn in H; intuition; match goal with X : (_, _) = (_, _) |- _ => injection X as <- <- end; discriminate C).
    destruct (R2 (VBool false)) as (v & V1 & V2); [left; reflexivity | right; right; intros o v H C; exfalso; apply NG; exists o, v; auto|]. rewrite V2. f_equal. inversion V1 as [v' G T| v' G T|G T]; subst; [contradiction | congruence | discriminate].
  - destruct (F4 (lit "verbose")) as (r & R1 & R2 & _). destruct (R2 (VNum 0)) as (v & V1 & V2); [right; exists verbose; cbn; auto | right; right; intros o v H C; cbn in H; intuition; match goal with X : (_, _) = (_, _) |- _ => injection X as <- <- end; cbn in *; contradiction|].
    rewrite V2. f_equal. inversion V1 as [v' G T| v' G T|G T]; subst; [vm_compute in T; injection T as <-; reflexivity | |]; exfalso; apply G; exists verbose, VNone; (split; [inl | reflexivity]).
Qed.
Definition argv2 : list word := map lit ["prog"; "--unknown=3"; "-V"]%string.
Definition its2 : list item := [Plain (lit "prog"); Unknown (lit "--unknown=3"); Local FShort verbose VNone].
Theorem C61_case_unknown : exists p0 rest p l, start B1 D1 S1 argv2 = inl (p0, rest) /\ steps kinds1 p0 h1 = inl (p, l) /\ validate p = inr 2.
Proof.
  destruct C61_case as (PR & _ & _ & _).
  assert (LN : line B1 (added h1) argv2 its2).
  { change argv2 with [lit "prog"; long_eq (lit "unknown") (lit "3"); short ["V"%char]]. apply line_plain; [intros cs X; discriminate|].
    apply (line_unknown_eq _ _ (lit "unknown") (lit "3")); [cbn; intuition; discriminate | intros o H N; cbn in H; repeat (destruct H as [<-|H]); try contradiction; cbn in N; intuition; discriminate|]. apply line_local_short; [inl | inl | reflexivity|]. apply line_nil. }
  assert (ONE : one_form its2) by (intros f1 f2 o v1 v2 H1 H2; one).
  assert (ACC : accepted D1 h1 its2).
  { split.
    - intros o v H. cbn in H. intuition; match goal with X : (_, _) = (_, _) |- _ => injection X as <- <- end; discriminate.
    - intros d v0 [H|(o & Ho & <- & <-)].
      + apply D1_cases in H as Hi. cbn [map In] in Hi. repeat (destruct Hi as [<-|Hi]); try contradiction; vm_compute in H; injection H as <-; eexists; vm_compute; reflexivity.
      + cbn in Ho. destruct Ho as [<-|[<-|[]]]; eexists; vm_compute; reflexivity. }
  destruct (C61b_unknown _ _ _ _ _ _ _ PR LN ONE ACC) as (p0 & rest & p & l & E1 & E2 & E3 & _). exists p0, rest, p, l. split; [exact E1|]. split; [exact E2|]. apply E3. exists (lit "--unknown=3"). right. left. reflexivity.
Qed.
