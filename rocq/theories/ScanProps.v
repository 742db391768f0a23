(* C36: implicit-dependency scanning finds the whole include closure, each file once, and stops.  Specification first, then proofs. *)
From Coq Require Import List Arith Bool Lia Permutation Sorted.
From Verif Require Import ScanModel.
Import ListNotations.

(* ---- specification ---- *)
Section Spec.
Variable own_scanner : node -> option scanner.
Variable path_func : scanner -> path.
Variable found : node -> scanner -> path -> list node.
(* scanning starts at root: a file without a scanner of its own is scanned with the one of the root *)
Definition scanner_for (root n : node) : option scanner :=
  match own_scanner n with Some s => Some s | None => own_scanner root end.
(* u includes v *)
Definition includes (root u v : node) : Prop :=
  exists s, scanner_for root u = Some s /\ In v (found u s (path_func s)).
(* v is reached from the root by following includes through the files that are themselves to be scanned *)
Inductive reached (scanned : node -> Prop) (root : node) : node -> Prop :=
| reached_direct v : includes root root v -> reached scanned root v
| reached_via u v : reached scanned root u -> scanned u -> includes root u v -> reached scanned root v.
End Spec.
(* a memo of earlier scans of the same files holds what scanning gives *)
Definition memo_ok (found : node -> scanner -> path -> list node) (m : fmemo) : Prop :=
  forall n s p r, get fkey_eqb (n, s, p) m = Some r -> r = found n s p.
(* U is a finite set of files that includes stay in *)
Definition closed (own : node -> option scanner) (pf : scanner -> path) (found : node -> scanner -> path -> list node) (root : node)
  (U : list node) : Prop := In root U /\ forall u v, In u U -> includes own pf found root u v -> In v U.
(* all that is found from the files of U, with multiplicity *)
Definition volume (own : node -> option scanner) (pf : scanner -> path) (found : node -> scanner -> path -> list node) (root : node)
  (U : list node) : nat :=
  list_sum (map (fun u => match scanner_for own root u with Some s => length (found u s (pf s)) | None => 0 end) U).

(* ---- proofs ---- *)
Lemma mem_In x l : mem x l = true <-> In x l.
Proof.
  unfold mem. rewrite existsb_exists. split.
  - intros [y [H E]]. apply Nat.eqb_eq in E. subst. exact H.
  - intro H. exists x. split; [exact H | apply Nat.eqb_refl].
Qed.
Lemma mem_not x l : mem x l = false <-> ~ In x l.
Proof. rewrite <- mem_In. destruct (mem x l); split; congruence || (intros; exfalso; auto). Qed.
Lemma In_fresh x seen l : In x (filter (fun x => negb (mem x seen)) l) <-> In x l /\ ~ In x seen.
Proof. rewrite filter_In, negb_true_iff, mem_not. reflexivity. Qed.
Lemma fkey_eqb_eq a b : fkey_eqb a b = true <-> a = b.
Proof.
  destruct a as [[n s] p], b as [[n' s'] p']. unfold fkey_eqb. rewrite !andb_true_iff, !Nat.eqb_eq. split.
  - intros [[-> ->] ->]. reflexivity.
  - intro E. injection E as -> -> ->. auto.
Qed.

Lemma no_in_nil {A} (l : list A) : (forall x, ~ In x l) -> l = [].
Proof. destruct l as [|a l]; [reflexivity|]. intro H. destruct (H a). left. reflexivity. Qed.
Lemma firstn_In' {A} (x : A) : forall l i, In x (firstn i l) -> In x l.
Proof. induction l as [|a l IH]; intros [|i]; cbn [firstn In]; [tauto | tauto | tauto |]. intros [X|X]; [left; exact X | right; exact (IH _ X)]. Qed.
Lemma skipn_In' {A} (x : A) : forall l i, In x (skipn i l) -> In x l.
Proof. induction l as [|a l IH]; intros [|i]; cbn [skipn In]; [tauto | tauto | tauto |]. intro X. right. exact (IH _ X). Qed.
Lemma filter_len {A} (f : A -> bool) l : length (filter f l) <= length l.
Proof. induction l as [|a l IH]; cbn [filter length]; [lia|]. destruct (f a); cbn [length]; lia. Qed.
Lemma NoDup_app_intro {A} (l l' : list A) : NoDup l -> NoDup l' -> (forall x, In x l -> In x l' -> False) -> NoDup (l ++ l').
Proof.
  induction l as [|a l IH]; intros N N' D; [exact N'|]. cbn [app]. inversion N as [|? ? Ha Nl]; subst. constructor.
  - intro X. apply in_app_or in X. destruct X as [X|X]; [exact (Ha X) | exact (D a (or_introl eq_refl) X)].
  - apply IH; [exact Nl | exact N' | intros x X; apply D; right; exact X].
Qed.

Section P.
Variable own : node -> option scanner.
Variable follows : scanner -> node -> bool.
Variable pf : scanner -> path.
Variable found : node -> scanner -> path -> list node.
Notation inc := (includes own pf found).
Notation rch := (reached own pf found).

Definition pm_ok (pm : list (scanner * path)) : Prop := forall s p, get Nat.eqb s pm = Some p -> p = pf s.
Lemma get_path_ok s pm p pm' : pm_ok pm -> get_path pf s pm = (p, pm') -> p = pf s /\ pm_ok pm'.
Proof.
  intros H. unfold get_path. destruct (get Nat.eqb s pm) as [q|] eqn:E; intro X; injection X as <- <-.
  - split; [exact (H _ _ E) | exact H].
  - split; [reflexivity|]. intros s' p'. cbn [get]. destruct (Nat.eqb_spec s' s) as [->|N].
    + intro Y. injection Y as <-. reflexivity.
    + apply H.
Qed.
Lemma gfi_ok n s p m r m' : memo_ok found m -> get_found_includes found n s p m = (r, m') -> r = found n s p /\ memo_ok found m'.
Proof.
  intros H. unfold get_found_includes. destruct (get fkey_eqb (n, s, p) m) as [q|] eqn:E; intro X; injection X as <- <-.
  - split; [exact (H _ _ _ _ E) | exact H].
  - split; [reflexivity|]. intros n' s' p' r'. cbn [get]. destruct (fkey_eqb (n', s', p') (n, s, p)) eqn:K.
    + apply fkey_eqb_eq in K. injection K as -> -> ->. intro Y. injection Y as <-. reflexivity.
    + apply H.
Qed.

(* the loop without memos *)
Fixpoint plain (fuel : nat) (root : node) (nodes seen deps : list node) : option (list node) :=
  match nodes with
  | [] => Some deps
  | n :: rest =>
      match fuel with
      | 0 => None
      | S fuel =>
          match scanner_for own root n with
          | None => plain fuel root rest seen deps
          | Some s => let i := filter (fun x => negb (mem x seen)) (found n s (pf s)) in
                      plain fuel root (rest ++ filter (follows s) i) (seen ++ i) (deps ++ i)
          end
      end
  end.
Lemma get_scanner_for root n : get_scanner own n (get_scanner own root None) = scanner_for own root n.
Proof. unfold get_scanner, scanner_for. destruct (own n), (own root); reflexivity. Qed.
Lemma loop_plain root : forall fuel nodes seen deps pm m, pm_ok pm -> memo_ok found m ->
  match deps_loop own follows pf found fuel (get_scanner own root None) nodes seen deps pm m with
  | None => plain fuel root nodes seen deps = None
  | Some (d, m') => plain fuel root nodes seen deps = Some d /\ memo_ok found m'
  end.
Proof.
  induction fuel as [|fuel IH]; intros nodes seen deps pm m HP HM; destruct nodes as [|n rest]; cbn [deps_loop plain].
  - split; [reflexivity | exact HM].
  - reflexivity.
  - split; [reflexivity | exact HM].
  - rewrite get_scanner_for. destruct (scanner_for own root n) as [s|] eqn:ES.
    + destruct (get_path pf s pm) as [p pm'] eqn:EP. apply (get_path_ok _ _ _ _ HP) in EP. destruct EP as [-> HP'].
      destruct (get_found_includes found n s (pf s) m) as [r m'] eqn:EF. apply (gfi_ok _ _ _ _ _ _ HM) in EF. destruct EF as [-> HM'].
      cbn zeta. apply IH; assumption.
    + apply IH; assumption.
Qed.

Lemma plain_mono root : forall fuel nodes seen deps d, plain fuel root nodes seen deps = Some d ->
  forall fuel', fuel <= fuel' -> plain fuel' root nodes seen deps = Some d.
Proof.
  induction fuel as [|fuel IH]; intros nodes seen deps d H fuel' L; destruct nodes as [|n rest]; cbn [plain] in *.
  - destruct fuel'; exact H.
  - discriminate.
  - destruct fuel'; exact H.
  - destruct fuel' as [|fuel']; [lia|]. cbn [plain]. destruct (scanner_for own root n) as [s|]; apply IH with (2 := le_S_n _ _ L); exact H.
Qed.

(* termination *)
Section Term.
Variable root : node. Variable U : list node.
Hypothesis HU : closed own pf found root U.
Hypothesis NU : NoDup U.
Definition fsize (u : node) : nat := match scanner_for own root u with Some s => length (found u s (pf s)) | None => 0 end.
Definition left_of (done U : list node) : nat := list_sum (map (fun u => if mem u done then 0 else fsize u) U).
Lemma left_of_cons done v V : left_of done (v :: V) = (if mem v done then 0 else fsize v) + left_of done V.
Proof. reflexivity. Qed.
Lemma mem_other v n done : v <> n -> mem v (n :: done) = mem v done.
Proof. intro D. unfold mem. cbn [existsb]. destruct (Nat.eqb_spec v n) as [->|D']; [congruence | reflexivity]. Qed.
Lemma left_of_notin n : forall V done, ~ In n V -> left_of (n :: done) V = left_of done V.
Proof.
  induction V as [|v V IH]; intros done N; [reflexivity|]. cbn in N. rewrite !left_of_cons, IH by auto. rewrite mem_other by auto.
  reflexivity.
Qed.
Lemma left_of_in n : forall V done, NoDup V -> In n V -> mem n done = false -> left_of (n :: done) V + fsize n = left_of done V.
Proof.
  induction V as [|v V IH]; intros done ND HI HM; [destruct HI|].
  inversion ND as [|? ? Hv NDV]; subst. rewrite !left_of_cons.
  destruct (Nat.eq_dec v n) as [->|D].
  - rewrite left_of_notin by exact Hv. rewrite HM.
    replace (mem n (n :: done)) with true by (symmetry; apply mem_In; left; reflexivity). lia.
  - destruct HI as [X|HI]; [congruence|]. specialize (IH done NDV HI HM). rewrite mem_other by exact D. lia.
Qed.
Lemma plain_term : forall k nodes seen deps done,
  length nodes + left_of done U <= k ->
  incl nodes U -> (forall u, In u done -> forall v, inc root u v -> In v seen) ->
  exists d, plain k root nodes seen deps = Some d.
Proof.
  induction k as [|k IH]; intros nodes seen deps done L HN HD; destruct nodes as [|n rest]; cbn [plain].
  - eexists; reflexivity.
  - cbn in L. lia.
  - eexists; reflexivity.
  - assert (Hn : In n U) by (apply HN; left; reflexivity).
    assert (HR : incl rest U) by (intros x X; apply HN; right; exact X).
    cbn [length] in L.
    destruct (scanner_for own root n) as [s|] eqn:ES.
    + cbn zeta. set (i := filter (fun x => negb (mem x seen)) (found n s (pf s))).
      assert (HI : incl i U).
      { intros x X. apply In_fresh in X. destruct X as [X _]. apply (proj2 HU) with (1 := Hn). exists s. split; assumption. }
      apply IH with (done := n :: done).
      * rewrite app_length. pose proof (filter_len (follows s) i) as L1.
        destruct (mem n done) eqn:EM.
        { assert (EI : i = []).
          { apply no_in_nil. intros x X. apply In_fresh in X. destruct X as [X1 X2].
            apply X2. apply (HD n); [apply mem_In; exact EM|]. exists s. split; assumption. }
          rewrite EI. cbn [filter length].
          assert (EL : left_of (n :: done) U = left_of done U).
          { unfold left_of. f_equal. apply map_ext. intro u. replace (mem u (n :: done)) with (mem u done); [reflexivity|].
            unfold mem. cbn [existsb]. destruct (Nat.eqb_spec u n) as [->|D]; [exact EM | reflexivity]. }
          rewrite EL. lia. }
        { pose proof (left_of_in n U done NU Hn EM) as EL.
          assert (L2 : length i <= fsize n).
          { unfold fsize. rewrite ES. apply filter_len. }
          eapply Nat.le_trans; [apply Nat.add_le_mono_r, Nat.add_le_mono_l, L1|]. unfold node in *. lia. }
      * intros x X. apply in_app_or in X. destruct X as [X|X]; [apply HR; exact X|]. apply filter_In in X. apply HI, X.
      * intros u [<-|X] v IV.
        { destruct IV as [s' [E V]]. rewrite ES in E. injection E as <-. apply in_or_app.
          destruct (mem v seen) eqn:EM; [left; apply mem_In; exact EM | right]. apply In_fresh. split; [exact V | apply mem_not; exact EM]. }
        { apply in_or_app. left. exact (HD _ X _ IV). }
    + apply IH with (done := done); [lia | exact HR | exact HD].
Qed.
End Term.
(* soundness: everything returned is reached, with some scanner following *)
Lemma plain_sound root (Q : node -> Prop) :
  forall fuel nodes seen deps d, plain fuel root nodes seen deps = Some d ->
  (forall n, In n nodes -> n = root \/ (rch Q root n /\ Q n)) ->
  (forall n s, follows s n = true -> Q n) ->
  In root seen ->
  (forall x, In x deps -> rch Q root x /\ x <> root) -> forall x, In x d -> rch Q root x /\ x <> root.
Proof.
  induction fuel as [|fuel IH]; intros nodes seen deps d H HN HF HS HD; destruct nodes as [|n rest]; cbn [plain] in H.
  - injection H as <-. exact HD.
  - discriminate.
  - injection H as <-. exact HD.
  - assert (HR : forall m, In m rest -> m = root \/ (rch Q root m /\ Q m)) by (intros m X; apply HN; right; exact X).
    destruct (scanner_for own root n) as [s|] eqn:ES.
    + cbn zeta in H. set (i := filter (fun x => negb (mem x seen)) (found n s (pf s))) in *.
      assert (HI : forall x, In x i -> rch Q root x /\ x <> root).
      { intros x X. apply In_fresh in X. destruct X as [X1 X2].
        assert (IX : inc root n x) by (exists s; split; assumption).
        split; [|intros ->; auto]. destruct (HN n (or_introl eq_refl)) as [->|[R C]].
        - apply reached_direct, IX.
        - exact (reached_via _ _ _ _ _ _ _ R C IX). }
      apply IH with (1 := H).
      * intros m X. apply in_app_or in X. destruct X as [X|X]; [apply HR; exact X|]. apply filter_In in X. destruct X as [X F].
        right. split; [exact (proj1 (HI _ X)) | exact (HF _ _ F)].
      * exact HF.
      * apply in_or_app. left. exact HS.
      * intros x X. apply in_app_or in X. destruct X as [X|X]; [apply HD; exact X | apply HI; exact X].
    + apply IH with (1 := H); assumption.
Qed.
(* completeness *)
Lemma plain_deps root : forall fuel nodes seen deps d, plain fuel root nodes seen deps = Some d -> exists e, d = deps ++ e.
Proof.
  induction fuel as [|fuel IH]; intros nodes seen deps d H; destruct nodes as [|n rest]; cbn [plain] in H.
  - injection H as <-. exists []. rewrite app_nil_r. reflexivity.
  - discriminate.
  - injection H as <-. exists []. rewrite app_nil_r. reflexivity.
  - destruct (scanner_for own root n) as [s|].
    + cbn zeta in H. apply IH in H. destruct H as [e ->]. rewrite <- app_assoc. eexists. reflexivity.
    + apply IH in H. exact H.
Qed.
Lemma plain_complete root (scanned : node -> bool) :
  (forall u s v, scanner_for own root u = Some s -> In v (found u s (pf s)) -> follows s v = scanned v) ->
  forall fuel nodes seen deps d done, plain fuel root nodes seen deps = Some d ->
  (forall x, In x seen -> x = root \/ In x deps) ->
  (forall u v, In u done -> inc root u v -> In v seen) ->
  (forall x, In x deps -> scanned x = true -> In x done \/ In x nodes) ->
  (In root done \/ In root nodes) ->
  (forall u v, u = root \/ (In u d /\ scanned u = true) -> inc root u v -> v = root \/ In v d).
Proof.
  intro UNI.
  assert (END : forall seen deps done, (forall x, In x seen -> x = root \/ In x deps) ->
    (forall u v, In u done -> inc root u v -> In v seen) ->
    (forall x, In x deps -> scanned x = true -> In x done \/ In x (@nil node)) -> (In root done \/ In root (@nil node)) ->
    forall u v, u = root \/ (In u deps /\ scanned u = true) -> inc root u v -> v = root \/ In v deps).
  { intros seen deps done HS HC HD HR u v HU IV.
    assert (X : In u done).
    { destruct HU as [->|[A B]]; [destruct HR as [X|[]]; exact X | destruct (HD u A B) as [X|[]]; exact X]. }
    apply HS. exact (HC _ _ X IV). }
  induction fuel as [|fuel IH]; intros nodes seen deps d done H HS HC HD HR; destruct nodes as [|n rest]; cbn [plain] in H.
  - injection H as <-. exact (END _ _ _ HS HC HD HR).
  - discriminate.
  - injection H as <-. exact (END _ _ _ HS HC HD HR).
  - destruct (scanner_for own root n) as [s|] eqn:ES.
    + cbn zeta in H. set (i := filter (fun x => negb (mem x seen)) (found n s (pf s))) in *.
      apply IH with (1 := H) (done := n :: done).
      { intros x X. apply in_app_or in X. destruct X as [X|X].
        - destruct (HS x X) as [->|Y]; [left; reflexivity | right; apply in_or_app; left; exact Y].
        - right. apply in_or_app. right. exact X. }
      { intros u v [<-|HU] IV.
        - destruct IV as [s' [E V]]. rewrite ES in E. injection E as <-. apply in_or_app.
          destruct (mem v seen) eqn:EM; [left; apply mem_In; exact EM | right].
          apply In_fresh. split; [exact V | apply mem_not; exact EM].
        - apply in_or_app. left. exact (HC _ _ HU IV). }
      { intros x X F. apply in_app_or in X. destruct X as [X|X].
        - destruct (HD x X F) as [Y|[Y|Y]].
          + left. right. exact Y.
          + left. left. exact Y.
          + right. apply in_or_app. left. exact Y.
        - right. apply in_or_app. right. apply filter_In. split; [exact X|].
          apply In_fresh in X. rewrite (UNI _ _ _ ES (proj1 X)). exact F. }
      { destruct HR as [Y|[Y|Y]].
        + left. right. exact Y.
        + left. left. exact Y.
        + right. apply in_or_app. left. exact Y. }
    + apply IH with (1 := H) (done := n :: done).
      { exact HS. }
      { intros u v [<-|HU] IV; [|exact (HC _ _ HU IV)]. destruct IV as [s' [E V]]. rewrite ES in E. discriminate. }
      { intros x X F. destruct (HD x X F) as [Y|[Y|Y]]; [left; right; exact Y | left; left; exact Y | right; exact Y]. }
      { destruct HR as [Y|[Y|Y]]; [left; right; exact Y | left; left; exact Y | right; exact Y]. }
Qed.
Lemma plain_nodup root : (forall u s, scanner_for own root u = Some s -> NoDup (found u s (pf s))) ->
  forall fuel nodes seen deps d, plain fuel root nodes seen deps = Some d ->
  NoDup deps -> incl deps seen -> NoDup d.
Proof.
  intro ND. induction fuel as [|fuel IH]; intros nodes seen deps d H N1 N2; destruct nodes as [|n rest]; cbn [plain] in H.
  - injection H as <-. exact N1.
  - discriminate.
  - injection H as <-. exact N1.
  - destruct (scanner_for own root n) as [s|] eqn:ES; [|exact (IH _ _ _ _ H N1 N2)].
    cbn zeta in H. apply IH with (1 := H).
    + apply NoDup_app_intro; [exact N1 | apply NoDup_filter, (ND _ _ ES) |].
      intros x X Y. apply In_fresh in Y. exact (proj2 Y (N2 _ X)).
    + intros x X. apply in_app_or in X. apply in_or_app. destruct X as [X|X]; [left; apply N2; exact X | right; exact X].
Qed.
End P.

Lemma gid_plain own follows pf found fuel root m d m' : memo_ok found m ->
  get_implicit_deps own follows pf found fuel root m = Some (d, m') ->
  plain own follows pf found fuel root [root] [root] [] = Some d /\ memo_ok found m'.
Proof.
  intros HM H. unfold get_implicit_deps in H.
  pose proof (loop_plain own follows pf found root fuel [root] [root] [] [] m) as L. rewrite H in L. apply L; [|exact HM].
  intros s p. cbn. discriminate.
Qed.

(* The files scanned are a finite set (U, without repetition): the scan ends, however the files include each other. *)
Theorem C36a_terminates : forall own follows pf found root U m,
  NoDup U -> closed own pf found root U -> memo_ok found m ->
  forall fuel, 1 + volume own pf found root U <= fuel ->
  exists d m', get_implicit_deps own follows pf found fuel root m = Some (d, m').
Proof.
  intros own follows pf found root U m NU HU HM fuel L.
  assert (E : left_of own pf found root [] U = volume own pf found root U) by reflexivity.
  destruct (plain_term own follows pf found root U HU NU (1 + volume own pf found root U) [root] [root] [] []) as [d HD].
  - rewrite E. cbn [length]. lia.
  - intros x [<-|[]]. exact (proj1 HU).
  - intros u [].
  - apply (plain_mono _ _ _ _ _ _ _ _ _ _ HD) in L.
    pose proof (loop_plain own follows pf found root fuel [root] [root] [] [] m) as LP. unfold get_implicit_deps.
    destruct (deps_loop own follows pf found fuel (get_scanner own root None) [root] [root] [] [] m) as [[d' m']|].
    + exists d', m'. reflexivity.
    + exfalso. rewrite LP in L; [discriminate | intros s p X; discriminate X | exact HM].
Qed.

(* The result is exactly the set of files reached from the root (the root itself excepted), when whether a file is to be scanned
   in turn does not depend on which file includes it. *)
Theorem C36_closure : forall own follows pf found root (scanned : node -> bool) m fuel d m',
  (forall u s v, scanner_for own root u = Some s -> In v (found u s (pf s)) -> follows s v = scanned v) ->
  memo_ok found m ->
  get_implicit_deps own follows pf found fuel root m = Some (d, m') ->
  forall v, In v d <-> v <> root /\ reached own pf found (fun u => scanned u = true) root v.
Proof.
  intros own follows pf found root scanned m fuel d m' UNI HM H. apply gid_plain in H; [|exact HM]. destruct H as [H _]. intro v. split.
  - (* soundness: restrict follows to what is asked *)
    intro V.
    assert (X : plain own (fun _ => scanned) pf found fuel root [root] [root] [] = Some d).
    { rewrite <- H. clear H V.
      cut (forall l seen deps, plain own (fun _ => scanned) pf found fuel root l seen deps = plain own follows pf found fuel root l seen deps);
        [intro G; apply G|].
      induction fuel as [|fuel IH]; intros l seen deps; destruct l as [|n rest]; cbn [plain]; try reflexivity.
      destruct (scanner_for own root n) as [s|] eqn:ES; [|apply IH]. cbn zeta. rewrite <- IH. f_equal. f_equal.
      assert (G : forall l, (forall x, In x l -> In x (found n s (pf s))) -> filter scanned l = filter (follows s) l).
      { induction l as [|x l IHl]; intro HL; [reflexivity|]. cbn [filter]. rewrite (UNI n s x ES) by (apply HL; left; reflexivity).
        rewrite IHl by (intros y Y; apply HL; right; exact Y). reflexivity. }
      apply G. intros x X. apply In_fresh in X. exact (proj1 X). }
    assert (R : reached own pf found (fun u => scanned u = true) root v /\ v <> root).
    { eapply (plain_sound own (fun _ => scanned) pf found root (fun u => scanned u = true)) with (1 := X).
      - intros n [<-|[]]. left. reflexivity.
      - intros n s F. exact F.
      - left. reflexivity.
      - intros x [].
      - exact V. }
    split; apply R.
  - intros [N R].
    assert (C : forall u v, u = root \/ (In u d /\ scanned u = true) -> includes own pf found root u v -> v = root \/ In v d).
    { apply (plain_complete own follows pf found root scanned UNI fuel [root] [root] [] d [] H).
      - intros x [<-|[]]. left. reflexivity.
      - intros u w [].
      - intros x [].
      - right. left. reflexivity. }
    assert (G : forall w, reached own pf found (fun u => scanned u = true) root w -> w = root \/ In w d).
    { intros w RW. induction RW as [w IW | u w RU IH SU IW].
      - exact (C root w (or_introl eq_refl) IW).
      - destruct IH as [->|IH]; [exact (C root w (or_introl eq_refl) IW) | exact (C u w (or_intror (conj IH SU)) IW)]. }
    destruct (G v R) as [X|X]; [contradiction | exact X].
Qed.

(* In general (scanners may disagree on what to scan in turn): everything returned is reached, and the files the root includes
   come first, in the order found. *)
Theorem C36b_general : forall own follows pf found root m fuel d m',
  memo_ok found m ->
  get_implicit_deps own follows pf found fuel root m = Some (d, m') ->
  (forall v, In v d -> v <> root /\ reached own pf found (fun u => exists s, follows s u = true) root v)
  /\ exists direct rest, d = direct ++ rest
     /\ direct = match own root with Some s => filter (fun x => negb (x =? root)) (found root s (pf s)) | None => [] end
     /\ memo_ok found m'.
Proof.
  intros own follows pf found root m fuel d m' HM H. apply gid_plain in H; [|exact HM]. destruct H as [H HM']. split.
  - intros v V.
    assert (R : reached own pf found (fun u => exists s, follows s u = true) root v /\ v <> root).
    { eapply (plain_sound own follows pf found root (fun u => exists s, follows s u = true)) with (1 := H).
      - intros n [<-|[]]. left. reflexivity.
      - intros n s F. exists s. exact F.
      - left. reflexivity.
      - intros x [].
      - exact V. }
    split; apply R.
  - destruct fuel as [|fuel]; cbn [plain] in H; [discriminate|]. unfold scanner_for in H at 1.
    assert (ER : match own root with Some s => Some s | None => own root end = own root) by (destruct (own root); reflexivity).
    rewrite ER in H. destruct (own root) as [s|] eqn:EO.
    + cbn zeta in H. apply plain_deps in H. destruct H as [e ->]. eexists _, e. split; [reflexivity|]. split; [|exact HM'].
      cbn [app]. apply filter_ext. intro x. unfold mem. cbn [existsb]. rewrite orb_false_r. reflexivity.
    + destruct fuel; cbn [plain] in H; injection H as <-; exists [], []; repeat split; assumption || reflexivity.
Qed.

(* Each file is listed once, when no single scan lists a file twice. *)
Theorem C36c_each_once : forall own follows pf found root m fuel d m',
  (forall u s, scanner_for own root u = Some s -> NoDup (found u s (pf s))) ->
  memo_ok found m ->
  get_implicit_deps own follows pf found fuel root m = Some (d, m') -> NoDup d.
Proof.
  intros own follows pf found root m fuel d m' ND HM H. apply gid_plain in H; [|exact HM]. destruct H as [H _].
  apply (plain_nodup own follows pf found root ND fuel [root] [root] [] d H); [constructor | intros x []].
Qed.

(* What was scanned before, in whatever order, does not matter. *)
Theorem C36d_history : forall own follows pf found root m1 m2 fuel,
  memo_ok found m1 -> memo_ok found m2 ->
  option_map fst (get_implicit_deps own follows pf found fuel root m1) = option_map fst (get_implicit_deps own follows pf found fuel root m2).
Proof.
  intros own follows pf found root m1 m2 fuel H1 H2. unfold get_implicit_deps.
  pose proof (loop_plain own follows pf found root fuel [root] [root] [] [] m1) as L1.
  pose proof (loop_plain own follows pf found root fuel [root] [root] [] [] m2) as L2.
  assert (P0 : pm_ok pf []) by (intros s p X; discriminate X). specialize (L1 P0 H1). specialize (L2 P0 H2).
  destruct (deps_loop own follows pf found fuel (get_scanner own root None) [root] [root] [] [] m1) as [[d1 m1']|];
    destruct (deps_loop own follows pf found fuel (get_scanner own root None) [root] [root] [] [] m2) as [[d2 m2']|]; cbn [option_map fst].
  - destruct L1 as [L1 _], L2 as [L2 _]. rewrite L1 in L2. injection L2 as ->. reflexivity.
  - destruct L1 as [L1 _]. congruence.
  - destruct L2 as [L2 _]. congruence.
  - reflexivity.
Qed.

Lemma add_child_spec : forall child coll, NoDup coll ->
  NoDup (add_child coll child) /\ (forall x, In x (add_child coll child) <-> In x coll \/ In x child)
  /\ exists e, add_child coll child = coll ++ e.
Proof.
  induction child as [|c r IH]; intros coll N; cbn [add_child].
  - repeat split; [exact N | tauto | intros [X|[]]; exact X | exists []; rewrite app_nil_r; reflexivity].
  - destruct (mem c coll) eqn:E.
    + destruct (IH coll N) as [A [B C]]. repeat split; [exact A | | | exact C].
      * intro X. apply B in X. cbn [In]. tauto.
      * intros [X|[<-|X]]; apply B; [left; exact X | left; apply mem_In; exact E | right; exact X].
    + assert (N' : NoDup (coll ++ [c])).
      { apply NoDup_app_intro; [exact N | constructor; [intros []|constructor] |].
        intros x X [<-|[]]. apply mem_not in E. exact (E X). }
      destruct (IH _ N') as [A [B [e C]]]. repeat split; [exact A | | |].
      * intro X. apply B in X. rewrite in_app_iff in X. cbn [In] in *. tauto.
      * intro X. apply B. rewrite in_app_iff. cbn [In] in *. tauto.
      * exists (c :: e). rewrite C, <- app_assoc. reflexivity.
Qed.

Section Whole.
Variable follows : scanner -> node -> bool.
Variable pf : scanner -> path.
Variable found : node -> scanner -> path -> list node.
(* what scanning the files l with scanners own gives *)
Definition from_files (own : node -> option scanner) (scanned : node -> bool) (l : list node) (x : node) : Prop :=
  exists n, In n l /\ x <> n /\ reached own pf found (fun u => scanned u = true) n x.
Definition uniform (own : node -> option scanner) (scanned : node -> bool) : Prop :=
  forall root u s v, scanner_for own root u = Some s -> In v (found u s (pf s)) -> follows s v = scanned v.

Lemma scan_nodes_spec own scanned fuel : uniform own scanned -> forall l m d m', memo_ok found m ->
  scan_nodes own follows pf found fuel l m = Some (d, m') ->
  memo_ok found m' /\ forall x, In x d <-> from_files own scanned l x.
Proof.
  intro UNI. induction l as [|n r IH]; intros m d m' HM H; cbn [scan_nodes] in H.
  - injection H as <- <-. split; [exact HM|]. intro x. split; [intros [] | intros [n [[] _]]].
  - destruct (get_implicit_deps own follows pf found fuel n m) as [[d1 m1]|] eqn:E1; [|discriminate].
    destruct (scan_nodes own follows pf found fuel r m1) as [[d2 m2]|] eqn:E2; [|discriminate]. injection H as <- <-.
    pose proof (C36_closure own follows pf found n scanned m fuel d1 m1 (UNI n) HM E1) as C.
    apply gid_plain in E1; [|exact HM]. destruct E1 as [_ HM1]. destruct (IH _ _ _ HM1 E2) as [HM2 C2].
    split; [exact HM2|]. intro x. rewrite in_app_iff, C, C2. split.
    + intros [X|[k [K1 K2]]]; [exists n; split; [left; reflexivity | exact X] | exists k; split; [right; exact K1 | exact K2]].
    + intros [k [[<-|K1] K2]]; [left; exact K2 | right; exists k; split; assumption].
Qed.
Lemma executor_scan_spec own scanned fuel : uniform own scanned -> forall cmd l is m is' m', memo_ok found m ->
  executor_scan own follows pf found fuel cmd l is m = Some (is', m') ->
  memo_ok found m' /\ exists d, (forall x, In x d <-> from_files own scanned l x \/ In x cmd) /\ is' = map (fun i => add_to_implicit i d) is.
Proof.
  intros UNI cmd l is m is' m' HM H. unfold executor_scan in H.
  destruct (scan_nodes own follows pf found fuel l m) as [[d m1]|] eqn:E; [|discriminate]. injection H as <- <-.
  destruct (scan_nodes_spec own scanned fuel UNI _ _ _ _ HM E) as [HM' C]. split; [exact HM'|]. exists (d ++ cmd). split; [|reflexivity].
  intro x. rewrite in_app_iff, C. reflexivity.
Qed.
End Whole.

(* Node.scan of one target of an executor with nothing scanned before: afterwards every target of the executor has the same set of
   implicit dependencies, each once: what is reached from the sources with the source scanner, and from the targets with the target
   scanner if there is one, and the nodes of the commands. *)
Theorem C36e_scan_targets : forall found pf follows src_own tgt_own s_scanned t_scanned fuel has_tscan sources targets cmd_deps stored keep i is m is' m',
  uniform follows pf found src_own s_scanned -> uniform follows pf found tgt_own t_scanned -> memo_ok found m ->
  i < length is -> (forall o, In o is -> o = None) ->
  (stored = None \/ keep = false) ->
  node_scan found pf follows src_own tgt_own fuel true has_tscan sources targets cmd_deps stored keep i is m = Some (is', m') ->
  length is' = length is /\
  forall j, j < length is -> j = i \/ sources <> [] \/ has_tscan = true \/ stored <> None ->
  exists l, nth j is' None = Some l /\ NoDup l /\
  forall x, In x l <-> (sources <> [] /\ (from_files pf found src_own s_scanned sources x \/ In x cmd_deps))
                       \/ (has_tscan = true /\ (from_files pf found tgt_own t_scanned targets x \/ In x cmd_deps)).
Proof.
  intros found pf follows src_own tgt_own ss ts fuel has_tscan sources targets cmd_deps stored keep i is m is' m' US UT HM LI HN HK H.
  unfold node_scan in H.
  assert (Ei : nth i is None = None) by (apply HN, nth_In; exact LI). rewrite Ei in H. cbn [negb] in H.
  set (is0 := firstn i is ++ Some [] :: skipn (S i) is) in *.
  assert (L0 : length is0 = length is).
  { unfold is0. rewrite app_length. cbn [length]. rewrite firstn_length, skipn_length. lia. }
  assert (V0 : forall j, j < length is -> nth j is0 None = if j =? i then Some [] else None).
  { intros j Lj. unfold is0. destruct (Nat.eqb_spec j i) as [->|D].
    - rewrite app_nth2 by (rewrite firstn_length; lia). rewrite firstn_length.
      replace (i - Nat.min i (length is)) with 0 by lia. reflexivity.
    - assert (X : forall o, In o (firstn i is) \/ In o (skipn (S i) is) -> o = None).
      { intros o [O|O]; apply HN; [exact (firstn_In' _ _ _ O) | exact (skipn_In' _ _ _ O)]. }
      destruct (nth_in_or_default j (firstn i is ++ Some [] :: skipn (S i) is) None) as [Y|Y]; [|exact Y].
      destruct (Nat.lt_ge_cases j i) as [Lt|Ge].
      + rewrite app_nth1 by (rewrite firstn_length; lia). apply X. left. apply nth_In. rewrite firstn_length. lia.
      + rewrite app_nth2 by (rewrite firstn_length; lia). rewrite firstn_length. replace (j - Nat.min i (length is)) with (S (j - i - 1)) by lia.
        cbn [nth]. apply X. right. apply nth_In. rewrite skipn_length. lia. }
  (* the two scans from a list of implicit attributes *)
  assert (FULL : forall isx, length isx = length is ->
    (forall j, j < length is -> nth j isx None = None \/ nth j isx None = Some []) ->
    match (match sources with [] => Some (isx, m) | _ => executor_scan src_own follows pf found fuel cmd_deps sources isx m end) with
    | None => None
    | Some (is, m) => if has_tscan then executor_scan tgt_own follows pf found fuel cmd_deps targets is m else Some (is, m)
    end = Some (is', m') ->
    length is' = length is /\ forall j, j < length is -> nth j isx None = Some [] \/ sources <> [] \/ has_tscan = true ->
      exists l, nth j is' None = Some l /\ NoDup l /\
      forall x, In x l <-> (sources <> [] /\ (from_files pf found src_own ss sources x \/ In x cmd_deps))
                       \/ (has_tscan = true /\ (from_files pf found tgt_own ts targets x \/ In x cmd_deps))).
  { intros isx LX VX HX.
    (* first scan *)
    assert (S1 : exists is1 m1, memo_ok found m1 /\ length is1 = length is /\
      (if has_tscan then executor_scan tgt_own follows pf found fuel cmd_deps targets is1 m1 else Some (is1, m1)) = Some (is', m') /\
      forall j, j < length is ->
        (nth j is1 None = None /\ nth j isx None = None /\ sources = []) \/
        exists l, nth j is1 None = Some l /\ NoDup l /\
          forall x, In x l <-> sources <> [] /\ (from_files pf found src_own ss sources x \/ In x cmd_deps)).
    { destruct sources as [|s0 sr].
      - exists isx, m. repeat split; [exact HM | exact LX | exact HX |]. intros j Lj. destruct (VX j Lj) as [V|V].
        + left. auto.
        + right. exists []. split; [exact V|]. split; [apply NoDup_nil|]. intro x. split; [intros [] | intros [X _]; destruct X; reflexivity].
      - destruct (executor_scan src_own follows pf found fuel cmd_deps (s0 :: sr) isx m) as [[is1 m1]|] eqn:E1; [|discriminate].
        destruct (executor_scan_spec follows pf found src_own ss fuel US _ _ _ _ _ _ HM E1) as [HM1 [d [HD ->]]].
        exists (map (fun i => add_to_implicit i d) isx), m1. repeat split; [exact HM1 | rewrite map_length; exact LX | exact HX |].
        intros j Lj. right.
        assert (Y : nth j (map (fun i => add_to_implicit i d) isx) None = add_to_implicit (nth j isx None) d).
        { rewrite nth_indep with (d' := add_to_implicit None d) by (rewrite map_length; lia).
          exact (map_nth (fun i => add_to_implicit i d) isx None j). }
        assert (Z : add_to_implicit (nth j isx None) d = Some (add_child [] d)) by (destruct (VX j Lj) as [V|V]; rewrite V; reflexivity).
        destruct (add_child_spec d [] (NoDup_nil _)) as [A [B _]].
        exists (add_child [] d). split; [etransitivity; [exact Y | exact Z]|]. split; [exact A|]. intro x. split.
        + intro X. split; [discriminate|]. apply HD. destruct (proj1 (B x) X) as [[]|X']. exact X'.
        + intros [_ X]. apply B. right. apply HD. exact X. }
    destruct S1 as [is1 [m1 [HM1 [L1 [H1 V1]]]]]. destruct has_tscan.
    - destruct (executor_scan_spec follows pf found tgt_own ts fuel UT _ _ _ _ _ _ HM1 H1) as [_ [d [HD ->]]].
      split; [rewrite map_length; exact L1|]. intros j Lj _.
      assert (Y : nth j (map (fun i => add_to_implicit i d) is1) None = add_to_implicit (nth j is1 None) d).
      { rewrite nth_indep with (d' := add_to_implicit None d) by (rewrite map_length; lia).
        exact (map_nth (fun i => add_to_implicit i d) is1 None j). }
      destruct (V1 j Lj) as [[V [_ SE]]|[l [V [NL CL]]]]; rewrite V in Y; unfold add_to_implicit in Y.
      + destruct (add_child_spec d [] (NoDup_nil _)) as [A [B _]]. eexists. split; [exact Y|]. split; [exact A|].
        intro x. rewrite B, HD. cbn [In]. intuition congruence.
      + destruct (add_child_spec d l NL) as [A [B _]]. eexists. split; [exact Y|]. split; [exact A|].
        intro x. rewrite B, HD, CL. intuition.
    - injection H1 as -> ->. split; [exact L1|]. intros j Lj C.
      destruct (V1 j Lj) as [[V [V2 SE]]|[l [V [NL CL]]]].
      + exfalso. rewrite V2 in C. destruct C as [C|[C|C]]; [discriminate | contradiction | discriminate].
      + exists l. repeat split; [exact V | exact NL | |]; intro X.
        * left. apply CL. exact X.
        * apply CL. destruct X as [X|[X _]]; [exact X | discriminate]. }
  destruct stored as [st|].
  - destruct HK as [HK | ->]; [discriminate|].
    destruct (FULL (map (fun _ => Some []) is0)) as [F1 F2].
    + rewrite map_length. exact L0.
    + intros j Lj. right. rewrite nth_indep with (d' := (fun _ : option (list node) => Some []) None) by (rewrite map_length; lia).
      exact (map_nth (fun _ : option (list node) => Some []) is0 None j).
    + exact H.
    + split; [exact F1|]. intros j Lj _. apply F2; [exact Lj|]. left.
      rewrite nth_indep with (d' := (fun _ : option (list node) => Some []) None) by (rewrite map_length; lia).
      exact (map_nth (fun _ : option (list node) => Some []) is0 None j).
  - destruct (FULL is0) as [F1 F2].
    + exact L0.
    + intros j Lj. rewrite (V0 j Lj). destruct (j =? i); auto.
    + exact H.
    + split; [exact F1|]. intros j Lj C. apply F2; [exact Lj|]. destruct C as [->|[C|[C|C]]].
      * left. rewrite V0 by exact Lj. rewrite Nat.eqb_refl. reflexivity.
      * right. left. exact C.
      * right. right. exact C.
      * contradiction.
Qed.

(* ---- Classic scanners: the include names are cached in the file node ---- *)
Lemma insert_perm x l : Permutation (x :: l) (insert x l).
Proof.
  induction l as [|y l IH]; cbn [insert]; [reflexivity|]. destruct (fst x <=? fst y); [reflexivity|].
  rewrite perm_swap. constructor. exact IH.
Qed.
Lemma sort_perm l : Permutation l (sort l).
Proof. induction l as [|x l IH]; [reflexivity|]. cbn [sort fold_right]. rewrite <- insert_perm. constructor. exact IH. Qed.
Definition keyle (a b : nat * node) : Prop := fst a <= fst b.
Lemma insert_sorted x l : StronglySorted keyle l -> StronglySorted keyle (insert x l).
Proof.
  induction l as [|y l IH]; intro H; cbn [insert]; [constructor; [exact H | constructor]|].
  inversion H as [|? ? H1 H2]; subst. destruct (fst x <=? fst y) eqn:E.
  - apply Nat.leb_le in E. constructor; [exact H|]. constructor; [exact E|].
    eapply Forall_impl; [|exact H2]. intros z Z. unfold keyle in *. lia.
  - apply Nat.leb_gt in E. constructor; [exact (IH H1)|]. eapply Permutation_Forall; [apply insert_perm|]. constructor; [unfold keyle; lia | exact H2].
Qed.
Lemma sort_sorted l : StronglySorted keyle (sort l).
Proof. induction l as [|x l IH]; [constructor|]. cbn [sort fold_right]. apply insert_sorted, IH. Qed.
Lemma sorted_unique : forall l l', StronglySorted keyle l -> StronglySorted keyle l' -> Permutation l l' ->
  (forall a b, In a l -> In b l -> fst a = fst b -> a = b) -> l = l'.
Proof.
  induction l as [|a l IH]; intros l' H1 H2 P Q.
  - apply Permutation_nil in P. congruence.
  - destruct l' as [|b l']; [apply Permutation_sym, Permutation_nil in P; discriminate|].
    inversion H1 as [|? ? S1 F1]; subst. inversion H2 as [|? ? S2 F2]; subst.
    assert (Ib : In b (a :: l)) by (apply (Permutation_in b (Permutation_sym P)); left; reflexivity).
    assert (Ia : In a (b :: l')) by (apply (Permutation_in a P); left; reflexivity).
    assert (E : a = b).
    { apply Q; [left; reflexivity | exact Ib |].
      assert (X : keyle a b) by (destruct Ib as [->|X]; [unfold keyle; lia | exact (proj1 (Forall_forall _ _) F1 _ X)]).
      assert (Y : keyle b a) by (destruct Ia as [->|Y]; [unfold keyle; lia | exact (proj1 (Forall_forall _ _) F2 _ Y)]).
      unfold keyle in *. lia. }
    subst b. f_equal. apply IH; [exact S1 | exact S2 | exact (Permutation_cons_inv P) |].
    intros x y X Y. apply Q; right; assumption.
Qed.
Lemma located_In locate key s n p : forall l k f, In (k, f) (located locate key s n p l) <-> exists i, In i l /\ locate s n p i = Some f /\ k = key s i.
Proof.
  induction l as [|i l IH]; intros k f; cbn [located].
  - split; [intros [] | intros [i [[] _]]].
  - destruct (locate s n p i) as [g|] eqn:E.
    + cbn [In]. rewrite IH. split.
      * intros [X|[j [J1 J2]]]; [injection X as <- <-; exists i; auto | exists j; auto].
      * intros [j [[<-|J1] [J2 J3]]]; [left; rewrite E in J2; injection J2 as <-; rewrite J3; reflexivity | right; exists j; auto].
    + rewrite IH. split.
      * intros [j [J1 J2]]. exists j. split; [right; exact J1 | exact J2].
      * intros [j [[<-|J1] [J2 J3]]]; [congruence | exists j; auto].
Qed.
Lemma located_perm locate key s n p : forall l l', Permutation l l' -> Permutation (located locate key s n p l) (located locate key s n p l').
Proof.
  induction 1 as [|x l l' P IH|x y l|l l' l'' P1 IH1 P2 IH2]; cbn [located].
  - reflexivity.
  - destruct (locate s n p x); [constructor|]; exact IH.
  - destruct (locate s n p x), (locate s n p y); reflexivity || apply perm_swap.
  - etransitivity; eassumption.
Qed.
(* One scan of a file by a Classic scanner: exactly the files its include names are found as, in the order of the names' sort keys and
   whatever the order of the include lines; the names may have been cached by an earlier scan by a scanner that reads the same names. *)
Theorem C36f_classic_scan : forall names locate key s n p m,
  (get Nat.eqb n m = None \/ get Nat.eqb n m = Some (names s n)) ->
  (forall i j, key s i = key s j -> i = j) ->
  let r := fst (classic_scan names locate key s n p m) in
  (forall f, In f r <-> exists i, In i (names s n) /\ locate s n p i = Some f)
  /\ (forall names' m', Permutation (names' s n) (names s n) -> (get Nat.eqb n m' = None \/ get Nat.eqb n m' = Some (names' s n)) ->
        fst (classic_scan names' locate key s n p m') = r)
  /\ get Nat.eqb n (snd (classic_scan names locate key s n p m)) = Some (names s n).
Proof.
  intros names locate key s n p m HM KI r.
  assert (R : forall names m, (get Nat.eqb n m = None \/ get Nat.eqb n m = Some (names s n)) ->
              fst (classic_scan names locate key s n p m) = map snd (sort (located locate key s n p (names s n)))
              /\ get Nat.eqb n (snd (classic_scan names locate key s n p m)) = Some (names s n)).
  { intros nm mm [E|E]; unfold classic_scan; rewrite E; cbn [fst snd get]; [rewrite Nat.eqb_refl; auto | auto]. }
  destruct (R names m HM) as [R1 R2]. repeat split; [| | | exact R2].
  - intro F. unfold r in F. rewrite R1 in F. apply in_map_iff in F. destruct F as [[k g] [<- X]].
    apply (Permutation_in _ (Permutation_sym (sort_perm _))) in X. apply located_In in X. destruct X as [i [I1 [I2 _]]]. exists i. auto.
  - intros [i [I1 I2]]. unfold r. rewrite R1. apply in_map_iff. exists (key s i, f). split; [reflexivity|].
    apply (Permutation_in _ (sort_perm _)). apply located_In. exists i. auto.
  - intros names' m' P HM'. unfold r. rewrite R1, (proj1 (R names' m' HM')). f_equal.
    apply sorted_unique; [apply sort_sorted | apply sort_sorted | |].
    + rewrite <- !sort_perm. apply located_perm, P.
    + intros [k f] [k' f'] X Y. cbn [fst]. intros <-.
      apply (Permutation_in _ (Permutation_sym (sort_perm _))), located_In in X. destruct X as [i [_ [X1 X2]]].
      apply (Permutation_in _ (Permutation_sym (sort_perm _))), located_In in Y. destruct Y as [j [_ [Y1 Y2]]].
      assert (i = j) by (apply KI; congruence). subst j. congruence.
Qed.

(* ---- where the unrestricted claims fail ---- *)
(* two scanners, one of which does not recurse: file 3 is never scanned, although file 2's scanner would, so file 4 is missed.
   root 0 includes 2 and 3 (scanner 0, which follows only 2); 2 includes 3 (scanner 1, follows everything); 3 includes 4 *)
Theorem C36_mixed_refuted :
  let own (n : node) := Some (if n =? 0 then 0 else 1) in
  let follows (s : scanner) (n : node) := if s =? 0 then n =? 2 else true in
  let found (n : node) (s : scanner) (p : path) := match n with 0 => [2; 3] | 2 => [3] | 3 => [4] | _ => [] end in
  get_implicit_deps own follows (fun _ => 0) found 10 0 [] =
    Some ([2; 3], [((2, 1, 0), [3]); ((0, 0, 0), [2; 3])])
  /\ includes own (fun _ => 0) found 0 2 3 /\ follows 1 3 = true /\ includes own (fun _ => 0) found 0 3 4.
Proof.
  cbv zeta. split; [reflexivity|]. split; [exists 1; split; [reflexivity | left; reflexivity]|]. split; [reflexivity|].
  exists 1. split; [reflexivity | left; reflexivity].
Qed.
(* a scanner that lists a file twice has it twice in the result of the scan (the targets' lists have it once, C36e) *)
Theorem C36_twice_refuted :
  option_map fst (get_implicit_deps (fun _ => Some 0) (fun _ _ => true) (fun _ => 0) (fun n _ _ => match n with 0 => [1; 1] | _ => [] end) 9 0 [])
  = Some [1; 1].
Proof. reflexivity. Qed.
(* a target without sources and without a target scanner: the nodes of its commands are not among its dependencies *)
Theorem C36_no_sources_refuted : forall found pf follows own cmd,
  node_scan found pf follows own own 9 true false [] [7] [cmd] None false 0 [None] [] = Some ([Some []], []).
Proof. reflexivity. Qed.
(* the names cached by a scanner of another language are taken for one's own *)
Theorem C36_includes_cache_refuted :
  let names (s : scanner) (n : node) := if s =? 0 then [5] else [6] in
  let locate (s : scanner) (n : node) (p : path) (i : nat) := Some i in
  let key (s : scanner) (i : nat) := i in
  let after := snd (classic_scan names locate key 0 1 0 []) in
  fst (classic_scan names locate key 1 1 0 []) = [6] /\ fst (classic_scan names locate key 1 1 0 after) = [5].
Proof. split; reflexivity. Qed.

(* non-vacuity: a cyclic include graph 0 -> 1 -> 2 -> 0, 2 -> 3 *)
Example C36_witness :
  let own (n : node) := Some 0 in let follows (s : scanner) (n : node) := true in
  let found (n : node) (s : scanner) (p : path) := match n with 0 => [1] | 1 => [2] | 2 => [0; 3] | _ => [] end in
  closed own (fun _ => 0) found 0 [0; 1; 2; 3] /\ NoDup [0; 1; 2; 3] /\ memo_ok found []
  /\ uniform follows (fun _ => 0) found own (fun _ => true)
  /\ option_map fst (get_implicit_deps own follows (fun _ => 0) found 5 0 []) = Some [1; 2; 3]
  /\ option_map fst (node_scan found (fun _ => 0) follows own own 9 true true [1] [7; 8] [9] None false 1 [None; None] [])
     = Some [Some [2; 0; 3; 9]; Some [2; 0; 3; 9]].
Proof.
  cbv zeta. repeat split.
  - left. reflexivity.
  - intros u v U [s [_ V]]. cbn in U, V. cbn. destruct U as [<-|[<-|[<-|[<-|[]]]]]; cbn in V; tauto.
  - repeat constructor; cbn; intuition congruence.
  - intros n s p r X. discriminate X.
Qed.
Print Assumptions C36_closure.
Print Assumptions C36a_terminates.
Print Assumptions C36b_general.
Print Assumptions C36c_each_once.
Print Assumptions C36d_history.
Print Assumptions C36e_scan_targets.
Print Assumptions C36f_classic_scan.
