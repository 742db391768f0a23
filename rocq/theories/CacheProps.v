(* C19-C21, C33, C42: derived-file cache and content hashing. *)
From Coq Require Import Ascii String List Arith ZArith Bool Lia.
Import ListNotations.
From Verif Require Import CacheModel.
Local Open Scope list_scope.

(* ================= C19 ================= *)
Definition writes (x : cst) (p : pid) (i : ino) : Prop := exists s c r, proc x p = CWrite s c i r.
Record cinv (x : cst) : Prop := {
  v_w : forall p s c i r, proc x p = CWrite s c i r -> i < next x /\ data x i ++ r = c /\ In (s, c) (pushed x);
  v_p : forall p s c, proc x p = CPush s c -> In (s, c) (pushed x);
  v_uniq : forall p q i, writes x p i -> writes x q i -> p = q;
  v_ent : forall s i, ent x s = Some i -> i < next x /\ In (s, data x i) (pushed x) /\ forall p, ~ writes x p i;
  v_rd : forall p s i acc, proc x p = CRead s i acc -> i < next x /\ In (s, data x i) (pushed x) /\ (forall q, ~ writes x q i) /\ exists r, data x i = acc ++ r;
  v_reads : forall s c, In (s, c) (reads x) -> In (s, c) (pushed x) }.

Lemma updf_same {A} (f : nat -> A) n v : updf f n v n = v. Proof. unfold updf. rewrite Nat.eqb_refl. reflexivity. Qed.
Lemma updf_other {A} (f : nat -> A) n v m : m <> n -> updf f n v m = f m.
Proof. intros H. unfold updf. destruct (m =? n) eqn:E; [apply Nat.eqb_eq in E; contradiction | reflexivity]. Qed.

(* changing a process to a state that writes nothing it did not write before *)
Lemma writes_upd x y p v : (forall q, proc y q = updf (proc x) p v q) -> (forall s c i r, v <> CWrite s c i r) -> forall q i, writes y q i -> writes x q i /\ q <> p.
Proof.
  intros E N q i (s & c & r & H). rewrite E in H. destruct (Nat.eq_dec q p) as [->|Q]; [rewrite updf_same in H; elim (N _ _ _ _ H)|].
  rewrite updf_other in H by exact Q. split; [exists s, c, r; exact H | exact Q].
Qed.

Lemma cstep_inv x l : cinv x -> cinv (cstep x l).
Proof.
  intros I. pose proof I as I0. destruct I as [W P U E R D]. destruct l as [p s c|p|p k|p|p s|p k|p|p|s]; cbn [cstep].
  - (* push *) destruct (proc x p) eqn:Q; try assumption. destruct (ent x s) eqn:Qe; [assumption|].
    assert (Wr : forall q i, writes {| ent := ent x; data := data x; next := next x; proc := updf (proc x) p (CPush s c); pushed := (s, c) :: pushed x; reads := reads x |} q i -> writes x q i /\ q <> p)
      by (apply writes_upd with (v := CPush s c); [reflexivity | discriminate]).
    constructor; cbn [ent data next proc pushed reads].
    + intros q s' c' i r H. destruct (Nat.eq_dec q p) as [->|N]; [rewrite updf_same in H; discriminate|]. rewrite updf_other in H by exact N.
      destruct (W _ _ _ _ _ H) as (A & B & C). split; [exact A|]. split; [exact B | right; exact C].
    + intros q s' c' H. destruct (Nat.eq_dec q p) as [->|N]; [rewrite updf_same in H; injection H as <- <-; left; reflexivity|]. rewrite updf_other in H by exact N. right. apply (P _ _ _ H).
    + intros q q' i A B. apply (U q q' i); [apply Wr, A | apply Wr, B].
    + intros s' i H. destruct (E s' i H) as (A & B & C). split; [exact A|]. split; [right; exact B|]. intros q X. apply (C q), Wr, X.
    + intros q s' i acc H. destruct (Nat.eq_dec q p) as [->|N]; [rewrite updf_same in H; discriminate|]. rewrite updf_other in H by exact N.
      destruct (R _ _ _ _ H) as (A & B & C & F). split; [exact A|]. split; [right; exact B|]. split; [intros q' X; apply (C q'), Wr, X | exact F].
    + intros s' c' H. right. apply D, H.
  - (* temp *) destruct (proc x p) eqn:Q; try assumption.
    assert (Fr : forall i, i < next x -> updf (data x) (next x) [] i = data x i) by (intros i H; apply updf_other; lia).
    constructor; cbn [ent data next proc pushed reads].
    + intros q s' c' i r H. destruct (Nat.eq_dec q p) as [->|N].
      * rewrite updf_same in H. injection H as <- <- <- <-. rewrite updf_same. split; [lia|]. split; [reflexivity | apply (P _ _ _ Q)].
      * rewrite updf_other in H by exact N. destruct (W _ _ _ _ _ H) as (A & B & C). rewrite (Fr i A). split; [lia | auto].
    + intros q s' c' H. destruct (Nat.eq_dec q p) as [->|N]; [rewrite updf_same in H; discriminate|]. rewrite updf_other in H by exact N. apply (P _ _ _ H).
    + intros q q' i (s1 & c1 & r1 & A) (s2 & c2 & r2 & B). cbn [proc] in A, B.
      destruct (Nat.eq_dec q p) as [->|N]; destruct (Nat.eq_dec q' p) as [->|N']; [reflexivity| | |].
      * rewrite updf_same in A. injection A as _ _ <- _. rewrite updf_other in B by exact N'. destruct (W _ _ _ _ _ B) as (X & _). lia.
      * rewrite updf_same in B. injection B as _ _ <- _. rewrite updf_other in A by exact N. destruct (W _ _ _ _ _ A) as (X & _). lia.
      * rewrite updf_other in A by exact N. rewrite updf_other in B by exact N'. apply (U q q' i); [exists s1, c1, r1; exact A | exists s2, c2, r2; exact B].
    + intros s' i H. destruct (E s' i H) as (A & B & C). rewrite (Fr i A). split; [lia|]. split; [exact B|].
      intros q (s1 & c1 & r1 & X). cbn [proc] in X. destruct (Nat.eq_dec q p) as [->|N]; [rewrite updf_same in X; injection X as _ _ <- _; lia|].
      rewrite updf_other in X by exact N. apply (C q). exists s1, c1, r1; exact X.
    + intros q s' i acc H. destruct (Nat.eq_dec q p) as [->|N]; [rewrite updf_same in H; discriminate|]. rewrite updf_other in H by exact N.
      destruct (R _ _ _ _ H) as (A & B & C & F). rewrite (Fr i A). split; [lia|]. split; [exact B|]. split; [|exact F].
      intros q' (s1 & c1 & r1 & X). cbn [proc] in X. destruct (Nat.eq_dec q' p) as [->|N']; [rewrite updf_same in X; injection X as _ _ <- _; lia|].
      rewrite updf_other in X by exact N'. apply (C q'). exists s1, c1, r1; exact X.
    + exact D.
  - (* write *) destruct (proc x p) as [|?|s c i rest|] eqn:Q; try assumption.
    assert (Wp : writes x p i) by (exists s, c, rest; exact Q).
    assert (Sub : forall q j, writes {| ent := ent x; data := updf (data x) i (data x i ++ firstn k rest); next := next x; proc := updf (proc x) p (CWrite s c i (skipn k rest)); pushed := pushed x; reads := reads x |} q j -> writes x q j).
    { intros q j (s1 & c1 & r1 & X). cbn [proc] in X. destruct (Nat.eq_dec q p) as [->|N]; [rewrite updf_same in X; injection X as <- <- <- <-; exact Wp|].
      rewrite updf_other in X by exact N. exists s1, c1, r1; exact X. }
    constructor; cbn [ent data next proc pushed reads].
    + intros q s' c' j r H. destruct (Nat.eq_dec q p) as [->|N].
      * rewrite updf_same in H. injection H as <- <- <- <-. rewrite updf_same, <- app_assoc, firstn_skipn. apply (W _ _ _ _ _ Q).
      * rewrite updf_other in H by exact N. rewrite updf_other; [apply (W _ _ _ _ _ H)|]. intros ->. apply N, (U q p i); [exists s', c', r; exact H | exact Wp].
    + intros q s' c' H. destruct (Nat.eq_dec q p) as [->|N]; [rewrite updf_same in H; discriminate|]. rewrite updf_other in H by exact N. apply (P _ _ _ H).
    + intros q q' j A B. apply (U q q' j); apply Sub; assumption.
    + intros s' j H. destruct (E s' j H) as (A & B & C). rewrite updf_other by (intros ->; elim (C p Wp)). split; [exact A|]. split; [exact B|].
      intros q X. apply (C q), Sub, X.
    + intros q s' j acc H. destruct (Nat.eq_dec q p) as [->|N]; [rewrite updf_same in H; discriminate|]. rewrite updf_other in H by exact N.
      destruct (R _ _ _ _ H) as (A & B & C & F). rewrite updf_other by (intros ->; elim (C p Wp)). split; [exact A|]. split; [exact B|]. split; [|exact F]. intros q' X. apply (C q'), Sub, X.
    + exact D.
  - (* rename *) destruct (proc x p) as [|?|s c i rest|] eqn:Q; try assumption. destruct rest as [|b rest]; [|assumption].
    assert (Wp : writes x p i) by (exists s, c, []; exact Q).
    assert (Wr : forall q j, writes {| ent := updf (ent x) s (Some i); data := data x; next := next x; proc := updf (proc x) p CIdle; pushed := pushed x; reads := reads x |} q j -> writes x q j /\ q <> p)
      by (apply writes_upd with (v := CIdle); [reflexivity | discriminate]).
    constructor; cbn [ent data next proc pushed reads].
    + intros q s' c' j r H. destruct (Nat.eq_dec q p) as [->|N]; [rewrite updf_same in H; discriminate|]. rewrite updf_other in H by exact N. apply (W _ _ _ _ _ H).
    + intros q s' c' H. destruct (Nat.eq_dec q p) as [->|N]; [rewrite updf_same in H; discriminate|]. rewrite updf_other in H by exact N. apply (P _ _ _ H).
    + intros q q' j A B. apply (U q q' j); [apply Wr, A | apply Wr, B].
    + intros s' j H. destruct (Nat.eq_dec s' s) as [->|N].
      * rewrite updf_same in H. injection H as <-. destruct (W _ _ _ _ _ Q) as (A & B & C). rewrite app_nil_r in B. split; [exact A|]. split; [rewrite B; exact C|].
        intros q X. destruct (Wr q i X) as [Y N]. apply N, (U q p i Y Wp).
      * rewrite updf_other in H by exact N. destruct (E s' j H) as (A & B & C). split; [exact A|]. split; [exact B|]. intros q X. apply (C q), Wr, X.
    + intros q s' j acc H. destruct (Nat.eq_dec q p) as [->|N]; [rewrite updf_same in H; discriminate|]. rewrite updf_other in H by exact N.
      destruct (R _ _ _ _ H) as (A & B & C & F). split; [exact A|]. split; [exact B|]. split; [|exact F]. intros q' X. apply (C q'), Wr, X.
    + exact D.
  - (* open *) destruct (proc x p) eqn:Q; try assumption. destruct (ent x s) as [i|] eqn:Qe; [|assumption].
    assert (Wr : forall q j, writes (setp x p (CRead s i [])) q j -> writes x q j /\ q <> p) by (apply writes_upd with (v := CRead s i []); [reflexivity | discriminate]).
    constructor; cbn [setp ent data next proc pushed reads].
    + intros q s' c' j r H. destruct (Nat.eq_dec q p) as [->|N]; [rewrite updf_same in H; discriminate|]. rewrite updf_other in H by exact N. apply (W _ _ _ _ _ H).
    + intros q s' c' H. destruct (Nat.eq_dec q p) as [->|N]; [rewrite updf_same in H; discriminate|]. rewrite updf_other in H by exact N. apply (P _ _ _ H).
    + intros q q' j A B. apply (U q q' j); [apply Wr, A | apply Wr, B].
    + intros s' j H. destruct (E s' j H) as (A & B & C). split; [exact A|]. split; [exact B|]. intros q X. apply (C q), Wr, X.
    + intros q s' j acc H. destruct (Nat.eq_dec q p) as [->|N].
      * rewrite updf_same in H. injection H as <- <- <-. destruct (E s i Qe) as (A & B & C). split; [exact A|]. split; [exact B|]. split; [intros q X; apply (C q), Wr, X | exists (data x i); reflexivity].
      * rewrite updf_other in H by exact N. destruct (R _ _ _ _ H) as (A & B & C & F). split; [exact A|]. split; [exact B|]. split; [|exact F]. intros q' X. apply (C q'), Wr, X.
    + exact D.
  - (* read *) destruct (proc x p) as [| | |s i acc] eqn:Q; try assumption.
    set (v := CRead s i (acc ++ firstn k (skipn (length acc) (data x i)))).
    assert (Wr : forall q j, writes (setp x p v) q j -> writes x q j /\ q <> p) by (apply writes_upd with (v := v); [reflexivity | discriminate]).
    constructor; cbn [setp ent data next proc pushed reads].
    + intros q s' c' j r H. destruct (Nat.eq_dec q p) as [->|N]; [rewrite updf_same in H; discriminate|]. rewrite updf_other in H by exact N. apply (W _ _ _ _ _ H).
    + intros q s' c' H. destruct (Nat.eq_dec q p) as [->|N]; [rewrite updf_same in H; discriminate|]. rewrite updf_other in H by exact N. apply (P _ _ _ H).
    + intros q q' j A B. apply (U q q' j); [apply Wr, A | apply Wr, B].
    + intros s' j H. destruct (E s' j H) as (A & B & C). split; [exact A|]. split; [exact B|]. intros q X. apply (C q), Wr, X.
    + intros q s' j a H. destruct (Nat.eq_dec q p) as [->|N].
      * rewrite updf_same in H. injection H as <- <- <-. destruct (R _ _ _ _ Q) as (A & B & C & r & F). split; [exact A|]. split; [exact B|]. split; [intros q X; apply (C q), Wr, X|].
        exists (skipn k (skipn (length acc) (data x i))). rewrite <- app_assoc, firstn_skipn. rewrite F at 2. rewrite skipn_app, skipn_all, Nat.sub_diag. cbn. exact F.
      * rewrite updf_other in H by exact N. destruct (R _ _ _ _ H) as (A & B & C & F). split; [exact A|]. split; [exact B|]. split; [|exact F]. intros q' X. apply (C q'), Wr, X.
    + exact D.
  - (* end of file *) destruct (proc x p) as [| | |s i acc] eqn:Q; try assumption. destruct (length (data x i) <=? length acc) eqn:L; [|assumption]. apply Nat.leb_le in L.
    assert (Wr : forall q j, writes {| ent := ent x; data := data x; next := next x; proc := updf (proc x) p CIdle; pushed := pushed x; reads := (s, acc) :: reads x |} q j -> writes x q j /\ q <> p)
      by (apply writes_upd with (v := CIdle); [reflexivity | discriminate]).
    constructor; cbn [ent data next proc pushed reads].
    + intros q s' c' j r H. destruct (Nat.eq_dec q p) as [->|N]; [rewrite updf_same in H; discriminate|]. rewrite updf_other in H by exact N. apply (W _ _ _ _ _ H).
    + intros q s' c' H. destruct (Nat.eq_dec q p) as [->|N]; [rewrite updf_same in H; discriminate|]. rewrite updf_other in H by exact N. apply (P _ _ _ H).
    + intros q q' j A B. apply (U q q' j); [apply Wr, A | apply Wr, B].
    + intros s' j H. destruct (E s' j H) as (A & B & C). split; [exact A|]. split; [exact B|]. intros q X. apply (C q), Wr, X.
    + intros q s' j a H. destruct (Nat.eq_dec q p) as [->|N]; [rewrite updf_same in H; discriminate|]. rewrite updf_other in H by exact N.
      destruct (R _ _ _ _ H) as (A & B & C & F). split; [exact A|]. split; [exact B|]. split; [|exact F]. intros q' X. apply (C q'), Wr, X.
    + intros s' c' [H|H]; [|apply D, H]. injection H as <- <-. destruct (R _ _ _ _ Q) as (_ & B & _ & r & F).
      assert (r = []) as -> by (destruct r; [reflexivity|]; rewrite F, app_length in L; cbn in L; lia). rewrite app_nil_r in F. rewrite <- F. exact B.
  - (* abort *)
    assert (Wr : forall q j, writes (setp x p CIdle) q j -> writes x q j /\ q <> p) by (apply writes_upd with (v := CIdle); [reflexivity | discriminate]).
    constructor; cbn [setp ent data next proc pushed reads].
    + intros q s' c' j r H. destruct (Nat.eq_dec q p) as [->|N]; [rewrite updf_same in H; discriminate|]. rewrite updf_other in H by exact N. apply (W _ _ _ _ _ H).
    + intros q s' c' H. destruct (Nat.eq_dec q p) as [->|N]; [rewrite updf_same in H; discriminate|]. rewrite updf_other in H by exact N. apply (P _ _ _ H).
    + intros q q' j A B. apply (U q q' j); [apply Wr, A | apply Wr, B].
    + intros s' j H. destruct (E s' j H) as (A & B & C). split; [exact A|]. split; [exact B|]. intros q X. apply (C q), Wr, X.
    + intros q s' j a H. destruct (Nat.eq_dec q p) as [->|N]; [rewrite updf_same in H; discriminate|]. rewrite updf_other in H by exact N.
      destruct (R _ _ _ _ H) as (A & B & C & F). split; [exact A|]. split; [exact B|]. split; [|exact F]. intros q' X. apply (C q'), Wr, X.
    + exact D.
  - (* prune *) constructor; cbn [ent data next proc pushed reads]; try assumption.
    intros s' j H. destruct (Nat.eq_dec s' s) as [->|N]; [rewrite updf_same in H; discriminate|]. rewrite updf_other in H by exact N. apply E, H.
Qed.

(* C19.  However many processes push, retrieve, fail or die, in whatever interleaving, and whoever removes entries: at
   every moment each cache entry is complete, its content being one that some process pushed under
   that signature, and every retrieval that reaches the end of the file has read such a content. *)
Theorem C19_cache_entries_complete : forall ls s,
  (forall i, ent (crun ls cinit) s = Some i -> In (s, data (crun ls cinit) i) (pushed (crun ls cinit)))
  /\ (forall c, In (s, c) (reads (crun ls cinit)) -> In (s, c) (pushed (crun ls cinit))).
Proof.
  intros ls s. assert (I : cinv (crun ls cinit)).
  { assert (G : forall l x, cinv x -> cinv (crun l x)) by (induction l as [|a l IH]; intros x Hx; [exact Hx | apply IH, cstep_inv, Hx]).
    apply G. constructor; cbn; try discriminate; try tauto. intros p q i (s0 & c & r & H). discriminate. }
  split; [intros i H; apply (v_ent _ I s i H) | intros c H; apply (v_reads _ I s c H)].
Qed.
Print Assumptions C19_cache_entries_complete.

(* two processes push different files under signature 7; process 2 reads while the entry is replaced *)
Definition cl_ex : list clabel :=
  [LPush 0 7 [1; 2; 3]; LPush 1 7 [1; 2; 4]; LTemp 0; LTemp 1; LWrite 0 2; LOpen 2 7; LWrite 1 3; LWrite 0 2; LRename 0;
   LOpen 2 7; LReadBytes 2 1; LRename 1; LReadBytes 2 5; LReadEnd 2; LOpen 3 7; LReadBytes 3 2; LReadEnd 3; LPrune 7; LReadBytes 3 2; LReadEnd 3].
Example C19_witness : reads (crun cl_ex cinit) = [(7, [1; 2; 4]); (7, [1; 2; 3])] /\ pushed (crun cl_ex cinit) = [(7, [1; 2; 4]); (7, [1; 2; 3])].
Proof. split; reflexivity. Qed.

(* ================= C20 ================= *)
Lemma dput_same d n v : dput d n v n = v. Proof. unfold dput. rewrite Nat.eqb_refl. reflexivity. Qed.
Lemma dput_other d n v m : m <> n -> dput d n v m = d m.
Proof. intros H. unfold dput. destruct (m =? n) eqn:E; [apply Nat.eqb_eq in E; contradiction | reflexivity]. Qed.
Lemma fold_put v : forall ts d m, fold_left (fun d t => dput d t v) ts d m = if existsb (Nat.eqb m) ts then v else d m.
Proof.
  induction ts as [|t ts IH]; intros d m; [reflexivity|]. cbn [fold_left existsb]. rewrite IH. destruct (existsb (Nat.eqb m) ts) eqn:E; [rewrite orb_true_r; reflexivity|].
  rewrite orb_false_r. unfold dput. reflexivity.
Qed.
Lemma retrieve_spec r : forall ts d c0 d1 c1, retrieve_loop r ts d c0 = (d1, c1) ->
  exists got rest, ts = got ++ rest /\ c1 = c0 ++ got /\ (forall t, In t got -> r t = RHit) /\ (match rest with [] => True | t :: _ => r t = RMiss end)
    /\ forall m, d1 m = if existsb (Nat.eqb m) got then Some FromCache else d m.
Proof.
  induction ts as [|t ts IH]; intros d c0 d1 c1 H; cbn in H.
  - injection H as <- <-. exists [], []. split; [reflexivity|]. split; [symmetry; apply app_nil_r|]. split; [intros t []|]. split; [exact Logic.I | reflexivity].
  - destruct (r t) eqn:E.
    + destruct (IH _ _ _ _ H) as (got & rest & -> & -> & A & B & C). exists (t :: got), rest. split; [reflexivity|]. split; [rewrite <- app_assoc; reflexivity|].
      split; [intros u [<-|Hu]; auto|]. split; [exact B|]. intros m. rewrite C. cbn [existsb]. destruct (existsb (Nat.eqb m) got); [rewrite orb_true_r; reflexivity|]. rewrite orb_false_r. reflexivity.
    + injection H as <- <-. exists [], (t :: ts). split; [reflexivity|]. split; [symmetry; apply app_nil_r|]. split; [intros u []|]. split; [exact E | reflexivity].
Qed.

(* C20.  A build step with any number of targets.  If all of them are in the cache, all files come from the cache, no action
   is run and they are all reported as fetched.  Otherwise the action is run, with none of its targets present from the
   cache, nothing is reported as fetched, and (if it succeeds) all targets are the action's and are pushed. *)
Theorem C20_all_or_nothing : forall r ok ts d,
  (forall t, In t ts -> d t = None) ->
  let x := execute r ok ts d in
  ((forall t, In t ts -> r t = RHit) -> x_built x = false /\ x_cached x = ts /\ x_pushed x = [] /\ forall t, In t ts -> x_disk x t = Some FromCache)
  /\ ((exists t, In t ts /\ r t = RMiss) -> x_built x = true /\ x_cached x = [] /\ (forall t, In t ts -> x_before x t = None)
       /\ (ok = true -> x_pushed x = ts /\ forall t, In t ts -> x_disk x t = Some Built)
       /\ (ok = false -> x_pushed x = [] /\ forall t, In t ts -> x_disk x t = None))
  /\ (forall t, ~ In t ts -> x_disk x t = d t).
Proof.
  intros r ok ts d Hd. cbv zeta. unfold execute. destruct (retrieve_loop r ts d []) as [d1 c1] eqn:E.
  destruct (retrieve_spec r ts d [] d1 c1 E) as (got & rest & -> & -> & A & B & C). cbn [app]. rewrite app_length.
  assert (Me : forall m l, existsb (Nat.eqb m) l = true <-> In m l).
  { intros m l. rewrite existsb_exists. split; [intros (y & H1 & H2); apply Nat.eqb_eq in H2; subst; exact H1 | intros H; exists m; split; [exact H | apply Nat.eqb_refl]]. }
  assert (Mf : forall m l, ~ In m l -> existsb (Nat.eqb m) l = false) by (intros m l H; destruct (existsb (Nat.eqb m) l) eqn:Q; [apply Me in Q; contradiction | reflexivity]).
  destruct rest as [|t0 rest].
  - cbn [length]. rewrite Nat.add_0_r, Nat.ltb_irrefl. cbn [x_built x_cached x_pushed x_disk x_before]. rewrite !app_nil_r. split; [|split].
    + intros _. split; [reflexivity|]. split; [reflexivity|]. split; [reflexivity|]. intros t Ht. rewrite C, (proj2 (Me t got) Ht). reflexivity.
    + intros (t & Ht & Hm). rewrite (A t Ht) in Hm. discriminate.
    + intros t Ht. rewrite C, (Mf t got Ht). reflexivity.
  - assert (L : (length got <? length got + length (t0 :: rest)) = true) by (apply Nat.ltb_lt; cbn; lia). rewrite L. cbn [x_built x_cached x_pushed x_disk x_before].
    assert (Bef : forall t, fold_left (fun d t => dput d t None) got d1 t = if existsb (Nat.eqb t) got then None else d t).
    { intros t. rewrite fold_put, C. destruct (existsb (Nat.eqb t) got); reflexivity. }
    split; [|split].
    + intros H. rewrite (H t0) in B by (apply in_or_app; right; left; reflexivity). discriminate.
    + intros _. split; [reflexivity|]. split; [reflexivity|]. split; [intros t Ht; rewrite Bef; destruct (existsb _ got); [reflexivity | apply Hd, Ht]|].
      split; intros ->; (split; [reflexivity|]); intros t Ht.
      * rewrite fold_put, (proj2 (Me t _) Ht). reflexivity.
      * rewrite Bef. destruct (existsb _ got); [reflexivity | apply Hd, Ht].
    + intros t Ht. assert (Ng : ~ In t got) by (intros H; apply Ht, in_or_app; auto). destruct ok; [rewrite fold_put, (Mf t _ Ht)|]; rewrite Bef, (Mf t got Ng); reflexivity.
Qed.
Print Assumptions C20_all_or_nothing.
Example C20_witness : let x := execute (fun t => if t =? 3 then RMiss else RHit) true [1; 2; 3; 4] (fun _ => None) in
  x_built x = true /\ x_before x 1 = None /\ x_disk x 1 = Some Built /\ x_disk x 4 = Some Built
  /\ let y := execute (fun t => RHit) true [1; 2; 3; 4] (fun _ => None) in x_built y = false /\ x_disk y 4 = Some FromCache.
Proof. repeat split. Qed.

(* ================= C21 ================= *)
(* no occurrence of ", " *)
Definition no_sep (s : str) : Prop := forall a b, s <> a ++ comma_sp ++ b.
Definition no_comma (s : str) : Prop := ~ In ","%char s.

Lemma comma_split : forall (x y : str) r1 r2, no_comma x -> no_comma y -> x ++ comma_sp ++ r1 = y ++ comma_sp ++ r2 -> x = y /\ r1 = r2.
Proof.
  induction x as [|a x IH]; intros [|b y] r1 r2 Nx Ny H; cbn in H.
  - injection H as <-. auto.
  - injection H as <- H. elim Ny. left. reflexivity.
  - injection H as -> H. elim Nx. left. reflexivity.
  - injection H as <- H. destruct (IH y r1 r2) as [-> ->]; auto; [intros Q; apply Nx; right; exact Q | intros Q; apply Ny; right; exact Q].
Qed.
Lemma join_cons sep x y r : join sep (x :: y :: r) = x ++ sep ++ join sep (y :: r). Proof. reflexivity. Qed.
Lemma join_inj : forall l1 l2 p q, Forall no_comma l1 -> Forall no_comma l2 -> no_sep p -> no_sep q ->
  join comma_sp (l1 ++ [p]) = join comma_sp (l2 ++ [q]) -> l1 = l2 /\ p = q.
Proof.
  assert (Sh : forall l p, exists r, l ++ [p] <> [] /\ (join comma_sp (l ++ [p]) = p /\ l = [] \/ exists x l', l = x :: l' /\ join comma_sp (l ++ [p]) = x ++ comma_sp ++ r /\ r = join comma_sp (l' ++ [p]))).
  { intros [|x l] p; [exists []; split; [discriminate | left; split; reflexivity]|]. exists (join comma_sp (l ++ [p])). split; [discriminate|]. right. exists x, l. split; [reflexivity|].
    split; [|reflexivity]. change ((x :: l) ++ [p]) with (x :: (l ++ [p])). destruct (l ++ [p]) as [|y r] eqn:E; [destruct l; discriminate | reflexivity]. }
  induction l1 as [|x l1 IH]; intros l2 p q F1 F2 Np Nq H.
  - destruct l2 as [|y l2]; [cbn in H; auto|]. exfalso. destruct (Sh (y :: l2) q) as (r & _ & [[_ Q]|(y' & l' & Q & J & _)]); [discriminate|].
    injection Q as <- <-. rewrite J in H. cbn in H. apply (Np y r). exact H.
  - destruct l2 as [|y l2].
    + exfalso. destruct (Sh (x :: l1) p) as (r & _ & [[_ Q]|(x' & l' & Q & J & _)]); [discriminate|]. injection Q as <- <-. rewrite J in H. cbn in H. apply (Nq x r). symmetry. exact H.
    + destruct (Sh (x :: l1) p) as (r1 & _ & [[_ Q]|(x' & l' & Q & J & R)]); [discriminate|]. injection Q as <- <-.
      destruct (Sh (y :: l2) q) as (r2 & _ & [[_ Q]|(y' & l' & Q & J2 & R2)]); [discriminate|]. injection Q as <- <-.
      inversion F1 as [|? ? Fx F1']; subst. inversion F2 as [|? ? Fy F2']; subst. rewrite J, J2 in H.
      destruct (comma_split x y _ _ Fx Fy H) as [-> E]. destruct (IH l2 p q F1' F2' Np Nq E) as [-> ->]. auto.
Qed.

(* C21.  If the signature function has no collisions, no signature contains a comma and no target path contains ", ", two
   build steps with the same cache key have the same target path, the same action signature and the same
   sequence of dependency content signatures. *)
Theorem C21_key_determines_inputs : forall (H : str -> str) cs1 cs2 a1 a2 p1 p2,
  (forall x y, H x = H y -> x = y) ->
  Forall no_comma cs1 -> Forall no_comma cs2 -> no_comma a1 -> no_comma a2 -> no_sep p1 -> no_sep p2 ->
  cache_key H cs1 a1 p1 = cache_key H cs2 a2 p2 -> p1 = p2 /\ a1 = a2 /\ cs1 = cs2.
Proof.
  intros H cs1 cs2 a1 a2 p1 p2 Inj F1 F2 N1 N2 P1 P2 E. unfold cache_key, hash_collect in E.
  assert (L : forall cs a p, (match cs ++ [a] ++ [p] with [x] => x | _ => H (join comma_sp (cs ++ [a] ++ [p])) end) = H (join comma_sp ((cs ++ [a]) ++ [p]))).
  { intros cs a p. rewrite <- app_assoc. destruct cs as [|c cs]; [reflexivity|]. cbn. destruct (cs ++ [a; p]) eqn:Q; [destruct cs; discriminate | reflexivity]. }
  rewrite !L in E. apply Inj in E. apply join_inj in E; auto; [|apply Forall_app; auto|apply Forall_app; auto]. destruct E as [E ->]. apply app_inj_tail in E. destruct E as [-> ->]. auto.
Qed.
Print Assumptions C21_key_determines_inputs.

Fixpoint sep_free (x : str) : bool :=
  match x with [] => true | c :: r => match r with d :: _ => negb (Ascii.eqb c ","%char && Ascii.eqb d " "%char) | [] => true end && sep_free r end.
Lemma sep_free_ok x : sep_free x = true -> no_sep x.
Proof.
  intros H a b E. subst x. induction a as [|c a IH]; [discriminate|]. apply IH. cbn [app] in H. cbn [sep_free] in H. apply andb_prop in H. apply H.
Qed.
Definition s (x : string) : str := list_ascii_of_string x.
Definition idH (x : str) : str := map (fun c => if Ascii.eqb c ","%char then ";"%char else c) x.
Example C21_witness : no_comma (s "d41d8cd98f") /\ no_sep (s "build/a,b.o") /\ cache_key (fun x => x) [s "11"; s "22"] (s "33") (s "x.o") = s "11, 22, 33, x.o".
Proof.
  split; [|split; [|reflexivity]].
  - unfold no_comma. cbn. intuition discriminate.
  - apply sep_free_ok. reflexivity.
Qed.
(* Without the restriction on paths the key is ambiguous: a target whose name starts with a signature and ", ". *)
Theorem C21_delimiter_refuted : exists (H : str -> str) cs1 cs2 a1 a2 p1 p2,
  (forall x y, H x = H y -> x = y) /\ Forall no_comma cs1 /\ Forall no_comma cs2 /\ no_comma a1 /\ no_comma a2
  /\ cache_key H cs1 a1 p1 = cache_key H cs2 a2 p2 /\ cs1 <> cs2 /\ p1 <> p2.
Proof.
  exists (fun x => x), [s "11"], [], (s "22"), (s "11"), (s "x.o"), (s "22, x.o").
  split; [auto|]. split; [constructor; [unfold no_comma; cbn; intuition discriminate | constructor]|]. split; [constructor|].
  split; [unfold no_comma; cbn; intuition discriminate|]. split; [unfold no_comma; cbn; intuition discriminate|]. split; [reflexivity|]. split; discriminate.
Qed.
Print Assumptions C21_delimiter_refuted.

(* ================= C42: a fetched file is what building it would give ================= *)
(* a build step: the contents of its dependencies, its action signature, its path *)
Record bstep := { b_deps : list bytes; b_action : str; b_path : str }.
Definition key_of (H : str -> str) (csig : bytes -> str) (b : bstep) : str := cache_key H (map csig (b_deps b)) (b_action b) (b_path b).
(* every push is made by a process that built the step, under the step's key; code numbers the keys *)
Definition honest_pushes (H : str -> str) (csig : bytes -> str) (code : str -> nat) (out : bstep -> bytes) (ls : list clabel) : Prop :=
  forall p k c, In (LPush p k c) ls -> exists b, no_sep (b_path b) /\ no_comma (b_action b) /\ k = code (key_of H csig b) /\ c = out b.

Lemma pushed_from : forall ls x k c, In (k, c) (pushed (crun ls x)) -> In (k, c) (pushed x) \/ exists p, In (LPush p k c) ls.
Proof.
  induction ls as [|l ls IH]; intros x k c H; [left; exact H|]. cbn in H. destruct (IH _ _ _ H) as [Q|(p & Q)]; [|right; exists p; right; exact Q].
  assert (Pc : pushed (cstep x l) = pushed x \/ exists p k' c', l = LPush p k' c' /\ pushed (cstep x l) = (k', c') :: pushed x).
  { destruct l as [p k' c'|p|p n|p|p k'|p n|p|p|k']; cbn [cstep]; repeat match goal with |- context [match ?e with _ => _ end] => destruct e end; auto; right; exists p, k', c'; auto. }
  destruct Pc as [Pc|(p & k' & c' & -> & Pc)]; rewrite Pc in Q; [auto|]. destruct Q as [Q|Q]; [|auto]. injection Q as <- <-. right. exists p. left. reflexivity.
Qed.
Theorem C42_fetched_equals_built : forall (H : str -> str) (csig : bytes -> str) (code : str -> nat) (out : bstep -> bytes) ls b c,
  (forall x y, H x = H y -> x = y) -> (forall x y, csig x = csig y -> x = y) -> (forall x, no_comma (csig x)) ->
  (forall x y, code x = code y -> x = y) -> no_sep (b_path b) -> no_comma (b_action b) ->
  honest_pushes H csig code out ls ->
  In (code (key_of H csig b), c) (reads (crun ls cinit)) -> c = out b.
Proof.
  intros H csig code out ls b c Ih Ic Nc Icode Np Na Hp R.
  destruct (C19_cache_entries_complete ls (code (key_of H csig b))) as [_ Rd]. apply Rd in R.
  destruct (pushed_from ls cinit _ _ R) as [[]|(p & Q)]. destruct (Hp _ _ _ Q) as (b' & Np' & Na' & E & ->). apply Icode in E.
  unfold key_of in E. apply C21_key_determines_inputs in E; auto; try (apply Forall_forall; intros x Hx; apply in_map_iff in Hx; destruct Hx as (y & <- & _); apply Nc).
  destruct E as (E1 & E2 & E3). assert (D : b_deps b = b_deps b').
  { revert E3. generalize (b_deps b) (b_deps b'). induction l as [|u l IH]; intros [|v l'] E; cbn in E; try discriminate; [reflexivity|]. injection E as A B. f_equal; [apply Ic, A | apply IH, B]. }
  destruct b as [bd ba bp], b' as [bd' ba' bp']; cbn in *. congruence.
Qed.
Print Assumptions C42_fetched_equals_built.
Fixpoint wcsig (x : bytes) : str := match x with [] => [] | n :: r => repeat "a"%char n ++ "b"%char :: wcsig r end.
Fixpoint wcode (x : str) : nat := match x with [] => 0 | c :: r => 257 * wcode r + S (nat_of_ascii c) end.
Definition wout (b : bstep) : bytes := length (b_path b) :: List.concat (b_deps b).
Definition wb1 : bstep := {| b_deps := [[1; 2]; [3]]; b_action := s "0f"; b_path := s "x.o" |}.
Definition wlsk (k : nat) : list clabel := [LPush 1 k (wout wb1); LTemp 1; LWrite 1 9; LRename 1; LOpen 2 k; LReadBytes 2 9; LReadEnd 2].
Definition wls : list clabel := wlsk (wcode (key_of (fun x => x) wcsig wb1)).
Lemma wlsk_push : forall k0 p k c, In (LPush p k c) (wlsk k0) -> k = k0 /\ c = wout wb1.
Proof. intros k0 p k c H. unfold wlsk in H. destruct H as [H|H]; [injection H as _ E1 E2; auto|]. exfalso. cbn [In] in H. intuition discriminate. Qed.
Lemma wcsig_inj : forall x y, wcsig x = wcsig y -> x = y.
Proof.
  induction x as [|n x IH]; intros [|m y] H; cbn in H; [reflexivity | destruct m; discriminate | destruct n; discriminate|].
  revert m H. induction n as [|n IHn]; intros [|m] H; cbn in H; try discriminate.
  - injection H as H. f_equal. apply IH, H.
  - injection H as H. specialize (IHn m H). congruence.
Qed.
Lemma wcode_inj : forall x y, wcode x = wcode y -> x = y.
Proof.
  induction x as [|c x IH]; intros [|d y] H; cbn [wcode] in H; [reflexivity | lia | lia|].
  pose proof (nat_ascii_bounded c). pose proof (nat_ascii_bounded d). assert (E : nat_of_ascii c = nat_of_ascii d /\ wcode x = wcode y) by lia.
  destruct E as [E1 E2]. rewrite <- (ascii_nat_embedding c), <- (ascii_nat_embedding d), E1. f_equal. apply IH, E2.
Qed.
Example C42_witness : (forall x y, wcsig x = wcsig y -> x = y) /\ (forall x, no_comma (wcsig x)) /\ (forall x y, wcode x = wcode y -> x = y)
  /\ no_sep (b_path wb1) /\ no_comma (b_action wb1) /\ honest_pushes (fun x => x) wcsig wcode wout wls.
Proof.
  split; [apply wcsig_inj|]. split; [|split; [apply wcode_inj|]].
  - induction x as [|n x IH]; cbn; [intros [] |]. intros H. apply in_app_or in H. destruct H as [H|[H|H]]; [apply repeat_spec in H; discriminate | discriminate | apply IH, H].
  - assert (P : no_sep (b_path wb1)) by (apply sep_free_ok; reflexivity). assert (Q : no_comma (b_action wb1)) by (unfold no_comma; cbn; intuition discriminate).
    split; [exact P|]. split; [exact Q|]. intros p k c H. exists wb1. split; [exact P|]. split; [exact Q|]. exact (wlsk_push _ _ _ _ H).
Qed.
Example C42_witness_read : map snd (reads (crun (wlsk 5) cinit)) = [wout wb1].
Proof. reflexivity. Qed.

(* ================= C33 ================= *)
(* incremental hashing: feeding two blocks is feeding their concatenation *)
Definition hasher_ok (h : hasher) : Prop :=
  (forall st a b, h_update h (h_update h st a) b = h_update h st (a ++ b)) /\ (forall st, h_update h st [] = st).
Lemma hash_loop_ok h n : hasher_ok h -> n <> 0%Z -> forall fuel rest st, length rest < fuel -> hash_loop h fuel n st rest = h_update h st rest.
Proof.
  intros [Ha He] Nz. induction fuel as [|fuel IH]; intros rest st L; [lia|]. cbn [hash_loop]. unfold read. destruct (n <? 0)%Z eqn:E.
  - destruct rest as [|b rest]; [symmetry; apply He|]. rewrite IH by (cbn in *; lia). apply He.
  - apply Z.ltb_ge in E. assert (P : exists k, Z.to_nat n = S k) by (exists (Z.to_nat n - 1); lia). destruct P as (k & ->). destruct rest as [|b rest]; [symmetry; apply He|].
    cbn [firstn skipn]. rewrite IH by (rewrite skipn_length; cbn in L; lia). rewrite Ha. cbn [app]. rewrite firstn_skipn. reflexivity.
Qed.
(* C33.  The signature of a file is the hash of its whole content, whatever the (non-zero) chunk size; in particular it does not
   depend on the chunk size, nor on whether the file was small enough to be hashed whole. *)
Theorem C33_chunk_size_irrelevant : forall h nofile chunk file, hasher_ok h -> chunk <> 0%Z ->
  file_csig h nofile chunk file = hash_signature h (match file with Some c => c | None => nofile end).
Proof.
  intros h nofile chunk [c|] Ok Nz; [|reflexivity]. cbn. destruct (Z.of_nat (length c) <? chunk)%Z; [reflexivity|]. unfold hash_file, hash_signature.
  rewrite hash_loop_ok by (auto; lia). reflexivity.
Qed.
Print Assumptions C33_chunk_size_irrelevant.
(* With a chunk size of zero every file would have the signature of the empty file (the option --hash-chunksize=0 is ignored, Script/Main.py 1211). *)
Theorem C33_zero_chunk : forall h nofile c, file_csig h nofile 0 (Some c) = h_digest h (h_init h).
Proof.
  intros h nofile c. cbn [file_csig]. assert ((Z.of_nat (length c) <? 0)%Z = false) as -> by (apply Z.ltb_ge; lia). reflexivity.
Qed.
Print Assumptions C33_zero_chunk.
Definition wh : hasher := {| h_state := list nat; h_init := []; h_update := fun st b => st ++ b; h_digest := fun st => st |}.
Example C33_witness : hasher_ok wh /\ hash_file wh 2 [1; 2; 3; 4; 5] = [1; 2; 3; 4; 5].
Proof. split; [split; cbn; intros; [symmetry; apply app_assoc | apply app_nil_r] | reflexivity]. Qed.
