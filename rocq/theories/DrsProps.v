(* C80: directories as sources. *)
From Coq Require Import Ascii String List Bool Arith Lia Permutation.
From Verif Require Import FtnModel FtnProps5 DrsModel DrsSpec.
From Verif Require SubstModel CscModel CscProps2.
Import ListNotations.
Open Scope list_scope.

Lemma lit_app a b : lit (a ++ b)%string = lit a ++ lit b.
Proof. unfold lit. induction a as [|x a IH]; [reflexivity|]. cbn [String.append list_ascii_of_string app]. f_equal. exact IH. Qed.
Lemma special_skip n : In n skip_list <-> Special n.
Proof.
  split.
  - intros H. unfold skip_list in H. apply in_map_iff in H. destruct H as [s [<- H]].
    destruct H as [<- | [<- | H]]; [left; reflexivity | right; left; reflexivity|]. right. right.
    assert (P : existsb (fun a => existsb (fun b => String.eqb s (a ++ b)) exts) stems = true).
    { repeat (destruct H as [<- | H]; [vm_compute; reflexivity|]). destruct H. }
    apply existsb_exists in P. destruct P as [a [Ha P]]. apply existsb_exists in P. destruct P as [b [Hb P]]. apply String.eqb_eq in P.
    exists a, b. split; [exact Ha|]. split; [exact Hb|]. rewrite P. apply lit_app.
  - intros [-> | [-> | [a [b [Ha [Hb ->]]]]]].
    + apply mem_in. vm_compute. reflexivity.
    + apply mem_in. vm_compute. reflexivity.
    + assert (G : forallb (fun a => forallb (fun b => mem (list_ascii_of_string a ++ list_ascii_of_string b) skip_list) exts) stems = true) by (vm_compute; reflexivity).
      rewrite forallb_forall in G. specialize (G a Ha). rewrite forallb_forall in G. apply mem_in. exact (G b Hb).
Qed.
Lemma scan_true n : do_not_scan n = true <-> ~ Special n.
Proof. unfold do_not_scan. rewrite negb_true_iff, <- special_skip, <- mem_in. split; [intros E Q; rewrite Q in E; discriminate | intros N; destruct (mem n skip_list); [exfalso; apply N; reflexivity | reflexivity]]. Qed.
Lemma sort_names_perm l : Permutation l (sort_names l).
Proof.
  unfold sort_names. etransitivity; [|apply Permutation_map, CscProps2.sort_perm]. rewrite map_map. cbn [fst]. rewrite map_id. reflexivity.
Qed.
Lemma sort_names_in l n : In n (sort_names l) <-> In n l.
Proof. split; apply Permutation_in; [symmetry|]; apply sort_names_perm. Qed.
Lemma sort_names_set l l' : NoDup l -> NoDup l' -> (forall n, In n l <-> In n l') -> sort_names l = sort_names l'.
Proof.
  intros N N' E. unfold sort_names. f_equal. apply CscProps2.ordered_unique; [apply CscProps2.sort_ordered | apply CscProps2.sort_ordered | |].
  - rewrite <- !CscProps2.sort_perm. apply Permutation_map. apply NoDup_Permutation; assumption.
  - intros [x []] [y []] _ _ H. cbn [fst] in H. rewrite H. reflexivity.
Qed.
Lemma in_memory_in l p q : In q (in_memory l p) <-> exists n, q = p ++ [n] /\ In n l /\ ~ Special n.
Proof.
  unfold in_memory. rewrite in_map_iff. split.
  - intros [n [<- H]]. apply sort_names_in, filter_In in H. destruct H as [H D]. apply scan_true in D. exists n. repeat split; assumption.
  - intros [n [-> [H D]]]. exists n. split; [reflexivity|]. apply sort_names_in, filter_In. split; [exact H | apply scan_true; exact D].
Qed.
Lemma in_memory_nodup l p : NoDup l -> NoDup (in_memory l p).
Proof.
  intros N. unfold in_memory. apply FinFun.Injective_map_NoDup; [intros x y E; apply app_inv_head in E; injection E as E; exact E|].
  apply (Permutation_NoDup (sort_names_perm _)). apply NoDup_filter. exact N.
Qed.
Lemma disk_in listing known p q : In q (scan_on_disk listing known p) <-> exists n, q = p ++ [n] /\ Entry listing known p n.
Proof.
  unfold scan_on_disk, Entry. destruct (listing p) as [l|].
  - rewrite in_memory_in. split; intros [n [-> H]]; exists n; (split; [reflexivity|]).
    + destruct H as [H D]. apply (proj1 (unique_in _ _)), in_app_iff in H. rewrite filter_In in H. exists l. split; [reflexivity|]. split; [tauto | exact D].
    + destruct H as [k [E [H D]]]. injection E as <-. split; [|exact D]. apply (proj2 (unique_in _ _)), in_app_iff. rewrite filter_In. destruct H as [H|H]; [right; split; [exact H | apply scan_true; exact D] | left; exact H].
  - split; [intros [] | intros [n [_ [k [E _]]]]; discriminate].
Qed.
Lemma disk_nodup listing known p : NoDup (scan_on_disk listing known p).
Proof. unfold scan_on_disk. destruct (listing p); [apply in_memory_nodup, unique_nodup | constructor]. Qed.
Lemma path_eqb_eq p : forall q, path_eqb p q = true <-> p = q.
Proof.
  induction p as [|x p IH]; intros [|y q]; cbn [path_eqb]; try (split; discriminate || reflexivity).
  rewrite andb_true_iff, str_eqb_spec, IH. split; [intros [-> ->]; reflexivity | intros E; injection E as -> ->; split; reflexivity].
Qed.
Lemma memp_in p l : memp p l = true <-> In p l.
Proof.
  unfold memp. rewrite existsb_exists. split; [intros [x [Hx E]]; apply path_eqb_eq in E; rewrite E; exact Hx | intros H; exists p; split; [exact H | apply path_eqb_eq; reflexivity]].
Qed.
(* NoDup of two parts *)
Lemma nodup_app {A} (l l' : list A) : NoDup l -> NoDup l' -> (forall x, In x l' -> ~ In x l) -> NoDup (l ++ l').
Proof.
  intros N N' D. induction N as [|x l Hx Hl IH]; [exact N'|]. cbn [app]. constructor.
  - rewrite in_app_iff. intros [H|H]; [exact (Hx H) | exact (D x H (or_introl eq_refl))].
  - apply IH. intros y Hy Q. exact (D y Hy (or_intror Q)).
Qed.

Section Walk.
Variable scan : path -> list path.
Variable isdir : path -> bool.
Hypothesis scan_nodup : forall p, NoDup (scan p).
Hypothesis scan_down : forall p q, In q (scan p) -> q <> [].
Inductive Reach : path -> Prop :=
| R_here q : In q (scan []) -> Reach q
| R_deeper p q : Reach p -> isdir p = true -> In q (scan p) -> Reach q.
Definition root_or (deps : list path) (p : path) : Prop := p = [] \/ (In p deps /\ isdir p = true).
Definition Inv (nodes seen deps : list path) : Prop :=
  NoDup deps /\ (forall q, In q seen <-> q = [] \/ In q deps) /\ (forall q, In q deps -> Reach q) /\ (forall p, In p nodes -> root_or deps p) /\
  (forall p, root_or deps p -> In p nodes \/ forall q, In q (scan p) -> In q deps).
Lemma inv_step n rest seen deps : Inv (n :: rest) seen deps ->
  let included := filter (fun x => negb (memp x seen)) (scan n) in Inv (rest ++ filter isdir included) (included ++ seen) (deps ++ included).
Proof.
  intros [N [Hs [Hr [Hn Hc]]]] included.
  assert (I : forall q, In q included <-> In q (scan n) /\ ~ In q deps).
  { intros q. unfold included. rewrite filter_In, negb_true_iff. split; intros [H1 H2]; (split; [exact H1|]).
    - intros Q. assert (X : memp q seen = true) by (apply memp_in, Hs; right; exact Q). rewrite X in H2. discriminate.
    - destruct (memp q seen) eqn:X; [|reflexivity]. apply memp_in, Hs in X. destruct X as [X|X]; [exfalso; exact (scan_down n q H1 X) | exfalso; exact (H2 X)]. }
  assert (Rn : forall q, In q (scan n) -> Reach q).
  { intros q Hq. destruct (Hn n (or_introl eq_refl)) as [-> | [Hd Di]]; [apply R_here; exact Hq | apply (R_deeper n); [apply Hr; exact Hd | exact Di | exact Hq]]. }
  split; [|split; [|split; [|split]]].
  - apply nodup_app; [exact N | apply NoDup_filter, scan_nodup | intros x Hx; exact (proj2 (proj1 (I x) Hx))].
  - intros q. rewrite !in_app_iff, Hs. tauto.
  - intros q Hq. apply in_app_or in Hq. destruct Hq as [Hq|Hq]; [apply Hr; exact Hq | apply Rn; exact (proj1 (proj1 (I q) Hq))].
  - intros p Hp. apply in_app_or in Hp. destruct Hp as [Hp|Hp].
    + destruct (Hn p (or_intror Hp)) as [-> | [Hd Di]]; [left; reflexivity | right; split; [apply in_or_app; left; exact Hd | exact Di]].
    + apply filter_In in Hp. destruct Hp as [Hp Di]. right. split; [apply in_or_app; right; exact Hp | exact Di].
  - intros p Hp. assert (Q : root_or deps p \/ (In p included /\ isdir p = true)).
    { destruct Hp as [-> | [Hp Di]]; [left; left; reflexivity|]. apply in_app_or in Hp. destruct Hp as [Hp|Hp]; [left; right; split; assumption | right; split; assumption]. }
    destruct Q as [Q|[Q Di]].
    + destruct (Hc p Q) as [[<- | H] | H].
      * right. intros q Hq. apply in_or_app. destruct (memp q deps) eqn:X; [left; apply memp_in; exact X|]. right. apply I. split; [exact Hq|]. intros Y. apply memp_in in Y. rewrite Y in X. discriminate.
      * left. apply in_or_app. left. exact H.
      * right. intros q Hq. apply in_or_app. left. exact (H q Hq).
    + left. apply in_or_app. right. apply filter_In. split; assumption.
Qed.
Lemma inv_walk fuel : forall nodes seen deps r, Inv nodes seen deps -> walk scan (filter isdir) fuel nodes seen deps = Some r -> NoDup r /\ forall q, In q r <-> Reach q.
Proof.
  assert (Done : forall seen deps, Inv [] seen deps -> NoDup deps /\ forall q, In q deps <-> Reach q).
  { intros seen deps [N [_ [Hr [_ Hc]]]]. split; [exact N|]. intros q. split; [apply Hr|]. induction 1 as [q Hq|p q Hp IH Di Hq].
    - destruct (Hc [] (or_introl eq_refl)) as [[] | H]. exact (H q Hq).
    - destruct (Hc p (or_intror (conj IH Di))) as [[] | H]. exact (H q Hq). }
  induction fuel as [|fuel IH]; intros nodes seen deps r H E; destruct nodes as [|n rest]; cbn [walk] in E; [injection E as <-; exact (Done seen deps H) | discriminate | injection E as <-; exact (Done seen deps H)|].
  exact (IH _ _ _ r (inv_step n rest seen deps H) E).
Qed.
Lemma inv_ends (all : list path) : (forall q, Reach q -> In q all) -> forall fuel nodes seen deps, Inv nodes seen deps -> List.length nodes + (List.length all - List.length deps) <= fuel -> exists r, walk scan (filter isdir) fuel nodes seen deps = Some r.
Proof.
  intros A. induction fuel as [|fuel IH]; intros nodes seen deps H L; destruct nodes as [|n rest]; cbn [walk].
  - exists deps. reflexivity.
  - cbn [List.length] in L. lia.
  - exists deps. reflexivity.
  - pose proof (inv_step n rest seen deps H) as H2. cbn zeta in H2. apply (IH _ _ _ H2).
    destruct H2 as [N2 [_ [Hr2 _]]]. assert (L2 : List.length (deps ++ filter (fun x => negb (memp x seen)) (scan n)) <= List.length all) by (apply NoDup_incl_length; [exact N2 | intros q Hq; apply A, Hr2, Hq]).
    rewrite !app_length in *. cbn [List.length] in L.
    assert (F : List.length (filter isdir (filter (fun x => negb (memp x seen)) (scan n))) <= List.length (filter (fun x => negb (memp x seen)) (scan n))).
    { generalize (filter (fun x => negb (memp x seen)) (scan n)). intros l. clear. induction l as [|x l IHl]; [reflexivity|]. cbn [filter]. destruct (isdir x); cbn [List.length]; lia. }
    lia.
Qed.
Lemma inv_start : Inv [[]] [[]] [].
Proof.
  split; [constructor|]. split; [intros q; cbn [In]; split; [intros [<- | []]; left; reflexivity | intros [-> | []]; left; reflexivity]|]. split; [intros q []|].
  split; [intros p [<- | []]; left; reflexivity|]. intros p [-> | [[] _]]. left. left. reflexivity.
Qed.
End Walk.
Lemma walk_ext scan scan' rec : (forall p, scan p = scan' p) -> forall fuel nodes seen deps, walk scan rec fuel nodes seen deps = walk scan' rec fuel nodes seen deps.
Proof. intros E. induction fuel as [|fuel IH]; intros nodes seen deps; destruct nodes as [|n rest]; cbn [walk]; try reflexivity. rewrite E. apply IH. Qed.
Lemma snoc_ne {A} (p : list A) x : p ++ [x] <> [].
Proof. destruct p; discriminate. Qed.
Lemma below_reach listing known isdir q : Reach (scan_on_disk listing known) isdir q <-> Below listing known isdir q.
Proof.
  split.
  - induction 1 as [q Hq|p q Hp IH Di Hq]; apply disk_in in Hq; destruct Hq as [n [-> H]]; [apply B_here; exact H | apply B_deeper; assumption].
  - induction 1 as [n H|p n Hp IH Di H]; [apply R_here | apply (R_deeper _ _ p); [exact IH | exact Di|]]; apply disk_in; exists n; (split; [reflexivity | exact H]).
Qed.
Lemma disk_down listing known p q : In q (scan_on_disk listing known p) -> q <> [].
Proof. intros H. apply disk_in in H. destruct H as [n [-> _]]. apply snoc_ne. Qed.
(* what a target made from a directory depends on: what is below the directory, each once *)
Theorem C80a_below listing known isdir fuel deps : dir_scanner listing known isdir fuel = Some deps -> NoDup deps /\ forall q, In q deps <-> Below listing known isdir q.
Proof.
  intros E. destruct (inv_walk _ isdir (disk_nodup listing known) (disk_down listing known) fuel _ _ _ deps (inv_start _ _) E) as [N H].
  split; [exact N|]. intros q. rewrite H. apply below_reach.
Qed.
(* the scan ends *)
Theorem C80b_ends listing known isdir (all : list path) : (forall q, Below listing known isdir q -> In q all) -> forall fuel, List.length all < fuel -> exists deps, dir_scanner listing known isdir fuel = Some deps.
Proof.
  intros A fuel L. apply (inv_ends _ isdir (disk_nodup listing known) (disk_down listing known) all); [intros q Hq; apply A, below_reach, Hq | apply inv_start | cbn [List.length]; lia].
Qed.
(* the order in which the system lists names does not matter *)
Theorem C80c_order listing listing' known isdir fuel :
  (forall p, match listing p, listing' p with Some l, Some l' => forall n, In n l <-> In n l' | None, None => True | _, _ => False end) ->
  dir_scanner listing known isdir fuel = dir_scanner listing' known isdir fuel.
Proof.
  intros E. unfold dir_scanner. apply walk_ext. intros p. unfold scan_on_disk. specialize (E p). destruct (listing p) as [l|], (listing' p) as [l'|]; try contradiction; [|reflexivity].
  unfold in_memory. f_equal. apply sort_names_set.
  - apply NoDup_filter, unique_nodup.
  - apply NoDup_filter, unique_nodup.
  - intros n. rewrite !filter_In, !unique_in, !in_app_iff, !filter_In, E. reflexivity.
Qed.
(* without a scanner: the entries of the directory itself that are known *)
Theorem C80d_known known fuel deps : entry_scanner known (S fuel) = Some deps -> NoDup deps /\ forall q, In q deps <-> exists n, q = [n] /\ In n (known []) /\ ~ Special n.
Proof.
  unfold entry_scanner. cbn [walk]. intros E. assert (W : forall f s d, walk (scan_in_memory known) (fun _ => []) f [] s d = Some d) by (intros [|f] s d; reflexivity).
  cbn [app] in E. rewrite W in E. injection E as <-. split.
  - apply NoDup_filter, in_memory_nodup, unique_nodup.
  - intros q. rewrite filter_In. unfold scan_in_memory. rewrite in_memory_in. split.
    + intros [[n [-> [H D]]] _]. exists n. split; [reflexivity|]. split; [exact (proj1 (unique_in _ _) H) | exact D].
    + intros [n [-> [H D]]]. split; [exists n; split; [reflexivity|]; split; [exact (proj2 (unique_in _ _) H) | exact D] | reflexivity].
Qed.
