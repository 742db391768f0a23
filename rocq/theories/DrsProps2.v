(* C80: signatures of directories; a case; what is not true. *)
From Coq Require Import Ascii String List Bool Arith Lia Permutation.
From Verif Require Import FtnModel FtnProps5 DrsModel DrsSpec DrsProps.
From Verif Require SubstModel CscModel CscProps2.
Import ListNotations.
Open Scope list_scope.

Section Tree.
Variable P : tree -> Prop.
Hypothesis HF : forall c, P (File c).
Hypothesis HD : forall l, Forall (fun x => P (snd x)) l -> P (Dir l).
Fixpoint tree_ind2 (t : tree) : P t :=
  match t with
  | File c => HF c
  | Dir l => HD l ((fix go l : Forall (fun x => P (snd x)) l := match l with [] => Forall_nil _ | x :: r => Forall_cons x (tree_ind2 (snd x)) (go r) end) l)
  end.
End Tree.
Section Sig.
Variable hash : text -> text.
(* digests are words, and no two texts with the same digest are met *)
Hypothesis word_hash : forall t, ~ In " "%char (hash t) /\ ~ In newline (hash t).
Hypothesis one : forall a b, hash a = hash b -> a = b.
Lemma split_at c (a b r r' : text) : ~ In c a -> ~ In c b -> a ++ c :: r = b ++ c :: r' -> a = b /\ r = r'.
Proof.
  revert b. induction a as [|x a IH]; intros [|y b] Na Nb E; cbn [app] in E.
  - injection E as E. split; [reflexivity | exact E].
  - exfalso. apply Nb. left. injection E as E1 E2. symmetry. exact E1.
  - exfalso. apply Na. left. injection E as E1 E2. exact E1.
  - injection E as E1 E2. subst y. destruct (IH b) as [-> ->]; [intros H; apply Na; right; exact H | intros H; apply Nb; right; exact H | exact E2|]. split; reflexivity.
Qed.
Definition good (x : text * text) : Prop := ~ In newline (fst x) /\ ~ In " "%char (snd x) /\ ~ In newline (snd x).
Lemma line_split x y r r' : good x -> good y -> line x ++ r = line y ++ r' -> x = y /\ r = r'.
Proof.
  intros [A1 [A2 A3]] [B1 [B2 B3]] E. unfold line in E. rewrite <- !app_assoc in E. cbn [app] in E. rewrite <- !app_assoc in E. cbn [app] in E.
  destruct (split_at " "%char _ _ _ _ A2 B2 E) as [E1 E2]. destruct (split_at newline _ _ _ _ A1 B1 E2) as [E3 E4].
  split; [destruct x, y; cbn [fst snd] in *; subst; reflexivity | exact E4].
Qed.
Lemma lines_inj l : forall l', Forall good l -> Forall good l' -> flat_map line l = flat_map line l' -> l = l'.
Proof.
  induction l as [|x l IH]; intros [|y l'] G G' E; cbn [flat_map] in E.
  - reflexivity.
  - exfalso. unfold line in E. destruct (snd y); discriminate.
  - exfalso. unfold line in E. destruct (snd x); discriminate.
  - inversion G as [|x' m Gx Gl]; inversion G' as [|y' m' Gy Gl']; subst. destruct (line_split x y _ _ Gx Gy E) as [-> E2]. f_equal. exact (IH l' Gl Gl' E2).
Qed.
Definition sigs (l : list (text * tree)) : list (text * text) := map (fun x => (fst x, csig hash (snd x))) l.
Lemma csig_hash t : exists c, csig hash t = hash c.
Proof. destruct t as [c|l]; cbn [csig]; eexists; reflexivity. Qed.
Lemma sigs_good l : (forall n t, In (n, t) l -> ~ In newline n) -> Forall good (sigs l).
Proof.
  intros H. apply Forall_forall. intros x Hx. apply in_map_iff in Hx. destruct Hx as [[n t] [<- Hx]]. cbn [fst snd].
  destruct (csig_hash t) as [c Ec]. split; cbn [fst snd]; [exact (H n t Hx) | rewrite Ec; exact (word_hash c)].
Qed.
Lemma contents_same l l' : (forall n t, In (n, t) l -> ~ In newline n) -> (forall n t, In (n, t) l' -> ~ In newline n) -> contents_dir (sigs l) = contents_dir (sigs l') -> forall x, In x (sigs l) <-> In x (sigs l').
Proof.
  intros H H' E x. unfold contents_dir in E. apply lines_inj in E.
  - split; intros Hx; (apply (Permutation_in _ (Permutation_sym (CscProps2.sort_perm text _)))); [rewrite <- E | rewrite E]; apply (Permutation_in _ (CscProps2.sort_perm text _)); exact Hx.
  - apply Forall_forall. intros y Hy. apply (Permutation_in _ (Permutation_sym (CscProps2.sort_perm text _))) in Hy. exact (proj1 (Forall_forall _ _) (sigs_good l H) y Hy).
  - apply Forall_forall. intros y Hy. apply (Permutation_in _ (Permutation_sym (CscProps2.sort_perm text _))) in Hy. exact (proj1 (Forall_forall _ _) (sigs_good l' H') y Hy).
Qed.
Lemma dir_same l l' : Proper (Dir l) -> Proper (Dir l') -> csig hash (Dir l) = csig hash (Dir l') -> forall n t, In (n, t) l -> exists t', In (n, t') l' /\ csig hash t = csig hash t'.
Proof.
  intros P P' E n t H. inversion P as [|m N Hl]; inversion P' as [|m' N' Hl']; subst.
  cbn [csig] in E. apply one in E. fold (sigs l) in E. fold (sigs l') in E.
  assert (X : In (n, csig hash t) (sigs l')).
  { apply (contents_same l l'); [intros a b Hab; exact (proj1 (Hl a b Hab)) | intros a b Hab; exact (proj1 (Hl' a b Hab)) | exact E|]. apply in_map_iff. exists (n, t). split; [reflexivity | exact H]. }
  apply in_map_iff in X. destruct X as [[a b] [X Hab]]. cbn [fst snd] in X. injection X as -> X. exists b. split; [exact Hab | symmetry; exact X].
Qed.
(* equal signatures: at every path of one tree there is the same in the other, unless a file takes the place of a directory there *)
Theorem C80e_signature t t' : Proper t -> Proper t' -> csig hash t = csig hash t' -> forall p s, At t p s ->
  (exists s', At t' p s' /\ csig hash s = csig hash s' /\ forall c c', s = File c -> s' = File c' -> c = c') \/
  exists q r l c, p = q ++ r /\ At t q (Dir l) /\ At t' q (File c) /\ csig hash (Dir l) = csig hash (File c).
Proof.
  intros P P' E p s H. revert t' P P' E. induction H as [t|l n t p s Hin H IH]; intros t' P P' E.
  - left. exists t'. split; [constructor|]. split; [exact E|]. intros c c' -> ->. cbn [csig] in E. apply one. exact E.
  - destruct t' as [c|l'].
    + right. exists [], (n :: p), l, c. split; [reflexivity|]. split; [constructor|]. split; [constructor | exact E].
    + destruct (dir_same l l' P P' E n t Hin) as [t' [Hin' E']]. inversion P as [|m N Hl]; inversion P' as [|m' N' Hl']; subst.
      destruct (IH t' (proj2 (Hl n t Hin)) (proj2 (Hl' n t' Hin')) E') as [[s' [A B]] | [q [r [k [c [-> [A1 [A2 A3]]]]]]]].
      * left. exists s'. split; [apply (At_below l' n t'); assumption | exact B].
      * right. exists (n :: q), r, k, c. split; [reflexivity|]. split; [apply (At_below l n t); assumption|]. split; [apply (At_below l' n t'); assumption | exact A3].
Qed.
End Sig.
Lemma nodup_fst {A B} (l : list (A * B)) x y : NoDup (map fst l) -> In x l -> In y l -> fst x = fst y -> x = y.
Proof.
  induction l as [|z l IH]; intros N Hx Hy E; [destruct Hx|]. cbn [map] in N. inversion N as [|w m Nz Nl]; subst.
  destruct Hx as [<- | Hx], Hy as [<- | Hy].
  - reflexivity.
  - exfalso. apply Nz. rewrite E. apply in_map. exact Hy.
  - exfalso. apply Nz. rewrite <- E. apply in_map. exact Hx.
  - exact (IH Nl Hx Hy E).
Qed.
(* the order in which a directory's nodes are kept does not matter *)
Theorem C80f_same hash t t' : Proper t -> Proper t' -> Same t t' -> csig hash t = csig hash t'.
Proof.
  revert t'. induction t as [c|l IH] using tree_ind2; intros t' P P' H.
  - inversion H; reflexivity.
  - inversion H as [|m l' H1 H2]; subst. inversion P as [|m N Hl]; inversion P' as [|m' N' Hl']; subst. cbn [csig]. f_equal.
    fold (sigs hash l). fold (sigs hash l'). unfold contents_dir. f_equal.
    assert (K : forall n a b, In (n, a) l -> In (n, b) l' -> Same a b -> csig hash a = csig hash b).
    { intros n a b Ha Hb Hs. apply (proj1 (Forall_forall _ _) IH (n, a) Ha); [exact (proj2 (Hl n a Ha)) | exact (proj2 (Hl' n b Hb)) | exact Hs]. }
    assert (M : forall l, map fst (sigs hash l) = map fst l) by (intros k; unfold sigs; rewrite map_map; reflexivity).
    apply CscProps2.ordered_unique; [apply CscProps2.sort_ordered | apply CscProps2.sort_ordered | |].
    + rewrite <- !CscProps2.sort_perm. apply NoDup_Permutation.
      * apply (NoDup_map_inv fst). rewrite M. exact N.
      * apply (NoDup_map_inv fst). rewrite M. exact N'.
      * intros x. unfold sigs. rewrite !in_map_iff. split; intros [[n a] [<- Ha]]; cbn [fst snd].
        -- destruct (H1 n a Ha) as [b [Hb Hs]]. exists (n, b). split; [cbn [fst snd]; f_equal; symmetry; exact (K n a b Ha Hb Hs) | exact Hb].
        -- destruct (H2 n a Ha) as [b [Hb Hs]]. exists (n, b). split; [cbn [fst snd]; f_equal; exact (K n b a Hb Ha Hs) | exact Hb].
    + intros x y Hx Hy E. apply (Permutation_in _ (Permutation_sym (CscProps2.sort_perm text _))) in Hx, Hy. apply (nodup_fst (sigs hash l)); [rewrite M; exact N | exact Hx | exact Hy | exact E].
Qed.

(* ---- a case ---- *)
Definition L := lit.
Definition docs_listing (p : path) : option (list text) :=
  if path_eqb p [] then Some [L "b.txt"; L "sub"; L ".sconsign"; L "a.txt"]
  else if path_eqb p [L "sub"] then Some [L "c.txt"; L ".sconsign_sha256.dblite"] else None.
Definition docs_known (p : path) : list text := if path_eqb p [] then [L "."; L ".."; L "made.txt"; L "a.txt"] else [L "."; L ".."].
Definition docs_isdir (p : path) : bool := path_eqb p [L "sub"].
Theorem C80_case :
  dir_scanner docs_listing docs_known docs_isdir 10 = Some [[L "a.txt"]; [L "b.txt"]; [L "made.txt"]; [L "sub"]; [L "sub"; L "c.txt"]] /\
  entry_scanner docs_known 10 = Some [[L "a.txt"]; [L "made.txt"]] /\
  Below docs_listing docs_known docs_isdir [L "sub"; L "c.txt"] /\
  (exists all, forall q, Below docs_listing docs_known docs_isdir q -> In q all).
Proof.
  assert (E : dir_scanner docs_listing docs_known docs_isdir 10 = Some [[L "a.txt"]; [L "b.txt"]; [L "made.txt"]; [L "sub"]; [L "sub"; L "c.txt"]]) by (vm_compute; reflexivity).
  split; [exact E|]. split; [vm_compute; reflexivity|]. destruct (C80a_below _ _ _ _ _ E) as [_ H]. split; [apply H; right; right; right; right; left; reflexivity|].
  eexists. intros q Hq. apply H. exact Hq.
Qed.
(* digests: a hash that is a word for every text (each character as its code in the letters p and q) *)
Definition code (c : ascii) : text := match c with Ascii a b d e f g h i => map (fun x : bool => if x then "p"%char else "q"%char) [a; b; d; e; f; g; h; i] end.
Definition hash_ (t : text) : text := flat_map code t.
Lemma hash_word t : ~ In " "%char (hash_ t) /\ ~ In newline (hash_ t).
Proof.
  assert (W : forall c, In c (hash_ t) -> c = "p"%char \/ c = "q"%char).
  { intros c H. apply in_flat_map in H. destruct H as [[x1 x2 x3 x4 x5 x6 x7 x8] [_ H]]. apply in_map_iff in H. destruct H as [[] [<- _]]; [left | right]; reflexivity. }
  split; intros H; destruct (W _ H) as [E|E]; discriminate.
Qed.
Lemma hash_one a : forall b, hash_ a = hash_ b -> a = b.
Proof.
  induction a as [|x a IH]; intros [|y b] E; [reflexivity | destruct y; discriminate | destruct x; discriminate|].
  destruct x as [x1 x2 x3 x4 x5 x6 x7 x8], y as [y1 y2 y3 y4 y5 y6 y7 y8]. cbn [hash_ flat_map code map app] in E. fold (hash_ a) in E. fold (hash_ b) in E.
  injection E as E1 E2 E3 E4 E5 E6 E7 E8 E. f_equal; [|exact (IH b E)].
  assert (B : forall u v : bool, (if u then "p"%char else "q"%char) = (if v then "p"%char else "q"%char) -> u = v) by (intros [] []; intros X; discriminate || reflexivity).
  rewrite (B _ _ E1), (B _ _ E2), (B _ _ E3), (B _ _ E4), (B _ _ E5), (B _ _ E6), (B _ _ E7), (B _ _ E8). reflexivity.
Qed.
Definition tree1 : tree := Dir [(L "b", File (L "two")); (L "a", File (L "one")); (L "sub", Dir [(L "c", File [])])].
Definition tree2 : tree := Dir [(L "a", File (L "one")); (L "sub", Dir [(L "c", File [])]); (L "b", File (L "two"))].
Definition tree3 : tree := Dir [(L "a", File (L "one")); (L "sub", Dir [(L "c", File (L "x"))]); (L "b", File (L "two"))].
Theorem C80_case_signature : Proper tree1 /\ Proper tree2 /\ Same tree1 tree2 /\ csig hash_ tree1 = csig hash_ tree2 /\ csig hash_ tree1 <> csig hash_ tree3.
Proof.
  assert (NN : forall n : text, existsb (Ascii.eqb (ascii_of_nat 10)) n = false -> ~ In (ascii_of_nat 10) n).
  { intros n E H. assert (X : existsb (Ascii.eqb (ascii_of_nat 10)) n = true) by (apply existsb_exists; exists (ascii_of_nat 10); split; [exact H | apply Ascii.eqb_refl]). rewrite X in E. discriminate. }
  assert (PS : Proper (Dir [(L "c", File [])])).
  { apply P_dir; [cbn [map fst]; apply NoDup_cons; [intros []|apply NoDup_nil]|]. intros n t [H|[]]. injection H as <- <-. split; [apply (NN _); reflexivity | constructor]. }
  assert (P1 : Proper tree1).
  { apply P_dir; [cbn [map fst]; repeat (apply NoDup_cons; [intros H; repeat (destruct H as [H|H]; [discriminate|]); destruct H|]); apply NoDup_nil|].
    intros n t [H|[H|[H|[]]]]; injection H as <- <-; (split; [apply (NN _); reflexivity | first [apply P_file | exact PS]]). }
  assert (P2 : Proper tree2).
  { apply P_dir; [cbn [map fst]; repeat (apply NoDup_cons; [intros H; repeat (destruct H as [H|H]; [discriminate|]); destruct H|]); apply NoDup_nil|].
    intros n t [H|[H|[H|[]]]]; injection H as <- <-; (split; [apply (NN _); reflexivity | first [apply P_file | exact PS]]). }
  assert (SS : Same (Dir [(L "c", File [])]) (Dir [(L "c", File [])])).
  { constructor; intros n t [H|[]]; injection H as <- <-; exists (File []); (split; [left; reflexivity | constructor]). }
  assert (S12 : Same tree1 tree2).
  { constructor; intros n t [H|[H|[H|[]]]]; injection H as <- <-; (eexists; split; [cbn [In]; eauto|]); first [apply S_file | exact SS]. }
  split; [exact P1|]. split; [exact P2|]. split; [exact S12|]. split; [apply C80f_same; assumption|]. vm_compute. discriminate.
Qed.
(* ---- what is not true ---- *)
(* names of two lines: whatever the hash, different directories with the same signature *)
Theorem C80_newline_refuted hash : exists l l' : list (text * tree), map fst l <> map fst l' /\ csig hash (Dir l) = csig hash (Dir l').
Proof.
  exists [(L "a", File (L "1")); (L "b", File (L "2"))], [(L "a" ++ newline :: hash (L "2") ++ L " b", File (L "1"))].
  split; [discriminate|]. cbn [csig map fst snd]. f_equal. unfold contents_dir. cbn [CscModel.sort CscModel.insert fst snd flat_map].
  assert (E : CscModel.leb (L "a") (L "b") = true) by reflexivity. rewrite E. cbn [flat_map]. unfold line. cbn [fst snd].
  repeat (rewrite <- ?app_assoc; cbn [app]). reflexivity.
Qed.
(* a file that has as content the text the signature of a directory is made from *)
Theorem C80_file_refuted hash : exists l c, csig hash (Dir l) = csig hash (File c).
Proof. exists [(L "a", File (L "1"))]. eexists. reflexivity. Qed.
(* a target in its own source directory is among its own dependencies *)
Theorem C80_inside_refuted : ~ (forall listing known isdir fuel deps target, In target (known []) -> dir_scanner listing known isdir fuel = Some deps -> ~ In [target] deps).
Proof.
  intros H. apply (H (fun p => if path_eqb p [] then Some [L "a.txt"] else None) (fun p => [L "docs.tar"]) (fun _ => false) 5 [[L "a.txt"]; [L "docs.tar"]] (L "docs.tar")); [left; reflexivity | vm_compute; reflexivity|].
  right. left. reflexivity.
Qed.
(* a signature database under another name is a dependency like any file *)
Theorem C80_database_refuted : ~ (forall listing known isdir fuel deps, dir_scanner listing known isdir fuel = Some deps -> ~ In [L "signatures.dblite"] deps).
Proof.
  intros H. apply (H (fun p => if path_eqb p [] then Some [L "signatures.dblite"] else None) (fun p => []) (fun _ => false) 5 [[L "signatures.dblite"]]); [vm_compute; reflexivity|]. left. reflexivity.
Qed.
(* without a scanner, files that nobody has named and files in directories below are not dependencies *)
Theorem C80_unknown_refuted : exists listing known isdir deps, dir_scanner listing known isdir 9 = Some deps /\ In [L "b.txt"] deps /\ In [L "sub"; L "c.txt"] deps /\
  forall fuel d, entry_scanner known (S fuel) = Some d -> ~ In [L "b.txt"] d /\ ~ In [L "sub"; L "c.txt"] d.
Proof.
  exists docs_listing, docs_known, docs_isdir. eexists. split; [vm_compute; reflexivity|]. split; [right; left; reflexivity|]. split; [right; right; right; right; left; reflexivity|].
  intros fuel d E. destruct (C80d_known _ _ _ E) as [_ H]. split; intros Q; apply H in Q; destruct Q as [n [E2 [K _]]]; [|discriminate].
  injection E2 as E2. apply mem_in in K. rewrite <- E2 in K. vm_compute in K. discriminate.
Qed.
(* a directory that contains itself (by a link): the scan has no end of its own; the system ends it when paths become too long *)
Theorem C80_loop_refuted : ~ (forall listing known isdir, exists fuel deps, dir_scanner listing known isdir fuel = Some deps).
Proof.
  intros H. destruct (H (fun _ => Some [L "loop"]) (fun _ => []) (fun _ => true)) as [fuel [deps E]]. destruct (C80a_below _ _ _ _ _ E) as [_ B].
  assert (R : forall k, In (repeat (L "loop") (S k)) deps).
  { intros k. apply B. induction k as [|k IH]; [apply B_here | change (repeat (L "loop") (S (S k))) with (L "loop" :: repeat (L "loop") (S k)); rewrite repeat_cons; apply B_deeper; [exact IH | reflexivity|]];
      (exists [L "loop"]; split; [reflexivity|]; split; [left; left; reflexivity|]; apply scan_true; vm_compute; reflexivity). }
  assert (M : forall (l : list path) k, (forall q, In q l -> List.length q <= k) -> ~ In (repeat (L "loop") (S k)) l).
  { intros l k Hl Q. apply Hl in Q. rewrite repeat_length in Q. lia. }
  apply (M deps (list_max (map (@List.length text) deps))); [|apply R].
  intros q Hq. assert (X : Forall (fun k => k <= list_max (map (@List.length text) deps)) (map (@List.length text) deps)) by (apply list_max_le; reflexivity).
  exact (proj1 (Forall_forall _ _) X _ (in_map _ _ _ Hq)).
Qed.
Print Assumptions C80a_below.
Print Assumptions C80e_signature.
Print Assumptions C80f_same.
Print Assumptions C80_loop_refuted.
