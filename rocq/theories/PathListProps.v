(* C37: the path list cache does not change results *)
From Coq Require Import List Arith Bool Lia.
From Verif Require Import PathsModel PathsProps PathListModel.
Import ListNotations.

(* ---- specification: the elements of a search path, without any cache ---- *)
Fixpoint leaves (v : pv) : list leaf := match v with PVStr s => [LStr s] | PVObj o => [LObj o] | PVSeq l => flat_map leaves l end.
Definition elements (sep : nat) (v : pv) (do_split : bool) : list leaf :=
  match v with PVStr s => if do_split then map LStr (split sep s) else [LStr s] | _ => leaves v end.
Section Value.
Variable V : Type. Variable of_str : str -> V. Variable conv : nat -> V. Variable truth : V -> bool. Variable subst : str -> list V + V.
(* an element contributes: nothing if it is empty, itself if it has no $, else its expansion *)
Definition contribution (x : leaf) : list V :=
  match x with
  | LObj o => if truth (conv o) then [conv o] else []
  | LStr s => if in_dec Nat.eq_dec 36 s then match subst s with inl vs => vs | inr v => if truth v then [v] else [] end
              else if list_eq_dec Nat.eq_dec s [] then [] else [of_str s]
  end.
(* ---- proofs ---- *)
Lemma subst_path_spec l : subst_path V of_str conv truth subst (map classify l) = flat_map contribution l.
Proof.
  induction l as [|x l IH]; [reflexivity|]. cbn [map flat_map]. destruct x as [s|o]; cbn [classify contribution].
  - destruct (existsb (fun c => c =? DOLLAR) s) eqn:E; destruct (in_dec Nat.eq_dec 36 s) as [D|D]; cbn [subst_path].
    + destruct (subst s) as [vs|v]; [rewrite IH; reflexivity|]. destruct (truth v); rewrite IH; reflexivity.
    + apply existsb_exists in E. destruct E as (c & H & Q). apply Nat.eqb_eq in Q. subst c. contradiction.
    + rewrite <- not_true_iff_false in E. elim E. apply existsb_exists. exists 36. split; [exact D | reflexivity].
    + destruct (list_eq_dec Nat.eq_dec s []) as [->|N]; [exact IH|]. destruct s; [contradiction|]. rewrite IH. reflexivity.
  - cbn [subst_path]. destruct (truth (conv o)); rewrite IH; reflexivity.
Qed.
End Value.
Lemma pv_ind2 (P : pv -> Prop) : (forall s, P (PVStr s)) -> (forall o, P (PVObj o)) -> (forall l, Forall P l -> P (PVSeq l)) -> forall v, P v.
Proof. intros A B C. fix IH 1. intros [s|o|l]; [apply A | apply B | apply C]. induction l as [|b r IHl]; [apply Forall_nil | apply Forall_cons; [apply IH | exact IHl]]. Qed.
Lemma do_flatten_leaves v : forall r, do_flatten v r = r ++ leaves v.
Proof.
  induction v as [s|o|l F] using pv_ind2; intros r; [reflexivity | reflexivity|]. cbn [do_flatten leaves]. revert r. induction l as [|x l IH]; intros r; [rewrite app_nil_r; reflexivity|]. cbn [flat_map]. rewrite (Forall_inv F), IH by exact (Forall_inv_tail F). rewrite app_assoc. reflexivity.
Qed.
Lemma leaf_eqb_eq a b : leaf_eqb a b = true <-> a = b.
Proof. destruct a, b; cbn; try (split; discriminate); [rewrite str_eqb_eq; split; congruence | rewrite Nat.eqb_eq; split; congruence]. Qed.
Lemma leaves_eqb_eq a : forall b, leaves_eqb a b = true <-> a = b.
Proof. induction a as [|x a IH]; intros [|y b]; cbn; try (split; congruence). rewrite andb_true_iff, leaf_eqb_eq, IH. split; [intros [-> ->]; reflexivity | intros H; injection H; auto]. Qed.
Lemma key_eqb_eq a b : key_eqb a b = true <-> a = b.
Proof. destruct a, b; cbn; try (split; discriminate); [rewrite str_eqb_eq | rewrite Nat.eqb_eq | rewrite leaves_eqb_eq]; split; congruence. Qed.
Lemma new_pathlist_elements sep v b : new_pathlist sep (key_of v) b = map classify (elements sep v b).
Proof. unfold new_pathlist. destruct v as [s|o|l]; [reflexivity | reflexivity|]. unfold key_of, flatten, elements. rewrite do_flatten_leaves. reflexivity. Qed.

(* no earlier call for the same string with the other value of `split` *)
Definition split_agrees (calls : list (pv * bool)) (v : pv) (b : bool) : Prop := forall s b', v = PVStr s -> In (PVStr s, b') calls -> b' = b.
Lemma cache_content sep calls : forall c k r, find (run_cache sep calls c) k = Some r -> find c k = Some r \/ exists v b, In (v, b) calls /\ key_of v = k /\ r = new_pathlist sep k b.
Proof.
  induction calls as [|[v b] calls IH]; intros c k r H; [left; exact H|]. unfold run_cache in H. cbn [fold_left] in H. apply IH in H. destruct H as [H|(v' & b' & A & B & C)]; [|right; exists v', b'; split; [right; exact A | auto]].
  cbn [fst snd] in H. unfold path_list in H. destruct (find c (key_of v)) as [r0|] eqn:Fc; [left; exact H|]. cbn [fst find] in H. destruct (key_eqb k (key_of v)) eqn:E; [|left; exact H]. apply key_eqb_eq in E. injection H as <-. right. exists v, b. split; [left; reflexivity|]. split; [auto | rewrite E; reflexivity].
Qed.
(* C37: after any calls, the cached path list is the one that would be built afresh, so its expansion for any environment is
   the expansion of the elements in order *)
Theorem C37_cache_transparent sep calls v b : split_agrees calls v b ->
  snd (path_list sep (run_cache sep calls []) v b) = new_pathlist sep (key_of v) b /\
  forall (V : Type) of_str conv truth subst, subst_path V of_str conv truth subst (snd (path_list sep (run_cache sep calls []) v b)) = flat_map (contribution V of_str conv truth subst) (elements sep v b).
Proof.
  intros A. assert (G : snd (path_list sep (run_cache sep calls []) v b) = new_pathlist sep (key_of v) b).
  { unfold path_list. destruct (find (run_cache sep calls []) (key_of v)) as [r|] eqn:F; [|reflexivity]. cbn [snd]. apply cache_content in F. destruct F as [F|(v' & b' & I' & K & ->)]; [discriminate|]. destruct v as [s|o|l]; [|reflexivity|reflexivity].
    destruct v' as [s'|o'|l']; cbn in K; try discriminate. injection K as ->. rewrite (A s b' eq_refl I'). reflexivity. }
  split; [exact G|]. intros. rewrite G, new_pathlist_elements. apply subst_path_spec.
Qed.
(* a string with separators is the same search path as the list of its parts; nesting does not matter *)
Theorem C37b_same_path sep s l : elements sep (PVStr s) true = elements sep (PVSeq (map PVStr (split sep s))) true /\ elements sep (PVSeq l) true = elements sep (PVSeq [PVSeq l]) true.
Proof.
  split; [|cbn; rewrite app_nil_r; reflexivity]. cbn [elements leaves]. induction (split sep s) as [|w ws IH]; [reflexivity|]. cbn [map flat_map leaves app]. f_equal. exact IH.
Qed.
Theorem C37c_flatten v : flatten v = leaves v.
Proof. destruct v as [s|o|l]; [reflexivity | reflexivity|]. unfold flatten. rewrite do_flatten_leaves. reflexivity. Qed.
(* the key ignores `split`: the same string looked up before with splitting is split although the caller asked not to *)
Theorem C37_refuted_split : exists sep calls v, snd (path_list sep (run_cache sep calls []) v false) <> new_pathlist sep (key_of v) false.
Proof. exists 58, [(PVStr [97; 58; 98], true)], (PVStr [97; 58; 98]). discriminate. Qed.
Example C37_witness : let calls := [(PVSeq [PVStr [97]; PVSeq [PVStr [98]; PVObj 3]], true); (PVStr [97; 58; 36; 98], true)] in split_agrees calls (PVStr [97; 58; 36; 98]) true /\
  snd (path_list 58 (run_cache 58 calls []) (PVStr [97; 58; 36; 98]) true) = [TNoSubst [97]; TSubst [36; 98]] /\ snd (path_list 58 (run_cache 58 calls []) (PVSeq [PVSeq [PVStr [97]; PVStr [98]]; PVObj 3]) true) = [TNoSubst [97]; TNoSubst [98]; TObject 3].
Proof. cbv zeta. split; [intros s b' _ [H|[H|[]]]; [discriminate | injection H; auto] | split; reflexivity]. Qed.
Print Assumptions C37_cache_transparent. Print Assumptions C37b_same_path. Print Assumptions C37c_flatten. Print Assumptions C37_refuted_split.
