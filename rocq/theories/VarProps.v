(* C54: build variables (SCons/Variables).  Vocabulary in VarSpec.v. *)
From Coq Require Import Ascii String List Bool Permutation Lia.
Import ListNotations.
From Verif Require Import VarModel VarSpec.
Open Scope string_scope.
Open Scope list_scope.

Lemma mem_In a l : mem a l = true <-> In a l.
Proof. unfold mem. rewrite existsb_exists. split; [intros (x & H & E); apply String.eqb_eq in E; subst; exact H | intros H; exists a; split; [exact H | apply String.eqb_refl]]. Qed.
Lemma matches_name a o : matches a o = true <-> name_of o a.
Proof. unfold matches, name_of. rewrite mem_In, in_app_iff. cbn. firstorder. Qed.
Lemma vset_same e k v : vset e k v k = Some v.
Proof. unfold vset. rewrite String.eqb_refl. reflexivity. Qed.
Lemma vset_other e k v x : x <> k -> vset e k v x = e x.
Proof. intros N. unfold vset. destruct (String.eqb_spec x k); congruence. Qed.

Lemma key_inj os o o' : names_distinct os -> In o os -> In o' os -> v_key o = v_key o' -> o = o'.
Proof. intros [_ D] H H' E. apply (D o o' (v_key o)); auto; left; auto. Qed.

(* ---- one assignment ---- *)
Lemma hits_nil os a o : filter (matches a) os = [] -> In o os -> ~ name_of o a.
Proof. intros E H N. apply matches_name in N. assert (Q : In o (filter (matches a) os)) by (apply filter_In; auto). rewrite E in Q. exact Q. Qed.
Lemma hits_one os a o : names_distinct os -> In o os -> name_of o a -> filter (matches a) os = [o].
Proof.
  intros D Ho Na.
  assert (U : forall o', In o' (filter (matches a) os) -> o' = o) by (intros o' H; apply filter_In in H; destruct H as [A B]; apply matches_name in B; symmetry; eapply (proj2 D); eauto).
  assert (Nd : NoDup (filter (matches a) os)) by (apply NoDup_filter; eapply NoDup_map_inv; exact (proj1 D)).
  assert (Ho' : In o (filter (matches a) os)) by (apply filter_In; split; [exact Ho | apply matches_name; exact Na]).
  destruct (filter (matches a) os) as [|x [|y l]]; [elim Ho' | rewrite (U x); [reflexivity | left; reflexivity] |].
  exfalso. inversion Nd as [|z zs Hz Hzs Ez]. subst. apply Hz. rewrite (U x), (U y); [left; reflexivity | right; left; reflexivity | left; reflexivity].
Qed.
Lemma assign_hit os u a v o : names_distinct os -> In o os -> name_of o a ->
  assign1 os u (a, v) = {| u_values := vset (u_values u) (v_key o) v; u_defaulted := remove_first (v_key o) (u_defaulted u); u_unknown := u_unknown u |}.
Proof. intros D Ho Na. unfold assign1. cbn [fst snd]. rewrite (hits_one os a o D Ho Na). reflexivity. Qed.
Lemma assign_miss os u a v : (forall o, In o os -> ~ name_of o a) ->
  assign1 os u (a, v) = {| u_values := u_values u; u_defaulted := u_defaulted u; u_unknown := vset (u_unknown u) a v |}.
Proof.
  intros H. unfold assign1. cbn [fst snd]. assert (E : filter (matches a) os = []).
  { destruct (filter (matches a) os) as [|x l] eqn:E; [reflexivity|]. assert (Q : In x (filter (matches a) os)) by (rewrite E; left; reflexivity). apply filter_In in Q. destruct Q as [A B]. apply matches_name in B. elim (H x A B). }
  rewrite E. reflexivity.
Qed.
Lemma name_dec os a : names_distinct os -> (exists o, In o os /\ name_of o a) \/ (forall o, In o os -> ~ name_of o a).
Proof.
  intros _. destruct (existsb (matches a) os) eqn:E.
  - left. apply existsb_exists in E. destruct E as (o & A & B). exists o. split; [exact A | apply matches_name; exact B].
  - right. intros o Ho N. apply matches_name in N. assert (existsb (matches a) os = true) by (apply existsb_exists; eauto). congruence.
Qed.
Lemma name_dec1 o a : name_of o a \/ ~ name_of o a.
Proof. destruct (matches a o) eqn:E; [left; apply matches_name; exact E | right; intros N; apply matches_name in N; congruence]. Qed.

Definition assigns os l u := fold_left (assign1 os) l u.
Lemma assigns_concat os fs u : fold_left (fun u f => fold_left (assign1 os) f u) fs u = assigns os (concat fs) u.
Proof. revert u. induction fs as [|f fs IH]; intros u; [reflexivity|]. cbn. rewrite IH. unfold assigns. rewrite fold_left_app. reflexivity. Qed.

Lemma assigns_not os l : forall u o, names_distinct os -> In o os -> not_given o l ->
  u_values (assigns os l u) (v_key o) = u_values u (v_key o).
Proof.
  induction l as [|[a v] l IH]; intros u o D Ho Ng; [reflexivity|]. cbn [assigns fold_left]. change (fold_left (assign1 os) l) with (assigns os l).
  rewrite IH; [|exact D | exact Ho | intros b w Hb; apply (Ng b w); right; exact Hb].
  destruct (name_dec os a D) as [(o' & H1 & H2)|H1].
  - rewrite (assign_hit os u a v o' D H1 H2). cbn [u_values]. apply vset_other. intros E.
    rewrite (key_inj os o o' D Ho H1 E) in Ng. exact (Ng a v (or_introl eq_refl) H2).
  - rewrite (assign_miss os u a v H1). reflexivity.
Qed.
Lemma assigns_last os l u o v : names_distinct os -> In o os -> last_given o l v -> u_values (assigns os l u) (v_key o) = Some v.
Proof.
  intros D Ho (l1 & a & l2 & -> & Na & Ng). unfold assigns. rewrite fold_left_app. cbn [fold_left]. change (fold_left (assign1 os) l2) with (assigns os l2).
  rewrite assigns_not; [|exact D | exact Ho | exact Ng]. rewrite (assign_hit os _ a v o D Ho Na). apply vset_same.
Qed.
Lemma given_dec o l : not_given o l \/ exists v, last_given o l v.
Proof.
  induction l as [|[a v] l IH]; [left; intros a v []|]. destruct IH as [IH|(w & l1 & b & l2 & -> & Nb & Ng)].
  - destruct (name_dec1 o a) as [N|N]; [right; exists v, [], a, l; auto|]. left. intros b w [E|H]; [injection E as <- <-; exact N | exact (IH b w H)].
  - right. exists w, ((a, v) :: l1), b, l2. auto.
Qed.
Lemma last_unique o l v w : last_given o l v -> last_given o l w -> v = w.
Proof.
  intros (l1 & a & l2 & -> & Na & Ng). revert l2 Ng. induction l1 as [|x l1 IH]; intros l2 Ng (m1 & b & m2 & E & Nb & Nh); destruct m1 as [|y m1]; cbn in E; injection E as E1 E2.
  - congruence.
  - subst. elim (Ng b w); [apply in_or_app; right; left; reflexivity | exact Nb].
  - subst. elim (Nh a v); [apply in_or_app; right; left; reflexivity | exact Na].
  - subst. apply (IH l2 Ng). exists m1, b, m2. auto.
Qed.
Lemma last_not o l v : last_given o l v -> not_given o l -> False.
Proof. intros (l1 & a & l2 & -> & Na & _) H. apply (H a v); [apply in_or_app; right; left; reflexivity | exact Na]. Qed.

(* ---- defaults ---- *)
Lemma defaults_values os u o : NoDup (map v_key os) -> In o os ->
  u_values (defaults os u) (v_key o) = match v_default o with Some d => Some d | None => u_values u (v_key o) end.
Proof.
  assert (Out : forall os u k, ~ In k (map v_key os) -> u_values (defaults os u) k = u_values u k).
  { induction os0 as [|p os0 IH]; intros u0 k Nk; [reflexivity|]. cbn [defaults]. cbn in Nk. rewrite IH by tauto. destruct (v_default p); [|reflexivity]. cbn. apply vset_other. intros ->. tauto. }
  revert u. induction os as [|p os IH]; intros u Nd Ho; [elim Ho|]. cbn [map] in Nd. inversion Nd as [|k ks Nk Nd' E]; subst. cbn [defaults]. destruct Ho as [->|Ho].
  - rewrite Out by exact Nk. destruct (v_default o); [apply vset_same | reflexivity].
  - rewrite IH by assumption. destruct (v_default o); [reflexivity|]. destruct (v_default p); [|reflexivity]. cbn. apply vset_other. intros E. apply Nk. rewrite <- E. apply in_map. exact Ho.
Qed.

(* the values collected by Update *)
Definition collected (vs : variables) (args : option dict) : ust :=
  assigns (vs_options vs) (match args with None => vs_args vs | Some a => a end)
    (assigns (vs_options vs) (concat (vs_files vs)) (defaults (vs_options vs) {| u_values := fun _ => None; u_defaulted := []; u_unknown := vs_unknown vs |})).
Definition given_args (vs : variables) (args : option dict) : dict := match args with None => vs_args vs | Some a => a end.
Lemma collected_setting vs args o r : names_distinct (vs_options vs) -> In o (vs_options vs) -> setting (vs_files vs) (given_args vs args) o r ->
  u_values (collected vs args) (v_key o) = r.
Proof.
  intros D Ho H. unfold collected. fold (given_args vs args). destruct H as [v L|v N L|v N N2 E|N N2 E].
  - apply assigns_last; assumption.
  - rewrite assigns_not by assumption. apply assigns_last; assumption.
  - rewrite !assigns_not by assumption. rewrite defaults_values; [|exact (proj1 D) | exact Ho]. rewrite E. reflexivity.
  - rewrite !assigns_not by assumption. rewrite defaults_values; [|exact (proj1 D) | exact Ho]. rewrite E. reflexivity.
Qed.
Lemma setting_exists files args o : exists r, setting files args o r.
Proof.
  destruct (given_dec o args) as [N|[v L]]; [|exists (Some v); constructor; exact L].
  destruct (given_dec o (concat files)) as [M|[v L]]; [|exists (Some v); apply from_file; assumption].
  destruct (v_default o) as [v|] eqn:E; [exists (Some v); apply from_default; assumption | exists None; apply not_set; assumption].
Qed.

(* ---- putting the values into the environment ---- *)
Lemma put_other os vals e x : ~ In x (map v_key os) -> put_values os vals e x = e x.
Proof.
  unfold put_values. revert e. induction os as [|o os IH]; intros e N; [reflexivity|]. cbn in N. cbn [fold_left]. rewrite IH by tauto. destruct (vals (v_key o)); [|reflexivity]. apply vset_other. intros ->. tauto.
Qed.
Lemma put_key os vals e o : In o os -> put_values os vals e (v_key o) = match vals (v_key o) with Some v => Some v | None => e (v_key o) end.
Proof.
  unfold put_values. revert e. assert (G : forall os e k, (vals k = None -> fold_left (fun e o => match vals (v_key o) with Some v => vset e (v_key o) v | None => e end) os e k = e k)
    /\ (forall v, vals k = Some v -> e k = Some v -> fold_left (fun e o => match vals (v_key o) with Some v => vset e (v_key o) v | None => e end) os e k = Some v)).
  { induction os0 as [|p os0 IH]; intros e k; cbn [fold_left]; [auto|]. destruct (IH (match vals (v_key p) with Some v => vset e (v_key p) v | None => e end) k) as [A B]. split.
    - intros E. rewrite A by exact E. destruct (vals (v_key p)) eqn:F; [|reflexivity]. apply vset_other. intros ->. congruence.
    - intros v E Ek. apply B; [exact E|]. destruct (vals (v_key p)) as [w|] eqn:F; [|exact Ek]. destruct (String.eqb_spec k (v_key p)) as [->|N]; [rewrite vset_same; congruence | rewrite vset_other; assumption]. }
  induction os as [|p os IH]; intros e Ho; [elim Ho|]. cbn [fold_left]. destruct Ho as [->|Ho].
  - destruct (vals (v_key o)) as [v|] eqn:E; [apply (G os _ (v_key o)); [exact E | apply vset_same] | apply (G os e (v_key o)); exact E].
  - rewrite IH by exact Ho. destruct (vals (v_key o)) as [v|] eqn:E; [reflexivity|]. destruct (vals (v_key p)) eqn:F; [|reflexivity]. apply vset_other. intros Q. congruence.
Qed.

Section WithSubst.
Context (expand : venv -> string -> string).

Lemma convert_other os vals : forall e e' x, convert expand os vals e = Some e' -> ~ In x (map v_key os) -> e' x = e x.
Proof.
  induction os as [|o os IH]; intros e e' x H N; cbn [convert] in H; [injection H as <-; reflexivity|]. cbn in N.
  destruct (v_conv o) as [f|]; [|eapply IH; [exact H | tauto]]. destruct (vals (v_key o)) as [v0|]; [|eapply IH; [exact H | tauto]]. destruct (e (v_key o)) as [v|]; [|eapply IH; [exact H | tauto]].
  destruct (f _) as [w|]; [|discriminate]. rewrite (IH _ _ x H) by tauto. apply vset_other. intros ->. tauto.
Qed.
Lemma convert_key os vals : NoDup (map v_key os) -> forall e e' o, convert expand os vals e = Some e' -> In o os ->
  match v_conv o, vals (v_key o), e (v_key o) with
  | Some f, Some _, Some v => exists e1 w, f (if v_subst o then VStr (subst_val expand e1 v) else v) = Some w /\ e' (v_key o) = Some w
  | _, _, _ => e' (v_key o) = e (v_key o)
  end.
Proof.
  induction os as [|p os IH]; intros Nd e e' o H Ho; [elim Ho|]. cbn [map] in Nd. inversion Nd as [|k ks Nk Nd' E0]; subst. destruct Ho as [->|Ho].
  - cbn [convert] in H. destruct (v_conv o) as [f|]; [|eapply convert_other; eassumption]. destruct (vals (v_key o)) as [v0|]; [|eapply convert_other; eassumption].
    destruct (e (v_key o)) as [v|] eqn:Ev; [|rewrite (convert_other _ _ _ _ _ H Nk); exact Ev].
    destruct (f _) as [w|] eqn:Ef; [|discriminate]. exists e, w. split; [exact Ef|]. rewrite (convert_other _ _ _ _ _ H Nk). apply vset_same.
  - assert (Nkp : v_key o <> v_key p) by (intros E; apply Nk; rewrite <- E; apply in_map; exact Ho).
    assert (X : exists e0, convert expand os vals e0 = Some e' /\ e0 (v_key o) = e (v_key o)).
    { cbn [convert] in H. destruct (v_conv p) as [f|]; [|eauto]. destruct (vals (v_key p)) as [v0|]; [|eauto]. destruct (e (v_key p)) as [v|]; [|eauto]. destruct (f _) as [w|]; [|discriminate].
      eexists. split; [exact H | apply vset_other; exact Nkp]. }
    destruct X as (e0 & X1 & X2). specialize (IH Nd' e0 e' o X1 Ho). rewrite X2 in IH. exact IH.
Qed.

Lemma update_inv vs e args e' vs' : update expand vs e args = Some (e', vs') ->
  convert expand (vs_options vs) (u_values (collected vs args)) (put_values (vs_options vs) (u_values (collected vs args)) e) = Some e'
  /\ validate expand (vs_options vs) (u_values (collected vs args)) e' = true
  /\ vs' = {| vs_options := vs_options vs; vs_files := vs_files vs; vs_args := vs_args vs; vs_unknown := u_unknown (collected vs args); vs_defaulted := u_defaulted (collected vs args) |}.
Proof.
  unfold update. rewrite assigns_concat. fold (given_args vs args). change (fold_left (assign1 (vs_options vs)) (given_args vs args)) with (assigns (vs_options vs) (given_args vs args)).
  unfold given_args. fold (collected vs args). destruct (convert _ _ _ _) as [e1|]; [|discriminate]. destruct (validate _ _ _ _) eqn:V; [|discriminate]. intros H. injection H as <- <-. auto.
Qed.

Lemma text_subst norm e v : subst_ok expand norm -> plain v -> subst_val expand e v = text norm v.
Proof. intros S P. destruct v as [s|b|d a]; cbn in *; [apply S; exact P | reflexivity | apply S; exact P]. Qed.

(* C54.  After Update every declared variable has the value made by its converter of its setting, where the command line counts before the files and the files
   before the default; a variable without a setting, and every name that is not declared, is untouched. *)
Theorem C54_update_precedence : forall norm vs e args e' vs' o r,
  subst_ok expand norm -> names_distinct (vs_options vs) -> In o (vs_options vs) ->
  setting (vs_files vs) (match args with None => vs_args vs | Some a => a end) o r -> (forall v, r = Some v -> plain v) ->
  update expand vs e args = Some (e', vs') ->
  match r with
  | None => e' (v_key o) = e (v_key o)
  | Some v => exists w, converted norm o v = Some w /\ e' (v_key o) = Some w
  end.
Proof.
  intros norm vs e args e' vs' o r So D Ho Hs Hp H. apply update_inv in H. destruct H as (H & _ & _).
  pose proof (collected_setting vs args o r D Ho Hs) as C. pose proof (convert_key _ _ (proj1 D) _ _ o H Ho) as K. rewrite put_key in K by exact Ho. rewrite C in K.
  unfold converted. destruct r as [v|].
  - destruct (v_conv o) as [f|]; [|eauto]. destruct K as (e1 & w & K1 & K2). rewrite (text_subst norm) in K1 by (auto). eauto.
  - destruct (v_conv o); exact K.
Qed.
Theorem C54b_others_untouched : forall vs e args e' vs' x,
  update expand vs e args = Some (e', vs') -> (forall o, In o (vs_options vs) -> x <> v_key o) -> e' x = e x.
Proof.
  intros vs e args e' vs' x H N. apply update_inv in H. destruct H as (H & _ & _).
  assert (N' : ~ In x (map v_key (vs_options vs))) by (intros Q; apply in_map_iff in Q; destruct Q as (o & E & Ho); exact (N o Ho (eq_sym E))).
  rewrite (convert_other _ _ _ _ _ H N'). apply put_other. exact N'.
Qed.
End WithSubst.

(* ---- names not declared, and defaulted variables ---- *)
(* Specification.  The value given last to a name *)
Definition last_value (a : string) (l : dict) (v : val) : Prop := exists l1 l2, l = l1 ++ (a, v) :: l2 /\ forall w, ~ In (a, w) l2.
Definition declared (os : list variable) (a : string) : Prop := exists o, In o os /\ name_of o a.

Lemma defaults_unknown os : forall u, u_unknown (defaults os u) = u_unknown u.
Proof. induction os as [|o os IH]; intros u; [reflexivity|]. cbn [defaults]. rewrite IH. destruct (v_default o); reflexivity. Qed.
Lemma assigns_unknown os l : forall u, names_distinct os -> forall a,
  (declared os a -> u_unknown (assigns os l u) a = u_unknown u a)
  /\ (~ declared os a -> (forall v, ~ In (a, v) l) -> u_unknown (assigns os l u) a = u_unknown u a)
  /\ (~ declared os a -> forall v, last_value a l v -> u_unknown (assigns os l u) a = Some v).
Proof.
  induction l as [|[b v] l IH]; intros u D a; [split; [reflexivity|]; split; [reflexivity|]; intros _ v ([|] & l2 & E & _); discriminate|].
  cbn [assigns fold_left]. change (fold_left (assign1 os) l) with (assigns os l). destruct (IH (assign1 os u (b, v)) D a) as (I1 & I2 & I3).
  assert (H : (declared os b /\ u_unknown (assign1 os u (b, v)) = u_unknown u) \/ (~ declared os b /\ u_unknown (assign1 os u (b, v)) = vset (u_unknown u) b v)).
  { destruct (name_dec os b D) as [(o & Ho & Nb)|N].
    - left. split; [exists o; auto|]. rewrite (assign_hit os u b v o D Ho Nb). reflexivity.
    - right. split; [intros (o & Ho & Nb); exact (N o Ho Nb)|]. rewrite (assign_miss os u b v N). reflexivity. }
  split; [|split].
  - intros Da. rewrite I1 by exact Da. destruct H as [[_ ->]|[Nb ->]]; [reflexivity|]. apply vset_other. intros ->. contradiction.
  - intros Nd Nl. rewrite I2; [|exact Nd | intros w Hw; apply (Nl w); right; exact Hw]. destruct H as [[_ ->]|[Nb ->]]; [reflexivity|]. apply vset_other. intros ->. apply (Nl v). left. reflexivity.
  - intros Nd w ([|p l1] & l2 & E & Nl); cbn in E; injection E as E1 E2; subst.
    + rewrite I2 by assumption. destruct H as [[Db _]|[_ ->]]; [contradiction | apply vset_same].
    + apply I3; [exact Nd|]. exists l1, l2. auto.
Qed.
Lemma remove_first_In a l x : NoDup l -> (In x (remove_first a l) <-> In x l /\ x <> a) /\ NoDup (remove_first a l).
Proof.
  induction l as [|y l IH]; intros Nd; [cbn; split; [tauto | constructor]|]. inversion Nd as [|z zs Nz Nd' E]; subst. cbn [remove_first]. destruct (String.eqb_spec a y) as [->|N].
  - split; [|exact Nd']. cbn. split; [intros H; split; [right; exact H | intros ->; contradiction] | intros [[->|H] Ne]; [congruence | exact H]].
  - destruct (IH Nd') as [I1 I2]. split; [cbn; rewrite I1; split; [intros [->|[H Ne]]; auto | intros [[->|H] Ne]; auto]|].
    constructor; [|exact I2]. intros Q. assert (Q' : In y l); [|contradiction]. clear -Q. induction l as [|z l IHl]; [exact Q|]. cbn in Q. destruct (String.eqb a z); [right; exact Q|]. destruct Q as [->|Q]; [left; reflexivity | right; apply IHl, Q].
Qed.
Lemma defaults_defaulted os : forall u, NoDup (u_defaulted u) -> NoDup (u_defaulted (defaults os u))
  /\ forall x, In x (u_defaulted (defaults os u)) <-> In x (u_defaulted u) \/ exists o, In o os /\ v_key o = x /\ v_default o <> None.
Proof.
  induction os as [|o os IH]; intros u Nd; [cbn; split; [exact Nd|]; firstorder|]. cbn [defaults]. destruct (v_default o) as [d|] eqn:E.
  - assert (Nd1 : NoDup (if mem (v_key o) (u_defaulted u) then u_defaulted u else u_defaulted u ++ [v_key o])
       /\ forall x, In x (if mem (v_key o) (u_defaulted u) then u_defaulted u else u_defaulted u ++ [v_key o]) <-> In x (u_defaulted u) \/ x = v_key o).
    { destruct (mem (v_key o) (u_defaulted u)) eqn:M.
      - apply mem_In in M. split; [exact Nd|]. intros x. split; [auto | intros [H | ->]; assumption].
      - assert (Nm : ~ In (v_key o) (u_defaulted u)) by (intros H; apply mem_In in H; congruence). split.
        + clear -Nd Nm. induction (u_defaulted u) as [|y l IHl]; cbn; [repeat constructor; intros []|]. inversion Nd; subst. constructor; [rewrite in_app_iff; cbn; intros [Q|[Q|[]]]; [contradiction | subst; apply Nm; left; reflexivity] | apply IHl; [assumption | intros Q; apply Nm; right; exact Q]].
        + intros x. rewrite in_app_iff. cbn. split; [intros [H|[->|[]]]; auto | intros [H | ->]; auto]. }
    destruct Nd1 as [N1 N2]. destruct (IH {| u_values := vset (u_values u) (v_key o) d; u_defaulted := if mem (v_key o) (u_defaulted u) then u_defaulted u else u_defaulted u ++ [v_key o]; u_unknown := u_unknown u |} N1) as [I1 I2].
    split; [exact I1|]. intros x. rewrite I2. cbn [u_defaulted]. rewrite N2. split.
    + intros [[H | ->]|(p & Hp & E1 & E2)]; [auto | right; exists o; split; [left; reflexivity|]; split; [reflexivity | congruence] | right; exists p; split; [right; exact Hp | auto]].
    + intros [H|(p & [->|Hp] & E1 & E2)]; [auto | left; right; auto | right; exists p; auto].
  - destruct (IH u Nd) as [I1 I2]. split; [exact I1|]. intros x. rewrite I2. split.
    + intros [H|(p & Hp & E1 & E2)]; [auto | right; exists p; split; [right; exact Hp | auto]].
    + intros [H|(p & [->|Hp] & E1 & E2)]; [auto | congruence | right; exists p; auto].
Qed.
Lemma assigns_defaulted os l : forall u, names_distinct os -> NoDup (u_defaulted u) -> NoDup (u_defaulted (assigns os l u)) /\
  forall x, In x (u_defaulted (assigns os l u)) <-> In x (u_defaulted u) /\ forall o, In o os -> v_key o = x -> not_given o l.
Proof.
  induction l as [|[a v] l IH]; intros u D Nd; [split; [exact Nd|]; intros x; split; [intros H; split; [exact H | intros o _ _ b w []] | intros [H _]; exact H]|].
  cbn [assigns fold_left]. change (fold_left (assign1 os) l) with (assigns os l). destruct (name_dec os a D) as [(o' & H1 & H2)|H1].
  - rewrite (assign_hit os u a v o' D H1 H2). destruct (remove_first_In (v_key o') (u_defaulted u) "" Nd) as [_ N1].
    destruct (IH {| u_values := vset (u_values u) (v_key o') v; u_defaulted := remove_first (v_key o') (u_defaulted u); u_unknown := u_unknown u |} D N1) as [I1 I2].
    split; [exact I1|]. intros x. rewrite I2. cbn [u_defaulted]. rewrite (proj1 (remove_first_In (v_key o') (u_defaulted u) x Nd)). split.
    + intros [[A B] C]. split; [exact A|]. intros o Ho E b w [F|F] Nb; [|exact (C o Ho E b w F Nb)]. injection F as <- <-. apply B. rewrite <- E. f_equal. eapply (proj2 D); eassumption.
    + intros [A C]. split; [split; [exact A|]|].
      * intros ->. exact (C o' H1 eq_refl a v (or_introl eq_refl) H2).
      * intros o Ho E b w F. exact (C o Ho E b w (or_intror F)).
  - rewrite (assign_miss os u a v H1). destruct (IH {| u_values := u_values u; u_defaulted := u_defaulted u; u_unknown := vset (u_unknown u) a v |} D Nd) as [I1 I2].
    split; [exact I1|]. intros x. rewrite I2. cbn [u_defaulted]. split; intros [A C]; (split; [exact A|]).
    + intros o Ho E b w [F|F]; [injection F as <- <-; exact (H1 o Ho) | exact (C o Ho E b w F)].
    + intros o Ho E b w F. exact (C o Ho E b w (or_intror F)).
Qed.

Section WithSubst2.
Context (expand : venv -> string -> string).

(* C54c.  UnknownVariables(): exactly the names that were given and that no variable has, with the value given last; those known from before are kept. *)
Theorem C54c_unknown : forall vs e args e' vs' a,
  names_distinct (vs_options vs) -> update expand vs e args = Some (e', vs') ->
  let given := concat (vs_files vs) ++ match args with None => vs_args vs | Some l => l end in
  (declared (vs_options vs) a -> vs_unknown vs' a = vs_unknown vs a)
  /\ (~ declared (vs_options vs) a -> (forall v, ~ In (a, v) given) -> vs_unknown vs' a = vs_unknown vs a)
  /\ (~ declared (vs_options vs) a -> forall v, last_value a given v -> vs_unknown vs' a = Some v).
Proof.
  intros vs e args e' vs' a D H given. apply update_inv in H. destruct H as (_ & _ & ->). cbn [vs_unknown].
  assert (E : collected vs args = assigns (vs_options vs) given (defaults (vs_options vs) {| u_values := fun _ => None; u_defaulted := []; u_unknown := vs_unknown vs |})).
  { unfold collected, given, assigns. rewrite fold_left_app. reflexivity. }
  rewrite E. destruct (assigns_unknown (vs_options vs) given (defaults (vs_options vs) {| u_values := fun _ => None; u_defaulted := []; u_unknown := vs_unknown vs |}) D a) as (A & B & C).
  rewrite defaults_unknown in *. auto.
Qed.

(* C54d.  [defaulted]: exactly the variables that have a default value and were not given, each once. *)
Theorem C54d_defaulted : forall vs e args e' vs' x,
  names_distinct (vs_options vs) -> update expand vs e args = Some (e', vs') ->
  NoDup (vs_defaulted vs') /\
  (In x (vs_defaulted vs') <-> exists o, In o (vs_options vs) /\ v_key o = x /\ v_default o <> None /\ not_given o (concat (vs_files vs)) /\ not_given o (match args with None => vs_args vs | Some l => l end)).
Proof.
  intros vs e args e' vs' x D H. apply update_inv in H. destruct H as (_ & _ & ->). cbn [vs_defaulted]. unfold collected. fold (given_args vs args).
  set (u0 := {| u_values := fun _ => None; u_defaulted := []; u_unknown := vs_unknown vs |}).
  destruct (defaults_defaulted (vs_options vs) u0 (NoDup_nil _)) as [N0 I0].
  destruct (assigns_defaulted _ (concat (vs_files vs)) _ D N0) as [N1 I1].
  destruct (assigns_defaulted _ (given_args vs args) _ D N1) as [N2 I2]. split; [exact N2|]. rewrite I2, I1, I0. split.
  - intros [[[[]|(o & Ho & E1 & E2)] F] G]. exists o. auto 6.
  - intros (o & Ho & E1 & E2 & F & G). split; [split|].
    + right. exists o. auto.
    + intros o' Ho' E'. rewrite (key_inj _ o' o D Ho' Ho) by congruence. exact F.
    + intros o' Ho' E'. rewrite (key_inj _ o' o D Ho' Ho) by congruence. exact G.
Qed.

(* C54e.  If Update returns, every validator of a variable that has a setting accepted the value that is now in the environment. *)
Theorem C54e_validated : forall norm vs e args e' vs' o v f w,
  subst_ok expand norm -> names_distinct (vs_options vs) -> In o (vs_options vs) ->
  setting (vs_files vs) (match args with None => vs_args vs | Some a => a end) o (Some v) ->
  update expand vs e args = Some (e', vs') -> v_valid o = Some f -> e' (v_key o) = Some w -> plain w ->
  f (v_key o) (if v_subst o then match w with VStr s => VStr (norm s) | _ => w end else w) e' = true.
Proof.
  intros norm vs e args e' vs' o v f w So D Ho Hs H Hf Hw Hp. apply update_inv in H. destruct H as (_ & H & _). unfold validate in H. rewrite forallb_forall in H. specialize (H o Ho).
  rewrite Hf, (collected_setting vs args o (Some v) D Ho Hs), Hw in H. destruct (v_subst o); [|exact H]. destruct w as [s|b|d a]; try exact H. cbn [subst_val] in H. cbn in Hp. rewrite So in H by exact Hp. exact H.
Qed.

(* C54f.  Save and load.  The file written by Save from an environment made by Update, read by Update into the same initial environment (nothing being
   given on the command line), restores the value of every variable ... *)
Lemma save_spec os e l : save expand os e = Some l -> NoDup (map v_key os) -> forall o, In o os ->
  (forall a v, In (a, v) l -> In a (map v_key os)) /\ NoDup (map fst l) /\
  match e (v_key o) with
  | None => forall v, ~ In (v_key o, v) l
  | Some v => exists d', (match v_conv o with None => Some (VStr (expand e (match v_default o with None => "None" | Some d => str d end)))
                                  | Some f => f (VStr (expand e (match v_default o with None => "None" | Some d => str d end))) end) = Some d'
      /\ (if String.eqb (subst_val expand e v) (str d') then forall w, ~ In (v_key o, w) l else In (v_key o, stored v) l)
  end.
Proof.
  revert l. induction os as [|p os IH]; intros l H Nd o Ho; [elim Ho|]. cbn [save] in H. cbn [map] in Nd. inversion Nd as [|k ks Nk Nd' E0]; subst.
  assert (G : forall l, save expand os e = Some l -> (forall a v, In (a, v) l -> In a (map v_key os)) /\ NoDup (map fst l)).
  { intros l0 H0. destruct os as [|q os']; [injection H0 as <-; cbn; split; [intros a v [] | constructor]|]. destruct (IH l0 H0 Nd' q (or_introl eq_refl)) as (A & B & _). auto. }
  destruct (e (v_key p)) as [v|] eqn:Ev.
  - destruct (match v_conv p with None => _ | Some f => f _ end) as [d'|] eqn:Ed; [|discriminate]. destruct (save expand os e) as [l'|] eqn:El; [|discriminate]. injection H as H.
    destruct (G l' eq_refl) as [G1 G2].
    assert (Nl : forall w, ~ In (v_key p, w) l') by (intros w Hw; apply Nk; eapply G1; exact Hw).
    split; [|split].
    + intros a w Hw. subst l. destruct (String.eqb _ _); [right; eapply G1; exact Hw|]. destruct Hw as [Q|Q]; [injection Q as <- <-; left; reflexivity | right; eapply G1; exact Q].
    + subst l. destruct (String.eqb _ _); [exact G2|]. cbn. constructor; [|exact G2]. intros Q. apply in_map_iff in Q. destruct Q as ([a w] & E & Q). cbn in E. subst a. exact (Nl w Q).
    + destruct Ho as [->|Ho].
      * rewrite Ev. exists d'. split; [exact Ed|]. subst l. destruct (String.eqb _ _); [exact Nl | left; reflexivity].
      * assert (Nkp : v_key o <> v_key p) by (intros E; apply Nk; rewrite <- E; apply in_map; exact Ho).
        assert (X : forall w, In (v_key o, w) l <-> In (v_key o, w) l').
        { intros w. subst l. destruct (String.eqb _ _); [tauto|]. cbn. split; [intros [Q|Q]; [injection Q as Q _; congruence | exact Q] | auto]. }
        destruct (IH l' eq_refl Nd' o Ho) as (_ & _ & I3). destruct (e (v_key o)) as [v'|]; [|intros w; rewrite X; apply I3].
        destruct I3 as (d0 & J1 & J2). exists d0. split; [exact J1|]. match type of J2 with if ?b then _ else _ => destruct b end; [intros w; rewrite X; apply J2 | rewrite X; exact J2].
  - destruct (G l H) as [G1 G2]. split; [intros a w Hw; right; eapply G1; exact Hw|]. split; [exact G2|]. destruct Ho as [->|Ho].
    + rewrite Ev. intros w Hw. apply Nk. eapply G1. exact Hw.
    + apply (IH l H Nd' o Ho).
Qed.
End WithSubst2.
Print Assumptions C54_update_precedence.
Print Assumptions C54b_others_untouched.
Print Assumptions C54c_unknown.
Print Assumptions C54d_defaulted.
Print Assumptions C54e_validated.
