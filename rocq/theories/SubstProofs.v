(* Proofs about SubstModel.v *)
From Coq Require Import Ascii String List Arith Bool Lia.
Import ListNotations.
From Verif Require Import SubstModel.
Local Open Scope list_scope.

(* ---- small facts ---- *)
Lemma str_eqb_eq : forall a b, str_eqb a b = true <-> a = b.
Proof.
  induction a as [|x a IH]; intros [|y b]; cbn; split; intro H; try discriminate; auto.
  - apply andb_prop in H. destruct H as [H1 H2]. apply Ascii.eqb_eq in H1. apply IH in H2. congruence.
  - injection H as -> ->. rewrite Ascii.eqb_refl. apply IH. reflexivity.
Qed.
Lemma str_eqb_refl a : str_eqb a a = true. Proof. apply str_eqb_eq. reflexivity. Qed.
Lemma str_eqb_neq a b : str_eqb a b = false <-> a <> b.
Proof. split; intro H; [intro E; apply str_eqb_eq in E; congruence | destruct (str_eqb a b) eqn:Q; [apply str_eqb_eq in Q; contradiction | reflexivity]]. Qed.

Lemma span_split p s : s = fst (span p s) ++ snd (span p s).
Proof. induction s as [|c s IH]; cbn; [reflexivity|]. destruct (p c); [|reflexivity]. destruct (span p s) as [a b]. cbn in *. congruence. Qed.
Lemma span_all p s : Forall (fun c => p c = true) (fst (span p s)).
Proof. induction s as [|c s IH]; cbn; [constructor|]. destruct (p c) eqn:E; [|constructor]. destruct (span p s) as [a b]. cbn in *. constructor; assumption. Qed.
Lemma span_stop p s c r : snd (span p s) = c :: r -> p c = false.
Proof. induction s as [|d s IH]; cbn; [discriminate|]. destruct (p d) eqn:E; [destruct (span p s); cbn in *; exact IH | cbn; intros H; injection H as <- <-; exact E]. Qed.
Lemma span_len p s : length (snd (span p s)) <= length s.
Proof. pose proof (span_split p s) as H. apply (f_equal (@length ascii)) in H. rewrite app_length in H. lia. Qed.
(* spans of a concatenation *)
Lemma span_app_stop p s c r t : snd (span p s) = c :: r -> span p (s ++ t) = (fst (span p s), snd (span p s) ++ t).
Proof.
  induction s as [|d s IH]; cbn; [discriminate|]. destruct (p d) eqn:E; [|reflexivity]. intros H. destruct (span p s) as [a b]. cbn in *. rewrite (IH H). reflexivity.
Qed.
Lemma span_app_end p s t : snd (span p s) = [] -> (match t with c :: _ => p c = false | [] => True end) -> span p (s ++ t) = (s, t).
Proof.
  induction s as [|d s IH]; cbn; intros H T.
  - destruct t as [|c t]; cbn; [reflexivity | rewrite T; reflexivity].
  - destruct (p d) eqn:E; [|discriminate]. destruct (span p s) as [a b]. cbn in *. rewrite (IH H T). reflexivity.
Qed.

(* ---- the lexer without fuel ---- *)
Lemma lex_f_enough : forall n s f, length s < n -> length s < f -> lex_f n s = lex_f f s.
Proof.
  induction n as [|n IH]; intros s f Hn Hf; [lia|]. destruct f as [|f]; [lia|]. cbn [lex_f]. destruct s as [|c r]; [reflexivity|]. cbn in Hn, Hf.
  destruct (Ascii.eqb c dollar); [|f_equal; apply IH; lia].
  destruct r as [|d r']; [reflexivity|]. cbn in Hn, Hf.
  destruct (Ascii.eqb d dollar); [f_equal; apply IH; lia|]. destruct (Ascii.eqb d "("%char); [f_equal; apply IH; lia|].
  destruct (Ascii.eqb d ")"%char); [f_equal; apply IH; lia|].
  destruct (is_alpha_ d).
  - pose proof (span_len is_name_char r') as L. destruct (span is_name_char r') as [a b]. cbn in L. f_equal. apply IH; lia.
  - destruct (Ascii.eqb d "{"%char).
    + pose proof (span_len (fun x => negb (Ascii.eqb x "}"%char)) r') as L. destruct (span (fun x => negb (Ascii.eqb x "}"%char)) r') as [a [|e b]]; cbn in L; f_equal; apply IH; cbn; lia.
    + f_equal. apply IH; cbn; lia.
Qed.
Lemma lex_nil : lex [] = []. Proof. reflexivity. Qed.
Definition lex_step (s : str) : list tok :=
  match s with
  | [] => []
  | c :: r =>
      if Ascii.eqb c dollar then
        match r with
        | d :: r' =>
          if Ascii.eqb d dollar then TDollar :: lex r'
          else if Ascii.eqb d "("%char then TOpen :: lex r'
          else if Ascii.eqb d ")"%char then TClose :: lex r'
          else if is_alpha_ d then let (n, rest) := span is_name_char r' in TRef (d :: n) :: lex rest
          else if Ascii.eqb d "{"%char then
            match span (fun x => negb (Ascii.eqb x "}"%char)) r' with
            | (key, _ :: rest) => TRef key :: lex rest
            | (_, []) => TChar c :: lex r
            end
          else TChar c :: lex r
        | [] => [TChar c]
        end
      else TChar c :: lex r
  end.
Lemma lex_f_lex n s : length s < n -> lex_f n s = lex s.
Proof. intros H. unfold lex. apply lex_f_enough; [exact H | lia]. Qed.
Lemma lex_eq s : lex s = lex_step s.
Proof.
  unfold lex at 1. destruct s as [|c r]; [reflexivity|]. remember (List.length (c :: r)) as k eqn:Hk. cbn [lex_f lex_step]. cbn in Hk.
  destruct (Ascii.eqb c dollar); [|f_equal; apply lex_f_lex; lia].
  destruct r as [|d r']; [reflexivity|].
  destruct (Ascii.eqb d dollar); [f_equal; apply lex_f_lex; cbn in *; lia|]. destruct (Ascii.eqb d "("%char); [f_equal; apply lex_f_lex; cbn in *; lia|].
  destruct (Ascii.eqb d ")"%char); [f_equal; apply lex_f_lex; cbn in *; lia|].
  destruct (is_alpha_ d).
  - pose proof (span_len is_name_char r') as Q. destruct (span is_name_char r') as [a b]. cbn in *. f_equal. apply lex_f_lex; cbn in *; lia.
  - destruct (Ascii.eqb d "{"%char).
    + pose proof (span_len (fun x => negb (Ascii.eqb x "}"%char)) r') as Q. destruct (span (fun x => negb (Ascii.eqb x "}"%char)) r') as [a [|e b]]; cbn in Q; f_equal; apply lex_f_lex; cbn in *; lia.
    + f_equal. apply lex_f_lex; cbn in *; lia.
Qed.
#[global] Opaque lex.
Lemma lex_char c r : c <> dollar -> lex (c :: r) = TChar c :: lex r.
Proof. intros H. rewrite lex_eq. cbn [lex_step]. apply Ascii.eqb_neq in H. rewrite H. reflexivity. Qed.
Lemma lex_dd r : lex (dollar :: dollar :: r) = TDollar :: lex r.
Proof. rewrite lex_eq. reflexivity. Qed.
Lemma lex_open r : lex (dollar :: "("%char :: r) = TOpen :: lex r.
Proof. rewrite lex_eq. reflexivity. Qed.
Lemma lex_close r : lex (dollar :: ")"%char :: r) = TClose :: lex r.
Proof. rewrite lex_eq. reflexivity. Qed.

(* no dollar sign that does not start a token *)
Definition clean (s : str) : Prop := ~ In (TChar dollar) (lex s).
Definition text (s : str) : Prop := ~ In dollar s.
Lemma has_dollar_false s : has_dollar s = false <-> text s.
Proof.
  unfold text, has_dollar. split.
  - intros H D. assert (existsb (fun c => Ascii.eqb c dollar) s = true); [|congruence]. apply existsb_exists. exists dollar. split; [exact D | apply Ascii.eqb_refl].
  - intros H. destruct (existsb (fun c => Ascii.eqb c dollar) s) eqn:E; [|reflexivity]. apply existsb_exists in E. destruct E as (x & X & Q). apply Ascii.eqb_eq in Q. subst. contradiction.
Qed.
Lemma lex_text t : text t -> lex t = map TChar t.
Proof.
  induction t as [|c t IH]; intros H; [reflexivity|]. rewrite lex_char; [|intros ->; apply H; left; reflexivity]. cbn. f_equal. apply IH. intros D. apply H. right. exact D.
Qed.
Lemma lex_text_app t b : text t -> lex (t ++ b) = map TChar t ++ lex b.
Proof.
  induction t as [|c t IH]; intros H; [reflexivity|]. cbn [app map]. rewrite lex_char; [|intros ->; apply H; left; reflexivity]. f_equal. apply IH. intros D. apply H. right. exact D.
Qed.
Lemma text_clean t : text t -> clean t.
Proof. intros H D. rewrite (lex_text t H) in D. apply in_map_iff in D. destruct D as (c & E & X). injection E as ->. contradiction. Qed.

(* the lexer on a concatenation: the second part starts with a character that cannot extend a variable name *)
Definition no_ext (b : str) : Prop := match b with c :: _ => is_name_char c = false | [] => True end.
Lemma lex_app_aux : forall n a b, length a < n -> clean a -> no_ext b -> lex (a ++ b) = lex a ++ lex b.
Proof.
  induction n as [|n IH]; intros a b L C N; [lia|]. destruct a as [|c r]; [reflexivity|]. cbn in L.
  assert (sub : forall u t, lex (c :: r) = t :: lex u -> clean u) by (intros u t E D; apply C; unfold clean in *; rewrite E; right; exact D).
  assert (lone : forall u, lex (c :: r) = TChar c :: u -> c <> dollar) by (intros u E ->; apply C; rewrite E; left; reflexivity).
  rewrite (lex_eq (c :: r)), (lex_eq ((c :: r) ++ b)). pose proof (lex_eq (c :: r)) as Q. cbn [lex_step app] in *. destruct (Ascii.eqb c dollar) eqn:Ec.
  - apply Ascii.eqb_eq in Ec. destruct r as [|d r']; [exfalso; apply (lone [] Q), Ec|]. cbn in L.
    cbn [app]. destruct (Ascii.eqb d dollar); [rewrite (IH r' b); [reflexivity | lia | eapply sub, Q | exact N]|]. destruct (Ascii.eqb d "("%char); [rewrite (IH r' b); [reflexivity | lia | eapply sub, Q | exact N]|].
    destruct (Ascii.eqb d ")"%char); [rewrite (IH r' b); [reflexivity | lia | eapply sub, Q | exact N]|]. destruct (is_alpha_ d) eqn:Ea.
    + pose proof (span_len is_name_char r') as Ls. destruct (snd (span is_name_char r')) as [|e rest] eqn:Es.
      * rewrite (span_app_end is_name_char r' b Es N). pose proof (span_app_end is_name_char r' [] Es Logic.I) as S2. rewrite app_nil_r in S2. rewrite S2. reflexivity.
      * rewrite (span_app_stop _ _ _ _ b Es), Es. destruct (span is_name_char r') as [n1 r1]. cbn in Es, Ls |- *. subst r1. cbn in Ls. change (e :: rest ++ b) with ((e :: rest) ++ b).
        rewrite (IH (e :: rest) b); [reflexivity | cbn; lia | eapply sub, Q | exact N].
    + destruct (Ascii.eqb d "{"%char).
      * set (p := fun x => negb (Ascii.eqb x "}"%char)) in *. pose proof (span_len p r') as Ls. destruct (snd (span p r')) as [|e rest] eqn:Es.
        -- exfalso. destruct (span p r') as [n1 r1]. cbn in Es. subst r1. apply (lone _ Q), Ec.
        -- rewrite (span_app_stop _ _ _ _ b Es), Es. destruct (span p r') as [n1 r1]. cbn in Es, Ls |- *. subst r1. cbn in Ls. rewrite (IH rest b); [reflexivity | lia | eapply sub, Q | exact N].
      * exfalso. apply (lone _ Q), Ec.
  - rewrite (IH r b); [reflexivity | lia | eapply sub, Q | exact N].
Qed.
Lemma lex_app a b : clean a -> no_ext b -> lex (a ++ b) = lex a ++ lex b.
Proof. apply (lex_app_aux (S (length a))). lia. Qed.
Lemma no_ext_dollar b : no_ext (dollar :: b). Proof. reflexivity. Qed.
(* ... or the first part ends with a character that cannot be in a variable name or an expression *)
Lemma clean_app a b : clean a -> no_ext b -> clean b -> clean (a ++ b).
Proof. intros Ca N Cb. unfold clean. rewrite (lex_app a b Ca N). intros D. apply in_app_or in D. destruct D; contradiction. Qed.

(* ---- mapM ---- *)
Lemma bind_assoc {A B C} (x : res A) (f : A -> res B) (g : B -> res C) : bind (bind x f) g = bind x (fun a => bind (f a) g).
Proof. destruct x; reflexivity. Qed.
Lemma bind_ext {A B} (x : res A) (f g : A -> res B) : (forall a, f a = g a) -> bind x f = bind x g.
Proof. intros H. destruct x; cbn; auto. Qed.
Lemma mapM_app {A B} (f : A -> res B) l1 l2 : mapM f (l1 ++ l2) = bind (mapM f l1) (fun a => bind (mapM f l2) (fun b => Ok (a ++ b))).
Proof.
  induction l1 as [|x l1 IH]; cbn [mapM app bind]; [destruct (mapM f l2); reflexivity|]. destruct (f x); cbn; [|reflexivity|reflexivity]. rewrite IH.
  destruct (mapM f l1); cbn; [|reflexivity|reflexivity]. destruct (mapM f l2); reflexivity.
Qed.
Lemma mapM_ok {A B} (f : A -> res B) l r : mapM f l = Ok r -> Forall2 (fun x y => f x = Ok y) l r.
Proof.
  revert r. induction l as [|x l IH]; cbn; intros r H; [injection H as <-; constructor|]. destruct (f x) eqn:E; cbn in H; try discriminate. destruct (mapM f l) eqn:E2; cbn in H; try discriminate.
  injection H as <-. constructor; auto.
Qed.
Lemma mapM_all_ok {A B} (f : A -> res B) (g : A -> B) l : (forall x, In x l -> f x = Ok (g x)) -> mapM f l = Ok (map g l).
Proof. induction l as [|x l IH]; cbn; intros H; [reflexivity|]. rewrite H by (left; reflexivity). cbn. rewrite IH by (intros; apply H; right; assumption). reflexivity. Qed.

(* ---- expansion of one token ---- *)
Definition etok (fuel : nat) (m : mode) (E : senv) (lv : dict) (t : tok) : res str :=
  match t with
  | TChar c => Ok [c] | TDollar => Ok [dollar; dollar] | TOpen => Ok [dollar; "("%char] | TClose => Ok [dollar; ")"%char]
  | TRef key => bind (lookup E lv key) (fun o => match o with
      | None => Ok []
      | Some w => match plain w with Some s => Ok s | None => bind (expand fuel m E ((var_of key, VStr []) :: lv) w) (fun r => Ok (conv E m r)) end end)
  end.
(* the text after expansion of the variables, before the final clean-up *)
Definition expansion (fuel : nat) (m : mode) (E : senv) (lv : dict) (s : str) : res str :=
  match fuel with O => Timeout | S fuel => bind (mapM (etok fuel m E lv) (lex s)) (fun ps => Ok (List.concat ps)) end.
Lemma conv_VStr E m s : conv E m (VStr s) = s. Proof. destruct m; reflexivity. Qed.
Lemma expand_VStr fuel m E lv s : expand fuel m E lv (VStr s) = bind (expansion fuel m E lv s) (fun r => Ok (VStr r)).
Proof. destruct fuel as [|fuel]; [reflexivity|]. cbn [expand expansion]. unfold etok. rewrite bind_assoc. reflexivity. Qed.
Lemma subst_expansion fuel m E lv s : has_dollar s = true -> subst fuel m E lv s = bind (expansion fuel m E lv s) (finish m).
Proof. intros H. unfold subst. rewrite H, expand_VStr, bind_assoc. cbn. apply bind_ext. intros a. rewrite conv_VStr. reflexivity. Qed.
Lemma expansion_lex_app fuel m E lv a b : lex (a ++ b) = lex a ++ lex b ->
  expansion fuel m E lv (a ++ b) = bind (expansion fuel m E lv a) (fun ra => bind (expansion fuel m E lv b) (fun rb => Ok (ra ++ rb))).
Proof.
  intros H. destruct fuel as [|fuel]; [reflexivity|]. cbn [expansion]. rewrite H, mapM_app, !bind_assoc. apply bind_ext. intros x. cbn. rewrite !bind_assoc. apply bind_ext. intros y. cbn. rewrite concat_app. reflexivity.
Qed.
Lemma expansion_text fuel m E lv t : text t -> expansion (S fuel) m E lv t = Ok t.
Proof.
  intros H. cbn [expansion]. rewrite (lex_text t H). rewrite (mapM_all_ok _ (fun t => match t with TChar c => [c] | _ => [] end)).
  - cbn. f_equal. clear H. induction t as [|c t IH]; [reflexivity|]. cbn. f_equal. exact IH.
  - intros x Hx. apply in_map_iff in Hx. destruct Hx as (c & <- & _). reflexivity.
Qed.
Lemma expansion_dd fuel m E lv b : expansion (S fuel) m E lv (dollar :: dollar :: b) = bind (expansion (S fuel) m E lv b) (fun rb => Ok (dollar :: dollar :: rb)).
Proof. cbn [expansion]. rewrite lex_dd. cbn [mapM etok bind]. rewrite !bind_assoc. cbn. reflexivity. Qed.
Lemma expansion_open fuel m E lv b : expansion (S fuel) m E lv (dollar :: "("%char :: b) = bind (expansion (S fuel) m E lv b) (fun rb => Ok (dollar :: "("%char :: rb)).
Proof. cbn [expansion]. rewrite lex_open. cbn [mapM etok bind]. rewrite !bind_assoc. cbn. reflexivity. Qed.
Lemma expansion_close fuel m E lv b : expansion (S fuel) m E lv (dollar :: ")"%char :: b) = bind (expansion (S fuel) m E lv b) (fun rb => Ok (dollar :: ")"%char :: rb)).
Proof. cbn [expansion]. rewrite lex_close. cbn [mapM etok bind]. rewrite !bind_assoc. cbn. reflexivity. Qed.

(* ---- strings in which every dollar sign belongs to $$, $( or $) ---- *)
Inductive evd : str -> Prop :=
  | evd_nil : evd []
  | evd_char c s : c <> dollar -> evd s -> evd (c :: s)
  | evd_dd s : evd s -> evd (dollar :: dollar :: s)
  | evd_par c s : c = "("%char \/ c = ")"%char -> evd s -> evd (dollar :: c :: s).
Lemma evd_app a b : evd a -> evd b -> evd (a ++ b).
Proof. intros H. revert b. induction H; intros b Hb; cbn; [exact Hb | apply evd_char; auto | apply evd_dd; auto | apply evd_par; auto]. Qed.
Lemma evd_text t : text t -> evd t.
Proof. induction t as [|c t IH]; intros H; [constructor|]. constructor; [intros ->; apply H; left; reflexivity | apply IH; intros D; apply H; right; exact D]. Qed.
Lemma evd_concat l : Forall evd l -> evd (List.concat l).
Proof. induction 1; cbn; [constructor | apply evd_app; assumption]. Qed.
Lemma evd_join l : Forall evd l -> evd (join space l).
Proof.
  induction 1 as [|x l Hx Hl IH]; [constructor|]. destruct l as [|y l]; [exact Hx|]. change (join space (x :: y :: l)) with (x ++ space ++ join space (y :: l)).
  apply evd_app; [exact Hx|]. apply evd_app; [|exact IH]. constructor; [discriminate | constructor].
Qed.
Lemma undouble_char c r : c <> dollar -> undouble (c :: r) = c :: undouble r.
Proof. intros H. apply Ascii.eqb_neq in H. cbn. rewrite H. destruct r; reflexivity. Qed.
Lemma undouble_par c r : c = "("%char \/ c = ")"%char -> undouble (dollar :: c :: r) = dollar :: c :: undouble r.
Proof. intros [-> | ->]; cbn [undouble]; destruct r; reflexivity. Qed.
Lemma undouble_app a b : evd a -> undouble (a ++ b) = undouble a ++ undouble b.
Proof.
  induction 1 as [|c s N H IH|s H IH|c s P H IH]; [reflexivity| | |].
  - cbn [app]. rewrite !undouble_char by exact N. cbn. f_equal. exact IH.
  - cbn. f_equal. exact IH.
  - cbn [app]. rewrite !undouble_par by exact P. cbn. do 2 f_equal. exact IH.
Qed.
Lemma undouble_text t : text t -> undouble t = t.
Proof. induction t as [|c t IH]; intros H; [reflexivity|]. rewrite undouble_char by (intros ->; apply H; left; reflexivity). f_equal. apply IH. intros D. apply H. right. exact D. Qed.

(* values without stray dollar signs *)
Fixpoint clean_val (v : val) : Prop :=
  match v with
  | VStr s => clean s
  | VSeq l => (fix go l := match l with [] => True | x :: r => clean_val x /\ go r end) l
  | VObj p s => text p /\ text s
  | VNone | VFun _ => True
  end.
Lemma clean_VSeq l : clean_val (VSeq l) <-> Forall clean_val l.
Proof. split; [induction l as [|x l IH]; intros H; constructor; [apply H | apply IH, H] | induction 1; cbn; auto]. Qed.
Definition clean_env (E : senv) (lv : dict) : Prop :=
  (forall k v, dget lv k = Some v -> clean_val v) /\ (forall k v, dget (gv E) k = Some v -> clean_val v)
  /\ (forall k d v, ev E k d = EVal v -> clean_val v) /\ (forall f d b, clean_val (f_call E f d b)) /\ (forall f b, text (f_str E f b)).
Lemma clean_env_blank E lv k : clean_env E lv -> clean_env E ((k, VStr []) :: lv).
Proof.
  intros (H1 & H2). split; [|exact H2]. intros k' v. cbn. destruct (str_eqb k' k); [|apply H1]. intros Q. injection Q as <-. apply text_clean. intros [].
Qed.
Lemma lookup_clean E lv k v : clean_env E lv -> lookup E lv k = Ok (Some v) -> clean_val v.
Proof.
  intros (H1 & H2 & H3 & _). unfold lookup. set (found := fun v : val => match v with VNone => if strict E then Err else Ok None | _ => Ok (Some v) end).
  assert (F : forall w, found w = Ok (Some v) -> w = v) by (intros [s| |l|f|p s]; unfold found; cbn; [| destruct (strict E); discriminate | | |]; intros Q; injection Q as <-; reflexivity).
  destruct (dget lv k) eqn:D1; [intros Q; apply F in Q; subst; eapply H1, D1|]. destruct (dget (gv E) k) eqn:D2; [intros Q; apply F in Q; subst; eapply H2, D2|].
  destruct (ev E k lv) eqn:D3; try discriminate. intros Q; apply F in Q; subst; eapply H3, D3.
Qed.
Definition evd_res (E : senv) (m : mode) (v : val) : Prop := evd (conv E m v).
Lemma f_str_evd E lv f b : clean_env E lv -> evd (f_str E f b).
Proof. intros (_ & _ & _ & _ & H). apply evd_text, H. Qed.
Lemma expand_evd : forall fuel m E lv v r, clean_env E lv -> clean_val v -> expand fuel m E lv v = Ok r -> evd_res E m r.
Proof.
  induction fuel as [|fuel IH]; intros m E lv v r Ce Cv H; [discriminate|]. destruct v as [s| |l|f|p s]; cbn [expand] in H.
  - cbn in Cv. change (bind (mapM (etok fuel m E lv) (lex s)) (fun ps => Ok (VStr (List.concat ps))) = Ok r) in H. destruct (mapM (etok fuel m E lv) (lex s)) as [ps| |] eqn:M; cbn in H; try discriminate.
    injection H as <-. unfold evd_res. rewrite conv_VStr. apply evd_concat. apply mapM_ok in M. clear -M Cv IH Ce. unfold clean in Cv.
    induction M as [|t p ts ps Ht M IHM]; constructor.
    + destruct t as [c| | | |key]; cbn in Ht; try (injection Ht as <-).
      * constructor; [intros ->; apply Cv; left; reflexivity | constructor].
      * apply evd_dd, evd_nil.
      * apply evd_par; [left; reflexivity | constructor].
      * apply evd_par; [right; reflexivity | constructor].
      * destruct (lookup E lv key) as [[w|]| |] eqn:Lk; cbn in Ht; try discriminate; [|injection Ht as <-; constructor].
        destruct (plain w) eqn:Pl.
        -- injection Ht as <-. destruct w as [u| |l|f|p1 s1]; cbn in Pl; try discriminate. destruct (has_dollar u) eqn:Hu; [discriminate|]. injection Pl as <-. apply evd_text, has_dollar_false, Hu.
        -- destruct (expand fuel m E ((var_of key, VStr []) :: lv) w) as [v'| |] eqn:Ex; cbn in Ht; try discriminate. injection Ht as <-. eapply IH; [apply clean_env_blank, Ce | eapply lookup_clean; eauto | exact Ex].
    + apply IHM. intros D. apply Cv. right. exact D.
  - injection H as <-. unfold evd_res. rewrite conv_VStr. constructor.
  - destruct (mapM (fun w => bind (expand fuel m E lv w) (fun r => Ok (VStr (conv E m r)))) l) as [ws| |] eqn:M; cbn in H; try discriminate. injection H as <-.
    unfold evd_res. assert (C : conv E m (VSeq ws) = join space (map (to_str E) ws)) by (destruct m; reflexivity). rewrite C. apply evd_join. apply mapM_ok in M. apply clean_VSeq in Cv.
    clear C. induction M as [|w v ws0 vs Hw M IHM]; cbn; constructor.
    + destruct (expand fuel m E lv w) as [r| |] eqn:Ex; cbn in Hw; try discriminate. injection Hw as <-. cbn. eapply IH; [exact Ce | exact (Forall_inv Cv) | exact Ex].
    + apply IHM. exact (Forall_inv_tail Cv).
  - destruct (f_ok E f); [eapply IH; [exact Ce | apply Ce | exact H]|]. destruct (mode_eqb m RAW) eqn:Em.
    + injection H as <-. unfold evd_res. destruct m; try discriminate. cbn. eapply f_str_evd, Ce.
    + eapply IH; [exact Ce | | exact H]. cbn. apply text_clean. destruct m; cbn; apply Ce.
  - injection H as <-. unfold evd_res. destruct m; cbn; apply evd_text, Cv.
Qed.
Lemma expansion_evd fuel m E lv s r : clean_env E lv -> clean s -> expansion fuel m E lv s = Ok r -> evd r.
Proof.
  intros Ce Cs H. assert (X : evd_res E m (VStr r)) by (eapply (expand_evd fuel m E lv (VStr s)); [exact Ce | exact Cs | rewrite expand_VStr, H; reflexivity]).
  unfold evd_res in X. rewrite conv_VStr in X. exact X.
Qed.
