(* C68: the names in a text *)
From Coq Require Import Ascii String List Bool Arith Lia.
Import ListNotations.
From Verif Require Import CscModel CscSpec.
Open Scope list_scope.

Lemma is_eq : forall a c, is a c = true <-> c = a.
Proof. intros a c. unfold is. split; [intros E; symmetry; apply Ascii.eqb_eq, E | intros ->; apply Ascii.eqb_refl]. Qed.
Lemma is_ne : forall a c, is a c = false <-> c <> a.
Proof. intros a c. destruct (is a c) eqn:E; [apply is_eq in E; split; [discriminate | contradiction] | split; [intros _ X; apply is_eq in X; congruence | reflexivity]]. Qed.
Lemma blank_spec : forall c, blank c = true <-> c = " "%char \/ c = "009"%char.
Proof. intros c. unfold blank. rewrite orb_true_iff, !is_eq. reflexivity. Qed.
Lemma opening_spec : forall c, opening c = true <-> c = "<"%char \/ c = """"%char.
Proof. intros c. unfold opening. rewrite orb_true_iff, !is_eq. reflexivity. Qed.
Lemma closing_spec : forall c, closing c = true <-> c = ">"%char \/ c = """"%char.
Proof. intros c. unfold closing. rewrite orb_true_iff, !is_eq. reflexivity. Qed.
Lemma name_char_spec : forall c, closing c = false <-> name_char c.
Proof. intros c. unfold closing, name_char. rewrite orb_false_iff, !is_ne. reflexivity. Qed.
(* ---- the parts ---- *)
Lemma skip_spec : forall t, exists b, t = b ++ skip_blanks t /\ blanks b /\ match skip_blanks t with c :: _ => blank c = false | [] => True end.
Proof.
  induction t as [|c r (b & E & B & N)]; [exists []; split; [reflexivity|]; split; [intros x []|exact Logic.I]|]. cbn [skip_blanks]. destruct (blank c) eqn:Bc.
  - exists (c :: b). split; [cbn [app]; f_equal; exact E|]. split; [|exact N]. intros x [<- |Hx]; [apply blank_spec, Bc | apply B, Hx].
  - exists []. split; [reflexivity|]. split; [intros x [] | exact Bc].
Qed.
Lemma skip_app : forall b t, blanks b -> skip_blanks (b ++ t) = skip_blanks t.
Proof. induction b as [|c b IH]; intros t B; [reflexivity|]. cbn [app skip_blanks]. rewrite (proj2 (blank_spec c) (B c (or_introl eq_refl))). apply IH. intros x Hx. apply B. right. exact Hx. Qed.
Lemma skip_stop : forall c t, blank c = false -> skip_blanks (c :: t) = c :: t.
Proof. intros c t E. cbn [skip_blanks]. rewrite E. reflexivity. Qed.
Lemma after_app : forall w t, after w (w ++ t) = Some t.
Proof. induction w as [|a w IH]; intros t; [reflexivity|]. cbn [app after]. rewrite (proj2 (is_eq a a) eq_refl). apply IH. Qed.
Lemma after_some : forall w t r, after w t = Some r -> t = w ++ r.
Proof. induction w as [|a w IH]; intros t r E; [cbn in E; injection E as ->; reflexivity|]. destruct t as [|c t]; [discriminate|]. cbn [after] in E. destruct (is a c) eqn:Ec; [|discriminate]. apply is_eq in Ec. subst. cbn [app]. f_equal. apply IH, E. Qed.
Definition word (w : text) : Prop := w = lit "include" \/ w = lit "import".
Lemma keyword_some : forall t r, keyword t = Some r <-> exists w, word w /\ t = w ++ r.
Proof.
  intros t r. unfold keyword. split.
  - destruct (after (lit "include") t) as [r2|] eqn:E; intros X.
    + injection X as ->. exists (lit "include"). split; [left; reflexivity | apply after_some, E].
    + exists (lit "import"). split; [right; reflexivity | apply after_some, X].
  - intros (w & [-> | ->] & ->); [rewrite after_app; reflexivity|]. change (after (lit "include") (lit "import" ++ r)) with (@None text). cbv beta iota. apply after_app.
Qed.
Lemma name_at_spec : forall t, exists n e, name_at t = (n, e) /\ t = n ++ e /\ (forall c, In c n -> name_char c) /\ match e with c :: _ => closing c = true | [] => True end.
Proof.
  induction t as [|c r (n & e & E & T & N & C)]; [exists [], []; repeat split; intros; contradiction|]. cbn [name_at]. destruct (closing c) eqn:Ec.
  - exists [], (c :: r). split; [reflexivity|]. split; [reflexivity|]. split; [intros x [] | exact Ec].
  - rewrite E. exists (c :: n), e. split; [reflexivity|]. split; [cbn [app]; f_equal; exact T|]. split; [intros x [<- |Hx]; [apply name_char_spec, Ec | apply N, Hx] | exact C].
Qed.
Lemma name_at_app : forall n e t, (forall c, In c n -> name_char c) -> closing e = true -> name_at (n ++ e :: t) = (n, e :: t).
Proof. induction n as [|c n IH]; intros e t N C; cbn [app name_at]; [rewrite C; reflexivity|]. rewrite (proj2 (name_char_spec c) (N c (or_introl eq_refl))), IH; [reflexivity | intros x Hx; apply N; right; exact Hx | exact C]. Qed.
Lemma name_at_end : forall n, (forall c, In c n -> name_char c) -> name_at n = (n, []).
Proof. induction n as [|c n IH]; intros N; [reflexivity|]. cbn [name_at]. rewrite (proj2 (name_char_spec c) (N c (or_introl eq_refl))), IH; [reflexivity | intros x Hx; apply N; right; exact Hx]. Qed.
(* ---- a match is a directive, in any text ---- *)
Definition begins (t : text) (q : ascii) (n rest : text) : Prop := exists h e, t = h ++ n ++ e :: rest /\ head_of q h /\ n <> [] /\ (forall c, In c n -> name_char c) /\ (e = ">"%char \/ e = """"%char).
Lemma match_head : forall q h t, head_of q h -> match_at (h ++ t) = quoted (q :: t).
Proof.
  intros q h t (b1 & b2 & w & b3 & -> & B1 & B2 & B3 & W & Q). unfold match_at. rewrite <- !app_assoc, (skip_app b1 _ B1). cbn [lit list_ascii_of_string app]. rewrite (skip_stop "#" _ eq_refl). cbv iota. change (is "#" "#") with true. cbv iota.
  rewrite (skip_app b2 _ B2). assert (E : skip_blanks (w ++ b3 ++ q :: t) = w ++ b3 ++ q :: t) by (destruct W as [-> | ->]; apply skip_stop; reflexivity).
  rewrite E. assert (K : keyword (w ++ b3 ++ q :: t) = Some (b3 ++ q :: t)) by (apply keyword_some; exists w; split; [exact W | reflexivity]). rewrite K. rewrite (skip_app b3 _ B3). rewrite skip_stop; [reflexivity | destruct Q as [-> | ->]; reflexivity].
Qed.
Lemma match_begins : forall t q n rest, match_at t = Some ((q, n), rest) <-> begins t q n rest.
Proof.
  intros t q n rest. split.
  - unfold match_at. destruct (skip_spec t) as (b1 & E1 & B1 & _). destruct (skip_blanks t) as [|c r]; [discriminate|]. destruct (is "#" c) eqn:Ec; [|discriminate]. apply is_eq in Ec. subst c.
    destruct (skip_spec r) as (b2 & E2 & B2 & _). destruct (keyword (skip_blanks r)) as [r2|] eqn:Ek; [|discriminate]. apply keyword_some in Ek. destruct Ek as (w & W & Ew).
    destruct (skip_spec r2) as (b3 & E3 & B3 & _). unfold quoted. destruct (skip_blanks r2) as [|q2 r3]; [discriminate|]. destruct (opening q2) eqn:Eo; [|discriminate]. apply opening_spec in Eo.
    destruct (name_at_spec r3) as (n2 & e & En & T & N & C). rewrite En. destruct e as [|e r4]; [discriminate|]. destruct n2 as [|x n2]; [discriminate|]. intros X. injection X as <- <- <-.
    exists (b1 ++ lit "#" ++ b2 ++ w ++ b3 ++ [q2]), e. split.
    { rewrite E1, E2, Ew, E3, T. cbn [lit list_ascii_of_string app]. rewrite <- !app_assoc. cbn [app]. rewrite <- !app_assoc. reflexivity. }
    split; [exists b1, b2, w, b3; auto 10|]. split; [discriminate|]. split; [exact N | apply closing_spec, C].
  - intros (h & e & -> & Hh & Nn & N & C). rewrite (match_head q h _ Hh). unfold quoted. destruct Hh as (b1 & b2 & w & b3 & _ & _ & _ & _ & _ & Q). rewrite (proj2 (opening_spec q) Q).
    rewrite (name_at_app n e rest N (proj2 (closing_spec e) C)). destruct n; [contradiction | reflexivity].
Qed.
Lemma directive_begins : forall l q n, directive l q n <-> exists rest, begins l q n rest.
Proof. intros l q n. split; [intros (h & e & rest & X); exists rest, h, e; exact X | intros (rest & h & e & X); exists h, e, rest; exact X]. Qed.
Lemma directive_one : forall l q n q2 n2, directive l q n -> directive l q2 n2 -> q2 = q /\ n2 = n.
Proof. intros l q n q2 n2 A B. apply directive_begins in A, B. destruct A as (r & A), B as (r2 & B). apply match_begins in A, B. rewrite A in B. injection B as -> -> _. auto. Qed.
(* ---- a line at the beginning of a text ---- *)
Definition one_line (l : text) : Prop := ~ In newline l.
Lemma blanks_no_nl : forall b, blanks b -> one_line b.
Proof. intros b B X. destruct (B _ X); discriminate. Qed.
Lemma head_split : forall q h l r, head_of q h -> forall t, h ++ t = l ++ newline :: r -> one_line l -> exists t2, l = h ++ t2 /\ t = t2 ++ newline :: r.
Proof.
  intros q h l r Hh. assert (N : one_line h).
  { destruct Hh as (b1 & b2 & w & b3 & -> & B1 & B2 & B3 & W & Q). intros X. rewrite !in_app_iff in X. destruct X as [X|[X|[X|[X|[X|X]]]]].
    - apply (blanks_no_nl b1 B1 X).
    - destruct X as [X|[]]; discriminate.
    - apply (blanks_no_nl b2 B2 X).
    - destruct W as [-> | ->]; cbn in X; repeat (destruct X as [X|X]; [discriminate|]); destruct X.
    - apply (blanks_no_nl b3 B3 X).
    - destruct X as [X|[]]. destruct Q as [-> | ->]; discriminate. }
  clear Hh. revert l. induction h as [|c h IH]; intros l t E L; [exists l; split; [reflexivity | exact E]|].
  destruct l as [|a l]; [cbn [app] in E; injection E as -> _; exfalso; apply N; left; reflexivity|]. cbn [app] in E. injection E as -> E.
  destruct (IH (fun X => N (or_intror X)) l t E (fun X => L (or_intror X))) as (t2 & -> & ->). exists t2. split; reflexivity.
Qed.
Lemma match_line : forall l r, one_line l -> ~ unfinished l -> match match_at (l ++ newline :: r) with
  | Some ((q, n), rest) => exists e, begins l q n e /\ rest = e ++ newline :: r
  | None => forall q n, ~ directive l q n
  end.
Proof.
  intros l r L NU. destruct (match_at (l ++ newline :: r)) as [[[q n] rest]|] eqn:E.
  - apply match_begins in E. destruct E as (h & e & E & Hh & Nn & N & C). symmetry in E. destruct (head_split q h l r Hh _ E L) as (t & -> & Et).
    assert (S1 : exists e2, t = n ++ e :: e2 /\ rest = e2 ++ newline :: r).
    { assert (NU2 : ~ forall c, In c t -> name_char c) by (intros X; apply NU; exists q, h, t; auto). clear - Et N C NU2. revert t Et NU2. induction n as [|c n IH]; intros t Et NU2.
      - destruct t as [|a t]; [exfalso; apply NU2; intros x []|]. cbn [app] in Et. injection Et as -> ->. exists t. auto.
      - destruct t as [|a t]; [exfalso; apply NU2; intros x []|]. cbn [app] in Et. injection Et as -> Et. destruct (IH (fun x Hx => N x (or_intror Hx)) t Et) as (e2 & -> & ->); [|exists e2; auto].
        intros X. apply NU2. intros x [<- |Hx]; [apply N; left; reflexivity | apply X, Hx]. }
    destruct S1 as (e2 & -> & ->). exists e2. split; [|reflexivity]. exists h, e. auto.
  - intros q n D. apply directive_begins in D. destruct D as (rest & h & e & -> & Hh & Nn & N & C). assert (X : match_at ((h ++ n ++ e :: rest) ++ newline :: r) = Some ((q, n), rest ++ newline :: r)).
    { apply match_begins. exists h, e. split; [rewrite <- !app_assoc; reflexivity | auto]. }
    rewrite X in E. discriminate.
Qed.
Lemma match_last : forall l, match match_at l with Some ((q, n), rest) => begins l q n rest | None => forall q n, ~ directive l q n end.
Proof.
  intros l. destruct (match_at l) as [[[q n] rest]|] eqn:E; [apply match_begins, E|]. intros q n D. apply directive_begins in D. destruct D as (rest & D). apply match_begins in D. congruence.
Qed.
(* ---- findall ---- *)
Lemma find_skip : forall a b t, a <> [] -> one_line a -> findall (length a) b (a ++ t) = findall 0 false t.
Proof.
  induction a as [|c a IH]; intros b t Ha L; [contradiction|]. cbn [length app findall]. assert (E : is newline c = false) by (apply is_ne; intros ->; apply L; left; reflexivity).
  destruct a as [|c2 a]; [cbn [length app]; rewrite E; reflexivity|]. apply IH; [discriminate | intros X; apply L; right; exact X].
Qed.
Lemma find_rest : forall a t, one_line a -> findall 0 false (a ++ newline :: t) = findall 0 true t.
Proof.
  induction a as [|c a IH]; intros t L; [reflexivity|]. cbn [app findall]. rewrite (proj2 (is_ne newline c)); [|intros ->; apply L; left; reflexivity]. apply IH. intros X. apply L. right. exact X.
Qed.
Lemma find_rest_end : forall a, one_line a -> findall 0 false a = [].
Proof. induction a as [|c a IH]; intros L; [reflexivity|]. cbn [findall]. rewrite (proj2 (is_ne newline c)); [|intros ->; apply L; left; reflexivity]. apply IH. intros X. apply L. right. exact X. Qed.
Lemma begins_cons : forall l q n e, begins l q n e -> exists c m, l = (c :: m) ++ e.
Proof.
  intros l q n e (h & x & -> & _ & Nn & _). destruct (h ++ n ++ [x]) as [|c m] eqn:E; [destruct h; [destruct n; [contradiction|]|]; discriminate|]. exists c, m. rewrite <- E, <- !app_assoc. reflexivity.
Qed.
Lemma find_match : forall c m r i rest, match_at ((c :: m) ++ rest) = Some (i, rest) -> one_line (c :: m) -> (r = findall 0 false rest) -> findall 0 true ((c :: m) ++ rest) = i :: r.
Proof.
  intros c m r i rest E L ->. cbn [app findall]. cbn [app] in E. rewrite E. f_equal. assert (K : length (c :: m ++ rest) - length rest - 1 = length m) by (cbn [length]; rewrite app_length; lia).
  rewrite K. destruct m as [|c2 m]; [cbn [length app]; f_equal; apply is_ne; intros ->; apply L; left; reflexivity|]. apply find_skip; [discriminate | intros X; apply L; right; exact X].
Qed.
Lemma find_none : forall l t, one_line l -> match_at (l ++ newline :: t) = None -> findall 0 true (l ++ newline :: t) = findall 0 true t.
Proof.
  intros l t L E. destruct l as [|c l]; cbn [app findall] in *; rewrite E; [reflexivity|]. rewrite (proj2 (is_ne newline c)); [|intros ->; apply L; left; reflexivity]. apply find_rest. intros X. apply L. right. exact X.
Qed.
Lemma lines_ne : forall t, lines t <> [].
Proof. intros [|c t]; cbn [lines]; [discriminate|]. destruct (Ascii.eqb c newline); [discriminate|]. destruct (lines t); discriminate. Qed.
Lemma lines_cases : forall t, (one_line t /\ lines t = [t]) \/ exists l r, t = l ++ newline :: r /\ one_line l /\ lines t = l :: lines r.
Proof.
  induction t as [|c t IH]; [left; split; [intros []|reflexivity]|]. cbn [lines]. destruct (Ascii.eqb c newline) eqn:E.
  - apply Ascii.eqb_eq in E. subst. right. exists [], t. split; [reflexivity|]. split; [intros []|reflexivity].
  - assert (Nc : c <> newline) by (intros ->; rewrite Ascii.eqb_refl in E; discriminate). destruct IH as [[L ->]|(l & r & -> & L & ->)].
    + left. split; [intros [X|X]; [apply Nc; symmetry; exact (eq_sym X) | apply L, X] | reflexivity].
    + right. exists (c :: l), r. split; [reflexivity|]. split; [intros [X|X]; [apply Nc; exact X | apply L, X] | reflexivity].
Qed.
(* C68a: the names found in a text are those in its lines, in order *)
Theorem C68a_names : forall t, (forall l, In l (lines t) -> ~ unfinished l) -> includes (lines t) (include_names t).
Proof.
  intros t. unfold include_names. remember (length t) as k eqn:Hk. assert (HK : length t <= k) by lia. clear Hk. revert t HK. induction k as [|k IH]; intros t HK HU.
  - destruct t; [|cbn in HK; lia]. cbn. apply includes_no; [|constructor]. intros q n (h & e & rest & E & _). destruct h; [destruct n|]; discriminate.
  - destruct (lines_cases t) as [[L E]|(l & r & -> & L & E)]; rewrite E in *.
    + pose proof (match_last t) as M. destruct (match_at t) as [[[q n] rest]|] eqn:Em.
      * destruct (begins_cons _ _ _ _ M) as (c & m & ->). rewrite (find_match c m [] (q, n) rest Em).
        -- apply includes_yes; [apply directive_begins; exists rest; exact M | constructor].
        -- intros X. apply L. apply in_app_iff. left. exact X.
        -- symmetry. apply find_rest_end. intros X. apply L. apply in_app_iff. right. exact X.
      * replace (findall 0 true t) with (@nil (ascii * text)); [apply includes_no; [exact M | constructor]|]. destruct t as [|c t]; [reflexivity|]. cbn [findall]. rewrite Em.
        rewrite (proj2 (is_ne newline c)); [|intros ->; apply L; left; reflexivity]. symmetry. apply find_rest_end. intros X. apply L. right. exact X.
    + assert (Hr : length r <= k) by (rewrite app_length in HK; cbn [length] in HK; lia). specialize (IH r Hr (fun l2 Hl => HU l2 (or_intror Hl))).
      pose proof (match_line l r L (HU l (or_introl eq_refl))) as M. destruct (match_at (l ++ newline :: r)) as [[[q n] rest]|] eqn:Em.
      * destruct M as (e & B & ->). destruct (begins_cons _ _ _ _ B) as (c & m & ->). rewrite <- app_assoc in Em |- *. rewrite (find_match c m (findall 0 true r) (q, n) (e ++ newline :: r) Em).
        -- apply includes_yes; [apply directive_begins; exists e; exact B | exact IH].
        -- intros X. apply L. apply in_app_iff. left. exact X.
        -- symmetry. apply find_rest. intros X. apply L. apply in_app_iff. right. exact X.
      * rewrite (find_none l r L Em). apply includes_no; [exact M | exact IH].
Qed.
(* there is only one list of them *)
Theorem C68b_one : forall ls a b, includes ls a -> includes ls b -> a = b.
Proof.
  intros ls a b A. revert b. induction A as [|l ls q n is_ D A IH|l ls is_ D A IH]; intros b B; inversion B as [|l2 ls2 q2 n2 is2 D2 B2 E1 E2|l2 ls2 is2 D2 B2 E1 E2]; subst.
  - reflexivity.
  - destruct (directive_one _ _ _ _ _ D D2) as [-> ->]. f_equal. apply IH, B2.
  - exfalso. apply (D2 q n D).
  - exfalso. apply (D q2 n2 D2).
  - apply IH, B2.
Qed.
(* whatever the text: what is found stands in it *)
Theorem C68c_stands : forall t q n, In (q, n) (include_names t) -> exists a h e b, t = a ++ h ++ n ++ e :: b /\ (a = [] \/ exists a2, a = a2 ++ [newline]) /\ head_of q h /\ (forall c, In c n -> name_char c) /\ (e = ">"%char \/ e = """"%char).
Proof.
  intros t q n. unfold include_names. enough (G : forall t k a b, (b = true -> a = [] \/ exists a2, a = a2 ++ [newline]) -> In (q, n) (findall k b t) ->
    exists a2 h e r, a ++ t = a2 ++ h ++ n ++ e :: r /\ (a2 = [] \/ exists a3, a2 = a3 ++ [newline]) /\ head_of q h /\ (forall c, In c n -> name_char c) /\ (e = ">"%char \/ e = """"%char)).
  { intros X. apply (G t 0 [] true); [auto | exact X]. }
  clear t. induction t as [|c t IH]; intros k a b Hb X; [destruct X|]. assert (Hn : is newline c = true -> a ++ [c] = [] \/ exists a2, a ++ [c] = a2 ++ [newline]) by (intros E; apply is_eq in E; subst; right; exists a; reflexivity).
  assert (K : forall k2, In (q, n) (findall k2 (is newline c) t) -> exists a2 h e r, a ++ c :: t = a2 ++ h ++ n ++ e :: r /\ (a2 = [] \/ exists a3, a2 = a3 ++ [newline]) /\ head_of q h /\ (forall c, In c n -> name_char c) /\ (e = ">"%char \/ e = """"%char)).
  { intros k2 Y. destruct (IH k2 (a ++ [c]) (is newline c) Hn Y) as (a2 & h & e & r & E & Z). exists a2, h, e, r. split; [rewrite <- E, <- app_assoc; reflexivity | exact Z]. }
  cbn [findall] in X. destruct k as [|k]; [|apply (K k X)]. destruct b; [|apply (K 0 X)]. destruct (match_at (c :: t)) as [[[q2 n2] rest]|] eqn:E; [|apply (K 0 X)]. destruct X as [X|X]; [|apply (K _ X)].
  injection X as -> ->. apply match_begins in E. destruct E as (h & e & E & Hh & _ & N & C). exists a, h, e, rest. rewrite E. auto 10.
Qed.
Print Assumptions C68a_names. Print Assumptions C68b_one. Print Assumptions C68c_stands.
