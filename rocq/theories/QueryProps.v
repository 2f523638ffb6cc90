(** Property C108: the query of select_tracks. *)
From Coq Require Import Ascii String List Bool Arith Lia.
From Verif Require Import QueryModel.
Import ListNotations.

(** Specification: character classes by their characters. *)
Definition digits : list ascii := list_ascii_of_string "0123456789".
Definition letters : list ascii := list_ascii_of_string "abcdefghijklmnopqrstuvwxyzABCDEFGHIJKLMNOPQRSTUVWXYZ_".
Lemma class_spec (p : ascii -> bool) (l : list ascii) :
  forallb (fun n => Bool.eqb (p (ascii_of_nat n)) (existsb (Ascii.eqb (ascii_of_nat n)) l)) (seq 0 256) = true -> forall c, p c = true <-> In c l.
Proof.
  intros H c. rewrite forallb_forall in H. specialize (H (nat_of_ascii c)). rewrite ascii_nat_embedding in H.
  assert (E : p c = existsb (Ascii.eqb c) l) by (apply eqb_prop, H, in_seq; pose proof (nat_ascii_bounded c); lia).
  rewrite E, existsb_exists. split.
  - intros (x & I & X). apply Ascii.eqb_eq in X. subst x. exact I.
  - intros I. exists c. split; [exact I|apply Ascii.eqb_refl].
Qed.
Lemma is_digit_spec c : is_digit c = true <-> In c digits.
Proof. revert c. apply class_spec. vm_compute. reflexivity. Qed.
Lemma is_letter_spec c : is_letter c = true <-> In c letters.
Proof. revert c. apply class_spec. vm_compute. reflexivity. Qed.
Lemma letter_not_digit c : is_letter c = true -> is_digit c = false.
Proof.
  intros H. destruct (is_digit c) eqn:D; [|reflexivity]. exfalso.
  assert (X : forallb (fun n => negb (is_letter (ascii_of_nat n) && is_digit (ascii_of_nat n))) (seq 0 256) = true) by (vm_compute; reflexivity).
  rewrite forallb_forall in X. specialize (X (nat_of_ascii c)). rewrite ascii_nat_embedding, H, D in X.
  assert (B : In (nat_of_ascii c) (seq 0 256)) by (apply in_seq; pose proof (nat_ascii_bounded c); lia). specialize (X B). discriminate.
Qed.

(** A query is a first text, and names each followed by a text.  A name is letters (with underscores) followed by digits; the texts have no letters; a text between two names is not empty and
    the neighbours of a name are no digits. *)
Definition all_in (l s : list ascii) : Prop := forall c, In c s -> In c l.
Definition is_name (n : list ascii) : Prop := exists a b, n = a ++ b /\ a <> [] /\ all_in letters a /\ all_in digits b.
Definition no_letters (t : list ascii) : Prop := forall c, In c t -> ~ In c letters.
Definition begins_well (t : list ascii) : Prop := match t with [] => True | c :: _ => ~ In c digits end.
Definition ends_well (t : list ascii) : Prop := forall u c, t = u ++ [c] -> ~ In c digits.
Fixpoint well_formed (q : list (list ascii * list ascii)) : Prop :=
  match q with
  | [] => True
  | (n, t) :: q => is_name n /\ no_letters t /\ begins_well t /\ (q <> [] -> t <> [] /\ ends_well t) /\ well_formed q
  end.
Definition query_text (t0 : list ascii) (q : list (list ascii * list ascii)) : list ascii := t0 ++ concat (map (fun p => fst p ++ snd p) q).

Lemma span_all p a r : (forall c, In c a -> p c = true) -> match r with [] => True | c :: _ => p c = false end -> span p (a ++ r) = (a, r).
Proof.
  intros H R. induction a as [|c a IH]; cbn.
  - destruct r as [|c r]; [reflexivity|]. cbn. rewrite R. reflexivity.
  - rewrite (H c (or_introl eq_refl)), IH; [reflexivity|]. intros x X. apply H. right. exact X.
Qed.
Lemma span_parts p s : forall a b, span p s = (a, b) -> s = a ++ b /\ (forall c, In c a -> p c = true) /\ match b with [] => True | c :: _ => p c = false end.
Proof.
  induction s as [|c s IH]; cbn; intros a b E; [injection E as <- <-; cbn; auto|]. destruct (p c) eqn:P.
  - destruct (span p s) as [a' b'] eqn:S. injection E as <- <-. destruct (IH _ _ eq_refl) as (-> & H & B). split; [reflexivity|]. split; [|exact B]. intros x [<-|X]; auto.
  - injection E as <- <-. split; [reflexivity|]. split; [intros ? []|exact P].
Qed.
Lemma not_in_digit c : ~ In c digits <-> is_digit c = false.
Proof. rewrite <- is_digit_spec. destruct (is_digit c); split; congruence. Qed.
Lemma not_in_letter c : ~ In c letters <-> is_letter c = false.
Proof. rewrite <- is_letter_spec. destruct (is_letter c); split; congruence. Qed.

Lemma match_name a b r : a <> [] -> all_in letters a -> all_in digits b -> match r with [] => True | c :: _ => is_digit c = false /\ (b = [] -> is_letter c = false) end ->
  match_at (a ++ b ++ r) = Some (a ++ b, r).
Proof.
  intros N A B R. unfold match_at. destruct a as [|a0 a]; [contradiction|].
  assert (D0 : is_digit a0 = false) by (apply letter_not_digit, is_letter_spec, A; left; reflexivity).
  assert (SD : span is_digit ((a0 :: a) ++ b ++ r) = ([], (a0 :: a) ++ b ++ r)) by (cbn; rewrite D0; reflexivity). rewrite SD.
  rewrite (span_all is_letter (a0 :: a) (b ++ r)).
  - rewrite (span_all is_digit b r); [reflexivity|intros c C; apply is_digit_spec, B, C|]. destruct r; [exact Logic.I|apply R].
  - intros c C. apply is_letter_spec, A, C.
  - destruct b as [|b0 b]; cbn; [destruct r; [exact Logic.I|apply R; reflexivity]|].
    destruct (is_letter b0) eqn:L; [|reflexivity]. apply letter_not_digit in L. assert (is_digit b0 = true) by (apply is_digit_spec, B; left; reflexivity). congruence.
Qed.
Lemma no_match u r : u <> [] -> no_letters u -> (r = [] \/ ends_well u) -> match_at (u ++ r) = None.
Proof.
  intros N L E. unfold match_at. destruct (span is_digit (u ++ r)) as [d s] eqn:S. apply span_parts in S. destruct S as (Q & D & B).
  assert (X : match s with [] => True | c :: _ => is_letter c = false end).
  { assert (P : exists v, u = d ++ v \/ (d = u ++ v /\ v <> [])).
    { clear -Q. revert u Q. induction d as [|x d IH]; intros [|y u] Q.
      - exists []. left. reflexivity.
      - exists (y :: u). left. reflexivity.
      - exists (x :: d). right. split; [reflexivity|discriminate].
      - cbn in Q. injection Q as E Q. subst y. destruct (IH u Q) as (v & [->|[-> V]]); exists v; [left|right]; cbn; auto. }
    destruct P as (v & [->|[-> V]]).
    - rewrite <- app_assoc in Q. apply app_inv_head in Q. destruct v as [|v0 v].
      + rewrite app_nil_r in *. cbn in Q. subst s. destruct E as [->|E]; [exact Logic.I|]. destruct (@exists_last _ d N) as (w & c & ->). exfalso.
        apply (E w c eq_refl). apply is_digit_spec, D, in_or_app. right. left. reflexivity.
      + cbn in Q. subst s. apply not_in_letter, L, in_or_app. right. left. reflexivity.
    - destruct E as [->|E].
      + exfalso. rewrite app_nil_r in Q. apply (f_equal (@List.length ascii)) in Q. rewrite !app_length in Q. destruct v; [contradiction|cbn in Q; lia].
      + destruct (@exists_last _ u N) as (w & c & ->). exfalso. apply (E w c eq_refl). apply is_digit_spec, D, in_or_app. left. apply in_or_app. right. left. reflexivity. }
  destruct s as [|c s]; cbn; [reflexivity|]. rewrite X. reflexivity.
Qed.
Lemma match_shorter s m r : match_at s = Some (m, r) -> (List.length r < List.length s)%nat.
Proof.
  unfold match_at. destruct (span is_digit s) as [d s1] eqn:E1. destruct (span is_letter s1) as [l s2] eqn:E2. destruct l as [|l0 l]; [discriminate|].
  destruct (span is_digit s2) as [e s3] eqn:E3. intros H. injection H as _ <-. apply span_parts in E1, E2, E3. destruct E1 as (-> & _), E2 as (-> & _), E3 as (-> & _).
  rewrite !app_length. cbn. lia.
Qed.
Lemma findall_more n : forall m s, (List.length s <= n)%nat -> (n <= m)%nat -> findall m s = findall n s.
Proof.
  induction n as [|n IH]; intros m s L M.
  - destruct s; [destruct m; reflexivity|cbn in L; lia].
  - destruct m as [|m]; [lia|]. destruct s as [|c s]; [reflexivity|]. cbn [findall]. destruct (match_at (c :: s)) as [[w r]|] eqn:E.
    + f_equal. apply match_shorter in E. cbn in E, L. apply IH; lia.
    + cbn in L. apply IH; lia.
Qed.
Lemma variables_skip u r : no_letters u -> (r = [] \/ ends_well u) -> variables (u ++ r) = variables r.
Proof.
  intros L E. induction u as [|c u IH]; [reflexivity|]. unfold variables in *. cbn [app List.length findall].
  assert (X := no_match (c :: u) r ltac:(discriminate) L E). cbn [app] in X. rewrite X. apply IH.
  - intros x Hx. apply L. right. exact Hx.
  - destruct E as [->|E]; [left; reflexivity|right]. intros v x ->. apply (E (c :: v) x). reflexivity.
Qed.
Lemma variables_name n r : is_name n -> match r with [] => True | c :: _ => is_digit c = false /\ is_letter c = false end -> variables (n ++ r) = n :: variables r.
Proof.
  intros (a & b & -> & N & A & B) R. unfold variables. rewrite <- app_assoc. destruct a as [|a0 a]; [contradiction|].
  assert (X := match_name (a0 :: a) b r N A B). cbn [app List.length findall] in *. rewrite X by (destruct r; [exact Logic.I|split; [apply R|intros _; apply R]]).
  f_equal. apply findall_more; [lia|]. rewrite !app_length. lia.
Qed.

(** The regular expression finds the names of the query, each at each place, and nothing else. *)
Theorem C108_names : forall t0 q, no_letters t0 -> (q <> [] -> ends_well t0) -> well_formed q -> variables (query_text t0 q) = map fst q.
Proof.
  intros t0 q L0 E0 W. unfold query_text. rewrite variables_skip; [|exact L0|].
  2:{ destruct q; [left; reflexivity|right; apply E0; discriminate]. }
  clear L0 E0 t0. induction q as [|[n t] q IH]; [reflexivity|]. destruct W as (N & L & B & E & W). cbn [map fst snd concat]. rewrite <- app_assoc. rewrite variables_name.
  - f_equal. rewrite variables_skip; [apply IH; exact W|exact L|]. destruct q; [left; reflexivity|right; apply E; discriminate].
  - exact N.
  - destruct t as [|c t]; cbn.
    + destruct q as [|p q]; [exact Logic.I|]. destruct E as [E _]; [discriminate|contradiction].
    + split; [apply not_in_digit; exact B|apply not_in_letter, L; left; reflexivity].
Qed.

Lemma same_name_spec a : forall b, same_name a b = true <-> a = b.
Proof.
  induction a as [|x a IH]; intros [|y b]; cbn; try (split; congruence). rewrite andb_true_iff, IH, Ascii.eqb_eq. split; [intros [-> ->]; reflexivity|intros E; injection E; auto].
Qed.
Lemma name_first n : is_name n -> match n with c :: _ => negb (is_digit c) | [] => false end = true.
Proof.
  intros (a & b & -> & N & A & _). destruct a as [|c a]; [contradiction|]. cbn. rewrite letter_not_digit; [reflexivity|]. apply is_letter_spec, A. left. reflexivity.
Qed.
(** The tracks which fulfil the query are selected if every name in the query is a column, and only then: a name of a function (abs, sqrt, where) or of a constant (True) is an error. *)
Theorem C108_selection : forall T columns t0 q (evaluate : T -> bool) rows, no_letters t0 -> (q <> [] -> ends_well t0) -> well_formed q ->
  ((forall n, In n (map fst q) -> In n columns) -> table_where columns (query_text t0 q) evaluate rows = Some (filter evaluate rows)) /\
  (forall n, In n (map fst q) -> ~ In n columns -> table_where columns (query_text t0 q) evaluate rows = None).
Proof.
  intros T columns t0 q evaluate rows L E W. unfold table_where. rewrite C108_names by assumption.
  assert (NM : forall n, In n (map fst q) -> is_name n).
  { clear -W. induction q as [|[n t] q IH]; [intros ? []|]. destruct W as (N & _ & _ & _ & W). intros m [<-|M]; [exact N|apply IH; assumption]. }
  assert (EX : forall n, In n (map fst q) -> exposes columns n = true <-> In n columns).
  { intros n I. unfold exposes. rewrite (name_first n (NM n I)). cbn [andb]. rewrite existsb_exists. split.
    - intros (c & C & S). apply same_name_spec in S. subst c. exact C.
    - intros C. exists n. split; [exact C|apply same_name_spec; reflexivity]. }
  split.
  - intros A. replace (forallb (exposes columns) (map fst q)) with true; [reflexivity|]. symmetry. apply forallb_forall. intros n I. apply EX; auto.
  - intros n I NC. destruct (forallb (exposes columns) (map fst q)) eqn:F; [|reflexivity]. rewrite forallb_forall in F. exfalso. apply NC, EX; [exact I|]. apply F, I.
Qed.

(** One would expect that numbers can be written as in Python.  A number with exponent (1e3, 5.0e-3) is taken for a variable: every such query is an error, whatever the columns are. *)
Theorem C108_exponent_refuted : forall T columns before d after (evaluate : T -> bool) rows, no_letters before -> ends_well before -> In d digits ->
  table_where columns (before ++ d :: "e"%char :: after) evaluate rows = None.
Proof.
  intros T columns before d after evaluate rows L E D. unfold table_where. rewrite variables_skip by auto.
  assert (X : exists m r, variables (d :: "e"%char :: after) = (d :: m) :: r).
  { apply is_digit_spec in D. unfold variables. cbn [List.length findall]. unfold match_at. cbn [span]. rewrite D. cbn [span]. change (is_digit "e"%char) with false. cbn iota.
    cbn [span]. change (is_letter "e"%char) with true. cbn iota. destruct (span is_letter after) as [l r]. cbn iota. destruct (span is_digit r) as [e r']. eexists. eexists. reflexivity. }
  destruct X as (m & r & ->). cbn [forallb]. unfold exposes at 1. apply is_digit_spec in D. rewrite D. reflexivity.
Qed.
(** One would expect that every column can be used.  A name with a digit before a letter is cut behind the digits: it is an error unless the parts are columns. *)
Theorem C108_inner_digit_refuted : forall T columns a b c (evaluate : T -> bool) rows, a <> [] -> all_in letters a -> b <> [] -> all_in digits b -> is_name c ->
  variables (a ++ b ++ c) = [a ++ b; c] /\ (In (a ++ b ++ c) columns -> ~ In c columns -> table_where columns (a ++ b ++ c) evaluate rows = None).
Proof.
  intros T columns a b c evaluate rows NA A NB B C.
  assert (V : variables (a ++ b ++ c) = [a ++ b; c]).
  { unfold variables. destruct a as [|a0 a]; [contradiction|]. destruct C as (c1 & c2 & -> & N1 & C1 & C2). destruct c1 as [|c0 c1]; [contradiction|].
    assert (LC : is_letter c0 = true) by (apply is_letter_spec, C1; left; reflexivity).
    assert (M := match_name (a0 :: a) b ((c0 :: c1) ++ c2) NA A B). cbn [app List.length findall] in *.
    rewrite M by (split; [apply letter_not_digit; exact LC|intros ->; contradiction]). f_equal.
    assert (VN : variables ((c0 :: c1) ++ c2) = [(c0 :: c1) ++ c2]).
    { rewrite <- (app_nil_r ((c0 :: c1) ++ c2)) at 1. rewrite variables_name; [reflexivity| |exact Logic.I]. exists (c0 :: c1), c2. auto. }
    unfold variables in VN. refine (eq_trans _ VN). apply findall_more; [cbn [app]; lia|]. cbn [app List.length]. rewrite !app_length. cbn [List.length]. rewrite ?app_length. lia. }
  split; [exact V|]. intros _ NC. unfold table_where. rewrite V. cbn [forallb].
  replace (exposes columns c) with false; [rewrite andb_false_r; reflexivity|]. symmetry. apply not_true_iff_false. unfold exposes. rewrite andb_true_iff, existsb_exists.
  intros (_ & x & X & S). apply same_name_spec in S. subst x. contradiction.
Qed.

(** "(x_dut_0 > 0.5) & (track_chi2 < 10)" *)
Definition chars := list_ascii_of_string.
Example C108_case :
  let q := [(chars "x_dut_0", chars " > 0.5) & ("); (chars "track_chi2", chars " < 10)")] in
  query_text (chars "(") q = chars "(x_dut_0 > 0.5) & (track_chi2 < 10)" /\ no_letters (chars "(") /\ ends_well (chars "(") /\ well_formed q /\
  variables (chars "(x_dut_0 > 0.5) & (track_chi2 < 10)") = [chars "x_dut_0"; chars "track_chi2"] /\
  table_where [chars "x_dut_0"] (chars "abs(x_dut_0) < 5") (fun _ : nat => true) [1%nat] = None /\
  table_where [chars "x_dut_0"] (chars "x_dut_0 < 5") (fun n : nat => (n <? 2)%nat) [1; 2]%nat = Some [1%nat] /\
  variables (chars "x < 1e3") = [chars "x"; chars "1e3"] /\ variables (chars "a1b") = [chars "a1"; chars "b"].
Proof.
  assert (NL : forall t, forallb (fun c => negb (is_letter c)) t = true -> no_letters t).
  { intros t H c C. rewrite forallb_forall in H. apply not_in_letter. specialize (H c C). destruct (is_letter c); [discriminate|reflexivity]. }
  assert (EW : forall t, match rev t with c :: _ => is_digit c = false | [] => True end -> ends_well t).
  { intros t H u c ->. rewrite rev_app_distr in H. cbn in H. apply not_in_digit. exact H. }
  assert (AL : forall a, forallb is_letter a = true -> all_in letters a) by (intros a H c C; rewrite forallb_forall in H; apply is_letter_spec, H, C).
  assert (AD : forall a, forallb is_digit a = true -> all_in digits a) by (intros a H c C; rewrite forallb_forall in H; apply is_digit_spec, H, C).
  cbv zeta. split; [reflexivity|]. split; [apply NL; reflexivity|]. split; [apply EW; reflexivity|]. split.
  - split; [exists (chars "x_dut_"), (chars "0"); split; [reflexivity|split; [discriminate|split; [apply AL; reflexivity|apply AD; reflexivity]]]|].
    split; [apply NL; reflexivity|]. split; [apply not_in_digit; reflexivity|]. split; [intros _; split; [discriminate|apply EW; reflexivity]|].
    split; [exists (chars "track_chi"), (chars "2"); split; [reflexivity|split; [discriminate|split; [apply AL; reflexivity|apply AD; reflexivity]]]|].
    split; [apply NL; reflexivity|]. split; [apply not_in_digit; reflexivity|]. split; [intros X; contradiction|exact Logic.I].
  - repeat split; reflexivity.
Qed.

Print Assumptions C108_names.
Print Assumptions C108_selection.
Print Assumptions C108_exponent_refuted.
Print Assumptions C108_inner_digit_refuted.
