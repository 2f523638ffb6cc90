(** Property C98: the arguments of the analysis functions are stored in their output files *)
From Coq Require Import String Ascii List Bool Arith NArith Lia.
From Verif Require Import StorageModel.
Import ListNotations.
Local Open Scope string_scope.
Local Open Scope list_scope.

(** Specification.  The record of a function in a file *)
Definition lookup (fs : files) (o n : string) : option table :=
  match dict_get o fs with
  | None => None
  | Some f => match dict_get "arguments" f with None => None | Some g => dict_get n g end
  end.
(** The arguments passed in a call: positional ones by the names of the parameters, and those by name *)
Definition passed {V} (c : call V) : list (string * V) := combine (parameters c) (args c) ++ kwargs c.
(** What Python guarantees for a call that is made: parameters have different names, no argument is given twice *)
Definition well_formed {V} (c : call V) : Prop := NoDup (map fst (passed c)).
Definition record_of {V} (c : call V) : table :=
  {| rows := map (fun p => (cut name_size (fst p), cut value_size (text c (snd p)))) (passed c); date_created := Some (start c); version := bta c |}.
(** The file names of a returned value: a name, names, or a sequence that begins with one of these *)
Definition exists_file (fs : files) (s : string) : Prop := dict_get s fs <> None.
Inductive names_files (fs : files) : value -> list string -> Prop :=
| one : forall s, exists_file fs s -> names_files fs (Str s) [s]
| many : forall l, l <> [] -> Forall (exists_file fs) l -> names_files fs (Items (map Str l)) l
| first : forall s r, exists_file fs s -> (forall l, Items (Str s :: r) = Items (map Str l) -> ~ Forall (exists_file fs) l) -> names_files fs (Items (Str s :: r)) [s]
| first_many : forall l r, l <> [] -> Forall (exists_file fs) l -> names_files fs (Items (Items (map Str l) :: r)) l.

Lemma get_set {A} k k' (v : A) d : dict_get k (dict_set k' v d) = if String.eqb k k' then Some v else dict_get k d.
Proof.
  induction d as [|[a b] d IH]; cbn; [destruct (String.eqb k k'); reflexivity|].
  destruct (String.eqb k' a) eqn:E; cbn.
  - apply String.eqb_eq in E as <-; destruct (String.eqb k k'); reflexivity.
  - rewrite IH; destruct (String.eqb k a) eqn:E'; [|reflexivity].
    apply String.eqb_eq in E' as <-; rewrite String.eqb_sym, E; reflexivity.
Qed.
Lemma get_app {A} k (d e : list (string * A)) : dict_get k (d ++ e) = match dict_get k d with Some v => Some v | None => dict_get k e end.
Proof. induction d as [|[a b] d IH]; cbn; [reflexivity|]; destruct (String.eqb k a); [reflexivity|apply IH]. Qed.
Lemma get_none {A} k (d : list (string * A)) : dict_get k d = None <-> ~ In k (map fst d).
Proof.
  induction d as [|[a b] d IH]; cbn; [intuition|].
  destruct (String.eqb k a) eqn:E.
  - apply String.eqb_eq in E as <-; split; [discriminate|intros H; destruct H; left; reflexivity].
  - apply String.eqb_neq in E; rewrite IH; intuition.
Qed.
Lemma get_remove_other {A} k k' (d : list (string * A)) : k <> k' -> dict_get k (dict_remove k' d) = dict_get k d.
Proof.
  intros N; induction d as [|[a b] d IH]; cbn; [reflexivity|].
  destruct (String.eqb k' a) eqn:E; cbn.
  - apply String.eqb_eq in E as <-; apply String.eqb_neq in N; rewrite N; reflexivity.
  - rewrite IH; reflexivity.
Qed.
Lemma remove_names {A} k (d : list (string * A)) : NoDup (map fst d) -> ~ In k (map fst (dict_remove k d)) /\ NoDup (map fst (dict_remove k d)).
Proof.
  induction d as [|[a b] d IH]; cbn; intros H; [split; [tauto|constructor]|]; inversion H as [|? ? N1 N2]; subst.
  destruct (String.eqb k a) eqn:E; cbn.
  - apply String.eqb_eq in E as <-; split; assumption.
  - apply String.eqb_neq in E; destruct (IH N2) as [I1 I2]; split; [intuition|]; constructor; [|exact I2].
    intros C; apply N1; clear - C; induction d as [|[x y] d IH]; cbn in *; [exact C|]; destruct (String.eqb k x); [right; exact C|].
    destruct C as [C|C]; [left; exact C|right; apply IH, C].
Qed.
Lemma set_new {A} k (v : A) d : ~ In k (map fst d) -> dict_set k v d = d ++ [(k, v)].
Proof.
  induction d as [|[a b] d IH]; cbn; intros N; [reflexivity|].
  destruct (String.eqb k a) eqn:E; [apply String.eqb_eq in E; subst; tauto|]; rewrite IH; tauto.
Qed.
Lemma update_new {A} (e : list (string * A)) : forall d, NoDup (map fst (d ++ e)) -> dict_update d e = d ++ e.
Proof.
  unfold dict_update; induction e as [|[k v] e IH]; intros d H; cbn [fold_left]; [rewrite app_nil_r; reflexivity|]; cbn [fst snd].
  rewrite set_new.
  - rewrite IH; rewrite <- app_assoc; [reflexivity|exact H].
  - rewrite map_app in H; cbn in H; apply NoDup_remove_2 in H; intros C; apply H, in_or_app; left; exact C.
Qed.
Lemma nodup_left {A} (l m : list A) : NoDup (l ++ m) -> NoDup l.
Proof.
  induction l as [|a l IH]; cbn; intros H; [constructor|].
  inversion H as [|? ? H1 H2]; subst; constructor; [intros C; apply H1, in_or_app; left; exact C|apply IH, H2].
Qed.
Lemma all_kwargs_passed {V} (c : call V) : well_formed c -> all_kwargs c = passed c.
Proof.
  unfold well_formed, passed, all_kwargs; intros H.
  assert (E : dict_update [] (combine (parameters c) (args c)) = combine (parameters c) (args c)).
  { apply (update_new _ []); cbn; rewrite map_app in H; apply nodup_left in H; exact H. }
  rewrite E; apply update_new, H.
Qed.

(** The tables of a group have different names *)
Definition unique_tables (fs : files) : Prop := forall o f g, dict_get o fs = Some f -> dict_get "arguments" f = Some g -> NoDup (map fst g).

Definition saved {V} (now : N) (c : call V) (fs : files) (o : string) : files :=
  save_configuration_dict now (bta c) o "arguments" (func_name c) (map (fun p => (fst p, text c (snd p))) (all_kwargs c)) (Given (start c)) fs.

Lemma nodup_snoc {A} (l : list A) a : NoDup l -> ~ In a l -> NoDup (l ++ [a]).
Proof.
  induction l as [|b l IH]; cbn; intros H N; [constructor; [tauto|constructor]|]; inversion H as [|? ? H1 H2]; subst.
  constructor; [|apply IH; tauto]; rewrite in_app_iff; cbn; intuition.
Qed.
Lemma saved_step {V} now (c : call V) fs o : well_formed c -> unique_tables fs ->
  unique_tables (saved now c fs o) /\
  (forall o' n, lookup (saved now c fs o) o' n = if String.eqb o' o && String.eqb n (func_name c) then Some (record_of c) else lookup fs o' n) /\
  (forall o', o' <> o -> dict_get o' (saved now c fs o) = dict_get o' fs) /\
  (forall g f, g <> "arguments" -> dict_get o fs = Some f -> exists f', dict_get o (saved now c fs o) = Some f' /\ dict_get g f' = dict_get g f) /\
  (forall o', dict_get o fs <> None -> (dict_get o' (saved now c fs o) <> None <-> dict_get o' fs <> None)).
Proof.
  intros W U; unfold saved, save_configuration_dict, save_conf.
  set (f := match dict_get o fs with Some f => f | None => [] end).
  set (g := match dict_get "arguments" f with Some g => dict_remove (func_name c) g | None => [] end).
  assert (G : NoDup (map fst g) /\ ~ In (func_name c) (map fst g) /\ forall n, n <> func_name c -> dict_get n g = lookup fs o n).
  { unfold g, f, lookup; destruct (dict_get o fs) as [f0|] eqn:Ef; [|cbn; split; [constructor|]; split; [tauto|reflexivity]].
    destruct (dict_get "arguments" f0) as [g0|] eqn:Eg; [|cbn; split; [constructor|]; split; [tauto|reflexivity]].
    destruct (remove_names (func_name c) g0 (U _ _ _ Ef Eg)) as [R1 R2]; split; [exact R2|]; split; [exact R1|]; intros n N; apply get_remove_other, N. }
  destruct G as (G1 & G2 & G3).
  match goal with |- context [g ++ [(func_name c, ?t)]] => assert (T : t = record_of c) end.
  { unfold record_of; f_equal; rewrite map_map, all_kwargs_passed by exact W; reflexivity. }
  rewrite T; clear T; split; [|split; [|split; [|split]]].
  - intros o' f' g'; rewrite get_set; destruct (String.eqb o' o) eqn:E; [|apply U].
    intros H; injection H as <-; rewrite get_set; cbn; intros H; injection H as <-.
    rewrite map_app; cbn; apply nodup_snoc; assumption.
  - intros o' n; unfold lookup at 1; rewrite get_set; destruct (String.eqb o' o) eqn:E; cbn [andb]; [|reflexivity].
    apply String.eqb_eq in E as ->; rewrite get_set; rewrite String.eqb_refl, get_app; cbn [dict_get].
    destruct (String.eqb n (func_name c)) eqn:E.
    + apply String.eqb_eq in E as ->; rewrite (proj2 (get_none _ _) G2); reflexivity.
    + apply String.eqb_neq in E; rewrite (G3 n E); destruct (lookup fs o n); reflexivity.
  - intros o' N; rewrite get_set; apply String.eqb_neq in N; rewrite N; reflexivity.
  - intros g0 f0 N Ef; rewrite get_set, String.eqb_refl; eexists; split; [reflexivity|]; rewrite get_set.
    apply String.eqb_neq in N; rewrite N; unfold f; rewrite Ef; reflexivity.
  - intros o' E; rewrite get_set; destruct (String.eqb o' o) eqn:Eo; [|tauto]; apply String.eqb_eq in Eo as ->; split; [trivial|discriminate].
Qed.

Lemma saved_all {V} now (c : call V) out : forall fs, well_formed c -> unique_tables fs -> Forall (exists_file fs) out ->
  let fs' := fold_left (saved now c) out fs in
  unique_tables fs' /\
  (forall o n, lookup fs' o n = if existsb (String.eqb o) out && String.eqb n (func_name c) then Some (record_of c) else lookup fs o n) /\
  (forall o, ~ In o out -> dict_get o fs' = dict_get o fs) /\
  (forall o g f, g <> "arguments" -> dict_get o fs = Some f -> exists f', dict_get o fs' = Some f' /\ dict_get g f' = dict_get g f).
Proof.
  induction out as [|x out IH]; intros fs W U E; cbn [fold_left].
  - split; [exact U|]; split; [reflexivity|]; split; [reflexivity|]; intros o g f _ Ef; exists f; split; [exact Ef|reflexivity].
  - inversion E as [|? ? E1 E2]; subst.
    destruct (saved_step now c fs x W U) as (S1 & S2 & S3 & S4 & S5).
    assert (E' : Forall (exists_file (saved now c fs x)) out).
    { apply Forall_forall; intros o Io; rewrite Forall_forall in E2; apply S5; [exact E1|apply E2, Io]. }
    destruct (IH _ W S1 E') as (I1 & I2 & I3 & I4); split; [exact I1|]; split; [|split].
    + intros o n; rewrite I2, S2; cbn [existsb]; destruct (String.eqb o x), (existsb (String.eqb o) out), (String.eqb n (func_name c)); reflexivity.
    + intros o N; rewrite I3 by (intros C; apply N; right; exact C); apply S3; intros ->; apply N; left; reflexivity.
    + intros o g f N Ef; destruct (String.eqb o x) eqn:Eo.
      * apply String.eqb_eq in Eo as ->; destruct (S4 g f N Ef) as (f1 & F1 & F2); destruct (I4 x g f1 N F1) as (f2 & F3 & F4); exists f2; split; [exact F3|congruence].
      * apply String.eqb_neq in Eo; apply I4; [exact N|]; rewrite S3 by exact Eo; exact Ef.
Qed.

Lemma isfile_spec fs s : isfile fs (Str s) = true <-> exists_file fs s.
Proof. unfold isfile, exists_file; destruct (dict_get s fs); split; congruence. Qed.
Lemma all_strings l : forallb is_str l = true -> l = map Str (strings l).
Proof.
  induction l as [|[s|m|] l IH]; cbn; try discriminate; [reflexivity|]; intros H; f_equal; apply IH, H.
Qed.
Lemma strings_map l : strings (map Str l) = l.
Proof. induction l as [|a l IH]; cbn; [reflexivity|]; f_equal; exact IH. Qed.
Lemma all_files fs l : (forallb is_str (map Str l) && forallb (isfile fs) (map Str l)) = true <-> Forall (exists_file fs) l.
Proof.
  induction l as [|a l IH]; [cbn; split; [constructor|reflexivity]|].
  change (map Str (a :: l)) with (Str a :: map Str l); cbn [forallb]; change (is_str (Str a)) with true; cbn [andb].
  rewrite andb_assoc, (andb_comm (forallb is_str _)), <- andb_assoc, andb_true_iff, IH, isfile_spec; split.
  - intros [H1 H2]; constructor; assumption.
  - intros H; inversion H; subst; split; assumption.
Qed.
Lemma map_str_inj l m : map Str l = map Str m -> l = m.
Proof. intros H; rewrite <- (strings_map l), H; apply strings_map. Qed.

(** The files in which the arguments are stored are those named by the returned value *)
Lemma output_files_sound fs ret : output_files fs ret <> [] -> names_files fs ret (output_files fs ret).
Proof.
  destruct ret as [s|l|]; cbn [output_files]; [|intros H|congruence].
  - destruct (isfile fs (Str s)) eqn:E; [|congruence]; intros _; apply one, isfile_spec, E.
  - destruct (forallb is_str l && forallb (isfile fs) l) eqn:E.
    + assert (L : l = map Str (strings l)) by (apply all_strings; apply andb_prop in E; tauto).
      rewrite L at 1; apply many; [exact H|]; apply all_files; rewrite <- L; exact E.
    + destruct l as [|[s|l'|] r]; try congruence.
      * destruct (isfile fs (Str s)) eqn:F; [|congruence]; apply first; [apply isfile_spec, F|].
        intros l L C; injection L as L; apply all_files in C; rewrite <- L in C; congruence.
      * destruct (forallb is_str l' && forallb (isfile fs) l') eqn:F; [|congruence].
        assert (L : l' = map Str (strings l')) by (apply all_strings; apply andb_prop in F; tauto).
        rewrite L at 1; apply first_many; [exact H|]; apply all_files; rewrite <- L; exact F.
Qed.
Lemma output_files_complete fs ret out : names_files fs ret out -> output_files fs ret = out.
Proof.
  intros H; destruct H as [s H|l N H|s r H N|l r N H]; cbn [output_files].
  - apply isfile_spec in H; rewrite H; reflexivity.
  - rewrite (proj2 (all_files fs l) H); apply strings_map.
  - destruct (forallb is_str (Str s :: r) && forallb (isfile fs) (Str s :: r)) eqn:E.
    + assert (L : Str s :: r = map Str (strings (Str s :: r))) by (apply all_strings; apply andb_prop in E; tauto).
      destruct (N (strings (Str s :: r))); [f_equal; exact L|]; apply all_files; rewrite <- L; exact E.
    + apply isfile_spec in H; rewrite H; reflexivity.
  - cbn [forallb is_str andb]; rewrite (proj2 (all_files fs l) H); apply strings_map.
Qed.
Lemma output_exist fs ret : Forall (exists_file fs) (output_files fs ret).
Proof.
  destruct (output_files fs ret) as [|x l] eqn:E; [constructor|].
  assert (H : names_files fs ret (x :: l)) by (rewrite <- E; apply output_files_sound; rewrite E; discriminate).
  inversion H; subst; try assumption; constructor; try assumption; constructor.
Qed.

(** A warning is given if and only if the returned value names no files; the returned value is passed on, errors of the function too *)
Theorem C98_warning : forall V now (c : call V) fs,
  match func c fs with
  | None => wrapper now c fs = None
  | Some (fs1, ret) => exists fs' w, wrapper now c fs = Some (fs', ret, w) /\
      (w = true -> (forall out, ~ names_files fs1 ret out) /\ fs' = fs1) /\ (w = false -> exists out, names_files fs1 ret out)
  end.
Proof.
  intros V now c fs; unfold wrapper; destruct (func c fs) as [[fs1 ret]|]; [|reflexivity].
  eexists; eexists; split; [reflexivity|]; destruct (output_files fs1 ret) as [|x l] eqn:E; split; try discriminate.
  - intros _; split; [|reflexivity]; intros out H; assert (C := output_files_complete _ _ _ H); rewrite E in C; subst out; inversion H; congruence.
  - intros _; exists (x :: l); rewrite <- E; apply output_files_sound; rewrite E; discriminate.
Qed.

(** Every file of the result gets the record of exactly the passed arguments; nothing else is changed by the decorator *)
Theorem C98_recorded : forall V now (c : call V) fs fs1 ret fs' w out, well_formed c -> func c fs = Some (fs1, ret) -> unique_tables fs1 ->
  names_files fs1 ret out -> wrapper now c fs = Some (fs', ret, w) ->
  w = false /\ unique_tables fs' /\
  (forall o, In o out -> lookup fs' o (func_name c) = Some (record_of c)) /\
  (forall o n, ~ In o out \/ n <> func_name c -> lookup fs' o n = lookup fs1 o n) /\
  (forall o, ~ In o out -> dict_get o fs' = dict_get o fs1) /\
  (forall o g f, g <> "arguments" -> dict_get o fs1 = Some f -> exists f', dict_get o fs' = Some f' /\ dict_get g f' = dict_get g f).
Proof.
  intros V now c fs fs1 ret fs' w out W F U N; unfold wrapper; rewrite F; intros H.
  assert (E := output_files_complete _ _ _ N); assert (X := output_exist fs1 ret); rewrite E in X, H.
  change (fold_left _ out fs1) with (fold_left (saved now c) out fs1) in H.
  destruct (saved_all now c out fs1 W U X) as (S1 & S2 & S3 & S4).
  assert (H1 : fs' = fold_left (saved now c) out fs1) by congruence.
  assert (H2 : w = match out with [] => true | _ => false end) by congruence.
  assert (H3 : out <> []) by (inversion N; congruence).
  rewrite H1; split; [rewrite H2; destruct out; [congruence|reflexivity]|]; split; [exact S1|]; split; [|split; [|split; [exact S3|exact S4]]].
  - intros o I; rewrite S2, String.eqb_refl, andb_true_r; rewrite (proj2 (existsb_exists _ _)); [reflexivity|]; exists o; split; [exact I|apply String.eqb_refl].
  - intros o n D; rewrite S2; destruct (existsb (String.eqb o) out && String.eqb n (func_name c)) eqn:B; [|reflexivity].
    apply andb_prop in B as [B1 B2]; apply existsb_exists in B1 as (x & Ix & Ex); apply String.eqb_eq in Ex, B2; subst; tauto.
Qed.

(** A sequence of calls *)
Fixpoint run {V} (calls : list (N * call V)) (fs : files) : option files :=
  match calls with
  | [] => Some fs
  | (now, c) :: calls => match wrapper now c fs with None => None | Some (fs, _, _) => run calls fs end
  end.
(** The call does not change the records of file o, apart from the decorator, and does not name o or has another name *)
Definition keeps {V} (o n : string) (c : call V) : Prop := well_formed c /\ forall fs fs1 ret, unique_tables fs -> func c fs = Some (fs1, ret) ->
  unique_tables fs1 /\ lookup fs1 o n = lookup fs o n /\ (func_name c <> n \/ forall out, names_files fs1 ret out -> ~ In o out).

(** The record in a file is that of the last call of this function with this file as result *)
Theorem C98_last : forall V (before after : list (N * call V)) now c fs fs0 o fs',
  run before fs = Some fs0 -> unique_tables fs0 -> well_formed c ->
  (forall fs1 ret, func c fs0 = Some (fs1, ret) -> unique_tables fs1 /\ exists out, names_files fs1 ret out /\ In o out) ->
  (forall now' c', In (now', c') after -> keeps o (func_name c) c') ->
  run (before ++ (now, c) :: after) fs = Some fs' -> lookup fs' o (func_name c) = Some (record_of c).
Proof.
  intros V before after now c fs fs0 o fs' B U W Hc Ha R.
  assert (R' : run ((now, c) :: after) fs0 = Some fs').
  { clear - B R; revert fs B R; induction before as [|[t d] before IH]; intros fs B R; cbn [app run] in *; [injection B as <-; exact R|].
    destruct (wrapper t d fs) as [[[f1 r1] w1]|]; [eapply IH; eassumption|discriminate]. }
  cbn [run] in R'; destruct (wrapper now c fs0) as [[[f1 ret] w]|] eqn:Ew; [|discriminate].
  destruct (func c fs0) as [[f0 ret0]|] eqn:Ef; [|unfold wrapper in Ew; rewrite Ef in Ew; discriminate].
  destruct (Hc _ _ eq_refl) as (U0 & out & No & Io).
  assert (ret0 = ret) by (unfold wrapper in Ew; rewrite Ef in Ew; congruence); subst ret0.
  destruct (C98_recorded _ _ _ _ _ _ _ _ _ W Ef U0 No Ew) as (_ & U1 & L & _); specialize (L o Io); clear - U1 L Ha R'.
  revert f1 U1 L R'; induction after as [|[t d] after IH]; intros f1 U1 L R'; cbn [run] in R'; [congruence|].
  destruct (wrapper t d f1) as [[[f2 r2] w2]|] eqn:Ew; [|discriminate].
  destruct (Ha t d (or_introl eq_refl)) as (Wd & K).
  destruct (func d f1) as [[f0 r0]|] eqn:Ef; [|unfold wrapper in Ew; rewrite Ef in Ew; discriminate].
  destruct (K _ _ _ U1 Ef) as (U0 & L0 & D).
  assert (r0 = r2) by (unfold wrapper in Ew; rewrite Ef in Ew; congruence); subst r0.
  assert (Cd := C98_warning V t d f1); rewrite Ef in Cd; destruct Cd as (f2' & w & E2 & Ct & Cf).
  assert (f2' = f2 /\ w = w2) as [-> ->] by (rewrite Ew in E2; split; congruence).
  destruct w2.
  - destruct (Ct eq_refl) as [_ ->]; apply (IH (fun t' d' I => Ha t' d' (or_intror I)) f0); [exact U0|congruence|exact R'].
  - destruct (Cf eq_refl) as (od & Nd); destruct (C98_recorded _ _ _ _ _ _ _ _ _ Wd Ef U0 Nd Ew) as (_ & U2 & _ & L2 & _).
    apply (IH (fun t' d' I => Ha t' d' (or_intror I)) f2); [exact U2| |exact R'].
    rewrite L2; [congruence|]; destruct D as [D|D]; [right; congruence|left; apply D, Nd].
Qed.

(** Strings that fit are stored, longer ones are cut: different values have the same record *)
Lemma cut_short s : forall n, (N.of_nat (String.length s) <= n)%N -> cut n s = s.
Proof.
  induction s as [|a s IH]; intros n H; cbn [cut]; [reflexivity|]; cbn [String.length] in H.
  destruct (N.eqb_spec n 0); [lia|]; rewrite IH; [reflexivity|lia].
Qed.
Lemma cut_long s : forall n t, (n <= N.of_nat (String.length s))%N -> cut n (s ++ t) = cut n s.
Proof.
  induction s as [|a s IH]; intros n t H; cbn [String.length] in H.
  - assert (n = 0%N) as -> by lia; cbn; destruct t; reflexivity.
  - cbn [append cut]; destruct (N.eqb_spec n 0); [reflexivity|]; rewrite IH; [reflexivity|lia].
Qed.
Theorem C98_complete : forall V (c : call V) k v, In (k, v) (passed c) -> (N.of_nat (String.length k) <= 256)%N -> (N.of_nat (String.length (text c v)) <= 32768)%N ->
  In (k, text c v) (rows (record_of c)).
Proof.
  intros V c k v I H1 H2; unfold record_of; cbn [rows]; apply in_map_iff; exists (k, v); split; [|exact I]; cbn [fst snd]; rewrite !cut_short; [reflexivity|exact H2|exact H1].
Qed.
Lemma length_rep a n : String.length (string_of_list_ascii (repeat a n)) = n.
Proof. induction n as [|n IH]; [reflexivity|]; cbn [repeat string_of_list_ascii String.length]; rewrite IH; reflexivity. Qed.
Lemma append_neq s : s <> append s "x".
Proof. induction s as [|a s IH]; cbn; [discriminate|]; intros H; injection H as H; exact (IH H). Qed.
Theorem C98_cut_refuted : exists c1 c2 : call string, parameters c1 = parameters c2 /\ args c1 <> args c2 /\ text c1 = text c2 /\ record_of c1 = record_of c2.
Proof.
  pose (mk := fun s => {| func_name := "find_tracks"; parameters := ["telescope_configuration"]; args := [s]; kwargs := []; func := fun fs => None; text := fun s => s; start := 0%N; bta := "1" |}).
  set (s := string_of_list_ascii (repeat "a"%char (N.to_nat value_size))).
  exists (mk s), (mk (append s "x")); split; [reflexivity|]; split; [|split; [reflexivity|]].
  - cbn [mk args]; intros H; assert (E : s = append s "x") by congruence; exact (append_neq _ E).
  - unfold record_of, passed; cbn [mk parameters args combine kwargs app map fst snd text start bta]; rewrite cut_long; [reflexivity|].
    unfold s; rewrite length_rep, N2Nat.id; reflexivity.
Qed.

(** Only passed arguments are stored *)
Theorem C98_only_passed : forall V (c : call V) k, ~ In k (map (fun p => cut name_size (fst p)) (passed c)) -> ~ In k (map fst (rows (record_of c))).
Proof. intros V c k N C; apply N; unfold record_of in C; cbn [rows] in C; rewrite map_map in C; exact C. Qed.

(** A date given as struct_time is not stored *)
Theorem C98_date_refuted : forall now b o n d t fs, exists f g r, dict_get o (save_configuration_dict now b o "configuration" n d (Struct t) fs) = Some f /\
  dict_get "configuration" f = Some g /\ In (n, r) g /\ date_created r = None.
Proof.
  intros; unfold save_configuration_dict, save_conf; rewrite get_set, String.eqb_refl.
  eexists; eexists; eexists; split; [reflexivity|]; rewrite get_set; cbn [String.eqb Ascii.eqb Bool.eqb]; split; [reflexivity|]; split; [apply in_or_app; right; left; reflexivity|reflexivity].
Qed.

(** A call of reduce_events with a positional argument and one by name, that writes a new file; the default of chunk_size is not stored *)
Definition ex_call : call string :=
  {| func_name := "reduce_events"; parameters := ["input_file"; "max_events"; "output_file"; "chunk_size"]; args := ["in.h5"]; kwargs := [("max_events", "10"); ("output_file", "out.h5")];
     func := fun fs => Some (dict_set "out.h5" [] fs, Str "out.h5"); text := fun s => s; start := 7%N; bta := "2.0" |}.
Example C98_case : well_formed ex_call /\ names_files (dict_set "out.h5" [] [("in.h5", [])]) (Str "out.h5") ["out.h5"] /\
  wrapper 9 ex_call [("in.h5", [])] =
    Some ([("in.h5", []); ("out.h5", [("arguments", [("reduce_events",
      {| rows := [("input_file", "in.h5"); ("max_events", "10"); ("output_file", "out.h5")]; date_created := Some 7%N; version := "2.0" |})])])], Str "out.h5", false) /\
  ~ In "chunk_size" (map fst (rows (record_of ex_call))).
Proof.
  split; [|split; [|split]].
  - unfold well_formed, passed; cbn; repeat constructor; cbn; intuition discriminate.
  - apply one; discriminate.
  - vm_compute; reflexivity.
  - cbn; intuition discriminate.
Qed.
(** The arguments of a function are not complete: defaults are not stored *)
Theorem C98_defaults_refuted : exists (c : call string) k, well_formed c /\ In k (parameters c) /\ ~ In k (map fst (rows (record_of c))).
Proof. exists ex_call, "chunk_size"; split; [apply C98_case|]; split; [cbn; tauto|apply C98_case]. Qed.
Example C98_keeps_case : unique_tables [("in.h5", [])] /\ keeps "in.h5" "reduce_events" ex_call.
Proof.
  split.
  - intros o f g; cbn; destruct (String.eqb o "in.h5"); [|discriminate]; intros H; injection H as <-; discriminate.
  - split; [apply C98_case|]; intros fs fs1 ret U H; injection H as <- <-; split; [|split].
    + intros o f g; rewrite get_set; destruct (String.eqb o "out.h5"); [|apply U]; intros H; injection H as <-; discriminate.
    + unfold lookup; rewrite get_set; reflexivity.
    + right; intros out H; inversion H; subst; cbn; intuition discriminate.
Qed.

Print Assumptions C98_warning.
Print Assumptions C98_recorded.
Print Assumptions C98_last.
Print Assumptions C98_complete.
Print Assumptions C98_cut_refuted.
Print Assumptions C98_only_passed.
Print Assumptions C98_date_refuted.
Print Assumptions C98_defaults_refuted.
