(** C135: the file of correlate and its figures. *)
From Coq Require Import Ascii String List Arith ZArith Reals Bool Lia Lra Sorting.Sorted Permutation.
From Verif Require Import EventArraysModel GeometryModel FindTracksModel QueryModel FitTracksModel Chi2PlotModel Chi2PlotProps DensityProps MaskPlotProps CorrelateModel CorrelateProps CorrelateBinsProps CorrFileModel.
Import ListNotations.
Local Open Scope R_scope.
Local Open Scope list_scope.

(** * Names *)
Lemma runs_skip p s : forallb (fun c => negb (is_digit c)) p = true -> digit_runs [] (p ++ s) = digit_runs [] s.
Proof. induction p as [|c p IH]; intros H; [reflexivity|]. cbn in H. apply andb_true_iff in H. destruct H as [A B]. cbn [app digit_runs]. apply negb_true_iff in A. rewrite A. apply IH, B. Qed.
Lemma runs_then s c t : forall run, forallb is_digit s = true -> run ++ s <> [] -> is_digit c = false -> digit_runs run (s ++ c :: t) = (run ++ s) :: digit_runs [] t.
Proof.
  induction s as [|d s IH]; intros run D N C.
  - rewrite app_nil_r in *. cbn [app digit_runs]. rewrite C. destruct run; [congruence|reflexivity].
  - cbn [forallb] in D. apply andb_true_iff in D. destruct D as [D1 D2]. cbn [app digit_runs]. rewrite D1, IH; [now rewrite <- app_assoc|exact D2| |exact C]. rewrite <- app_assoc. exact N.
Qed.
Lemma int_decimal n : int_of (decimal n) = n.
Proof. apply int_digits. lia. Qed.
Lemma pair_of_corr x reduced r d : pair_of_name (corr_name x reduced r d) = Some (r, d).
Proof.
  unfold pair_of_name, corr_name. rewrite !app_assoc. rewrite <- (app_assoc _ (decimal r)), <- !(app_assoc _ _ (_ ++ _)). rewrite <- !app_assoc.
  replace (chars "Correlation_" ++ chars (if x then "x" else "y") ++ chars "_" ++ decimal r ++ chars "_" ++ decimal d ++ chars (if reduced then "_reduced_background" else "")) with
    ((chars "Correlation_" ++ chars (if x then "x" else "y") ++ chars "_") ++ decimal r ++ "_"%char :: decimal d ++ chars (if reduced then "_reduced_background" else "")) by (rewrite <- !app_assoc; reflexivity).
  rewrite runs_skip by (destruct x; reflexivity). rewrite runs_then; [|apply digits_all|apply decimal_nonempty|reflexivity]. cbn [app]. destruct reduced.
  - change (chars "_reduced_background") with ("_"%char :: chars "reduced_background"). rewrite runs_then; [|apply digits_all|apply decimal_nonempty|reflexivity]. cbn [app]. now rewrite !int_decimal.
  - cbn [chars list_ascii_of_string]. rewrite app_nil_r. rewrite runs_digits; [|apply digits_all|apply decimal_nonempty]. cbn [app]. now rewrite !int_decimal.
Qed.
Lemma starts_app p s : starts_with p (p ++ s) = true.
Proof. induction p as [|a p IH]; [reflexivity|]. cbn. now rewrite Ascii.eqb_refl, IH. Qed.
Lemma contains_no a p s : ~ In a s -> contains (a :: p) s = false.
Proof.
  induction s as [|b s IH]; intros N; [reflexivity|]. cbn [contains starts_with]. destruct (Ascii.eqb_spec a b) as [->|E]; [exfalso; apply N; now left|]. cbn [andb orb]. apply IH. intros I. apply N. now right.
Qed.
Lemma contains_app p u s : contains p s = true -> contains p (u ++ s) = true.
Proof. intros H. induction u as [|a u IH]; [exact H|]. cbn [app contains]. rewrite IH. apply orb_true_r. Qed.
Lemma digit_not n c : is_digit c = false -> ~ In c (decimal n).
Proof. intros C I. pose proof (digits_all (S n) n) as D. rewrite forallb_forall in D. specialize (D c I). congruence. Qed.
Lemma notin_b c l : existsb (Ascii.eqb c) l = false -> ~ In c l.
Proof. intros E I. assert (T : existsb (Ascii.eqb c) l = true) by (apply existsb_exists; exists c; split; [exact I|apply Ascii.eqb_refl]). congruence. Qed.
Lemma digit_not_b n c : is_digit c = false -> existsb (Ascii.eqb c) (decimal n) = false.
Proof. intros C. destruct (existsb _ _) eqn:E; [|reflexivity]. apply existsb_exists in E. destruct E as (d & I & Q). apply Ascii.eqb_eq in Q. subst d. now apply digit_not in I. Qed.
Lemma x_of_corr x reduced r d : contains (chars "Correlation_x") (corr_name x reduced r d) = x.
Proof.
  unfold corr_name. destruct x.
  - reflexivity.
  - set (s := chars "_" ++ _). assert (N : ~ In "C"%char (chars "orrelation_" ++ chars "y" ++ s)).
    { apply notin_b. unfold s. rewrite !existsb_app, !digit_not_b by reflexivity. destruct reduced; reflexivity. }
    apply (contains_no _ (chars "orrelation_x")) in N. change (chars "Correlation_" ++ chars "y" ++ s) with ("C"%char :: chars "orrelation_" ++ chars "y" ++ s). cbn [contains].
    change (chars "Correlation_x") with ("C"%char :: chars "orrelation_x"). rewrite N. reflexivity.
Qed.
Lemma reduced_of_corr x reduced r d : contains (chars "background") (corr_name x reduced r d) = reduced.
Proof.
  unfold corr_name. destruct reduced; [repeat apply contains_app; reflexivity|]. apply (contains_no "b"%char (chars "ackground")), notin_b. rewrite !existsb_app, !digit_not_b by reflexivity. destruct x; reflexivity.
Qed.
Lemma corr_inj x reduced r d x' reduced' r' d' : corr_name x reduced r d = corr_name x' reduced' r' d' -> x = x' /\ reduced = reduced' /\ r = r' /\ d = d'.
Proof.
  intros E. pose proof (x_of_corr x reduced r d) as A. pose proof (reduced_of_corr x reduced r d) as B. pose proof (pair_of_corr x reduced r d) as C. rewrite E in A, B, C. rewrite x_of_corr in A. rewrite reduced_of_corr in B. rewrite pair_of_corr in C. injection C as -> ->. auto.
Qed.

(** * Shapes *)
Definition shape (hs : hists) : Z * Z * Z * Z := (rows (fst hs), columns (fst hs), rows (snd hs), columns (snd hs)).
Lemma fill_shape hs a b hs' : fill hs a b = Ok hs' -> shape hs' = shape hs.
Proof.
  unfold fill, bump. destruct (_ && _ && _ && _); [|discriminate]. destruct (_ && _ && _ && _); [|discriminate]. intros [= <-]. reflexivity.
Qed.
Lemma fill_event_shape r dut : forall hs hs', fill_event r dut hs = Ok hs' -> shape hs' = shape hs.
Proof.
  induction dut as [|d dut IH]; intros hs hs' E; cbn in E; [now injection E as <-|]. destruct (_ =? _)%Z; [|now injection E as <-]. destruct (fill hs d r) eqn:F; try discriminate. rewrite (IH _ _ E). apply (fill_shape _ _ _ _ F).
Qed.
Lemma event_number_shape ref : forall dut hs hs', correlate_on_event_number ref dut hs = Ok hs' -> shape hs' = shape hs.
Proof.
  induction ref as [|r ref IH]; intros dut hs hs' E; cbn in E; [now injection E as <-|]. destruct (fill_event r _ hs) eqn:F; try discriminate. rewrite (IH _ _ _ E). apply (fill_event_shape _ _ _ _ F).
Qed.
Lemma chunks_shape ref : forall ys i hs r, correlate_chunks ref ys i hs = Ok r -> shape (snd r) = shape hs.
Proof.
  induction ys as [|[data j] ys IH]; intros i hs r E; cbn in E; [now injection E as <-|]. destruct (correlate_on_event_number ref data hs) eqn:F; try discriminate. rewrite (IH _ _ _ E). apply (event_number_shape _ _ _ _ F).
Qed.
Lemma position_shape cs dut ref i a b hs r : correlate_position cs dut ref i a b hs = Ok r -> shape (snd r) = shape hs.
Proof.
  unfold correlate_position. destruct (ChunksModel.data_aligned_at_events _ _ _) as [ys e]. destruct (correlate_chunks ref ys i hs) eqn:F; try discriminate. destruct e; try discriminate. intros [= <-]. apply (chunks_shape _ _ _ _ _ F).
Qed.
Lemma loop_shape cs dut : forall chunks i hs hs', correlate_loop cs dut chunks i hs = Ok hs' -> shape hs' = shape hs.
Proof.
  induction chunks as [|[ref j] chunks IH]; intros i hs hs' E; cbn [correlate_loop] in E; [now injection E as <-|]. destruct (ChunksModel.first_event _ _); [|discriminate]. destruct (ChunksModel.last_event _ _); [|discriminate].
  destruct (correlate_position _ _ _ _ _ _ _) as [[k h]| | |] eqn:F; try discriminate. rewrite (IH _ _ _ E). apply position_shape in F. exact F.
Qed.
Lemma correlate_shape cs ref dut hs hs' : correlate cs ref dut hs = Ok hs' -> shape hs' = shape hs.
Proof. unfold correlate. destruct (ChunksModel.data_aligned_at_events _ _ _) as [ys e]. destruct (correlate_loop _ _ _ _ _) eqn:F; try discriminate. destruct e; try discriminate. intros [= <-]. apply (loop_shape _ _ _ _ _ _ F). Qed.

(** * Reduced background *)
Lemma minimum_spec l m : minimum l = Some m <-> In m l /\ forall v, In v l -> (m <= v)%Z.
Proof.
  assert (G : forall l a, let m := fold_left Z.min l a in In m (a :: l) /\ forall v, In v (a :: l) -> (m <= v)%Z).
  { clear. induction l as [|b l IH]; intros a m; [split; [now left|intros v [<-|[]]; unfold m; cbn; lia]|]. destruct (IH (Z.min a b)) as [I L]. subst m. cbn [fold_left]. split.
    - destruct I as [I|I]; [|now right; right]. destruct (Z.min_spec a b) as [[_ E]|[_ E]]; rewrite E in *; [now left|right; now left].
    - intros v [<-|[<-|V]]; [specialize (L _ (or_introl eq_refl)); lia|specialize (L _ (or_introl eq_refl)); lia|apply L; now right]. }
  destruct l as [|a l]; cbn [minimum]; [split; [discriminate|intros [[] _]]|]. specialize (G l a). cbv zeta in G. destruct G as [I L]. split.
  - intros [= <-]. auto.
  - intros [I' L']. f_equal. specialize (L _ I'). specialize (L' _ I). lia.
Qed.
Lemma entries_in h v : In v (entries h) <-> exists i j, (0 <= i < rows h)%Z /\ (0 <= j < columns h)%Z /\ v = bin h i j.
Proof.
  unfold entries. rewrite in_flat_map. split.
  - intros (i & I & J). apply in_map_iff in J. destruct J as (j & <- & J). apply in_seq in I, J. exists (Z.of_nat i), (Z.of_nat j). repeat split; lia.
  - intros (i & j & I & J & ->). exists (Z.to_nat i). split; [apply in_seq; lia|]. apply in_map_iff. exists (Z.to_nat j). split; [rewrite !Z2Nat.id by lia; reflexivity|apply in_seq; lia].
Qed.
Lemma wrap_small z : (- 2 ^ 31 <= z < 2 ^ 31)%Z -> wrap32 z = z.
Proof. intros H. unfold wrap32. rewrite Z.mod_small; lia. Qed.
(** The histogram with reduced background is the histogram minus background and a constant, such that the smallest entry is 0; it exists unless the histogram has no bins. *)
Theorem C135_reduced background h : (forall i j, 0 <= bin h i j < 2 ^ 30)%Z -> (forall i j, - 2 ^ 29 < background i j < 2 ^ 29)%Z ->
  ((0 < rows h)%Z /\ (0 < columns h)%Z <-> reduce background h <> None) /\
  forall h', reduce background h = Some h' -> rows h' = rows h /\ columns h' = columns h /\
    exists m, (forall i j, (0 <= i < rows h)%Z -> (0 <= j < columns h)%Z -> bin h' i j = (bin h i j - background i j - m)%Z /\ (0 <= bin h' i j)%Z) /\ exists i j, (0 <= i < rows h)%Z /\ (0 <= j < columns h)%Z /\ bin h' i j = 0%Z.
Proof.
  intros H B. assert (P : (2 ^ 31 = 4 * 2 ^ 29)%Z) by reflexivity. assert (P' : (2 ^ 30 = 2 * 2 ^ 29)%Z) by reflexivity.
  assert (W : forall i j, wrap32 (bin h i j - background i j) = (bin h i j - background i j)%Z) by (intros i j; apply wrap_small; specialize (H i j); specialize (B i j); lia).
  unfold reduce. set (w := Hist _ _ _). split.
  - destruct (minimum (entries w)) as [m|] eqn:M.
    + split; [discriminate|]. intros _. apply minimum_spec in M. destruct M as [M _]. apply entries_in in M. destruct M as (i & j & I & J & _). unfold w in I, J. cbn [rows columns] in I, J. lia.
    + split; [|congruence]. intros [R C]. exfalso. assert (I : In (bin w 0 0) (entries w)) by (apply entries_in; exists 0%Z, 0%Z; unfold w; cbn [rows columns]; repeat split; lia). destruct (entries w); [destruct I|discriminate].
  - intros h'. destruct (minimum (entries w)) as [m|] eqn:M; [|discriminate]. intros [= <-]. cbn [rows columns bin]. split; [reflexivity|]. split; [reflexivity|]. apply minimum_spec in M. destruct M as [M L]. apply entries_in in M.
    destruct M as (i & j & I & J & E). unfold w in E. cbn [bin] in E. rewrite W in E. exists m.
    assert (G : forall a b, (0 <= a < rows h)%Z -> (0 <= b < columns h)%Z -> wrap32 (wrap32 (bin h a b - background a b) - m) = (bin h a b - background a b - m)%Z /\ (0 <= bin h a b - background a b - m)%Z).
    { intros a b A Q. assert (X : (m <= bin w a b)%Z) by (apply L, entries_in; exists a, b; auto). unfold w in *. cbn [bin] in *. rewrite W in *. split; [|lia]. apply wrap_small. pose proof (H a b). pose proof (B a b). pose proof (H i j). pose proof (B i j). lia. }
    split; [intros a b A Q; destruct (G a b A Q) as [Y X]; unfold w; cbn [bin]; rewrite Y; auto|]. exists i, j. split; [exact I|]. split; [exact J|]. destruct (G i j I J) as [Y _]. unfold w; cbn [bin]. rewrite Y. lia.
Qed.

(** * The file *)
Lemma create_all_app ns : forall file, NoDup (map s_name (file ++ ns)) -> create_all file ns = Some (file ++ ns).
Proof.
  induction ns as [|n ns IH]; intros file N; [now rewrite app_nil_r|]. cbn [create_all]. unfold create.
  destruct (existsb _ file) eqn:E.
  - exfalso. apply existsb_exists in E. destruct E as (m & I & E). destruct (list_eq_dec _ _ _) as [Q|]; [|discriminate]. rewrite map_app in N. cbn [map] in N. apply NoDup_remove_2 in N. apply N, in_or_app. left. rewrite <- Q. now apply in_map.
  - rewrite IH; rewrite <- app_assoc; [reflexivity|exact N].
Qed.
Lemma set_minus_in l d e : In e (set_minus l d) <-> In e l /\ e <> d.
Proof. unfold set_minus. rewrite filter_In, negb_true_iff, Nat.eqb_neq. reflexivity. Qed.
Lemma file_index_in d l : In d l -> exists k, file_index d l = Some k.
Proof. induction l as [|e l IH]; [intros []|]. cbn. destruct (Nat.eqb_spec e d) as [E|E]; [now exists O|]. intros [I|I]; [congruence|]. destruct (IH I) as [k ->]. now exists (S k). Qed.
Lemma file_index_nth d l k : file_index d l = Some k -> nth_error l k = Some d.
Proof. revert k. induction l as [|e l IH]; intros k E; [discriminate|]. cbn in E. destruct (Nat.eqb_spec e d) as [->|N]; [now injection E as <-|]. destruct (file_index d l) as [j|]; [|discriminate]. injection E as <-. cbn. now apply IH. Qed.

(** a histogram: direction, background reduced, reference and DUT *)
Definition key := (bool * bool * nat * nat)%type.
(** keys of all histograms for the given references: both directions, with and without background, for every other DUT *)
Definition pair_keys (r d : nat) : list key := [(true, false, r, d); (false, false, r, d); (true, true, r, d); (false, true, r, d)].
Definition along (x : bool) (p : plane) : axis := if x then axis_x p else axis_y p.
Section File.
  Variables (telescope : list plane) (files : list (list hit)) (res_x res_y : R) (cs : nat) (background : hist -> Z -> Z -> Z) (l : list nat).
  Let res (x : bool) := if x then res_x else res_y.
  (** the stored histogram of the bins of two DUTs, whose hits are those of the files at the positions of the DUTs in the list of DUTs *)
  Definition counted (x : bool) (r d : nat) (h : hist) : Prop :=
    exists i j pr pd, nth_error l i = Some r /\ nth_error l j = Some d /\ nth_error telescope r = Some pr /\ nth_error telescope d = Some pd /\
      rows h = axis_bins (along x pd) (res x) /\ columns h = axis_bins (along x pr) (res x) /\
      forall a b, bin h a b = wrap32 (Z.of_nat (pairs_in_bin (if x then h_x else h_y) (nth i files []) (nth j files []) a b)).
  Definition describes (n : stored) (k : key) : Prop :=
    let '(x, reduced, r, d) := k in
    s_name n = corr_name x reduced r d /\ s_resolution n = res x /\
    (exists pr pd, nth_error telescope r = Some pr /\ nth_error telescope d = Some pd /\ s_ref_extent n = axis_extent (along x pr) (res x) /\ s_dut_extent n = axis_extent (along x pd) (res x)) /\
    (if reduced then exists h, counted x r d h /\ reduce (background h) h = Some (s_hist n) else counted x r d (s_hist n)).
  (** the files are those of the DUTs in the list, can be read, and all hits are inside of the bins *)
  Definition proper : Prop :=
    (1 <= cs)%nat /\ NoDup l /\ length l = length files /\
    forall i d, nth_error l i = Some d -> exists p, nth_error telescope d = Some p /\ readable cs (nth i files []) /\ Forall (inside (axis_bins (axis_x p) res_x) (axis_bins (axis_y p) res_y)) (nth i files []) /\
      (1 <= axis_bins (axis_x p) res_x)%Z /\ (1 <= axis_bins (axis_y p) res_y)%Z.

  Lemma reduce_some b h : (0 < rows h)%Z -> (0 < columns h)%Z -> exists h', reduce b h = Some h'.
  Proof.
    intros R C. unfold reduce. set (w := Hist _ _ _). assert (I : In (bin w 0 0) (entries w)) by (apply entries_in; exists 0%Z, 0%Z; unfold w; cbn [rows columns]; repeat split; lia). destruct (entries w); [destruct I|]. cbn [minimum]. eauto.
  Qed.
  Lemma pair_ok r d : proper -> In r l -> In d l ->
    exists hs ns, pair_hists telescope files res_x res_y cs l r d = Some hs /\ pair_nodes telescope res_x res_y background r d hs = Some ns /\ Forall2 describes ns (pair_keys r d).
  Proof.
    intros (Hcs & N & L & P) Ir Id. destruct (file_index_in r l Ir) as [i Ei]. destruct (file_index_in d l Id) as [j Ej]. pose proof (file_index_nth _ _ _ Ei) as Ni. pose proof (file_index_nth _ _ _ Ej) as Nj.
    destruct (P _ _ Ni) as (pr & Tr & Rr & Jr & X1 & Y1). destruct (P _ _ Nj) as (pd & Td & Rd & Jd & X2 & Y2).
    destruct (C42_correlate cs (nth i files []) (nth j files []) (axis_bins (axis_x pd) res_x) (axis_bins (axis_x pr) res_x) (axis_bins (axis_y pd) res_y) (axis_bins (axis_y pr) res_y) Hcs Rr Rd Jr Jd) as (hx & hy & C & B).
    pose proof (correlate_shape _ _ _ _ _ C) as S. unfold shape in S. cbn [fst snd] in S. injection S as S1 S2 S3 S4. cbn [zeros rows columns] in S1, S2, S3, S4.
    exists (hx, hy). unfold pair_hists, pair_nodes. rewrite Tr, Td, Ei, Ej, C. cbn [fst snd].
    destruct (reduce_some (background hx) hx) as [rx Ex]; [lia|lia|]. destruct (reduce_some (background hy) hy) as [ry Ey]; [lia|lia|]. rewrite Ex, Ey. eexists. split; [reflexivity|]. split; [reflexivity|].
    assert (Cx : counted true r d hx) by (exists i, j, pr, pd; cbn [along]; unfold res; repeat (split; [assumption|]); intros a b; apply (B a b)).
    assert (Cy : counted false r d hy) by (exists i, j, pr, pd; cbn [along]; unfold res; repeat (split; [assumption|]); intros a b; apply (B a b)).
    unfold pair_keys. repeat constructor; cbn [s_name s_resolution s_ref_extent s_dut_extent s_hist]; try (exists pr, pd; unfold along, res; repeat split; assumption); eauto.
  Qed.
  Lemma describes_names ns ks : Forall2 describes ns ks -> map s_name ns = map (fun k : key => let '(x, reduced, r, d) := k in corr_name x reduced r d) ks.
  Proof. induction 1 as [|n k ns ks D F IH]; [reflexivity|]. cbn. rewrite IH. destruct k as [[[x reduced] r] d]. destruct D as [-> _]. reflexivity. Qed.
  Lemma key_name_inj k k' : (let '(x, reduced, r, d) := k : key in corr_name x reduced r d) = (let '(x, reduced, r, d) := k' : key in corr_name x reduced r d) -> k = k'.
  Proof. destruct k as [[[x a] r] d], k' as [[[x' a'] r'] d']. intros E. apply corr_inj in E. destruct E as (-> & -> & -> & ->). reflexivity. Qed.
  Lemma names_nodup ns ks : Forall2 describes ns ks -> NoDup ks -> NoDup (map s_name ns).
  Proof. intros F N. rewrite (describes_names _ _ F). apply FinFun.Injective_map_NoDup; [intros a b; apply key_name_inj|exact N]. Qed.
  Lemma forall2_app {A B} (P : A -> B -> Prop) a b c d : Forall2 P a b -> Forall2 P c d -> Forall2 P (a ++ c) (b ++ d).
  Proof. apply Forall2_app. Qed.
  Lemma nodup_left {A} (a b : list A) : NoDup (a ++ b) -> NoDup a.
  Proof. induction a as [|x a IH]; [constructor|]. cbn. inversion 1; subst. constructor; [intros I; apply H2, in_or_app; now left|now apply IH]. Qed.
  Lemma dut_loop_ok r duts : proper -> In r l -> incl duts l -> forall file ks, Forall2 describes file ks -> NoDup (ks ++ flat_map (pair_keys r) duts) ->
    exists file', dut_loop telescope files res_x res_y cs background l r duts file = Some file' /\ Forall2 describes file' (ks ++ flat_map (pair_keys r) duts).
  Proof.
    intros P Ir. induction duts as [|d duts IH]; intros I file ks F N; cbn [dut_loop flat_map].
    - exists file. rewrite app_nil_r. auto.
    - destruct (pair_ok r d P Ir (I d (or_introl eq_refl))) as (hs & ns & -> & -> & D). cbn [flat_map] in N. rewrite app_assoc in N. pose proof (Forall2_app F D) as FD.
      rewrite create_all_app by (apply (names_nodup _ _ FD), (nodup_left _ _ N)). rewrite app_assoc. apply IH; auto. intros e J. apply I. now right.
  Qed.
  Definition ref_keys (r : nat) : list key := flat_map (pair_keys r) (nodup Nat.eq_dec (set_minus l r)).
  Lemma ref_loop_ok refs : proper -> incl refs l -> forall file ks, Forall2 describes file ks -> NoDup (ks ++ flat_map ref_keys refs) ->
    exists file', ref_loop telescope files res_x res_y cs background l refs file = Some file' /\ Forall2 describes file' (ks ++ flat_map ref_keys refs).
  Proof.
    intros P. induction refs as [|r refs IH]; intros I file ks F N; cbn [ref_loop flat_map].
    - exists file. rewrite app_nil_r. auto.
    - assert (Ir : In r l) by (apply I; now left). destruct (file_index_in r l Ir) as [i Ei]. rewrite Ei. pose proof P as (_ & _ & _ & Q). destruct (Q _ _ (file_index_nth _ _ _ Ei)) as (p & -> & _).
      cbn [flat_map] in N. rewrite app_assoc in N. destruct (dut_loop_ok r (nodup Nat.eq_dec (set_minus l r)) P Ir) with (file := file) (ks := ks) as (file' & -> & F').
      + intros d J. apply nodup_In, set_minus_in in J. apply J.
      + exact F.
      + apply (nodup_left _ _ N).
      + rewrite app_assoc. apply IH; auto. intros e J. apply I. now right.
  Qed.
  Lemma pair_keys_in r d k : In k (pair_keys r d) <-> snd (fst k) = r /\ snd k = d.
  Proof.
    destruct k as [[[x a] r'] d']. cbn [fst snd]. unfold pair_keys. split.
    - intros [H|[H|[H|[H|[]]]]]; injection H as _ _ -> ->; auto.
    - intros [-> ->]. destruct x, a; cbn; tauto.
  Qed.
  Lemma ref_keys_in r k : In k (ref_keys r) <-> snd (fst k) = r /\ In (snd k) l /\ snd k <> r.
  Proof.
    unfold ref_keys. rewrite in_flat_map. split.
    - intros (d & I & J). apply nodup_In, set_minus_in in I. apply pair_keys_in in J. destruct J as [J <-]. tauto.
    - intros (J & I). exists (snd k). split; [apply nodup_In, set_minus_in; exact I|apply pair_keys_in; auto].
  Qed.
  Lemma keys_nodup refs : NoDup refs -> NoDup (flat_map ref_keys refs).
  Proof.
    intros N. apply nodup_flat_map; [exact N| |].
    - intros r _. apply nodup_flat_map; [apply NoDup_nodup| |].
      + intros d _. unfold pair_keys. repeat constructor; cbn; intuition discriminate.
      + intros d e k _ _ A B. apply pair_keys_in in A, B. destruct A as [_ <-], B as [_ <-]. reflexivity.
    - intros r s k _ _ A B. apply ref_keys_in in A, B. destruct A as [<- _], B as [<- _]. reflexivity.
  Qed.
  Lemma minus_length r : NoDup l -> In r l -> length (nodup Nat.eq_dec (set_minus l r)) = (length l - 1)%nat.
  Proof.
    intros N I. rewrite nodup_fixed_point by (apply NoDup_filter, N). clear -N I. induction l as [|e m IH]; [destruct I|]. inversion N; subst. unfold set_minus in *. cbn [filter]. destruct (Nat.eqb_spec e r) as [->|E]; cbn [negb].
    - cbn. rewrite Nat.sub_0_r. clear -H1. induction m as [|f m IH]; [reflexivity|]. cbn. destruct (Nat.eqb_spec f r) as [->|E]; [exfalso; apply H1; now left|]. cbn. rewrite IH; [reflexivity|]. intros I. apply H1. now right.
    - destruct I as [I|I]; [congruence|]. cbn [length]. rewrite IH by assumption. destruct m; [destruct I|cbn; lia].
  Qed.
  Lemma keys_length refs : NoDup l -> incl refs l -> length (flat_map ref_keys refs) = (4 * length refs * (length l - 1))%nat.
  Proof.
    intros N. induction refs as [|r refs IH]; intros I; [reflexivity|]. cbn [flat_map]. rewrite app_length, IH by (intros e J; apply I; now right). assert (E : length (ref_keys r) = (4 * (length l - 1))%nat).
    { unfold ref_keys. rewrite <- (minus_length r N) by (apply I; now left). generalize (nodup Nat.eq_dec (set_minus l r)) as m. clear. induction m as [|d m IH]; [reflexivity|]. cbn [flat_map]. rewrite app_length, IH. cbn [pair_keys length]. lia. }
    rewrite E. cbn [length]. lia.
  Qed.
  Lemma forall2_in_l {A B} (P : A -> B -> Prop) a b x : Forall2 P a b -> In x a -> exists y, In y b /\ P x y.
  Proof. induction 1 as [|u v a b H F IH]; intros []; [subst; exists v; cbn; auto|]. destruct (IH H0) as (y & I & Q). exists y. cbn. auto. Qed.
  Lemma forall2_in_r {A B} (P : A -> B -> Prop) a b y : Forall2 P a b -> In y b -> exists x, In x a /\ P x y.
  Proof. induction 1 as [|u v a b H F IH]; intros []; [subst; exists u; cbn; auto|]. destruct (IH H0) as (x & I & Q). exists x. cbn. auto. Qed.
End File.

(** what select_reference_duts means: all selected DUTs if it is None, the DUTs of a list, or one DUT *)
Inductive meant (l : list nat) : references -> list nat -> Prop :=
  meant_all : meant l AllDuts l | meant_list m : meant l (References m) m | meant_one d : meant l (Reference d) [d].
Lemma meant_ref l r refs : meant l r refs -> ref_duts l r = refs.
Proof. intros []; reflexivity. Qed.
(** correlate stores one histogram for each reference, each other DUT, each direction, with and without background: its name, resolution, extents, shape and entries are those of that pair of DUTs, read from the files of these DUTs;
    nothing else is stored and no name occurs twice. *)
Theorem C135_file telescope files res_x res_y cs background sel r refs :
  let l := match sel with Some l => l | None => seq 0 (length telescope) end in
  meant l r refs -> l <> [] -> proper telescope files res_x res_y cs l -> NoDup refs -> incl refs l ->
  exists file, correlate_file telescope files res_x res_y cs background sel r = Some file /\ NoDup (map s_name file) /\ length file = (4 * length refs * (length l - 1))%nat /\
    (forall n, In n file -> exists x reduced ref dut, describes telescope files res_x res_y background l n (x, reduced, ref, dut) /\ In ref refs /\ In dut l /\ dut <> ref) /\
    (forall x reduced ref dut, In ref refs -> In dut l -> dut <> ref -> exists n, In n file /\ describes telescope files res_x res_y background l n (x, reduced, ref, dut)).
Proof.
  intros l M E P N I. apply meant_ref in M. subst refs. assert (Q : selected_duts (length telescope) (length files) sel = Some l).
  { unfold selected_duts. fold l. pose proof P as (_ & _ & L & T). destruct l as [|d m]; [congruence|]. destruct (existsb _ (d :: m)) eqn:X.
    - exfalso. apply existsb_exists in X. destruct X as (e & J & X). apply Nat.ltb_lt in X. apply In_nth_error in J. destruct J as [i J]. destruct (T _ _ J) as (p & Tp & _). assert (nth_error telescope e <> None) as Y by congruence. apply nth_error_Some in Y. lia.
    - rewrite L, Nat.eqb_refl. reflexivity. }
  unfold correlate_file. rewrite Q. destruct (ref_loop_ok telescope files res_x res_y cs background l (ref_duts l r) P I [] []) as (file & H & F); [constructor|apply keys_nodup, N|]. cbn [app] in F.
  exists file. split; [exact H|]. split; [apply (names_nodup _ _ _ _ _ _ _ _ F), keys_nodup, N|]. split; [|split].
  - rewrite <- (keys_length l (ref_duts l r)); [|apply P|exact I]. clear -F. induction F; [reflexivity|]. cbn. now f_equal.
  - intros n J. destruct (forall2_in_l _ _ _ _ F J) as ([[[x a] ref] d] & K & D). apply in_flat_map in K. destruct K as (r' & K1 & K2). apply ref_keys_in in K2. cbn [fst snd] in K2. destruct K2 as (-> & K2 & K3). exists x, a, r', d. auto.
  - intros x a ref d J K M. apply (forall2_in_r _ _ _ (x, a, ref, d) F). apply in_flat_map. exists ref. split; [exact J|]. apply ref_keys_in. cbn [fst snd]. auto.
Qed.
(** a reference without input file is an error (IndexError), whatever else is selected. *)
Theorem C135_unselected telescope files res_x res_y cs background sel r refs d :
  let l := match sel with Some l => l | None => seq 0 (length telescope) end in meant l r refs -> In d refs -> ~ In d l -> correlate_file telescope files res_x res_y cs background sel r = None.
Proof.
  intros l M I N. apply meant_ref in M. subst refs. unfold correlate_file. destruct (selected_duts _ _ sel) as [l'|] eqn:S; [|reflexivity].
  assert (l' = l) as ->. { unfold selected_duts in S. fold l in S. destruct l; [discriminate|]. destruct (existsb _ _); [discriminate|]. destruct (_ =? _)%nat; [|discriminate]. now injection S as <-. }
  revert I. generalize (ref_duts l r) as refs. generalize (@nil stored) as file. intros file refs. revert file. induction refs as [|e refs IH]; intros file I; [destruct I|]. cbn [ref_loop].
  destruct (file_index e l) as [i|] eqn:E; [|reflexivity]. destruct (nth_error telescope e); [|reflexivity]. destruct (dut_loop _ _ _ _ _ _ _ _ _ _) as [file'|]; [|reflexivity].
  apply IH. destruct I as [->|I]; [|exact I]. exfalso. apply N. apply file_index_nth in E. apply nth_error_In in E. exact E.
Qed.
(** Refuted: "a reference may be given twice".  The second histogram of the same pair cannot be created (NodeError), after the file has been filled. *)
Theorem C135_twice_refuted telescope files res_x res_y cs background l d :
  proper telescope files res_x res_y cs l -> (2 <= length l)%nat -> In d l -> correlate_file telescope files res_x res_y cs background (Some l) (References [d; d]) = None.
Proof.
  intros P L I. unfold correlate_file. destruct (selected_duts _ _ _) as [l'|] eqn:S; [|reflexivity].
  assert (l' = l) as ->. { unfold selected_duts in S. destruct l; [discriminate|]. destruct (existsb _ _); [discriminate|]. destruct (_ =? _)%nat; [|discriminate]. now injection S as <-. }
  cbn [ref_duts ref_loop]. destruct (file_index d l) as [i|]; [|reflexivity]. destruct (nth_error telescope d); [|reflexivity].
  set (duts := nodup Nat.eq_dec (set_minus l d)). assert (J : incl duts l) by (intros e J; apply nodup_In, set_minus_in in J; apply J).
  destruct (dut_loop_ok telescope files res_x res_y cs background l d duts P I J [] []) as (file & -> & F).
  { constructor. }
  { cbn [app]. pose proof (keys_nodup l [d]) as N. cbn [flat_map] in N. rewrite app_nil_r in N. apply N. repeat constructor. intros []. }
  cbn [app] in F. assert (Ld : length duts = (length l - 1)%nat) by (apply minus_length; [apply P|exact I]). destruct duts as [|e duts]; [cbn in Ld; lia|]. cbn [dut_loop].
  destruct (pair_ok telescope files res_x res_y cs background l d e P I (J e (or_introl eq_refl))) as (hs & ns & -> & -> & D). inversion D as [|n k ns' ks' D1 D2]; subst.
  destruct (forall2_in_r _ _ _ (true, false, d, e) F) as (m & M & Dm); [apply in_flat_map; exists e; split; now left|]. cbn [create_all]. unfold create.
  assert (E : existsb (fun m => if list_eq_dec ascii_dec (s_name m) (s_name n) then true else false) file = true).
  { apply existsb_exists. exists m. split; [exact M|]. destruct D1 as [-> _], Dm as [-> _]. destruct (list_eq_dec _ _ _); congruence. }
  rewrite E. reflexivity.
Qed.
(** Refuted: "the check of the DUTs rejects DUTs which the telescope does not have".  The number of DUTs itself passes, and correlate stops later with an IndexError. *)
Theorem C135_selected_refuted telescope files res_x res_y cs background (l : list nat) r : (forall d, In d l -> (d <= length telescope)%nat) -> In (length telescope) l -> length l = length files ->
  selected_duts (length telescope) (length files) (Some l) = Some l /\ (In (length telescope) (ref_duts l r) -> correlate_file telescope files res_x res_y cs background (Some l) r = None).
Proof.
  intros B I L. assert (S : selected_duts (length telescope) (length files) (Some l) = Some l).
  { unfold selected_duts. destruct l as [|d m] eqn:E; [destruct I|]. rewrite <- E in *. clear E. destruct (existsb _ l) eqn:X; [|now rewrite L, Nat.eqb_refl]. apply existsb_exists in X. destruct X as (e & J & X). apply Nat.ltb_lt in X. specialize (B _ J). lia. }
  split; [exact S|]. intros K. unfold correlate_file. rewrite S. clear S. revert K. generalize (ref_duts l r) as refs. generalize (@nil stored) as file. intros file refs. revert file. induction refs as [|e refs IH]; intros file K; [destruct K|]. cbn [ref_loop].
  destruct (file_index e l) as [i|]; [|reflexivity]. destruct (nth_error telescope e) eqn:E; [|reflexivity]. destruct (dut_loop _ _ _ _ _ _ _ _ _ _) as [file'|]; [|reflexivity].
  apply IH. destruct K as [->|K]; [|exact K]. assert (X : nth_error telescope (length telescope) <> None) by congruence. apply nth_error_Some in X. lia.
Qed.

(** * Figures *)
Definition has_entry (n : stored) : bool := existsb (fun v => (0 <? v)%Z) (entries (s_hist n)).
Definition named (dut_names : option (list (list ascii))) (i : nat) (name : list ascii) : Prop :=
  match dut_names with None | Some [] => name = chars "DUT" ++ decimal i | Some l => nth_error l i = Some name end.
Definition shows (dut_names : option (list (list ascii))) (n : stored) (p : page) : Prop :=
  forall x reduced r d, s_name n = corr_name x reduced r d ->
    p_x p = x /\ p_reduced p = reduced /\ named dut_names r (p_ref p) /\ named dut_names d (p_dut p) /\ p_data p = s_hist n /\ p_dut_extent p = s_dut_extent n /\ p_ref_extent p = s_ref_extent n.
Lemma name_named dut_names i nm : name_of dut_names i = Some nm -> named dut_names i nm.
Proof. unfold name_of, named. destruct dut_names as [[|a m]|]; try (intros [= <-]; reflexivity). Qed.
Lemma pages_of nodes dut_names : (forall n, In n nodes -> exists x reduced r d, s_name n = corr_name x reduced r d /\ name_of dut_names r <> None /\ name_of dut_names d <> None) ->
  exists ps, plot_correlations dut_names nodes = Some ps /\ Forall2 (shows dut_names) (filter has_entry nodes) ps.
Proof.
  induction nodes as [|n nodes IH]; intros H; [exists []; split; [reflexivity|constructor]|]. destruct IH as (ps & E & F); [intros m I; apply H; now right|]. cbn [plot_correlations filter].
  destruct (H n (or_introl eq_refl)) as (x & a & r & d & N & A & B). rewrite N, pair_of_corr, x_of_corr, reduced_of_corr.
  assert (G : forallb (fun v => (v <=? 0)%Z) (entries (s_hist n)) = negb (has_entry n)).
  { unfold has_entry. generalize (entries (s_hist n)) as l. clear. induction l as [|v l IH]; [reflexivity|]. cbn [forallb existsb]. rewrite IH, negb_orb. f_equal. apply Z.leb_antisym. }
  rewrite G. destruct (has_entry n); cbn [negb]; [|exists ps; auto].
  destruct (name_of dut_names d) as [nd|] eqn:Nd; [|congruence]. destruct (name_of dut_names r) as [nr|] eqn:Nr; [|congruence]. rewrite E. eexists. split; [reflexivity|]. constructor; [|exact F].
  intros x' a' r' d' N'. rewrite N in N'. apply corr_inj in N'. destruct N' as (<- & <- & <- & <-). cbn [p_x p_reduced p_ref p_dut p_data p_dut_extent p_ref_extent]. repeat (split; [auto using name_named|]). reflexivity.
Qed.
(** the figures of the file of correlate: one page per stored histogram with a positive entry, in the order in which the nodes are read (whatever it is), labelled with the DUTs and the direction of that histogram, showing its array on its extents. *)
Theorem C135_pages telescope files res_x res_y cs background sel r file dut_names :
  let l := match sel with Some l => l | None => seq 0 (length telescope) end in
  proper telescope files res_x res_y cs l -> NoDup (ref_duts l r) -> incl (ref_duts l r) l ->
  correlate_file telescope files res_x res_y cs background sel r = Some file ->
  (forall names, dut_names = Some names -> names = [] \/ (length telescope <= length names)%nat) ->
  (forall nodes, Permutation nodes file -> exists ps, plot_correlations dut_names nodes = Some ps /\ Forall2 (shows dut_names) (filter has_entry nodes) ps) /\
  forall n, In n file -> has_entry n = true <-> exists i j, (0 <= i < rows (s_hist n))%Z /\ (0 <= j < columns (s_hist n))%Z /\ (0 < bin (s_hist n) i j)%Z.
Proof.
  intros l P N I C D. split.
  - intros nodes Pn. apply pages_of. assert (L : l <> []). { intros E. unfold correlate_file, selected_duts in C. fold l in C. rewrite E in C. discriminate. }
    destruct (C135_file telescope files res_x res_y cs background sel r (ref_duts l r) ltac:(destruct r; constructor) L P N I) as (file' & C' & _ & _ & A & _). rewrite C' in C. injection C as ->. intros n J. destruct (A n (Permutation_in _ Pn J)) as (x & a & ref & d & (E & _ & (pr & pd & Tr & Td & _) & _) & _).
    exists x, a, ref, d. split; [exact E|]. assert (G : forall i p, nth_error telescope i = Some p -> name_of dut_names i <> None).
    { intros i p T. unfold name_of. destruct dut_names as [[|a0 names]|]; try discriminate. destruct (D _ eq_refl) as [|Q]; [discriminate|]. apply nth_error_Some. assert (X : nth_error telescope i <> None) by congruence. apply nth_error_Some in X. lia. }
    split; eapply G; eassumption.
  - intros n _. unfold has_entry. rewrite existsb_exists. split.
    + intros (v & J & V). apply entries_in in J. destruct J as (i & j & A & B & ->). apply Z.ltb_lt in V. eauto.
    + intros (i & j & A & B & V). exists (bin (s_hist n) i j). split; [apply entries_in; eauto|apply Z.ltb_lt, V].
Qed.
(** The image of a page at the point (x, y) is the entry of the bins of x (in the DUT) and y (in the reference), computed as for hits at these positions; outside of the extents nothing is drawn. *)
Theorem C135_drawn p (dut ref : axis) resolution x y : 0 < resolution -> (1 <= axis_bins dut resolution)%Z -> (1 <= axis_bins ref resolution)%Z ->
  p_dut_extent p = axis_extent dut resolution -> p_ref_extent p = axis_extent ref resolution -> rows (p_data p) = axis_bins dut resolution -> columns (p_data p) = axis_bins ref resolution ->
  let i := bin_index (centre dut) (low dut) (high dut) resolution x in let j := bin_index (centre ref) (low ref) (high ref) resolution y in
  (fst (p_dut_extent p) <= x < snd (p_dut_extent p) -> fst (p_ref_extent p) <= y < snd (p_ref_extent p) -> drawn p x y = Some (bin (p_data p) i j)) /\
  (~ (fst (p_dut_extent p) <= x < snd (p_dut_extent p) /\ fst (p_ref_extent p) <= y < snd (p_ref_extent p)) -> drawn p x y = None).
Proof.
  intros R Bd Br Ed Er Rw Cl. assert (G : forall a z, (1 <= axis_bins a resolution)%Z -> (z - fst (axis_extent a resolution)) / (snd (axis_extent a resolution) - fst (axis_extent a resolution)) * IZR (axis_bins a resolution) = (z - fst (axis_extent a resolution)) / resolution).
  { intros a z B. apply IZR_le in B. assert (W : snd (axis_extent a resolution) - fst (axis_extent a resolution) = IZR (axis_bins a resolution) * resolution) by (unfold axis_extent, lower_edge; cbn [fst snd]; fold (axis_bins a resolution); lra). rewrite W. field. split; lra. }
  assert (K : forall a z, (1 <= axis_bins a resolution)%Z -> (0 <= Int_part ((z - fst (axis_extent a resolution)) / resolution) < axis_bins a resolution)%Z <-> fst (axis_extent a resolution) <= z < snd (axis_extent a resolution)).
  { intros a z B. assert (W : snd (axis_extent a resolution) = fst (axis_extent a resolution) + IZR (axis_bins a resolution) * resolution) by (unfold axis_extent, lower_edge; cbn [fst snd]; fold (axis_bins a resolution); lra).
    set (lo := fst (axis_extent a resolution)) in *. rewrite W. set (n := axis_bins a resolution) in *. set (q := (z - lo) / resolution). assert (Q : z = lo + q * resolution) by (unfold q; field; lra). clearbody q n lo. destruct (floor_spec q) as [F1 F2]. split.
    - intros [A C]. apply IZR_le in A. assert (C' : (Int_part q + 1 <= n)%Z) by lia. apply IZR_le in C'. rewrite plus_IZR in C'. assert (0 <= q) by lra. assert (q < IZR n) by lra. rewrite Q. split; [|assert (q * resolution < IZR n * resolution) by (apply Rmult_lt_compat_r; assumption); lra].
      assert (0 <= q * resolution) by (apply Rmult_le_pos; lra). lra.
    - intros [A C]. rewrite Q in A, C. assert (0 <= q) by (apply (Rmult_le_reg_r resolution); lra). assert (q < IZR n) by (apply (Rmult_lt_reg_r resolution); lra). split; [apply floor_ge; assumption|apply floor_lt; assumption]. }
  intros i j. unfold drawn. rewrite Ed, Er, Rw, Cl, !G by assumption. fold i j.
  change (Int_part ((x - fst (axis_extent dut resolution)) / resolution)) with i. change (Int_part ((y - fst (axis_extent ref resolution)) / resolution)) with j.
  pose proof (K dut x Bd) as Kd. pose proof (K ref y Br) as Kr. change (Int_part ((x - fst (axis_extent dut resolution)) / resolution)) with i in Kd. change (Int_part ((y - fst (axis_extent ref resolution)) / resolution)) with j in Kr. split.
  - intros A B. apply Kd in A. apply Kr in B. destruct (Z.leb_spec 0 i), (Z.ltb_spec i (axis_bins dut resolution)), (Z.leb_spec 0 j), (Z.ltb_spec j (axis_bins ref resolution)); cbn [andb]; try reflexivity; lia.
  - intros A. destruct (Z.leb_spec 0 i), (Z.ltb_spec i (axis_bins dut resolution)), (Z.leb_spec 0 j), (Z.ltb_spec j (axis_bins ref resolution)); cbn [andb]; try reflexivity. exfalso. apply A. split; [apply Kd|apply Kr]; lia.
Qed.
(** Refuted: "nodes which are no correlations are skipped".  A node whose name has fewer than two numbers stops all figures (IndexError; only AttributeError is handled). *)
Theorem C135_other_refuted dut_names before after n : (length (digit_runs [] (s_name n)) < 2)%nat -> plot_correlations dut_names (before ++ n :: after) = None.
Proof.
  intros H. induction before as [|m before IH]; cbn [app plot_correlations].
  - unfold pair_of_name. destruct (digit_runs [] (s_name n)) as [|a [|b rest]]; cbn in H; [reflexivity|reflexivity|lia].
  - destruct (pair_of_name (s_name m)) as [[r d]|]; [|reflexivity]. rewrite IH. destruct (forallb _ _); [reflexivity|]. destruct (name_of _ _); [|reflexivity]. destruct (name_of _ _); reflexivity.
Qed.

(** ** Non-vacuity *)
Definition strip := Axis 0 (-1) 1.
Lemma strip_bins : axis_bins strip 1 = 2%Z.
Proof. unfold axis_bins, n_bins, strip, ceil. cbn [low high]. replace (- ((1 - -1) / 1)) with (IZR (-2)) by lra. rewrite (Int_part_eq (-2)); [reflexivity|lra]. Qed.
Example C135_case :
  let telescope := [Plane strip strip; Plane strip strip; Plane strip strip] in let files := [[Hit 1 0 1; Hit 4 1 1]; [Hit 1 0 0; Hit 2 1 0; Hit 4 1 1]] in
  proper telescope files 1 1 3 [2; 0]%nat /\ NoDup (ref_duts [2; 0]%nat AllDuts) /\ incl (ref_duts [2; 0]%nat AllDuts) [2; 0]%nat /\
  pairs_in_bin h_x (nth 0 files []) (nth 1 files []) 1 1 = 1%nat /\ pairs_in_bin h_y (nth 0 files []) (nth 1 files []) 0 1 = 1%nat /\ (length (digit_runs [] (chars "Settings_1")) < 2)%nat.
Proof.
  intros telescope files. assert (R : forall a b, (h_event a <= h_event b)%Z -> True) by auto.
  split; [|split; [|split]].
  - split; [lia|]. split; [repeat constructor; cbn; intuition discriminate|]. split; [reflexivity|].
    intros i d E. exists (Plane strip strip). cbn [axis_x axis_y]. rewrite strip_bins. destruct i as [|[|i]]; cbn in E; try (destruct i; discriminate); injection E as <-; (split; [reflexivity|]); cbn [nth files].
    + split; [split|].
      * repeat (apply SSorted_cons || apply SSorted_nil || apply Forall_cons || apply Forall_nil); cbn; lia.
      * intros e. cbn [filter h_event]. destruct (Z.eqb_spec 1 e), (Z.eqb_spec 4 e); cbn [length]; lia.
      * split; [|lia]. apply Forall_forall. intros h J. cbn in J. unfold inside. intuition (subst; cbn; lia).
    + split; [split|].
      * repeat (apply SSorted_cons || apply SSorted_nil || apply Forall_cons || apply Forall_nil); cbn; lia.
      * intros e. cbn [filter h_event]. destruct (Z.eqb_spec 1 e), (Z.eqb_spec 2 e), (Z.eqb_spec 4 e); cbn [length]; lia.
      * split; [|lia]. apply Forall_forall. intros h J. cbn in J. unfold inside. intuition (subst; cbn; lia).
  - cbn. repeat constructor; cbn; intuition discriminate.
  - cbn. apply incl_refl.
  - split; [reflexivity|]. split; [reflexivity|]. vm_compute. lia.
Qed.

Print Assumptions C135_reduced.
Print Assumptions C135_file.
Print Assumptions C135_unselected.
Print Assumptions C135_twice_refuted.
Print Assumptions C135_selected_refuted.
Print Assumptions C135_pages.
Print Assumptions C135_drawn.
Print Assumptions C135_other_refuted.
