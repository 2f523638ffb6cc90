(** C130: the pages of plot_track_chi2. *)
From Coq Require Import Ascii String List Arith ZArith Lia Reals Lra Bool Sorted Permutation.
From Verif Require Import GeometryModel GeometryProofs CorrelateModel CorrelateBinsProps PrealignModel HoughProps RunningMeanModel RunningMeanProps TrackAngleModel FitResidualsModel FitResidualsProps FindTracksModel QueryModel ChunksModel ChunksProps
  ClusterFileProps ResidualNodesProps DensityProps Chi2PlotModel.
Import ListNotations.
Local Open Scope R_scope.
Local Open Scope list_scope.

(** *** Specification *)
(** the i-th of n bins of equal width between lo and hi; the last one is closed *)
Definition in_range_bin (lo hi : R) (n i : nat) (x : R) : Prop :=
  let w := (hi - lo) / INR n in lo + INR i * w <= x /\ (x < lo + INR (S i) * w \/ (S i = n /\ x = hi)).
(** a page with n bars of equal width between lo and hi, whose heights are a function of the number of rows with a value in the bin *)
Definition shows (lo hi : R) (n : nat) (column : row -> option R) (height : nat -> option R) (rows : list row) (b : list (R * R * option R)) : Prop :=
  length b = n /\ forall i, (i < n)%nat -> exists k, number (fun r => exists x, column r = Some x /\ in_range_bin lo hi n i x) rows k /\
    nth_error b i = Some (lo + (INR i + 1 / 2) * ((hi - lo) / INR n), (hi - lo) / INR n, height k).
Definition plain (k : nat) : option R := Some (INR k).
(** the name of the table of a DUT *)
Definition table_name (d : nat) : list ascii := list_ascii_of_string "Tracks_DUT" ++ decimal d.
Definition complete (chunk_size : nat) (rows : list row) : Prop := sorted row_event rows /\ (1 <= chunk_size)%nat /\ forall e, (event_rows row_event e rows < chunk_size)%nat.
(** the tables of the file: not empty, chi2 is not negative *)
Definition tables (chunk_size : nat) (duts : list (nat * list row)) : Prop :=
  forall d rows, In (d, rows) duts -> rows <> [] /\ complete chunk_size rows /\ forall r x, In r rows -> chi2 r = Some x -> 0 <= x.
Definition file (duts : list (nat * list row)) : list (list ascii * list row) := map (fun p => (table_name (fst p), snd p)) duts.

(** *** Names *)
Lemma digit_ok n : (n < 10)%nat -> is_digit (ascii_of_nat (48 + n)) = true /\ nat_of_ascii (ascii_of_nat (48 + n)) = (48 + n)%nat.
Proof. intros H. do 10 (destruct n as [|n]; [split; reflexivity|]). lia. Qed.
Lemma digits_all fuel : forall n, forallb is_digit (digits fuel n) = true.
Proof.
  induction fuel as [|f IH]; intros n; [reflexivity|]. cbn [digits]. rewrite forallb_app. apply andb_true_iff. split; [destruct (n <? 10)%nat; [reflexivity|apply IH]|].
  cbn [forallb]. rewrite (proj1 (digit_ok (n mod 10) (Nat.mod_upper_bound n 10 ltac:(lia)))). reflexivity.
Qed.
Lemma int_snoc s c : int_of (s ++ [c]) = (10 * int_of s + (nat_of_ascii c - 48))%nat.
Proof. unfold int_of. now rewrite fold_left_app. Qed.
Lemma int_digits fuel : forall n, (n < fuel)%nat -> int_of (digits fuel n) = n.
Proof.
  induction fuel as [|f IH]; intros n H; [lia|]. cbn [digits]. rewrite int_snoc. pose proof (Nat.mod_upper_bound n 10 ltac:(lia)) as M. rewrite (proj2 (digit_ok _ M)).
  destruct (Nat.ltb_spec n 10) as [L|L].
  - rewrite (Nat.mod_small n 10) by exact L. cbn [int_of fold_left]. lia.
  - rewrite IH; [|assert (n / 10 < n)%nat by (apply Nat.div_lt; lia); lia]. pose proof (Nat.div_mod n 10 ltac:(lia)). lia.
Qed.
Lemma runs_digits s : forall run, forallb is_digit s = true -> run ++ s <> [] -> digit_runs run s = [run ++ s].
Proof.
  induction s as [|c s IH]; intros run D N; [rewrite app_nil_r in *; destruct run; [congruence|reflexivity]|]. cbn [forallb] in D. apply andb_true_iff in D. destruct D as [D1 D2].
  cbn [digit_runs]. rewrite D1, IH; [rewrite <- app_assoc; reflexivity|exact D2|]. rewrite <- app_assoc. exact N.
Qed.
Lemma decimal_nonempty n : decimal n <> [].
Proof. unfold decimal. cbn [digits]. intros K. apply app_eq_nil in K. destruct K as [_ K]. discriminate. Qed.
Lemma node_of_table d : dut_of_node (table_name d) = Some d.
Proof.
  unfold dut_of_node, table_name. change (digit_runs [] (list_ascii_of_string "Tracks_DUT" ++ decimal d)) with (digit_runs [] (decimal d)).
  rewrite runs_digits; [|apply digits_all|apply decimal_nonempty]. cbn [app rev]. f_equal. apply int_digits. lia.
Qed.

(** *** Histograms *)
Lemma not_nan_app a b : not_nan (a ++ b) = not_nan a ++ not_nan b.
Proof. unfold not_nan. apply flat_map_app. Qed.
Lemma hist_of_concat edges (column : row -> option R) (c : list row) (cs : list (list row)) : hist_of edges column c cs = histogram edges (map column (concat (c :: cs))).
Proof.
  unfold hist_of. cbn [concat]. rewrite map_app. generalize (map column c) as l. induction cs as [|d cs IH]; intros l; cbn [fold_left concat]; [cbn [map]; now rewrite app_nil_r|].
  rewrite map_app, app_assoc, <- IH. f_equal. unfold add_hist, histogram. rewrite not_nan_app.
  induction (seq 0 (n_edge_bins edges)) as [|i is IHi]; [reflexivity|]. cbn [map combine]. rewrite IHi. cbn [fst snd]. rewrite filter_app, app_length. reflexivity.
Qed.
Lemma histogram_nth edges l i : (i < n_edge_bins edges)%nat -> nth_error (histogram edges l) i = Some (length (filter (in_bin edges i) (not_nan l))).
Proof. intros H. unfold histogram. rewrite nth_error_map. rewrite (nth_error_nth' _ 0%nat) by (rewrite seq_length; exact H). rewrite seq_nth by exact H. reflexivity. Qed.
Lemma number_column edges (column : row -> option R) i rows (P : R -> Prop) : (forall x, in_bin edges i x = true <-> P x) ->
  number (fun r => exists x, column r = Some x /\ P x) rows (length (filter (in_bin edges i) (not_nan (map column rows)))).
Proof.
  intros H. induction rows as [|r rows IH]; [constructor|]. cbn [map not_nan flat_map]. fold (not_nan (map column rows)). destruct (column r) as [x|] eqn:E; cbn [app filter].
  - destruct (in_bin edges i x) eqn:B; cbn [length].
    + apply number_in; [exists x; split; [exact E|now apply H]|exact IH].
    + apply number_out; [|exact IH]. intros (y & Ey & K). rewrite E in Ey. injection Ey as <-. apply H in K. congruence.
  - apply number_out; [|exact IH]. intros (y & Ey & _). congruence.
Qed.
Lemma range_edges_eq lo hi n : lo < hi -> (1 <= n)%nat -> length (range_edges lo hi n) = S n /\ forall i, (i <= n)%nat -> nth i (range_edges lo hi n) 0 = lo + INR i * ((hi - lo) / INR n).
Proof.
  intros L N. unfold range_edges, hist_range. rewrite (proj2 (Reqb_false lo hi)) by lra. cbn [fst snd]. replace (n + 1)%nat with (S n) by lia. split; [apply linspace_length|].
  intros i I. apply linspace_nth; lia.
Qed.
Lemma bin_range lo hi n i x : lo < hi -> (i < n)%nat -> in_bin (range_edges lo hi n) i x = true <-> in_range_bin lo hi n i x.
Proof.
  intros L N. destruct (range_edges_eq lo hi n L ltac:(lia)) as [Le E]. rewrite in_bin_spec, Le, !E by lia. unfold in_range_bin.
  assert (0 < INR n) by (apply lt_0_INR; lia).
  assert (S i = n -> lo + INR (S i) * ((hi - lo) / INR n) = hi) as G by (intros ->; field; lra).
  split; [intros (_ & A & [B|[B C]])|intros (A & [B|[B C]])]; [split; [exact A|left; exact B]|split; [exact A|right; assert (S i = n) by lia; split; [assumption|rewrite C; auto]]|split; [lia|split; [exact A|left; exact B]]|].
  split; [lia|split; [exact A|right; split; [lia|rewrite G; auto]]].
Qed.
Lemma bars_shows lo hi n (column : row -> option R) height rows heights : lo < hi -> (1 <= n)%nat -> length heights = n ->
  (forall i, (i < n)%nat -> nth i heights None = height (length (filter (in_bin (range_edges lo hi n) i) (not_nan (map column rows))))) ->
  shows lo hi n column height rows (bars (range_edges lo hi n) heights).
Proof.
  intros L N Lh H. unfold shows, bars. rewrite map_length, seq_length. split; [exact Lh|]. intros i I. eexists. split; [apply (number_column (range_edges lo hi n)); intros x; apply bin_range; assumption|].
  rewrite nth_error_map, (nth_error_nth' _ 0%nat) by (rewrite seq_length, Lh; exact I). rewrite seq_nth by (rewrite Lh; exact I). cbn [option_map Nat.add].
  destruct (range_edges_eq lo hi n L N) as [_ E]. rewrite !E by lia. rewrite H by exact I. f_equal. f_equal. rewrite S_INR. assert (0 < INR n) by (apply lt_0_INR; lia). f_equal; field; lra.
Qed.
Lemma histogram_length edges l : length (histogram edges l) = n_edge_bins edges.
Proof. unfold histogram. now rewrite map_length, seq_length. Qed.
Lemma hist_shows lo hi n (column : row -> option R) rows : lo < hi -> (1 <= n)%nat -> shows lo hi n column plain rows (hist_bars (histogram (range_edges lo hi n) (map column rows), range_edges lo hi n)).
Proof.
  intros L N. destruct (range_edges_eq lo hi n L N) as [Le _]. assert (B : n_edge_bins (range_edges lo hi n) = n) by (unfold n_edge_bins; lia).
  unfold hist_bars. cbn [fst snd]. apply bars_shows; [exact L|exact N|rewrite map_length, histogram_length; exact B|].
  intros i I. rewrite (nth_indep _ None (plain 0)) by (rewrite map_length, histogram_length, B; exact I). unfold plain at 1. rewrite (map_nth (fun n => Some (INR n))).
  rewrite (nth_error_nth _ _ 0%nat (histogram_nth _ _ _ ltac:(rewrite B; exact I))). reflexivity.
Qed.

(** *** Pages *)
(** rows with chi2 between 0 and 20 *)
Definition narrow (r : row) : Prop := exists x, chi2 r = Some x /\ 0 <= x <= 20.
(** height of the normalized distribution *)
Definition density (total : nat) (width : R) (k : nat) : option R := match total with O => None | _ => Some (INR k / INR total / width) end.
(** the range of the first page, from the first rows of the table: up to the 99th percentile of their chi2, rounded up *)
Definition range_of (sort : list R -> list R) (first : list row) (hi : R) : Prop :=
  match percentile sort (99 / 100) (not_nan (map chi2 first)) with Some q => (exists z, hi = IZR z) /\ q <= hi < q + 1 | None => hi = 1 end.
Definition table_pages (sort : list R -> list R) (title : list ascii) (rows : list row) (ps : list page) : Prop :=
  exists b0 b1 b2 b3 b4 first rest hi total, ps = [Page title b0; Page title b1; Page title b2; Page title b3; Page title b4] /\
    rows = first ++ rest /\ first <> [] /\ range_of sort first hi /\ 0 <= hi /\
    (if Reqb hi 0 then shows (- 1 / 2) (1 / 2) 250 chi2 plain rows b0 else shows 0 hi 250 chi2 plain rows b0) /\
    shows 0 20 100 chi2 plain rows b1 /\
    number narrow rows total /\ shows 0 20 100 chi2 (density total (20 / 100)) rows b2 /\
    shows 0 10 50 chi_red plain rows b3 /\ shows 0 1 50 chi_prob plain rows b4.
Definition titled (dut_names : option (list (list ascii))) (d : nat) (title : list ascii) : Prop :=
  match dut_names with Some names => nth_error names d = Some title | None => title = list_ascii_of_string "DUT" ++ decimal d end.

Lemma range_bin_exists lo hi n x : lo < hi -> (1 <= n)%nat -> lo <= x <= hi -> exists i, (i < n)%nat /\ in_range_bin lo hi n i x.
Proof.
  intros L N X. destruct (range_edges_eq lo hi n L N) as [Le E]. assert (0 < INR n) by (apply lt_0_INR; lia).
  assert (Inc : increasing (range_edges lo hi n)). { intros i Hi. rewrite Le in Hi. rewrite !E by lia. rewrite S_INR. assert (0 < (hi - lo) / INR n) by (apply Rdiv_lt_0_compat; lra). lra. }
  destruct (C40_bins (range_edges lo hi n) x Inc ltac:(lia)) as ((_ & G) & _). destruct G as (i & B & _).
  { rewrite Le. replace (S n - 1)%nat with n by lia. rewrite !E by lia. cbn [INR]. replace (lo + INR n * ((hi - lo) / INR n)) with hi by (field; lra). lra. }
  exists i. pose proof (proj1 (proj1 (in_bin_spec _ _ _) B)) as Li. rewrite Le in Li. split; [lia|]. apply bin_range; [exact L|lia|exact B].
Qed.
Lemma range_bin_unique lo hi n i j x : lo < hi -> (i < n)%nat -> (j < n)%nat -> in_range_bin lo hi n i x -> in_range_bin lo hi n j x -> i = j.
Proof.
  intros L. assert (G : forall i j, (i < n)%nat -> (j < n)%nat -> in_range_bin lo hi n i x -> in_range_bin lo hi n j x -> (i < j)%nat -> False).
  { intros a b A B (_ & U) (V & _) K. assert (0 < INR n) by (apply lt_0_INR; lia). assert (0 < (hi - lo) / INR n) by (apply Rdiv_lt_0_compat; lra). assert (INR (S a) <= INR b) by (apply le_INR; lia).
    assert (INR (S a) * ((hi - lo) / INR n) <= INR b * ((hi - lo) / INR n)) by (apply Rmult_le_compat_r; lra). destruct U as [U|[U _]]; [lra|lia]. }
  intros A B U V. destruct (Nat.lt_trichotomy i j) as [K|[K|K]]; [destruct (G i j)|exact K|destruct (G j i)]; auto.
Qed.
Lemma range_bin_within lo hi n i x : lo < hi -> (i < n)%nat -> in_range_bin lo hi n i x -> lo <= x <= hi.
Proof.
  intros L A (U & V). assert (0 < INR n) by (apply lt_0_INR; lia). assert (0 < (hi - lo) / INR n) by (apply Rdiv_lt_0_compat; lra). pose proof (pos_INR i). assert (INR (S i) <= INR n) by (apply le_INR; lia).
  assert (0 <= INR i * ((hi - lo) / INR n)) by (apply Rmult_le_pos; lra). assert (INR (S i) * ((hi - lo) / INR n) <= INR n * ((hi - lo) / INR n)) by (apply Rmult_le_compat_r; lra).
  replace (INR n * ((hi - lo) / INR n)) with (hi - lo) in * by (field; lra). destruct V as [V|[_ V]]; lra.
Qed.
Lemma total_narrow rows : number narrow rows (list_sum (histogram (range_edges 0 20 100) (map chi2 rows))).
Proof.
  destruct (range_edges_eq 0 20 100 ltac:(lra) ltac:(lia)) as [Le _]. unfold histogram. replace (n_edge_bins (range_edges 0 20 100)) with 100%nat by (unfold n_edge_bins; rewrite Le; reflexivity).
  apply (sum_number (fun i r => (i < 100)%nat /\ exists x, chi2 r = Some x /\ in_range_bin 0 20 100 i x)).
  - intros i I. pose proof (number_column (range_edges 0 20 100) chi2 i rows (in_range_bin 0 20 100 i) (fun x => bin_range 0 20 100 i x ltac:(lra) I)) as N. revert N. apply number_ext. intros r. tauto.
  - intros r _ (x & E & X). destruct (range_bin_exists 0 20 100 x ltac:(lra) ltac:(lia) X) as (i & I & B). exists i. split; [exact I|]. split; [exact I|]. exists x. auto.
  - intros r i j _ (I & x & E & A) (J & y & F & B). rewrite E in F. injection F as <-. exact (range_bin_unique 0 20 100 i j x ltac:(lra) I J A B).
  - intros r i _ (I & x & E & A). exists x. split; [exact E|]. exact (range_bin_within 0 20 100 i x ltac:(lra) I A).
  - intros r _. unfold narrow. destruct (chi2 r) as [x|]; [|right; intros (x & [=] & _)]. destruct (Rle_dec 0 x); [|right; intros (y & [= <-] & K); lra]. destruct (Rle_dec x 20); [left; exists x; auto|right; intros (y & [= <-] & K); lra].
Qed.
Lemma density_shows rows : let N := list_sum (histogram (range_edges 0 20 100) (map chi2 rows)) in
  shows 0 20 100 chi2 (density N (20 / 100)) rows (normalized_bars (histogram (range_edges 0 20 100) (map chi2 rows), range_edges 0 20 100)).
Proof.
  intros N. destruct (range_edges_eq 0 20 100 ltac:(lra) ltac:(lia)) as [Le E]. assert (B : n_edge_bins (range_edges 0 20 100) = 100%nat) by (unfold n_edge_bins; rewrite Le; reflexivity).
  unfold normalized_bars. cbn [fst snd]. fold N. rewrite histogram_length, B.
  apply bars_shows; [lra|lia|now rewrite map_length, seq_length|]. intros i I.
  rewrite (nth_error_nth _ i None (x := density N (20 / 100) (length (filter (in_bin (range_edges 0 20 100) i) (not_nan (map chi2 rows)))))); [reflexivity|].
  rewrite nth_error_map, (nth_error_nth' _ 0%nat) by (rewrite seq_length; exact I). rewrite seq_nth by exact I. cbn [option_map Nat.add].
  rewrite (nth_error_nth _ _ 0%nat (histogram_nth _ _ _ ltac:(rewrite B; exact I))). rewrite !E by lia. unfold density.
  replace (0 + INR (S i) * ((20 - 0) / INR 100) - (0 + INR i * ((20 - 0) / INR 100))) with (20 / 100) by (rewrite S_INR; replace (INR 100) with 100 by (rewrite INR_IZR_INZ; reflexivity); lra).
  destruct N; reflexivity.
Qed.

Section Sort.
  Variable sort : list R -> list R.
  Hypothesis Sort : sorts sort.
  Lemma chunks_of cs rows : complete cs rows -> rows <> [] -> exists c chunks, row_chunks cs rows = Some (c :: chunks) /\ concat (c :: chunks) = rows /\ c <> [].
  Proof using.
    intros (S & P & E) N. destruct (chunks_ok row_event rows cs S P E) as (ys & Ey & Ec & Hc & _). unfold row_chunks. rewrite Ey. destruct (map fst ys) as [|c chunks]; [cbn in Ec; congruence|].
    exists c, chunks. split; [reflexivity|]. split; [exact Ec|]. apply (Hc c). now left.
  Qed.
  Lemma full_range_ok first : (forall r x, In r first -> chi2 r = Some x -> 0 <= x) -> range_of sort first (full_range sort first) /\ 0 <= full_range sort first.
  Proof using Sort.
    intros H. unfold range_of, full_range. destruct (percentile sort (99 / 100) (not_nan (map chi2 first))) as [q|] eqn:E; [|split; [reflexivity|lra]].
    destruct (ceil_spec q) as [A B]. split; [split; [eexists; reflexivity|lra]|].
    assert (0 <= q); [|lra]. unfold percentile in E. destruct (not_nan (map chi2 first)) as [|a l] eqn:El; [discriminate|]. 
    assert (P : percentile sort (99 / 100) (a :: l) = Some q) by exact E.
    apply (percentile_bounds sort (99 / 100) (a :: l) q 0 (fold_right Rmax a l) Sort ltac:(lra) P). intros x I. split.
    - rewrite <- El in I. unfold not_nan in I. apply in_flat_map in I. destruct I as (o & Io & Ix). apply in_map_iff in Io. destruct Io as (r & Er & Ir). destruct o as [y|]; [|destruct Ix]. destruct Ix as [->|[]]. exact (H r x Ir Er).
    - clear - I. destruct I as [<-|I].
      + induction l as [|b l IH]; [apply Rle_refl|]. cbn [fold_right]. eapply Rle_trans; [exact IH|apply Rmax_r].
      + induction l as [|b l IH]; [destruct I|]. cbn [fold_right]. destruct I as [<-|I]; [apply Rmax_l|]. eapply Rle_trans; [exact (IH I)|apply Rmax_r].
  Qed.
  Lemma table_ok cs rows title : rows <> [] -> complete cs rows -> (forall r x, In r rows -> chi2 r = Some x -> 0 <= x) ->
    exists chunks w, row_chunks cs rows = Some chunks /\ node_vars sort chunks = inr (Some w) /\ table_pages sort title rows (node_pages title w).
  Proof using Sort.
    intros N C H. destruct (chunks_of cs rows C N) as (c & chunks & Ec & Er & Nc).
    assert (Hc : forall r x, In r c -> chi2 r = Some x -> 0 <= x) by (intros r x I; apply H; rewrite <- Er; apply in_or_app; now left).
    destruct (full_range_ok c Hc) as [F1 F2]. exists (c :: chunks). eexists. split; [exact Ec|]. unfold node_vars. rewrite (proj2 (Rltb_false (full_range sort c) 0)) by lra. split; [reflexivity|].
    unfold node_pages. cbn [v_full v_narrow v_red v_prob]. rewrite !hist_of_concat, Er.
    do 5 eexists. exists c, (concat chunks), (full_range sort c). eexists. split; [reflexivity|]. split; [symmetry; exact Er|]. split; [exact Nc|]. split; [exact F1|]. split; [exact F2|].
    split; [|split; [apply hist_shows; [lra|lia]|split; [apply total_narrow|split; [apply density_shows|split; apply hist_shows; (lra || lia)]]]].
    destruct (Reqb (full_range sort c) 0) eqn:Z.
    - apply Reqb_true in Z. rewrite Z. replace (range_edges 0 0 250) with (range_edges (- 1 / 2) (1 / 2) 250); [apply hist_shows; [lra|lia]|].
      unfold range_edges, hist_range. rewrite (proj2 (Reqb_true 0 0) eq_refl), (proj2 (Reqb_false (- 1 / 2) (1 / 2))) by lra. cbn [fst snd]. f_equal; lra.
    - apply Reqb_false in Z. apply hist_shows; [lra|lia].
  Qed.
  Lemma plot_nodes_spec dut_names cs : forall duts v, tables cs duts -> (forall d rows, In (d, rows) duts -> exists title, titled dut_names d title) ->
    exists ps, plot_nodes sort dut_names cs v (file duts) = Some ps /\ length ps = (5 * length duts)%nat /\
      forall k d rows, nth_error duts k = Some (d, rows) -> exists title, titled dut_names d title /\ table_pages sort title rows (firstn 5 (skipn (5 * k) ps)).
  Proof using Sort.
    induction duts as [|[d rows] duts IH]; intros v T Ti.
    - exists []. split; [reflexivity|]. split; [reflexivity|]. intros [|k] d rows; discriminate.
    - destruct (T d rows (or_introl eq_refl)) as (N & C & H). destruct (Ti d rows (or_introl eq_refl)) as (title & Et).
      destruct (table_ok cs rows title N C H) as (chunks & w & Ec & Ew & P).
      destruct (IH (Some w)) as (ps & Ep & L & Q); [intros e r I; exact (T e r (or_intror I))|intros e r I; exact (Ti e r (or_intror I))|].
      exists (node_pages title w ++ ps). cbn [file map fst snd plot_nodes]. rewrite node_of_table. fold (file duts).
      assert (dut_title dut_names d = Some title) as -> by (unfold titled in Et; unfold dut_title; destruct dut_names; [exact Et|rewrite Et; reflexivity]).
      rewrite Ec, Ew, Ep. split; [reflexivity|]. split; [rewrite app_length, L; cbn [node_pages length]; lia|].
      intros [|k] d' rows' E.
      + injection E as <- <-. exists title. split; [exact Et|]. exact P.
      + destruct (Q k d' rows' E) as (t' & Et' & P'). exists t'. split; [exact Et'|]. replace (5 * S k)%nat with (5 + 5 * k)%nat by lia. exact P'.
  Qed.
End Sort.

(** Five pages for each table: distribution of chi2 in the range of the first chunk, distribution and normalized distribution between 0 and 20, of the reduced chi2 between 0 and 10
    and of the p-value between 0 and 1; the heights are the numbers of tracks of the table. *)
Theorem C130_pages : forall sort dut_names chunk_size duts, sorts sort -> tables chunk_size duts -> (forall d rows, In (d, rows) duts -> exists title, titled dut_names d title) ->
  exists ps, plot_track_chi2 sort dut_names chunk_size (file duts) = Some ps /\ length ps = (5 * length duts)%nat /\
    forall k d rows, nth_error duts k = Some (d, rows) -> exists title, titled dut_names d title /\ table_pages sort title rows (firstn 5 (skipn (5 * k) ps)).
Proof. intros sort dut_names cs duts S T Ti. exact (plot_nodes_spec sort S dut_names cs duts None T Ti). Qed.

(** The area of the normalized distribution is 1 if there is a track with chi2 between 0 and 20. *)
Lemma sum_div (f : nat -> nat) (N : R) is : sum (map (fun i => INR (f i) / N) is) = INR (list_sum (map f is)) / N.
Proof. induction is as [|i is IH]; [cbn; lra|]. cbn [map sum fold_right list_sum]. unfold sum in IH. rewrite IH. unfold list_sum. cbn [fold_right]. rewrite plus_INR. lra. Qed.
Lemma map_nth_seq {A} (l : list A) d : map (fun i => nth i l d) (seq 0 (length l)) = l.
Proof. apply nth_ext with (d := d) (d' := d); [now rewrite map_length, seq_length|]. intros n H. rewrite map_length, seq_length in H. erewrite nth_error_nth; [reflexivity|]. rewrite nth_error_map, (nth_error_nth' _ 0%nat) by (rewrite seq_length; exact H). now rewrite seq_nth by exact H. Qed.
Theorem C130_area : forall rows total b, number narrow rows total -> shows 0 20 100 chi2 (density total (20 / 100)) rows b -> (1 <= total)%nat ->
  (forall c w h, In (c, w, h) b -> exists x, h = Some x /\ 0 <= x) /\
  sum (map (fun e => match e with (_, w, Some h) => w * h | _ => 0 end) b) = 1.
Proof.
  intros rows total b N (L & H) T. destruct total as [|total]; [lia|]. cbn [density] in H. set (n := S total) in *.
  assert (Pn : 0 < INR n) by (apply lt_0_INR; lia).
  split.
  - intros c w h I. apply In_nth_error in I. destruct I as (i & Ei). assert (Hi : (i < 100)%nat) by (rewrite <- L; apply nth_error_Some; congruence).
    destruct (H i Hi) as (k & _ & E). rewrite Ei in E. injection E as _ _ ->. eexists. split; [reflexivity|]. pose proof (pos_INR k). unfold Rdiv. repeat apply Rmult_le_pos; try lra. left. apply Rinv_0_lt_compat. exact Pn.
  - set (f := fun i => length (filter (in_bin (range_edges 0 20 100) i) (not_nan (map chi2 rows)))).
    assert (E : map (fun e => match e with (_, w, Some h) => w * h | _ => 0 end) b = map (fun i => INR (f i) / INR n) (seq 0 100)).
    { apply nth_ext with (d := 0) (d' := 0); [rewrite !map_length, seq_length; exact L|]. intros i Hi. rewrite map_length, L in Hi. destruct (H i Hi) as (k & Nk & Ek).
      erewrite nth_error_nth by (rewrite nth_error_map, Ek; reflexivity). erewrite nth_error_nth by (rewrite nth_error_map, (nth_error_nth' _ 0%nat) by (rewrite seq_length; exact Hi); rewrite seq_nth by exact Hi; reflexivity).
      cbn [Nat.add]. assert (k = f i) as ->. { apply (number_unique _ _ _ _ Nk). apply number_column. intros x. apply bin_range; [lra|exact Hi]. }
      replace (INR 100) with 100 by (rewrite INR_IZR_INZ; reflexivity). field. lra. }
    rewrite E, sum_div. replace (list_sum (map f (seq 0 100))) with n; [field; lra|]. apply (number_unique _ _ _ _ N). pose proof (total_narrow rows) as Tn. unfold histogram in Tn.
    destruct (range_edges_eq 0 20 100 ltac:(lra) ltac:(lia)) as [Le _]. replace (n_edge_bins (range_edges 0 20 100)) with 100%nat in Tn by (unfold n_edge_bins; rewrite Le; reflexivity). exact Tn.
Qed.

(** The pages except the first one of each table do not depend on the chunk size. *)
Lemma shows_unique lo hi n column height rows b b' : shows lo hi n column height rows b -> shows lo hi n column height rows b' -> b = b'.
Proof.
  intros (L & H) (L' & H'). apply nth_ext with (d := (0, 0, None)) (d' := (0, 0, None)); [congruence|]. intros i I. rewrite L in I. destruct (H i I) as (k & N & E). destruct (H' i I) as (k' & N' & E').
  rewrite (nth_error_nth _ _ _ E), (nth_error_nth _ _ _ E'). rewrite (number_unique _ _ _ _ N N'). reflexivity.
Qed.
Theorem C130_chunk_size : forall sort dut_names chunk_size chunk_size' duts ps ps', sorts sort -> tables chunk_size duts -> tables chunk_size' duts ->
  (forall d rows, In (d, rows) duts -> exists title, titled dut_names d title) ->
  plot_track_chi2 sort dut_names chunk_size (file duts) = Some ps -> plot_track_chi2 sort dut_names chunk_size' (file duts) = Some ps' ->
  length ps = length ps' /\ forall k j, (k < length duts)%nat -> (1 <= j < 5)%nat -> nth_error ps (5 * k + j) = nth_error ps' (5 * k + j).
Proof.
  intros sort dut_names cs cs' duts ps ps' S T T' Ti E E'.
  destruct (C130_pages sort dut_names cs duts S T Ti) as (qs & Eq & L & H). destruct (C130_pages sort dut_names cs' duts S T' Ti) as (qs' & Eq' & L' & H').
  rewrite E in Eq. rewrite E' in Eq'. injection Eq as <-. injection Eq' as <-. split; [congruence|]. intros k j K J.
  destruct (nth_error duts k) as [[d rows]|] eqn:Ek; [|apply nth_error_None in Ek; lia].
  destruct (H k d rows Ek) as (t & Et & b0 & b1 & b2 & b3 & b4 & f & r & hi & n & P & _ & _ & _ & _ & _ & P1 & N & P2 & P3 & P4).
  destruct (H' k d rows Ek) as (t' & Et' & c0 & c1 & c2 & c3 & c4 & f' & r' & hi' & n' & P' & _ & _ & _ & _ & _ & P1' & N' & P2' & P3' & P4').
  assert (t = t') as <- by (unfold titled in *; destruct dut_names; congruence). assert (n = n') as <- by exact (number_unique _ _ _ _ N N').
  rewrite (shows_unique _ _ _ _ _ _ _ _ P1 P1'), (shows_unique _ _ _ _ _ _ _ _ P2 P2'), (shows_unique _ _ _ _ _ _ _ _ P3 P3'), (shows_unique _ _ _ _ _ _ _ _ P4 P4') in P.
  assert (G : forall (l : list page) m i, (i < 5)%nat -> nth_error (firstn 5 (skipn m l)) i = nth_error l (m + i)).
  { clear. intros l m i I. assert (A : forall (l : list page) n i, (i < n)%nat -> nth_error (firstn n l) i = nth_error l i).
    { clear. induction l as [|a l IH]; intros n i I; [destruct n; reflexivity|]. destruct n; [lia|]. destruct i; [reflexivity|]. cbn. apply IH. lia. }
    rewrite A by exact I. revert l. induction m as [|m IH]; intros l; [reflexivity|]. destruct l as [|a l]; [destruct i; reflexivity|]. cbn. apply IH. }
  rewrite <- !(G _ (5 * k)%nat j) by lia. rewrite P, P'. destruct j as [|j]; [lia|]. reflexivity.
Qed.

(** Desired: the first page shows the tracks of the table, whatever the chunk size.  False: its range is that of the first chunk. *)
Definition three_rows : list row := [Row 1 (Some (1 / 2)) None None; Row 2 (Some 5) None None; Row 3 (Some 5) None None].
Lemma sort_one sort x : sorts sort -> sort [x] = [x].
Proof. intros S. destruct (S [x]) as [P _]. apply Permutation_sym, Permutation_length_1_inv in P. exact P. Qed.
Lemma sort_three sort x y : sorts sort -> x < y -> sort [x; y; y] = [x; y; y].
Proof.
  intros S L. destruct (S [x; y; y]) as [P O]. pose proof (O 0%nat 1%nat ltac:(cbn; lia)) as O1. pose proof (O 1%nat 2%nat ltac:(cbn; lia)) as O2.
  assert (Len : length (sort [x; y; y]) = 3%nat) by (rewrite (Permutation_length P); reflexivity). destruct (sort [x; y; y]) as [|a [|b [|c [|? ?]]]]; cbn in Len; try lia. cbn [nth] in O1, O2.
  assert (I : forall z, In z [a; b; c] -> z = x \/ z = y) by (intros z Iz; apply (Permutation_in _ P) in Iz; cbn in Iz; intuition).
  assert (Sm : a + b + c = x + y + y).
  { assert (G : forall l m : list R, Permutation l m -> sum l = sum m) by (clear; intros l m P; unfold sum; induction P; cbn [fold_right]; lra). apply G in P. unfold sum in P. cbn [fold_right] in P. lra. }
  destruct (I a (or_introl eq_refl)) as [->| ->], (I b (or_intror (or_introl eq_refl))) as [->| ->], (I c (or_intror (or_intror (or_introl eq_refl)))) as [->| ->]; try reflexivity; lra.
Qed.
Lemma three_ok cs : (2 <= cs)%nat -> tables cs [(0%nat, three_rows)].
Proof.
  intros H d rows [[= <- <-]|[]]. split; [discriminate|]. split; [split; [repeat constructor; cbn; lia|split; [lia|]]|].
  - intros e. unfold event_rows, three_rows. cbn [filter row_event]. destruct (Z.eqb_spec 1 e) as [<-|N1]; [cbn; lia|]. destruct (Z.eqb_spec 2 e) as [<-|N2]; [cbn; lia|]. destruct (3 =? e)%Z; cbn; lia.
  - intros r x [<-|[<-|[<-|[]]]] [= <-]; lra.
Qed.
Lemma three_chunks : row_chunks 2 three_rows = Some [[Row 1 (Some (1 / 2)) None None]; [Row 2 (Some 5) None None; Row 3 (Some 5) None None]] /\ row_chunks 100 three_rows = Some [three_rows].
Proof. split; reflexivity. Qed.
Theorem C130_range_refuted : forall sort, sorts sort -> exists chunk_size chunk_size' duts ps ps' p p', tables chunk_size duts /\ tables chunk_size' duts /\
  plot_track_chi2 sort None chunk_size (file duts) = Some ps /\ plot_track_chi2 sort None chunk_size' (file duts) = Some ps' /\ nth_error ps 0 = Some p /\ nth_error ps' 0 = Some p' /\
  (forall c w h, In (c, w, h) (p_bars p) -> c + w / 2 <= 1) /\ In (5 - 1 / 100, 1 / 50, Some 2) (p_bars p').
Proof.
  intros sort S. exists 2%nat, 100%nat, [(0%nat, three_rows)]. unfold plot_track_chi2, file. cbn [map fst snd plot_nodes]. rewrite node_of_table. cbn [dut_title].
  destruct three_chunks as [-> ->].
  assert (F1 : full_range sort [Row 1 (Some (1 / 2)) None None] = 1).
  { unfold full_range, percentile. cbn [map chi2 not_nan flat_map app length Nat.sub]. rewrite (sort_one sort _ S). replace (99 / 100 * INR 0) with (IZR 0) by (cbn; lra).
    replace (Int_part (IZR 0)) with 0%Z by (symmetry; apply Int_part_eq; cbn; lra). cbn [Z.to_nat nth INR]. replace (1 / 2 + (1 / 2 - 1 / 2) * (0 - 0)) with (1 / 2) by lra. f_equal. pose proof (ceil_spec (1 / 2)) as [A B].
    assert (0 < IZR (ceil (1 / 2)) < 2) as [G1 G2] by lra. apply (lt_IZR 0) in G1. apply (lt_IZR _ 2) in G2. lia. }
  assert (F2 : full_range sort three_rows = 5).
  { unfold full_range, percentile, three_rows. cbn [map chi2 not_nan flat_map app length Nat.sub]. rewrite (sort_three sort _ _ S) by lra. replace (Int_part (99 / 100 * INR 2)) with 1%Z by (symmetry; apply Int_part_eq; cbn; lra).
    change (Z.to_nat 1) with 1%nat. cbn [nth]. replace (5 + (5 - 5) * (99 / 100 * INR 2 - INR 1)) with 5 by lra. f_equal. pose proof (ceil_spec 5) as [A B].
    assert (4 < IZR (ceil 5) < 6) as [G1 G2] by lra. apply (lt_IZR 4) in G1. apply (lt_IZR _ 6) in G2. lia. }
  unfold node_vars. rewrite F1, F2, (proj2 (Rltb_false 1 0)), (proj2 (Rltb_false 5 0)) by lra. rewrite !hist_of_concat. cbn [app concat]. fold three_rows.
  do 4 eexists. split; [apply three_ok; lia|]. split; [apply three_ok; lia|]. split; [reflexivity|]. split; [reflexivity|]. split; [reflexivity|]. split; [reflexivity|]. cbn [p_bars v_full]. split.
  - destruct (hist_shows 0 1 250 chi2 three_rows ltac:(lra) ltac:(lia)) as [L H]. intros c w h I. apply In_nth_error in I. destruct I as (i & Ei). assert (Hi : (i < 250)%nat) by (rewrite <- L; apply nth_error_Some; congruence).
    destruct (H i Hi) as (k & _ & E). rewrite Ei in E. injection E as -> -> _. assert (INR (Datatypes.S i) <= INR 250) as K by (apply le_INR; lia). rewrite S_INR in K. replace (INR 250) with 250 in * by (rewrite INR_IZR_INZ; reflexivity). lra.
  - destruct (hist_shows 0 5 250 chi2 three_rows ltac:(lra) ltac:(lia)) as [L H]. destruct (H 249%nat ltac:(lia)) as (k & N & E). apply nth_error_In in E.
    assert (INR 249 = 249 /\ INR 250 = 250) as [N1 N2] by (split; rewrite INR_IZR_INZ; reflexivity).
    assert (number (fun r => exists x, chi2 r = Some x /\ in_range_bin 0 5 250 249 x) three_rows 2) as K.
    { apply number_out; [|apply number_in; [|apply number_in; [|constructor]]].
      - intros (x & [= <-] & (B & _)). unfold in_range_bin in B. rewrite N1, N2 in B. lra.
      - exists 5. split; [reflexivity|]. unfold in_range_bin. rewrite N1, N2. split; [lra|right; split; [reflexivity|lra]].
      - exists 5. split; [reflexivity|]. unfold in_range_bin. rewrite N1, N2. split; [lra|right; split; [reflexivity|lra]]. }
    rewrite (number_unique _ _ _ _ N K) in E. rewrite N1, N2 in E. replace (0 + (249 + 1 / 2) * ((5 - 0) / 250)) with (5 - 1 / 100) in E by lra. replace ((5 - 0) / 250) with (1 / 50) in E by lra. exact E.
Qed.

(** Desired (the "continue" of the except clause): a node whose name has no number is left out.  False: IndexError. *)
Theorem C130_name_refuted : forall sort dut_names chunk_size before name rows after, forallb (fun c => negb (is_digit c)) name = true ->
  plot_track_chi2 sort dut_names chunk_size (before ++ (name, rows) :: after) = None.
Proof.
  intros sort dut_names cs before name rows after H.
  assert (D : dut_of_node name = None).
  { unfold dut_of_node. assert (digit_runs [] name = []) as ->; [|reflexivity]. induction name as [|c name IH]; [reflexivity|]. cbn [forallb] in H. apply andb_true_iff in H. destruct H as [Hc H].
    cbn [digit_runs]. destruct (is_digit c); [discriminate|exact (IH H)]. }
  unfold plot_track_chi2. generalize (@None vars) as v. induction before as [|[n r] before IH]; intros v; cbn [app plot_nodes]; [now rewrite D|].
  destruct (dut_of_node n); [|reflexivity]. destruct (dut_title dut_names n0); [|reflexivity]. destruct (row_chunks cs r); [|reflexivity]. destruct (node_vars sort l0) as [|w]; [reflexivity|].
  destruct (match w with Some w => Some w | None => v end); [|reflexivity]. now rewrite IH.
Qed.
(** Desired: the pages of a table show its own tracks.  False for an empty table: the pages of the table before, with its own title; an exception for the first table. *)
Definition retitled (t : list ascii) (p : page) : page := Page t (p_bars p).
Theorem C130_empty_refuted : forall sort chunk_size name rows d d' ps, (1 <= chunk_size)%nat -> dut_of_node name = Some d ->
  plot_track_chi2 sort None chunk_size [(table_name d', [])] = None /\
  (rows <> [] -> complete chunk_size rows -> plot_track_chi2 sort None chunk_size [(name, rows)] = Some ps ->
    plot_track_chi2 sort None chunk_size [(name, rows); (table_name d', [])] = Some (ps ++ map (retitled (list_ascii_of_string "DUT" ++ decimal d')) ps)).
Proof.
  intros sort cs name rows d d' ps P D.
  assert (N : row_chunks cs [] = Some []).
  { destruct (chunks_ok row_event [] cs) as (ys & Ey & Ec & Hc & _); [constructor|exact P|intros e; cbn; lia|]. unfold row_chunks. rewrite Ey. f_equal.
    destruct ys as [|[c n] ys]; [reflexivity|]. cbn in Ec. apply app_eq_nil in Ec. destruct (Hc c (or_introl eq_refl)) as [X _]. destruct X. apply Ec. }
  unfold plot_track_chi2. cbn [plot_nodes]. rewrite D, node_of_table, N. cbn [dut_title node_vars]. split; [reflexivity|]. intros Nr C.
  destruct (chunks_of cs rows C Nr) as (c & chunks & -> & _). destruct (node_vars sort (c :: chunks)) as [|[w|]]; [discriminate| |discriminate].
  cbn [app node_pages]. intros [= <-]. reflexivity.
Qed.
(** The hypotheses are met. *)
Fixpoint insert (x : R) (l : list R) : list R := match l with [] => [x] | y :: t => if Rle_dec x y then x :: l else y :: insert x t end.
Definition insertion_sort (l : list R) : list R := fold_right insert [] l.
Lemma insertion_sorts : sorts insertion_sort.
Proof.
  assert (Pi : forall x l, Permutation (insert x l) (x :: l)).
  { intros x l. induction l as [|y l IH]; [reflexivity|]. cbn [insert]. destruct (Rle_dec x y); [reflexivity|]. rewrite IH. apply perm_swap. }
  assert (P : forall l, Permutation (insertion_sort l) l) by (intros l; induction l as [|x l IH]; [reflexivity|]; cbn [insertion_sort fold_right]; rewrite Pi; now apply perm_skip).
  assert (Si : forall x l, StronglySorted Rle l -> StronglySorted Rle (insert x l)).
  { intros x l H. induction H as [|y l H IH F]; [repeat constructor|]. cbn [insert]. destruct (Rle_dec x y) as [L|L].
    - constructor; [constructor; assumption|]. constructor; [exact L|]. eapply Forall_impl; [|exact F]. intros z Z. cbn beta in Z. lra.
    - constructor; [exact IH|]. rewrite Pi. constructor; [lra|exact F]. }
  assert (St : forall l, StronglySorted Rle (insertion_sort l)) by (intros l; induction l as [|x l IH]; [constructor|]; cbn [insertion_sort fold_right]; now apply Si).
  intros l. split; [apply P|]. intros i j K. assert (N : (j < length (insertion_sort l))%nat) by (rewrite (Permutation_length (P l)); lia).
  specialize (St l). revert i j K N. generalize (length l) as n. induction St as [|x m H IH F]; intros n i j K N; [cbn in N; lia|].
  destruct i as [|i]; [destruct j as [|j]; [apply Rle_refl|]|destruct j as [|j]; [lia|]]; cbn [nth].
  - rewrite Forall_forall in F. apply F. apply nth_In. cbn [length] in N. lia.
  - apply (IH (n - 1)%nat); [lia|cbn [length] in N; lia].
Qed.
Example C130_case : sorts insertion_sort /\ tables 100 [(0%nat, three_rows)] /\ (forall d rows, In (d, rows) [(0%nat, three_rows)] -> exists title, titled None d title) /\ number narrow three_rows 3 /\
  dut_of_node (list_ascii_of_string "Tracks_DUT12") = Some 12%nat /\ dut_of_node (list_ascii_of_string "Merged") = None.
Proof.
  split; [exact insertion_sorts|]. split; [apply three_ok; lia|]. split; [intros d rows _; eexists; reflexivity|]. split; [|split; reflexivity].
  repeat apply number_in; [exists (1 / 2)|exists 5|exists 5|constructor]; (split; [reflexivity|lra]).
Qed.

Print Assumptions C130_pages.
Print Assumptions C130_area.
Print Assumptions C130_chunk_size.
Print Assumptions C130_range_refuted.
Print Assumptions C130_name_refuted.
Print Assumptions C130_empty_refuted.
