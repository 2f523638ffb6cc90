(* C68: purity histograms; calculate_purity never returns and makes no figure. *)
From Coq Require Import Ascii String List Arith ZArith Lia Reals Lra Bool.
From Verif Require Import GeometryModel GeometryProofs CorrelateModel CorrelateBinsProps PrealignModel HoughProps RunningMeanModel RunningMeanProps EfficiencyModel EfficiencyProps PurityModel.
Import ListNotations.
Local Open Scope R_scope.

(** * Specification *)
Definition has_hit (b : R * R -> bool) (t : ptrack) : bool := match p_hit t with Some h => b h | None => false end.
Definition is_pure (rx ry : option (R * R)) (cut : R) (t : ptrack) : Prop :=
  exists h, p_hit t = Some h /\ p_fitted t = true /\
  (forall a b, rx = Some (a, b) -> a <= fst (p_intersection t) <= b) /\ (forall a b, ry = Some (a, b) -> a <= snd (p_intersection t) <= b) /\
  sqrt ((fst h - fst (p_intersection t)) ^ 2 + (snd h - snd (p_intersection t)) ^ 2) < cut.

Lemma in_range_spec r x : in_range r x = true <-> forall a b, r = Some (a, b) -> a <= x <= b.
Proof.
  destruct r as [[a b]|]; cbn; [|split; [discriminate|reflexivity]]. rewrite andb_true_iff, !Rleb_true. split; [intros H c d E; injection E as <- <-; lra|intros H; exact (H a b eq_refl)].
Qed.
Definition pureb (rx ry : option (R * R)) (cut : R) (t : ptrack) : bool :=
  match p_hit t with
  | Some h => p_fitted t && in_range rx (fst (p_intersection t)) && in_range ry (snd (p_intersection t)) && Rltb (distance (p_intersection t) h) cut
  | None => false
  end.
Lemma pureb_spec rx ry cut t : pureb rx ry cut t = true <-> is_pure rx ry cut t.
Proof.
  unfold pureb, is_pure. assert (D : forall h, distance (p_intersection t) h = sqrt ((fst h - fst (p_intersection t)) ^ 2 + (snd h - snd (p_intersection t)) ^ 2)).
  { intros h. unfold distance. f_equal. ring. }
  destruct (p_hit t) as [h|]; [|split; [discriminate|intros (h & E & _); discriminate]]. rewrite !andb_true_iff, !in_range_spec, Rltb_true, D.
  split; [intros [[[A B] C] E]; exists h; tauto|]. intros (h' & E & A & B & C & F). injection E as <-. tauto.
Qed.

Section Hists.
  Variables (bins : list (R * R -> bool)) (rx ry : option (R * R)) (cut : R).
  Implicit Types (ts us : list ptrack).
  Lemma hits_number b ts : length (filter b (hit_points ts)) = number (has_hit b) ts.
  Proof using. induction ts as [|t ts IH]; [reflexivity|]. unfold hit_points in *. cbn [flat_map number]. unfold has_hit at 1. rewrite filter_app, app_length, IH. destruct (p_hit t) as [h|]; [|reflexivity]. cbn. destruct (b h); reflexivity. Qed.
  Lemma pure_number b ts : length (filter b (pure_hits rx ry cut ts)) = number (fun t => pureb rx ry cut t && has_hit b t) ts.
  Proof using.
    induction ts as [|t ts IH]; [reflexivity|]. cbn [number]. rewrite <- IH. unfold pure_hits, fitted_hits. cbn [flat_map]. rewrite !filter_app, map_app, filter_app, app_length. f_equal.
    unfold pureb, has_hit. destruct (p_hit t) as [h|]; [|reflexivity]. destruct (p_fitted t); [|reflexivity]. cbn [filter fst snd andb].
    destruct (in_range rx _); [|reflexivity]. cbn [filter fst snd andb]. destruct (in_range ry _); [|reflexivity]. cbn [filter fst snd andb].
    destruct (Rltb _ cut); [|reflexivity]. cbn. destruct (b h); reflexivity.
  Qed.
  Lemma add_counts_map (f g : (R * R -> bool) -> nat) : add_counts (map f bins) (map g bins) = map (fun b => (f b + g b)%nat) bins.
  Proof using. unfold add_counts. induction bins as [|b bs IH]; [reflexivity|]. cbn. now rewrite IH. Qed.

  (** Chunks which contribute: not those where all pure hits are at (0, 0). *)
  Definition used (c : list ptrack) : bool := any_nonzero (pure_hits rx ry cut c).
  Lemma hists_spec chunks : purity_hists bins rx ry cut chunks =
    (map (fun b => number (has_hit b) (concat chunks)) bins, map (fun b => number (fun t => pureb rx ry cut t && has_hit b t) (concat (filter used chunks))) bins).
  Proof using.
    unfold purity_hists.
    assert (G : forall cs ts us, fold_left (purity_chunk bins rx ry cut) cs
      (map (fun b => number (has_hit b) ts) bins, map (fun b => number (fun t => pureb rx ry cut t && has_hit b t) us) bins) =
      (map (fun b => number (has_hit b) (ts ++ concat cs)) bins, map (fun b => number (fun t => pureb rx ry cut t && has_hit b t) (us ++ concat (filter used cs))) bins)).
    { induction cs as [|c cs IH]; intros ts us; [cbn; now rewrite !app_nil_r|]. cbn [fold_left filter concat]. unfold purity_chunk at 2. cbn [fst snd]. fold (used c).
      assert (E1 : add_counts (map (fun b => number (has_hit b) ts) bins) (hist_points bins (hit_points c)) = map (fun b => number (has_hit b) (ts ++ c)) bins).
      { unfold hist_points. rewrite add_counts_map. apply map_ext. intros b. now rewrite hits_number, number_of_app. }
      assert (E2 : add_counts (map (fun b => number (fun t => pureb rx ry cut t && has_hit b t) us) bins) (hist_points bins (pure_hits rx ry cut c)) = map (fun b => number (fun t => pureb rx ry cut t && has_hit b t) (us ++ c)) bins).
      { unfold hist_points. rewrite add_counts_map. apply map_ext. intros b. now rewrite pure_number, number_of_app. }
      rewrite E1. destruct (used c); [rewrite E2, IH; cbn [concat]; now rewrite !app_assoc|rewrite IH; now rewrite app_assoc]. }
    pose proof (G chunks [] []) as H. exact H.
  Qed.
End Hists.

Lemma number_filter_le {A} (f : A -> bool) g (cs : list (list A)) : (number f (concat (filter g cs)) <= number f (concat cs))%nat.
Proof. induction cs as [|c cs IH]; [reflexivity|]. cbn. destruct (g c); cbn [concat]; rewrite !number_of_app; lia. Qed.

(** The histograms for any number of chunks: all hits per bin; and the pure hits per bin of all chunks if every chunk has a pure hit which is not
    at (0, 0) (the centre of the sensor). *)
Theorem C68_histograms bins rx ry cut density chunks p : purity_of bins rx ry cut density chunks = Some p ->
  plot_total p = map (fun b => number (has_hit b) (concat chunks)) bins /\
  ((forall c, In c chunks -> exists t h, In t c /\ is_pure rx ry cut t /\ p_hit t = Some h /\ h <> (0, 0)) ->
   plot_pure p = map (fun b => number (fun t => pureb rx ry cut t && has_hit b t) (concat chunks)) bins) /\
  (forall i, (nth i (plot_pure p) 0 <= nth i (plot_total p) 0)%nat).
Proof.
  unfold purity_of. rewrite hists_spec. destruct (existsb _ _); [|discriminate]. intros E. injection E as <-. cbn [plot_total plot_pure fst snd]. split; [reflexivity|]. split.
  - intros H. apply map_ext. intros b. f_equal. f_equal.
    assert (U : forall c, In c chunks -> used rx ry cut c = true).
    { intros c Ic. destruct (H c Ic) as (t & h & It & Pt & Ht & N). apply pureb_spec in Pt. unfold used, any_nonzero. apply existsb_exists. exists h. split.
      - unfold pure_hits. apply in_map_iff. exists (h, p_intersection t). split; [reflexivity|]. unfold pureb in Pt. rewrite Ht in Pt. rewrite !andb_true_iff in Pt. destruct Pt as [[[A B] C] D].
        rewrite !filter_In. cbn [fst snd]. split; [split; [split|]|]; [|assumption..]. unfold fitted_hits. apply in_flat_map. exists t. split; [assumption|]. rewrite Ht, A. now left.
      - destruct h as [x y]. cbn [fst snd]. destruct (Reqb x 0) eqn:X; [|reflexivity]. destruct (Reqb y 0) eqn:Y; [|reflexivity]. apply Reqb_true in X, Y. subst. congruence. }
    clear -U. induction chunks as [|c cs IH]; [reflexivity|]. cbn. rewrite (U c) by now left. f_equal. apply IH. intros d Id. apply U. now right.
  - intros i. clear. revert i. induction bins as [|b bs IH]; intros [|i]; cbn [map nth]; try lia; [|apply IH].
    etransitivity; [apply number_filter_le|]. apply number_le. intros t X. apply andb_true_iff in X. tauto.
Qed.

(** The purity of a bin is the fraction of pure hits in percent, rounded down to an integer. *)
Lemma purity_nth totals pures i : length totals = length pures -> (i < length totals)%nat ->
  nth i (map (fun p => purity_percent (fst p) (snd p)) (combine totals pures)) 0%Z = purity_percent (nth i totals 0%nat) (nth i pures 0%nat).
Proof.
  revert pures i. induction totals as [|n ns IH]; intros [|m ms] i L H; cbn in L, H; try lia. destruct i as [|i]; [reflexivity|]. cbn [combine map nth]. apply IH; lia.
Qed.
Theorem C68_purity bins rx ry cut density chunks p i : purity_of bins rx ry cut density chunks = Some p -> (i < length bins)%nat -> (0 < nth i (plot_total p) 0)%nat ->
  let ratio := INR (nth i (plot_pure p) 0%nat) / INR (nth i (plot_total p) 0%nat) * 100 in
  ratio - 1 < IZR (nth i (plot_purity p) 0%Z) <= ratio /\ (0 <= nth i (plot_purity p) 0 <= 100)%Z.
Proof.
  intros E Hi Ht ratio. pose proof (C68_histograms _ _ _ _ _ _ _ E) as (_ & _ & Le). specialize (Le i).
  assert (N : nth i (plot_purity p) 0%Z = purity_percent (nth i (plot_total p) 0%nat) (nth i (plot_pure p) 0%nat)).
  { unfold purity_of in E. rewrite hists_spec in E. destruct (existsb _ _); [|discriminate]. injection E as <-. cbn [plot_total plot_pure plot_purity fst snd]. apply purity_nth; rewrite !map_length; auto. }
  rewrite N. clear N E. unfold ratio. clear ratio. revert Ht Le. generalize (nth i (plot_total p) 0%nat) (nth i (plot_pure p) 0%nat). intros n m Ht Le.
  unfold purity_percent. assert ((n =? 0)%nat = false) as -> by (apply Nat.eqb_neq; lia). set (ratio := INR m / INR n * 100). pose proof (floor_spec ratio) as F.
  assert (Pn : 0 < INR n) by (apply lt_0_INR; lia).
  assert (R0 : 0 <= ratio <= 100).
  { unfold ratio. assert (0 <= INR m / INR n) by (apply Rmult_le_pos; [apply pos_INR|left; now apply Rinv_0_lt_compat]).
    assert (INR m / INR n <= 1); [|lra]. apply Rmult_le_reg_r with (INR n); [assumption|]. unfold Rdiv. rewrite Rmult_assoc, Rinv_l, Rmult_1_r, Rmult_1_l by lra. now apply le_INR. }
  split; [lra|]. split; [apply floor_ge; lra|]. assert (Int_part ratio < 101)%Z; [|lia]. apply floor_lt. lra.
Qed.

(** Desired: the purity is the fraction of pure hits. False: 1 of 3 gives 33 %, 1 of 200 gives 0 %. *)
Theorem C68_truncated_refuted : purity_percent 3 1 = 33%Z /\ purity_percent 200 1 = 0%Z /\ INR 1 / INR 3 * 100 <> 33 /\ INR 1 / INR 200 * 100 <> 0.
Proof.
  assert (I : forall x n, IZR n <= x < IZR n + 1 -> Int_part x = n). { intros x n [A B]. apply Z.le_antisymm; [|now apply floor_ge]. assert (Int_part x < n + 1)%Z; [|lia]. apply floor_lt. now rewrite plus_IZR. }
  unfold purity_percent. cbn [Nat.eqb]. rewrite !INR_IZR_INZ. cbn [Z.of_nat Pos.of_succ_nat Pos.succ]. split; [apply I; lra|]. split; [apply I; lra|]. split; lra.
Qed.

(** Desired: all pure hits are counted. False: a chunk with pure hits at the centre of the sensor only is skipped. *)
Theorem C68_centre_refuted : exists bins chunks cut, 0 < cut /\ snd (purity_hists bins None None cut chunks) <> snd (purity_hists bins None None cut [concat chunks]).
Proof.
  exists [fun _ => true], [[PTrack (Some (0, 0)) true (0, 0)]; [PTrack (Some (1, 0)) true (1, 0)]], 1. split; [lra|]. rewrite !hists_spec. cbn [snd map concat app filter].
  assert (D : forall x, Rltb (distance (x, 0) (x, 0)) 1 = true).
  { intros x. apply Rltb_true. unfold distance. cbn [fst snd]. replace ((x - x) ^ 2 * 1 + (0 - 0) ^ 2 * 1) with 0 by ring. rewrite sqrt_0. lra. }
  assert (Z : Reqb 0 0 = true) by (apply Reqb_true; reflexivity). assert (O : Reqb 1 0 = false) by (apply Reqb_false; lra).
  unfold used, pure_hits, any_nonzero, pureb, has_hit. cbn. rewrite !D. cbn. rewrite !Z, !O. cbn. rewrite !D. cbn. discriminate.
Qed.

(** Documented: a hit with distance <= cut_distance is pure. False for equality. *)
Theorem C68_cut_refuted : exists t cut, 0 < cut /\ p_fitted t = true /\ p_hit t = Some (cut, 0) /\ p_intersection t = (0, 0) /\ ~ is_pure None None cut t.
Proof.
  exists (PTrack (Some (1, 0)) true (0, 0)), 1. split; [lra|]. split; [reflexivity|]. split; [reflexivity|]. split; [reflexivity|]. intros (h & E & _ & _ & _ & D). injection E as <-. cbn in D.
  replace ((1 - 0) * ((1 - 0) * 1) + (0 - 0) * ((0 - 0) * 1)) with 1 in D by ring. rewrite sqrt_1 in D. lra.
Qed.

(** A call which Python accepts: the positional arguments are not more than the parameters, every keyword names one of the parameters which follow, and each of those without
    default is given. *)
Definition accepted (parameters : list (string * bool)) (positional : nat) (keywords : list string) : Prop :=
  (positional <= length parameters)%nat /\
  (forall k, In k keywords -> exists i d, (positional <= i)%nat /\ nth_error parameters i = Some (k, d)) /\
  (forall i n, (positional <= i)%nat -> nth_error parameters i = Some (n, false) -> In n keywords).
Lemma nth_error_skip {A} (l : list A) n i : nth_error (skipn n l) i = nth_error l (n + i).
Proof. revert l. induction n as [|n IH]; intros [|a l]; cbn [skipn Nat.add nth_error]; auto. now destruct i. Qed.
Theorem C68_call parameters positional keywords : call_arguments parameters positional keywords = Some tt <-> accepted parameters positional keywords.
Proof.
  unfold call_arguments, accepted. set (o := skipn positional parameters).
  assert (O : forall p, In p o <-> exists i, (positional <= i)%nat /\ nth_error parameters i = Some p).
  { intros p. split.
    - intros I. apply In_nth_error in I as [i I]. unfold o in I. rewrite nth_error_skip in I. exists (positional + i)%nat. split; [lia|assumption].
    - intros (i & L & E). apply nth_error_In with (i - positional)%nat. unfold o. rewrite nth_error_skip. replace (positional + (i - positional))%nat with i by lia. assumption. }
  assert (B : ((positional <=? length parameters)%nat && forallb (fun k => existsb (fun p => String.eqb k (fst p)) o) keywords &&
     forallb (fun p => snd p || existsb (String.eqb (fst p)) keywords) o = true) <-> accepted parameters positional keywords).
  { unfold accepted. rewrite !andb_true_iff, !forallb_forall, Nat.leb_le. split.
    - intros [[L K] D]. split; [assumption|]. split.
      + intros k I. apply K in I. apply existsb_exists in I as ((n & d) & I & E). apply String.eqb_eq in E. cbn [fst] in E. subst. apply O in I as (i & I). exists i, d. assumption.
      + intros i n L' E. specialize (D (n, false)). cbn [fst snd orb] in D. assert (I : In (n, false) o) by (apply O; eauto). apply D, existsb_exists in I as (k & I & Q).
        apply String.eqb_eq in Q. now subst.
    - intros (L & K & D). split; [split; [assumption|]|].
      + intros k I. destruct (K k I) as (i & d & L' & E). apply existsb_exists. exists (k, d). split; [apply O; eauto|]. apply String.eqb_refl.
      + intros [n [|]] I; [reflexivity|]. cbn [fst snd orb]. apply O in I as (i & L' & E). apply existsb_exists. exists n. split; [eauto|]. apply String.eqb_refl. }
  unfold accepted in B. rewrite <- B. destruct (_ && _); split; congruence.
Qed.

(** Desired: figures are made, and purities are returned and stored. False: with at least one DUT calculate_purity always raises an exception and no figure is made. Where the purities of the
    first DUT can be computed this is the call of purity_plots, which lacks the telescope (with it the call would be accepted); the message which follows would raise the next exception,
    since it has two placeholders and one value. *)
Theorem C68_returns_refuted rx ry cut density duts : duts <> [] ->
  calculate_purity rx ry cut density duts = ([], None) /\
  ~ accepted purity_plots_parameters 6 ["hist_extent"; "cut_distance"; "output_pdf"]%string /\
  accepted purity_plots_parameters 7 ["hist_extent"; "cut_distance"; "output_pdf"]%string /\ format_string 2 1 = None.
Proof.
  intros D. split; [|split; [|split; [|reflexivity]]].
  - destruct duts as [|d ds]; [congruence|]. cbn [calculate_purity]. destruct (purity_of _ _ _ _ _ _); [|reflexivity].
    assert (E : purity_plots_call = None) by (vm_compute; reflexivity). now rewrite E.
  - intros A. apply C68_call in A. vm_compute in A. discriminate.
  - apply C68_call. vm_compute. reflexivity.
Qed.

(** The bins of a direction: whole bins from one end of the extent to the other, as many bins of the asked size as fit; their width is at least the asked size
    and less than twice of it. *)
Theorem C68_bins lo hi bin_size : lo < hi -> 0 < bin_size <= hi - lo ->
  exists n w, (1 <= n)%nat /\ INR n * bin_size <= hi - lo < INR (S n) * bin_size /\ length (purity_edges lo hi bin_size) = S n /\
  (forall k, (k <= n)%nat -> nth k (purity_edges lo hi bin_size) 0 = lo + INR k * w) /\ lo + INR n * w = hi /\ bin_size <= w < 2 * bin_size.
Proof.
  intros H [B0 B1]. unfold purity_edges. rewrite Rabs_right by lra. pose proof (floor_spec ((hi - lo) / bin_size)) as F.
  assert (G : (1 <= Int_part ((hi - lo) / bin_size))%Z).
  { apply floor_ge. apply Rmult_le_reg_r with bin_size; [assumption|]. unfold Rdiv. rewrite Rmult_assoc, Rinv_l; lra. }
  set (z := Int_part ((hi - lo) / bin_size)) in *. exists (Z.to_nat z), ((hi - lo) / INR (Z.to_nat z)).
  assert (E : INR (Z.to_nat z) = IZR z) by (rewrite INR_IZR_INZ, Z2Nat.id by lia; reflexivity).
  assert (Z1 : 1 <= IZR z) by (apply IZR_le in G; exact G).
  assert (L : IZR z * bin_size <= hi - lo < (IZR z + 1) * bin_size).
  { replace (hi - lo) with ((hi - lo) / bin_size * bin_size) by (field; lra). split; [apply Rmult_le_compat_r; lra|apply Rmult_lt_compat_r; lra]. }
  split; [lia|]. split; [rewrite S_INR, E; exact L|]. rewrite Nat.add_1_r. split; [apply linspace_length|]. split; [|split].
  - intros k Hk. apply linspace_nth; lia.
  - rewrite E. field. lra.
  - rewrite E. split; [apply Rmult_le_reg_r with (IZR z)|apply Rmult_lt_reg_r with (IZR z)]; try lra; unfold Rdiv; rewrite Rmult_assoc, Rinv_l by lra; [lra|].
    assert ((IZR z + 1) * bin_size <= 2 * bin_size * IZR z); [|lra]. replace (2 * bin_size * IZR z) with ((2 * IZR z) * bin_size) by ring. apply Rmult_le_compat_r; lra.
Qed.
Example C68_bins_case : (0 < 250 / 100 /\ 0 < 1 <= 250 / 100 - 0). Proof. lra. Qed.

Example C68_example : exists p, purity_of [fun _ => true] None None 2 1 [[PTrack (Some (1, 0)) true (0, 0); PTrack (Some (5, 0)) true (0, 0)]; [PTrack (Some (1, 1)) true (1, 0); PTrack None true (3, 3)]] = Some p /\
  plot_total p = [3%nat] /\ plot_pure p = [2%nat] /\ plot_purity p = [66%Z].
Proof.
  set (c1 := [_; _] : list ptrack). set (c2 := [PTrack (Some (1, 1)) true (1, 0); PTrack None true (3, 3)]).
  assert (D1 : Rltb (distance (0, 0) (1, 0)) 2 = true). { apply Rltb_true. unfold distance. cbn. replace ((0 - 1) * ((0 - 1) * 1) * 1 + (0 - 0) * ((0 - 0) * 1) * 1) with 1 by ring. rewrite sqrt_1. lra. }
  assert (D2 : Rltb (distance (1, 0) (1, 1)) 2 = true). { apply Rltb_true. unfold distance. cbn. replace ((1 - 1) * ((1 - 1) * 1) * 1 + (0 - 1) * ((0 - 1) * 1) * 1) with 1 by ring. rewrite sqrt_1. lra. }
  assert (D3 : Rltb (distance (0, 0) (5, 0)) 2 = false). { apply Rltb_false. unfold distance. cbn. replace ((0 - 5) * ((0 - 5) * 1) * 1 + (0 - 0) * ((0 - 0) * 1) * 1) with (5 * 5) by ring. rewrite sqrt_square; lra. }
  assert (O : Reqb 1 0 = false) by (apply Reqb_false; lra).
  assert (U : used None None 2 c1 = true /\ used None None 2 c2 = true).
  { unfold used, pure_hits, any_nonzero, c1, c2. cbn. rewrite D1, D2, D3. cbn. rewrite O. auto. }
  assert (P : purity_percent 3 2 = 66%Z).
  { unfold purity_percent. cbn [Nat.eqb]. rewrite !INR_IZR_INZ. cbn [Z.of_nat Pos.of_succ_nat Pos.succ]. apply Z.le_antisymm; [|apply floor_ge; lra]. assert (Int_part (2 / 3 * 100) < 67)%Z; [|lia]. apply floor_lt. lra. }
  assert (H : purity_hists [fun _ => true] None None 2 [c1; c2] = ([3%nat], [2%nat])).
  { rewrite hists_spec. cbn [filter]. destruct U as [-> ->]. unfold c1, c2, pureb, has_hit. cbn. rewrite D1, D2, D3. reflexivity. }
  exists (PurityPlot [3%nat] [2%nat] [66%Z]). unfold purity_of. rewrite H. cbn [fst snd combine map]. rewrite P. cbn. auto.
Qed.

Print Assumptions C68_histograms.
Print Assumptions C68_purity.
Print Assumptions C68_truncated_refuted.
Print Assumptions C68_centre_refuted.
Print Assumptions C68_cut_refuted.
Print Assumptions C68_call.
Print Assumptions C68_returns_refuted.
Print Assumptions C68_bins.
