(** C143: pages of calculate_residuals with distributions of residuals. *)
From Coq Require Import List Arith ZArith Reals Bool Lra Lia.
From Verif Require Import GeometryModel GeometryProofs CorrelateModel PrealignModel PrealignProps CorrelateBinsProps RunningMeanModel RunningMeanProps TrackAngleModel ResidualsModel FitResidualsModel FitResidualsProps DensityModel HoughPlotProps Chi2PlotModel Chi2PlotProps ResidualPlotModel.
Import ListNotations.
Local Open Scope R_scope.

(** * Specification *)
(** the rectangle from (left, 0) to (right, height), drawn as bar (centre, width, height) *)
Definition is_rectangle (bar : R * R * option R) (left right height : R) : Prop := let '(c, w, h) := bar in c - w / 2 = left /\ c + w / 2 = right /\ h = Some height.
(** edges of n bins of equal width *)
Definition equal_bins (edges : list R) (n : nat) (a w : R) : Prop := (1 <= n)%nat /\ 0 < w /\ length edges = S n /\ forall k, (k <= n)%nat -> nth k edges 0 = a + INR k * w.
(** v is in the k-th of n bins of equal width; the last bin has an upper edge *)
Definition in_equal_bin (n : nat) (a w : R) (k : nat) (v : R) : Prop := a + INR k * w <= v /\ (v < a + INR (S k) * w \/ (S k = n /\ v = a + INR n * w)).
(** exactly n elements of the list have the property *)
Inductive so_many {A} (P : A -> Prop) : list A -> nat -> Prop :=
| so_nil : so_many P [] 0
| so_yes a l n : P a -> so_many P l n -> so_many P (a :: l) (S n)
| so_no a l n : ~ P a -> so_many P l n -> so_many P (a :: l) n.
(** centre of the k-th bin *)
Definition centre (edges : list R) (k : nat) : R := (nth k edges 0 + nth (S k) edges 0) / 2.

(** * Proofs *)
Lemma so_many_filter {A} (P : A -> Prop) f l : (forall a, In a l -> (f a = true <-> P a)) -> so_many P l (length (filter f l)).
Proof.
  induction l as [|a l IH]; intros H; [constructor|]. cbn [filter]. specialize (IH (fun b B => H b (or_intror B))). destruct (f a) eqn:E; cbn [length].
  - apply so_yes; [apply (H a (or_introl eq_refl)); exact E|exact IH].
  - apply so_no; [intros Q; apply (H a (or_introl eq_refl)) in Q; congruence|exact IH].
Qed.
Lemma last_nth_ (l : list R) : l <> [] -> last l 0 = nth (length l - 1) l 0.
Proof.
  intros N. destruct (exists_last N) as (u & x & ->). rewrite last_last, app_length. cbn [length]. rewrite app_nth2 by lia. replace (length u + 1 - 1 - length u)%nat with 0%nat by lia. reflexivity.
Qed.
Lemma centers_length edges n : length edges = S n -> length (bin_centers edges) = n.
Proof. intros L. unfold bin_centers, n_edge_bins. rewrite map_length, seq_length. lia. Qed.
Lemma page_exists counts edges fit g : length edges = S (length counts) ->
  match residual_page_of counts edges fit g with
  | None => forall c, In c counts -> c = 0%nat
  | Some p => (exists c, In c counts /\ c <> 0%nat) /\ on_log_scale p = g /\ page_bars p = hist_bars (counts, edges) /\ x_limits p = (nth 0 edges 0, last edges 0) /\
      y_limits p = (if g then Some (1, log_top counts) else None) /\
      legend p = (if any fit then match get_rms_from_histogram counts (bin_centers edges) with Some r => Some (list_sum counts, r) | None => None end else None) /\
      curve p = (if any fit then map (fun x => (x, curve_value fit x)) (curve_positions edges) else [])
  end.
Proof.
  intros L. pose proof (centers_length _ _ L) as Lb. destruct (C95_mean counts (bin_centers edges) (eq_sym Lb)) as (M & _). unfold residual_page_of.
  destruct (get_mean_from_histogram counts (bin_centers edges)) as [m|] eqn:E; [|exact (proj1 M eq_refl)].
  assert (Nz : exists c, In c counts /\ c <> 0%nat).
  { clear - M. induction counts as [|c cs IH]; [discriminate (proj2 M (fun c H => match H with end))|]. destruct (Nat.eq_dec c 0) as [->|N]; [|exists c; split; [left; reflexivity|exact N]].
    destruct IH as (d & D & N); [|exists d; split; [right; exact D|exact N]]. split; [discriminate|]. intros H. apply M. intros d [<-|D]; [reflexivity|apply H, D]. }
  destruct (get_rms_from_histogram counts (bin_centers edges)) as [s|] eqn:Es.
  - split; [exact Nz|]. repeat split.
  - exfalso. rewrite get_mean_eq in E by (symmetry; exact Lb). unfold get_rms_from_histogram in Es. destruct (repeated counts (bin_centers edges)); discriminate.
Qed.
Lemma hist_bars_nth counts edges i c : nth_error counts i = Some c -> exists b, nth_error (hist_bars (counts, edges)) i = Some b /\ is_rectangle b (nth i edges 0) (nth (S i) edges 0) (INR c).
Proof.
  intros H. assert (I : (i < length counts)%nat) by (apply nth_error_Some; congruence). unfold hist_bars, bars. cbn [fst snd]. rewrite map_length, nth_error_map, (nth_error_nth' _ 0%nat), seq_nth by (rewrite ?seq_length; exact I). cbn [option_map Nat.add].
  eexists. split; [reflexivity|]. unfold is_rectangle. split; [lra|]. split; [lra|]. apply nth_error_nth. rewrite nth_error_map, H. reflexivity.
Qed.
Lemma list_max_ge l c : In c l -> (c <= List.list_max l)%nat.
Proof. intros H. assert (F := proj1 (list_max_le l (List.list_max l)) (Nat.le_refl _)). rewrite Forall_forall in F. exact (F c H). Qed.
Lemma log_top_ge counts c : In c counts -> 10 * INR c <= log_top counts.
Proof.
  intros H. unfold log_top. rewrite mult_IZR. pose proof (ceil_spec (INR (List.list_max counts) / 10)) as (A & _). assert (B := le_INR _ _ (list_max_ge _ _ H)). lra.
Qed.

(** There are two pages, the second one with a logarithmic scale, unless all bins are empty.  On both pages the bar of each bin covers exactly the bin and has the height of its content; the x axis is the
    range of the histogram; on the second page every bar ends within the axis. *)
Theorem C143_pages counts edges fit : length edges = S (length counts) ->
  (plot_residuals counts edges fit = None <-> forall c, In c counts -> c = 0%nat) /\
  forall p q, plot_residuals counts edges fit = Some (p, q) ->
    on_log_scale p = false /\ on_log_scale q = true /\ y_limits p = None /\
    (exists top, y_limits q = Some (1, top) /\ forall c, In c counts -> 10 * INR c <= top) /\
    forall page, page = p \/ page = q ->
      x_limits page = (nth 0 edges 0, nth (length counts) edges 0) /\ length (page_bars page) = length counts /\
      forall i c, nth_error counts i = Some c -> exists b, nth_error (page_bars page) i = Some b /\ is_rectangle b (nth i edges 0) (nth (S i) edges 0) (INR c).
Proof.
  intros L. pose proof (page_exists counts edges fit false L) as A. pose proof (page_exists counts edges fit true L) as B. unfold plot_residuals.
  destruct (residual_page_of counts edges fit false) as [p0|], (residual_page_of counts edges fit true) as [q0|].
  - destruct A as ((c0 & C0 & N0) & A1 & A2 & A3 & A4 & _), B as (_ & B1 & B2 & B3 & B4 & _). split; [split; [discriminate|intros H; destruct N0; exact (H c0 C0)]|].
    intros p q E. injection E as <- <-. split; [exact A1|]. split; [exact B1|]. split; [exact A4|]. split; [exists (log_top counts); split; [exact B4|intros c; apply log_top_ge]|].
    assert (Ll : last edges 0 = nth (length counts) edges 0). { rewrite last_nth_ by (intros Z; rewrite Z in L; discriminate). rewrite L. f_equal. lia. }
    assert (Lh : length (hist_bars (counts, edges)) = length counts) by (unfold hist_bars, bars; cbn [fst snd]; rewrite !map_length, seq_length; reflexivity).
    intros page [-> | ->].
    + rewrite A2, A3, Ll. split; [reflexivity|]. split; [exact Lh|]. intros i c. apply hist_bars_nth.
    + rewrite B2, B3, Ll. split; [reflexivity|]. split; [exact Lh|]. intros i c. apply hist_bars_nth.
  - destruct A as ((c0 & C0 & N0) & _). destruct N0. exact (B c0 C0).
  - destruct B as ((c0 & C0 & N0) & _). destruct N0. exact (A c0 C0).
  - split; [split; [intros _; exact A|reflexivity]|discriminate].
Qed.

(** The pages of the residuals d: each bar shows the number of residuals in its bin; the legend shows their number and an RMS which differs from that of the residuals by less than half of the width of a bin. *)
Theorem C143_residuals edges d w fit p q : increasing edges -> (2 <= length edges)%nat -> (forall i, (S i < length edges)%nat -> nth (S i) edges 0 - nth i edges 0 <= w) -> d <> [] ->
  (forall x, In x d -> nth 0 edges 0 <= x <= nth (length edges - 1) edges 0) ->
  plot_residuals (histogram edges (map Some d)) edges fit = Some (p, q) -> forall page, page = p \/ page = q ->
  (forall i, (S i < length edges)%nat -> exists n b, nth_error (page_bars page) i = Some b /\ is_rectangle b (nth i edges 0) (nth (S i) edges 0) (INR n) /\
    so_many (fun x => nth i edges 0 <= x /\ (x < nth (S i) edges 0 \/ (S (S i) = length edges /\ x = nth (S i) edges 0))) d n) /\
  (legend page = None <-> forall v, In v fit -> v = 0) /\
  forall n rms, legend page = Some (n, rms) -> n = length d /\ Rabs (rms - sqrt (sum (map (fun x => (x - sum d / INR (length d)) ^ 2) d) / INR (length d))) <= w / 2.
Proof.
  intros I L W N H E page P. set (h := histogram edges (map Some d)) in *. assert (Lh : length h = n_edge_bins edges) by (unfold h; apply histogram_length). unfold n_edge_bins in Lh.
  assert (Le : length edges = S (length h)) by lia. destruct (C143_pages h edges fit Le) as (_ & C). destruct (C p q E) as (_ & _ & _ & _ & F). destruct (F page P) as (_ & _ & G). clear C F.
  destruct (C95_binned edges d w I L W N H) as (m & s & Em & Es & _ & Bs). fold h in Em, Es.
  assert (Nd : not_nan (map Some d) = d). { clear. induction d as [|x d IH]; [reflexivity|]. unfold not_nan in *. cbn. f_equal. exact IH. }
  assert (T : list_sum h = length d).
  { rewrite <- (repeated_length h (bin_centers edges)) by (rewrite (centers_length edges (length h) Le); reflexivity).
    destruct (histogram_repeated edges d w I L W H) as (l & Pm & Fa). fold h in Pm. rewrite (Permutation.Permutation_length Pm). clear -Fa. induction Fa; cbn; congruence. }
  assert (Leg : legend page = if any fit then Some (length d, s) else None).
  { pose proof (page_exists h edges fit false Le) as A. pose proof (page_exists h edges fit true Le) as B. unfold plot_residuals in E. destruct (residual_page_of h edges fit false) as [p0|]; [|discriminate].
    destruct (residual_page_of h edges fit true) as [q0|]; [|discriminate]. injection E as <- <-. rewrite Es, T in A, B. destruct P as [-> | ->]; [destruct A as (_ & _ & _ & _ & _ & A & _); exact A|destruct B as (_ & _ & _ & _ & _ & B & _); exact B]. }
  split; [|split].
  - intros i Hi. pose proof (histogram_nth edges (map Some d) i) as Hn. fold h in Hn. rewrite Nd in Hn. specialize (Hn ltac:(unfold n_edge_bins; lia)). destruct (G i _ Hn) as (b & Hb & Rb). eexists. exists b. split; [exact Hb|]. split; [exact Rb|].
    apply so_many_filter. intros x _. rewrite in_bin_spec. split; [intros (_ & K); exact K|intros K; split; [exact Hi|exact K]].
  - rewrite Leg. destruct (any fit) eqn:Ea; split; try discriminate; try reflexivity.
    + intros Z. exfalso. apply existsb_exists in Ea. destruct Ea as (v & V & Q). rewrite (Z v V) in Q. assert (Reqb 0 0 = true) by (apply Reqb_true; reflexivity). rewrite H0 in Q. discriminate.
    + intros _ v V. destruct (Req_dec v 0) as [|Q]; [assumption|]. exfalso. assert (any fit = true); [|congruence]. apply existsb_exists. exists v. split; [exact V|]. destruct (Reqb v 0) eqn:Z; [apply Reqb_true in Z; contradiction|reflexivity].
  - intros n rms. rewrite Leg. destruct (any fit); [|discriminate]. intros Q. injection Q as <- <-. split; [reflexivity|exact Bs].
Qed.

Lemma list_min_first e es : increasing (e :: es) -> list_min e es = e.
Proof.
  intros I. destruct (list_min_spec es e) as ([A|A] & B & _); [exact A|]. destruct (In_nth _ _ 0 A) as (k & K & E). pose proof (increasing_le _ I 0 (S k) ltac:(lia) ltac:(cbn; lia)) as Q. cbn [nth] in Q. lra.
Qed.
Lemma list_max_last e es : increasing (e :: es) -> list_max e es = last (e :: es) 0.
Proof.
  intros I. rewrite last_nth_ by discriminate. destruct (list_max_spec es e) as (A & B & C). cbn [length]. replace (S (length es) - 1)%nat with (length es) by lia.
  assert (U : nth (length es) (e :: es) 0 <= list_max e es). { destruct es as [|f es]; [exact B|]. apply C. change (nth (length (f :: es)) (e :: f :: es) 0) with (nth (length es) (f :: es) 0). apply nth_In. cbn. lia. }
  assert (V : list_max e es <= nth (length es) (e :: es) 0).
  { destruct A as [-> |A]; [change e with (nth 0 (e :: es) 0) at 1; apply (increasing_le _ I); cbn; lia|]. destruct (In_nth _ _ 0 A) as (k & K & E). rewrite <- E. change (nth k es 0) with (nth (S k) (e :: es) 0). apply (increasing_le _ I); cbn; lia. }
  lra.
Qed.
Lemma positions_cover edges x : increasing edges -> (2 <= length edges)%nat -> nth 0 edges 0 <= x <= last edges 0 - 1 / 10 -> exists u, In u (curve_positions edges) /\ u <= x < u + 1 / 10.
Proof.
  intros I L H. destruct edges as [|e es]; [cbn in L; lia|]. unfold curve_positions. rewrite (list_min_first _ _ I), (list_max_last _ _ I). cbn [nth] in H. set (b := last (e :: es) 0) in *.
  pose proof (floor_spec e) as (F1 & F2). pose proof (ceil_spec b) as (G1 & G2). set (lo := IZR (Int_part e)) in *. set (hi := IZR (ceil b)) in *. set (z := (x - lo) / (1 / 10)). assert (Z0 : 0 <= z) by (unfold z; lra).
  pose proof (floor_spec z) as (K1 & K2). assert (Kn : (0 <= Int_part z)%Z). { apply Z.le_sub_0 || idtac. assert (IZR (-1) < IZR (Int_part z)) by (simpl; lra). apply lt_IZR in H0. lia. }
  exists (lo + INR (Z.to_nat (Int_part z)) * (1 / 10)). assert (Q : INR (Z.to_nat (Int_part z)) = IZR (Int_part z)) by (rewrite INR_IZR_INZ, Z2Nat.id by exact Kn; reflexivity). split.
  - apply in_map_iff. exists (Z.to_nat (Int_part z)). split; [reflexivity|]. apply in_seq. split; [lia|]. cbn [Nat.add]. apply Z2Nat.inj_lt; [exact Kn| |].
    + apply le_IZR. pose proof (ceil_spec ((hi - lo) / (1 / 10))). lra.
    + apply lt_IZR. pose proof (ceil_spec ((hi - lo) / (1 / 10))) as (C1 & _). apply Rlt_le_trans with ((hi - lo) / (1 / 10)); [|exact C1]. apply Rle_lt_trans with z; [exact K1|]. unfold z. lra.
  - rewrite Q. unfold z in *. lra.
Qed.
(** The curve of the fit consists of points of the Gaussian with the fitted parameters, and between the first edge and 0.1 um below the last edge there is a point in every interval of 0.1 um. *)
Theorem C143_curve counts edges A mu sigma p q : increasing edges -> (2 <= length edges)%nat -> length edges = S (length counts) -> sigma <> 0 -> plot_residuals counts edges [A; mu; sigma] = Some (p, q) ->
  forall page, page = p \/ page = q ->
    (forall x y, In (x, y) (curve page) -> y = Some (A * exp (- (x - mu) ^ 2 / (2 * sigma ^ 2)))) /\
    forall x, nth 0 edges 0 <= x <= nth (length counts) edges 0 - 1 / 10 -> exists u y, In (u, y) (curve page) /\ u <= x < u + 1 / 10.
Proof.
  intros I L Le S E page P.
  assert (C : curve page = map (fun x => (x, curve_value [A; mu; sigma] x)) (curve_positions edges)).
  { assert (An : any [A; mu; sigma] = true). { apply existsb_exists. exists sigma. split; [right; right; left; reflexivity|]. destruct (Reqb sigma 0) eqn:Z; [apply Reqb_true in Z; contradiction|reflexivity]. }
    pose proof (page_exists counts edges [A; mu; sigma] false Le) as U. pose proof (page_exists counts edges [A; mu; sigma] true Le) as V. unfold plot_residuals in E. destruct (residual_page_of counts edges [A; mu; sigma] false) as [p0|]; [|discriminate].
    destruct (residual_page_of counts edges [A; mu; sigma] true) as [q0|]; [|discriminate]. injection E as <- <-. rewrite An in U, V. destruct P as [-> | ->]; [apply U|apply V]. }
  rewrite C. split.
  - intros x y Hi. apply in_map_iff in Hi. destruct Hi as (u & Hu & _). injection Hu as <- <-. unfold curve_value. destruct (Reqb sigma 0) eqn:Z; [apply Reqb_true in Z; contradiction|]. unfold gauss. do 3 f_equal. field. exact S.
  - intros x X. replace (nth (length counts) edges 0) with (last edges 0) in X. 2:{ rewrite last_nth_ by (intros Z; rewrite Z in L; cbn in L; lia). f_equal. lia. }
    destruct (positions_cover edges x I L X) as (u & U & Q). exists u, (curve_value [A; mu; sigma] u). split; [|exact Q]. apply in_map_iff. exists u. split; [reflexivity|exact U].
Qed.

(** The curve of a fitted box (sigma 0) with the width w has the height A inside the box and 0 outside; at the two edges it has no value. *)
Theorem C143_box counts edges A mu w p q : length edges = S (length counts) -> 0 < w -> plot_residuals counts edges [A; mu; 0; w] = Some (p, q) ->
  forall page x y, page = p \/ page = q -> In (x, y) (curve page) -> (Rabs (x - mu) < w / 2 -> y = Some A) /\ (w / 2 < Rabs (x - mu) -> y = Some 0) /\ (Rabs (x - mu) = w / 2 -> y = None).
Proof.
  intros Le W E page x y P Hi.
  assert (C : curve page = map (fun x => (x, curve_value [A; mu; 0; w] x)) (curve_positions edges)).
  { assert (An : any [A; mu; 0; w] = true). { apply existsb_exists. exists w. split; [right; right; right; left; reflexivity|]. destruct (Reqb w 0) eqn:Z; [apply Reqb_true in Z; lra|reflexivity]. }
    pose proof (page_exists counts edges [A; mu; 0; w] false Le) as U. pose proof (page_exists counts edges [A; mu; 0; w] true Le) as V. unfold plot_residuals in E. destruct (residual_page_of counts edges [A; mu; 0; w] false) as [p0|]; [|discriminate].
    destruct (residual_page_of counts edges [A; mu; 0; w] true) as [q0|]; [|discriminate]. injection E as <- <-. rewrite An in U, V. destruct P as [-> | ->]; [apply U|apply V]. }
  rewrite C in Hi. apply in_map_iff in Hi. destruct Hi as (u & Hu & _). injection Hu as <- <-. unfold curve_value. assert (Z : Reqb 0 0 = true) by (apply Reqb_true; reflexivity). rewrite Z.
  unfold erf_infinite, Rltb, Rabs. destruct (Rcase_abs (u - mu)); repeat destruct (Rlt_dec _ _); repeat split; intros H; try lra; try reflexivity; f_equal; lra.
Qed.

(** On the second page a bin with one residual cannot be told from an empty one: no part of its bar is above the lower end of the axis.  The bars of all bins with more residuals are seen. *)
Theorem C143_one_refuted counts edges fit p q : length edges = S (length counts) -> plot_residuals counts edges fit = Some (p, q) ->
  exists bottom top, y_limits q = Some (bottom, top) /\ forall i c, nth_error counts i = Some c -> exists b height, nth_error (page_bars q) i = Some b /\ is_rectangle b (nth i edges 0) (nth (S i) edges 0) height /\
    (c = 1%nat -> height <= bottom) /\ ((2 <= c)%nat -> bottom < height < top).
Proof.
  intros L E. destruct (C143_pages counts edges fit L) as (_ & C). destruct (C p q E) as (_ & _ & _ & (top & Et & T) & F). destruct (F q (or_intror eq_refl)) as (_ & _ & G). exists 1, top. split; [exact Et|].
  intros i c Hc. destruct (G i c Hc) as (b & Hb & Rb). exists b, (INR c). split; [exact Hb|]. split; [exact Rb|]. split; [intros ->; cbn; lra|]. intros Q. assert (2 <= INR c) by (apply (le_INR 2) in Q; cbn in Q; lra).
  pose proof (T c (nth_error_In _ _ Hc)). lra.
Qed.
(** If all residuals are in one bin, the drawn curve of the fit is zero everywhere, although the fit has the height of the bin. *)
Theorem C143_single_refuted fit counts edges i c : length edges = S (length counts) -> nth_error counts i = Some c -> (0 < c)%nat -> (forall j d, nth_error counts j = Some d -> j <> i -> d = 0%nat) ->
  exists p q, residual_pages fit counts edges = Some (p, q) /\ forall page x y, page = p \/ page = q -> In (x, Some y) (curve page) -> y = 0.
Proof.
  intros L Hi Hc H. unfold residual_pages. rewrite (C95_single_bin fit counts edges i c L Hi Hc H). set (f := [INR c; (nth (S i) edges 0 + nth i edges 0) / 2; 0]). destruct (C143_pages counts edges f L) as (M & _).
  destruct (plot_residuals counts edges f) as [(p, q)|] eqn:E. 2:{ exfalso. apply nth_error_In in Hi. rewrite (proj1 M eq_refl c Hi) in Hc. lia. }
  exists p, q. split; [reflexivity|]. intros page x y P I.
  assert (C : curve page = [] \/ curve page = map (fun x => (x, curve_value f x)) (curve_positions edges)).
  { pose proof (page_exists counts edges f false L) as U. pose proof (page_exists counts edges f true L) as V. unfold plot_residuals in E. destruct (residual_page_of counts edges f false) as [p0|]; [|discriminate].
    destruct (residual_page_of counts edges f true) as [q0|]; [|discriminate]. injection E as <- <-. destruct (any f); [right|left]; (destruct P as [-> | ->]; [apply U|apply V]). }
  destruct C as [C|C]; rewrite C in I; [destruct I|]. apply in_map_iff in I. destruct I as (u & Hu & _). injection Hu as <- Hv. unfold f, curve_value in Hv. assert (Z : Reqb 0 0 = true) by (apply Reqb_true; reflexivity). rewrite Z in Hv.
  destruct (Reqb u ((nth (S i) edges 0 + nth i edges 0) / 2)); [discriminate|]. injection Hv as <-. reflexivity.
Qed.

(** ** Residuals against positions *)
Lemma add_histogram2d xe ye a b : add_hist2d (histogram2d xe ye a) (histogram2d xe ye b) = histogram2d xe ye (a ++ b).
Proof.
  unfold add_hist2d, histogram2d. induction (seq 0 (n_edge_bins xe)) as [|i is IH]; [reflexivity|]. cbn [map combine fst snd]. rewrite IH. f_equal. unfold add_hist. clear. induction (seq 0 (n_edge_bins ye)) as [|j js IH]; [reflexivity|].
  cbn [map combine fst snd]. rewrite IH, filter_app, app_length. reflexivity.
Qed.
Lemma position_hist_concat xe ye cs : forall a, position_hist xe ye a cs = histogram2d xe ye (a ++ concat cs).
Proof.
  unfold position_hist. induction cs as [|c cs IH]; intros a; cbn [fold_left concat]; [now rewrite app_nil_r|]. rewrite add_histogram2d, IH, app_assoc. reflexivity.
Qed.
Lemma equal_in_bin edges n a w k v : equal_bins edges n a w -> (k < n)%nat -> (in_bin edges k v = true <-> in_equal_bin n a w k v).
Proof.
  intros (N & W & L & E) K. rewrite in_bin_spec, !E, L by lia. unfold in_equal_bin. split.
  - intros (_ & A & [B|(B & C)]); (split; [exact A|]); [left; exact B|right]. assert (n = S k) by lia. subst n. split; [reflexivity|exact C].
  - intros (A & [B|(B & C)]); (split; [lia|]); (split; [exact A|]); [left; exact B|right]. split; [lia|]. rewrite B. exact C.
Qed.
(** The image of the residuals against the positions shows, at a point inside of a cell, the number of tracks of all chunks with position and residual in the cell, and nothing if there are none. *)
Theorem C143_image sort fitg fitl xedges yedges nx ny ax ay wx wy first chunks count limit page : equal_bins xedges nx ax wx -> equal_bins yedges ny ay wy ->
  vs_position sort fitg fitl (position_hist xedges yedges first chunks) xedges yedges count limit = Some page ->
  forall i j x y, (i < nx)%nat -> (j < ny)%nat -> ax + INR i * wx <= x < ax + INR (S i) * wx -> ay + INR j * wy <= y < ay + INR (S j) * wy ->
  exists n, so_many (fun t => in_equal_bin nx ax wx i (fst t) /\ in_equal_bin ny ay wy j (snd t)) (concat (first :: chunks)) n /\ drawn_at (image page) x y = if (n =? 0)%nat then None else Some (INR n).
Proof.
  intros Ex Ey E i j x y I J X Y. unfold vs_position in E. destruct (fit_residuals_vs_position _ _ _ _ _ _ _ _) as [((f, sel), means)|]; [|discriminate]. injection E as <-. cbn [image plot_residuals_vs_position].
  exists (length (filter (fun p => in_bin xedges i (fst p) && in_bin yedges j (snd p)) (concat (first :: chunks)))). split.
  - apply so_many_filter. intros t _. rewrite andb_true_iff, (equal_in_bin _ _ _ _ _ _ Ex I), (equal_in_bin _ _ _ _ _ _ Ey J). reflexivity.
  - destruct Ex as (Nx & Wx & Lx & Ex), Ey as (Ny & Wy & Ly & Ey). unfold plot_residuals_vs_position. cbn [image].
    assert (lx : last xedges 0 = ax + INR nx * wx) by (rewrite last_nth_, Lx by (intros Z; rewrite Z in Lx; discriminate); replace (S nx - 1)%nat with nx by lia; apply Ex; lia).
    assert (ly : last yedges 0 = ay + INR ny * wy) by (rewrite last_nth_, Ly by (intros Z; rewrite Z in Ly; discriminate); replace (S ny - 1)%nat with ny by lia; apply Ey; lia).
    assert (fx : nth 0 xedges 0 = ax) by (rewrite Ex by lia; cbn [INR]; lra). assert (fy : nth 0 yedges 0 = ay) by (rewrite Ey by lia; cbn [INR]; lra).
    assert (Px : 0 < INR nx) by (apply lt_0_INR; lia). assert (Py : 0 < INR ny) by (apply lt_0_INR; lia). pose proof (Rmult_lt_0_compat _ _ Px Wx). pose proof (Rmult_lt_0_compat _ _ Py Wy).
    assert (bx : n_edge_bins xedges = nx) by (unfold n_edge_bins; lia). assert (by_ : n_edge_bins yedges = ny) by (unfold n_edge_bins; lia). rewrite S_INR in X, Y.
    erewrite drawn_cell with (i := i) (j := j); [|reflexivity|rewrite lx, fx; lra|rewrite ly, fy; lra|cbn [p_columns]; lia|cbn [p_rows]; lia| |].
    + cbn [p_image]. rewrite position_hist_concat. change (first ++ concat chunks) with (concat (first :: chunks)). unfold histogram2d, masked_count. rewrite bx, by_.
      match goal with |- context [nth j (nth i (map ?g (seq 0 nx)) []) 0%nat] => rewrite (nth_indep _ [] (g 0%nat)) by (rewrite map_length, seq_length; exact I); rewrite (map_nth g), seq_nth by exact I end. cbn [Nat.add].
      match goal with |- context [nth j (map ?g (seq 0 ny)) 0%nat] => rewrite (nth_indep _ 0%nat (g 0%nat)) by (rewrite map_length, seq_length; exact J); rewrite (map_nth g), seq_nth by exact J end. reflexivity.
    + cbn [p_columns]. rewrite bx, lx, fx. replace ((ax + INR nx * wx - ax) / INR nx) with wx by (field; lra). exact X.
    + cbn [p_rows]. rewrite by_, ly, fy. replace ((ay + INR ny * wy - ay) / INR ny) with wy by (field; lra). exact Y.
Qed.

Lemma scatter_selected (select : list bool) : forall (centers : list R) (count : list nat) (means : list (option R)), length centers = length select -> length count = length select ->
  map (fun r => (fst (fst (snd r)), match snd (snd r) with Some m => m | None => 0 end)) (filter (fun r => fst r && match snd (snd r) with Some _ => true | None => false end) (combine select (combine (combine centers count) means))) =
  scatter (map (fun sm => fst sm && match snd sm with Some _ => true | None => false end) (combine select means)) centers means.
Proof.
  induction select as [|s ss IH]; intros [|c cs] [|n ns] [|m ms] Lc Ln; try discriminate; try reflexivity. specialize (IH cs ns ms ltac:(cbn in Lc; lia) ltac:(cbn in Ln; lia)). unfold scatter in *. cbn [combine filter fst snd map flat_map].
  destruct s, m; cbn [andb map app fst snd]; rewrite IH; reflexivity.
Qed.
Lemma scatter_In select : forall centers means x v, In (x, v) (scatter select centers means) <-> exists i, nth_error select i = Some true /\ nth_error centers i = Some x /\ nth_error means i = Some (Some v).
Proof.
  unfold scatter. induction select as [|s ss IH]; intros [|c cs] [|m ms] x v; cbn [combine flat_map]; try (split; [intros []|intros ([|i] & A & B & C); discriminate]).
  rewrite in_app_iff, IH. split.
  - intros [H|(i & H)]; [|exists (S i); exact H]. destruct s; [|destruct H]. destruct m as [m|]; [|destruct H]. exists 0%nat. destruct H as [H|[]]. injection H as <- <-. repeat split.
  - intros ([|i] & A & B & C); [left|right; exists i; repeat split; assumption]. cbn in A, B, C. injection A as ->. injection B as ->. injection C as ->. left. reflexivity.
Qed.
(** The blue points of the page are the points of the fit of the line, which is drawn only if there are at least two; blue and red points together are the mean residuals of all bins of the position with
    tracks in the image, each at the centre of its bin; the vertical lines are the limits of the positions. *)
Theorem C143_points sort fitg fitl hist xedges yedges count limit page : length xedges = S (length count) -> length hist = length count ->
  (forall row, In row hist -> length yedges = S (length row)) -> increasing yedges -> vs_position sort fitg fitl hist xedges yedges count limit = Some page ->
  (fit_line page = None <-> (length (blue page) < 2)%nat) /\ (forall r, fit_line page = Some r -> exists points, r = fitl points /\ map fst points = blue page) /\
  (forall x v, In (x, v) (blue page ++ red page) -> exists i row c, nth_error hist i = Some row /\ In c row /\ c <> 0%nat /\ x = centre xedges i) /\
  (forall i row c, nth_error hist i = Some row -> In c row -> c <> 0%nat -> exists v, In (centre xedges i, v) (blue page ++ red page)) /\
  (forall a b, limit = Some (Some a, Some b) -> limit_lines page = [a; b]) /\ (limit = None -> limit_lines page = []).
Proof.
  intros Lx Lh Ly Iy E. unfold vs_position in E. destruct (fit_residuals_vs_position sort fitg fitl hist xedges yedges count limit) as [((f, sel), means)|] eqn:F; [|discriminate]. injection E as <-. cbn [fit_line blue red limit_lines plot_residuals_vs_position].
  pose proof (centers_length _ _ Lx) as Lc.
  assert (M : forall i row, nth_error hist i = Some row -> exists m, nth_error means i = Some m /\ (m = None <-> forall c, In c row -> c = 0%nat)).
  { intros i row Hi. destruct (C95_means _ _ _ _ _ _ _ _ _ _ _ _ _ F Hi Iy (Ly row (nth_error_In _ _ Hi))) as (m & A & B & _). exists m. split; assumption. }
  destruct (C95_line _ _ _ _ _ _ _ _ _ _ _ Lx Lh F) as (Ls & Lm & _).
  assert (Cn : forall i x, nth_error (bin_centers xedges) i = Some x -> x = centre xedges i).
  { intros i x Hx. unfold bin_centers in Hx. rewrite nth_error_map in Hx. destruct (nth_error (seq 0 (n_edge_bins xedges)) i) as [k|] eqn:K; [|discriminate]. injection Hx as <-.
    assert (Hk : (i < n_edge_bins xedges)%nat) by (rewrite <- (seq_length (n_edge_bins xedges) 0); apply nth_error_Some; congruence). rewrite (nth_error_nth' _ 0%nat) in K by (rewrite seq_length; exact Hk). rewrite seq_nth in K by exact Hk. injection K as <-. unfold centre. cbn [Nat.add]. lra. }
  unfold fit_residuals_vs_position in F. destruct (select_bins sort (bin_centers xedges) count limit) as [sel0|] eqn:Es; [|discriminate].
  set (ms := mean_fits fitg hist yedges) in F. set (pts := line_points (bin_centers xedges) ms count sel0) in F.
  assert (F1 := f_equal (fun o => match o with Some (x, _, _) => x | None => None end) F). assert (F2 := f_equal (fun o => match o with Some (_, x, _) => x | None => [] end) F). assert (F3 := f_equal (fun o => match o with Some (_, _, x) => x | None => [] end) F). cbv beta iota in F1, F2, F3. clear F.
  assert (L0 : length sel0 = length count).
  { unfold select_bins in Es. destruct limit as [(lo, hi)|]; [injection Es as <-; rewrite map_length, combine_length, seq_length; lia|]. destruct (percentile _ _ _); [|discriminate]. injection Es as <-. rewrite map_length. reflexivity. }
  assert (B : map fst pts = scatter sel (bin_centers xedges) means).
  { rewrite <- F2, <- F3. rewrite <- (scatter_selected sel0 (bin_centers xedges) count ms) by lia. unfold pts, line_points. rewrite map_map. reflexivity. }
  split; [|split; [|split; [|split; [|split]]]].
  - rewrite <- B, map_length, <- F1. destruct (Nat.ltb_spec 1 (length pts)); split; try discriminate; try reflexivity; intros; lia.
  - intros r Hr. exists pts. split; [|exact B]. rewrite <- F1 in Hr. destruct (1 <? length pts)%nat; [injection Hr as <-; reflexivity|discriminate].
  - intros x v H. rewrite in_app_iff, !scatter_In in H. assert (Q : exists i, nth_error (bin_centers xedges) i = Some x /\ nth_error means i = Some (Some v)) by (destruct H as [(i & _ & A & C)|(i & _ & A & C)]; exists i; split; assumption).
    destruct Q as (i & A & C). destruct (nth_error hist i) as [row|] eqn:Hr. 2:{ exfalso. apply nth_error_None in Hr. assert (i < length means)%nat by (apply nth_error_Some; congruence). lia. }
    destruct (M i row Hr) as (m & Hm & Mm). rewrite C in Hm. injection Hm as <-. exists i, row. clear - Mm A Cn Hr.
    assert (Z : exists c, In c row /\ c <> 0%nat).
    { clear - Mm. induction row as [|c cs IH]; [discriminate (proj2 Mm (fun c H => match H with end))|]. destruct (Nat.eq_dec c 0) as [->|N]; [|exists c; split; [left; reflexivity|exact N]].
      destruct IH as (d & D & N); [|exists d; split; [right; exact D|exact N]]. split; [discriminate|]. intros H. apply Mm. intros d [<-|D]; [reflexivity|apply H, D]. }
    destruct Z as (c & Z1 & Z2). exists c. split; [exact Hr|]. split; [exact Z1|]. split; [exact Z2|]. exact (Cn i x A).
  - intros i row c Hr Hc Nc. destruct (M i row Hr) as ([v|] & Hm & Mm). 2:{ destruct Nc. exact (proj1 Mm eq_refl c Hc). } exists v. assert (Hi : (i < length count)%nat) by (rewrite <- Lh; apply nth_error_Some; congruence).
    destruct (nth_error (bin_centers xedges) i) as [x|] eqn:Hx. 2:{ apply nth_error_None in Hx. lia. } rewrite <- (Cn i x Hx). rewrite in_app_iff, !scatter_In. destruct (nth_error sel i) as [[|]|] eqn:Hs.
    + left. exists i. repeat split; assumption.
    + right. exists i. split; [rewrite nth_error_map, Hs; reflexivity|]. split; assumption.
    + apply nth_error_None in Hs. lia.
  - intros a b ->. reflexivity.
  - intros ->. reflexivity.
Qed.

(** * Concrete cases *)
Lemma case_bins : equal_bins [0; 1; 2] 2 0 1.
Proof. split; [lia|]. split; [lra|]. split; [reflexivity|]. intros [|[|[|k]]] K; cbn [nth INR]; try lra. lia. Qed.
Lemma case_increasing : increasing [0; 1; 2].
Proof. intros [|[|i]] H; cbn in *; try lra; lia. Qed.
(** Three residuals in two bins: the hypotheses of the theorems on the pages are met. *)
Example C143_case : exists p q, plot_residuals (histogram [0; 1; 2] (map Some [1 / 2; 3 / 2; 2])) [0; 1; 2] [2; 1; 1] = Some (p, q) /\ increasing [0; 1; 2] /\ forall x, In x [1 / 2; 3 / 2; 2] -> nth 0 [0; 1; 2] 0 <= x <= nth 2 [0; 1; 2] 0.
Proof.
  assert (H : histogram [0; 1; 2] (map Some [1 / 2; 3 / 2; 2]) = [1; 2]%nat).
  { unfold histogram, not_nan. cbn [map flat_map app n_edge_bins length Nat.sub seq filter].
    assert (A : forall i x b, (in_bin [0; 1; 2] i x = true <-> b = true) -> in_bin [0; 1; 2] i x = b) by (intros i x [|] Q; [apply Q; reflexivity|destruct (in_bin [0; 1; 2] i x); [discriminate (proj1 Q eq_refl)|reflexivity]]).
    rewrite (A 0%nat (1 / 2) true), (A 0%nat (3 / 2) false), (A 0%nat 2 false), (A 1%nat (1 / 2) false), (A 1%nat (3 / 2) true), (A 1%nat 2 true); [reflexivity|..]; rewrite in_bin_spec; cbn [nth length];
      (split; intros Q; [first [reflexivity | exfalso; destruct Q as (_ & Q1 & [Q2|(Q2 & _)]); [lra|lia]  | exfalso; destruct Q as (_ & Q1 & [Q2|(_ & Q2)]); lra] | first [discriminate | split; [lia|split; [lra|first [left; lra | right; split; [reflexivity|lra]]]]]]). }
  rewrite H. destruct (C143_pages [1; 2]%nat [0; 1; 2] [2; 1; 1] eq_refl) as (M & _). destruct (plot_residuals [1; 2]%nat [0; 1; 2] [2; 1; 1]) as [(p, q)|].
  - exists p, q. split; [reflexivity|]. split; [exact case_increasing|]. intros x [<-|[<-|[<-|[]]]]; cbn [nth]; lra.
  - discriminate (proj1 M eq_refl 1%nat (or_introl eq_refl)).
Qed.
(** Two bins of the position with limits: a page exists. *)
Example C143_points_case sort fitg fitl : exists page, vs_position sort fitg fitl (position_hist [0; 1; 2] [0; 1; 2] [(1 / 2, 1 / 2)] [[(3 / 2, 1 / 2)]]) [0; 1; 2] [0; 1; 2] [1; 1]%nat (Some (Some 0, Some 2)) = Some page /\ limit_lines page = [0; 2].
Proof. unfold vs_position, fit_residuals_vs_position, select_bins. eexists. split; reflexivity. Qed.

Print Assumptions C143_pages.
Print Assumptions C143_residuals.
Print Assumptions C143_curve.
Print Assumptions C143_box.
Print Assumptions C143_one_refuted.
Print Assumptions C143_single_refuted.
Print Assumptions C143_image.
Print Assumptions C143_points.
