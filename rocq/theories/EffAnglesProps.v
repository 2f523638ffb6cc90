(** C146: the histograms of track angles of calculate_efficiency: stored entries and edges, and their pages. *)
From Coq Require Import List Arith Reals Bool Lia Lra.
From Verif Require Import GeometryModel GeometryProofs PrealignModel HoughProps RunningMeanModel RunningMeanProps TrackAngleModel TrackAngleProps AngleFileModel AngleFileProps ResidualsModel AnglePlotModel EffAnglesModel.
Import ListNotations.
Local Open Scope R_scope.

(** *** Specification *)
(** n elements of the list satisfy P *)
Inductive exactly {T} (P : T -> Prop) : list T -> nat -> Prop :=
| exactly_nil : exactly P [] 0
| exactly_yes x l n : P x -> exactly P l n -> exactly P (x :: l) (S n)
| exactly_no x l n : ~ P x -> exactly P l n -> exactly P (x :: l) n.
(** x is in bin i: the last bin includes its upper edge *)
Definition bin_has (edges : list R) (i : nat) (x : R) : Prop := nth i edges 0 <= x /\ (x < nth (S i) edges 0 \/ S (S i) = length edges /\ x = nth (S i) edges 0).
(** h is the histogram of the angle a of the tracks with P of all chunks, with edges in units of 1 / unit rad *)
Definition histogram_of (unit : R) (n : nat) (P : track -> Prop) (a : angle) (chunks : list (list track)) (h : hist) : Prop :=
  length (fst h) = n /\ length (snd h) = S n /\ increasing (snd h) /\
  forall i, (i < n)%nat -> exactly (fun t => P t /\ exists x, t_angle t a = Some x /\ bin_has (snd h) i (unit * x)) (concat chunks) (nth i (fst h) 0%nat).
(** one of the three histograms *)
Definition of (a : angle) (h : three) : hist := match a with Total => fst (fst h) | Alpha => snd (fst h) | Beta => snd h end.
Definition region_of (s : stored) (r : nat) : three := nth r (s_regions s) (([], []), ([], []), ([], [])).
(** the page shows the histogram: a bar from edge to edge for each bin, the position is multiplied by factor *)
Definition shows (factor : R) (height : nat -> option R) (h : hist) (bars : list angle_bar) : Prop :=
  length bars = length (fst h) /\
  forall i, (i < length (fst h))%nat -> nth_error bars i = Some (ABar (factor * nth i (snd h) 0) (factor * nth (S i) (snd h) 0) (height (nth i (fst h) 0%nat))).
Definition absolute (n : nat) : option R := Some (INR n).
Definition relative (h : hist) (n : nat) : option R := if (list_sum (fst h) =? 0)%nat then None else Some (INR n / INR (list_sum (fst h))).

(** *** Small facts *)
Definition spaced (edges : list R) (lo w : R) : Prop := 0 < w /\ forall i, (i < length edges)%nat -> nth i edges 0 = lo + INR i * w.
Lemma exactly_filter {T} (P : T -> Prop) (f : T -> bool) l : (forall x, f x = true <-> P x) -> exactly P l (length (filter f l)).
Proof.
  intros H. induction l as [|x l IH]; [constructor|]. cbn [filter]. destruct (f x) eqn:E; cbn [length]; [apply exactly_yes; [now apply H|exact IH]|apply exactly_no; [|exact IH]].
  intros K. apply H in K. congruence.
Qed.
Lemma exactly_iff {T} (P Q : T -> Prop) l n : (forall x, P x <-> Q x) -> exactly P l n -> exactly Q l n.
Proof. intros H E. induction E; [constructor|apply exactly_yes; [now apply H|assumption]|apply exactly_no; [|assumption]]. intros K. apply H in K. contradiction. Qed.
Lemma hist_inv n chunks h : angle_histogram n chunks = Some h ->
  (1 <= n)%nat /\ length (fst h) = n /\ length (snd h) = S n /\ (exists lo w, spaced (snd h) lo w) /\
  (forall i, (i < n)%nat -> nth i (fst h) 0%nat = length (filter (in_bin (snd h) i) (not_nan (concat chunks)))) /\ exists c cs, chunks = c :: cs /\ not_nan c <> [].
Proof.
  unfold angle_histogram. destruct chunks as [|c cs]; [discriminate|]. unfold angle_edges. destruct n as [|n]; [discriminate|]. destruct (not_nan c) as [|x l] eqn:N; [discriminate|].
  set (r := hist_range _ _). assert (Hr : fst r < snd r).
  { unfold r, hist_range. pose proof (std_pos (x :: l)). destruct (Reqb _ _) eqn:E; cbn [fst snd]; [apply Reqb_true in E; lra|]. apply Reqb_false in E. lra. }
  set (edges := linspace (fst r) (snd r) (S n + 1)). rewrite fold_hist. intros E. injection E as <-. cbn [fst snd].
  assert (L : length edges = S (S n)) by (unfold edges; rewrite linspace_length; lia). assert (B : n_edge_bins edges = S n) by (unfold n_edge_bins; lia).
  split; [lia|]. split; [unfold histogram; rewrite map_length, seq_length; exact B|]. split; [exact L|]. split.
  - exists (fst r), ((snd r - fst r) / INR (S n)). assert (0 < INR (S n)) by (apply lt_0_INR; lia). split; [apply Rdiv_lt_0_compat; lra|].
    intros i I. unfold edges. replace (S n + 1)%nat with (S (S n)) by lia. apply linspace_nth; lia.
  - split; [|exists c, cs; split; [reflexivity|congruence]]. intros i I. cbn [concat]. unfold histogram. rewrite B.
    rewrite (nth_indep _ 0%nat (length (filter (in_bin edges 0) (not_nan (c ++ concat cs))))) by (rewrite map_length, seq_length; exact I).
    rewrite (map_nth (fun i => length (filter (in_bin edges i) (not_nan (c ++ concat cs))))), seq_nth by exact I. reflexivity.
Qed.
Lemma spaced_increasing edges lo w : spaced edges lo w -> increasing edges.
Proof. intros [W H] i I. rewrite !H by lia. rewrite S_INR. lra. Qed.
Lemma mrad_nth l i : nth i (map mrad l) 0 = 1000 * nth i l 0.
Proof. transitivity (nth i (map mrad l) (mrad 0)); [f_equal; unfold mrad; ring|]. rewrite map_nth. unfold mrad. ring. Qed.
Lemma spaced_mrad edges lo w : spaced edges lo w -> spaced (map mrad edges) (1000 * lo) (1000 * w).
Proof. intros [W H]. split; [lra|]. intros i I. rewrite map_length in I. rewrite mrad_nth, H by exact I. ring. Qed.
Lemma chosen_concat p a chunks i edges : length (filter (in_bin edges i) (not_nan (concat (chosen p a chunks)))) =
  length (filter (fun t => p t && match t_angle t a with Some x => in_bin edges i x | None => false end) (concat chunks)).
Proof.
  unfold chosen. rewrite <- (map_map (filter p) (map (fun t => t_angle t a))). rewrite <- concat_map.
  assert (E : concat (map (filter p) chunks) = filter p (concat chunks)).
  { clear. induction chunks as [|c cs IH]; [reflexivity|]. cbn [map concat]. rewrite IH, filter_app. reflexivity. }
  rewrite E. clear E. induction (concat chunks) as [|t l IH]; [reflexivity|]. cbn [filter]. destruct (p t); cbn [andb map]; [|exact IH].
  cbn [not_nan flat_map]. fold (not_nan (map (fun t => t_angle t a) (filter p l))). destruct (t_angle t a) as [x|]; cbn [app filter]; [|exact IH].
  destruct (in_bin edges i x); cbn [length]; [f_equal|]; exact IH.
Qed.
Lemma three_inv n p chunks h a : three_hists n p chunks = Some h -> angle_histogram n (chosen p a chunks) = Some (of a h).
Proof. unfold three_hists. destruct (angle_histogram n (chosen p Total chunks)) eqn:A, (angle_histogram n (chosen p Alpha chunks)) eqn:B, (angle_histogram n (chosen p Beta chunks)) eqn:C; try discriminate. intros E. injection E as <-. destruct a; assumption. Qed.
Lemma three_histogram n p (P : track -> Prop) chunks h a : (forall t, p t = true <-> P t) -> three_hists n p chunks = Some h -> histogram_of 1 n P a chunks (of a h).
Proof.
  intros HP E. apply (three_inv _ _ _ _ a) in E. apply hist_inv in E. destruct E as (N & L1 & L2 & (lo & w & S) & C & _). split; [exact L1|]. split; [exact L2|]. split; [apply (spaced_increasing _ _ _ S)|].
  intros i I. rewrite (C i I), chosen_concat. apply exactly_filter. intros t. rewrite andb_true_iff, HP. split; intros [A B]; (split; [exact A|]).
  - destruct (t_angle t a) as [x|]; [|discriminate]. exists x. split; [reflexivity|]. apply in_bin_spec in B. rewrite Rmult_1_l. apply B.
  - destruct B as (x & -> & B). rewrite Rmult_1_l in B. apply in_bin_spec. split; [lia|exact B].
Qed.
Lemma converted_histogram n P a chunks h : histogram_of 1 n P a chunks h -> histogram_of 1000 n P a chunks (converted h).
Proof.
  intros (L1 & L2 & I & C). unfold converted. split; [exact L1|]. cbn [fst snd]. split; [rewrite map_length; exact L2|]. split.
  - intros i K. rewrite map_length in K. rewrite !mrad_nth. specialize (I i K). lra.
  - intros i K. eapply exactly_iff; [|apply (C i K)]. intros t. cbv beta. unfold bin_has. rewrite map_length.
    split; intros (A & x & X & B & D); (split; [exact A|]); exists x; (split; [exact X|]); rewrite !mrad_nth in *; (split; [lra|]); (destruct D as [D|[D D']]; [left; lra|right; split; [exact D|lra]]).
Qed.
Lemma all_of_spec {T} (l : list (option T)) m : all_of l = Some m <-> l = map Some m.
Proof.
  revert m. induction l as [|[x|] l IH]; intros m; cbn [all_of].
  - destruct m; split; intros E; try discriminate; reflexivity.
  - destruct (all_of l) as [k|] eqn:A.
    + split; intros E; [injection E as <-; cbn [map]; f_equal; now apply IH|]. destruct m as [|y m]; [discriminate|]. injection E as <- E. apply IH in E. injection E as <-. reflexivity.
    + split; intros E; [discriminate|]. destruct m as [|y m]; [discriminate|]. injection E as _ E. apply IH in E. discriminate.
  - split; intros E; [discriminate|]. destruct m; discriminate.
Qed.
Lemma centers_nth edges i : (i < n_edge_bins edges)%nat -> nth_error (bin_centers edges) i = Some ((nth (S i) edges 0 + nth i edges 0) / 2).
Proof. intros I. unfold bin_centers. rewrite nth_error_map, (nth_error_nth' _ 0%nat) by (rewrite seq_length; exact I). rewrite seq_nth by exact I. reflexivity. Qed.
Lemma page_ok r a edges heights lo w : (2 <= length heights)%nat -> length edges = S (length heights) -> spaced edges lo w ->
  exists l, page_of r a edges heights = Some (APage r a l) /\ length l = length heights /\
  forall i, (i < length heights)%nat -> nth_error l i = Some (ABar (nth i edges 0) (nth (S i) edges 0) (nth i heights None)).
Proof.
  intros N L [W S]. assert (B : n_edge_bins edges = length heights) by (unfold n_edge_bins; lia). unfold page_of.
  assert (LC : length (bin_centers edges) = length heights) by (unfold bin_centers; rewrite map_length, seq_length; exact B).
  assert (F : first_width (bin_centers edges) = Some w).
  { pose proof (centers_nth edges 0 ltac:(lia)) as C0. pose proof (centers_nth edges 1 ltac:(lia)) as C1. destruct (bin_centers edges) as [|x [|y c]]; cbn [nth_error] in *; try discriminate.
    injection C0 as ->. injection C1 as ->. cbn [first_width]. f_equal. rewrite !S by lia. cbn [INR]. field. }
  rewrite F, LC, Nat.eqb_refl. eexists. split; [reflexivity|]. split; [rewrite map_length, combine_length, LC; lia|]. intros i I. rewrite nth_error_map.
  assert (E : nth_error (combine (bin_centers edges) heights) i = Some ((nth (Datatypes.S i) edges 0 + nth i edges 0) / 2, nth i heights None)).
  { rewrite (nth_error_nth' _ (0, None)) by (rewrite combine_length, LC; lia). rewrite combine_nth by exact LC. f_equal. f_equal. apply nth_error_nth. apply centers_nth. lia. }
  rewrite E. cbn [option_map fst snd]. rewrite !S by lia. rewrite S_INR. do 2 f_equal; field.
Qed.
Lemma page_shows r a factor height h edges heights n lo w : (2 <= n)%nat -> length (fst h) = n -> length edges = S n -> spaced edges lo w -> (forall i, nth i edges 0 = factor * nth i (snd h) 0) ->
  heights = map height (fst h) -> exists l, page_of r a edges heights = Some (APage r a l) /\ shows factor height h l.
Proof.
  intros N L Le Sp F ->. destruct (page_ok r a edges (map height (fst h)) lo w) as (l & E & Ll & H); [rewrite map_length; lia|rewrite map_length; lia|exact Sp|].
  exists l. split; [exact E|]. rewrite map_length in *. split; [exact Ll|]. intros i I. rewrite H by exact I. rewrite !F. do 2 f_equal.
  rewrite (nth_indep _ None (height 0%nat)) by (rewrite map_length; exact I). apply map_nth.
Qed.
Lemma page_few r a edges heights : (length edges <= 2)%nat -> page_of r a edges heights = None.
Proof.
  intros L. unfold page_of. assert (E : first_width (bin_centers edges) = None).
  { assert (LC : (length (bin_centers edges) <= 1)%nat) by (unfold bin_centers, n_edge_bins; rewrite map_length, seq_length; lia). destruct (bin_centers edges) as [|x [|y c]]; cbn in *; try reflexivity; lia. }
  rewrite E. reflexivity.
Qed.
(** the three histograms after the conversion *)
Definition converted_three (h : three) : three := (converted (fst (fst h)), converted (snd (fst h)), converted (snd h)).
Lemma of_converted a h : of a (converted_three h) = converted (of a h).
Proof. destruct a; reflexivity. Qed.
Definition none : three := (([], []), ([], []), ([], [])).
Lemma regions_after l : forall r ps hs, regions_pages r l = Some (ps, hs) -> hs = map converted_three l.
Proof.
  induction l as [|h l IH]; intros r ps hs; cbn [regions_pages]; [intros E; injection E as _ <-; reflexivity|].
  unfold region_pages. destruct h as [[t a] b]. destruct (all_of _) as [p|]; [|discriminate]. destruct (regions_pages (S r) l) as [[ps' hs']|] eqn:E; [|discriminate].
  intros K. injection K as _ <-. cbn [map]. f_equal. apply (IH _ _ _ E).
Qed.
Definition in_region (r : nat) (t : track) : Prop := t_region t r = true /\ t_hit t = true.
Lemma run_inv n plot any k chunks pages s : efficiency_angles n plot any k chunks = Some (pages, s) ->
  exists regions, three_hists n t_hit chunks = Some (s_dut s) /\ length regions = k /\
  (forall r, (r < k)%nat -> three_hists n (fun t => t_region t r && t_hit t) chunks = Some (nth r regions none)) /\
  all_of (map (fun r => three_hists n (fun t => t_region t r && t_hit t) chunks) (seq 0 k)) = Some regions /\
  efficiency_plots plot any (s_dut s) regions = Some (pages, s_regions s).
Proof.
  unfold efficiency_angles. destruct (three_hists n t_hit chunks) as [dut|] eqn:D; [|discriminate]. destruct (all_of _) as [regions|] eqn:A; [|discriminate].
  destruct (efficiency_plots plot any dut regions) as [[ps hs]|] eqn:P; [|discriminate]. intros E. injection E as <- <-. exists regions. cbn [s_dut s_regions].
  pose proof (proj1 (all_of_spec _ _) A) as M. assert (L : length regions = k) by (apply (f_equal (@length _)) in M; rewrite !map_length, seq_length in M; congruence).
  split; [reflexivity|]. split; [exact L|]. split; [|split; [reflexivity|exact P]]. intros r I.
  assert (N : nth_error (map (fun r => three_hists n (fun t => t_region t r && t_hit t) chunks) (seq 0 k)) r = Some (three_hists n (fun t => t_region t r && t_hit t) chunks)).
  { rewrite nth_error_map, (nth_error_nth' _ 0%nat) by (rewrite seq_length; exact I). rewrite seq_nth by exact I. reflexivity. }
  rewrite M, nth_error_map, (nth_error_nth' _ none) in N by lia. injection N as N. symmetry. exact N.
Qed.
Lemma after_plots plot any dut regions pages hs : efficiency_plots plot any dut regions = Some (pages, hs) -> hs = if plot && any then map converted_three regions else regions.
Proof.
  unfold efficiency_plots. destruct plot; [|intros E; injection E as _ <-; reflexivity]. destruct (dut_pages dut) as [l|]; [|discriminate]. destruct any; [|intros E; injection E as _ <-; reflexivity].
  destruct (regions_pages 0 regions) as [[ps h]|] eqn:E; [|discriminate]. intros K. injection K as _ <-. apply (regions_after _ _ _ _ E).
Qed.
Lemma region_test r t : t_region t r && t_hit t = true <-> in_region r t.
Proof. apply andb_true_iff. Qed.

(** *** Theorems *)
(** The stored histograms of a DUT: entry i is the number of tracks with hit, of all chunks, whose angle (in rad) is in bin i of the stored edges. *)
Theorem C146_dut n plot any k chunks pages s a : efficiency_angles n plot any k chunks = Some (pages, s) -> histogram_of 1 n (fun t => t_hit t = true) a chunks (of a (s_dut s)).
Proof. intros E. destruct (run_inv _ _ _ _ _ _ _ E) as (regions & D & _). apply (three_histogram _ t_hit); [tauto|exact D]. Qed.
(** The stored histograms of a region: the same for the tracks of the region, but with edges in mrad if the pages of the regions were made, in rad otherwise. *)
Theorem C146_regions n plot any k chunks pages s : efficiency_angles n plot any k chunks = Some (pages, s) -> length (s_regions s) = k /\
  forall r a, (r < k)%nat -> histogram_of (if plot && any then 1000 else 1) n (in_region r) a chunks (of a (region_of s r)).
Proof.
  intros E. destruct (run_inv _ _ _ _ _ _ _ E) as (regions & D & L & H & _ & P). apply after_plots in P. unfold region_of. rewrite P. split; [destruct (plot && any); [rewrite map_length|]; exact L|].
  intros r a I. pose proof (three_histogram _ _ (in_region r) _ _ a (region_test r) (H r I)) as T. destruct (plot && any); [|exact T].
  change (([], []), ([], []), ([], [])) with (converted_three none). rewrite map_nth, of_converted. apply converted_histogram, T.
Qed.
(** One would expect that the output file does not depend on the plots: with the pages the stored edges of every histogram of every region differ from the edges which are stored without plots, the entries and the histograms of the DUT are the same. *)
Theorem C146_edges_refuted n k chunks pages s : efficiency_angles n true true k chunks = Some (pages, s) ->
  exists s', efficiency_angles n false true k chunks = Some ([], s') /\ s_dut s' = s_dut s /\
  forall r a, (r < k)%nat -> fst (of a (region_of s r)) = fst (of a (region_of s' r)) /\ snd (of a (region_of s r)) <> snd (of a (region_of s' r)).
Proof.
  intros E. destruct (run_inv _ _ _ _ _ _ _ E) as (regions & D & L & H & A & P). exists (Stored (s_dut s) regions). split; [unfold efficiency_angles; rewrite D, A; reflexivity|]. split; [reflexivity|].
  apply after_plots in P. cbn [andb] in P. unfold region_of. rewrite P. cbn [s_regions]. intros r a I.
  change (([], []), ([], []), ([], [])) with none. rewrite (nth_indep _ none (converted_three none)) by (rewrite map_length; lia). rewrite map_nth, of_converted. split; [reflexivity|]. unfold converted. cbn [snd]. intros C.
  pose proof (three_inv _ _ _ _ a (H r I)) as T. apply hist_inv in T. destruct T as (N & _ & L2 & (lo & w & W & S) & _).
  pose proof (f_equal (fun l => nth 0 l 0) C) as C0. pose proof (f_equal (fun l => nth 1 l 0) C) as C1. cbv beta in C0, C1. rewrite mrad_nth in C0, C1. rewrite S in C0, C1 by lia. cbn [INR] in C0, C1. lra.
Qed.
(** position of the page of an angle *)
Definition place (a : angle) : nat := match a with Total => 0 | Alpha => 1 | Beta => 2 end.
Lemma region_pages_ok n r h : (2 <= n)%nat -> (forall a, length (fst (of a h)) = n /\ length (snd (of a h)) = S n /\ exists lo w, spaced (snd (of a h)) lo w) ->
  exists ps, region_pages r h = Some (ps, converted_three h) /\ length ps = 3%nat /\
  forall a, exists l, nth_error ps (place a) = Some (APage (Some r) a l) /\ shows 1000 (relative (of a h)) (of a h) l.
Proof.
  intros N H. assert (Q : forall a, exists l, page_of (Some r) a (snd (converted (of a h))) (normalized_heights (fst (converted (of a h)))) = Some (APage (Some r) a l) /\ shows 1000 (relative (of a h)) (of a h) l).
  { intros a. destruct (H a) as (L1 & L2 & lo & w & S). unfold converted. cbn [fst snd]. apply (page_shows _ _ _ _ _ _ _ n (1000 * lo) (1000 * w)); [exact N|exact L1|rewrite map_length; exact L2|apply spaced_mrad, S|intros i; apply mrad_nth|].
    unfold normalized_heights, relative. apply map_ext. intros m. destruct (list_sum (fst (of a h))); reflexivity. }
  destruct h as [[t al] b]. destruct (Q Total) as (l1 & E1 & S1). destruct (Q Alpha) as (l2 & E2 & S2). destruct (Q Beta) as (l3 & E3 & S3). cbn [of fst snd] in E1, E2, E3.
  exists [APage (Some r) Total l1; APage (Some r) Alpha l2; APage (Some r) Beta l3]. unfold region_pages. unfold converted in E1, E2, E3. cbn [fst snd] in E1, E2, E3. unfold converted. cbn [fst snd all_of]. rewrite E1, E2, E3.
  split; [reflexivity|]. split; [reflexivity|]. intros [| |]; cbn [place nth_error]; eauto.
Qed.
Lemma regions_pages_ok n l : (2 <= n)%nat -> (forall h, In h l -> forall a, length (fst (of a h)) = n /\ length (snd (of a h)) = S n /\ exists lo w, spaced (snd (of a h)) lo w) ->
  forall r, exists ps, regions_pages r l = Some (ps, map converted_three l) /\ length ps = (3 * length l)%nat /\
  forall j a, (j < length l)%nat -> exists b, nth_error ps (3 * j + place a) = Some (APage (Some (r + j)%nat) a b) /\ shows 1000 (relative (of a (nth j l none))) (of a (nth j l none)) b.
Proof.
  intros N. induction l as [|h l IH]; intros H r; cbn [regions_pages].
  - exists []. split; [reflexivity|]. split; [reflexivity|]. cbn. lia.
  - destruct (region_pages_ok n r h N (H h (or_introl eq_refl))) as (p & -> & Lp & Hp). destruct (IH (fun h I => H h (or_intror I)) (S r)) as (ps & -> & Ls & Hs). exists (p ++ ps).
    split; [reflexivity|]. split; [rewrite app_length; cbn [length]; lia|]. intros [|j] a J.
    + destruct (Hp a) as (b & E & S). exists b. rewrite Nat.add_0_r. split; [|exact S]. rewrite nth_error_app1; [exact E|rewrite Lp; destruct a; cbn; lia].
    + cbn [length] in J. destruct (Hs j a ltac:(lia)) as (b & E & S). exists b. replace (r + Datatypes.S j)%nat with (Datatypes.S r + j)%nat by lia. split; [|exact S].
      rewrite nth_error_app2 by lia. rewrite Lp. replace (3 * Datatypes.S j + place a - 3)%nat with (3 * j + place a)%nat by lia. exact E.
Qed.
Lemma three_shape n p chunks h : three_hists n p chunks = Some h -> forall a, length (fst (of a h)) = n /\ length (snd (of a h)) = S n /\ exists lo w, spaced (snd (of a h)) lo w.
Proof. intros E a. apply (three_inv _ _ _ _ a), hist_inv in E. tauto. Qed.
Lemma dut_pages_ok n h : (2 <= n)%nat -> (forall a, length (fst (of a h)) = n /\ length (snd (of a h)) = S n /\ exists lo w, spaced (snd (of a h)) lo w) ->
  exists l1 l2 l3 l4, dut_pages h = Some [APage None Total l1; APage None Total l2; APage None Alpha l3; APage None Beta l4] /\
  shows 1000 absolute (of Total h) l1 /\ shows 1000000 absolute (of Total h) l2 /\ shows 1000 absolute (of Alpha h) l3 /\ shows 1000 absolute (of Beta h) l4.
Proof.
  intros N H. assert (Q : forall a, exists l, page_of None a (map mrad (snd (of a h))) (plain_heights (fst (of a h))) = Some (APage None a l) /\ shows 1000 absolute (of a h) l).
  { intros a. destruct (H a) as (L1 & L2 & lo & w & S). apply (page_shows _ _ _ _ _ _ _ n (1000 * lo) (1000 * w)); [exact N|exact L1|rewrite map_length; exact L2|apply spaced_mrad, S|intros i; apply mrad_nth|reflexivity]. }
  assert (Q2 : exists l, page_of None Total (map mrad (map mrad (snd (of Total h)))) (plain_heights (fst (of Total h))) = Some (APage None Total l) /\ shows 1000000 absolute (of Total h) l).
  { destruct (H Total) as (L1 & L2 & lo & w & S). apply (page_shows _ _ _ _ _ _ _ n (1000 * (1000 * lo)) (1000 * (1000 * w))); [exact N|exact L1|rewrite !map_length; exact L2|apply spaced_mrad, spaced_mrad, S|intros i; rewrite !mrad_nth; ring|reflexivity]. }
  destruct h as [[t al] b]. destruct (Q Total) as (l1 & E1 & S1). destruct Q2 as (l2 & E2 & S2). destruct (Q Alpha) as (l3 & E3 & S3). destruct (Q Beta) as (l4 & E4 & S4).
  exists l1, l2, l3, l4. split; [|auto]. unfold dut_pages. cbn [of fst snd] in *. cbn [all_of]. rewrite E1, E2, E3, E4. reflexivity.
Qed.
(** With at least two bins: the pages of the DUT and of its regions, with the histograms s of a run without plots: each page except for the second one has a bar in mrad from edge to edge for each bin,
    with its entries, for a region divided by their sum. *)
Theorem C146_pages n any k chunks p s : (2 <= n)%nat -> efficiency_angles n false any k chunks = Some (p, s) ->
  p = [] /\ exists pages s', efficiency_angles n true true k chunks = Some (pages, s') /\ length pages = (4 + 3 * k)%nat /\
  (exists l, nth_error pages 0 = Some (APage None Total l) /\ shows 1000 absolute (of Total (s_dut s)) l) /\
  (exists l, nth_error pages 2 = Some (APage None Alpha l) /\ shows 1000 absolute (of Alpha (s_dut s)) l) /\
  (exists l, nth_error pages 3 = Some (APage None Beta l) /\ shows 1000 absolute (of Beta (s_dut s)) l) /\
  forall r a, (r < k)%nat -> exists l, nth_error pages (4 + (3 * r + place a)) = Some (APage (Some r) a l) /\ shows 1000 (relative (of a (region_of s r))) (of a (region_of s r)) l.
Proof.
  intros N E. destruct (run_inv _ _ _ _ _ _ _ E) as (regions & D & L & H & A & P). cbn in P. injection P as <- P. split; [reflexivity|].
  destruct (dut_pages_ok n (s_dut s) N (three_shape _ _ _ _ D)) as (l1 & l2 & l3 & l4 & E1 & S1 & S2 & S3 & S4).
  destruct (regions_pages_ok n regions N) with (r := 0%nat) as (ps & E2 & Ls & Hs).
  { intros h I. apply (In_nth _ _ none) in I. destruct I as (r & I & <-). apply (three_shape n (fun t => t_region t r && t_hit t) chunks). apply H. lia. }
  eexists _, (Stored (s_dut s) (map converted_three regions)). split; [unfold efficiency_angles; rewrite D, A; unfold efficiency_plots; rewrite E1, E2; reflexivity|].
  split; [cbn [app length]; rewrite Ls; lia|]. split; [exists l1; auto|]. split; [exists l3; auto|]. split; [exists l4; auto|].
  intros r a I. destruct (Hs r a ltac:(lia)) as (b & Eb & Sb). exists b. unfold region_of. rewrite <- P. split; [exact Eb|exact Sb].
Qed.
(** The second page has the same title and the same label as the first one, "Total track angle distribution" and "Track angle [mrad]": its bars are at the angles in mrad times 1000, hence at wrong positions. *)
Theorem C146_second_refuted n any k chunks pages s : (2 <= n)%nat -> efficiency_angles n true any k chunks = Some (pages, s) ->
  exists l, nth_error pages 1 = Some (APage None Total l) /\ shows 1000000 absolute (of Total (s_dut s)) l /\ ~ shows 1000 absolute (of Total (s_dut s)) l.
Proof.
  intros N E. destruct (run_inv _ _ _ _ _ _ _ E) as (regions & D & L & H & A & P).
  destruct (dut_pages_ok n (s_dut s) N (three_shape _ _ _ _ D)) as (l1 & l2 & l3 & l4 & E1 & S1 & S2 & S3 & S4). exists l2. unfold efficiency_plots in P. rewrite E1 in P. split.
  - destruct any; [destruct (regions_pages 0 regions) as [[ps hs]|]; [|discriminate]|]; injection P as <- _; reflexivity.
  - split; [exact S2|]. intros [_ C]. destruct S2 as [_ S2]. destruct (three_shape _ _ _ _ D Total) as (L1 & L2 & lo & w & W & S). specialize (C 0%nat ltac:(lia)). rewrite S2 in C by lia. injection C as C0 C1.
    rewrite S in C0, C1 by lia. cbn [INR] in C0, C1. lra.
Qed.
(** With one bin the histograms can be calculated and stored, the plots raise an exception. *)
Theorem C146_one_bin_refuted any k chunks : efficiency_angles 1 true any k chunks = None.
Proof.
  unfold efficiency_angles. destruct (three_hists 1 t_hit chunks) as [dut|] eqn:D; [|reflexivity]. destruct (all_of _) as [regions|]; [|reflexivity].
  destruct (three_shape _ _ _ _ D Total) as (_ & L & _). destruct dut as [[t a] b]. cbn [of fst snd] in L. unfold efficiency_plots, dut_pages. cbn [all_of]. rewrite page_few by (rewrite map_length, L; lia). reflexivity.
Qed.
(** If no track of the first chunk with hit is in one of the regions the call raises an exception, with and without plots. *)
Theorem C146_empty_region_refuted n plot any k c cs r : (r < k)%nat -> (forall t, In t c -> ~ in_region r t) -> efficiency_angles n plot any k (c :: cs) = None.
Proof.
  intros I H. destruct (efficiency_angles n plot any k (c :: cs)) as [[pages s]|] eqn:E; [|reflexivity]. exfalso. destruct (run_inv _ _ _ _ _ _ _ E) as (regions & _ & _ & T & _).
  specialize (T r I). apply (three_inv _ _ _ _ Total), hist_inv in T. destruct T as (_ & _ & _ & _ & _ & c' & cs' & C & N). injection C as <- _. apply N.
  assert (F : filter (fun t => t_region t r && t_hit t) c = []).
  { clear - H. induction c as [|t c IH]; [reflexivity|]. cbn [filter]. destruct (t_region t r && t_hit t) eqn:B; [|apply IH; intros u U; apply H; right; exact U].
    exfalso. apply (H t (or_introl eq_refl)). apply region_test, B. }
  rewrite F. reflexivity.
Qed.

(** *** A concrete case: two tracks with different angles in one region, two bins *)
Definition case_chunks : list (list track) := [[Track (fun _ => Some (1 / 1000)) true (fun _ => true); Track (fun _ => Some (3 / 1000)) true (fun _ => true); Track (fun _ => None) false (fun _ => false)]; []].
Lemma case_run n plot : (plot = true -> (2 <= n)%nat) -> (1 <= n)%nat -> exists pages s, efficiency_angles n plot true 1 case_chunks = Some (pages, s).
Proof.
  intros P N. assert (Q : forall p a, p = t_hit \/ p = (fun t => t_region t 0 && t_hit t) -> exists h, angle_histogram n (chosen p a case_chunks) = Some h).
  { intros p a [-> | ->]; (edestruct (C69_histogram n [Some (1 / 1000); Some (3 / 1000)] [[]] N) as (h & e & _ & _ & E & _); [discriminate|]); exists (h, e); exact E. }
  assert (T : forall p, p = t_hit \/ p = (fun t => t_region t 0 && t_hit t) -> exists h, three_hists n p case_chunks = Some h).
  { intros p Hp. unfold three_hists. destruct (Q p Total Hp) as (t & ->). destruct (Q p Alpha Hp) as (u & ->). destruct (Q p Beta Hp) as (v & ->). eauto. }
  destruct (T _ (or_introl eq_refl)) as (d & D). destruct (T _ (or_intror eq_refl)) as (r & Hr).
  assert (E : efficiency_angles n false true 1 case_chunks = Some ([], Stored d [r])) by (unfold efficiency_angles; rewrite D; cbn [seq map all_of]; rewrite Hr; reflexivity).
  destruct plot; [|eauto]. destruct (C146_pages _ _ _ _ _ _ (P eq_refl) E) as (_ & pages & s' & E' & _). eauto.
Qed.
Example C146_case : (exists pages s, efficiency_angles 2 true true 1 case_chunks = Some (pages, s)) /\ (exists pages s, efficiency_angles 1 false true 1 case_chunks = Some (pages, s)).
Proof. split; apply case_run; try lia. Qed.

Print Assumptions C146_dut.
Print Assumptions C146_regions.
Print Assumptions C146_edges_refuted.
Print Assumptions C146_pages.
Print Assumptions C146_second_refuted.
Print Assumptions C146_one_bin_refuted.
Print Assumptions C146_empty_region_refuted.
