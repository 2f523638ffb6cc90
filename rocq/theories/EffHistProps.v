(** C148: the distributions of efficiencies of efficiency_plots. *)
From Coq Require Import List Arith Reals Bool Lia Lra.
From Verif Require Import GeometryModel GeometryProofs RunningMeanModel RunningMeanProps TrackAngleModel Chi2PlotModel Chi2PlotProps EffStoreModel EffHistModel.
Import ListNotations.
Local Open Scope R_scope.

(** *** Specification: a pixel (or bin) has w tracks with hit and t tracks *)
(** how many elements of the list satisfy P *)
Inductive so_many {T} (P : T -> Prop) : list T -> nat -> Prop :=
| so_many_nil : so_many P [] 0
| so_many_yes x l n : P x -> so_many P l n -> so_many P (x :: l) (S n)
| so_many_no x l n : ~ P x -> so_many P l n -> so_many P (x :: l) n.
(** i % <= w / t < (i + 1) %, and 100 % in the last interval *)
Definition percent (i : nat) (p : nat * nat) : Prop := (0 < snd p)%nat /\ (i * snd p <= 100 * fst p)%nat /\ (100 * fst p < (i + 1) * snd p \/ i = 99 /\ fst p = snd p)%nat.

(** *** Small facts *)
Lemma so_many_filter {T} (P : T -> Prop) (f : T -> bool) l : (forall x, In x l -> (f x = true <-> P x)) -> so_many P l (length (filter f l)).
Proof.
  induction l as [|x l IH]; intros H; [constructor|]. cbn [filter]. assert (IH' : so_many P l (length (filter f l))) by (apply IH; intros y Y; apply H; right; exact Y).
  destruct (f x) eqn:E; cbn [length]; [apply so_many_yes; [now apply H; [left|]|exact IH']|apply so_many_no; [|exact IH']]. intros K. apply H in K; [congruence|now left].
Qed.
Lemma real_le a t w : 0 < INR t -> (INR a <= INR w / INR t * 100 <-> (a * t <= 100 * w)%nat).
Proof.
  intros P. assert (E : INR w / INR t * 100 * INR t = INR (100 * w)) by (rewrite mult_INR; replace (INR 100) with 100 by (rewrite INR_IZR_INZ; reflexivity); field; lra). split; intros H.
  - apply INR_le. rewrite mult_INR, <- E. apply Rmult_le_compat_r; [lra|exact H].
  - apply (Rmult_le_reg_r (INR t)); [exact P|]. rewrite E, <- mult_INR. apply le_INR, H.
Qed.
Lemma real_lt a t w : 0 < INR t -> (INR w / INR t * 100 < INR a <-> (100 * w < a * t)%nat).
Proof. intros P. pose proof (real_le a t w P) as H. split; intros K; [apply Nat.nle_gt; intros L; apply H in L; lra|apply Rnot_le_lt; intros L; apply H in L; lia]. Qed.
Lemma bin_percent i w t : (i < 100)%nat -> (0 < t)%nat -> in_bin (range_edges 0 100 100) i (INR w / INR t * 100) = true <-> percent i (w, t).
Proof.
  intros I T. destruct (range_edges_eq 0 100 100 ltac:(lra) ltac:(lia)) as [L E]. rewrite in_bin_spec, L, !E by lia. unfold percent. cbn [fst snd].
  replace (INR 100) with 100 by (rewrite INR_IZR_INZ; reflexivity). assert (P : 0 < INR t) by (apply lt_0_INR; exact T).
  replace (0 + INR i * ((100 - 0) / 100)) with (INR i) by field. replace (0 + INR (S i) * ((100 - 0) / 100)) with (INR (S i)) by field. rewrite (real_le i t w P), (real_lt (S i) t w P).
  assert (Q : INR w / INR t * 100 = INR (S i) <-> (100 * w = S i * t)%nat).
  { split; intros H; [|apply Rle_antisym; [apply Rnot_lt_le; intros K|apply (real_le (S i) t w P); lia]]. - assert (X : INR (S i) <= INR w / INR t * 100) by lra. apply (real_le (S i) t w P) in X.
      assert (Y : ~ INR w / INR t * 100 < INR (S i)) by lra. rewrite (real_lt (S i) t w P) in Y. assert (Z : ~ INR (S i) < INR w / INR t * 100) by lra.
      apply Nat.le_antisymm; [|lia]. apply INR_le. rewrite !mult_INR. replace (INR 100) with 100 by (rewrite INR_IZR_INZ; reflexivity). rewrite <- H. right. field. lra.
    - apply (Rmult_lt_compat_r (INR t)) in K; [|exact P]. rewrite <- mult_INR in K. replace (INR w / INR t * 100 * INR t) with (INR (100 * w)) in K by (rewrite mult_INR; replace (INR 100) with 100 by (rewrite INR_IZR_INZ; reflexivity); field; lra). apply INR_lt in K. lia. }
  rewrite Q. split.
  - intros (_ & A & [B|[B C]]); (split; [exact T|]); (split; [exact A|]); [left; lia|right]. assert (i = 99%nat) by lia. subst i. split; [reflexivity|]. lia.
  - intros (_ & A & [B|[-> ->]]); (split; [lia|]); (split; [exact A|]); [left; lia|right]. split; [reflexivity|lia].
Qed.
Lemma not_nan_filter (f : R -> bool) (l : list (option R)) : length (filter f (not_nan l)) = length (filter (fun e => match e with Some v => f v | None => false end) l).
Proof. induction l as [|[v|] l IH]; [reflexivity| |exact IH]. cbn [not_nan flat_map app filter]. fold (not_nan l). destruct (f v); cbn [length]; [f_equal|]; exact IH. Qed.
Lemma filter_map_length {A B} (g : A -> B) (f : B -> bool) l : length (filter f (map g l)) = length (filter (fun x => f (g x)) l).
Proof. induction l as [|x l IH]; [reflexivity|]. cbn [map filter]. destruct (f (g x)); cbn [length]; [f_equal|]; exact IH. Qed.
Lemma filter_filter_length {A} (f g : A -> bool) l : length (filter f (filter g l)) = length (filter (fun x => g x && f x) l).
Proof. induction l as [|x l IH]; [reflexivity|]. cbn [filter]. destruct (g x); cbn [andb filter]; [destruct (f x); cbn [length]; [f_equal|]|]; exact IH. Qed.
Lemma hist_nth l i : (i < 100)%nat -> nth i (percent_hist l) 0%nat = length (filter (fun e => match e with Some v => in_bin (range_edges 0 100 100) i v | None => false end) l).
Proof.
  intros I. unfold percent_hist. destruct (range_edges_eq 0 100 100 ltac:(lra) ltac:(lia)) as [L _]. rewrite <- not_nan_filter. apply nth_error_nth. apply histogram_nth. unfold n_edge_bins. rewrite L. exact I.
Qed.
Lemma dut_entry density counts i : (i < 100)%nat -> nth i (dut_distribution density counts) 0%nat =
  length (filter (fun p => negb (snd p <? density)%nat && match percentage p with Some v => in_bin (range_edges 0 100 100) i v | None => false end) counts).
Proof. intros I. unfold dut_distribution. rewrite hist_nth by exact I. unfold without_mask, masked_percentages. rewrite filter_map_length, filter_filter_length, filter_map_length. reflexivity. Qed.
Lemma region_entry density counts i : (i < 100)%nat -> nth i (region_distribution density counts) 0%nat =
  length (filter (fun p => match percentage p with Some v => in_bin (range_edges 0 100 100) i v | None => false end) counts).
Proof. intros I. unfold region_distribution. rewrite hist_nth by exact I. unfold stored_data, masked_percentages. rewrite map_map, filter_map_length. reflexivity. Qed.
Lemma entry_percent i p : (i < 100)%nat -> match percentage p with Some v => in_bin (range_edges 0 100 100) i v | None => false end = true <-> percent i p.
Proof.
  intros I. destruct p as [w t]. unfold percentage. cbn [fst snd]. destruct (Nat.eqb_spec t 0) as [-> |T]; [split; [discriminate|intros [A _]; cbn in A; lia]|]. apply bin_percent; [exact I|lia].
Qed.
Lemma hist_length l : length (percent_hist l) = 100%nat.
Proof. unfold percent_hist. rewrite histogram_length. unfold n_edge_bins. destruct (range_edges_eq 0 100 100 ltac:(lra) ltac:(lia)) as [-> _]. reflexivity. Qed.

(** *** Theorems *)
(** The distributions of a DUT: bar i is the number of bins or pixels with enough tracks whose efficiency is in the i-th percent. *)
Theorem C148_dut density counts : length (dut_distribution density counts) = 100%nat /\
  forall i, (i < 100)%nat -> so_many (fun p => (density <= snd p)%nat /\ percent i p) counts (nth i (dut_distribution density counts) 0%nat).
Proof.
  split; [apply hist_length|]. intros i I. rewrite dut_entry by exact I. apply so_many_filter. intros p _. rewrite andb_true_iff, negb_true_iff, Nat.ltb_ge, (entry_percent i p I). reflexivity.
Qed.
(** The numbers of efficient pixels in the log: pixels with enough tracks and at least one track and an efficiency of at least the threshold. *)
Theorem C148_efficient threshold density counts :
  so_many (fun p => (density <= snd p)%nat /\ (0 < snd p)%nat /\ (threshold * snd p <= 100 * fst p)%nat) counts (efficient_pixels (INR threshold) density counts).
Proof.
  unfold efficient_pixels, without_mask, masked_percentages. rewrite filter_map_length, filter_filter_length, filter_map_length. apply so_many_filter. intros [w t] _. cbn [fst snd].
  rewrite andb_true_iff, negb_true_iff, Nat.ltb_ge. unfold percentage. cbn [fst snd]. destruct (Nat.eqb_spec t 0) as [-> |T].
  - split; [intros [_ A]; discriminate|intros (_ & A & _); lia].
  - rewrite Rleb_true, (real_le threshold t w) by (apply lt_0_INR; lia). split; [intros [A B]; split; [exact A|split; [lia|exact B]]|intros (A & _ & B); auto].
Qed.
(** The distribution of a region and the number of pixels in its titles do not consider the mask: every pixel with a track is counted, whatever the minimum track density is. *)
Theorem C148_region density counts : length (region_distribution density counts) = 100%nat /\
  (forall i, (i < 100)%nat -> so_many (percent i) counts (nth i (region_distribution density counts) 0%nat)) /\ so_many (fun p => (0 < snd p)%nat) counts (region_n_pixels density counts).
Proof.
  split; [apply hist_length|]. split.
  - intros i I. rewrite region_entry by exact I. apply so_many_filter. intros p _. apply entry_percent, I.
  - unfold region_n_pixels, masked_percentages. rewrite filter_map_length. apply so_many_filter. intros [w t] _. unfold percentage. cbn [fst snd]. destruct (Nat.eqb_spec t 0); split; try discriminate; intros; try reflexivity; lia.
Qed.
(** A region with all pixels of the DUT should have the same distribution as the DUT: if a pixel has tracks, but fewer than the minimum, its bar is higher in the distribution of the region. *)
Theorem C148_region_refuted density counts w t i : In (w, t) counts -> (0 < t < density)%nat -> (i < 100)%nat -> percent i (w, t) -> (nth i (dut_distribution density counts) 0 < nth i (region_distribution density counts) 0)%nat.
Proof.
  intros H T I P. rewrite dut_entry, region_entry by exact I. apply (entry_percent i _ I) in P. revert H P. set (f := fun p : nat * nat => match percentage p with Some v => in_bin (range_edges 0 100 100) i v | None => false end).
  change (match percentage (w, t) with Some v => in_bin (range_edges 0 100 100) i v | None => false end) with (f (w, t)). change (fun p : nat * nat => negb (snd p <? density)%nat && match percentage p with Some v => in_bin (range_edges 0 100 100) i v | None => false end) with (fun p => negb (snd p <? density)%nat && f p).
  intros H P. clearbody f. assert (LE : forall l, (length (filter (fun p => negb (snd p <? density)%nat && f p) l) <= length (filter f l))%nat).
  { induction l as [|p l IH]; [apply le_n|]. cbn [filter]. destruct (f p); [|rewrite andb_false_r; exact IH]. rewrite andb_true_r. destruct (negb _); cbn [length]; lia. }
  induction counts as [|p l IH]; [destruct H|]. cbn [filter]. destruct H as [->|H].
  - assert (Z : negb (snd (w, t) <? density)%nat = false) by (apply negb_false_iff, Nat.ltb_lt; cbn [snd]; lia). rewrite Z, P. cbn [andb length]. specialize (LE l). lia.
  - specialize (IH H). destruct (f p); [rewrite andb_true_r; destruct (negb _); cbn [length]; lia|rewrite andb_false_r; exact IH].
Qed.

(** *** A concrete case: three pixels, the second one with one track only *)
Definition case_counts : list (nat * nat) := [(97, 100); (1, 1); (0, 0)]%nat.
Example C148_case : In (1, 1)%nat case_counts /\ percent 99 (1, 1)%nat /\ percent 97 (97, 100)%nat /\ efficient_pixels (INR 97) 2 case_counts = 1%nat /\ region_n_pixels 2 case_counts = 2%nat.
Proof.
  split; [right; left; reflexivity|]. split; [unfold percent; cbn; lia|]. split; [unfold percent; cbn [fst snd]; lia|]. split; [|reflexivity].
  pose proof (C148_efficient 97 2 case_counts) as H. set (n := efficient_pixels (INR 97) 2 case_counts) in *. clearbody n. unfold case_counts in H.
  inversion H as [|? ? a A1 A2|? ? a A1 A2]; subst; [|exfalso; apply A1; cbn [fst snd]; lia].
  inversion A2 as [|? ? b B1 B2|? ? b B1 B2]; subst; [cbn [fst snd] in B1; lia|]. inversion B2 as [|? ? c C1 C2|? ? c C1 C2]; subst; [cbn [fst snd] in C1; lia|]. inversion C2. reflexivity.
Qed.

Print Assumptions C148_dut.
Print Assumptions C148_efficient.
Print Assumptions C148_region.
Print Assumptions C148_region_refuted.
