(** C95: moments of histograms and the fits of residuals. *)
From Coq Require Import List Arith ZArith Reals Bool Lra Lia Permutation.
From Verif Require Import GeometryModel GeometryProofs PrealignModel RunningMeanModel RunningMeanProps TrackAngleModel TrackAngleProps ResidualsModel ResidualsProps FitResidualsModel.
Import ListNotations.
Local Open Scope R_scope.

(** ** sums *)
Lemma sum_perm l m : Permutation l m -> sum l = sum m.
Proof. unfold sum. induction 1; cbn; lra. Qed.
Lemma sum_app_ l m : sum (l ++ m) = sum l + sum m.
Proof. unfold sum. induction l as [|a l IH]; cbn; [lra|]. rewrite IH. lra. Qed.
Lemma sum_repeat x n : sum (repeat x n) = INR n * x.
Proof. induction n as [|n IH]; [cbn; lra|]. rewrite S_INR. cbn [repeat sum fold_right]. fold (sum (repeat x n)). rewrite IH. lra. Qed.
Lemma mean_perm l m : Permutation l m -> mean l = mean m.
Proof. intros P. unfold mean. rewrite (sum_perm _ _ P), (Permutation_length P). reflexivity. Qed.
Lemma std_perm l m : Permutation l m -> std l = std m.
Proof. intros P. unfold std. rewrite (mean_perm _ _ P), (Permutation_length P). do 2 f_equal. apply sum_perm, Permutation_map, P. Qed.
Lemma sum_bounds l a b : (forall x, In x l -> a <= x <= b) -> INR (length l) * a <= sum l <= INR (length l) * b.
Proof.
  induction l as [|x l IH]; intros H; [cbn; lra|]. cbn [length sum fold_right]. fold (sum l). rewrite S_INR. destruct (H x (or_introl eq_refl)). destruct IH as [I1 I2]; [intros y Hy; apply H; right; exact Hy|]. lra.
Qed.
Lemma INR_pos {A} (l : list A) : l <> [] -> 0 < INR (length l).
Proof. intros H. apply lt_0_INR. destruct l; [congruence|cbn; lia]. Qed.
Lemma mean_bounds l a b : l <> [] -> (forall x, In x l -> a <= x <= b) -> a <= mean l <= b.
Proof.
  intros N H. destruct (sum_bounds l a b H). pose proof (INR_pos l N). unfold mean. split; [apply (Rmult_le_reg_r (INR (length l))); [lra|]|apply (Rmult_le_reg_r (INR (length l))); [lra|]]; unfold Rdiv; rewrite Rmult_assoc, Rinv_l by lra; lra.
Qed.

(** ** repeated values *)
Lemma repeated_cons c cs p ps : repeated (c :: cs) (p :: ps) = repeat p c ++ repeated cs ps.
Proof. reflexivity. Qed.
Lemma repeated_length counts : forall positions, length counts = length positions -> length (repeated counts positions) = list_sum counts.
Proof. induction counts as [|c cs IH]; intros [|p ps] L; try discriminate; [reflexivity|]. rewrite repeated_cons, app_length, repeat_length, IH by (cbn in L; lia). reflexivity. Qed.
Lemma repeated_sum counts : forall positions, length counts = length positions -> sum (repeated counts positions) = dot_counts counts positions.
Proof. induction counts as [|c cs IH]; intros [|p ps] L; try discriminate; [reflexivity|]. rewrite repeated_cons, sum_app_, sum_repeat, IH by (cbn in L; lia). unfold dot_counts. cbn. reflexivity. Qed.
Lemma repeated_In counts : forall positions x, In x (repeated counts positions) <-> exists i c, nth_error counts i = Some c /\ nth_error positions i = Some x /\ (0 < c)%nat.
Proof.
  induction counts as [|c cs IH]; intros [|p ps] x.
  - cbn. split; [intros []|intros (i & c & H & _); destruct i; discriminate].
  - cbn. split; [intros []|intros (i & c & H & _); destruct i; discriminate].
  - cbn. split; [intros []|intros (i & d & _ & H & _); destruct i; discriminate].
  - rewrite repeated_cons, in_app_iff, IH. split.
    + intros [H|(i & d & H)]; [|exists (S i), d; exact H]. assert (x = p) as -> by (eapply repeat_spec; eauto). exists 0%nat, c. split; [reflexivity|]. split; [reflexivity|]. destruct c; [destruct H|lia].
    + intros ([|i] & d & H1 & H2 & H3); [left|right; exists i, d; auto]. cbn in H1, H2. injection H1 as ->. injection H2 as ->. destruct d; [lia|left; reflexivity].
Qed.
Lemma get_mean_eq counts positions : length counts = length positions -> get_mean_from_histogram counts positions = match repeated counts positions with [] => None | l => Some (mean l) end.
Proof.
  intros L. unfold get_mean_from_histogram. pose proof (repeated_length _ _ L) as N. pose proof (repeated_sum _ _ L) as D. unfold mean. rewrite <- N, <- D. destruct (repeated counts positions); reflexivity.
Qed.
(** Mean: defined if there are entries; deviations add up to zero; it is between the lowest and the highest populated position. *)
Theorem C95_mean counts positions : length counts = length positions ->
  (get_mean_from_histogram counts positions = None <-> forall c, In c counts -> c = 0%nat) /\
  forall m, get_mean_from_histogram counts positions = Some m ->
    sum (map (fun cp => INR (fst cp) * (snd cp - m)) (combine counts positions)) = 0 /\
    forall a b, (forall i c x, nth_error counts i = Some c -> nth_error positions i = Some x -> (0 < c)%nat -> a <= x <= b) -> a <= m <= b.
Proof.
  intros L. split.
  - unfold get_mean_from_histogram. destruct (Nat.eqb_spec (list_sum counts) 0) as [E|E]; split; try discriminate; auto.
    + intros _ c Hc. clear -E Hc. induction counts as [|d ds IH]; [destruct Hc|]. change (d + list_sum ds = 0)%nat in E. destruct Hc as [<-|H]; [lia|apply IH; [lia|exact H]].
    + intros H. destruct E. clear -H. induction counts as [|d ds IH]; [reflexivity|]. change (d + list_sum ds = 0)%nat. rewrite (H d (or_introl eq_refl)), IH; [reflexivity|]. intros c Hc. apply H. right. exact Hc.
  - intros m E. split.
    + unfold get_mean_from_histogram in E. destruct (Nat.eqb_spec (list_sum counts) 0) as [Z|Z]; [discriminate|]. injection E as <-.
      assert (P : 0 < INR (list_sum counts)) by (apply lt_0_INR; lia). set (m := dot_counts counts positions / INR (list_sum counts)).
      assert (G : forall cs ps m, length cs = length ps -> sum (map (fun cp => INR (fst cp) * (snd cp - m)) (combine cs ps)) = dot_counts cs ps - INR (list_sum cs) * m).
      { clear. induction cs as [|c cs IH]; intros [|p ps] m L; try discriminate; [cbn; lra|]. unfold dot_counts in *. cbn [combine map sum fold_right fst snd]. fold (sum (map (fun cp => INR (fst cp) * (snd cp - m)) (combine cs ps))). rewrite IH by (cbn in L; lia). cbn [list_sum fold_right]. rewrite plus_INR. unfold list_sum. lra. }
      rewrite G by exact L. unfold m. field. lra.
    + intros a b H. rewrite get_mean_eq in E by exact L. destruct (repeated counts positions) as [|y l] eqn:Rp; [discriminate|]. injection E as <-. apply mean_bounds; [discriminate|]. intros x Hx. rewrite <- Rp in Hx. apply repeated_In in Hx. destruct Hx as (i & c & H1 & H2 & H3). eauto.
Qed.
(** Standard deviation: zero if and only if all entries are in the same position. *)
Theorem C95_rms counts positions s : get_rms_from_histogram counts positions = Some s -> 0 <= s /\
  (s = 0 <-> forall i j c d x y, nth_error counts i = Some c -> nth_error positions i = Some x -> nth_error counts j = Some d -> nth_error positions j = Some y -> (0 < c)%nat -> (0 < d)%nat -> x = y).
Proof.
  unfold get_rms_from_histogram. destruct (repeated counts positions) as [|z l] eqn:Rp; [discriminate|]. intros E. injection E as <-. split; [apply std_pos|]. rewrite <- Rp. split.
  - intros Z i j c d x y H1 H2 H3 H4 H5 H6. rewrite (std_zero _ Z x), (std_zero _ Z y); [reflexivity|apply repeated_In; eauto 8..].
  - intros H. assert (A : forall x, In x (repeated counts positions) -> x = z).
    { intros x Hx. assert (Hz : In z (repeated counts positions)) by (rewrite Rp; left; reflexivity). apply repeated_In in Hx. apply repeated_In in Hz. destruct Hx as (i & c & ? & ? & ?). destruct Hz as (j & d & ? & ? & ?). eauto. }
    assert (M : mean (repeated counts positions) = z). { assert (z <= mean (repeated counts positions) <= z); [|lra]. apply mean_bounds; [rewrite Rp; discriminate|]. intros x Hx. rewrite (A x Hx). lra. }
    unfold std. rewrite M. assert (Z : sum (map (fun x => (x - z) ^ 2) (repeated counts positions)) = 0).
    { revert A. generalize (repeated counts positions). clear. induction l as [|x l IH]; intros A; [reflexivity|]. cbn [map sum fold_right]. fold (sum (map (fun x => (x - z) ^ 2) l)). rewrite IH by (intros y Hy; apply A; right; exact Hy). rewrite (A x (or_introl eq_refl)). ring. }
    rewrite Z. unfold Rdiv. rewrite Rmult_0_l. apply sqrt_0.
Qed.

(** ** the histogram against the data *)
Lemma repeated_seq (f : nat -> nat) (g : nat -> R) is : repeated (map f is) (map g is) = flat_map (fun i => repeat (g i) (f i)) is.
Proof. induction is as [|i is IH]; [reflexivity|]. cbn [map]. rewrite repeated_cons, IH. reflexivity. Qed.
Lemma flat_map_add (g : nat -> R) (f h : nat -> nat) k is : NoDup is -> In k is -> (forall i, In i is -> h i = if (i =? k)%nat then S (f i) else f i) -> Permutation (flat_map (fun i => repeat (g i) (h i)) is) (g k :: flat_map (fun i => repeat (g i : R) (f i)) is).
Proof.
  intros N. induction N as [|i is Hi N IH]; intros K H; [destruct K|]. cbn [flat_map]. rewrite (H i (or_introl eq_refl)). destruct (Nat.eqb_spec i k) as [->|Ne].
  - cbn [repeat app]. constructor. apply Permutation_app_head. replace (flat_map (fun i => repeat (g i) (h i)) is) with (flat_map (fun i => repeat (g i) (f i)) is); [apply Permutation_refl|].
    assert (E : forall i, In i is -> h i = f i). { intros i Hin. rewrite (H i (or_intror Hin)). destruct (Nat.eqb_spec i k) as [->|]; [contradiction|reflexivity]. }
    clear -E. induction is as [|i is IH]; [reflexivity|]. cbn [flat_map]. rewrite IH, (E i (or_introl eq_refl)); [reflexivity|]. intros j Hj. apply E. right. exact Hj.
  - destruct K as [->|K]; [contradiction|]. transitivity (repeat (g i) (f i) ++ g k :: flat_map (fun i => repeat (g i) (f i)) is); [|symmetry; apply Permutation_middle]. apply Permutation_app_head, IH; [exact K|]. intros j Hj. apply H. right. exact Hj.
Qed.
Definition in_edges (edges : list R) (x : R) : Prop := nth 0 edges 0 <= x <= nth (length edges - 1) edges 0.
Lemma histogram_repeated edges d w : increasing edges -> (2 <= length edges)%nat -> (forall i, (S i < length edges)%nat -> nth (S i) edges 0 - nth i edges 0 <= w) -> (forall x, In x d -> in_edges edges x) ->
  exists l, Permutation (repeated (histogram edges (map Some d)) (bin_centers edges)) l /\ Forall2 (fun x y => Rabs (x - y) <= w / 2) d l.
Proof.
  intros I L W H. unfold histogram, bin_centers. rewrite not_nan_some, repeated_seq. induction d as [|x d IH].
  - exists []. split; [|constructor]. cbn [filter length]. induction (seq 0 (n_edge_bins edges)); [constructor|exact IHl].
  - destruct IH as (l & P & F); [intros y Hy; apply H; right; exact Hy|]. pose proof (H x (or_introl eq_refl)) as Hx. destruct (C40_bins edges x I L) as [B _]. apply B in Hx. destruct Hx as (k & Hk & U).
    assert (Hk' := Hk). apply in_bin_spec in Hk'. destruct Hk' as (K1 & K2 & K3).
    exists ((nth (S k) edges 0 + nth k edges 0) / 2 :: l). split.
    + etransitivity; [|constructor; exact P]. apply (flat_map_add (fun i => (nth (S i) edges 0 + nth i edges 0) / 2) (fun i => length (filter (in_bin edges i) d)) _ k); [apply seq_NoDup|apply in_seq; unfold n_edge_bins; lia|].
      intros i _. cbn [filter]. destruct (Nat.eqb_spec i k) as [->|Ne]; [rewrite Hk; reflexivity|]. destruct (in_bin edges i x) eqn:E; [|reflexivity]. destruct Ne. apply U. exact E.
    + constructor; [|exact F]. specialize (W k ltac:(lia)). assert (nth k edges 0 <= x <= nth (S k) edges 0) by lra. apply Rabs_le. lra.
Qed.
(** l2 norms *)
Definition sq_sum (l : list R) : R := sum (map (fun x => x * x) l).
Lemma sq_sum_pos l : 0 <= sq_sum l.
Proof. unfold sq_sum. apply sum_nonneg. intros x Hx. apply in_map_iff in Hx. destruct Hx as (y & <- & _). nra. Qed.
Lemma cauchy (l : list (R * R)) : sum (map (fun p => fst p * snd p) l) * sum (map (fun p => fst p * snd p) l) <= sq_sum (map fst l) * sq_sum (map snd l).
Proof.
  assert (Q : forall t, 0 <= sq_sum (map fst l) + 2 * t * sum (map (fun p => fst p * snd p) l) + t * t * sq_sum (map snd l)).
  { intros t. replace (sq_sum (map fst l) + 2 * t * sum (map (fun p => fst p * snd p) l) + t * t * sq_sum (map snd l)) with (sq_sum (map (fun p => fst p + t * snd p) l)); [apply sq_sum_pos|].
    induction l as [|[a b] l IH]; [cbn; lra|]. unfold sq_sum in *. cbn [map sum fold_right fst snd]. unfold sum in *. rewrite IH. ring. }
  set (A := sq_sum (map fst l)) in *. set (B := sq_sum (map snd l)) in *. set (c := sum _) in *. assert (0 <= A) by apply sq_sum_pos. assert (0 <= B) by apply sq_sum_pos. destruct (Req_dec B 0) as [Z|Z].
  - rewrite Z in *. assert (c = 0); [|nra]. destruct (Req_dec c 0) as [|Nc]; [auto|]. specialize (Q (- (A + 1) / (2 * c))). replace (A + 2 * (- (A + 1) / (2 * c)) * c + - (A + 1) / (2 * c) * (- (A + 1) / (2 * c)) * 0) with (- 1) in Q by (field; auto). lra.
  - specialize (Q (- c / B)). replace (A + 2 * (- c / B) * c + - c / B * (- c / B) * B) with ((A * B - c * c) / B) in Q by (field; auto). assert (0 < B) by lra. apply (Rmult_le_compat_r B) in Q; [|lra]. replace ((A * B - c * c) / B * B) with (A * B - c * c) in Q by (field; auto). lra.
Qed.
Lemma minkowski (l : list (R * R)) : sqrt (sq_sum (map (fun p => fst p + snd p) l)) <= sqrt (sq_sum (map fst l)) + sqrt (sq_sum (map snd l)).
Proof.
  pose proof (cauchy l) as C. assert (PA := sq_sum_pos (map fst l)). assert (PB := sq_sum_pos (map snd l)). set (A := sq_sum (map fst l)) in *. set (B := sq_sum (map snd l)) in *. set (c := sum _) in C.
  assert (E : sq_sum (map (fun p => fst p + snd p) l) = A + B + 2 * c). { unfold A, B, c. clear. induction l as [|[a b] l IH]; [cbn; lra|]. unfold sq_sum in *. cbn [map sum fold_right fst snd]. unfold sum in *. rewrite IH. ring. }
  assert (Sa := sqrt_pos A). assert (Sb := sqrt_pos B). assert (Qa := sqrt_sqrt A PA). assert (Qb := sqrt_sqrt B PB).
  assert (Hc : c <= sqrt A * sqrt B). { rewrite <- sqrt_mult by assumption. apply (Rle_trans _ (Rabs c)); [apply Rle_abs|]. rewrite <- (sqrt_Rsqr_abs c). apply sqrt_le_1_alt. exact C. }
  rewrite E. apply Rsqr_incr_0_var; [|lra]. unfold Rsqr. rewrite sqrt_sqrt by (rewrite <- E; apply sq_sum_pos). nra.
Qed.
Lemma std_sq l : l <> [] -> std l = sqrt (sq_sum (map (fun x => x - mean l) l)) / sqrt (INR (length l)).
Proof.
  intros N. unfold std, sq_sum. rewrite map_map. rewrite sqrt_div_alt by (apply INR_pos; exact N). do 3 f_equal. apply map_ext. intros x. ring.
Qed.
Lemma Forall2_combine {A B} (Q : A -> B -> Prop) l m : Forall2 Q l m -> map fst (combine l m) = l /\ map snd (combine l m) = m /\ length l = length m /\ Forall (fun p => Q (fst p) (snd p)) (combine l m).
Proof. induction 1 as [|a b l m H F (I1 & I2 & I3 & I4)]; [repeat split; constructor|]. cbn. rewrite I1, I2, I3. repeat split; constructor; auto. Qed.
Lemma sub_mean_sq l : l <> [] -> forall c, sq_sum (map (fun x => x - mean l) l) <= sq_sum (map (fun x => x - c) l).
Proof.
  intros N c. assert (P := INR_pos l N). assert (G : forall k m, sq_sum (map (fun x => x - c) k) = sq_sum (map (fun x => x - m) k) + 2 * (m - c) * (sum k - INR (length k) * m) + INR (length k) * ((m - c) * (m - c))).
  { clear. intros k m. induction k as [|x k IH]; [cbn; lra|]. unfold sq_sum in *. cbn [map sum fold_right length]. unfold sum in *. rewrite IH, S_INR. ring. }
  rewrite (G l (mean l)). assert (Z : sum l - INR (length l) * mean l = 0) by (unfold mean; field; lra). rewrite Z. assert (0 <= INR (length l) * ((mean l - c) * (mean l - c))) by (apply Rmult_le_pos; [lra|apply Rle_0_sqr]). lra.
Qed.
Lemma std_close d l h : d <> [] -> Forall2 (fun x y => Rabs (x - y) <= h) d l -> std d <= std l + h /\ Rabs (mean d - mean l) <= h.
Proof.
  intros N F. apply Forall2_combine in F. destruct F as (E1 & E2 & E3 & F). set (c := combine d l) in *. assert (P : 0 < INR (length d)) by (apply INR_pos; exact N). assert (Nl : l <> []) by (destruct l; [destruct d; [congruence|discriminate]|discriminate]).
  assert (H0 : 0 <= h). { destruct d; [congruence|]. destruct l; [congruence|]. inversion F; subst. eapply Rle_trans; [apply Rabs_pos|eassumption]. }
  assert (Lc : length c = length d) by (rewrite <- E1, map_length; reflexivity). split.
  - assert (D : sqrt (sq_sum (map (fun p => fst p - snd p) c)) <= sqrt (INR (length d)) * h).
    { rewrite <- (sqrt_Rsqr h H0), <- sqrt_mult by (try lra; apply Rle_0_sqr). apply sqrt_le_1_alt. rewrite <- Lc. unfold sq_sum. rewrite map_map, <- (map_length (fun p : R * R => (fst p - snd p) * (fst p - snd p)) c). apply (sum_bounds _ 0). intros x Hx. apply in_map_iff in Hx. destruct Hx as (p & <- & Hp).
      rewrite Forall_forall in F. specialize (F p Hp). cbv beta in F. split; [apply Rle_0_sqr|]. apply (Rsqr_le_abs_1 (fst p - snd p) h). rewrite (Rabs_right h) by lra. exact F. }
    rewrite !std_sq by assumption. rewrite <- E3. assert (Sn : 0 < sqrt (INR (length d))) by (apply sqrt_lt_R0; exact P). apply (Rmult_le_reg_r (sqrt (INR (length d)))); [exact Sn|]. unfold Rdiv. rewrite Rmult_plus_distr_r, !Rmult_assoc, Rinv_l, !Rmult_1_r by lra.
    eapply Rle_trans; [apply sqrt_le_1_alt, (sub_mean_sq d N (mean l))|].
    assert (Ed : map (fun x => x - mean l) d = map (fun p => fst p + snd p) (map (fun p => (snd p - mean l, fst p - snd p)) c)).
    { transitivity (map (fun x => x - mean l) (map fst c)); [rewrite E1; reflexivity|]. rewrite !map_map. apply map_ext. intros p. cbn. ring. }
    assert (El : map (fun x => snd x - mean l) c = map (fun x => x - mean l) l) by (transitivity (map (fun x => x - mean l) (map snd c)); [rewrite map_map; reflexivity|rewrite E2; reflexivity]).
    rewrite Ed. eapply Rle_trans; [apply minkowski|]. rewrite !map_map. cbn [fst snd]. rewrite El. lra.
  - assert (M : mean d - mean l = mean (map (fun p => fst p - snd p) c)).
    { unfold mean. rewrite map_length, Lc, <- E3. assert (S0 : sum (map (fun p => fst p - snd p) c) = sum (map fst c) - sum (map snd c)) by (clear; induction c as [|p c IH]; cbn; [lra|unfold sum in *; rewrite IH; lra]). rewrite S0, E1, E2. field. lra. }
    rewrite M. apply Rabs_le. apply mean_bounds; [intros Z; apply map_eq_nil in Z; rewrite Z in Lc; destruct d; [congruence|discriminate]|]. intros x Hx. apply in_map_iff in Hx. destruct Hx as (p & <- & Hp). rewrite Forall_forall in F. specialize (F p Hp). cbv beta in F. unfold Rabs in F. destruct (Rcase_abs _); lra.
Qed.
(** Mean and standard deviation of the histogram differ from those of the data by at most half of the bin width. *)
Theorem C95_binned edges d w : increasing edges -> (2 <= length edges)%nat -> (forall i, (S i < length edges)%nat -> nth (S i) edges 0 - nth i edges 0 <= w) -> d <> [] -> (forall x, In x d -> nth 0 edges 0 <= x <= nth (length edges - 1) edges 0) ->
  exists m s, get_mean_from_histogram (histogram edges (map Some d)) (bin_centers edges) = Some m /\ get_rms_from_histogram (histogram edges (map Some d)) (bin_centers edges) = Some s /\
    Rabs (m - sum d / INR (length d)) <= w / 2 /\ Rabs (s - sqrt (sum (map (fun x => (x - sum d / INR (length d)) ^ 2) d) / INR (length d))) <= w / 2.
Proof.
  intros I L W N H. destruct (histogram_repeated edges d w I L W H) as (l & P & F). set (r := repeated _ _) in P.
  assert (Nr : r <> []). { intros Z. rewrite Z in P. apply Permutation_nil in P. subst l. inversion F. congruence. }
  assert (Lh : length (histogram edges (map Some d)) = length (bin_centers edges)) by (unfold histogram, bin_centers; rewrite !map_length; reflexivity).
  exists (mean r), (std r). rewrite get_mean_eq by exact Lh. unfold get_rms_from_histogram. fold r. change (sum d / INR (length d)) with (mean d). change (sqrt (sum (map (fun x => (x - mean d) ^ 2) d) / INR (length d))) with (std d).
  split; [destruct r; [congruence|reflexivity]|]. split; [destruct r; [congruence|reflexivity]|]. rewrite (mean_perm _ _ P), (std_perm _ _ P).
  destruct (std_close d l (w / 2) N F) as [S1 M]. assert (F' : Forall2 (fun x y => Rabs (x - y) <= w / 2) l d) by (clear -F; induction F; constructor; auto; rewrite Rabs_minus_sym; auto).
  assert (Nl : l <> []) by (intros ->; inversion F; congruence). destruct (std_close l d (w / 2) Nl F') as [S2 _]. split; [rewrite Rabs_minus_sym; exact M|]. apply Rabs_le. lra.
Qed.

(** ** median *)
Definition sorts (sort : list R -> list R) : Prop := forall l, Permutation (sort l) l /\ forall i j, (i <= j < length l)%nat -> nth i (sort l) 0 <= nth j (sort l) 0.
Definition entries (f : R -> bool) (counts : list nat) (positions : list R) : nat := list_sum (map (fun cp => if f (snd cp) then fst cp else 0%nat) (combine counts positions)).
Lemma entries_repeated f counts : forall positions, length (filter f (repeated counts positions)) = entries f counts positions.
Proof.
  induction counts as [|c cs IH]; intros [|p ps]; try reflexivity. rewrite repeated_cons, filter_app, app_length, IH. unfold entries. cbn [combine map fst snd]. change (list_sum (?a :: ?l)) with (a + list_sum l)%nat. f_equal.
  destruct (f p) eqn:E; induction c as [|c IHc]; cbn; rewrite ?E; cbn; auto.
Qed.
Lemma filter_all {A} (f : A -> bool) l : (forall x, In x l -> f x = true) -> length (filter f l) = length l.
Proof. induction l as [|a l IH]; intros H; [reflexivity|]. cbn. rewrite (H a (or_introl eq_refl)). cbn. rewrite IH; [reflexivity|]. intros x Hx. apply H. right. exact Hx. Qed.
Lemma filter_first (f : R -> bool) s j : (j <= length s)%nat -> (forall i, (i < j)%nat -> f (nth i s 0) = true) -> (j <= length (filter f s))%nat.
Proof.
  intros L H. rewrite <- (firstn_skipn j s), filter_app, app_length, filter_all; [rewrite firstn_length; lia|]. intros x Hx. apply (In_nth _ _ 0) in Hx. destruct Hx as (i & Hi & <-). rewrite firstn_length in Hi. rewrite <- (firstn_skipn j s) in H. specialize (H i ltac:(lia)). rewrite app_nth1 in H by (rewrite firstn_length; lia). exact H.
Qed.
Lemma filter_last (f : R -> bool) s j : (forall i, (j <= i < length s)%nat -> f (nth i s 0) = true) -> (length s - j <= length (filter f s))%nat.
Proof.
  intros H. destruct (le_lt_dec (length s) j); [lia|]. rewrite <- (firstn_skipn j s) at 2. rewrite filter_app, app_length, (filter_all f (skipn j s)); [rewrite skipn_length; lia|]. intros x Hx. apply (In_nth _ _ 0) in Hx. destruct Hx as (i & Hi & <-). rewrite skipn_length in Hi. specialize (H (j + i)%nat ltac:(lia)). rewrite <- (firstn_skipn j s) in H. rewrite app_nth2 in H by (rewrite firstn_length; lia). rewrite firstn_length in H. replace (j + i - Nat.min j (length s))%nat with i in H by lia. exact H.
Qed.
Lemma filter_perm {A} (f : A -> bool) l m : Permutation l m -> length (filter f l) = length (filter f m).
Proof. induction 1; cbn; [reflexivity|destruct (f x); cbn; congruence|destruct (f x), (f y); reflexivity|congruence]. Qed.
(** At least one half of the entries are not above the median and at least one half are not below. *)
Theorem C95_median sort counts positions m : sorts sort -> length counts = length positions -> get_median_from_histogram sort counts positions = Some m ->
  (list_sum counts <= 2 * entries (fun x => Rleb x m) counts positions)%nat /\ (list_sum counts <= 2 * entries (fun x => Rleb m x) counts positions)%nat.
Proof.
  intros So L. unfold get_median_from_histogram, median. destruct (repeated counts positions) as [|a l0] eqn:Rp; [discriminate|]. rewrite <- Rp. intros E. apply (f_equal (fun o => match o with Some x => x | None => 0 end)) in E.
  set (l := repeated counts positions) in *. assert (Ll : length l = list_sum counts) by (apply repeated_length; exact L). destruct (So l) as [P S0]. set (s := sort l) in *. assert (Ls : length s = length l) by (apply Permutation_length; exact P).
  rewrite <- !entries_repeated. fold l. rewrite <- Ll. rewrite <- !(filter_perm _ _ _ P). cbv zeta in E. assert (N : (0 < length l)%nat) by (rewrite Rp; cbn; lia).
  destruct (Nat.even (length l)) eqn:Ev.
  - apply Nat.even_spec in Ev. destruct Ev as (k & Ek). assert (Dk : (length l / 2 = k)%nat) by (rewrite Ek, Nat.mul_comm; apply Nat.div_mul; lia). rewrite Dk in E.
    assert (B : nth (k - 1) s 0 <= m <= nth k s 0) by (assert (nth (k - 1) s 0 <= nth k s 0) by (apply S0; lia); lra). split.
    + assert (k <= length (filter (fun x => Rleb x m) s))%nat; [|lia]. apply filter_first; [lia|]. intros i Hi. apply Rleb_true. assert (nth i s 0 <= nth (k - 1) s 0) by (apply S0; lia). lra.
    + assert (length s - k <= length (filter (fun x => Rleb m x) s))%nat; [|lia]. apply filter_last. intros i Hi. apply Rleb_true. assert (nth k s 0 <= nth i s 0) by (apply S0; lia). lra.
  - assert (Od : Nat.odd (length l) = true) by (rewrite <- Nat.negb_even, Ev; reflexivity). apply Nat.odd_spec in Od. destruct Od as (k & Ek). assert (Dk : (length l / 2 = k)%nat) by (rewrite Ek, Nat.mul_comm; rewrite Nat.div_add_l by lia; change (1 / 2)%nat with 0%nat; lia). rewrite Dk in E. split.
    + assert (S k <= length (filter (fun x => Rleb x m) s))%nat; [|lia]. apply filter_first; [lia|]. intros i Hi. apply Rleb_true. rewrite <- E. apply S0. lia.
    + assert (length s - k <= length (filter (fun x => Rleb m x) s))%nat; [|lia]. apply filter_last. intros i Hi. apply Rleb_true. rewrite <- E. apply S0. lia.
Qed.

(** ** fit of a single bin *)
Lemma fold_max l : forall h, fold_left Nat.max l h = Nat.max h (fold_right Nat.max 0%nat l).
Proof. induction l as [|a l IH]; intros h; cbn; [lia|]. rewrite IH. lia. Qed.
(** If all entries are in the same bin, the result is the number of entries, the center of the bin and 0, for every behaviour of the fit. *)
Theorem C95_single_bin fit hist edges i c : length edges = S (length hist) -> nth_error hist i = Some c -> (0 < c)%nat -> (forall j d, nth_error hist j = Some d -> j <> i -> d = 0%nat) ->
  fit_residuals_gauss fit hist edges = Some (INR c, (nth (S i) edges 0 + nth i edges 0) / 2, 0).
Proof.
  intros L Hi Hc H. assert (Li : (i < length hist)%nat) by (apply nth_error_Some; congruence). assert (Lb : length (bin_centers edges) = length hist) by (unfold bin_centers, n_edge_bins; rewrite map_length, seq_length; lia).
  assert (Ci : nth_error (bin_centers edges) i = Some ((nth (S i) edges 0 + nth i edges 0) / 2)).
  { unfold bin_centers. rewrite nth_error_map. assert (E : nth_error (seq 0 (n_edge_bins edges)) i = Some i); [|rewrite E; reflexivity]. rewrite (nth_error_nth' _ 0%nat) by (rewrite seq_length; unfold n_edge_bins; lia). rewrite seq_nth by (unfold n_edge_bins; lia). reflexivity. }
  unfold fit_residuals_gauss. destruct (C95_mean hist (bin_centers edges) (eq_sym Lb)) as [M1 M2]. destruct (get_mean_from_histogram hist (bin_centers edges)) as [m|] eqn:Em.
  2:{ assert (Z := proj1 M1 eq_refl c (nth_error_In _ _ Hi)). lia. }
  destruct (get_rms_from_histogram hist (bin_centers edges)) as [s|] eqn:Es.
  2:{ exfalso. unfold get_rms_from_histogram in Es. destruct (repeated hist (bin_centers edges)) eqn:Rp; [|discriminate]. assert (X : In ((nth (S i) edges 0 + nth i edges 0) / 2) (repeated hist (bin_centers edges))) by (apply repeated_In; eauto). rewrite Rp in X. destruct X. }
  assert (s = 0) as ->. { apply (C95_rms _ _ _ Es). intros j k d e x y H1 H2 H3 H4 H5 H6. assert (j = i) by (destruct (Nat.eq_dec j i); [auto|]; rewrite (H j d H1) in H5 by auto; lia). assert (k = i) by (destruct (Nat.eq_dec k i); [auto|]; rewrite (H k e H3) in H6 by auto; lia). subst. congruence. }
  assert (m = (nth (S i) edges 0 + nth i edges 0) / 2) as ->.
  { destruct (M2 m eq_refl) as [_ B]. specialize (B ((nth (S i) edges 0 + nth i edges 0) / 2) ((nth (S i) edges 0 + nth i edges 0) / 2)). apply Rle_antisym; apply B; intros j d x H1 H2 H3; (assert (j = i) by (destruct (Nat.eq_dec j i); [auto|]; rewrite (H j d H1) in H3 by auto; lia)); subst; rewrite Ci in H2; injection H2 as <-; lra. }
  destruct hist as [|h hs]; [destruct i; discriminate|]. cbv zeta. rewrite Em, Es. replace (Reqb 0 0) with true by (symmetry; apply Reqb_true; reflexivity). rewrite fold_max. assert (Mx : Nat.max h (fold_right Nat.max 0%nat hs) = c); [|rewrite Mx; reflexivity].
  clear -Hi H. change (fold_right Nat.max 0%nat (h :: hs) = c). revert i Hi H. generalize (h :: hs) as l. induction l as [|a l IH]; intros [|i] Hi H; try discriminate.
  - cbn in Hi. injection Hi as ->. cbn. assert (Z : fold_right Nat.max 0%nat l = 0%nat); [|lia]. assert (G : forall d, In d l -> d = 0%nat) by (intros d Hd; apply In_nth_error in Hd; destruct Hd as (j & Hj); apply (H (S j)); [exact Hj|lia]). clear -G. induction l as [|a l IH]; [reflexivity|]. cbn. rewrite (G a (or_introl eq_refl)), IH; [reflexivity|]. intros d Hd. apply G. right. exact Hd.
  - cbn in Hi. cbn. rewrite (H 0%nat a eq_refl) by lia. rewrite (IH i Hi); [lia|]. intros j d Hj Ne. apply (H (S j)); [exact Hj|lia].
Qed.

(** ** selection of bins *)
Lemma first_index_spec f l : match first_index f l with
  | Some i => (i < length l)%nat /\ f (nth i l 0) = true /\ forall j, (j < i)%nat -> f (nth j l 0) = false
  | None => forall i, (i < length l)%nat -> f (nth i l 0) = false end.
Proof.
  unfold first_index. assert (G : forall n s, match hd_error (filter (fun i => f (nth i l 0)) (seq s n)) with
    | Some i => (s <= i < s + n)%nat /\ f (nth i l 0) = true /\ forall j, (s <= j < i)%nat -> f (nth j l 0) = false | None => forall i, (s <= i < s + n)%nat -> f (nth i l 0) = false end).
  { induction n as [|n IH]; intros s; cbn [seq filter]; [cbn; intros; lia|]. destruct (f (nth s l 0)) eqn:E; [cbn; split; [lia|]; split; [exact E|]; intros; lia|]. specialize (IH (S s)). destruct (hd_error _) as [i|].
    - destruct IH as (I1 & I2 & I3). split; [lia|]. split; [exact I2|]. intros j Hj. destruct (Nat.eq_dec j s) as [->|]; [exact E|apply I3; lia].
    - intros i Hi. destruct (Nat.eq_dec i s) as [->|]; [exact E|apply IH; lia]. }
  specialize (G (length l) 0%nat). destruct (hd_error _) as [i|]; [destruct G as (G1 & G2 & G3); split; [lia|]; split; [exact G2|]; intros j Hj; apply G3; lia|intros i Hi; apply G; lia].
Qed.
Definition ascending (l : list R) : Prop := forall i j, (i <= j < length l)%nat -> nth i l 0 <= nth j l 0.
Lemma left_spec lo cs i : ascending cs -> (i < length cs)%nat -> (forall a, lo = Some a -> exists k, (k < length cs)%nat /\ a <= nth k cs 0) -> (select_left lo cs <= i)%nat <-> (forall a, lo = Some a -> a <= nth i cs 0).
Proof.
  intros As Hi Ex. unfold select_left. destruct lo as [a|]; [|split; [discriminate|lia]]. pose proof (first_index_spec (Rleb a) cs) as F. destruct (first_index (Rleb a) cs) as [k|].
  - destruct F as (F1 & F2 & F3). apply Rleb_true in F2. split.
    + intros Le b E. injection E as <-. assert (nth k cs 0 <= nth i cs 0) by (apply As; lia). lra.
    + intros H. specialize (H a eq_refl). destruct (le_lt_dec k i) as [|Lt]; [assumption|]. specialize (F3 i Lt). apply Rleb_false in F3. lra.
  - destruct (Ex a eq_refl) as (k & Hk & Ha). specialize (F k Hk). apply Rleb_false in F. lra.
Qed.
Lemma right_spec hi cs i : ascending cs -> (i < length cs)%nat -> (forall b, hi = Some b -> exists k, (k < length cs)%nat /\ nth k cs 0 <= b) -> (i < select_right hi cs)%nat <-> (forall b, hi = Some b -> nth i cs 0 <= b).
Proof.
  intros As Hi Ex. unfold select_right, last_index. destruct hi as [b|]; [|split; [discriminate|intros; lia]]. pose proof (first_index_spec (fun x => Rleb x b) (rev cs)) as F. rewrite rev_length in F. destruct (first_index _ (rev cs)) as [k|].
  - destruct F as (F1 & F2 & F3). rewrite rev_nth in F2 by exact F1. apply Rleb_true in F2. split.
    + intros Lt c E. injection E as <-. assert (nth i cs 0 <= nth (length cs - S k) cs 0) by (apply As; lia). lra.
    + intros H. specialize (H b eq_refl). destruct (le_lt_dec (length cs - k) i) as [Le|Lt]; [|assumption]. specialize (F3 (length cs - S i)%nat ltac:(lia)). rewrite rev_nth in F3 by lia. replace (length cs - S (length cs - S i))%nat with i in F3 by lia. apply Rleb_false in F3. lra.
  - destruct (Ex b eq_refl) as (k & Hk & Hb). specialize (F (length cs - S k)%nat ltac:(lia)). rewrite rev_nth in F by lia. replace (length cs - S (length cs - S k))%nat with k in F by lia. apply Rleb_false in F. lra.
Qed.
Lemma nth_error_combine_seq {A} (l : list A) s i a : nth_error l i = Some a -> nth_error (combine (seq s (length l)) l) i = Some ((s + i)%nat, a).
Proof. revert s i. induction l as [|b l IH]; intros s [|i] H; try discriminate; cbn in *; [injection H as ->; f_equal; f_equal; lia|]. rewrite (IH (S s) i H). f_equal. f_equal. lia. Qed.
(** With limits: the populated bins with a center between the limits, if there is a bin on the right side of every limit. *)
Theorem C95_limits sort centers count lo hi : ascending centers -> length count = length centers ->
  (forall a, lo = Some a -> exists k, (k < length centers)%nat /\ a <= nth k centers 0) -> (forall b, hi = Some b -> exists k, (k < length centers)%nat /\ nth k centers 0 <= b) ->
  exists sel, select_bins sort centers count (Some (lo, hi)) = Some sel /\ length sel = length count /\ forall i c, nth_error count i = Some c -> exists b, nth_error sel i = Some b /\
    (b = true <-> (0 < c)%nat /\ (forall a, lo = Some a -> a <= nth i centers 0) /\ (forall a, hi = Some a -> nth i centers 0 <= a)).
Proof.
  intros As L El Eh. eexists. split; [reflexivity|]. split; [rewrite map_length, combine_length, seq_length; lia|]. intros i c Hc. assert (Hi : (i < length centers)%nat) by (rewrite <- L; apply nth_error_Some; congruence).
  rewrite nth_error_map, (nth_error_combine_seq _ 0 _ _ Hc). cbn [option_map fst snd]. eexists. split; [reflexivity|]. rewrite !andb_true_iff, !Nat.ltb_lt, Nat.leb_le. cbn [Nat.add]. rewrite (left_spec lo centers i As Hi El), (right_spec hi centers i As Hi Eh). tauto.
Qed.
(** Otherwise the limit is ignored: with a lower limit above all bins, or an upper limit below all bins, the selection is the one without this limit. *)
Theorem C95_outside_refuted sort centers count a b lo hi :
  ((forall i, (i < length centers)%nat -> nth i centers 0 < a) -> select_bins sort centers count (Some (Some a, hi)) = select_bins sort centers count (Some (None, hi))) /\
  ((forall i, (i < length centers)%nat -> b < nth i centers 0) -> select_bins sort centers count (Some (lo, Some b)) = select_bins sort centers count (Some (lo, None))).
Proof.
  split; intros H; cbn [select_bins].
  - assert (E : select_left (Some a) centers = select_left None centers); [|rewrite E; reflexivity]. unfold select_left. pose proof (first_index_spec (Rleb a) centers) as F. destruct (first_index _ _) as [i|]; [|reflexivity]. destruct F as (F1 & F2 & _). specialize (H i F1). apply Rleb_true in F2. lra.
  - assert (E : select_right (Some b) centers = select_right None centers); [|rewrite E; reflexivity]. unfold select_right, last_index. pose proof (first_index_spec (fun x => Rleb x b) (rev centers)) as F. rewrite rev_length in F. destruct (first_index _ _) as [i|]; [|reflexivity]. destruct F as (F1 & F2 & _). rewrite rev_nth in F2 by exact F1. specialize (H (length centers - S i)%nat ltac:(lia)). apply Rleb_true in F2. lra.
Qed.
Lemma percentile_bounds sort q l t a b : sorts sort -> 0 <= q <= 1 -> percentile sort q l = Some t -> (forall x, In x l -> a <= x <= b) -> a <= t <= b.
Proof.
  intros So Q E H. unfold percentile in E. destruct l as [|x0 l0] eqn:El; [discriminate|]. rewrite <- El in *. assert (N : (0 < length l)%nat) by (rewrite El; cbn; lia). clear El x0 l0. destruct (So l) as [P S0]. set (s := sort l) in *. assert (Ls : length s = length l) by (apply Permutation_length; exact P).
  cbv zeta in E. apply (f_equal (fun o => match o with Some x => x | None => 0 end)) in E. set (v := q * INR (length l - 1)) in *. set (j := Z.to_nat (Int_part v)) in *.
  assert (V0 : 0 <= v) by (apply Rmult_le_pos; [lra|apply pos_INR]). assert (V1 : v <= INR (length l - 1)) by (unfold v; pose proof (pos_INR (length l - 1)); nra).
  destruct (base_Int_part v) as [B1 B2]. assert (Zi : (0 <= Int_part v)%Z) by (apply Z.lt_succ_r; apply lt_IZR; rewrite succ_IZR; lra).
  assert (Ij : INR j = IZR (Int_part v)) by (unfold j; rewrite INR_IZR_INZ, Z2Nat.id by exact Zi; reflexivity). assert (Hj : (j < length l)%nat). { assert (INR j <= INR (length l - 1)) by lra. apply INR_le in H0. lia. }
  assert (I : forall k, (k < length s)%nat -> a <= nth k s 0 <= b) by (intros k Hk; apply H; eapply Permutation_in; [exact P|]; apply nth_In; exact Hk).
  assert (A := I j ltac:(lia)). assert (B : a <= nth (S j) s (nth j s 0) <= b) by (destruct (le_lt_dec (length s) (S j)) as [Le|Lt]; [rewrite nth_overflow by exact Le; exact A|rewrite (nth_indep _ _ 0) by exact Lt; apply I; exact Lt]).
  assert (F : 0 <= v - INR j <= 1) by lra. rewrite <- E. set (g := v - INR j) in *. set (y := nth j s 0) in *. set (z := nth (S j) s y) in *. split; nra.
Qed.
(** Without limits the bins with the lowest number of entries are never used; a bin with more entries than a selected bin is selected. *)
Theorem C95_threshold sort centers count sel : sorts sort -> select_bins sort centers count None = Some sel ->
  length sel = length count /\
  (forall i c, nth_error count i = Some c -> (forall d, In d count -> (0 < d)%nat -> (c <= d)%nat) -> nth_error sel i = Some false) /\
  (forall i j c d, nth_error count i = Some c -> nth_error count j = Some d -> (c <= d)%nat -> nth_error sel i = Some true -> nth_error sel j = Some true).
Proof.
  intros So E. cbn [select_bins] in E. destruct (percentile sort (32 / 100) (select_counts count)) as [t|] eqn:P; [|discriminate]. apply (f_equal (fun o => match o with Some x => x | None => [] end)) in E. cbv beta iota in E. rewrite <- E. split; [apply map_length|]. split.
  - intros i c Hc Min. rewrite nth_error_map, Hc. cbn [option_map]. f_equal. destruct (Nat.ltb_spec 0 c) as [Pos|]; [|reflexivity]. cbn [andb]. apply Rltb_false.
    assert (B : INR c <= t <= INR (list_sum count)); [|lra]. apply (percentile_bounds sort (32 / 100) (select_counts count) t _ _ So ltac:(lra) P). intros x Hx. unfold select_counts in Hx. apply in_map_iff in Hx. destruct Hx as (d & <- & Hd). apply filter_In in Hd. destruct Hd as [Hd Pd]. apply Nat.ltb_lt in Pd. split; apply le_INR; [apply Min; assumption|].
    clear -Hd. induction count as [|e l IH]; [destruct Hd|]. change (list_sum (e :: l)) with (e + list_sum l)%nat. destruct Hd as [->|Hd]; [lia|specialize (IH Hd); lia].
  - intros i j c d Hc Hd Le. rewrite !nth_error_map, Hc, Hd. cbn [option_map]. intros X. injection X as X. apply andb_true_iff in X. destruct X as [X1 X2]. apply Nat.ltb_lt in X1. apply Rltb_true in X2. f_equal. apply andb_true_iff. split; [apply Nat.ltb_lt; lia|]. apply Rltb_true. apply le_INR in Le. lra.
Qed.
(** If all populated bins have the same number of entries, none is selected and there is no line. *)
Theorem C95_uniform_refuted sort fit line hist xedges yedges count c : sorts sort -> (0 < c)%nat -> In c count -> (forall d, In d count -> d = c \/ d = 0%nat) ->
  exists sel means, fit_residuals_vs_position sort fit line hist xedges yedges count None = Some (None, sel, means) /\ forall b, In b sel -> b = false.
Proof.
  intros So Pc Ic H. unfold fit_residuals_vs_position. destruct (select_bins sort (bin_centers xedges) count None) as [sel|] eqn:E.
  2:{ cbn [select_bins] in E. destruct (percentile _ _ _) eqn:P; [discriminate|]. unfold percentile in P. destruct (select_counts count) eqn:Sc; [|discriminate]. assert (X : In (INR c) (select_counts count)) by (unfold select_counts; apply in_map, filter_In; split; [exact Ic|apply Nat.ltb_lt; exact Pc]). rewrite Sc in X. destruct X. }
  destruct (C95_threshold _ _ _ _ So E) as (L & T & _). assert (F : forall b, In b sel -> b = false).
  { intros b Hb. apply In_nth_error in Hb. destruct Hb as (i & Hb). assert (Hi : (i < length count)%nat) by (rewrite <- L; apply nth_error_Some; congruence). destruct (nth_error count i) as [d|] eqn:Hd; [|apply nth_error_None in Hd; lia].
    assert (X : nth_error sel i = Some false); [|congruence]. apply (T i d Hd). intros e He Pe. destruct (H d (nth_error_In _ _ Hd)) as [->| ->]; [|lia]. destruct (H e He) as [->| ->]; lia. }
  cbv zeta. do 2 eexists. split.
  - do 3 f_equal. assert (Z : forall cs ms, line_points cs ms count sel = []); [|rewrite Z; reflexivity]. intros cs ms. unfold line_points. match goal with |- map _ ?l = _ => assert (Zl : l = []); [|rewrite Zl; reflexivity] end.
    clear -F. generalize (combine (combine cs count) ms). induction sel as [|b sel IH]; intros [|r rs]; try reflexivity. cbn [combine filter fst]. rewrite (F b (or_introl eq_refl)). cbn [andb]. apply IH. intros x Hx. apply F. right. exact Hx.
  - intros b Hb. apply in_map_iff in Hb. destruct Hb as ([x m] & <- & Hx). apply in_combine_l in Hx. cbn [fst snd]. rewrite (F x Hx). reflexivity.
Qed.
(** ** the line *)
Lemma rows_indices : forall (sel : list bool) (centers : list R) (count : list nat) (means : list (option R)) s, length centers = length sel -> length count = length sel -> length means = length sel ->
  Forall2 (fun i r => nth_error centers (i - s) = Some (fst (fst (snd r))) /\ nth_error count (i - s) = Some (snd (fst (snd r))) /\ nth_error means (i - s) = Some (snd (snd r)) /\ nth_error sel (i - s) = Some true /\ snd (snd r) <> None)
    (filter (fun i => nth (i - s) (map (fun sm => fst sm && match snd sm with Some _ => true | None => false end) (combine sel means)) false) (seq s (length sel)))
    (filter (fun r => fst r && match snd (snd r) with Some _ => true | None => false end) (combine sel (combine (combine centers count) means))).
Proof.
  induction sel as [|b sel IH]; intros [|c centers] [|n count] [|m means] s L1 L2 L3; try discriminate; [constructor|]. cbn [combine length seq map filter fst snd]. rewrite Nat.sub_diag. cbn [nth].
  assert (T : Forall2 (fun i r => nth_error (c :: centers) (i - s) = Some (fst (fst (snd r))) /\ nth_error (n :: count) (i - s) = Some (snd (fst (snd r))) /\ nth_error (m :: means) (i - s) = Some (snd (snd r)) /\ nth_error (b :: sel) (i - s) = Some true /\ snd (snd r) <> None)
    (filter (fun i => nth (i - s) ((b && match m with Some _ => true | None => false end) :: map (fun sm => fst sm && match snd sm with Some _ => true | None => false end) (combine sel means)) false) (seq (S s) (length sel)))
    (filter (fun r => fst r && match snd (snd r) with Some _ => true | None => false end) (combine sel (combine (combine centers count) means)))).
  { specialize (IH centers count means (S s) ltac:(cbn in L1; lia) ltac:(cbn in L2; lia) ltac:(cbn in L3; lia)).
    assert (E : filter (fun i => nth (i - s) ((b && match m with Some _ => true | None => false end) :: map (fun sm => fst sm && match snd sm with Some _ => true | None => false end) (combine sel means)) false) (seq (S s) (length sel)) = filter (fun i => nth (i - S s) (map (fun sm => fst sm && match snd sm with Some _ => true | None => false end) (combine sel means)) false) (seq (S s) (length sel))).
    { apply filter_ext_in. intros i Hi. apply in_seq in Hi. replace (i - s)%nat with (S (i - S s)) by lia. reflexivity. }
    rewrite E. assert (Q : forall i, In i (filter (fun i => nth (i - S s) (map (fun sm => fst sm && match snd sm with Some _ => true | None => false end) (combine sel means)) false) (seq (S s) (length sel))) -> (S s <= i)%nat) by (intros i Hi; apply filter_In in Hi; destruct Hi as [Hi _]; apply in_seq in Hi; lia).
    revert IH Q. generalize (filter (fun i => nth (i - S s) (map (fun sm => fst sm && match snd sm with Some _ => true | None => false end) (combine sel means)) false) (seq (S s) (length sel))). clear. intros l F Q. induction F as [|i r l rs H F IH]; constructor.
    - assert (S s <= i)%nat by (apply Q; left; reflexivity). replace (i - s)%nat with (S (i - S s)) by lia. exact H.
    - apply IH. intros j Hj. apply Q. right. exact Hj. }
  destruct (b && match m with Some _ => true | None => false end) eqn:E; [|exact T]. constructor; [|exact T]. rewrite Nat.sub_diag. cbn. apply andb_true_iff in E. destruct E as [-> E]. repeat split. destruct m; [discriminate|discriminate E].
Qed.
(** The line is fitted to the centers and mean residuals of exactly the selected bins, if there are at least two.  The error of a bin is proportional to 1 / (number of its entries) (not to the square root). *)
Theorem C95_line sort fit line hist xedges yedges count limit f sel means : length xedges = S (length count) -> length hist = length count -> fit_residuals_vs_position sort fit line hist xedges yedges count limit = Some (f, sel, means) ->
  let selected := filter (fun i => nth i sel false) (seq 0 (length count)) in
  length sel = length count /\ length means = length count /\ (f = None <-> (length selected < 2)%nat) /\
  forall r, f = Some r -> exists points, r = line points /\ Forall2 (fun i p => fst (fst p) = (nth (S i) xedges 0 + nth i xedges 0) / 2 /\ nth_error means i = Some (Some (snd (fst p))) /\ (0 < nth i count 0)%nat /\
    snd p * INR (nth i count 0%nat) = INR (list_sum (map (fun i => nth i count 0%nat) selected))) selected points.
Proof.
  intros Lx Lh. unfold fit_residuals_vs_position. destruct (select_bins sort (bin_centers xedges) count limit) as [sel0|] eqn:Es; [|discriminate]. intros E. assert (E1 := f_equal (fun o => match o with Some (x, _, _) => x | None => None end) E). assert (E2 := f_equal (fun o => match o with Some (_, x, _) => x | None => [] end) E). assert (E3 := f_equal (fun o => match o with Some (_, _, x) => x | None => [] end) E). cbv beta iota zeta in E1, E2, E3. clear E. cbv zeta.
  assert (Lc : length (bin_centers xedges) = length count) by (unfold bin_centers, n_edge_bins; rewrite map_length, seq_length; lia).
  assert (Ls0 : length sel0 = length count /\ forall i, nth_error sel0 i = Some true -> (0 < nth i count 0)%nat).
  { assert (Z : forall i (c : nat), nth_error count i = Some c -> nth i count 0%nat = c) by (intros i c H; apply nth_error_nth; exact H).
    destruct limit as [[lo hi]|]; cbn [select_bins] in Es.
    - apply (f_equal (fun o => match o with Some x => x | None => [] end)) in Es. cbv beta iota zeta in Es. rewrite <- Es. split; [rewrite map_length, combine_length, seq_length; lia|]. intros i H. rewrite nth_error_map in H. destruct (nth_error count i) as [c|] eqn:Hc.
      + rewrite (nth_error_combine_seq _ 0 _ _ Hc) in H. cbn [option_map fst snd] in H. injection H as H. apply andb_true_iff in H. destruct H as [H _]. apply Nat.ltb_lt in H. rewrite (Z _ _ Hc). exact H.
      + apply nth_error_None in Hc. assert (N : nth_error (combine (seq 0 (length count)) count) i = None) by (apply nth_error_None; rewrite combine_length, seq_length; lia). rewrite N in H. discriminate.
    - destruct (percentile _ _ _) as [t|]; [|discriminate]. apply (f_equal (fun o => match o with Some x => x | None => [] end)) in Es. cbv beta iota zeta in Es. rewrite <- Es. split; [apply map_length|]. intros i H. rewrite nth_error_map in H. destruct (nth_error count i) as [c|] eqn:Hc; [|discriminate]. cbn [option_map] in H. injection H as H. apply andb_true_iff in H. destruct H as [H _]. apply Nat.ltb_lt in H. rewrite (Z _ _ Hc). exact H. }
  destruct Ls0 as [Ls0 Pos]. assert (Lm : length means = length count) by (rewrite <- E3; unfold mean_fits; rewrite map_length; exact Lh). rewrite E3 in *. 
  assert (F := rows_indices sel0 (bin_centers xedges) count means 0 ltac:(lia) ltac:(lia) ltac:(lia)). rewrite E2, Ls0 in F. set (rows := filter _ (combine sel0 _)) in F.
  assert (Ei : filter (fun i => nth (i - 0) sel false) (seq 0 (length count)) = filter (fun i => nth i sel false) (seq 0 (length count))) by (apply filter_ext; intros i; rewrite Nat.sub_0_r; reflexivity). rewrite Ei in F. set (idx := filter (fun i => nth i sel false) (seq 0 (length count))) in *.
  assert (LF : length idx = length rows) by (clear -F; induction F; cbn; congruence). assert (Lp : length (line_points (bin_centers xedges) means count sel0) = length rows) by (unfold line_points; rewrite map_length; reflexivity).
  split; [rewrite <- E2, map_length, combine_length; lia|]. split; [exact Lm|]. split.
  - rewrite <- E1, Lp, LF. destruct (Nat.ltb_spec 1 (length rows)); split; try discriminate; try lia; auto.
  - intros r Er. rewrite Er, Lp in E1. destruct (1 <? length rows)%nat; [|discriminate]. injection E1 as E1. exists (line_points (bin_centers xedges) means count sel0). split; [congruence|]. unfold line_points. fold rows.
    assert (Tt : list_sum (map (fun r : bool * (R * nat * option R) => snd (fst (snd r))) rows) = list_sum (map (fun i => nth i count 0%nat) idx)).
    { clear -F. induction F as [|i r l rs (H1 & H2 & _) F IH]; [reflexivity|]. cbn [map]. change (list_sum (?a :: ?l)) with (a + list_sum l)%nat. rewrite IH. f_equal. rewrite Nat.sub_0_r in H2. symmetry. apply nth_error_nth. exact H2. }
    cbv zeta. rewrite Tt. generalize (INR (list_sum (map (fun i => nth i count 0%nat) idx))) as total. intros total. clear -F Pos Lc. induction F as [|i r l rs (H1 & H2 & H3 & H4 & H5) F IH]; cbn [map]; constructor; [|exact IH]. rewrite Nat.sub_0_r in *. cbn [fst snd].
    assert (Hi : (i < length (bin_centers xedges))%nat) by (apply nth_error_Some; congruence). assert (P := Pos i H4). split; [|split; [|split; [exact P|]]].
    + unfold bin_centers in H1, Hi. rewrite map_length, seq_length in Hi. rewrite nth_error_map, (nth_error_nth' _ 0%nat) in H1 by (rewrite seq_length; exact Hi). rewrite seq_nth in H1 by exact Hi. cbn in H1. injection H1 as H1. symmetry. exact H1.
    + rewrite H3. destruct (snd (snd r)); [reflexivity|contradiction].
    + rewrite (nth_error_nth _ _ _ H2) in *. field. apply not_0_INR. lia.
Qed.
(** The mean residual of a bin of positions: nan if and only if there are no entries; the center of the only populated bin; otherwise the result of the fit and, if this fails,
    the mean of the histogram, where the deviations add up to zero. *)
Theorem C95_means sort fit line hist xedges yedges count limit f sel means i row : fit_residuals_vs_position sort fit line hist xedges yedges count limit = Some (f, sel, means) -> nth_error hist i = Some row ->
  increasing yedges -> length yedges = S (length row) ->
  exists m, nth_error means i = Some m /\ (m = None <-> forall c, In c row -> c = 0%nat) /\
    (forall j c, nth_error row j = Some c -> (0 < c)%nat -> (forall k d, nth_error row k = Some d -> k <> j -> d = 0%nat) -> m = Some ((nth (S j) yedges 0 + nth j yedges 0) / 2)) /\
    (forall j k c d, (j < k)%nat -> nth_error row j = Some c -> nth_error row k = Some d -> (0 < c)%nat -> (0 < d)%nat ->
      (forall A v s, (forall start, fit (bin_centers yedges) row start = Some (A, v, s)) -> m = Some v) /\
      ((forall start, fit (bin_centers yedges) row start = None) -> exists v, m = Some v /\ sum (map (fun cp => INR (fst cp) * (snd cp - v)) (combine row (bin_centers yedges))) = 0)).
Proof.
  intros E Hi Inc L. assert (E3 : means = mean_fits fit hist yedges).
  { unfold fit_residuals_vs_position in E. destruct (select_bins sort (bin_centers xedges) count limit) as [sel0|]; [|discriminate]. apply (f_equal (fun o => match o with Some (_, _, x) => x | None => [] end)) in E. cbv beta iota zeta in E. congruence. }
  assert (Lb : length (bin_centers yedges) = length row) by (unfold bin_centers, n_edge_bins; rewrite map_length, seq_length; lia).
  assert (Cn : forall j, (j < length row)%nat -> nth_error (bin_centers yedges) j = Some ((nth (S j) yedges 0 + nth j yedges 0) / 2)).
  { intros j Hj. unfold bin_centers. rewrite nth_error_map. assert (X : nth_error (seq 0 (n_edge_bins yedges)) j = Some j); [|rewrite X; reflexivity]. rewrite (nth_error_nth' _ 0%nat) by (rewrite seq_length; unfold n_edge_bins; lia). rewrite seq_nth by (unfold n_edge_bins; lia). reflexivity. }
  exists (if (list_sum row =? 0)%nat then None else option_map (fun p => snd (fst p)) (fit_residuals_gauss fit row yedges)). split; [rewrite E3; unfold mean_fits; rewrite nth_error_map, Hi; reflexivity|].
  destruct (C95_mean row (bin_centers yedges) (eq_sym Lb)) as [M1 M2]. 
  assert (Sum0 : forall c, In c row -> (0 < c)%nat -> (list_sum row =? 0)%nat = false). { clear. intros c Hc P. apply Nat.eqb_neq. induction row as [|d ds IH]; [destruct Hc|]. change (d + list_sum ds <> 0)%nat. destruct Hc as [->|Hc]; [lia|specialize (IH Hc); lia]. }
  assert (Def : forall c, In c row -> (0 < c)%nat -> exists m s, get_mean_from_histogram row (bin_centers yedges) = Some m /\ get_rms_from_histogram row (bin_centers yedges) = Some s).
  { intros c Hc P. destruct (get_mean_from_histogram row (bin_centers yedges)) as [m|] eqn:Em; [|assert (Z := proj1 M1 eq_refl c Hc); lia]. exists m. unfold get_rms_from_histogram. apply In_nth_error in Hc. destruct Hc as (j & Hj). assert (Lj : (j < length row)%nat) by (apply nth_error_Some; congruence).
    assert (X : In ((nth (S j) yedges 0 + nth j yedges 0) / 2) (repeated row (bin_centers yedges))) by (apply repeated_In; exists j, c; auto). destruct (repeated row (bin_centers yedges)); [destruct X|]. eexists. split; reflexivity. }
  split; [|split].
  - split.
    + intros Z. destruct (Nat.eqb_spec (list_sum row) 0) as [Z0|Z0].
      * intros c Hc. destruct c; [reflexivity|]. specialize (Sum0 _ Hc ltac:(lia)). discriminate.
      * exfalso. assert (X : exists c, In c row /\ (0 < c)%nat). { clear -Z0. induction row as [|d ds IH]; [destruct Z0; reflexivity|]. change (d + list_sum ds <> 0)%nat in Z0. destruct d; [destruct IH as (c & ? & ?); [lia|]; exists c; split; [right|]; auto|exists (S d); split; [left; reflexivity|lia]]. }
        destruct X as (c & Hc & P). destruct (Def c Hc P) as (m & s & Em & Es). unfold fit_residuals_gauss in Z. destruct row as [|h hs]; [destruct Hc|]. cbv zeta in Z. rewrite Em, Es in Z. destruct (Reqb s 0); [discriminate|]. destruct (fit _ _ _); discriminate.
    + intros H. assert (Z : list_sum row = 0%nat); [|rewrite Z; reflexivity]. clear -H. induction row as [|d ds IH]; [reflexivity|]. change (d + list_sum ds = 0)%nat. rewrite (H d (or_introl eq_refl)), IH; [reflexivity|]. intros c Hc. apply H. right. exact Hc.
  - intros j c Hj P O. rewrite (Sum0 c (nth_error_In _ _ Hj) P), (C95_single_bin fit row yedges j c L Hj P O). reflexivity.
  - intros j k c d Jk Hj Hk P Q. rewrite (Sum0 c (nth_error_In _ _ Hj) P). destruct (Def c (nth_error_In _ _ Hj) P) as (m & s & Em & Es).
    assert (Lk : (k < length row)%nat) by (apply nth_error_Some; congruence).
    assert (S0 : s <> 0).
    { intros Z. assert (W := proj1 (proj2 (C95_rms _ _ _ Es)) Z j k c d _ _ Hj (Cn j ltac:(lia)) Hk (Cn k Lk) P Q).
      assert (Mono : forall a b, (a < b)%nat -> (b < length yedges)%nat -> nth a yedges 0 < nth b yedges 0) by (intros a b Ab Hb; induction Ab as [|b Ab IH]; [apply Inc; exact Hb|]; apply Rlt_trans with (nth b yedges 0); [apply IH; lia|apply Inc; exact Hb]).
      pose proof (Mono j k Jk ltac:(lia)). pose proof (Mono (S j) (S k) ltac:(lia) ltac:(lia)). lra. }
    unfold fit_residuals_gauss. destruct row as [|h hs]; [destruct j; discriminate|]. cbv zeta. rewrite Em, Es. destruct (Reqb s 0) eqn:Z; [apply Reqb_true in Z; contradiction|]. split.
    + intros A v w F. rewrite F. reflexivity.
    + intros F. rewrite F. exists m. split; [reflexivity|]. apply (M2 m Em).
Qed.
Example C95_example : get_mean_from_histogram [1; 2; 1]%nat [1; 2; 3] = Some 2 /\ fit_residuals_gauss (fun _ _ _ => None) [0; 7; 0]%nat [0; 1; 2; 3] = Some (7, 3 / 2, 0).
Proof.
  split.
  - unfold get_mean_from_histogram, dot_counts. cbn. f_equal. field.
  - replace (3 / 2) with ((nth 2 [0; 1; 2; 3] 0 + nth 1 [0; 1; 2; 3] 0) / 2) by (cbn; lra). replace 7 with (INR 7) by (cbn; lra). apply (C95_single_bin _ _ _ 1); [reflexivity|reflexivity|lia|]. intros [|[|[|j]]] d E N; cbn in E; try congruence; try lia. destruct j; discriminate.
Qed.

Print Assumptions C95_mean.
Print Assumptions C95_rms.
Print Assumptions C95_binned.
Print Assumptions C95_median.
Print Assumptions C95_single_bin.
Print Assumptions C95_limits.
Print Assumptions C95_outside_refuted.
Print Assumptions C95_threshold.
Print Assumptions C95_uniform_refuted.
Print Assumptions C95_line.
Print Assumptions C95_means.
