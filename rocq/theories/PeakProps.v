(** C158: detection of the peak of a histogram with its full width at half maximum. *)
From Coq Require Import List Bool Arith Reals Lra Lia.
From Verif Require Import PeakModel.
Import ListNotations.
Local Open Scope R_scope.

(** ** Specification *)
(** the first of the largest values *)
Definition first_largest (y : list R) (k : nat) : Prop := exists m, nth_error y k = Some m /\ (forall i v, nth_error y i = Some v -> v <= m) /\ (forall i v, (i < k)%nat -> nth_error y i = Some v -> v < m).
(** the data which are searched for zeros: the values with respect to half of the largest *)
Definition above_half (y z : list R) : Prop := exists k m, first_largest y k /\ nth_error y k = Some m /\ Forall2 (fun v w => 2 * w = 2 * v - m) y z.

(** ** Proofs *)
Lemma argmax_from_spec pre : forall l best at_index, nth_error pre at_index = Some best -> (forall i v, nth_error pre i = Some v -> v <= best) -> (forall i v, (i < at_index)%nat -> nth_error pre i = Some v -> v < best) ->
  first_largest (pre ++ l) (argmax_from best at_index (length pre) l).
Proof.
  intros l. revert pre. induction l as [|v l IH]; intros pre best k K U F; cbn [argmax_from].
  - rewrite app_nil_r. exists best. auto.
  - assert (A : pre ++ v :: l = (pre ++ [v]) ++ l) by (rewrite <- app_assoc; reflexivity). assert (Len : S (length pre) = length (pre ++ [v])) by (rewrite app_length; cbn; lia). assert (Kl : (k < length pre)%nat) by (apply nth_error_Some; congruence).
    assert (N : forall i w, nth_error (pre ++ [v]) i = Some w -> nth_error pre i = Some w /\ (i < length pre)%nat \/ w = v /\ i = length pre).
    { intros i w H. destruct (Nat.lt_ge_cases i (length pre)) as [L|L]; [left; rewrite nth_error_app1 in H by exact L; auto|right]. rewrite nth_error_app2 in H by exact L. destruct (i - length pre)%nat as [|j] eqn:D; [injection H; intros; split; [auto|lia]|destruct j; discriminate]. }
    rewrite A, Len. destruct (Rlt_dec best v) as [L|L].
    + apply IH; [rewrite nth_error_app2, Nat.sub_diag by lia; reflexivity| |].
      * intros i w H. destruct (N i w H) as [(H' & _)|(-> & _)]; [specialize (U i w H'); lra|lra].
      * intros i w I H. destruct (N i w H) as [(H' & _)|(_ & ->)]; [specialize (U i w H'); lra|lia].
    + apply IH; [rewrite nth_error_app1 by exact Kl; exact K| |].
      * intros i w H. destruct (N i w H) as [(H' & _)|(-> & _)]; [exact (U i w H')|lra].
      * intros i w I H. destruct (N i w H) as [(H' & _)|(_ & ->)]; [exact (F i w I H')|lia].
Qed.
Lemma argmax_spec y : y <> [] -> first_largest y (argmax y).
Proof.
  destruct y as [|a l]; intros H; [contradiction|]. unfold argmax. apply (argmax_from_spec [a] l a 0); [reflexivity| |intros i v I; lia]. intros [|i] v E; [injection E as <-; lra|destruct i; discriminate].
Qed.
Lemma fold_max l : forall a, In (fold_left Rmax l a) (a :: l) /\ forall v, In v (a :: l) -> v <= fold_left Rmax l a.
Proof.
  induction l as [|b l IH]; intros a; cbn [fold_left]; [split; [left; reflexivity|intros v [<-|[]]; lra]|]. destruct (IH (Rmax a b)) as (I & U). pose proof (Rmax_l a b). pose proof (Rmax_r a b). pose proof (U (Rmax a b) (or_introl eq_refl)) as M. split.
  - destruct I as [I|I]; [|right; right; exact I]. rewrite <- I. unfold Rmax. destruct (Rle_dec a b); [right; left|left]; reflexivity.
  - intros v [<-|[<-|J]]; [lra|lra|apply U; right; exact J].
Qed.
Lemma np_max_spec y m : np_max y = Some m -> nth_error y (argmax y) = Some m.
Proof.
  destruct y as [|a l]; [discriminate|]. intros [= <-]. destruct (fold_max l a) as (I & U). destruct (argmax_spec (a :: l)) as (n & N & V & _); [discriminate|]. rewrite N. f_equal. apply Rle_antisym; [apply U; exact (nth_error_In _ _ N)|]. apply In_nth_error in I. destruct I as (i & I). exact (V i _ I).
Qed.
Lemma fwhm_data y m : np_max y = Some m -> above_half y (map (fun v => v - m / 2) y).
Proof.
  intros M. assert (N : y <> []) by (intros ->; discriminate). exists (argmax y), m. split; [apply argmax_spec; exact N|]. split; [apply np_max_spec; exact M|]. clear. induction y as [|a y IH]; cbn [map]; constructor; [lra|exact IH].
Qed.
Lemma above_half_unique y z z' : above_half y z -> above_half y z' -> z = z'.
Proof.
  intros (k & m & (a & A & U & _) & M & F) (k' & m' & (a' & A' & U' & _) & M' & F'). assert (m = m') by (apply Rle_antisym; [rewrite A' in M'; injection M' as <-; exact (U' k m M)|rewrite A in M; injection M as <-; exact (U k' m' M')]). subst m'.
  clear - F F'. revert z' F'. induction F as [|v w y z E F IH]; intros z' F'; inversion F' as [|? w' ? z'' E' F'']; subst; [reflexivity|]. f_equal; [lra|apply IH; exact F''].
Qed.
(** If the data have exactly two zeros with respect to half of the largest value, the result is the first position of the largest value, the middle and the distance of the zeros and the zeros themselves. *)
Theorem C158_peak roots x y z a b : above_half y z -> length x = length y -> roots x z = inr [a; b] ->
  exists p k, peak_detect roots x y = inr (p, (a + b) / 2, b - a, (a, b)) /\ first_largest y k /\ nth_error x k = Some p.
Proof.
  intros H L R. assert (N : y <> []) by (intros ->; destruct H as ([|k] & m & (n & E & _) & _); discriminate). destruct (np_max y) as [m|] eqn:M; [|destruct y; [contradiction|discriminate]]. assert (E := above_half_unique _ _ _ H (fwhm_data y m M)). unfold peak_detect, fwhm. rewrite M, <- E, R.
  exists (nth (argmax y) x 0), (argmax y). split; [reflexivity|]. split; [apply argmax_spec; exact N|]. apply nth_error_nth'. rewrite L. apply nth_error_Some. rewrite (np_max_spec y m M). discriminate.
Qed.
(** Every other number of zeros and a TypeError of the spline (too few points) are a RuntimeError, which the callers handle; a ValueError (also of an empty histogram) is not changed. *)
Theorem C158_errors roots x y : (y = [] -> peak_detect roots x y = inl PeakValueError) /\
  forall z, above_half y z -> (forall l, roots x z = inr l -> length l <> 2%nat -> peak_detect roots x y = inl PeakRuntimeError) /\ (forall e, roots x z = inl e -> peak_detect roots x y = inl (match e with PeakValueError => PeakValueError | _ => PeakRuntimeError end)).
Proof.
  split; [intros ->; reflexivity|]. intros z H. assert (N : y <> []) by (intros ->; destruct H as ([|k] & m & (n & E & _) & _); discriminate). destruct (np_max y) as [m|] eqn:M; [|destruct y; [contradiction|discriminate]]. assert (E := above_half_unique _ _ _ H (fwhm_data y m M)). unfold peak_detect, fwhm. rewrite M, <- E. split.
  - intros l -> Hl. destruct l as [|a [|b [|c l]]]; try reflexivity. cbn in Hl. lia.
  - intros e ->. destruct e; reflexivity.
Qed.
(** The number of entries does not matter: multiplying all values by a positive number gives the same result, if the spline has this property. *)
Theorem C158_scale roots x y c : 0 < c -> (forall z, roots x (map (Rmult c) z) = roots x z) -> peak_detect roots x (map (Rmult c) y) = peak_detect roots x y.
Proof.
  intros C R. assert (X : np_max (map (Rmult c) y) = option_map (Rmult c) (np_max y)).
  { destruct y as [|a l]; [reflexivity|]. cbn [map np_max option_map]. f_equal. revert a. induction l as [|b l IH]; intros a; cbn [map fold_left]; [reflexivity|]. rewrite RmaxRmult by lra. apply IH. }
  assert (A : argmax (map (Rmult c) y) = argmax y).
  { clear X. destruct y as [|a l]; [reflexivity|]. cbn [map argmax]. generalize 0%nat 1%nat. revert a. induction l as [|b l IH]; intros a k i; cbn [map argmax_from]; [reflexivity|]. destruct (Rlt_dec (c * a) (c * b)) as [L|L], (Rlt_dec a b) as [L'|L']; [apply IH|exfalso; apply L'; apply (Rmult_lt_reg_l c); assumption|exfalso; apply L; apply Rmult_lt_compat_l; assumption|apply IH]. }
  unfold peak_detect, fwhm. rewrite X, A. destruct (np_max y) as [m|]; [|reflexivity]. cbn [option_map]. replace (map (fun v => v - c * m / 2) (map (Rmult c) y)) with (map (Rmult c) (map (fun v => v - m / 2) y)) by (rewrite !map_map; apply map_ext; intros v; lra). rewrite R. reflexivity.
Qed.
(** "The width is that of the peak above its background" is false: a constant background of at least the height of the peak makes all values positive with respect to half of the largest, so that a spline without zeros for positive data finds no peak. *)
Theorem C158_background_refuted roots x y h b : y <> [] -> (forall v, In v y -> 0 <= v <= h) -> 0 < h -> h < b -> (forall z, (forall w, In w z -> 0 < w) -> roots x z = inr []) -> peak_detect roots x (map (Rplus b) y) = inl PeakRuntimeError.
Proof.
  intros N H P B R. destruct (np_max (map (Rplus b) y)) as [m|] eqn:M; [|destruct y; [contradiction|discriminate]]. unfold peak_detect, fwhm. rewrite M, R; [reflexivity|]. intros w W. apply in_map_iff in W. destruct W as (v & <- & V). apply in_map_iff in V. destruct V as (u & <- & V). destruct (H u V) as (H1 & H2).
  apply np_max_spec, nth_error_In, in_map_iff in M. destruct M as (q & <- & Q). destruct (H q Q) as (_ & H3). lra.
Qed.

(** Non-vacuity: a triangle whose zeros are those of the straight lines, and the same with a background. *)
Example C158_case : above_half [0; 4; 8; 4; 0] [-4; 0; 4; 0; -4] /\ exists roots : list R -> list R -> peak_error + list R, roots [0; 1; 2; 3; 4] [-4; 0; 4; 0; -4] = inr [1; 3] /\ forall z, (forall w, In w z -> 0 < w) -> roots [0; 1; 2; 3; 4] z = inr [].
Proof.
  split.
  - exists 2%nat, 8. split; [|split; [reflexivity|repeat constructor; lra]]. exists 8. split; [reflexivity|]. split; [intros [|[|[|[|[|[|i]]]]]] v E; cbn in E; try discriminate; injection E as <-; lra|]. intros [|[|i]] v I E; [injection E as <-; lra|injection E as <-; lra|lia].
  - exists (fun _ z => match z with a :: _ => if Rlt_dec 0 a then inr [] else inr [1; 3] | [] => inr [] end). split; [destruct (Rlt_dec 0 (-4)); [lra|reflexivity]|]. intros [|a z] H; [reflexivity|]. destruct (Rlt_dec 0 a) as [_|N]; [reflexivity|]. exfalso. apply N, H. left. reflexivity.
Qed.

Print Assumptions C158_peak.
Print Assumptions C158_errors.
Print Assumptions C158_scale.
Print Assumptions C158_background_refuted.
