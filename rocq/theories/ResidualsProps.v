(** C90: histogram of the residuals and the detection of its peak. *)
From Coq Require Import List Arith ZArith Reals Bool Lia Lra.
From Verif Require Import GeometryModel GeometryProofs CorrelateModel CorrelateBinsProps PrealignModel PrealignProps HoughProps RunningMeanModel RunningMeanProps TrackAngleModel TrackAngleProps CoordinatesProps ResidualsModel.
Import ListNotations.
Local Open Scope R_scope.

(** ** simple_peak_detect *)
Lemma last_cons {A} (a d : A) l : last (a :: l) d = last l a.
Proof. revert a d. induction l as [|b l IH]; intros a d; [reflexivity|]. change (last (b :: l) d = last (b :: l) a). rewrite !IH. reflexivity. Qed.
Lemma filter_seq P s m i is : filter P (seq s m) = i :: is ->
  (s <= i)%nat /\ P i = true /\ (forall k, (s <= k < i)%nat -> P k = false) /\
  (i <= last is i < s + m)%nat /\ P (last is i) = true /\ (forall k, (last is i < k < s + m)%nat -> P k = false).
Proof.
  revert s i is. induction m as [|m IH]; intros s i is E; cbn [seq filter] in E; [discriminate|]. destruct (P s) eqn:Ps.
  - injection E as <- E. split; [lia|]. split; [exact Ps|]. split; [intros; lia|]. destruct is as [|i' is].
    + cbn [last]. split; [lia|]. split; [exact Ps|]. intros k Hk. destruct (P k) eqn:Pk; [|reflexivity]. exfalso. assert (I : In k (filter P (seq (S s) m))) by (apply filter_In; split; [apply in_seq; lia|exact Pk]). rewrite E in I. destruct I.
    + rewrite last_cons. destruct (IH _ _ _ E) as (H1 & _ & _ & H4 & H5 & H6). split; [lia|]. split; [exact H5|]. intros k Hk. apply H6. lia.
  - destruct (IH _ _ _ E) as (H1 & H2 & H3 & H4 & H5 & H6). split; [lia|]. split; [exact H2|]. split; [|split; [lia|split; [exact H5|intros k Hk; apply H6; lia]]].
    intros k Hk. destruct (Nat.eq_dec k s) as [->|]; [exact Ps|]. apply H3. lia.
Qed.
Lemma fold_Rmax l : forall a, a <= fold_left Rmax l a /\ (forall x, In x l -> x <= fold_left Rmax l a).
Proof.
  induction l as [|y l IH]; intros a; cbn [fold_left]; [split; [lra|intros x []]|]. destruct (IH (Rmax a y)) as [H1 H2]. split; [eapply Rle_trans; [apply Rmax_l|exact H1]|].
  intros x [<-|H]; [eapply Rle_trans; [apply Rmax_r|exact H1]|auto].
Qed.
Lemma argmax_spec l : forall best bi idx, let k := argmax_from best bi idx l in
  (k = bi /\ fold_left Rmax l best = best) \/ (exists j, (j < length l)%nat /\ k = (idx + j)%nat /\ nth j l 0 = fold_left Rmax l best).
Proof.
  induction l as [|y l IH]; intros best bi idx; cbn [argmax_from fold_left]; [left; auto|]. destruct (Rltb best y) eqn:E.
  - apply Rltb_true in E. rewrite (Rmax_right best y) by lra. right. destruct (IH y idx (S idx)) as [[-> H]|(j & Hj & -> & H)].
    + exists 0%nat. cbn [length nth]. split; [lia|]. split; [lia|auto].
    + exists (S j). cbn [length nth]. split; [lia|]. split; [lia|auto].
  - apply Rltb_false in E. rewrite (Rmax_left best y) by lra. destruct (IH best bi (S idx)) as [[-> H]|(j & Hj & -> & H)]; [left; auto|right]. exists (S j). cbn [length nth]. split; [lia|]. split; [lia|auto].
Qed.
Lemma argmax_first y0 ys : (argmax_from y0 0 1 ys < length (y0 :: ys))%nat /\ nth (argmax_from y0 0 1 ys) (y0 :: ys) 0 = list_max y0 ys.
Proof. unfold list_max. destruct (argmax_spec ys y0 0 1) as [[-> H]|(j & Hj & -> & H)]; cbn [length nth Nat.add]; split; auto; lia. Qed.

(** Specification: the maximum of the values *)
Definition is_maximum (m : R) (y : list R) : Prop := (exists k, (k < length y)%nat /\ nth k y 0 = m) /\ forall k, (k < length y)%nat -> nth k y 0 <= m.
Lemma list_max_is_maximum y0 ys : is_maximum (list_max y0 ys) (y0 :: ys).
Proof.
  destruct (argmax_first y0 ys) as [H1 H2]. split; [eauto|]. intros k Hk. destruct (fold_Rmax ys y0) as [A B]. unfold list_max. destruct k as [|k]; [exact A|]. cbn [nth]. apply B, nth_In. cbn [length] in Hk. lia.
Qed.
Lemma maximum_unique m m' y : is_maximum m y -> is_maximum m' y -> m = m'.
Proof. intros [(k & Hk & <-) H] [(k' & Hk' & <-) H']. pose proof (H k' Hk'). pose proof (H' k Hk). lra. Qed.
Lemma constant_up (f : nat -> bool) a b : (forall k, (a <= k < b)%nat -> xorb (f k) (f (S k)) = false) -> forall k, (a <= k <= b)%nat -> f k = f a.
Proof. intros H k [A B]. induction A as [|k A IH]; [reflexivity|]. rewrite <- IH by lia. specialize (H k ltac:(lia)). destruct (f k), (f (S k)); auto; discriminate. Qed.

(** A detected peak: the borders are in the middle between two positions where the values cross the half maximum; before the first border and after the last
    one all values are on the same side of the half maximum as at the ends of the histogram. *)
Theorem C90_peak x y m c w l r : length x = length y -> increasing x -> simple_peak_detect x y = Peak m c w l r ->
  exists mx k i j, is_maximum mx y /\ (k < length y)%nat /\ nth k y 0 = mx /\ m = nth k x 0 /\ 0 < mx /\
  (i < j)%nat /\ (S j < length y)%nat /\ l = (nth i x 0 + nth (S i) x 0) / 2 /\ r = (nth j x 0 + nth (S j) x 0) / 2 /\ l < r /\ w = r - l /\ c = (l + r) / 2 /\
  (nth i y 0 > mx / 2 <-> ~ nth (S i) y 0 > mx / 2) /\ (nth j y 0 > mx / 2 <-> ~ nth (S j) y 0 > mx / 2) /\
  (forall k, (k <= i)%nat -> (nth k y 0 > mx / 2 <-> nth 0 y 0 > mx / 2)) /\ (forall k, (j < k < length y)%nat -> (nth k y 0 > mx / 2 <-> nth (length y - 1) y 0 > mx / 2)).
Proof.
  intros L Inc. unfold simple_peak_detect. destruct y as [|y0 ys]; [discriminate|]. set (mx := list_max y0 ys). set (y := y0 :: ys) in *. pose proof (list_max_is_maximum y0 ys) as M. fold mx y in M.
  destruct (existsb _ y) eqn:Ex; cbn [negb]; [|discriminate]. destruct (change_indices _ y) as [|i is] eqn:C; [discriminate|]. unfold change_indices in C. apply filter_seq in C. destruct C as (_ & Pi & Bi & Rj & Pj & Bj). set (j := last is i) in *.
  destruct (x_center x i) as [l'|] eqn:El; [|discriminate]. destruct (x_center x j) as [r'|] eqn:Er; [|discriminate]. destruct (argmax_first y0 ys) as [K1 K2]. fold y mx in K1, K2. set (k := argmax_from y0 0 1 ys) in *.
  destruct (nth_error x k) as [m'|] eqn:Em; [|discriminate]. destruct (Reqb (r' - l') 0) eqn:W; [discriminate|]. apply Reqb_false in W. intros X. injection X as <- <- <- <- <-.
  assert (Y1 : (1 <= length y)%nat) by (unfold y; cbn [length]; lia).
  assert (Xi : l' = (nth i x 0 + nth (S i) x 0) / 2). { unfold x_center in El. destruct (nth_error x i) as [a|] eqn:A; [|discriminate]. destruct (nth_error x (S i)) as [b|] eqn:B; [|discriminate]. injection El as <-. rewrite (nth_error_nth _ _ 0 A), (nth_error_nth _ _ 0 B). lra. }
  assert (Xj : r' = (nth j x 0 + nth (S j) x 0) / 2). { unfold x_center in Er. destruct (nth_error x j) as [a|] eqn:A; [|discriminate]. destruct (nth_error x (S j)) as [b|] eqn:B; [|discriminate]. injection Er as <-. rewrite (nth_error_nth _ _ 0 A), (nth_error_nth _ _ 0 B). lra. }
  assert (Ne : i <> j) by (intros Eij; apply W; rewrite Xi, Xj, <- Eij; lra).
  assert (Hm : mx * (1 / 2) = mx / 2) by lra. rewrite Hm in *.
  assert (Ab : forall q, above (mx / 2) y q = true <-> nth q y 0 > mx / 2) by (intros q; unfold above; rewrite Rltb_true; lra).
  exists mx, k, i, j. split; [exact M|]. split; [exact K1|]. split; [exact K2|]. split; [rewrite (nth_error_nth _ _ 0 Em); reflexivity|].
  split. { apply existsb_exists in Ex. destruct Ex as (v & Hv & Lt). apply Rltb_true in Lt. apply (In_nth _ _ 0) in Hv. destruct Hv as (q & Hq & <-). pose proof (proj2 M q Hq). lra. }
  split; [lia|]. split; [lia|]. split; [exact Xi|]. split; [exact Xj|].
  split. { pose proof (increasing_le x Inc (S i) j ltac:(lia) ltac:(lia)). pose proof (Inc i ltac:(lia)). pose proof (Inc j ltac:(lia)). lra. }
  split; [reflexivity|]. split; [reflexivity|].
  split. { rewrite <- !Ab. destruct (above (mx / 2) y i), (above (mx / 2) y (S i)); try discriminate Pi; intuition congruence. }
  split. { rewrite <- !Ab. destruct (above (mx / 2) y j), (above (mx / 2) y (S j)); try discriminate Pj; intuition congruence. }
  split.
  - intros q Hq. rewrite <- !Ab. rewrite (constant_up (above (mx / 2) y) 0 i); [tauto|intros q' Hq'; apply Bi; lia|lia].
  - intros q Hq. rewrite <- !Ab. assert (G : forall q, (S j <= q <= length y - 1)%nat -> above (mx / 2) y q = above (mx / 2) y (S j)).
    { apply constant_up. intros q' Hq'. apply Bj. lia. }
    rewrite (G q), (G (length y - 1)%nat) by lia. tauto.
Qed.
(** If the values at both ends are at most the half maximum, all values above it are between the borders; also the maximum. *)
Theorem C90_peak_inside x y m c w l r mx : length x = length y -> increasing x -> simple_peak_detect x y = Peak m c w l r -> is_maximum mx y -> nth 0 y 0 <= mx / 2 -> nth (length y - 1) y 0 <= mx / 2 ->
  (forall k, (k < length y)%nat -> nth k y 0 > mx / 2 -> l < nth k x 0 < r) /\ l < m < r.
Proof.
  intros L Inc P M F La. destruct (C90_peak _ _ _ _ _ _ _ L Inc P) as (mx' & k & i & j & M' & Hk & Ek & -> & Pos & Hij & Hj & El & Er & _ & _ & _ & _ & _ & A & B).
  rewrite (maximum_unique _ _ _ M' M) in *. assert (G : forall k, (k < length y)%nat -> nth k y 0 > mx / 2 -> l < nth k x 0 < r).
  { intros q Hq G. assert (Q1 : (i < q)%nat) by (destruct (le_lt_dec q i) as [Le|]; auto; apply (A q Le) in G; lra). assert (Q2 : (q <= j)%nat) by (destruct (le_lt_dec q j) as [|Lt]; auto; apply (B q (conj Lt Hq)) in G; lra).
    pose proof (increasing_le x Inc (S i) q ltac:(lia) ltac:(lia)). pose proof (increasing_le x Inc q j ltac:(lia) ltac:(lia)). pose proof (Inc i ltac:(lia)). pose proof (Inc j ltac:(lia)). lra. }
  split; [exact G|]. apply (G k Hk). lra.
Qed.
(** The peaks at the ends are not rejected: the reported range can be the gap between two peaks, without the maximum. *)
Theorem C90_border_refuted : exists x y m c w l r, length x = length y /\ increasing x /\ simple_peak_detect x y = Peak m c w l r /\ m < l /\
  (forall k, (k < length y)%nat -> l < nth k x 0 < r -> nth k y 0 <= 1 / 10 * nth 0 y 0).
Proof.
  exists [0; 1; 2; 3], [10; 1; 1; 10], 0, (3 / 2), 2, (1 / 2), (5 / 2). split; [reflexivity|]. split.
  { intros i Hi. cbn [length] in Hi. destruct i as [|[|[|i]]]; cbn [nth]; try lra; lia. }
  split; [|split; [lra|]].
  - unfold simple_peak_detect. assert (M : list_max 10 [1; 1; 10] = 10). { unfold list_max. cbn [fold_left]. rewrite (Rmax_left 10 1), (Rmax_left 10 1), Rmax_left by lra. reflexivity. }
    rewrite M. assert (T : Rltb (10 * (1 / 2)) 10 = true) by (apply Rltb_true; lra). assert (F : Rltb (10 * (1 / 2)) 1 = false) by (apply Rltb_false; lra).
    cbn [existsb]. rewrite T. cbn [orb negb]. unfold change_indices. cbn [length Nat.sub seq filter]. unfold above. cbn [nth]. rewrite T, F. cbn [xorb]. cbn [last x_center nth_error].
    cbn [argmax_from]. assert (F1 : Rltb 10 1 = false) by (apply Rltb_false; lra). assert (F2 : Rltb 10 10 = false) by (apply Rltb_false; lra). rewrite F1, F2. cbn [nth_error].
    assert (Z : Reqb ((3 + 2) / 2 - (1 + 0) / 2) 0 = false) by (apply Reqb_false; lra). rewrite Z. f_equal; lra.
  - intros k Hk B. cbn [length] in Hk. destruct k as [|[|[|[|k]]]]; cbn [nth] in *; lra || lia.
Qed.

(** ** range of the histogram *)
Lemma mod_2_IZR z : mod_2 (IZR z) = IZR (z mod 2).
Proof.
  unfold mod_2. rewrite (Int_part_between _ (z / 2)).
  - rewrite Z.mod_eq by lia. rewrite minus_IZR, mult_IZR. reflexivity.
  - pose proof (Z.div_mod z 2 ltac:(lia)) as D. pose proof (Z.mod_pos_bound z 2 ltac:(lia)) as B. apply IZR_le in D as _ || idtac. assert (E : IZR z = 2 * IZR (z / 2) + IZR (z mod 2)) by (rewrite D at 1; rewrite plus_IZR, mult_IZR; reflexivity).
    assert (0 <= IZR (z mod 2) <= 1) by (split; apply IZR_le; lia). lra.
Qed.
Lemma Rmax_IZR s z : 0 < s -> Rmax (6 * s) (s * IZR z) = s * IZR (Z.max 6 z).
Proof.
  intros S. destruct (Z.max_spec 6 z) as [[H ->]|[H ->]].
  - apply Rmax_right. apply IZR_lt in H. nra.
  - apply IZR_le in H. rewrite Rmax_left by nra. lra.
Qed.
(** With bins per pixel: an even number of pixels, at least 6, around the peak, which covers 3 FWHM in both directions and not more than a pixel more, with n bins per pixel. *)
Theorem C90_range s n c w : 0 < s -> (1 <= n)%nat -> 0 <= w -> exists k, Nat.Even k /\ (6 <= k)%nat /\
  residual_range s (Some (INR n)) c w = (c - INR k * s / 2, c + INR k * s / 2, (n * k)%nat) /\ 3 * w <= INR k * s / 2 /\ (INR k * s / 2 < 3 * w + s \/ k = 6%nat).
Proof.
  intros S N W. unfold residual_range. rewrite (Rmax_IZR s _ S). set (z := ceil (6 * w / s)). destruct (ceil_spec (6 * w / s)) as [C1 C2]. fold z in C1, C2.
  set (m := Z.max 6 z). assert (M : (6 <= m)%Z) by (unfold m; lia).
  assert (E1 : s * IZR m / s = IZR m) by (field; lra). rewrite E1, mod_2_IZR.
  assert (Fin : forall k, (m <= Z.of_nat k <= m + 1)%Z -> Nat.Even k -> exists k0, Nat.Even k0 /\ (6 <= k0)%nat /\
    (c - 1 / 2 * (s * INR k), c + 1 / 2 * (s * INR k), Z.to_nat (Int_part (INR n * (s * INR k) / s))) = (c - INR k0 * s / 2, c + INR k0 * s / 2, (n * k0)%nat) /\ 3 * w <= INR k0 * s / 2 /\ (INR k0 * s / 2 < 3 * w + s \/ k0 = 6%nat)).
  { intros k B Ev. exists k. split; [exact Ev|]. split; [lia|]. split.
    - assert (E2 : INR n * (s * INR k) / s = INR (n * k)) by (rewrite mult_INR; field; lra). rewrite E2, Int_part_INR, Nat2Z.id. f_equal. f_equal; lra.
    - assert (K1 : IZR z <= INR k) by (rewrite INR_IZR_INZ; apply IZR_le; lia).
      assert (A1 : 6 * w <= s * IZR z) by (replace (6 * w) with (s * (6 * w / s)) by (field; lra); apply Rmult_le_compat_l; lra).
      assert (A2 : s * IZR z < 6 * w + s) by (replace (6 * w + s) with (s * (6 * w / s + 1)) by (field; lra); apply Rmult_lt_compat_l; lra). split; [nra|].
      destruct (Z_le_gt_dec z 6) as [Hz|Hz].
      + right. assert (Z.of_nat k = 6%Z) by (destruct Ev as [q ->]; lia). lia.
      + left. assert (K2 : INR k <= IZR z + 1) by (rewrite INR_IZR_INZ, <- plus_IZR; apply IZR_le; lia). nra. }
  pose proof (Z.mod_pos_bound m 2 ltac:(lia)) as Bm. pose proof (Z.div_mod m 2 ltac:(lia)) as Dm. destruct (Reqb (IZR (m mod 2)) 0) eqn:Q.
  - apply Reqb_true in Q. apply eq_IZR in Q. specialize (Fin (Z.to_nat m)). rewrite INR_IZR_INZ, Z2Nat.id in Fin by lia. apply Fin; [lia|]. exists (Z.to_nat (m / 2)). lia.
  - apply Reqb_false in Q. assert (Q' : (m mod 2 = 1)%Z) by (assert (m mod 2 <> 0)%Z by (intros Z0; apply Q; rewrite Z0; reflexivity); lia).
    specialize (Fin (Z.to_nat (m + 1))). rewrite INR_IZR_INZ, Z2Nat.id, plus_IZR in Fin by lia. replace (s * IZR m + s) with (s * (IZR m + 1)) by ring. apply Fin; [lia|]. exists (Z.to_nat (m / 2 + 1)). lia.
Qed.
(** Without: 200 bins which cover 6 FWHM in both directions. *)
Theorem C90_default_range s c w : 0 < s -> 0 <= w -> exists v, residual_range s None c w = (c - v, c + v, 200%nat) /\ 6 * w <= v < 6 * w + s.
Proof.
  intros S W. eexists. split; [reflexivity|]. destruct (ceil_spec (6 * w / s)) as [C1 C2]. replace (6 * w) with (s * (6 * w / s)) at 1 by (field; lra). replace (6 * w + s) with (s * (6 * w / s + 1)) by (field; lra).
  split; [apply Rmult_le_compat_l; lra|apply Rmult_lt_compat_l; lra].
Qed.

(** ** entries *)
(** Specification: the track has a hit inside of the limits and a fit, and its residual is in [set] *)
Definition limit_ok (l : limits) (v : R) : Prop := forall lo hi, l = Some (lo, hi) -> (forall a, lo = Some a -> a <= v) /\ (forall b, hi = Some b -> v <= b).
Definition has_residual (coordinate : R * R -> R) (lx ly : limits) (set : R -> Prop) (t : track) : Prop :=
  exists h q, hit t = Some h /\ track_chi2 t = Some q /\ limit_ok lx (fst h) /\ limit_ok ly (snd h) /\ set (coordinate h - coordinate (intersection t)).
Lemma in_limits_spec l v : in_limits l v = true <-> limit_ok l v.
Proof.
  unfold limit_ok. destruct l as [[lo hi]|]; cbn [in_limits]; [|split; [intros _ ? ? E; discriminate|auto]]. rewrite andb_true_iff. split.
  - intros [H1 H2] a b E. injection E as <- <-. split; intros q ->; apply Rleb_true; auto.
  - intros H. destruct (H lo hi eq_refl) as [H1 H2]. split; [destruct lo|destruct hi]; auto; apply Rleb_true; auto.
Qed.
Lemma residuals_number f lx ly chunk p q : (forall t, q t = true <-> has_residual f lx ly (fun v => p v = true) t) ->
  length (filter p (residuals f lx ly chunk)) = length (filter q chunk).
Proof.
  intros Q. induction chunk as [|t chunk IH]; [reflexivity|]. unfold residuals in *. cbn [flat_map]. rewrite filter_app, app_length, IH. cbn [filter]. specialize (Q t).
  assert (E : filter p match hit t with Some h => match track_chi2 t with Some _ => if in_limits lx (fst h) && in_limits ly (snd h) then [f h - f (intersection t)] else [] | None => [] end | None => [] end = if q t then [match hit t with Some h => f h - f (intersection t) | None => 0 end] else []).
  { unfold has_residual in Q. destruct (hit t) as [h|]; [|destruct (q t); auto; destruct (proj1 Q eq_refl) as (? & ? & X & _); discriminate].
    destruct (track_chi2 t) as [c|]; [|destruct (q t); auto; destruct (proj1 Q eq_refl) as (? & ? & _ & X & _); discriminate].
    destruct (in_limits lx (fst h)) eqn:E1; cbn [andb]; [|destruct (q t); auto; destruct (proj1 Q eq_refl) as (? & ? & X & _ & Y & _); injection X as <-; apply in_limits_spec in Y; congruence].
    destruct (in_limits ly (snd h)) eqn:E2; [|destruct (q t); auto; destruct (proj1 Q eq_refl) as (? & ? & X & _ & _ & Y & _); injection X as <-; apply in_limits_spec in Y; congruence].
    cbn [filter]. destruct (p (f h - f (intersection t))) eqn:E3.
    - assert (T : q t = true) by (apply Q; exists h, c; rewrite <- !in_limits_spec; auto). rewrite T. reflexivity.
    - destruct (q t); auto. destruct (proj1 Q eq_refl) as (? & ? & X & _ & _ & _ & Y). injection X as <-. congruence. }
  destruct (hit t) as [h|]; [destruct (track_chi2 t)|]; rewrite E; destruct (q t); reflexivity.
Qed.
Lemma residuals_concat f lx ly chunks : concat (map (residuals f lx ly) chunks) = residuals f lx ly (concat chunks).
Proof. induction chunks as [|c cs IH]; [reflexivity|]. cbn [map concat]. rewrite IH. unfold residuals. rewrite flat_map_app. reflexivity. Qed.

Lemma not_nan_some l : not_nan (map Some l) = l.
Proof. induction l as [|a l IH]; [reflexivity|]. cbn. unfold not_nan in IH. now rewrite IH. Qed.
Lemma fold_residuals f lx ly edges cs c : fold_left (fun h c => map (fun p => (fst p + snd p)%nat) (combine h (histogram edges (map Some (residuals f lx ly c))))) cs (histogram edges (map Some (residuals f lx ly c))) =
  map (fun i => length (filter (in_bin edges i) (residuals f lx ly (c ++ concat cs)))) (seq 0 (n_edge_bins edges)).
Proof.
  pose proof (fold_hist edges (map (fun c => map Some (residuals f lx ly c)) cs) (map Some (residuals f lx ly c))) as H.
  assert (F : forall h0, fold_left (fun h c => map (fun p => (fst p + snd p)%nat) (combine h (histogram edges c))) (map (fun c => map Some (residuals f lx ly c)) cs) h0 = fold_left (fun h c => map (fun p => (fst p + snd p)%nat) (combine h (histogram edges (map Some (residuals f lx ly c))))) cs h0).
  { clear. induction cs as [|a cs IH]; intros h0; [reflexivity|]. cbn [map fold_left]. apply IH. }
  rewrite <- F, H. unfold histogram. apply map_ext. intros i. f_equal. f_equal.
  assert (E : map Some (residuals f lx ly c) ++ concat (map (fun c => map Some (residuals f lx ly c)) cs) = map Some (residuals f lx ly (c ++ concat cs))).
  { unfold residuals at 3. rewrite flat_map_app, map_app. fold (residuals f lx ly c) (residuals f lx ly (concat cs)). f_equal. rewrite <- residuals_concat, concat_map, map_map. reflexivity. }
  rewrite E. apply not_nan_some.
Qed.
Lemma sum_bins edges l : increasing edges -> (2 <= length edges)%nat -> fold_right Nat.add 0%nat (map (fun i => length (filter (in_bin edges i) l)) (seq 0 (n_edge_bins edges))) = length (filter (fun v => Rleb (nth 0 edges 0) v && Rleb v (nth (length edges - 1) edges 0)) l).
Proof.
  intros Inc L. induction l as [|v l IH].
  - cbn [filter length]. clear. induction (seq 0 (n_edge_bins edges)); auto.
  - assert (E : fold_right Nat.add 0%nat (map (fun i => length (filter (in_bin edges i) (v :: l))) (seq 0 (n_edge_bins edges))) = (length (filter (fun i => in_bin edges i v) (seq 0 (n_edge_bins edges))) + fold_right Nat.add 0%nat (map (fun i => length (filter (in_bin edges i) l)) (seq 0 (n_edge_bins edges))))%nat).
    { clear. induction (seq 0 (n_edge_bins edges)) as [|i is IH]; [reflexivity|]. cbn [map fold_right filter] in *. rewrite IH. destruct (in_bin edges i v); cbn [length]; lia. }
    rewrite E, IH. clear E IH. cbn [filter]. destruct (C40_bins edges v Inc L) as [[B1 B2] B3].
    assert (U : length (filter (fun i => in_bin edges i v) (seq 0 (n_edge_bins edges))) = if Rleb (nth 0 edges 0) v && Rleb v (nth (length edges - 1) edges 0) then 1%nat else 0%nat).
    { destruct (Rleb (nth 0 edges 0) v && Rleb v (nth (length edges - 1) edges 0)) eqn:R.
      - apply andb_true_iff in R. destruct R as [R1 R2]. apply Rleb_true in R1, R2. destruct (B2 (conj R1 R2)) as (i & Hi & Ui).
        assert (Ri : In i (seq 0 (n_edge_bins edges))). { apply in_seq. apply in_bin_spec in Hi. unfold n_edge_bins. lia. }
        clear -Hi Ui Ri. assert (ND := seq_NoDup (n_edge_bins edges) 0). induction (seq 0 (n_edge_bins edges)) as [|k ks IH]; [destruct Ri|]. inversion ND; subst. cbn [filter]. destruct (in_bin edges k v) eqn:K.
        + cbn [length]. assert (k = i) by (apply Ui; auto). subst k. replace (filter (fun i => in_bin edges i v) ks) with (@nil nat); [reflexivity|]. symmetry. clear -H1 Ui. induction ks as [|k ks IH]; [reflexivity|]. cbn [filter]. destruct (in_bin edges k v) eqn:K; [apply Ui in K; subst; destruct H1; left; auto|]. apply IH. intros I. apply H1. right. auto.
        + destruct Ri as [->|Ri]; [congruence|]. apply IH; auto.
      - destruct B3 as [B3|B3]; [apply andb_false_iff in R; destruct R as [R|R]; apply Rleb_false in R; lra|]. clear -B3. induction (seq 0 (n_edge_bins edges)) as [|k ks IH]; [reflexivity|]. cbn [filter]. rewrite B3. exact IH. }
    rewrite U. destruct (_ && _); cbn [length]; lia.
Qed.
Lemma arange_long a b s : 0 < s -> a <= b -> (2 <= length (arange (a - s) (b + 2 * s) s))%nat.
Proof.
  intros S H. unfold arange. rewrite map_length, seq_length. destruct (ceil_spec ((b + 2 * s - (a - s)) / s)) as [C _].
  assert (3 <= (b + 2 * s - (a - s)) / s). { apply Rmult_le_reg_r with s; [lra|]. unfold Rdiv. rewrite Rmult_assoc, Rinv_l by lra. lra. }
  assert (3 <= IZR (ceil ((b + 2 * s - (a - s)) / s))) by lra. apply le_IZR in H1. lia.
Qed.
Lemma fold_Rmin l : forall a, fold_left Rmin l a <= a.
Proof. induction l as [|y l IH]; intros a; cbn [fold_left]; [lra|]. eapply Rle_trans; [apply IH|apply Rmin_l]. Qed.
Lemma peak_total x y : length x = length y -> y <> [] -> match simple_peak_detect x y with PeakError _ => False | _ => True end.
Proof.
  intros L N. unfold simple_peak_detect. destruct y as [|y0 ys]; [congruence|]. destruct (negb _); [exact I|]. destruct (change_indices _ _); [exact I|]. destruct (x_center _ _); [|exact I]. destruct (x_center _ _); [|exact I].
  destruct (argmax_first y0 ys) as [K _]. destruct (nth_error x (argmax_from y0 0 1 ys)) eqn:E; [destruct (Reqb _ _); exact I|]. apply nth_error_None in E. lia.
Qed.
Lemma peak_fwhm_pos x y m c w l r : length x = length y -> increasing x -> simple_peak_detect x y = Peak m c w l r -> 0 <= w.
Proof. intros L Inc P. destruct (C90_peak _ _ _ _ _ _ _ L Inc P) as (mx & k & i & j & H). intuition lra. Qed.

(** Bins per pixel given: every bin has the width of a pixel divided by n, and counts the tracks of all chunks with a residual in the bin; nothing inside of the range is lost. *)
Theorem C90_histogram peak sturges s n f lx ly c cs : (forall x y m w, peak x y = Some (m, w) -> 0 <= w) -> 0 < s -> (1 <= n)%nat ->
  (exists t, In t c /\ has_residual f lx ly (fun _ => True) t) ->
  exists m k edges h, residual_histogram peak sturges s (Some (INR n)) f lx ly (c :: cs) = inr (edges, h) /\
  Nat.Even k /\ (6 <= k)%nat /\ length edges = S (n * k) /\ length h = (n * k)%nat /\ (forall i, (i <= n * k)%nat -> nth i edges 0 = m - INR k * s / 2 + INR i * (s / INR n)) /\
  (forall i q, (forall t, q t = true <-> has_residual f lx ly (fun v => in_bin edges i v = true) t) -> (i < n * k)%nat -> nth i h 0%nat = length (filter q (c ++ concat cs))) /\
  (forall q, (forall t, q t = true <-> has_residual f lx ly (fun v => m - INR k * s / 2 <= v <= m + INR k * s / 2) t) -> fold_right Nat.add 0%nat h = length (filter q (c ++ concat cs))).
Proof.
  intros Hp S N (t & It & Ht). unfold residual_histogram. set (d := residuals f lx ly c).
  assert (Nd : d <> []). { destruct Ht as (hh & q & E1 & E2 & L1 & L2 & _). intros E. assert (I : In (f hh - f (intersection t)) d). { unfold d, residuals. apply in_flat_map. exists t. split; [exact It|]. rewrite E1, E2. apply in_limits_spec in L1, L2. rewrite L1, L2. left. reflexivity. } rewrite E in I. destruct I. }
  unfold first_edges. destruct d as [|a l] eqn:Ed; [congruence|]. rewrite <- Ed. assert (Pn : 0 < INR n) by (apply lt_0_INR; lia). assert (Sn : 0 < s / INR n) by (apply Rdiv_lt_0_compat; lra).
  set (e := arange _ _ _). assert (Le : (2 <= length e)%nat). { apply arange_long; [exact Sn|]. pose proof (fold_Rmin l a). destruct (fold_Rmax l a). unfold list_min, list_max. lra. }
  assert (Ie : increasing e). { intros i Hi. unfold e, arange in *. rewrite map_length, seq_length in Hi. rewrite !(nth_indep _ 0 (list_min a l - s / INR n + INR 0 * (s / INR n))) by (rewrite map_length, seq_length; lia). rewrite !(map_nth (fun k => list_min a l - s / INR n + INR k * (s / INR n))), !seq_nth by lia. cbn [Nat.add]. rewrite S_INR. lra. }
  assert (Lc : length (bin_centers e) = n_edge_bins e) by (unfold bin_centers; rewrite map_length, seq_length; reflexivity).
  assert (Lh : length (map INR (histogram e (map Some d))) = n_edge_bins e) by (unfold histogram; rewrite !map_length, seq_length; reflexivity).
  assert (Ic : increasing (bin_centers e)).
  { intros i Hi. rewrite Lc in Hi. unfold n_edge_bins in Hi. assert (B : forall i, (i < n_edge_bins e)%nat -> nth i (bin_centers e) 0 = (nth (Datatypes.S i) e 0 + nth i e 0) / 2).
    { clear. intros i Hi. unfold bin_centers. rewrite (nth_indep _ 0 ((nth 1 e 0 + nth 0 e 0) / 2)) by (rewrite map_length, seq_length; exact Hi). rewrite (map_nth (fun i => (nth (Datatypes.S i) e 0 + nth i e 0) / 2) (seq 0 (n_edge_bins e)) 0%nat i). rewrite seq_nth by exact Hi. reflexivity. }
    rewrite !B by (unfold n_edge_bins; lia). pose proof (Ie i ltac:(lia)). pose proof (Ie (Datatypes.S i) ltac:(lia)). lra. }
  assert (G : exists m w, center_and_fwhm peak s e d = inr (m, w) /\ 0 <= w).
  { unfold center_and_fwhm. destruct (peak _ _) as [[m w]|] eqn:Ep; [exists m, w; split; [reflexivity|eapply Hp; exact Ep]|].
    pose proof (peak_total (bin_centers e) (map INR (histogram e (map Some d))) ltac:(congruence) ltac:(intros Z; rewrite Z in Lh; unfold n_edge_bins in Lh; cbn [length] in Lh; lia)) as T.
    destruct (simple_peak_detect _ _) as [mp m w pl pr| |er] eqn:Es; [exists m, w|exists 0, (s * 6)|contradiction]; (split; [reflexivity|]); [|lra]. eapply peak_fwhm_pos; [| |exact Es]; [congruence|exact Ic]. }
  destruct G as (m & w & -> & Hw). destruct (C90_range s n m w S N Hw) as (k & Ev & K6 & -> & _). cbv zeta. cbn [fst snd].
  assert (Kp : 6 <= INR k) by (apply le_INR in K6; simpl in K6; lra). assert (Lt : m - INR k * s / 2 < m + INR k * s / 2) by nra.
  unfold hist_range. destruct (Reqb (m - INR k * s / 2) (m + INR k * s / 2)) eqn:Q; [apply Reqb_true in Q; lra|]. cbn [fst snd].
  assert (NK : (1 <= n * k)%nat) by nia. destruct (Nat.eqb_spec (n * k) 0) as [|_]; [lia|]. set (edges := linspace (m - INR k * s / 2) (m + INR k * s / 2) (n * k + 1)).
  destruct (linspace_increasing (m - INR k * s / 2) (m + INR k * s / 2) (n * k) Lt NK) as (I1 & I2 & I3). fold edges in I1, I2, I3.
  assert (Ledge : length edges = Datatypes.S (n * k)) by (unfold edges; replace (n * k + 1)%nat with (Datatypes.S (n * k)) by lia; apply linspace_length).
  assert (Nb : n_edge_bins edges = (n * k)%nat) by (unfold n_edge_bins; lia).
  unfold d. rewrite fold_residuals. exists m, k, edges. eexists. split; [reflexivity|]. split; [exact Ev|]. split; [exact K6|]. split; [exact Ledge|]. split; [rewrite map_length, seq_length; exact Nb|]. split; [|split].
  - intros i Hi. unfold edges. replace (n * k + 1)%nat with (Datatypes.S (n * k)) by lia. rewrite linspace_nth by lia. rewrite mult_INR. field. split; lra.
  - intros i q Hq Hi. rewrite <- (residuals_number f lx ly (c ++ concat cs) (in_bin edges i) q Hq).
    rewrite (nth_indep _ 0%nat (length (filter (in_bin edges 0) (residuals f lx ly (c ++ concat cs))))) by (rewrite map_length, seq_length, Nb; exact Hi).
    rewrite (map_nth (fun i => length (filter (in_bin edges i) (residuals f lx ly (c ++ concat cs))))). rewrite seq_nth by (rewrite Nb; exact Hi). reflexivity.
  - intros q Hq. rewrite sum_bins by (auto; lia). rewrite I2, I3. apply residuals_number. intros t'. rewrite Hq. unfold has_residual. split; intros (h' & q' & A1 & A2 & A3 & A4 & A5); exists h', q'; repeat (split; [assumption|]).
    + apply andb_true_iff. rewrite !Rleb_true. exact A5.
    + apply andb_true_iff in A5. rewrite !Rleb_true in A5. exact A5.
Qed.
(** A first chunk without such a track is an error, whatever is in the others. *)
Theorem C90_first_chunk_refuted peak sturges s p f lx ly c cs : (forall t, In t c -> ~ has_residual f lx ly (fun _ => True) t) -> residual_histogram peak sturges s (Some p) f lx ly (c :: cs) = inl EmptyArray.
Proof.
  intros H. unfold residual_histogram. assert (E : residuals f lx ly c = []).
  { induction c as [|t c IH]; [reflexivity|]. unfold residuals in *. cbn [flat_map]. rewrite IH by (intros; apply H; right; auto). rewrite app_nil_r. specialize (H t (or_introl eq_refl)). destruct (hit t) as [h|] eqn:E1; [|reflexivity]. destruct (track_chi2 t) as [q|] eqn:E2; [|reflexivity].
    destruct (in_limits lx (fst h)) eqn:L1; [|reflexivity]. destruct (in_limits ly (snd h)) eqn:L2; [|reflexivity]. exfalso. apply H. exists h, q. rewrite <- !in_limits_spec. auto. }
  rewrite E. reflexivity.
Qed.
(** A histogram has at least one bin, also with a fraction of a bin per pixel; otherwise there is an error. *)
Theorem C90_bins peak sturges s p f lx ly chunks edges h : residual_histogram peak sturges s p f lx ly chunks = inr (edges, h) -> chunks <> [] /\ (2 <= length edges)%nat /\ length edges = S (length h).
Proof.
  unfold residual_histogram. destruct chunks as [|c cs]; [discriminate|]. destruct (first_edges _ _ _ _) as [e|]; [|discriminate]. destruct (center_and_fwhm _ _ _ _) as [|[m w]]; [discriminate|]. destruct (residual_range s p m w) as [[lo hi] n]. destruct (Nat.eqb_spec n 0) as [|N]; [discriminate|]. intros E.
  assert (E1 := f_equal (fun o => match o with inr (a, _) => a | _ => [] end) E). assert (E2 := f_equal (fun o => match o with inr (_, a) => a | _ => [] end) E). cbv beta iota in E1, E2. split; [discriminate|]. rewrite E1 in E2. assert (L : length edges = S n) by (rewrite <- E1, linspace_length; lia). split; [lia|]. rewrite <- E2. clear -L N.
  assert (H : forall d, length (histogram edges d) = n) by (intros d; unfold histogram; rewrite map_length, seq_length; unfold n_edge_bins; lia).
  assert (G : forall cs h, length h = n -> length (fold_left (fun h c => map (fun p => (fst p + snd p)%nat) (combine h (histogram edges (map Some (residuals f lx ly c))))) cs h) = n).
  { induction cs0 as [|c0 cs0 IH]; intros h0 L0; [exact L0|]. cbn [fold_left]. apply IH. rewrite map_length, combine_length, H. lia. }
  rewrite G; [exact L|apply H].
Qed.
Example C90_example : let t := Track (Some (12, 30)) (Some (5 / 2)) (10, 31) in
  has_residual fst (Some (Some 0, None)) (Some (Some 0, Some 40)) (fun v => v = 2) t /\ ~ has_residual fst (Some (Some 0, None)) (Some (None, Some 20)) (fun _ => True) t /\ ~ has_residual fst None None (fun _ => True) (Track None (Some 1) (0, 0)).
Proof.
  split; [|split].
  - exists (12, 30), (5 / 2). split; [reflexivity|]. split; [reflexivity|]. cbn [fst snd intersection]. unfold limit_ok. split; [|split; [|lra]]; intros lo hi E; injection E as <- <-; split; intros a E'; try discriminate; injection E' as <-; lra.
  - intros (h & q & E & _ & _ & L & _). injection E as <-. destruct (L _ _ eq_refl) as [_ L']. specialize (L' _ eq_refl). cbn [snd] in L'. lra.
  - intros (h & q & E & _). discriminate.
Qed.

Print Assumptions C90_peak.
Print Assumptions C90_peak_inside.
Print Assumptions C90_border_refuted.
Print Assumptions C90_range.
Print Assumptions C90_default_range.
Print Assumptions C90_histogram.
Print Assumptions C90_first_chunk_refuted.
Print Assumptions C90_bins.
