(** C63: the Hough transform and the selection of the correlation line. *)
From Coq Require Import Reals List Bool Arith ZArith Lra Lia Sorting.Sorted.
From Verif Require Import GeometryModel GeometryProofs CorrelateModel CorrelateBinsProps RansacModel PrealignModel.
Import ListNotations.
Local Open Scope R_scope.

(** ** Bins *)
Lemma argmin_from_ok l : forall i best v, (best < i)%nat ->
  let k := argmin_from l i best v in
  (k = best \/ (i <= k < i + length l)%nat) /\
  (let r := if (k <? i)%nat then v else nth (k - i) l 0 in (r <= v /\ forall a, In a l -> r <= a)).
Proof.
  induction l as [|a l IH]; intros i best v Hb; cbn [argmin_from].
  - split; [now left|]. assert (E : (best <? i)%nat = true) by (apply Nat.ltb_lt; lia). rewrite E. split; [lra|]. intros x [].
  - destruct (Rltb a v) eqn:E.
    + apply Rltb_true in E. destruct (IH (S i) i a ltac:(lia)) as [K V]. set (k := argmin_from l (S i) i a) in *. cbn zeta in *. cbn [length].
      assert (F : (k <? i)%nat = false) by (apply Nat.ltb_ge; lia). rewrite F. split; [right; lia|].
      destruct K as [K|K].
      * rewrite K in *. rewrite Nat.sub_diag. cbn [nth]. assert (G : (i <? S i)%nat = true) by (apply Nat.ltb_lt; lia). rewrite G in V. split; [lra|]. intros x [<-|H]; [lra|now apply V].
      * assert (G : (k <? S i)%nat = false) by (apply Nat.ltb_ge; lia). rewrite G in V. replace (k - i)%nat with (S (k - S i)) by lia. cbn [nth]. split; [lra|]. intros x [<-|H]; [lra|now apply V].
    + apply Rltb_false in E. destruct (IH (S i) best v ltac:(lia)) as [K V]. set (k := argmin_from l (S i) best v) in *. cbn zeta in *. cbn [length].
      destruct K as [K|K].
      * rewrite K in *. assert (F : (best <? i)%nat = true) by (apply Nat.ltb_lt; lia). rewrite F. assert (G : (best <? S i)%nat = true) by (apply Nat.ltb_lt; lia). rewrite G in V.
        split; [now left|]. split; [lra|]. intros x [<-|H]; [lra|now apply V].
      * assert (F : (k <? i)%nat = false) by (apply Nat.ltb_ge; lia). rewrite F. assert (G : (k <? S i)%nat = false) by (apply Nat.ltb_ge; lia). rewrite G in V.
        replace (k - i)%nat with (S (k - S i)) by lia. cbn [nth]. split; [right; lia|]. split; [lra|]. intros x [<-|H]; [lra|now apply V].
Qed.
Lemma argmin_ok l : l <> [] -> (argmin l < length l)%nat /\ forall a, In a l -> nth (argmin l) l 0 <= a.
Proof.
  destruct l as [|a l]; [congruence|]. intros _. unfold argmin. destruct (argmin_from_ok l 1 0 a ltac:(lia)) as [K V]. set (k := argmin_from l 1 0 a) in *. cbn zeta in *. cbn [length].
  destruct K as [K|K].
  - rewrite K in *. cbn [nth Nat.ltb Nat.leb] in *. split; [lia|]. intros x [<-|H]; [lra|now apply V].
  - assert (G : (k <? 1)%nat = false) by (apply Nat.ltb_ge; lia). rewrite G in V. split; [lia|]. destruct k as [|k]; [lia|]. cbn [nth]. replace (S k - 1)%nat with k in V by lia. intros x [<-|H]; [lra|now apply V].
Qed.
Lemma linspace_length a b n : length (linspace a b n) = n.
Proof. destruct n as [|[|n]]; try reflexivity. unfold linspace. now rewrite map_length, seq_length. Qed.
Lemma linspace_nth a b n k : (k < S n)%nat -> (1 <= n)%nat -> nth k (linspace a b (S n)) 0 = a + INR k * ((b - a) / INR n).
Proof.
  intros Hk Hn. destruct n as [|n]; [lia|]. unfold linspace. erewrite nth_indep by (rewrite map_length, seq_length; lia).
  rewrite (map_nth (fun i => a + INR i * ((b - a) / INR (S n))) _ 0%nat). rewrite seq_nth by lia. reflexivity.
Qed.
Lemma rhos_length w h res : length (rhos w h res) = (2 * n_q w h res + 1)%nat.
Proof. apply linspace_length. Qed.
Lemma rhos_nth w h res k : (k <= 2 * n_q w h res)%nat -> nth k (rhos w h res) 0 = (INR k - INR (n_q w h res)) * res.
Proof.
  intros Hk. unfold rhos. set (q := n_q w h res) in *. clearbody q. destruct q as [|q].
  - cbn [Nat.mul Nat.add] in *. destruct k; [|lia]. cbn. ring.
  - replace (2 * S q + 1)%nat with (S (2 * S q)) by lia. rewrite linspace_nth by lia.
    assert (E : INR (2 * S q) = 2 * INR (S q)) by (rewrite mult_INR; cbn; lra). rewrite E. pose proof (lt_0_INR (S q) ltac:(lia)). field. lra.
Qed.
Lemma diag_le w h res : 0 < res -> diag_len w h <= INR (n_q w h res) * res.
Proof.
  intros Hr. unfold n_q. set (d := diag_len w h / res). assert (D : 0 <= d) by (unfold d; apply Rmult_le_pos; [apply sqrt_pos|left; now apply Rinv_0_lt_compat]).
  pose proof (ceil_spec d) as C. assert (0 <= ceil d)%Z by (apply le_IZR; lra). rewrite INR_IZR_INZ, Z2Nat.id by assumption.
  replace (diag_len w h) with (d * res) by (unfold d; field; lra). apply Rmult_le_compat_r; lra.
Qed.
Lemma value_bound w h x y theta : (x < h)%nat -> (y < w)%nat -> Rabs (INR x * cos theta + INR y * sin theta) <= diag_len w h.
Proof.
  intros Hx Hy. unfold diag_len. rewrite <- (sqrt_Rsqr_abs). apply sqrt_le_1_alt. unfold Rsqr.
  assert (X : INR x <= INR h - 1) by (apply le_INR in Hx; rewrite S_INR in Hx; lra). assert (Y : INR y <= INR w - 1) by (apply le_INR in Hy; rewrite S_INR in Hy; lra).
  pose proof (pos_INR x) as X0. pose proof (pos_INR y) as Y0. set (a := INR x) in *. set (b := INR y) in *. pose proof (sc2 theta) as S. set (c := cos theta) in *. set (s := sin theta) in *.
  assert (E : (a * c + b * s) * (a * c + b * s) = (a ^ 2 + b ^ 2) * (s * s + c * c) - (a * s - b * c) ^ 2) by ring.
  rewrite E, S. pose proof (pow2_ge_0 (a * s - b * c)). nra.
Qed.
Lemma nearest_exists (q : nat) res v : 0 < res -> Rabs v <= INR q * res -> exists k, (k <= 2 * q)%nat /\ Rabs ((INR k - INR q) * res - v) <= res / 2.
Proof.
  intros Hr Hv. apply Rabs_def2b in Hv || (pose proof (Rle_abs v); pose proof (Rle_abs (- v)); rewrite Rabs_Ropp in *).
  set (t := v / res + INR q + / 2). assert (V : v = (t - INR q - / 2) * res) by (unfold t; field; lra).
  assert (T : / 2 <= t <= 2 * INR q + / 2).
  { assert (- INR q <= v / res <= INR q); [|unfold t; lra]. split; apply (Rmult_le_reg_r res); try assumption; unfold Rdiv; rewrite Rmult_assoc, Rinv_l by lra; lra. }
  pose proof (floor_spec t) as F. exists (Z.to_nat (Int_part t)).
  assert (P : (0 <= Int_part t)%Z) by (apply floor_ge; lra).
  assert (Q : (Int_part t < 2 * Z.of_nat q + 1)%Z).
  { apply floor_lt. rewrite plus_IZR, mult_IZR, <- INR_IZR_INZ. lra. }
  split; [lia|]. rewrite INR_IZR_INZ, Z2Nat.id by assumption. rewrite V. apply Rabs_le. split; nra.
Qed.

(** C63: each pixel of the image votes, for each angle, for the bin of rho which is nearest; it differs by not more than half of the bin size *)
Theorem C63_nearest w h res x y theta : 0 < res -> (x < h)%nat -> (y < w)%nat ->
  let rh := rhos w h res in let i := rho_index rh x y theta in let v := INR x * cos theta + INR y * sin theta in
  (i < length rh)%nat /\ Rabs (nth i rh 0 - v) <= res / 2 /\ forall k, (k < length rh)%nat -> Rabs (nth i rh 0 - v) <= Rabs (nth k rh 0 - v).
Proof.
  intros Hr Hx Hy rh i v. set (f := fun r => Rabs (r - v)).
  assert (L : length rh = (2 * n_q w h res + 1)%nat) by apply rhos_length.
  destruct (argmin_ok (map f rh)) as [A B]. { intros E. apply map_eq_nil in E. rewrite E in L. cbn in L. lia. }
  rewrite map_length in A. change (argmin (map f rh)) with i in A, B.
  assert (N : nth i (map f rh) 0 = f (nth i rh 0)). { rewrite (nth_indep _ 0 (f 0)) by (rewrite map_length; exact A). apply map_nth. }
  assert (K : forall k, (k < length rh)%nat -> f (nth i rh 0) <= f (nth k rh 0)).
  { intros k Hk. rewrite <- N. apply B. apply in_map. now apply nth_In. }
  split; [exact A|]. split; [|exact K].
  destruct (nearest_exists (n_q w h res) res v Hr) as (k & Hk & Hd).
  { eapply Rle_trans; [apply (value_bound w h); assumption|now apply diag_le]. }
  eapply Rle_trans; [apply (K k); lia|]. unfold f, rh. now rewrite rhos_nth by assumption.
Qed.
(** The angles: from -90 to 90 degree in 2 n equal steps *)
Lemma thetas_deg n : (1 <= n)%nat ->
  linspace (-90) 0 (n + 1) ++ map Ropp (rev (removelast (linspace (-90) 0 (n + 1)))) = map (fun k => -90 + INR k * (90 / INR n)) (seq 0 (2 * n + 1)).
Proof.
  intros Hn. rewrite Nat.add_1_r.
  assert (E : linspace (-90) 0 (S n) = map (fun k => -90 + INR k * (90 / INR n)) (seq 0 (S n))).
  { destruct n as [|n]; [lia|]. unfold linspace. apply map_ext. intros k. f_equal. f_equal. unfold Rdiv. ring. }
  pose proof (lt_0_INR n ltac:(lia)) as N0.
  rewrite E. replace (2 * n + 1)%nat with (S n + n)%nat by lia. rewrite seq_app, map_app. f_equal. cbn [Nat.add].
  rewrite seq_S, map_app. cbn [map]. rewrite removelast_last. rewrite map_rev, map_map.
  (* compare entry by entry *)
  apply nth_ext with (d := 0) (d' := 0); [now rewrite rev_length, !map_length, !seq_length|].
  rewrite rev_length, map_length, seq_length. intros k Hk. rewrite rev_nth by now rewrite map_length, seq_length. rewrite map_length, seq_length.
  set (f := fun x : nat => - (-90 + INR x * (90 / INR n))). set (g := fun k => -90 + INR k * (90 / INR n)).
  rewrite (nth_indep _ 0 (f 0%nat)) by (rewrite map_length, seq_length; lia). rewrite map_nth, seq_nth by lia.
  rewrite (nth_indep (map g _) 0 (g 0%nat)) by (rewrite map_length, seq_length; lia). rewrite map_nth, seq_nth by lia.
  unfold f, g. rewrite plus_INR, minus_INR, S_INR by lia. rewrite plus_INR, S_INR. cbn [INR]. field. lra.
Qed.
Theorem C63_thetas res : 0 < res -> exists n, (1 <= n)%nat /\ 90 / INR n <= res /\ length (thetas res) = (2 * n + 1)%nat /\
  forall k, (k <= 2 * n)%nat -> nth k (thetas res) 0 = (-90 + INR k * (90 / INR n)) * (PI / 180).
Proof.
  intros Hr. set (n := Z.to_nat (ceil (90 / res))). exists n. pose proof (ceil_spec (90 / res)) as C.
  assert (D : 0 < 90 / res) by (apply Rdiv_lt_0_compat; lra).
  assert (Hc : (0 < ceil (90 / res))%Z) by (apply lt_IZR; lra).
  assert (Hn : (1 <= n)%nat) by (unfold n; lia). split; [exact Hn|].
  assert (N : 90 / res <= INR n) by (unfold n; rewrite INR_IZR_INZ, Z2Nat.id by lia; lra).
  pose proof (lt_0_INR n ltac:(lia)) as N0. split.
  { apply (Rmult_le_reg_r (INR n)); [assumption|]. replace (90 / INR n * INR n) with 90 by (field; lra). replace 90 with (90 / res * res) by (field; lra). rewrite Rmult_comm. apply Rmult_le_compat_l; lra. }
  unfold thetas. fold n. rewrite thetas_deg by assumption. rewrite map_map. split; [now rewrite map_length, seq_length|].
  intros k Hk. set (f := fun x : nat => (-90 + INR x * (90 / INR n)) * (PI / 180)).
  rewrite (nth_indep _ 0 (f 0%nat)) by (rewrite map_length, seq_length; lia). rewrite map_nth, seq_nth by lia. reflexivity.
Qed.

(** ** Votes *)
Definition votes_for (rh : list R) (theta : R) (pixels : list (nat * nat)) (i : nat) : nat :=
  length (filter (fun p => (rho_index rh (fst p) (snd p) theta =? i)%nat) pixels).
Lemma vote_fold rh th p (l : list nat) : NoDup l -> forall acc i j,
  fold_left (fun acc k => accumulate acc (rho_index rh (fst p) (snd p) (nth k th 0)) k) l acc i j =
  (acc i j + if existsb (Nat.eqb j) l && (rho_index rh (fst p) (snd p) (nth j th 0%R) =? i)%nat then 1 else 0)%nat.
Proof.
  induction 1 as [|k l Hk Hl IH]; intros acc i j; cbn [fold_left existsb]; [cbn; lia|]. rewrite IH. unfold accumulate.
  destruct (Nat.eqb_spec j k) as [->|E]; cbn [orb andb].
  - assert (F : existsb (Nat.eqb k) l = false). { destruct (existsb (Nat.eqb k) l) eqn:F; [|reflexivity]. apply existsb_exists in F as (x & Hx & Ex). apply Nat.eqb_eq in Ex. now subst. }
    rewrite F. cbn [andb]. rewrite andb_true_r, (Nat.eqb_sym i). destruct (_ =? i)%nat; lia.
  - rewrite andb_false_r. reflexivity.
Qed.
(** C63: the value of a bin is the number of pixels whose nearest rho at this angle is the one of the bin *)
Theorem C63_votes rh th pixels i j : (j < length th)%nat -> hough_transform rh th pixels i j = votes_for rh (nth j th 0) pixels i.
Proof.
  intros Hj. unfold hough_transform. 
  assert (G : forall acc, fold_left (vote rh th) pixels acc i j = (acc i j + votes_for rh (nth j th 0%R) pixels i)%nat).
  { induction pixels as [|p pixels IH]; intros acc; cbn [fold_left]; [unfold votes_for; cbn; lia|]. rewrite IH. unfold vote at 1. rewrite vote_fold by apply seq_NoDup.
    assert (E : existsb (Nat.eqb j) (seq 0 (length th)) = true). { apply existsb_exists. exists j. split; [apply in_seq; lia|apply Nat.eqb_refl]. }
    rewrite E. cbn [andb]. unfold votes_for. cbn [filter]. destruct (_ =? i)%nat; cbn [length]; lia. }
  now rewrite G.
Qed.
(** At each angle all of the pixels have one vote *)
Fixpoint sum_to (n : nat) (f : nat -> nat) : nat := match n with O => O | S k => (sum_to k f + f k)%nat end.
Theorem C63_all_votes w h res th pixels j : 0 < res -> (forall p, In p pixels -> (fst p < h)%nat /\ (snd p < w)%nat) -> (j < length th)%nat ->
  sum_to (length (rhos w h res)) (fun i => hough_transform (rhos w h res) th pixels i j) = length pixels.
Proof.
  intros Hr Hp Hj. set (rh := rhos w h res).
  assert (E : forall n f g, (forall i, f i = g i) -> sum_to n f = sum_to n g) by (intros n f g H; induction n; cbn; [reflexivity|rewrite IHn, H; reflexivity]).
  rewrite (E _ _ (votes_for rh (nth j th 0) pixels)) by (intros i; now apply C63_votes). clear Hj.
  assert (O : forall n k, sum_to n (fun i => if (k =? i)%nat then 1%nat else 0%nat) = if (k <? n)%nat then 1%nat else 0%nat).
  { induction n as [|n IH]; intros k; cbn [sum_to]; [reflexivity|]. rewrite IH. destruct (Nat.ltb_spec k n), (Nat.eqb_spec k n), (Nat.ltb_spec k (S n)); lia. }
  assert (A : forall n f g, sum_to n (fun i => f i + g i)%nat = (sum_to n f + sum_to n g)%nat) by (intros n f g; induction n; cbn; [reflexivity|rewrite IHn; lia]).
  induction pixels as [|p pixels IH].
  - cbn [length]. clear. induction (length rh); cbn; [reflexivity|]. now rewrite IHn.
  - cbn [length]. rewrite <- IH by (intros x Hx; apply Hp; now right).
    rewrite (E _ _ (fun i => (if (rho_index rh (fst p) (snd p) (nth j th 0%R) =? i)%nat then 1 else 0) + votes_for rh (nth j th 0%R) pixels i)%nat).
    + rewrite A, O. destruct (Hp p (or_introl eq_refl)) as [Hx Hy]. destruct (C63_nearest w h res (fst p) (snd p) (nth j th 0) Hr Hx Hy) as [L _]. fold rh in L.
      apply Nat.ltb_lt in L. now rewrite L.
    + intros i. unfold votes_for. cbn [filter]. destruct (_ =? i)%nat; reflexivity.
Qed.
Lemma filter_le' {A} (f : A -> bool) l : (length (filter f l) <= length l)%nat.
Proof. induction l as [|x l IH]; cbn; [lia|]. destruct (f x); cbn; lia. Qed.
(** Pixels on a straight line in one of the directions: all of the votes are in one bin, no other bin has more *)
Theorem C63_straight_line w h res th pixels j rho : 0 < res -> (forall p, In p pixels -> (fst p < h)%nat /\ (snd p < w)%nat) -> (j < length th)%nat -> pixels <> [] ->
  (forall p, In p pixels -> INR (fst p) * cos (nth j th 0) + INR (snd p) * sin (nth j th 0) = rho) ->
  exists i, (i < length (rhos w h res))%nat /\ Rabs (nth i (rhos w h res) 0 - rho) <= res / 2 /\ hough_transform (rhos w h res) th pixels i j = length pixels
    /\ forall i' j', (j' < length th)%nat -> (hough_transform (rhos w h res) th pixels i' j' <= length pixels)%nat.
Proof.
  intros Hr Hp Hj Hne Hl. destruct pixels as [|p pixels]; [congruence|]. set (all := p :: pixels) in *.
  exists (rho_index (rhos w h res) (fst p) (snd p) (nth j th 0)).
  destruct (Hp p (or_introl eq_refl)) as [Hx Hy]. destruct (C63_nearest w h res (fst p) (snd p) (nth j th 0) Hr Hx Hy) as (L & D & _).
  split; [exact L|]. split; [now rewrite (Hl p (or_introl eq_refl)) in D|]. split.
  - rewrite C63_votes by assumption. unfold votes_for.
    assert (F : forall (f : nat * nat -> bool) l, (forall x, In x l -> f x = true) -> length (filter f l) = length l).
    { intros f l. induction l as [|a l IH]; intros H; cbn; [reflexivity|]. rewrite (H a (or_introl eq_refl)). cbn. f_equal. apply IH. intros x Hx'. apply H. now right. }
    apply F. intros q Hq. apply Nat.eqb_eq. unfold rho_index. f_equal. apply map_ext. intros r. do 2 f_equal. rewrite (Hl q Hq). symmetry. apply Hl. now left.
  - intros i' j' Hj'. rewrite C63_votes by assumption. apply filter_le'.
Qed.

(** ** Selection *)
(** The bins in the order of decreasing votes; empty bins are left out *)
Definition by_votes (acc : nat -> nat -> nat) (n_rho n_theta : nat) (indices : list (nat * nat)) : Prop :=
  StronglySorted (fun a b => (acc (fst b) (snd b) <= acc (fst a) (snd a))%nat) indices /\
  forall i j, In (i, j) indices <-> (i < n_rho /\ j < n_theta /\ acc i j <> 0)%nat.
Definition slope_of (theta : R) : R := - cos theta / sin theta.
Definition candidate_slope (theta : R) : Prop := sin theta <> 0 /\ (Rabs (slope_of theta - 1) <= 1/10 \/ Rabs (slope_of theta + 1) <= 1/10).
Lemma proper_slope_true s : proper_slope s = true <-> Rabs (s - 1) <= 1/10 \/ Rabs (s + 1) <= 1/10.
Proof. unfold proper_slope. rewrite orb_true_iff, !Rleb_true. replace (s - -1) with (s + 1) by ring. reflexivity. Qed.
Lemma line_of_spec b r rho theta : line_of b r rho theta = if Reqb (sin theta) 0 then None else Some (slope_of theta, rho / sin theta * b + r + 1/2 * b).
Proof. reflexivity. Qed.
(** C63: the line is the one with the most votes among those with a slope of 1 or -1 within 0.1 *)
Theorem C63_selection acc bin_size ref_start rh th indices i j line : by_votes acc (length rh) (length th) indices ->
  find_correlation bin_size ref_start rh th indices = Some (i, j, line) ->
  candidate_slope (nth j th 0) /\ acc i j <> O /\ fst line = slope_of (nth j th 0) /\
  forall i' j', (i' < length rh)%nat -> (j' < length th)%nat -> candidate_slope (nth j' th 0) -> (acc i' j' <= acc i j)%nat.
Proof.
  intros [S A] H.
  assert (G : forall l, StronglySorted (fun a b => (acc (fst b) (snd b) <= acc (fst a) (snd a))%nat) l -> find_correlation bin_size ref_start rh th l = Some (i, j, line) ->
    candidate_slope (nth j th 0) /\ In (i, j) l /\ fst line = slope_of (nth j th 0) /\ forall a, In a l -> candidate_slope (nth (snd a) th 0) -> (acc (fst a) (snd a) <= acc i j)%nat).
  { clear S A H indices. induction 1 as [|[a b] l Sl IH F]; cbn [find_correlation]; [discriminate|]. rewrite line_of_spec.
    assert (Skip : find_correlation bin_size ref_start rh th l = Some (i, j, line) -> ~ candidate_slope (nth b th 0) ->
      candidate_slope (nth j th 0) /\ In (i, j) ((a, b) :: l) /\ fst line = slope_of (nth j th 0) /\ forall x, In x ((a, b) :: l) -> candidate_slope (nth (snd x) th 0) -> (acc (fst x) (snd x) <= acc i j)%nat).
    { intros H N. destruct (IH H) as (I1 & I2 & I3 & I4). split; [exact I1|]. split; [now right|]. split; [exact I3|]. intros x [<-|Hx] C; [now destruct N|now apply I4]. }
    destruct (Reqb (sin (nth b th 0)) 0) eqn:E.
    - apply Reqb_true in E. intros H. apply Skip; [assumption|]. intros [N _]. now apply N.
    - apply Reqb_false in E. destruct (proper_slope (slope_of (nth b th 0))) eqn:P.
      + apply proper_slope_true in P. intros H. injection H as <- <- <-. split; [now split|]. split; [now left|]. split; [reflexivity|].
        intros x [<-|Hx] _; [cbn; lia|]. rewrite Forall_forall in F. apply (F x Hx).
      + intros H. apply Skip; [assumption|]. intros [_ N]. apply proper_slope_true in N. congruence. }
  destruct (G indices S H) as (G1 & G2 & G3 & G4). split; [exact G1|]. split; [now apply A|]. split; [exact G3|].
  intros i' j' Hi Hj C. destruct (Nat.eq_dec (acc i' j') 0) as [Z|Z]; [lia|]. apply (G4 (i', j')); [apply A; auto|exact C].
Qed.
(** It is an error if and only if there is no such line *)
Theorem C63_no_correlation acc bin_size ref_start rh th indices : by_votes acc (length rh) (length th) indices ->
  (find_correlation bin_size ref_start rh th indices = None <-> forall i j, (i < length rh)%nat -> (j < length th)%nat -> candidate_slope (nth j th 0) -> acc i j = O).
Proof.
  intros [_ A].
  assert (G : forall l, find_correlation bin_size ref_start rh th l = None <-> forall a, In a l -> ~ candidate_slope (nth (snd a) th 0)).
  { induction l as [|[a b] l IH]; cbn [find_correlation]; [split; [intros _ x []|reflexivity]|]. rewrite line_of_spec. destruct (Reqb (sin (nth b th 0)) 0) eqn:E.
    - apply Reqb_true in E. rewrite IH. split; intros H x; [intros [<-|Hx]; [intros [N _]; now apply N|now apply H]|intros Hx; apply H; now right].
    - apply Reqb_false in E. destruct (proper_slope (slope_of (nth b th 0))) eqn:P.
      + apply proper_slope_true in P. split; [discriminate|]. intros H. exfalso. apply (H (a, b) (or_introl eq_refl)). now split.
      + rewrite IH. split; intros H x; [intros [<-|Hx]; [intros [_ N]; apply proper_slope_true in N; cbn [snd] in *; congruence|now apply H]|intros Hx; apply H; now right]. }
  rewrite G. split.
  - intros H i j Hi Hj C. destruct (Nat.eq_dec (acc i j) 0) as [Z|Z]; [assumption|]. exfalso. apply (H (i, j)); [apply A; auto|exact C].
  - intros H [i j] Ha C. apply A in Ha as (Hi & Hj & N). apply N. now apply H.
Qed.

(** Three pixels on the diagonal of an image with 3 x 3 pixels, angle -45 degree: all votes are for rho = 0 *)
Example C63_example : exists i, (i < length (rhos 3 3 1))%nat /\ hough_transform (rhos 3 3 1) [- (PI / 4)] [(0, 0); (1, 1); (2, 2)]%nat i 0 = 3%nat /\ candidate_slope (- (PI / 4)).
Proof.
  destruct (C63_straight_line 3 3 1 [- (PI / 4)] [(0, 0); (1, 1); (2, 2)]%nat 0 0) as (i & Hi & _ & Hv & _).
  - lra.
  - intros p [<-|[<-|[<-|[]]]]; cbn; lia.
  - cbn. lia.
  - discriminate.
  - intros p Hp. cbn [nth]. rewrite cos_neg, sin_neg, cos_PI4, sin_PI4. destruct Hp as [<-|[<-|[<-|[]]]]; cbn; ring.
  - exists i. split; [exact Hi|]. split; [exact Hv|]. assert (sqrt 2 > 0) by apply Rlt_sqrt2_0.
    assert (S : 1 / sqrt 2 > 0) by (apply Rdiv_lt_0_compat; lra). unfold candidate_slope, slope_of. rewrite cos_neg, sin_neg, cos_PI4, sin_PI4. split; [lra|]. left.
    replace (- (1 / sqrt 2) / - (1 / sqrt 2) - 1) with 0 by (field; lra). rewrite Rabs_R0. lra.
Qed.

Print Assumptions C63_nearest.
Print Assumptions C63_thetas.
Print Assumptions C63_votes.
Print Assumptions C63_all_votes.
Print Assumptions C63_straight_line.
Print Assumptions C63_selection.
Print Assumptions C63_no_correlation.
