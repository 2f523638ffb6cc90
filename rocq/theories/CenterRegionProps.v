(** C147: the efficiencies of fixed rectangles in the in-pixel maps of efficiency_plots. *)
From Coq Require Import List ZArith Reals Bool Lia Lra.
From Verif Require Import CorrelateModel CorrelateBinsProps CenterRegionModel.
Import ListNotations.
Local Open Scope R_scope.

(** *** Specification *)
(** the bin i of an axis with n bins is inside of the interval [a, b] *)
Definition bin_inside (lo hi : R) (n : nat) (a b : R) (i : nat) : Prop := (i < n)%nat /\ a <= lo + INR i * ((hi - lo) / INR n) /\ lo + INR (S i) * ((hi - lo) / INR n) <= b.
Definition left_of (loc w : R) := loc - w / 2.
Definition right_of (loc w : R) := loc + w / 2.
(** the bin (x, y) is inside of the rectangle *)
Definition inside (e : extent) (m : pixel_map) (r : rectangle) (b : nat * nat) : Prop :=
  bin_inside (x_lo e) (x_hi e) (x_bins m) (left_of (x_loc r) (x_width r)) (right_of (x_loc r) (x_width r)) (fst b) /\
  bin_inside (y_lo e) (y_hi e) (y_bins m) (left_of (y_loc r) (y_width r)) (right_of (y_loc r) (y_width r)) (snd b).
(** the interval starts and ends at edges of bins, symmetric around an edge, and does not start before the axis *)
Definition aligned (lo hi : R) (n : nat) (loc w : R) : Prop := lo < hi /\ (0 < n)%nat /\ exists p q : nat, (q <= p)%nat /\ loc = lo + INR p * ((hi - lo) / INR n) /\ w = 2 * INR q * ((hi - lo) / INR n).
(** v is the mean of the efficiencies of the bins of the list; None: no bin *)
Definition mean_of (m : pixel_map) (l : list (nat * nat)) (v : option R) : Prop :=
  match v with
  | None => l = []
  | Some v => l <> [] /\ exists values, Forall2 (fun b e => efficiency_of m (fst b) (snd b) = Some e) l values /\ v * INR (length l) = fold_right Rplus 0 values
  end.

(** *** Small facts *)
Lemma ceil_IZR k : ceil (IZR k) = k.
Proof. pose proof (ceil_spec (IZR k)) as [A B]. apply le_IZR in A. rewrite <- plus_IZR in B. apply lt_IZR in B. lia. Qed.
Lemma resolution_pos lo hi n : lo < hi -> (0 < n)%nat -> resolution lo hi n = (hi - lo) / INR n /\ 0 < resolution lo hi n.
Proof. intros H N. unfold resolution. rewrite Rabs_right by lra. split; [reflexivity|]. apply Rdiv_lt_0_compat; [lra|]. apply lt_0_INR. exact N. Qed.
Lemma selection_eq lo hi n loc w : selection lo hi n loc w = ((ceil ((loc - lo) / resolution lo hi n) - ceil (w / resolution lo hi n / 2))%Z, (ceil ((loc - lo) / resolution lo hi n) + ceil (w / resolution lo hi n / 2))%Z).
Proof. unfold selection. rewrite ceil_IZR. reflexivity. Qed.
Lemma sliced_spec n a b i : (0 <= a)%Z -> (0 <= b)%Z -> In i (sliced n (a, b)) <-> (i < n)%nat /\ (a <= Z.of_nat i < b)%Z.
Proof. intros A B. unfold sliced, bound. cbn [fst snd]. destruct (Z.ltb_spec a 0), (Z.ltb_spec b 0); try lia. rewrite in_seq. lia. Qed.
Lemma sliced_negative n a b : (a < 0)%Z -> (0 <= b)%Z -> (b - a <= Z.of_nat n)%Z -> sliced n (a, b) = [].
Proof.
  intros A B H. unfold sliced, bound. cbn [fst snd]. destruct (Z.ltb_spec a 0), (Z.ltb_spec b 0); try lia.
  assert (E : (Nat.min (Z.to_nat b) n - Z.to_nat (Z.max 0 (a + Z.of_nat n)) = 0)%nat) by lia. rewrite E. reflexivity.
Qed.
(** the unmasked bins *)
Definition unmasked (m : pixel_map) (xs ys : list nat) : list (nat * nat) :=
  flat_map (fun x => flat_map (fun y => match efficiency_of m x y with Some _ => [(x, y)] | None => [] end) ys) xs.
Lemma unmasked_In m xs ys b : In b (unmasked m xs ys) <-> In (fst b) xs /\ In (snd b) ys /\ efficiency_of m (fst b) (snd b) <> None.
Proof.
  unfold unmasked. rewrite in_flat_map. split.
  - intros (x & X & H). apply in_flat_map in H. destruct H as (y & Y & H). destruct (efficiency_of m x y) eqn:E; [|destruct H]. destruct H as [<-|[]]. cbn [fst snd]. split; [exact X|]. split; [exact Y|congruence].
  - intros (X & Y & E). exists (fst b). split; [exact X|]. apply in_flat_map. exists (snd b). split; [exact Y|]. destruct (efficiency_of m (fst b) (snd b)); [left; now destruct b|congruence].
Qed.
Lemma unmasked_values m xs ys : Forall2 (fun b e => efficiency_of m (fst b) (snd b) = Some e) (unmasked m xs ys) (compressed m xs ys).
Proof.
  unfold unmasked, compressed. induction xs as [|x xs IH]; [constructor|]. cbn [flat_map]. apply Forall2_app; [|exact IH]. clear. induction ys as [|y ys IH]; [constructor|]. cbn [flat_map].
  apply Forall2_app; [|exact IH]. destruct (efficiency_of m x y) eqn:E; constructor; [exact E|constructor].
Qed.
Lemma nodup_append {T} (l k : list T) : NoDup l -> NoDup k -> (forall x, In x l -> ~ In x k) -> NoDup (l ++ k).
Proof.
  intros L K H. induction L as [|x l N L IH]; [exact K|]. cbn [app]. constructor; [|apply IH; intros y Y; apply H; right; exact Y].
  intros I. apply in_app_or in I. destruct I as [I|I]; [contradiction|]. apply (H x); [left; reflexivity|exact I].
Qed.
Lemma unmasked_nodup m xs ys : NoDup xs -> NoDup ys -> NoDup (unmasked m xs ys).
Proof.
  intros X Y. unfold unmasked. induction X as [|x xs N X IH]; [constructor|]. cbn [flat_map]. apply nodup_append; [|exact IH|].
  - clear - Y. induction Y as [|y ys N Y IH]; [constructor|]. cbn [flat_map]. apply nodup_append; [destruct (efficiency_of m x y); repeat constructor; intros []|exact IH|].
    intros b B I. destruct (efficiency_of m x y); [|destruct B]. destruct B as [<-|[]]. apply in_flat_map in I. destruct I as (z & Z & I). destruct (efficiency_of m x z); [|destruct I]. destruct I as [I|[]]. injection I as ->. contradiction.
  - intros b B I. apply in_flat_map in B. destruct B as (y & _ & B). destruct (efficiency_of m x y); [|destruct B]. destruct B as [<-|[]]. apply (unmasked_In m xs ys) in I. destruct I as [I _]. contradiction.
Qed.
Lemma Forall2_same_length {A B} (P : A -> B -> Prop) l k : Forall2 P l k -> length l = length k.
Proof. intros H. induction H; cbn; congruence. Qed.
Lemma shown_mean m xs ys : mean_of m (unmasked m xs ys) (np_mean (compressed m xs ys)).
Proof.
  pose proof (unmasked_values m xs ys) as F. pose proof (Forall2_same_length _ _ _ F) as L. unfold np_mean. destruct (compressed m xs ys) as [|v l] eqn:E; cbn [mean_of].
  - destruct (unmasked m xs ys); [reflexivity|discriminate].
  - split; [intros Z; rewrite Z in L; discriminate|]. exists (v :: l). split; [exact F|]. rewrite L. field. apply not_0_INR. discriminate.
Qed.
Lemma compressed_none m xs ys : xs = [] \/ ys = [] -> compressed m xs ys = [].
Proof. intros [-> | ->]; [reflexivity|]. unfold compressed. induction xs as [|x xs IH]; [reflexivity|]. exact IH. Qed.
Lemma near_axis lo hi n loc w i : lo < hi -> (0 < n)%nat -> (0 <= fst (selection lo hi n loc w))%Z -> 0 <= w -> (i < n)%nat ->
  (In i (sliced n (selection lo hi n loc w)) -> bin_inside lo hi n (left_of loc w - (hi - lo) / INR n) (right_of loc w + 2 * ((hi - lo) / INR n)) i) /\
  (bin_inside lo hi n (left_of loc w + (hi - lo) / INR n) (right_of loc w) i -> In i (sliced n (selection lo hi n loc w))).
Proof.
  intros H N P W I. rewrite selection_eq in *. cbn [fst] in P. destruct (resolution_pos lo hi n H N) as [E Q]. rewrite E in *. set (r := (hi - lo) / INR n) in *.
  pose proof (ceil_spec ((loc - lo) / r)) as [A1 A2]. pose proof (ceil_spec (w / r / 2)) as [B1 B2]. set (a := ceil ((loc - lo) / r)) in *. set (b := ceil (w / r / 2)) in *.
  assert (B0 : (0 <= b)%Z). { apply le_IZR. apply Rle_trans with (w / r / 2); [|exact B1]. unfold Rdiv. apply Rmult_le_pos; [|lra]. apply Rmult_le_pos; [exact W|]. left. apply Rinv_0_lt_compat, Q. }
  rewrite sliced_spec by lia. unfold bin_inside, left_of, right_of. fold r.
  assert (A1' : loc - lo <= IZR a * r) by (apply (Rmult_le_reg_r (/ r)); [apply Rinv_0_lt_compat, Q|]; rewrite Rmult_assoc, Rinv_r by lra; unfold Rdiv in A1; lra).
  assert (A2' : IZR a * r < loc - lo + r) by (apply (Rmult_lt_reg_r (/ r)); [apply Rinv_0_lt_compat, Q|]; rewrite Rmult_plus_distr_r, Rmult_assoc, Rinv_r by lra; unfold Rdiv in A2; lra).
  assert (B1' : w / 2 <= IZR b * r) by (apply (Rmult_le_reg_r (/ r)); [apply Rinv_0_lt_compat, Q|]; rewrite Rmult_assoc, Rinv_r by lra; unfold Rdiv in *; lra).
  assert (B2' : IZR b * r < w / 2 + r) by (apply (Rmult_lt_reg_r (/ r)); [apply Rinv_0_lt_compat, Q|]; rewrite Rmult_plus_distr_r, Rmult_assoc, Rinv_r by lra; unfold Rdiv in *; lra).
  rewrite S_INR, INR_IZR_INZ. split.
  - intros (_ & L & U). split; [exact I|]. apply IZR_le in L. rewrite minus_IZR in L. assert (U' : (Z.of_nat i + 1 <= a + b)%Z) by lia. apply IZR_le in U'. rewrite !plus_IZR in U'.
    apply (Rmult_le_compat_r r) in L; [|lra]. apply (Rmult_le_compat_r r) in U'; [|lra]. split; lra.
  - intros (_ & L & U). split; [exact I|]. split.
    + apply Z.lt_succ_r. apply lt_IZR. rewrite succ_IZR, minus_IZR. apply (Rmult_lt_reg_r r); [exact Q|]. lra.
    + apply Z.lt_le_trans with (Z.of_nat i + 1)%Z; [lia|]. apply le_IZR. rewrite !plus_IZR. apply (Rmult_le_reg_r r); [exact Q|]. lra.
Qed.
Lemma aligned_axis lo hi n loc w i : aligned lo hi n loc w -> (In i (sliced n (selection lo hi n loc w)) <-> bin_inside lo hi n (left_of loc w) (right_of loc w) i).
Proof.
  intros (H & N & p & q & Hq & -> & ->). rewrite selection_eq. destruct (resolution_pos lo hi n H N) as [E Q]. rewrite E in *. set (r := (hi - lo) / INR n) in *.
  replace ((lo + INR p * r - lo) / r) with (INR p) by (field; lra). replace (2 * INR q * r / r / 2) with (INR q) by (field; lra). rewrite !INR_IZR_INZ, !ceil_IZR. rewrite sliced_spec by lia.
  unfold bin_inside, left_of, right_of. fold r. rewrite S_INR, !INR_IZR_INZ. split.
  - intros (I & L & U). split; [exact I|]. apply IZR_le in L. rewrite minus_IZR in L. assert (U' : (Z.of_nat i + 1 <= Z.of_nat p + Z.of_nat q)%Z) by lia. apply IZR_le in U'. rewrite !plus_IZR in U'.
    apply (Rmult_le_compat_r r) in L; [|lra]. apply (Rmult_le_compat_r r) in U'; [|lra]. split; lra.
  - intros (I & L & U). split; [exact I|]. split.
    + apply le_IZR. rewrite minus_IZR. apply (Rmult_le_reg_r r); [exact Q|]. lra.
    + apply Z.lt_le_trans with (Z.of_nat i + 1)%Z; [lia|]. apply le_IZR. rewrite !plus_IZR. apply (Rmult_le_reg_r r); [exact Q|]. lra.
Qed.

(** *** Theorems *)
(** If the rectangle is on the grid of the bins and does not start before the map, the number is the mean of the efficiencies of exactly those bins which are inside of the rectangle and not masked, each counted once. *)
Theorem C147_mean e m r : aligned (x_lo e) (x_hi e) (x_bins m) (x_loc r) (x_width r) -> aligned (y_lo e) (y_hi e) (y_bins m) (y_loc r) (y_width r) ->
  exists bins, NoDup bins /\ (forall b, In b bins <-> inside e m r b /\ efficiency_of m (fst b) (snd b) <> None) /\ mean_of m bins (shown e m r).
Proof.
  intros X Y. eexists. split; [|split; [|apply shown_mean]].
  - apply unmasked_nodup; unfold sliced; apply seq_NoDup.
  - intros b. rewrite unmasked_In, (aligned_axis _ _ _ _ _ _ X), (aligned_axis _ _ _ _ _ _ Y). unfold inside. tauto.
Qed.
(** Otherwise, if no index is negative: bins which begin less than one bin before the rectangle and end less than two bins after it may contribute, and all bins which are inside of the rectangle do, except in its first column and row of bins. *)
Theorem C147_near e m r : x_lo e < x_hi e -> y_lo e < y_hi e -> (0 < x_bins m)%nat -> (0 < y_bins m)%nat -> 0 <= x_width r -> 0 <= y_width r ->
  (0 <= fst (selection (x_lo e) (x_hi e) (x_bins m) (x_loc r) (x_width r)))%Z -> (0 <= fst (selection (y_lo e) (y_hi e) (y_bins m) (y_loc r) (y_width r)))%Z ->
  let dx := (x_hi e - x_lo e) / INR (x_bins m) in let dy := (y_hi e - y_lo e) / INR (y_bins m) in
  exists bins, NoDup bins /\ mean_of m bins (shown e m r) /\ forall x y, (x < x_bins m)%nat -> (y < y_bins m)%nat ->
    (In (x, y) bins -> efficiency_of m x y <> None /\
      bin_inside (x_lo e) (x_hi e) (x_bins m) (left_of (x_loc r) (x_width r) - dx) (right_of (x_loc r) (x_width r) + 2 * dx) x /\
      bin_inside (y_lo e) (y_hi e) (y_bins m) (left_of (y_loc r) (y_width r) - dy) (right_of (y_loc r) (y_width r) + 2 * dy) y) /\
    (efficiency_of m x y <> None -> bin_inside (x_lo e) (x_hi e) (x_bins m) (left_of (x_loc r) (x_width r) + dx) (right_of (x_loc r) (x_width r)) x ->
      bin_inside (y_lo e) (y_hi e) (y_bins m) (left_of (y_loc r) (y_width r) + dy) (right_of (y_loc r) (y_width r)) y -> In (x, y) bins).
Proof.
  intros X Y NX NY WX WY PX PY dx dy. eexists. split; [|split; [apply shown_mean|]].
  - apply unmasked_nodup; unfold sliced; apply seq_NoDup.
  - intros x y Ix Iy. destruct (near_axis _ _ _ _ _ x X NX PX WX Ix) as [A B]. destruct (near_axis _ _ _ _ _ y Y NY PY WY Iy) as [C D]. rewrite unmasked_In. cbn [fst snd]. split.
    + intros (S & T & U). split; [exact U|]. split; [apply A, S|apply C, T].
    + intros U S T. split; [apply B, S|]. split; [apply D, T|exact U].
Qed.
(** A rectangle which starts before the map shows nan, whatever the efficiencies of its bins are: the negative index counts from the end of the map. *)
Theorem C147_nan_refuted e m r : (let s := selection (x_lo e) (x_hi e) (x_bins m) (x_loc r) (x_width r) in (fst s < 0)%Z /\ (0 <= snd s)%Z /\ (snd s - fst s <= Z.of_nat (x_bins m))%Z) \/
  (let s := selection (y_lo e) (y_hi e) (y_bins m) (y_loc r) (y_width r) in (fst s < 0)%Z /\ (0 <= snd s)%Z /\ (snd s - fst s <= Z.of_nat (y_bins m))%Z) -> shown e m r = None.
Proof.
  intros H. unfold shown. rewrite compressed_none; [reflexivity|]. destruct H as [(A & B & C)|(A & B & C)]; [left|right]; rewrite (surjective_pairing (selection _ _ _ _ _)); apply sliced_negative; assumption.
Qed.
(** If the in-pixel maps are not extended (the default), they begin at 0, and two of the three fixed rectangles show nan: for every map which is at least two bins wider than 10 um. *)
Theorem C147_fixed_refuted e m : x_lo e = 0 -> (0 < x_bins m)%nat -> 0 < x_hi e -> 10 + 2 * (x_hi e / INR (x_bins m)) <= x_hi e -> exists v, texts e m = [v; None; None].
Proof.
  intros L N P H. unfold texts, rectangles. cbn [map]. exists (shown e m (Rectangle 25 25 20 20)).
  assert (K : forall y_loc y_width, shown e m (Rectangle 0 y_loc 10 y_width) = None).
  { intros yl yw. apply C147_nan_refuted. left. cbn [x_loc x_width]. rewrite selection_eq. cbn [fst snd]. rewrite L. destruct (resolution_pos 0 (x_hi e) (x_bins m) P N) as [E Q]. rewrite E in *. rewrite Rminus_0_r in *. set (d := x_hi e / INR (x_bins m)) in *.
    replace ((x_hi e - 0) / INR (x_bins m)) with d by (unfold d; rewrite Rminus_0_r; reflexivity). replace (0 / d) with (IZR 0) by (unfold Rdiv; rewrite Rmult_0_l; reflexivity). rewrite ceil_IZR. assert (Hd : x_hi e = INR (x_bins m) * d) by (unfold d; field; apply not_0_INR; lia).
    pose proof (ceil_spec (10 / d / 2)) as [A B]. set (c := ceil (10 / d / 2)) in *. assert (F : 0 < 10 / d / 2) by (unfold Rdiv; apply Rmult_lt_0_compat; [apply Rmult_lt_0_compat; [lra|apply Rinv_0_lt_compat, Q]|lra]).
    assert (C0 : (0 < c)%Z) by (apply lt_IZR; lra). split; [lia|]. split; [lia|]. apply le_IZR. rewrite minus_IZR, plus_IZR, minus_IZR, <- INR_IZR_INZ.
    assert (G : 10 / d + 2 <= INR (x_bins m)). { apply (Rmult_le_reg_r d); [exact Q|]. rewrite Rmult_plus_distr_r. replace (10 / d * d) with 10 by (field; lra). lra. } lra. }
  rewrite !K. reflexivity.
Qed.

(** *** A concrete case: a pixel of 50 um x 50 um with bins of 5 um, all efficiencies 99 %: the first rectangle is aligned, the others show nan *)
Definition case_extent : extent := Extent 0 50 0 50.
Definition case_map : pixel_map := PixelMap 10 10 (fun _ _ => Some 99).
Lemma bins_10 : INR 10 = 10. Proof. rewrite INR_IZR_INZ. reflexivity. Qed.
Example C147_case : aligned 0 50 10 25 20 /\ (exists v, texts case_extent case_map = [v; None; None]) /\ exists b, inside case_extent case_map (Rectangle 25 25 20 20) b.
Proof.
  split; [|split].
  - split; [lra|]. split; [lia|]. exists 5%nat, 2%nat. rewrite bins_10. cbn [INR]. split; [lia|]. split; field.
  - apply C147_fixed_refuted; cbn [x_lo x_hi x_bins case_extent case_map]; [reflexivity|lia|lra|]. rewrite bins_10. lra.
  - exists (4%nat, 4%nat). unfold inside, bin_inside, left_of, right_of. cbn [fst snd x_lo x_hi y_lo y_hi x_bins y_bins x_loc y_loc x_width y_width case_extent case_map]. rewrite bins_10. cbn [INR]. repeat split; try lia; lra.
Qed.

Print Assumptions C147_mean.
Print Assumptions C147_near.
Print Assumptions C147_nan_refuted.
Print Assumptions C147_fixed_refuted.
