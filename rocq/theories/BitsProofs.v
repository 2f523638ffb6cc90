(** Proofs about BitsModel. *)
From Coq Require Import ZArith List Bool Lia Permutation.
From Verif Require Import BitsModel MortonProofs.
Import ListNotations.
Open Scope Z_scope.

Lemma spread_bits_range x : 0 <= spread_bits x < 2 ^ 64.
Proof.
  unfold spread_bits. match goal with |- context [Z.land ?a 0x5555555555555555] => generalize a end.
  intros a. split.
  - apply Z.land_nonneg. right. lia.
  - change 0x5555555555555555 with (Z.land 0x5555555555555555 (Z.ones 64)).
    rewrite Z.land_assoc, Z.land_ones by lia. apply Z.mod_pos_bound. lia.
Qed.

Lemma spread_bits_63 x : 0 <= x < 2 ^ 32 -> spread_bits x < 2 ^ 63.
Proof.
  intros Hx. pose proof (spread_bits_range x) as Hr.
  destruct (Z_lt_le_dec (spread_bits x) (2 ^ 63)) as [|H]; auto. exfalso.
  pose proof (spread_bits_spec x Hx 63 ltac:(lia)) as H63. cbn [Z.even andb] in H63.
  assert (Z.testbit (spread_bits x) 63 = true); [|congruence].
  apply Z.testbit_true; [lia|].
  assert (spread_bits x / 2 ^ 63 = 1) as ->; [|reflexivity].
  symmetry. apply (Z.div_unique _ _ 1 (spread_bits x - 2 ^ 63)); lia.
Qed.

Lemma morton_1_range d : 0 <= morton_1 d < 2 ^ 64.
Proof.
  unfold morton_1. change 0xFFFFFFFFFFFFFFFF with (Z.ones 64). rewrite Z.land_ones by lia.
  apply Z.mod_pos_bound. lia.
Qed.

Lemma bits_eq n x y : 0 <= n -> 0 <= x < 2 ^ n -> 0 <= y < 2 ^ n ->
  (forall k, 0 <= k < n -> Z.testbit x k = Z.testbit y k) -> x = y.
Proof.
  intros Hn Hx Hy H. apply Z.bits_inj'. intros k Hk.
  destruct (Z_lt_le_dec k n); [apply H; lia|].
  rewrite (testbit_above x n), (testbit_above y n); auto; lia.
Qed.

Lemma range_of_bits n x : 0 <= n -> 0 <= x -> (forall k, n <= k -> Z.testbit x k = false) -> x < 2 ^ n.
Proof.
  intros Hn Hx H. destruct (Z_lt_le_dec x (2 ^ n)) as [|Hge]; auto. exfalso.
  assert (Hpos : 0 < x) by (pose proof (Z.pow_pos_nonneg 2 n ltac:(lia) Hn); lia).
  pose proof (Z.bit_log2 x Hpos) as Hb. rewrite H in Hb; [discriminate|].
  rewrite <- (Z.log2_pow2 n) by lia. apply Z.log2_le_mono. lia.
Qed.

Lemma morton_interleave x y : 0 <= x < 2 ^ 32 -> 0 <= y < 2 ^ 32 ->
  0 <= xy2d_morton x y < 2 ^ 64 /\
  forall k, 0 <= k < 32 ->
    Z.testbit (xy2d_morton x y) (2 * k) = Z.testbit x k /\
    Z.testbit (xy2d_morton x y) (2 * k + 1) = Z.testbit y k.
Proof.
  intros Hx Hy. unfold xy2d_morton.
  pose proof (spread_bits_range x) as Rx. pose proof (spread_bits_range y) as Ry.
  pose proof (spread_bits_63 y Hy) as Ry'.
  split.
  - assert (Hnn : 0 <= Z.lor (spread_bits x) (Z.shiftl (spread_bits y) 1)).
    { apply Z.lor_nonneg. split; [lia|]. apply Z.shiftl_nonneg. lia. }
    split; auto. apply range_of_bits; auto; [lia|]. intros k Hk.
    rewrite Z.lor_spec, Z.shiftl_spec by lia.
    rewrite (testbit_above (spread_bits x) 64) by lia.
    rewrite (testbit_above (spread_bits y) 63) by lia. reflexivity.
  - intros k Hk. rewrite !Z.lor_spec, !Z.shiftl_spec by lia. split.
    + rewrite spread_bits_spec by (auto; lia).
      replace (2 * k / 2) with k by (rewrite Z.mul_comm, Z.div_mul; lia).
      rewrite Z.even_mul. cbn [Z.even orb andb].
      destruct (Z.eq_dec k 0) as [->|].
      * cbn. rewrite orb_false_r. reflexivity.
      * rewrite (spread_bits_spec y Hy) by lia.
        replace (2 * k - 1) with (2 * (k - 1) + 1) by lia.
        rewrite Z.even_add_mul_2 || rewrite Z.even_add, Z.even_mul. cbn. rewrite orb_false_r. reflexivity.
    + rewrite spread_bits_spec by (auto; lia).
      replace (2 * k + 1 - 1) with (2 * k) by lia.
      rewrite (spread_bits_spec y Hy) by lia.
      replace (2 * k / 2) with k by (rewrite Z.mul_comm, Z.div_mul; lia).
      rewrite Z.even_add, !Z.even_mul. cbn. reflexivity.
Qed.

Lemma even_odd_cases k : 0 <= k < 64 -> exists j, 0 <= j < 32 /\ (k = 2 * j \/ k = 2 * j + 1).
Proof.
  intros H. exists (k / 2). pose proof (Z.div_mod k 2 ltac:(lia)).
  pose proof (Z.mod_pos_bound k 2 ltac:(lia)). split; [|lia]. lia.
Qed.

Lemma shiftr1_range d : 0 <= d < 2 ^ 64 -> 0 <= Z.shiftr d 1 < 2 ^ 64.
Proof.
  intros H. split; [apply Z.shiftr_nonneg; lia|]. rewrite Z.shiftr_div_pow2 by lia.
  apply Z.div_lt_upper_bound; lia.
Qed.

(** low 32 bits of the decoded coordinate; all bits if the coordinate is below 2^16 *)
Lemma morton_1_low d : 0 <= d < 2 ^ 64 -> forall k, 0 <= k < 32 ->
  Z.testbit (morton_1 d) k = Z.testbit d (2 * k).
Proof.
  intros Hd k Hk. rewrite morton_1_spec by (auto; lia).
  destruct (Z.ltb_spec k 32); [|lia]. destruct (Z.ltb_spec k 48); [|lia]. apply andb_true_r.
Qed.

Lemma morton_1_16 d : 0 <= d < 2 ^ 64 -> (forall k, 16 <= k < 32 -> Z.testbit d (2 * k) = false) ->
  0 <= morton_1 d < 2 ^ 32.
Proof.
  intros Hd H0. pose proof (morton_1_range d). split; [lia|].
  apply range_of_bits; [lia|lia|]. intros k Hk.
  destruct (Z_lt_le_dec k 64); [|apply (testbit_above _ 64); lia].
  rewrite morton_1_spec by (auto; lia).
  destruct (Z.ltb_spec k 32); [lia|]. destruct (Z.ltb_spec k 48); [|apply andb_false_r].
  rewrite H0 by lia. reflexivity.
Qed.

Lemma d2xy_low x y : 0 <= x < 2 ^ 32 -> 0 <= y < 2 ^ 32 ->
  fst (d2xy_morton (xy2d_morton x y)) mod 2 ^ 32 = x /\
  snd (d2xy_morton (xy2d_morton x y)) mod 2 ^ 32 = y.
Proof.
  intros Hx Hy. destruct (morton_interleave x y Hx Hy) as [Hr Hb].
  pose proof (shiftr1_range _ Hr) as Hs. unfold d2xy_morton. cbn [fst snd]. split.
  - apply (bits_eq 32); [lia|apply Z.mod_pos_bound; lia|auto|]. intros k Hk.
    rewrite Z.mod_pow2_bits_low, morton_1_low by (auto; lia). apply Hb; auto.
  - apply (bits_eq 32); [lia|apply Z.mod_pos_bound; lia|auto|]. intros k Hk.
    rewrite Z.mod_pow2_bits_low, morton_1_low, Z.shiftr_spec by (auto; lia). apply Hb; auto.
Qed.

Lemma d2xy_fst d : fst (d2xy_morton d) = morton_1 d.
Proof. reflexivity. Qed.
Lemma d2xy_snd d : snd (d2xy_morton d) = morton_1 (Z.shiftr d 1).
Proof. reflexivity. Qed.

Lemma d2xy_xy2d x y : 0 <= x < 2 ^ 16 -> 0 <= y < 2 ^ 16 ->
  d2xy_morton (xy2d_morton x y) = (x, y).
Proof.
  intros Hx Hy. destruct (morton_interleave x y ltac:(lia) ltac:(lia)) as [Hr Hb].
  pose proof (shiftr1_range _ Hr) as Hs.
  destruct (d2xy_low x y ltac:(lia) ltac:(lia)) as [H1 H2].
  rewrite d2xy_fst in H1. rewrite d2xy_snd in H2.
  rewrite (surjective_pairing (d2xy_morton _)), d2xy_fst, d2xy_snd.
  rewrite Z.mod_small in H1, H2.
  - rewrite H1, H2. reflexivity.
  - apply morton_1_16; auto. intros k Hk.
    rewrite Z.shiftr_spec by lia. destruct (Hb k ltac:(lia)) as [_ ->]. apply (testbit_above y 16); lia.
  - apply morton_1_16; auto. intros k Hk.
    destruct (Hb k ltac:(lia)) as [-> _]. apply (testbit_above x 16); lia.
Qed.

Lemma xy2d_d2xy d : 0 <= d < 2 ^ 32 ->
  xy2d_morton (fst (d2xy_morton d)) (snd (d2xy_morton d)) = d.
Proof.
  intros Hd. unfold d2xy_morton. cbn [fst snd].
  assert (Hd64 : 0 <= d < 2 ^ 64) by lia.
  pose proof (shiftr1_range d Hd64) as Hs.
  assert (Hm1 : 0 <= morton_1 d < 2 ^ 32).
  { apply morton_1_16; auto. intros k Hk. apply (testbit_above d 32); lia. }
  assert (Hm2 : 0 <= morton_1 (Z.shiftr d 1) < 2 ^ 32).
  { apply morton_1_16; auto. intros k Hk. rewrite Z.shiftr_spec by lia. apply (testbit_above d 32); lia. }
  destruct (morton_interleave _ _ Hm1 Hm2) as [Hr Hb].
  apply (bits_eq 64); auto; [lia|]. intros k Hk.
  destruct (even_odd_cases k Hk) as (j & Hj & [-> | ->]).
  - destruct (Hb j Hj) as [-> _]. apply morton_1_low; auto.
  - destruct (Hb j Hj) as [_ ->]. rewrite morton_1_low by auto. rewrite Z.shiftr_spec by lia. reflexivity.
Qed.

(** *** cluster shape: sum of distinct powers of two *)
Lemma add_pow2_bit s m : 0 <= s -> 0 <= m -> Z.testbit s m = false ->
  forall k, 0 <= k -> Z.testbit (s + 2 ^ m) k = Z.testbit s k || (k =? m).
Proof.
  intros Hs Hm Hb k Hk.
  assert (Hl : Z.land s (2 ^ m) = 0).
  { apply Z.bits_inj'. intros j Hj. rewrite Z.land_spec, Z.pow2_bits_eqb, Z.bits_0 by lia.
    destruct (Z.eqb_spec m j) as [<-|]; [rewrite Hb|]; rewrite ?andb_false_r; reflexivity. }
  rewrite Z.add_nocarry_lxor, Z.lxor_lor by auto.
  rewrite Z.lor_spec, Z.pow2_bits_eqb by lia. rewrite Z.eqb_sym. reflexivity.
Qed.

Definition shape_fold (arr : Z -> Z -> bool) (l : list (Z * Z)) (s : Z) : Z :=
  fold_left (fun s p => if arr (fst p) (snd p)
                        then (s + 2 ^ xy2d_morton (fst p) (snd p)) mod 2 ^ 64 else s) l s.

Definition code (p : Z * Z) : Z := xy2d_morton (fst p) (snd p).

Lemma shape_fold_spec arr l : (forall p, In p l -> 0 <= code p < 64) -> NoDup (map code l) ->
  forall s, 0 <= s < 2 ^ 64 -> (forall p, In p l -> Z.testbit s (code p) = false) ->
  0 <= shape_fold arr l s < 2 ^ 64 /\
  forall k, 0 <= k -> Z.testbit (shape_fold arr l s) k =
     Z.testbit s k || existsb (fun p => arr (fst p) (snd p) && (k =? code p)) l.
Proof.
  intros Hr Hnd. induction l as [|p l IH]; intros s Hs Hf.
  - simpl. split; auto. intros. rewrite orb_false_r. reflexivity.
  - simpl in Hnd. apply NoDup_cons_iff in Hnd. destruct Hnd as [Hni Hnd].
    cbn [shape_fold fold_left]. fold (shape_fold arr l).
    assert (Hp : 0 <= code p < 64) by (apply Hr; left; auto).
    assert (Hbit : forall k, 0 <= k -> Z.testbit (s + 2 ^ code p) k = Z.testbit s k || (k =? code p)).
    { apply add_pow2_bit; try lia. apply Hf; left; auto. }
    assert (Hnew : 0 <= s + 2 ^ code p < 2 ^ 64).
    { assert (0 <= 2 ^ code p) by (apply Z.pow_nonneg; lia). split; [lia|].
      apply range_of_bits; [lia|lia|]. intros k Hk. rewrite Hbit by lia.
      rewrite (testbit_above s 64) by lia. destruct (Z.eqb_spec k (code p)); [lia|reflexivity]. }
    change (fold_left
     (fun (s0 : Z) (p0 : Z * Z) =>
      if arr (fst p0) (snd p0)
      then (s0 + 2 ^ xy2d_morton (fst p0) (snd p0)) mod 2 ^ 64
      else s0) l
     (if arr (fst p) (snd p)
      then (s + 2 ^ xy2d_morton (fst p) (snd p)) mod 2 ^ 64
      else s)) with (shape_fold arr l (if arr (fst p) (snd p) then (s + 2 ^ code p) mod 2 ^ 64 else s)).
    rewrite Z.mod_small by auto.
    destruct (arr (fst p) (snd p)) eqn:Ea.
    + destruct (IH (fun q Hq => Hr q (or_intror Hq)) Hnd (s + 2 ^ code p) Hnew) as [H1 H2].
      * intros q Hq. rewrite Hbit by (specialize (Hr q (or_intror Hq)); lia).
        rewrite (Hf q (or_intror Hq)). destruct (Z.eqb_spec (code q) (code p)) as [E|]; [|reflexivity].
        exfalso. apply Hni. rewrite <- E. apply in_map; auto.
      * split; auto. intros k Hk. rewrite H2, Hbit by auto. cbn [existsb]. rewrite Ea. simpl.
        rewrite orb_assoc. reflexivity.
    + destruct (IH (fun q Hq => Hr q (or_intror Hq)) Hnd s Hs) as [H1 H2].
      * intros q Hq. apply Hf; right; auto.
      * split; auto. intros k Hk. rewrite H2 by auto. cbn [existsb]. rewrite Ea. reflexivity.
Qed.

Fixpoint nodupb (l : list Z) : bool :=
  match l with [] => true | x :: r => negb (existsb (Z.eqb x) r) && nodupb r end.

Lemma nodupb_spec l : nodupb l = true -> NoDup l.
Proof.
  induction l as [|x l IH]; simpl; intros H; constructor.
  - apply andb_true_iff in H. destruct H as [H _]. apply negb_true_iff in H. intros Hin.
    assert (existsb (Z.eqb x) l = true); [|congruence].
    apply existsb_exists. exists x. split; auto. apply Z.eqb_refl.
  - apply IH. apply andb_true_iff in H. tauto.
Qed.

Lemma indices_in p : In p indices8x8 <-> 0 <= fst p < 8 /\ 0 <= snd p < 8.
Proof.
  destruct p as [x y]. unfold indices8x8. rewrite in_prod_iff.
  assert (H : forall z, In z range8 <-> 0 <= z < 8).
  { intros z. unfold range8. simpl. lia. }
  rewrite !H. reflexivity.
Qed.

Lemma code_range p : In p indices8x8 -> 0 <= code p < 64.
Proof.
  intros H.
  assert (Hall : forallb (fun p => (0 <=? code p) && (code p <? 64)) indices8x8 = true)
    by (vm_compute; reflexivity).
  rewrite forallb_forall in Hall. specialize (Hall p H). lia.
Qed.

Lemma code_nodup : NoDup (map code indices8x8).
Proof. apply nodupb_spec. vm_compute. reflexivity. Qed.

Lemma cluster_shape_fold arr : calculate_cluster_shape arr = shape_fold arr indices8x8 0.
Proof. unfold calculate_cluster_shape, shape_fold. reflexivity. Qed.

Lemma cluster_shape_spec arr :
  0 <= calculate_cluster_shape arr < 2 ^ 64 /\
  forall k, 0 <= k -> (Z.testbit (calculate_cluster_shape arr) k = true <->
    exists x y, 0 <= x < 8 /\ 0 <= y < 8 /\ arr x y = true /\ k = xy2d_morton x y).
Proof.
  destruct (shape_fold_spec arr indices8x8 code_range code_nodup 0) as [H1 H2]; [lia| |].
  { intros. apply Z.bits_0. }
  rewrite <- cluster_shape_fold in H1, H2.
  split; auto. intros k Hk. rewrite H2, Z.bits_0 by auto. cbn [orb].
  rewrite existsb_exists. split.
  - intros ([x y] & Hin & H). apply andb_true_iff in H. destruct H as [Ha Hc].
    apply Z.eqb_eq in Hc. apply indices_in in Hin. exists x, y. simpl in *. tauto.
  - intros (x & y & Hx & Hy & Ha & ->). exists (x, y). split; [apply indices_in; auto|].
    simpl. rewrite Ha. apply Z.eqb_refl.
Qed.

Lemma morton_inj8 x y x' y' : 0 <= x < 8 -> 0 <= y < 8 -> 0 <= x' < 8 -> 0 <= y' < 8 ->
  xy2d_morton x y = xy2d_morton x' y' -> x = x' /\ y = y'.
Proof.
  intros H1 H2 H3 H4 E. pose proof (d2xy_xy2d x y ltac:(lia) ltac:(lia)) as A.
  pose proof (d2xy_xy2d x' y' ltac:(lia) ltac:(lia)) as B. rewrite E in A. rewrite A in B.
  injection B as -> ->. auto.
Qed.

Lemma cluster_shape_bit arr x y : 0 <= x < 8 -> 0 <= y < 8 ->
  Z.testbit (calculate_cluster_shape arr) (xy2d_morton x y) = arr x y.
Proof.
  intros Hx Hy. destruct (cluster_shape_spec arr) as [_ H].
  assert (Hk : 0 <= xy2d_morton x y) by (apply (code_range (x, y)), indices_in; auto).
  specialize (H _ Hk). destruct (arr x y) eqn:E.
  - apply H. exists x, y. auto.
  - apply not_true_is_false. rewrite H. intros (x' & y' & Hx' & Hy' & Ha & Ee).
    destruct (morton_inj8 _ _ _ _ Hx Hy Hx' Hy' Ee) as [<- <-]. congruence.
Qed.

(** *** number to array *)
Lemma cluster_array_loop_spec i shape : (i <= 64)%nat -> 0 <= shape < 2 ^ Z.of_nat i ->
  forall p, In p (cluster_array_loop i shape) <->
    exists k, 0 <= k < Z.of_nat i /\ Z.testbit shape k = true /\ p = d2xy_morton k.
Proof.
  revert shape. induction i as [|i IH]; intros shape Hi Hs p.
  - simpl. split; [tauto|]. intros (k & Hk & _). lia.
  - cbn [cluster_array_loop]. set (n := Z.of_nat i) in *.
    assert (En : Z.of_nat (S i) = n + 1) by lia. rewrite En in *.
    assert (Hp : 2 ^ (n + 1) = 2 * 2 ^ n) by (rewrite Z.pow_add_r; lia).
    assert (Hpos : 0 < 2 ^ n) by (apply Z.pow_pos_nonneg; lia).
    destruct (Z.leb_spec (2 ^ n) shape) as [Hle|Hlt].
    + assert (Hbit : Z.testbit shape n = true).
      { apply Z.testbit_true; [lia|]. assert (shape / 2 ^ n = 1) as ->; [|reflexivity].
        symmetry. apply (Z.div_unique _ _ 1 (shape - 2 ^ n)); lia. }
      assert (Hmod : shape - 2 ^ n = shape mod 2 ^ n).
      { apply (Z.mod_unique _ _ 1); lia. }
      simpl In. rewrite IH by lia. split.
      * intros [<-|(k & Hk & Hb & ->)]; [exists n; repeat split; auto; lia|].
        exists k. rewrite Hmod, Z.mod_pow2_bits_low in Hb by lia. repeat split; auto; lia.
      * intros (k & Hk & Hb & ->). destruct (Z.eq_dec k n) as [->|]; [left; auto|right].
        exists k. rewrite Hmod, Z.mod_pow2_bits_low by lia. repeat split; auto; lia.
    + rewrite IH by lia. split.
      * intros (k & Hk & Hb & ->). exists k. repeat split; auto; lia.
      * intros (k & Hk & Hb & ->). exists k. repeat split; auto; try lia.
        destruct (Z.eq_dec k n) as [->|]; [|lia]. rewrite (testbit_above shape n) in Hb by lia. discriminate.
Qed.

Lemma cluster_array_spec shape x y : 0 <= shape < 2 ^ 64 -> 0 <= x < 8 -> 0 <= y < 8 ->
  calculate_cluster_array shape x y = Z.testbit shape (xy2d_morton x y).
Proof.
  intros Hs Hx Hy. unfold calculate_cluster_array.
  assert (Hk : 0 <= xy2d_morton x y < 64) by (apply (code_range (x, y)), indices_in; auto).
  apply eq_true_iff_eq. rewrite existsb_exists. split.
  - intros ([a b] & Hin & E). apply andb_true_iff in E. destruct E as [Ea Eb].
    apply Z.eqb_eq in Ea, Eb. simpl in Ea, Eb. subst a b.
    apply cluster_array_loop_spec in Hin; [|lia|simpl Z.of_nat; lia].
    destruct Hin as (k & Hkr & Hb & E).
    assert (k = xy2d_morton x y); [|congruence].
    pose proof (xy2d_d2xy k ltac:(simpl Z.of_nat in Hkr; lia)) as Hr. rewrite <- E in Hr. simpl in Hr. congruence.
  - intros Hb. exists (x, y). split.
    + apply cluster_array_loop_spec; [lia|simpl Z.of_nat; lia|].
      exists (xy2d_morton x y). repeat split; auto; try (simpl Z.of_nat; lia).
      symmetry. apply d2xy_xy2d; lia.
    + simpl. rewrite !Z.eqb_refl. reflexivity.
Qed.

(** *** population count *)
Fixpoint popcount (n : nat) (v : Z) : Z :=
  match n with O => 0 | S n' => (v mod 2) + popcount n' (v / 2) end.

Lemma byte_testbit a b n : 0 <= a < 256 -> 0 <= b -> 0 <= n ->
  Z.testbit (a + 256 * b) n = if n <? 8 then Z.testbit a n else Z.testbit b (n - 8).
Proof.
  intros Ha Hb Hn. destruct (Z.ltb_spec n 8).
  - rewrite <- (Z.mod_pow2_bits_low (a + 256 * b) 8 n) by lia.
    replace ((a + 256 * b) mod 2 ^ 8) with a; [reflexivity|].
    symmetry. rewrite Z.add_comm, Z.mul_comm, Z.add_comm. rewrite Z_mod_plus_full. apply Z.mod_small. lia.
  - replace n with (n - 8 + 8) at 1 by lia. rewrite <- Z.div_pow2_bits by lia.
    replace ((a + 256 * b) / 2 ^ 8) with b; [reflexivity|].
    change (2 ^ 8) with 256. rewrite (Z.mul_comm 256 b), Z.div_add by lia. rewrite Z.div_small; lia.
Qed.

Lemma land_byte a b m M : 0 <= a < 256 -> 0 <= m < 256 -> 0 <= b -> 0 <= M ->
  Z.land (a + 256 * b) (m + 256 * M) = Z.land a m + 256 * Z.land b M.
Proof.
  intros Ha Hm Hb HM. 
  assert (Hl : 0 <= Z.land a m < 256).
  { split; [apply Z.land_nonneg; lia|]. apply (range_of_bits 8); [lia|apply Z.land_nonneg; lia|].
    intros k Hk. rewrite Z.land_spec, (testbit_above a 8) by lia. reflexivity. }
  assert (Hl2 : 0 <= Z.land b M) by (apply Z.land_nonneg; lia).
  apply Z.bits_inj'. intros n Hn. rewrite Z.land_spec, !byte_testbit by auto.
  destruct (n <? 8); rewrite Z.land_spec; reflexivity.
Qed.

Lemma shiftr_byte a b s : 0 <= a < 256 -> 0 <= b -> 0 <= s <= 8 ->
  Z.shiftr (a + 256 * b) s = Z.shiftr a s + 2 ^ (8 - s) * b.
Proof.
  intros Ha Hb Hs. rewrite !Z.shiftr_div_pow2 by lia.
  replace (256 * b) with (2 ^ (8 - s) * b * 2 ^ s).
  - rewrite Z.div_add; auto. apply Z.pow_nonzero; lia.
  - replace 256 with (2 ^ (8 - s) * 2 ^ s); [ring|]. rewrite <- Z.pow_add_r by lia.
    replace (8 - s + s) with 8 by lia. reflexivity.
Qed.

(** a masked shift acts on each byte alone if the mask does not reach the shifted-in bits *)
Lemma shift_mask_byte a b s m M : 0 <= a < 256 -> 0 <= b -> 0 <= s <= 8 -> 0 <= m < 2 ^ (8 - s) -> 0 <= M ->
  Z.land (Z.shiftr (a + 256 * b) s) (m + 256 * M) =
  Z.land (Z.shiftr a s) m + 256 * Z.land (Z.shiftr b s) M.
Proof.
  intros Ha Hb Hs Hm HM.
  assert (H256 : 2 ^ (8 - s) <= 256) by (change 256 with (2 ^ 8); apply Z.pow_le_mono_r; lia).
  assert (Hl : 0 <= Z.land (Z.shiftr a s) m < 256).
  { split; [apply Z.land_nonneg; lia|]. apply (range_of_bits 8); [lia|apply Z.land_nonneg; lia|].
    intros k Hk. rewrite Z.land_spec, (testbit_above m 8) by (change (2 ^ 8) with 256; lia). apply andb_false_r. }
  assert (Hsb : 0 <= Z.shiftr b s) by (apply Z.shiftr_nonneg; lia).
  assert (Hl2 : 0 <= Z.land (Z.shiftr b s) M) by (apply Z.land_nonneg; lia).
  apply Z.bits_inj'. intros n Hn.
  rewrite Z.land_spec, !byte_testbit by (auto; lia).
  rewrite Z.shiftr_spec, byte_testbit by lia.
  destruct (Z.ltb_spec n 8).
  - rewrite Z.land_spec. destruct (Z.ltb_spec (n + s) 8).
    + rewrite Z.shiftr_spec by lia. reflexivity.
    + rewrite (testbit_above m (8 - s)) by lia. rewrite !andb_false_r. reflexivity.
  - destruct (Z.ltb_spec (n + s) 8); [lia|]. rewrite Z.land_spec, Z.shiftr_spec by lia.
    f_equal. f_equal. lia.
Qed.

(** the SWAR steps, byte by byte *)
Definition step1 (a : Z) : Z := a - Z.land (Z.shiftr a 1) 0x55.
Definition step2 (a : Z) : Z := Z.land a 0x33 + Z.land (Z.shiftr a 2) 0x33.
Definition step3 (a : Z) : Z := Z.land (a + Z.shiftr a 4) 0x0F.
Definition byte_count (a : Z) : Z := step3 (step2 (step1 a)).

Definition bytes : list Z := upto 256.

Lemma byte_all (P : Z -> bool) : forallb P bytes = true -> forall a, 0 <= a < 256 -> P a = true.
Proof.
  intros H a Ha. rewrite forallb_forall in H. apply H. apply in_upto. exact Ha.
Qed.

Lemma byte_facts a : 0 <= a < 256 ->
  0 <= step1 a < 256 /\ 0 <= step2 (step1 a) < 256 /\ step2 (step1 a) mod 16 <= 4 /\ step2 (step1 a) / 16 <= 4 /\
  0 <= step3 (step2 (step1 a)) <= 8 /\ byte_count a = popcount 8 a.
Proof.
  intros Ha.
  pose proof (byte_all (fun a => (0 <=? step1 a) && (step1 a <? 256) && (0 <=? step2 (step1 a)) &&
     (step2 (step1 a) <? 256) && (step2 (step1 a) mod 16 <=? 4) && (step2 (step1 a) / 16 <=? 4) &&
     (0 <=? step3 (step2 (step1 a))) && (step3 (step2 (step1 a)) <=? 8) &&
     (byte_count a =? popcount 8 a)) ltac:(vm_compute; reflexivity) a Ha) as H.
  cbv beta in H. rewrite !andb_true_iff in H.
  destruct H as [[[[[[[[H1 H2] H3] H4] H5] H6] H7] H8] H9].
  apply Z.leb_le in H1, H3, H5, H6, H7, H8. apply Z.ltb_lt in H2, H4. apply Z.eqb_eq in H9. auto 10.
Qed.

Lemma popcount_byte n a b : 0 <= a < 256 -> popcount (8 + n) (a + 256 * b) = popcount 8 a + popcount n b.
Proof.
  intros Ha. cbn [Nat.add popcount].
  assert (Hm : forall x c, (x + 2 * c) mod 2 = x mod 2).
  { intros. rewrite Z.mul_comm. apply Z_mod_plus_full. }
  assert (Hh : forall x c, (x + 2 * c) / 2 = x / 2 + c).
  { intros. rewrite Z.mul_comm. apply Z.div_add. lia. }
  replace (256 * b) with (2 * (2 * (2 * (2 * (2 * (2 * (2 * (2 * b)))))))) by ring.
  repeat (rewrite ?Hm, ?Hh).
  assert (Hz : a / 2 / 2 / 2 / 2 / 2 / 2 / 2 / 2 = 0).
  { rewrite !Z.div_div by lia. apply Z.div_small. lia. }
  rewrite Hz. rewrite Z.add_0_l. ring.
Qed.

(** one byte of the third step: [x] is the rest of the number above the byte *)
Lemma step3_byte c x M : 0 <= c < 256 -> c / 16 <= 4 -> c mod 16 <= 4 -> 0 <= x -> x mod 16 <= 4 -> 0 <= M ->
  Z.land (c + 256 * x + Z.shiftr (c + 256 * x) 4) (0x0F + 256 * M) =
  step3 c + 256 * Z.land (x + Z.shiftr x 4) M.
Proof.
  intros Hc H1 H2 Hx H3 HM. rewrite shiftr_byte by lia. change (2 ^ (8 - 4)) with 16.
  assert (Hk : forall c, Z.shiftr c 4 = c / 16) by (intros; rewrite Z.shiftr_div_pow2 by lia; reflexivity).
  pose proof (Z.div_mod c 16 ltac:(lia)) as Dc. pose proof (Z.mod_pos_bound c 16 ltac:(lia)).
  pose proof (Z.div_mod x 16 ltac:(lia)) as Dx. pose proof (Z.mod_pos_bound x 16 ltac:(lia)).
  assert (0 <= c / 16) by (apply Z.div_pos; lia).
  assert (0 <= x / 16) by (apply Z.div_pos; lia).
  replace (c + 256 * x + (Z.shiftr c 4 + 16 * x))
    with ((c + c / 16 + 16 * (x mod 16)) + 256 * (x + x / 16)) by (rewrite Hk; lia).
  rewrite land_byte by lia. rewrite Hk. f_equal. unfold step3. rewrite Hk.
  change 15 with (Z.ones 4). rewrite !Z.land_ones by lia. change (2 ^ 4) with 16.
  rewrite (Z.mul_comm 16 (x mod 16)). apply Z_mod_plus_full.
Qed.

Lemma number_of_set_bits_spec v : 0 <= v < 2 ^ 32 -> number_of_set_bits v = popcount 32 v.
Proof.
  intros Hv.
  set (b0 := v mod 256). set (v1 := v / 256). set (b1 := v1 mod 256). set (v2 := v1 / 256).
  set (b2 := v2 mod 256). set (b3 := v2 / 256).
  assert (E0 : v = b0 + 256 * v1) by (unfold b0, v1; rewrite (Z.div_mod v 256) at 1; lia).
  assert (E1 : v1 = b1 + 256 * v2) by (unfold b1, v2; rewrite (Z.div_mod v1 256) at 1; lia).
  assert (E2 : v2 = b2 + 256 * b3) by (unfold b2, b3; rewrite (Z.div_mod v2 256) at 1; lia).
  assert (B0 : 0 <= b0 < 256) by (apply Z.mod_pos_bound; lia).
  assert (B1 : 0 <= b1 < 256) by (apply Z.mod_pos_bound; lia).
  assert (B2 : 0 <= b2 < 256) by (apply Z.mod_pos_bound; lia).
  assert (B3 : 0 <= b3 < 256) by lia.
  rewrite E0, E1, E2. clear E0 E1 E2. clearbody b0 b1 b2 b3. clear v Hv v1 v2.
  destruct (byte_facts b0 B0) as (A0 & C0 & M0 & N0 & S0 & P0).
  destruct (byte_facts b1 B1) as (A1 & C1 & M1 & N1 & S1 & P1).
  destruct (byte_facts b2 B2) as (A2 & C2 & M2 & N2 & S2 & P2).
  destruct (byte_facts b3 B3) as (A3 & C3 & M3 & N3 & S3 & P3).
  change 32%nat with (8 + (8 + (8 + 8)))%nat. rewrite !popcount_byte by auto.
  rewrite <- P0, <- P1, <- P2, <- P3. unfold byte_count. clear P0 P1 P2 P3.
  unfold number_of_set_bits.
  assert (E1 : b0 + 256 * (b1 + 256 * (b2 + 256 * b3)) -
     Z.land (Z.shiftr (b0 + 256 * (b1 + 256 * (b2 + 256 * b3))) 1) 0x55555555 =
     step1 b0 + 256 * (step1 b1 + 256 * (step1 b2 + 256 * step1 b3))).
  { change 0x55555555 with (0x55 + 256 * (0x55 + 256 * (0x55 + 256 * 0x55))).
    rewrite !shift_mask_byte by (try (change (2 ^ (8 - 1)) with 128); lia). unfold step1. ring. }
  cbv zeta. rewrite E1. clear E1.
  generalize dependent (step1 b0). intros a0. generalize dependent (step1 b1). intros a1.
  generalize dependent (step1 b2). intros a2. generalize dependent (step1 b3). intros a3.
  intros A3 C3 M3 N3 S3 A2 C2 M2 N2 S2 A1 C1 M1 N1 S1 A0 C0 M0 N0 S0.
  assert (E2 : Z.land (a0 + 256 * (a1 + 256 * (a2 + 256 * a3))) 0x33333333 +
     Z.land (Z.shiftr (a0 + 256 * (a1 + 256 * (a2 + 256 * a3))) 2) 0x33333333 =
     step2 a0 + 256 * (step2 a1 + 256 * (step2 a2 + 256 * step2 a3))).
  { change 0x33333333 with (0x33 + 256 * (0x33 + 256 * (0x33 + 256 * 0x33))).
    rewrite !shift_mask_byte by (try (change (2 ^ (8 - 2)) with 64); lia).
    rewrite !land_byte by lia. unfold step2. ring. }
  rewrite E2. clear E2.
  generalize dependent (step2 a0). intros c0. generalize dependent (step2 a1). intros c1.
  generalize dependent (step2 a2). intros c2. generalize dependent (step2 a3). intros c3.
  intros C3 M3 N3 S3 C2 M2 N2 S2 C1 M1 N1 S1 C0 M0 N0 S0.
  assert (Hmod : forall c x, (c + 256 * x) mod 16 = c mod 16).
  { intros c x. replace (256 * x) with (16 * x * 16) by ring. apply Z_mod_plus_full. }
  assert (E3 : Z.land (c0 + 256 * (c1 + 256 * (c2 + 256 * c3)) +
                Z.shiftr (c0 + 256 * (c1 + 256 * (c2 + 256 * c3))) 4) 0xF0F0F0F =
     step3 c0 + 256 * (step3 c1 + 256 * (step3 c2 + 256 * step3 c3))).
  { change 0xF0F0F0F with (0x0F + 256 * (0x0F + 256 * (0x0F + 256 * 0x0F))).
    rewrite step3_byte by (rewrite ?Hmod; lia). rewrite step3_byte by (rewrite ?Hmod; lia).
    rewrite step3_byte by lia. reflexivity. }
  rewrite E3. clear E3.
  generalize dependent (step3 c0). intros s0 S0. generalize dependent (step3 c1). intros s1 S1.
  generalize dependent (step3 c2). intros s2 S2. generalize dependent (step3 c3). intros s3 S3.
  change 0xffffffff with (Z.ones 32). rewrite Z.land_ones, Z.shiftr_div_pow2 by lia.
  change 0x1010101 with (1 + 256 * (1 + 256 * (1 + 256))).
  set (t1 := s0 + s1). set (t2 := s0 + s1 + s2). set (t3 := s0 + s1 + s2 + s3).
  replace ((s0 + 256 * (s1 + 256 * (s2 + 256 * s3))) * (1 + 256 * (1 + 256 * (1 + 256))))
    with ((s0 + 256 * t1 + 65536 * t2 + 16777216 * t3) +
          (s1 + s2 + s3 + 256 * (s2 + s3) + 65536 * s3) * 2 ^ 32)
    by (unfold t1, t2, t3; change (2 ^ 32) with 4294967296; ring).
  rewrite Z_mod_plus_full, Z.mod_small by (unfold t1, t2, t3; lia).
  assert (E : s0 + 256 * t1 + 65536 * t2 + 16777216 * t3 = (s0 + 256 * t1 + 65536 * t2) + t3 * 2 ^ 24) by lia.
  rewrite E, Z.div_add, Z.div_small by (unfold t1, t2, t3; lia). unfold t3. ring.
Qed.

(** *** cluster finishing function *)
Lemma fold_min_spec (f : Z * Z -> Z) l m :
  let r := fold_left (fun m h => if f h <? m then f h else m) l m in
  (r = m \/ exists h, In h l /\ f h = r) /\ r <= m /\ forall h, In h l -> r <= f h.
Proof.
  revert m. induction l as [|a l IH]; intros m; simpl; [split; [auto|split; [lia|tauto]]|].
  specialize (IH (if f a <? m then f a else m)). simpl in IH. destruct IH as (H1 & H2 & H3).
  assert (Hm : (if f a <? m then f a else m) <= m /\ (if f a <? m then f a else m) <= f a).
  { destruct (Z.ltb_spec (f a) m); lia. }
  split; [|split].
  - destruct H1 as [H1|(h & Hh & E)]; [|right; exists h; auto].
    destruct (Z.ltb_spec (f a) m); [right; exists a; auto|left; auto].
  - lia.
  - intros h [<-|Hh]; [lia|]. apply H3; auto.
Qed.

Lemma fold_max_spec (f : Z * Z -> Z) l m :
  let r := fold_left (fun m h => if m <? f h then f h else m) l m in
  (r = m \/ exists h, In h l /\ f h = r) /\ m <= r /\ forall h, In h l -> f h <= r.
Proof.
  revert m. induction l as [|a l IH]; intros m; simpl; [split; [auto|split; [lia|tauto]]|].
  specialize (IH (if m <? f a then f a else m)). simpl in IH. destruct IH as (H1 & H2 & H3).
  assert (Hm : m <= (if m <? f a then f a else m) /\ f a <= (if m <? f a then f a else m)).
  { destruct (Z.ltb_spec m (f a)); lia. }
  split; [|split].
  - destruct H1 as [H1|(h & Hh & E)]; [|right; exists h; auto].
    destruct (Z.ltb_spec m (f a)); [right; exists a; auto|left; auto].
  - lia.
  - intros h [<-|Hh]; [lia|]. apply H3; auto.
Qed.

Lemma is_set_in arr c r : is_set arr c r = true <-> In (c, r) arr.
Proof.
  unfold is_set. rewrite existsb_exists. split.
  - intros ([a b] & Hin & E). apply andb_true_iff in E. destruct E as [Ea Eb].
    apply Z.eqb_eq in Ea, Eb. simpl in *. subst. auto.
  - intros H. exists (c, r). split; auto. simpl. rewrite !Z.eqb_refl. reflexivity.
Qed.

Lemma hit_arr_in cc cr others c r :
  In (c, r) (hit_arr cc cr others) <->
  (c = 7 /\ r = 7) \/
  (In (c - 7 + cc, r - 7 + cr) others /\ Z.abs (c - 7) < 8 /\ Z.abs (r - 7) < 8).
Proof.
  unfold hit_arr. cbn [In]. rewrite in_map_iff. split.
  - intros [E|([a b] & E & Hin)]; apply pair_equal_spec in E; destruct E as [<- <-]; [auto|]. apply filter_In in Hin. destruct Hin as [Hin Hf].
    apply andb_true_iff in Hf. destruct Hf as [H1 H2]. apply Z.ltb_lt in H1, H2. cbn [fst snd] in *.
    right. replace (7 + a - cc - 7 + cc) with a by lia. replace (7 + b - cr - 7 + cr) with b by lia.
    split; [auto|]. split; lia.
  - intros [[-> ->]|(Hin & H1 & H2)]; [auto|]. right. exists (c - 7 + cc, r - 7 + cr).
    cbn [fst snd]. split; [f_equal; lia|]. apply filter_In. split; auto. cbn [fst snd].
    apply andb_true_iff. split; apply Z.ltb_lt; lia.
Qed.

Lemma cluster_shape_ext a b : (forall x y, 0 <= x < 8 -> 0 <= y < 8 -> a x y = b x y) ->
  calculate_cluster_shape a = calculate_cluster_shape b.
Proof.
  intros H. destruct (cluster_shape_spec a) as [Ra Ha]. destruct (cluster_shape_spec b) as [Rb Hb].
  apply Z.bits_inj'. intros k Hk. apply eq_true_iff_eq. rewrite (Ha k Hk), (Hb k Hk).
  split; intros (x & y & Hx & Hy & E & ->); exists x, y; repeat split; auto; try lia;
    [rewrite <- H|rewrite H]; auto.
Qed.
