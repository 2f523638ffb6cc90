(** Bit level meaning of the Morton helpers. *)
From Coq Require Import ZArith List Bool Lia Permutation.
From Verif Require Import BitsModel.
Import ListNotations.
Open Scope Z_scope.

Lemma testbit_above x n k : 0 <= x < 2 ^ n -> 0 <= n <= k -> Z.testbit x k = false.
Proof.
  intros Hx Hk. rewrite <- (Z.mod_small x (2 ^ n)) by lia. apply Z.mod_pow2_bits_high. lia.
Qed.

Lemma spread_step s m x k : 0 <= s -> 0 <= k ->
  Z.testbit (Z.land (Z.lor x (Z.shiftl x s)) m) k =
  (Z.testbit x k || Z.testbit x (k - s)) && Z.testbit m k.
Proof. intros. rewrite Z.land_spec, Z.lor_spec, Z.shiftl_spec by lia. reflexivity. Qed.

Lemma compact_step s m x k : 0 <= s -> 0 <= k ->
  Z.testbit (Z.land (Z.lor x (Z.shiftr x s)) m) k =
  (Z.testbit x k || Z.testbit x (k + s)) && Z.testbit m k.
Proof. intros. rewrite Z.land_spec, Z.lor_spec, Z.shiftr_spec by lia. reflexivity. Qed.

(** [k] ranges over the concrete numbers below 64 *)
Lemma below_64 (P : Z -> Prop) :
  Forall P (map Z.of_nat (seq 0 64)) -> forall k, 0 <= k < 64 -> P k.
Proof.
  intros H k Hk. rewrite Forall_forall in H. apply H.
  apply in_map_iff. exists (Z.to_nat k). rewrite Z2Nat.id by lia. split; auto.
  apply in_seq. lia.
Qed.

Lemma below_32 (P : Z -> Prop) :
  Forall P (map Z.of_nat (seq 0 32)) -> forall k, 0 <= k < 32 -> P k.
Proof.
  intros H k Hk. rewrite Forall_forall in H. apply H.
  apply in_map_iff. exists (Z.to_nat k). rewrite Z2Nat.id by lia. split; auto.
  apply in_seq. lia.
Qed.

(** Functions that commute with bitwise or are determined by the values on powers of two. *)
Definition or_linear (f : Z -> Z) : Prop :=
  f 0 = 0 /\ forall a b, f (Z.lor a b) = Z.lor (f a) (f b).

Lemma or_linear_bits f : or_linear f -> forall n x, 0 <= x < 2 ^ Z.of_nat n -> forall j, 0 <= j ->
  Z.testbit (f x) j =
  existsb (fun k => Z.testbit x k && Z.testbit (f (2 ^ k)) j) (map Z.of_nat (seq 0 n)).
Proof.
  intros [H0 Hor]. induction n as [|n IH]; intros x Hx j Hj.
  - assert (x = 0) as -> by (simpl in Hx; lia). rewrite H0, Z.bits_0. reflexivity.
  - rewrite seq_S, map_app, existsb_app. cbn [map existsb]. rewrite Nat.add_0_l.
    set (m := Z.of_nat n) in *. assert (Hm : 0 <= m) by lia.
    assert (Hsplit : x = Z.lor (x mod 2 ^ m) (if Z.testbit x m then 2 ^ m else 0)).
    { apply Z.bits_inj'. intros k Hk. rewrite Z.lor_spec.
      assert (Hif : Z.testbit (if Z.testbit x m then 2 ^ m else 0) k = (Z.testbit x m && (m =? k))).
      { destruct (Z.testbit x m); [rewrite Z.pow2_bits_eqb by lia|rewrite Z.bits_0]; reflexivity. }
      rewrite Hif. destruct (Z_lt_le_dec k m).
      - rewrite Z.mod_pow2_bits_low by lia. destruct (Z.eqb_spec m k); [lia|].
        rewrite andb_false_r, orb_false_r. reflexivity.
      - rewrite Z.mod_pow2_bits_high by lia. destruct (Z.eqb_spec m k) as [->|].
        + rewrite andb_true_r. reflexivity.
        + rewrite andb_false_r. cbn. apply (testbit_above x (m + 1)); [|lia].
          replace (m + 1) with (Z.of_nat (S n)) by lia. auto. }
    rewrite Hsplit at 1. rewrite Hor, Z.lor_spec.
    assert (Hpos : 0 < 2 ^ m) by (apply Z.pow_pos_nonneg; lia).
    rewrite IH by (auto; apply Z.mod_pos_bound; auto). f_equal.
    + assert (Hext : forall l, (forall k, In k l -> 0 <= k < m) ->
        existsb (fun k => Z.testbit (x mod 2 ^ m) k && Z.testbit (f (2 ^ k)) j) l =
        existsb (fun k => Z.testbit x k && Z.testbit (f (2 ^ k)) j) l).
      { induction l as [|k l IHl]; intros Hl; simpl; auto.
        rewrite Z.mod_pow2_bits_low by (specialize (Hl k (or_introl eq_refl)); lia).
        f_equal. apply IHl. intros; apply Hl; right; auto. }
      apply Hext. intros k Hk. apply in_map_iff in Hk. destruct Hk as (i & <- & Hi).
      apply in_seq in Hi. lia.
    + rewrite orb_false_r. destruct (Z.testbit x m); [reflexivity|]. rewrite H0, Z.bits_0. reflexivity.
Qed.

Lemma or_linear_up s m : 0 <= s -> or_linear (fun x => Z.land (Z.lor x (Z.shiftl x s)) m).
Proof.
  intros Hs. split.
  - rewrite Z.shiftl_0_l. reflexivity.
  - intros a b. apply Z.bits_inj'. intros k Hk.
    rewrite !Z.lor_spec, !Z.land_spec, !Z.lor_spec, !Z.shiftl_spec, Z.lor_spec by lia.
    destruct (Z.testbit a k), (Z.testbit b k), (Z.testbit a (k - s)), (Z.testbit b (k - s)), (Z.testbit m k); reflexivity.
Qed.

Lemma or_linear_down s m : 0 <= s -> or_linear (fun x => Z.land (Z.lor x (Z.shiftr x s)) m).
Proof.
  intros Hs. split.
  - rewrite Z.shiftr_0_l. reflexivity.
  - intros a b. apply Z.bits_inj'. intros k Hk.
    rewrite !Z.lor_spec, !Z.land_spec, !Z.lor_spec, !Z.shiftr_spec, Z.lor_spec by lia.
    destruct (Z.testbit a k), (Z.testbit b k), (Z.testbit a (k + s)), (Z.testbit b (k + s)), (Z.testbit m k); reflexivity.
Qed.

Lemma or_linear_mask m : or_linear (fun x => Z.land x m).
Proof.
  split; [reflexivity|]. intros a b. rewrite Z.land_lor_distr_l. reflexivity.
Qed.

Lemma or_linear_comp f g : or_linear f -> or_linear g -> or_linear (fun x => f (g x)).
Proof. intros [F0 F] [G0 G]. split; [rewrite G0; auto|]. intros. rewrite G, F. reflexivity. Qed.

Lemma spread_or_linear : or_linear spread_bits.
Proof.
  unfold spread_bits.
  apply (or_linear_comp (fun x => Z.land (Z.lor x (Z.shiftl x 1)) 0x5555555555555555)); [apply or_linear_up; lia|].
  apply (or_linear_comp (fun x => Z.land (Z.lor x (Z.shiftl x 2)) 0x3333333333333333)); [apply or_linear_up; lia|].
  apply (or_linear_comp (fun x => Z.land (Z.lor x (Z.shiftl x 4)) 0x0F0F0F0F0F0F0F0F)); [apply or_linear_up; lia|].
  apply (or_linear_comp (fun x => Z.land (Z.lor x (Z.shiftl x 8)) 0x00FF00FF00FF00FF)); [apply or_linear_up; lia|].
  apply or_linear_up; lia.
Qed.

Lemma morton_1_or_linear : or_linear morton_1.
Proof.
  unfold morton_1.
  apply (or_linear_comp (fun x => Z.land (Z.lor x (Z.shiftr x 16)) 0xFFFFFFFFFFFFFFFF)); [apply or_linear_down; lia|].
  apply (or_linear_comp (fun x => Z.land (Z.lor x (Z.shiftr x 8)) 0x0000FFFF0000FFFF)); [apply or_linear_down; lia|].
  apply (or_linear_comp (fun x => Z.land (Z.lor x (Z.shiftr x 4)) 0x00FF00FF00FF00FF)); [apply or_linear_down; lia|].
  apply (or_linear_comp (fun x => Z.land (Z.lor x (Z.shiftr x 2)) 0x0F0F0F0F0F0F0F0F)); [apply or_linear_down; lia|].
  apply (or_linear_comp (fun x => Z.land (Z.lor x (Z.shiftr x 1)) 0x3333333333333333)); [apply or_linear_down; lia|].
  apply or_linear_mask.
Qed.

Definition upto (n : nat) : list Z := map Z.of_nat (seq 0 n).

Lemma in_upto n k : In k (upto n) <-> 0 <= k < Z.of_nat n.
Proof.
  unfold upto. rewrite in_map_iff. split.
  - intros (i & <- & Hi). apply in_seq in Hi. lia.
  - intros H. exists (Z.to_nat k). rewrite Z2Nat.id by lia. split; auto. apply in_seq. lia.
Qed.

Lemma spread_table k j : 0 <= k < 32 -> 0 <= j < 64 -> Z.testbit (spread_bits (2 ^ k)) j = (j =? 2 * k).
Proof.
  assert (H : forallb (fun k => forallb (fun j => Bool.eqb (Z.testbit (spread_bits (2 ^ k)) j) (j =? 2 * k))
                (upto 64)) (upto 32) = true) by (vm_compute; reflexivity).
  intros Hk Hj. rewrite forallb_forall in H. specialize (H k (proj2 (in_upto 32 k) Hk)).
  rewrite forallb_forall in H. specialize (H j (proj2 (in_upto 64 j) Hj)).
  apply Bool.eqb_prop in H. exact H.
Qed.

Lemma morton_1_table k j : 0 <= k < 64 -> 0 <= j < 64 ->
  Z.testbit (morton_1 (2 ^ k)) j = (k =? 2 * (if j <? 32 then j else j - 16)) && (j <? 48).
Proof.
  assert (H : forallb (fun k => forallb (fun j => Bool.eqb (Z.testbit (morton_1 (2 ^ k)) j)
                ((k =? 2 * (if j <? 32 then j else j - 16)) && (j <? 48))) (upto 64)) (upto 64) = true)
    by (vm_compute; reflexivity).
  intros Hk Hj. rewrite forallb_forall in H. specialize (H k (proj2 (in_upto 64 k) Hk)).
  rewrite forallb_forall in H. specialize (H j (proj2 (in_upto 64 j) Hj)).
  apply Bool.eqb_prop in H. exact H.
Qed.

Lemma spread_bits_spec x : 0 <= x < 2 ^ 32 -> forall k, 0 <= k < 64 ->
  Z.testbit (spread_bits x) k = (Z.even k && Z.testbit x (k / 2)).
Proof.
  intros Hx k Hk. rewrite (or_linear_bits _ spread_or_linear 32) by (simpl Z.of_nat; lia).
  apply eq_true_iff_eq. rewrite existsb_exists, andb_true_iff. fold (upto 32). split.
  - intros (i & Hi & H). apply in_upto in Hi. simpl in Hi. rewrite andb_true_iff, spread_table in H by lia.
    destruct H as [H1 H2]. apply Z.eqb_eq in H2. subst k.
    rewrite Z.even_mul. replace (2 * i / 2) with i by (rewrite Z.mul_comm, Z.div_mul; lia). auto.
  - intros [He Hb]. apply Z.even_spec in He. destruct He as (i & ->).
    replace (2 * i / 2) with i in Hb by (rewrite Z.mul_comm, Z.div_mul; lia).
    exists i. split; [apply in_upto; simpl; lia|]. rewrite Hb, spread_table by lia. apply Z.eqb_refl.
Qed.

(** The last mask of morton_1 does not clear the upper half: bits 16..31 of the result are
    repeated at 32..47. *)
Lemma morton_1_spec d : 0 <= d < 2 ^ 64 -> forall k, 0 <= k < 64 ->
  Z.testbit (morton_1 d) k = (Z.testbit d (2 * (if k <? 32 then k else k - 16)) && (k <? 48)).
Proof.
  intros Hd k Hk. rewrite (or_linear_bits _ morton_1_or_linear 64) by (simpl Z.of_nat; lia).
  apply eq_true_iff_eq. rewrite existsb_exists, andb_true_iff. fold (upto 64). split.
  - intros (i & Hi & H). apply in_upto in Hi. simpl in Hi. rewrite andb_true_iff, morton_1_table in H by lia.
    destruct H as [H1 H2]. apply andb_true_iff in H2. destruct H2 as [H2 H3].
    apply Z.eqb_eq in H2. subst i. auto.
  - intros [Hb H3]. pose proof (proj1 (Z.ltb_lt _ _) H3). eexists. split; [|rewrite Hb, morton_1_table; [rewrite Z.eqb_refl; exact H3| |lia]].
    + apply in_upto. change (Z.of_nat 64) with 64. destruct (Z.ltb_spec k 32); lia.
    + destruct (Z.ltb_spec k 32); lia.
Qed.
