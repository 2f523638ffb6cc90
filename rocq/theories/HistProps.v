(** Property C04: integer histograms. *)
From Coq Require Import ZArith List Bool Lia.
From Verif Require Import EventArraysModel HistModel HistProofs.
Import ListNotations.
Open Scope Z_scope.

(** Specification vocabulary. *)
Definition times1 (i : Z) (x : list Z) : Z := Z.of_nat (length (filter (Z.eqb i) x)).
Definition times2 (i j : Z) (x y : list Z) : Z :=
  Z.of_nat (length (filter (fun p => (i =? fst p) && (j =? snd p)) (combine x y))).
Definition times3 (i j k : Z) (x y z : list Z) : Z :=
  Z.of_nat (length (filter (fun p => (i =? fst (fst p)) && (j =? snd (fst p)) && (k =? snd p))
                           (combine (combine x y) z))).
Definition total (l : list Z) : Z := fold_right Z.add 0 l.
Definition is_int32 (v : Z) : Prop := - 2 ^ 31 <= v < 2 ^ 31.

Lemma total_sumZ l : total l = sumZ l.
Proof. induction l; simpl; congruence. Qed.

Lemma u32_in_range n v : 0 <= n <= 2 ^ 31 -> is_int32 v ->
  negb (n <=? to_u32 v) = true <-> 0 <= v < n.
Proof.
  intros Hn Hv. unfold is_int32 in Hv. rewrite negb_true_iff, Z.leb_gt.
  destruct (Z_lt_le_dec v 0).
  - pose proof (to_u32_neg v). lia.
  - rewrite to_u32_small by lia. lia.
Qed.

Lemma u32_eqb v i : is_int32 v -> 0 <= i < 2 ^ 31 -> (to_u32 v =? i) = (i =? v).
Proof.
  intros Hv Hi. unfold is_int32 in Hv. destruct (Z_lt_le_dec v 0).
  - pose proof (to_u32_neg v). destruct (Z.eqb_spec (to_u32 v) i), (Z.eqb_spec i v); lia.
  - rewrite to_u32_small by lia. apply Z.eqb_sym.
Qed.


Theorem C04_hist_1d : forall x nx,
  (forall v, In v x -> is_int32 v) -> 0 <= nx <= 2 ^ 31 ->
  match hist_1d_index x nx with
  | Ok r => (forall v, In v x -> 0 <= v < nx) /\ Z.of_nat (length r) = nx /\
      (forall i, 0 <= i < nx -> nth (Z.to_nat i) r 0 = times1 i x) /\
      total r = Z.of_nat (length x)
  | Raised => (exists v, In v x /\ ~ 0 <= v < nx) \/
              (exists i, 0 <= i < nx /\ 2 ^ 32 - 1 < times1 i x)
  | _ => False
  end.
Proof.
  intros x nx Hx Hn. unfold hist_1d_index.
  assert (Hlim : 0 <= 4294967295) by lia.
  assert (Hidx : forall t, In t (map to_u32 x) -> negb (nx <=? t) = true ->
                   0 <= t < Z.of_nat (Z.to_nat nx)).
  { intros t Ht Hr. apply in_map_iff in Ht. destruct Ht as (v & <- & Hv).
    apply u32_in_range in Hr; auto. rewrite to_u32_small; lia. }
  pose proof (hist_loop_total (fun x => negb (nx <=? x)) (fun x => x) 4294967295
                (Z.to_nat nx) (map to_u32 x) Hlim Hidx) as H.
  assert (Hcount : forall i, 0 <= i < nx ->
            count_if (fun t => t =? Z.of_nat (Z.to_nat i)) (map to_u32 x) = times1 i x).
  { intros i Hi. rewrite count_if_map. unfold times1. rewrite <- count_if_filter.
    apply count_if_ext. intros v Hv. rewrite Z2Nat.id by lia. apply u32_eqb; [auto|lia]. }
  destruct (hist_loop _ _ _ _ _) as [r| | |]; try exact H.
  - destruct H as (H1 & H2 & H3 & _ & H5). split; [|split; [lia|split]].
    + intros v Hv. apply u32_in_range; auto. apply H1, in_map, Hv.
    + intros i Hi. rewrite H3 by lia. apply Hcount; auto.
    + rewrite total_sumZ, H5, map_length. reflexivity.
  - destruct H as [(t & Ht & Hr)|(_ & k & Hk & Hc)].
    + left. apply in_map_iff in Ht. destruct Ht as (v & <- & Hv). exists v. split; [exact Hv|].
      intros Hv'. apply u32_in_range in Hv'; auto. congruence.
    + right. exists (Z.of_nat k). split; [lia|].
      rewrite <- Hcount by lia. rewrite Nat2Z.id. lia.
Qed.

Example C04_hist_1d_nonvacuous :
  hist_1d_index [0; 2; 2; 3; 2] 5 = Ok [1; 0; 3; 1; 0] /\
  hist_1d_index [0; 5] 5 = Raised /\ hist_1d_index [-1] 5 = Raised.
Proof. repeat split; reflexivity. Qed.

(** Unique decomposition of a row-major index. *)
Lemma row_major_unique n a b i j :
  0 <= b < n -> 0 <= j < n -> a * n + b = i * n + j -> a = i /\ b = j.
Proof.
  intros Hb Hj H.
  assert (a = i).
  { assert (Ha : (a * n + b) / n = a) by (rewrite Z.div_add_l, Z.div_small; lia).
    assert (Hi : (i * n + j) / n = i) by (rewrite Z.div_add_l, Z.div_small; lia).
    congruence. }
  subst. lia.
Qed.

Lemma row_major_range m n a b : 0 <= a < m -> 0 <= b < n -> 0 <= a * n + b < m * n.
Proof. nia. Qed.

Theorem C04_hist_2d : forall x y nx ny,
  length x = length y ->
  (forall v, In v x -> is_int32 v) -> (forall v, In v y -> is_int32 v) ->
  0 <= nx <= 2 ^ 31 -> 0 <= ny <= 2 ^ 31 -> nx * ny <= 2 ^ 32 ->
  match hist_2d_index x y nx ny with
  | Ok r => (forall v w, In (v, w) (combine x y) -> 0 <= v < nx /\ 0 <= w < ny) /\
      Z.of_nat (length r) = nx * ny /\
      (forall i j, 0 <= i < nx -> 0 <= j < ny ->
         nth (Z.to_nat (i * ny + j)) r 0 = times2 i j x y) /\
      total r = Z.of_nat (length x)
  | Raised => (exists v w, In (v, w) (combine x y) /\ ~ (0 <= v < nx /\ 0 <= w < ny)) \/
              (exists i j, 0 <= i < nx /\ 0 <= j < ny /\ 2 ^ 32 - 1 < times2 i j x y)
  | _ => False
  end.
Proof.
  intros x y nx ny Hlen Hx Hy Hnx Hny Hn. unfold hist_2d_index.
  rewrite Hlen, Nat.eqb_refl. simpl negb. cbv iota.
  rewrite combine_map.
  set (es := combine x y).
  assert (He : forall p, In p es -> is_int32 (fst p) /\ is_int32 (snd p)).
  { intros [v w] Hp. split; [apply Hx|apply Hy]; [eapply in_combine_l|eapply in_combine_r]; eauto. }
  set (f := fun p : Z * Z => (to_u32 (fst p), to_u32 (snd p))).
  set (rng := fun p : Z * Z => negb ((nx <=? fst p) || (ny <=? snd p))).
  set (idx := fun p : Z * Z => (fst p * ny + snd p) mod 2 ^ 32).
  assert (Hrng : forall p, In p es -> rng (f p) = true <-> 0 <= fst p < nx /\ 0 <= snd p < ny).
  { intros p Hp. destruct (He p Hp) as [H1 H2]. unfold rng, f. simpl.
    rewrite negb_orb, andb_true_iff. rewrite !u32_in_range by auto. tauto. }
  assert (Hval : forall p, In p es -> rng (f p) = true -> idx (f p) = fst p * ny + snd p).
  { intros p Hp Hr. apply Hrng in Hr; auto. destruct Hr as [H1 H2].
    unfold idx, f. simpl. rewrite !to_u32_small by lia.
    apply Z.mod_small. pose proof (row_major_range nx ny _ _ H1 H2). lia. }
  assert (Hlim : 0 <= 4294967295) by lia.
  assert (Hidx : forall t, In t (map f es) -> rng t = true ->
                   0 <= idx t < Z.of_nat (Z.to_nat (nx * ny))).
  { intros t Ht Hr. apply in_map_iff in Ht. destruct Ht as (p & <- & Hp).
    rewrite Hval by auto. apply Hrng in Hr; auto. destruct Hr as [H1 H2].
    pose proof (row_major_range nx ny _ _ H1 H2). lia. }
  pose proof (hist_loop_total rng idx 4294967295 (Z.to_nat (nx * ny)) (map f es) Hlim Hidx) as H.
  assert (Hcount : (forall p, In p es -> rng (f p) = true) -> forall i j, 0 <= i < nx -> 0 <= j < ny ->
     count_if (fun t => idx t =? Z.of_nat (Z.to_nat (i * ny + j))) (map f es) = times2 i j x y).
  { intros Hall i j Hi Hj. rewrite count_if_map. unfold times2. rewrite <- count_if_filter.
    apply count_if_ext. intros p Hp. pose proof (row_major_range nx ny i j Hi Hj).
    rewrite Hval, Z2Nat.id by (auto; lia).
    pose proof (Hall p Hp) as Hr. apply Hrng in Hr; auto. destruct Hr as [H1 H2].
    destruct (Z.eqb_spec (fst p * ny + snd p) (i * ny + j)) as [E|E].
    - apply row_major_unique in E; auto. destruct E as [-> ->]. rewrite !Z.eqb_refl. reflexivity.
    - destruct (Z.eqb_spec i (fst p)), (Z.eqb_spec j (snd p)); subst; simpl; congruence. }
  destruct (hist_loop _ _ _ _ _) as [r| | |]; try exact H.
  - destruct H as (H1 & H2 & H3 & _ & H5).
    assert (Hall : forall p, In p es -> rng (f p) = true) by (intros p Hp; apply H1, in_map, Hp).
    split; [|split; [nia|split]].
    + intros v w Hp. apply (Hrng (v, w) Hp), Hall, Hp.
    + intros i j Hi Hj. pose proof (row_major_range nx ny i j Hi Hj).
      rewrite H3 by lia. apply Hcount; auto.
    + rewrite total_sumZ, H5, map_length. unfold es. rewrite combine_length. lia.
  - destruct H as [(t & Ht & Hr)|(Hall0 & k & Hk & Hc)].
    + left. apply in_map_iff in Ht. destruct Ht as ([v w] & <- & Hp). exists v, w. split; [exact Hp|].
      intros Hv'. apply (Hrng (v, w) Hp) in Hv'. congruence.
    + right.
      assert (Hall : forall p, In p es -> rng (f p) = true) by (intros p Hp; apply Hall0, in_map, Hp).
      assert (Hny0 : 0 < ny) by nia.
      exists (Z.of_nat k / ny), (Z.of_nat k mod ny).
      assert (Hi : 0 <= Z.of_nat k / ny < nx).
      { split; [apply Z.div_pos; lia|]. apply Z.div_lt_upper_bound; nia. }
      assert (Hj : 0 <= Z.of_nat k mod ny < ny) by (apply Z.mod_pos_bound; lia).
      split; [exact Hi|]. split; [exact Hj|].
      rewrite <- Hcount by auto.
      replace (Z.of_nat k / ny * ny + Z.of_nat k mod ny) with (Z.of_nat k)
        by (rewrite (Z.div_mod (Z.of_nat k) ny) at 1; lia).
      rewrite Nat2Z.id. lia.
Qed.

Example C04_hist_2d_nonvacuous :
  hist_2d_index [0; 1; 1; 0] [2; 0; 0; 1] 2 3 = Ok [0; 1; 1; 2; 0; 0] /\
  hist_2d_index [0; 1] [3; 0] 2 3 = Raised.
Proof. repeat split; reflexivity. Qed.

Theorem C04_hist_3d : forall x y z nx ny nz,
  length x = length y -> length x = length z ->
  (forall v, In v x -> is_int32 v) -> (forall v, In v y -> is_int32 v) ->
  (forall v, In v z -> is_int32 v) ->
  0 <= nx <= 2 ^ 31 -> 0 <= ny <= 2 ^ 31 -> 0 <= nz <= 2 ^ 31 -> nx * ny * nz <= 2 ^ 32 ->
  match hist_3d_index x y z nx ny nz with
  | Ok r => (forall u v w, In (u, v, w) (combine (combine x y) z) ->
               0 <= u < nx /\ 0 <= v < ny /\ 0 <= w < nz) /\
      Z.of_nat (length r) = nx * ny * nz /\
      (forall i j k, 0 <= i < nx -> 0 <= j < ny -> 0 <= k < nz ->
         nth (Z.to_nat ((i * ny + j) * nz + k)) r 0 = times3 i j k x y z) /\
      total r = Z.of_nat (length x)
  | Raised => (exists u v w, In (u, v, w) (combine (combine x y) z) /\
                 ~ (0 <= u < nx /\ 0 <= v < ny /\ 0 <= w < nz)) \/
              (exists i j k, 0 <= i < nx /\ 0 <= j < ny /\ 0 <= k < nz /\
                 2 ^ 16 - 1 < times3 i j k x y z)
  | _ => False
  end.
Proof.
  intros x y z nx ny nz Hlen Hlen2 Hx Hy Hz Hnx Hny Hnz Hn. unfold hist_3d_index.
  rewrite <- Hlen, <- Hlen2, Nat.eqb_refl. simpl negb. cbv iota. simpl orb. cbv iota.
  rewrite combine_map.
  rewrite (combine_map (fun p : Z * Z => (to_u32 (fst p), to_u32 (snd p))) to_u32).
  set (es := combine (combine x y) z).
  assert (He : forall p, In p es ->
            is_int32 (fst (fst p)) /\ is_int32 (snd (fst p)) /\ is_int32 (snd p)).
  { intros [[u v] w] Hp. pose proof (in_combine_l _ _ _ _ Hp) as Hp1.
    apply in_combine_r in Hp.
    split; [apply Hx; eapply in_combine_l; eauto|].
    split; [apply Hy; eapply in_combine_r; eauto|apply Hz; auto]. }
  set (f := fun p : Z * Z * Z => ((to_u32 (fst (fst p)), to_u32 (snd (fst p))), to_u32 (snd p))).
  set (rng := fun p : Z * Z * Z => negb ((nx <=? fst (fst p)) || (ny <=? snd (fst p)) || (nz <=? snd p))).
  set (idx := fun p : Z * Z * Z => (fst (fst p) * ny * nz + snd (fst p) * nz + snd p) mod 2 ^ 32).
  assert (Hrng : forall p, In p es ->
            rng (f p) = true <-> 0 <= fst (fst p) < nx /\ 0 <= snd (fst p) < ny /\ 0 <= snd p < nz).
  { intros p Hp. destruct (He p Hp) as (H1 & H2 & H3). unfold rng, f. simpl.
    rewrite !negb_orb, !andb_true_iff. rewrite !u32_in_range by auto. tauto. }
  assert (Hbound : forall i j k, 0 <= i < nx -> 0 <= j < ny -> 0 <= k < nz ->
            0 <= (i * ny + j) * nz + k < nx * ny * nz).
  { intros i j k Hi Hj Hk. apply row_major_range; auto. apply row_major_range; auto. }
  assert (Hval : forall p, In p es -> rng (f p) = true ->
            idx (f p) = (fst (fst p) * ny + snd (fst p)) * nz + snd p).
  { intros p Hp Hr. apply Hrng in Hr; auto. destruct Hr as (H1 & H2 & H3).
    unfold idx, f. simpl. rewrite !to_u32_small by lia.
    pose proof (Hbound _ _ _ H1 H2 H3).
    rewrite Z.mod_small; lia. }
  assert (Hlim : 0 <= 65535) by lia.
  assert (Hidx : forall t, In t (map f es) -> rng t = true ->
                   0 <= idx t < Z.of_nat (Z.to_nat (nx * ny * nz))).
  { intros t Ht Hr. apply in_map_iff in Ht. destruct Ht as (p & <- & Hp).
    rewrite Hval by auto. apply Hrng in Hr; auto. destruct Hr as (H1 & H2 & H3).
    pose proof (Hbound _ _ _ H1 H2 H3). lia. }
  pose proof (hist_loop_total rng idx 65535 (Z.to_nat (nx * ny * nz)) (map f es) Hlim Hidx) as H.
  assert (Hcount : (forall p, In p es -> rng (f p) = true) ->
     forall i j k, 0 <= i < nx -> 0 <= j < ny -> 0 <= k < nz ->
     count_if (fun t => idx t =? Z.of_nat (Z.to_nat ((i * ny + j) * nz + k))) (map f es)
     = times3 i j k x y z).
  { intros Hall i j k Hi Hj Hk. rewrite count_if_map. unfold times3. rewrite <- count_if_filter.
    apply count_if_ext. intros p Hp. pose proof (Hbound i j k Hi Hj Hk).
    rewrite Hval, Z2Nat.id by (auto; lia).
    pose proof (Hall p Hp) as Hr. apply Hrng in Hr; auto. destruct Hr as (H1 & H2 & H3).
    destruct (Z.eqb_spec ((fst (fst p) * ny + snd (fst p)) * nz + snd p) ((i * ny + j) * nz + k)) as [E|E].
    - apply row_major_unique in E; auto. destruct E as [E ->].
      apply row_major_unique in E; auto. destruct E as [-> ->]. rewrite !Z.eqb_refl. reflexivity.
    - destruct (Z.eqb_spec i (fst (fst p))), (Z.eqb_spec j (snd (fst p))), (Z.eqb_spec k (snd p));
        subst; simpl; congruence. }
  destruct (hist_loop _ _ _ _ _) as [r| | |]; try exact H.
  - destruct H as (H1 & H2 & H3 & _ & H5).
    assert (Hall : forall p, In p es -> rng (f p) = true) by (intros p Hp; apply H1, in_map, Hp).
    assert (0 <= nx * ny) by nia.
    split; [|split; [nia|split]].
    + intros u v w Hp. apply (Hrng (u, v, w) Hp), Hall, Hp.
    + intros i j k Hi Hj Hk. pose proof (Hbound i j k Hi Hj Hk).
      rewrite H3 by lia. apply Hcount; auto.
    + rewrite total_sumZ, H5, map_length. unfold es. rewrite !combine_length. lia.
  - destruct H as [(t & Ht & Hr)|(Hall0 & m & Hm & Hc)].
    + left. apply in_map_iff in Ht. destruct Ht as ([[u v] w] & <- & Hp).
      exists u, v, w. split; [exact Hp|].
      intros Hv'. apply (Hrng (u, v, w) Hp) in Hv'. congruence.
    + right.
      assert (Hall : forall p, In p es -> rng (f p) = true) by (intros p Hp; apply Hall0, in_map, Hp).
      assert (Hxy : 0 <= nx * ny) by nia.
      assert (Hnz0 : 0 < nz) by nia.
      assert (Hny0 : 0 < ny) by nia.
      set (a := Z.of_nat m / nz).
      assert (Ha : 0 <= a < nx * ny).
      { unfold a. split; [apply Z.div_pos; lia|]. apply Z.div_lt_upper_bound; nia. }
      exists (a / ny), (a mod ny), (Z.of_nat m mod nz).
      assert (Hi : 0 <= a / ny < nx).
      { split; [apply Z.div_pos; lia|]. apply Z.div_lt_upper_bound; nia. }
      assert (Hj : 0 <= a mod ny < ny) by (apply Z.mod_pos_bound; lia).
      assert (Hk : 0 <= Z.of_nat m mod nz < nz) by (apply Z.mod_pos_bound; lia).
      split; [exact Hi|]. split; [exact Hj|]. split; [exact Hk|].
      rewrite <- Hcount by auto.
      replace (a / ny * ny + a mod ny) with a by (rewrite (Z.div_mod a ny) at 1; lia).
      replace (a * nz + Z.of_nat m mod nz) with (Z.of_nat m)
        by (unfold a; rewrite (Z.div_mod (Z.of_nat m) nz) at 1; lia).
      rewrite Nat2Z.id. lia.
Qed.

Example C04_hist_3d_nonvacuous :
  hist_3d_index [0; 1; 1] [1; 0; 0] [0; 1; 1] 2 2 2 = Ok [0; 0; 1; 0; 0; 2; 0; 0] /\
  hist_3d_index [0] [0; 1] [0] 2 2 2 = Raised.
Proof. repeat split; reflexivity. Qed.

(** Without the int32 restriction the claim fails: the index is truncated to 32 bits
    before the range check, a far out-of-range index is counted. *)
Theorem C04_large_index_refuted :
  exists x nx, (exists v, In v x /\ ~ 0 <= v < nx) /\ hist_1d_index x nx = Ok [0; 0; 0; 1; 0].
Proof.
  exists [2 ^ 32 + 3], 5. split; [|reflexivity].
  exists (2 ^ 32 + 3). split; [left; reflexivity|lia].
Qed.

Print Assumptions C04_hist_1d.
Print Assumptions C04_hist_2d.
Print Assumptions C04_hist_3d.
Print Assumptions C04_large_index_refuted.
