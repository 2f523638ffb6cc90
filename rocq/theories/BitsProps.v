(** Properties C10, C11, C12 and C49: Morton codes, cluster shapes, bit counting. *)
From Coq Require Import ZArith List Bool Lia.
From Verif Require Import BitsModel MortonProofs BitsProofs.
Import ListNotations.
Open Scope Z_scope.

(** ** C10: Morton codes *)

(** the code interleaves the bits of the two coordinates *)
Theorem C10_interleave : forall x y, 0 <= x < 2 ^ 32 -> 0 <= y < 2 ^ 32 ->
  0 <= xy2d_morton x y < 2 ^ 64 /\
  forall k, 0 <= k < 32 ->
    Z.testbit (xy2d_morton x y) (2 * k) = Z.testbit x k /\
    Z.testbit (xy2d_morton x y) (2 * k + 1) = Z.testbit y k.
Proof. exact morton_interleave. Qed.

(** different 32 bit coordinates have different codes *)
Theorem C10_injective : forall x y x' y',
  0 <= x < 2 ^ 32 -> 0 <= y < 2 ^ 32 -> 0 <= x' < 2 ^ 32 -> 0 <= y' < 2 ^ 32 ->
  xy2d_morton x y = xy2d_morton x' y' -> x = x' /\ y = y'.
Proof.
  intros x y x' y' Hx Hy Hx' Hy' E.
  destruct (morton_interleave x y Hx Hy) as [_ H]. destruct (morton_interleave x' y' Hx' Hy') as [_ H'].
  split; apply (bits_eq 32); auto; try lia; intros k Hk; destruct (H k Hk) as [A B];
    destruct (H' k Hk) as [A' B']; rewrite E in *; congruence.
Qed.

(** decoding undoes encoding for 16 bit coordinates, the type of columns and rows; for coordinates
    from 2^16 on it does not (C10_large_coordinate_refuted) *)
Theorem C10_round_trip : forall x y, 0 <= x < 2 ^ 16 -> 0 <= y < 2 ^ 16 ->
  d2xy_morton (xy2d_morton x y) = (x, y).
Proof. exact d2xy_xy2d. Qed.

(** encoding undoes decoding, on the codes of 16 bit coordinates *)
Theorem C10_decode_encode : forall d x y, 0 <= d < 2 ^ 32 ->
  d2xy_morton d = (x, y) -> xy2d_morton x y = d.
Proof.
  intros d x y Hd E. pose proof (xy2d_d2xy d Hd) as H. rewrite E in H. exact H.
Qed.

(** for all 32 bit coordinates the low 32 bits of what is decoded are right *)
Theorem C10_decode_low_bits : forall x y, 0 <= x < 2 ^ 32 -> 0 <= y < 2 ^ 32 ->
  fst (d2xy_morton (xy2d_morton x y)) mod 2 ^ 32 = x /\
  snd (d2xy_morton (xy2d_morton x y)) mod 2 ^ 32 = y.
Proof. exact d2xy_low. Qed.

(** the decoded 64 bit number is wrong for every coordinate from 2^16 on *)
Theorem C10_large_coordinate_refuted : forall x y, 2 ^ 16 <= x < 2 ^ 32 -> 0 <= y < 2 ^ 32 ->
  d2xy_morton (xy2d_morton x y) <> (x, y).
Proof.
  intros x y Hx Hy E. destruct (morton_interleave x y ltac:(lia) Hy) as [Hr Hb].
  assert (Hm : morton_1 (xy2d_morton x y) = x) by (rewrite <- d2xy_fst, E; reflexivity).
  assert (Hno : x < 2 ^ 16); [|lia].
  apply range_of_bits; [lia|lia|]. intros k Hk.
  destruct (Z_lt_le_dec k 32) as [Hlt|Hge]; [|apply (testbit_above x 32); lia].
  destruct (Hb k ltac:(lia)) as [<- _].
  assert (Hbit : Z.testbit (morton_1 (xy2d_morton x y)) (k + 16) = Z.testbit (xy2d_morton x y) (2 * k)).
  { rewrite morton_1_spec by (auto; lia).
    destruct (Z.ltb_spec (k + 16) 32); [lia|]. destruct (Z.ltb_spec (k + 16) 48); [|lia].
    rewrite andb_true_r. f_equal. lia. }
  rewrite <- Hbit, Hm. apply (testbit_above x 32); lia.
Qed.

Example C10_case : xy2d_morton 5 3 = 27 /\ d2xy_morton 27 = (5, 3) /\
  fst (d2xy_morton (xy2d_morton 65536 0)) = 65536 + 2 ^ 32.
Proof. vm_compute. auto. Qed.

(** ** C11: cluster shapes *)

(** Specification: position of the pixel (dx, dy) of an 8x8 array in the 64 bit number *)
Definition zorder (dx dy : Z) : Z :=
  dx mod 2 + 2 * (dy mod 2) + 4 * (dx / 2 mod 2) + 8 * (dy / 2 mod 2) + 16 * (dx / 4) + 32 * (dy / 4).

Definition is_min (m : Z) (l : list Z) : Prop := In m l /\ forall x, In x l -> m <= x.
Definition is_max (m : Z) (l : list Z) : Prop := In m l /\ forall x, In x l -> x <= m.

Lemma zorder_morton : forall x y, 0 <= x < 8 -> 0 <= y < 8 -> xy2d_morton x y = zorder x y.
Proof.
  intros x y Hx Hy.
  assert (H : forallb (fun p => xy2d_morton (fst p) (snd p) =? zorder (fst p) (snd p)) indices8x8 = true)
    by (vm_compute; reflexivity).
  rewrite forallb_forall in H. specialize (H (x, y)).
  apply Z.eqb_eq. apply H. apply indices_in. auto.
Qed.

Lemma zorder_range : forall x y, 0 <= x < 8 -> 0 <= y < 8 -> 0 <= zorder x y < 64.
Proof.
  intros x y Hx Hy. rewrite <- zorder_morton by auto.
  apply (code_range (x, y)). apply indices_in. auto.
Qed.

Lemma is_min_unique m m' l : is_min m l -> is_min m' l -> m = m'.
Proof. intros [H1 H2] [H3 H4]. specialize (H2 _ H3). specialize (H4 _ H1). lia. Qed.
Lemma is_max_unique m m' l : is_max m l -> is_max m' l -> m = m'.
Proof. intros [H1 H2] [H3 H4]. specialize (H2 _ H3). specialize (H4 _ H1). lia. Qed.

Lemma fold_is_min (f : Z * Z -> Z) a l :
  is_min (fold_left (fun m h => if f h <? m then f h else m) l (f a)) (map f (a :: l)).
Proof.
  destruct (fold_min_spec f l (f a)) as (H1 & H2 & H3). split.
  - destruct H1 as [->|(h & Hh & <-)]; [left; auto|right; apply in_map; auto].
  - intros x [<-|Hx]; auto. apply in_map_iff in Hx. destruct Hx as (h & <- & Hh). auto.
Qed.

Lemma fold_is_max (f : Z * Z -> Z) a l :
  is_max (fold_left (fun m h => if m <? f h then f h else m) l (f a)) (map f (a :: l)).
Proof.
  destruct (fold_max_spec f l (f a)) as (H1 & H2 & H3). split.
  - destruct H1 as [->|(h & Hh & <-)]; [left; auto|right; apply in_map; auto].
  - intros x [<-|Hx]; auto. apply in_map_iff in Hx. destruct Hx as (h & <- & Hh). auto.
Qed.

(** bit [zorder dx dy] of the shape tells whether the pixel dx, dy away from the corner of the
    cluster is hit; clusters that do not fit into 8x8 pixels, or that have a hit in the upper
    right corner of the 8x8 array, have shape -1 *)
Theorem C11_cluster_shape : forall first others c0 c1 r0 r1 shape ec er,
  is_min c0 (map fst (first :: others)) -> is_max c1 (map fst (first :: others)) ->
  is_min r0 (map snd (first :: others)) -> is_max r1 (map snd (first :: others)) ->
  end_of_cluster first others = (shape, ec, er) ->
  ec = c1 - c0 /\ er = r1 - r0 /\
  (c1 - c0 < 8 /\ r1 - r0 < 8 /\ ~ In (c0 + 7, r0 + 7) (first :: others) ->
     0 < shape < 2 ^ 63 /\
     forall dx dy, 0 <= dx < 8 -> 0 <= dy < 8 ->
       (Z.testbit shape (zorder dx dy) = true <-> In (c0 + dx, r0 + dy) (first :: others))) /\
  (8 <= c1 - c0 \/ 8 <= r1 - r0 \/ In (c0 + 7, r0 + 7) (first :: others) -> shape = -1).
Proof.
  intros first others c0 c1 r0 r1 shape ec er Hc0 Hc1 Hr0 Hr1 E.
  unfold end_of_cluster in E.
  rewrite (is_min_unique _ _ _ (fold_is_min fst first others) Hc0) in E.
  rewrite (is_max_unique _ _ _ (fold_is_max fst first others) Hc1) in E.
  rewrite (is_min_unique _ _ _ (fold_is_min snd first others) Hr0) in E.
  rewrite (is_max_unique _ _ _ (fold_is_max snd first others) Hr1) in E.
  set (arr := hit_arr (fst first) (snd first) others) in E.
  apply pair_equal_spec in E. destruct E as [E <-]. apply pair_equal_spec in E. destruct E as [E <-].
  assert (Bc : forall h, In h (first :: others) -> c0 <= fst h <= c1).
  { intros h Hh. split; [apply (proj2 Hc0)|apply (proj2 Hc1)]; apply in_map; auto. }
  assert (Br : forall h, In h (first :: others) -> r0 <= snd h <= r1).
  { intros h Hh. split; [apply (proj2 Hr0)|apply (proj2 Hr1)]; apply in_map; auto. }
  pose proof (Bc first (or_introl eq_refl)) as Bc1. pose proof (Br first (or_introl eq_refl)) as Br1.
  assert (Hset : c1 - c0 < 8 -> r1 - r0 < 8 -> forall dx dy,
     is_set arr (7 + c0 - fst first + dx) (7 + r0 - snd first + dy) = true <->
     In (c0 + dx, r0 + dy) (first :: others)).
  { intros Hc Hr dx dy. rewrite is_set_in. unfold arr. rewrite hit_arr_in.
    replace (7 + c0 - fst first + dx - 7 + fst first) with (c0 + dx) by lia.
    replace (7 + r0 - snd first + dy - 7 + snd first) with (r0 + dy) by lia.
    cbn [In]. split.
    - intros [[H1 H2]|(H & _)]; [left|right; auto].
      rewrite (surjective_pairing first). f_equal; lia.
    - intros [H|H]; [left; rewrite H; cbn [fst snd]; lia|right].
      pose proof (Bc _ (or_intror H)) as B1. pose proof (Br _ (or_intror H)) as B2. cbn [fst snd] in B1, B2.
      split; [exact H|split; lia]. }
  split; [reflexivity|]. split; [reflexivity|].
  destruct (Z.ltb_spec (c1 - c0) 8) as [Hc|Hc]; cbn [andb] in E.
  2: { split; [lia|]. intros _. congruence. }
  destruct (Z.ltb_spec (r1 - r0) 8) as [Hr|Hr].
  2: { split; [lia|]. intros _. congruence. }
  specialize (Hset Hc Hr).
  destruct (is_set arr (7 + c0 - fst first + 7) (7 + r0 - snd first + 7)) eqn:E77.
  - apply Hset in E77. split; [tauto|]. intros _. congruence.
  - assert (N77 : ~ In (c0 + 7, r0 + 7) (first :: others)) by (rewrite <- Hset, E77; discriminate).
    split; [intros _|intros [H|[H|H]]; [lia|lia|tauto]].
    subst shape.
    set (a := fun c r => is_set arr (7 + c0 - fst first + c) (7 + r0 - snd first + r)).
    assert (Hbit : forall dx dy, 0 <= dx < 8 -> 0 <= dy < 8 ->
      Z.testbit (calculate_cluster_shape a) (zorder dx dy) = a dx dy).
    { intros dx dy Hx Hy. rewrite <- zorder_morton by auto. apply cluster_shape_bit; auto. }
    split.
    + destruct (cluster_shape_spec a) as [Hr64 Hall]. split.
      * destruct (Z.eq_dec (calculate_cluster_shape a) 0) as [E0|]; [exfalso|lia].
        assert (Hf : a (fst first - c0) (snd first - r0) = true).
        { unfold a. apply Hset. left. rewrite (surjective_pairing first) at 1. f_equal; lia. }
        rewrite <- Hbit, E0, Z.bits_0 in Hf by lia. discriminate.
      * apply range_of_bits; [lia|lia|]. intros k Hk. apply not_true_is_false. rewrite Hall by lia.
        intros (x & y & Hx & Hy & Ha & ->).
        assert (Hxy : forallb (fun p => implb (63 <=? zorder (fst p) (snd p)) ((fst p =? 7) && (snd p =? 7)))
                       indices8x8 = true) by (vm_compute; reflexivity).
        rewrite forallb_forall in Hxy. specialize (Hxy (x, y) ltac:(apply indices_in; auto)).
        cbn [fst snd] in Hxy. rewrite <- zorder_morton in Hxy by auto.
        destruct (Z.leb_spec 63 (xy2d_morton x y)); [|lia]. cbn [implb] in Hxy.
        apply andb_true_iff in Hxy. destruct Hxy as [X Y]. apply Z.eqb_eq in X, Y. subst x y.
        unfold a in Ha. congruence.
    + intros dx dy Hx Hy. rewrite Hbit by auto. unfold a. apply Hset.
Qed.

(** Specification: the second cluster is the first one moved by (dc, dr) *)
Definition translated (dc dr : Z) (a b : list (Z * Z)) : Prop :=
  forall c r, In (c, r) a <-> In (c + dc, r + dr) b.

Lemma min_exists (l : list Z) : l <> [] -> exists m, is_min m l.
Proof.
  destruct l as [|x l]; [congruence|]. intros _. exists (fold_right Z.min x l).
  induction l as [|y l IH]; [split; simpl; [auto|intros z [->|[]]; lia]|].
  destruct IH as [I1 I2]. split.
  - simpl. destruct (Z.min_spec y (fold_right Z.min x l)) as [[_ ->]|[_ ->]]; auto.
    destruct I1; auto.
  - intros z Hz. simpl in Hz |- *. destruct Hz as [<-|[<-|Hz]]; try lia.
    + specialize (I2 x (or_introl eq_refl)). lia.
    + specialize (I2 z (or_intror Hz)). lia.
Qed.
Lemma max_exists (l : list Z) : l <> [] -> exists m, is_max m l.
Proof.
  intros H. destruct (min_exists (map Z.opp l)) as (m & H1 & H2).
  { destruct l; [congruence|discriminate]. }
  exists (- m). split.
  - apply in_map_iff in H1. destruct H1 as (x & <- & Hx). rewrite Z.opp_involutive. auto.
  - intros x Hx. specialize (H2 (- x) (in_map Z.opp _ _ Hx)). lia.
Qed.

Lemma translated_min_c dc dr a b m : translated dc dr a b -> is_min m (map fst a) -> is_min (m + dc) (map fst b).
Proof.
  intros T [H1 H2]. split.
  - apply in_map_iff in H1. destruct H1 as ([c r] & <- & Hin). apply T in Hin.
    apply in_map_iff. exists (c + dc, r + dr). auto.
  - intros x Hx. apply in_map_iff in Hx. destruct Hx as ([c r] & <- & Hin). cbn [fst].
    replace c with (c - dc + dc) in Hin by lia. replace r with (r - dr + dr) in Hin by lia. apply T in Hin.
    specialize (H2 (c - dc) (in_map fst _ _ Hin)). lia.
Qed.
Lemma translated_swap dc dr a b : translated dc dr a b ->
  translated dr dc (map (fun p => (snd p, fst p)) a) (map (fun p => (snd p, fst p)) b).
Proof.
  assert (S : forall l c r, In (c, r) (map (fun p : Z * Z => (snd p, fst p)) l) <-> In (r, c) l).
  { intros l c r. rewrite in_map_iff. split.
    - intros ([x y] & E & H). apply pair_equal_spec in E. cbn [fst snd] in E. destruct E as [<- <-]. auto.
    - intros H. exists (r, c). auto. }
  intros T c r. rewrite !S. apply T.
Qed.
Lemma map_swap (l : list (Z * Z)) : map fst (map (fun p => (snd p, fst p)) l) = map snd l.
Proof. rewrite map_map. apply map_ext. auto. Qed.
Lemma translated_min_r dc dr a b m : translated dc dr a b -> is_min m (map snd a) -> is_min (m + dr) (map snd b).
Proof.
  intros T H. rewrite <- map_swap in *. eapply translated_min_c; [|exact H]. apply translated_swap. exact T.
Qed.
Lemma translated_max_c dc dr a b m : translated dc dr a b -> is_max m (map fst a) -> is_max (m + dc) (map fst b).
Proof.
  intros T [H1 H2]. split.
  - apply in_map_iff in H1. destruct H1 as ([c r] & <- & Hin). apply T in Hin.
    apply in_map_iff. exists (c + dc, r + dr). auto.
  - intros x Hx. apply in_map_iff in Hx. destruct Hx as ([c r] & <- & Hin). cbn [fst].
    replace c with (c - dc + dc) in Hin by lia. replace r with (r - dr + dr) in Hin by lia. apply T in Hin.
    specialize (H2 (c - dc) (in_map fst _ _ Hin)). lia.
Qed.
Lemma translated_max_r dc dr a b m : translated dc dr a b -> is_max m (map snd a) -> is_max (m + dr) (map snd b).
Proof.
  intros T H. rewrite <- map_swap in *. eapply translated_max_c; [|exact H]. apply translated_swap. exact T.
Qed.

(** the shape depends neither on the position of the cluster nor on the order of its hits *)
Theorem C11_translation_invariant : forall f1 o1 f2 o2 dc dr,
  translated dc dr (f1 :: o1) (f2 :: o2) -> end_of_cluster f1 o1 = end_of_cluster f2 o2.
Proof.
  intros f1 o1 f2 o2 dc dr T.
  destruct (min_exists (map fst (f1 :: o1)) ltac:(discriminate)) as [c0 Hc0].
  destruct (max_exists (map fst (f1 :: o1)) ltac:(discriminate)) as [c1 Hc1].
  destruct (min_exists (map snd (f1 :: o1)) ltac:(discriminate)) as [r0 Hr0].
  destruct (max_exists (map snd (f1 :: o1)) ltac:(discriminate)) as [r1 Hr1].
  pose proof (translated_min_c _ _ _ _ _ T Hc0) as Kc0. pose proof (translated_max_c _ _ _ _ _ T Hc1) as Kc1.
  pose proof (translated_min_r _ _ _ _ _ T Hr0) as Kr0. pose proof (translated_max_r _ _ _ _ _ T Hr1) as Kr1.
  destruct (end_of_cluster f1 o1) as [[s1 ec1] er1] eqn:E1.
  destruct (end_of_cluster f2 o2) as [[s2 ec2] er2] eqn:E2.
  destruct (C11_cluster_shape _ _ _ _ _ _ _ _ _ Hc0 Hc1 Hr0 Hr1 E1) as (-> & -> & A1 & B1).
  destruct (C11_cluster_shape _ _ _ _ _ _ _ _ _ Kc0 Kc1 Kr0 Kr1 E2) as (-> & -> & A2 & B2).
  assert (S : s1 = s2).
  { assert (T77 : In (c0 + 7, r0 + 7) (f1 :: o1) <-> In (c0 + dc + 7, r0 + dr + 7) (f2 :: o2)).
    { rewrite (T (c0 + 7) (r0 + 7)). replace (c0 + 7 + dc) with (c0 + dc + 7) by lia.
      replace (r0 + 7 + dr) with (r0 + dr + 7) by lia. reflexivity. }
    assert (D : (c1 - c0 < 8 /\ r1 - r0 < 8 /\ ~ In (c0 + 7, r0 + 7) (f1 :: o1)) \/
                (8 <= c1 - c0 \/ 8 <= r1 - r0 \/ In (c0 + 7, r0 + 7) (f1 :: o1))).
    { assert (Hdec : forall x y : Z * Z, {x = y} + {x <> y}) by (decide equality; apply Z.eq_dec).
      destruct (in_dec Hdec (c0 + 7, r0 + 7) (f1 :: o1)) as [H|H]; [tauto|].
      destruct (Z_lt_le_dec (c1 - c0) 8); [|tauto]. destruct (Z_lt_le_dec (r1 - r0) 8); tauto. }
    destruct D as [D|D].
    - destruct (A1 D) as [R1 T1]. destruct A2 as [R2 T2]; [rewrite <- T77; destruct D as (? & ? & ?); split; [lia|split; [lia|auto]]|].
      apply (bits_eq 64); [lia|lia|lia|]. intros k Hk.
      assert (Hz : exists x y, 0 <= x < 8 /\ 0 <= y < 8 /\ k = zorder x y).
      { assert (Hall : forallb (fun k => existsb (fun p => k =? zorder (fst p) (snd p)) indices8x8)
                                 (upto 64) = true) by (vm_compute; reflexivity).
        rewrite forallb_forall in Hall. specialize (Hall k ltac:(apply in_upto; exact Hk)).
        apply existsb_exists in Hall. destruct Hall as ([x y] & Hin & E). apply Z.eqb_eq in E.
        apply indices_in in Hin. exists x, y. cbn [fst snd] in *. tauto. }
      destruct Hz as (x & y & Hx & Hy & ->). apply eq_true_iff_eq. rewrite T1, T2 by auto.
      rewrite (T (c0 + x) (r0 + y)). replace (c0 + x + dc) with (c0 + dc + x) by lia.
      replace (r0 + y + dr) with (r0 + dr + y) by lia. reflexivity.
    - rewrite B1 by auto. rewrite B2; [reflexivity|]. rewrite <- T77.
      destruct D as [D|[D|D]]; [left; lia|right; left; lia|right; right; auto]. }
  rewrite S. f_equal; [f_equal|]; lia.
Qed.

(** conversely, two clusters with the same valid shape are translations of each other *)
Theorem C11_shape_determines_cluster : forall f1 o1 f2 o2 s ec1 er1 ec2 er2,
  end_of_cluster f1 o1 = (s, ec1, er1) -> end_of_cluster f2 o2 = (s, ec2, er2) -> s <> -1 ->
  exists dc dr, translated dc dr (f1 :: o1) (f2 :: o2).
Proof.
  intros f1 o1 f2 o2 s ec1 er1 ec2 er2 E1 E2 Hs.
  assert (G : forall f o ec er, end_of_cluster f o = (s, ec, er) -> exists c0 r0,
     forall c r, In (c, r) (f :: o) <->
       exists dx dy, 0 <= dx < 8 /\ 0 <= dy < 8 /\ c = c0 + dx /\ r = r0 + dy /\ Z.testbit s (zorder dx dy) = true).
  { clear E1 E2 f1 o1 f2 o2. intros f o ec er E.
    destruct (min_exists (map fst (f :: o)) ltac:(discriminate)) as [c0 Hc0].
    destruct (max_exists (map fst (f :: o)) ltac:(discriminate)) as [c1 Hc1].
    destruct (min_exists (map snd (f :: o)) ltac:(discriminate)) as [r0 Hr0].
    destruct (max_exists (map snd (f :: o)) ltac:(discriminate)) as [r1 Hr1].
    destruct (C11_cluster_shape _ _ _ _ _ _ _ _ _ Hc0 Hc1 Hr0 Hr1 E) as (-> & -> & A & B).
    assert (D : c1 - c0 < 8 /\ r1 - r0 < 8 /\ ~ In (c0 + 7, r0 + 7) (f :: o)).
    { destruct (Z_lt_le_dec (c1 - c0) 8); [|exfalso; apply Hs, B; auto].
      destruct (Z_lt_le_dec (r1 - r0) 8); [|exfalso; apply Hs, B; auto].
      split; [auto|split; [auto|]]. intros H. apply Hs, B. auto. }
    destruct (A D) as [_ T]. exists c0, r0. intros c r. split.
    - intros H. exists (c - c0), (r - r0).
      pose proof (proj2 Hc0 c (in_map fst _ _ H)). pose proof (proj2 Hc1 c (in_map fst _ _ H)).
      pose proof (proj2 Hr0 r (in_map snd _ _ H)). pose proof (proj2 Hr1 r (in_map snd _ _ H)).
      repeat split; try lia. apply T; [lia|lia|].
      replace (c0 + (c - c0)) with c by lia. replace (r0 + (r - r0)) with r by lia. auto.
    - intros (dx & dy & Hx & Hy & -> & -> & Hb). apply T; auto. }
  destruct (G _ _ _ _ E1) as (c1 & r1 & G1). destruct (G _ _ _ _ E2) as (c2 & r2 & G2).
  exists (c2 - c1), (r2 - r1). intros c r. rewrite G1, G2.
  split; intros (dx & dy & Hx & Hy & H1 & H2 & Hb); exists dx, dy; repeat split; auto; lia.
Qed.

Example C11_case :
  end_of_cluster (10, 20) [(11, 20); (11, 21)] = (1 + 2 + 8, 1, 1) /\
  end_of_cluster (11, 21) [(10, 20); (11, 20)] = (11, 1, 1) /\
  end_of_cluster (10, 20) [(18, 20)] = (-1, 8, 0) /\
  end_of_cluster (10, 20) [(17, 27)] = (-1, 7, 7) /\
  translated 1 2 [(10, 20); (11, 20)] [(12, 22); (11, 22)].
Proof.
  repeat split; try (vm_compute; reflexivity).
  - intros [E|[E|[]]]; apply pair_equal_spec in E; destruct E as [<- <-]; simpl; auto.
  - intros [E|[E|[]]]; apply pair_equal_spec in E; destruct E as [E1 E2]; simpl.
    + right. left. f_equal; lia.
    + left. f_equal; lia.
Qed.

(** ** C49: the array of a shape *)
Theorem C49_array_of_shape : forall arr x y, 0 <= x < 8 -> 0 <= y < 8 ->
  calculate_cluster_array (calculate_cluster_shape arr) x y = arr x y.
Proof.
  intros arr x y Hx Hy. destruct (cluster_shape_spec arr) as [Hr _].
  rewrite cluster_array_spec by auto. apply cluster_shape_bit; auto.
Qed.

Theorem C49_shape_of_array : forall s, 0 <= s < 2 ^ 64 ->
  calculate_cluster_shape (calculate_cluster_array s) = s.
Proof.
  intros s Hs. destruct (cluster_shape_spec (calculate_cluster_array s)) as [Hr Hall].
  apply (bits_eq 64); auto; [lia|]. intros k Hk.
  apply eq_true_iff_eq. rewrite Hall by lia. split.
  - intros (x & y & Hx & Hy & Ha & ->). rewrite <- cluster_array_spec; auto.
  - intros Hb.
    assert (Hk32 : 0 <= k < 2 ^ 32) by lia.
    assert (Hz : exists x y, 0 <= x < 8 /\ 0 <= y < 8 /\ k = xy2d_morton x y).
    { assert (Hal : forallb (fun k => existsb (fun p => k =? xy2d_morton (fst p) (snd p)) indices8x8)
                            (upto 64) = true) by (vm_compute; reflexivity).
      rewrite forallb_forall in Hal. specialize (Hal k ltac:(apply in_upto; exact Hk)).
      apply existsb_exists in Hal. destruct Hal as ([x y] & Hin & E). apply Z.eqb_eq in E.
      apply indices_in in Hin. exists x, y. cbn [fst snd] in *. tauto. }
    destruct Hz as (x & y & Hx & Hy & ->). exists x, y. repeat split; auto; try lia.
    rewrite cluster_array_spec; auto.
Qed.

Example C49_case : calculate_cluster_array 11 0 0 = true /\ calculate_cluster_array 11 1 1 = true /\
  calculate_cluster_array 11 0 1 = false /\ calculate_cluster_shape (fun x y => x <? y) = 5693957299584913156.
Proof. vm_compute. auto. Qed.

(** ** C12: counting bits *)

(** Specification: number of bits set among the lowest n bits *)
Definition bits_set (n : nat) (v : Z) : Z :=
  Z.of_nat (length (filter (fun k => Z.testbit v (Z.of_nat k)) (seq 0 n))).

Lemma bits_set_popcount n v : popcount n v = bits_set n v.
Proof.
  revert v. induction n as [|n IH]; intros v; [reflexivity|].
  cbn [popcount]. rewrite IH. unfold bits_set. cbn [seq filter].
  assert (E : length (filter (fun k => Z.testbit v (Z.of_nat k)) (seq 1 n)) =
              length (filter (fun k => Z.testbit (v / 2) (Z.of_nat k)) (seq 0 n))).
  { rewrite <- seq_shift. clear. induction (seq 0 n) as [|a l IH]; [reflexivity|].
    cbn [map filter]. replace (Z.testbit v (Z.of_nat (S a))) with (Z.testbit (v / 2) (Z.of_nat a)).
    - destruct (Z.testbit (v / 2) (Z.of_nat a)); cbn [length]; congruence.
    - change 2 with (2 ^ 1). rewrite Z.div_pow2_bits by lia. f_equal. lia. }
  change (Z.of_nat 0) with 0. rewrite Z.bit0_odd, Zmod_odd. destruct (Z.odd v); cbn [length]; lia.
Qed.

Theorem C12_popcount : forall v, 0 <= v < 2 ^ 32 -> number_of_set_bits v = bits_set 32 v.
Proof. intros v Hv. rewrite number_of_set_bits_spec by auto. apply bits_set_popcount. Qed.

(** larger numbers, as used for 64 bit cluster shapes, are not counted correctly *)
Theorem C12_above_32_bit_refuted : exists v, 0 <= v < 2 ^ 63 /\ number_of_set_bits v <> bits_set 64 v.
Proof. exists (2 ^ 32). split; [lia|]. vm_compute. discriminate. Qed.

Example C12_case : number_of_set_bits 0xFFFFFFFF = 32 /\ bits_set 32 0xFFFFFFFF = 32 /\
  number_of_set_bits 0x80010203 = 5.
Proof. vm_compute. auto. Qed.

Print Assumptions C10_interleave.
Print Assumptions C10_injective.
Print Assumptions C10_round_trip.
Print Assumptions C10_decode_encode.
Print Assumptions C10_decode_low_bits.
Print Assumptions C10_large_coordinate_refuted.
Print Assumptions C11_cluster_shape.
Print Assumptions C11_translation_invariant.
Print Assumptions C11_shape_determines_cluster.
Print Assumptions C49_array_of_shape.
Print Assumptions C49_shape_of_array.
Print Assumptions C12_popcount.
Print Assumptions C12_above_32_bit_refuted.
