(** C89: histograms of cluster sizes and shapes, errors of the cluster positions. *)
From Coq Require Import ZArith Reals List Bool Lia Lra.
From Verif Require Import EventArraysModel HistModel HistProofs HistProps SmcModel SmcProps BitsModel MortonProofs BitsProofs BitsProps ClusterHistModel.
Import ListNotations.
Local Open Scope Z_scope.

(** Specification: number of elements *)
Definition number {T} (q : T -> bool) (l : list T) : Z := Z.of_nat (length (filter q l)).
Lemma number_nil {T} (q : T -> bool) : number q [] = 0. Proof. reflexivity. Qed.
Lemma number_cons {T} (q : T -> bool) a l : number q (a :: l) = (if q a then 1 else 0) + number q l.
Proof. unfold number. cbn [filter]. destruct (q a); cbn [length]; lia. Qed.
Lemma number_app {T} (q : T -> bool) a b : number q (a ++ b) = number q a + number q b.
Proof. unfold number. rewrite filter_app, app_length. lia. Qed.
Lemma number_map {T U} (f : U -> T) (q : T -> bool) l : number q (map f l) = number (fun x => q (f x)) l.
Proof. induction l as [|a l IH]; [reflexivity|]. cbn [map]. rewrite !number_cons, IH. reflexivity. Qed.
Lemma number_ext {T} (q q' : T -> bool) l : (forall x, In x l -> q x = q' x) -> number q l = number q' l.
Proof. unfold number. intros H. rewrite (filter_ext_in _ _ _ H). auto. Qed.
Lemma number_chunks {T} (q : T -> bool) chunks : sum_over (number q) chunks = number q (concat chunks).
Proof. unfold sum_over. induction chunks as [|c cs IH]; [reflexivity|]. cbn [concat map fold_right]. rewrite number_app, <- IH. reflexivity. Qed.
Lemma number_le {T} (q : T -> bool) l : number q l <= Z.of_nat (length l).
Proof. induction l as [|a l IH]; [rewrite number_nil; simpl; lia|]. rewrite number_cons. cbn [length]. destruct (q a); lia. Qed.

(** ** cluster size *)
Lemma all_chunks_ok {T} (f : T -> outcome (list Z)) chunks : (forall c, In c chunks -> exists r, f c = Ok r) ->
  exists rs, all_chunks f chunks = Ok rs /\ Forall2 (fun c r => f c = Ok r) chunks rs.
Proof.
  induction chunks as [|c cs IH]; intros H; cbn [all_chunks]; [exists []; split; [reflexivity|constructor]|].
  destruct (H c (or_introl eq_refl)) as [r E]. rewrite E. destruct IH as (rs & -> & F); [intros; apply H; right; auto|].
  exists (r :: rs). split; [reflexivity|constructor; auto].
Qed.
Lemma fold_max_le l n : n <= fold_left Z.max l n /\ (forall x, In x l -> x <= fold_left Z.max l n) /\ (fold_left Z.max l n = n \/ In (fold_left Z.max l n) l).
Proof.
  revert n. induction l as [|a l IH]; intros n; cbn [fold_left In]; [split; [lia|]; split; [tauto|auto]|].
  destruct (IH (Z.max n a)) as (H1 & H2 & H3). split; [lia|]. split.
  - intros x [->|H]; [lia|auto].
  - destruct H3 as [E|H]; [|auto]. rewrite E. destruct (Z.max_spec n a) as [[_ ->]|[_ ->]]; auto.
Qed.
Lemma times1_number i l : times1 i l = number (fun v => i =? v) l.
Proof. reflexivity. Qed.
Lemma size_chunk chunk : chunk <> [] -> (forall c, In c chunk -> n_hits c < 2 ^ 31 - 1) -> Z.of_nat (length chunk) < 2 ^ 32 ->
  exists r, cluster_size_hist_func chunk = Ok r /\ (forall k, bin r k = number (fun c => n_hits c =? Z.of_nat k) chunk) /\
    (forall c, In c chunk -> n_hits c < Z.of_nat (length r)) /\ exists c, In c chunk /\ Z.of_nat (length r) = n_hits c + 1.
Proof.
  intros Ne Big Len. unfold cluster_size_hist_func. destruct chunk as [|c0 cs]; [congruence|]. cbn [map].
  set (l := n_hits c0 :: map n_hits cs). destruct (fold_max_le (map n_hits cs) (n_hits c0)) as (M1 & M2 & M3). set (m := fold_left Z.max (map n_hits cs) (n_hits c0)) in *.
  assert (P : forall c, 1 <= n_hits c) by (intros c; unfold n_hits; lia).
  assert (Hm : In m l) by (unfold l; destruct M3 as [->|H]; [left|right]; auto).
  assert (El : l = map n_hits (c0 :: cs)) by reflexivity. clearbody l. subst l.
  assert (Bm : 1 <= m < 2 ^ 31 - 1) by (apply in_map_iff in Hm; destruct Hm as (c & <- & Hc); split; [apply P|apply Big; auto]).
  assert (Le : forall c, In c (c0 :: cs) -> n_hits c <= m) by (intros c [->|H]; [exact M1|apply M2, in_map, H]).
  pose proof (C04_hist_1d (map n_hits (c0 :: cs)) (m + 1)) as H.
  assert (H1 : forall v, In v (map n_hits (c0 :: cs)) -> is_int32 v).
  { intros v Hv. apply in_map_iff in Hv. destruct Hv as (c & <- & Hc). specialize (P c). specialize (Big c Hc). unfold is_int32. lia. }
  specialize (H H1 ltac:(lia)). destruct (hist_1d_index _ _) as [r| | |]; try contradiction.
  - destruct H as (_ & L & N & _). exists r. split; [reflexivity|]. split; [|split].
    + intros k. unfold bin. destruct (Z_lt_le_dec (Z.of_nat k) (m + 1)) as [B|B].
      * specialize (N (Z.of_nat k) ltac:(lia)). rewrite Nat2Z.id in N. rewrite N, times1_number, number_map. apply number_ext. intros c _. apply Z.eqb_sym.
      * rewrite nth_overflow by lia. symmetry. rewrite (number_ext _ (fun _ => false)); [|intros c Hc; specialize (Le c Hc); apply Z.eqb_neq; lia].
        unfold number. clear. induction (c0 :: cs); auto.
    + intros c Hc. specialize (Le c Hc). lia.
    + apply in_map_iff in Hm. destruct Hm as (c & E & Hc). exists c. split; auto. lia.
  - exfalso. destruct H as [(v & Hv & B)|(i & _ & B)].
    + apply in_map_iff in Hv. destruct Hv as (c & <- & Hc). specialize (P c). specialize (Le c Hc). lia.
    + rewrite times1_number in B. pose proof (number_le (fun v => i =? v) (map n_hits (c0 :: cs))) as B'. rewrite map_length in B'. lia.
Qed.
(** Bin k of the histogram of the cluster size is the number of clusters with k hits, for all chunks; it ends at the largest cluster. *)
Theorem C89_size chunks : (forall c, In c chunks -> c <> [] /\ Z.of_nat (length c) < 2 ^ 32) -> (forall c, In c (concat chunks) -> n_hits c < 2 ^ 31 - 1) ->
  exists h, hist_cluster_size chunks = Ok h /\ (forall k, bin h k = number (fun c => n_hits c =? Z.of_nat k) (concat chunks)) /\
  (forall c, In c (concat chunks) -> n_hits c < Z.of_nat (length h)) /\ (chunks <> [] -> exists c, In c (concat chunks) /\ Z.of_nat (length h) = n_hits c + 1).
Proof.
  intros Hc Big. unfold hist_cluster_size.
  assert (G : forall c, In c chunks -> exists r, cluster_size_hist_func c = Ok r /\ (forall k, bin r k = number (fun c => n_hits c =? Z.of_nat k) c) /\
    (forall x, In x c -> n_hits x < Z.of_nat (length r)) /\ exists x, In x c /\ Z.of_nat (length r) = n_hits x + 1).
  { intros c I. destruct (Hc c I) as [N L]. apply size_chunk; auto. intros x Hx. apply Big. apply in_concat. eauto. }
  destruct (all_chunks_ok cluster_size_hist_func chunks) as (rs & -> & F); [intros c I; destruct (G c I) as (r & E & _); eauto|].
  exists (combine_hists rs). split; [reflexivity|]. destruct (C18_histogram_sum rs) as (S1 & S2 & S3).
  assert (F' : forall r, In r rs -> exists c, In c chunks /\ cluster_size_hist_func c = Ok r).
  { clear -F. induction F as [|c r l m E F IH]; intros x; cbn [In]; [tauto|]. intros [<-|H]; [exists c; auto|]. destruct (IH x H) as (c' & ? & ?). exists c'. auto. }
  assert (F'' : forall c, In c chunks -> exists r, In r rs /\ cluster_size_hist_func c = Ok r).
  { clear -F. induction F as [|c r l m E F IH]; intros x; cbn [In]; [tauto|]. intros [<-|H]; [exists r; auto|]. destruct (IH x H) as (c' & ? & ?). exists c'. auto. }
  split; [|split].
  - intros k. rewrite S1, <- number_chunks. clear -F G. unfold sum_over. induction F as [|c r l m E F IH]; [reflexivity|]. cbn [map fold_right]. rewrite IH by (intros c' H; apply G; right; auto).
    f_equal. destruct (G c (or_introl eq_refl)) as (r' & E' & N & _). rewrite E in E'. injection E' as <-. apply N.
  - intros x Hx. apply in_concat in Hx. destruct Hx as (c & I & Hx). destruct (F'' c I) as (r & Ir & E). destruct (G c I) as (r' & E' & _ & N & _). rewrite E in E'. injection E' as <-. specialize (S2 r Ir). specialize (N x Hx). lia.
  - intros Ne. destruct S3 as (r & Ir & L). { intros ->. inversion F; subst; congruence. } destruct (F' r Ir) as (c & I & E). destruct (G c I) as (r' & E' & _ & _ & x & Hx & Lx). rewrite E in E'. injection E' as <-.
    exists x. split; [apply in_concat; eauto|]. lia.
Qed.
(** ... an empty chunk is an error. *)
Theorem C89_empty_chunk chunks1 chunks2 : (forall c, In c chunks1 -> c <> [] /\ Z.of_nat (length c) < 2 ^ 32) -> (forall c, In c (concat chunks1) -> n_hits c < 2 ^ 31 - 1) ->
  hist_cluster_size (chunks1 ++ [] :: chunks2) = Raised.
Proof.
  intros Hc Big. unfold hist_cluster_size. enough (E : all_chunks cluster_size_hist_func (chunks1 ++ [] :: chunks2) = Raised) by (rewrite E; auto).
  induction chunks1 as [|c cs IH]; cbn [app all_chunks]; [reflexivity|]. destruct (Hc c (or_introl eq_refl)) as [N L].
  destruct (size_chunk c N) as (r & -> & _); [|exact L|]; [intros x Hx; apply Big; cbn [concat]; apply in_or_app; auto|].
  rewrite IH; [reflexivity| |]; [intros d Hd; apply Hc; right; auto|intros x Hx; apply Big; cbn [concat]; apply in_or_app; auto].
Qed.

(** ** cluster shape *)
Lemma arange_bins s n a i : nth i (np_histogram (map Z.of_nat (seq s n)) a) 0 =
  if (S i <? n)%nat then (if (S (S i) =? n)%nat then number (fun v => (v =? Z.of_nat (s + i)) || (v =? Z.of_nat (s + i) + 1)) a else number (fun v => v =? Z.of_nat (s + i)) a) else 0.
Proof.
  revert s i. induction n as [|n IH]; intros s i; [destruct i; reflexivity|]. cbn [seq map].
  destruct n as [|n]; [destruct i; reflexivity|]. cbn [seq map] in IH |- *. 
  change (nth i (number (fun v => (Z.of_nat s <=? v) && match map Z.of_nat (seq (S (S s)) n) with [] => v <=? Z.of_nat (S s) | _ => v <? Z.of_nat (S s) end) a :: np_histogram (Z.of_nat (S s) :: map Z.of_nat (seq (S (S s)) n)) a) 0 =
    if (S i <? S (S n))%nat then (if (S (S i) =? S (S n))%nat then number (fun v => (v =? Z.of_nat (s + i)) || (v =? Z.of_nat (s + i) + 1)) a else number (fun v => v =? Z.of_nat (s + i)) a) else 0).
  destruct i as [|i]; cbn [nth].
  - replace (s + 0)%nat with s by lia. destruct n as [|n]; cbn [seq map].
    + apply number_ext. intros v _. destruct (Z.leb_spec (Z.of_nat s) v), (Z.leb_spec v (Z.of_nat (S s))), (Z.eqb_spec v (Z.of_nat s)), (Z.eqb_spec v (Z.of_nat s + 1)); simpl; lia.
    + change ((1 <? S (S (S n)))%nat) with true. change ((2 =? S (S (S n)))%nat) with false. cbv iota. apply number_ext. intros v _. destruct (Z.leb_spec (Z.of_nat s) v), (Z.ltb_spec v (Z.of_nat (S s))), (Z.eqb_spec v (Z.of_nat s)); simpl; lia.
  - rewrite IH. replace (S s + i)%nat with (s + S i)%nat by lia. reflexivity.
Qed.
Lemma shape_bin chunks k : bin (hist_cluster_shape chunks) k =
  if Z.of_nat k <? 65535 then (if Z.of_nat k =? 65534 then number (fun c => (cluster_shape c =? 65534) || (cluster_shape c =? 65535)) (concat chunks) else number (fun c => cluster_shape c =? Z.of_nat k) (concat chunks)) else 0.
Proof.
  unfold hist_cluster_shape. destruct (C18_histogram_sum (map cluster_shape_hist_func chunks)) as (-> & _).
  assert (E : forall c, bin (cluster_shape_hist_func c) k = if Z.of_nat k <? 65535 then (if Z.of_nat k =? 65534 then number (fun c => (cluster_shape c =? 65534) || (cluster_shape c =? 65535)) c else number (fun c => cluster_shape c =? Z.of_nat k) c) else 0).
  { intros c. unfold bin, cluster_shape_hist_func, arange. rewrite arange_bins. generalize (Z2Nat.id (2 ^ 16) ltac:(lia)). generalize (Z.to_nat (2 ^ 16)). change (2 ^ 16) with 65536. intros n En.
    rewrite !number_map. cbn [Nat.add]. destruct (Nat.ltb_spec (S k) n), (Z.ltb_spec (Z.of_nat k) 65535); try lia.
    destruct (Nat.eqb_spec (S (S k)) n), (Z.eqb_spec (Z.of_nat k) 65534); try lia.
    apply number_ext. intros x _. rewrite e0. reflexivity. }
  unfold sum_over. rewrite map_map. rewrite (map_ext _ _ E). clear E. destruct (_ <? _); [destruct (_ =? _)|]; try (rewrite <- number_chunks; reflexivity).
  induction chunks; auto.
Qed.
(** Every bin but the last is the number of clusters of a shape. *)
Theorem C89_shape chunks k : (Z.of_nat k < 65534) -> bin (hist_cluster_shape chunks) k = number (fun c => cluster_shape c =? Z.of_nat k) (concat chunks).
Proof. intros H. rewrite shape_bin. destruct (Z.ltb_spec (Z.of_nat k) 65535), (Z.eqb_spec (Z.of_nat k) 65534); lia. Qed.
Theorem C89_last_shape chunks k : Z.of_nat k = 65534 -> bin (hist_cluster_shape chunks) k = number (fun c => (cluster_shape c =? 65534) || (cluster_shape c =? 65535)) (concat chunks).
Proof. intros H. rewrite shape_bin, H. reflexivity. Qed.

Definition hits_of (c : pixels) : list (Z * Z) := fst c :: snd c.
(** Specification: two clusters have the same pattern of hit pixels *)
Definition same_pattern (c d : pixels) : Prop := exists dc dr, translated dc dr (hits_of c) (hits_of d).
(** the hits are in w x w pixels *)
Definition within (w : Z) (c : pixels) : Prop := exists c0 r0, forall h, In h (hits_of c) -> c0 <= fst h < c0 + w /\ r0 <= snd h < r0 + w.
Lemma zorder_16 x y : 0 <= x < 8 -> 0 <= y < 8 -> (zorder x y < 16 <-> x < 4 /\ y < 4).
Proof.
  intros Hx Hy. assert (H : forallb (fun p => Bool.eqb (zorder (fst p) (snd p) <? 16) ((fst p <? 4) && (snd p <? 4))) indices8x8 = true) by (vm_compute; reflexivity).
  rewrite forallb_forall in H. specialize (H (x, y) ltac:(apply indices_in; auto)). cbn [fst snd] in H. apply eqb_prop in H.
  destruct (Z.ltb_spec (zorder x y) 16), (Z.ltb_spec x 4), (Z.ltb_spec y 4); simpl in H; try discriminate; lia.
Qed.
Lemma zorder_onto k : 0 <= k < 64 -> exists x y, 0 <= x < 8 /\ 0 <= y < 8 /\ zorder x y = k.
Proof.
  intros Hk. assert (H : forallb (fun k => existsb (fun p => zorder (fst p) (snd p) =? k) indices8x8) (map Z.of_nat (seq 0 64)) = true) by (vm_compute; reflexivity).
  rewrite forallb_forall in H. specialize (H k). rewrite existsb_exists in H. destruct H as ((x & y) & I & E).
  - apply in_map_iff. exists (Z.to_nat k). split; [lia|]. apply in_seq. lia.
  - apply indices_in in I. apply Z.eqb_eq in E. exists x, y. cbn [fst snd] in *. tauto.
Qed.
Lemma shape_range c : (1 <= cluster_shape c < 65536 <-> within 4 c) /\ (cluster_shape c = -1 \/ 0 < cluster_shape c).
Proof.
  destruct c as [f o]. unfold cluster_shape, within, hits_of. cbn [fst snd]. destruct (end_of_cluster f o) as [[s ec] er] eqn:E. cbn [fst].
  destruct (min_exists (map fst (f :: o)) ltac:(discriminate)) as [c0 Hc0]. destruct (max_exists (map fst (f :: o)) ltac:(discriminate)) as [c1 Hc1].
  destruct (min_exists (map snd (f :: o)) ltac:(discriminate)) as [r0 Hr0]. destruct (max_exists (map snd (f :: o)) ltac:(discriminate)) as [r1 Hr1].
  destruct (C11_cluster_shape _ _ _ _ _ _ _ _ _ Hc0 Hc1 Hr0 Hr1 E) as (_ & _ & A & B).
  destruct Hc0 as [Ic0 Mc0], Hc1 as [Ic1 Mc1], Hr0 as [Ir0 Mr0], Hr1 as [Ir1 Mr1].
  assert (W : (exists a b, forall h, In h (f :: o) -> a <= fst h < a + 4 /\ b <= snd h < b + 4) <-> c1 - c0 < 4 /\ r1 - r0 < 4).
  { split.
    - intros (a & b & H). apply in_map_iff in Ic0, Ic1, Ir0, Ir1. destruct Ic0 as (h0 & <- & I0), Ic1 as (h1 & <- & I1), Ir0 as (h2 & <- & I2), Ir1 as (h3 & <- & I3).
      pose proof (H _ I0). pose proof (H _ I1). pose proof (H _ I2). pose proof (H _ I3). lia.
    - intros [H1 H2]. exists c0, r0. intros h Hh. pose proof (Mc0 _ (in_map fst _ _ Hh)). pose proof (Mc1 _ (in_map fst _ _ Hh)). pose proof (Mr0 _ (in_map snd _ _ Hh)). pose proof (Mr1 _ (in_map snd _ _ Hh)). lia. }
  rewrite W. clear W E.
  assert (D : (c1 - c0 < 8 /\ r1 - r0 < 8 /\ ~ In (c0 + 7, r0 + 7) (f :: o)) \/ (8 <= c1 - c0 \/ 8 <= r1 - r0 \/ In (c0 + 7, r0 + 7) (f :: o))).
  { destruct (Z_lt_le_dec (c1 - c0) 8), (Z_lt_le_dec (r1 - r0) 8); auto. destruct (in_dec (fun a b : Z * Z => ltac:(decide equality; apply Z.eq_dec)) (c0 + 7, r0 + 7) (f :: o)); auto. }
  destruct D as [D|D].
  - destruct (A D) as [Hs Bit]. split; [|right; lia]. split.
    + intros [_ H]. assert (Z0 : forall dx dy, 0 <= dx < 8 -> 0 <= dy < 8 -> In (c0 + dx, r0 + dy) (f :: o) -> dx < 4 /\ dy < 4).
      { intros dx dy Hx Hy I. apply zorder_16; auto. apply Bit in I; auto. destruct (Z_lt_le_dec (zorder dx dy) 16) as [|G]; auto. rewrite (testbit_above s 16) in I; [discriminate|lia|lia]. }
      split.
      * apply in_map_iff in Ic1. destruct Ic1 as ((a & b) & Ea & I). cbn [fst] in Ea. subst a. pose proof (Mr0 _ (in_map snd _ _ I)). pose proof (Mr1 _ (in_map snd _ _ I)). cbn [snd] in *. pose proof (Mc0 _ (in_map fst _ _ I)). cbn [fst] in *.
        apply (Z0 (c1 - c0) (b - r0)); [lia|lia|]. replace (c0 + (c1 - c0)) with c1 by lia. replace (r0 + (b - r0)) with b by lia. exact I.
      * apply in_map_iff in Ir1. destruct Ir1 as ((a & b) & Ea & I). cbn [snd] in Ea. subst b. pose proof (Mc0 _ (in_map fst _ _ I)). pose proof (Mc1 _ (in_map fst _ _ I)). cbn [fst] in *. pose proof (Mr0 _ (in_map snd _ _ I)). cbn [snd] in *.
        apply (Z0 (a - c0) (r1 - r0)); [lia|lia|]. replace (c0 + (a - c0)) with a by lia. replace (r0 + (r1 - r0)) with r1 by lia. exact I.
    + intros [H1 H2]. split; [lia|]. apply (range_of_bits 16 s); [lia|lia|]. intros k Hk. destruct (Z_lt_le_dec k 64) as [K|K]; [|apply (testbit_above s 63); lia].
      destruct (zorder_onto k ltac:(lia)) as (x & y & Hx & Hy & <-). apply not_true_is_false. intros T. apply Bit in T; auto.
      pose proof (Mc1 _ (in_map fst _ _ T)). pose proof (Mr1 _ (in_map snd _ _ T)). cbn [fst snd] in *. assert (zorder x y < 16) by (apply zorder_16; auto; lia). lia.
  - rewrite (B D). split; [|auto]. split; [lia|]. intros [H1 H2]. destruct D as [?|[?|D]]; [lia|lia|]. pose proof (Mc1 _ (in_map fst _ _ D)). cbn [fst] in *. lia.
Qed.
(** Clusters of a shape: exactly those with the same pattern of hit pixels, for all patterns in 4 x 4 pixels except the full square and the one without the lower left pixel. *)
Definition square : pixels := ((0, 0), [(0, 1); (0, 2); (0, 3); (1, 0); (1, 1); (1, 2); (1, 3); (2, 0); (2, 1); (2, 2); (2, 3); (3, 0); (3, 1); (3, 2); (3, 3)]).
Definition notched_square : pixels := ((0, 1), [(0, 2); (0, 3); (1, 0); (1, 1); (1, 2); (1, 3); (2, 0); (2, 1); (2, 2); (2, 3); (3, 0); (3, 1); (3, 2); (3, 3)]).
Theorem C89_pattern chunks c same : (forall d, same d = true <-> same_pattern c d) -> within 4 c -> ~ same_pattern c square -> ~ same_pattern c notched_square ->
  exists k, bin (hist_cluster_shape chunks) k = number same (concat chunks) /\ (forall d, within 4 d -> ~ same_pattern c d -> cluster_shape d <> Z.of_nat k).
Proof.
  intros S W N1 N2. destruct (shape_range c) as [[_ R] _]. specialize (R W). exists (Z.to_nat (cluster_shape c)).
  assert (P : forall d, cluster_shape d = cluster_shape c <-> same_pattern c d).
  { intros d. destruct c as [f1 o1], d as [f2 o2]. unfold cluster_shape, same_pattern, hits_of in *. cbn [fst snd] in *. split.
    - intros E. destruct (end_of_cluster f1 o1) as [[s1 ec1] er1] eqn:E1. destruct (end_of_cluster f2 o2) as [[s2 ec2] er2] eqn:E2. cbn [fst] in *. subst s2.
      apply (C11_shape_determines_cluster _ _ _ _ _ _ _ _ _ E1 E2). lia.
    - intros (dc & dr & T). rewrite (C11_translation_invariant _ _ _ _ _ _ T). reflexivity. }
  assert (E1 : cluster_shape square = 65535) by (vm_compute; reflexivity). assert (E2 : cluster_shape notched_square = 65534) by (vm_compute; reflexivity).
  assert (cluster_shape c <> 65535) by (intros E; apply N1, P; congruence). assert (cluster_shape c <> 65534) by (intros E; apply N2, P; congruence).
  rewrite Z2Nat.id by lia. split; [|intros d _ D E; apply D, P, E].
  rewrite C89_shape by lia. apply number_ext. intros d _. rewrite Z2Nat.id by lia. destruct (Z.eqb_spec (cluster_shape d) (cluster_shape c)) as [E|E].
  - symmetry. apply S, P, E.
  - destruct (same d) eqn:X; [|reflexivity]. apply S, P in X. contradiction.
Qed.
Lemma histogram_length chunks : chunks <> [] -> Z.of_nat (length (hist_cluster_shape chunks)) = 65535.
Proof.
  intros N. destruct (C18_histogram_sum (map cluster_shape_hist_func chunks)) as (_ & _ & H). destruct H as (r & I & L); [destruct chunks; [congruence|discriminate]|].
  apply in_map_iff in I. destruct I as (c & <- & _). unfold hist_cluster_shape. rewrite L. unfold cluster_shape_hist_func, arange.
  assert (Ln : forall s n a, length (np_histogram (map Z.of_nat (seq s n)) a) = pred n).
  { clear. intros s n a. revert s. induction n as [|n IH]; intros s; [reflexivity|]. cbn [seq map]. destruct n as [|n]; [reflexivity|]. specialize (IH (S s)). cbn [seq map] in *. 
    change (S (length (np_histogram (Z.of_nat (S s) :: map Z.of_nat (seq (S (S s)) n)) a)) = S n). rewrite IH. reflexivity. }
  rewrite Ln, Nat2Z.inj_pred_max, Z2Nat.id; [reflexivity|lia].
Qed.
(** A cluster is counted if and only if its hits are in 4 x 4 pixels. *)
Theorem C89_counted chunks inside : (forall c, inside c = true <-> within 4 c) -> HistProps.total (hist_cluster_shape chunks) = number inside (concat chunks).
Proof.
  intros HI. assert (T : forall l n, length l = n -> HistProps.total l = sum_over (fun k => bin l k) (seq 0 n)).
  { clear. unfold HistProps.total, sum_over. intros l n <-. induction l as [|a l IH]; [reflexivity|]. cbn [length seq map fold_right]. rewrite <- seq_shift, map_map, IH. reflexivity. }
  rewrite (T _ _ eq_refl). clear T. set (n := length (hist_cluster_shape chunks)).
  assert (En : chunks <> [] -> Z.of_nat n = 65535) by (intros H; apply histogram_length; auto).
  destruct chunks as [|c0 cs]; [reflexivity|]. specialize (En ltac:(discriminate)). clearbody n. set (chunks := c0 :: cs) in *. clearbody chunks.
  assert (G : forall m, Z.of_nat m <= 65534 -> sum_over (fun k => bin (hist_cluster_shape chunks) k) (seq 0 m) = number (fun c => (0 <=? cluster_shape c) && (cluster_shape c <? Z.of_nat m)) (concat chunks)).
  { assert (SO : forall (f : nat -> Z) m, sum_over f (seq 0 (S m)) = sum_over f (seq 0 m) + f m).
    { intros f m. unfold sum_over. rewrite seq_S, map_app. generalize (map f (seq 0 m)). clear. intros l. cbn [Nat.add map]. induction l as [|x l IH]; cbn [app fold_right] in *; lia. }
    assert (SN : forall q1 q2 q3 : pixels -> bool, (forall x, (if q1 x then 1 else 0) + (if q2 x then 1 else 0) = if q3 x then 1 else 0) -> forall l, number q1 l + number q2 l = number q3 l).
    { clear. intros q1 q2 q3 H l. induction l as [|a l IH]; [reflexivity|]. rewrite !number_cons. specialize (H a). lia. }
    induction m as [|m IH]; intros Hm.
    - unfold sum_over. cbn [seq map fold_right]. rewrite (number_ext _ (fun _ => false)); [|intros c _; destruct (Z.leb_spec 0 (cluster_shape c)), (Z.ltb_spec (cluster_shape c) (Z.of_nat 0)); simpl; auto; lia]. unfold number. clear. induction (concat chunks); auto.
    - rewrite SO, IH, C89_shape by lia. apply SN. intros x. destruct (Z.leb_spec 0 (cluster_shape x)), (Z.ltb_spec (cluster_shape x) (Z.of_nat m)), (Z.eqb_spec (cluster_shape x) (Z.of_nat m)), (Z.ltb_spec (cluster_shape x) (Z.of_nat (S m))); simpl; lia. }
  destruct n as [|n]; [lia|]. unfold sum_over. rewrite seq_S, map_app. cbn [Nat.add map].
  assert (FA : forall l x, fold_right Z.add 0 (l ++ [x]) = fold_right Z.add 0 l + x) by (clear; induction l as [|a l IH]; intros x; cbn [app fold_right] in *; [lia|rewrite IH; lia]).
  rewrite FA. fold (sum_over (fun k => bin (hist_cluster_shape chunks) k) (seq 0 n)). rewrite G by lia. rewrite C89_last_shape by lia.
  clear G FA. induction (concat chunks) as [|x l IH]; [reflexivity|]. rewrite !number_cons. rewrite <- IH.
  assert (HX := HI x). rewrite <- (proj1 (shape_range x)) in HX. pose proof (proj2 (shape_range x)).
  destruct (inside x); [assert (1 <= cluster_shape x < 65536) by (apply HX; reflexivity)|assert (~ 1 <= cluster_shape x < 65536) by (intros Q; apply HX in Q; discriminate)]; clear HX IH HI; destruct (Z.leb_spec 0 (cluster_shape x)), (Z.ltb_spec (cluster_shape x) (Z.of_nat n)), (Z.eqb_spec (cluster_shape x) 65534), (Z.eqb_spec (cluster_shape x) 65535); cbn [andb orb]; try lia.
Qed.
(** The last bin counts two patterns. *)
Theorem C89_square_refuted : exists chunks k, concat chunks = [square; notched_square] /\ ~ same_pattern square notched_square /\ within 4 square /\ within 4 notched_square /\
  bin (hist_cluster_shape chunks) k = 2.
Proof.
  assert (Ed : cluster_shape square = 65535) by (vm_compute; reflexivity). assert (Ec : cluster_shape notched_square = 65534) by (vm_compute; reflexivity).
  exists [[square; notched_square]], (Z.to_nat 65534). split; [reflexivity|]. split; [|split; [apply shape_range; lia|split; [apply shape_range; lia|]]].
  - intros (dc & dr & T). assert (E := C11_translation_invariant _ _ _ _ _ _ T). unfold cluster_shape in Ec, Ed. congruence.
  - rewrite C89_last_shape by (rewrite Z2Nat.id; lia). cbn [concat app]. rewrite !number_cons, Ec, Ed. reflexivity.
Qed.
(** ** errors: the size of the cluster does not matter *)
Local Open Scope R_scope.
Theorem C89_index_error s : s <> 0 -> index_error s = / sqrt 12 /\ index_error s * index_error s = / 12.
Proof.
  intros H. assert (S : 0 < sqrt 12) by (apply sqrt_lt_R0; lra). assert (Q : sqrt 12 * sqrt 12 = 12) by (apply sqrt_sqrt; lra).
  assert (E : index_error s = / sqrt 12) by (unfold index_error; field; split; lra). split; [exact E|]. rewrite E, <- Rinv_mult, Q. reflexivity.
Qed.
(** the two errors describe the same length *)
Theorem C89_errors_consistent s : s <> 0 -> index_error s * s = position_error s /\ position_error s * position_error s = s * s / 12.
Proof.
  intros H. assert (S : 0 < sqrt 12) by (apply sqrt_lt_R0; lra). assert (Q : sqrt 12 * sqrt 12 = 12) by (apply sqrt_sqrt; lra).
  unfold index_error, position_error. split; [field; split; lra|]. transitivity (s * s / (sqrt 12 * sqrt 12)); [field; lra|rewrite Q; reflexivity].
Qed.
Local Open Scope Z_scope.
(** Concrete clusters: single pixel, two pixels in a column and in a row, in two chunks. *)
Example C89_example : let chunks := [[((5, 9), []); ((100, 7), [(101, 7)])]; [((3, 3), []); ((3, 3), [(3, 4)]); ((3, 3), [(3, 4); (13, 4)])]] : list (list pixels) in
  hist_cluster_size chunks = Ok [0; 2; 2; 1] /\ map cluster_shape (concat chunks) = [1; 3; 1; 5; -1] /\ bin (hist_cluster_shape chunks) 1 = 2 /\ within 4 ((5, 9), []) /\ ~ within 4 ((3, 3), [(3, 4); (13, 4)]).
Proof.
  split; [vm_compute; reflexivity|]. split; [vm_compute; reflexivity|]. split; [rewrite C89_shape by lia; vm_compute; reflexivity|].
  split; [apply shape_range; vm_compute; intuition congruence|]. intros H. apply shape_range in H. revert H. vm_compute. intuition congruence.
Qed.

Print Assumptions C89_size.
Print Assumptions C89_empty_chunk.
Print Assumptions C89_shape.
Print Assumptions C89_last_shape.
Print Assumptions C89_pattern.
Print Assumptions C89_counted.
Print Assumptions C89_square_refuted.
Print Assumptions C89_index_error.
Print Assumptions C89_errors_consistent.
