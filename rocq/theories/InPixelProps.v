(** In-pixel maps of the efficiency analysis (C104). *)
From Coq Require Import List Arith ZArith Lia Lra Reals Bool Permutation.
From Flocq Require Import Core.
From Verif Require Import GeometryModel GeometryProofs CorrelateModel CorrelateBinsProps PrealignModel RunningMeanModel EfficiencyModel FloatModel FloatProps RunningMeanProps HoughProps CoordinatesProps ResidualsProps TrackAngleProps BitsModel InPixelModel.
Import ListNotations.
Local Open Scope R_scope.

(** *** Axes *)
(** bins of the width [res], at least one *)
Definition good_axis (res : R) (a : axis) : Prop := (1 <= a_bins a)%nat /\ a_size a = INR (a_bins a) * res.
Lemma ceil_pos x : 0 < x -> (1 <= ceil x)%Z.
Proof. intros H. destruct (ceil_spec x) as [C _]. assert (0 < ceil x)%Z; [|lia]. apply lt_IZR. lra. Qed.
Lemma ceil_least x z : x <= IZR z -> (ceil x <= z)%Z.
Proof. intros H. destruct (ceil_spec x) as [_ C]. assert (ceil x < z + 1)%Z; [|lia]. apply lt_IZR. rewrite plus_IZR. lra. Qed.
Lemma axis_of_spec size res : 0 < size -> 0 < res -> good_axis res (axis_of size res) /\ size <= a_size (axis_of size res) < size + res /\ Z.of_nat (a_bins (axis_of size res)) = ceil (size / res).
Proof.
  intros Hs Hr. assert (Q : 0 < size / res) by (apply Rdiv_lt_0_compat; lra). pose proof (ceil_pos _ Q) as C1. destruct (ceil_spec (size / res)) as [C2 C3]. unfold axis_of, good_axis. cbn [a_size a_bins].
  replace (IZR (ceil (size / res)) * res / res) with (IZR (ceil (size / res))) by (field; lra).
  rewrite (Int_part_between _ (ceil (size / res))) by lra. rewrite INR_IZR_INZ, Z2Nat.id by lia.
  assert (E : size = size / res * res) by (field; lra). split; [split; [lia|reflexivity]|]. split; [|reflexivity].
  split; [rewrite E at 1; apply Rmult_le_compat_r; lra|]. rewrite E at 2. replace (size / res * res + res) with ((size / res + 1) * res) by ring. apply Rmult_lt_compat_r; lra.
Qed.
Lemma good_size res a : 0 < res -> good_axis res a -> 0 < a_size a.
Proof. intros Hr [B S]. rewrite S. apply Rmult_lt_0_compat; [|exact Hr]. apply lt_0_INR. lia. Qed.
(** the bins of a map: half open intervals of the width [res], the last one with the upper edge *)
Lemma axis_bin res a i x : 0 < res -> good_axis res a -> in_bin (axis_edges a) i x = true <->
  (i < a_bins a)%nat /\ INR i * res <= x /\ (x < INR (S i) * res \/ S i = a_bins a /\ x = a_size a).
Proof.
  intros Hr [B Sz]. rewrite in_bin_spec. unfold axis_edges. rewrite linspace_length.
  assert (W : forall k, (k <= a_bins a)%nat -> nth k (linspace 0 (a_size a) (a_bins a + 1)) 0 = INR k * res).
  { intros k Hk. rewrite Nat.add_1_r, linspace_nth by lia. rewrite Sz. field. apply not_0_INR. lia. }
  split.
  - intros (H1 & H2 & H3). rewrite W in H2 by lia. rewrite (W (S i)) in H3 by lia. split; [lia|]. split; [exact H2|]. destruct H3 as [H3|[H3 H4]]; [left; exact H3|]. right. assert (E : S i = a_bins a) by lia. split; [exact E|]. rewrite H4, Sz, E. reflexivity.
  - intros (H1 & H2 & H3). rewrite W by lia. rewrite (W (S i)) by lia. split; [lia|]. split; [exact H2|]. destruct H3 as [H3|[H3 H4]]; [left; exact H3|]. right. split; [lia|]. rewrite H4, Sz, H3. reflexivity.
Qed.
Lemma np_max_spec l x : In x l -> x <= np_max l.
Proof.
  assert (G : forall l a, a <= fold_left Rmax l a /\ forall x, In x l -> x <= fold_left Rmax l a).
  { induction l0 as [|y l0 IH]; intros a; cbn; [split; [lra|intros ? []]|]. destruct (IH (Rmax a y)) as [I1 I2]. split; [pose proof (Rmax_l a y); lra|]. intros z [<-|Hz]; [pose proof (Rmax_r a y); lra|apply I2, Hz]. }
  destruct l as [|y l]; [intros []|]. cbn. destruct (G l y) as [G1 G2]. intros [<-|H]; [exact G1|apply G2, H].
Qed.
Lemma np_max_in l : l <> [] -> In (np_max l) l.
Proof.
  assert (G : forall l a, In (fold_left Rmax l a) (a :: l)).
  { induction l0 as [|y l0 IH]; intros a; cbn; [left; reflexivity|]. destruct (IH (Rmax a y)) as [E|E]; [|right; right; exact E]. rewrite <- E. unfold Rmax. destruct (Rle_dec a y); auto. }
  destruct l as [|y l]; [congruence|]. intros _. apply G.
Qed.
(** Growing an axis: the bins keep their width, no bin is lost, and all positions are inside. *)
Lemma grow_axis_spec pitch res a xs : 0 < pitch -> 0 < res -> good_axis res a -> let b := grow_axis pitch res a xs in
  good_axis res b /\ (a_bins a <= a_bins b)%nat /\ a_size a <= a_size b /\ forall x, In x xs -> x <= a_size b.
Proof.
  intros Hp Hr G. cbv zeta. unfold grow_axis. destruct (existsb _ xs) eqn:E.
  - apply existsb_exists in E. destruct E as (x & Ix & Lx). apply Rltb_true in Lx. pose proof (np_max_spec xs x Ix) as M. pose proof (good_size _ _ Hr G) as P.
    set (s := IZR (ceil (np_max xs / pitch)) * pitch). assert (Ms : np_max xs <= s). { unfold s. destruct (ceil_spec (np_max xs / pitch)) as [C _]. assert (Em : np_max xs = np_max xs / pitch * pitch) by (field; lra). rewrite Em at 1. apply Rmult_le_compat_r; lra. }
    destruct (axis_of_spec s res) as (A1 & A2 & _); [lra|exact Hr|]. split; [exact A1|]. assert (Sz : a_size a <= a_size (axis_of s res)) by lra. split; [|split; [exact Sz|]].
    + destruct A1 as [_ A1], G as [_ G]. rewrite A1, G in Sz. apply Rmult_le_reg_r in Sz; [|exact Hr]. apply INR_le, Sz.
    + intros y Iy. pose proof (np_max_spec xs y Iy). lra.
  - split; [exact G|]. split; [lia|]. split; [lra|]. intros x Ix. destruct (Rle_dec x (a_size a)) as [|N]; [assumption|]. exfalso. assert (X : existsb (fun x => Rltb (a_size a) x) xs = true); [|congruence].
    apply existsb_exists. exists x. split; [exact Ix|]. apply Rltb_true. lra.
Qed.

(** *** Maps *)
(** position [p] in the bin (i, j) of a grid with the widths [res], independent of the size of the map *)
Definition inside (res : R * R) (i j : nat) (p : R * R) : bool :=
  (Rleb (INR i * fst res) (fst p) && Rltb (fst p) (INR (S i) * fst res)) && (Rleb (INR j * snd res) (snd p) && Rltb (snd p) (INR (S j) * snd res)).
(** not on an edge between two bins *)
Definition off_edges (res x : R) : Prop := 0 <= x /\ forall k, (1 <= k)%nat -> x <> INR k * res.
Definition total2 (nx ny : nat) (h : nat -> nat -> nat) : nat := list_sum (map (fun i => list_sum (map (h i) (seq 0 ny))) (seq 0 nx)).

Lemma existsb_map {A B} (f : A -> B) (g : B -> bool) l : existsb g (map f l) = existsb (fun a => g (f a)) l.
Proof. induction l as [|a l IH]; cbn; [reflexivity|]. rewrite IH. reflexivity. Qed.
Lemma filter_none {A} (f : A -> bool) l : (forall a, In a l -> f a = false) -> filter f l = [].
Proof. induction l as [|a l IH]; intros H; [reflexivity|]. cbn. rewrite (H a (or_introl eq_refl)). apply IH. intros b Hb. apply H. right. exact Hb. Qed.
Lemma filter_filter {A} (f g : A -> bool) l : filter f (filter g l) = filter (fun a => g a && f a) l.
Proof. induction l as [|a l IH]; cbn; [reflexivity|]. destruct (g a); cbn; [destruct (f a); rewrite IH; reflexivity|exact IH]. Qed.
Lemma filter_map_length {A B} (f : A -> B) (g : B -> bool) l : length (filter g (map f l)) = length (filter (fun a => g (f a)) l).
Proof. induction l as [|a l IH]; cbn; [reflexivity|]. destruct (g (f a)); cbn; congruence. Qed.
Lemma filter_ext_in' {A} (f g : A -> bool) l : (forall a, In a l -> f a = g a) -> filter f l = filter g l.
Proof. induction l as [|a l IH]; intros H; [reflexivity|]. cbn. rewrite (H a (or_introl eq_refl)). rewrite IH; [reflexivity|]. intros b Hb. apply H. right. exact Hb. Qed.

Lemma bin_inside res a i x : 0 < res -> good_axis res a -> off_edges res x -> x <= a_size a -> (i < a_bins a)%nat ->
  in_bin (axis_edges a) i x = Rleb (INR i * res) x && Rltb x (INR (S i) * res).
Proof.
  intros Hr G [P O] L Hi. apply eq_true_iff_eq. rewrite (axis_bin res) by assumption. rewrite andb_true_iff, Rleb_true, Rltb_true. split; [|tauto].
  intros (_ & H1 & [H2|[_ H2]]); [tauto|]. exfalso. destruct G as [G1 G2]. apply (O (a_bins a) G1). lra.
Qed.
Lemma above_none res a i x : 0 < res -> good_axis res a -> off_edges res x -> x <= a_size a -> (a_bins a <= i)%nat -> Rleb (INR i * res) x = false.
Proof.
  intros Hr [G1 G2] [P O] L Hi. apply Rleb_false. destruct (Rlt_le_dec x (INR i * res)) as [|H]; [assumption|]. exfalso.
  assert (INR (a_bins a) * res <= INR i * res) by (apply Rmult_le_compat_r; [lra|apply le_INR, Hi]). apply (O (a_bins a) G1). lra.
Qed.
Lemma bin_above a i x : (a_bins a <= i)%nat -> in_bin (axis_edges a) i x = false.
Proof. intros H. destruct (in_bin _ i x) eqn:E; [|reflexivity]. apply in_bin_spec in E. unfold axis_edges in E. rewrite linspace_length in E. lia. Qed.

Section Maps.
  Variables (pitch res : R * R).
  Variables (cell : R * R -> R * R) (region valid : track -> bool) (shape : track -> Z) (shapes : list Z).
  Hypotheses (Px : 0 < fst pitch) (Py : 0 < snd pitch) (Rx : 0 < fst res) (Ry : 0 < snd res).
  Notation at_cell := (InPixelModel.at_cell cell).
  Notation resize := (InPixelModel.resize pitch res cell).
  Notation fill := (InPixelModel.fill cell region valid shape shapes).
  Notation in_pixel_chunks := (InPixelModel.in_pixel_chunks pitch res cell region valid shape shapes).
  Notation in_pixel_maps := (InPixelModel.in_pixel_maps pitch res cell region valid shape shapes).
  Notation first_maps := (InPixelModel.first_maps pitch res).

  Definition good_maps (m : maps) (done : list track) : Prop :=
    good_axis (fst res) (m_x m) /\ good_axis (snd res) (m_y m) /\ forall t, In t done -> fst (at_cell t) <= a_size (m_x m) /\ snd (at_cell t) <= a_size (m_y m).
  (** axes after resizing: grown in both directions, whether or not the maps are copied *)
  Lemma resize_axes m ts : m_x (resize m ts) = grow_axis (fst pitch) (fst res) (m_x m) (map (fun t => fst (at_cell t)) ts) /\
    m_y (resize m ts) = grow_axis (snd pitch) (snd res) (m_y m) (map (fun t => snd (at_cell t)) ts).
  Proof.
    unfold InPixelModel.resize. cbv zeta. destruct (existsb _ ts || existsb _ ts) eqn:E; cbn [m_x m_y]; [tauto|]. apply orb_false_iff in E. destruct E as [E1 E2].
    unfold grow_axis. rewrite !existsb_map, E1, E2. tauto.
  Qed.
  Lemma fill_axes m ts : m_x (fill m ts) = m_x m /\ m_y (fill m ts) = m_y m.
  Proof. unfold InPixelModel.fill. cbv zeta. destruct (existsb _ _); cbn; auto. Qed.
  Lemma resize_good m done ts : good_maps m done -> good_maps (resize m ts) (done ++ ts) /\ (a_bins (m_x m) <= a_bins (m_x (resize m ts)))%nat /\ (a_bins (m_y m) <= a_bins (m_y (resize m ts)))%nat.
  Proof.
    intros (G1 & G2 & G3). destruct (resize_axes m ts) as [E1 E2]. unfold good_maps. rewrite E1, E2.
    destruct (grow_axis_spec (fst pitch) (fst res) (m_x m) (map (fun t => fst (at_cell t)) ts)) as (A1 & A2 & A3 & A4); auto.
    destruct (grow_axis_spec (snd pitch) (snd res) (m_y m) (map (fun t => snd (at_cell t)) ts)) as (B1 & B2 & B3 & B4); auto.
    split; [|auto]. split; [exact A1|]. split; [exact B1|]. intros t It. apply in_app_or in It. destruct It as [It|It].
    - destruct (G3 t It). lra.
    - split; [apply A4; apply (in_map (fun t => fst (at_cell t))), It|apply B4; apply (in_map (fun t => snd (at_cell t))), It].
  Qed.
  Lemma first_good : good_maps first_maps [].
  Proof. split; [apply axis_of_spec; auto|]. split; [apply axis_of_spec; auto|]. intros t []. Qed.
  Lemma fill_good m done ts : good_maps m done -> good_maps (fill m ts) done.
  Proof. unfold good_maps. destruct (fill_axes m ts) as [-> ->]. tauto. Qed.

  (** entries of a map that counts the tracks with property [q] *)
  Definition counts (q : track -> bool) (done : list track) (i j : nat) : nat := length (filter (fun t => q t && inside res i j (at_cell t)) done).
  Definition off_track (t : track) : Prop := off_edges (fst res) (fst (at_cell t)) /\ off_edges (snd res) (snd (at_cell t)).
  Lemma counts_app q a b i j : counts q (a ++ b) i j = (counts q a i j + counts q b i j)%nat.
  Proof. unfold counts. rewrite filter_app, app_length. reflexivity. Qed.
  Lemma counts_outside q m done i j : good_maps m done -> (forall t, In t done -> off_track t) -> (a_bins (m_x m) <= i)%nat \/ (a_bins (m_y m) <= j)%nat -> counts q done i j = 0%nat.
  Proof.
    intros (G1 & G2 & G3) O H. unfold counts. rewrite filter_none; [reflexivity|]. intros t It. destruct (O t It) as [O1 O2], (G3 t It) as [L1 L2]. unfold inside. destruct H as [H|H].
    - rewrite (above_none (fst res) (m_x m) i) by assumption. apply andb_false_r.
    - rewrite (above_none (snd res) (m_y m) j) by assumption. rewrite andb_false_r. apply andb_false_r.
  Qed.
  Lemma enlarge_counts q m done i j h : good_maps m done -> (forall t, In t done -> off_track t) -> (forall i j, h i j = counts q done i j) -> enlarge (m_x m) (m_y m) h i j = counts q done i j.
  Proof.
    intros G O H. unfold enlarge. destruct (Nat.ltb_spec i (a_bins (m_x m))) as [Hi|Hi]; cbn [andb]; [destruct (Nat.ltb_spec j (a_bins (m_y m))) as [Hj|Hj]; [apply H|]|];
    symmetry; eapply counts_outside; eauto.
  Qed.
  Lemma count_bins_counts q m ts i j : good_maps m ts -> (forall t, In t ts -> off_track t) -> count_bins (m_x m) (m_y m) (map at_cell (filter q ts)) i j = counts q ts i j.
  Proof.
    intros G O. pose proof G as (G1 & G2 & G3). unfold count_bins, counts. rewrite filter_map_length, filter_filter. f_equal. apply filter_ext_in'. intros t It. destruct (q t); cbn [andb]; [|reflexivity].
    destruct (O t It) as [O1 O2], (G3 t It) as [L1 L2]. unfold inside.
    destruct (Nat.lt_ge_cases i (a_bins (m_x m))) as [Hi|Hi]; [rewrite (bin_inside (fst res)) by assumption|rewrite bin_above, (above_none (fst res) (m_x m) i) by assumption; reflexivity].
    destruct (Nat.lt_ge_cases j (a_bins (m_y m))) as [Hj|Hj]; [rewrite (bin_inside (snd res)) by assumption; reflexivity|rewrite bin_above, (above_none (snd res) (m_y m) j) by assumption; reflexivity].
  Qed.

  Definition right_counts (m : maps) (done : list track) : Prop :=
    good_maps m done /\ (forall i j, m_tracks m i j = counts region done i j) /\ (forall i j, m_with_hit m i j = counts (fun t => region t && valid t) done i j).
  Lemma step_counts m done ts : (forall t, In t (done ++ ts) -> off_track t) -> right_counts m done -> right_counts (fill (resize m ts) ts) (done ++ ts).
  Proof.
    intros O (G & T & W). destruct (resize_good m done ts G) as (G' & _ & _). split; [apply fill_good, G'|].
    assert (Od : forall t, In t done -> off_track t) by (intros; apply O, in_or_app; auto). assert (Ot : forall t, In t ts -> off_track t) by (intros; apply O, in_or_app; auto).
    assert (Gt : good_maps (resize m ts) ts) by (destruct G' as (g1 & g2 & g3); split; [exact g1|]; split; [exact g2|]; intros; apply g3, in_or_app; auto).
    assert (R1 : (forall i j, m_tracks (resize m ts) i j = counts region done i j) /\ (forall i j, m_with_hit (resize m ts) i j = counts (fun t => region t && valid t) done i j)).
    { unfold InPixelModel.resize. cbv zeta. destruct (existsb _ ts || existsb _ ts); [|tauto]. cbn [m_tracks m_with_hit]. split; intros i j; apply enlarge_counts; auto. }
    destruct R1 as [R1 R2]. unfold InPixelModel.fill. cbv zeta. destruct (existsb valid (filter region ts)) eqn:E; cbn [m_tracks m_with_hit]; split; intros i j; rewrite counts_app.
    - rewrite R1. f_equal. apply count_bins_counts; assumption.
    - rewrite R2, filter_filter. f_equal. apply count_bins_counts; assumption.
    - rewrite R1. f_equal. apply count_bins_counts; assumption.
    - rewrite R2. assert (Z : counts (fun t => region t && valid t) ts i j = 0%nat); [|lia]. unfold counts. rewrite filter_none; [reflexivity|]. intros t It.
      destruct (region t) eqn:Er; [|reflexivity]. destruct (valid t) eqn:Ev; [|reflexivity]. exfalso. assert (X : existsb valid (filter region ts) = true); [|congruence]. apply existsb_exists. exists t. rewrite filter_In. auto.
  Qed.
  (** The maps of tracks and of tracks with hit contain, for each bin, the number of tracks of the region (with valid hit) whose position in the cell is in the bin:
      all tracks of all chunks, also those from before the maps were enlarged. *)
  Theorem C104_counts chunks : (forall t, In t (concat chunks) -> off_track t) -> forall i j,
    m_tracks (in_pixel_maps chunks) i j = length (filter (fun t => region t && inside res i j (cell (intersection t))) (concat chunks)) /\
    m_with_hit (in_pixel_maps chunks) i j = length (filter (fun t => region t && valid t && inside res i j (cell (intersection t))) (concat chunks)).
  Proof.
    assert (H : forall chunks m done, (forall t, In t (done ++ concat chunks) -> off_track t) -> right_counts m done -> right_counts (in_pixel_chunks m chunks) (done ++ concat chunks)).
    { induction chunks0 as [|ts l IH]; intros m done O G; cbn [concat InPixelModel.in_pixel_chunks] in *; [rewrite app_nil_r; exact G|]. rewrite app_assoc in *. apply IH; [exact O|]. apply step_counts; [|exact G]. intros t It. apply O, in_or_app. auto. }
    intros O i j. destruct (H chunks first_maps []) as (_ & T & W); [exact O| |split; [apply T|apply W]].
    split; [apply first_good|]. split; reflexivity.
  Qed.
  (** The maps never lose a bin, and contain all tracks: every position is in the range of the final maps. *)
  Theorem C104_range chunks : let m := in_pixel_maps chunks in
    a_size (m_x m) = INR (a_bins (m_x m)) * fst res /\ a_size (m_y m) = INR (a_bins (m_y m)) * snd res /\ fst pitch <= a_size (m_x m) /\ snd pitch <= a_size (m_y m) /\
    forall t, In t (concat chunks) -> fst (cell (intersection t)) <= a_size (m_x m) /\ snd (cell (intersection t)) <= a_size (m_y m).
  Proof.
    assert (H : forall chunks m done, good_maps m done -> fst pitch <= a_size (m_x m) /\ snd pitch <= a_size (m_y m) -> good_maps (in_pixel_chunks m chunks) (done ++ concat chunks) /\ fst pitch <= a_size (m_x (in_pixel_chunks m chunks)) /\ snd pitch <= a_size (m_y (in_pixel_chunks m chunks))).
    { induction chunks0 as [|ts l IH]; intros m done G P; cbn [concat InPixelModel.in_pixel_chunks] in *; [rewrite app_nil_r; tauto|]. rewrite app_assoc. destruct (resize_good m done ts G) as (G' & B1 & B2). apply IH; [apply fill_good, G'|].
      destruct (fill_axes (resize m ts) ts) as [-> ->]. destruct G as ([_ g1] & [_ g2] & _), G' as ([_ g3] & [_ g4] & _). rewrite g3, g4. rewrite g1, g2 in P.
      split; [apply Rle_trans with (INR (a_bins (m_x m)) * fst res)|apply Rle_trans with (INR (a_bins (m_y m)) * snd res)]; try tauto; apply Rmult_le_compat_r; try lra; apply le_INR; assumption. }
    cbv zeta. destruct (H chunks first_maps [] first_good) as (([_ g1] & [_ g2] & g3) & P1 & P2).
    { cbn [m_x m_y InPixelModel.first_maps]. destruct (axis_of_spec (fst pitch) (fst res)) as (_ & A & _); auto. destruct (axis_of_spec (snd pitch) (snd res)) as (_ & B & _); auto. lra. }
    unfold InPixelModel.in_pixel_maps. repeat split; try assumption; apply g3; assumption.
  Qed.

  (** *** Sums *)
  Lemma list_sum_cons x l : list_sum (x :: l) = (x + list_sum l)%nat.
  Proof. reflexivity. Qed.
  Lemma list_sum_map_add {A} (f g : A -> nat) l : list_sum (map (fun a => (f a + g a)%nat) l) = (list_sum (map f l) + list_sum (map g l))%nat.
  Proof. induction l as [|a l IH]; [reflexivity|]. cbn [map]. rewrite !list_sum_cons, IH. lia. Qed.
  Lemma list_sum_zero {A} (f : A -> nat) l : (forall a, In a l -> f a = 0%nat) -> list_sum (map f l) = 0%nat.
  Proof. induction l as [|a l IH]; intros H; [reflexivity|]. cbn. rewrite (H a (or_introl eq_refl)). apply IH. intros b Hb. apply H. right. exact Hb. Qed.
  Lemma list_sum_ext {A} (f g : A -> nat) l : (forall a, In a l -> f a = g a) -> list_sum (map f l) = list_sum (map g l).
  Proof. intros H. f_equal. apply map_ext_in, H. Qed.
  Lemma total2_add nx ny f g : total2 nx ny (fun i j => (f i j + g i j)%nat) = (total2 nx ny f + total2 nx ny g)%nat.
  Proof. unfold total2. rewrite <- list_sum_map_add. apply list_sum_ext. intros i _. apply list_sum_map_add. Qed.
  Lemma total2_ext nx ny f g : (forall i j, (i < nx)%nat -> (j < ny)%nat -> f i j = g i j) -> total2 nx ny f = total2 nx ny g.
  Proof. intros H. unfold total2. apply list_sum_ext. intros i Hi. apply list_sum_ext. intros j Hj. apply in_seq in Hi, Hj. apply H; lia. Qed.
  Lemma sum_enlarge n n' (f : nat -> nat) : (n <= n')%nat -> list_sum (map (fun i => if (i <? n)%nat then f i else 0%nat) (seq 0 n')) = list_sum (map f (seq 0 n)).
  Proof.
    intros H. replace n' with (n + (n' - n))%nat by lia. rewrite seq_app, map_app, list_sum_app, Nat.add_0_l. rewrite (list_sum_zero _ (seq n (n' - n))).
    - rewrite Nat.add_0_r. apply list_sum_ext. intros i Hi. apply in_seq in Hi. destruct (Nat.ltb_spec i n); [reflexivity|lia].
    - intros i Hi. apply in_seq in Hi. destruct (Nat.ltb_spec i n); [lia|reflexivity].
  Qed.
  Lemma total2_enlarge x y nx ny h : (a_bins x <= nx)%nat -> (a_bins y <= ny)%nat -> total2 nx ny (enlarge x y h) = total2 (a_bins x) (a_bins y) h.
  Proof.
    intros H1 H2. unfold total2. rewrite <- (sum_enlarge (a_bins x) nx) by exact H1. apply list_sum_ext. intros i _. unfold enlarge. destruct (i <? a_bins x)%nat; cbn [andb].
    - rewrite (sum_enlarge (a_bins y) ny) by exact H2. reflexivity.
    - apply list_sum_zero. reflexivity.
  Qed.
  Lemma one_bin r a x : 0 < r -> good_axis r a -> 0 <= x <= a_size a -> list_sum (map (fun i => if in_bin (axis_edges a) i x then 1%nat else 0%nat) (seq 0 (a_bins a))) = 1%nat.
  Proof.
    intros Hr G H. pose proof (good_size r a Hr G) as P. destruct G as [G1 G2]. destruct (linspace_increasing 0 (a_size a) (a_bins a)) as (L1 & L2 & L3); [exact P|exact G1|].
    pose proof (sum_bins (axis_edges a) [x]) as B. unfold n_edge_bins, axis_edges in *. rewrite L2, L3 in B. rewrite linspace_length in B. replace (a_bins a + 1 - 1)%nat with (a_bins a) in B by lia. cbn [filter] in B.
    assert (X : Rleb 0 x && Rleb x (a_size a) = true) by (apply andb_true_iff; rewrite !Rleb_true; exact H). rewrite X in B. cbn [length] in B. etransitivity; [|exact (B L1 ltac:(lia))]. unfold list_sum. f_equal. apply map_ext. intros i. destruct (in_bin _ i x); reflexivity.
  Qed.
  Lemma sum_scale {A} (f : A -> bool) (k : nat) l : list_sum (map (fun a => if f a then k else 0%nat) l) = (list_sum (map (fun a => if f a then 1%nat else 0%nat) l) * k)%nat.
  Proof. induction l as [|a l IH]; [reflexivity|]. cbn [map]. rewrite !list_sum_cons, IH. destruct (f a); lia. Qed.
  Lemma total_bins rx ry x y ps : 0 < rx -> 0 < ry -> good_axis rx x -> good_axis ry y -> (forall p, In p ps -> 0 <= fst p <= a_size x /\ 0 <= snd p <= a_size y) -> total2 (a_bins x) (a_bins y) (count_bins x y ps) = length ps.
  Proof.
    intros Hx Hy Gx Gy. induction ps as [|p ps IH]; intros H.
    - unfold total2. apply list_sum_zero. intros i _. apply list_sum_zero. reflexivity.
    - cbn [length]. rewrite <- (IH (fun q Hq => H q (or_intror Hq))). rewrite <- (total2_ext _ _ (fun i j => ((if in_bin (axis_edges x) i (fst p) && in_bin (axis_edges y) j (snd p) then 1 else 0) + count_bins x y ps i j)%nat)).
      + rewrite total2_add. change (S ?n) with (1 + n)%nat. f_equal. destruct (H p (or_introl eq_refl)) as [P1 P2]. unfold total2. etransitivity; [|exact (one_bin rx x (fst p) Hx Gx P1)]. apply list_sum_ext. intros i _. destruct (in_bin _ i (fst p)); cbn [andb].
        * apply (one_bin ry); assumption.
        * apply list_sum_zero. reflexivity.
      + intros i j _ _. unfold count_bins. cbn [filter]. destruct (in_bin _ i (fst p) && in_bin _ j (snd p)); reflexivity.
  Qed.

  (** No track is lost and none is counted twice, wherever the tracks are and however the tracks are divided into chunks: the sum over the map is the number of tracks of the region. *)
  Theorem C104_total chunks : (forall t, In t (concat chunks) -> 0 <= fst (cell (intersection t)) /\ 0 <= snd (cell (intersection t))) ->
    let m := in_pixel_maps chunks in
    total2 (a_bins (m_x m)) (a_bins (m_y m)) (m_tracks m) = length (filter region (concat chunks)) /\
    total2 (a_bins (m_x m)) (a_bins (m_y m)) (m_with_hit m) = length (filter (fun t => region t && valid t) (concat chunks)).
  Proof.
    set (tot := fun m done => good_maps m done /\ total2 (a_bins (m_x m)) (a_bins (m_y m)) (m_tracks m) = length (filter region done) /\ total2 (a_bins (m_x m)) (a_bins (m_y m)) (m_with_hit m) = length (filter (fun t => region t && valid t) done)).
    assert (St : forall m done ts, (forall t, In t ts -> 0 <= fst (at_cell t) /\ 0 <= snd (at_cell t)) -> tot m done -> tot (fill (resize m ts) ts) (done ++ ts)).
    { intros m done ts N (G & T & W). destruct (resize_good m done ts G) as (G' & B1 & B2). split; [apply fill_good, G'|]. rewrite !filter_app, !app_length, <- T, <- W. destruct (fill_axes (resize m ts) ts) as [-> ->].
      assert (R1 : total2 (a_bins (m_x (resize m ts))) (a_bins (m_y (resize m ts))) (m_tracks (resize m ts)) = total2 (a_bins (m_x m)) (a_bins (m_y m)) (m_tracks m) /\ total2 (a_bins (m_x (resize m ts))) (a_bins (m_y (resize m ts))) (m_with_hit (resize m ts)) = total2 (a_bins (m_x m)) (a_bins (m_y m)) (m_with_hit m)).
      { revert B1 B2. unfold InPixelModel.resize. cbv zeta. destruct (existsb _ ts || existsb _ ts); [|tauto]. cbn [m_tracks m_with_hit m_x m_y]. intros B1 B2. split; apply total2_enlarge; assumption. }
      destruct R1 as [R1 R2], G' as (g1 & g2 & g3). assert (Bn : forall q, total2 (a_bins (m_x (resize m ts))) (a_bins (m_y (resize m ts))) (count_bins (m_x (resize m ts)) (m_y (resize m ts)) (map at_cell (filter q ts))) = length (filter q ts)).
      { intros q. rewrite (total_bins (fst res) (snd res)); auto; [apply map_length|]. intros p Ip. apply in_map_iff in Ip. destruct Ip as (t & <- & It). apply filter_In in It. destruct It as [It _]. destruct (N t It), (g3 t (in_or_app _ _ t (or_intror It))). lra. }
      unfold InPixelModel.fill. cbv zeta. destruct (existsb valid (filter region ts)) eqn:E; cbn [m_tracks m_with_hit].
      - rewrite !total2_add, filter_filter, R1, R2, !Bn. split; reflexivity.
      - rewrite total2_add, R1, R2, Bn. split; [reflexivity|]. rewrite (filter_none (fun t => region t && valid t) ts); [cbn; lia|]. intros t It. destruct (region t) eqn:Er; [|reflexivity]. destruct (valid t) eqn:Ev; [|reflexivity].
        exfalso. assert (X : existsb valid (filter region ts) = true); [|congruence]. apply existsb_exists. exists t. rewrite filter_In. auto. }
    assert (H : forall chunks m done, (forall t, In t (concat chunks) -> 0 <= fst (at_cell t) /\ 0 <= snd (at_cell t)) -> tot m done -> tot (in_pixel_chunks m chunks) (done ++ concat chunks)).
    { induction chunks0 as [|ts l IH]; intros m done N G; cbn [concat InPixelModel.in_pixel_chunks] in *; [rewrite app_nil_r; exact G|]. rewrite app_assoc. apply IH; [intros; apply N, in_or_app; auto|]. apply St; [intros; apply N, in_or_app; auto|exact G]. }
    intros N. cbv zeta. destruct (H chunks first_maps []) as (_ & T & W); [exact N| |split; [apply T|apply W]]. split; [apply first_good|]. split; (unfold total2; apply list_sum_zero; intros; apply list_sum_zero; reflexivity).
  Qed.

  (** *** Size of the maps *)
  (** [q] pixels: the least number, at least one, so that all positions are inside *)
  Definition least_pixels (p : R) (xs : list R) (q : Z) : Prop := (1 <= q)%Z /\ (forall x, In x xs -> x <= IZR q * p) /\ (q = 1%Z \/ exists x, In x xs /\ IZR (q - 1) * p < x).
  Lemma least_unique p xs q r : 0 < p -> least_pixels p xs q -> least_pixels p xs r -> q = r.
  Proof.
    assert (L : forall q r, 0 < p -> least_pixels p xs q -> least_pixels p xs r -> (q <= r)%Z).
    { intros q0 r0 Hp (Q1 & Q2 & Q3) (R1 & R2 & R3). destruct Q3 as [->|(x & Ix & Lx)]; [exact R1|]. specialize (R2 x Ix). assert (q0 - 1 < r0)%Z; [|lia]. apply lt_IZR. apply Rmult_lt_reg_r with p; [exact Hp|lra]. }
    intros Hp H1 H2. pose proof (L q r Hp H1 H2). pose proof (L r q Hp H2 H1). lia.
  Qed.
  Definition has_pixels (p r : R) (a : axis) (xs : list R) : Prop := exists q, least_pixels p xs q /\ a_size a = IZR q * p /\ INR (a_bins a) * r = IZR q * p.
  Lemma axis_of_multiple k p r q : (1 <= k)%nat -> (1 <= q)%Z -> 0 < r -> p = INR k * r -> a_size (axis_of (IZR q * p) r) = IZR q * p /\ INR (a_bins (axis_of (IZR q * p) r)) * r = IZR q * p.
  Proof.
    intros Hk Hq Hr ->. assert (E : a_size (axis_of (IZR q * (INR k * r)) r) = IZR q * (INR k * r)).
    { unfold axis_of. cbn [a_size]. replace (IZR q * (INR k * r) / r) with (IZR (q * Z.of_nat k)) by (rewrite mult_IZR, <- INR_IZR_INZ; field; lra). rewrite ceil_IZR, mult_IZR, <- INR_IZR_INZ. ring. }
    split; [exact E|]. rewrite <- E at 2. destruct (axis_of_spec (IZR q * (INR k * r)) r) as ([_ G] & _); [|exact Hr|symmetry; exact G].
    apply Rmult_lt_0_compat; [apply IZR_lt; lia|]. apply Rmult_lt_0_compat; [apply lt_0_INR; lia|exact Hr].
  Qed.
  Lemma grow_pixels k p r a done xs : (1 <= k)%nat -> 0 < r -> p = INR k * r -> has_pixels p r a done -> has_pixels p r (grow_axis p r a xs) (done ++ xs).
  Proof.
    intros Hk Hr Ep (q & (Q1 & Q2 & Q3) & S1 & S2). assert (Hp : 0 < p) by (rewrite Ep; apply Rmult_lt_0_compat; [apply lt_0_INR; lia|exact Hr]). unfold grow_axis. destruct (existsb _ xs) eqn:E.
    - apply existsb_exists in E. destruct E as (x & Ix & Lx). apply Rltb_true in Lx. pose proof (np_max_spec xs x Ix) as M. assert (Im : In (np_max xs) xs) by (apply np_max_in; intros ->; destruct Ix).
      set (s := ceil (np_max xs / p)). destruct (ceil_spec (np_max xs / p)) as [C1 C2]. fold s in C1, C2.
      assert (D1 : np_max xs <= IZR s * p) by (apply Rmult_le_reg_r with (/ p); [apply Rinv_0_lt_compat; lra|]; rewrite Rmult_assoc, Rinv_r, Rmult_1_r by lra; exact C1).
      assert (D2 : IZR (s - 1) * p < np_max xs) by (apply Rmult_lt_reg_r with (/ p); [apply Rinv_0_lt_compat; lra|]; rewrite Rmult_assoc, Rinv_r, Rmult_1_r, minus_IZR by lra; unfold Rdiv in C2; lra).
      assert (Qs : (q < s)%Z) by (apply lt_IZR; apply Rmult_lt_reg_r with p; [exact Hp|lra]).
      exists s. split; [|apply (axis_of_multiple k); auto; lia]. split; [lia|]. split.
      + intros y Iy. apply in_app_or in Iy. destruct Iy as [Iy|Iy]; [|pose proof (np_max_spec xs y Iy); lra]. apply Rle_trans with (IZR q * p); [apply Q2, Iy|]. apply Rmult_le_compat_r; [lra|apply IZR_le; lia].
      + right. exists (np_max xs). split; [apply in_or_app; auto|exact D2].
    - exists q. split; [|auto]. split; [exact Q1|]. split.
      + intros y Iy. apply in_app_or in Iy. destruct Iy as [Iy|Iy]; [apply Q2, Iy|]. destruct (Rle_dec y (IZR q * p)) as [|N]; [assumption|]. exfalso. assert (X : existsb (fun x => Rltb (a_size a) x) xs = true); [|congruence]. apply existsb_exists. exists y. split; [exact Iy|]. apply Rltb_true. lra.
      + destruct Q3 as [Q3|(x & Ix & Lx)]; [auto|]. right. exists x. split; [apply in_or_app; auto|exact Lx].
  Qed.
  (** If the resolution divides the pitch, the size of the maps is the least number of whole pixels with all tracks, for any chunks. *)
  Theorem C104_size kx ky chunks : (1 <= kx)%nat -> (1 <= ky)%nat -> fst pitch = INR kx * fst res -> snd pitch = INR ky * snd res -> let m := in_pixel_maps chunks in
    (exists q, least_pixels (fst pitch) (map (fun t => fst (cell (intersection t))) (concat chunks)) q /\ a_size (m_x m) = IZR q * fst pitch) /\
    (exists q, least_pixels (snd pitch) (map (fun t => snd (cell (intersection t))) (concat chunks)) q /\ a_size (m_y m) = IZR q * snd pitch).
  Proof.
    intros Kx Ky Ex Ey. cbv zeta.
    set (ok := fun m done => has_pixels (fst pitch) (fst res) (m_x m) (map (fun t => fst (at_cell t)) done) /\ has_pixels (snd pitch) (snd res) (m_y m) (map (fun t => snd (at_cell t)) done)).
    assert (H : forall chunks m done, ok m done -> ok (in_pixel_chunks m chunks) (done ++ concat chunks)).
    { induction chunks0 as [|ts l IH]; intros m done G; cbn [concat InPixelModel.in_pixel_chunks] in *; [rewrite app_nil_r; exact G|]. rewrite app_assoc. apply IH. unfold ok. destruct (fill_axes (resize m ts) ts) as [-> ->], (resize_axes m ts) as [-> ->].
      rewrite !map_app. destruct G. split; [apply (grow_pixels kx)|apply (grow_pixels ky)]; auto. }
    destruct (H chunks first_maps []) as [(q & Q1 & Q2 & _) (r & Q3 & Q4 & _)].
    { split; exists 1%Z; cbn [m_x m_y InPixelModel.first_maps map].
      - split; [split; [lia|split; [intros ? []|auto]]|]. pose proof (axis_of_multiple kx (fst pitch) (fst res) 1) as A. rewrite Rmult_1_l in *. apply A; auto. lia.
      - split; [split; [lia|split; [intros ? []|auto]]|]. pose proof (axis_of_multiple ky (snd pitch) (snd res) 1) as A. rewrite Rmult_1_l in *. apply A; auto. lia. }
    unfold InPixelModel.in_pixel_maps. split; [exists q|exists r]; auto.
  Qed.

  (** *** Chunks *)
  Lemma perm_counts q a b i j : Permutation a b -> counts q a i j = counts q b i j.
  Proof. intros P. unfold counts. induction P as [|t l l' P IH|t u l|l l' l'' P1 I1 P2 I2]; cbn [filter]; [reflexivity| | |congruence]; repeat destruct (_ && _); cbn; congruence. Qed.
  Lemma least_perm p a b q : Permutation a b -> least_pixels p a q -> least_pixels p b q.
  Proof. intros P (Q1 & Q2 & Q3). split; [exact Q1|]. split; [intros x Ix; apply Q2; eapply Permutation_in; [apply Permutation_sym, P|exact Ix]|]. destruct Q3 as [Q3|(x & Ix & Lx)]; [auto|]. right. exists x. split; [eapply Permutation_in; eauto|exact Lx]. Qed.
  (** If the resolution divides the pitch and no track is on an edge, the maps do not depend on the chunks and the order of the tracks. *)
  Theorem C104_chunks kx ky a b : (1 <= kx)%nat -> (1 <= ky)%nat -> fst pitch = INR kx * fst res -> snd pitch = INR ky * snd res ->
    Permutation (concat a) (concat b) -> (forall t, In t (concat a) -> off_track t) ->
    m_x (in_pixel_maps a) = m_x (in_pixel_maps b) /\ m_y (in_pixel_maps a) = m_y (in_pixel_maps b) /\
    forall i j, m_tracks (in_pixel_maps a) i j = m_tracks (in_pixel_maps b) i j /\ m_with_hit (in_pixel_maps a) i j = m_with_hit (in_pixel_maps b) i j.
  Proof.
    intros Kx Ky Ex Ey P O. assert (O' : forall t, In t (concat b) -> off_track t) by (intros t It; apply O; eapply Permutation_in; [apply Permutation_sym, P|exact It]).
    assert (A : forall u v : axis, forall r, 0 < r -> a_size u = INR (a_bins u) * r -> a_size v = INR (a_bins v) * r -> a_size u = a_size v -> u = v).
    { intros [su nu] [sv nv] r Hr. cbn. intros E1 E2 E3. f_equal; [exact E3|]. apply INR_eq. apply Rmult_eq_reg_r with r; lra. }
    destruct (C104_range a) as (A1 & A2 & _), (C104_range b) as (B1 & B2 & _). destruct (C104_size kx ky a Kx Ky Ex Ey) as [(q1 & L1 & S1) (r1 & L2 & S2)], (C104_size kx ky b Kx Ky Ex Ey) as [(q2 & L3 & S3) (r2 & L4 & S4)].
    assert (Eq : q1 = q2) by (eapply least_unique; [exact Px|eapply least_perm; [apply Permutation_map, P|exact L1]|exact L3]). assert (Er : r1 = r2) by (eapply least_unique; [exact Py|eapply least_perm; [apply Permutation_map, P|exact L2]|exact L4]). subst q2 r2.
    split; [apply (A _ _ (fst res)); auto; congruence|]. split; [apply (A _ _ (snd res)); auto; congruence|]. intros i j.
    destruct (C104_counts a O i j) as [-> ->], (C104_counts b O' i j) as [-> ->]. split.
    - apply (perm_counts region), P.
    - apply (perm_counts (fun t => region t && valid t)), P.
  Qed.

  (** *** Efficiency *)
  Lemma sub_counts x y q ts i j : (count_bins x y (map at_cell (filter q ts)) i j <= count_bins x y (map at_cell ts) i j)%nat.
  Proof.
    unfold count_bins. rewrite !filter_map_length. generalize (fun a => in_bin (axis_edges x) i (fst (at_cell a)) && in_bin (axis_edges y) j (snd (at_cell a))). intros g.
    induction ts as [|t l IH]; [cbn; lia|]. cbn [filter]. destruct (q t); cbn [filter]; destruct (g t); cbn [length]; lia.
  Qed.
  Lemma with_hit_le chunks i j : (m_with_hit (in_pixel_maps chunks) i j <= m_tracks (in_pixel_maps chunks) i j)%nat.
  Proof.
    assert (H : forall chunks m, (forall i j, m_with_hit m i j <= m_tracks m i j)%nat -> forall i j, (m_with_hit (in_pixel_chunks m chunks) i j <= m_tracks (in_pixel_chunks m chunks) i j)%nat).
    { induction chunks0 as [|ts l IH]; intros m G; cbn [InPixelModel.in_pixel_chunks]; [exact G|]. apply IH. intros i' j'.
      assert (R : (m_with_hit (resize m ts) i' j' <= m_tracks (resize m ts) i' j')%nat). { unfold InPixelModel.resize. cbv zeta. destruct (_ || _); [|apply G]. cbn [m_tracks m_with_hit]. unfold enlarge. destruct (_ && _); [apply G|lia]. }
      unfold InPixelModel.fill. cbv zeta. destruct (existsb _ _); cbn [m_tracks m_with_hit]; [|lia]. pose proof (sub_counts (m_x (resize m ts)) (m_y (resize m ts)) valid (filter region ts) i' j'). lia. }
    apply H. intros. cbn. lia.
  Qed.
  (** The in-pixel efficiency is the percentage of the tracks of the bin with valid hit, from 0 to 100, and nan exactly without tracks; bins without tracks are hidden for any minimum_track_density above 0. *)
  Theorem C104_efficiency chunks i j : let m := in_pixel_maps chunks in
    (in_pixel_efficiency m i j = None <-> m_tracks m i j = 0%nat) /\
    (forall e, in_pixel_efficiency m i j = Some e -> 0 <= e <= 100 /\ e * INR (m_tracks m i j) = 100 * INR (m_with_hit m i j)) /\
    (forall density, in_pixel_mask density m i j = false -> (1 <= density)%nat -> in_pixel_efficiency m i j <> None).
  Proof.
    cbv zeta. set (m := in_pixel_maps chunks). pose proof (with_hit_le chunks i j) as L. fold m in L. unfold in_pixel_efficiency, in_pixel_mask. destruct (Nat.eqb_spec (m_tracks m i j) 0) as [E|E].
    - split; [tauto|]. split; [discriminate|]. intros d Hd Hp. apply Nat.ltb_ge in Hd. lia.
    - split; [split; [discriminate|tauto]|]. split; [|discriminate]. intros e He. injection He as <-. assert (P : 0 < INR (m_tracks m i j)) by (apply lt_0_INR; lia).
      assert (Le : INR (m_with_hit m i j) <= INR (m_tracks m i j)) by (apply le_INR, L). pose proof (pos_INR (m_with_hit m i j)) as W. split; [|field; lra].
      assert (Q : INR (m_with_hit m i j) / INR (m_tracks m i j) <= 1) by (apply Rmult_le_reg_r with (INR (m_tracks m i j)); [exact P|]; unfold Rdiv; rewrite Rmult_assoc, Rinv_l by lra; lra).
      assert (Q0 : 0 <= INR (m_with_hit m i j) / INR (m_tracks m i j)) by (apply Rmult_le_pos; [exact W|apply Rlt_le, Rinv_0_lt_compat, P]). lra.
  Qed.

  (** *** Hits *)
  Definition hit_counts (done : list track) (i j : nat) : nat := length (filter (inside res i j) (hits_at_cell cell (filter region done))).
  Definition near_hit (t : track) : Prop := forall h, hit_position t = Some h -> off_edges (fst res) (fst (cell h)) /\ off_edges (snd res) (snd (cell h)) /\ fst (cell h) <= fst pitch /\ snd (cell h) <= snd pitch.
  Lemma hits_app a b : hits_at_cell cell (a ++ b) = hits_at_cell cell a ++ hits_at_cell cell b.
  Proof. apply flat_map_app. Qed.
  Lemma hits_in p ts : In p (hits_at_cell cell ts) -> exists t h, In t ts /\ hit_position t = Some h /\ p = cell h.
  Proof. unfold hits_at_cell. rewrite in_flat_map. intros (t & It & Ip). destruct (hit_position t) as [h|] eqn:E; [|destruct Ip]. destruct Ip as [<-|[]]. eauto. Qed.
  (** The map of hits counts all hits of the tracks of the region, also those farther away from the track than the cut, if every chunk has a valid hit in the region and the hits are in the first pixel of the cell. *)
  Theorem C104_hits chunks : (forall t, In t (concat chunks) -> near_hit t) -> (forall ts, In ts chunks -> existsb valid (filter region ts) = true) -> forall i j,
    m_hits (in_pixel_maps chunks) i j = length (filter (inside res i j) (hits_at_cell cell (filter region (concat chunks)))).
  Proof.
    set (ok := fun m done => good_axis (fst res) (m_x m) /\ good_axis (snd res) (m_y m) /\ fst pitch <= a_size (m_x m) /\ snd pitch <= a_size (m_y m) /\ (forall t, In t done -> near_hit t) /\ forall i j, m_hits m i j = hit_counts done i j).
    assert (St : forall m done ts, (forall t, In t ts -> near_hit t) -> existsb valid (filter region ts) = true -> ok m done -> ok (fill (resize m ts) ts) (done ++ ts)).
    { intros m done ts N V (G1 & G2 & S1 & S2 & D & H). destruct (resize_axes m ts) as [X1 X2].
      destruct (grow_axis_spec (fst pitch) (fst res) (m_x m) (map (fun t => fst (at_cell t)) ts)) as (A1 & _ & A3 & _); auto.
      destruct (grow_axis_spec (snd pitch) (snd res) (m_y m) (map (fun t => snd (at_cell t)) ts)) as (B1 & _ & B3 & _); auto. rewrite <- X1 in A1, A3. rewrite <- X2 in B1, B3.
      unfold ok. destruct (fill_axes (resize m ts) ts) as [-> ->]. split; [exact A1|]. split; [exact B1|]. split; [lra|]. split; [lra|]. split; [intros t It; apply in_app_or in It; destruct It; auto|]. intros i j.
      assert (R : m_hits (resize m ts) i j = hit_counts done i j).
      { unfold InPixelModel.resize. cbv zeta. destruct (_ || _); [|apply H]. cbn [m_hits]. unfold enlarge. destruct (Nat.ltb_spec i (a_bins (m_x m))) as [Hi|Hi]; cbn [andb]; [destruct (Nat.ltb_spec j (a_bins (m_y m))) as [Hj|Hj]; [apply H|]|]; symmetry; unfold hit_counts; (rewrite filter_none; [reflexivity|]); intros p Ip; apply hits_in in Ip; destruct Ip as (t & h & It & Eh & ->); apply filter_In in It; destruct It as [It _]; destruct (D t It h Eh) as (O1 & O2 & L1 & L2); unfold inside.
        - rewrite (above_none (snd res) (m_y m) j) by (assumption || lra). apply andb_false_r.
        - rewrite (above_none (fst res) (m_x m) i) by (assumption || lra). reflexivity. }
      unfold InPixelModel.fill. cbv zeta. rewrite V. cbn [m_hits]. rewrite R. unfold hit_counts. rewrite filter_app, hits_app, filter_app, app_length. f_equal. unfold count_bins. f_equal. apply filter_ext_in'.
      intros p Ip. apply hits_in in Ip. destruct Ip as (t & h & It & Eh & ->). apply filter_In in It. destruct It as [It _]. destruct (N t It h Eh) as (O1 & O2 & L1 & L2). unfold inside.
      destruct (Nat.lt_ge_cases i (a_bins (m_x (resize m ts)))) as [Hi|Hi]; [rewrite (bin_inside (fst res)) by (assumption || lra)|rewrite bin_above, (above_none (fst res) (m_x (resize m ts)) i) by (assumption || lra); reflexivity].
      destruct (Nat.lt_ge_cases j (a_bins (m_y (resize m ts)))) as [Hj|Hj]; [rewrite (bin_inside (snd res)) by (assumption || lra); reflexivity|rewrite bin_above, (above_none (snd res) (m_y (resize m ts)) j) by (assumption || lra); reflexivity]. }
    assert (H : forall chunks m done, (forall t, In t (concat chunks) -> near_hit t) -> (forall ts, In ts chunks -> existsb valid (filter region ts) = true) -> ok m done -> ok (in_pixel_chunks m chunks) (done ++ concat chunks)).
    { induction chunks0 as [|ts l IH]; intros m done N V G; cbn [concat InPixelModel.in_pixel_chunks] in *; [rewrite app_nil_r; exact G|]. rewrite app_assoc. apply IH; [intros; apply N, in_or_app; auto|intros; apply V; right; assumption|]. apply St; [intros; apply N, in_or_app; auto|apply V; left; reflexivity|exact G]. }
    intros N V i j. destruct (H chunks first_maps [] N V) as (_ & _ & _ & _ & _ & E); [|apply E].
    destruct first_good as (g1 & g2 & _). split; [exact g1|]. split; [exact g2|]. cbn [m_x m_y InPixelModel.first_maps]. destruct (axis_of_spec (fst pitch) (fst res)) as (_ & A & _); auto. destruct (axis_of_spec (snd pitch) (snd res)) as (_ & B & _); auto.
    split; [lra|]. split; [lra|]. split; [intros t []|reflexivity].
  Qed.
  (** A chunk without valid hit in the region adds no hits, whatever hits its tracks have. *)
  Theorem C104_hits_skipped chunks ts i j : existsb valid (filter region ts) = false -> m_hits (in_pixel_maps (ts :: chunks)) i j = m_hits (in_pixel_chunks (resize first_maps ts) chunks) i j.
  Proof.
    intros V. unfold InPixelModel.in_pixel_maps. cbn [InPixelModel.in_pixel_chunks].
    assert (H : forall chunks m m', m_x m = m_x m' -> m_y m = m_y m' -> (forall i j, m_hits m i j = m_hits m' i j) -> forall i j, m_hits (in_pixel_chunks m chunks) i j = m_hits (in_pixel_chunks m' chunks) i j).
    { induction chunks0 as [|us l IH]; intros m m' E1 E2 E3; cbn [InPixelModel.in_pixel_chunks]; [exact E3|].
      assert (Rh : forall i j, m_hits (resize m us) i j = m_hits (resize m' us) i j). { unfold InPixelModel.resize. cbv zeta. rewrite E1, E2. destruct (_ || _); [|exact E3]. cbn [m_hits]. intros i' j'. unfold enlarge. rewrite E3. reflexivity. }
      destruct (resize_axes m us) as [X1 X2], (resize_axes m' us) as [X3 X4]. assert (X : m_x (resize m us) = m_x (resize m' us)) by congruence. assert (Y : m_y (resize m us) = m_y (resize m' us)) by congruence.
      destruct (fill_axes (resize m us) us) as [F1 F2], (fill_axes (resize m' us) us) as [F3 F4]. apply IH; [congruence|congruence|]. intros i' j'. unfold InPixelModel.fill. cbv zeta. destruct (existsb valid (filter region us)); cbn [m_hits]; rewrite Rh, ?X, ?Y; reflexivity. }
    apply H; [apply fill_axes|apply fill_axes|]. intros i' j'. unfold InPixelModel.fill. cbv zeta. rewrite V. reflexivity.
  Qed.

  (** *** Cluster shapes *)
  Lemma shapes_counts chunks : shapes <> [] -> (forall t, In t (concat chunks) -> off_track t) -> forall i j k,
    m_shapes (in_pixel_maps chunks) i j k = counts (fun t => region t && valid t && in_bin (shape_edges shapes) k (IZR (relabel shapes (shape t)))) (concat chunks) i j.
  Proof.
    intros Ne O i j k. set (q := fun t => region t && valid t && in_bin (shape_edges shapes) k (IZR (relabel shapes (shape t)))). revert i j.
    assert (Sm : forall s, select_small shapes s = true). { intros s. unfold select_small. destruct shapes as [|v l]; [congruence|]. cbn. rewrite Z.eqb_refl. reflexivity. }
    set (ok := fun m done => good_maps m done /\ forall i j, m_shapes m i j k = counts q done i j).
    assert (St : forall m done ts, (forall t, In t (done ++ ts) -> off_track t) -> ok m done -> ok (fill (resize m ts) ts) (done ++ ts)).
    { intros m done ts Od (G & H). destruct (resize_good m done ts G) as (G' & _ & _). split; [apply fill_good, G'|]. intros i j. rewrite counts_app.
      assert (Gt : good_maps (resize m ts) ts) by (destruct G' as (g1 & g2 & g3); split; [exact g1|]; split; [exact g2|]; intros; apply g3, in_or_app; auto).
      assert (R : m_shapes (resize m ts) i j k = counts q done i j). { unfold InPixelModel.resize. cbv zeta. destruct (_ || _); [|apply H]. cbn [m_shapes]. apply enlarge_counts; [exact G|intros; apply Od, in_or_app; auto|exact H]. }
      unfold InPixelModel.fill. cbv zeta. destruct (existsb valid (filter region ts)) eqn:E; cbn [m_shapes]; rewrite R.
      - f_equal. rewrite <- (count_bins_counts q (resize m ts)); [|exact Gt|intros; apply Od, in_or_app; auto]. unfold InPixelModel.count_shapes, count_bins. rewrite filter_map_length, !filter_filter. f_equal. apply filter_ext_in'. intros t _. rewrite Sm. unfold q.
        generalize (in_bin (axis_edges (m_x (resize m ts))) i (fst (at_cell t)) && in_bin (axis_edges (m_y (resize m ts))) j (snd (at_cell t))). intros b. generalize (in_bin (shape_edges shapes) k (IZR (relabel shapes (shape t)))). intros c. destruct (region t), (valid t), b, c; reflexivity.
      - assert (Z : counts q ts i j = 0%nat); [|lia]. unfold counts. rewrite filter_none; [reflexivity|]. intros t It. unfold q.
        destruct (region t) eqn:Er; [|reflexivity]. destruct (valid t) eqn:Ev; [|reflexivity]. exfalso. assert (X : existsb valid (filter region ts) = true); [|congruence]. apply existsb_exists. exists t. rewrite filter_In. auto. }
    assert (H : forall chunks m done, (forall t, In t (done ++ concat chunks) -> off_track t) -> ok m done -> ok (in_pixel_chunks m chunks) (done ++ concat chunks)).
    { induction chunks0 as [|ts l IH]; intros m done Od G; cbn [concat InPixelModel.in_pixel_chunks] in *; [rewrite app_nil_r; exact G|]. rewrite app_assoc in *. apply IH; [exact Od|]. apply St; [|exact G]. intros t It. apply Od, in_or_app. auto. }
    destruct (H chunks first_maps []) as (_ & E); [exact O| |apply E]. split; [apply first_good|reflexivity].
  Qed.
End Maps.

(** the entry [k] of the map of shapes counts the analysed shape [k], the shapes with the value [k] that are not analysed, and for the last entry the value 8 *)
Definition counted_as (k : nat) (s : Z) : bool :=
  (s =? nth k [1; 3; 5; 13; 14; 7; 11; 15] (-1))%Z || ((s =? Z.of_nat k)%Z && negb (existsb (Z.eqb s) [1; 3; 5; 13; 14; 7; 11; 15]%Z)) || ((k =? 7)%nat && (s =? 8)%Z).
Lemma relabel_default s : relabel analyzed_shapes s =
  if (s =? 1)%Z then 0%Z else if (s =? 3)%Z then 1%Z else if (s =? 5)%Z then 2%Z else if (s =? 13)%Z then 3%Z else if (s =? 14)%Z then 4%Z else if (s =? 7)%Z then 5%Z else if (s =? 11)%Z then 6%Z else if (s =? 15)%Z then 7%Z else s.
Proof.
  unfold relabel, analyzed_shapes. cbn [length seq combine fold_left fst snd Z.of_nat Pos.of_succ_nat Pos.succ].
  destruct (Z.eqb_spec s 1); [reflexivity|]. destruct (Z.eqb_spec s 3); [reflexivity|]. destruct (Z.eqb_spec s 5); [reflexivity|]. destruct (Z.eqb_spec s 13); [reflexivity|].
  destruct (Z.eqb_spec s 14); [reflexivity|]. destruct (Z.eqb_spec s 7); [reflexivity|]. destruct (Z.eqb_spec s 11); [reflexivity|]. destruct (Z.eqb_spec s 15); reflexivity.
Qed.
Lemma shape_bin k v : (k < 8)%nat -> in_bin (shape_edges analyzed_shapes) k (IZR v) = ((v =? Z.of_nat k)%Z || ((k =? 7)%nat && (v =? 8)%Z)).
Proof.
  intros Hk. apply eq_true_iff_eq. rewrite in_bin_spec. rewrite orb_true_iff, andb_true_iff, Nat.eqb_eq, !Z.eqb_eq.
  assert (L : length (shape_edges analyzed_shapes) = 9%nat) by reflexivity. rewrite L.
  assert (W : forall i, (i < 9)%nat -> nth i (shape_edges analyzed_shapes) 0 = IZR (Z.of_nat i)). { intros i Hi. unfold shape_edges. change 0 with (INR 0). rewrite map_nth, seq_nth by exact Hi. rewrite INR_IZR_INZ. reflexivity. }
  rewrite !W by lia. split.
  - intros (_ & H1 & H2). apply le_IZR in H1. destruct H2 as [H2|[H2 H3]]; [apply lt_IZR in H2; left; lia|]. apply eq_IZR in H3. right. lia.
  - intros [->|[-> ->]]; (split; [lia|]).
    + split; [apply Rle_refl|]. left. apply IZR_lt. lia.
    + split; [apply IZR_le; lia|]. right. split; [reflexivity|reflexivity].
Qed.
Lemma counted_spec k s : (k < 8)%nat -> in_bin (shape_edges analyzed_shapes) k (IZR (relabel analyzed_shapes s)) = counted_as k s.
Proof.
  intros Hk. rewrite shape_bin by exact Hk. rewrite relabel_default. unfold counted_as. cbn [existsb].
  destruct (Z.eqb_spec s 1) as [->|]; [do 8 (destruct k as [|k]; [reflexivity|]); lia|]. destruct (Z.eqb_spec s 3) as [->|]; [do 8 (destruct k as [|k]; [reflexivity|]); lia|].
  destruct (Z.eqb_spec s 5) as [->|]; [do 8 (destruct k as [|k]; [reflexivity|]); lia|]. destruct (Z.eqb_spec s 13) as [->|]; [do 8 (destruct k as [|k]; [reflexivity|]); lia|].
  destruct (Z.eqb_spec s 14) as [->|]; [do 8 (destruct k as [|k]; [reflexivity|]); lia|]. destruct (Z.eqb_spec s 7) as [->|]; [do 8 (destruct k as [|k]; [reflexivity|]); lia|].
  destruct (Z.eqb_spec s 11) as [->|]; [do 8 (destruct k as [|k]; [reflexivity|]); lia|]. destruct (Z.eqb_spec s 15) as [->|]; [do 8 (destruct k as [|k]; [reflexivity|]); lia|].
  cbn [orb negb]. rewrite andb_true_r. assert (X : (s =? nth k [1; 3; 5; 13; 14; 7; 11; 15] (-1))%Z = false). { apply Z.eqb_neq. do 8 (destruct k as [|k]; [cbn; assumption|]). lia. }
  rewrite X. reflexivity.
Qed.
(** The map of cluster shapes: the clusters with an analysed shape in the entry of the shape, and other shapes where their value is the index of the entry. *)
Theorem C104_shapes pitch res cell region valid shape chunks : 0 < fst pitch -> 0 < snd pitch -> 0 < fst res -> 0 < snd res -> (forall t, In t (concat chunks) -> off_track res cell t) -> forall i j k, (k < 8)%nat ->
  m_shapes (in_pixel_maps pitch res cell region valid shape analyzed_shapes chunks) i j k =
  length (filter (fun t => region t && valid t && counted_as k (shape t) && inside res i j (cell (intersection t))) (concat chunks)).
Proof.
  intros Px Py Rx Ry O i j k Hk. rewrite shapes_counts; [|assumption..|discriminate|exact O]. unfold counts. f_equal. apply filter_ext_in'. intros t _. rewrite counted_spec by exact Hk. reflexivity.
Qed.
(** Two diagonal pixels (shape 6) are counted in the entry 6, as the shape 11 of three pixels; the other diagonal (shape 9) is not counted. *)
Theorem C104_diagonal_refuted : fst (fst (end_of_cluster (2, 1)%Z [(1, 2)%Z])) = 6%Z /\ counted_as 6 6 = true /\ nth 6 analyzed_shapes 0%Z = 11%Z /\ fst (fst (end_of_cluster (1, 1)%Z [(1, 2)%Z; (2, 2)%Z])) = 13%Z /\
  fst (fst (end_of_cluster (1, 1)%Z [(2, 1)%Z; (2, 2)%Z])) = 11%Z /\ fst (fst (end_of_cluster (1, 1)%Z [(2, 2)%Z])) = 9%Z /\ forall k, (k < 8)%nat -> counted_as k 9 = false.
Proof.
  split; [vm_compute; reflexivity|]. split; [reflexivity|]. split; [reflexivity|]. split; [vm_compute; reflexivity|]. split; [vm_compute; reflexivity|]. split; [vm_compute; reflexivity|].
  intros k Hk. do 8 (destruct k as [|k]; [reflexivity|]). lia.
Qed.
(** The most probable shape is the first of the shapes with the most clusters, the shape 1 (one pixel) for a bin without any counted cluster. *)
Theorem C104_most_probable n m i j : (1 <= n)%nat -> let k := most_probable_shape n m i j in
  (k < n)%nat /\ (forall l, (l < n)%nat -> (m_shapes m i j l <= m_shapes m i j k)%nat) /\ (forall l, (l < k)%nat -> (m_shapes m i j l < m_shapes m i j k)%nat) /\
  ((forall l, (l < n)%nat -> m_shapes m i j l = 0%nat) -> k = 0%nat).
Proof.
  intros Hn. cbv zeta. unfold most_probable_shape.
  assert (A : forall l, l <> [] -> (argmax l < length l)%nat /\ (forall b, (b < length l)%nat -> (nth b l 0 <= nth (argmax l) l 0)%nat) /\ (forall b, (b < argmax l)%nat -> (nth b l 0 < nth (argmax l) l 0)%nat)).
  { induction l as [|x l IH]; [congruence|]. intros _. cbn [argmax]. destruct (forallb _ l) eqn:E.
    - rewrite forallb_forall in E. cbn [length nth]. split; [lia|]. split; [|lia]. intros [|b] Hb; [lia|]. apply Nat.leb_le. apply E, nth_In. lia.
    - assert (Nl : l <> []) by (intros ->; discriminate). destruct (IH Nl) as (I1 & I2 & I3). assert (X : (x < nth (argmax l) l 0)%nat).
      { destruct (Nat.lt_ge_cases x (nth (argmax l) l 0%nat)) as [|G]; [assumption|]. exfalso. assert (T : forallb (fun y => (y <=? x)%nat) l = true); [|congruence]. apply forallb_forall. intros y Iy. apply Nat.leb_le. apply (In_nth l y 0%nat) in Iy. destruct Iy as (b & Hb & <-). specialize (I2 b Hb). lia. }
      cbn [length nth]. split; [lia|]. split; (intros [|b] Hb; [try lia|]). { apply I2. lia. } { apply I3. lia. } }
  assert (Nn : map (m_shapes m i j) (seq 0 n) <> []) by (destruct n; [lia|discriminate]). destruct (A _ Nn) as (A1 & A2 & A3). rewrite map_length, seq_length in A1, A2. set (k := argmax _) in *.
  assert (W : forall l, (l < n)%nat -> nth l (map (m_shapes m i j) (seq 0 n)) 0%nat = m_shapes m i j l). { intros l Hl. rewrite (nth_indep _ 0%nat (m_shapes m i j 0%nat)) by (rewrite map_length, seq_length; exact Hl). rewrite map_nth, seq_nth by exact Hl. reflexivity. }
  split; [exact A1|]. split; [intros l Hl; rewrite <- !W by assumption; apply A2, Hl|]. split; [intros l Hl; rewrite <- !W by lia; apply A3, Hl|].
  intros Z. destruct k as [|k]; [reflexivity|]. specialize (A3 0%nat ltac:(lia)). rewrite !W in A3 by lia. rewrite (Z (S k)), (Z 0%nat) in A3 by lia. lia.
Qed.

(** *** Extended maps *)
Lemma nth_pad {A} n (l p : list A) k d : pad_wrap n l = Some p -> length p = (length l + 2 * n)%nat /\ ((k < length p)%nat -> nth k p d = nth ((k + length l - n) mod length l) l d).
Proof.
  unfold pad_wrap. destruct (Nat.leb_spec n (length l)) as [L|]; [|discriminate]. intros E. assert (Ep : p = skipn (length l - n) l ++ l ++ firstn n l) by congruence. clear E. subst p.
  assert (Ls : length (skipn (length l - n) l) = n) by (rewrite skipn_length; lia). assert (Lf : length (firstn n l) = n) by (rewrite firstn_length; lia).
  rewrite !app_length, Ls, Lf. split; [lia|]. intros Hk. destruct (Nat.lt_ge_cases k n) as [H1|H1].
  - rewrite app_nth1 by lia. rewrite Nat.mod_small by lia. replace l with (firstn (length l - n) l ++ skipn (length l - n) l) at 4 by apply firstn_skipn. rewrite app_nth2; rewrite firstn_length; [|lia]. f_equal. lia.
  - rewrite app_nth2 by lia. rewrite Ls. destruct (Nat.lt_ge_cases (k - n) (length l)) as [H2|H2].
    + rewrite app_nth1 by lia. f_equal. replace (k + length l - n)%nat with (k - n + 1 * length l)%nat by lia. rewrite Nat.mod_add by lia. rewrite Nat.mod_small; lia.
    + rewrite app_nth2 by lia. replace (k + length l - n)%nat with (k - n - length l + 2 * length l)%nat by lia. rewrite Nat.mod_add by lia. rewrite Nat.mod_small by lia.
      replace l with (firstn n l ++ skipn n l) at 4 by apply firstn_skipn. rewrite app_nth1 by lia. reflexivity.
Qed.
Lemma collect_spec {A} : forall l (r : list A), collect l = Some r -> l = map Some r.
Proof. induction l as [|[x|] l IH]; cbn; intros r E; [injection E as <-; reflexivity| |discriminate]. destruct (collect l) as [r'|]; [|discriminate]. injection E as <-. cbn. rewrite (IH r' eq_refl). reflexivity. Qed.
Lemma collect_some {A B} (f : A -> option B) l : (forall a, In a l -> f a <> None) -> collect (map f l) <> None.
Proof. induction l as [|a l IH]; intros H; [discriminate|]. cbn. destruct (f a) eqn:E; [|exfalso; apply (H a); [left; reflexivity|exact E]]. destruct (collect (map f l)) eqn:C; [discriminate|]. exfalso. apply IH; [intros c Hc; apply H; right; exact Hc|reflexivity]. Qed.
(** entry of a map continued periodically; n bins were added before the first one *)
Definition wrapped (nx n k : nat) : nat := (k + nx - n) mod nx.
Lemma extend_entry {A} nx ny res ext (h : nat -> nat -> A) rows d : let n := extend_bins (fst ext) (fst res) in let m := extend_bins (snd ext) (snd res) in
  extend_map nx ny res ext h = Some rows -> length rows = (nx + 2 * n)%nat /\ forall k, (k < nx + 2 * n)%nat -> length (nth k rows []) = (ny + 2 * m)%nat /\
  forall l, (l < ny + 2 * m)%nat -> nth l (nth k rows []) d = h (wrapped nx n k) (wrapped ny m l).
Proof.
  intros n m. unfold extend_map. fold n m. destruct (pad_wrap n (to_array nx ny h)) as [p|] eqn:Ep; [|discriminate]. intros E. apply collect_spec in E.
  assert (La : length (to_array nx ny h) = nx) by (unfold to_array; rewrite map_length, seq_length; reflexivity).
  destruct (nth_pad n (to_array nx ny h) p 0 [] Ep) as [Lp _]. rewrite La in Lp. assert (Lr : length rows = length p) by (apply (f_equal (@length _)) in E; rewrite !map_length in E; lia). split; [lia|]. intros k Hk.
  destruct (nth_pad n (to_array nx ny h) p k [] Ep) as [_ Np]. rewrite La in Np. specialize (Np ltac:(lia)).
  assert (Hx : (nx <> 0)%nat). { intros ->. unfold pad_wrap in Ep. cbn in Ep. destruct n; [|discriminate]. lia. }
  assert (Wx : (wrapped nx n k < nx)%nat) by (apply Nat.mod_upper_bound, Hx).
  assert (Row : nth k p [] = map (h (wrapped nx n k)) (seq 0 ny)).
  { rewrite Np. unfold to_array. rewrite (nth_indep _ [] (map (h 0%nat) (seq 0 ny))) by (rewrite map_length, seq_length; exact Wx). rewrite (map_nth (fun i => map (h i) (seq 0 ny))), seq_nth by exact Wx. reflexivity. }
  assert (Pk : pad_wrap m (nth k p []) = Some (nth k rows [])).
  { apply (f_equal (fun l => nth k l None)) in E. rewrite (nth_indep _ None (pad_wrap m [])), map_nth in E by (rewrite map_length; lia). rewrite (nth_indep _ None (Some [])), map_nth in E by (rewrite map_length; lia). exact E. }
  rewrite Row in Pk. destruct (nth_pad m _ _ 0 d Pk) as [Lk _]. rewrite map_length, seq_length in Lk. split; [exact Lk|]. intros l Hl. destruct (nth_pad m _ _ l d Pk) as [_ Nk]. rewrite map_length, seq_length in Nk. rewrite Nk by lia.
  assert (Hy : (ny <> 0)%nat). { intros ->. unfold pad_wrap in Pk. cbn in Pk. destruct m; [|discriminate]. lia. }
  assert (Wy : (wrapped ny m l < ny)%nat) by (apply Nat.mod_upper_bound, Hy). rewrite (nth_indep _ d (h (wrapped nx n k) 0%nat)) by (rewrite map_length, seq_length; exact Wy). rewrite map_nth. unfold wrapped in Wy. rewrite seq_nth by exact Wy. reflexivity.
Qed.
(** the map continued with the period [size]: some position x + u * size is in the bin that starts at (k - n) * res *)
Definition shifted_inside (res size : R) (n k : nat) (x : R) : bool := Rltb (np_mod (x - (INR k - INR n) * res) size) res.
Lemma np_mod_range a b : 0 < b -> 0 <= np_mod a b < b /\ exists u, np_mod a b = a + IZR u * b.
Proof.
  intros Hb. unfold np_mod. destruct (base_Int_part (a / b)) as [B1 B2]. assert (E : a = a / b * b) by (field; lra). split.
  - assert (C1 : IZR (Int_part (a / b)) * b <= a / b * b) by (apply Rmult_le_compat_r; lra). assert (C2 : a / b * b < (IZR (Int_part (a / b)) + 1) * b) by (apply Rmult_lt_compat_r; lra). rewrite <- E in C1, C2. lra.
  - exists (- Int_part (a / b))%Z. rewrite opp_IZR. ring.
Qed.
Lemma np_mod_unique a b c u : 0 < b -> 0 <= c < b -> a = c + IZR u * b -> np_mod a b = c.
Proof. intros Hb Hc ->. unfold np_mod. rewrite (Int_part_between _ u); [ring|]. replace ((c + IZR u * b) / b) with (c / b + IZR u) by (field; lra). assert (0 <= c / b) by (apply Rmult_le_pos; [lra|apply Rlt_le, Rinv_0_lt_compat; lra]). assert (c / b < 1); [|lra]. apply Rmult_lt_reg_r with b; [exact Hb|]. unfold Rdiv. rewrite Rmult_assoc, Rinv_l by lra. lra. Qed.
(** meaning of the definition *)
Lemma shifted_spec res size n k x : 0 < res -> res <= size -> shifted_inside res size n k x = true <-> exists u, (INR k - INR n) * res <= x + IZR u * size < (INR k - INR n) * res + res.
Proof.
  intros Hr Hs. unfold shifted_inside. rewrite Rltb_true. destruct (np_mod_range (x - (INR k - INR n) * res) size ltac:(lra)) as (M1 & u & M2). split.
  - intros H. exists u. lra.
  - intros (v & V). rewrite (np_mod_unique _ size (x + IZR v * size - (INR k - INR n) * res) (- v)%Z); [lra|lra|lra|]. rewrite opp_IZR. ring.
Qed.
Lemma wrapped_inside res nx n k x : 0 < res -> (n <= nx)%nat -> (1 <= nx)%nat -> (k < nx + 2 * n)%nat -> 0 <= x < INR nx * res ->
  Rleb (INR (wrapped nx n k) * res) x && Rltb x (INR (S (wrapped nx n k)) * res) = shifted_inside res (INR nx * res) n k x.
Proof.
  intros Hr Hn Hx Hk X. set (i := wrapped nx n k). assert (Hi : (i < nx)%nat) by (apply Nat.mod_upper_bound; lia).
  assert (N1 : 1 <= INR nx) by (apply (le_INR 1), Hx). assert (Sz : res <= INR nx * res) by (rewrite <- (Rmult_1_l res) at 1; apply Rmult_le_compat_r; lra).
  assert (Z : exists z, INR k - INR n = INR i + IZR z * INR nx).
  { exists (Z.of_nat ((k + nx - n) / nx) - 1)%Z. pose proof (Nat.div_mod (k + nx - n) nx ltac:(lia)) as D. fold (wrapped nx n k) in D. fold i in D.
    rewrite !INR_IZR_INZ, <- minus_IZR, <- mult_IZR, <- plus_IZR. f_equal. nia. }
  destruct Z as (z & Z). apply eq_true_iff_eq. rewrite andb_true_iff, Rleb_true, Rltb_true, shifted_spec by assumption. rewrite Z, S_INR. split.
  - intros [H1 H2]. exists z. split; nra.
  - intros (u & U1 & U2). assert (E : u = z); [|subst u; split; nra].
    assert (Hi1 : INR i + 1 <= INR nx) by (rewrite <- S_INR; apply le_INR; lia). pose proof (pos_INR i) as Hi0.
    assert (L : (-1 < u - z < 1)%Z); [|lia]. split; apply lt_IZR; rewrite minus_IZR; apply Rmult_lt_reg_r with (INR nx * res); try nra.
Qed.
(** The extended maps are the periodic continuation: the bin that starts at (k - n) * res and (l - m) * res contains the tracks of the region that are in it after a shift by a whole number of map sizes;
    if the resolution divides the pitch, by a whole number of pixels. *)
Theorem C104_extended pitch res cell region valid shape shapes chunks ext rows : 0 < fst pitch -> 0 < snd pitch -> 0 < fst res -> 0 < snd res ->
  (forall t, In t (concat chunks) -> off_track res cell t) -> let maps := in_pixel_maps pitch res cell region valid shape shapes chunks in
  let n := extend_bins (fst ext) (fst res) in let m := extend_bins (snd ext) (snd res) in
  extend_map (a_bins (m_x maps)) (a_bins (m_y maps)) res ext (m_tracks maps) = Some rows ->
  length rows = (a_bins (m_x maps) + 2 * n)%nat /\ forall k l, (k < a_bins (m_x maps) + 2 * n)%nat -> (l < a_bins (m_y maps) + 2 * m)%nat ->
  nth l (nth k rows []) 0%nat = length (filter (fun t => region t && (shifted_inside (fst res) (a_size (m_x maps)) n k (fst (cell (intersection t))) && shifted_inside (snd res) (a_size (m_y maps)) m l (snd (cell (intersection t))))) (concat chunks)).
Proof.
  intros Px Py Rx Ry O maps n m E. destruct (extend_entry _ _ _ _ _ _ 0%nat E) as [E1 E2]. fold n m in E1, E2. split; [exact E1|]. intros k l Hk Hl. destruct (E2 k Hk) as [_ E3]. rewrite E3 by exact Hl.
  destruct (C104_range pitch res cell region valid shape shapes Px Py Rx Ry chunks) as (A1 & A2 & A3 & A4 & A5). fold maps in A1, A2, A3, A4, A5.
  destruct (C104_counts pitch res cell region valid shape shapes Px Py Rx Ry chunks O (wrapped (a_bins (m_x maps)) n k) (wrapped (a_bins (m_y maps)) m l)) as [Ct _]. fold maps in Ct. rewrite Ct. f_equal. apply filter_ext_in'. intros t It. f_equal.
  assert (Bx : (1 <= a_bins (m_x maps))%nat). { destruct (a_bins (m_x maps)); [cbn in A1; lra|lia]. } assert (By : (1 <= a_bins (m_y maps))%nat). { destruct (a_bins (m_y maps)); [cbn in A2; lra|lia]. }
  assert (Nn : (n <= a_bins (m_x maps))%nat /\ (m <= a_bins (m_y maps))%nat).
  { unfold extend_map in E. destruct (pad_wrap _ _) as [p|] eqn:Ep; [|discriminate]. pose proof (proj1 (nth_pad _ _ _ 0 [] Ep)) as Lp. unfold pad_wrap in Ep. destruct (Nat.leb_spec (extend_bins (fst ext) (fst res)) (length (to_array (a_bins (m_x maps)) (a_bins (m_y maps)) (m_tracks maps)))) as [L|]; [|discriminate].
    unfold to_array in L. rewrite map_length, seq_length in L. split; [exact L|]. apply collect_spec in E.
    assert (Ip : In (nth (extend_bins (fst ext) (fst res)) p []) p) by (apply nth_In; unfold to_array in Lp; rewrite map_length, seq_length in Lp; lia).
    assert (X : pad_wrap (extend_bins (snd ext) (snd res)) (nth (extend_bins (fst ext) (fst res)) p []) <> None). { intros X. apply (in_map (pad_wrap (extend_bins (snd ext) (snd res)))) in Ip. rewrite X, E in Ip. apply in_map_iff in Ip. destruct Ip as (? & ? & _). discriminate. }
    unfold pad_wrap in X. destruct (Nat.leb_spec (extend_bins (snd ext) (snd res)) (length (nth (extend_bins (fst ext) (fst res)) p []))) as [L2|]; [|congruence]. fold m in L2.
    assert (Lrow : length (nth (extend_bins (fst ext) (fst res)) p []) = a_bins (m_y maps)); [|lia].
    assert (All : forall r, In r p -> length r = a_bins (m_y maps)). { intros r Ir. injection Ep as <-. assert (Ia : In r (to_array (a_bins (m_x maps)) (a_bins (m_y maps)) (m_tracks maps))). { apply in_app_or in Ir. destruct Ir as [Ir|Ir]; [rewrite <- (firstn_skipn (length (to_array (a_bins (m_x maps)) (a_bins (m_y maps)) (m_tracks maps)) - extend_bins (fst ext) (fst res))); apply in_or_app; right; exact Ir|]. apply in_app_or in Ir. destruct Ir as [Ir|Ir]; [exact Ir|]. rewrite <- (firstn_skipn (extend_bins (fst ext) (fst res))). apply in_or_app. left. exact Ir. }
      unfold to_array in Ia. apply in_map_iff in Ia. destruct Ia as (? & <- & _). rewrite map_length, seq_length. reflexivity. }
    apply All, Ip. }
  destruct Nn as [Nx Ny], (O t It) as [[O1 O1'] [O2 O2']], (A5 t It) as [B1 B2]. unfold at_cell in *. unfold inside.
  assert (C1 : fst (cell (intersection t)) < a_size (m_x maps)) by (specialize (O1' (a_bins (m_x maps)) Bx); lra). assert (C2 : snd (cell (intersection t)) < a_size (m_y maps)) by (specialize (O2' (a_bins (m_y maps)) By); lra).
  rewrite (wrapped_inside (fst res)), (wrapped_inside (snd res)) by (assumption || lra || (rewrite <- ?A1, <- ?A2; lra)). rewrite A1, A2. reflexivity.
Qed.

(** The extent of an extended map is its number of bins times the resolution in x, it begins at the lower edge of the first bin, and it covers the requested extension with less than one bin
    more on either side. *)
Theorem C104_extent pitch res cell region valid shape shapes chunks ext rows : 0 < fst pitch -> 0 < snd pitch -> 0 < fst res -> 0 < snd res ->
  let maps := in_pixel_maps pitch res cell region valid shape shapes chunks in
  extend_map (a_bins (m_x maps)) (a_bins (m_y maps)) res ext (m_tracks maps) = Some rows ->
  let e := hist_extent (m_x maps) (fst res) (fst ext) in
  snd e - fst e = INR (length rows) * fst res /\
  (fst ext = None -> e = (0, a_size (m_x maps))) /\
  (forall d, fst ext = Some d -> 0 <= d -> d <= - fst e < d + fst res /\ a_size (m_x maps) + d <= snd e < a_size (m_x maps) + d + fst res).
Proof.
  intros Px Py Rx Ry maps E e. destruct (extend_entry _ _ _ _ _ _ 0%nat E) as [E1 _]. destruct (C104_range pitch res cell region valid shape shapes Px Py Rx Ry chunks) as (A3 & _). fold maps in A3.
  split; [|split].
  - rewrite E1, plus_INR, mult_INR. unfold e, hist_extent. cbn [fst snd]. cbn [INR]. rewrite A3. ring.
  - intros N. unfold e, hist_extent, extend_bins. rewrite N. cbn [INR]. f_equal; ring.
  - intros d D Hd. unfold e, hist_extent, extend_bins. rewrite D. cbn [fst snd]. destruct (ceil_spec (d / fst res)) as [C1 C2].
    assert (Q : 0 <= d / fst res) by (apply Rmult_le_pos; [exact Hd|apply Rlt_le, Rinv_0_lt_compat; exact Rx]).
    assert (Z0 : (0 <= ceil (d / fst res))%Z) by (apply le_IZR; lra).
    rewrite INR_IZR_INZ, Z2Nat.id by exact Z0. assert (D2 : d / fst res * fst res = d) by (field; lra).
    assert (M1 : d / fst res * fst res <= IZR (ceil (d / fst res)) * fst res) by (apply Rmult_le_compat_r; lra).
    assert (M2 : IZR (ceil (d / fst res)) * fst res < (d / fst res + 1) * fst res) by (apply Rmult_lt_compat_r; lra).
    lra.
Qed.
Lemma extend_some {A} nx ny res ext (h : nat -> nat -> A) : (extend_bins (fst ext) (fst res) <= nx)%nat -> (extend_bins (snd ext) (snd res) <= ny)%nat -> extend_map nx ny res ext h <> None.
Proof.
  intros Hn Hm. unfold extend_map, pad_wrap at 1. assert (La : length (to_array nx ny h) = nx) by (unfold to_array; rewrite map_length, seq_length; reflexivity). rewrite La. destruct (Nat.leb_spec (extend_bins (fst ext) (fst res)) nx); [|lia].
  apply collect_some. intros r Ir. unfold pad_wrap. assert (Lr : length r = ny); [|rewrite Lr; destruct (Nat.leb_spec (extend_bins (snd ext) (snd res)) ny); [discriminate|lia]].
  assert (Ia : In r (to_array nx ny h)). { apply in_app_or in Ir. destruct Ir as [Ir|Ir]; [rewrite <- (firstn_skipn (nx - extend_bins (fst ext) (fst res))); apply in_or_app; right; exact Ir|]. apply in_app_or in Ir. destruct Ir as [Ir|Ir]; [exact Ir|]. rewrite <- (firstn_skipn (extend_bins (fst ext) (fst res))). apply in_or_app. left. exact Ir. }
  unfold to_array in Ia. apply in_map_iff in Ia. destruct Ia as (? & <- & _). rewrite map_length, seq_length. reflexivity.
Qed.

(** *** Counterexamples *)
Lemma axis_value size res z : 0 < res -> (1 <= z)%Z -> IZR z - 1 < size / res <= IZR z -> axis_of size res = Axis (IZR z * res) (Z.to_nat z).
Proof.
  intros Hr Hz H. unfold axis_of. assert (E : ceil (size / res) = z). { destruct (ceil_spec (size / res)) as [C1 C2]. assert (A : (z - 1 < ceil (size / res))%Z) by (apply lt_IZR; rewrite minus_IZR; lra). assert (B : (ceil (size / res) < z + 1)%Z) by (apply lt_IZR; rewrite plus_IZR; lra). lia. }
  rewrite E. replace (IZR z * res / res) with (IZR z) by (field; lra). rewrite (Int_part_between _ z) by lra. reflexivity.
Qed.
Lemma grow_one pitch res a x q z : 0 < pitch -> 0 < res -> a_size a < x -> IZR q - 1 < x / pitch <= IZR q -> (1 <= z)%Z -> IZR z - 1 < IZR q * pitch / res <= IZR z -> grow_axis pitch res a [x] = Axis (IZR z * res) (Z.to_nat z).
Proof.
  intros Hp Hr Hx Hq Hz H. unfold grow_axis. cbn [existsb np_max fold_left]. rewrite (proj2 (Rltb_true _ _) Hx). cbn [orb]. assert (E : ceil (x / pitch) = q). { destruct (ceil_spec (x / pitch)) as [C1 C2]. assert (A : (q - 1 < ceil (x / pitch))%Z) by (apply lt_IZR; rewrite minus_IZR; lra). assert (B : (ceil (x / pitch) < q + 1)%Z) by (apply lt_IZR; rewrite plus_IZR; lra). lia. }
  rewrite E. apply axis_value; assumption.
Qed.
Lemma grow_none pitch res a xs : (forall x, In x xs -> x <= a_size a) -> grow_axis pitch res a xs = a.
Proof. intros H. unfold grow_axis. destruct (existsb _ xs) eqn:E; [|reflexivity]. apply existsb_exists in E. destruct E as (x & Ix & Lx). apply Rltb_true in Lx. specialize (H x Ix). lra. Qed.
Definition at_point (x : R) : track := Track None (x, 1).
Definition same : R * R -> R * R := fun p => p.
Definition all_tracks : track -> bool := fun _ => true.
Definition maps_at (pitch res : R) (chunks : list (list track)) : maps := in_pixel_maps (pitch, pitch) (res, res) same all_tracks all_tracks (fun _ => 1%Z) analyzed_shapes chunks.
(** The size of the maps depends on the chunks if the resolution does not divide the pitch: cells of several pixels of 50 um, bins of 30 um, tracks at 95 um and 110 um. *)
Theorem C104_size_refuted : a_size (m_x (maps_at 50 30 [[at_point 95]; [at_point 110]])) = 120 /\ a_size (m_x (maps_at 50 30 [[at_point 110]; [at_point 95]])) = 150.
Proof.
  assert (F : m_x (first_maps (50, 50) (30, 30)) = Axis 60 2). { cbn [first_maps m_x fst]. rewrite (axis_value 50 30 2) by (lia || lra). f_equal; lra. }
  unfold maps_at, in_pixel_maps. cbn [in_pixel_chunks]. split.
  - rewrite (proj1 (fill_axes _ _ _ _ _ _ _)), (proj1 (resize_axes _ _ _ _ _)), (proj1 (fill_axes _ _ _ _ _ _ _)), (proj1 (resize_axes _ _ _ _ _)), F. cbn [map fst at_cell at_point intersection same].
    rewrite (grow_one 50 30 _ 95 2 4) by (cbn; lia || lra). rewrite grow_none; [cbn; lra|]. cbn. intros x [<-|[]]. lra.
  - rewrite (proj1 (fill_axes _ _ _ _ _ _ _)), (proj1 (resize_axes _ _ _ _ _)), (proj1 (fill_axes _ _ _ _ _ _ _)), (proj1 (resize_axes _ _ _ _ _)), F. cbn [map fst at_cell at_point intersection same].
    rewrite (grow_one 50 30 _ 110 3 5) by (cbn; lia || lra). rewrite grow_none; [cbn; lra|]. cbn. intros x [<-|[]]. lra.
Qed.
(** A track on an edge: in the last bin of the map before it is enlarged, in the next bin after it. Double columns of 50 um, bins of 10 um, tracks at 50 um and 70 um. *)
Theorem C104_edge_refuted : m_tracks (maps_at 50 10 [[at_point 50]; [at_point 70]]) 4 0 = 1%nat /\ m_tracks (maps_at 50 10 [[at_point 70]; [at_point 50]]) 4 0 = 0%nat /\ m_tracks (maps_at 50 10 [[at_point 70]; [at_point 50]]) 5 0 = 1%nat.
Proof.
  set (a5 := Axis 50 5). set (a10 := Axis 100 10).
  assert (G5 : good_axis 10 a5) by (split; cbn; [lia|lra]). assert (G10 : good_axis 10 a10) by (split; cbn; [lia|lra]).
  assert (F : axis_of 50 10 = a5). { rewrite (axis_value 50 10 5) by (lia || lra). unfold a5. f_equal; lra. }
  assert (Gr : grow_axis 50 10 a5 [70] = a10). { rewrite (grow_one 50 10 _ 70 2 10) by (cbn; lia || lra). unfold a10. f_equal; lra. }
  assert (T : forall a i x b, good_axis 10 a -> (b = true <-> (i < a_bins a)%nat /\ INR i * 10 <= x /\ (x < INR (S i) * 10 \/ S i = a_bins a /\ x = a_size a)) -> in_bin (axis_edges a) i x = b). { intros a i x b G H. apply eq_true_iff_eq. rewrite H. apply axis_bin; [lra|exact G]. }
  assert (N5 : grow_axis 50 10 a5 [50] = a5) by (apply grow_none; cbn; intros x [<-|[]]; lra). assert (Y5 : grow_axis 50 10 a5 [1] = a5) by (apply grow_none; cbn; intros x [<-|[]]; lra). assert (N10 : grow_axis 50 10 a10 [50] = a10) by (apply grow_none; cbn; intros x [<-|[]]; lra).
  assert (L1 : Rltb 50 50 = false) by (apply Rltb_false; lra). assert (L2 : Rltb 50 70 = true) by (apply Rltb_true; lra). assert (L3 : Rltb 100 50 = false) by (apply Rltb_false; lra). assert (L4 : Rltb 50 1 = false) by (apply Rltb_false; lra).
  assert (B0 : in_bin (axis_edges a5) 0 1 = true) by (apply T; [exact G5|cbn; split; [intros _; split; [lia|split; [lra|left; lra]]|reflexivity]]).
  assert (B1 : in_bin (axis_edges a5) 4 50 = true) by (apply T; [exact G5|cbn; split; [intros _; split; [lia|split; [lra|right; split; [reflexivity|lra]]]|reflexivity]]).
  assert (B2 : in_bin (axis_edges a10) 4 70 = false) by (apply T; [exact G10|cbn; split; [discriminate|intros (_ & _ & [H|[H _]]); [lra|discriminate]]]).
  assert (B3 : in_bin (axis_edges a10) 4 50 = false) by (apply T; [exact G10|cbn; split; [discriminate|intros (_ & _ & [H|[H _]]); [lra|discriminate]]]).
  assert (B4 : in_bin (axis_edges a10) 5 70 = false) by (apply T; [exact G10|cbn; split; [discriminate|intros (_ & _ & [H|[H _]]); [lra|discriminate]]]).
  assert (B5 : in_bin (axis_edges a10) 5 50 = true) by (apply T; [exact G10|cbn; split; [intros _; split; [lia|split; [lra|left; lra]]|reflexivity]]).
  unfold maps_at, in_pixel_maps, first_maps. cbn [fst snd]. rewrite F. cbn [in_pixel_chunks].
  unfold resize at 2 4 6. cbn [fst snd map at_cell same at_point intersection m_x m_y existsb]. rewrite N5, Y5, Gr. change (a_size a5) with 50. rewrite L1, L2, L4. cbn [orb].
  unfold fill at 2 4 6. cbn [filter all_tracks existsb orb m_x m_y m_tracks m_with_hit m_hits m_shapes map].
  unfold resize. cbn [fst snd map at_cell same at_point intersection m_x m_y existsb m_tracks]. rewrite N10, Y5, Gr. change (a_size a5) with 50. change (a_size a10) with 100. rewrite L2, L3, L4. cbn [orb].
  unfold fill. cbn [filter all_tracks existsb orb m_x m_y m_tracks m_with_hit m_hits m_shapes map]. unfold count_bins, enlarge. cbn [map filter at_cell same at_point intersection fst snd]. rewrite B0, B1, B2, B3, B4, B5. cbn. auto.
Qed.
Lemma off_value res a b : (0 <= a)%Z -> (0 < b)%Z -> (a mod b <> 0)%Z -> res = IZR b -> off_edges res (IZR a).
Proof. intros Ha Hb Hm ->. split; [apply IZR_le, Ha|]. intros k Hk E. rewrite INR_IZR_INZ, <- mult_IZR in E. apply eq_IZR in E. apply Hm. rewrite E. apply Z.mod_mul. lia. Qed.
(** pixels of 50 um, distance cut of 10 um, bins of 10 um; the hit of the first track is 20 um away *)
Definition cut_10 : track -> bool := valid_hit (50, 50) (Some 10, Some 10).
Definition far_track : track := Track (Some (25, 5)) (5, 5).
Definition near_track : track := Track (Some (5, 5)) (5, 5).
Definition hit_maps (chunks : list (list track)) : maps := in_pixel_maps (50, 50) (10, 10) same all_tracks cut_10 (fun _ => 1%Z) analyzed_shapes chunks.
Lemma cut_cases : cut_10 far_track = false /\ cut_10 near_track = true.
Proof.
  assert (U : use_ellipse (50, 50) (Some 10, Some 10) = false). { unfold use_ellipse, ge_opt. cbn. rewrite (proj2 (Rleb_false _ _)) by lra. reflexivity. }
  unfold cut_10, valid_hit. cbn [hit_position far_track near_track intersection fst snd]. rewrite U. cbn [ge_opt]. split.
  - rewrite (Rabs_right (25 - 5)) by lra. rewrite (proj2 (Rleb_false _ _)) by lra. reflexivity.
  - replace (5 - 5) with 0 by lra. rewrite Rabs_R0, (proj2 (Rleb_true _ _)) by lra. reflexivity.
Qed.
Lemma near_cases t : t = far_track \/ t = near_track -> near_hit (50, 50) (10, 10) same t.
Proof.
  intros H h E. assert (Q : h = (25, 5) \/ h = (5, 5)) by (destruct H as [-> | ->]; cbn in E; injection E as <-; auto). unfold same.
  destruct Q as [-> | ->]; cbn; (split; [apply (off_value 10 _ 10); (lia || reflexivity || (cbn; lia))|]); (split; [apply (off_value 10 _ 10); (lia || reflexivity || (cbn; lia))|]); lra.
Qed.
(** The map of hits depends on the chunks, and contains hits that are not valid: the hit of the far track is counted in the bin (2, 0) in one chunk with the other track, but not in a chunk of its own. *)
Theorem C104_hits_refuted : cut_10 far_track = false /\ m_hits (hit_maps [[far_track; near_track]]) 2 0 = 1%nat /\ m_hits (hit_maps [[far_track]; [near_track]]) 2 0 = 0%nat.
Proof.
  destruct cut_cases as [C1 C2]. split; [exact C1|].
  assert (I1 : inside (10, 10) 2 0 (25, 5) = true). { unfold inside. cbn. rewrite !(proj2 (Rleb_true _ _)), !(proj2 (Rltb_true _ _)) by lra. reflexivity. }
  assert (I2 : inside (10, 10) 2 0 (5, 5) = false). { unfold inside. cbn. rewrite (proj2 (Rleb_false _ _)) by lra. reflexivity. } split.
  - unfold hit_maps. rewrite C104_hits; cbn [fst snd]; try lra.
    + unfold hits_at_cell, same. cbn [concat app filter all_tracks flat_map hit_position far_track near_track]. rewrite I1, I2. reflexivity.
    + cbn. intros t [<-|[<-|[]]]; apply near_cases; auto.
    + cbn [In]. intros ts [<-|[]]. cbn [filter all_tracks existsb]. rewrite C1, C2. reflexivity.
  - unfold hit_maps. rewrite C104_hits_skipped by (cbn [filter all_tracks existsb]; rewrite C1; reflexivity).
    assert (Rz : resize (50, 50) (10, 10) same (first_maps (50, 50) (10, 10)) [far_track] = first_maps (50, 50) (10, 10)).
    { unfold resize. cbv zeta. destruct (axis_of_spec 50 10) as (_ & A & _); [lra|lra|]. cbn [existsb first_maps m_x m_y fst snd at_cell same far_track intersection]. rewrite !(proj2 (Rltb_false _ _)) by lra. reflexivity. }
    rewrite Rz. change (in_pixel_chunks (50, 50) (10, 10) same all_tracks cut_10 (fun _ => 1%Z) analyzed_shapes (first_maps (50, 50) (10, 10)) [[near_track]]) with (in_pixel_maps (50, 50) (10, 10) same all_tracks cut_10 (fun _ => 1%Z) analyzed_shapes [[near_track]]).
    rewrite C104_hits; cbn [fst snd]; try lra.
    + unfold hits_at_cell, same. cbn [concat app filter all_tracks flat_map hit_position near_track]. rewrite I2. reflexivity.
    + cbn. intros t [<-|[]]; apply near_cases; auto.
    + cbn [In]. intros ts [<-|[]]. cbn [filter all_tracks existsb]. rewrite C2. reflexivity.
Qed.
(** If the resolution does not divide the pitch, the extension is not the map of the neighbouring pixel: pixels of 50 um, bins of 30 um, a track 5 um from the edge of the pixel. The extended map has it in the bin
    from 60 um to 90 um, where no pixel has the position 5 um. *)
Theorem C104_extension_refuted : exists rows, extend_map 2 2 (30, 30) (Some 30, None) (m_tracks (maps_at 50 30 [[at_point 5]])) = Some rows /\
  a_size (m_x (maps_at 50 30 [[at_point 5]])) = 60 /\ nth 0 (nth 3 rows []) 0%nat = 1%nat /\ forall u, ~ (60 <= 5 + IZR u * 50 < 90).
Proof.
  assert (F : axis_of 50 30 = Axis 60 2) by (rewrite (axis_value 50 30 2) by (lia || lra); f_equal; lra).
  assert (Ax : m_x (maps_at 50 30 [[at_point 5]]) = Axis 60 2 /\ m_y (maps_at 50 30 [[at_point 5]]) = Axis 60 2).
  { unfold maps_at, in_pixel_maps. cbn [in_pixel_chunks]. rewrite (proj1 (fill_axes _ _ _ _ _ _ _)), (proj2 (fill_axes _ _ _ _ _ _ _)), (proj1 (resize_axes _ _ _ _ _)), (proj2 (resize_axes _ _ _ _ _)). cbn [first_maps m_x m_y fst snd]. rewrite F. split; apply grow_none; cbn; intros x [<-|[]]; lra. }
  destruct Ax as [Ax Ay]. assert (Eb : extend_bins (Some 30) 30 = 1%nat). { unfold extend_bins. replace (30 / 30) with (IZR 1) by lra. rewrite ceil_IZR. reflexivity. }
  destruct (extend_map 2 2 (30, 30) (Some 30, None) (m_tracks (maps_at 50 30 [[at_point 5]]))) as [rows|] eqn:E.
  2: { exfalso. revert E. apply extend_some; cbn [fst snd]; [rewrite Eb; lia|cbn; lia]. }
  exists rows. split; [reflexivity|]. split; [rewrite Ax; reflexivity|]. split.
  - destruct (C104_extended (50, 50) (30, 30) same all_tracks all_tracks (fun _ => 1%Z) analyzed_shapes [[at_point 5]] (Some 30, None) rows) as [_ X]; cbn [fst snd]; try lra.
    + cbn [concat app]. intros t [<-|[]]. split; cbn; [apply (off_value 30 5 30)|apply (off_value 30 1 30)]; (lia || reflexivity || (cbn; lia)).
    + fold (maps_at 50 30 [[at_point 5]]). rewrite Ax, Ay. exact E.
    + fold (maps_at 50 30 [[at_point 5]]) in X. rewrite Ax, Ay in X. cbn [fst snd a_bins] in X. rewrite X; [|cbn [fst]; rewrite Eb; lia|lia]. cbn [concat app filter all_tracks same at_point intersection fst snd andb a_size]. rewrite Eb.
      rewrite (proj2 (shifted_spec 30 60 1 3 5 ltac:(lra) ltac:(lra))) by (exists 1%Z; cbn; lra). cbn [extend_bins]. rewrite (proj2 (shifted_spec 30 60 0 0 1 ltac:(lra) ltac:(lra))) by (exists 0%Z; cbn; lra). reflexivity.
  - intros u [H1 H2]. assert (A : (1 < u)%Z) by (apply lt_IZR; lra). assert (B : (u < 2)%Z) by (apply lt_IZR; lra). lia.
Qed.

(** *** Number of bins in double precision *)
Lemma fl_int z : (Z.abs z < 2 ^ 53)%Z -> fl (IZR z) = IZR z.
Proof. intros H. apply fl_exact. rewrite <- (Rmult_1_r (IZR z)). change 1 with (bpow radix2 0). apply format_dyadic; [exact H|lia]. Qed.
(** For sizes and resolutions of whole micrometers the number of bins is exact. *)
Theorem C104_bins_double size res : (1 <= size <= 2 ^ 20)%Z -> (1 <= res <= 2 ^ 20)%Z -> n_bins_double (IZR size) (IZR res) = ceil (IZR size / IZR res).
Proof.
  intros Hs Hr. assert (R0 : 1 <= IZR res) by (apply IZR_le; lia). assert (S0 : 1 <= IZR size) by (apply IZR_le; lia). set (z := ceil (IZR size / IZR res)). destruct (ceil_spec (IZR size / IZR res)) as [C1 C2]. fold z in C1, C2.
  assert (Q1 : 0 < IZR size / IZR res) by (apply Rdiv_lt_0_compat; lra). pose proof (ceil_pos _ Q1) as Z1. fold z in Z1.
  assert (Q2 : IZR size / IZR res <= 1048576). { apply Rle_trans with (IZR size); [|apply IZR_le; lia]. apply Rmult_le_reg_r with (IZR res); [lra|]. unfold Rdiv. rewrite Rmult_assoc, Rinv_l by lra. nra. }
  assert (Zs : (z <= 1048576)%Z). { apply ceil_least. lra. }
  assert (G : IZR z - 1 + / 1048576 <= IZR size / IZR res).
  { assert (A : ((z - 1) * res + 1 <= size)%Z). { assert ((z - 1) * res < size)%Z; [|lia]. apply lt_IZR. rewrite mult_IZR, minus_IZR. apply Rmult_lt_reg_r with (/ IZR res); [apply Rinv_0_lt_compat; lra|]. rewrite Rmult_assoc, Rinv_r by lra. unfold Rdiv in C2. lra. }
    apply Rle_trans with (((IZR z - 1) * IZR res + 1) / IZR res).
    - replace (((IZR z - 1) * IZR res + 1) / IZR res) with (IZR z - 1 + / IZR res) by (field; lra). apply Rplus_le_compat_l. apply Rinv_le; [lra|]. apply IZR_le. lia.
    - unfold Rdiv. apply Rmult_le_compat_r; [apply Rlt_le, Rinv_0_lt_compat; lra|]. apply IZR_le in A. rewrite plus_IZR, mult_IZR, minus_IZR in A. exact A. }
  assert (E : ceil (fl (IZR size / IZR res)) = z).
  { assert (U : fl (IZR size / IZR res) <= IZR z) by (rewrite <- (fl_int z) by lia; apply fl_le, C1). assert (L : IZR z - 1 < fl (IZR size / IZR res)).
    { pose proof (fl_error (IZR size / IZR res)) as Er. rewrite (Rabs_right (IZR size / IZR res)) in Er by lra. pose proof tiny as Ti. assert (T : bpow radix2 (-1075) <= / 1152921504606846976). { destruct Ti as [_ Ti]. assert (bpow radix2 (-1000) <= 1) by (change 1 with (bpow radix2 0); apply bpow_le; lia). nra. }
      apply Rabs_le_inv in Er. assert (/ 2 ^ 53 * (IZR size / IZR res) <= / 8589934592) by (simpl; nra). lra. }
    destruct (ceil_spec (fl (IZR size / IZR res))) as [D1 D2]. assert (A : (z - 1 < ceil (fl (IZR size / IZR res)))%Z) by (apply lt_IZR; rewrite minus_IZR; lra). assert (B : (ceil (fl (IZR size / IZR res)) < z + 1)%Z) by (apply lt_IZR; rewrite plus_IZR; lra). lia. }
  unfold n_bins_double. cbv zeta. rewrite E, <- mult_IZR, fl_int by nia. replace (IZR (z * res) / IZR res) with (IZR z) by (rewrite mult_IZR; field; lra). rewrite fl_int by lia. apply Ztrunc_IZR.
Qed.
(** In general one bin can be missing: for the pitch 18.4 um and the resolution 0.6 um there are 30 bins in the range of 31 * 0.6 um, each 0.62 um wide. *)
Theorem C104_bins_refuted : n_bins_double (fl (184 / 10)) (fl (6 / 10)) = 30%Z /\ ceil (184 / 10 / (6 / 10)) = 31%Z.
Proof.
  assert (Er : fl (6 / 10) = IZR 5404319552844595 * bpow radix2 (-53)). { apply fl_value; [lia| |]; cbn; [rewrite Rabs_right by lra; lra|apply Rabs_def1; lra]. }
  split.
  - rewrite mimosa_pitch_double, Er. unfold n_bins_double, mimosa_pitch. cbv zeta.
    assert (C : ceil (fl (IZR 5179139571476070 * bpow radix2 (-48) / (IZR 5404319552844595 * bpow radix2 (-53)))) = 31%Z).
    { set (x := IZR 5179139571476070 * bpow radix2 (-48) / (IZR 5404319552844595 * bpow radix2 (-53))). assert (X : 61 / 2 <= x <= 31) by (unfold x; assert (M : IZR 5179139571476070 * bpow radix2 (-48) / (IZR 5404319552844595 * bpow radix2 (-53)) = 5179139571476070 * 32 / 5404319552844595) by (cbn; field); rewrite M; lra).
      assert (L : 61 / 2 <= fl x). { replace (61 / 2) with (fl (IZR 61 / 2)) by (rewrite fl_half by lia; reflexivity). apply fl_le. lra. } assert (U : fl x <= 31) by (rewrite <- (fl_int 31) by lia; apply fl_le; lra).
      destruct (ceil_spec (fl x)) as [D1 D2]. assert (A : (30 < ceil (fl x))%Z) by (apply lt_IZR; lra). assert (B : (ceil (fl x) < 32)%Z) by (apply lt_IZR; lra). lia. }
    rewrite C. assert (S1 : fl (31 * (IZR 5404319552844595 * bpow radix2 (-53))) = IZR 5235434566818201 * bpow radix2 (-48)). { apply fl_value; [lia| |]; cbn; [rewrite Rabs_right by lra; lra|apply Rabs_def1; lra]. }
    rewrite S1. assert (M : IZR 5235434566818201 * bpow radix2 (-48) / (IZR 5404319552844595 * bpow radix2 (-53)) = 5235434566818201 * 32 / 5404319552844595) by (cbn; field). rewrite M.
    assert (S2 : fl (5235434566818201 * 32 / 5404319552844595) = IZR 8725724278030335 * bpow radix2 (-48)). { apply fl_value; [lia| |]; cbn; [rewrite Rabs_right by lra; lra|apply Rabs_def1; lra]. }
    rewrite S2. rewrite Ztrunc_floor by (cbn; lra). apply Zfloor_imp. cbn. lra.
  - destruct (ceil_spec (184 / 10 / (6 / 10))) as [D1 D2]. assert (A : (30 < ceil (184 / 10 / (6 / 10)))%Z) by (apply lt_IZR; lra). assert (B : (ceil (184 / 10 / (6 / 10)) < 32)%Z) by (apply lt_IZR; lra). lia.
Qed.

(** *** Cases *)
(** two tracks in a cell of two pixels of 50 um, bins of 10 um: resolution and pitch, no track on an edge *)
Definition case_chunks : list (list track) := [[near_track; at_point 73]; [far_track; Track (Some (3, 4)) (7, 12)]].
Example C104_case : (forall t, In t (concat case_chunks) -> off_track (10, 10) same t) /\ fst (50, 50) = INR 5 * fst (10, 10) /\
  Permutation (concat case_chunks) (concat (rev case_chunks)) /\ (forall ts, In ts [[near_track]; [far_track; near_track]] -> existsb cut_10 (filter all_tracks ts) = true).
Proof.
  split; [|split; [cbn; lra|split]].
  - cbn [concat case_chunks app]. intros t [<-|[<-|[<-|[<-|[]]]]]; split; cbn; match goal with |- off_edges 10 ?x => match x with IZR ?z => apply (off_value 10 z 10) | _ => apply (off_value 10 1 10) end end; (lia || reflexivity || (cbn; lia)).
  - cbn [concat case_chunks rev app]. apply (Permutation_app_comm [near_track; at_point 73]).
  - destruct cut_cases as [C1 C2]. cbn [In]. intros ts [<-|[<-|[]]]; cbn [filter all_tracks existsb]; rewrite ?C1, C2; reflexivity.
Qed.
Example C104_extend_case : extend_map 5 10 (10, 10) (Some 20, Some 30) (m_tracks (maps_at 50 10 [[at_point 5]])) <> None /\ (1 <= 18 <= 2 ^ 20)%Z.
Proof.
  split; [|lia]. apply extend_some; cbn [fst snd extend_bins].
  - replace (20 / 10) with (IZR 2) by lra. rewrite ceil_IZR. cbn. lia.
  - replace (30 / 10) with (IZR 3) by lra. rewrite ceil_IZR. cbn. lia.
Qed.

Print Assumptions C104_counts.
Print Assumptions C104_range.
Print Assumptions C104_total.
Print Assumptions C104_size.
Print Assumptions C104_chunks.
Print Assumptions C104_efficiency.
Print Assumptions C104_hits.
Print Assumptions C104_hits_skipped.
Print Assumptions C104_shapes.
Print Assumptions C104_diagonal_refuted.
Print Assumptions C104_most_probable.
Print Assumptions C104_extended.
Print Assumptions C104_extent.
Print Assumptions C104_size_refuted.
Print Assumptions C104_edge_refuted.
Print Assumptions C104_hits_refuted.
Print Assumptions C104_extension_refuted.
Print Assumptions C104_bins_double.
Print Assumptions C104_bins_refuted.
