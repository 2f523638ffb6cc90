(** Pages "Efficiency per pixel" (C150). *)
From Coq Require Import List Arith ZArith Lia Lra Reals Bool.
From Verif Require Import GeometryModel GeometryProofs CorrelateModel CorrelateBinsProps CoordinatesProps VoronoiModel PixelColoursModel.
Import ListNotations.
Local Open Scope R_scope.

Lemma every_map {A B} (f : A -> option B) l : (forall a, In a l -> f a <> None) -> exists r, every (map f l) = Some r /\ length r = length l /\ forall k d e, (k < length l)%nat -> f (nth k l d) = Some (nth k r e).
Proof.
  induction l as [|a l IH]; intros H; [exists []; split; [reflexivity|split; [reflexivity|intros k d e L; cbn in L; lia]]|].
  destruct IH as (r & E & L & N); [intros; apply H; right; assumption|]. destruct (f a) as [b|] eqn:Fa; [|exfalso; apply (H a); [left; reflexivity|exact Fa]].
  exists (b :: r). cbn [map every]. rewrite Fa. cbn [every]. rewrite E. split; [reflexivity|]. split; [cbn; lia|]. intros [|k] d e Hk; [exact Fa|]. cbn [nth]. apply N. cbn in Hk. lia.
Qed.
(** a closed polygon: all corners are vertices of the diagram *)
Definition closed (vertices : list point) (r : list Z) : Prop := forall k, In k r -> (0 <= k < Z.of_nat (length vertices))%Z.
Lemma closed_finite vertices r : closed vertices r -> finite_region r = true.
Proof. intros C. unfold finite_region. destruct (existsb _ r) eqn:E; [|reflexivity]. apply existsb_exists in E. destruct E as (k & I & Q). apply Z.eqb_eq in Q. specialize (C k I). lia. Qed.
(** the corners of a polygon of the diagram *)
Definition corners_are (vertices : list point) (r : list Z) (c : list point) : Prop := length c = length r /\ forall i d, (i < length r)%nat -> nth i c d = nth (Z.to_nat (nth i r 0%Z)) vertices d.
Lemma closed_corners vertices r : closed vertices r -> exists c, every (map (vertex vertices) r) = Some c /\ corners_are vertices r c.
Proof.
  intros C. destruct (every_map (vertex vertices) r) as (c & E & L & N).
  - intros k I. specialize (C k I). unfold vertex. destruct (Z.ltb_spec k 0) as [|_]; [lia|]. apply nth_error_Some. lia.
  - exists c. split; [exact E|]. split; [exact L|]. intros i d Hi. specialize (N i 0%Z d Hi). unfold vertex in N. assert (K := C (nth i r 0%Z) (nth_In _ _ Hi)). destruct (Z.ltb_spec (nth i r 0%Z) 0) as [|_]; [lia|]. apply (nth_error_nth _ _ d) in N. symmetry. exact N.
Qed.
Lemma filter_all {A} (f : A -> bool) l : (forall a, In a l -> f a = true) -> filter f l = l.
Proof. intros H. induction l as [|a l IH]; [reflexivity|]. cbn. rewrite (H a (or_introl eq_refl)). f_equal. apply IH. intros; apply H; right; assumption. Qed.
(** If every pixel has a closed polygon, every page shows exactly one polygon for each pixel, in the order of the pixels (column by column), with the corners of the pixel and with the colour of the efficiency of this pixel;
    pixels whose efficiency is masked are white. *)
Theorem C150_pixels : forall vertices regions values n_columns n_rows, length regions = (n_columns * n_rows)%nat -> length values = (n_columns * n_rows)%nat -> (forall r, In r regions -> closed vertices r) ->
  length (efficiency_per_pixel vertices regions values) = 5%nat /\
  forall page z_min, (page < 5)%nat -> z_min = nth page [0; 90; 95; 97; 98] 0 -> exists polys, nth page (efficiency_per_pixel vertices regions values) None = Some polys /\ length polys = (n_columns * n_rows)%nat /\
  forall c r, (c < n_columns)%nat -> (r < n_rows)%nat -> let k := (c * n_rows + r)%nat in
  corners_are vertices (nth k regions []) (corners (nth k polys (Polygon [] None))) /\
  match nth k values None with None => fill_colour (nth k polys (Polygon [] None)) = None | Some e => fill_colour (nth k polys (Polygon [] None)) = Some (colour z_min 100 e) end.
Proof.
  intros vertices regions values nc nr Lr Lv C. split; [reflexivity|]. intros page z_min Hp ->.
  assert (F : filter finite_region regions = regions) by (apply filter_all; intros r I; apply (closed_finite vertices), C, I).
  destruct (every_map (fun r => every (map (vertex vertices) r)) regions) as (verts & E & L & N).
  { intros r I. destruct (closed_corners vertices r (C r I)) as (c & -> & _). discriminate. }
  assert (X : forall z, exists polys, pixels_plot_2d vertices regions values z (Some 100) = Some polys /\ length polys = (nc * nr)%nat /\
    forall c r, (c < nc)%nat -> (r < nr)%nat -> let k := (c * nr + r)%nat in corners_are vertices (nth k regions []) (corners (nth k polys (Polygon [] None))) /\
    match nth k values None with None => fill_colour (nth k polys (Polygon [] None)) = None | Some e => fill_colour (nth k polys (Polygon [] None)) = Some (colour z 100 e) end).
  { intros z. unfold pixels_plot_2d, polygons. rewrite F, E. eexists. split; [reflexivity|]. split; [rewrite map_length, combine_length, seq_length; lia|].
    intros c r Hc Hr. set (k := (c * nr + r)%nat). assert (K : (k < nc * nr)%nat) by (unfold k; nia). clearbody k.
    set (g := fun p : nat * list point => Polygon (snd p) (option_map (colour z (upper_limit (Some 100) values)) (nth (fst p mod length values) values None))).
    rewrite (nth_indep _ (Polygon [] None) (g (0%nat, []))) by (rewrite map_length, combine_length, seq_length; lia). rewrite map_nth, combine_nth by apply seq_length. rewrite seq_nth by lia. cbn [g fst snd corners fill_colour Nat.add upper_limit].
    rewrite Nat.mod_small by lia. split.
    - specialize (N k [] [] ltac:(lia)). assert (I : In (nth k regions []) regions) by (apply nth_In; lia). destruct (closed_corners vertices _ (C _ I)) as (c' & E' & A). rewrite N in E'. injection E' as ->. exact A.
    - destruct (nth k values None); reflexivity. }
  unfold efficiency_per_pixel, lower_limits. do 5 (destruct page as [|page]; [apply X|]). lia.
Qed.
(** A polygon which is not closed is skipped, but not its value: the colours of all following pixels are those of their predecessors. Two pixels with efficiencies of 50 % and 100 %, the first one without closed polygon. *)
Theorem C150_open_refuted : exists vertices, let regions := [[-1; 0; 1]; [0; 1; 2]]%Z in
  pixels_plot_2d vertices regions [Some 50; Some 100] 0 (Some 100) = Some [Polygon vertices (Some (colour 0 100 50))] /\ colour 0 100 50 <> colour 0 100 100 /\ (forall i, In i (nth 1 regions []) -> (0 <= i < Z.of_nat (length vertices))%Z).
Proof.
  assert (A : Int_part ((50 - 0) / (100 - 0) * 256) = 128%Z) by (apply Int_part_between; lra).
  assert (B : Int_part ((100 - 0) / (100 - 0) * 256) = 256%Z) by (apply Int_part_between; lra).
  exists [(0, 0); (1, 0); (0, 1)]. cbv zeta. split; [reflexivity|]. split; [unfold colour; rewrite A, B; vm_compute; discriminate|]. cbn. intros i [<-|[<-|[<-|[]]]]; lia.
Qed.
(** Between the limits of the colours, the colour is the number of the interval (of 256) which contains the value; values up to the lower limit and from the upper limit have the first and the last colour. *)
Theorem C150_colours : forall z_min z_max v, z_min < z_max -> let c := colour z_min z_max v in let w := (z_max - z_min) / 256 in
  (0 <= c <= 255)%Z /\ (v <= z_min -> c = 0%Z) /\ (z_max <= v -> c = 255%Z) /\ (z_min <= v < z_max -> z_min + IZR c * w <= v < z_min + (IZR c + 1) * w).
Proof.
  intros z_min z_max v L c w. set (t := (v - z_min) / (z_max - z_min) * 256). assert (P : 0 < z_max - z_min) by lra. assert (W : 0 < w) by (unfold w; lra).
  assert (T : v = z_min + t * w) by (unfold t, w; field; lra). destruct (base_Int_part t) as [I1 I2]. unfold c, colour. fold t.
  assert (Sw : forall a, t <= a -> v <= z_min + a * w) by (intros a Q; rewrite T; apply Rplus_le_compat_l, Rmult_le_compat_r; lra).
  split; [lia|]. split.
  { intros H. assert (t <= 0). { destruct (Rle_lt_dec t 0) as [|G]; [assumption|]. assert (0 < t * w) by (apply Rmult_lt_0_compat; lra). lra. } assert (Int_part t <= 0)%Z by (apply le_IZR; lra). lia. }
  split.
  { intros H. assert (256 <= t). { destruct (Rle_lt_dec 256 t) as [|G]; [assumption|]. assert (t * w < 256 * w) by (apply Rmult_lt_compat_r; lra). assert (256 * w = z_max - z_min) by (unfold w; field). lra. } assert (255 < Int_part t)%Z by (apply lt_IZR; lra). lia. }
  intros [H1 H2]. assert (T0 : 0 <= t). { destruct (Rle_lt_dec 0 t) as [|G]; [assumption|]. assert (t * w < 0 * w) by (apply Rmult_lt_compat_r; lra). lra. } assert (T1 : t < 256). { destruct (Rlt_le_dec t 256) as [|G]; [assumption|]. assert (256 * w <= t * w) by (apply Rmult_le_compat_r; lra). assert (256 * w = z_max - z_min) by (unfold w; field). lra. }
  assert (J1 : (-1 < Int_part t)%Z) by (apply lt_IZR; lra). assert (J2 : (Int_part t < 256)%Z) by (apply lt_IZR; lra). replace (Z.max 0 (Z.min 255 (Int_part t))) with (Int_part t) by lia.
  split; rewrite T; [apply Rplus_le_compat_l, Rmult_le_compat_r; lra|apply Rplus_lt_compat_l, Rmult_lt_compat_r; lra].
Qed.
(** On the pages with the lower limits 90, 95, 97 and 98 a dead pixel can not be told from one with the efficiency of the limit. *)
Theorem C150_dead_pixels : forall z_min, In z_min [90; 95; 97; 98] -> forall e, 0 <= e <= z_min -> colour z_min 100 e = colour z_min 100 0.
Proof.
  intros z I e H. assert (L : z < 100 /\ 0 <= z) by (cbn in I; decompose [or] I; try lra; contradiction). destruct (C150_colours z 100 e) as (_ & A & _); [lra|]. destruct (C150_colours z 100 0) as (_ & B & _); [lra|]. rewrite A, B by lra. reflexivity.
Qed.
(** Without upper limit, the range of the colours contains all values: the limit is a whole number not below any of them, 1 if all are (nearly) 0 or masked. *)
Theorem C150_limit : forall values, let z := upper_limit None values in
  (forall v, In (Some v) values -> v <= z) /\ (exists k, z = IZR k) /\ ((forall v, In (Some v) values -> v = 0) -> z = 1) /\
  (forall u, (forall v, In (Some v) values -> v <= IZR u) -> (1 <= u)%Z -> z <= IZR u).
Proof.
  intros values z. assert (S : forall v, In (Some v) values <-> In v (shown_values values)).
  { intros v. unfold shown_values. rewrite in_flat_map. split; [intros I; exists (Some v); split; [exact I|left; reflexivity]|]. intros ([x|] & I & J); [destruct J as [->|[]]; exact I|destruct J]. }
  unfold z, upper_limit. destruct (shown_values values) as [|x l].
  - split; [intros v I; apply S in I; destruct I|]. split; [exists 1%Z; reflexivity|]. split; [reflexivity|]. intros u _ U. apply IZR_le. exact U.
  - assert (M : forall l a, a <= fold_left Rmax l a /\ (forall v, In v l -> v <= fold_left Rmax l a) /\ (forall b, a <= b -> (forall v, In v l -> v <= b) -> fold_left Rmax l a <= b)).
    { clear. induction l as [|y l IH]; intros a; cbn [fold_left]; [split; [lra|split; [intros v []|auto]]|]. destruct (IH (Rmax a y)) as (A & B & C). pose proof (Rmax_l a y). pose proof (Rmax_r a y). split; [lra|]. split; [intros v [->|I]; [lra|apply B, I]|]. intros b Hb Hv. apply C; [apply Rmax_lub; [exact Hb|apply Hv; left; reflexivity]|]. intros v I. apply Hv. right. exact I. }
    destruct (forallb close_to_zero (x :: l)) eqn:F.
    + rewrite forallb_forall in F. split; [|split; [exists 1%Z; reflexivity|split; [reflexivity|intros u _ U; apply IZR_le; exact U]]]. intros v I. apply S, F in I. unfold close_to_zero in I. apply Rleb_true in I. pose proof (Rle_abs v). lra.
    + destruct (M l x) as (A & B & C). destruct (ceil_spec (fold_left Rmax l x)) as [C1 C2]. split; [intros v I; apply S in I; destruct I as [<-|I]; [lra|specialize (B v I); lra]|]. split; [eexists; reflexivity|]. split.
      * intros Z. exfalso. assert (T : forallb close_to_zero (x :: l) = true); [|congruence]. apply forallb_forall. intros v I. apply S in I. rewrite (Z v I). unfold close_to_zero. rewrite Rabs_R0. apply Rleb_true. lra.
      * intros u U _. apply IZR_le. assert (Q : fold_left Rmax l x <= IZR u) by (apply C; [apply U, S; left; reflexivity|intros v I; apply U, S; right; exact I]). assert (ceil (fold_left Rmax l x) < u + 1)%Z; [|lia]. apply lt_IZR. rewrite plus_IZR. lra.
Qed.
(** Non-vacuity: two pixels in one column with common corners. *)
Example C150_case : let vertices := [(0, 0); (1, 0); (0, 1); (1, 1); (0, 2); (1, 2)] in let regions := [[0; 1; 3; 2]; [2; 3; 5; 4]]%Z in
  (forall r, In r regions -> closed vertices r) /\ length regions = (1 * 2)%nat /\ length [Some 99; None] = (1 * 2)%nat.
Proof. cbv zeta. split; [|split; reflexivity]. intros r [<-|[<-|[]]] k I; cbn in I |- *; decompose [or] I; lia. Qed.

Print Assumptions C150_pixels.
Print Assumptions C150_open_refuted.
Print Assumptions C150_colours.
Print Assumptions C150_dead_pixels.
Print Assumptions C150_limit.
