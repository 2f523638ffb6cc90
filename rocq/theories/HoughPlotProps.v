(** C141: pages of prealign. *)
From Coq Require Import List Arith ZArith Reals Bool Lia Lra.
From Verif Require Import GeometryModel GeometryProofs CorrelateModel PrealignModel CorrelateBinsProps HoughProps DensityModel DensityProps HoughPlotModel.
Import ListNotations.
Local Open Scope R_scope.

(** * Specification *)
(** u is in the bin of the given size around the centre *)
Definition around (centre size u : R) : Prop := centre - size / 2 <= u < centre + size / 2.

(** ** Drawing of an image *)
Lemma cell_index x0 x1 n i x : x0 < x1 -> (i < n)%nat -> x0 + INR i * ((x1 - x0) / INR n) <= x < x0 + (INR i + 1) * ((x1 - x0) / INR n) -> Int_part ((x - x0) / (x1 - x0) * INR n) = Z.of_nat i.
Proof.
  intros D I (A & B). assert (N : 0 < INR n) by (apply lt_0_INR; lia). assert (P : 0 < (x1 - x0) / INR n) by (apply Rdiv_lt_0_compat; lra). apply Int_part_eq. rewrite <- INR_IZR_INZ.
  set (w := (x1 - x0) / INR n) in *. replace ((x - x0) / (x1 - x0) * INR n) with ((x - x0) / w) by (unfold w; field; lra). split.
  - apply Rmult_le_reg_r with w; [exact P|]. replace ((x - x0) / w * w) with (x - x0) by (field; lra). lra.
  - apply Rmult_lt_reg_r with w; [exact P|]. replace ((x - x0) / w * w) with (x - x0) by (field; lra). lra.
Qed.
Lemma drawn_cell p x0 x1 y0 y1 i j x y : p_extent p = (x0, x1, y0, y1) -> x0 < x1 -> y0 < y1 -> (i < p_columns p)%nat -> (j < p_rows p)%nat ->
  x0 + INR i * ((x1 - x0) / INR (p_columns p)) <= x < x0 + (INR i + 1) * ((x1 - x0) / INR (p_columns p)) ->
  y0 + INR j * ((y1 - y0) / INR (p_rows p)) <= y < y0 + (INR j + 1) * ((y1 - y0) / INR (p_rows p)) -> drawn_at p x y = p_image p j i.
Proof.
  intros E X Y I J A B. unfold drawn_at. rewrite E, (cell_index _ _ _ _ _ X I A), (cell_index _ _ _ _ _ Y J B), !Nat2Z.id. rewrite !(proj2 (Z.leb_le _ _)), !(proj2 (Z.ltb_lt _ _)) by lia. reflexivity.
Qed.

(** ** Edges of equidistant bins *)
Lemma edges_of l n a d : (1 <= n)%nat -> length l = S n -> (forall k, (k <= n)%nat -> nth k l 0 = a + INR k * d) ->
  exists e, center_edges l = Some e /\ nth 0 e 0 = a - d / 2 /\ last e 0 = a + INR n * d + d / 2.
Proof.
  intros N L H. assert (Ml : length (midpoints l) = n) by (unfold midpoints; rewrite map_length, seq_length; lia).
  assert (Mn : forall k, (k < n)%nat -> nth k (midpoints l) 0 = a + (INR k + 1 / 2) * d).
  { intros k K. unfold midpoints. set (f := fun k => (nth (S k) l 0 + nth k l 0) / 2). rewrite (nth_indep _ 0 (f 0%nat)) by (rewrite map_length, seq_length; lia). rewrite map_nth, seq_nth by lia. unfold f. cbn [Nat.add].
    rewrite !H by lia. rewrite S_INR. lra. }
  assert (Mlast : last (midpoints l) 0 = a + (INR n - 1 / 2) * d).
  { destruct (exists_last (l := midpoints l)) as (u & w & W); [intros Z; rewrite Z in Ml; cbn in Ml; lia|]. rewrite W, last_last. rewrite W, app_length in Ml. cbn [length] in Ml.
    specialize (Mn (length u) ltac:(lia)). rewrite W, app_nth2, Nat.sub_diag in Mn by lia. cbn [nth] in Mn. rewrite Mn. replace (INR n) with (INR (length u) + 1) by (rewrite <- S_INR; f_equal; lia). lra. }
  destruct l as [|x [|y l]]; [cbn in L; lia|cbn in L; lia|]. assert (D : y - x = d).
  { pose proof (H 0%nat ltac:(lia)) as H0. pose proof (H 1%nat ltac:(lia)) as H1. cbn [nth INR] in H0, H1. lra. }
  unfold center_edges. eexists. split; [reflexivity|]. rewrite D. split.
  - cbn [nth]. rewrite Mn by lia. cbn [INR]. lra.
  - rewrite app_comm_cons, last_last, Mlast. lra.
Qed.
Lemma q_positive w h res : 0 < res -> (1 <= w)%nat -> (1 <= h)%nat -> (2 < w + h)%nat -> (1 <= n_q w h res)%nat.
Proof.
  intros Hr W H S. pose proof (diag_le w h res Hr) as D. destruct (n_q w h res) as [|q]; [|lia]. exfalso. cbn [INR] in D. unfold diag_len in D.
  assert (P : 0 < (INR w - 1) ^ 2 + (INR h - 1) ^ 2).
  { assert (A : 1 <= INR w) by (apply (le_INR 1); lia). assert (B : 1 <= INR h) by (apply (le_INR 1); lia). destruct (le_lt_dec w 1).
    - assert (2 <= INR h) by (apply (le_INR 2); lia). assert (0 < (INR h - 1) ^ 2) by (apply pow_lt; lra). pose proof (pow2_ge_0 (INR w - 1)). lra.
    - assert (2 <= INR w) by (apply (le_INR 2); lia). assert (0 < (INR w - 1) ^ 2) by (apply pow_lt; lra). pose proof (pow2_ge_0 (INR h - 1)). lra. }
  apply sqrt_lt_R0 in P. lra.
Qed.

(** The first page exists for every image with more than one bin, and it shows the votes of the line at distance rho and angle theta (in degrees) not there but at distance - rho and angle - theta. *)
Theorem C141_accumulator theta_res rho_res w h pixels : 0 < theta_res -> 0 < rho_res -> (1 <= w)%nat -> (1 <= h)%nat -> (2 < w + h)%nat ->
  exists p step, hough_page theta_res rho_res w h pixels = Some p /\ 0 < step <= theta_res /\
    forall i j x y, (i < length (rhos w h rho_res))%nat -> (j < length (thetas theta_res))%nat ->
      around (- rad2deg (nth j (thetas theta_res) 0)) step x -> around (- nth i (rhos w h rho_res) 0) rho_res y ->
      drawn_at p x y = Some (INR (hough_transform (rhos w h rho_res) (thetas theta_res) pixels i j)).
Proof.
  intros Ht Hr W H S. pose proof (q_positive w h rho_res Hr W H S) as Q. set (q := n_q w h rho_res) in *. pose proof PI_RGT_0 as Pi.
  destruct (C63_thetas theta_res Ht) as (n & N & Nr & Lt & Nt). assert (N0 : 0 < INR n) by (apply lt_0_INR; lia). assert (Q0 : 0 < INR q) by (apply lt_0_INR; lia).
  destruct (edges_of (thetas theta_res) (2 * n) (-90 * (PI / 180)) (90 / INR n * (PI / 180))) as (te & Et & Ft & Gt); [lia|lia|intros k K; rewrite Nt by exact K; ring|].
  destruct (edges_of (rhos w h rho_res) (2 * q) (- INR q * rho_res) rho_res) as (re & Er & Fr & Gr); [lia|rewrite rhos_length; fold q; lia|intros k K; rewrite rhos_nth by exact K; fold q; ring|].
  eexists. exists (90 / INR n). split; [unfold hough_page, accumulator_page; rewrite Et, Er; reflexivity|]. split; [split; [apply Rdiv_lt_0_compat; lra|exact Nr]|].
  intros i j x y I J X Y. rewrite Lt in J. rewrite rhos_length in I. fold q in I. rewrite Nt in X by lia. rewrite rhos_nth in Y by lia. fold q in Y.
  rewrite (drawn_cell _ (rad2deg (nth 0 te 0)) (rad2deg (last te 0)) (nth 0 re 0) (last re 0) (2 * n - j) (2 * q - i)).
  - cbn [p_image]. rewrite Lt, rhos_length. fold q. do 2 f_equal. f_equal; lia.
  - reflexivity.
  - rewrite Ft, Gt. unfold rad2deg. apply Rmult_lt_compat_r; [apply Rdiv_lt_0_compat; lra|]. rewrite mult_INR. cbn [INR]. assert (0 < PI / 180) by lra. assert (A : INR n * (90 / INR n * (PI / 180)) = 90 * (PI / 180)) by (field; lra).
    assert (0 < 90 / INR n * (PI / 180)) by (apply Rmult_lt_0_compat; [apply Rdiv_lt_0_compat|]; lra). lra.
  - rewrite Fr, Gr, mult_INR. cbn [INR]. assert (0 < INR q * rho_res) by (apply Rmult_lt_0_compat; lra). lra.
  - cbn [p_columns]. lia.
  - cbn [p_rows]. rewrite rhos_length. fold q. lia.
  - cbn [p_columns]. rewrite Lt, Ft, Gt. unfold around, rad2deg in X. replace ((-90 + INR j * (90 / INR n)) * (PI / 180) * (180 / PI)) with (-90 + INR j * (90 / INR n)) in X by (field; lra).
    assert (A1 : rad2deg (-90 * (PI / 180) - 90 / INR n * (PI / 180) / 2) = -90 - 90 / INR n / 2) by (unfold rad2deg; field; lra).
    assert (A2 : rad2deg (-90 * (PI / 180) + INR (2 * n) * (90 / INR n * (PI / 180)) + 90 / INR n * (PI / 180) / 2) = 90 + 90 / INR n / 2) by (unfold rad2deg; rewrite mult_INR; cbn [INR]; field; lra).
    rewrite A1, A2. replace ((90 + 90 / INR n / 2 - (-90 - 90 / INR n / 2)) / INR (2 * n + 1)) with (90 / INR n) by (rewrite plus_INR, mult_INR; cbn [INR]; field; split; lra).
    rewrite minus_INR, mult_INR by lia. cbn [INR]. assert (B : INR n * (90 / INR n) = 90) by (field; lra). lra.
  - cbn [p_rows]. rewrite rhos_length. fold q. rewrite Fr, Gr. unfold around in Y. replace ((- INR q * rho_res + INR (2 * q) * rho_res + rho_res / 2 - (- INR q * rho_res - rho_res / 2)) / INR (2 * q + 1)) with rho_res by (rewrite plus_INR, mult_INR; cbn [INR]; field; lra).
    rewrite minus_INR, mult_INR by lia. cbn [INR]. lra.
Qed.
(** An image with one bin only: no page, an exception. *)
Theorem C141_one_bin theta_res rho_res pixels : 0 < rho_res -> hough_page theta_res rho_res 1 1 pixels = None.
Proof.
  intros Hr. unfold hough_page, accumulator_page. assert (E : n_q 1 1 rho_res = 0%nat).
  { unfold n_q, diag_len. replace ((INR 1 - 1) ^ 2 + (INR 1 - 1) ^ 2) with 0 by (cbn [INR]; ring). rewrite sqrt_0. replace (0 / rho_res) with 0 by (field; lra). pose proof (ceil_spec 0) as C. assert (ceil 0 < 1)%Z by (apply lt_IZR; lra). lia. }
  assert (L : length (rhos 1 1 rho_res) = 1%nat) by (rewrite rhos_length, E; reflexivity). destruct (rhos 1 1 rho_res) as [|a [|b l]]; [discriminate L| |discriminate L]. reflexivity.
Qed.

(** Desired: the page shows the number of votes of a line at its distance and angle.  False: one hit in the second of two bins votes for the distance 1 at angle 0, the page shows 0 there. *)
Theorem C141_mirrored_refuted theta_res : 0 < theta_res -> exists p i j, hough_page theta_res 1 1 2 [(1, 0)%nat] = Some p /\ nth i (rhos 1 2 1) 0 = 1 /\ (j < length (thetas theta_res))%nat /\ nth j (thetas theta_res) 0 = 0 /\
  hough_transform (rhos 1 2 1) (thetas theta_res) [(1, 0)%nat] i j = 1%nat /\ drawn_at p 0 1 = Some 0 /\ drawn_at p 0 (-1) = Some 1.
Proof.
  intros Ht. destruct (C141_accumulator theta_res 1 1 2 [(1, 0)%nat] Ht ltac:(lra) ltac:(lia) ltac:(lia) ltac:(lia)) as (p & step & E & Hs & D). destruct (C63_thetas theta_res Ht) as (n & N & _ & Lt & Nt).
  assert (N0 : 0 < INR n) by (apply lt_0_INR; lia).
  assert (T0 : nth n (thetas theta_res) 0 = 0). { rewrite Nt by lia. replace (INR n * (90 / INR n)) with 90 by (field; lra). lra. }
  assert (Q : n_q 1 2 1 = 1%nat). { unfold n_q, diag_len. replace ((INR 1 - 1) ^ 2 + (INR 2 - 1) ^ 2) with 1 by (cbn [INR]; ring). rewrite sqrt_1. replace (1 / 1) with 1 by lra. pose proof (ceil_spec 1) as C. assert (ceil 1 < 2)%Z by (apply lt_IZR; lra). assert (0 < ceil 1)%Z by (apply lt_IZR; lra). lia. }
  assert (Rl : length (rhos 1 2 1) = 3%nat) by (rewrite rhos_length, Q; reflexivity).
  assert (Rn : forall k, (k <= 2)%nat -> nth k (rhos 1 2 1) 0 = INR k - 1) by (intros k K; rewrite rhos_nth by (rewrite Q; lia); rewrite Q; cbn [INR]; lra).
  assert (Rv : rho_index (rhos 1 2 1) 1 0 0 = 2%nat).
  { unfold rho_index. assert (El : rhos 1 2 1 = [-1; 0; 1]). { apply nth_ext with (d := 0) (d' := 0); [exact Rl|]. rewrite Rl. intros k K. rewrite Rn by lia. destruct k as [|[|[|k]]]; cbn [nth INR]; try lra. lia. }
    rewrite El, cos_0, sin_0. cbn [map argmin argmin_from INR]. replace (Rabs (-1 - (1 * 1 + 0 * 0))) with 2 by (rewrite Rabs_left; lra). replace (Rabs (0 - (1 * 1 + 0 * 0))) with 1 by (rewrite Rabs_left; lra).
    replace (Rabs (1 - (1 * 1 + 0 * 0))) with 0 by (replace (1 - (1 * 1 + 0 * 0)) with 0 by lra; now rewrite Rabs_R0). unfold Rltb. repeat (destruct Rlt_dec; try lra). reflexivity. }
  assert (V : forall i, hough_transform (rhos 1 2 1) (thetas theta_res) [(1, 0)%nat] i n = if (i =? 2)%nat then 1%nat else 0%nat).
  { intros i. rewrite C63_votes by lia. rewrite T0. unfold votes_for. cbn [filter fst snd]. rewrite Rv. rewrite (Nat.eqb_sym i 2) || idtac. destruct (Nat.eqb_spec 2 i) as [<-|A]; [reflexivity|]. destruct (Nat.eqb_spec i 2); [congruence|reflexivity]. }
  exists p, 2%nat, n. split; [exact E|]. split; [rewrite Rn by lia; cbn [INR]; lra|]. split; [lia|]. split; [exact T0|]. split; [rewrite V; reflexivity|]. split.
  - rewrite (D 0%nat n); [rewrite V; reflexivity|lia|lia|rewrite T0; unfold around, rad2deg; lra|rewrite Rn by lia; unfold around; cbn [INR]; lra].
  - rewrite (D 2%nat n); [rewrite V; cbn [INR]; reflexivity|lia|lia|rewrite T0; unfold around, rad2deg; lra|rewrite Rn by lia; unfold around; cbn [INR]; lra].
Qed.

(** The second page: each bin is drawn at its own position, and the line goes through the centre of every bin which lies on it. *)
Theorem C141_data n_ref max_select dut0 ref0 bin_size : 0 < bin_size ->
  let n := length max_select in let dut := (dut0, dut0 + INR n * bin_size) in let ref := (ref0, ref0 + INR n_ref * bin_size) in
  (forall i j x y, (i < n)%nat -> (j < n_ref)%nat -> around (dut0 + (INR i + 1 / 2) * bin_size) bin_size x -> around (ref0 + (INR j + 1 / 2) * bin_size) bin_size y ->
     exists v, drawn_at (data_page n_ref max_select dut ref) x y = Some v /\ (v = 1 /\ nth_error max_select i = Some j \/ v = 0 /\ nth_error max_select i <> Some j)) /\
  forall rho theta slope offset i j, line_of bin_size ref0 rho theta = Some (slope, offset) -> (i < n)%nat -> INR i * cos theta + INR j * sin theta = rho ->
    nth_error (line_points dut bin_size n slope offset) i = Some (dut0 + (INR i + 1 / 2) * bin_size, ref0 + (INR j + 1 / 2) * bin_size).
Proof.
  intros B n dut ref. split.
  - intros i j x y I J X Y. assert (N0 : 0 < INR n) by (apply lt_0_INR; lia). assert (R0 : 0 < INR n_ref) by (apply lt_0_INR; lia). rewrite (drawn_cell _ dut0 (dut0 + INR n * bin_size) ref0 (ref0 + INR n_ref * bin_size) i j).
    + cbn [data_page p_image]. eexists. split; [reflexivity|]. rewrite (nth_error_nth' max_select 0%nat) by exact I. destruct (Nat.eqb_spec j (nth i max_select 0%nat)) as [Z|Z]; [left|right]; (split; [reflexivity|congruence]).
    + reflexivity.
    + assert (0 < INR n * bin_size) by (apply Rmult_lt_0_compat; lra). lra.
    + assert (0 < INR n_ref * bin_size) by (apply Rmult_lt_0_compat; lra). lra.
    + exact I.
    + exact J.
    + cbn [data_page p_columns]. fold n. replace ((dut0 + INR n * bin_size - dut0) / INR n) with bin_size by (field; lra). unfold around in X. lra.
    + cbn [data_page p_rows]. replace ((ref0 + INR n_ref * bin_size - ref0) / INR n_ref) with bin_size by (field; lra). unfold around in Y. lra.
  - intros rho theta slope offset i j L I E. unfold line_points. set (dp := dut_pos dut bin_size n). assert (P : forall k, (k < n)%nat -> nth k dp 0 = dut0 + (INR k + 1 / 2) * bin_size).
    { intros k K. unfold dp, dut_pos, dut. cbn [fst snd]. destruct n as [|[|m]]; [lia|assert (k = 0%nat) as -> by lia; cbn [linspace nth INR]; lra|]. rewrite linspace_nth by lia. assert (0 < INR (S m)) by (apply lt_0_INR; lia). rewrite (S_INR (S m)). field. lra. }
    assert (Ld : length dp = n) by (unfold dp, dut_pos; apply linspace_length). rewrite nth_error_map. rewrite (nth_error_nth' dp 0) by lia. cbn [option_map]. do 2 f_equal; [apply P, I|]. rewrite !P by lia.
    unfold line_of in L. destruct (Reqb (sin theta) 0) eqn:Z; [discriminate|]. apply Reqb_false in Z. injection L as <- <-. rewrite <- E. cbn [INR]. field. exact Z.
Qed.

(** a case: two bins of the DUT, three of the reference *)
Example C141_case : drawn_at (data_page 3 [1; 2]%nat (0, 0 + INR 2 * 10) (5, 5 + INR 3 * 10)) 12 32 = Some 1.
Proof.
  destruct (C141_data 3 [1; 2]%nat 0 5 10 ltac:(lra)) as [H _]. destruct (H 1%nat 2%nat 12 32) as (v & E & D); [cbn; lia|lia|unfold around; cbn [INR]; lra|unfold around; cbn [INR]; lra|].
  cbn [length] in E. rewrite E. destruct D as [[-> _]|[_ D]]; [reflexivity|destruct D; reflexivity].
Qed.

Print Assumptions C141_accumulator.
Print Assumptions C141_one_bin.
Print Assumptions C141_mirrored_refuted.
Print Assumptions C141_data.
