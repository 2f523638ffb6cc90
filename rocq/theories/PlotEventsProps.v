(** C131: the figures of plot_events. *)
From Coq Require Import List Arith ZArith Lia Reals Lra Bool Sorted Permutation.
From Verif Require Import GeometryModel GeometryProofs GeometryProps SensorProps ChunksModel ChunksProps ClusterFileProps ResidualNodesProps PlotEventsModel.
Import ListNotations.
Local Open Scope R_scope.

(** *** Specification *)
(** the rows of the range of events, in the order of the table *)
Definition in_range (event_range : Z * Z) (r : row) : Prop := (fst event_range <= row_event r < snd event_range)%Z.
(** number of different event numbers *)
Definition different_events (rows : list row) (n : nat) : Prop := exists l, NoDup l /\ length l = n /\ forall e, In e l <-> exists r, In r rows /\ row_event r = e.
(** a point in mm, of the global coordinates, lies on the fitted line, which is given in the local coordinates of the DUT in um *)
Definition on_track (dut : sensor) (fit : vec * vec) (q : vec) : Prop := exists t, vscale 1000 q = to_global (place dut) (vadd (fst fit) (vscale t (snd fit))).
(** the point where the fitted line crosses the plane of a DUT *)
Definition crossing (dut : sensor) (fit : vec * vec) (s : sensor) (q : vec) : Prop := on_track dut fit q /\ vz (to_local (place s) (vscale 1000 q)) = 0.
(** a point of the straight line between two points *)
Definition between (a b : vec) (t : R) : vec := vadd a (vscale t (vsub b a)).
(** a z position which is reached by the drawn line *)
Definition reaches (a b : vec) (z : R) : Prop := exists t, 0 <= t <= 1 /\ vz (between a b t) = z.
(** the first and the last DUT along z *)
Definition first_in_z (tel : list sensor) (s : sensor) : Prop := In s tel /\ forall s', In s' tel -> t_z (place s) <= t_z (place s').
Definition last_in_z (tel : list sensor) (s : sensor) : Prop := In s tel /\ forall s', In s' tel -> t_z (place s') <= t_z (place s).
(** global z component of the slope *)
Definition slope_z (dut : sensor) (fit : vec * vec) : R := vz (apply_rotation_matrix (snd fit) (rot (place dut))).
(** what is drawn for a row *)
Definition shows (tel : list sensor) (dut : sensor) (r : row) (d : drawn) : Prop :=
  (d_marker d = Cross <-> row_fit r = None) /\ (d_marker d = Square <-> row_fit r <> None /\ row_hit_flag r = row_quality_flag r) /\
  length (d_hits d) = length tel /\
  (forall i s h, nth_error tel i = Some s -> nth_error (row_hits r) i = Some h ->
     (h = None -> nth_error (d_hits d) i = Some None) /\ (forall v, h = Some v -> exists q, nth_error (d_hits d) i = Some (Some q) /\ to_local (place s) (vscale 1000 q) = v)) /\
  (row_fit r = None -> d_line d = None) /\
  (forall fit, row_fit r = Some fit -> exists a b, d_line d = Some (a, b) /\ forall t, on_track dut fit (between a b t)).

(** *** Proofs *)
Lemma all_some_spec {A} (l : list (option A)) k : all_some l = Some k <-> l = map Some k.
Proof.
  revert k. induction l as [|[a|] l IH]; intros k; cbn [all_some].
  - split; [intros [= <-]; reflexivity|]. destruct k; [reflexivity|discriminate].
  - destruct (all_some l) as [l'|] eqn:E.
    + destruct (IH l') as [I _]. specialize (I eq_refl). subst l. split; [intros [= <-]; reflexivity|]. destruct k as [|b k]; [discriminate|]. cbn. intros [= -> H]. f_equal. f_equal.
      assert (X : forall u v : list A, map Some u = map Some v -> u = v) by (clear; induction u as [|x u IH]; intros [|y v] H; try discriminate; [reflexivity|]; cbn in H; injection H as -> H; f_equal; auto). auto.
    + split; [discriminate|]. destruct k as [|b k]; [discriminate|]. cbn. intros [= -> H]. destruct (IH k) as [_ I]. discriminate (I H).
  - split; [discriminate|]. destruct k; discriminate.
Qed.
Lemma all_some_nth {A} (l : list (option A)) k i : all_some l = Some k -> nth_error l i = option_map Some (nth_error k i).
Proof.
  intros E. apply all_some_spec in E. subst l. revert i. induction k as [|a k IH]; intros [|i]; try reflexivity. apply IH.
Qed.
Lemma all_some_length {A} (l : list (option A)) k : all_some l = Some k -> length k = length l.
Proof. intros E. apply all_some_spec in E. subst l. symmetry. apply map_length. Qed.
Lemma seq_nth_error n i : (i < n)%nat -> nth_error (seq 0 n) i = Some i.
Proof. intros L. rewrite (nth_error_nth' _ 0%nat) by (rewrite seq_length; exact L). rewrite seq_nth by exact L. reflexivity. Qed.

Lemma vec_case (v : vec) : v = (vx v, vy v, vz v).
Proof. destruct v as [[? ?] ?]. reflexivity. Qed.
Ltac vec := apply vec_eq; unfold vadd, vscale, vsub, vx, vy, vz; cbn [fst snd].
Lemma to_global_line p a b t : to_global p (vadd a (vscale t b)) = vadd (to_global p a) (vscale t (to_global (not_moved p) b)).
Proof.
  rewrite !to_global_eq, !apply_rotation_eq. unfold not_moved, rot, pos. cbn [t_x t_y t_z r_alpha r_beta r_gamma]. set (M := rotation_matrix _ _ _). vec; ring.
Qed.
Lemma in_mm_back v : vscale 1000 (in_mm v) = v.
Proof. rewrite (vec_case v) at 2. unfold in_mm. vec; field. Qed.

(** ** hits *)
Lemma hit_positions_spec tel r hits : hit_positions tel r = Some hits -> length hits = length tel /\
  forall i s h, nth_error tel i = Some s -> nth_error (row_hits r) i = Some h ->
     (h = None -> nth_error hits i = Some None) /\ (forall v, h = Some v -> exists q, nth_error hits i = Some (Some q) /\ to_local (place s) (vscale 1000 q) = v).
Proof.
  unfold hit_positions. intros E. split.
  - apply all_some_length in E. rewrite map_length, seq_length in E. exact E.
  - intros i s h Hs Hh. assert (L : (i < length tel)%nat) by (apply nth_error_Some; congruence). apply (all_some_nth _ _ i) in E.
    rewrite (map_nth_error _ _ _ (seq_nth_error _ _ L)), Hs, Hh in E. split.
    + intros ->. cbn [hit_position] in E. destruct (nth_error hits i) as [q|]; cbn in E; congruence.
    + intros v ->. cbn [hit_position] in E. unfold dut_to_global in E. destruct (forallb _ [v]); cbn [map] in E.
      * destruct (nth_error hits i) as [q|]; cbn in E; [|discriminate]. injection E as <-. eexists. split; [reflexivity|]. rewrite in_mm_back. apply (proj1 (C27_round_trip (place s) v)).
      * destruct (nth_error hits i); cbn in E; discriminate.
Qed.

(** ** the first and the last DUT *)
Lemma fold_min (f : nat -> R) l m : let r := fold_left (fun m i => if Rltb (f i) (f m) then i else m) l m in In r (m :: l) /\ forall i, In i (m :: l) -> f r <= f i.
Proof.
  revert m. induction l as [|a l IH]; intros m; cbn [fold_left]; [split; [left; reflexivity|intros i [<-|[]]; lra]|].
  destruct (Rltb (f a) (f m)) eqn:E; [apply Rltb_true in E|apply Rltb_false in E].
  - destruct (IH a) as [H1 H2]. split; [destruct H1 as [H1|H1]; cbn; auto|]. intros i [<-|[<-|I]]; [specialize (H2 a (or_introl eq_refl)); lra|apply H2; left; reflexivity|apply H2; right; exact I].
  - destruct (IH m) as [H1 H2]. split; [destruct H1 as [H1|H1]; cbn; auto|]. intros i [<-|[<-|I]]; [apply H2; left; reflexivity|specialize (H2 m (or_introl eq_refl)); lra|apply H2; right; exact I].
Qed.
Lemma first_found tel s : nth_error tel (min_z_dut tel) = Some s -> first_in_z tel s.
Proof.
  intros E. split; [exact (nth_error_In _ _ E)|]. intros s' I. apply In_nth_error in I. destruct I as (i & Ei). unfold min_z_dut in E.
  destruct (fold_min (z_of tel) (seq 0 (length tel)) 0%nat) as [_ H]. specialize (H i). unfold z_of in H at 1 4. rewrite E, Ei in H. apply H. right. apply in_seq.
  assert ((i < length tel)%nat) by (apply nth_error_Some; congruence). lia.
Qed.
Lemma last_found tel s : nth_error tel (max_z_dut tel) = Some s -> last_in_z tel s.
Proof.
  intros E. split; [exact (nth_error_In _ _ E)|]. intros s' I. apply In_nth_error in I. destruct I as (i & Ei). unfold max_z_dut in E.
  assert (X : fold_left (fun m i => if Rltb (z_of tel m) (z_of tel i) then i else m) (seq 0 (length tel)) 0%nat = fold_left (fun m i => if Rltb (- z_of tel i) (- z_of tel m) then i else m) (seq 0 (length tel)) 0%nat).
  { clear. generalize 0%nat at 2 4. generalize (seq 0 (length tel)). induction l as [|a l IH]; intros m; [reflexivity|]. cbn [fold_left]. replace (Rltb (- z_of tel a) (- z_of tel m)) with (Rltb (z_of tel m) (z_of tel a)); [apply IH|].
    unfold Rltb. destruct (Rlt_dec (z_of tel m) (z_of tel a)), (Rlt_dec (- z_of tel a) (- z_of tel m)); reflexivity || (exfalso; lra). }
  rewrite X in E. destruct (fold_min (fun i => - z_of tel i) (seq 0 (length tel)) 0%nat) as [_ H]. specialize (H i). unfold z_of in H at 1 4. rewrite E, Ei in H.
  assert ((i < length tel)%nat) by (apply nth_error_Some; congruence). assert (- t_z (place s) <= - t_z (place s')) by (apply H; right; apply in_seq; lia). lra.
Qed.
Lemma min_z_found tel : tel <> [] -> exists s, nth_error tel (min_z_dut tel) = Some s.
Proof.
  intros N. destruct (nth_error tel (min_z_dut tel)) as [s|] eqn:E; [eauto|]. apply nth_error_None in E. unfold min_z_dut in E.
  destruct (fold_min (z_of tel) (seq 0 (length tel)) 0%nat) as [[H|H] _]; [rewrite <- H in E|apply in_seq in H; lia]. destruct tel; [congruence|cbn in E; lia].
Qed.
Lemma max_z_found tel : tel <> [] -> exists s, nth_error tel (max_z_dut tel) = Some s.
Proof.
  intros N. destruct (nth_error tel (max_z_dut tel)) as [s|] eqn:E; [eauto|]. apply nth_error_None in E. unfold max_z_dut in E.
  assert (X : forall (g : nat -> nat -> bool) l m, let r := fold_left (fun m i => if g m i then i else m) l m in In r (m :: l)).
  { clear. intros g l. induction l as [|a l IH]; intros m; cbn [fold_left]; [left; reflexivity|]. destruct (g m a); [right; apply IH|]. destruct (IH m) as [H|H]; [left; exact H|right; right; exact H]. }
  destruct (X (fun m i => Rltb (z_of tel m) (z_of tel i)) (seq 0 (length tel)) 0%nat) as [H|H]; [cbn beta in H; rewrite <- H in E|apply in_seq in H; cbn beta in H; lia]. destruct tel; [congruence|cbn in E; lia].
Qed.

(** ** the line *)
Lemma intersection_mm_spec dut fit s q : intersection_mm (to_global (place dut) (fst fit), to_global (not_moved (place dut)) (snd fit)) s = Some q -> crossing dut fit s q.
Proof.
  unfold intersection_mm. set (l := (_, _) : line). intros E.
  assert (NP : ~ parallel (place s) l) by (intros P; rewrite (C28_parallel_error (place s) [l]) in E by (exists l; split; [left; reflexivity|exact P]); discriminate).
  destruct (C28_sensor (place s) [l]) as (qs & Eq & F); [intros l' [<-|[]]; exact NP|]. rewrite Eq in E. inversion F as [|? g ? ? (F1 & F2 & _) F4]; subst. inversion F4; subst.
  injection E as <-. split; [|rewrite in_mm_back; exact F2]. destruct F1 as (t & ->). exists t. rewrite in_mm_back, to_global_line. reflexivity.
Qed.
Lemma slope_z_eq dut fit : vz (to_global (not_moved (place dut)) (snd fit)) = slope_z dut fit.
Proof. unfold slope_z. rewrite to_global_eq, !apply_rotation_eq. unfold not_moved, rot, pos. cbn [t_x t_y t_z r_alpha r_beta r_gamma]. unfold vadd, vx, vy, vz. cbn [fst snd]. ring. Qed.
Lemma on_track_shift dut fit q k : on_track dut fit q -> on_track dut fit (vadd q (vscale k (to_global (not_moved (place dut)) (snd fit)))).
Proof.
  intros (t & E). exists (t + 1000 * k). rewrite to_global_line. rewrite to_global_line in E. set (g := to_global (not_moved (place dut)) (snd fit)) in *. set (o := to_global (place dut) (fst fit)) in *.
  replace (vadd o (vscale (t + 1000 * k) g)) with (vadd (vadd o (vscale t g)) (vscale (1000 * k) g)) by (vec; ring). rewrite <- E. vec; ring.
Qed.
Lemma drawn_line_inv tel dut fit a b : drawn_line tel dut fit = Some (a, b) -> exists first last f l, first_in_z tel first /\ last_in_z tel last /\ crossing dut fit first f /\ crossing dut fit last l /\
  let slope := to_global (not_moved (place dut)) (snd fit) in a = vadd f (vscale (- vz f + 10) slope) /\ b = vadd f (vscale (- vz l - 10) slope).
Proof.
  unfold drawn_line. unfold dut_to_global. destruct (forallb _ [fst fit]); [|discriminate]. cbn [map].
  destruct (nth_error tel (min_z_dut tel)) as [first|] eqn:E1; [|discriminate]. destruct (nth_error tel (max_z_dut tel)) as [last|] eqn:E2; [|discriminate].
  destruct (intersection_mm _ first) as [f|] eqn:E3; [|discriminate]. destruct (intersection_mm _ last) as [l|] eqn:E4; [|discriminate]. intros [= <- <-].
  exists first, last, f, l. split; [exact (first_found _ _ E1)|]. split; [exact (last_found _ _ E2)|]. split; [exact (intersection_mm_spec _ _ _ _ E3)|]. split; [exact (intersection_mm_spec _ _ _ _ E4)|]. split; reflexivity.
Qed.
Lemma drawn_line_on_track tel dut fit a b : drawn_line tel dut fit = Some (a, b) -> forall t, on_track dut fit (between a b t).
Proof.
  intros E t. destruct (drawn_line_inv _ _ _ _ _ E) as (first & last & f & l & _ & _ & (T & _) & _ & -> & ->). set (g := to_global (not_moved _) _).
  replace (between _ _ t) with (vadd f (vscale (- vz f + 10 + t * ((- vz l - 10) - (- vz f + 10))) g)); [apply on_track_shift, T|]. unfold between. set (u := vz f). set (w := vz l). vec; ring.
Qed.

(** The two ends of the drawn line: the z positions in mm, from the z positions of the track in the first and in the last DUT and from the z component of the slope. *)
Theorem C131_ends tel dut fit a b : drawn_line tel dut fit = Some (a, b) -> (forall t, on_track dut fit (between a b t)) /\
  exists first last f l, first_in_z tel first /\ last_in_z tel last /\ crossing dut fit first f /\ crossing dut fit last l /\
    vz a = vz f + slope_z dut fit * (10 - vz f) /\ vz b = vz f - slope_z dut fit * (vz l + 10).
Proof.
  intros E. split; [exact (drawn_line_on_track _ _ _ _ _ E)|]. destruct (drawn_line_inv _ _ _ _ _ E) as (first & last & f & l & H1 & H2 & H3 & H4 & -> & ->). exists first, last, f, l.
  repeat (split; [assumption|]). rewrite <- slope_z_eq. set (g := to_global (not_moved _) _).
  assert (V : forall k, vz (vadd f (vscale k g)) = vz f + k * vz g) by reflexivity. rewrite !V. split; ring.
Qed.
Lemma reaches_iff a b z : reaches a b z <-> Rmin (vz a) (vz b) <= z <= Rmax (vz a) (vz b).
Proof.
  unfold reaches, between. set (u := vz a). set (w := vz b). assert (E : forall t, vz (vadd a (vscale t (vsub b a))) = u + t * (w - u)) by (intros t; reflexivity). split.
  - intros (t & T & <-). rewrite E. unfold Rmin, Rmax. destruct (Rle_dec u w); nra.
  - intros H. destruct (Req_dec u w) as [Q|Q].
    + exists 0. split; [lra|]. rewrite E. rewrite Q in *. unfold Rmin, Rmax in H. destruct (Rle_dec w w); lra.
    + exists ((z - u) / (w - u)). split; [|rewrite E; field; lra]. unfold Rmin, Rmax in H. destruct (Rle_dec u w).
      * split; [apply Rmult_le_reg_r with (w - u); [lra|]; unfold Rdiv; rewrite Rmult_assoc, Rinv_l by lra; lra|apply Rmult_le_reg_r with (w - u); [lra|]; unfold Rdiv; rewrite Rmult_assoc, Rinv_l by lra; lra].
      * replace ((z - u) / (w - u)) with ((u - z) / (u - w)) by (field; lra). split; [apply Rmult_le_reg_r with (u - w); [lra|]; unfold Rdiv; rewrite Rmult_assoc, Rinv_l by lra; lra|apply Rmult_le_reg_r with (u - w); [lra|]; unfold Rdiv; rewrite Rmult_assoc, Rinv_l by lra; lra].
Qed.
(** A slope with z component 1 or -1: the drawn line covers the first and the last DUT only if the last (the first) one is not more than 10 mm away from the origin. *)
Theorem C131_covers tel dut fit a b : drawn_line tel dut fit = Some (a, b) -> exists first last f l, first_in_z tel first /\ last_in_z tel last /\ crossing dut fit first f /\ crossing dut fit last l /\
  (vz f <= vz l -> (slope_z dut fit = 1 -> (reaches a b (vz f) /\ reaches a b (vz l) <-> -10 <= vz l <= 10)) /\ (slope_z dut fit = -1 -> (reaches a b (vz f) /\ reaches a b (vz l) <-> -10 <= vz f <= 10))).
Proof.
  intros E. destruct (C131_ends _ _ _ _ _ E) as (_ & first & last & f & l & H1 & H2 & H3 & H4 & Ea & Eb). exists first, last, f, l. repeat (split; [assumption|]). intros L. rewrite !reaches_iff, Ea, Eb.
  split; intros ->; unfold Rmin, Rmax; destruct (Rle_dec _ _); (split; intros; lra).
Qed.
(** The line of a track through a telescope which starts at or behind the origin and ends more than 10 mm behind it does not reach the last DUT. *)
Theorem C131_line_refuted tel dut fit a b : drawn_line tel dut fit = Some (a, b) -> 0 < slope_z dut fit <= 1 -> exists first last f l, first_in_z tel first /\ last_in_z tel last /\ crossing dut fit first f /\ crossing dut fit last l /\
  (0 <= vz f < vz l -> 10 < vz l -> ~ reaches a b (vz l)).
Proof.
  intros E S. destruct (C131_ends _ _ _ _ _ E) as (_ & first & last & f & l & H1 & H2 & H3 & H4 & Ea & Eb). exists first, last, f, l. repeat (split; [assumption|]). intros L L2. rewrite reaches_iff, Ea, Eb.
  set (s := slope_z dut fit) in *. unfold Rmax. destruct (Rle_dec _ _); nra.
Qed.

(** ** planes *)
Lemma corner_local s c : In c (corners s) -> exists v, index_to_local s (fst c) (snd c) = Some v /\ vz v = 0.
Proof.
  pose proof (pos_INR (n_columns s)). pose proof (pos_INR (n_rows s)). intros [<-|[<-|[<-|[<-|[]]]]]; unfold index_to_local; cbn [fst snd];
  repeat match goal with |- context [Rleb ?x ?y] => replace (Rleb x y) with true by (symmetry; apply Rleb_true; lra) end; cbn [andb]; eexists; (split; [reflexivity|reflexivity]).
Qed.
(** The planes: four corners with the local positions of the corners of the sensor, in the plane through the position of the DUT which is perpendicular to the z axis. *)
Theorem C131_planes s : exists q1 q2 q3 q4, plane s = Some [q1; q2; q3; q4] /\
  (forall q, In q [q1; q2; q3; q4] -> vz q = t_z (place s) / 1000) /\
  let p := Placement (t_x (place s)) (t_y (place s)) (t_z (place s)) 0 0 (r_gamma (place s)) in let w := INR (n_columns s) * column_size s / 2 in let h := INR (n_rows s) * row_size s / 2 in
  map (fun q => to_local p (vscale 1000 q)) [q1; q2; q3; q4] = [(- w, - h, 0); (- w, h, 0); (w, - h, 0); (w, h, 0)].
Proof.
  pose proof (pos_INR (n_columns s)) as Pc. pose proof (pos_INR (n_rows s)) as Pr. unfold plane, corners. cbn [map fst snd].
  unfold index_to_local. repeat match goal with |- context [Rleb ?x ?y] => replace (Rleb x y) with true by (symmetry; apply Rleb_true; lra) end. cbn [andb all_some].
  do 4 eexists. split; [reflexivity|]. split.
  - assert (Z : forall v, vz v = 0 -> vz (in_mm (to_global (upright (place s)) v)) = t_z (place s) / 1000).
    { intros v V. unfold in_mm. rewrite to_global_eq, apply_rotation_eq. unfold upright, rot, pos. cbn [t_x t_y t_z r_alpha r_beta r_gamma].
      destruct (rot_entries 0 0 (r_gamma (place s))) as (E00 & E01 & E02 & E10 & E11 & E12 & E20 & E21 & E22). rewrite E20, E21, E22, V, sin_0, cos_0. unfold vscale, vadd, vz, vx, vy. cbn [fst snd]. field. }
    intros q [<-|[<-|[<-|[<-|[]]]]]; apply Z; reflexivity.
  - cbv zeta. cbn [map]. fold (upright (place s)). rewrite !in_mm_back, !(fun v => proj1 (C27_round_trip (upright (place s)) v)).
    f_equal; [|f_equal; [|f_equal; [|f_equal]]]; vec; field.
Qed.

(** ** the loops *)
Lemma draw_shows tel dut c r d : draw tel dut c r = Some d -> d_colour d = c /\ shows tel dut r d.
Proof.
  unfold draw. destruct (hit_positions tel r) as [hits|] eqn:H; [|discriminate]. destruct (hit_positions_spec _ _ _ H) as [H1 H2]. destruct (row_fit r) as [fit|] eqn:F.
  - destruct (drawn_line tel dut fit) as [[a b]|] eqn:L; [|discriminate]. intros [= <-]. split; [reflexivity|]. unfold shows. cbn [d_marker d_hits d_line]. rewrite F.
    split; [destruct (_ =? _)%Z; split; discriminate|]. split; [destruct (Z.eqb_spec (row_hit_flag r) (row_quality_flag r)) as [Q|Q]; split; try tauto; try discriminate; split; [discriminate|exact Q]|].
    split; [exact H1|]. split; [exact H2|]. split; [discriminate|]. intros f [= <-]. exists a, b. split; [reflexivity|]. exact (drawn_line_on_track _ _ _ _ _ L).
  - intros [= <-]. split; [reflexivity|]. unfold shows. cbn [d_marker d_hits d_line]. rewrite F. split; [tauto|]. split; [split; [discriminate|intros [X _]; congruence]|].
    split; [exact H1|]. split; [exact H2|]. split; [reflexivity|discriminate].
Qed.
Definition more_events (k : nat) (st : option state) : option state := match st with Some st => Some (State (s_next st) (s_tracks st) (s_events st + k) (s_drawn st)) | None => None end.
Lemma draw_row_events tel dut k st r : draw_row tel dut (more_events k st) r = more_events k (draw_row tel dut st r).
Proof. destruct st as [st|]; [|reflexivity]. unfold draw_row. cbn [more_events s_next s_tracks s_events s_drawn]. destruct (draw _ _ _ r); reflexivity. Qed.
Lemma draw_rows_events tel dut k rows st : fold_left (draw_row tel dut) rows (more_events k st) = more_events k (fold_left (draw_row tel dut) rows st).
Proof. revert st. induction rows as [|r rows IH]; intros st; [reflexivity|]. cbn [fold_left]. rewrite draw_row_events. apply IH. Qed.
Lemma more_more k m st : more_events k (more_events m st) = more_events (m + k) st.
Proof. destruct st as [st|]; [|reflexivity]. cbn. rewrite Nat.add_assoc. reflexivity. Qed.
Lemma draw_rows_none tel dut rows : fold_left (draw_row tel dut) rows None = None.
Proof. induction rows; auto. Qed.
Lemma draw_chunks_eq tel dut chunks st : fold_left (draw_chunk tel dut) chunks st = more_events (list_sum (map (fun c => length (nodup Z.eq_dec (map row_event c))) chunks)) (fold_left (draw_row tel dut) (concat chunks) st).
Proof.
  revert st. induction chunks as [|c chunks IH]; intros st; cbn [fold_left map concat list_sum fold_right].
  - destruct st as [[a b e d]|]; cbn; [rewrite Nat.add_0_r|]; reflexivity.
  - rewrite IH, fold_left_app. set (n := length (nodup _ _)). replace (draw_chunk tel dut st c) with (more_events n (fold_left (draw_row tel dut) c st)).
    + rewrite draw_rows_events, more_more. reflexivity.
    + destruct st as [st|]; [|rewrite draw_rows_none; reflexivity]. unfold draw_chunk. fold n. rewrite <- draw_rows_events. reflexivity.
Qed.
Lemma draw_rows_spec tel dut rows st st' : fold_left (draw_row tel dut) rows (Some st) = Some st' -> s_events st' = s_events st /\ number (fun r => row_fit r <> None) rows (s_tracks st' - s_tracks st) /\ (s_tracks st <= s_tracks st')%nat /\
  exists ds, s_drawn st' = s_drawn st ++ ds /\ length ds = length rows /\ forall i r, nth_error rows i = Some r -> exists d, nth_error ds i = Some d /\ d_colour d = nth ((s_next st + i) mod 7) colours Blue /\ shows tel dut r d.
Proof.
  revert st. induction rows as [|r rows IH]; intros st; cbn [fold_left].
  - intros [= <-]. rewrite Nat.sub_diag. split; [reflexivity|]. split; [constructor|]. split; [lia|]. exists []. rewrite app_nil_r. split; [reflexivity|]. split; [reflexivity|]. intros [|i] r; discriminate.
  - unfold draw_row at 2. destruct (draw _ _ _ r) as [d|] eqn:D; [|rewrite draw_rows_none; discriminate]. intros E. destruct (IH _ E) as (H1 & H2 & H3 & ds & H4 & H5 & H6). cbn [s_next s_tracks s_events s_drawn] in *.
    split; [exact H1|]. split; [|split].
    + destruct (row_fit r) as [fit|] eqn:F.
      * replace (s_tracks st' - s_tracks st)%nat with (S (s_tracks st' - S (s_tracks st))) by lia. constructor; [congruence|exact H2].
      * constructor; [congruence|exact H2].
    + destruct (row_fit r); lia.
    + exists (d :: ds). split; [rewrite H4, <- app_assoc; reflexivity|]. split; [cbn; congruence|]. destruct (draw_shows _ _ _ _ _ D) as [D1 D2]. intros [|i] x; cbn [nth_error].
      * intros [= <-]. exists d. rewrite Nat.add_0_r. auto.
      * intros I. destruct (H6 _ _ I) as (d' & K1 & K2 & K3). exists d'. split; [exact K1|]. split; [|exact K3]. rewrite K2. f_equal. f_equal. lia.
Qed.

Lemma nodup_app (a b : list Z) : (forall x, In x a -> ~ In x b) -> length (nodup Z.eq_dec (a ++ b)) = (length (nodup Z.eq_dec a) + length (nodup Z.eq_dec b))%nat.
Proof.
  intros D. rewrite <- app_length. apply Permutation_length. apply NoDup_Permutation; [apply NoDup_nodup| |].
  - assert (N : forall u v : list Z, NoDup u -> NoDup v -> (forall x, In x u -> ~ In x v) -> NoDup (u ++ v)).
    { clear. induction u as [|x u IH]; intros v U V D; [exact V|]. inversion U; subst. cbn. constructor; [rewrite in_app_iff; intros [X|X]; [auto|exact (D x (or_introl eq_refl) X)]|]. apply IH; auto. intros y Y. apply D. right. exact Y. }
    apply N; try apply NoDup_nodup. intros x. rewrite !nodup_In. apply D.
  - intros x. rewrite in_app_iff, !nodup_In, in_app_iff. tauto.
Qed.
Lemma nodup_chunks (chunks : list (list row)) : (forall pre c post, chunks = pre ++ c :: post -> forall a b, In a c -> In b (concat post) -> (row_event a < row_event b)%Z) ->
  list_sum (map (fun c => length (nodup Z.eq_dec (map row_event c))) chunks) = length (nodup Z.eq_dec (map row_event (concat chunks))).
Proof.
  induction chunks as [|c chunks IH]; intros H; [reflexivity|]. cbn [map list_sum fold_right concat]. rewrite map_app, nodup_app.
  - f_equal. apply IH. intros pre c' post -> a b Ia Ib. apply (H (c :: pre) c' post eq_refl a b Ia Ib).
  - intros x A B. apply in_map_iff in A, B. destruct A as (a & <- & A). destruct B as (b & E & B). specialize (H [] c chunks eq_refl a b A B). lia.
Qed.

Definition range_ok (event_range : Z * Z) (cs : nat) (rows : list row) : Prop := sorted row_event rows /\ (1 <= cs)%nat /\ (fst event_range <= snd event_range)%Z.
Lemma chunks_of_range event_range cs rows : range_ok event_range cs rows -> let (ys, e) := data_aligned_at_events row_event rows (call event_range cs) in
  ((forall v, (event_rows row_event v rows < cs)%nat) -> e = GenDone) /\ (e = GenDone -> selects (in_range event_range) rows (concat (map fst ys)) /\
    forall pre c post, map fst ys = pre ++ c :: post -> forall a b, In a c -> In b (concat post) -> (row_event a < row_event b)%Z).
Proof.
  intros (S & P & R). assert (V : valid_call rows (call event_range cs)).
  { unfold valid_call, call. cbn. split; [exact P|]. unfold stop_of. cbn. split; [lia|]. split; [lia|]. split; [intros s t [= <-] [= <-]; exact R|reflexivity]. }
  pose proof (C07_aligned_chunks row_event rows (call event_range cs) S V) as A. cbv zeta in A. destruct (data_aligned_at_events row_event rows (call event_range cs)) as [ys e].
  assert (W : rows_between rows (start_of (call event_range cs)) (stop_of rows (call event_range cs)) = rows) by (unfold rows_between, start_of, stop_of, call; cbn; rewrite Nat.sub_0_r; apply firstn_all).
  rewrite W in A. destruct A as (rest & A1 & A2 & A3 & _ & A5). split.
  - intros E. destruct A3 as [D|(_ & [[_ F]|(v & L)])]; [exact D|discriminate F|]. specialize (E v). cbn [call p_chunk_size] in L. lia.
  - intros D. rewrite (A2 D) in *. rewrite app_nil_r in A1. split; [|intros pre c post Q a b Ia Ib; apply (A5 pre c post Q a b Ia); rewrite app_nil_r; exact Ib].
    assert (X : forall l out, selects (is_requested row_event rows (call event_range cs)) l out -> selects (in_range event_range) l out); [|exact (X _ _ A1)].
    assert (Y : forall a, is_requested row_event rows (call event_range cs) a <-> in_range event_range a).
    { intros a. unfold is_requested, in_range, call, stop_of. cbn. split.
      - intros (Y1 & Y2 & _). split; [apply Y1; reflexivity|apply Y2; reflexivity].
      - intros (Y1 & Y2). split; [intros s [= <-]; exact Y1|]. split; [intros s [= <-]; exact Y2|]. split; [intros Z; congruence|discriminate]. }
    clear - Y. intros l out H. induction H; [constructor|apply sel_keep; [apply Y; assumption|assumption]|apply sel_drop; [rewrite <- Y; assumption|assumption]].
Qed.

(** A figure: one entry for every row of the range, in the order of the table and in the order of the colors; the hits at their positions, the line along the fitted track; the numbers of the title. *)
Theorem C131_page tel file event_range cs d pg rows : file d = Some rows -> range_ok event_range cs rows -> plot_dut tel file event_range cs d = Some pg ->
  exists dut shown, nth_error tel d = Some dut /\ selects (in_range event_range) rows shown /\ g_dut pg = d /\ number (fun r => row_fit r <> None) shown (g_tracks pg) /\ different_events shown (g_events pg) /\
    Forall2 (fun s q => plane s = Some q) tel (g_planes pg) /\ length (g_drawn pg) = length shown /\
    forall i r, nth_error shown i = Some r -> exists x, nth_error (g_drawn pg) i = Some x /\ d_colour x = nth (i mod 7) [Blue; Green; Red; Cyan; Magenta; Yellow; Black] Blue /\ shows tel dut r x.
Proof.
  intros F K. unfold plot_dut. rewrite F. destruct (nth_error tel d) as [dut|]; [|discriminate]. destruct (all_some (map plane tel)) as [planes|] eqn:Pl; [|discriminate].
  pose proof (chunks_of_range event_range cs rows K) as C. destruct (data_aligned_at_events _ _ _) as [ys [| | |]]; try discriminate. destruct C as (_ & C). destruct (C eq_refl) as (C1 & C2). clear C.
  rewrite draw_chunks_eq, (nodup_chunks _ C2). destruct (fold_left (draw_row tel dut) (concat (map fst ys)) (Some (State 0 0 0 []))) as [st|] eqn:E; [|discriminate]. cbn [more_events s_tracks s_events s_drawn]. intros [= <-]. cbn [g_dut g_tracks g_events g_planes g_drawn].
  destruct (draw_rows_spec _ _ _ _ _ E) as (H1 & H2 & _ & ds & H4 & H5 & H6). cbn [s_next s_tracks s_events s_drawn app] in *. rewrite Nat.sub_0_r in H2.
  exists dut, (concat (map fst ys)). split; [reflexivity|]. split; [exact C1|]. split; [reflexivity|]. split; [exact H2|]. split.
  { exists (nodup Z.eq_dec (map row_event (concat (map fst ys)))). split; [apply NoDup_nodup|]. split; [rewrite H1; reflexivity|]. intros e. rewrite nodup_In, in_map_iff. split; intros (r & Q1 & Q2); eauto. }
  split. { apply all_some_spec in Pl. clear - Pl. revert planes Pl. induction tel as [|s tel IH]; intros [|q planes] Pl; try discriminate; [constructor|]. change (plane s :: map plane tel = Some q :: map Some planes) in Pl. injection Pl as E1 E2. constructor; [exact E1|exact (IH planes E2)]. }
  rewrite H4. split; [exact H5|]. exact H6.
Qed.

(** The figure does not depend on the chunk size. *)
Theorem C131_chunk_size tel file event_range cs cs' d pg pg' rows : file d = Some rows -> range_ok event_range cs rows -> range_ok event_range cs' rows ->
  plot_dut tel file event_range cs d = Some pg -> plot_dut tel file event_range cs' d = Some pg' -> pg = pg'.
Proof.
  intros F K K'. unfold plot_dut. rewrite F. destruct (nth_error tel d) as [dut|]; [|discriminate]. destruct (all_some (map plane tel)) as [planes|] eqn:Pl; [|discriminate].
  pose proof (chunks_of_range event_range cs rows K) as C. destruct (data_aligned_at_events _ _ (call event_range cs)) as [ys [| | |]]; try discriminate. destruct C as (_ & C). destruct (C eq_refl) as (C1 & C2). clear C.
  pose proof (chunks_of_range event_range cs' rows K') as C. destruct (data_aligned_at_events _ _ (call event_range cs')) as [zs [| | |]]; try discriminate. destruct C as (_ & C). destruct (C eq_refl) as (C3 & C4). clear C.
  rewrite !draw_chunks_eq, (nodup_chunks _ C2), (nodup_chunks _ C4), (selects_fun row_event _ _ _ _ C1 C3). intros E E'. rewrite E in E'. congruence.
Qed.

(** The figures are made if the DUTs exist, their tables have fewer rows per event than the chunk size, the hits and offsets lie in the planes of the DUTs and no track is parallel to the first or last DUT. *)
Definition row_ok (tel : list sensor) (dut : sensor) (r : row) : Prop :=
  length (row_hits r) = length tel /\ (forall v, In (Some v) (row_hits r) -> vz v = 0) /\
  forall fit, row_fit r = Some fit -> vz (fst fit) = 0 /\ forall s, In s tel -> vz (apply_rotation_matrix (apply_rotation_matrix (snd fit) (rot (place dut))) (transpose (rot (place s)))) <> 0.
Lemma on_plane p v : vz v = 0 -> dut_to_global p [v] = Some [to_global p v].
Proof. intros V. unfold dut_to_global. cbn [forallb map]. unfold close_to_zero. rewrite V, Rabs_R0. replace (Rleb 0 _) with true by (symmetry; apply Rleb_true; lra). reflexivity. Qed.
Lemma all_some_exists {A B} (f : A -> option B) l : (forall a, In a l -> exists b, f a = Some b) -> exists k, all_some (map f l) = Some k.
Proof.
  induction l as [|a l IH]; intros H; [exists []; reflexivity|]. destruct (H a (or_introl eq_refl)) as (b & E). destruct IH as (k & Ek); [intros; apply H; right; assumption|]. exists (b :: k). cbn. now rewrite E, Ek.
Qed.
Lemma draw_exists tel dut c r : tel <> [] -> row_ok tel dut r -> exists d, draw tel dut c r = Some d.
Proof.
  intros N (L & Z & F). unfold draw. assert (H : exists hits, hit_positions tel r = Some hits).
  { apply all_some_exists. intros i I. apply in_seq in I. destruct (nth_error tel i) as [s|] eqn:E; [|apply nth_error_None in E; lia]. destruct (nth_error (row_hits r) i) as [[v|]|] eqn:Eh; [| |apply nth_error_None in Eh; lia].
    - cbn [hit_position]. rewrite (on_plane _ v) by (apply Z; exact (nth_error_In _ _ Eh)). eauto.
    - cbn. eauto. }
  destruct H as (hits & ->). destruct (row_fit r) as [fit|]; [|eauto]. destruct (F fit eq_refl) as [F1 F2]. unfold drawn_line. rewrite (on_plane _ _ F1).
  destruct (min_z_found tel N) as (s1 & E1). destruct (max_z_found tel N) as (s2 & E2). rewrite E1, E2.
  assert (I : forall s, In s tel -> exists q, intersection_mm (to_global (place dut) (fst fit), to_global (not_moved (place dut)) (snd fit)) s = Some q).
  { intros s Is. unfold intersection_mm. set (l := (_, _) : line). destruct (C28_sensor (place s) [l]) as (qs & Eq & Fq).
    - intros l' [<-|[]] P. unfold parallel, l in P. cbn [snd] in P. apply (F2 s Is). rewrite <- P. f_equal. f_equal. rewrite to_global_eq. unfold not_moved, rot, pos. cbn [t_x t_y t_z r_alpha r_beta r_gamma].
      rewrite (vec_case (apply_rotation_matrix _ _)) at 1. vec; ring.
    - rewrite Eq. inversion Fq as [|? g ? ? _ F4]; subst. inversion F4; subst. eauto. }
  destruct (I s1 (nth_error_In _ _ E1)) as (q1 & ->). destruct (I s2 (nth_error_In _ _ E2)) as (q2 & ->). eauto.
Qed.
Theorem C131_succeeds tel file select_duts event_range cs : (forall d, In d select_duts -> exists dut rows, nth_error tel d = Some dut /\ file d = Some rows /\ range_ok event_range cs rows /\
    (forall v, (event_rows row_event v rows < cs)%nat) /\ forall r, In r rows -> row_ok tel dut r) ->
  exists pages, plot_events tel file select_duts event_range cs = Some pages /\ Forall2 (fun d pg => plot_dut tel file event_range cs d = Some pg) select_duts pages.
Proof.
  intros H. assert (X : exists pages, plot_events tel file select_duts event_range cs = Some pages).
  { apply all_some_exists. intros d I. destruct (H d I) as (dut & rows & E1 & E2 & K & Ev & R). unfold plot_dut. rewrite E1, E2. destruct (all_some_exists plane tel) as (planes & ->); [intros s _; destruct (C131_planes s) as (? & ? & ? & ? & E & _); eauto|].
    pose proof (chunks_of_range event_range cs rows K) as C. destruct (data_aligned_at_events _ _ _) as [ys e]. destruct C as (C1 & C). specialize (C1 Ev). subst e. destruct (C eq_refl) as (C1 & _). rewrite draw_chunks_eq.
    assert (In_rows : forall r, In r (concat (map fst ys)) -> In r rows) by (clear - C1; induction C1; intros r I; [exact I|destruct I as [<-|I]; [left; reflexivity|right; auto]|right; auto]).
    assert (Y : forall rs st, (forall r, In r rs -> row_ok tel dut r) -> exists st', fold_left (draw_row tel dut) rs (Some st) = Some st').
    { assert (N : tel <> []) by (intros ->; destruct d; discriminate). clear - N. induction rs as [|r rs IH]; intros st Q; [eexists; reflexivity|]. cbn [fold_left]. unfold draw_row at 2. destruct (draw_exists tel dut (nth (s_next st mod 7) colours Blue) r N (Q r (or_introl eq_refl))) as (x & ->). apply IH. intros; apply Q; right; assumption. }
    destruct (Y (concat (map fst ys)) (State 0 0 0 [])) as (st & ->); [intros r I'; apply R, In_rows, I'|]. cbn. eauto. }
  destruct X as (pages & E). exists pages. split; [exact E|]. unfold plot_events in E. apply all_some_spec in E. clear - E. revert pages E. induction select_duts as [|d ds IH]; intros [|pg pages] E; try discriminate; [constructor|]. cbn [map] in E. injection E as E1 E2. constructor; [exact E1|exact (IH pages E2)].
Qed.

(** Case: two upright DUTs 100 mm apart, a straight track with a hit in the first one only; the line of the figure does not reach the second DUT. *)
Definition ex_tel : list sensor := [Sensor 250 50 80 336 (Placement 0 0 0 0 0 0); Sensor 250 50 80 336 (Placement 0 0 100000 0 0 0)].
Definition ex_row : row := Row 3 [Some (0, 0, 0); None] (Some ((0, 0, 0), (0, 0, 1))) 1 1.
Lemma ex_rot v z : apply_rotation_matrix v (rot (Placement 0 0 z 0 0 0)) = v /\ apply_rotation_matrix v (transpose (rot (Placement 0 0 z 0 0 0))) = v.
Proof.
  rewrite !apply_rotation_eq. unfold transpose, rot. cbn [r_alpha r_beta r_gamma]. destruct (rot_entries 0 0 0) as (E00 & E01 & E02 & E10 & E11 & E12 & E20 & E21 & E22).
  rewrite E00, E01, E02, E10, E11, E12, E20, E21, E22, sin_0, cos_0. rewrite (vec_case v) at 10. rewrite (vec_case v) at 20. split; vec; ring.
Qed.
Example C131_case : let file := fun d => if (d =? 0)%nat then Some [ex_row] else None in (forall r, In r [ex_row] -> row_ok ex_tel (nth 0 ex_tel (Sensor 1 1 1 1 (Placement 0 0 0 0 0 0))) r) /\
  (exists pg, plot_events ex_tel file [0%nat] (0, 10)%Z 2 = Some [pg] /\ g_tracks pg = 1%nat /\ g_events pg = 1%nat) /\
  exists a b, drawn_line ex_tel (nth 0 ex_tel (Sensor 1 1 1 1 (Placement 0 0 0 0 0 0))) ((0, 0, 0), (0, 0, 1)) = Some (a, b) /\ reaches a b 0 /\ ~ reaches a b 100.
Proof.
  cbv zeta. set (dut := nth 0 ex_tel _). assert (Hd : place dut = Placement 0 0 0 0 0 0) by reflexivity.
  assert (RO : row_ok ex_tel dut ex_row).
  { split; [reflexivity|]. split; [intros v [[= <-]|[[=]|[]]]; reflexivity|]. intros fit [= <-]. split; [reflexivity|]. intros s [<-|[<-|[]]]; rewrite Hd; cbn [place snd]; rewrite (proj1 (ex_rot _ 0)), (proj2 (ex_rot _ _)); cbn; lra. }
  split; [intros r [<-|[]]; exact RO|].
  assert (K : range_ok (0, 10)%Z 2 [ex_row]) by (repeat split; [repeat constructor|lia|cbn; lia]).
  split.
  - destruct (C131_succeeds ex_tel (fun d => if (d =? 0)%nat then Some [ex_row] else None) [0%nat] (0, 10)%Z 2) as (pages & E & F).
    { intros d [<-|[]]. exists dut, [ex_row]. split; [reflexivity|]. split; [reflexivity|]. split; [exact K|]. split; [|intros r [<-|[]]; exact RO]. intros v. unfold event_rows. cbn [filter]. destruct (_ =? v)%Z; cbn; lia. }
    inversion F as [|? pg ? ? P F']; subst. inversion F'; subst. exists pg. split; [exact E|].
    destruct (C131_page ex_tel (fun d => if (d =? 0)%nat then Some [ex_row] else None) (0, 10)%Z 2 0 pg [ex_row] eq_refl K P) as (dut' & shown & _ & S & _ & N & (l & L1 & L2 & L3) & _).
    assert (shown = [ex_row]) as -> by (inversion S as [|? ? out ? S'|? ? ? X]; subst; [inversion S'; reflexivity|exfalso; apply X; split; cbn; lia]).
    split; [inversion N as [| ? ? ? ? N'|? ? ? X N']; subst; [inversion N'; subst; congruence|exfalso; apply X; discriminate]|].
    rewrite <- L2. destruct l as [|x [|y l]]; [exfalso; apply (proj2 (L3 3%Z)); exists ex_row; cbn; auto|reflexivity|].
    exfalso. assert (forall e, In e (x :: y :: l) -> e = 3%Z) as Q by (intros e I; apply L3 in I; destruct I as (r & [<-|[]] & <-); reflexivity). inversion L1 as [|? ? X _]; subst. apply X. left. rewrite (Q x), (Q y); cbn; auto.
  - destruct (drawn_line ex_tel dut ((0, 0, 0), (0, 0, 1))) as [[a b]|] eqn:D.
    + exists a, b. split; [reflexivity|]. destruct (C131_ends _ _ _ _ _ D) as (_ & first & last & f & l & F & L & Cf & Cl & Ea & Eb). rewrite !reaches_iff, Ea, Eb.
      assert (SZ : slope_z dut ((0, 0, 0), (0, 0, 1)) = 1) by (unfold slope_z; rewrite Hd, (proj1 (ex_rot _ 0)); reflexivity). rewrite SZ.
      assert (Zc : forall s z q, place s = Placement 0 0 z 0 0 0 -> crossing dut ((0, 0, 0), (0, 0, 1)) s q -> vz q = z / 1000).
      { intros s z q Hs (_ & Q). rewrite Hs, to_local_eq, (proj2 (ex_rot _ z)) in Q. unfold vsub, pos, vscale, vz in Q. cbn [snd t_z] in Q. fold (vz q) in Q. lra. }
      destruct F as [[<-|[<-|[]]] F]; [|specialize (F _ (or_introl eq_refl)); cbn in F; lra]. destruct L as [[<-|[<-|[]]] L]; [specialize (L _ (or_intror (or_introl eq_refl))); cbn in L; lra|].
      match type of Cf with crossing _ _ ?s _ => rewrite (Zc s 0 f eq_refl Cf) end. match type of Cl with crossing _ _ ?s _ => rewrite (Zc s 100000 l eq_refl Cl) end. unfold Rmin, Rmax. destruct (Rle_dec _ _); lra.
    + exfalso. assert (N : ex_tel <> []) by discriminate. destruct (draw_exists ex_tel dut Blue ex_row N RO) as (d & Ed). unfold draw in Ed. destruct (hit_positions _ _); [|discriminate]. cbn [row_fit ex_row] in Ed. rewrite D in Ed. discriminate.
Qed.

Print Assumptions C131_ends.
Print Assumptions C131_covers.
Print Assumptions C131_line_refuted.
Print Assumptions C131_planes.
Print Assumptions C131_page.
Print Assumptions C131_chunk_size.
Print Assumptions C131_succeeds.
