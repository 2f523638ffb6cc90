(** The tracks of the simulation (C99). *)
From Coq Require Import List Arith Reals Bool Lra Lia.
From Verif Require Import GeometryModel GeometryProofs GeometryProps AnglesProps SimTracksModel.
Import ListNotations.
Local Open Scope R_scope.

(** *** Specification *)
(** the unit vector with the angles phi and theta *)
Definition unit_vector (a : R * R) : vec := (cos (fst a) * sin (snd a), sin (fst a) * sin (snd a), cos (snd a)).
(** the plane of a DUT: the points with local z = 0 *)
Definition in_plane (p : placement) (q : vec) : Prop := exists u v, q = to_global p (u, v, 0).
(** the transverse part of the scattering: azimuth 2 pi u, polar angle |theta_0 z| *)
Definition kick (theta_0 : R) (uz : R * R) : vec :=
  (cos (2 * PI * fst uz) * sin (Rabs (theta_0 * snd uz)), sin (2 * PI * fst uz) * sin (Rabs (theta_0 * snd uz)), 0).
(** the direction d becomes d' at the plane p: the same without material, otherwise d plus the kick, normalised (the azimuth 90 and 270 degrees are left open, see C30_refuted) *)
Definition deflected (b : beam) (p : sim_plane) (uz : R * R) (d d' : vec) : Prop :=
  (material_budget p = 0 -> d' = d) /\
  (material_budget p <> 0 ->
   let v := vadd d (kick (136 / 10 / momentum b * sqrt (material_budget p) * (1 + 38 / 1000 * ln (material_budget p))) uz) in
   vx v <> 0 \/ vy v = 0 -> vscale (sqrt (vdot v v)) d' = v).
(** the way of one particle: from the point s in direction d through the planes; us: its random numbers for each number of planes that follow *)
Inductive flight (b : beam) (us : nat -> R * R) : vec -> vec -> list sim_plane -> list vec -> Prop :=
| flight_end s d : flight b us s d [] []
| flight_plane s d p planes q d' qs :
    in_plane (plane p) q -> on_line (s, d) q -> (planes <> [] -> deflected b p (us (length planes)) d d') -> vdot d' d' = 1 ->
    flight b us q d' planes qs -> flight b us s d (p :: planes) (q :: qs).
(** the hits of track i *)
Definition hits_of (i : nat) (hits : list (list vec)) : list vec := map (fun hs : list vec => @nth vec i hs (0, 0, 0)) hits.

(** *** Lists *)
Lemma all_some_eq {A} (l : list (option A)) r : all_some l = Some r <-> l = map Some r.
Proof.
  revert r. induction l as [|o l IH]; intros r; simpl.
  - destruct r; simpl; split; intros E; congruence.
  - destruct o as [a|]; simpl.
    + destruct (all_some l) as [r'|] eqn:E; simpl.
      * destruct r as [|x r]; simpl; [split; discriminate|]. specialize (IH r). split; intros K.
        -- injection K as -> ->. f_equal. apply IH. reflexivity.
        -- injection K as -> K. apply IH in K. congruence.
      * destruct r as [|x r]; simpl; [split; discriminate|]. split; [discriminate|]. intros K. injection K as -> K. apply IH in K. discriminate.
    + destruct r; simpl; split; discriminate.
Qed.
Lemma nth_error_seq n s i : (i < n)%nat -> nth_error (seq s n) i = Some (s + i)%nat.
Proof.
  revert s i. induction n as [|n IH]; intros s i H; [lia|]. destruct i; simpl; [f_equal; lia|]. rewrite IH by lia. f_equal. lia.
Qed.
Lemma nth_error_combine {A B} (l : list A) (m : list B) i a b : nth_error l i = Some a -> nth_error m i = Some b -> nth_error (combine l m) i = Some (a, b).
Proof.
  revert m i. induction l as [|x l IH]; intros [|y m] [|i] H1 H2; simpl in *; try discriminate.
  - congruence.
  - apply IH; auto.
Qed.
Lemma nth_error_number {A} (l : list A) i a : nth_error l i = Some a -> nth_error (combine (seq 0 (length l)) l) i = Some (i, a).
Proof. intros H. apply nth_error_combine; auto. apply nth_error_seq. apply nth_error_Some. congruence. Qed.

(** *** Geometry *)
Lemma plane_normal_dot p d : vdot (plane_normal p) d = vz (apply_rotation_matrix d (transpose (rot p))).
Proof.
  unfold plane_normal. rewrite !dot3_eye_r by lia. rewrite apply_rotation_eq. unfold vdot, transpose, vx, vy, vz. cbn [fst snd]. ring.
Qed.
Lemma in_plane_dot p q : in_plane p q <-> vdot (plane_normal p) (vsub q (pos p)) = 0.
Proof.
  rewrite plane_normal_dot, <- to_local_eq. split.
  - intros (u & v & ->). rewrite to_local_to_global. reflexivity.
  - intros H. exists (vx (to_local p q)), (vy (to_local p q)). rewrite <- (to_global_to_local p q) at 1. f_equal. apply vec_eq; auto.
Qed.
Lemma intersection_ok p l : vdot (plane_normal p) (snd l) <> 0 ->
  on_line l (intersection l (pos p) (plane_normal p)) /\ in_plane p (intersection l (pos p) (plane_normal p)).
Proof.
  intros H. destruct (C28_plane [l] (pos p) (plane_normal p)) as (qs & E & F). { intros l' [<-|[]]. exact H. }
  unfold intersections_with_plane in E. cbn in E. rewrite (proj2 (Reqb_false _ _) H) in E. cbn in E. injection E as <-.
  inversion F as [|? ? ? ? (F1 & F2 & _) _]; subst. split; auto. apply in_plane_dot, F2.
Qed.
Lemma spherical_unit a d : spherical_to_cartesian (fst a, snd a, 1) = Some d -> d = unit_vector a.
Proof.
  unfold spherical_to_cartesian. destruct (Rltb 1 0); [discriminate|]. destruct (_ || _); [discriminate|]. destruct (_ || _); [discriminate|].
  intros E. injection E as <-. unfold unit_vector. apply vec_eq; unfold vx, vy, vz; cbn [fst snd]; ring.
Qed.
Lemma spherical_range a : (exists d, spherical_to_cartesian (fst a, snd a, 1) = Some d) <-> 0 <= snd a < PI /\ 0 <= fst a < 2 * PI.
Proof.
  unfold spherical_to_cartesian. rewrite (proj2 (Rltb_false 1 0)) by lra.
  destruct (Rltb (snd a) 0) eqn:E1; [apply Rltb_true in E1; split; [intros (d & E); discriminate|lra]|]. apply Rltb_false in E1.
  destruct (Rleb PI (snd a)) eqn:E2; [apply Rleb_true in E2; split; [intros (d & E); discriminate|lra]|]. apply Rleb_false in E2. cbn [orb].
  destruct (Rltb (fst a) 0) eqn:E3; [apply Rltb_true in E3; split; [intros (d & E); discriminate|lra]|]. apply Rltb_false in E3.
  destruct (Rleb (2 * PI) (fst a)) eqn:E4; [apply Rleb_true in E4; split; [intros (d & E); discriminate|lra]|]. apply Rleb_false in E4. cbn [orb].
  split; [lra|]. intros _. eexists. reflexivity.
Qed.
Lemma unit_unit a : vdot (unit_vector a) (unit_vector a) = 1.
Proof.
  unfold vdot, unit_vector, vx, vy, vz. cbn [fst snd]. pose proof (sin2_cos2 (fst a)). pose proof (sin2_cos2 (snd a)). unfold Rsqr in *.
  set (c := cos (fst a)) in *. set (s := sin (fst a)) in *. set (S0 := sin (snd a)) in *. set (C0 := cos (snd a)) in *.
  replace (c * S0 * (c * S0) + s * S0 * (s * S0) + C0 * C0) with ((s * s + c * c) * (S0 * S0) + C0 * C0) by ring. rewrite H. lra.
Qed.
Lemma back_to_unit v d : (vx v <> 0 \/ vy v = 0) -> (let a := fst (cartesian_to_spherical v) in spherical_to_cartesian (fst a, snd a, 1) = Some d) ->
  vscale (sqrt (vdot v v)) d = v.
Proof.
  intros H E. set (a := fst (cartesian_to_spherical v)) in *. cbv zeta in E. pose proof (spherical_unit a d E) as ->.
  assert (R0 : snd (cartesian_to_spherical v) = sqrt (vdot v v)) by reflexivity.
  assert (N : ~ (vx v = 0 /\ vy v = 0 /\ vz v < 0)).
  { intros (N1 & N2 & N3). destruct (proj1 (spherical_range a) (ex_intro _ _ E)) as [T _]. revert T. unfold a, cartesian_to_spherical. cbn [fst snd]. rewrite N1, N2.
    replace (0 * 0 + 0 * 0 + vz v * vz v) with ((- vz v) * (- vz v)) by ring. rewrite sqrt_square by lra.
    rewrite (proj2 (Reqb_false (- vz v) 0)) by lra. replace (vz v / - vz v) with (- (1)) by (field; lra). rewrite acos_opp, acos_1. lra. }
  pose proof (C30_round_trip v H N) as K. fold a in R0.
  assert (S0 : cartesian_to_spherical v = (fst a, snd a, sqrt (vdot v v))) by (rewrite <- R0; unfold a; destruct (cartesian_to_spherical v) as [[? ?] ?]; reflexivity).
  rewrite S0 in K. unfold spherical_to_cartesian in K. destruct (Rltb _ 0); [discriminate|]. destruct (_ || _); [discriminate|]. destruct (_ || _); [discriminate|].
  clear R0 S0 E N. clearbody a. set (r := sqrt (vdot v v)) in *. clearbody r.
  assert (K' : (r * cos (fst a) * sin (snd a), r * sin (fst a) * sin (snd a), r * cos (snd a)) = v) by congruence.
  rewrite <- K'. unfold vscale, unit_vector. apply vec_eq; unfold vx, vy, vz; cbn [fst snd]; ring.
Qed.

(** *** The loop over the planes *)
Lemma directions_nth angles ds i a : directions angles = Some ds -> nth_error angles i = Some a ->
  spherical_to_cartesian (fst a, snd a, 1) = Some (unit_vector a) /\ nth_error ds i = Some (unit_vector a).
Proof.
  unfold directions. rewrite all_some_eq. intros E H. assert (K : nth_error (map Some ds) i = Some (spherical_to_cartesian (fst a, snd a, 1))).
  { rewrite <- E, nth_error_map, H. reflexivity. }
  rewrite nth_error_map in K. destruct (nth_error ds i) as [d|]; [|discriminate]. cbn [option_map] in K.
  assert (K' : spherical_to_cartesian (fst a, snd a, 1) = Some d) by congruence. pose proof (spherical_unit a d K') as ->. split; auto.
Qed.
Lemma directions_length angles ds : directions angles = Some ds -> length ds = length angles.
Proof. unfold directions. rewrite all_some_eq. intros E. apply (f_equal (@length _)) in E. rewrite !map_length in E. auto. Qed.
Lemma hits_nth p lines hits i l : intersections_with_plane lines (pos p) (plane_normal p) = Some hits -> nth_error lines i = Some l ->
  exists q, nth_error hits i = Some q /\ on_line l q /\ in_plane p q.
Proof.
  unfold intersections_with_plane. match goal with |- context [existsb ?f lines] => destruct (existsb f lines) eqn:E end; [discriminate|]. intros K H. assert (K' : map (fun l => intersection l (pos p) (plane_normal p)) lines = hits) by congruence.
  subst hits. exists (intersection l (pos p) (plane_normal p)). rewrite nth_error_map, H. split; [reflexivity|]. apply intersection_ok. intros N.
  assert (T : existsb (fun l => Reqb (vdot (plane_normal p) (snd l)) 0) lines = true).
  { apply existsb_exists. exists l. split; [eapply nth_error_In; eauto|]. apply Reqb_true, N. }
  congruence.
Qed.
Lemma scatter_all_nth b p us angles angles' i a : scatter_all b p us angles = Some angles' -> nth_error angles i = Some a ->
  exists a', nth_error angles' i = Some a' /\ scatter (scattering (scattering_angle_sigma (momentum b) (material_budget p) 1) (us i)) a = Some a'.
Proof.
  unfold scatter_all. cbv zeta. destruct (Rltb _ 0); [discriminate|]. rewrite all_some_eq. intros E H.
  match type of E with map ?f ?l = _ => assert (K : nth_error (map f l) i = Some (f (i, a))) by (rewrite nth_error_map, (nth_error_number _ _ _ H); reflexivity) end.
  rewrite E, nth_error_map in K. destruct (nth_error angles' i) as [a'|]; [|discriminate]. exists a'. split; auto. cbn [option_map fst snd] in K. congruence.
Qed.
Lemma scatter_deflected b p uz a a' d' : material_budget p <> 0 -> scatter (scattering (scattering_angle_sigma (momentum b) (material_budget p) 1) uz) a = Some a' ->
  spherical_to_cartesian (fst a', snd a', 1) = Some d' -> deflected b p uz (unit_vector a) d'.
Proof.
  intros M S1 S2. split; [tauto|]. intros _. cbv zeta. unfold scatter in S1.
  destruct (spherical_to_cartesian (fst a, snd a, 1)) as [v|] eqn:E1; [|discriminate]. apply spherical_unit in E1. subst v.
  set (sg := scattering _ uz) in *. destruct (spherical_to_cartesian (fst sg, snd sg, 1)) as [w|] eqn:E2; [|discriminate]. apply spherical_unit in E2.
  set (v := vadd (unit_vector a) _). assert (V : (vx (unit_vector a) + vx w, vy (unit_vector a) + vy w, vz (unit_vector a)) = v).
  { subst w v sg. unfold scattering, scattering_angle_sigma. rewrite (proj2 (Reqb_false _ _) M). unfold uniform, normal, unit_vector, kick. cbn [fst snd].
    replace (0 + (2 * PI - 0) * fst uz) with (2 * PI * fst uz) by ring.
    set (B := 136 / 10 / momentum b * sqrt (material_budget p) * (1 + 38 / 1000 * ln (material_budget p))).
    replace (0 + 136 / 10 / momentum b * 1 * sqrt (material_budget p) * (1 + 38 / 1000 * ln (material_budget p)) * snd uz) with (B * snd uz) by (unfold B, Rdiv; ring).
    apply vec_eq; unfold vadd, vx, vy, vz; cbn [fst snd]; ring. }
  rewrite V in S1. intros H. apply back_to_unit; auto. cbv zeta. assert (E : fst (cartesian_to_spherical v) = a') by congruence. rewrite E. exact S2.
Qed.

Lemma loop_first b p planes uss origins angles hits i a : loop_planes b (p :: planes) uss origins angles = Some hits -> nth_error angles i = Some a ->
  spherical_to_cartesian (fst a, snd a, 1) = Some (unit_vector a).
Proof. cbn [loop_planes]. destruct (directions angles) as [ds|] eqn:E; [|discriminate]. intros _ H. eapply directions_nth; eauto. Qed.

Lemma loop_flight b planes : forall uss origins angles hits i o a, loop_planes b planes uss origins angles = Some hits ->
  nth_error origins i = Some o -> nth_error angles i = Some a -> flight b (fun k => uss k i) o (unit_vector a) planes (hits_of i hits).
Proof.
  induction planes as [|p planes IH]; intros uss origins angles hits i o a L Ho Ha.
  - cbn in L. assert (hits = []) by congruence. subst. constructor.
  - cbn [loop_planes] in L. destruct (directions angles) as [ds|] eqn:D; [|discriminate]. destruct (directions_nth _ _ _ _ D Ha) as [D1 D2].
    destruct (intersections_with_plane _ _ _) as [hs|] eqn:X; [|discriminate].
    destruct (hits_nth _ _ _ i (o, unit_vector a) X (nth_error_combine _ _ _ _ _ Ho D2)) as (q & Q1 & Q2 & Q3).
    destruct (negb (Reqb (material_budget p) 0) && negb (length planes =? 0)%nat) eqn:C.
    + destruct (scatter_all _ _ _ _) as [angles'|] eqn:SA; [|discriminate]. destruct (scatter_all_nth _ _ _ _ _ _ _ SA Ha) as (a' & A1 & A2).
      destruct (loop_planes b planes uss hs angles') as [rest|] eqn:L'; [|discriminate]. cbn in L. assert (hits = hs :: rest) by congruence. subst hits.
      assert (Q4 : hits_of i (hs :: rest) = q :: hits_of i rest) by (unfold hits_of; cbn [map]; f_equal; apply nth_error_nth, Q1). rewrite Q4.
      apply flight_plane with (unit_vector a'); auto; [|apply unit_unit|eapply IH; eauto].
      intros N. destruct planes as [|p' planes]; [contradiction|]. apply andb_true_iff in C. destruct C as [C _]. apply negb_true_iff, Reqb_false in C.
      eapply scatter_deflected; eauto. eapply loop_first; eauto.
    + destruct (loop_planes b planes uss hs angles) as [rest|] eqn:L'; [|discriminate]. cbn in L. assert (hits = hs :: rest) by congruence. subst hits.
      assert (Q4 : hits_of i (hs :: rest) = q :: hits_of i rest) by (unfold hits_of; cbn [map]; f_equal; apply nth_error_nth, Q1). rewrite Q4.
      apply flight_plane with (unit_vector a); auto; [|apply unit_unit|eapply IH; eauto].
      intros N. split; [auto|]. intros M. exfalso. rewrite (proj2 (Reqb_false _ _) M) in C. destruct planes; [contradiction|discriminate].
Qed.

(** *** C99 *)
(** The points of each track form the way of one particle that begins at z = 0 and is deflected by the material of the planes only, not by the last plane. *)
Theorem C99_flight : forall b planes uss tracks hits, create_hits b planes uss tracks = Some hits ->
  forall i x y phi theta, nth_error tracks i = Some (x, y, phi, theta) ->
  flight b (fun k => uss k i) (x, y, 0) (unit_vector (phi, theta)) planes (hits_of i hits).
Proof. intros b planes uss tracks hits H i x y phi theta Hi. eapply loop_flight; [exact H| |]; rewrite nth_error_map, Hi; reflexivity. Qed.

Lemma loop_length b planes : forall uss origins angles hits, loop_planes b planes uss origins angles = Some hits -> length origins = length angles ->
  length hits = length planes /\ Forall (fun hs => length hs = length origins) hits.
Proof.
  induction planes as [|p planes IH]; intros uss origins angles hits L E; cbn [loop_planes] in L.
  - assert (hits = []) by congruence. subst. auto.
  - destruct (directions angles) as [ds|] eqn:D; [|discriminate]. destruct (intersections_with_plane _ _ _) as [hs|] eqn:X; [|discriminate].
    match type of L with match ?x with _ => _ end = _ => destruct x as [angles'|] eqn:SA; [|discriminate] end. destruct (loop_planes b planes uss hs angles') as [rest|] eqn:L'; [|discriminate].
    cbn in L. assert (hits = hs :: rest) by congruence. subst hits.
    assert (H1 : length hs = length origins).
    { unfold intersections_with_plane in X. match type of X with (if ?c then _ else _) = _ => destruct c end; [discriminate|]. assert (X' : map (fun l => intersection l (pos (plane p)) (plane_normal (plane p))) (combine origins ds) = hs) by congruence.
      subst hs. rewrite map_length. etransitivity; [apply combine_length|]. rewrite (directions_length _ _ D). lia. }
    assert (H2 : length angles' = length angles).
    { match type of SA with (if ?c then _ else _) = _ => destruct c end; [|congruence]. unfold scatter_all in SA. cbv zeta in SA. destruct (Rltb _ 0); [discriminate|]. rewrite all_some_eq in SA.
      apply (f_equal (@length _)) in SA. rewrite !map_length, combine_length, seq_length in SA. lia. }
    destruct (IH _ _ _ _ L') as [I1 I2]; [congruence|]. cbn. split; [congruence|]. constructor; auto. rewrite <- H1. exact I2.
Qed.
(** One list of points for each plane with one point for each track. *)
Theorem C99_shape : forall b planes uss tracks hits, create_hits b planes uss tracks = Some hits ->
  length hits = length planes /\ Forall (fun hs => length hs = length tracks) hits.
Proof.
  intros b planes uss tracks hits H. destruct (loop_length _ _ _ _ _ _ H) as [H1 H2]; [rewrite !map_length; reflexivity|].
  split; auto. rewrite map_length in H2. exact H2.
Qed.

Lemma on_line_trans s d q q' : on_line (s, d) q -> on_line (q, d) q' -> on_line (s, d) q'.
Proof.
  intros (t & ->) (t' & ->). exists (t + t'). unfold vadd, vscale. cbn [fst snd]. apply vec_eq; unfold vx, vy, vz; cbn [fst snd]; ring.
Qed.
Lemma flight_straight b us s d planes qs : flight b us s d planes qs -> (forall p, In p (removelast planes) -> material_budget p = 0) ->
  forall s0, on_line (s0, d) s -> Forall2 (fun p q => in_plane (plane p) q /\ on_line (s0, d) q) planes qs.
Proof.
  induction 1 as [|s d p planes q d' qs H1 H2 H3 _ F IH]; intros M s0 H0; constructor.
  - split; auto. eapply on_line_trans; eauto.
  - destruct planes as [|p' planes]. { inversion F. constructor. }
    destruct (H3 ltac:(discriminate)) as [H3a _]. assert (D : d' = d) by (apply H3a, M; left; reflexivity). subst d'.
    apply IH; [intros p0 I0; apply M; right; exact I0|]. eapply on_line_trans; eauto.
Qed.
(** Without material before the last plane all points are on the straight track. *)
Theorem C99_straight : forall b planes uss tracks hits, create_hits b planes uss tracks = Some hits ->
  (forall p, In p (removelast planes) -> material_budget p = 0) ->
  forall i x y phi theta, nth_error tracks i = Some (x, y, phi, theta) ->
  Forall2 (fun p q => in_plane (plane p) q /\ on_line ((x, y, 0), unit_vector (phi, theta)) q) planes (hits_of i hits).
Proof.
  intros b planes uss tracks hits H M i x y phi theta Hi. eapply flight_straight; [eapply C99_flight; eauto|exact M|].
  exists 0. unfold vadd, vscale. cbn [fst snd]. apply vec_eq; unfold vx, vy, vz; cbn [fst snd]; ring.
Qed.

Lemma directions_total angles : (exists ds, directions angles = Some ds) <-> forall a, In a angles -> 0 <= snd a < PI /\ 0 <= fst a < 2 * PI.
Proof.
  split.
  - intros (ds & D) a I0. apply spherical_range. apply In_nth_error in I0. destruct I0 as (i & Hi). destruct (directions_nth _ _ _ _ D Hi). eauto.
  - intros H. exists (map unit_vector angles). apply all_some_eq. rewrite map_map. apply map_ext_in. intros a I0.
    destruct (proj2 (spherical_range a) (H a I0)) as (d & E). rewrite E, (spherical_unit _ _ E). reflexivity.
Qed.
Lemma directions_value angles ds : directions angles = Some ds -> ds = map unit_vector angles.
Proof.
  intros D. pose proof (proj1 (directions_total angles) (ex_intro _ _ D)) as H. unfold directions in D. rewrite all_some_eq in D.
  assert (E : map Some ds = map Some (map unit_vector angles)).
  { rewrite <- D, map_map. apply map_ext_in. intros a I0. destruct (proj2 (spherical_range a) (H a I0)) as (d & E). rewrite E, (spherical_unit _ _ E). reflexivity. }
  clear - E. revert E. generalize (map unit_vector angles) as m. induction ds; intros [|? ?] E; cbn in E; try discriminate; auto. injection E as -> E. f_equal. auto.
Qed.
Lemma loop_straight_total b planes : forall uss origins angles, (forall p, In p (removelast planes) -> material_budget p = 0) -> length origins = length angles -> planes <> [] ->
  (loop_planes b planes uss origins angles <> None <->
   (forall a, In a angles -> 0 <= snd a < PI /\ 0 <= fst a < 2 * PI) /\
   (forall p a, In p planes -> In a angles -> vz (apply_rotation_matrix (unit_vector a) (transpose (rot (plane p)))) <> 0)).
Proof.
  induction planes as [|p planes IH]; [contradiction|]. intros uss origins angles M E _. cbn [loop_planes].
  destruct (directions angles) as [ds|] eqn:D.
  2: { split; [congruence|]. intros [H _]. apply directions_total in H. destruct H as (ds & H). congruence. }
  assert (Ra := proj1 (directions_total angles) (ex_intro _ _ D)). apply directions_value in D. subst ds.
  assert (X : (existsb (fun l : line => Reqb (vdot (plane_normal (plane p)) (snd l)) 0) (combine origins (map unit_vector angles)) = true) <->
              exists a, In a angles /\ vz (apply_rotation_matrix (unit_vector a) (transpose (rot (plane p)))) = 0).
  { rewrite existsb_exists. split.
    - intros ([o d] & I0 & Z). apply in_combine_r in I0. apply in_map_iff in I0. destruct I0 as (a & <- & I0). exists a. split; auto.
      apply Reqb_true in Z. rewrite plane_normal_dot in Z. exact Z.
    - intros (a & I0 & Z). apply In_nth_error in I0. destruct I0 as (i & Hi).
      destruct (nth_error origins i) as [o|] eqn:Ho.
      2: { apply nth_error_None in Ho. assert (i < length angles)%nat by (apply nth_error_Some; congruence). lia. }
      exists (o, unit_vector a). split; [|apply Reqb_true; cbn [snd]; rewrite plane_normal_dot; exact Z].
      apply nth_error_In with i. apply nth_error_combine; auto. rewrite nth_error_map, Hi. reflexivity. }
  unfold intersections_with_plane. match goal with |- context [existsb ?f ?l] => destruct (existsb f l) eqn:EX end.
  { split; [congruence|]. intros [_ H]. destruct (proj1 X EX) as (a & I0 & Z). exfalso. apply (H p a); simpl; auto. }
  assert (Z : forall a, In a angles -> vz (apply_rotation_matrix (unit_vector a) (transpose (rot (plane p)))) <> 0).
  { intros a I0 Z. assert (T : false = true) by (etransitivity; [symmetry; exact EX|apply X; eauto]). discriminate T. }
  assert (C : negb (Reqb (material_budget p) 0) && negb (length planes =? 0)%nat = false).
  { destruct planes as [|p' planes]; [apply andb_false_r|]. rewrite (proj2 (Reqb_true (material_budget p) 0)); auto. apply M. left. reflexivity. }
  rewrite C. set (hs := map _ _). destruct planes as [|p' planes].
  { cbn [loop_planes option_map]. split; [|intros _; discriminate]. intros _. split; [exact Ra|]. intros p0 a [<-|[]]. apply Z. }
  assert (IH' := IH uss hs angles). destruct (loop_planes b (p' :: planes) uss hs angles) as [rest|]; cbn [option_map].
  - destruct IH' as [IH' _]; [intros; apply M; right; auto|unfold hs; rewrite map_length; etransitivity; [apply combine_length|]; rewrite map_length; lia|discriminate|].
    destruct IH' as [_ IH']; [congruence|]. split; [|intros _; discriminate]. intros _. split; [exact Ra|]. intros p0 a [<-|I0] Ia; [apply Z, Ia|apply IH'; auto].
  - destruct IH' as [_ IH']; [intros; apply M; right; auto|unfold hs; rewrite map_length; etransitivity; [apply combine_length|]; rewrite map_length; lia|discriminate|].
    split; [congruence|]. intros [_ H]. exfalso. apply IH'; [|reflexivity]. split; [exact Ra|]. intros p0 a Ip Ia. apply H; auto. right. auto.
Qed.
(** Without material before the last plane the call succeeds if and only if the angles are in range and no track is parallel to a plane; one bad track makes the call fail for all. *)
Theorem C99_success : forall b planes uss tracks, planes <> [] -> (forall p, In p (removelast planes) -> material_budget p = 0) ->
  (create_hits b planes uss tracks <> None <->
   forall x y phi theta, In (x, y, phi, theta) tracks -> 0 <= theta < PI /\ 0 <= phi < 2 * PI /\
     forall p, In p planes -> ~ parallel (plane p) ((x, y, 0), unit_vector (phi, theta))).
Proof.
  intros b planes uss tracks N M. unfold create_hits. rewrite loop_straight_total; auto; [|rewrite !map_length; reflexivity]. split.
  - intros [H1 H2] x y phi theta I0. assert (I1 : In (phi, theta) (map (fun t : R * R * R * R => let '(_, _, phi, theta) := t in (phi, theta)) tracks)).
    { apply in_map_iff. eexists. split; [|exact I0]. reflexivity. }
    destruct (H1 _ I1) as [H3 H4]. cbn [fst snd] in *. split; auto. split; auto. intros p Ip. apply (H2 p _ Ip I1).
  - intros H. split.
    + intros a Ia. apply in_map_iff in Ia. destruct Ia as ([[[x y] phi] theta] & <- & I0). cbn [fst snd]. destruct (H _ _ _ _ I0) as (H1 & H2 & _). auto.
    + intros p a Ip Ia. apply in_map_iff in Ia. destruct Ia as ([[[x y] phi] theta] & <- & I0). destruct (H _ _ _ _ I0) as (_ & _ & H3). apply (H3 p Ip).
Qed.

(** *** Scattering *)
Lemma cos_atan_pos x : 0 < cos (atan x).
Proof. destruct (atan_bound x). apply cos_gt_0; lra. Qed.
(** A track along the z axis that is scattered with the angles phi and theta gets the azimuth phi and the polar angle arctan(sin(theta)), which is less than theta. *)
Theorem C99_axis : forall phi_s theta_s phi, 0 <= phi_s < 2 * PI -> cos phi_s <> 0 -> 0 < theta_s < PI -> 0 <= phi < 2 * PI ->
  scatter (phi_s, theta_s) (phi, 0) = Some (phi_s, atan (sin theta_s)) /\ 0 < atan (sin theta_s) < theta_s.
Proof.
  intros ps ts phi Hp Hc Ht Hf. pose proof PI_RGT_0 as HPI. assert (S0 : 0 < sin ts) by (apply sin_gt_0; lra).
  assert (A0 : 0 < atan (sin ts)) by (rewrite <- atan_0; apply atan_increasing; lra). destruct (atan_bound (sin ts)) as [_ A1].
  split; [|split; [exact A0|]].
  - unfold scatter. destruct (proj2 (spherical_range (phi, 0))) as (v & E1); [cbn; lra|]. rewrite E1. apply spherical_unit in E1.
    destruct (proj2 (spherical_range (ps, ts))) as (w & E2); [cbn [fst snd]; lra|]. rewrite E2. apply spherical_unit in E2.
    pose proof (cos_atan_pos (sin ts)) as C0. pose proof (tan_atan (sin ts)) as T0. unfold tan in T0.
    assert (T1 : sin (atan (sin ts)) = sin ts * cos (atan (sin ts))) by (rewrite <- T0 at 2; field; lra).
    destruct (C30_round_trip_back ps (atan (sin ts)) (/ cos (atan (sin ts)))) as (q & Q1 & _ & Q2); auto; [apply Rinv_0_lt_compat; auto|lra|].
    assert (Q : q = (vx v + vx w, vy v + vy w, vz v)).
    { unfold spherical_to_cartesian in Q1. destruct (Rltb _ 0); [discriminate|]. destruct (_ || _); [discriminate|]. destruct (_ || _); [discriminate|].
      assert (Q3 : (/ cos (atan (sin ts)) * cos ps * sin (atan (sin ts)), / cos (atan (sin ts)) * sin ps * sin (atan (sin ts)), / cos (atan (sin ts)) * cos (atan (sin ts))) = q) by congruence.
      rewrite <- Q3, E1, E2, T1. unfold unit_vector. cbn [fst snd]. rewrite sin_0, cos_0. apply vec_eq; unfold vx, vy, vz; cbn [fst snd]; field; lra. }
    rewrite <- Q, Q2. reflexivity.
  - destruct (Rlt_le_dec ts (PI / 2)) as [L|L].
    + rewrite <- (atan_tan ts) at 2 by lra. apply atan_increasing. unfold tan. pose proof (cos_gt_0 ts ltac:(lra) ltac:(lra)) as C0.
      assert (C1 : cos ts < 1) by (rewrite <- cos_0; apply cos_decreasing_1; lra).
      apply Rmult_lt_reg_r with (cos ts); auto. unfold Rdiv. rewrite Rmult_assoc, Rinv_l by lra. nra.
    + lra.
Qed.
(** An inclined track is scattered by another angle; a track along x is not scattered at all by a kick along x. *)
Theorem C99_inclined_refuted : forall theta_s, 0 < theta_s < PI -> scatter (0, theta_s) (0, PI / 2) = Some (0, PI / 2).
Proof.
  intros ts Ht. pose proof PI_RGT_0 as HPI. assert (S0 : 0 < sin ts) by (apply sin_gt_0; lra). unfold scatter.
  destruct (proj2 (spherical_range (0, PI / 2))) as (v & E1); [cbn; lra|]. rewrite E1. apply spherical_unit in E1.
  destruct (proj2 (spherical_range (0, ts))) as (w & E2); [cbn [fst snd]; lra|]. rewrite E2. apply spherical_unit in E2.
  destruct (C30_round_trip_back 0 (PI / 2) (1 + sin ts)) as (q & Q1 & _ & Q2); [lra|lra|lra|rewrite cos_0; lra|].
  assert (Q : q = (vx v + vx w, vy v + vy w, vz v)).
  { unfold spherical_to_cartesian in Q1. destruct (Rltb _ 0); [discriminate|]. destruct (_ || _); [discriminate|]. destruct (_ || _); [discriminate|].
    assert (Q3 : ((1 + sin ts) * cos 0 * sin (PI / 2), (1 + sin ts) * sin 0 * sin (PI / 2), (1 + sin ts) * cos (PI / 2)) = q) by congruence.
    rewrite <- Q3, E1, E2. unfold unit_vector. cbn [fst snd]. rewrite sin_0, cos_0, sin_PI2, cos_PI2. apply vec_eq; unfold vx, vy, vz; cbn [fst snd]; ring. }
  rewrite <- Q, Q2. reflexivity.
Qed.

Lemma sigma_eq p x : x <> 0 -> scattering_angle_sigma p x 1 = 136 / 10 / p * (sqrt x * (1 + 38 / 1000 * ln x)).
Proof. intros H. unfold scattering_angle_sigma. rewrite (proj2 (Reqb_false _ _) H). unfold Rdiv. ring. Qed.
(** The sigma of the scattering angle: zero without material, growing with the material from exp(-1/0.038) on, inversely proportional to the momentum. *)
Theorem C99_sigma : forall p, 0 < p ->
  scattering_angle_sigma p 0 1 = 0 /\
  (forall x y, exp (- (1000 / 38)) <= x < y -> 0 <= scattering_angle_sigma p x 1 < scattering_angle_sigma p y 1) /\
  (forall k x, 0 < k -> scattering_angle_sigma (k * p) x 1 = scattering_angle_sigma p x 1 / k).
Proof.
  intros p Hp. split; [|split].
  - unfold scattering_angle_sigma. rewrite (proj2 (Reqb_true 0 0)); reflexivity.
  - intros x y [H1 H2]. pose proof (exp_pos (- (1000 / 38))) as H0. rewrite !sigma_eq by lra.
    assert (L1 : - (1000 / 38) <= ln x). { rewrite <- (ln_exp (- (1000 / 38))). destruct H1 as [H1|H1]; [left; apply ln_increasing; lra|rewrite H1; lra]. }
    assert (L2 : ln x < ln y) by (apply ln_increasing; lra). assert (S1 : sqrt x < sqrt y) by (apply sqrt_lt_1; lra).
    assert (S0 : 0 < sqrt x) by (apply sqrt_lt_R0; lra). assert (P0 : 0 < 136 / 10 / p) by (apply Rdiv_lt_0_compat; lra).
    set (A := 1 + 38 / 1000 * ln x) in *. set (B := 1 + 38 / 1000 * ln y) in *. assert (A0 : 0 <= A) by (unfold A; lra). assert (AB : A < B) by (unfold A, B; lra).
    split; [apply Rmult_le_pos; [lra|]; apply Rmult_le_pos; lra|]. apply Rmult_lt_compat_l; auto.
    apply Rle_lt_trans with (sqrt y * A); [apply Rmult_le_compat_r; lra|apply Rmult_lt_compat_l; lra].
  - intros k x Hk. unfold scattering_angle_sigma. destruct (Reqb x 0); [unfold Rdiv; ring|]. field. lra.
Qed.
(** With less material the sigma is negative, and the simulation fails. *)
Theorem C99_small_budget_refuted : forall b p p' planes uss tracks, 0 < momentum b -> 0 < material_budget p < exp (- (1000 / 38)) ->
  scattering_angle_sigma (momentum b) (material_budget p) 1 < 0 /\ create_hits b (p :: p' :: planes) uss tracks = None.
Proof.
  intros b p p' planes uss tracks Hp [H1 H2].
  assert (S0 : scattering_angle_sigma (momentum b) (material_budget p) 1 < 0).
  { rewrite sigma_eq by lra. assert (L1 : ln (material_budget p) < - (1000 / 38)) by (rewrite <- (ln_exp (- (1000 / 38))); apply ln_increasing; lra).
    assert (Q0 : 0 < sqrt (material_budget p)) by (apply sqrt_lt_R0; lra). assert (P0 : 0 < 136 / 10 / momentum b) by (apply Rdiv_lt_0_compat; lra).
    set (A := 1 + 38 / 1000 * ln (material_budget p)) in *. assert (A0 : A < 0) by (unfold A; lra).
    assert (K : sqrt (material_budget p) * A < 0) by nra. set (m := sqrt (material_budget p) * A) in *. nra. }
  split; auto. unfold create_hits. cbn [loop_planes]. destruct (directions _); auto. destruct (intersections_with_plane _ _ _); auto.
  rewrite (proj2 (Reqb_false (material_budget p) 0)) by lra. cbn [length Nat.eqb negb andb]. unfold scatter_all. cbv zeta.
  rewrite (proj2 (Rltb_true _ _) S0). reflexivity.
Qed.

(** *** The tracks of the beam *)
Lemma out_of_range_false t : out_of_range t = false <-> 0 <= t <= PI.
Proof. unfold out_of_range. rewrite orb_false_iff, !Rltb_false. tauto. Qed.
Lemma cut_theta_ok b m : forall zs l r, cut_theta b m zs l = Some r ->
  length r = length l /\ (forall t, In t r -> 0 <= t <= PI) /\ (forall i t, nth_error l i = Some t -> 0 <= t <= PI -> nth_error r i = Some t).
Proof.
  assert (Done : forall l, existsb out_of_range l = false -> forall t, In t l -> 0 <= t <= PI).
  { intros l E t I0. apply out_of_range_false. destruct (out_of_range t) eqn:O; auto.
    assert (T : existsb out_of_range l = true) by (apply existsb_exists; eauto). congruence. }
  induction m as [|m IH]; intros zs l r; cbn [cut_theta]; destruct (existsb out_of_range l) eqn:E; try discriminate.
  - intros K. assert (r = l) by congruence. subst. eauto.
  - intros K. destruct (IH _ _ _ K) as (I1 & I2 & I3). split; [|split; [exact I2|]].
    + rewrite I1. unfold redraws. rewrite map_length, combine_length, seq_length. lia.
    + intros i t Hi Ht. apply I3; auto. unfold redraws. rewrite nth_error_map, (nth_error_number _ _ _ Hi). cbn [option_map fst snd]. f_equal.
      unfold redraw. rewrite (proj2 (Rltb_false PI t)) by lra. rewrite (proj2 (Rltb_false t 0)) by lra. reflexivity.
  - intros K. assert (r = l) by congruence. subst. eauto.
Qed.
(** the sample of the first angle theta in rad: mean beam_angle and sigma beam_angle_sigma, both in mrad, and the absolute value *)
Definition theta_sample (b : beam) (d : draw) : R := Rabs (angle b + angle_sigma b * d_theta d) / 1000.
Lemma first_theta_eq b d : 0 <= angle b -> first_theta b d = theta_sample b d.
Proof.
  intros H. unfold first_theta, theta_sample, normal. destruct (Reqb (angle_sigma b) 0) eqn:E.
  - apply Reqb_true in E. rewrite E, Rmult_0_l, Rplus_0_r, Rabs_right; lra.
  - replace (angle b / 1000 + angle_sigma b / 1000 * d_theta d) with ((angle b + angle_sigma b * d_theta d) * / 1000) by field.
    rewrite Rabs_mult, (Rabs_right (/ 1000)) by lra. reflexivity.
Qed.
Lemma C99_tracks_limit limit : forall b zs draws tracks, create_tracks_limit limit b zs draws = inr tracks ->
  0 <= angle b <= 1000 * PI /\
  Forall2 (fun d t => let '(x, y, phi, theta) := t in
    x = position_x b + sigma_x b * d_x d /\ (sigma_y b = 0 \/ sigma_y b = sigma_x b -> y = position_y b + sigma_y b * d_y d) /\
    phi = (1 - d_phi d) * direction_lo b + d_phi d * direction_hi b /\
    0 <= theta <= PI /\ (theta_sample b d <= PI -> theta = theta_sample b d)) draws tracks.
Proof.
  intros b zs draws tracks H. unfold create_tracks_limit in H. destruct (Rltb PI (angle b / 1000)) eqn:E1; [discriminate|]. destruct (Rltb (angle b / 1000) 0) eqn:E2; [discriminate|].
  apply Rltb_false in E1, E2. assert (A : 0 <= angle b <= 1000 * PI) by lra. split; [exact A|]. cbn [orb] in H.
  destruct (cut_theta _ _ _ _) as [thetas|] eqn:C; [|discriminate]. destruct (cut_theta_ok _ _ _ _ _ C) as (C1 & C2 & C3). rewrite map_length in C1.
  assert (T : map (fun dt => (track_x b (fst dt), track_y b (fst dt), track_phi b (fst dt), snd dt)) (combine draws thetas) = tracks) by congruence. clear H C. subst tracks.
  revert thetas C1 C2 C3. induction draws as [|d draws IH]; intros [|t thetas] C1 C2 C3; try discriminate; cbn [combine map]; constructor.
  - cbn [fst snd]. split; [|split; [|split; [|split]]].
    + unfold track_x, normal. destruct (Reqb (sigma_x b) 0) eqn:E; auto. apply Reqb_true in E. rewrite E. ring.
    + unfold track_y, normal. destruct (Reqb (sigma_y b) 0) eqn:E; [apply Reqb_true in E; rewrite E; intros; ring|]. apply Reqb_false in E. intros [K|K]; [contradiction|]. rewrite K. reflexivity.
    + unfold track_phi, uniform. destruct (Reqb (direction_lo b) (direction_hi b)) eqn:E; [apply Reqb_true in E; rewrite E; ring|ring].
    + apply C2. left. reflexivity.
    + intros K. assert (P0 : 0 <= theta_sample b d) by (unfold theta_sample; pose proof (Rabs_pos (angle b + angle_sigma b * d_theta d)); lra).
      specialize (C3 0%nat (theta_sample b d)). cbn in C3. rewrite first_theta_eq in C3 by lra. specialize (C3 eq_refl ltac:(lra)). congruence.
  - apply IH; [cbn in C1; congruence|intros t0 I0; apply C2; right; auto|]. intros i t0 Hi. apply (C3 (S i) t0). exact Hi.
Qed.
(** Each track: x from the normal distribution of the beam, phi uniform in the range of directions, theta in [0, pi] and the first sample if that is in range; one track for each set of
    random numbers; y is the position of the beam if its sigma is zero. *)
Theorem C99_tracks : forall b zs draws tracks, create_tracks b zs draws = inr tracks ->
  0 <= angle b <= 1000 * PI /\
  Forall2 (fun d t => let '(x, y, phi, theta) := t in
    x = position_x b + sigma_x b * d_x d /\ (sigma_y b = 0 \/ sigma_y b = sigma_x b -> y = position_y b + sigma_y b * d_y d) /\
    phi = (1 - d_phi d) * direction_lo b + d_phi d * direction_hi b /\
    0 <= theta <= PI /\ (theta_sample b d <= PI -> theta = theta_sample b d)) draws tracks.
Proof. exact (C99_tracks_limit 1000). Qed.
Lemma cut_theta_sample b m : forall zs l r i t0 t, cut_theta b m zs l = Some r -> nth_error l i = Some t0 -> nth_error r i = Some t ->
  t = t0 \/ exists n, t = angle b + angle_sigma b * fst (zs n i) \/ t = angle b + angle_sigma b * snd (zs n i).
Proof.
  induction m as [|m IH]; intros zs l r i t0 t; cbn [cut_theta]; destruct (existsb out_of_range l); try discriminate; intros K Hl Hr.
  - left. congruence.
  - assert (Hn : nth_error (redraws b (zs m) l) i = Some (redraw b (zs m i) t0)) by (unfold redraws; rewrite nth_error_map, (nth_error_number _ _ _ Hl); reflexivity).
    destruct (IH _ _ _ _ _ _ K Hn Hr) as [E|E]; [|right; exact E]. rewrite E. unfold redraw, normal. destruct (Rltb PI t0).
    + right. exists m. destruct (Rltb _ 0); auto.
    + destruct (Rltb t0 0); [right; exists m; auto|left; reflexivity].
  - left. congruence.
Qed.
Lemma C99_resample_limit limit : forall b zs draws tracks i d x y phi theta, create_tracks_limit limit b zs draws = inr tracks -> nth_error draws i = Some d -> nth_error tracks i = Some (x, y, phi, theta) -> PI < theta_sample b d ->
  exists n, theta = angle b + angle_sigma b * fst (zs n i) \/ theta = angle b + angle_sigma b * snd (zs n i).
Proof.
  intros b zs draws tracks i d x y phi theta H Hd Ht Hs. assert (A := proj1 (C99_tracks_limit _ _ _ _ _ H)). unfold create_tracks_limit in H. destruct (_ || _); [discriminate|].
  destruct (cut_theta _ _ _ _) as [thetas|] eqn:C; [|discriminate]. destruct (cut_theta_ok _ _ _ _ _ C) as (C1 & C2 & _). rewrite map_length in C1.
  assert (T : map (fun dt => (track_x b (fst dt), track_y b (fst dt), track_phi b (fst dt), snd dt)) (combine draws thetas) = tracks) by congruence. rewrite <- T, nth_error_map in Ht.
  assert (Hth : nth_error thetas i = Some theta).
  { clear -Ht C1. revert draws thetas C1 Ht. induction i as [|i IH]; intros [|d0 ds] [|t0 ts] C1 Ht; try discriminate; [cbn in *; congruence|]. cbn in Ht |- *. apply (IH ds ts); [cbn in C1; congruence|exact Ht]. }
  destruct (cut_theta_sample _ _ _ _ _ i (first_theta b d) theta C) as [E|E]; [rewrite nth_error_map, Hd; reflexivity|exact Hth| |exact E].
  exfalso. rewrite first_theta_eq in E by lra. apply nth_error_In in Hth. apply C2 in Hth. lra.
Qed.
(** A track of which the first sample of theta is out of range gets a sample with the mean beam_angle and sigma beam_angle_sigma, used as rad. *)
Theorem C99_resample : forall b zs draws tracks i d x y phi theta, create_tracks b zs draws = inr tracks -> nth_error draws i = Some d -> nth_error tracks i = Some (x, y, phi, theta) -> PI < theta_sample b d ->
  exists n, theta = angle b + angle_sigma b * fst (zs n i) \/ theta = angle b + angle_sigma b * snd (zs n i).
Proof. exact (C99_resample_limit 1000). Qed.
(** a first sample of 5 rad and a second one of 1 rad *)
Lemma C99_resample_case_limit limit : let b := Beam 0 0 0 0 0 1 0 0 1 in create_tracks_limit (S limit) b (fun _ _ => (1, 1)) [Draw 0 0 5000 0] = inr [(0, 0, 0, 1)].
Proof.
  cbv zeta. pose proof PI_RGT_0. assert (P4 : PI < 5) by (pose proof PI_4; lra). assert (P1 : 1 < PI) by (pose proof PI2_1; lra). unfold create_tracks_limit. cbn [angle]. rewrite (proj2 (Rltb_false PI (0 / 1000))), (proj2 (Rltb_false (0 / 1000) 0)) by lra. cbn [orb map].
  rewrite first_theta_eq by (cbn; lra). unfold theta_sample. cbn [angle angle_sigma d_theta]. replace (Rabs (0 + 1 * 5000) / 1000) with 5 by (rewrite Rabs_right by lra; lra). cbn [cut_theta existsb]. unfold out_of_range at 1. rewrite (proj2 (Rltb_true PI 5)) by lra. cbn [orb].
  unfold redraws. cbn [length seq combine map fst snd]. unfold redraw. rewrite (proj2 (Rltb_true PI 5)) by lra. cbn [fst snd angle angle_sigma]. unfold normal. replace (0 + 1 * 1) with 1 by ring. rewrite (proj2 (Rltb_false 1 0)) by lra.
  assert (C : cut_theta (Beam 0 0 0 0 0 1 0 0 1) limit (fun _ _ => (1, 1)) [1] = Some [1]) by (destruct limit; cbn [cut_theta existsb]; rewrite (proj2 (out_of_range_false 1)) by lra; reflexivity).
  rewrite C. cbn [combine map fst snd]. unfold track_x, track_y, track_phi. cbn. rewrite !(proj2 (Reqb_true 0 0)) by reflexivity. reflexivity.
Qed.
Example C99_resample_case : let b := Beam 0 0 0 0 0 1 0 0 1 in create_tracks b (fun _ _ => (1, 1)) [Draw 0 0 5000 0] = inr [(0, 0, 0, 1)].
Proof. exact (C99_resample_case_limit 999). Qed.
Lemma C99_errors_limit limit : forall b zs draws,
  (create_tracks_limit limit b zs draws = inl AngleValueError <-> ~ 0 <= angle b <= 1000 * PI) /\
  (0 <= angle b <= 1000 * PI -> (forall d, In d draws -> theta_sample b d <= PI) -> exists tracks, create_tracks_limit limit b zs draws = inr tracks).
Proof.
  intros b zs draws. split.
  - unfold create_tracks_limit. destruct (Rltb PI (angle b / 1000)) eqn:E1; [apply Rltb_true in E1; cbn [orb]; split; [lra|reflexivity]|]. apply Rltb_false in E1.
    destruct (Rltb (angle b / 1000) 0) eqn:E2; [apply Rltb_true in E2; cbn [orb]; split; [lra|reflexivity]|]. apply Rltb_false in E2. cbn [orb].
    split; [|lra]. destruct (cut_theta _ _ _ _); discriminate.
  - intros A H. unfold create_tracks_limit. rewrite (proj2 (Rltb_false PI (angle b / 1000))), (proj2 (Rltb_false (angle b / 1000) 0)) by lra. cbn [orb].
    assert (E : existsb out_of_range (map (first_theta b) draws) = false).
    { destruct (existsb _ _) eqn:E; auto. apply existsb_exists in E. destruct E as (t & I0 & O). apply in_map_iff in I0. destruct I0 as (d & <- & I0).
      rewrite first_theta_eq in O by lra. assert (P0 : 0 <= theta_sample b d) by (unfold theta_sample; pose proof (Rabs_pos (angle b + angle_sigma b * d_theta d)); lra).
      pose proof (proj2 (out_of_range_false (theta_sample b d)) (conj P0 (H d I0))). congruence. }
    assert (C : forall m l, existsb out_of_range l = false -> cut_theta b m zs l = Some l) by (intros [|m] l K; cbn [cut_theta]; rewrite K; reflexivity).
    rewrite C by exact E. eauto.
Qed.
(** The error for the beam angle, and the success if all first samples are in range. *)
Theorem C99_errors : forall b zs draws,
  (create_tracks b zs draws = inl AngleValueError <-> ~ 0 <= angle b <= 1000 * PI) /\
  (0 <= angle b <= 1000 * PI -> (forall d, In d draws -> theta_sample b d <= PI) -> exists tracks, create_tracks b zs draws = inr tracks).
Proof. exact (C99_errors_limit 1000). Qed.
(** The spread of y is that of x if the sigma of y is not zero. *)
Theorem C99_y_refuted : exists b, sigma_x b = 0 /\ sigma_y b = 1 /\ forall zs d,
  create_tracks b zs [d] = inr [(0, 0, 0, 0)].
Proof.
  exists (Beam 0 0 0 1 0 0 0 0 1). cbn. split; [reflexivity|]. split; [reflexivity|]. intros zs d. pose proof PI_RGT_0.
  unfold create_tracks. generalize 1000%nat as limit. intros limit. unfold create_tracks_limit. cbn [angle]. rewrite (proj2 (Rltb_false PI (0 / 1000))), (proj2 (Rltb_false (0 / 1000) 0)) by lra. cbn [orb].
  assert (F : first_theta (Beam 0 0 0 1 0 0 0 0 1) d = 0) by (unfold first_theta; cbn; rewrite (proj2 (Reqb_true 0 0)) by reflexivity; lra).
  cbn [map]. rewrite F.
  assert (C : forall m, cut_theta (Beam 0 0 0 1 0 0 0 0 1) m zs [0] = Some [0]).
  { assert (O : existsb out_of_range [0] = false) by (cbn [existsb]; rewrite (proj2 (out_of_range_false 0)) by lra; reflexivity). intros [|m]; cbn [cut_theta]; rewrite O; reflexivity. }
  rewrite C. cbn [combine map fst snd]. unfold track_x, track_y, track_phi, normal. cbn.
  rewrite (proj2 (Reqb_true 0 0)), (proj2 (Reqb_false 1 0)) by lra. replace (0 + 0 * d_y d) with 0 by ring. reflexivity.
Qed.
Lemma C99_redraw_refuted_limit limit : forall b zs draws, 0 <= angle_sigma b -> PI < angle b - 100 * angle_sigma b -> angle b <= 1000 * PI ->
  (forall n i, Rabs (fst (zs n i)) <= 100) -> (exists d, In d draws /\ PI < theta_sample b d) ->
  create_tracks_limit limit b zs draws = inl ThetaRuntimeError.
Proof.
  intros b zs draws Hs Ha Ha' Hz (d & I0 & Hd). pose proof PI_RGT_0. unfold create_tracks_limit. rewrite (proj2 (Rltb_false PI (angle b / 1000))), (proj2 (Rltb_false (angle b / 1000) 0)) by lra. cbn [orb].
  assert (C : forall m l, (exists t, In t l /\ PI < t) -> cut_theta b m zs l = None).
  { induction m as [|m IH]; intros l (t & It & Ht); cbn [cut_theta];
      (assert (O : existsb out_of_range l = true) by (apply existsb_exists; exists t; split; auto; unfold out_of_range; rewrite (proj2 (Rltb_true _ _) Ht); reflexivity)); rewrite O; auto.
    apply IH. apply In_nth_error in It. destruct It as (i & Hi). exists (redraw b (zs m i) t). split.
    - apply nth_error_In with i. unfold redraws. rewrite nth_error_map, (nth_error_number _ _ _ Hi). reflexivity.
    - unfold redraw, normal. rewrite (proj2 (Rltb_true _ _) Ht). specialize (Hz m i). set (z := fst (zs m i)) in *.
      assert (K : PI < angle b + angle_sigma b * z). { pose proof (Rle_abs (- z)) as Hz'. rewrite Rabs_Ropp in Hz'. assert (Hz2 : - (100) <= z) by lra. assert (0 <= angle_sigma b * (z + 100)) by (apply Rmult_le_pos; lra). lra. }
      rewrite (proj2 (Rltb_false _ 0)) by lra. exact K. }
  rewrite C; auto. exists (theta_sample b d). split; auto. apply in_map_iff. exists d. split; auto. apply first_theta_eq. lra.
Qed.
(** New samples of theta take the beam angle and its sigma in mrad as rad: as soon as one first sample is too large, the simulation fails unless a random number is more than 100 sigma away. *)
Theorem C99_redraw_refuted : forall b zs draws, 0 <= angle_sigma b -> PI < angle b - 100 * angle_sigma b -> angle b <= 1000 * PI ->
  (forall n i, Rabs (fst (zs n i)) <= 100) -> (exists d, In d draws /\ PI < theta_sample b d) ->
  create_tracks b zs draws = inl ThetaRuntimeError.
Proof. exact (C99_redraw_refuted_limit 1000). Qed.

(** *** Cases *)
Lemma plane_z_normal x y z d : vz (apply_rotation_matrix d (transpose (rot (Placement x y z 0 0 0)))) = vz d.
Proof.
  rewrite apply_rotation_eq. unfold transpose, rot. cbn [r_alpha r_beta r_gamma].
  destruct (rot_entries 0 0 0) as (E00 & E01 & E02 & E10 & E11 & E12 & E20 & E21 & E22). rewrite E02, E12, E22, sin_0, cos_0. unfold vx, vy, vz. cbn [fst snd]. ring.
Qed.
(** two planes without material and one with material at the end; two tracks *)
Definition case_planes : list sim_plane := [SimPlane (Placement 0 0 0 0 0 0) 0; SimPlane (Placement 5 0 100 0 0 0) 0; SimPlane (Placement 0 0 200 0 0 0) 1].
Example C99_case : forall b uss, exists hits, create_hits b case_planes uss [(1, 2, 0, 0); (3, 4, PI / 2, PI / 4)] = Some hits.
Proof.
  intros b uss. pose proof PI_RGT_0. destruct (create_hits _ _ _ _) as [hits|] eqn:E; [eauto|]. exfalso. revert E. apply C99_success.
  - discriminate.
  - intros p [<-|[<-|[]]]; reflexivity.
  - intros x y phi theta I0. assert (K : 0 <= theta < PI / 2 /\ 0 <= phi < 2 * PI) by (destruct I0 as [E|[E|[]]]; injection E as <- <- <- <-; lra).
    split; [lra|]. split; [lra|]. intros p Ip. unfold parallel. assert (C : 0 < cos theta) by (apply cos_gt_0; lra).
    destruct Ip as [<-|[<-|[<-|[]]]]; cbn [plane snd]; rewrite plane_z_normal; unfold unit_vector, vz; cbn [fst snd]; lra.
Qed.
(** scattering at the first plane: sigma 1 rad, one sigma, along x *)
Example C99_scatter_case : let b := Beam 0 0 1 1 0 0 0 0 (136 / 10) in
  exists hits, create_hits b [SimPlane (Placement 0 0 10 0 0 0) 1; SimPlane (Placement 0 0 20 0 0 0) 1] (fun _ _ => (0, 1)) [(1, 2, 0, 0)] = Some hits.
Proof.
  intros b. pose proof PI_RGT_0. pose proof PI2_1 as P2. unfold create_hits. cbn [map loop_planes length Nat.eqb].
  rewrite (proj2 (Reqb_false (material_budget (SimPlane (Placement 0 0 10 0 0 0) 1)) 0)) by (cbn; lra).
  destruct (proj2 (directions_total [(0, 0)])) as (ds & D). { intros a [<-|[]]. cbn. lra. }
  rewrite D. apply directions_value in D. subst ds. cbn [map combine].
  assert (N : forall z o a, cos (snd a) <> 0 -> exists q, intersections_with_plane [(o, unit_vector a)] (pos (Placement 0 0 z 0 0 0)) (plane_normal (Placement 0 0 z 0 0 0)) = Some [q]).
  { intros z o a C. unfold intersections_with_plane. cbn [existsb snd]. rewrite plane_normal_dot, plane_z_normal. rewrite (proj2 (Reqb_false _ _)) by exact C. cbn [orb map]. eauto. }
  cbn [plane]. destruct (N 10 (1, 2, 0) (0, 0)) as (q & Q); [cbn; rewrite cos_0; lra|]. rewrite Q. cbn [negb andb].
  unfold scatter_all. cbn [momentum material_budget b length seq combine map]. rewrite sigma_eq by lra. rewrite ln_1, sqrt_1.
  replace (136 / 10 / (136 / 10) * (1 * (1 + 38 / 1000 * 0))) with 1 by field. rewrite (proj2 (Rltb_false 1 0)) by lra. cbn [fst snd].
  unfold scattering, uniform, normal. cbn [fst snd]. replace (0 + (2 * PI - 0) * 0) with 0 by ring. replace (0 + 1 * 1) with 1 by ring. rewrite Rabs_R1.
  destruct (C99_axis 0 1 0) as [A A']; [lra|rewrite cos_0; lra|lra|lra|]. rewrite A. cbn [all_some option_map].
  destruct (proj2 (directions_total [(0, atan (sin 1))])) as (ds & D). { intros a [<-|[]]. cbn. lra. }
  rewrite D. apply directions_value in D. subst ds. cbn [map combine].
  destruct (N 20 q (0, atan (sin 1))) as (q' & Q'); [cbn; pose proof (cos_atan_pos (sin 1)); lra|]. rewrite Q'. rewrite andb_false_r. cbn [option_map]. eauto.
Qed.
(** beam angle 2 rad and sigma 0.01 rad *)
Example C99_redraw_case : let b := Beam 0 0 1 1 2000 10 0 1 1 in
  0 <= angle_sigma b /\ PI < angle b - 100 * angle_sigma b /\ angle b <= 1000 * PI /\ PI < theta_sample b (Draw 0 0 300 0).
Proof. cbn. pose proof PI_4. pose proof PI2_1. unfold theta_sample. cbn. rewrite Rabs_right by lra. lra. Qed.
Example C99_small_case : 0 < exp (- 30) < exp (- (1000 / 38)).
Proof. split; [apply exp_pos|apply exp_increasing; lra]. Qed.

Print Assumptions C99_flight.
Print Assumptions C99_shape.
Print Assumptions C99_straight.
Print Assumptions C99_success.
Print Assumptions C99_axis.
Print Assumptions C99_inclined_refuted.
Print Assumptions C99_sigma.
Print Assumptions C99_small_budget_refuted.
Print Assumptions C99_tracks.
Print Assumptions C99_resample.
Print Assumptions C99_errors.
Print Assumptions C99_y_refuted.
Print Assumptions C99_redraw_refuted.
