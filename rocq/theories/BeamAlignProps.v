(** C80: alignment of the telescope to the beam.  C81: seed of the Kalman filter. *)
From Coq Require Import Reals List Bool Arith Lia Lra.
From Verif Require Import GeometryModel GeometryProofs GeometryProps TrackAngleModel TrackAngleProps BeamAlignModel.
Import ListNotations.
Local Open Scope R_scope.

(** * Lemmas *)
Ltac veq := apply vec_eq; unfold vx, vy, vz; cbn [fst snd].
Lemma argmin_from_spec l : forall best bi k, (bi < k)%nat -> let m := argmin_from best bi k l in
  (m = bi /\ (forall x, In x l -> best <= x)) \/ (exists j, m = (k + j)%nat /\ (j < length l)%nat /\ nth j l 0 <= best /\ (forall x, In x l -> nth j l 0 <= x)).
Proof.
  induction l as [|x l IH]; intros best bi k Hk; cbn [argmin_from]; [left; split; [auto|intros y []]|].
  destruct (Rltb x best) eqn:E.
  - apply Rltb_true in E. destruct (IH x k (S k) ltac:(lia)) as [[-> B]|(j & -> & Hj & B1 & B2)]; right.
    + exists O. cbn [nth length]. split; [lia|]. split; [lia|]. split; [lra|]. intros y [->|Hy]; [lra|auto].
    + exists (S j). cbn [nth length]. split; [lia|]. split; [lia|]. split; [lra|]. intros y [->|Hy]; [lra|auto].
  - apply Rltb_false in E. destruct (IH best bi (S k) ltac:(lia)) as [[-> B]|(j & -> & Hj & B1 & B2)].
    + left. split; auto. intros y [->|Hy]; [lra|auto].
    + right. exists (S j). cbn [nth length]. split; [lia|]. split; [lia|]. split; [lra|]. intros y [->|Hy]; [lra|auto].
Qed.
Lemma argmin_spec l k : argmin l = Some k -> (k < length l)%nat /\ forall x, In x l -> nth k l 0 <= x.
Proof.
  destruct l as [|x l]; [discriminate|]. cbn [argmin]. intros E. injection E as <-. destruct (argmin_from_spec l x 0 1 ltac:(lia)) as [[-> B]|(j & -> & Hj & B1 & B2)]; cbn [plus nth length].
  - split; [lia|]. intros y [->|Hy]; [lra|auto].
  - split; [lia|]. intros y [->|Hy]; auto.
Qed.
Lemma select_duts_spec ds idx : forall sel, select_duts ds idx = Some sel -> length sel = length idx /\ forall k i, nth_error idx k = Some i -> nth_error sel k = nth_error ds i /\ (i < length ds)%nat.
Proof.
  induction idx as [|i idx IH]; intros sel E; cbn [select_duts] in E; [injection E as <-; split; auto; intros [|k] i; discriminate|].
  destruct (nth_error ds i) as [d|] eqn:D; [|discriminate]. destruct (select_duts ds idx) as [l|]; [|discriminate]. injection E as <-. destruct (IH l eq_refl) as [L H].
  split; [simpl; lia|]. intros [|k] j Ej; simpl in *; [|apply H; auto]. injection Ej as <-. split; [congruence|]. apply nth_error_Some. congruence.
Qed.
Lemma map_error_spec A B (f : A -> option B) l : forall m, map_error f l = Some m -> Forall2 (fun x y => f x = Some y) l m.
Proof.
  induction l as [|x l IH]; intros m E; cbn [map_error] in E; [injection E as <-; constructor|].
  destruct (f x) eqn:X; [|discriminate]. destruct (map_error f l); [|discriminate]. injection E as <-. constructor; auto.
Qed.
Lemma map_error_Some A B (f : A -> option B) l : (forall x, In x l -> f x <> None) -> exists m, map_error f l = Some m.
Proof.
  induction l as [|x l IH]; intros H; cbn [map_error]; eauto. destruct (f x) eqn:X; [|exfalso; apply (H x); simpl; auto]. destruct IH as (m & ->); [intros; apply H; simpl; auto|]. eauto.
Qed.
Lemma Forall2_nth A B (P : A -> B -> Prop) l m k x y : Forall2 P l m -> nth_error l k = Some x -> nth_error m k = Some y -> P x y.
Proof. intros F. revert k. induction F; intros [|k]; simpl; try discriminate; [congruence|apply IHF]. Qed.

Lemma Forall2_length A B (P : A -> B -> Prop) l m : Forall2 P l m -> length l = length m.
Proof. induction 1; simpl; congruence. Qed.

(** the intersection: the point of the line in the sensor, or no result for a parallel line *)
Lemma beam_some l p : ~ parallel p l -> exists q, beam_intersection l p = Some q /\ on_line l q /\ vz (to_local p q) = 0 /\ forall q', on_line l q' -> vz (to_local p q') = 0 -> q' = q.
Proof.
  intros H. destruct (C28_sensor p [l]) as (qs & E & F); [intros l' [<-|[]]; auto|]. inversion F as [|? q ? qs' (F1 & F2 & F3) F']; subst. inversion F'; subst.
  exists q. unfold beam_intersection. rewrite E. auto.
Qed.
Lemma beam_none l p : parallel p l -> beam_intersection l p = None.
Proof. intros H. unfold beam_intersection. rewrite C28_parallel_error; auto. exists l. simpl. auto. Qed.
Lemma beam_inv l p q : beam_intersection l p = Some q -> ~ parallel p l /\ on_line l q /\ vz (to_local p q) = 0 /\ forall q', on_line l q' -> vz (to_local p q') = 0 -> q' = q.
Proof.
  intros E. assert (P : ~ parallel p l) by (intros P; rewrite beam_none in E; [discriminate|auto]). split; auto. destruct (beam_some l p P) as (q' & E' & H). rewrite E in E'. injection E' as <-. auto.
Qed.
Lemma origin_in_sensor p : vz (to_local p (pos p)) = 0.
Proof. rewrite to_local_eq, apply_rotation_eq. unfold vsub, pos, vx, vy, vz. cbn [fst snd]. ring. Qed.
Lemma vsub_local p p' q q' : r_alpha p' = r_alpha p -> r_beta p' = r_beta p -> r_gamma p' = r_gamma p -> vsub q' (pos p') = vsub q (pos p) -> to_local p' q' = to_local p q.
Proof. intros A B G E. rewrite !to_local_eq, E. unfold rot. rewrite A, B, G. reflexivity. Qed.

(** * C80 *)
(** The reference has the smallest z position of the selected DUTs (unless it is given) and ends at x = y = 0.
    All DUTs keep z and their angles.  The fitted line hits each DUT at the local position where the new beam, parallel
    to the z axis, hits it afterwards. *)
Theorem C80_beam fit t select reference t' : align_telescope fit t select reference = Some t' ->
  length (duts t') = length (duts t) /\
  (exists selected l, Forall2 (fun i p => nth_error (duts t) i = Some p) select selected /\ fit (map pos selected) = Some l /\
   exists cx cy, forall i p p', nth_error (duts t) i = Some p -> nth_error (duts t') i = Some p' ->
    (t_z p' = t_z p /\ r_alpha p' = r_alpha p /\ r_beta p' = r_beta p /\ r_gamma p' = r_gamma p) /\
    exists q, on_line l q /\ vz (to_local p q) = 0 /\ to_local p' (cx, cy, vz q) = to_local p q) /\
  exists r p', nth_error (duts t') r = Some p' /\ t_x p' = 0 /\ t_y p' = 0 /\
    match reference with
    | Some r0 => r = r0
    | None => In r select /\ forall i p, In i select -> nth_error (duts t) i = Some p -> t_z p' <= t_z p
    end.
Proof.
  unfold align_telescope. destruct (select_duts (duts t) select) as [selected|] eqn:S0; [|discriminate].
  destruct (reference_index select selected reference) as [r|] eqn:RI; [|discriminate]. destruct (fit (map pos selected)) as [l|] eqn:Fl; [|discriminate].
  destruct (nth_error (duts t) r) as [ref|] eqn:NR; [|discriminate]. destruct (beam_intersection l ref) as [rq|] eqn:BR; [|discriminate].
  destruct (map_error _ (duts t)) as [moved|] eqn:M; [|discriminate]. intros E. injection E as <-. cbn [duts].
  apply map_error_spec in M. assert (L : length moved = length (duts t)) by (symmetry; exact (Forall2_length _ _ _ _ _ M)).
  destruct (select_duts_spec _ _ _ S0) as [L0 N0].
  split; [auto|]. split.
  - exists selected, l. split; [|split; auto].
    + clear -S0. revert selected S0. induction select as [|i idx IH]; intros sel E; cbn [select_duts] in E; [injection E as <-; constructor|].
      destruct (nth_error (duts t) i) as [d|] eqn:D; [|discriminate]. destruct (select_duts (duts t) idx) as [m|]; [|discriminate]. injection E as <-. constructor; auto.
    + exists (vx rq - t_x ref), (vy rq - t_y ref). intros i p p' Hp Hp'. pose proof (Forall2_nth _ _ _ _ _ _ _ _ M Hp Hp') as H. unfold shift_dut in H. destruct (beam_intersection l p) as [q|] eqn:B; [|discriminate].
      injection H as <-. cbn [t_x t_y t_z r_alpha r_beta r_gamma]. split; auto. destruct (beam_inv _ _ _ B) as (_ & On & Z & _). exists q. split; auto. split; auto.
      apply vsub_local; auto. unfold vsub, pos, vx, vy, vz. cbn [fst snd t_x t_y t_z]. destruct q as [[qx qy] qz], rq as [[rx ry] rz]. cbn [fst snd]. veq; ring.
  - assert (Hr : (r < length moved)%nat) by (rewrite L; apply nth_error_Some; congruence). destruct (nth_error moved r) as [p'|] eqn:NP; [|apply nth_error_None in NP; lia].
    pose proof (Forall2_nth _ _ _ _ _ _ _ _ M NR NP) as H. unfold shift_dut in H. rewrite BR in H. injection H as <-. eexists r, _. split; [exact NP|]. cbn [t_x t_y t_z fst snd]. split; [ring|]. split; [ring|].
    unfold reference_index in RI. destruct reference as [r0|]; [congruence|]. destruct (argmin (map t_z selected)) as [k|] eqn:A; [|discriminate].
    split; [eapply nth_error_In; eauto|]. apply argmin_spec in A. destruct A as [Ak Am]. rewrite map_length in Ak. intros i p Hi Hp.
    assert (In p selected). { apply In_nth_error in Hi. destruct Hi as (j & Hj). destruct (N0 _ _ Hj) as [E _]. rewrite Hp in E. eapply nth_error_In; eauto. }
    destruct (N0 _ _ RI) as [E _]. rewrite NR in E. specialize (Am (t_z p) (in_map t_z _ _ H)).
    assert (E2 : nth k (map t_z selected) 0 = t_z ref) by (apply nth_error_nth; rewrite nth_error_map, E; reflexivity). lra.
Qed.

(** If the line passes through the position of a DUT, this DUT ends where the reference has been hit, relative to
    the reference; in particular all DUTs end at x = y = 0 if all their positions are on the line (line_fit_3d of
    collinear positions, C72). *)
Theorem C80_collinear fit t select reference t' l : (forall ps, fit ps = Some l) -> (forall p, In p (duts t) -> on_line l (pos p)) ->
  align_telescope fit t select reference = Some t' -> forall p', In p' (duts t') -> t_x p' = 0 /\ t_y p' = 0.
Proof.
  intros Hf Hl. unfold align_telescope. destruct (select_duts (duts t) select) as [selected|] eqn:S0; [|discriminate].
  destruct (reference_index select selected reference) as [r|] eqn:RI; [|discriminate]. rewrite Hf.
  destruct (nth_error (duts t) r) as [ref|] eqn:NR; [|discriminate]. destruct (beam_intersection l ref) as [rq|] eqn:BR; [|discriminate].
  destruct (map_error _ (duts t)) as [moved|] eqn:M; [|discriminate]. intros E. injection E as <-. cbn [duts].
  assert (K : forall p q, In p (duts t) -> beam_intersection l p = Some q -> q = pos p).
  { intros p q Hp B. apply beam_inv in B. destruct B as (_ & _ & _ & U). symmetry. apply U; [apply Hl; auto|apply origin_in_sensor]. }
  assert (rq = pos ref) as -> by (apply K; auto; eapply nth_error_In; eauto). apply map_error_spec in M. intros p' Hp'. apply In_nth_error in Hp'. destruct Hp' as (i & Hi).
  destruct (nth_error (duts t) i) as [p|] eqn:Hp; [|apply nth_error_None in Hp; rewrite (Forall2_length _ _ _ _ _ M) in Hp; assert (i < length moved)%nat by (apply nth_error_Some; congruence); lia].
  pose proof (Forall2_nth _ _ _ _ _ _ _ _ M Hp Hi) as H. unfold shift_dut in H. destruct (beam_intersection l p) as [q|] eqn:B; [|discriminate].
  apply K in B; [|eapply nth_error_In; eauto]. subst q. injection H as <-. cbn [t_x t_y]. unfold pos, vx, vy. cbn [fst snd]. split; ring.
Qed.

(** It succeeds iff the DUTs exist, there is a reference and the line is parallel to none of the DUTs. *)
Lemma select_duts_Some ds idx : (forall i, In i idx -> (i < length ds)%nat) <-> exists sel, select_duts ds idx = Some sel.
Proof.
  induction idx as [|i idx [IH1 IH2]]; cbn [select_duts]; [split; [eauto|intros _ i []]|]. split.
  - intros H. destruct (nth_error ds i) eqn:D; [|apply nth_error_None in D; specialize (H i (or_introl eq_refl)); lia]. destruct IH1 as (m & ->); [intros; apply H; simpl; auto|]. eauto.
  - destruct (nth_error ds i) eqn:D; [|intros (? & ?); discriminate]. destruct (select_duts ds idx) eqn:E; [|intros (? & ?); discriminate]. intros _ j [<-|Hj]; [apply nth_error_Some; congruence|apply IH2; eauto].
Qed.
Theorem C80_succeeds fit t select reference l : (forall ps, fit ps = Some l) ->
  (exists t', align_telescope fit t select reference = Some t') <->
  (forall i, In i select -> (i < length (duts t))%nat) /\ (match reference with Some r => (r < length (duts t))%nat | None => select <> [] end) /\ (forall p, In p (duts t) -> ~ parallel p l).
Proof.
  intros Hf. unfold align_telescope. split.
  - intros (t' & E). destruct (select_duts (duts t) select) as [selected|] eqn:S0; [|discriminate]. split; [apply select_duts_Some; eauto|].
    destruct (reference_index select selected reference) as [r|] eqn:RI; [|discriminate]. rewrite Hf in E.
    destruct (nth_error (duts t) r) as [ref|] eqn:NR; [|discriminate]. destruct (beam_intersection l ref) as [rq|] eqn:BR; [|discriminate].
    destruct (map_error _ (duts t)) as [moved|] eqn:M; [|discriminate]. split.
    + unfold reference_index in RI. destruct reference as [r0|]; [injection RI as ->; apply nth_error_Some; congruence|]. intros ->. cbn [select_duts] in S0. injection S0 as <-. discriminate.
    + intros p Hp P. apply map_error_spec in M. apply In_nth_error in Hp. destruct Hp as (i & Hi). destruct (nth_error moved i) as [p'|] eqn:Hp'.
      * pose proof (Forall2_nth _ _ _ _ _ _ _ _ M Hi Hp') as H. unfold shift_dut in H. rewrite beam_none in H by auto. discriminate.
      * apply nth_error_None in Hp'. rewrite <- (Forall2_length _ _ _ _ _ M) in Hp'. assert (i < length (duts t))%nat by (apply nth_error_Some; congruence). lia.
  - intros (H1 & H2 & H3). apply select_duts_Some in H1. destruct H1 as (selected & S0). rewrite S0. destruct (select_duts_spec _ _ _ S0) as [L0 N0].
    assert (exists r, reference_index select selected reference = Some r /\ (r < length (duts t))%nat) as (r & -> & Hr).
    { unfold reference_index. destruct reference as [r|]; [eauto|]. destruct selected as [|d selected]; [destruct select; [contradiction|discriminate]|]. cbn [map argmin].
      destruct (argmin_spec (t_z d :: map t_z selected) _ eq_refl) as [A _]. cbn [length] in A, L0. rewrite map_length in A. rewrite L0 in A.
      destruct (nth_error select _) as [r|] eqn:E; [|apply nth_error_None in E; lia]. exists r. split; auto. apply (N0 _ _ E). }
    rewrite Hf. destruct (nth_error (duts t) r) as [ref|] eqn:NR; [|apply nth_error_None in NR; lia].
    destruct (beam_some l ref) as (q & -> & _); [apply H3; eapply nth_error_In; eauto|]. destruct (map_error_Some _ _ (shift_dut l (t_x ref, t_y ref) q) (duts t)) as (m & ->); [|eauto].
    intros p Hp. unfold shift_dut. destruct (beam_some l p (H3 p Hp)) as (q' & -> & _). discriminate.
Qed.

(** For one selected DUT all lines through its position are equally good.  If the fit returns the x axis (the first
    right singular vector of a zero matrix in LAPACK), the call fails for a DUT without rotation about y. *)
Theorem C80_one_dut_refuted : exists fit t, (forall p, fit [p] = Some (p, (1, 0, 0))) /\ length (duts t) = 6%nat /\ align_telescope fit t [0%nat] None = None.
Proof.
  exists (fun ps => match ps with p :: _ => Some (p, (1, 0, 0)) | [] => None end), (Telescope (map (fun z => Placement 0 0 (INR z * 10000) 0 0 0) (seq 0 6)) (Some 0) (Some 0)).
  split; [reflexivity|]. split; [reflexivity|]. unfold align_telescope. cbn [duts map seq select_duts nth_error reference_index argmin argmin_from].
  rewrite beam_none; [reflexivity|]. unfold parallel. rewrite apply_rotation_eq. unfold transpose, rot, vx, vy, vz. cbn [fst snd r_alpha r_beta r_gamma].
  destruct (rot_entries 0 0 0) as (_ & _ & E02 & _ & _ & E12 & _ & _ & E22). rewrite E02, E12, E22, sin_0, cos_0. ring.
Qed.

(** The rotation of the telescope turns a beam along the fitted line; if it has been this of the line, no rotation
    is left. *)
Theorem C80_rotation fit t select reference t' l : (forall ps, fit ps = Some l) -> vz (snd l) <> 0 -> align_telescope fit t select reference = Some t' ->
  exists a b, tan a = vy (snd l) / Rabs (vz (snd l)) /\ tan b = - (vx (snd l) / Rabs (vz (snd l))) /\ - PI / 2 < a < PI / 2 /\ - PI / 2 < b < PI / 2 /\
    forall alpha beta, tel_alpha t = Some alpha -> tel_beta t = Some beta -> tel_alpha t' = Some (alpha - a) /\ tel_beta t' = Some (beta - b).
Proof.
  intros Hf Hz E. destruct (C69_angles (snd l) Hz) as (tot & a & b & A & _ & Ra & Rb & Ta & Tb & _). exists a, b. do 4 (split; [auto|]). intros alpha beta Ea Eb.
  unfold align_telescope in E. destruct (select_duts (duts t) select) as [selected|]; [|discriminate].
  destruct (reference_index select selected reference) as [r|]; [|discriminate]. rewrite Hf in E.
  destruct (nth_error (duts t) r) as [ref|]; [|discriminate]. destruct (beam_intersection l ref) as [rq|]; [|discriminate].
  destruct (map_error _ (duts t)) as [moved|]; [|discriminate]. cbv zeta in E. rewrite A, Ea, Eb in E. injection E as <-. cbn. auto.
Qed.
Theorem C80_beam_rotation fit t select reference t' l : (forall ps, fit ps = Some l) -> vz (snd l) <> 0 -> align_telescope fit t select reference = Some t' ->
  tel_alpha t = snd (fst (angles (snd l))) -> tel_beta t = snd (angles (snd l)) -> tel_alpha t' = Some 0 /\ tel_beta t' = Some 0.
Proof.
  intros Hf Hz E Ha Hb. unfold align_telescope in E. destruct (select_duts (duts t) select) as [selected|]; [|discriminate].
  destruct (reference_index select selected reference) as [r|]; [|discriminate]. rewrite Hf in E.
  destruct (nth_error (duts t) r) as [ref|]; [|discriminate]. destruct (beam_intersection l ref) as [rq|]; [|discriminate].
  destruct (map_error _ (duts t)) as [moved|]; [|discriminate]. cbv zeta in E. rewrite Ha, Hb, angles_eq in E by auto. injection E as <-. cbn [tel_alpha tel_beta fst snd minus_angle]. split; f_equal; ring.
Qed.

Lemma not_parallel_example x y z l : vz (snd l) <> 0 -> ~ parallel (Placement x y z 0 0 0) l.
Proof.
  intros H. unfold parallel. rewrite apply_rotation_eq. unfold transpose, rot, vx, vy, vz in *. cbn [fst snd r_alpha r_beta r_gamma] in *.
  destruct (rot_entries 0 0 0) as (_ & _ & E02 & _ & _ & E12 & _ & _ & E22). rewrite E02, E12, E22, sin_0, cos_0. lra.
Qed.
Example C80_example : let t := Telescope [Placement 1 2 0 0 0 0; Placement 3 2 10 0 0 0; Placement 5 2 20 0 0 0] (Some 0) (Some 0) in let l := ((1, 2, 0), (2, 0, 10)) : line in
  (exists t', align_telescope (fun _ => Some l) t [1%nat; 0%nat] None = Some t') /\ (forall p, In p (duts t) -> on_line l (pos p)) /\ vz (snd l) <> 0.
Proof.
  cbv zeta. split; [|split].
  - apply (C80_succeeds _ _ _ _ ((1, 2, 0), (2, 0, 10))); [reflexivity|]. split; [|split]; [intros i [<-|[<-|[]]]; simpl; lia|discriminate|].
    intros p [<-|[<-|[<-|[]]]]; apply not_parallel_example; unfold vz; simpl; lra.
  - intros p [<-|[<-|[<-|[]]]]; [exists 0|exists 1|exists 2]; unfold pos, vadd, vscale, vx, vy, vz; cbn [fst snd t_x t_y t_z]; f_equal; [f_equal| |f_equal| |f_equal|]; lra.
  - unfold vz; simpl; lra.
Qed.

(** * C81: the seed of the Kalman filter *)
(** The seed describes the fitted line in the local system of the first DUT: it is the line through (x, y, 0) with the
    slopes per unit of local z. *)
Definition seed_point (s : R * R * R * R) (z : R) : vec := let '(x, y, sx, sy) := s in (x + z * sx, y + z * sy, z).
Theorem C81_seed p l s : track_seed p l = Some s -> forall q, on_line l q <-> exists z, to_local p q = seed_point s z.
Proof.
  unfold track_seed. destruct (beam_intersection l p) as [q0|] eqn:B; [|discriminate]. intros E. apply (f_equal (fun o => match o with Some x => x | None => s end)) in E. cbv beta iota zeta in E. subst s. apply beam_inv in B. destruct B as (P & (t0 & Hq0) & Z & U).
  unfold parallel in P. set (d := apply_rotation_matrix (snd l) (transpose (rot p))) in *.
  assert (D : to_local (Placement 0 0 0 (r_alpha p) (r_beta p) (r_gamma p)) (snd l) = d).
  { rewrite to_local_eq. unfold d, rot. cbn [r_alpha r_beta r_gamma]. f_equal. unfold vsub, pos. cbn [t_x t_y t_z]. destruct (snd l) as [[u v] w]. unfold vx, vy, vz. cbn [fst snd]. veq; ring. }
  rewrite D. assert (N : sqrt (vdot (forward d) (forward d)) <> 0 /\ vz (forward d) <> 0).
  { assert (W : vz (forward d) <> 0) by (unfold forward; destruct (Rltb _ _); unfold vscale, vz in *; cbn [snd]; lra). split; auto. apply Rgt_not_eq. apply sqrt_lt_R0, vdot_pos; auto. }
  assert (Sl : vx (unit_vector (forward d)) / vz (unit_vector (forward d)) = vx d / vz d /\ vy (unit_vector (forward d)) / vz (unit_vector (forward d)) = vy d / vz d).
  { destruct N as [N1 N2]. unfold unit_vector. set (r := sqrt _) in *. unfold forward in *. destruct (Rltb (vz d) 0); unfold vscale, vx, vy, vz in *; cbn [fst snd] in *; split; field; auto; split; auto; lra. }
  destruct Sl as [-> ->]. assert (Lin : forall t, to_local p (vadd (fst l) (vscale t (snd l))) = vadd (to_local p (fst l)) (vscale t d)).
  { intros t. rewrite !to_local_eq. unfold d. rewrite !apply_rotation_eq. unfold vadd, vsub, vscale, vx, vy, vz. cbn [fst snd]. veq; ring. }
  rewrite Hq0, Lin in *. set (o := to_local p (fst l)) in *. unfold seed_point. intros q. split.
  - intros (t & ->). exists ((t - t0) * vz d). rewrite Lin. unfold vadd, vscale, vx, vy, vz in *. cbn [fst snd] in *. f_equal; [f_equal|]; [field; auto|field; auto|]. lra.
  - intros (z & Hz). exists (z / vz d + t0). rewrite <- (to_global_to_local p q), <- (to_global_to_local p (vadd (fst l) _)). f_equal. rewrite Hz, Lin.
    unfold vadd, vscale, vx, vy, vz in *. cbn [fst snd] in *. f_equal; [f_equal|]; [field; auto|field; auto|]. rewrite Rmult_plus_distr_r. replace (z / snd d * snd d) with z by (field; auto). lra.
Qed.
(** There is a seed iff the line is not parallel to the DUT; it does not depend on the direction of the line. *)
Theorem C81_defined p l : (exists s, track_seed p l = Some s) <-> ~ parallel p l.
Proof.
  unfold track_seed. split.
  - intros (s & E) P. rewrite beam_none in E by auto. discriminate.
  - intros P. destruct (beam_some l p P) as (q & -> & _). eauto.
Qed.
Theorem C81_direction p l k : k <> 0 -> ~ parallel p l -> track_seed p (fst l, vscale k (snd l)) = track_seed p l.
Proof.
  intros Hk P. assert (P' : ~ parallel p (fst l, vscale k (snd l))).
  { unfold parallel in *. cbn [snd]. rewrite apply_rotation_eq in *. unfold vscale, vx, vy, vz in *. cbn [fst snd] in *. intros C. apply P. apply (Rmult_eq_reg_l k); auto. rewrite Rmult_0_r, <- C. ring. }
  destruct (proj2 (C81_defined p l) P) as (s & Es). destruct (proj2 (C81_defined p _) P') as (s' & Es'). rewrite Es, Es'. f_equal.
  assert (O : forall q, on_line (fst l, vscale k (snd l)) q <-> on_line l q).
  { intros q. unfold on_line. cbn [fst snd]. split; intros (t & ->); [exists (t * k)|exists (t / k)]; unfold vadd, vscale, vx, vy, vz; cbn [fst snd]; f_equal; try (f_equal; field; auto); field; auto. }
  pose proof (C81_seed _ _ _ Es) as A. pose proof (C81_seed _ _ _ Es') as A'.
  assert (H : forall z, exists z', seed_point s z = seed_point s' z').
  { intros z. specialize (A (to_global p (seed_point s z))). specialize (A' (to_global p (seed_point s z))). rewrite to_local_to_global in *. destruct A' as [A1 _]. apply A1, O, A. exists z. auto. }
  destruct s as [[[x y] u] v], s' as [[[x' y'] u'] v']. unfold seed_point in H.
  destruct (H 0) as (z0 & E0). destruct (H 1) as (z1 & E1). injection E0 as X0 Y0 Z0. injection E1 as X1 Y1 Z1. subst z0 z1. f_equal; [f_equal; [f_equal|]|]; lra.
Qed.
Example C81_example : track_seed (Placement 1 2 100 0 0 0) ((1, 2, 0), (1, 0, -10)) <> None.
Proof. intros E. destruct (proj2 (C81_defined (Placement 1 2 100 0 0 0) ((1, 2, 0), (1, 0, -10)))) as (s & E'); [|congruence]. apply not_parallel_example. unfold vz. simpl. lra. Qed.

Print Assumptions C80_beam.
Print Assumptions C80_collinear.
Print Assumptions C80_succeeds.
Print Assumptions C80_one_dut_refuted.
Print Assumptions C80_rotation.
Print Assumptions C80_beam_rotation.
Print Assumptions C81_seed.
Print Assumptions C81_defined.
Print Assumptions C81_direction.
