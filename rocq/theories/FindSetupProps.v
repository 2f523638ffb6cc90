(** Properties of the set-up of the track finding: C115 (order of the DUTs, hits used for the extrapolation, extrapolated position). *)
From Coq Require Import Reals List Bool Arith Lra Lia Permutation Sorted.
From Verif Require Import GeometryModel GeometryProofs GeometryProps BeamAlignModel BeamAlignProps FindTracksModel FindTracksProofs FindSetupModel.
Import ListNotations.
Local Open Scope R_scope.

(** ** The hits that are used for the extrapolation *)
Section Refs.
  Variable F : Type.
  Variable isnan : F -> bool.
  Variables zs extra : list nat.
  Variable a : arrays F.
  Variable row : nat.
  Hypothesis Hz : NoDup zs.

  (** Specification: the extrapolation DUTs among [front] in which the row has a hit, the last one first *)
  Definition used (front : list nat) : list nat := rev (filter (fun d => negb (isnan (ax a row d)) && existsb (Nat.eqb d) extra) front).

  Lemma find_rev p (l : list nat) r : find p (rev l) = Some r -> exists l1 l2, l = l1 ++ r :: l2 /\ p r = true /\ forall x, In x l2 -> p x = false.
  Proof using.
    clear. induction l as [|v l IH] using rev_ind; [discriminate|]. rewrite rev_app_distr. cbn [rev app find].
    destruct (p v) eqn:E; [intros H; injection H as <-; exists l, []; repeat split; auto; intros x []|].
    intros H. destruct (IH H) as (l1 & l2 & -> & P & N). exists l1, (l2 ++ [v]). split; [now rewrite <- app_assoc|]. split; [exact P|].
    intros x Hx. apply in_app_or in Hx. destruct Hx as [Hx|[<-|[]]]; auto.
  Qed.
  Lemma position_split l1 c l2 : zs = (l1 ++ c :: l2)%list -> position c zs = Some (length l1).
  Proof using Hz.
    intros E. destruct (position_in c zs) as (i & Hi); [rewrite E; apply in_or_app; right; now left|].
    rewrite Hi. f_equal. apply position_some in Hi.
    apply (proj1 (NoDup_nth_error zs) Hz); [apply nth_error_Some; congruence|]. rewrite Hi, E, nth_error_app2 by lia. now rewrite Nat.sub_diag.
  Qed.
  Lemma used_split l1 r l2 : isnan (ax a row r) = false -> (forall x, In x l2 -> negb (isnan (ax a row x)) = false) ->
    used (l1 ++ r :: l2)%list = if existsb (Nat.eqb r) extra then r :: used l1 else used l1.
  Proof using.
    clear. intros Hr H. unfold used. rewrite filter_app. cbn [filter]. rewrite Hr. cbn [negb andb].
    assert (E : filter (fun d => negb (isnan (ax a row d)) && existsb (Nat.eqb d) extra) l2 = []).
    { clear Hr. induction l2 as [|x l2 IH]; [reflexivity|]. cbn [filter]. rewrite (H x) by now left. apply IH. intros y Hy. apply H. now right. }
    rewrite E. destruct (existsb (Nat.eqb r) extra); [|now rewrite app_nil_r]. rewrite rev_app_distr. reflexivity.
  Qed.
  Lemma used_none l : (forall x, In x l -> negb (isnan (ax a row x)) = false) -> used l = [].
  Proof using.
    clear. intros H. unfold used. replace (filter _ l) with (@nil nat); [reflexivity|]. induction l as [|x l IH]; [reflexivity|]. cbn [filter]. rewrite (H x) by now left. apply IH. intros y Hy. apply H. now right.
  Qed.
  Lemma two_refs_spec fuel : forall l1 curr l2 second, zs = (l1 ++ curr :: l2)%list -> (length l1 < fuel)%nat ->
    two_refs F isnan zs extra fuel a row curr second =
    Some (match second, used l1 with Some s, f :: _ => Some (s, f) | None, s :: f :: _ => Some (s, f) | _, _ => None end).
  Proof using Hz.
    induction fuel as [|fuel IH]; intros l1 curr l2 second E L; [lia|]. cbn [two_refs]. rewrite (position_split _ _ _ E).
    destruct (length l1) as [|n] eqn:Ln; [destruct l1; [|discriminate]; now destruct second|]. rewrite <- Ln in L |- *. clear n Ln.
    unfold upto. replace (firstn (length l1) zs) with l1 by (rewrite E, firstn_app, firstn_all, Nat.sub_diag; cbn; now rewrite app_nil_r).
    unfold get_last_dut. destruct (find _ (rev l1)) as [r|] eqn:Fd.
    - apply find_rev in Fd. destruct Fd as (m1 & m2 & -> & P & N). apply negb_true_iff in P. rewrite used_split by assumption.
      assert (E' : zs = (m1 ++ r :: (m2 ++ curr :: l2))%list) by (rewrite E, <- app_assoc; reflexivity).
      rewrite app_length in L. cbn [length] in L.
      destruct (existsb (Nat.eqb r) extra).
      + destruct second as [s|]; [reflexivity|]. rewrite (IH _ _ _ _ E') by lia. destruct (used m1); reflexivity.
      + rewrite (IH _ _ _ _ E') by lia. reflexivity.
    - rewrite used_none; [now destruct second|]. intros x Hx. apply (find_none _ _ Fd). now apply in_rev in Hx.
  Qed.
End Refs.

(** ** The extrapolated position *)
Lemma predict_line (a : arrays (option R)) t n row dut s f (gs gf q T N : vec) (l : line) :
  ax a row s = Some (vx gs) -> ay a row s = Some (vy gs) -> az a row s = Some (vz gs) ->
  ax a row f = Some (vx gf) -> ay a row f = Some (vy gf) -> az a row f = Some (vz gf) ->
  (forall k, t dut k = Some (comp T k)) -> (forall k, n dut k = Some (comp N k)) ->
  on_line l gs -> on_line l gf -> gs <> gf -> on_line l q -> vdot N (vsub q T) = 0 -> vdot N (snd l) <> 0 ->
  predict (option R) (lift2 Rplus) (lift2 Rminus) (lift2 Rmult) odiv (option_map Ropp) (option_map sqrt) t n a row dut s f = (Some (vx q), Some (vy q)).
Proof.
  intros Xs Ys Zs Xf Yf Zf Ht Hn Ls Lf D Lq Pq ND. unfold predict. rewrite Xs, Ys, Zs, Xf, Yf, Zf, !Ht, !Hn. cbn [lift2 option_map comp].
  destruct l as [[[ox oy] oz] [[dx dy] dz]]. destruct T as [[tx ty] tz], N as [[nx ny] nz].
  destruct Ls as (ts & ->), Lf as (tf & ->), Lq as (tq & ->). unfold vdot, vsub, vadd, vscale, vx, vy, vz in *. cbn [fst snd] in *.
  assert (K : ts - tf <> 0).
  { intros K. apply D. replace ts with tf by lra. reflexivity. }
  set (k := ts - tf) in *. set (m := tq - ts).
  replace (ox + ts * dx - (ox + tf * dx)) with (k * dx) by (unfold k; ring).
  replace (oy + ts * dy - (oy + tf * dy)) with (k * dy) by (unfold k; ring).
  replace (oz + ts * dz - (oz + tf * dz)) with (k * dz) by (unfold k; ring).
  set (len := sqrt (k * dx * (k * dx) + k * dy * (k * dy) + k * dz * (k * dz))).
  assert (Ln : 0 < len).
  { apply sqrt_lt_R0. assert (Q : 0 < dx * dx + dy * dy + dz * dz).
    { destruct (Req_dec dx 0) as [->|]; [destruct (Req_dec dy 0) as [->|]; [destruct (Req_dec dz 0) as [->|]; [exfalso; apply ND; ring|]|]|]; nra. }
    assert (0 < k * k) by nra. nra. }
  assert (Reqb len 0 = false) as E by (apply Reqb_false; lra). cbn [odiv]. rewrite E. cbn [lift2 option_map odiv].
  set (nd := nx * dx + ny * dy + nz * dz) in *.
  replace (nx * (k * dx / len) + ny * (k * dy / len) + nz * (k * dz / len)) with (k / len * nd) by (unfold nd; field; lra).
  assert (ND' : k / len * nd <> 0).
  { apply Rmult_integral_contrapositive_currified; [|exact ND]. unfold Rdiv. apply Rmult_integral_contrapositive_currified; [exact K|]. apply Rinv_neq_0_compat. lra. }
  rewrite (proj2 (Reqb_false _ _) ND'). cbn [lift2].
  assert (W : nx * (ox + ts * dx - tx) + ny * (oy + ts * dy - ty) + nz * (oz + ts * dz - tz) = - (m * nd)) by (unfold m, nd; lra).
  rewrite W. f_equal; f_equal.
  - replace (- - (m * nd) / (k / len * nd) * (k * dx / len)) with (m * dx) by (field; repeat split; lra). unfold m. ring.
  - replace (- - (m * nd) / (k / len * nd) * (k * dy / len)) with (m * dy) by (field; repeat split; lra). unfold m. ring.
Qed.

(** ** Specification *)
(** the hit of a row in a DUT, in local coordinates *)
Definition hit (columns : list (list (option vec))) (row d : nat) : option vec := nth row (nth d columns []) None.
(** the position used by the track finding *)
Definition seen (align_to_beam : bool) (telescope p : placement) (v : vec) : vec :=
  if align_to_beam then to_global telescope (to_global p v) else to_global p v.
Definition has_hit (columns : list (list (option vec))) (row d : nat) : bool := match hit columns row d with Some _ => true | None => false end.
(** the extrapolation DUTs with a hit in front of a DUT, the last one first *)
Definition reference_duts (columns : list (list (option vec))) (select : list nat) (row : nat) (front : list nat) : list nat :=
  rev (filter (fun d => has_hit columns row d && existsb (Nat.eqb d) select) front).
(** the z axis crosses the DUT at height z *)
Definition crosses_at (p : placement) (z : R) : Prop := vz (to_local p (0, 0, z)) = 0.
(** np.argsort *)
Definition is_argsort (argsort : list R -> list nat) : Prop :=
  forall zs, Permutation (argsort zs) (seq 0 (length zs)) /\
    forall i j, (i < j < length (argsort zs))%nat -> nth (nth i (argsort zs) 0%nat) zs 0 <= nth (nth j (argsort zs) 0%nat) zs 0.

Lemma on_axis q : on_line axis q <-> exists z, q = (0, 0, z).
Proof.
  unfold on_line, axis. split; [intros (t & ->); exists t|intros (z & ->); exists z]; apply vec_eq; unfold vadd, vscale, vx, vy, vz; cbn [fst snd]; ring.
Qed.
Lemma z_crossing_none p : z_crossing p = None <-> parallel p axis.
Proof.
  unfold z_crossing. destruct (Req_dec (vz (apply_rotation_matrix (snd axis) (transpose (rot p)))) 0) as [E|N].
  - split; [intros _; exact E|]. intros _. unfold intersections_with_dut, intersections_with_plane. cbn [existsb].
    destruct (dut_normal_dot p) as (s & _ & D). rewrite D, E, Rmult_0_r. now rewrite (proj2 (Reqb_true 0 0) eq_refl).
  - destruct (C28_sensor p [axis]) as (qs & E & F); [intros l [<-|[]]; exact N|]. rewrite E. inversion F; subst. split; [discriminate|]. intros P. contradiction.
Qed.
Lemma z_crossing_some p z : z_crossing p = Some z <-> crosses_at p z /\ ~ parallel p axis.
Proof.
  destruct (Req_dec (vz (apply_rotation_matrix (snd axis) (transpose (rot p)))) 0) as [E|N].
  - rewrite (proj2 (z_crossing_none p) E). split; [discriminate|]. intros [_ H]. contradiction.
  - unfold z_crossing. destruct (C28_sensor p [axis]) as (qs & E & F); [intros l [<-|[]]; exact N|]. rewrite E.
    inversion F as [|? q ? ? (O & Z & U)]; subst. destruct (proj1 (on_axis q) O) as (z' & ->). cbn [vz snd]. unfold crosses_at. split.
    + intros W. injection W as <-. auto.
    + intros [W _]. f_equal. assert (K := U (0, 0, z) (proj2 (on_axis _) (ex_intro _ z eq_refl)) W). now injection K.
Qed.

Section Setup.
  Variables (argsort : list R -> list nat) (align_to_beam : bool) (telescope : placement) (duts : list placement) (columns : list (list (option vec))).
  Hypothesis Hlen : length columns = length duts.
  Variable c : loop_arguments.
  Hypothesis Hc : find_setup argsort align_to_beam telescope duts columns = Some c.

  Lemma setup_inv : exists zs hits, Forall2 (fun p z => z_crossing p = Some z) duts zs
    /\ Forall2 (fun pc h => global_hits align_to_beam telescope (fst pc) (snd pc) = Some h) (combine duts columns) hits
    /\ c = LoopArguments (argsort zs) (stack hits) (stack_rows pos duts) (stack_rows dut_normal duts).
  Proof using Hc.
    clear Hlen. unfold find_setup in Hc. destruct (map_error z_crossing duts) as [zs|] eqn:Z; [|discriminate].
    destruct (map_error _ (combine duts columns)) as [hits|] eqn:H; [|discriminate]. injection Hc as <-.
    exists zs, hits. repeat split; now apply map_error_spec.
  Qed.
  Lemma setup_hit d p row : nth_error duts d = Some p ->
    ax (positions c) row d = option_map (fun v => vx (seen align_to_beam telescope p v)) (hit columns row d) /\
    ay (positions c) row d = option_map (fun v => vy (seen align_to_beam telescope p v)) (hit columns row d) /\
    az (positions c) row d = option_map (fun v => vz (seen align_to_beam telescope p v)) (hit columns row d).
  Proof using Hlen Hc.
    intros Hp. destruct setup_inv as (zs & hits & _ & Fh & ->). cbn [positions stack ax ay az].
    assert (E : nth row (nth d hits []) None = option_map (seen align_to_beam telescope p) (hit columns row d)).
    { assert (G : forall ds cs hs, length cs = length ds -> Forall2 (fun pc h => global_hits align_to_beam telescope (fst pc) (snd pc) = Some h) (combine ds cs) hs ->
        forall d, nth_error ds d = Some p -> nth row (nth d hs []) None = option_map (seen align_to_beam telescope p) (nth row (nth d cs []) None)).
      { clear. induction ds as [|q ds IH]; intros cs hs L F d Hd; [now destruct d|]. destruct cs as [|col cs]; [discriminate|]. cbn [combine] in F.
        inversion F as [|? h ? hs' E F']; subst. destruct d as [|d]; cbn [nth nth_error] in *; [|apply (IH cs); auto].
        injection Hd as ->. unfold global_hits in E. cbn [fst snd] in E. destruct (existsb off_plane col); [discriminate|]. injection E as <-.
        change (@None vec) with (option_map (to_global p) None) at 1. unfold seen. destruct align_to_beam.
        - change (option_map (to_global p) None) with (option_map (to_global telescope) (option_map (to_global p) None)). rewrite !map_nth. now destruct (nth row col None).
        - now rewrite map_nth. }
      apply (G duts columns); auto. }
    rewrite E. destruct (hit columns row d); auto.
  Qed.

  (** The DUTs are ordered by the height at which the z axis crosses them. *)
  Lemma order : is_argsort argsort -> Permutation (z_sorted c) (seq 0 (length duts)) /\
    forall i j p q zp zq, (i < j < length duts)%nat -> nth_error duts (nth i (z_sorted c) 0%nat) = Some p -> nth_error duts (nth j (z_sorted c) 0%nat) = Some q ->
      crosses_at p zp -> crosses_at q zq -> zp <= zq.
  Proof using Hc.
    clear Hlen. intros A. destruct setup_inv as (zs & hits & Fz & _ & ->). cbn [z_sorted]. assert (L : length zs = length duts) by (symmetry; exact (Forall2_length _ _ _ _ _ Fz)).
    destruct (A zs) as [P O]. rewrite L in P. split; [exact P|]. intros i j p q zp zq Hij Hp Hq Cp Cq.
    assert (La : length (argsort zs) = length duts) by (rewrite (Permutation_length P); apply seq_length).
    specialize (O i j ltac:(lia)).
    assert (G : forall d p z, nth_error duts d = Some p -> crosses_at p z -> nth d zs 0 = z).
    { clear - Fz. intros d p z Hd Cz. revert d Hd. induction Fz as [|p' z' ds zs E _ IH]; intros d Hd; [now destruct d|].
      destruct d as [|d]; cbn [nth nth_error] in *; [|now apply IH]. injection Hd as ->. apply z_crossing_some in E. destruct E as [Cz' N].
      assert (E1 := proj2 (z_crossing_some p z) (conj Cz N)). assert (E2 := proj2 (z_crossing_some p z') (conj Cz' N)). congruence. }
    now rewrite (G _ _ _ Hp Cp), (G _ _ _ Hq Cq) in O.
  Qed.

  Lemma reference_used select row dut first_dut front back : NoDup (z_sorted c) -> (forall d, In d (z_sorted c) -> (d < length duts)%nat) ->
    z_sorted c = (front ++ dut :: back)%list ->
    reference_position c select row dut first_dut =
    match reference_duts columns select row front with
    | s :: f :: _ => Some (predict (option R) (lift2 Rplus) (lift2 Rminus) (lift2 Rmult) odiv (option_map Ropp) (option_map sqrt) (translations c) (normals c) (positions c) row dut s f)
    | _ => Some (ax (positions c) row first_dut, ay (positions c) row first_dut)
    end.
  Proof using Hlen Hc.
    intros ND In_duts E. unfold reference_position, reference.
    rewrite (two_refs_spec _ is_nan (z_sorted c) select (positions c) row ND _ front dut back None E) by (rewrite E, app_length; simpl; lia).
    replace (used (option R) is_nan select (positions c) row front) with (reference_duts columns select row front); [destruct (reference_duts _ _ _ _) as [|s [|f l]]; reflexivity|].
    unfold reference_duts, used. f_equal. apply filter_ext_in. intros d Hd. f_equal.
    assert (Hd' : (d < length duts)%nat) by (apply In_duts; rewrite E; apply in_or_app; auto).
    destruct (nth_error duts d) as [p|] eqn:P; [|apply nth_error_None in P; lia]. destruct (setup_hit d p row P) as (-> & _). unfold has_hit. now destruct (hit columns row d).
  Qed.
End Setup.

(** ** C115 *)
(** The DUTs are put in the order of the heights at which the z axis crosses them (for any tie order of np.argsort). *)
Theorem C115_order argsort align_to_beam telescope duts columns c : is_argsort argsort ->
  find_setup argsort align_to_beam telescope duts columns = Some c ->
  Permutation (z_sorted c) (seq 0 (length duts)) /\
  forall i j p q zp zq, (i < j < length duts)%nat -> nth_error duts (nth i (z_sorted c) 0%nat) = Some p -> nth_error duts (nth j (z_sorted c) 0%nat) = Some q ->
    crosses_at p zp -> crosses_at q zq -> zp <= zq.
Proof. intros A E. exact (order argsort align_to_beam telescope duts columns c E A). Qed.
(** A DUT without rotation is crossed at its z position. *)
Lemma crosses_unrotated x y z z' : crosses_at (Placement x y z 0 0 0) z' <-> z' = z.
Proof.
  unfold crosses_at. rewrite to_local_eq, apply_rotation_eq. unfold rot, transpose. cbn [r_alpha r_beta r_gamma].
  destruct (rot_entries 0 0 0) as (E00 & E01 & E02 & E10 & E11 & E12 & E20 & E21 & E22). rewrite E02, E12, E22, sin_0, cos_0.
  unfold vsub, pos, vx, vy, vz. cbn [fst snd t_x t_y t_z]. split; intros; lra.
Qed.

(** The track finding starts with the hits of the merged table, in the global system (in the system of the beam with align_to_beam), every hit at its own row and with the number of this row as its index. *)
Theorem C115_positions argsort align_to_beam telescope duts columns c : length columns = length duts ->
  find_setup argsort align_to_beam telescope duts columns = Some c ->
  forall d p row, nth_error duts d = Some p ->
    ai (positions c) row d = row /\ forall v, hit columns row d = Some v ->
      ax (positions c) row d = Some (vx (seen align_to_beam telescope p v)) /\
      ay (positions c) row d = Some (vy (seen align_to_beam telescope p v)) /\
      az (positions c) row d = Some (vz (seen align_to_beam telescope p v)).
Proof.
  intros L E d p row P. split.
  - destruct (setup_inv _ _ _ _ _ _ E) as (zs & hits & _ & _ & ->). reflexivity.
  - intros v V. destruct (setup_hit _ _ _ _ _ L _ E d p row P) as (A & B & C). rewrite V in A, B, C. auto.
Qed.
(** The set-up fails exactly if a DUT is parallel to the z axis or if a hit is not in the plane of its DUT. *)
Theorem C115_fails argsort align_to_beam telescope duts columns : length columns = length duts ->
  find_setup argsort align_to_beam telescope duts columns = None <->
  (exists p, In p duts /\ parallel p axis) \/ (exists column v, In column columns /\ In (Some v) column /\ 1 / 100000000 < Rabs (vz v)).
Proof.
  intros L. assert (N : forall A B (f : A -> option B) l, map_error f l = None <-> exists x, In x l /\ f x = None).
  { clear. induction l as [|x l IH]; cbn [map_error]; [split; [discriminate|intros (x & [] & _)]|]. destruct (f x) eqn:E.
    - destruct (map_error f l); [split; [discriminate|]|].
      + intros (y & [<-|Hy] & Ny); [congruence|]. enough (Some l0 = None) by discriminate. apply IH. eauto.
      + split; [|reflexivity]. intros _. destruct (proj1 IH eq_refl) as (y & Hy & Ny). exists y. split; [now right|exact Ny].
    - split; [|reflexivity]. intros _. exists x. split; [now left|exact E]. }
  assert (H1 : map_error z_crossing duts = None <-> exists p, In p duts /\ parallel p axis).
  { rewrite N. split; intros (p & Hp & H); exists p; split; auto; now apply z_crossing_none. }
  assert (H2 : map_error (fun pc => global_hits align_to_beam telescope (fst pc) (snd pc)) (combine duts columns) = None <->
    exists column v, In column columns /\ In (Some v) column /\ 1 / 100000000 < Rabs (vz v)).
  { rewrite N. unfold global_hits. split.
    - intros ([p col] & Hp & H). cbn [fst snd] in H. destruct (existsb off_plane col) eqn:E; [|discriminate]. apply existsb_exists in E. destruct E as ([v|] & Hv & O); [|discriminate].
      exists col, v. split; [now apply in_combine_r in Hp|]. split; [exact Hv|]. unfold off_plane, close_to_zero in O. apply negb_true_iff in O. now apply Rleb_false in O.
    - intros (col & v & Hcol & Hv & O). apply In_nth_error in Hcol. destruct Hcol as (i & Hi).
      destruct (nth_error duts i) as [p|] eqn:P; [|apply nth_error_None in P; assert (i < length columns)%nat by (apply nth_error_Some; congruence); lia].
      exists (p, col). split.
      + clear - Hi P. revert duts columns Hi P. induction i as [|i IH]; intros [|q ds] [|cl cs] Hi P; try discriminate; cbn in *; [injection Hi as ->; injection P as ->; now left|right; now apply IH].
      + cbn [snd]. assert (existsb off_plane col = true) as ->; [|reflexivity]. apply existsb_exists. exists (Some v). split; [exact Hv|].
        unfold off_plane, close_to_zero. apply negb_true_iff. now apply Rleb_false. }
  unfold find_setup. destruct (map_error z_crossing duts).
  - destruct (map_error _ (combine duts columns)).
    + split; [discriminate|]. intros [H|H]; [apply H1 in H|apply H2 in H]; discriminate.
    + split; [|reflexivity]. intros _. right. now apply H2.
  - split; [|reflexivity]. intros _. left. now apply H1.
Qed.

Section Theorems.
  Variables (argsort : list R -> list nat) (telescope : placement) (duts : list placement) (columns : list (list (option vec))).
  Hypothesis Hsort : is_argsort argsort.
  Hypothesis Hlen : length columns = length duts.
  Variables (select : list nat) (row dut first_dut : nat) (front back : list nat).

  Lemma sorted_nodup b c : find_setup argsort b telescope duts columns = Some c ->
    NoDup (z_sorted c) /\ (forall d, In d (z_sorted c) -> (d < length duts)%nat).
  Proof using Hsort Hlen.
    intros E. destruct (C115_order _ _ _ _ _ _ Hsort E) as [P _]. split.
    - eapply Permutation_NoDup; [apply Permutation_sym, P|apply seq_NoDup].
    - intros d Hd. apply (Permutation_in _ P) in Hd. apply in_seq in Hd. lia.
  Qed.
  (** With less than two such hits, the hit of the first DUT is taken. *)
  Theorem C115_no_extrapolation b c p : find_setup argsort b telescope duts columns = Some c -> z_sorted c = (front ++ dut :: back)%list ->
    nth_error duts first_dut = Some p -> (length (reference_duts columns select row front) < 2)%nat ->
    reference_position c select row dut first_dut =
    Some (option_map (fun v => vx (seen b telescope p v)) (hit columns row first_dut), option_map (fun v => vy (seen b telescope p v)) (hit columns row first_dut)).
  Proof using Hsort Hlen.
    intros E Z P L. destruct (sorted_nodup _ _ E) as [ND In_d]. rewrite (reference_used _ _ _ _ _ Hlen _ E select row dut first_dut front back ND In_d Z).
    destruct (setup_hit _ _ _ _ _ Hlen _ E first_dut p row P) as (-> & -> & _). destruct (reference_duts _ _ _ _) as [|s [|f l]]; auto. simpl in L. lia.
  Qed.
  (** With at least two: if all hits of the row are on a straight line (in the coordinates used by the track finding, and different from each other),
      the reference position is where the line crosses the plane of the DUT. *)
  Theorem C115_extrapolation b c p l q : find_setup argsort b telescope duts columns = Some c -> z_sorted c = (front ++ dut :: back)%list ->
    nth_error duts dut = Some p -> (2 <= length (reference_duts columns select row front))%nat ->
    (forall d p v, In d front -> nth_error duts d = Some p -> hit columns row d = Some v -> on_line l (seen b telescope p v)) ->
    (forall d p v d' p' v', In d front -> In d' front -> d <> d' -> nth_error duts d = Some p -> nth_error duts d' = Some p' ->
       hit columns row d = Some v -> hit columns row d' = Some v' -> seen b telescope p v <> seen b telescope p' v') ->
    ~ parallel p l -> on_line l q -> vz (to_local p q) = 0 ->
    reference_position c select row dut first_dut = Some (Some (vx q), Some (vy q)).
  Proof using Hsort Hlen.
    intros E Z P L Hl Hd Np Lq Zq. destruct (sorted_nodup _ _ E) as [ND In_d]. rewrite (reference_used _ _ _ _ _ Hlen _ E select row dut first_dut front back ND In_d Z).
    assert (NDf : NoDup (reference_duts columns select row front)).
    { unfold reference_duts. apply NoDup_rev, NoDup_filter. rewrite Z in ND. clear - ND. induction front as [|x f IH]; constructor; inversion ND; subst; [|now apply IH].
      intros H. apply H1. apply in_or_app. now left. }
    assert (U : forall d, In d (reference_duts columns select row front) -> In d front /\ exists v p', hit columns row d = Some v /\ nth_error duts d = Some p').
    { intros d Hd'. unfold reference_duts in Hd'. apply in_rev in Hd'. apply filter_In in Hd'. destruct Hd' as [Hf Hh]. split; [exact Hf|]. apply andb_true_iff in Hh. destruct Hh as [Hh _].
      unfold has_hit in Hh. destruct (hit columns row d) as [v|]; [|discriminate]. destruct (nth_error duts d) as [p'|] eqn:P'; [eauto|]. apply nth_error_None in P'.
      assert (d < length duts)%nat; [|lia]. apply In_d. rewrite Z. apply in_or_app. now left. }
    destruct (reference_duts columns select row front) as [|s [|f r]]; [simpl in L; lia|simpl in L; lia|]. f_equal.
    destruct (U s) as (Fs & vs & ps & Hs & Ps); [now left|]. destruct (U f) as (Ff & vf & pf & Hf & Pf); [right; now left|].
    assert (Ne : s <> f) by (inversion NDf as [|? ? N _]; intros ->; apply N; now left).
    destruct (setup_hit _ _ _ _ _ Hlen _ E s ps row Ps) as (Xs & Ys & Zs). destruct (setup_hit _ _ _ _ _ Hlen _ E f pf row Pf) as (Xf & Yf & Zf).
    rewrite Hs in Xs, Ys, Zs. rewrite Hf in Xf, Yf, Zf. cbn [option_map] in *.
    assert (T : translations c = stack_rows pos duts /\ normals c = stack_rows dut_normal duts).
    { destruct (setup_inv _ _ _ _ _ _ E) as (? & ? & _ & _ & ->). auto. }
    destruct T as [-> ->]. destruct (dut_normal_dot p) as (k & Hk & D).
    apply (predict_line _ _ _ _ _ _ _ (seen b telescope ps vs) (seen b telescope pf vf) q (pos p) (dut_normal p) l); auto.
    - intros i. unfold stack_rows. now rewrite P.
    - intros i. unfold stack_rows. now rewrite P.
    - now apply (Hl s ps vs).
    - now apply (Hl f pf vf).
    - now apply (Hd s ps vs f pf vf).
    - rewrite D. rewrite to_local_eq in Zq. rewrite Zq. ring.
    - rewrite D. intros K. apply Rmult_integral in K. destruct K as [K|K]; [contradiction|]. now apply Np.
  Qed.
  (** In particular the distance of the own hit of a straight track to the reference position is zero, if the hits are not aligned to the beam
      or if the track is parallel to the beam (the z axis). *)
  Theorem C115_own_hit b c p v l : find_setup argsort b telescope duts columns = Some c -> z_sorted c = (front ++ dut :: back)%list ->
    nth_error duts dut = Some p -> hit columns row dut = Some v -> (2 <= length (reference_duts columns select row front))%nat ->
    (forall d p v, In d (dut :: front) -> nth_error duts d = Some p -> hit columns row d = Some v -> on_line l (seen b telescope p v)) ->
    (forall d p v d' p' v', In d front -> In d' front -> d <> d' -> nth_error duts d = Some p -> nth_error duts d' = Some p' ->
       hit columns row d = Some v -> hit columns row d' = Some v' -> seen b telescope p v <> seen b telescope p' v') ->
    ~ parallel p l -> (b = false /\ vz v = 0) \/ (vx (snd l) = 0 /\ vy (snd l) = 0) ->
    exists rx ry, reference_position c select row dut first_dut = Some (rx, ry) /\
      hit_distance (ax (positions c) row dut) (ay (positions c) row dut) rx ry = Some 0.
  Proof using Hsort Hlen.
    intros E Z P V L Hl Hd Np C. destruct (C28_sensor p [l]) as (qs & _ & Fq); [intros l' [<-|[]]; exact Np|].
    inversion Fq as [|? q ? ? (Lq & Zq & Uq) _]; subst.
    exists (Some (vx q)), (Some (vy q)). split; [apply (C115_extrapolation b c p l q); auto; intros d p' v' Hi; apply Hl; now right|].
    destruct (setup_hit _ _ _ _ _ Hlen _ E dut p row P) as (-> & -> & _). rewrite V. cbn [option_map].
    assert (On : on_line l (seen b telescope p v)) by (apply (Hl dut); auto; now left).
    assert (XY : vx (seen b telescope p v) = vx q /\ vy (seen b telescope p v) = vy q).
    { destruct C as [[-> Zv]|[Dx Dy]].
      - replace (seen false telescope p v) with q; [auto|]. symmetry. apply Uq; [exact On|]. unfold seen. now rewrite to_local_to_global.
      - destruct On as (t & ->), Lq as (t' & ->). unfold vadd, vscale, vx, vy in *. cbn [fst snd]. rewrite Dx, Dy. split; ring. }
    destruct XY as [-> ->]. unfold hit_distance, distance. cbn [lift2 option_map]. f_equal. rewrite <- sqrt_0. f_equal. ring.
  Qed.
  (** With align_to_beam the planes stay where they are without it: at an unrotated DUT, the reference position of a straight track is off by
      its slope times the distance in z of the hit to the plane. *)
  Theorem C115_beam_offset b c x y z v l : find_setup argsort b telescope duts columns = Some c -> z_sorted c = (front ++ dut :: back)%list ->
    nth_error duts dut = Some (Placement x y z 0 0 0) -> hit columns row dut = Some v -> (2 <= length (reference_duts columns select row front))%nat ->
    (forall d p v, In d (dut :: front) -> nth_error duts d = Some p -> hit columns row d = Some v -> on_line l (seen b telescope p v)) ->
    (forall d p v d' p' v', In d front -> In d' front -> d <> d' -> nth_error duts d = Some p -> nth_error duts d' = Some p' ->
       hit columns row d = Some v -> hit columns row d' = Some v' -> seen b telescope p v <> seen b telescope p' v') ->
    vz (snd l) <> 0 -> let h := seen b telescope (Placement x y z 0 0 0) v in
    reference_position c select row dut first_dut =
    Some (Some (vx h + vx (snd l) / vz (snd l) * (z - vz h)), Some (vy h + vy (snd l) / vz (snd l) * (z - vz h))).
  Proof using Hsort Hlen.
    intros E Z P V L Hl Hd Dz h. assert (On : on_line l h) by (apply (Hl dut); auto; now left).
    assert (Rz : forall w, vz (apply_rotation_matrix w (transpose (rot (Placement x y z 0 0 0)))) = vz w).
    { intros w. rewrite apply_rotation_eq. unfold rot, transpose. cbn [r_alpha r_beta r_gamma].
      destruct (rot_entries 0 0 0) as (E00 & E01 & E02 & E10 & E11 & E12 & E20 & E21 & E22). rewrite E02, E12, E22, sin_0, cos_0. unfold vx, vy, vz. cbn [fst snd]. ring. }
    rewrite (C115_extrapolation b c (Placement x y z 0 0 0) l (vadd h (vscale ((z - vz h) / vz (snd l)) (snd l)))); auto.
    - unfold vadd, vscale, vx, vy. cbn [fst snd]. unfold Rdiv. f_equal. f_equal; f_equal; ring.
    - intros d p' v' Hi. apply Hl. now right.
    - unfold parallel. now rewrite Rz.
    - destruct On as (t & ->). exists (t + (z - vz (vadd (fst l) (vscale t (snd l)))) / vz (snd l)). apply vec_eq; unfold vadd, vscale, vx, vy, vz; cbn [fst snd]; ring.
    - rewrite to_local_eq, Rz. unfold vsub, vadd, vscale, pos, vz. cbn [fst snd t_z]. unfold vz in Dz. field. exact Dz.
  Qed.
End Theorems.

(** The case of a telescope rotated by 30 degrees with respect to the beam and a track along the z axis: with align_to_beam the own hit in the third DUT
    is not at the reference position.  Without align_to_beam it is. *)
Definition three_duts : list placement := [Placement 0 0 0 0 0 0; Placement 0 0 1 0 0 0; Placement 0 0 2 0 0 0].
Definition three_hits : list (list (option vec)) := [[Some (0, 0, 0)]; [Some (0, 0, 0)]; [Some (0, 0, 0)]].
Definition rotated : placement := Placement 0 0 0 0 (PI / 6) 0.
Lemma three_setup argsort b : is_argsort argsort -> exists c, find_setup argsort b rotated three_duts three_hits = Some c /\ z_sorted c = [0; 1; 2]%nat.
Proof.
  intros A. destruct (find_setup argsort b rotated three_duts three_hits) as [c|] eqn:E.
  - exists c. split; [reflexivity|]. destruct (C115_order _ _ _ _ _ _ A E) as [P O]. 
    assert (L := Permutation_length P). assert (ND : NoDup (z_sorted c)) by (eapply Permutation_NoDup; [apply Permutation_sym, P|apply seq_NoDup]).
    assert (I : forall d, In d (z_sorted c) -> (d = 0 \/ d = 1 \/ d = 2)%nat) by (intros d Hd; apply (Permutation_in _ P) in Hd; cbn in Hd; lia).
    destruct (z_sorted c) as [|i [|j [|k [|]]]]; try discriminate. 
    assert (Hi := I i (or_introl eq_refl)). assert (Hj := I j (or_intror (or_introl eq_refl))). assert (Hk := I k (or_intror (or_intror (or_introl eq_refl)))).
    assert (K : forall m, (m = 0 \/ m = 1 \/ m = 2)%nat -> nth_error three_duts m = Some (Placement 0 0 (INR m) 0 0 0)).
    { intros m [H|[H|H]]; subst m; cbn; repeat f_equal; ring. }
    assert (O01 := O 0%nat 1%nat _ _ _ _ ltac:(cbn; lia) (K i Hi) (K j Hj) (proj2 (crosses_unrotated _ _ _ _) eq_refl) (proj2 (crosses_unrotated _ _ _ _) eq_refl)).
    assert (O12 := O 1%nat 2%nat _ _ _ _ ltac:(cbn; lia) (K j Hj) (K k Hk) (proj2 (crosses_unrotated _ _ _ _) eq_refl) (proj2 (crosses_unrotated _ _ _ _) eq_refl)).
    apply INR_le in O01. apply INR_le in O12. inversion ND as [|? ? N1 ND']; subst. inversion ND' as [|? ? N2 _]; subst.
    assert (i <> j) by (intros ->; apply N1; now left). assert (j <> k) by (intros ->; apply N2; now left).
    assert (i = 0 /\ j = 1 /\ k = 2)%nat as (-> & -> & ->) by lia. reflexivity.
  - exfalso. apply C115_fails in E; [|reflexivity]. destruct E as [(p & Hp & Pa)|(col & v & Hc & Hv & O)].
    + unfold parallel in Pa. rewrite apply_rotation_eq in Pa. unfold rot, transpose in Pa. destruct (rot_entries 0 0 0) as (E00 & E01 & E02 & E10 & E11 & E12 & E20 & E21 & E22).
      destruct Hp as [<-|[<-|[<-|[]]]]; cbn [r_alpha r_beta r_gamma axis snd fst vx vy vz] in Pa; unfold vx, vy, vz, axis in Pa; cbn [fst snd] in Pa; rewrite E02, E12, E22, sin_0, cos_0 in Pa; lra.
    + destruct Hc as [<-|[<-|[<-|[]]]]; destruct Hv as [Hv|[]]; injection Hv as <-; unfold vz in O; cbn [snd] in O; rewrite Rabs_R0 in O; lra.
Qed.
Lemma three_seen b z : seen b rotated (Placement 0 0 z 0 0 0) (0, 0, 0) = if b then (z / 2, 0, z * (sqrt 3 / 2)) else (0, 0, z).
Proof.
  assert (G : to_global (Placement 0 0 z 0 0 0) (0, 0, 0) = (0, 0, z)).
  { rewrite to_global_eq, apply_rotation_eq. apply vec_eq; unfold vadd, pos, vx, vy, vz; cbn [fst snd t_x t_y t_z]; ring. }
  unfold seen. rewrite G. destruct b; [|reflexivity]. rewrite to_global_eq, apply_rotation_eq. unfold rot, rotated. cbn [r_alpha r_beta r_gamma].
  destruct (rot_entries 0 (PI / 6) 0) as (E00 & E01 & E02 & E10 & E11 & E12 & E20 & E21 & E22). rewrite E00, E01, E02, E10, E11, E12, E20, E21, E22, sin_0, cos_0, sin_PI6, cos_PI6.
  apply vec_eq; unfold vadd, pos, vx, vy, vz; cbn [fst snd t_x t_y t_z]; field.
Qed.
Lemma three_case argsort b : is_argsort argsort -> exists c, find_setup argsort b rotated three_duts three_hits = Some c /\ z_sorted c = ([0; 1] ++ 2 :: [])%nat%list /\
  (2 <= length (reference_duts three_hits [0; 1; 2]%nat 0 [0; 1]%nat))%nat /\
  (forall d p v, In d [2; 0; 1]%nat -> nth_error three_duts d = Some p -> hit three_hits 0 d = Some v -> on_line ((0, 0, 0), if b then (1 / 2, 0, sqrt 3 / 2) else (0, 0, 1)) (seen b rotated p v)) /\
  (forall d p v d' p' v', In d [0; 1]%nat -> In d' [0; 1]%nat -> d <> d' -> nth_error three_duts d = Some p -> nth_error three_duts d' = Some p' ->
     hit three_hits 0 d = Some v -> hit three_hits 0 d' = Some v' -> seen b rotated p v <> seen b rotated p' v').
Proof.
  intros A. destruct (three_setup argsort b A) as (c & E & Z). exists c. split; [exact E|]. split; [exact Z|]. split; [cbn; lia|].
  assert (S3 : 0 < sqrt 3) by (apply sqrt_lt_R0; lra). split.
  - intros d p v [<-|[<-|[<-|[]]]] P V; cbn in P, V; injection P as <-; injection V as <-; rewrite three_seen;
      [exists 2|exists 0|exists 1]; destruct b; apply vec_eq; unfold vadd, vscale, vx, vy, vz; cbn [fst snd]; field.
  - intros d p v d' p' v' [<-|[<-|[]]] [<-|[<-|[]]] N P P' V V'; try congruence; cbn in P, P', V, V'; injection P as <-; injection P' as <-; injection V as <-; injection V' as <-;
      rewrite !three_seen; destruct b; intros K; apply (f_equal vz) in K; unfold vz in K; cbn [snd] in K; lra.
Qed.
Theorem C115_beam_refuted argsort : is_argsort argsort -> exists c rx ry d, find_setup argsort true rotated three_duts three_hits = Some c /\
  reference_position c [0; 1; 2]%nat 0 2 0 = Some (rx, ry) /\ hit_distance (ax (positions c) 0 2) (ay (positions c) 0 2) rx ry = Some d /\ 15 / 100 < d.
Proof.
  intros A. destruct (three_case argsort true A) as (c & E & Z & L & Hl & Hd). assert (S3 : sqrt 3 * sqrt 3 = 3) by (apply sqrt_sqrt; lra). assert (P3 : 0 < sqrt 3) by (apply sqrt_lt_R0; lra).
  assert (R := C115_beam_offset argsort rotated three_duts three_hits A eq_refl [0; 1; 2]%nat 0 2 0 [0; 1]%nat [] true c 0 0 2 (0, 0, 0) _ E Z eq_refl eq_refl L Hl Hd).
  cbn [snd] in R. rewrite three_seen in R. specialize (R ltac:(unfold vz; cbn [snd]; lra)). cbv zeta in R. unfold vx, vy, vz in R. cbn [fst snd] in R.
  do 4 eexists. split; [exact E|]. split; [exact R|]. destruct (setup_hit _ _ _ _ _ (eq_refl : length three_hits = length three_duts) _ E 2%nat (Placement 0 0 2 0 0 0) 0%nat eq_refl) as (-> & -> & _).
  cbn [hit three_hits nth option_map]. rewrite three_seen. unfold vx, vy. cbn [fst snd]. unfold hit_distance, distance. cbn [lift2 option_map]. split; [reflexivity|].
  replace (2 / 2 - (2 / 2 + 1 / 2 / (sqrt 3 / 2) * (2 - 2 * (sqrt 3 / 2)))) with (1 - 2 / sqrt 3) by (field; lra).
  replace (0 - (0 + 0 / (sqrt 3 / 2) * (2 - 2 * (sqrt 3 / 2)))) with 0 by (field; lra).
  assert (Q : 2 / sqrt 3 = 2 * sqrt 3 / 3) by (apply (Rmult_eq_reg_r (sqrt 3)); [|lra]; unfold Rdiv; rewrite Rmult_assoc, Rinv_l by lra; replace (2 * sqrt 3 * / 3 * sqrt 3) with (2 * / 3 * (sqrt 3 * sqrt 3)) by ring; rewrite S3; lra).
  assert (115 / 100 < 2 / sqrt 3) by (rewrite Q; nra).
  rewrite <- (sqrt_square (15 / 100)) by lra. apply sqrt_lt_1; nra.
Qed.
(** The other conditions can be met: the same DUTs and hits without align_to_beam *)
Example C115_example argsort : is_argsort argsort -> exists c rx ry, find_setup argsort false rotated three_duts three_hits = Some c /\
  reference_position c [0; 1; 2]%nat 0 2 0 = Some (rx, ry) /\ hit_distance (ax (positions c) 0 2) (ay (positions c) 0 2) rx ry = Some 0.
Proof.
  intros A. destruct (three_case argsort false A) as (c & E & Z & L & Hl & Hd).
  destruct (C115_own_hit argsort rotated three_duts three_hits A eq_refl [0; 1; 2]%nat 0 2 0 [0; 1]%nat [] false c (Placement 0 0 2 0 0 0) (0, 0, 0) _ E Z eq_refl eq_refl L Hl Hd) as (rx & ry & H1 & H2); [|left; split; reflexivity|exists c, rx, ry; auto].
  unfold parallel. cbn [snd]. rewrite apply_rotation_eq. unfold rot, transpose. cbn [r_alpha r_beta r_gamma].
  destruct (rot_entries 0 0 0) as (E00 & E01 & E02 & E10 & E11 & E12 & E20 & E21 & E22). unfold vx, vy, vz. cbn [fst snd]. rewrite E02, E12, E22, sin_0, cos_0. lra.
Qed.
(** There are such orders for all values, e.g. the one of insertion sort *)
Example argsort_exists : exists argsort, is_argsort argsort.
Proof.
  set (z := fun (zs : list R) i => nth i zs 0).
  set (insert := fix insert (zs : list R) (i : nat) (l : list nat) := match l with [] => [i] | j :: l => if Rle_dec (z zs i) (z zs j) then i :: j :: l else j :: insert zs i l end).
  exists (fun zs => fold_right (insert zs) [] (seq 0 (length zs))). intros zs.
  assert (P : forall i l, Permutation (insert zs i l) (i :: l)).
  { intros i. induction l as [|j l IH]; cbn; [reflexivity|]. destruct (Rle_dec _ _); [reflexivity|]. rewrite IH. apply perm_swap. }
  assert (So : forall i l, Sorted.StronglySorted (fun a b => z zs a <= z zs b) l -> Sorted.StronglySorted (fun a b => z zs a <= z zs b) (insert zs i l)).
  { intros i l H. induction H as [|j l Sl IH Fl]; cbn; [repeat constructor|]. destruct (Rle_dec (z zs i) (z zs j)) as [Le|N].
    - constructor; [now constructor|]. constructor; [exact Le|]. eapply Forall_impl; [|exact Fl]. cbn. intros a Ha. lra.
    - constructor; [exact IH|]. eapply Permutation_Forall; [apply Permutation_sym, P|]. constructor; [lra|exact Fl]. }
  split.
  - induction (seq 0 (length zs)) as [|i l IH]; cbn; [reflexivity|]. rewrite P. now constructor.
  - assert (G : Sorted.StronglySorted (fun a b => z zs a <= z zs b) (fold_right (insert zs) [] (seq 0 (length zs)))).
    { induction (seq 0 (length zs)) as [|i l IH]; cbn; [constructor|]. now apply So. }
    induction G as [|a l Sl IH Fl]; intros i j H; cbn [length] in H; [lia|]. destruct j as [|j]; [lia|]. destruct i as [|i]; cbn [nth].
    + rewrite Forall_forall in Fl. apply Fl. apply nth_In. lia.
    + apply IH. lia.
Qed.

Print Assumptions C115_order.
Print Assumptions C115_positions.
Print Assumptions C115_fails.
Print Assumptions C115_no_extrapolation.
Print Assumptions C115_extrapolation.
Print Assumptions C115_own_hit.
Print Assumptions C115_beam_offset.
Print Assumptions C115_beam_refuted.
