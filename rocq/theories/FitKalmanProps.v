(** C84, C85, C86: set-up of the Kalman fit, reference trajectory and multiple scattering. *)
From Coq Require Import Reals List Bool Arith Lra Lia Permutation.
From Verif Require Import GeometryModel GeometryProofs GeometryProps BeamAlignModel BeamAlignProps KalmanTrackModel KalmanTrackProps FitKalmanModel.
Import ListNotations.
Local Open Scope R_scope.

(** * C84 *)
Lemma hit_covariances_length planes : forall errs alpha l, hit_covariances planes errs alpha = Some l -> (length planes <= length alpha)%nat /\ (length planes <= length errs)%nat.
Proof.
  induction planes as [|p planes IH]; intros errs alpha l; cbn [hit_covariances]; [simpl; lia|]. destruct errs as [|e errs]; [discriminate|]. destruct alpha as [|a alpha]; [discriminate|].
  destruct (hit_covariances planes errs alpha) as [m|] eqn:E; [|discriminate]. intros _. apply IH in E. simpl. lia.
Qed.
(** With scattering planes no track is fitted: fit_tracks and the alignment give one annealing factor per DUT, but one per plane is read. *)
Theorem C84_scattering_planes_refuted argsort telescope planes errs alpha : planes <> [] -> length alpha = length telescope ->
  exists e, set_up argsort telescope planes errs alpha = inl e.
Proof.
  intros N L. unfold set_up. destruct (map_error _ _) as [zs|]; [|eauto]. destruct (argsort zs) as [|o os]; [eauto|]. destruct (material_missing _ _); [eauto|].
  destruct (hit_covariances _ _ _) as [c|] eqn:E; [|eauto]. apply hit_covariances_length in E. rewrite app_length, L in E. destruct planes; [contradiction|simpl in E; lia].
Qed.

(** Specification.  The z axis crosses the plane at height z *)
Definition crosses_z_axis (p : dut_plane) (z : R) : Prop := vz (to_local (location p) (0, 0, z)) = 0.
Definition negligible (p : dut_plane) : Prop := Rabs (material_budget p) <= 1 / 100000000.
(** np.argsort *)
Definition sorts (argsort : list R -> list nat) : Prop :=
  forall zs, Permutation (argsort zs) (seq 0 (length zs)) /\ sorted_by (fun i => nth i zs 0) (argsort zs).

Lemma on_z_axis q : on_line z_axis q <-> exists z, q = (0, 0, z).
Proof.
  unfold on_line, z_axis. split; [intros (t & ->); exists t|intros (z & ->); exists z]; apply vec_eq; unfold vadd, vscale, vx, vy, vz; cbn [fst snd]; ring.
Qed.
Lemma intersection_z_some p z : intersection_z p = Some z <-> crosses_z_axis p z /\ ~ parallel (location p) z_axis.
Proof.
  unfold intersection_z, crosses_z_axis. split.
  - destruct (beam_intersection z_axis (location p)) as [q|] eqn:E; [|discriminate]. intros H. injection H as <-. apply beam_inv in E. destruct E as (N & O & Z & _). split; auto.
    apply on_z_axis in O. destruct O as (z & ->). exact Z.
  - intros [Z N]. destruct (beam_some _ _ N) as (q & E & O & Zq & U). rewrite E. rewrite <- (U (0, 0, z)); auto. apply on_z_axis. eauto.
Qed.
Lemma intersection_z_none p : intersection_z p = None <-> parallel (location p) z_axis.
Proof.
  unfold intersection_z. split.
  - destruct (beam_intersection z_axis (location p)) as [q|] eqn:E; [discriminate|]. intros _. apply Classical_Prop.NNPP. intros N. destruct (beam_some _ _ N) as (q & E' & _). congruence.
  - intros P. rewrite (beam_none _ _ P). auto.
Qed.
Lemma heights planes zs : map_error intersection_z planes = Some zs -> length zs = length planes /\
  forall i p, nth_error planes i = Some p -> crosses_z_axis p (nth i zs 0) /\ forall z, crosses_z_axis p z -> z = nth i zs 0.
Proof.
  intros E. apply map_error_spec in E. split; [symmetry; eapply Forall2_length; eauto|]. intros i p Hi. destruct (nth_error zs i) as [z|] eqn:Ez.
  - rewrite (nth_error_nth _ _ _ Ez). pose proof (Forall2_nth _ _ _ _ _ _ _ _ E Hi Ez) as H. cbv beta in H. apply intersection_z_some in H. split; [tauto|]. intros z' Hz.
    assert (intersection_z p = Some z') by (apply intersection_z_some; tauto). assert (intersection_z p = Some z) by (apply intersection_z_some; tauto). congruence.
  - apply nth_error_None in Ez. apply Forall2_length in E. assert (i < length planes)%nat by (apply nth_error_Some; congruence). lia.
Qed.
Lemma close_iff x : close_to_zero x = true <-> Rabs x <= 1 / 100000000.
Proof. unfold close_to_zero, Rleb. destruct (Rle_dec _ _); split; intros; auto; first [discriminate|contradiction]. Qed.
Lemma hit_covariances_spec planes : forall errs alpha, length errs = length planes -> length alpha = length planes ->
  exists l, hit_covariances planes errs alpha = Some l /\ length l = length planes /\
  forall i p e a, nth_error planes i = Some p -> nth_error errs i = Some e -> nth_error alpha i = Some a -> nth_error l i = Some (hit_covariance p e a).
Proof.
  induction planes as [|p planes IH]; intros [|e errs] [|a alpha] L M; try discriminate; cbn [hit_covariances].
  - exists []. split; [auto|]. split; [auto|]. intros [|i]; discriminate.
  - destruct (IH errs alpha) as (l & -> & Ll & H); [simpl in *; lia..|]. exists (hit_covariance p e a :: l). split; auto. split; [simpl; lia|].
    intros [|i] p' e' a'; cbn [nth_error]; [congruence|]. apply H.
Qed.
Lemma removelast_In {A} (x : A) l : In x (removelast l) -> In x l.
Proof. induction l as [|a [|b l] IH]; simpl in *; auto; try tauto. Qed.
Lemma removelast_nth {A} (d : A) l i : (S i < length l)%nat -> In (nth i l d) (removelast l).
Proof.
  revert i. induction l as [|a [|b l] IH]; intros i Hi; simpl in Hi; try lia. destruct i as [|i]; [simpl; auto|]. right. change (In (nth i (b :: l) d) (removelast (b :: l))). apply IH. simpl. lia.
Qed.
Lemma removelast_In_nth {A} (d : A) l x : In x (removelast l) -> exists i, (S i < length l)%nat /\ nth i l d = x.
Proof.
  induction l as [|a [|b l] IH]; intros H; [destruct H|destruct H|]. destruct H as [->|H].
  - exists O. simpl. split; [lia|auto].
  - destruct IH as (i & Hi & E); auto. exists (S i). split; [simpl in *; lia|exact E].
Qed.
(** The order of the planes, the material of all but the last, and the covariances of the hits. *)
Theorem C84_success argsort telescope errs alpha planes order covs : sorts argsort -> length errs = length telescope -> length alpha = length telescope ->
  set_up argsort telescope [] errs alpha = inr (planes, order, covs) ->
  planes = telescope /\ Permutation order (seq 0 (length telescope)) /\ order <> [] /\
  (forall i j p q zp zq, (i < j < length order)%nat -> nth_error telescope (nth i order O) = Some p -> nth_error telescope (nth j order O) = Some q ->
     crosses_z_axis p zp -> crosses_z_axis q zq -> zp <= zq /\ ~ negligible p) /\
  (forall i p, nth_error telescope i = Some p -> exists z, crosses_z_axis p z) /\
  forall i p e a c, nth_error telescope i = Some p -> nth_error errs i = Some e -> nth_error alpha i = Some a -> nth_error covs i = Some c -> 0 <= fst c /\ 0 <= snd c /\
    match intrinsic_resolution p, e with
    | Some (rx, ry), _ => c = (rx ^ 2 * a, ry ^ 2 * a)
    | None, Some (ex, ey) => c = (ex ^ 2 * a, ey ^ 2 * a)
    | None, None => c = (0, 0)
    end.
Proof.
  intros So Le La. unfold set_up. cbn [length repeat]. rewrite !app_nil_r. destruct (map_error _ _) as [zs|] eqn:Z; [|discriminate]. apply heights in Z. destruct Z as [Lz H].
  destruct (So zs) as [Pe Sb]. destruct (argsort zs) as [|o os] eqn:O; [discriminate|]. rewrite <- O in *. assert (N : argsort zs <> []) by congruence. clear O. revert Pe Sb N. generalize (argsort zs) as ord. intros ord Pe Sb N.
  destruct (material_missing telescope ord) eqn:M; [discriminate|].
  destruct (hit_covariances_spec telescope errs alpha Le La) as (l & -> & Ll & Hl). destruct (forallb _ l) eqn:F; [|discriminate]. intros E.
  apply (f_equal (fun r => match r with inr x => x | inl _ => (telescope, ord, l) end)) in E. cbv beta iota in E. injection E as <- <- <-.
  split; [auto|]. split; [rewrite <- Lz; auto|]. split; [auto|]. split; [|split].
  - intros i j p q zp zq Hij Hp Hq Zp Zq. split.
    + specialize (Sb i j Hij). destruct (H _ _ Hp) as [_ Up]. destruct (H _ _ Hq) as [_ Uq]. rewrite (Up _ Zp), (Uq _ Zq). exact Sb.
    + intros Ng. apply close_iff in Ng. enough (material_missing telescope ord = true) by congruence. unfold material_missing. apply existsb_exists. exists (nth i ord O). split; [apply removelast_nth; lia|]. rewrite Hp. auto.
  - intros i p Hp. exists (nth i zs 0). apply H; auto.
  - intros i p e a c Hp He Ha Hc. rewrite (Hl _ _ _ _ Hp He Ha) in Hc. injection Hc as <-. assert (Ic : In (hit_covariance p e a) l) by (eapply nth_error_In; apply (Hl _ _ _ _ Hp He Ha)).
    rewrite forallb_forall in F. apply F in Ic. apply andb_true_iff in Ic. unfold Rleb in Ic. destruct (Rle_dec 0 _) as [P1|], (Rle_dec 0 _) as [P2|] in Ic; try (destruct Ic; discriminate).
    split; [auto|]. split; [auto|]. unfold hit_covariance, hit_variance. destruct (intrinsic_resolution p) as [[rx ry]|]; cbn [option_map fst snd]; [f_equal; ring|]. destruct e as [[ex ey]|]; cbn [option_map fst snd]; f_equal; ring.
Qed.
(** When it fails. *)
Theorem C84_succeeds argsort telescope errs alpha : sorts argsort -> length errs = length telescope -> length alpha = length telescope -> Forall (Rle 0) alpha ->
  telescope <> [] -> (forall p, In p telescope -> ~ parallel (location p) z_axis) -> (forall p, In p telescope -> ~ negligible p) ->
  exists r, set_up argsort telescope [] errs alpha = inr r.
Proof.
  intros So Le La Po Ne Np Nn. unfold set_up. cbn [length repeat]. rewrite !app_nil_r.
  destruct (map_error_Some _ _ intersection_z telescope) as (zs & Z). { intros p Hp C. apply intersection_z_none in C. apply (Np p Hp C). } rewrite Z. apply heights in Z. destruct Z as [Lz _].
  destruct (So zs) as [Pe _]. destruct (argsort zs) as [|o os] eqn:O. { apply Permutation_length in Pe. rewrite seq_length, Lz in Pe. destruct telescope; [contradiction|discriminate]. } rewrite <- O in *.
  destruct (material_missing telescope (argsort zs)) eqn:M.
  { unfold material_missing in M. apply existsb_exists in M. destruct M as (i & _ & C). destruct (nth_error telescope i) as [p|] eqn:Ep; [|discriminate]. apply close_iff in C. apply nth_error_In in Ep. destruct (Nn p Ep C). }
  destruct (hit_covariances_spec telescope errs alpha Le La) as (l & -> & Ll & Hl).
  assert (F : forallb (fun c => Rleb 0 (fst c) && Rleb 0 (snd c)) l = true).
  { apply forallb_forall. intros c Hc. apply In_nth_error in Hc. destruct Hc as (i & Hc). assert (i < length telescope)%nat by (rewrite <- Ll; apply nth_error_Some; congruence).
    destruct (nth_error telescope i) as [p|] eqn:Ep; [|apply nth_error_None in Ep; lia]. destruct (nth_error errs i) as [e|] eqn:Ee; [|apply nth_error_None in Ee; lia]. destruct (nth_error alpha i) as [a|] eqn:Ea; [|apply nth_error_None in Ea; lia].
    rewrite (Hl _ _ _ _ Ep Ee Ea) in Hc. injection Hc as <-. assert (Pa : 0 <= a) by (rewrite Forall_forall in Po; apply Po; eapply nth_error_In; eauto).
    assert (V : forall r e', 0 <= hit_variance r e' a). { intros [r|] [e'|]; cbn; try lra; (apply Rmult_le_pos; [apply Rle_0_sqr|auto]). }
    unfold hit_covariance. cbn [fst snd]. unfold Rleb. apply andb_true_iff. split; (destruct (Rle_dec _ _) as [?|C]; [auto|destruct C; apply V]). }
  rewrite F. eauto.
Qed.
Theorem C84_material argsort duts scattering errs alpha p q zp zq : sorts argsort -> (forall p, In p (duts ++ scattering) -> ~ parallel (location p) z_axis) ->
  In p (duts ++ scattering) -> In q (duts ++ scattering) -> negligible p -> crosses_z_axis p zp -> crosses_z_axis q zq -> zp < zq ->
  set_up argsort duts scattering errs alpha = inl MaterialBudgetIsZero.
Proof.
  intros So Np Hp Hq Ng Zp Zq Lt. unfold set_up. remember (duts ++ scattering) as telescope eqn:T. clear T.
  destruct (map_error_Some _ _ intersection_z telescope) as (zs & Z). { intros p' Hp' C. apply intersection_z_none in C. apply (Np p' Hp' C). } rewrite Z. apply heights in Z. destruct Z as [Lz H].
  destruct (So zs) as [Pe Sb]. apply In_nth_error in Hp. destruct Hp as (i & Hi). apply In_nth_error in Hq. destruct Hq as (j & Hj).
  assert (Ii : In i (argsort zs)) by (eapply Permutation_in; [apply Permutation_sym; eauto|]; apply in_seq; split; [lia|]; rewrite Lz; apply nth_error_Some; congruence).
  assert (Ij : In j (argsort zs)) by (eapply Permutation_in; [apply Permutation_sym; eauto|]; apply in_seq; split; [lia|]; rewrite Lz; apply nth_error_Some; congruence).
  destruct (argsort zs) as [|o os] eqn:O; [destruct Ii|]. rewrite <- O in *. clear O. revert Sb Ii Ij. generalize (argsort zs) as ord. intros ord Sb Ii Ij.
  apply (In_nth _ _ O) in Ii. destruct Ii as (a & La & Ea). apply (In_nth _ _ O) in Ij. destruct Ij as (b & Lb & Eb).
  assert (Hab : (a < b)%nat).
  { apply Nat.nle_gt. intros Le. destruct (H _ _ Hi) as [_ Ui]. destruct (H _ _ Hj) as [_ Uj]. apply Ui in Zp. apply Uj in Zq. subst zp zq. destruct (Nat.eq_dec a b) as [->|Ne]; [rewrite <- Ea, <- Eb in Lt; lra|].
    specialize (Sb b a ltac:(lia)). cbv beta in Sb. rewrite Ea, Eb in Sb. lra. }
  assert (M : material_missing telescope ord = true); [|rewrite M; auto]. unfold material_missing. apply existsb_exists. exists i. split; [rewrite <- Ea; apply removelast_nth; lia|]. rewrite Hi. apply close_iff. auto.
Qed.

(** chi2 of a track: [has_hit]: there is a hit at the DUT *)
Definition has_hit (n : nat) (chi2s : list (option R)) (i : nat) : bool := (i <? n)%nat && match nth_error chi2s i with Some (Some _) => true | _ => false end.
Lemma nth_error_firstn_ {A} n (l : list A) i : nth_error (firstn n l) i = if (i <? n)%nat then nth_error l i else None.
Proof.
  revert l i. induction n as [|n IH]; intros l i; [destruct i; auto|]. destruct l as [|x l]; [destruct i as [|i]; cbn [firstn nth_error]; [|destruct (S i <? S n)%nat]; auto|]. destruct i as [|i]; cbn [firstn nth_error]; [auto|]. rewrite IH. auto.
Qed.
Lemma pick_spec {A} (l : list A) idx : forall m, pick l idx = Some m -> Forall2 (fun i x => nth_error l i = Some x) idx m.
Proof.
  induction idx as [|i idx IH]; intros m; cbn [pick]; [intros E; injection E as <-; constructor|]. destruct (nth_error l i) as [x|] eqn:E; [|discriminate]. destruct (pick l idx) as [k|]; [|discriminate]. intros F. injection F as <-. constructor; auto.
Qed.
Lemma hits_number n chi2s sel l : pick (firstn n chi2s) sel = Some l -> length (filter is_number l) = length (filter (has_hit n chi2s) sel).
Proof.
  intros P. apply pick_spec in P. induction P as [|i x sel l H _ IH]; [auto|]. cbn [filter]. rewrite nth_error_firstn_ in H. unfold has_hit at 1. destruct (i <? n)%nat; [|discriminate]. rewrite H. destruct x; cbn; auto.
Qed.
Theorem C84_chi2 n chi2s sel s red : chi2_of_track n chi2s sel = Some (s, red) -> (forall x, In (Some x) chi2s -> 0 <= x) ->
  let hits := length (filter (has_hit n chi2s) sel) in
  0 <= s /\ (hits = 2%nat <-> red = None) /\ ((3 <= hits)%nat -> exists r, red = Some r /\ 0 <= r /\ r * (2 * INR hits - 4) = s) /\ ((hits < 2)%nat -> exists r, red = Some r /\ r <= 0).
Proof.
  unfold chi2_of_track. destruct (pick _ _) as [l|] eqn:P; [|discriminate]. intros E Pos. cbv zeta. rewrite <- (hits_number _ _ _ _ P).
  apply (f_equal (fun o => match o with Some x => x | None => (s, red) end)) in E. cbv beta iota zeta in E. apply pair_equal_spec in E. destruct E as [<- <-].
  assert (S0 : 0 <= nansum l).
  { apply pick_spec in P. unfold nansum. induction P as [|i x sel l H _ IH]; cbn [fold_right]; [lra|]. destruct x as [x|]; [|auto]. rewrite nth_error_firstn_ in H. destruct (i <? n)%nat; [|discriminate]. apply nth_error_In in H. specialize (Pos _ H). lra. }
  split; auto. set (h := length (filter is_number l)). unfold Reqb. split; [|split].
  - destruct (Req_EM_T (2 * INR h - 4) 0) as [Z|Z]; split; auto; try discriminate.
    + intros _. apply INR_eq. simpl. lra.
    + intros ->. simpl in Z. lra.
  - intros G. apply le_INR in G. simpl in G. destruct (Req_EM_T (2 * INR h - 4) 0) as [Z|Z]; [lra|]. eexists. split; [reflexivity|]. split; [apply Rmult_le_pos; [auto|]; apply Rlt_le, Rinv_0_lt_compat; lra|field; auto].
  - intros G. assert (G' : (h <= 1)%nat) by lia. apply le_INR in G'. simpl in G'. destruct (Req_EM_T (2 * INR h - 4) 0) as [Z|Z]; [lra|]. eexists. split; [reflexivity|]. apply Ropp_le_cancel. rewrite Ropp_0. unfold Rdiv. rewrite Ropp_mult_distr_r.
    apply Rmult_le_pos; [auto|]. rewrite Ropp_inv_permute by auto. apply Rlt_le, Rinv_0_lt_compat. lra.
Qed.
(** The chi2 depends on the DUTs of the fit only, and not on the order in which they are given. *)
Lemma pick_ext {A} (l m : list A) idx : (forall i, In i idx -> nth_error l i = nth_error m i) -> pick l idx = pick m idx.
Proof. induction idx as [|i idx IH]; intros H; cbn [pick]; [auto|]. rewrite (H i (or_introl eq_refl)), IH; auto. intros; apply H; simpl; auto. Qed.
Lemma pick_permutation {A} (l : list A) idx idx' : Permutation idx idx' -> match pick l idx, pick l idx' with Some a, Some b => Permutation a b | None, None => True | _, _ => False end.
Proof.
  induction 1 as [|i idx idx' P IH|i j idx|a b c P1 IH1 P2 IH2]; cbn [pick].
  - auto.
  - destruct (nth_error l i); [|auto]. destruct (pick l idx), (pick l idx'); auto.
  - destruct (nth_error l i), (nth_error l j), (pick l idx); auto. constructor.
  - destruct (pick l a), (pick l b), (pick l c); try contradiction; auto. eapply Permutation_trans; eauto.
Qed.
Theorem C84_chi2_fit_duts n chi2s chi2s' sel sel' : (forall i, In i sel -> nth_error chi2s i = nth_error chi2s' i) -> Permutation sel sel' -> chi2_of_track n chi2s sel = chi2_of_track n chi2s' sel'.
Proof.
  intros H P. unfold chi2_of_track. rewrite (pick_ext (firstn n chi2s) (firstn n chi2s')) by (intros; rewrite !nth_error_firstn_, H; auto). pose proof (pick_permutation (firstn n chi2s') _ _ P) as Q.
  destruct (pick _ sel) as [a|], (pick _ sel') as [b|]; try contradiction; auto.
  assert (E1 : nansum a = nansum b) by (clear -Q; unfold nansum; induction Q; cbn [fold_right]; [auto|destruct x; rewrite ?IHQ; auto|destruct x, y; auto; ring|congruence]).
  assert (E2 : length (filter is_number a) = length (filter is_number b)) by (clear -Q; induction Q; cbn [filter]; [auto|destruct (is_number x); simpl; congruence|destruct (is_number x), (is_number y); auto|congruence]).
  rewrite E1, E2. auto.
Qed.

(** * C85 *)
Lemma update_length {A} (l : list A) i x : length (update l i x) = length l.
Proof. revert i. induction l; intros [|i]; simpl; auto. Qed.
Lemma update_same {A} (l : list A) i x d : (i < length l)%nat -> nth i (update l i x) d = x.
Proof. revert i. induction l; intros [|i] H; simpl in *; try lia; auto. apply IHl. lia. Qed.
Lemma update_other {A} (l : list A) i j x d : i <> j -> nth j (update l i x) d = nth j l d.
Proof. revert i j. induction l; intros [|i] [|j] H; simpl; auto; try contradiction. Qed.

Section Loop.
  Variables (planes : list dut_plane) (p b : R) (seed : state) (first : nat).
  Lemma reference_step_length i d t a : length (fst (reference_step planes p b seed first i d t a)) = length (fst a) /\ length (snd (reference_step planes p b seed first i d t a)) = length (snd a).
  Proof. unfold reference_step. cbn [fst snd]. rewrite !update_length. auto. Qed.
  Lemma first_pass_other order : forall i a d, ~ In d order -> nth d (fst (first_pass_from planes p b seed first i order a)) zero_state = nth d (fst a) zero_state /\
    nth d (snd (first_pass_from planes p b seed first i order a)) 0 = nth d (snd a) 0.
  Proof.
    induction order as [|e order IH]; intros i a d N; cbn [first_pass_from]; [auto|]. destruct (IH (S i) (reference_step planes p b seed first i e e a) d) as [-> ->]; [simpl in N; tauto|].
    unfold reference_step. cbn [fst snd]. rewrite !update_other; auto; simpl in N; tauto.
  Qed.
  Lemma first_pass_spec order : forall i a k d q, NoDup order -> nth_error order k = Some d -> nth_error planes d = Some q -> (d < length (fst a))%nat -> (d < length (snd a))%nat ->
    let r := if (i + k =? 0)%nat then seed else extrapolate_seed planes seed first d in
    nth d (fst (first_pass_from planes p b seed first i order a)) zero_state = r /\ nth d (snd (first_pass_from planes p b seed first i order a)) 0 = scattering_variance p b r q.
  Proof.
    induction order as [|e order IH]; intros i a k d q ND Hk Hq La Lb; [destruct k; discriminate|]. inversion ND as [|? ? Ne ND']; subst. cbn [first_pass_from]. destruct k as [|k].
    - injection Hk as ->. destruct (first_pass_other order (S i) (reference_step planes p b seed first i d d a) d Ne) as [-> ->]. unfold reference_step. cbn [fst snd]. rewrite Hq, Nat.add_0_r. rewrite !update_same by auto. auto.
    - cbn [nth_error] in Hk. destruct (reference_step_length i e e a) as [L1 L2]. specialize (IH (S i) (reference_step planes p b seed first i e e a) k d q ND' Hk Hq). rewrite L1, L2 in IH. specialize (IH La Lb). cbv zeta in IH. rewrite Nat.add_succ_l, <- Nat.add_succ_r in IH. exact IH.
  Qed.
  Lemma second_pass_other order : forall i a j, (j < i)%nat -> nth j (fst (second_pass_from planes p b seed first i order a)) zero_state = nth j (fst a) zero_state.
  Proof.
    induction order as [|e order IH]; intros i a j N; cbn [second_pass_from]; [auto|]. rewrite IH by lia. unfold reference_step. cbn [fst]. apply update_other. lia.
  Qed.
  Lemma second_pass_spec order : forall i a k d, nth_error order k = Some d -> (i + k < length (fst a))%nat ->
    nth (i + k) (fst (second_pass_from planes p b seed first i order a)) zero_state = if (i + k =? 0)%nat then seed else extrapolate_seed planes seed first d.
  Proof.
    induction order as [|e order IH]; intros i a k d Hk La; [destruct k; discriminate|]. cbn [second_pass_from]. destruct k as [|k].
    - injection Hk as ->. rewrite Nat.add_0_r in *. rewrite second_pass_other by lia. unfold reference_step. cbn [fst]. rewrite update_same by lia. auto.
    - cbn [nth_error] in Hk. destruct (reference_step_length i e i a) as [L1 _]. specialize (IH (S i) (reference_step planes p b seed first i e i a) k d Hk). rewrite L1 in IH. rewrite Nat.add_succ_l, <- Nat.add_succ_r in IH. apply IH. lia.
  Qed.
  Lemma passes_agree n : forall i a, second_pass_from planes p b seed first i (seq i n) a = first_pass_from planes p b seed first i (seq i n) a.
  Proof. induction n as [|n IH]; intros i a; cbn [seq first_pass_from second_pass_from]; [auto|]. rewrite IH. auto. Qed.
End Loop.

(** The track with state [seed] at plane [first] *)
Definition same_track (first : placement) (seed : state) (q : placement) (s : state) : Prop := forall P, on_track q s P <-> on_track first seed P.
Lemma seed_track planes seed first d : crosses (plane_of planes first) seed (plane_of planes d) -> same_track (plane_of planes first) seed (plane_of planes d) (extrapolate_seed planes seed first d).
Proof. intros C P. unfold extrapolate_seed. symmetry. apply (C34_same_track _ _ _ C). Qed.

(** In the first pass each reference state describes the track of the seed at its own plane, whatever the order of the planes is. *)
Theorem C85_first planes p b seed order a d q : Permutation order (seq 0 (length planes)) -> length (fst a) = length planes -> length (snd a) = length planes ->
  (forall d, (d < length planes)%nat -> crosses (plane_of planes (hd O order)) seed (plane_of planes d)) ->
  nth_error planes d = Some q ->
  let r := first_pass planes p b seed order a in
  same_track (plane_of planes (hd O order)) seed (location q) (nth d (fst r) zero_state) /\
  nth d (snd r) 0 = scattering_variance p b (nth d (fst r) zero_state) q.
Proof.
  intros P La Lb C Hq. cbv zeta. assert (Ld : (d < length planes)%nat) by (apply nth_error_Some; congruence).
  assert (I : In d order) by (eapply Permutation_in; [apply Permutation_sym; eauto|]; apply in_seq; lia). apply In_nth_error in I. destruct I as (k & Hk).
  assert (ND : NoDup order) by (eapply Permutation_NoDup; [apply Permutation_sym; eauto|apply seq_NoDup]).
  unfold first_pass. destruct (first_pass_spec planes p b seed (hd O order) order 0 a k d q ND Hk Hq ltac:(lia) ltac:(lia)) as [-> ->]. split; [|auto].
  assert (Eq : location q = plane_of planes d). { unfold plane_of. erewrite nth_error_nth; [reflexivity|]. rewrite nth_error_map, Hq. auto. }
  rewrite Eq. cbn [Nat.add]. destruct (Nat.eqb_spec k 0) as [->|N].
  - destruct order as [|e order]; [discriminate|]. injection Hk as ->. cbn [hd]. intros P0. tauto.
  - apply seed_track. auto.
Qed.
(** In the second pass, if the DUTs are numbered along z: the track through the state of DUT 0 corrected by the filter. *)
Theorem C85_second planes p b filtered a d q : length (fst a) = length planes -> length (snd a) = length planes ->
  let s := nth 0 (fst a) zero_state in let seed := State (s_u s + s_u filtered) (s_v s + s_v filtered) (s_du s + s_du filtered) (s_dv s + s_dv filtered) in
  (forall d, (d < length planes)%nat -> crosses (plane_of planes 0) seed (plane_of planes d)) ->
  nth_error planes d = Some q ->
  let r := second_pass planes p b (seq 0 (length planes)) filtered a in
  same_track (plane_of planes 0) seed (location q) (nth d (fst r) zero_state) /\
  nth d (snd r) 0 = scattering_variance p b (nth d (fst r) zero_state) q.
Proof.
  intros La Lb. change (State _ _ _ _) with (improved_seed a filtered). intros s seed C Hq. subst s seed. cbv zeta. unfold second_pass. rewrite passes_agree.
  assert (H0 : hd O (seq 0 (length planes)) = O) by (destruct (length planes); auto). pose proof (C85_first planes p b (improved_seed a filtered) (seq 0 (length planes)) a d q) as F. unfold first_pass in F. cbv zeta in F. rewrite H0 in *. apply F; auto.
Qed.
(** Otherwise entry i is the state at the i-th plane along z, and the seed is the state of DUT 0 but taken as state at the first plane. *)
Theorem C85_position planes p b filtered order a i d q : Permutation order (seq 0 (length planes)) -> length (fst a) = length planes ->
  (forall d, (d < length planes)%nat -> crosses (plane_of planes (hd O order)) (improved_seed a filtered) (plane_of planes d)) ->
  nth_error order i = Some d -> nth_error planes d = Some q ->
  same_track (plane_of planes (hd O order)) (improved_seed a filtered) (location q) (nth i (fst (second_pass planes p b order filtered a)) zero_state).
Proof.
  intros P La C Hi Hq. assert (Ld : (d < length planes)%nat) by (apply nth_error_Some; congruence).
  assert (Li : (i < length planes)%nat). { rewrite <- (seq_length (length planes) 0), <- (Permutation_length P). apply nth_error_Some. congruence. }
  unfold second_pass. pose proof (second_pass_spec planes p b (improved_seed a filtered) (hd O order) order 0 a i d Hi ltac:(lia)) as E. cbn [Nat.add] in E. rewrite E.
  assert (Eq : location q = plane_of planes d). { unfold plane_of. erewrite nth_error_nth; [reflexivity|]. rewrite nth_error_map, Hq. auto. }
  rewrite Eq. destruct (Nat.eqb_spec i 0) as [->|N].
  - destruct order as [|e order]; [discriminate|]. injection Hi as ->. cbn [hd]. intros P0. tauto.
  - apply seed_track. auto.
Qed.
Lemma extrapolated_zero x y z x' y' z' u v du dv : extrapolate_state (State u v du dv) (x, y, z) (x', y', z') (rot (Placement x y z 0 0 0)) (rot (Placement x' y' z' 0 0 0)) =
  State (u + x - x' + (z' - z) * du) (v + y - y' + (z' - z) * dv) du dv.
Proof.
  assert (V : forall x y z v, vec_mul (rot (Placement x y z 0 0 0)) v = v /\ vec_mul (transpose (rot (Placement x y z 0 0 0))) v = v).
  { clear. intros x y z [[vx' vy'] vz']. destruct (rot_zero x y z) as (_ & E). rewrite !vec_mul_eq. unfold transpose. rewrite !E by lia. unfold eye. cbn [Nat.eqb].
    split; apply vec_eq; unfold vx, vy, vz; cbn [fst snd]; ring. }
  unfold extrapolate_state. rewrite !vec_mul_dot, !(proj1 (V _ _ _ _)), !(proj2 (V _ _ _ _)). unfold vdot, vsub, vadd, vscale, vx, vy, vz. cbn [fst snd s_u s_v s_du s_dv]. f_equal; field.
Qed.
(** DUT 1 in front of DUT 0, a seed with slope: although the filter has nothing to correct, the track is moved. *)
Definition ex_planes : list dut_plane := [DutPlane (Placement 0 0 1000 0 0 0) (1 / 1000) None; DutPlane (Placement 0 0 0 0 0 0) (1 / 1000) None].
Theorem C85_order_refuted p b : exists seed,
  sorted_by (fun i => t_z (plane_of ex_planes i)) [1; 0]%nat /\
  let a := first_pass ex_planes p b seed [1; 0]%nat (repeat zero_state 2, repeat 0 2) in
  let r := second_pass ex_planes p b [1; 0]%nat zero_state a in
  nth 1 (fst a) zero_state = seed /\ nth 1 (fst r) zero_state <> seed /\ nth 0 (fst r) zero_state = nth 0 (fst a) zero_state.
Proof.
  exists (State 0 0 (1 / 1000) 0). split.
  - intros i j H. simpl in H. assert (i = 0%nat) as -> by lia. assert (j = 1%nat) as -> by lia. cbn. lra.
  - unfold first_pass, second_pass, improved_seed. cbn [first_pass_from second_pass_from hd reference_step fst snd Nat.eqb update nth repeat].
    unfold extrapolate_seed, plane_of. cbn [ex_planes map location nth]. unfold pos. cbn [t_x t_y t_z]. rewrite extrapolated_zero. unfold add_state. cbn [s_u s_v s_du s_dv zero_state]. rewrite extrapolated_zero.
    split; [auto|]. split; [intros E; injection E; lra|]. f_equal; ring.
Qed.
Example C85_example : crosses (Placement 0 0 0 0 0 0) (State 0 0 (1 / 1000) 0) (Placement 0 0 1000 0 0 0).
Proof.
  apply crosses_iff. unfold direction. rewrite vec_mul_dot.
  destruct (rot_zero 0 0 0) as (_ & E). destruct (rot_zero 0 0 1000) as (_ & E'). rewrite !vec_mul_eq. unfold transpose. rewrite !E, !E' by lia. unfold eye. cbn [Nat.eqb]. unfold vx, vy, vz. cbn [fst snd s_du s_dv]. lra.
Qed.

(** * C86 *)
(** The momentum of the particle: energy and mass give it by E^2 = p^2 + m^2, the velocity is smaller than 1. *)
Theorem C86_momentum e m : 0 < m < e -> 0 < momentum e m /\ momentum e m ^ 2 + m ^ 2 = e ^ 2 /\ 0 < beta e m < 1.
Proof.
  intros H. assert (Q : 0 < e * e - m * m) by nra. unfold beta, momentum. assert (S0 : 0 < sqrt (e * e - m * m)) by (apply sqrt_lt_R0; auto). split; auto.
  assert (Sq : sqrt (e * e - m * m) * sqrt (e * e - m * m) = e * e - m * m) by (apply sqrt_sqrt; lra). split; [simpl; rewrite !Rmult_1_r; lra|]. split; [apply Rdiv_lt_0_compat; lra|].
  apply (Rmult_lt_reg_r e); [lra|]. unfold Rdiv. rewrite Rmult_assoc, Rinv_l, Rmult_1_r, Rmult_1_l by lra. nra.
Qed.
Lemma exp_power x n : exp (INR n * x) = exp x ^ n.
Proof. induction n as [|n IH]; [simpl; rewrite Rmult_0_l; apply exp_0|]. rewrite S_INR, Rmult_plus_distr_r, Rmult_1_l, exp_plus, IH. simpl. ring. Qed.
Lemma ln_lower x : 1 / 100000000 <= x -> -24 < ln x.
Proof.
  intros H. apply exp_lt_inv. rewrite exp_ln by lra. apply Rlt_le_trans with (1 / 100000000); auto.
  replace (-24) with (- (INR 48 * (1 / 2))) by (simpl; lra). rewrite exp_Ropp, exp_power. assert (E : 100000000 < exp (1 / 2) ^ 48).
  { assert (E1 : 3 / 2 < exp (1 / 2)) by (pose proof (exp_ineq1 (1 / 2)); lra). apply Rlt_le_trans with ((3 / 2) ^ 48); [lra|]. apply pow_incr. lra. }
  replace (1 / 100000000) with (/ 100000000) by lra. apply Rinv_lt_contravar; [|auto]. apply Rmult_lt_0_compat; lra.
Qed.
(** The scattering angle grows with the material and shrinks with the momentum; for an inclined track there is more material. *)
Theorem C86_monotone p b x y : 0 < p -> 0 < b -> 1 / 100000000 <= x -> x < y -> 0 < theta p b x < theta p b y.
Proof.
  intros Hp Hb Hx Hxy. unfold theta. pose proof (ln_lower x Hx). assert (L : ln x < ln y) by (apply ln_increasing; lra).
  assert (S1 : 0 < sqrt x) by (apply sqrt_lt_R0; lra). assert (S2 : sqrt x < sqrt y) by (apply sqrt_lt_1_alt; lra).
  assert (C : 0 < 136 / 10 / p / b) by (apply Rdiv_lt_0_compat; [apply Rdiv_lt_0_compat|]; lra). rewrite !Rmult_assoc. split; [|apply Rmult_lt_compat_l; [auto|]].
  - apply Rmult_lt_0_compat; auto. apply Rmult_lt_0_compat; lra.
  - apply Rlt_trans with (sqrt y * (1 + 38 / 1000 * ln x)); [apply Rmult_lt_compat_r; lra|apply Rmult_lt_compat_l; lra].
Qed.
Theorem C86_momentum_dependence p p' b x : 0 < p < p' -> 0 < b -> 1 / 100000000 <= x -> theta p' b x < theta p b x.
Proof.
  intros Hp Hb Hx. unfold theta. pose proof (ln_lower x Hx). assert (S1 : 0 < sqrt x) by (apply sqrt_lt_R0; lra). apply Rmult_lt_compat_r; [lra|]. apply Rmult_lt_compat_r; [lra|].
  unfold Rdiv. apply Rmult_lt_compat_r; [apply Rinv_0_lt_compat; lra|]. apply Rmult_lt_compat_l; [lra|]. apply Rinv_lt_contravar; [apply Rmult_lt_0_compat|]; lra.
Qed.
Theorem C86_inclination p b s s' plane : 0 < p -> 0 < b -> 1 / 100000000 <= material_budget plane -> s_du s ^ 2 + s_dv s ^ 2 < s_du s' ^ 2 + s_dv s' ^ 2 ->
  0 < scattering_variance p b s plane < scattering_variance p b s' plane.
Proof.
  intros Hp Hb Hm H. unfold scattering_variance, path_length. assert (L1 : 1 <= sqrt (1 + s_du s * s_du s + s_dv s * s_dv s)) by (rewrite <- sqrt_1 at 1; apply sqrt_le_1_alt; nra).
  assert (L2 : sqrt (1 + s_du s * s_du s + s_dv s * s_dv s) < sqrt (1 + s_du s' * s_du s' + s_dv s' * s_dv s')) by (apply sqrt_lt_1_alt; nra).
  destruct (C86_monotone p b (material_budget plane * sqrt (1 + s_du s * s_du s + s_dv s * s_dv s)) (material_budget plane * sqrt (1 + s_du s' * s_du s' + s_dv s' * s_dv s')) Hp Hb) as [T1 T2]; [nra|apply Rmult_lt_compat_l; lra|].
  split; [apply Rmult_lt_0_compat; auto|apply Rmult_le_0_lt_compat; lra].
Qed.
Example C86_example : 0 < beta 2500 (1 / 2) < 1 /\ 0 < theta 2500 1 (1 / 1000).
Proof. split; [apply (C86_momentum 2500 (1 / 2)); lra|]. apply (C86_monotone 2500 1 (1 / 1000) 1); lra. Qed.

(** C84 in a case: three planes, the last in z without material *)
Definition sort_three (zs : list R) : list nat := seq 0 (length zs).
Example C84_example : let planes := [DutPlane (Placement 0 0 0 0 0 0) (1 / 1000) None; DutPlane (Placement 0 0 1000 0 0 0) 0 (Some (5, 5))] in
  map_error intersection_z planes = Some [0; 1000] /\
  set_up sort_three planes [] [Some (4, 4); None] (no_annealing planes) = inr (planes, [0; 1]%nat, [(16, 16); (25, 25)]).
Proof.
  intros planes. assert (Zi : forall z m r, intersection_z (DutPlane (Placement 0 0 z 0 0 0) m r) = Some z).
  { intros z m r. apply intersection_z_some. cbn [location]. split; [|apply not_parallel_example; unfold z_axis; cbn; lra].
    unfold crosses_z_axis. cbn [location]. change (0, 0, z) with (pos (Placement 0 0 z 0 0 0)). apply origin_in_sensor. }
  assert (M : map_error intersection_z planes = Some [0; 1000]). { unfold planes. cbn [map_error]. rewrite !Zi. auto. }
  split; [exact M|]. unfold set_up. rewrite app_nil_r, M. cbn [sort_three length seq]. unfold material_missing. cbn [removelast existsb planes nth_error material_budget].
  assert (N : close_to_zero (1 / 1000) = false). { apply not_true_iff_false. rewrite close_iff. rewrite Rabs_right; lra. }
  rewrite N. cbn [orb hit_covariances app repeat no_annealing length planes hit_covariance hit_variance intrinsic_resolution option_map fst snd forallb].
  assert (Rl : forall x, 0 <= x -> Rleb 0 x = true) by (intros x Hx; unfold Rleb; destruct (Rle_dec 0 x); [auto|contradiction]).
  unfold hit_covariance, hit_variance. cbn [intrinsic_resolution option_map fst snd]. rewrite !Rl by lra. cbn [andb]. repeat f_equal; ring.
Qed.

Print Assumptions C84_scattering_planes_refuted.
Print Assumptions C84_success.
Print Assumptions C84_succeeds.
Print Assumptions C84_material.
Print Assumptions C84_chi2.
Print Assumptions C84_chi2_fit_duts.
Print Assumptions C85_first.
Print Assumptions C85_second.
Print Assumptions C85_position.
Print Assumptions C85_order_refuted.
Print Assumptions C86_momentum.
Print Assumptions C86_monotone.
Print Assumptions C86_momentum_dependence.
Print Assumptions C86_inclination.
