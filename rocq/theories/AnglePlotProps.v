(** C136: the pages of plot_track_angle. *)
From Coq Require Import List Arith Reals Bool Lia Lra Permutation Sorted.
From Verif Require Import GeometryModel GeometryProofs RunningMeanModel RunningMeanProps TrackAngleModel TrackAngleProps AngleFileModel AngleFileProps FitResidualsModel AnglePlotModel.
Import ListNotations.
Local Open Scope R_scope.

Lemma dut_hist_shape n s a t h : dut_hist n s a t = Some h -> (1 <= n)%nat /\ length (snd h) = S n /\ length (fst h) = n /\ increasing (snd h).
Proof.
  unfold dut_hist. destruct (t_chunks t) as [|c cs]; cbn [map]; [discriminate|]. intros E.
  assert (N : (1 <= n)%nat /\ not_nan (map (track_angle s a (t_place t)) c) <> []).
  { unfold angle_histogram, angle_edges in E. destruct n as [|n]; [discriminate|]. split; [lia|]. intros Z. rewrite Z in E. discriminate. }
  destruct N as [N1 N2]. destruct (C69_histogram n (map (track_angle s a (t_place t)) c) (map (map (track_angle s a (t_place t))) cs) N1 N2) as (h' & e' & lo & hi & E' & A & B & C & _).
  rewrite E' in E. injection E as <-. cbn [fst snd]. auto.
Qed.
(** every histogram of the file is that of some DUT *)
Lemma file_hist n telescope order select out k h : histogram_track_angle n telescope order select = Some out -> In (k, h) out -> exists s a q, dut_hist n s a (telescope q) = Some h.
Proof.
  unfold histogram_track_angle. destruct (selected order select) as [|d duts]; [discriminate|]. intros H I. apply run_spec in H. destruct H as (g & new & G & A & -> & _). apply in_app_or in I. destruct I as [I|I].
  - pose proof (proj1 (hists_iff _ _ _ _) G) as G'. destruct I as [I|[I|[I|[]]]]; injection I as _ <-; exists Global; [exists Total|exists Alpha|exists Beta]; exists d; apply G'.
  - apply (stored_in _ _ _ _ A) in I. destruct I as (d' & q & s & a & _ & _ & E). eauto.
Qed.
Definition six (d : nat) : list node := [(Global, Total, Some d); (Global, Alpha, Some d); (Global, Beta, Some d); (Local, Total, Some d); (Local, Alpha, Some d); (Local, Beta, Some d)].
(** the nodes which are there *)
Lemma file_nodes n telescope count z order select out : beam_order count z order -> histogram_track_angle n telescope order select = Some out ->
  NoDup (map fst out) /\ forall k, (exists h, read out k = Some h) <-> In k ([(Global, Total, None); (Global, Alpha, None); (Global, Beta, None)] ++ flat_map six (filter (fun d => d <? count)%nat select)).
Proof.
  intros [P _] H. assert (Ord : forall d, In d order <-> (d < count)%nat) by (intros d; split; intros I; [apply (Permutation_in _ P) in I; apply in_seq in I; lia|apply (Permutation_in _ (Permutation_sym P)), in_seq; lia]).
  unfold histogram_track_angle in H. destruct (selected order select) as [|d duts] eqn:Es; [discriminate|]. apply run_spec in H. destruct H as (g & new & G & A & -> & N). split; [exact N|]. intros k.
  assert (M : (exists h, read (entries Global None g ++ new) k = Some h) <-> In k (map fst (entries Global None g ++ new))).
  { split; [intros [h R]; apply (read_in _ _ _ N) in R; apply (in_map fst) in R; exact R|]. intros I. apply in_map_iff in I. destruct I as ([k' h] & <- & I). exists h. apply (read_in _ _ _ N). exact I. }
  rewrite M, map_app, (all_stored_names _ _ _ _ A), sources_fst. cbn [map entries fst].
  rewrite !in_app_iff. apply or_iff_compat_l. rewrite !in_flat_map. split; intros (e & I & J); exists e; (split; [|exact J]).
  - rewrite <- Es in I. apply selected_in in I. apply filter_In. rewrite Nat.ltb_lt, <- Ord. tauto.
  - rewrite <- Es. apply filter_In in I. rewrite Nat.ltb_lt, <- Ord in I. apply selected_in. tauto.
Qed.

Section Pages.
Variable NAME : Type.
Variable fit : hist -> option (R * R * R).
Notation page := (page NAME).
Notation label := (label NAME).
(** ** Specification *)
(** the name of a DUT *)
Definition names_dut (dut_names : option (list NAME)) (d : option nat) (lab : label) : Prop :=
  match d, dut_names with None, _ => lab = NoLabel NAME | Some d, None => lab = Numbered NAME d | Some d, Some l => exists n, nth_error l d = Some n /\ lab = Given NAME n end.
(** the page shows the histogram: bars from edge to edge in mrad without gap, the limits are the outer edges, the curve is the fitted one, with x in mrad *)
Definition shows (h : hist) (p : page) : Prop :=
  length (p_bars NAME p) = length (fst h) /\
  (forall i, (i < length (fst h))%nat -> nth_error (p_bars NAME p) i = Some (Bar (1000 * nth i (snd h) 0) (1000 * nth (S i) (snd h) 0) (nth i (fst h) 0%nat))) /\
  p_limits NAME p = (1000 * nth 0 (snd h) 0, 1000 * nth (length (fst h)) (snd h) 0) /\
  match fit h with
  | None => p_curve NAME p = None /\ p_legend NAME p = None
  | Some (amplitude, mean, sigma) => p_legend NAME p = Some (1000 * mean, 1000 * sigma) /\
      exists f, p_curve NAME p = Some f /\ (sigma <> 0 -> forall x, f (1000 * x) = amplitude * exp (- ((x - mean) * (x - mean)) / (2 * (sigma * sigma))))
  end.

Lemma bars_ok counts : forall edges, length edges = S (length counts) ->
  exists l, bars edges counts = Some l /\ length l = length counts /\ forall i, (i < length counts)%nat -> nth_error l i = Some (Bar (nth i edges 0) (nth (S i) edges 0) (nth i counts 0%nat)).
Proof.
  induction counts as [|n counts IH]; intros edges L.
  - destruct edges as [|a [|b edges]]; cbn in L; try lia. exists []. cbn. repeat split; intros; lia.
  - destruct edges as [|a [|b edges]]; cbn in L; try lia. destruct (IH (b :: edges)) as (l & E & Ll & N); [cbn; lia|]. exists (bar_of a b n :: l). change (bars (a :: b :: edges) (n :: counts)) with (match bars (b :: edges) counts with Some l => Some (bar_of a b n :: l) | None => None end). rewrite E. split; [reflexivity|]. split; [cbn; lia|].
    intros [|i] I; [|cbn [nth_error length] in *; rewrite N by lia; reflexivity]. cbn [nth_error nth]. unfold bar_of. do 2 f_equal; lra.
Qed.
Lemma limits_ok l a : (forall i j, (i <= j)%nat -> (j < length (a :: l))%nat -> nth i (a :: l) 0 <= nth j (a :: l) 0) -> limits (a :: l) = Some (a, nth (length l) (a :: l) 0).
Proof.
  intros H. unfold limits. f_equal. f_equal.
  - assert (G : forall m b, (forall x, In x m -> b <= x) -> fold_left Rmin m b = b).
    { induction m as [|x m IH]; intros b B; [reflexivity|]. cbn. rewrite Rmin_left by (apply B; now left). apply IH. intros y Y. apply B. now right. }
    apply G. intros x X. apply (In_nth _ _ 0) in X. destruct X as (i & I & <-). apply (H 0%nat (S i)); [lia|cbn; lia].
  - revert a H. induction l as [|b l IH]; intros a H; [reflexivity|]. cbn [fold_left length nth]. rewrite Rmax_right by (apply (H 0%nat 1%nat); cbn; lia). rewrite IH; [destruct l; reflexivity|]. intros i j L B. apply (H (S i) (S j)); cbn in *; lia.
Qed.
Lemma page_ok s a lab h : length (snd h) = S (length (fst h)) -> increasing (snd h) -> exists p, angle_page NAME fit s a lab h = Some p /\ p_system NAME p = s /\ p_angle NAME p = a /\ p_dut NAME p = lab /\ shows h p.
Proof.
  intros L I. unfold angle_page. destruct (bars_ok (fst h) (map mrad (snd h))) as (l & -> & Ll & N); [rewrite map_length; exact L|].
  assert (E : forall i, nth i (map mrad (snd h)) 0 = 1000 * nth i (snd h) 0). { intros i. replace 0 with (mrad 0) at 1 by (unfold mrad; lra). rewrite map_nth. unfold mrad. lra. }
  destruct (snd h) as [|e0 es] eqn:Es; [cbn in L; lia|]. cbn [map]. rewrite limits_ok.
  2:{ intros i j Lij Lj. change (mrad e0 :: map mrad es) with (map mrad (e0 :: es)) in *. rewrite map_length in Lj. rewrite !E. pose proof (increasing_le _ I i j Lij Lj). lra. }
  eexists. split; [reflexivity|]. cbn [p_system p_angle p_dut]. split; [reflexivity|]. split; [reflexivity|]. split; [reflexivity|]. unfold shows. cbn [p_bars p_limits p_legend p_curve]. rewrite Es. split; [exact Ll|]. split.
  { intros i Hi. rewrite N by exact Hi. f_equal. f_equal; [apply E|apply (E (S i))]. }
  split.
  { f_equal; [unfold mrad; cbn [nth]; lra|]. change (mrad e0 :: map mrad es) with (map mrad (e0 :: es)). rewrite E, map_length. cbn [length] in L. injection L as ->. reflexivity. }
  destruct (fit h) as [[[A m] sg]|]; cbn [option_map]; [|auto]. split; [unfold mrad; do 2 f_equal; lra|]. eexists. split; [reflexivity|]. intros S x. unfold gauss, mrad. f_equal. f_equal. field. exact S.
Qed.
Definition page_of (out : file) (dut_names : option (list NAME)) (k : node) (p : page) : Prop :=
  let '(s, a, d) := k in p_system NAME p = s /\ p_angle NAME p = a /\ names_dut dut_names d (p_dut NAME p) /\ exists h, read out (s, a, d) = Some h /\ shows h p.
Lemma dut_pages_ok out dut_names d lab l : names_dut dut_names d lab ->
  (forall s a, In (s, a) l -> exists h, read out (s, a, d) = Some h /\ length (snd h) = S (length (fst h)) /\ increasing (snd h)) ->
  exists ps, dut_pages NAME fit out d lab l = Some ps /\ Forall2 (page_of out dut_names) (map (fun sa => (fst sa, snd sa, d)) l) ps.
Proof.
  intros Nd. induction l as [|[s a] l IH]; intros H; [exists []; split; [reflexivity|constructor]|]. destruct (H s a (or_introl eq_refl)) as (h & E & L & I). destruct IH as (ps & Eps & F); [intros s' a' J; apply H; now right|].
  cbn [dut_pages map fst snd]. rewrite E, Eps. destruct (page_ok s a lab h L I) as (p & -> & P1 & P2 & P3 & P4). eexists. split; [reflexivity|]. constructor; [|exact F]. unfold page_of. rewrite P3. eauto 6.
Qed.
Definition keys (d : option nat) : list node := map (fun sa => (fst sa, snd sa, d)) (angle_list d).
Lemma all_pages_ok out dut_names duts : (forall d, In d duts -> exists lab, label_of NAME dut_names d = Some lab) ->
  (forall k, In k (flat_map keys duts) -> exists h, read out k = Some h /\ length (snd h) = S (length (fst h)) /\ increasing (snd h)) ->
  exists ps, all_pages NAME fit out dut_names duts = Some ps /\ Forall2 (page_of out dut_names) (flat_map keys duts) ps.
Proof.
  induction duts as [|d duts IH]; intros Hl Hk; [exists []; split; [reflexivity|constructor]|]. destruct (Hl d (or_introl eq_refl)) as [lab E]. destruct IH as (ps & Eps & F); [intros e I; apply Hl; now right|intros k I; apply Hk; cbn; apply in_or_app; now right|].
  cbn [all_pages flat_map]. rewrite E, Eps. destruct (dut_pages_ok out dut_names d lab (angle_list d)) as (qs & -> & G).
  - unfold label_of in E. unfold names_dut. destruct d as [d|], dut_names as [names|]; try (injection E as <-; reflexivity). destruct (nth_error names d) as [n|]; [|discriminate]. injection E as <-. eauto.
  - intros s a I. apply Hk. cbn. apply in_or_app. left. unfold keys. apply in_map_iff. exists (s, a). auto.
  - eexists. split; [reflexivity|]. apply Forall2_app; assumption.
Qed.
(** For the file of histogram_track_angle: three pages of the telescope and six pages of each selected DUT, in the order of the selection, each with title, name and histogram of this DUT and angle. *)
Theorem C136_pages n telescope count z order select out dut_names : beam_order count z order -> histogram_track_angle n telescope order select = Some out ->
  (forall d, In d select -> (d < count)%nat) -> (forall names, dut_names = Some names -> (count <= length names)%nat) ->
  exists ps, plot_track_angle NAME fit out select dut_names = Some ps /\ length ps = (3 + 6 * length select)%nat /\
    Forall2 (page_of out dut_names) ([(Global, Total, None); (Global, Alpha, None); (Global, Beta, None)] ++ flat_map six select) ps.
Proof.
  intros B H S Nm. destruct (file_nodes _ _ _ _ _ _ _ B H) as [Nd K]. assert (F : filter (fun d => d <? count)%nat select = select).
  { clear -S. induction select as [|d l IH]; [reflexivity|]. cbn [filter]. destruct (Nat.ltb_spec d count); [|specialize (S d (or_introl eq_refl)); lia]. f_equal. apply IH. intros e I. apply S. now right. }
  rewrite F in K. assert (E : flat_map keys (None :: map Some select) = [(Global, Total, None); (Global, Alpha, None); (Global, Beta, None)] ++ flat_map six select).
  { change (flat_map keys (None :: map Some select)) with ([(Global, Total, None); (Global, Alpha, None); (Global, Beta, None)] ++ flat_map keys (map Some select)). f_equal. clear. induction select as [|d l IH]; [reflexivity|]. cbn [map flat_map]. rewrite IH. reflexivity. }
  destruct (all_pages_ok out dut_names (None :: map Some select)) as (ps & Eps & G).
  - intros d [<-|I]; [eexists; reflexivity|]. apply in_map_iff in I. destruct I as (e & <- & I). unfold label_of. destruct dut_names as [names|]; [|eauto]. destruct (nth_error names e) eqn:X; [eauto|]. apply nth_error_None in X. specialize (Nm _ eq_refl). specialize (S _ I). lia.
  - rewrite E. intros k I. apply K in I. destruct I as [h R]. exists h. split; [exact R|]. apply (read_in _ _ _ Nd) in R. destruct (file_hist _ _ _ _ _ _ _ H R) as (s & a & q & D). apply dut_hist_shape in D. destruct D as (_ & D1 & D2 & D3). rewrite D1, D2. auto.
  - exists ps. split; [exact Eps|]. rewrite E in G. split; [|exact G]. transitivity (length ([(Global, Total, None); (Global, Alpha, None); (Global, Beta, None)] ++ flat_map six select)).
    + clear -G. induction G; [reflexivity|]. cbn. now f_equal.
    + assert (X : length (flat_map six select) = (6 * length select)%nat) by (clear; induction select as [|d l IH]; [reflexivity|]; cbn [flat_map]; rewrite app_length, IH; cbn [six length]; lia). etransitivity; [apply app_length|]. exact (f_equal (fun k => (3 + k)%nat) X).
Qed.
(** Refuted: "what histogram_track_angle accepts can be plotted".  DUTs which the telescope does not have are ignored by the histograms, but their figures end with an exception (no such node or name). *)
Theorem C136_unknown_refuted n telescope count z order select out dut_names d : beam_order count z order -> histogram_track_angle n telescope order select = Some out -> In d select -> (count <= d)%nat ->
  histogram_track_angle n telescope order (filter (fun d => d <? count)%nat select) = Some out /\ plot_track_angle NAME fit out select dut_names = None.
Proof.
  intros B H I L. split.
  - rewrite <- H. apply (C127_order n telescope count z order _ _ B). intros e Le. clear -Le. induction select as [|x l IH]; [reflexivity|]. cbn [filter count_occ]. destruct (Nat.ltb_spec x count); cbn [count_occ]; [destruct (Nat.eq_dec x e); now rewrite IH|]. destruct (Nat.eq_dec x e); [lia|exact IH].
  - destruct (file_nodes _ _ _ _ _ _ _ B H) as [_ K]. unfold plot_track_angle. assert (J : In (Some d) (None :: map Some select)) by (right; apply in_map; exact I). revert J. generalize (None :: map Some select) as duts.
    induction duts as [|e duts IH]; intros J; [destruct J|]. cbn [all_pages]. destruct (label_of NAME dut_names e) as [lab|]; [|reflexivity]. destruct J as [->|J].
    + cbn [angle_list filter fst dut_pages]. destruct (read out (Global, Total, Some d)) as [h|] eqn:R; [|reflexivity]. exfalso. assert (X : exists h, read out (Global, Total, Some d) = Some h) by eauto. apply K in X. apply in_app_or in X. destruct X as [X|X].
      * cbn in X. intuition discriminate.
      * apply in_flat_map in X. destruct X as (x & X & Y). apply filter_In in X. destruct X as [_ X]. apply Nat.ltb_lt in X. destruct Y as [Y|[Y|[Y|[Y|[Y|[Y|[]]]]]]]; try discriminate Y. injection Y as ->. lia.
    + rewrite (IH J). destruct (dut_pages _ _ _ _ _ _); reflexivity.
Qed.
End Pages.

Lemma some_angle : forall s a, exists x, track_angle s a (Placement 0 0 0 0 0 0) (Some (1, 1, 1)%R) = Some x.
Proof.
   assert (forall v : vec, vx v <> 0%R -> vy v <> 0%R -> forall a, exists x, component a (angles v) = Some x) as K.
    { intros v Hx Hy a. unfold angles, get_angles, normalized.
      assert (0 < vx v * vx v)%R as Px by nra. assert (0 < vy v * vy v)%R as Py by nra.
      assert (forall r : R, (0 < r)%R -> Reqb r 0 = false) as Pos. { intros r Hr. destruct (Reqb r 0) eqn:E; [|reflexivity]. apply GeometryProofs.Reqb_true in E. lra. }
      set (w := (vx v, vy v, Rabs (vz v)) : vec). assert (0 < vdot w w)%R as Pw.
      { unfold w, vdot, vx, vy, vz in *. cbn. pose proof (Rle_0_sqr (Rabs (snd v))) as Q. unfold Rsqr in Q. lra. }
      rewrite (Pos _ Pw). set (k := (/ sqrt (vdot w w))%R). assert (0 < k)%R as Pk by (apply Rinv_0_lt_compat, sqrt_lt_R0, Pw).
      assert (0 < k * k)%R as Pkk by nra. assert (0 < k * vx v * (k * vx v))%R as Qx by nra. assert (0 < k * vy v * (k * vy v))%R as Qy by nra.
      destruct a; cbn [component fst snd]; [eexists; reflexivity| |].
      - unfold projected_angle, normalized. rewrite Pos; [eexists; reflexivity|]. unfold onto_plane, vsub, vscale, vdot, w, vx, vy, vz in *. cbn in *.
        match goal with |- (0 < ?e)%R => assert (0 <= e - k * snd (fst v) * (k * snd (fst v)))%R as L end; [|lra]. ring_simplify.
        pose proof (Rle_0_sqr (k * Rabs (snd v))) as Q. unfold Rsqr in Q. nra.
      - unfold projected_angle, normalized. rewrite Pos; [eexists; reflexivity|]. unfold onto_plane, vsub, vscale, vdot, w, vx, vy, vz in *. cbn in *.
        match goal with |- (0 < ?e)%R => assert (0 <= e - k * fst (fst v) * (k * fst (fst v)))%R as L end; [|lra]. ring_simplify.
        pose proof (Rle_0_sqr (k * Rabs (snd v))) as Q. unfold Rsqr in Q. nra. }
    intros s a. unfold track_angle. apply K; destruct s; unfold global_slope; rewrite ?GeometryProofs.to_global_eq; cbn; rewrite ?sin_0, ?cos_0; cbn; lra. 
Qed.
(** ** Non-vacuity: one DUT with one track, and a selection with an unknown DUT *)
Example C136_case : let telescope := fun _ : nat => Tracks (Placement 0 0 0 0 0 0) [[Some (1, 1, 1)]] in
  beam_order 1 INR [0%nat] /\ exists out, histogram_track_angle 1 telescope [0%nat] [0%nat] = Some out /\ histogram_track_angle 1 telescope [0%nat] [0; 3]%nat = Some out.
Proof.
  intros telescope. assert (B : beam_order 1 INR [0%nat]) by (split; [apply Permutation_refl|repeat constructor]). split; [exact B|].
  destruct (proj2 (C127_success 1 telescope 1 INR [0%nat] [0%nat] B)) as [out H].
  - split; [exists 0%nat; split; [exists [], []; cbn; tauto|discriminate]|]. split; [intros [|d] L; [cbn; lia|lia]|]. split; [lia|]. intros d c cs s a I L E. cbn in E. injection E as <- <-. exists (Some (1, 1, 1)).
    destruct (some_angle s a) as [x X]. exists x. split; [now left|exact X].
  - exists out. split; [exact H|]. rewrite <- H. apply (C127_order 1 telescope 1 INR [0%nat] _ _ B). intros [|d] L; [reflexivity|lia].
Qed.

Print Assumptions C136_pages.
Print Assumptions C136_unknown_refuted.
