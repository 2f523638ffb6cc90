(** C123: the parameters and the tracks with which calculate_transformation aligns a DUT. *)
From Coq Require Import Reals Lra String List Bool Arith Lia.
From Verif Require Import GeometryModel GeometryProofs GeometryProps AlignArgsModel TransformArgsModel.
Import ListNotations.
Local Open Scope R_scope.
Local Open Scope list_scope.

(** *** Specification *)
(** the six parameters of a DUT *)
Definition is_parameter (n : string) : Prop :=
  In n ["translation_x"; "translation_y"; "translation_z"; "rotation_alpha"; "rotation_beta"; "rotation_gamma"]%string.
(** what the caller asked for the DUT at position k: None means all six parameters *)
Definition asked (a : parameters_arg) (k : nat) (names : list string) : Prop :=
  match a with
  | ANone => forall n, In n names <-> is_parameter n
  | AItems _ items => match nth_error items k with
                      | Some (Some l) => names = l
                      | Some None => forall n, In n names <-> is_parameter n
                      | None => False
                      end
  end.
(** a bound of a coordinate holds; a bound which is not finite always does *)
Definition above (b : option R) (v : option R) : Prop := match b with None => True | Some b => exists x, v = Some x /\ b <= x end.
Definition below (b : option R) (v : option R) : Prop := match b with None => True | Some b => exists x, v = Some x /\ x <= b end.
Definition inside (l : limit) (v : option R) : Prop := forall lo up, l = Some (lo, up) -> above lo v /\ below up v.
(** a fitted track with a hit *)
Definition usable (r : row) : Prop := hit_x r <> None /\ chi2 r <> None.
(** a track which has to be used *)
Definition wanted (use_limits : bool) (d : dut) (r : row) : Prop :=
  usable r /\ (use_limits = true -> inside (x_limit d) (hit_x r) /\ inside (y_limit d) (hit_y r)).
(** the track in the global system is the local track, and the hit is the one of the row *)
Definition same_track (d : dut) (r : row) (t : fit_track) : Prop :=
  let '(o, s, h) := t in
  (forall k, to_global (dut_place d) (vadd (row_offset r) (vscale k (row_slope r))) = vadd o (vscale k s)) /\
  h = (hit_x r, hit_y r, hit_z r).
(** exactly the wanted rows, once each and in their order *)
Inductive used (use_limits : bool) (d : dut) : list row -> list fit_track -> Prop :=
| used_nil : used use_limits d [] []
| used_skip r rows ts : ~ wanted use_limits d r -> used use_limits d rows ts -> used use_limits d (r :: rows) ts
| used_take r rows t ts : wanted use_limits d r -> same_track d r t -> used use_limits d rows ts -> used use_limits d (r :: rows) (t :: ts).
(** offset and hit are in the plane of the sensor, up to 1e-8 *)
Definition in_plane (r : row) : Prop :=
  Rabs (vz (row_offset r)) <= 1 / 100000000 /\ exists z, hit_z r = Some z /\ Rabs z <= 1 / 100000000.

(** *** Parameters *)
Lemma known_iff n : existsb (String.eqb n) default_alignment_parameters = true <-> is_parameter n.
Proof.
  rewrite existsb_exists. unfold is_parameter. change default_alignment_parameters with
    ["translation_x"; "translation_y"; "translation_z"; "rotation_alpha"; "rotation_beta"; "rotation_gamma"]%string. split.
  - intros (x & I & E). apply String.eqb_eq in E. subst. exact I.
  - intros I. exists n. split; [exact I|]. apply String.eqb_refl.
Qed.
Lemma non_valid_nil names : non_valid names = [] <-> Forall is_parameter names.
Proof.
  unfold non_valid. induction names as [|n t IH]; cbn [filter]; [split; [constructor|reflexivity]|].
  destruct (existsb (String.eqb n) default_alignment_parameters) eqn:E; cbn [negb].
  - rewrite IH. apply known_iff in E. split; [intros H; constructor; assumption|intros H; inversion H; assumption].
  - split; [discriminate|]. intros H. inversion H; subst. apply known_iff in H2. congruence.
Qed.
(** an item is in order *)
Definition item_ok (mutable : bool) (i : option (list string)) : Prop :=
  match i with None => mutable = true | Some l => Forall is_parameter l end.
Definition filled (i : option (list string)) : option (list string) := match i with None => Some default_alignment_parameters | Some l => Some l end.
Lemma check_items_ok mutable items : Forall (item_ok mutable) items -> check_items mutable items = (map filled items, None).
Proof.
  induction items as [|[l|] t IH]; intros H; cbn [check_items map filled]; [reflexivity| |]; inversion H as [|? ? A B]; subst.
  - cbn in A. rewrite (proj2 (non_valid_nil l) A). rewrite (IH B). reflexivity.
  - cbn in A. subst. rewrite (IH B). reflexivity.
Qed.
Lemma check_items_bad mutable items : ~ Forall (item_ok mutable) items -> exists e, snd (check_items mutable items) = Some e.
Proof.
  induction items as [|[l|] t IH]; intros H; cbn [check_items]; [destruct H; constructor| |].
  - destruct (non_valid l) eqn:E; [|eexists; reflexivity].
    destruct IH as (e & Q). { intros F. apply H. constructor; [|exact F]. cbn. apply non_valid_nil. exact E. }
    destruct (check_items mutable t) as [r o]. cbn in Q |- *. subst. eexists; reflexivity.
  - destruct mutable; [|eexists; reflexivity].
    destruct IH as (e & Q). { intros F. apply H. constructor; [reflexivity|exact F]. }
    destruct (check_items true t) as [r o]. cbn in Q |- *. subst. eexists; reflexivity.
Qed.
Lemma item_ok_dec mutable items : Forall (item_ok mutable) items \/ ~ Forall (item_ok mutable) items.
Proof.
  induction items as [|i t [IH|IH]]; [left; constructor| |].
  - assert (D : item_ok mutable i \/ ~ item_ok mutable i).
    { destruct i as [l|]; cbn.
      - destruct (non_valid l) eqn:E; [left; apply non_valid_nil; exact E|right; intros F; apply non_valid_nil in F; congruence].
      - destruct mutable; [left; reflexivity|right; discriminate]. }
    destruct D as [D|D]; [left; constructor; assumption|right; intros F; inversion F; contradiction].
  - right. intros F. inversion F. contradiction.
Qed.
Lemma defaults_iff n : In n default_alignment_parameters <-> is_parameter n.
Proof. rewrite <- known_iff, existsb_exists. split; [intros I; exists n; split; [exact I|apply String.eqb_refl]|intros (x & I & E); apply String.eqb_eq in E; subst; exact I]. Qed.
Lemma defaults_ok : Forall is_parameter default_alignment_parameters.
Proof. apply Forall_forall. intros n I. apply defaults_iff, I. Qed.

(** The arguments are accepted exactly if there is one item per selected DUT, every name is one of the six parameters, and there is no None in a tuple. *)
Theorem C123_accepted : forall n a, (exists ps, snd (check_parameters n a) = inr ps) <->
  match a with
  | ANone => True
  | AItems mutable items => length items = n /\ Forall (fun i => match i with None => mutable = true | Some l => Forall is_parameter l end) items
  end.
Proof.
  intros n [|mutable items]; cbn [check_parameters].
  - split; [tauto|]. intros _. rewrite check_items_ok; [eexists; reflexivity|]. apply Forall_forall. intros i I. apply repeat_spec in I. subst. exact defaults_ok.
  - destruct (Nat.eqb_spec n (length items)) as [E|E]; cbn [negb].
    + destruct (item_ok_dec mutable items) as [D|D].
      * rewrite (check_items_ok _ _ D). cbn. split; [intros _; split; [auto|exact D]|intros _; eexists; reflexivity].
      * destruct (check_items_bad _ _ D) as (e & Q). destruct (check_items mutable items) as [r o]. cbn in Q |- *. subst o. split.
        -- intros (ps & K). discriminate.
        -- intros (_ & F). contradiction.
    + cbn. split; [intros (ps & K); discriminate|intros (L & _); congruence].
Qed.
(** Every selected DUT is aligned with the parameters which were asked for it. *)
Theorem C123_parameters : forall n a ps, snd (check_parameters n a) = inr ps ->
  length ps = n /\ (forall k names, nth_error ps k = Some names -> asked a k names /\ Forall is_parameter names).
Proof.
  intros n [|mutable items] ps; cbn [check_parameters].
  - rewrite check_items_ok; [|apply Forall_forall; intros i I; apply repeat_spec in I; subst; exact defaults_ok].
    cbn. intros [= <-]. split; [rewrite !map_length; apply repeat_length|].
    intros k names K. apply nth_error_In in K. apply in_map_iff in K as (x & <- & X). apply in_map_iff in X as (y & <- & Y). apply repeat_spec in Y. subst y. cbn [filled names_of].
    split; [intros m; apply defaults_iff|apply defaults_ok].
  - destruct (Nat.eqb_spec n (length items)) as [E|E]; cbn [negb]; [|discriminate].
    destruct (item_ok_dec mutable items) as [D|D].
    + rewrite (check_items_ok _ _ D). cbn. intros [= <-]. split; [rewrite !map_length; auto|].
      intros k names K. rewrite map_map in K. rewrite nth_error_map in K.
      destruct (nth_error items k) as [i|] eqn:N; [|discriminate]. cbn in K. injection K as <-.
      rewrite Forall_forall in D. specialize (D i (nth_error_In _ _ N)).
      destruct i as [l|]; cbn [filled names_of]; [split; [reflexivity|exact D]|]. split; [intros m; apply defaults_iff|apply defaults_ok].
    + destruct (check_items_bad _ _ D) as (e & Q). destruct (check_items mutable items) as [r o]. cbn in Q |- *. subst o. discriminate.
Qed.
(** The entries of the solution which are not set to zero are those of the parameters of the DUT: rotations at 0, 1, 2 and translations at 3, 4, 5. *)
Theorem C123_free_entries : forall names, length (free_entries names) = 6%nat /\
  forall k n, nth_error ["rotation_alpha"; "rotation_beta"; "rotation_gamma"; "translation_x"; "translation_y"; "translation_z"]%string k = Some n ->
  (nth_error (free_entries names) k = Some true <-> In n names) /\ (nth_error (free_entries names) k = Some false <-> ~ In n names).
Proof.
  intros names. split; [reflexivity|]. intros k n K. unfold free_entries. rewrite nth_error_map, K. cbn [option_map].
  assert (Q : existsb (String.eqb n) names = true <-> In n names).
  { rewrite existsb_exists. split; [intros (x & I & E); apply String.eqb_eq in E; subst; exact I|intros I; exists n; split; [exact I|apply String.eqb_refl]]. }
  destruct (existsb (String.eqb n) names).
  - split; (split; [intros E|intros H]); try discriminate E; try reflexivity; [apply Q; reflexivity|exfalso; apply H, Q; reflexivity].
  - split; (split; [intros E|intros H]); try discriminate E; try reflexivity; [apply Q in H; discriminate|intros I; apply Q in I; discriminate].
Qed.
(** After an accepted call the list of the caller contains no None: they were replaced.  None and a tuple are as before. *)
Theorem C123_caller_list : forall n a ps, snd (check_parameters n a) = inr ps ->
  match a with
  | AItems true items => fst (check_parameters n a) = AItems true (map Some ps)
  | _ => fst (check_parameters n a) = a
  end.
Proof.
  intros n [|mutable items] ps; cbn [check_parameters]; [reflexivity|].
  destruct (Nat.eqb_spec n (length items)) as [E|E]; cbn [negb]; [|discriminate].
  destruct (item_ok_dec mutable items) as [D|D].
  - rewrite (check_items_ok _ _ D). cbn. intros [= <-]. rewrite Forall_forall in D. destruct mutable; f_equal.
    + rewrite map_map, map_map. apply map_ext. intros [l|]; reflexivity.
    + transitivity (map (fun x => x) items); [|apply map_id]. apply map_ext_in. intros [l|] I; [reflexivity|]. specialize (D _ I). discriminate.
  - destruct (check_items_bad _ _ D) as (e & Q). destruct (check_items mutable items) as [r o]. cbn in Q |- *. subst o. discriminate.
Qed.
(** Refuted: the argument is not changed by the call.  The caller's list is another one afterwards whenever an item was None, and even when the call fails because of a later item. *)
Theorem C123_caller_list_refuted : forall n items ps, snd (check_parameters n (AItems true items)) = inr ps -> In None items ->
  fst (check_parameters n (AItems true items)) <> AItems true items /\
  fst (check_parameters (S n) (AItems true (items ++ [Some ["x"%string]]))) = AItems true (map Some ps ++ [Some ["x"%string]]) /\
  snd (check_parameters (S n) (AItems true (items ++ [Some ["x"%string]]))) = inl TValueErr.
Proof.
  intros n items ps H I.
  assert (C := C123_caller_list _ _ _ H). split.
  { cbv beta iota in C. rewrite C. intros [= E]. rewrite <- E in I. apply in_map_iff in I as (? & ? & _). discriminate. }
  cbn [check_parameters] in *. rewrite app_length. cbn [length].
  destruct (Nat.eqb_spec n (length items)) as [E|E]; cbn [negb] in *; [|discriminate].
  replace (Nat.eqb (S n) (length items + 1)) with true by (symmetry; apply Nat.eqb_eq; lia). cbn [negb].
  assert (K : forall l, Forall (item_ok true) l -> check_items true (l ++ [Some ["x"%string]]) = (map filled l ++ [Some ["x"%string]], Some TValueErr)).
  { clear. induction l as [|[l|] t IH]; intros H.
    - reflexivity.
    - inversion H as [|? ? A B]; subst. cbn [check_items app map filled]. cbn in A. rewrite (proj2 (non_valid_nil l) A). rewrite (IH B). reflexivity.
    - inversion H as [|? ? A B]; subst. cbn [check_items app map filled]. rewrite (IH B). reflexivity. }
  destruct (item_ok_dec true items) as [D|D].
  - rewrite (K _ D). rewrite (check_items_ok _ _ D) in H. cbn in H |- *. injection H as <-. split; [|reflexivity].
    f_equal. f_equal. rewrite !map_map. apply map_ext. intros [l|]; reflexivity.
  - destruct (check_items_bad _ _ D) as (e & Q). destruct (check_items true items) as [r o]. cbn in Q, H. subst o. discriminate.
Qed.
Example C123_parameters_case :
  check_parameters 2 (AItems true [None; Some ["rotation_gamma"; "translation_x"]%string]) =
    (AItems true [Some default_alignment_parameters; Some ["rotation_gamma"; "translation_x"]%string], inr [default_alignment_parameters; ["rotation_gamma"; "translation_x"]%string]) /\
  free_entries ["rotation_gamma"; "translation_x"]%string = [false; false; true; true; false; false] /\
  snd (check_parameters 2 (AItems false [None; Some []])) = inl TTypeErr /\ snd (check_parameters 1 (AItems true [Some ["z"%string]])) = inl TValueErr /\
  snd (check_parameters 1 (AItems true [])) = inl TValueErr.
Proof. repeat split. Qed.

(** *** Tracks *)
Lemma in_limit_iff l v : in_limit l v = true <-> inside l v.
Proof.
  unfold in_limit, inside. destruct l as [[lo up]|].
  - rewrite andb_true_iff.
    assert (A : match lo with Some b => np_ge v b | None => true end = true <-> above lo v).
    { destruct lo as [b|]; cbn; [|tauto]. destruct v as [x|]; cbn.
      - rewrite Rleb_true. split; [intros H; exists x; auto|intros (y & [= <-] & H); exact H].
      - split; [discriminate|intros (y & [=] & _)]. }
    assert (B : match up with Some b => np_le v b | None => true end = true <-> below up v).
    { destruct up as [b|]; cbn; [|tauto]. destruct v as [x|]; cbn.
      - rewrite Rleb_true. split; [intros H; exists x; auto|intros (y & [= <-] & H); exact H].
      - split; [discriminate|intros (y & [=] & _)]. }
    rewrite A, B. split; [intros H lo' up' [= <- <-]; exact H|intros H; apply H; reflexivity].
  - split; [intros _ lo up [=]|reflexivity].
Qed.
Definition taken (u : bool) (d : dut) (r : row) : bool := in_limit (used_limit u (x_limit d)) (hit_x r) && in_limit (used_limit u (y_limit d)) (hit_y r).
Definition usableb (r : row) : bool := has_value (hit_x r) && has_value (chi2 r).
Lemma usable_iff r : usableb r = true <-> usable r.
Proof. unfold usableb, usable. destruct (hit_x r), (chi2 r); cbn; split; try discriminate; try tauto; intros; split; discriminate. Qed.
Lemma wanted_iff u d r : wanted u d r <-> usableb r = true /\ taken u d r = true.
Proof.
  unfold wanted, taken. rewrite <- usable_iff, andb_true_iff, !in_limit_iff. unfold used_limit. destruct u.
  - split; [intros (A & B); split; [exact A|apply B; reflexivity]|intros (A & B); split; [exact A|intros _; exact B]].
  - split; [intros (A & B); split; [exact A|split; intros ? ? [=]]|intros (A & _); split; [exact A|discriminate]].
Qed.
Definition image (d : dut) (r : row) : fit_track := (to_global (dut_place d) (row_offset r), to_global (turned_only (dut_place d)) (row_slope r), (hit_x r, hit_y r, hit_z r)).
Lemma picked u d rows :
  map snd (filter fst (combine (map (taken u d) rows) (combine (combine (map (to_global (dut_place d)) (map row_offset rows))
    (map (to_global (turned_only (dut_place d))) (map row_slope rows))) (map (fun r => (hit_x r, hit_y r, hit_z r)) rows)))) =
  map (image d) (filter (taken u d) rows).
Proof. induction rows as [|r t IH]; [reflexivity|]. cbn [map combine filter fst]. destruct (taken u d r); cbn [map snd]; rewrite IH; reflexivity. Qed.
Lemma chunk_eq u d rows : tracks_of_chunk u d rows =
  if forallb (fun r => close_to_zero (vz (row_offset r)) && z_ok (hit_z r)) (select_rows rows) then inr (map (image d) (filter (taken u d) (select_rows rows))) else inl TRuntimeErr.
Proof.
  unfold tracks_of_chunk, dut_to_global. set (s := select_rows rows). rewrite <- (picked u d s).
  assert (E : forallb (fun r => close_to_zero (vz (row_offset r)) && z_ok (hit_z r)) s =
    forallb (fun v => close_to_zero (vz v)) (map row_offset s) && forallb (fun r => z_ok (hit_z r)) s).
  { induction s as [|r t IH]; [reflexivity|]. cbn [forallb map]. rewrite IH. destruct (close_to_zero _), (z_ok _), (forallb _ (map row_offset t)); reflexivity. }
  rewrite E. destruct (forallb _ (map row_offset s)); [|reflexivity]. cbn [andb]. destruct (forallb (fun r => z_ok (hit_z r)) s); reflexivity.
Qed.
Lemma image_same d r : same_track d r (image d r).
Proof.
  unfold same_track, image. split; [|reflexivity]. intros k. rewrite !to_global_eq. rewrite !apply_rotation_eq.
  unfold rot, turned_only, pos, vadd, vscale, vx, vy, vz. cbn [r_alpha r_beta r_gamma t_x t_y t_z fst snd].
  apply vec_eq; unfold vx, vy, vz; cbn [fst snd]; ring.
Qed.
Lemma z_iff r : close_to_zero (vz (row_offset r)) && z_ok (hit_z r) = true <-> in_plane r.
Proof.
  unfold in_plane, close_to_zero. rewrite andb_true_iff, Rleb_true. unfold z_ok. destruct (hit_z r) as [z|].
  - unfold close_to_zero. rewrite Rleb_true. split; intros (A & B); (split; [exact A|]); [exists z; auto|]. destruct B as (w & [= <-] & B). exact B.
  - split; [intros (_ & [=])|intros (_ & w & [=] & _)].
Qed.
(** The tracks of a chunk are exactly the fitted tracks with a hit of the DUT inside of its limits, once each, in their order, each as the same line in the global system and with its own hit. *)
Theorem C123_tracks : forall u d rows ts, tracks_of_chunk u d rows = inr ts -> used u d rows ts.
Proof.
  intros u d rows ts. rewrite chunk_eq. destruct (forallb _ _); [|discriminate]. intros [= <-].
  induction rows as [|r t IH]; [constructor|]. unfold select_rows in *. cbn [filter]. fold (usableb r). fold usableb in *.
  assert (W := wanted_iff u d r). destruct (usableb r) eqn:E.
  - cbn [filter]. destruct (taken u d r) eqn:T.
    + cbn [map]. apply used_take; [apply W; auto|apply image_same|exact IH].
    + apply used_skip; [rewrite W; intros (_ & [=])|exact IH].
  - apply used_skip; [rewrite W; intros ([=] & _)|exact IH].
Qed.
(** The specification determines the numbers of the tracks: two results agree in hits and offsets, and in the slopes. *)
Theorem C123_unique : forall u d rows ts ts', used u d rows ts -> used u d rows ts' -> ts = ts'.
Proof.
  intros u d rows ts ts' H. revert ts'. induction H as [|r rows ts N H IH|r rows t ts W S H IH]; intros ts' K; inversion K; subst; try contradiction; auto.
  f_equal; [|auto]. destruct t as [[o s] h], t0 as [[o' s'] h']. unfold same_track in S. destruct S as (S & ->), H3 as (S' & ->).
  assert (Z := S 0). rewrite (S' 0) in Z. assert (O := S 1). rewrite (S' 1) in O.
  destruct o as [[o1 o2] o3], o' as [[p1 p2] p3], s as [[s1 s2] s3], s' as [[q1 q2] q3]. unfold vadd, vscale, vx, vy, vz in Z, O. cbn [fst snd] in Z, O.
  injection Z as Z1 Z2 Z3. injection O as O1 O2 O3. repeat f_equal; lra.
Qed.
(** The call fails exactly if a fitted track with hit has an offset or a hit outside of the plane of the sensor; the limits do not matter. *)
Theorem C123_error : forall u d rows, tracks_of_chunk u d rows = inl TRuntimeErr <-> exists r, In r rows /\ usable r /\ ~ in_plane r.
Proof.
  intros u d rows. rewrite chunk_eq. destruct (forallb _ _) eqn:E.
  - split; [discriminate|]. intros (r & I & U & N). exfalso. apply N. rewrite forallb_forall in E. apply z_iff, E. unfold select_rows. apply filter_In. split; [exact I|]. apply usable_iff, U.
  - split; [|reflexivity]. intros _. apply not_true_iff_false in E.
    assert (G : exists r, In r (select_rows rows) /\ close_to_zero (vz (row_offset r)) && z_ok (hit_z r) = false).
    { revert E. generalize (select_rows rows). induction l as [|r t IH]; cbn [forallb]; [intros H; destruct H; reflexivity|]. intros H.
      destruct (close_to_zero (vz (row_offset r)) && z_ok (hit_z r)) eqn:Q; [|exists r; split; [left; reflexivity|exact Q]].
      destruct IH as (x & I & P); [exact H|]. exists x. split; [right; exact I|exact P]. }
    destruct G as (r & I & Q). apply filter_In in I as (I & U). exists r. split; [exact I|]. split; [apply usable_iff, U|].
    intros P. apply z_iff in P. congruence.
Qed.
(** The other outcomes are excluded: there is a list of tracks or a RuntimeError. *)
Theorem C123_total : forall u d rows, (forall r, In r rows -> usable r -> in_plane r) -> exists ts, tracks_of_chunk u d rows = inr ts.
Proof.
  intros u d rows H. rewrite chunk_eq. destruct (forallb _ _) eqn:E; [eexists; reflexivity|]. exfalso. apply not_true_iff_false in E. apply E.
  apply forallb_forall. intros r I. apply filter_In in I as (I & U). apply z_iff, H; [exact I|apply usable_iff, U].
Qed.
(** Chunks are read independently: two chunks give the tracks of both, one after the other. *)
Theorem C123_chunks : forall u d rows rows' ts ts', tracks_of_chunk u d rows = inr ts -> tracks_of_chunk u d rows' = inr ts' -> tracks_of_chunk u d (rows ++ rows') = inr (ts ++ ts').
Proof.
  intros u d rows rows' ts ts'. rewrite !chunk_eq. unfold select_rows. rewrite filter_app, forallb_app. destruct (forallb _ _); [|discriminate]. destruct (forallb _ _); [|discriminate].
  intros [= <-] [= <-]. cbn [andb]. rewrite filter_app, map_app. reflexivity.
Qed.
(** Lengths are kept: the slope has its length (one for the tracks of fit_tracks), and the distance of the hit from the track is the same in both systems, at every point of the track. *)
Theorem C123_distance : forall d r t hit, same_track d r t ->
  vdot (snd (fst t)) (snd (fst t)) = vdot (row_slope r) (row_slope r) /\
  forall k, let local := vsub hit (vadd (row_offset r) (vscale k (row_slope r))) in
            let global := vsub (to_global (dut_place d) hit) (vadd (fst (fst t)) (vscale k (snd (fst t)))) in
            vdot global global = vdot local local.
Proof.
  intros d r [[o s] h] hit (L & _). cbn [fst snd]. split.
  - assert (I := proj1 (C27_isometry (dut_place d) (vadd (row_offset r) (vscale 1 (row_slope r))) (vadd (row_offset r) (vscale 0 (row_slope r)))
      (vadd (row_offset r) (vscale 1 (row_slope r))) (vadd (row_offset r) (vscale 0 (row_slope r))))).
    rewrite !L in I. destruct (row_offset r) as [[? ?] ?], (row_slope r) as [[? ?] ?], o as [[? ?] ?], s as [[? ?] ?].
    unfold vdot, vsub, vadd, vscale, vx, vy, vz in *. cbn [fst snd] in *. lra.
  - intros k. rewrite <- L. exact (proj1 (C27_isometry _ _ _ _ _)).
Qed.
(** Without limits (or with limits which are not finite) every fitted track with hit is used. *)
Theorem C123_no_limits : forall u d rows ts, u = false \/ (x_limit d = None \/ x_limit d = Some (None, None)) /\ (y_limit d = None \/ y_limit d = Some (None, None)) ->
  tracks_of_chunk u d rows = inr ts -> length ts = length (filter (fun r => match hit_x r, chi2 r with Some _, Some _ => true | _, _ => false end) rows).
Proof.
  intros u d rows ts H. rewrite chunk_eq. destruct (forallb _ _); [|discriminate]. intros [= <-]. rewrite map_length.
  assert (T : forall r, taken u d r = true).
  { intros r. unfold taken, used_limit. destruct H as [-> | ([A|A] & [B|B])]; [reflexivity| | | |]; rewrite A, B; destruct u; reflexivity. }
  clear H. unfold select_rows. induction rows as [|r t IH]; [reflexivity|]. cbn [filter]. destruct (hit_x r), (chi2 r); cbn [has_value andb filter]; try exact IH.
  rewrite T. cbn [length]. rewrite IH. reflexivity.
Qed.
(** A chunk with a track without hit, one without fit, one outside of the limits and one at the limit: the last one is used. *)
Definition case_dut : dut := Dut (Placement 1 2 3 0 0 0) (Some (Some (-5), Some 5)) (Some (None, Some 7)).
Definition case_row (x : R) : row := Row (Some x) (Some 7) (Some 0) (Some 1) (x, 6, 0) (0, 0, 1).
Definition case_rows : list row := [Row None None None (Some 1) (0, 0, 0) (0, 0, 1); Row (Some 0) (Some 0) (Some 0) None (0, 0, 0) (0, 0, 1); case_row 6; case_row 5].
Example C123_case : exists ts, tracks_of_chunk true case_dut case_rows = inr ts /\ used true case_dut case_rows ts /\ length ts = 1%nat /\
  exists ts', tracks_of_chunk false case_dut case_rows = inr ts' /\ length ts' = 2%nat.
Proof.
  assert (P : forall r, In r case_rows -> usable r -> in_plane r).
  { intros r [<-|[<-|[<-|[<-|[]]]]] (A & B); cbn in A, B; try congruence; split; cbn; try exists 0; rewrite ?Rabs_R0; try (split; [reflexivity|]); lra. }
  destruct (C123_total true case_dut _ P) as (ts & T). exists ts. split; [exact T|]. split; [apply C123_tracks, T|]. split.
  - assert (U := C123_tracks _ _ _ _ T). inversion U as [|r rows x N1 U1|r rows t x W1 S1 U1]; subst; clear U; [|destruct W1 as ((W & _) & _); cbn in W; congruence].
    inversion U1 as [|r rows x N2 U2|r rows t x W2 S2 U2]; subst; [|destruct W2 as ((_ & W) & _); cbn in W; congruence].
    inversion U2 as [|r rows x N3 U3|r rows t x W3 S3 U3]; subst.
    + inversion U3 as [|r rows x N4 U4|r rows t x W4 S4 U4]; subst.
      * exfalso. apply N4. split; [split; discriminate|]. intros _. split; intros lo up [= <- <-]; cbn; split; try exact Logic.I; eexists; (split; [reflexivity|lra]).
      * inversion U4; subst. reflexivity.
    + exfalso. destruct W3 as (_ & W). specialize (W eq_refl) as (W & _). specialize (W _ _ eq_refl) as (_ & W). cbn in W. destruct W as (y & [= <-] & W). lra.
  - destruct (C123_total false case_dut _ P) as (ts' & T'). exists ts'. split; [exact T'|]. rewrite (C123_no_limits _ _ _ _ (or_introl eq_refl) T'). reflexivity.
Qed.

Print Assumptions C123_accepted.
Print Assumptions C123_parameters.
Print Assumptions C123_free_entries.
Print Assumptions C123_caller_list.
Print Assumptions C123_caller_list_refuted.
Print Assumptions C123_tracks.
Print Assumptions C123_unique.
Print Assumptions C123_error.
Print Assumptions C123_total.
Print Assumptions C123_chunks.
Print Assumptions C123_distance.
Print Assumptions C123_no_limits.
