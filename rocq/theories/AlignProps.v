(** C47 (update of the alignment) and C48 (apply_alignment). *)
From Coq Require Import Reals Ascii String List Bool Arith Lra Lia Nsatz.
From Verif Require Import FindTracksModel FindTracksProofs FindTracksProps GeometryModel GeometryProofs GeometryProps AnglesProps AlignModel.
Import ListNotations.
Local Open Scope R_scope.

(** *** C48 *)
(** what happens to a position, a direction and an error of the DUT at [p] *)
Definition globally (beam : bool) (tele p : placement) (v : vec) : vec :=
  if beam then to_global tele (to_global p v) else to_global p v.
Definition locally (beam : bool) (tele p : placement) (v : vec) : vec :=
  if beam then to_local p (to_local tele v) else to_local p v.
Definition moved (to_glob beam : bool) (tele p : placement) : vec -> vec :=
  if to_glob then globally beam tele p else locally beam tele p.
Definition turned (to_glob beam : bool) (tele p : placement) : vec -> vec :=
  moved to_glob beam (no_translation tele) (no_translation p).
(** errors are rotated like directions, and the magnitude of each component is stored after each rotation *)
Definition err_moved (to_glob beam : bool) (tele p : placement) (v : vec) : vec :=
  let first := fun q v => vabs (moved to_glob false q (no_translation q) v) in
  if beam then (if to_glob then first tele (first p v) else first p (first tele v)) else first p v.
(** positions are accepted when they are on the sensor *)
Definition accepted (to_glob beam : bool) (tele p : placement) (v : option vec) : Prop :=
  match v with None => True | Some v => Rabs (vz (if to_glob then v else locally beam tele p v)) <= 1 / 100000000 end.

Definition unchanged (r r' : row) (k : nat) : Prop :=
  hit r' k = hit r k /\ off_d r' k = off_d r k /\ slope_d r' k = slope_d r k /\ err_d r' k = err_d r k.
Definition converted (to_glob beam : bool) (tele p : placement) (n : node) (r r' : row) (k : nat) : Prop :=
  hit r' k = option_map (moved to_glob beam tele p) (hit r k) /\
  off_d r' k = (if is_tracks n && has_off_d n k then option_map (moved to_glob beam tele p) (off_d r k) else off_d r k) /\
  slope_d r' k = (if is_tracks n && has_slope_d n k then option_map (turned to_glob beam tele p) (slope_d r k) else slope_d r k) /\
  err_d r' k = (if is_tracks n && has_err_d n k then option_map (err_moved to_glob beam tele p) (err_d r k) else err_d r k).

Lemma option_map_map {A B C} (f : A -> B) (g : B -> C) o : option_map g (option_map f o) = option_map (fun x => g (f x)) o.
Proof. destruct o; reflexivity. Qed.
Lemma upd_same f k v : upd f k v k = v.
Proof. unfold upd. rewrite Nat.eqb_refl. reflexivity. Qed.
Lemma upd_other f k v j : j <> k -> upd f k v j = f j.
Proof. intros H. unfold upd. apply Nat.eqb_neq in H. rewrite H. reflexivity. Qed.

(** the effect of convert_data, for any outcome of the conversion of the hit *)
Lemma convert_data_spec tg n k p tele r h : conv tg p tele (hit r k) = Some h ->
  let q := match tele with Some t => t | None => p end in
  let f := fun v => if tg then to_global q v else to_local q v in
  let g := fun v => if tg then to_global (no_translation q) v else to_local (no_translation q) v in
  exists r', convert_data tg n k p tele r = Some r' /\
    hit r' k = h /\
    off_d r' k = (if is_tracks n && has_off_d n k then option_map f (off_d r k) else off_d r k) /\
    slope_d r' k = (if is_tracks n && has_slope_d n k then option_map g (slope_d r k) else slope_d r k) /\
    err_d r' k = (if is_tracks n && has_err_d n k then option_map (fun v => vabs (g v)) (err_d r k) else err_d r k) /\
    off r' = (if is_tracks n && (named n k && has_off n) then option_map f (off r) else off r) /\
    slope r' = (if is_tracks n && (named n k && has_slope n) then option_map g (slope r) else slope r) /\
    forall j, j <> k -> unchanged r r' j.
Proof.
  intros H q f g.
  assert (M : forall A B C (f : A -> B) (g : B -> C) o, option_map (fun x => g (f x)) o = option_map g (option_map f o)) by (intros; destruct o; reflexivity).
  rewrite (M _ _ _ g vabs). change (option_map f) with (conv_over tg q). change (option_map g) with (conv_over tg (no_translation q)).
  unfold convert_data. rewrite H. fold q. clear H M f g.
  generalize (conv_over tg q). generalize (conv_over tg (no_translation q)). generalize (option_map vabs). clear. intros va G F.
  destruct (is_tracks n); (eexists; split; [reflexivity|]); cbn [hit off_d slope_d err_d off slope andb].
  - split; [apply upd_same|]. split; [destruct (has_off_d n k); rewrite ?upd_same; reflexivity|].
    split; [destruct (has_slope_d n k); rewrite ?upd_same; reflexivity|]. split; [destruct (has_err_d n k); rewrite ?upd_same; reflexivity|].
    split; [reflexivity|]. split; [reflexivity|]. intros j Hj. unfold unchanged. cbn [hit off_d slope_d err_d].
    split; [apply upd_other; auto|]. split; [destruct (has_off_d n k); rewrite ?upd_other by auto; reflexivity|].
    split; [destruct (has_slope_d n k); rewrite ?upd_other by auto; reflexivity|destruct (has_err_d n k); rewrite ?upd_other by auto; reflexivity].
  - split; [apply upd_same|]. repeat (split; [reflexivity|]). intros j Hj. unfold unchanged. cbn [hit off_d slope_d err_d].
    split; [apply upd_other; auto|]. auto.
Qed.

Lemma option_map_fun {A B} (f g : A -> B) o : (forall x, f x = g x) -> option_map f o = option_map g o.
Proof. intros H. destruct o; simpl; rewrite ?H; reflexivity. Qed.

Lemma dut_step_spec tg beam tele n k p r : accepted tg beam tele p (hit r k) ->
  exists r', dut_step tg beam tele n k p r = Some r' /\
    converted tg beam tele p n r r' k /\
    off r' = (if is_tracks n && (named n k && has_off n) then option_map (moved tg beam tele p) (off r) else off r) /\
    slope r' = (if is_tracks n && (named n k && has_slope n) then option_map (turned tg beam tele p) (slope r) else slope r) /\
    forall j, j <> k -> unchanged r r' j.
Proof.
  intros Ha. unfold dut_step, converted, turned, err_moved, moved, globally, locally in *.
  destruct beam; destruct tg; cbn [andb negb].
  - (* beam, to global: DUT first *)
    destruct (convert_data_spec true n k p None r (option_map (to_global p) (hit r k))) as (r1 & E1 & H1 & O1 & S1 & X1 & F1 & G1 & U1).
    { unfold conv, accepted in *. destruct (hit r k); cbn [option_map]; auto. unfold close_to_zero. rewrite (proj2 (Rleb_true _ _) Ha). reflexivity. }
    rewrite E1.
    destruct (convert_data_spec true n k p (Some tele) r1 (option_map (to_global tele) (hit r1 k))) as (r2 & E2 & H2 & O2 & S2 & X2 & F2 & G2 & U2).
    { unfold conv. destruct (hit r1 k); reflexivity. }
    exists r2. split; [exact E2|]. rewrite H2, O2, S2, X2, F2, G2, H1, O1, S1, X1, F1, G1, option_map_map.
    destruct (is_tracks n && has_off_d n k), (is_tracks n && has_slope_d n k), (is_tracks n && has_err_d n k), (is_tracks n && (named n k && has_off n)), (is_tracks n && (named n k && has_slope n));
      rewrite ?option_map_map; (split; [auto|]); (split; [auto|]); (split; [auto|]);
      intros j Hj; destruct (U1 j Hj) as (? & ? & ? & ?); destruct (U2 j Hj) as (? & ? & ? & ?); unfold unchanged; repeat split; congruence.
  - (* beam, to local: telescope first *)
    destruct (convert_data_spec false n k p (Some tele) r (option_map (to_local tele) (hit r k))) as (r1 & E1 & H1 & O1 & S1 & X1 & F1 & G1 & U1).
    { unfold conv. destruct (hit r k); reflexivity. }
    rewrite E1.
    destruct (convert_data_spec false n k p None r1 (option_map (to_local p) (hit r1 k))) as (r2 & E2 & H2 & O2 & S2 & X2 & F2 & G2 & U2).
    { rewrite H1. unfold conv, accepted, locally in *. destruct (hit r k); cbn [option_map]; auto. unfold close_to_zero. rewrite (proj2 (Rleb_true _ _) Ha). reflexivity. }
    rewrite E2. exists r2. split; [reflexivity|]. rewrite H2, O2, S2, X2, F2, G2, H1, O1, S1, X1, F1, G1, option_map_map.
    destruct (is_tracks n && has_off_d n k), (is_tracks n && has_slope_d n k), (is_tracks n && has_err_d n k), (is_tracks n && (named n k && has_off n)), (is_tracks n && (named n k && has_slope n));
      rewrite ?option_map_map; (split; [auto|]); (split; [auto|]); (split; [auto|]);
      intros j Hj; destruct (U1 j Hj) as (? & ? & ? & ?); destruct (U2 j Hj) as (? & ? & ? & ?); unfold unchanged; repeat split; congruence.
  - destruct (convert_data_spec true n k p None r (option_map (to_global p) (hit r k))) as (r1 & E1 & H1 & O1 & S1 & X1 & F1 & G1 & U1).
    { unfold conv, accepted in *. destruct (hit r k); cbn [option_map]; auto. unfold close_to_zero. rewrite (proj2 (Rleb_true _ _) Ha). reflexivity. }
    rewrite E1. exists r1. split; [reflexivity|]. rewrite H1, O1, S1, X1, F1, G1. split; [repeat (split; [reflexivity|]); reflexivity|]. split; [reflexivity|]. split; [reflexivity|]. exact U1.
  - destruct (convert_data_spec false n k p None r (option_map (to_local p) (hit r k))) as (r1 & E1 & H1 & O1 & S1 & X1 & F1 & G1 & U1).
    { unfold conv, accepted, locally in *. destruct (hit r k); cbn [option_map]; auto. unfold close_to_zero. rewrite (proj2 (Rleb_true _ _) Ha). reflexivity. }
    rewrite E1. exists r1. split; [reflexivity|]. rewrite H1, O1, S1, X1, F1, G1. split; [repeat (split; [reflexivity|]); reflexivity|]. split; [reflexivity|]. split; [reflexivity|]. exact U1.
Qed.

(** at most one DUT of the telescope is named in the table name *)
Definition one_named (n : node) (s len : nat) : Prop :=
  forall j k, (s <= j < s + len)%nat -> (s <= k < s + len)%nat -> named n j = true -> named n k = true -> j = k.

Lemma dut_loop_spec tg beam tele n : forall duts s r, one_named n s (length duts) ->
  (forall i p, nth_error duts i = Some p -> accepted tg beam tele p (hit r (s + i))) ->
  exists r', dut_loop tg beam tele n s duts r = Some r' /\
    (forall i p, nth_error duts i = Some p -> converted tg beam tele p n r r' (s + i)) /\
    (forall j, (j < s \/ s + length duts <= j)%nat -> unchanged r r' j) /\
    (forall i p, nth_error duts i = Some p -> named n (s + i) = true ->
      off r' = (if is_tracks n && has_off n then option_map (moved tg beam tele p) (off r) else off r) /\
      slope r' = (if is_tracks n && has_slope n then option_map (turned tg beam tele p) (slope r) else slope r)) /\
    ((forall k, (s <= k < s + length duts)%nat -> named n k = false) -> off r' = off r /\ slope r' = slope r).
Proof.
  induction duts as [|p duts IH]; intros s r N Ha.
  - exists r. split; [reflexivity|]. split; [intros [|]; discriminate|]. split; [intros; unfold unchanged; auto|].
    split; [intros [|]; discriminate|auto].
  - pose proof (Ha 0%nat p eq_refl) as Ha0. rewrite Nat.add_0_r in Ha0.
    destruct (dut_step_spec tg beam tele n s p r Ha0) as (r1 & E1 & C1 & O1 & S1 & U1).
    cbn [dut_loop]. rewrite E1. cbn [length] in N.
    destruct (IH (S s) r1) as (r' & E & C & U & F & Z).
    { intros j k Hj Hk. apply N; lia. }
    { intros i q Hi. destruct (U1 (S s + i)%nat ltac:(lia)) as (-> & _). replace (S s + i)%nat with (s + S i)%nat by lia. apply Ha. exact Hi. }
    exists r'. split; [exact E|]. split; [|split; [|split]].
    + intros [|i] q Hi; cbn [nth_error] in Hi.
      * injection Hi as ->. rewrite Nat.add_0_r. destruct (U s ltac:(lia)) as (A1 & A2 & A3 & A4). destruct C1 as (B1 & B2 & B3 & B4).
        unfold converted. rewrite A1, A2, A3, A4. auto.
      * specialize (C i q Hi). replace (S s + i)%nat with (s + S i)%nat in C by lia. unfold converted in *.
        destruct (U1 (s + S i)%nat ltac:(lia)) as (A1 & A2 & A3 & A4). rewrite A1, A2, A3, A4 in C. exact C.
    + intros j Hj. cbn [length] in Hj. destruct (U j ltac:(lia)) as (? & ? & ? & ?). destruct (U1 j ltac:(lia)) as (? & ? & ? & ?).
      unfold unchanged. repeat split; congruence.
    + intros [|i] q Hi Hn; cbn [nth_error] in Hi.
      * injection Hi as ->. rewrite Nat.add_0_r in Hn. rewrite Hn in O1, S1. cbn [andb] in O1, S1.
        destruct Z as (Z1 & Z2).
        { intros k Hk. apply not_true_iff_false. intros Hk'. assert (k = s) by (apply N; auto; lia). lia. }
        rewrite Z1, Z2. auto.
      * assert (Hs : named n s = false).
        { apply not_true_iff_false. intros Hs. assert (i < length duts)%nat by (apply nth_error_Some; congruence).
          assert (s = s + S i)%nat by (apply N; auto; lia). lia. }
        rewrite Hs in O1, S1. cbn [andb] in O1, S1. rewrite ?andb_false_r in O1, S1.
        rewrite <- O1, <- S1. apply (F i q Hi). replace (S s + i)%nat with (s + S i)%nat by lia. exact Hn.
    + intros Hn. cbn [length] in Hn. destruct Z as (Z1 & Z2). { intros k Hk. apply Hn. lia. }
      rewrite (Hn s ltac:(lia)) in O1, S1. cbn [andb] in O1, S1. rewrite ?andb_false_r in O1, S1. split; congruence.
Qed.

(** Every quantity of DUT k is transformed with the placement of DUT k; missing hits stay missing, other DUTs
    and (with at most one DUT named in the table name) the offset and slope of the fit are transformed once. *)
Theorem C48_applied : forall to_glob beam tele duts n r, one_named n 0 (length duts) ->
  (forall k p, nth_error duts k = Some p -> accepted to_glob beam tele p (hit r k)) ->
  exists r', apply_alignment to_glob beam tele duts n r = Some r' /\
    (forall k p, nth_error duts k = Some p -> converted to_glob beam tele p n r r' k) /\
    (forall k, (length duts <= k)%nat -> unchanged r r' k) /\
    (forall k p, nth_error duts k = Some p -> named n k = true ->
      off r' = (if is_tracks n && has_off n then option_map (moved to_glob beam tele p) (off r) else off r) /\
      slope r' = (if is_tracks n && has_slope n then option_map (turned to_glob beam tele p) (slope r) else slope r)) /\
    ((forall k, (k < length duts)%nat -> named n k = false) -> off r' = off r /\ slope r' = slope r).
Proof.
  intros tg beam tele duts n r N Ha. destruct (dut_loop_spec tg beam tele n duts 0 r N Ha) as (r' & E & C & U & F & Z).
  exists r'. split; [exact E|]. split; [exact C|]. split; [intros; apply U; lia|]. split; [exact F|]. intros H. apply Z. intros; apply H; lia.
Qed.

Lemma locally_globally beam tele p v : locally beam tele p (globally beam tele p v) = v.
Proof. unfold locally, globally. destruct beam; rewrite ?to_local_to_global; reflexivity. Qed.
Lemma option_back {A} (f g : A -> A) o : (forall x, g (f x) = x) -> option_map g (option_map f o) = o.
Proof. intros H. destruct o; simpl; rewrite ?H; reflexivity. Qed.

(** To global coordinates and back, with or without beam alignment: hits, offsets and slopes are restored. *)
Theorem C48_round_trip : forall beam tele duts n r, one_named n 0 (length duts) ->
  (forall k v, (k < length duts)%nat -> hit r k = Some v -> vz v = 0) ->
  exists g r', apply_alignment true beam tele duts n r = Some g /\ apply_alignment false beam tele duts n g = Some r' /\
    off r' = off r /\ slope r' = slope r /\
    forall k, hit r' k = hit r k /\ off_d r' k = off_d r k /\ slope_d r' k = slope_d r k.
Proof.
  intros beam tele duts n r N Hz.
  destruct (C48_applied true beam tele duts n r N) as (g & E1 & C1 & U1 & F1 & Z1).
  { intros k p Hk. unfold accepted. destruct (hit r k) as [v|] eqn:E; auto.
    assert (k < length duts)%nat by (apply nth_error_Some; congruence). rewrite (Hz k v), Rabs_R0 by auto. lra. }
  destruct (C48_applied false beam tele duts n g N) as (r' & E2 & C2 & U2 & F2 & Z2).
  { intros k p Hk. destruct (C1 k p Hk) as (Ch & _). rewrite Ch. unfold accepted. destruct (hit r k) as [v|] eqn:E; cbn [option_map]; auto.
    unfold moved. rewrite locally_globally.
    assert (k < length duts)%nat by (apply nth_error_Some; congruence). rewrite (Hz k v), Rabs_R0 by auto. lra. }
  exists g, r'. split; [exact E1|]. split; [exact E2|].
  assert (B : forall p o, option_map (moved false beam tele p) (option_map (moved true beam tele p) o) = o)
    by (intros; apply option_back; intros; apply locally_globally).
  assert (B' : forall p o, option_map (turned false beam tele p) (option_map (turned true beam tele p) o) = o)
    by (intros; apply option_back; intros; apply locally_globally).
  assert (OS : off r' = off r /\ slope r' = slope r).
  { destruct (existsb (named n) (seq 0 (length duts))) eqn:Ex.
    - apply existsb_exists in Ex. destruct Ex as (k & Hk & Hn). apply in_seq in Hk.
      destruct (nth_error duts k) as [p|] eqn:Ep; [|apply nth_error_None in Ep; lia].
      destruct (F1 k p Ep Hn) as (O1 & S1). destruct (F2 k p Ep Hn) as (O2 & S2).
      rewrite O2, S2, O1, S1. destruct (is_tracks n && has_off n), (is_tracks n && has_slope n); rewrite ?B, ?B'; auto.
    - assert (Hn : forall k, (k < length duts)%nat -> named n k = false).
      { intros k Hk. apply not_true_iff_false. intros Hn. apply not_true_iff_false in Ex. apply Ex. apply existsb_exists. exists k. split; auto. apply in_seq. lia. }
      destruct (Z1 Hn) as (A1 & A2). destruct (Z2 Hn) as (A3 & A4). split; congruence. }
  split; [apply OS|]. split; [apply OS|].
  intros k. destruct (nth_error duts k) as [p|] eqn:Ep.
  - destruct (C1 k p Ep) as (H1 & O1 & S1 & _). destruct (C2 k p Ep) as (H2 & O2 & S2 & _). rewrite H2, O2, S2, H1, O1, S1.
    destruct (is_tracks n && has_off_d n k), (is_tracks n && has_slope_d n k); rewrite ?B, ?B'; auto.
  - apply nth_error_None in Ep. destruct (U1 k Ep) as (? & ? & ? & ?). destruct (U2 k Ep) as (? & ? & ? & ?). repeat split; congruence.
Qed.

(** A hit off the sensor plane makes the conversion to global coordinates fail. *)
Theorem C48_off_plane_error : forall beam tele duts n r k p v, nth_error duts k = Some p -> hit r k = Some v ->
  1 / 100000000 < Rabs (vz v) -> apply_alignment true beam tele duts n r = None.
Proof.
  intros beam tele duts n r k p v. unfold apply_alignment.
  assert (G : forall duts s r i, nth_error duts i = Some p -> hit r (s + i)%nat = Some v -> 1 / 100000000 < Rabs (vz v) ->
    dut_loop true beam tele n s duts r = None).
  { clear. induction duts as [|q duts IH]; intros s r [|i] Hi Hh Hv; try discriminate; cbn [nth_error dut_loop] in *.
    - injection Hi as ->. rewrite Nat.add_0_r in Hh. unfold dut_step. rewrite andb_false_r.
      unfold convert_data at 1, conv at 1. rewrite Hh. unfold close_to_zero. rewrite (proj2 (Rleb_false _ _) Hv). reflexivity.
    - destruct (dut_step true beam tele n s q r) as [r1|] eqn:E; [|reflexivity].
      apply (IH (S s) r1 i Hi); auto. replace (S s + i)%nat with (s + S i)%nat by lia. rewrite <- Hh.
      assert (Q : accepted true beam tele q (hit r s)).
      { unfold accepted. destruct (hit r s) as [w|] eqn:Ew; auto. apply Rnot_lt_le. intros L. unfold dut_step in E. rewrite andb_false_r in E.
        unfold convert_data at 1, conv at 1 in E. rewrite Ew in E. unfold close_to_zero in E. rewrite (proj2 (Rleb_false _ _) L) in E. discriminate. }
      destruct (dut_step_spec true beam tele n s q r Q) as (r2 & E2 & _ & _ & _ & U).
      assert (r1 = r2) by congruence. subst r2. apply U. lia. }
  apply (G duts 0%nat r k).
Qed.

(** Which nodes have their tracks converted, and for which DUT a node is meant: the name contains "Tracks", and "DUT" with the number. *)
Theorem C48_node_names : forall n,
  (is_tracks n = true <-> exists a b, nname n = a ++ ["T"; "r"; "a"; "c"; "k"; "s"]%char ++ b) /\
  (forall k, (k < 10)%nat -> named n k = true <-> exists a b, nname n = a ++ ["D"; "U"; "T"; ascii_of_nat (48 + k)]%char ++ b).
Proof.
  intros n. split; [apply contains_spec|]. intros k Hk. unfold named. rewrite contains_spec.
  replace (chars "DUT" ++ decimal k) with ["D"; "U"; "T"; ascii_of_nat (48 + k)]%char; [reflexivity|].
  do 10 (destruct k as [|k]; [reflexivity|]). lia.
Qed.

(** The tables of fit_tracks, for telescopes of up to ten DUTs, name exactly one DUT. *)
Definition tracks_table (d : nat) : list ascii := chars "Tracks_DUT" ++ decimal d.
Theorem C48_table_names : forall n d, (d < 10)%nat -> nname n = tracks_table d ->
  is_tracks n = true /\ (forall k, (k < 10)%nat -> named n k = (k =? d)%nat) /\ one_named n 0 10.
Proof.
  intros n d Hd E.
  assert (T : forallb (fun d => contains (chars "Tracks") (tracks_table d) &&
    forallb (fun k => Bool.eqb (contains (chars "DUT" ++ decimal k) (tracks_table d)) (k =? d)%nat) (seq 0 10)) (seq 0 10) = true) by (vm_compute; reflexivity).
  rewrite forallb_forall in T. specialize (T d ltac:(apply in_seq; lia)). apply andb_prop in T. destruct T as (T1 & T2).
  rewrite forallb_forall in T2.
  assert (K : forall k, (k < 10)%nat -> named n k = (k =? d)%nat).
  { intros k Hk. unfold named. rewrite E. apply eqb_prop. apply (T2 k). apply in_seq. lia. }
  split; [unfold is_tracks; rewrite E; exact T1|]. split; [exact K|].
  intros j k Hj Hk N1 N2. rewrite K in N1, N2 by lia. apply Nat.eqb_eq in N1, N2. lia.
Qed.

(** Errors survive if nothing is rotated ... *)
Definition not_rotated (p : placement) : Prop := r_alpha p = 0 /\ r_beta p = 0 /\ r_gamma p = 0.
Lemma turn_zero p v : not_rotated p -> to_global (no_translation p) v = v /\ to_local (no_translation p) v = v.
Proof.
  intros (A & B & C). assert (G : to_global (no_translation p) v = v).
  { rewrite to_global_eq, apply_rotation_eq. unfold rot, no_translation, pos. cbn [r_alpha r_beta r_gamma t_x t_y t_z]. rewrite A, B, C.
    destruct (rot_entries 0 0 0) as (E00 & E01 & E02 & E10 & E11 & E12 & E20 & E21 & E22).
    rewrite E00, E01, E02, E10, E11, E12, E20, E21, E22, sin_0, cos_0. apply vec_eq; unfold vadd, vx, vy, vz; cbn [fst snd]; ring. }
  split; [exact G|]. rewrite <- G at 1. apply to_local_to_global.
Qed.
Theorem C48_errors : forall to_glob beam tele p v, not_rotated p -> not_rotated tele -> 0 <= vx v -> 0 <= vy v -> 0 <= vz v ->
  err_moved to_glob beam tele p v = v.
Proof.
  intros tg beam tele p v Hp Ht H1 H2 H3. unfold err_moved, moved, globally, locally.
  assert (V : vabs v = v) by (unfold vabs; rewrite !Rabs_pos_eq by auto; destruct v as [[? ?] ?]; reflexivity).
  destruct beam, tg; rewrite ?(proj1 (turn_zero p _ Hp)), ?(proj2 (turn_zero p _ Hp)), ?(proj1 (turn_zero tele _ Ht)), ?(proj2 (turn_zero tele _ Ht)), ?V,
    ?(proj1 (turn_zero p _ Hp)), ?(proj2 (turn_zero p _ Hp)), ?(proj1 (turn_zero tele _ Ht)), ?(proj2 (turn_zero tele _ Ht)), ?V; reflexivity.
Qed.
(** ... but not in general: the error of a DUT rotated by -45 degrees moves from x to y. *)
Theorem C48_errors_refuted : exists tele duts n r g r',
  (forall k v, hit r k = Some v -> vz v = 0) /\
  apply_alignment true false tele duts n r = Some g /\ apply_alignment false false tele duts n g = Some r' /\
  err_d r 0%nat = Some (1, 0, 0) /\ err_d r' 0%nat = Some (0, 1, 0).
Proof.
  set (p := Placement 0 0 0 0 0 (- (PI / 4))). set (n := Node (tracks_table 0) (fun _ => true) (fun _ => true) (fun _ => true) true true).
  set (r := Row (fun _ => None) (fun _ => None) (fun _ => None) (fun _ => Some (1, 0, 0)) None None).
  destruct (C48_table_names n 0 ltac:(lia) eq_refl) as (Tr & _ & N). assert (N1 : one_named n 0 (length [p])) by (intros j k Hj Hk; simpl in *; lia).
  destruct (C48_applied true false p [p] n r N1) as (g & E1 & C1 & _). { intros [|[|k]] q Hk; try discriminate. exact I. }
  destruct (C1 0%nat p eq_refl) as (H1 & _ & _ & X1).
  destruct (C48_applied false false p [p] n g N1) as (r' & E2 & C2 & _). { intros [|[|k]] q Hk; try discriminate. rewrite H1. exact I. }
  destruct (C2 0%nat p eq_refl) as (_ & _ & _ & X2).
  exists p, (p :: nil), n, r, g, r'. split; [intros k v; discriminate|]. split; [exact E1|]. split; [exact E2|]. split; [reflexivity|].
  rewrite X2, X1, Tr. cbn [has_err_d n andb]. subst r. cbn [err_d option_map].
  assert (S2 : / sqrt 2 * / sqrt 2 = 1 / 2).
  { rewrite <- Rinv_mult. rewrite sqrt_sqrt by lra. lra. }
  assert (S : 0 < / sqrt 2) by (apply Rinv_0_lt_compat, sqrt_lt_R0; lra).
  destruct (rot_entries 0 0 (- (PI / 4))) as (E00 & E01 & E02 & E10 & E11 & E12 & E20 & E21 & E22).
  rewrite ?sin_neg, ?cos_neg, ?sin_0, ?cos_0, ?cos_PI4, ?sin_PI4 in *.
  assert (Q : rot (no_translation p) = rotation_matrix 0 0 (- (PI / 4)) /\ pos (no_translation p) = (0, 0, 0)) by auto.
  assert (M1 : err_moved true false p p (1, 0, 0) = (/ sqrt 2, / sqrt 2, 0)).
  { unfold err_moved, moved, globally. rewrite to_global_eq, apply_rotation_eq. destruct Q as (-> & ->).
    rewrite E00, E01, E02, E10, E11, E12, E20, E21, E22. unfold vadd, vabs.
    apply vec_eq; unfold vx, vy, vz; cbn [fst snd].
    - rewrite Rabs_pos_eq; unfold Rdiv; lra.
    - rewrite Rabs_left; unfold Rdiv; lra.
    - match goal with |- Rabs ?x = 0 => replace x with 0 by lra end. apply Rabs_R0. }
  assert (M2 : err_moved false false p p (/ sqrt 2, / sqrt 2, 0) = (0, 1, 0)).
  { unfold err_moved, moved, locally. rewrite to_local_eq, apply_rotation_eq. destruct Q as (-> & ->). unfold transpose.
    rewrite E00, E01, E02, E10, E11, E12, E20, E21, E22. unfold vsub, vabs.
    apply vec_eq; unfold vx, vy, vz; cbn [fst snd].
    - match goal with |- Rabs ?x = 0 => replace x with 0 by (unfold Rdiv; nra) end. apply Rabs_R0.
    - rewrite Rabs_pos_eq; unfold Rdiv; nra.
    - match goal with |- Rabs ?x = 0 => replace x with 0 by (unfold Rdiv; nra) end. apply Rabs_R0. }
  rewrite M1, M2. reflexivity.
Qed.

(** More than ten DUTs: the offset of the tracks of DUT 10 is transformed with DUT 1 as well, and the way back
    does not undo this. *)
Theorem C48_eleven_duts_refuted : exists tele duts n r g r',
  length duts = 11%nat /\ nname n = tracks_table 10 /\ off r = Some (0, 0, 0) /\
  (forall k v, hit r k = Some v -> vz v = 0) /\
  apply_alignment true false tele duts n r = Some g /\ apply_alignment false false tele duts n g = Some r' /\
  off g = Some (8, 0, 0) /\ off r' = Some (-3, -3, 0).
Proof.
  (* DUT 1 is shifted by 5 and turned by 90 degrees, DUT 10 is shifted by 3 *)
  set (p0 := Placement 0 0 0 0 0 0). set (p1 := Placement 5 0 0 0 0 (PI / 2)). set (p10 := Placement 3 0 0 0 0 0).
  set (duts := p0 :: p1 :: repeat p0 8 ++ p10 :: nil). set (n := Node (tracks_table 10) (fun _ => false) (fun _ => false) (fun _ => false) true false).
  set (r := Row (fun _ => None) (fun _ => None) (fun _ => None) (fun _ => None) (Some (0, 0, 0)) None).
  assert (K : forall k, (k < 11)%nat -> named n k = ((k =? 1) || (k =? 10))%nat).
  { intros k Hk. do 11 (destruct k as [|k]; [vm_compute; reflexivity|]). lia. }
  assert (Tr : is_tracks n = true) by (vm_compute; reflexivity).
  assert (St : forall tg k p r, hit r k = None -> (k < 11)%nat -> exists r', dut_step tg false p0 n k p r = Some r' /\
    (forall j, hit r' j = hit r j) /\
    off r' = if ((k =? 1) || (k =? 10))%nat then option_map (moved tg false p0 p) (off r) else off r).
  { intros tg k p q Hh Hk. destruct (dut_step_spec tg false p0 n k p q) as (q' & E & C & O & _ & U).
    { rewrite Hh. exact I. }
    exists q'. split; [exact E|]. split.
    - intros j. destruct (Nat.eq_dec j k) as [->|Nj]; [|apply U; auto]. destruct C as (C & _). rewrite C, Hh. reflexivity.
    - rewrite O, Tr, K by auto. cbn [has_off n andb]. rewrite andb_true_r. reflexivity. }
  assert (L : forall tg r, (forall k, hit r k = None) -> exists r', dut_loop tg false p0 n 0 duts r = Some r' /\
    (forall k, hit r' k = None) /\ off r' = option_map (moved tg false p0 p10) (option_map (moved tg false p0 p1) (off r))).
  { intros tg q Hq.
    assert (L2 : forall m s q, (2 <= s)%nat -> (s + m = 10)%nat -> (forall k, hit q k = None) ->
      exists q', dut_loop tg false p0 n s (repeat p0 m ++ p10 :: nil) q = Some q' /\ (forall k, hit q' k = None) /\ off q' = option_map (moved tg false p0 p10) (off q)).
    { induction m as [|m IH]; intros s u Hs Hm Hu; cbn [repeat app dut_loop].
      - destruct (St tg s p10 u (Hu s) ltac:(lia)) as (u' & E & H & O). rewrite E. exists u'. split; [reflexivity|]. split; [intros; rewrite H; auto|].
        rewrite O. replace s with 10%nat by lia. reflexivity.
      - destruct (St tg s p0 u (Hu s) ltac:(lia)) as (u' & E & H & O). rewrite E.
        destruct (IH (S s) u') as (u2 & E2 & H2 & O2); try lia. { intros; rewrite H; auto. }
        exists u2. split; [exact E2|]. split; [exact H2|]. rewrite O2, O. destruct s as [|[|s]]; try lia. cbn [Nat.eqb orb].
        destruct (Nat.eqb_spec s 8); [lia|reflexivity]. }
    unfold duts. cbn [dut_loop].
    destruct (St tg 0%nat p0 q (Hq 0%nat) ltac:(lia)) as (q1 & E1 & H1 & O1). rewrite E1.
    destruct (St tg 1%nat p1 q1) as (q2 & E2 & H2 & O2); [rewrite H1; auto|lia|]. rewrite E2.
    destruct (L2 8%nat 2%nat q2) as (q3 & E3 & H3 & O3); try lia. { intros; rewrite H2, H1; auto. }
    rewrite E3. exists q3. split; [reflexivity|]. split; [exact H3|]. rewrite O3, O2, O1. reflexivity. }
  destruct (L true r ltac:(reflexivity)) as (g & E1 & H1 & O1). destruct (L false g H1) as (r' & E2 & _ & O2).
  exists p0, duts, n, r, g, r'. split; [reflexivity|]. split; [reflexivity|]. split; [reflexivity|]. split; [intros k v; discriminate|].
  split; [exact E1|]. split; [exact E2|].
  assert (R1 : rot p1 = rotation_matrix 0 0 (PI / 2) /\ pos p1 = (5, 0, 0)) by auto.
  assert (R10 : rot p10 = rotation_matrix 0 0 0 /\ pos p10 = (3, 0, 0)) by auto.
  destruct (rot_entries 0 0 (PI / 2)) as (A00 & A01 & A02 & A10 & A11 & A12 & A20 & A21 & A22).
  destruct (rot_entries 0 0 0) as (B00 & B01 & B02 & B10 & B11 & B12 & B20 & B21 & B22).
  rewrite ?sin_0, ?cos_0, ?cos_PI2, ?sin_PI2 in *.
  assert (G1 : forall v, moved true false p0 p1 v = (5 - vy v, vx v, vz v)).
  { intros v. unfold moved, globally. rewrite to_global_eq, apply_rotation_eq. destruct R1 as (-> & ->). rewrite A00, A01, A02, A10, A11, A12, A20, A21, A22.
    apply vec_eq; unfold vadd, vx, vy, vz; cbn [fst snd]; lra. }
  assert (G10 : forall v, moved true false p0 p10 v = (3 + vx v, vy v, vz v)).
  { intros v. unfold moved, globally. rewrite to_global_eq, apply_rotation_eq. destruct R10 as (-> & ->). rewrite B00, B01, B02, B10, B11, B12, B20, B21, B22.
    apply vec_eq; unfold vadd, vx, vy, vz; cbn [fst snd]; lra. }
  assert (L1 : forall v, moved false false p0 p1 v = (vy v, 5 - vx v, vz v)).
  { intros v. unfold moved, locally. rewrite to_local_eq, apply_rotation_eq. destruct R1 as (-> & ->). unfold transpose. rewrite A00, A01, A02, A10, A11, A12, A20, A21, A22.
    apply vec_eq; unfold vsub, vx, vy, vz; cbn [fst snd]; lra. }
  assert (L10 : forall v, moved false false p0 p10 v = (vx v - 3, vy v, vz v)).
  { intros v. unfold moved, locally. rewrite to_local_eq, apply_rotation_eq. destruct R10 as (-> & ->). unfold transpose. rewrite B00, B01, B02, B10, B11, B12, B20, B21, B22.
    apply vec_eq; unfold vsub, vx, vy, vz; cbn [fst snd]; lra. }
  rewrite O2, O1. unfold r. cbn [off option_map]. rewrite L10, L1, G10, G1.
  split; apply some_vec; unfold vx, vy, vz; cbn [fst snd]; lra.
Qed.

Example C48_case : exists n r, one_named n 0 2 /\ is_tracks n = true /\ named n 1 = true /\ hit r 0%nat = Some (1, 2, 0) /\ hit r 1%nat = None /\
  (forall k v, (k < 2)%nat -> hit r k = Some v -> vz v = 0) /\ off r = Some (3, 4, 0).
Proof.
  exists (Node (tracks_table 1) (fun _ => true) (fun _ => true) (fun _ => false) true true),
    (Row (fun k => match k with 0%nat => Some (1, 2, 0) | _ => None end) (fun _ => None) (fun _ => None) (fun _ => None) (Some (3, 4, 0)) (Some (0, 0, 1))).
  destruct (C48_table_names (Node (tracks_table 1) (fun _ => true) (fun _ => true) (fun _ => false) true true) 1 ltac:(lia) eq_refl) as (T & K & N).
  split; [intros j k Hj Hk; apply N; lia|]. split; [exact T|]. split; [apply (K 1%nat); lia|]. repeat (split; [reflexivity|]).
  split; [|reflexivity]. intros [|k] v _ E; cbn in E; [injection E as <-; reflexivity|discriminate].
Qed.

(** *** C47 *)
(** The updated rotation is again a proper rotation, and the positions add up. *)
Theorem C47_proper : forall p state, let (M, x) := update_alignment (rot p) (pos p) state in
  proper_rotation M /\ x = (t_x p + t_x state, t_y p + t_y state, t_z p + t_z state).
Proof.
  intros p s. unfold update_alignment, combine_karimaki, create_karimaki_delta. cbn [fst snd].
  set (D := rotation_matrix (r_alpha s) (r_beta s) (r_gamma s)). unfold rot. set (M := rotation_matrix (r_alpha p) (r_beta p) (r_gamma p)).
  split; [|unfold pos; apply vec_eq; unfold vadd, vx, vy, vz; cbn [fst snd]; ring].
  pose proof (C27_proper_rotation (r_alpha s) (r_beta s) (r_gamma s)) as (D1 & D2 & D3). fold D in D1, D2, D3.
  pose proof (C27_proper_rotation (r_alpha p) (r_beta p) (r_gamma p)) as (M1 & M2 & M3). fold M in M1, M2, M3.
  assert (T : forall A B i j, transpose (dot 3 A B) i j = dot 3 (transpose B) (transpose A) i j).
  { intros A B i j. unfold transpose, dot. cbn [sum_n]. ring. }
  assert (Ext : forall A A' B B' i j, (i < 3)%nat -> (j < 3)%nat -> same3 A A' -> same3 B B' -> dot 3 A B i j = dot 3 A' B' i j).
  { intros A A' B B' i j Hi Hj HA HB. unfold dot. cbn [sum_n]. rewrite !HA, !HB by lia. reflexivity. }
  assert (TT : forall A i j, transpose (transpose A) i j = A i j) by reflexivity.
  assert (Id : forall A B C : mat, is_identity 3 (dot 3 A B) -> forall i j, (i < 3)%nat -> (j < 3)%nat -> dot 3 A (dot 3 B C) i j = C i j).
  { intros A B C H i j Hi Hj. rewrite <- dot_assoc3. rewrite (Ext _ eye _ C) with (1 := Hi) (2 := Hj); [apply dot3_eye_l; auto| |].
    - intros a b Ha Hb. rewrite (H a b Ha Hb). reflexivity.
    - intros a b _ _. reflexivity. }
  split; [|split].
  - intros i j Hi Hj.
    transitivity (dot 3 (transpose M) (dot 3 D (dot 3 (transpose D) M)) i j).
    + rewrite <- (dot_assoc3 (transpose M) D). apply Ext; auto; intros a b Ha Hb; [rewrite T; reflexivity|reflexivity].
    + transitivity (dot 3 (transpose M) M i j); [|apply M1; auto]. apply Ext; auto; intros a b Ha Hb; [reflexivity|apply Id; auto].
  - intros i j Hi Hj.
    transitivity (dot 3 (transpose D) (dot 3 M (dot 3 (transpose M) D)) i j).
    + rewrite <- (dot_assoc3 (transpose D) M). apply Ext; auto; intros a b Ha Hb; [reflexivity|rewrite T; reflexivity].
    + transitivity (dot 3 (transpose D) D i j); [|apply D1; auto]. apply Ext; auto; intros a b Ha Hb; [reflexivity|apply Id; auto].
  - transitivity (det3 D * det3 M); [|rewrite D3, M3; ring]. unfold det3, dot, transpose. cbn [sum_n]. ring.
Qed.
(** A vanishing correction changes nothing. *)
Theorem C47_no_correction : forall p, let (M, x) := update_alignment (rot p) (pos p) (Placement 0 0 0 0 0 0) in
  same3 M (rot p) /\ x = pos p.
Proof.
  intros p. unfold update_alignment, combine_karimaki, create_karimaki_delta. cbn [fst snd t_x t_y t_z r_alpha r_beta r_gamma]. split.
  - destruct (rot_entries 0 0 0) as (B00 & B01 & B02 & B10 & B11 & B12 & B20 & B21 & B22). rewrite ?sin_0, ?cos_0 in *.
    intros i j Hi Hj. unfold dot, transpose. cbn [sum_n].
    destruct (lt3 i Hi) as [-> | [-> | ->]]; rewrite ?B00, ?B01, ?B02, ?B10, ?B11, ?B12, ?B20, ?B21, ?B22; ring.
  - apply vec_eq; unfold vadd, pos, vx, vy, vz; cbn [fst snd]; ring.
Qed.
(** A correction moves the sensor rigidly: its centre by (dx, dy, dz), and all directions on it by the inverse rotation of the angles. *)
Theorem C47_rigid : forall p state v, let (M, x) := update_alignment (rot p) (pos p) state in
  apply_rotation_matrix (apply_rotation_matrix v M) (rotation_matrix (r_alpha state) (r_beta state) (r_gamma state)) = apply_rotation_matrix v (rot p).
Proof.
  intros p s v. unfold update_alignment, combine_karimaki, create_karimaki_delta. cbn [fst snd].
  set (D := rotation_matrix (r_alpha s) (r_beta s) (r_gamma s)). set (M := rot p).
  assert (E : apply_rotation_matrix v (dot 3 (transpose D) M) = apply_rotation_matrix (apply_rotation_matrix v M) (transpose D)).
  { rewrite !apply_rotation_eq. unfold dot, transpose. cbn [sum_n]. apply vec_eq; unfold vx, vy, vz; cbn [fst snd]; ring. }
  rewrite E. apply rotate_forth. split; intros; [apply rotation_orthogonal_l|apply rotation_orthogonal_r]; auto.
Qed.
(** A correction about one axis changes the angle of a sensor rotated about this axis only by minus the correction. *)
Theorem C47_single_axis : forall a d,
  same3 (fst (update_alignment (rotation_matrix a 0 0) (0, 0, 0) (Placement 0 0 0 d 0 0))) (rotation_matrix (a - d) 0 0) /\
  same3 (fst (update_alignment (rotation_matrix 0 a 0) (0, 0, 0) (Placement 0 0 0 0 d 0))) (rotation_matrix 0 (a - d) 0) /\
  same3 (fst (update_alignment (rotation_matrix 0 0 a) (0, 0, 0) (Placement 0 0 0 0 0 d))) (rotation_matrix 0 0 (a - d)).
Proof.
  intros a d. unfold update_alignment, combine_karimaki, create_karimaki_delta. cbn [fst snd t_x t_y t_z r_alpha r_beta r_gamma].
  repeat split; intros i j Hi Hj; unfold dot, transpose; cbn [sum_n].
  - destruct (rot_entries a 0 0) as (A00 & A01 & A02 & A10 & A11 & A12 & A20 & A21 & A22).
    destruct (rot_entries d 0 0) as (B00 & B01 & B02 & B10 & B11 & B12 & B20 & B21 & B22).
    destruct (rot_entries (a - d) 0 0) as (C00 & C01 & C02 & C10 & C11 & C12 & C20 & C21 & C22).
    destruct (lt3 i Hi) as [-> | [-> | ->]]; destruct (lt3 j Hj) as [-> | [-> | ->]];
    rewrite ?A00, ?A01, ?A02, ?A10, ?A11, ?A12, ?A20, ?A21, ?A22, ?B00, ?B01, ?B02, ?B10, ?B11, ?B12, ?B20, ?B21, ?B22,
      ?C00, ?C01, ?C02, ?C10, ?C11, ?C12, ?C20, ?C21, ?C22, ?sin_0, ?cos_0, ?sin_minus, ?cos_minus; ring.
  - destruct (rot_entries 0 a 0) as (A00 & A01 & A02 & A10 & A11 & A12 & A20 & A21 & A22).
    destruct (rot_entries 0 d 0) as (B00 & B01 & B02 & B10 & B11 & B12 & B20 & B21 & B22).
    destruct (rot_entries 0 (a - d) 0) as (C00 & C01 & C02 & C10 & C11 & C12 & C20 & C21 & C22).
    destruct (lt3 i Hi) as [-> | [-> | ->]]; destruct (lt3 j Hj) as [-> | [-> | ->]];
    rewrite ?A00, ?A01, ?A02, ?A10, ?A11, ?A12, ?A20, ?A21, ?A22, ?B00, ?B01, ?B02, ?B10, ?B11, ?B12, ?B20, ?B21, ?B22,
      ?C00, ?C01, ?C02, ?C10, ?C11, ?C12, ?C20, ?C21, ?C22, ?sin_0, ?cos_0, ?sin_minus, ?cos_minus; ring.
  - destruct (rot_entries 0 0 a) as (A00 & A01 & A02 & A10 & A11 & A12 & A20 & A21 & A22).
    destruct (rot_entries 0 0 d) as (B00 & B01 & B02 & B10 & B11 & B12 & B20 & B21 & B22).
    destruct (rot_entries 0 0 (a - d)) as (C00 & C01 & C02 & C10 & C11 & C12 & C20 & C21 & C22).
    destruct (lt3 i Hi) as [-> | [-> | ->]]; destruct (lt3 j Hj) as [-> | [-> | ->]];
    rewrite ?A00, ?A01, ?A02, ?A10, ?A11, ?A12, ?A20, ?A21, ?A22, ?B00, ?B01, ?B02, ?B10, ?B11, ?B12, ?B20, ?B21, ?B22,
      ?C00, ?C01, ?C02, ?C10, ?C11, ?C12, ?C20, ?C21, ?C22, ?sin_0, ?cos_0, ?sin_minus, ?cos_minus; ring.
Qed.

Print Assumptions C48_applied.
Print Assumptions C48_round_trip.
Print Assumptions C48_off_plane_error.
Print Assumptions C48_node_names.
Print Assumptions C48_table_names.
Print Assumptions C48_errors.
Print Assumptions C48_errors_refuted.
Print Assumptions C48_eleven_duts_refuted.
Print Assumptions C47_proper.
Print Assumptions C47_no_correction.
Print Assumptions C47_rigid.
Print Assumptions C47_single_axis.
