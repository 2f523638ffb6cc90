(** Property C120: the correlation of residuals. *)
From Coq Require Import List Arith ZArith Reals Lra Lia Bool Permutation Sorted.
From Verif Require Import ArrayUtilsModel BinStatModel BinStatProps GeometryModel GeometryProofs RunningMeanModel TrackAngleModel TrackAngleProps EffDistProps ResidualCorrModel.
Import ListNotations.
Local Open Scope R_scope.

(** No DUT can be processed: an integer has no pixel size, an object cannot be formatted as integer.  The function returns only if no DUT is selected. *)
Theorem C120_never_processed_refuted : forall process select, (exists r, correlate_duts process select = inr r) <-> select = [].
Proof.
  intros process select. split; [|intros ->; exists tt; reflexivity]. intros (r & H). destruct select as [|[d n] select]; [reflexivity|]. cbn in H. unfold start_dut in H. destruct d; discriminate.
Qed.

(** For a single DUT the loops over the bins change the index of the DUT: with more than one bin in x the first reference track ends with an IndexError, with one bin in x and more
    than one in y the second one. *)
Theorem C120_index_refuted : forall nx ny n, (1 <= nx)%nat -> (1 <= ny)%nat -> (1 <= n)%nat ->
  (bins_used [(nx, ny)] n 0 <> None <-> nx = 1%nat /\ (n = 1%nat \/ ny = 1%nat)).
Proof.
  intros nx ny n Hx Hy Hn. assert (G : forall n i, (1 <= i)%nat -> (1 <= n)%nat -> bins_used [(nx, ny)] n i = None) by (intros [|m] [|[|i]] Hi Hm; try lia; reflexivity).
  destruct n as [|n]; [lia|]. cbn [bins_used nth_error nth fst]. destruct (Nat.eqb_spec nx 0); [lia|].
  destruct (nx - 1)%nat as [|k] eqn:K.
  - assert (nx = 1)%nat by lia. subst nx. cbn [nth_error]. destruct (ny - 1)%nat as [|j] eqn:J.
    + assert (ny = 1)%nat by lia. subst ny. split; [auto|]. intros _. clear. assert (A : bins_used [(1, 1)%nat] n 0 <> None).
      { induction n as [|n IH]; [discriminate|]. change (bins_used [(1, 1)%nat] (S n) 0) with (match bins_used [(1, 1)%nat] n 0 with None => None | Some l => Some ((1, 1)%nat :: l) end). destruct (bins_used [(1, 1)%nat] n 0); congruence. }
      change (if (1 =? 0)%nat then 0%nat else 0%nat) with 0%nat. destruct (bins_used [(1, 1)%nat] n 0); congruence.
    + destruct (Nat.eqb_spec ny 0); [lia|]. destruct n as [|n]; [cbn; split; [intros _; auto|discriminate]|]. rewrite (G (S n) (S j)) by lia. split; [congruence|]. intros [_ [X|X]]; lia.
  - replace (nth_error [(nx, ny)] (S k)) with (@None (nat * nat)) by (destruct k; reflexivity). split; [congruence|]. intros [X _]. lia.
Qed.

Lemma searchsorted_sorted : forall a v k x, StronglySorted Z.le a -> nth_error a k = Some x -> ((k <? searchsorted a v)%nat = true <-> (x < v)%Z).
Proof.
  induction a as [|y a IH]; intros v [|k] x Hs H; cbn in H; try discriminate; inversion Hs as [|? ? S1 S2]; subst; cbn [searchsorted].
  - injection H as ->. destruct (Z.ltb_spec x v); cbn; split; try lia; try discriminate; auto.
  - destruct (Z.ltb_spec y v) as [L|L].
    + change (S k <? S (searchsorted a v))%nat with (k <? searchsorted a v)%nat. apply IH; assumption.
    + rewrite Forall_forall in S2. specialize (S2 x (nth_error_In _ _ H)). cbn. split; [discriminate|lia].
Qed.

(** In a chunk sorted by events the tracks correlated with a reference track are those of later events that are not further away than the limit in x and closer than 5 in y. *)
Theorem C120_valid : forall stop ref chunk t, StronglySorted Z.le (map c_event chunk) ->
  (In t (valid_x stop ref chunk) <-> In t chunk /\ (c_event ref < c_event t)%Z /\ Rabs (c_x ref - c_x t) <= stop /\ Rabs (c_y ref - c_y t) < 5).
Proof.
  intros stop ref chunk t Hs. unfold valid_x. set (next := searchsorted _ _). rewrite in_map_iff.
  assert (G : forall (l : list ctrack) s p, In p (combine (seq s (length l)) l) <-> exists k, p = ((s + k)%nat, snd p) /\ nth_error l k = Some (snd p)).
  { clear. induction l as [|a l IH]; intros s p; cbn [length seq combine].
    - split; [intros []|intros ([|k] & _ & H); discriminate].
    - cbn [In]. rewrite IH. split.
      + intros [<-|(k & E & H)]; [exists O; rewrite Nat.add_0_r; auto|]. exists (S k). rewrite E at 1. split; [f_equal; lia|exact H].
      + intros ([|k] & E & H); cbn in H; [left; injection H as H; rewrite E, <- H, Nat.add_0_r; reflexivity|]. right. exists k. rewrite E at 1. split; [f_equal; lia|exact H]. }
  assert (K : forall k u, nth_error chunk k = Some u -> ((k <? next)%nat = true <-> (c_event u < c_event ref + 1)%Z)).
  { intros k u H. apply searchsorted_sorted; [exact Hs|]. apply map_nth_error. exact H. }
  split.
  - intros ([k u] & E & H). cbn in E. subst u. apply filter_In in H. destruct H as [H1 H2]. apply G in H1. destruct H1 as (k' & E & H1). cbn in *. injection E as ->.
    apply andb_prop in H2. destruct H2 as [H2 H3]. apply andb_prop in H2. destruct H2 as [H2 H4]. apply Rleb_true in H2. apply Rltb_true in H4. apply negb_true_iff, not_true_iff_false in H3. rewrite (K _ _ H1) in H3.
    split; [apply (nth_error_In _ _ H1)|]. split; [lia|auto].
  - intros (H1 & H2 & H3 & H4). apply In_nth_error in H1. destruct H1 as [k Hk]. exists (k, t). split; [reflexivity|]. apply filter_In. split; [apply G; exists k; auto|]. cbn.
    rewrite (proj2 (Rleb_true _ _) H3), (proj2 (Rltb_true _ _) H4). cbn. apply negb_true_iff, not_true_iff_false. rewrite (K _ _ Hk). lia.
Qed.

(** Each residual of the correlated tracks enters one bin; a track exactly at the limit makes the function fail. *)
Theorem C120_binned : forall nbins stop ref chunk groups, (1 <= nbins)%nat -> groups_x nbins stop ref chunk = Some groups -> Permutation (concat groups) (map c_dx (valid_x stop ref chunk)).
Proof. intros nbins stop ref chunk groups Hn H. unfold groups_x in H. apply C110_all in H; auto. Qed.
Theorem C120_limit_refuted : forall nbins stop ref chunk t, (1 <= nbins)%nat -> 0 < stop -> StronglySorted Z.le (map c_event chunk) ->
  In t chunk -> (c_event ref < c_event t)%Z -> Rabs (c_x ref - c_x t) = stop -> Rabs (c_y ref - c_y t) < 5 -> groups_x nbins stop ref chunk = None.
Proof.
  intros nbins stop ref chunk t Hn Hp Hs H1 H2 H3 H4. unfold groups_x. apply C110_end_refuted with (y := stop); [exact Hn|exact Hp| |lra].
  apply in_map_iff. exists t. split; [exact H3|]. apply C120_valid; [exact Hs|]. repeat split; auto. lra.
Qed.

Section Table.
Variable V : Type.
Lemma read_app bin (a b : list (V * list (option V))) : read_chunk V bin (a ++ b) = read_chunk V bin a ++ read_chunk V bin b.
Proof using. unfold read_chunk. apply flat_map_app. Qed.
Lemma read_chunks_all bin n : (1 <= n)%nat -> forall fuel rows, (length rows <= fuel * n)%nat -> read_chunks V bin n fuel rows = read_chunk V bin rows.
Proof using.
  intros Hn. induction fuel as [|fuel IH]; intros rows L.
  - destruct rows; [reflexivity|cbn in L; lia].
  - cbn [read_chunks]. rewrite IH by (rewrite skipn_length; lia). rewrite <- read_app, firstn_skipn. reflexivity.
Qed.
Lemma read_padded bin r (groups : list (list V)) g : nth_error groups bin = Some g -> read_chunk V bin (map (fun row => (r, row)) (padded V groups)) = map (fun v => (r, v)) g.
Proof using.
  intros H. unfold padded, read_chunk. rewrite map_map. set (m := list_max (map (@length V) groups)).
  assert (M : (length g <= m)%nat). { unfold m. assert (F := proj1 (list_max_le (map (@length V) groups) _) (le_n _)). rewrite Forall_forall in F. apply F, in_map, (nth_error_In _ _ H). }
  assert (E : forall s l, flat_map (fun p => match nth bin (snd p) None with Some v => [(fst p, v)] | None => [] end) (map (fun k => (r, map (fun g => nth_error g k) groups)) (seq s l)) =
     map (fun v => (r, v)) (firstn l (skipn s g))).
  { intros s l. revert s. induction l as [|l IH]; intros s; [reflexivity|]. cbn [seq map flat_map fst snd]. rewrite IH.
    assert (N : nth bin (map (fun g => nth_error g s) groups) None = nth_error g s) by (apply nth_error_nth, (map_nth_error (fun g => nth_error g s) _ _ H)). rewrite N.
    destruct (nth_error g s) as [v|] eqn:Ev.
    - assert (D : skipn s g = v :: skipn (S s) g). { clear -Ev. revert s Ev. induction g as [|a g IH]; intros [|s] Ev; cbn in *; try discriminate; [congruence|auto]. } rewrite D. reflexivity.
    - apply nth_error_None in Ev. rewrite !skipn_all2 by lia. rewrite firstn_nil. reflexivity. }
  rewrite E. cbn [skipn]. rewrite firstn_all2 by exact M. reflexivity.
Qed.

(** What is plotted for a bin are the pairs of the residual of a reference track and a residual of the bin, in the order of the reference tracks, for every chunk size. *)
Theorem C120_pairs : forall (refs : list (V * list (list V))) bin chunk_size, (1 <= chunk_size)%nat -> (forall p, In p refs -> (bin < length (snd p))%nat) ->
  read_bin V bin chunk_size (written V refs) = flat_map (fun p => map (fun v => (fst p, v)) (nth bin (snd p) [])) refs.
Proof using V.
  intros refs bin n Hn Hb. unfold read_bin. rewrite read_chunks_all; [|exact Hn|].
  - unfold written. induction refs as [|p refs IH]; [reflexivity|]. cbn [flat_map]. rewrite read_app, IH by (intros q Hq; apply Hb; right; exact Hq). f_equal. apply read_padded, nth_error_nth', Hb. left. reflexivity.
  - pose proof (Nat.div_mod (length (written V refs) + n - 1) n ltac:(lia)) as D. pose proof (Nat.mod_upper_bound (length (written V refs) + n - 1) n ltac:(lia)). lia.
Qed.
End Table.

Lemma cs_pairs (f g : R * R -> R) : forall l, (sum (map (fun p => f p * g p) l)) ^ 2 <= sum (map (fun p => f p ^ 2) l) * sum (map (fun p => g p ^ 2) l) /\ 0 <= sum (map (fun p => f p ^ 2) l) /\ 0 <= sum (map (fun p => g p ^ 2) l).
Proof.
  induction l as [|p l (IH & P & Q)]; [cbn; lra|].
  change (sum (map (fun p => f p * g p) (p :: l))) with (f p * g p + sum (map (fun p => f p * g p) l)). change (sum (map (fun p => f p ^ 2) (p :: l))) with (f p ^ 2 + sum (map (fun p => f p ^ 2) l)).
  change (sum (map (fun p => g p ^ 2) (p :: l))) with (g p ^ 2 + sum (map (fun p => g p ^ 2) l)).
  set (c := sum (map (fun p => f p * g p) l)) in *. set (a := sum (map (fun p => f p ^ 2) l)) in *. set (b := sum (map (fun p => g p ^ 2) l)) in *. set (u := f p). set (v := g p).
  assert (P1 := pow2_ge_0 u). assert (P2 := pow2_ge_0 v). split; [|lra].
  assert (T : 2 * (u * v) * c <= u ^ 2 * b + v ^ 2 * a).
  { destruct (Rle_lt_dec (2 * (u * v) * c) 0) as [H|H]; [nra|]. apply Rsqr_incr_0_var; [|nra]. unfold Rsqr.
    assert (X : 4 * (u ^ 2 * v ^ 2) * c ^ 2 <= 4 * (u ^ 2 * v ^ 2) * (a * b)) by (apply Rmult_le_compat_l; [nra|exact IH]).
    assert (Y : 0 <= (u ^ 2 * b - v ^ 2 * a) ^ 2) by apply pow2_ge_0. nra. }
  nra.
Qed.

(** The correlation lies between -1 and 1. *)
Theorem C120_bounded : forall pairs r, corrcoef pairs = Some r -> -1 <= r <= 1.
Proof.
  intros pairs r H. unfold corrcoef in H. set (mx := mean (map fst pairs)) in *. set (my := mean (map snd pairs)) in *. rewrite !map_map in H.
  destruct (cs_pairs (fun p => fst p - mx) (fun p => snd p - my) pairs) as (CS & P & Q). set (c := sum (map (fun p => (fst p - mx) * (snd p - my)) pairs)) in *.
  set (vx := sum (map (fun p => (fst p - mx) ^ 2) pairs)) in *. set (vy := sum (map (fun p => (snd p - my) ^ 2) pairs)) in *.
  destruct (Reqb vx 0 || Reqb vy 0) eqn:E; [discriminate|]. apply orb_false_elim in E. destruct E as [E1 E2]. apply Reqb_false in E1, E2. injection H as <-.
  assert (Pp : 0 < vx * vy) by (apply Rmult_lt_0_compat; lra). assert (Sp := sqrt_lt_R0 _ Pp). assert (S2 : sqrt (vx * vy) * sqrt (vx * vy) = vx * vy) by (apply sqrt_sqrt; lra).
  assert (B : -sqrt (vx * vy) <= c <= sqrt (vx * vy)). { split; [|apply Rsqr_incr_0_var; [unfold Rsqr; nra|lra]]. apply Ropp_le_cancel. rewrite Ropp_involutive. apply Rsqr_incr_0_var; [unfold Rsqr; nra|lra]. }
  split; [apply Rmult_le_reg_r with (sqrt (vx * vy)); [exact Sp|]|apply Rmult_le_reg_r with (sqrt (vx * vy)); [exact Sp|]]; unfold Rdiv; rewrite Rmult_assoc, Rinv_l by lra; lra.
Qed.
Lemma sum_scale k (f : R * R -> R) l : sum (map (fun p => k * f p) l) = k * sum (map f l).
Proof. induction l as [|p l IH]; [cbn; ring|]. change (k * f p + sum (map (fun p => k * f p) l) = k * (f p + sum (map f l))). rewrite IH. ring. Qed.
(** Residuals that depend linearly on the residuals of the reference tracks have correlation 1 or -1. *)
Theorem C120_linear : forall pairs a b p q, a <> 0 -> (forall p, In p pairs -> snd p = a * fst p + b) -> In p pairs -> In q pairs -> fst p <> fst q -> corrcoef pairs = Some (if Rlt_dec 0 a then 1 else -1).
Proof.
  intros pairs a b p q Ha HL Hp Hq Hpq. unfold corrcoef.
  assert (N : 0 < INR (length pairs)) by (apply lt_0_INR; destruct pairs; [destruct Hp|cbn; lia]).
  assert (Y : map snd pairs = map (fun p => a * fst p + b) pairs) by (apply map_ext_in; exact HL).
  assert (M : mean (map snd pairs) = a * mean (map fst pairs) + b).
  { unfold mean. rewrite !map_length. assert (S1 : sum (map snd pairs) = a * sum (map fst pairs) + INR (length pairs) * b).
    { rewrite Y. clear. induction pairs as [|p l IH]; [cbn; ring|]. change (sum (map (fun p => a * fst p + b) (p :: l))) with (a * fst p + b + sum (map (fun p => a * fst p + b) l)).
      change (sum (map fst (p :: l))) with (fst p + sum (map fst l)). rewrite IH. cbn [length]. rewrite S_INR. ring. }
    rewrite S1. field. lra. }
  set (mx := mean (map fst pairs)) in *. set (my := mean (map snd pairs)) in *. rewrite !map_map. set (vx := sum (map (fun p => (fst p - mx) ^ 2) pairs)).
  assert (V1 : sum (map (fun p => (snd p - my) ^ 2) pairs) = a ^ 2 * vx).
  { unfold vx. rewrite <- sum_scale. f_equal. apply map_ext_in. intros r Hr. rewrite (HL r Hr), M. ring. }
  assert (V2 : sum (map (fun p => (fst p - mx) * (snd p - my)) pairs) = a * vx).
  { unfold vx. rewrite <- sum_scale. f_equal. apply map_ext_in. intros r Hr. rewrite (HL r Hr), M. ring. }
  rewrite V1, V2. assert (Vp : 0 < vx).
  { assert (G : forall (l : list (R * R)) r, In r l -> (fst r - mx) ^ 2 <= sum (map (fun p => (fst p - mx) ^ 2) l)).
    { clear. assert (P : forall l, 0 <= sum (map (fun p : R * R => (fst p - mx) ^ 2) l)) by (induction l as [|p l IH]; [cbn; lra|]; change (0 <= (fst p - mx) ^ 2 + sum (map (fun p => (fst p - mx) ^ 2) l)); pose proof (pow2_ge_0 (fst p - mx)); lra).
      induction l as [|s l IH]; intros r Hr; [destruct Hr|]; destruct Hr as [<-|Hr]; change (sum (map (fun p => (fst p - mx) ^ 2) (s :: l))) with ((fst s - mx) ^ 2 + sum (map (fun p => (fst p - mx) ^ 2) l)).
      - specialize (P l). lra.
      - specialize (IH r Hr). pose proof (pow2_ge_0 (fst s - mx)). lra. }
    assert (G1 := G pairs p Hp). assert (G2 := G pairs q Hq). fold vx in G1, G2. destruct (Req_dec (fst p) mx) as [E|E].
    - assert (0 < (fst q - mx) ^ 2) by (assert (fst q - mx <> 0) by lra; nra). lra.
    - assert (0 < (fst p - mx) ^ 2) by (assert (fst p - mx <> 0) by lra; nra). lra. }
  assert (A2 : 0 < a ^ 2) by nra. assert (V3 : 0 < a ^ 2 * vx) by (apply Rmult_lt_0_compat; assumption).
  destruct (Reqb vx 0 || Reqb (a ^ 2 * vx) 0) eqn:E; [apply orb_prop in E; destruct E as [E|E]; apply Reqb_true in E; lra|]. f_equal.
  replace (vx * (a ^ 2 * vx)) with (Rsqr (a * vx)) by (unfold Rsqr; ring). rewrite sqrt_Rsqr_abs. destruct (Rlt_dec 0 a).
  - rewrite Rabs_right by (apply Rle_ge, Rmult_le_pos; lra). field. split; lra.
  - assert (a < 0) by lra. rewrite Rabs_left by nra. field. split; lra.
Qed.

(** In the fit of the correlations a bin with more pairs of tracks has a smaller weight than a bin with fewer, although its correlation is known better. *)
Theorem C120_weight_refuted : forall n m, (1 <= n)%nat -> (n < m)%nat -> fit_weight m < fit_weight n.
Proof.
  intros n m Hn Hm. unfold fit_weight, sigma. apply lt_INR in Hm as L. apply le_INR in Hn as L1. cbn in L1.
  assert (P : forall k, 1 <= INR k -> sqrt (INR k) ^ 2 = INR k) by (intros k Hk; rewrite <- Rsqr_pow2; apply Rsqr_sqrt; lra). rewrite !P by lra. unfold Rdiv. rewrite !Rmult_1_l. apply Rinv_lt_contravar; [apply Rmult_lt_0_compat; lra|exact L].
Qed.

Example C120_case :
  let refs := [(7, [[1; 2]; []]); (8, [[3]; [4; 5]])]%Z in written Z refs = [(7, [Some 1; None]); (7, [Some 2; None]); (8, [Some 3; Some 4]); (8, [None; Some 5])]%Z /\
  read_bin Z 1 3 (written Z refs) = [(8, 4); (8, 5)]%Z /\ bins_used [(1, 3)]%nat 1 0 = Some [(1, 3)]%nat /\ bins_used [(2, 2); (5, 7)]%nat 1 0 = Some [(2, 7)]%nat.
Proof. repeat split; reflexivity. Qed.
Example C120_case_valid : let t := CTrack 5 10 2 1 1 in let ref := CTrack 4 7 3 1 1 in In t (valid_x 3 ref [CTrack 4 7 3 1 1; t]) /\ groups_x 2 3 ref [CTrack 4 7 3 1 1; t] = None.
Proof.
  cbn zeta. set (t := CTrack 5 10 2 1 1). set (ref := CTrack 4 7 3 1 1). assert (Hs : StronglySorted Z.le (map c_event [CTrack 4 7 3 1 1; t])) by (repeat constructor; cbn; lia).
  assert (A1 : Rabs (c_x ref - c_x t) = 3) by (cbn; rewrite Rabs_left; lra). assert (A2 : Rabs (c_y ref - c_y t) < 5) by (cbn; rewrite Rabs_right; lra). split.
  - apply C120_valid; [exact Hs|]. split; [right; left; reflexivity|]. split; [cbn; lia|]. split; [lra|exact A2].
  - apply C120_limit_refuted with (t := t); auto; [lra|right; left; reflexivity|cbn; lia].
Qed.
Example C120_case_linear : corrcoef [(1, 5); (2, 3); (4, -1)] = Some (-1).
Proof.
  rewrite (C120_linear [(1, 5); (2, 3); (4, -1)] (-2) 7 (1, 5) (2, 3)); [destruct (Rlt_dec 0 (-2)); [lra|reflexivity]|lra| |left; reflexivity|right; left; reflexivity|cbn; lra].
  intros p [<-|[<-|[<-|[]]]]; cbn; ring.
Qed.

Print Assumptions C120_never_processed_refuted.
Print Assumptions C120_index_refuted.
Print Assumptions C120_valid.
Print Assumptions C120_binned.
Print Assumptions C120_limit_refuted.
Print Assumptions C120_pairs.
Print Assumptions C120_bounded.
Print Assumptions C120_linear.
Print Assumptions C120_weight_refuted.
