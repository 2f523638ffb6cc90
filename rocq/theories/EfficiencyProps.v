(* C65: efficiency counts over chunks; C66: distance cut; C67: efficiency regions. *)
From Coq Require Import List Arith ZArith Lia Reals Lra Bool.
From Verif Require Import GeometryModel GeometryProofs CorrelateModel CorrelateBinsProps PrealignModel HoughProps RunningMeanModel RunningMeanProps EfficiencyModel.
Import ListNotations.
Local Open Scope R_scope.

(** * Specification: number of elements with a property. *)
Fixpoint number {A} (f : A -> bool) (l : list A) : nat := match l with [] => 0%nat | a :: l => ((if f a then 1 else 0) + number f l)%nat end.
Lemma number_filter {A} (f : A -> bool) l : length (filter f l) = number f l.
Proof. induction l as [|a l IH]; [reflexivity|]. cbn. destruct (f a); cbn; lia. Qed.
Lemma number_of_app {A} (f : A -> bool) l m : number f (l ++ m) = (number f l + number f m)%nat.
Proof. induction l as [|a l IH]; [reflexivity|]. cbn. lia. Qed.
Lemma number_ext {A} (f g : A -> bool) l : (forall a, In a l -> f a = g a) -> number f l = number g l.
Proof. induction l as [|a l IH]; intros H; [reflexivity|]. cbn. rewrite (H a) by now left. rewrite IH; [reflexivity|]. intros; apply H; now right. Qed.
Lemma number_le {A} (f g : A -> bool) l : (forall a, f a = true -> g a = true) -> (number f l <= number g l)%nat.
Proof. intros H. induction l as [|a l IH]; [reflexivity|]. cbn. specialize (H a). destruct (f a); [rewrite H by reflexivity; lia|]. destruct (g a); lia. Qed.
Lemma number_filter_and {A} (f g : A -> bool) l : number f (filter g l) = number (fun a => g a && f a) l.
Proof. induction l as [|a l IH]; [reflexivity|]. cbn. destruct (g a); cbn; lia. Qed.
Lemma number_false {A} (l : list A) : number (fun _ => false) l = 0%nat.
Proof. induction l; auto. Qed.
Lemma number_pos {A} (f : A -> bool) l : existsb f l = true <-> (0 < number f l)%nat.
Proof. induction l as [|a l IH]; cbn; [split; [discriminate|lia]|]. rewrite orb_true_iff, IH. destruct (f a); [split; [lia|auto]|split; [intros [?|?]; [discriminate|lia]|right; lia]]. Qed.

Section Dut.
  Variables (bins : list (R * R -> bool)) (valid : track -> bool) (density : nat).

  Definition tracks_spec (ts : list track) : list nat := map (fun b => number (fun t => b (intersection t)) ts) bins.
  Definition with_hit_spec (ts : list track) : list nat := map (fun b => number (fun t => valid t && b (intersection t)) ts) bins.
  Lemma hist_tracks ts : hist_2d bins ts = tracks_spec ts.
  Proof using. apply map_ext. intros b. apply number_filter. Qed.
  Lemma hist_with_hit ts : hist_2d bins (filter valid ts) = with_hit_spec ts.
  Proof using. apply map_ext. intros b. rewrite number_filter. apply number_filter_and. Qed.

  Lemma add_hist_spec (f g : (R * R -> bool) -> nat) : add_hist (map f bins) (map g bins) = Some (map (fun b => (f b + g b)%nat) bins).
  Proof using.
    unfold add_hist. rewrite !map_length, Nat.eqb_refl. f_equal. clear -bins. induction bins as [|b bs IH]; [reflexivity|]. cbn. now rewrite IH.
  Qed.
  Lemma add_tracks ts us : add_hist (tracks_spec ts) (tracks_spec us) = Some (tracks_spec (ts ++ us)).
  Proof using. unfold tracks_spec. rewrite add_hist_spec. f_equal. apply map_ext. intros b. now rewrite number_of_app. Qed.
  Lemma add_with_hit ts us : add_hist (with_hit_spec ts) (with_hit_spec us) = Some (with_hit_spec (ts ++ us)).
  Proof using. unfold with_hit_spec. rewrite add_hist_spec. f_equal. apply map_ext. intros b. now rewrite number_of_app. Qed.
  Lemma with_hit_none ts us : existsb valid us = false -> with_hit_spec (ts ++ us) = with_hit_spec ts.
  Proof using.
    intros H. apply map_ext. intros b. rewrite number_of_app. assert (number (fun t => valid t && b (intersection t)) us = 0%nat); [|lia].
    destruct (number _ us) eqn:E; [reflexivity|]. assert (existsb (fun t => valid t && b (intersection t)) us = true) as X by (apply number_pos; lia).
    apply existsb_exists in X. destruct X as (t & It & V). apply andb_true_iff in V. assert (existsb valid us = true) by (apply existsb_exists; exists t; tauto). congruence.
  Qed.

  (** Invariant of the loop: after the first chunk with valid hit the variables are the counts of all tracks so far. *)
  Definition counted (v : vars) (ts : list track) : Prop := count_tracks v = Some (tracks_spec ts) /\ count_with_hit v = Some (with_hit_spec ts).

  Lemma fill_chunk_first v ts : existsb valid ts = true -> exists v', fill_chunk bins valid true v ts = Some v' /\ counted v' ts.
  Proof using. intros H. eexists. split; [reflexivity|]. unfold counted. cbn. rewrite H, hist_with_hit, hist_tracks. split; reflexivity. Qed.
  Lemma fill_chunk_next v ts us : counted v ts -> exists v', fill_chunk bins valid false v us = Some v' /\ counted v' (ts ++ us).
  Proof using.
    intros [H1 H2]. unfold fill_chunk. rewrite H1, H2, hist_with_hit, hist_tracks, add_tracks. destruct (existsb valid us) eqn:E.
    - rewrite add_with_hit. eexists. split; [reflexivity|]. split; reflexivity.
    - eexists. split; [reflexivity|]. split; [reflexivity|]. cbn. now rewrite with_hit_none.
  Qed.
  Lemma fill_chunks_next chunks : forall v ts v' es, counted v ts -> fill_chunks bins valid false v chunks = Some (v', es) -> counted v' (ts ++ concat chunks).
  Proof using.
    induction chunks as [|c cs IH]; intros v ts v' es H E.
    - cbn in E. injection E as <- <-. cbn. now rewrite app_nil_r.
    - cbn [fill_chunks] in E. destruct (fill_chunk_next v ts c H) as (v1 & E1 & H1). rewrite E1 in E.
      destruct (chunk_efficiency bins valid v1 c); [|discriminate]. destruct (fill_chunks bins valid false v1 cs) as [[v2 es2]|] eqn:E2; [|discriminate].
      injection E as <- <-. cbn [concat]. rewrite app_assoc. now apply (IH v1 (ts ++ c) v2 es2).
  Qed.
  Lemma fill_chunks_counted v c cs v' es : existsb valid c = true -> fill_chunks bins valid true v (c :: cs) = Some (v', es) -> counted v' (c ++ concat cs).
  Proof using.
    intros H E. cbn [fill_chunks] in E. destruct (fill_chunk_first v c H) as (v1 & E1 & H1). rewrite E1 in E.
    destruct (chunk_efficiency bins valid v1 c); [|discriminate]. destruct (fill_chunks bins valid false v1 cs) as [[v2 es2]|] eqn:E2; [|discriminate].
    injection E as <- <-. now apply (fill_chunks_next cs v1 c v2 es2).
  Qed.

  Lemma total_le ts : (total (with_hit_spec ts) <= total (tracks_spec ts))%nat.
  Proof using.
    unfold with_hit_spec, tracks_spec, total. clear -ts. induction bins as [|b bs IH]; [reflexivity|]. cbn [map fold_right].
    assert (number (fun t => valid t && b (intersection t)) ts <= number (fun t => b (intersection t)) ts)%nat by (apply number_le; intros t X; apply andb_true_iff in X; tauto). lia.
  Qed.

  (** The counts, and the efficiency as a ratio. *)
  Theorem C65_counts v c cs v' r : existsb valid c = true -> dut_efficiency bins valid density v (c :: cs) = Some (v', r) ->
    let all := concat (c :: cs) in
    r_tracks r = map (fun b => number (fun t => b (intersection t)) all) bins /\
    r_with_hit r = map (fun b => number (fun t => valid t && b (intersection t)) all) bins /\
    r_efficiency r = INR (total (r_with_hit r)) / INR (total (r_tracks r)) /\ (0 < total (r_tracks r))%nat /\
    0 <= r_efficiency r <= 1 /\
    (forall i, (nth i (r_with_hit r) 0 <= nth i (r_tracks r) 0)%nat).
  Proof using.
    intros H E all. unfold dut_efficiency in E. destruct (fill_chunks bins valid true v (c :: cs)) as [[v1 es]|] eqn:F; [|discriminate].
    apply fill_chunks_counted in F; [|assumption]. destruct F as [F1 F2]. rewrite F1, F2 in E. change (c ++ concat cs) with all in *.
    destruct (_ && _); [|discriminate]. unfold mean_efficiency in E.
    destruct ((total (tracks_spec all) =? 0)%nat || (total (tracks_spec all) <? total (with_hit_spec all))%nat) eqn:G; [discriminate|].
    injection E as _ <-. cbn [r_tracks r_with_hit r_efficiency]. apply orb_false_iff in G. destruct G as [G1 G2]. apply Nat.eqb_neq in G1. apply Nat.ltb_ge in G2.
    assert (0 < INR (total (tracks_spec all))) by (apply lt_0_INR; lia).
    split; [reflexivity|]. split; [reflexivity|]. split; [reflexivity|]. split; [lia|]. split.
    - split; [apply Rmult_le_pos; [apply pos_INR|left; now apply Rinv_0_lt_compat]|].
      apply Rmult_le_reg_r with (INR (total (tracks_spec all))); [assumption|]. unfold Rdiv. rewrite Rmult_assoc, Rinv_l by lra. rewrite Rmult_1_l, Rmult_1_r. now apply le_INR.
    - intros i. unfold with_hit_spec, tracks_spec. clear. revert i. induction bins as [|b bs IH]; intros [|i]; cbn [map nth]; try lia; [|apply IH].
      apply number_le. intros t X. apply andb_true_iff in X. tauto.
  Qed.

  (** Chunking and the DUTs which were analysed before make no difference, if the first chunk has a valid hit. *)
  Theorem C65_chunking v w c cs d ds v' w' r s : existsb valid c = true -> existsb valid d = true -> concat (c :: cs) = concat (d :: ds) ->
    dut_efficiency bins valid density v (c :: cs) = Some (v', r) -> dut_efficiency bins valid density w (d :: ds) = Some (w', s) ->
    r_with_hit r = r_with_hit s /\ r_tracks r = r_tracks s /\ r_efficiency r = r_efficiency s.
  Proof using.
    intros H1 H2 E R1 R2. apply C65_counts in R1; [|assumption]. apply C65_counts in R2; [|assumption]. rewrite <- E in R2.
    destruct R1 as (A1 & A2 & A3 & _), R2 as (B1 & B2 & B3 & _). split; [congruence|]. split; [congruence|]. rewrite A3, B3, A1, A2, B1, B2. reflexivity.
  Qed.

  Lemma zeros_total h : forallb (Nat.eqb 0) h = true -> total h = 0%nat.
  Proof using. clear. induction h as [|n h IH]; [reflexivity|]. cbn. rewrite andb_true_iff. intros [A B]. destruct n; [|discriminate]. exact (IH B). Qed.
  Lemma total_app ts us : total (tracks_spec (ts ++ us)) = (total (tracks_spec ts) + total (tracks_spec us))%nat.
  Proof using. unfold tracks_spec, total. clear -ts. induction bins as [|b bs IH]; [reflexivity|]. cbn [map fold_right]. rewrite number_of_app. lia. Qed.

  Definition chunk_spec (c : list track) : R := INR (total (with_hit_spec c)) / INR (total (tracks_spec c)).
  Lemma with_hit_zero c : existsb valid c = false -> total (with_hit_spec c) = 0%nat.
  Proof using.
    intros H. change c with ([] ++ c). rewrite with_hit_none by assumption. unfold with_hit_spec, total. clear -bins. induction bins as [|b bs IH]; [reflexivity|]. cbn [map fold_right number] in *. rewrite IH. reflexivity.
  Qed.
  Lemma chunk_efficiency_spec v ts c : counted v (ts ++ c) -> (0 < total (tracks_spec c))%nat -> chunk_efficiency bins valid v c = Some [chunk_spec c].
  Proof using.
    intros [H1 H2] P. unfold chunk_efficiency. rewrite H1. destruct (forallb _ _) eqn:Z; [apply zeros_total in Z; rewrite total_app in Z; lia|].
    rewrite hist_with_hit, hist_tracks. unfold chunk_spec. destruct (existsb valid c) eqn:E.
    - unfold mean_efficiency. assert ((total (tracks_spec c) =? 0)%nat = false) as -> by (apply Nat.eqb_neq; lia).
      assert ((total (tracks_spec c) <? total (with_hit_spec c))%nat = false) as -> by (apply Nat.ltb_ge, total_le). reflexivity.
    - rewrite with_hit_zero by assumption. f_equal. f_equal. cbn [INR]. unfold Rdiv. ring.
  Qed.
  Lemma fill_chunks_total cs : forall v ts, counted v ts -> (forall c, In c cs -> 0 < total (tracks_spec c))%nat ->
    exists v', fill_chunks bins valid false v cs = Some (v', map chunk_spec cs) /\ counted v' (ts ++ concat cs).
  Proof using.
    induction cs as [|c cs IH]; intros v ts H P.
    - exists v. split; [reflexivity|]. cbn. now rewrite app_nil_r.
    - destruct (fill_chunk_next v ts c H) as (v1 & E1 & H1). destruct (IH v1 (ts ++ c) H1) as (v2 & E2 & H2); [intros d Id; apply P; now right|].
      exists v2. cbn [fill_chunks]. rewrite E1, (chunk_efficiency_spec v1 ts c H1 (P c (or_introl eq_refl))), E2.
      cbn [concat map app]. rewrite app_assoc. split; [reflexivity|assumption].
  Qed.

  (** The analysis succeeds and the efficiencies of the chunks are those of their tracks, if the first chunk has a valid hit, every chunk has
      a track on the sensor, and one bin has enough tracks and a track with hit. *)
  Theorem C65_succeeds v c cs : existsb valid c = true ->
    (forall d, In d (c :: cs) -> exists b t, In b bins /\ In t d /\ b (intersection t) = true) ->
    (exists b, In b bins /\ (density <= number (fun t => b (intersection t)) (concat (c :: cs)))%nat /\ (0 < number (fun t => valid t && b (intersection t)) (concat (c :: cs)))%nat) ->
    exists v' r, dut_efficiency bins valid density v (c :: cs) = Some (v', r) /\ r_chunks r = map chunk_spec (c :: cs).
  Proof using.
    intros H P (b & Ib & D1 & D2).
    assert (P' : forall d, In d (c :: cs) -> (0 < total (tracks_spec d))%nat).
    { intros d Id. destruct (P d Id) as (b' & t & Ib' & It & Bt). unfold tracks_spec. clear -Ib' It Bt. induction bins as [|a bs IH]; [destruct Ib'|]. cbn.
      destruct Ib' as [->|Ib']; [|specialize (IH Ib'); unfold total in IH; lia].
      assert (0 < number (fun t => b' (intersection t)) d)%nat by (apply number_pos; apply existsb_exists; exists t; tauto). lia. }
    destruct (fill_chunk_first v c H) as (v1 & E1 & H1). destruct (fill_chunks_total cs v1 c H1) as (v2 & E2 & H2); [intros d Id; apply P'; now right|].
    set (all := concat (c :: cs)) in *. change (c ++ concat cs) with all in H2.
    assert (E : fill_chunks bins valid true v (c :: cs) = Some (v2, map chunk_spec (c :: cs))).
    { cbn [fill_chunks]. rewrite E1, (chunk_efficiency_spec v1 [] c H1 (P' c (or_introl eq_refl))), E2. reflexivity. }
    unfold dut_efficiency. rewrite E. destruct H2 as [T W]. rewrite T, W.
    assert (length (with_hit_spec all) =? length (tracks_spec all) = true)%nat as -> by (unfold with_hit_spec, tracks_spec; rewrite !map_length; apply Nat.eqb_refl).
    assert (any_efficiency density (with_hit_spec all) (tracks_spec all) = true) as ->.
    { unfold any_efficiency. apply existsb_exists. exists (number (fun t => valid t && b (intersection t)) all, number (fun t => b (intersection t)) all).
      split; [unfold with_hit_spec, tracks_spec; clear -Ib; induction bins as [|a bs IH]; [destruct Ib|]; cbn; destruct Ib as [->|Ib]; auto|].
      cbn [fst snd]. assert (density <=? number (fun t => b (intersection t)) all = true)%nat as -> by now apply Nat.leb_le.
      assert (number (fun t => valid t && b (intersection t)) all =? 0 = false)%nat as -> by (apply Nat.eqb_neq; lia). cbn. apply orb_true_r. }
    cbn [andb]. unfold mean_efficiency.
    assert (0 < total (tracks_spec all))%nat. { unfold all. cbn [concat]. rewrite total_app. specialize (P' c (or_introl eq_refl)). lia. }
    assert ((total (tracks_spec all) =? 0)%nat = false) as -> by (apply Nat.eqb_neq; lia).
    assert ((total (tracks_spec all) <? total (with_hit_spec all))%nat = false) as -> by (apply Nat.ltb_ge, total_le). cbn [orb option_map].
    eexists. eexists. split; reflexivity.
  Qed.

  (** Desired: a first chunk without valid hit is no problem. False: for the first DUT the analysis fails, whatever follows. *)
  Theorem C65_first_chunk_refuted c cs : existsb valid c = false -> dut_efficiency bins valid density fresh (c :: cs) = None.
  Proof using.
    intros H. unfold dut_efficiency.
    assert (G : forall cs v v' es, count_with_hit v = None -> fill_chunks bins valid false v cs = Some (v', es) -> count_with_hit v' = None).
    { clear. induction cs as [|c cs IH]; intros v v' es H E; cbn in E; [injection E as <- <-; assumption|].
      rewrite H in E. destruct (existsb valid c); [discriminate|]. destruct (count_tracks v); [|discriminate]. destruct (add_hist l _); [|discriminate].
      cbn [option_map] in E. destruct (chunk_efficiency _ _ _ _); [|discriminate]. destruct (fill_chunks bins valid false _ cs) as [[v1 es1]|] eqn:F; [|discriminate].
      injection E as <- <-. now apply IH in F. }
    destruct (fill_chunks bins valid true fresh (c :: cs)) as [[v es]|] eqn:E; [|reflexivity].
    cbn in E. rewrite H in E. destruct (chunk_efficiency _ _ _ _); [|discriminate].
    destruct (fill_chunks bins valid false _ cs) as [[v1 es1]|] eqn:F; [|discriminate]. injection E as <- <-. apply G in F; [|reflexivity]. now rewrite F.
  Qed.
End Dut.

(** * The bins of the histogram. *)
Definition within (edges : list R) (x : R) : bool := Rleb (nth 0 edges 0) x && Rleb x (nth (length edges - 1) edges 0).
Definition on_hist (ex ey : list R) (t : track) : bool := within ex (fst (intersection t)) && within ey (snd (intersection t)).

Lemma number_unique (f : nat -> bool) n i : (i < n)%nat -> f i = true -> (forall j, f j = true -> j = i) -> number f (seq 0 n) = 1%nat.
Proof.
  intros L H U. assert (G : forall m k, number f (seq k m) = if (k <=? i)%nat && (i <? k + m)%nat then 1%nat else 0%nat).
  { induction m as [|m IH]; intros k; [cbn [seq number]; destruct (k <=? i)%nat eqn:A; cbn [andb]; [|reflexivity]; destruct (i <? k + 0)%nat eqn:B; [|reflexivity]; apply Nat.leb_le in A; apply Nat.ltb_lt in B; lia|].
    cbn [seq number]. rewrite IH. destruct (Nat.eq_dec k i) as [->|Ne].
    - rewrite H. assert (S i <=? i = false)%nat as -> by (apply Nat.leb_gt; lia). rewrite Nat.leb_refl. assert (i <? i + S m = true)%nat as -> by (apply Nat.ltb_lt; lia). reflexivity.
    - destruct (f k) eqn:F; [now apply U in F|]. replace (S k + m)%nat with (k + S m)%nat by lia.
      assert (S k <=? i = (k <=? i))%nat as ->; [|reflexivity]. destruct (k <=? i)%nat eqn:A; [apply Nat.leb_le in A; apply Nat.leb_le; lia|apply Nat.leb_gt in A; apply Nat.leb_gt; lia]. }
  rewrite G. cbn [Nat.leb andb]. now assert (i <? 0 + n = true)%nat as -> by (apply Nat.ltb_lt; lia).
Qed.
Lemma bins_1d edges x : increasing edges -> (2 <= length edges)%nat ->
  number (fun i => in_bin edges i x) (seq 0 (n_edge_bins edges)) = if within edges x then 1%nat else 0%nat.
Proof.
  intros Hi L. destruct (C40_bins edges x Hi L) as [[_ A] B]. unfold within. destruct (Rleb (nth 0 edges 0) x) eqn:E1; [destruct (Rleb x _) eqn:E2|]; cbn [andb].
  - apply Rleb_true in E1, E2. destruct (A (conj E1 E2)) as (i & Hb & U). apply (number_unique _ _ i); [|assumption..]. apply in_bin_spec in Hb. unfold n_edge_bins. lia.
  - apply Rleb_false in E2. destruct B as [B|B]; [lra|]. rewrite (number_ext _ (fun _ => false)); [apply number_false|]. intros; apply B.
  - apply Rleb_false in E1. destruct B as [B|B]; [lra|]. rewrite (number_ext _ (fun _ => false)); [apply number_false|]. intros; apply B.
Qed.
Lemma number_map {A B} (g : A -> B) (f : B -> bool) l : number f (map g l) = number (fun a => f (g a)) l.
Proof. induction l; cbn; auto. Qed.
Lemma bins_2d_number ex ey p : increasing ex -> (2 <= length ex)%nat -> increasing ey -> (2 <= length ey)%nat ->
  number (fun b : R * R -> bool => b p) (bins_2d ex ey) = if within ex (fst p) && within ey (snd p) then 1%nat else 0%nat.
Proof.
  intros Hx Lx Hy Ly.
  assert (G : forall l, number (fun b : R * R -> bool => b p) (flat_map (fun i => map (fun j p => in_bin ex i (fst p) && in_bin ey j (snd p)) (seq 0 (n_edge_bins ey))) l)
    = (number (fun i => in_bin ex i (fst p)) l * (if within ey (snd p) then 1 else 0))%nat).
  { induction l as [|i l IH]; [reflexivity|]. cbn [flat_map number]. rewrite number_of_app, IH, number_map. destruct (in_bin ex i (fst p)); cbn [andb].
    - rewrite (bins_1d ey (snd p) Hy Ly). lia.
    - rewrite number_false. lia. }
  unfold bins_2d. rewrite G, bins_1d by assumption. destruct (within ex (fst p)), (within ey (snd p)); reflexivity.
Qed.
Lemma total_hist (bins : list (R * R -> bool)) (f : track -> bool) ts :
  total (map (fun b : R * R -> bool => number (fun t => f t && b (intersection t)) ts) bins) = fold_right (fun t n => ((if f t then number (fun b => b (intersection t)) bins else 0) + n)%nat) 0%nat ts.
Proof.
  induction ts as [|t ts IH]; cbn [number fold_right]; [induction bins as [|b bs IH]; [reflexivity|exact IH]|]. rewrite <- IH. clear IH. unfold total.
  induction bins as [|b bs IH]; cbn [map fold_right number]; [destruct (f t); reflexivity|]. rewrite IH. destruct (f t), (b (intersection t)); cbn; lia.
Qed.
Lemma total_2d ex ey f ts : increasing ex -> (2 <= length ex)%nat -> increasing ey -> (2 <= length ey)%nat ->
  total (map (fun b : R * R -> bool => number (fun t => f t && b (intersection t)) ts) (bins_2d ex ey)) = number (fun t => f t && on_hist ex ey t) ts.
Proof.
  intros Hx Lx Hy Ly. rewrite total_hist. induction ts as [|t ts IH]; [reflexivity|]. cbn [fold_right number]. rewrite IH. f_equal.
  destruct (f t); [|reflexivity]. now rewrite bins_2d_number by assumption.
Qed.

(** The efficiency is the fraction of the tracks through the area of the histogram which have a valid hit. *)
Theorem C65_efficiency ex ey valid density v c cs v' r : increasing ex -> (2 <= length ex)%nat -> increasing ey -> (2 <= length ey)%nat ->
  existsb valid c = true -> dut_efficiency (bins_2d ex ey) valid density v (c :: cs) = Some (v', r) ->
  r_efficiency r = INR (number (fun t => valid t && on_hist ex ey t) (concat (c :: cs))) / INR (number (on_hist ex ey) (concat (c :: cs))).
Proof.
  intros Hx Lx Hy Ly H E. apply C65_counts in E; [|assumption]. destruct E as (A1 & A2 & A3 & _). rewrite A3, A1, A2. rewrite total_2d by assumption.
  rewrite (total_2d ex ey (fun _ => true)) by assumption. reflexivity.
Qed.

(** The edges: bins of the given size, increasing, and the area of the sensor and the extension on both sides are covered. *)
Theorem C65_edges size resolution extend : 0 < size -> 0 < resolution -> (forall e, extend = Some e -> 0 <= e) ->
  let edges := hist_edges size resolution extend in
  increasing edges /\ (2 <= length edges)%nat /\
  (forall i, (S i < length edges)%nat -> nth (S i) edges 0 = nth i edges 0 + resolution) /\
  let e := match extend with None => 0 | Some e => e end in
  forall x, - (size / 2) - e <= x <= size / 2 + e -> within edges x = true.
Proof.
  intros Hs Hr He edges.
  assert (Pc : forall d, 0 <= d -> d <= IZR (ceil (d / resolution)) * resolution).
  { intros d Hd. destruct (ceil_spec (d / resolution)) as [A _]. apply (Rmult_le_compat_r resolution) in A; [|lra]. unfold Rdiv in A at 1. rewrite Rmult_assoc, Rinv_l, Rmult_1_r in A by lra. exact A. }
  assert (N : exists n, (1 <= n)%nat /\ hist_size size resolution extend = INR n * resolution /\ size + 2 * match extend with None => 0 | Some e => e end <= INR n * resolution).
  { set (m := (ceil (size / resolution) + match extend with None => 0 | Some e => 2 * ceil (e / resolution) end)%Z).
    assert (P1 : (0 < ceil (size / resolution))%Z). { apply lt_IZR. destruct (ceil_spec (size / resolution)) as [A _]. assert (0 < size / resolution) by (apply Rmult_lt_0_compat; [lra|now apply Rinv_0_lt_compat]). lra. }
    assert (P2 : forall e, extend = Some e -> (0 <= ceil (e / resolution))%Z). { intros e Ee. specialize (He e Ee). apply le_IZR. destruct (ceil_spec (e / resolution)) as [A _]. assert (0 <= e / resolution) by (apply Rmult_le_pos; [lra|left; now apply Rinv_0_lt_compat]). lra. }
    assert (Pm : (0 < m)%Z). { unfold m. destruct extend as [e|]; [specialize (P2 e eq_refl)|]; lia. }
    assert (E : hist_size size resolution extend = IZR m * resolution).
    { unfold hist_size, m. destruct extend as [e|]; rewrite plus_IZR; [rewrite mult_IZR|]; ring. }
    exists (Z.to_nat m). rewrite INR_IZR_INZ, Z2Nat.id by lia. split; [lia|]. split; [assumption|]. rewrite <- E. unfold hist_size.
    pose proof (Pc size ltac:(lra)). destruct extend as [e|]; [pose proof (Pc e (He e eq_refl))|]; lra. }
  destruct N as (n & Pn & En & Ln).
  assert (Pn' : 0 < INR n) by (apply lt_0_INR; lia).
  assert (Len : Z.to_nat (Int_part (hist_size size resolution extend / resolution)) = n).
  { rewrite En. replace (INR n * resolution / resolution) with (IZR (Z.of_nat n)) by (rewrite INR_IZR_INZ; field; lra).
    assert (Int_part (IZR (Z.of_nat n)) = Z.of_nat n) as ->; [|apply Nat2Z.id]. apply Z.le_antisymm; [|apply floor_ge; lra].
    assert (Int_part (IZR (Z.of_nat n)) < Z.of_nat n + 1)%Z; [|lia]. apply floor_lt. rewrite plus_IZR. lra. }
  assert (Nth : forall i, (i <= n)%nat -> nth i edges 0 = - (INR n * resolution / 2) + INR i * resolution).
  { intros i Li. unfold edges, hist_edges. rewrite Len, En. replace (n + 1)%nat with (S n) by lia. rewrite linspace_nth by lia. field. lra. }
  assert (Le : length edges = S n). { unfold edges, hist_edges. rewrite Len, linspace_length. lia. }
  split; [|split; [lia|split]].
  - intros i Li. rewrite !Nth by lia. rewrite S_INR. lra.
  - intros i Li. rewrite !Nth by lia. rewrite S_INR. lra.
  - intros e x Hx. unfold within. apply andb_true_iff. rewrite Le. replace (S n - 1)%nat with n by lia. rewrite !Nth by lia. cbn [INR].
    unfold e in Hx. split; apply Rleb_true; lra.
Qed.

(** Desired: the result of a DUT depends on its own tracks only. False: without valid hit in its first chunk the counts of tracks with hit of the
    previous DUT are used; here a DUT without a single hit is 100 % efficient. *)
Theorem C65_previous_dut_refuted : exists a b ra rb, calculate_efficiency 1 fresh [a; b] = Some [ra; rb] /\
  (forall t, In t (concat (d_chunks b)) -> hit_position t = None) /\ r_efficiency rb = 1.
Proof.
  set (bins := bins_2d [-1; 1] [-1; 1]). set (t := Track (Some (0, 0)) (0, 0)). set (u := Track None (0, 0)).
  exists (DutData bins (1, 1) (None, None) [[t]]), (DutData bins (1, 1) (None, None) [[u]]), (Result [1%nat] [1%nat] (1/1) [1/1]), (Result [1%nat] [1%nat] (1/1) [0]).
  split; [|split; [intros x [<-|[]]; reflexivity|cbn; lra]].
  assert (B : in_bin [-1; 1] 0 0 = true) by (apply in_bin_spec; cbn; split; [lia|split; [lra|left; lra]]).
  assert (V : valid_hit (1, 1) (None, None) t = true). { unfold valid_hit, t. cbn. apply Rleb_true. lra. }
  assert (N : forall l, hist_2d bins [t] = [1%nat] /\ hist_2d bins [u] = [1%nat] /\ hist_2d bins [] = [0%nat] /\ l = l :> nat).
  { intros l. unfold bins, bins_2d, hist_2d. cbn. rewrite !B. cbn. auto. }
  destruct (N 0%nat) as (N1 & N2 & N3 & _).
  cbn [calculate_efficiency d_bins d_pixel d_cut d_chunks]. unfold dut_efficiency at 1. cbn [fill_chunks]. unfold fill_chunk at 1. cbn [existsb filter]. rewrite V. cbn [orb]. rewrite N1.
  unfold chunk_efficiency. cbn [count_tracks forallb Nat.eqb andb existsb filter]. rewrite V. cbn [orb]. rewrite N1. cbn [mean_efficiency total fold_right Nat.add Nat.eqb Nat.ltb Nat.leb orb option_map app count_with_hit length andb any_efficiency existsb combine fst snd negb INR].
  unfold dut_efficiency. cbn [fill_chunks]. unfold fill_chunk. assert (V' : valid_hit (1, 1) (None, None) u = false) by reflexivity. cbn [existsb filter]. rewrite V'. cbn [orb]. rewrite N2.
  unfold chunk_efficiency. cbn [count_tracks forallb Nat.eqb andb existsb filter]. rewrite V'. cbn [orb count_with_hit app]. cbn. reflexivity.
Qed.

(** * The distance cut. *)
Definition le_opt (d : R) (c : option R) : Prop := match c with None => True | Some c => d <= c end.
Lemma ge_opt_true c d : ge_opt c d = true <-> le_opt d c.
Proof. destruct c; cbn; [apply Rleb_true|tauto]. Qed.
Lemma over_pos d c : 0 <= over d c.
Proof. destruct c as [c|]; cbn [over]; [|lra]. destruct (Req_dec c 0) as [->|N]; [unfold Rdiv; rewrite pow_i by lia; rewrite Rinv_0; lra|]. apply Rmult_le_pos; [apply pow2_ge_0|left; apply Rinv_0_lt_compat; rewrite <- Rsqr_pow2; apply Rsqr_pos_lt; assumption]. Qed.
Lemma over_le_1 d c : (forall c', c = Some c' -> 0 < c') -> over d c <= 1 -> le_opt (Rabs d) c.
Proof.
  intros P H. destruct c as [c|]; [|exact I]. specialize (P c eq_refl). cbn in H |- *. assert (0 < c ^ 2) by (apply pow_lt; assumption).
  assert (d ^ 2 <= c ^ 2). { apply (Rmult_le_compat_r (c ^ 2)) in H; [|lra]. unfold Rdiv in H. cbn [pow] in *. rewrite Rmult_assoc, Rinv_l in H by lra. lra. }
  apply Rabs_le. split; nra.
Qed.

(** A hit which is selected is there, and not farther away from the track than the cut in both directions. *)
Theorem C66_within pixel cut t : 0 < fst pixel -> 0 < snd pixel -> valid_hit pixel cut t = true ->
  exists hx hy, hit_position t = Some (hx, hy) /\ le_opt (Rabs (hx - fst (intersection t))) (fst cut) /\ le_opt (Rabs (hy - snd (intersection t))) (snd cut).
Proof.
  intros P1 P2. unfold valid_hit. destruct (hit_position t) as [[hx hy]|]; [|discriminate]. intros H. exists hx, hy. split; [reflexivity|].
  destruct (use_ellipse pixel cut) eqn:E.
  - unfold use_ellipse in E. apply andb_true_iff in E. destruct E as [E1 E2]. apply ge_opt_true in E1, E2. apply Rleb_true in H.
    pose proof (over_pos (hx - fst (intersection t)) (fst cut)). pose proof (over_pos (hy - snd (intersection t)) (snd cut)).
    split; (apply over_le_1; [|lra]); intros c Ec; [rewrite Ec in E1; cbn in E1|rewrite Ec in E2; cbn in E2]; lra.
  - apply andb_true_iff in H. now rewrite !ge_opt_true in H.
Qed.

(** For a cut below 2.5 pixels in one direction, exactly the hits in the rectangle are selected; otherwise exactly those in the ellipse. *)
Theorem C66_shape pixel cx cy t hx hy : hit_position t = Some (hx, hy) ->
  let rx := hx - fst (intersection t) in let ry := hy - snd (intersection t) in
  (valid_hit pixel (Some cx, Some cy) t = true <->
   if Rlt_dec cx (5/2 * fst pixel) then Rabs rx <= cx /\ Rabs ry <= cy
   else if Rlt_dec cy (5/2 * snd pixel) then Rabs rx <= cx /\ Rabs ry <= cy
   else (rx / cx) ^ 2 + (ry / cy) ^ 2 <= 1).
Proof.
  intros E rx ry. unfold valid_hit. rewrite E. fold rx ry. unfold use_ellipse. cbn [ge_opt fst snd over].
  assert (R : forall a b, rx = rx -> (a / b) ^ 2 = a ^ 2 / b ^ 2). { intros a b _. unfold Rdiv. rewrite Rpow_mult_distr, pow_inv. reflexivity. }
  destruct (Rlt_dec cx (5/2 * fst pixel)) as [A|A].
  - assert (Rleb (5/2 * fst pixel) cx = false) as -> by (apply Rleb_false; lra). cbn [andb]. now rewrite andb_true_iff, !Rleb_true.
  - assert (Rleb (5/2 * fst pixel) cx = true) as -> by (apply Rleb_true; lra). cbn [andb]. destruct (Rlt_dec cy (5/2 * snd pixel)) as [B|B].
    + assert (Rleb (5/2 * snd pixel) cy = false) as -> by (apply Rleb_false; lra). now rewrite andb_true_iff, !Rleb_true.
    + assert (Rleb (5/2 * snd pixel) cy = true) as -> by (apply Rleb_true; lra). rewrite Rleb_true, !R by reflexivity. reflexivity.
Qed.

(** Without cut every track with hit counts. *)
Theorem C66_no_cut pixel t : valid_hit pixel (None, None) t = true <-> hit_position t <> None.
Proof.
  unfold valid_hit. destruct (hit_position t) as [[hx hy]|]; [|split; [discriminate|congruence]]. cbn. split; [discriminate|]. intros _. apply Rleb_true. lra.
Qed.

(** A wider cut of the same kind keeps all hits. *)
Definition opt_le (c d : option R) : Prop := match c, d with Some c, Some d => c <= d | _, None => True | None, Some _ => False end.
Lemma ge_opt_mono c c' d : opt_le c c' -> ge_opt c d = true -> ge_opt c' d = true.
Proof. rewrite !ge_opt_true. destruct c, c'; cbn; try tauto; lra. Qed.
Lemma over_mono d c c' : (forall x, c = Some x -> 0 < x) -> opt_le c c' -> over d c' <= over d c.
Proof.
  intros P H. destruct c' as [c'|]; [|cbn [over]; apply over_pos]. destruct c as [c|]; [|destruct H]. cbn in H |- *. specialize (P c eq_refl).
  apply Rmult_le_compat_l; [pose proof (pow2_ge_0 d); cbn in *; lra|]. apply Rinv_le_contravar; nra.
Qed.
Theorem C66_monotone pixel cut cut' t : 0 < fst pixel -> 0 < snd pixel -> opt_le (fst cut) (fst cut') -> opt_le (snd cut) (snd cut') ->
  use_ellipse pixel cut = use_ellipse pixel cut' -> valid_hit pixel cut t = true -> valid_hit pixel cut' t = true.
Proof.
  intros P1 P2 H1 H2 E. unfold valid_hit. destruct (hit_position t) as [[hx hy]|]; [|discriminate]. rewrite <- E. destruct (use_ellipse pixel cut) eqn:U.
  - rewrite !Rleb_true. unfold use_ellipse in U. apply andb_true_iff in U. destruct U as [U1 U2]. apply ge_opt_true in U1, U2.
    assert (forall d, over d (fst cut') <= over d (fst cut)) by (intros d; apply over_mono; [intros x Ex; rewrite Ex in U1; cbn in U1; lra|assumption]).
    assert (forall d, over d (snd cut') <= over d (snd cut)) by (intros d; apply over_mono; [intros x Ex; rewrite Ex in U2; cbn in U2; lra|assumption]).
    intros H3. pose proof (H (hx - fst (intersection t))). pose proof (H0 (hy - snd (intersection t))). lra.
  - rewrite !andb_true_iff. intros [A B]. split; eapply ge_opt_mono; eassumption.
Qed.

(** Desired: a wider cut keeps all hits. False where the rectangle becomes an ellipse (2.4 pixels and 2.5 pixels). *)
Theorem C66_monotone_refuted : exists pixel c c' t, 0 < fst pixel /\ 0 < snd pixel /\ c < c' /\
  valid_hit pixel (Some c, Some c) t = true /\ valid_hit pixel (Some c', Some c') t = false.
Proof.
  exists (50, 50), 120, 125, (Track (Some (110, 110)) (0, 0)). cbn [fst snd]. split; [lra|]. split; [lra|]. split; [lra|]. split.
  - apply (C66_shape (50, 50) 120 120 (Track (Some (110, 110)) (0, 0)) 110 110 eq_refl). cbn [fst snd intersection]. destruct (Rlt_dec 120 (5/2 * 50)); [|lra]. rewrite Rminus_0_r, Rabs_right by lra. lra.
  - destruct (valid_hit (50, 50) (Some 125, Some 125) _) eqn:E; [|reflexivity]. apply (C66_shape (50, 50) 125 125 (Track (Some (110, 110)) (0, 0)) 110 110 eq_refl) in E. cbn [fst snd intersection] in E.
    destruct (Rlt_dec 125 (5/2 * 50)) as [L|L]; [lra|]. lra.
Qed.

(** * Regions. *)
Definition region_number region (f : track -> bool) ts := number (fun t => in_region region (intersection t) && f t) ts.
Lemma region_chunk_spec region valid s ts : (0 < region_number region (fun _ => true) ts)%nat -> forall eff stat es, s = (eff, stat, es) ->
  region_chunk region valid s ts = Some ((eff * INR stat + INR (region_number region valid ts)) / INR (stat + region_number region (fun _ => true) ts),
    (stat + region_number region (fun _ => true) ts)%nat, es ++ [INR (region_number region valid ts) / INR (region_number region (fun _ => true) ts)]).
Proof.
  intros P eff stat es ->. unfold region_chunk. rewrite !number_filter, number_filter_and.
  assert (E : number (fun t => in_region region (intersection t)) ts = region_number region (fun _ => true) ts) by (apply number_ext; intros; now rewrite andb_true_r).
  rewrite E. fold (region_number region valid ts). set (n := region_number region (fun _ => true) ts) in *.
  assert ((stat + n =? 0)%nat = false) as -> by (apply Nat.eqb_neq; lia). assert ((n =? 0)%nat = false) as -> by (apply Nat.eqb_neq; lia). reflexivity.
Qed.

(** If every chunk has a track in the region, its efficiency is the fraction of all tracks in the region with valid hit. *)
Theorem C67_region region valid chunks : chunks <> [] -> (forall c, In c chunks -> exists t, In t c /\ in_region region (intersection t) = true) ->
  region_efficiency region valid chunks =
    Some (INR (region_number region valid (concat chunks)) / INR (region_number region (fun _ => true) (concat chunks)), region_number region (fun _ => true) (concat chunks),
          map (fun c => INR (region_number region valid c) / INR (region_number region (fun _ => true) c)) chunks).
Proof.
  intros Ne H.
  assert (P : forall c, In c chunks -> (0 < region_number region (fun _ => true) c)%nat).
  { intros c Ic. destruct (H c Ic) as (t & It & Rt). apply number_pos. apply existsb_exists. exists t. rewrite Rt. tauto. }
  clear H.
  assert (G : forall cs ts eff es, (forall c, In c cs -> (0 < region_number region (fun _ => true) c)%nat) ->
    eff * INR (region_number region (fun _ => true) ts) = INR (region_number region valid ts) -> (cs = [] -> (0 < region_number region (fun _ => true) ts)%nat) ->
    region_chunks region valid (eff, region_number region (fun _ => true) ts, es) cs =
      Some (INR (region_number region valid (ts ++ concat cs)) / INR (region_number region (fun _ => true) (ts ++ concat cs)), region_number region (fun _ => true) (ts ++ concat cs),
            es ++ map (fun c => INR (region_number region valid c) / INR (region_number region (fun _ => true) c)) cs)).
  { induction cs as [|c cs IH]; intros ts eff es Pc Ee Z.
    - cbn. rewrite !app_nil_r. f_equal. f_equal. f_equal. rewrite <- Ee. field. apply not_0_INR. specialize (Z eq_refl). lia.
    - cbn [region_chunks]. rewrite (region_chunk_spec region valid _ c (Pc c (or_introl eq_refl)) _ _ _ eq_refl). cbn [concat map].
      assert (N : forall f, (region_number region f ts + region_number region f c)%nat = region_number region f (ts ++ c)) by (intros f; unfold region_number; now rewrite number_of_app).
      rewrite !N, !app_assoc. rewrite IH; [rewrite <- (app_assoc es); reflexivity|intros d Id; apply Pc; now right| |].
      + rewrite <- (N valid), plus_INR, <- Ee. field. apply not_0_INR. rewrite <- N. specialize (Pc c (or_introl eq_refl)). lia.
      + intros _. rewrite <- N. specialize (Pc c (or_introl eq_refl)). lia. }
  unfold region_efficiency. change 0%nat with (region_number region (fun _ => true) []). rewrite G; [reflexivity|assumption|cbn; lra|congruence].
Qed.

(** Desired: a chunk without track in the region is no problem. False: the analysis fails with ZeroDivisionError, whatever the other chunks are. *)
Theorem C67_empty_chunk_refuted region valid chunks c : In c chunks -> (forall t, In t c -> in_region region (intersection t) = false) ->
  region_efficiency region valid chunks = None.
Proof.
  unfold region_efficiency. generalize (0, 0%nat, @nil R) as s. induction chunks as [|d ds IH]; intros s I H; [destruct I|]. destruct s as [[eff stat] es]. cbn [region_chunks].
  destruct I as [->|I].
  - unfold region_chunk. assert (filter (fun t => in_region region (intersection t)) c = []) as ->.
    { clear -H. induction c as [|t c IH]; [reflexivity|]. cbn. rewrite (H t) by now left. apply IH. intros u Iu. apply H. now right. }
    cbn [length Nat.eqb]. destruct (stat + 0 =? 0)%nat; reflexivity.
  - destruct (region_chunk _ _ _ _) as [s|]; [now apply IH|reflexivity].
Qed.

(** Desired: two regions which touch share the tracks among them. False: tracks on the border are in none of them. *)
Theorem C67_border_refuted : exists a b c y p, a < b < c /\ in_region ((a, c), (0, y)) p = true /\ in_region ((a, b), (0, y)) p = false /\ in_region ((b, c), (0, y)) p = false.
Proof.
  exists 0, 1, 2, 2, (1, 1). split; [lra|]. unfold in_region. cbn [fst snd].
  assert (X : Rmin 0 2 = 0 /\ Rmax 0 2 = 2 /\ Rmin 0 1 = 0 /\ Rmax 0 1 = 1 /\ Rmin 1 2 = 1 /\ Rmax 1 2 = 2) by (repeat split; try (apply Rmin_left; lra); try (apply Rmax_right; lra)).
  destruct X as (-> & -> & -> & -> & -> & ->).
  assert (Rltb 0 1 = true) as -> by (apply Rltb_true; lra). assert (Rltb 1 2 = true) as -> by (apply Rltb_true; lra).
  assert (Rltb 1 1 = false) as -> by (apply Rltb_false; lra). auto.
Qed.

Example C65_example : let bins := bins_2d [-1; 1] [-1; 1] in let t := Track (Some (0, 0)) (0, 0) in let u := Track None (0, 0) in
  exists v r, dut_efficiency bins (valid_hit (1, 1) (None, None)) 1 fresh [[t; u]; [u]; [u; t]] = Some (v, r) /\ r_efficiency r = 2/5 /\ r_chunks r = [1/2; 0/1; 1/2].
Proof.
  intros bins t u. assert (B : in_bin [-1; 1] 0 0 = true) by (apply in_bin_spec; cbn; split; [lia|split; [lra|left; lra]]).
  assert (V : valid_hit (1, 1) (None, None) t = true) by (apply C66_no_cut; discriminate). assert (V' : valid_hit (1, 1) (None, None) u = false) by reflexivity.
  destruct (C65_succeeds bins (valid_hit (1, 1) (None, None)) 1 fresh [t; u] [[u]; [u; t]]) as (v & r & E & F).
  - cbn [existsb]. now rewrite V.
  - assert (G : exists b, In b bins /\ b (0, 0) = true). { exists (fun p => in_bin [-1; 1] 0 (fst p) && in_bin [-1; 1] 0 (snd p)). split; [left; reflexivity|]. cbn [fst snd]. now rewrite B. }
    destruct G as (b & Ib & Hb). intros d [<-|[<-|[<-|[]]]]; exists b, u; (split; [assumption|]; split; [cbn; auto|assumption]).
  - exists (fun p => in_bin [-1; 1] 0 (fst p) && in_bin [-1; 1] 0 (snd p)). split; [left; reflexivity|]. cbn [concat app number intersection t u fst snd]. rewrite B. fold t u. rewrite V, V'. cbn. lia.
  - exists v, r. split; [exact E|]. apply C65_counts in E; [|cbn [existsb]; now rewrite V]. destruct E as (A1 & A2 & A3 & _).
    split.
    + rewrite A3, A1, A2. unfold bins, bins_2d. cbn [n_edge_bins length Nat.sub seq flat_map map app concat number intersection t u fst snd total fold_right]. rewrite B. fold t u. rewrite V, V'. cbn. lra.
    + rewrite F. cbn [map]. unfold chunk_spec, with_hit_spec, tracks_spec, bins, bins_2d.
      cbn [n_edge_bins length Nat.sub seq flat_map map app number intersection t u fst snd total fold_right]. rewrite B. fold t u. rewrite V, V'. cbn. reflexivity.
Qed.

Print Assumptions C65_counts.
Print Assumptions C65_chunking.
Print Assumptions C65_succeeds.
Print Assumptions C65_first_chunk_refuted.
Print Assumptions C65_efficiency.
Print Assumptions C65_edges.
Print Assumptions C65_previous_dut_refuted.
Print Assumptions C66_within.
Print Assumptions C66_shape.
Print Assumptions C66_no_cut.
Print Assumptions C66_monotone.
Print Assumptions C66_monotone_refuted.
Print Assumptions C67_region.
Print Assumptions C67_empty_chunk_refuted.
Print Assumptions C67_border_refuted.
