(** C129: the pages of plot_track_density and plot_charge_distribution. *)
From Coq Require Import List Arith ZArith Lia Reals Lra Bool Sorted.
From Verif Require Import GeometryModel GeometryProofs PrealignModel HoughProps RunningMeanModel RunningMeanProps SensorProps ChunksModel ChunksProps ClusterFileProps ResidualNodesProps DensityModel.
Import ListNotations.
Local Open Scope R_scope.

(** *** Specification *)
(** the area of the k-th of n columns (rows) with the given size, centred at the origin; the lower edge belongs to it, the upper one only for the last *)
Definition in_strip (size : R) (n k : nat) (x : R) : Prop :=
  let u := x + INR n * size / 2 in (INR k - 1) * size <= u /\ (u < INR k * size \/ (k = n /\ u = INR k * size)).
Definition in_pixel (s : sensor) (column row : nat) (p : R * R) : Prop := in_strip (column_size s) (n_columns s) column (fst p) /\ in_strip (row_size s) (n_rows s) row (snd p).
Definition on_area (s : sensor) (p : R * R) : Prop := Rabs (fst p) <= INR (n_columns s) * column_size s / 2 /\ Rabs (snd p) <= INR (n_rows s) * row_size s / 2.
(** the tables: event numbers do not decrease, fewer rows per event than the chunk size *)
Definition complete (chunk_size : nat) (rows : list row) : Prop := sorted row_event rows /\ (1 <= chunk_size)%nat /\ forall e, (event_rows row_event e rows < chunk_size)%nat.
(** each selected DUT has a table, which is not empty *)
Definition tables (file : nat -> option (list row)) (chunk_size : nat) (select_duts : list nat) : Prop :=
  forall d, In d select_duts -> exists rows, file d = Some rows /\ rows <> [] /\ complete chunk_size rows.
(** the two positions of a row: of the track and of the hit *)
Definition track_position (r : row) : option (R * R) := Some (row_offset r).
(** frame of a page: DUT, one entry for each pixel, the axes *)
Definition framed (s : sensor) (d : nat) (p : picture) : Prop :=
  p_dut p = d /\ p_columns p = n_columns s /\ p_rows p = n_rows s /\
  p_extent p = (- (INR (n_columns s) * column_size s) / 2, INR (n_columns s) * column_size s / 2, INR (n_rows s) * row_size s / 2, - (INR (n_rows s) * row_size s) / 2).
(** rows on the sensor or at a pixel *)
Definition at_pixel (s : sensor) (f : row -> option (R * R)) (column row_ : nat) (r : row) : Prop := exists p, f r = Some p /\ in_pixel s column row_ p.
Definition at_sensor (s : sensor) (f : row -> option (R * R)) (r : row) : Prop := exists p, f r = Some p /\ on_area s p.
(** a page of densities: the number in the title and at each pixel *)
Definition shows_density (s : sensor) (d : nat) (f : row -> option (R * R)) (rows : list row) (p : picture) : Prop :=
  framed s d p /\ (exists n, number (at_sensor s f) rows n /\ p_number p = INR n) /\
  forall column row_, (1 <= column <= n_columns s)%nat -> (1 <= row_ <= n_rows s)%nat ->
    exists m, number (at_pixel s f column row_) rows m /\ p_image p (row_ - 1)%nat (column - 1)%nat = match m with O => None | _ => Some (INR m) end.
(** number and sum of the charges of the rows with a property and a charge *)
Inductive charges (P : row -> Prop) : list row -> nat -> R -> Prop :=
| charges_nil : charges P [] 0 0
| charges_in r q l n x : P r -> row_charge r = Some q -> charges P l n x -> charges P (r :: l) (S n) (q + x)
| charges_out r l n x : ~ P r \/ row_charge r = None -> charges P l n x -> charges P (r :: l) n x.
Definition shows_charge (s : sensor) (d : nat) (f : row -> option (R * R)) (rows : list row) (p : picture) : Prop :=
  framed s d p /\ (exists n x, charges (at_sensor s f) rows n x /\ p_number p = INR n) /\
  forall column row_, (1 <= column <= n_columns s)%nat -> (1 <= row_ <= n_rows s)%nat ->
    exists m x, charges (at_pixel s f column row_) rows m x /\ p_image p (row_ - 1)%nat (column - 1)%nat = match m with O => None | _ => Some (x / INR m) end.

(** *** Proofs *)
Lemma number_ext {A} (P Q : A -> Prop) l n : (forall a, P a <-> Q a) -> number P l n -> number Q l n.
Proof. intros H N. induction N as [|a l n Pa N IH|a l n Pa N IH]; [constructor|apply number_in|apply number_out]; auto; [now apply H|]. intros K. apply Pa. now apply H. Qed.
Lemma extent_x s : pitches_positive s -> extent_size (x_extent s) = INR (n_columns s) * column_size s.
Proof.
  intros P. unfold extent_size. rewrite (proj1 (C31_extent s P)). cbn [fst snd]. destruct P as [P _]. pose proof (pos_INR (n_columns s)).
  rewrite Rabs_right; [lra|]. assert (0 <= INR (n_columns s) * column_size s) by (apply Rmult_le_pos; lra). lra.
Qed.
Lemma extent_y s : pitches_positive s -> extent_size (y_extent s) = INR (n_rows s) * row_size s.
Proof.
  intros P. unfold extent_size. rewrite (proj2 (C31_extent s P)). cbn [fst snd]. destruct P as [_ P]. pose proof (pos_INR (n_rows s)).
  rewrite Rabs_right; [lra|]. assert (0 <= INR (n_rows s) * row_size s) by (apply Rmult_le_pos; lra). lra.
Qed.
Lemma edges_length size n : length (pixel_edges size n) = S n.
Proof. unfold pixel_edges. rewrite linspace_length. lia. Qed.
Lemma edges_nth size n k : (k <= n)%nat -> (1 <= n)%nat -> nth k (pixel_edges (INR n * size) n) 0 = INR k * size - INR n * size / 2.
Proof.
  intros K N. unfold pixel_edges. replace (n + 1)%nat with (S n) by lia. rewrite linspace_nth by lia.
  assert (0 < INR n) by (apply lt_0_INR; lia). field. lra.
Qed.
Lemma bin_strip size n i x : (i < n)%nat -> in_bin (pixel_edges (INR n * size) n) i x = true <-> in_strip size n (S i) x.
Proof.
  intros L. rewrite in_bin_spec, edges_length, !edges_nth by lia. unfold in_strip. rewrite S_INR.
  split; [intros (_ & A & B)|intros (A & B)]; (split; [try lia; lra|]); [|split; [lra|]]; (destruct B as [B|[B C]]; [left; lra|right; split; [lia|lra]]).
Qed.
Lemma strip_range size n k x : 0 < size -> (1 <= k <= n)%nat -> in_strip size n k x -> Rabs x <= INR n * size / 2.
Proof.
  intros P K (A & B). assert (1 <= INR k) by (apply (le_INR 1); lia). assert (INR k <= INR n) by (apply le_INR; lia).
  assert (0 <= (INR k - 1) * size) by (apply Rmult_le_pos; lra). assert (INR k * size <= INR n * size) by (apply Rmult_le_compat_r; lra).
  apply Rabs_le. destruct B as [B|[_ B]]; lra.
Qed.
Lemma strip_exists size n x : 0 < size -> (1 <= n)%nat -> Rabs x <= INR n * size / 2 -> exists k, (1 <= k <= n)%nat /\ in_strip size n k x.
Proof.
  intros P N A. assert (- (INR n * size / 2) <= x <= INR n * size / 2) as B by (apply abs_le; exact A). clear A.
  set (u := x + INR n * size / 2). assert (0 <= u <= INR n * size) as U by (unfold u; lra).
  destruct (Rlt_or_le u (INR n * size)) as [L|L].
  - assert (0 <= u / size) as Q by (apply Rmult_le_pos; [lra|left; apply Rinv_0_lt_compat; exact P]).
    destruct (base_Int_part (u / size)) as [F1 F2]. set (z := Int_part (u / size)) in *.
    assert (-1 < z)%Z by (apply lt_IZR; lra). assert (IZR z * size <= u) as G1. { apply Rmult_le_reg_r with (/ size); [apply Rinv_0_lt_compat; exact P|]. rewrite Rmult_assoc, Rinv_r by lra. unfold Rdiv in F1. lra. }
    assert (u < (IZR z + 1) * size) as G2. { apply Rmult_lt_reg_r with (/ size); [apply Rinv_0_lt_compat; exact P|]. rewrite Rmult_assoc, Rinv_r by lra. unfold Rdiv in F2. lra. }
    exists (S (Z.to_nat z)). assert (INR (Z.to_nat z) = IZR z) as E by (rewrite INR_IZR_INZ; f_equal; lia).
    split.
    + split; [lia|]. assert (IZR z < INR n) as K by (apply Rmult_lt_reg_r with size; lra). rewrite INR_IZR_INZ in K. apply lt_IZR in K. lia.
    + unfold in_strip. fold u. rewrite S_INR, E. split; [lra|left; lra].
  - exists n. split; [lia|]. unfold in_strip. fold u. split; [|right; split; [reflexivity|lra]]. assert (u = INR n * size) by lra. lra.
Qed.
Lemma strip_unique size n k l x : 0 < size -> (1 <= k <= n)%nat -> (1 <= l <= n)%nat -> in_strip size n k x -> in_strip size n l x -> k = l.
Proof.
  assert (H : forall k l, 0 < size -> (1 <= k <= n)%nat -> (1 <= l <= n)%nat -> in_strip size n k x -> in_strip size n l x -> (k < l)%nat -> False).
  { clear. intros k l P K L (_ & A) (B & _) Q. assert (INR k + 1 <= INR l) by (rewrite <- S_INR; apply le_INR; lia).
    assert (INR k * size <= (INR l - 1) * size) by (apply Rmult_le_compat_r; lra). destruct A as [A|[A _]]; [lra|lia]. }
  intros P K L A B. destruct (Nat.lt_trichotomy k l) as [Q|[Q|Q]]; [destruct (H k l)|exact Q|destruct (H l k)]; auto.
Qed.

Section Sensor.
  Variable s : sensor.
  Hypothesis pos : pitches_positive s.
  Let xedges := pixel_edges (extent_size (x_extent s)) (n_columns s).
  Let yedges := pixel_edges (extent_size (y_extent s)) (n_rows s).
  Lemma cell_pixel i j p : (i < n_columns s)%nat -> (j < n_rows s)%nat -> in_cell xedges yedges i j p = true <-> exists q, p = Some q /\ in_pixel s (S i) (S j) q.
  Proof using pos.
    intros I J. unfold xedges, yedges. rewrite (extent_x s pos), (extent_y s pos). unfold in_cell, in_pixel. destruct p as [[x y]|].
    - rewrite andb_true_iff, !bin_strip by assumption. split; [intros A; exists (x, y); auto|intros (q & [= <-] & A); exact A].
    - split; [discriminate|intros (q & [=] & _)].
  Qed.
  (** the number of selected rows at a pixel *)
  Definition cell_number (sel : row -> bool) (f : row -> option (R * R)) (rows : list row) (i j : nat) : nat := length (filter (fun r => sel r && in_cell xedges yedges i j (f r)) rows).
  Lemma cell_number_spec sel f rows i j : (i < n_columns s)%nat -> (j < n_rows s)%nat -> number (fun r => sel r = true /\ at_pixel s f (S i) (S j) r) rows (cell_number sel f rows i j).
  Proof using pos. intros I J. apply number_filter. intros r _. rewrite andb_true_iff, cell_pixel by assumption. reflexivity. Qed.
  Lemma sum_INR (f : nat -> nat) l : sum (map (fun i => INR (f i)) l) = INR (fold_right Nat.add 0%nat (map f l)).
  Proof. induction l as [|a l IH]; [reflexivity|]. cbn [map sum fold_right]. rewrite plus_INR. unfold sum in IH. now rewrite IH. Qed.
  Lemma area_dec p : on_area s p \/ ~ on_area s p.
  Proof. unfold on_area. destruct (Rle_dec (Rabs (fst p)) (INR (n_columns s) * column_size s / 2)); [|tauto]. destruct (Rle_dec (Rabs (snd p)) (INR (n_rows s) * row_size s / 2)); tauto. Qed.
  Hypothesis columns : (1 <= n_columns s)%nat.
  Hypothesis rows_pos : (1 <= n_rows s)%nat.
  Lemma total_number sel f rows : exists n, number (fun r => sel r = true /\ at_sensor s f r) rows n /\
    sum (map (fun i => sum (map (fun j => INR (cell_number sel f rows i j)) (seq 0 (n_rows s)))) (seq 0 (n_columns s))) = INR n.
  Proof using pos columns rows_pos.
    eexists. split; [|erewrite map_ext by (intros i; apply sum_INR); apply sum_INR].
    set (column := fun i r => sel r = true /\ exists p, f r = Some p /\ in_strip (column_size s) (n_columns s) (S i) (fst p) /\ Rabs (snd p) <= INR (n_rows s) * row_size s / 2).
    destruct pos as [px py].
    assert (C : forall i, (i < n_columns s)%nat -> number (column i) rows (fold_right Nat.add 0%nat (map (cell_number sel f rows i) (seq 0 (n_rows s))))).
    { intros i I. apply (sum_number (fun j r => sel r = true /\ (j < n_rows s)%nat /\ at_pixel s f (S i) (S j) r)).
      - intros j J. pose proof (cell_number_spec sel f rows i j I J) as N. revert N. apply number_ext. intros r. tauto.
      - intros r _ (S1 & p & Ef & A & B). destruct (strip_exists _ _ _ py rows_pos B) as (k & K & D). exists (k - 1)%nat. split; [lia|]. split; [exact S1|]. split; [lia|]. exists p. split; [exact Ef|]. split; [exact A|]. replace (S (k - 1)) with k by lia. exact D.
      - intros r j k _ (_ & J & p & Ep & _ & A) (_ & K & q & Eq & _ & B). rewrite Ep in Eq. injection Eq as <-. assert (S j = S k) as E by (apply (strip_unique (row_size s) (n_rows s) (S j) (S k) (snd p) py); [lia|lia|exact A|exact B]). lia.
      - intros r j _ (S1 & J & p & Ep & A & B). split; [exact S1|]. exists p. split; [exact Ep|]. split; [exact A|]. apply (strip_range _ _ (S j)); [exact py|lia|exact B].
      - intros r _. unfold column. destruct (sel r); [|right; intros (K & _); discriminate]. destruct (f r) as [p|]; [|right; intros (_ & p & K & _); discriminate].
        destruct (in_bin (pixel_edges (INR (n_columns s) * column_size s) (n_columns s)) i (fst p)) eqn:Eb.
        + apply bin_strip in Eb; [|exact I]. destruct (Rle_dec (Rabs (snd p)) (INR (n_rows s) * row_size s / 2)); [left; split; [reflexivity|exists p; auto]|]. right. intros (_ & q & [= <-] & _ & K). contradiction.
        + right. intros (_ & q & [= <-] & K & _). apply bin_strip in K; [|exact I]. congruence. }
    apply (sum_number (fun i r => (i < n_columns s)%nat /\ column i r)).
    - intros i I. specialize (C i I). revert C. apply number_ext. intros r. tauto.
    - intros r _ (S1 & p & Ef & A & B). destruct (strip_exists _ _ _ px columns A) as (k & K & D). exists (k - 1)%nat. split; [lia|]. split; [lia|]. split; [exact S1|]. exists p. split; [exact Ef|]. replace (S (k - 1)) with k by lia. split; assumption.
    - intros r j k _ (J & _ & p & Ep & A & _) (K & _ & q & Eq & B & _). rewrite Ep in Eq. injection Eq as <-. assert (S j = S k) as E by (apply (strip_unique (column_size s) (n_columns s) (S j) (S k) (fst p) px); [lia|lia|exact A|exact B]). lia.
    - intros r j _ (J & S1 & p & Ep & A & B). split; [exact S1|]. exists p. split; [exact Ep|]. split; [|exact B]. apply (strip_range _ _ (S j)); [exact px|lia|exact A].
    - intros r _. destruct (sel r); [|right; intros (K & _); discriminate]. unfold at_sensor. destruct (f r) as [p|]; [|right; intros (_ & p & K & _); discriminate].
      destruct (area_dec p) as [Y|N]; [left; split; [reflexivity|exists p; auto]|right; intros (_ & q & [= <-] & K); contradiction].
  Qed.
End Sensor.

Lemma filter_map_length {A B} (f : A -> B) (P : B -> bool) l : length (filter P (map f l)) = length (filter (fun a => P (f a)) l).
Proof. induction l as [|a l IH]; [reflexivity|]. cbn. destruct (P (f a)); cbn; now rewrite IH. Qed.
Lemma fold_counts xe ye (f : row -> option (R * R)) cs : forall a,
  let b := fold_left (fun a c => add_array a (count_array xe ye (map f c))) cs a in
  a_columns b = a_columns a /\ a_rows b = a_rows a /\ forall i j, entry b i j = (entry a i j + length (filter (fun r => in_cell xe ye i j (f r)) (concat cs)))%nat.
Proof.
  induction cs as [|c cs IH]; intros a; cbn [fold_left]; [repeat split; intros; cbn; lia|].
  destruct (IH (add_array a (count_array xe ye (map f c)))) as (A & B & C). cbv zeta. rewrite A, B. split; [reflexivity|]. split; [reflexivity|].
  intros i j. rewrite C. cbn [concat add_array entry count_array]. rewrite filter_app, app_length, filter_map_length. lia.
Qed.
Lemma density_entries s c cs : exists v, density_vars s (c :: cs) = Some v /\ v_x_size v = extent_size (x_extent s) /\ v_y_size v = extent_size (y_extent s) /\
  (a_columns (v_tracks v) = n_columns s /\ a_rows (v_tracks v) = n_rows s /\ forall i j, entry (v_tracks v) i j = cell_number s (fun _ => true) track_position (concat (c :: cs)) i j) /\
  (a_columns (v_hits v) = n_columns s /\ a_rows (v_hits v) = n_rows s /\ forall i j, entry (v_hits v) i j = cell_number s (fun _ => true) row_hit (concat (c :: cs)) i j).
Proof.
  eexists. split; [reflexivity|]. cbn [v_x_size v_y_size v_tracks v_hits]. split; [reflexivity|]. split; [reflexivity|].
  assert (G : forall f, let b := fold_left (fun a c => add_array a (count_array (pixel_edges (extent_size (x_extent s)) (n_columns s)) (pixel_edges (extent_size (y_extent s)) (n_rows s)) (map f c))) cs
      (count_array (pixel_edges (extent_size (x_extent s)) (n_columns s)) (pixel_edges (extent_size (y_extent s)) (n_rows s)) (map f c)) in
    a_columns b = n_columns s /\ a_rows b = n_rows s /\ forall i j, entry b i j = cell_number s (fun _ => true) f (concat (c :: cs)) i j).
  { intros f. destruct (fold_counts (pixel_edges (extent_size (x_extent s)) (n_columns s)) (pixel_edges (extent_size (y_extent s)) (n_rows s)) f cs
      (count_array (pixel_edges (extent_size (x_extent s)) (n_columns s)) (pixel_edges (extent_size (y_extent s)) (n_rows s)) (map f c))) as (A & B & C).
    cbv zeta. rewrite A, B. cbn [count_array a_columns a_rows]. unfold n_edge_bins. rewrite !edges_length. split; [lia|]. split; [lia|].
    intros i j. rewrite C. cbn [count_array entry concat]. unfold cell_number. cbn [andb]. rewrite filter_app, app_length, filter_map_length. reflexivity. }
  split; apply G.
Qed.
Lemma charged_concat (f : row -> option (R * R)) chunks : concat (map (charged f) chunks) = charged f (concat chunks).
Proof. induction chunks as [|c cs IH]; [reflexivity|]. cbn [map concat]. rewrite IH. unfold charged. now rewrite flat_map_app. Qed.
Definition has_charge (r : row) : bool := match row_charge r with Some _ => true | None => false end.
Lemma charged_number (inb : option (R * R) -> bool) f rows : spec_number inb (charged f rows) = length (filter (fun r => has_charge r && inb (f r)) rows).
Proof. induction rows as [|r rows IH]; [reflexivity|]. unfold charged, has_charge in *. cbn [flat_map filter]. destruct (row_charge r); cbn [app spec_number andb]; [destruct (inb (f r)); cbn [length]|]; now rewrite IH. Qed.
Lemma charged_sum (inb : option (R * R) -> bool) f (P : row -> Prop) rows : (forall r, inb (f r) = true <-> P r) ->
  charges P rows (spec_number inb (charged f rows)) (spec_sum inb (charged f rows)).
Proof.
  intros H. induction rows as [|r rows IH]; [constructor|]. unfold charged in *. cbn [flat_map]. destruct (row_charge r) as [q|] eqn:E; cbn [app spec_number spec_sum].
  - destruct (inb (f r)) eqn:B.
    + apply charges_in; [apply H; exact B|exact E|exact IH].
    + apply charges_out; [left; intros K; apply H in K; congruence|exact IH].
  - apply charges_out; [right; exact E|exact IH].
Qed.
Lemma number_charges (P : row -> Prop) rows n : number (fun r => has_charge r = true /\ P r) rows n -> exists x, charges P rows n x.
Proof.
  intros N. induction N as [|r l n (A & B) N (x & IH)|r l n A N (x & IH)]; [exists 0; constructor| |].
  - unfold has_charge in A. destruct (row_charge r) as [q|] eqn:E; [|discriminate]. exists (q + x). apply charges_in; assumption.
  - exists x. apply charges_out; [|exact IH]. unfold has_charge in A. destruct (row_charge r) eqn:E; [left; tauto|right; reflexivity].
Qed.
Lemma charge_entries s c cs : exists v, charge_vars s (c :: cs) = Some v /\ v_x_size v = extent_size (x_extent s) /\ v_y_size v = extent_size (y_extent s) /\
  let spec f a := a_columns a = n_columns s /\ a_rows a = n_rows s /\ forall i j, entry a i j =
    let inb := in_cell (pixel_edges (extent_size (x_extent s)) (n_columns s)) (pixel_edges (extent_size (y_extent s)) (n_rows s)) i j in
    let n := spec_number inb (charged f (concat (c :: cs))) in (if (n =? 0)%nat then None else Some (spec_sum inb (charged f (concat (c :: cs))) / INR n), INR n) in
  spec track_position (v_tracks v) /\ spec row_hit (v_hits v).
Proof.
  eexists. split; [reflexivity|]. cbn [v_x_size v_y_size v_tracks v_hits]. split; [reflexivity|]. split; [reflexivity|]. cbv zeta. cbn [a_columns a_rows entry]. unfold n_edge_bins. rewrite !edges_length.
  split; (split; [lia|]; split; [lia|]; intros i j; rewrite C40_running by discriminate; rewrite charged_concat; reflexivity).
Qed.

Lemma chunks_of cs rows : complete cs rows -> exists chunks, row_chunks cs rows = Some chunks /\ concat chunks = rows.
Proof. intros (S & P & E). destruct (chunks_ok row_event rows cs S P E) as (ys & Ey & Ec & _). exists (map fst ys). split; [|exact Ec]. unfold row_chunks. now rewrite Ey. Qed.

Lemma plot_duts_spec {A} (vars_of : sensor -> list (list row) -> option (vars A)) pages tel file cs (ok : nat -> list row -> Prop) (D : nat -> list row -> picture -> picture -> Prop) select :
  (forall d rows chunks, In d select -> file d = Some rows -> chunks <> [] -> concat chunks = rows ->
    exists w, vars_of (tel d) chunks = Some w /\ ((ok d rows /\ exists p q, pages d w = Some [p; q] /\ D d rows p q) \/ (~ ok d rows /\ pages d w = None))) ->
  tables file cs select -> forall v,
  ((forall d rows, In d select -> file d = Some rows -> ok d rows) -> exists ps, plot_duts vars_of pages tel file cs v select = Some ps /\ length ps = (2 * length select)%nat /\
    forall k d, nth_error select k = Some d -> exists rows p q, file d = Some rows /\ nth_error ps (2 * k) = Some p /\ nth_error ps (2 * k + 1) = Some q /\ D d rows p q) /\
  (forall d rows, In d select -> file d = Some rows -> ~ ok d rows -> plot_duts vars_of pages tel file cs v select = None).
Proof.
  induction select as [|d ds IH]; intros H T v.
  - split; [intros _; exists []; split; [reflexivity|]; split; [reflexivity|]; intros [|k] d; discriminate|intros d rows []].
  - destruct (T d (or_introl eq_refl)) as (rows & Ef & Nr & C). destruct (chunks_of cs rows C) as (chunks & Ec & Ek).
    assert (Nc : chunks <> []) by (intros ->; cbn in Ek; congruence).
    destruct (H d rows chunks (or_introl eq_refl) Ef Nc Ek) as (w & Ew & Hw).
    assert (H' : forall d0 rows chunks, In d0 ds -> file d0 = Some rows -> chunks <> [] -> concat chunks = rows ->
      exists w, vars_of (tel d0) chunks = Some w /\ ((ok d0 rows /\ exists p q, pages d0 w = Some [p; q] /\ D d0 rows p q) \/ (~ ok d0 rows /\ pages d0 w = None))) by (intros d0 r c I; apply H; now right).
    assert (T' : tables file cs ds) by (intros d0 I; apply T; now right).
    destruct (IH H' T' (Some w)) as (IH1 & IH2). cbn [plot_duts]. rewrite Ef, Ec, Ew. split.
    + intros O. destruct Hw as [(_ & p & q & -> & Dp)|(No & _)]; [|destruct No; apply O; [now left|exact Ef]].
      destruct IH1 as (ps & -> & L & N); [intros d0 r I; apply O; now right|]. exists ([p; q] ++ ps). split; [reflexivity|]. split; [rewrite app_length, L; cbn [length]; lia|].
      intros [|k] d0 E.
      * injection E as <-. exists rows, p, q. auto.
      * cbn [nth_error] in E. destruct (N k d0 E) as (r & p' & q' & F & P1 & P2 & D'). exists r, p', q'. split; [exact F|]. replace (2 * S k)%nat with (S (S (2 * k))) by lia.
        replace (S (S (2 * k)) + 1)%nat with (S (S (2 * k + 1))) by lia. cbn [app nth_error]. auto.
    + intros d0 r I F No. destruct Hw as [(O & p & q & -> & _)|(_ & ->)]; [|reflexivity].
      destruct I as [<-|I]; [rewrite Ef in F; injection F as <-; contradiction|]. now rewrite (IH2 d0 r I F No).
Qed.
Lemma number_none {A} (P : A -> Prop) l n : number P l n -> (n = 0%nat <-> forall a, In a l -> ~ P a).
Proof.
  intros N. induction N as [|a l n Pa N IH|a l n Pa N IH]; [split; [intros _ a []|reflexivity]| |].
  - split; [discriminate|intros K; destruct (K a); [now left|exact Pa]].
  - rewrite IH. split; [intros K b [<-|I]; auto|intros K b I; apply K; now right].
Qed.
Lemma number_some {A} (P : A -> Prop) l n : number P l n -> n <> 0%nat -> exists a, In a l /\ P a.
Proof. intros N. induction N as [|a l n Pa N IH|a l n Pa N IH]; intros K; [congruence|exists a; split; [now left|exact Pa]|]. destruct (IH K) as (b & I & Pb). exists b. split; [now right|exact Pb]. Qed.

(** the sensors of the telescope *)
Definition sensors (telescope : nat -> sensor) (select_duts : list nat) : Prop :=
  forall d, In d select_duts -> pitches_positive (telescope d) /\ (1 <= n_columns (telescope d))%nat /\ (1 <= n_rows (telescope d))%nat.

Lemma page_density s d rows f v a : pitches_positive s -> (1 <= n_columns s)%nat -> (1 <= n_rows s)%nat -> v_x_size v = extent_size (x_extent s) -> v_y_size v = extent_size (y_extent s) ->
  a_columns a = n_columns s -> a_rows a = n_rows s -> (forall i j, entry a i j = cell_number s (fun _ => true) f rows i j) ->
  shows_density s d f rows (page not_zero INR d v a) /\ exists n, number (at_sensor s f) rows n /\ total INR a = INR n.
Proof.
  intros P C R Vx Vy Ac Ar E.
  assert (T : exists n, number (at_sensor s f) rows n /\ total INR a = INR n).
  { destruct (total_number s P C R (fun _ => true) f rows) as (n & N & T). exists n. split; [revert N; apply number_ext; intros r; tauto|]. rewrite <- T. unfold total. rewrite Ac, Ar.
    f_equal. apply map_ext. intros i. f_equal. apply map_ext. intros j. now rewrite E. }
  split; [|exact T]. split; [|split; [exact T|]].
  - unfold framed. cbn [page p_dut p_columns p_rows p_extent]. rewrite Vx, Vy, (extent_x s P), (extent_y s P), Ac, Ar. auto.
  - intros c r Hc Hr. eexists. split; [|cbn [page p_image]; rewrite E; reflexivity].
    pose proof (cell_number_spec s P (fun _ => true) f rows (c - 1) (r - 1) ltac:(lia) ltac:(lia)) as N. replace (S (c - 1)) with c in N by lia. replace (S (r - 1)) with r in N by lia.
    revert N. apply number_ext. intros x. tauto.
Qed.
Lemma page_charge s d rows f v a : pitches_positive s -> (1 <= n_columns s)%nat -> (1 <= n_rows s)%nat -> v_x_size v = extent_size (x_extent s) -> v_y_size v = extent_size (y_extent s) ->
  a_columns a = n_columns s -> a_rows a = n_rows s -> (forall i j, entry a i j =
    let inb := in_cell (pixel_edges (extent_size (x_extent s)) (n_columns s)) (pixel_edges (extent_size (y_extent s)) (n_rows s)) i j in
    let n := spec_number inb (charged f rows) in (if (n =? 0)%nat then None else Some (spec_sum inb (charged f rows) / INR n), INR n)) ->
  shows_charge s d f rows (page fst snd d v a).
Proof.
  intros P C R Vx Vy Ac Ar E. split; [|split].
  - unfold framed. cbn [page p_dut p_columns p_rows p_extent]. rewrite Vx, Vy, (extent_x s P), (extent_y s P), Ac, Ar. auto.
  - destruct (total_number s P C R has_charge f rows) as (n & N & T). destruct (number_charges _ _ _ N) as (x & X). exists n, x. split; [exact X|]. cbn [page p_number]. rewrite <- T. unfold total. rewrite Ac, Ar.
    f_equal. apply map_ext. intros i. f_equal. apply map_ext. intros j. rewrite E. cbv zeta. cbn [snd]. rewrite charged_number. reflexivity.
  - intros c r Hc Hr. do 2 eexists. split.
    + apply (charged_sum (in_cell (pixel_edges (extent_size (x_extent s)) (n_columns s)) (pixel_edges (extent_size (y_extent s)) (n_rows s)) (c - 1) (r - 1)) f).
      intros t. rewrite cell_pixel by (auto; lia). replace (S (c - 1)) with c by lia. replace (S (r - 1)) with r by lia. reflexivity.
    + cbn [page p_image]. rewrite E. cbv zeta. cbn [fst]. destruct (spec_number _ _); reflexivity.
Qed.

(** Density: if each selected DUT has tracks and hits on the sensor there are two pages for each, with the numbers of tracks and of hits at each pixel and on the sensor;
    otherwise no complete result. *)
Theorem C129_density : forall telescope file chunk_size select_duts, sensors telescope select_duts -> tables file chunk_size select_duts ->
  let run := plot_track_density telescope file chunk_size select_duts in
  let seen d rows := (exists r, In r rows /\ at_sensor (telescope d) track_position r) /\ (exists r, In r rows /\ at_sensor (telescope d) row_hit r) in
  ((forall d rows, In d select_duts -> file d = Some rows -> seen d rows) -> exists ps, run = Some ps /\ length ps = (2 * length select_duts)%nat /\
    forall k d, nth_error select_duts k = Some d -> exists rows p q, file d = Some rows /\ nth_error ps (2 * k) = Some p /\ nth_error ps (2 * k + 1) = Some q /\
      shows_density (telescope d) d track_position rows p /\ shows_density (telescope d) d row_hit rows q) /\
  (forall d rows, In d select_duts -> file d = Some rows -> ~ seen d rows -> run = None).
Proof.
  intros tel file cs select S T run seen.
  apply (plot_duts_spec density_vars density_pages tel file cs seen (fun d rows p q => shows_density (tel d) d track_position rows p /\ shows_density (tel d) d row_hit rows q)); [|exact T].
  intros d rows chunks I F N E. destruct (S d I) as (P & C & R). destruct chunks as [|c cs']; [congruence|].
  destruct (density_entries (tel d) c cs') as (w & Ew & Vx & Vy & (Tc & Tr & Te) & (Hc & Hr & He)). rewrite E in Te, He. exists w. split; [exact Ew|].
  destruct (page_density (tel d) d rows track_position w _ P C R Vx Vy Tc Tr Te) as (S1 & n & N1 & E1). destruct (page_density (tel d) d rows row_hit w _ P C R Vx Vy Hc Hr He) as (S2 & m & N2 & E2).
  unfold density_pages. rewrite E1, E2. destruct n as [|n].
  - right. split; [|rewrite (proj2 (Reqb_true _ _) eq_refl); reflexivity]. intros ((r & Ir & Pr) & _). exact (proj1 (number_none _ _ _ N1) eq_refl r Ir Pr).
  - destruct m as [|m].
    + right. split; [|rewrite (proj2 (Reqb_true (INR 0) 0) eq_refl), orb_true_r; reflexivity]. intros (_ & r & Ir & Pr). exact (proj1 (number_none _ _ _ N2) eq_refl r Ir Pr).
    + left. split; [split; [apply (number_some _ _ _ N1)|apply (number_some _ _ _ N2)]; discriminate|].
      rewrite (proj2 (Reqb_false (INR (Datatypes.S n)) 0)), (proj2 (Reqb_false (INR (Datatypes.S m)) 0)) by (apply not_0_INR; discriminate). cbn [orb]. eauto.
Qed.
(** Charge: two pages for each selected DUT, with the mean charge of the tracks with charge at each pixel. *)
Theorem C129_charge : forall telescope file chunk_size select_duts, sensors telescope select_duts -> tables file chunk_size select_duts ->
  exists ps, plot_charge_distribution telescope file chunk_size select_duts = Some ps /\ length ps = (2 * length select_duts)%nat /\
    forall k d, nth_error select_duts k = Some d -> exists rows p q, file d = Some rows /\ nth_error ps (2 * k) = Some p /\ nth_error ps (2 * k + 1) = Some q /\
      shows_charge (telescope d) d track_position rows p /\ shows_charge (telescope d) d row_hit rows q.
Proof.
  intros tel file cs select S T.
  refine (proj1 (plot_duts_spec charge_vars charge_pages tel file cs (fun _ _ => True) (fun d rows p q => shows_charge (tel d) d track_position rows p /\ shows_charge (tel d) d row_hit rows q) select _ T None) _); [|auto].
  intros d rows chunks I F N E. destruct (S d I) as (P & C & R). destruct chunks as [|c cs']; [congruence|].
  destruct (charge_entries (tel d) c cs') as (w & Ew & Vx & Vy & (Tc & Tr & Te) & (Hc & Hr & He)). rewrite E in Te, He. exists w. split; [exact Ew|]. left. split; [exact Logic.I|].
  do 2 eexists. split; [reflexivity|]. split; apply page_charge; assumption.
Qed.
(** The pages do not depend on the chunk size. *)
Definition same_page (p q : picture) : Prop :=
  p_dut p = p_dut q /\ p_number p = p_number q /\ p_columns p = p_columns q /\ p_rows p = p_rows q /\ p_extent p = p_extent q /\
  forall i j, (i < p_columns p)%nat -> (j < p_rows p)%nat -> p_image p j i = p_image q j i.
Lemma charges_unique P l n x m y : charges P l n x -> charges P l m y -> n = m /\ x = y.
Proof.
  intros C. revert m y. induction C as [|r q l n x A B C IH|r l n x A C IH]; intros m y K; inversion K; subst.
  - split; reflexivity.
  - match goal with H : charges P l _ _ |- _ => destruct (IH _ _ H) as [-> ->] end. match goal with H : row_charge r = Some ?q' |- _ => assert (q = q') as -> by congruence end. auto.
  - exfalso. match goal with H : _ \/ _ |- _ => destruct H; congruence end.
  - exfalso. destruct A; congruence.
  - match goal with H : charges P l _ _ |- _ => exact (IH _ _ H) end.
Qed.
Lemma framed_same s d p q : framed s d p -> framed s d q -> p_dut p = p_dut q /\ p_columns p = p_columns q /\ p_rows p = p_rows q /\ p_extent p = p_extent q.
Proof. intros (-> & -> & -> & ->) (-> & -> & -> & ->). auto. Qed.
Lemma density_same s d f rows p q : shows_density s d f rows p -> shows_density s d f rows q -> same_page p q.
Proof.
  intros (Fp & (n & Np & Ep) & Ip) (Fq & (m & Nq & Eq) & Iq). destruct (framed_same _ _ _ _ Fp Fq) as (A & B & C & D).
  split; [exact A|]. split; [rewrite Ep, Eq; f_equal; exact (number_unique _ _ _ _ Np Nq)|]. repeat (split; [assumption|]). intros i j I J. destruct Fp as (_ & Cp & Rp & _). rewrite Cp in I. rewrite Rp in J.
  destruct (Ip (S i) (S j) ltac:(lia) ltac:(lia)) as (a & Na & Ea). destruct (Iq (S i) (S j) ltac:(lia) ltac:(lia)) as (b & Nb & Eb).
  replace (S j - 1)%nat with j in * by lia. replace (S i - 1)%nat with i in * by lia. rewrite Ea, Eb. rewrite (number_unique _ _ _ _ Na Nb). reflexivity.
Qed.
Lemma charge_same s d f rows p q : shows_charge s d f rows p -> shows_charge s d f rows q -> same_page p q.
Proof.
  intros (Fp & (n & x & Np & Ep) & Ip) (Fq & (m & y & Nq & Eq) & Iq). destruct (framed_same _ _ _ _ Fp Fq) as (A & B & C & D).
  split; [exact A|]. split; [rewrite Ep, Eq; f_equal; exact (proj1 (charges_unique _ _ _ _ _ _ Np Nq))|]. repeat (split; [assumption|]). intros i j I J. destruct Fp as (_ & Cp & Rp & _). rewrite Cp in I. rewrite Rp in J.
  destruct (Ip (S i) (S j) ltac:(lia) ltac:(lia)) as (a & u & Na & Ea). destruct (Iq (S i) (S j) ltac:(lia) ltac:(lia)) as (b & w & Nb & Eb).
  replace (S j - 1)%nat with j in * by lia. replace (S i - 1)%nat with i in * by lia. rewrite Ea, Eb. destruct (charges_unique _ _ _ _ _ _ Na Nb) as [-> ->]. reflexivity.
Qed.
Lemma pairs_same (ps qs : list picture) m (D : nat -> picture -> picture -> Prop) : length ps = (2 * m)%nat -> length qs = (2 * m)%nat ->
  (forall k, (k < m)%nat -> exists p q p' q', nth_error ps (2 * k) = Some p /\ nth_error ps (2 * k + 1) = Some q /\ nth_error qs (2 * k) = Some p' /\ nth_error qs (2 * k + 1) = Some q' /\ same_page p p' /\ same_page q q') ->
  Forall2 same_page ps qs.
Proof.
  revert ps qs. induction m as [|m IH]; intros ps qs L L' H.
  - destruct ps; [|cbn in L; lia]. destruct qs; [constructor|cbn in L'; lia].
  - destruct ps as [|p [|q ps]]; [cbn in L; lia|cbn in L; lia|]. destruct qs as [|p' [|q' qs]]; [cbn in L'; lia|cbn in L'; lia|].
    destruct (H 0%nat ltac:(lia)) as (a & b & a' & b' & [= <-] & [= <-] & [= <-] & [= <-] & A & B). constructor; [exact A|]. constructor; [exact B|].
    apply IH; [cbn [length] in L; lia|cbn [length] in L'; lia|]. intros k K. destruct (H (S k) ltac:(lia)) as (a & b & a' & b' & X). exists a, b, a', b'.
    replace (2 * S k)%nat with (S (S (2 * k))) in X by lia. replace (S (S (2 * k)) + 1)%nat with (S (S (2 * k + 1))) in X by lia. cbn [nth_error] in X. exact X.
Qed.
Theorem C129_chunk_size : forall telescope file chunk_size chunk_size' select_duts, sensors telescope select_duts -> tables file chunk_size select_duts -> tables file chunk_size' select_duts ->
  (forall ps ps', plot_track_density telescope file chunk_size select_duts = Some ps -> plot_track_density telescope file chunk_size' select_duts = Some ps' -> Forall2 same_page ps ps') /\
  (forall ps ps', plot_charge_distribution telescope file chunk_size select_duts = Some ps -> plot_charge_distribution telescope file chunk_size' select_duts = Some ps' -> Forall2 same_page ps ps') /\
  (plot_track_density telescope file chunk_size select_duts = None <-> plot_track_density telescope file chunk_size' select_duts = None).
Proof.
  intros tel file cs cs' select S T T'.
  assert (G : forall (D : nat -> list row -> picture -> picture -> Prop) ps ps', (forall d rows p q p' q', D d rows p q -> D d rows p' q' -> same_page p p' /\ same_page q q') ->
    (length ps = (2 * length select)%nat /\ forall k d, nth_error select k = Some d -> exists rows p q, file d = Some rows /\ nth_error ps (2 * k) = Some p /\ nth_error ps (2 * k + 1) = Some q /\ D d rows p q) ->
    (length ps' = (2 * length select)%nat /\ forall k d, nth_error select k = Some d -> exists rows p q, file d = Some rows /\ nth_error ps' (2 * k) = Some p /\ nth_error ps' (2 * k + 1) = Some q /\ D d rows p q) -> Forall2 same_page ps ps').
  { intros D ps ps' Sm (L & A) (L' & B). apply (pairs_same ps ps' (length select) (fun _ _ _ => True) L L'). intros k K. destruct (nth_error select k) as [d|] eqn:E; [|apply nth_error_None in E; lia].
    destruct (A k d E) as (rows & p & q & F & P1 & P2 & D1). destruct (B k d E) as (rows' & p' & q' & F' & P1' & P2' & D2). rewrite F in F'. injection F' as <-. exists p, q, p', q'. repeat (split; [assumption|]). exact (Sm _ _ _ _ _ _ D1 D2). }
  pose proof (C129_density tel file cs select S T) as [Y N]. pose proof (C129_density tel file cs' select S T') as [Y' N'].
  (* the density run succeeds if and only if each DUT has tracks and hits on the sensor *)
  assert (Dec : forall d, In d select -> exists rows, file d = Some rows /\ (((exists r, In r rows /\ at_sensor (tel d) track_position r) /\ (exists r, In r rows /\ at_sensor (tel d) row_hit r)) \/ ~ ((exists r, In r rows /\ at_sensor (tel d) track_position r) /\ (exists r, In r rows /\ at_sensor (tel d) row_hit r)))).
  { intros d I. destruct (T d I) as (rows & F & _). exists rows. split; [exact F|].
    assert (K : forall f, (exists r, In r rows /\ at_sensor (tel d) f r) \/ ~ (exists r, In r rows /\ at_sensor (tel d) f r)).
    { intros f. clear. induction rows as [|r rows IH]; [right; intros (r & [] & _)|]. destruct IH as [(x & A & B)|IH]; [left; exists x; split; [now right|exact B]|].
      destruct (f r) as [p|] eqn:E; [destruct (area_dec (tel d) p) as [Z|Z]|].
      - left. exists r. split; [now left|]. exists p. auto.
      - right. intros (x & [<-|A] & q & Eq & B); [rewrite E in Eq; injection Eq as <-; contradiction|apply IH; exists x; split; [exact A|exists q; auto]].
      - right. intros (x & [<-|A] & q & Eq & B); [congruence|apply IH; exists x; split; [exact A|exists q; auto]]. }
    destruct (K track_position), (K row_hit); tauto. }
  assert (All : (forall d rows, In d select -> file d = Some rows -> (exists r, In r rows /\ at_sensor (tel d) track_position r) /\ (exists r, In r rows /\ at_sensor (tel d) row_hit r)) \/
    exists d rows, In d select /\ file d = Some rows /\ ~ ((exists r, In r rows /\ at_sensor (tel d) track_position r) /\ (exists r, In r rows /\ at_sensor (tel d) row_hit r))).
  { clear - Dec. induction select as [|d ds IH]; [left; intros d rows []|].
    destruct (Dec d (or_introl eq_refl)) as (rows & F & [A|A]); [|right; exists d, rows; split; [now left|auto]].
    destruct IH as [H|(e & r & I & Z)]; [intros e I; apply Dec; now right| |right; exists e, r; split; [now right|exact Z]].
    left. intros e r [<-|I] Fe; [rewrite F in Fe; injection Fe as <-; exact A|exact (H e r I Fe)]. }
  split; [|split].
  - intros ps ps' E E'. destruct All as [All|(d & rows & I & F & Z)]; [|rewrite (N d rows I F Z) in E; discriminate].
    destruct (Y All) as (qs & Eq & L & A). destruct (Y' All) as (qs' & Eq' & L' & A'). rewrite E in Eq. rewrite E' in Eq'. injection Eq as <-. injection Eq' as <-.
    apply (G (fun d rows p q => shows_density (tel d) d track_position rows p /\ shows_density (tel d) d row_hit rows q)); [|split; assumption|split; assumption].
    intros d rows p q p' q' (X1 & X2) (X3 & X4). split; [exact (density_same _ _ _ _ _ _ X1 X3)|exact (density_same _ _ _ _ _ _ X2 X4)].
  - intros ps ps' E E'. destruct (C129_charge tel file cs select S T) as (qs & Eq & L & A). destruct (C129_charge tel file cs' select S T') as (qs' & Eq' & L' & A').
    rewrite E in Eq. rewrite E' in Eq'. injection Eq as <-. injection Eq' as <-.
    apply (G (fun d rows p q => shows_charge (tel d) d track_position rows p /\ shows_charge (tel d) d row_hit rows q)); [|split; assumption|split; assumption].
    intros d rows p q p' q' (X1 & X2) (X3 & X4). split; [exact (charge_same _ _ _ _ _ _ X1 X3)|exact (charge_same _ _ _ _ _ _ X2 X4)].
  - destruct All as [All|(d & rows & I & F & Z)]; [|rewrite (N d rows I F Z), (N' d rows I F Z); tauto].
    destruct (Y All) as (qs & -> & _). destruct (Y' All) as (qs' & -> & _). split; discriminate.
Qed.

(** The position of a pixel (of a hit of a cluster with one hit) belongs to this pixel. *)
Theorem C129_centre : forall s column row_ p, pitches_positive s -> (1 <= column <= n_columns s)%nat -> (1 <= row_ <= n_rows s)%nat ->
  index_to_local s (INR column) (INR row_) = Some p -> forall c r, (1 <= c <= n_columns s)%nat -> (1 <= r <= n_rows s)%nat -> (in_pixel s c r (vx p, vy p) <-> c = column /\ r = row_).
Proof.
  intros s column row_ p P C R E. destruct P as [px py].
  assert (B : index_in_range s (INR column) (INR row_)).
  { unfold index_in_range. assert (INR 1 <= INR column <= INR (n_columns s)) by (split; apply le_INR; lia). assert (INR 1 <= INR row_ <= INR (n_rows s)) by (split; apply le_INR; lia). cbn [INR] in *. lra. }
  rewrite (index_to_local_some s _ _ B) in E. injection E as <-. unfold vx, vy. cbn [fst snd].
  assert (G : forall size n k, 0 < size -> in_strip size n k (size * (INR k - 1 / 2 - 1 / 2 * INR n))) by (intros size n k Ps; unfold in_strip; split; [|left]; lra).
  intros c r Hc Hr. unfold in_pixel. cbn [fst snd]. split; [|intros (-> & ->); split; apply G; assumption].
  intros (A1 & A2). split; [exact (strip_unique _ _ _ _ _ px Hc C A1 (G _ _ _ px))|exact (strip_unique _ _ _ _ _ py Hr R A2 (G _ _ _ py))].
Qed.

(** Desired: the value at the point (x, y) of the axes is that of the pixel at this local position.  It is that of the pixel at (x, - y): the image has the first row at the
    corner (left, bottom), and the bottom of the page is the largest y. *)
Lemma Int_part_eq z x : IZR z <= x < IZR z + 1 -> Int_part x = z.
Proof.
  intros (A & B). destruct (base_Int_part x) as [C D]. assert (IZR (Int_part x) < IZR z + 1) by lra. assert (IZR z < IZR (Int_part x) + 1) by lra.
  rewrite <- plus_IZR in *. apply lt_IZR in H, H0. lia.
Qed.
Theorem C129_axis : forall s d p x y column row_, framed s d p -> pitches_positive s -> (1 <= column <= n_columns s)%nat -> (1 <= row_ <= n_rows s)%nat ->
  in_pixel s column row_ (x, y) -> x < INR (n_columns s) * column_size s / 2 -> y < INR (n_rows s) * row_size s / 2 ->
  drawn_at p x (- y) = p_image p (row_ - 1)%nat (column - 1)%nat.
Proof.
  intros s d p x y c r (_ & Ec & Er & Ee) (px & py) Hc Hr (A & B) X Y. cbn [fst snd] in A, B. unfold drawn_at. rewrite Ee, Ec, Er.
  assert (G : forall size n k u, 0 < size -> (1 <= k <= n)%nat -> in_strip size n k u -> u < INR n * size / 2 ->
    IZR (Z.of_nat (k - 1)) <= (u + INR n * size / 2) / (INR n * size) * INR n < IZR (Z.of_nat (k - 1)) + 1).
  { intros size n k u Ps K (S1 & S2) U. assert (0 < INR n) by (apply lt_0_INR; lia). replace ((u + INR n * size / 2) / (INR n * size) * INR n) with ((u + INR n * size / 2) * / size) by (field; lra).
    assert (IZR (Z.of_nat (k - 1)) = INR k - 1) as -> by (rewrite <- INR_IZR_INZ, minus_INR by lia; reflexivity).
    assert (u + INR n * size / 2 < INR k * size) by (destruct S2 as [S2|[-> S2]]; lra).
    split; [apply Rmult_le_reg_r with size; [exact Ps|]|apply Rmult_lt_reg_r with size; [exact Ps|]]; rewrite Rmult_assoc, Rinv_l by lra; lra. }
  assert (Zx : Int_part ((x - - (INR (n_columns s) * column_size s) / 2) / (INR (n_columns s) * column_size s / 2 - - (INR (n_columns s) * column_size s) / 2) * INR (n_columns s)) = Z.of_nat (c - 1)).
  { apply Int_part_eq. pose proof (G _ _ _ _ px Hc A X) as Gx. set (W := INR (n_columns s) * column_size s) in *.
    replace (W / 2 - - W / 2) with W by lra. replace (x - - W / 2) with (x + W / 2) by lra. exact Gx. }
  assert (Zy : Int_part ((- y - INR (n_rows s) * row_size s / 2) / (- (INR (n_rows s) * row_size s) / 2 - INR (n_rows s) * row_size s / 2) * INR (n_rows s)) = Z.of_nat (r - 1)).
  { apply Int_part_eq. pose proof (G _ _ _ _ py Hr B Y) as Gy. set (H := INR (n_rows s) * row_size s) in *.
    assert (0 < H) by (apply Rmult_lt_0_compat; [apply lt_0_INR; lia|exact py]).
    replace (- H / 2 - H / 2) with (- H) by lra. replace ((- y - H / 2) / - H) with ((y + H / 2) / H) by (field; lra). exact Gy. }
  rewrite Zx, Zy, !Nat2Z.id. rewrite !(proj2 (Z.leb_le _ _)), !(proj2 (Z.ltb_lt _ _)) by lia. reflexivity.
Qed.
Lemma no_chunks cs : (1 <= cs)%nat -> row_chunks cs [] = Some [].
Proof.
  intros P. destruct (chunks_ok row_event [] cs) as (ys & Ey & Ec & Hc & _); [constructor|exact P|intros e; cbn; lia|]. unfold row_chunks. rewrite Ey. f_equal.
  destruct ys as [|[c n] ys]; [reflexivity|]. cbn in Ec. apply app_eq_nil in Ec. destruct (Hc c (or_introl eq_refl)) as [N _]. destruct N. apply Ec.
Qed.
(** a page with the name of another DUT *)
Definition renamed (d : nat) (p : picture) : picture := Picture d (p_number p) (p_rows p) (p_columns p) (p_image p) (p_extent p).
(** A DUT without tracks: alone there is an exception, after another DUT there are the pages of that DUT under its name. *)
Theorem C129_empty : forall telescope file chunk_size d d', (1 <= chunk_size)%nat -> file d' = Some [] ->
  plot_track_density telescope file chunk_size [d'] = None /\ plot_charge_distribution telescope file chunk_size [d'] = None /\
  (forall p q, plot_track_density telescope file chunk_size [d] = Some [p; q] -> plot_track_density telescope file chunk_size [d; d'] = Some [p; q; renamed d' p; renamed d' q]) /\
  (forall p q, plot_charge_distribution telescope file chunk_size [d] = Some [p; q] -> plot_charge_distribution telescope file chunk_size [d; d'] = Some [p; q; renamed d' p; renamed d' q]).
Proof.
  intros tel file cs d d' P F. unfold plot_track_density, plot_charge_distribution. cbn [plot_duts]. rewrite F, (no_chunks cs P). cbn [density_vars charge_vars].
  split; [reflexivity|]. split; [reflexivity|]. split; intros p q.
  - destruct (file d) as [rows|]; [|discriminate]. destruct (row_chunks cs rows) as [ch|]; [|discriminate]. destruct (density_vars (tel d) ch) as [w|]; [|discriminate].
    unfold density_pages. destruct (_ || _); [discriminate|]. cbn [app]. intros [= <- <-]. reflexivity.
  - destruct (file d) as [rows|]; [|discriminate]. destruct (row_chunks cs rows) as [ch|]; [|discriminate]. destruct (charge_vars (tel d) ch) as [w|]; [|discriminate].
    cbn [charge_pages app]. intros [= <- <-]. reflexivity.
Qed.

(** one column and two rows of size 1; one track, with hit, in the first row *)
Definition small : sensor := Sensor 1 1 1 2 (Placement 0 0 0 0 0 0).
Definition one_track : row := Row 5 (Some (0, - 1 / 2)) (0, - 1 / 2) (Some 7).
Definition one_file (d : nat) : option (list row) := match d with O => Some [one_track] | S O => Some [] | _ => None end.
Lemma small_pixel : in_pixel small 1 1 (0, - 1 / 2) /\ ~ in_pixel small 1 2 (0, - 1 / 2) /\ in_pixel small 1 2 (0, 1 / 2) /\ on_area small (0, - 1 / 2).
Proof.
  unfold in_pixel, in_strip, on_area, small. cbn [column_size row_size n_columns n_rows fst snd INR]. split; [lra|]. split; [lra|]. split; [lra|].
  split; apply Rabs_le; lra.
Qed.
Lemma small_ok : sensors (fun _ => small) [0%nat] /\ tables one_file 100 [0%nat].
Proof.
  split.
  - intros d _. unfold pitches_positive, small. cbn. split; [lra|lia].
  - intros d [<-|[]]. exists [one_track]. split; [reflexivity|]. split; [discriminate|]. split; [repeat constructor|]. split; [lia|].
    intros e. unfold event_rows. cbn [filter]. destruct (_ =? _)%Z; cbn [length]; lia.
Qed.
Lemma small_page : exists p q, plot_track_density (fun _ => small) one_file 100 [0%nat] = Some [p; q] /\ shows_density small 0 track_position [one_track] p /\ shows_density small 0 row_hit [one_track] q.
Proof.
  destruct small_ok as [S T]. destruct (C129_density _ _ _ _ S T) as [Y _]. destruct small_pixel as (_ & _ & _ & A).
  destruct Y as (ps & E & L & H). { intros d rows [<-|[]] [= <-]. split; exists one_track; (split; [now left|]); exists (0, - 1 / 2); auto. }
  destruct ps as [|p [|q [|? ?]]]; cbn in L; try lia. destruct (H 0%nat 0%nat eq_refl) as (rows & p' & q' & [= <-] & [= <-] & [= <-] & X). exists p, q. auto.
Qed.
Theorem C129_axis_refuted : exists telescope file chunk_size p q, file 0%nat = Some [one_track] /\ row_offset one_track = (0, - 1 / 2) /\
  sensors telescope [0%nat] /\ tables file chunk_size [0%nat] /\ plot_track_density telescope file chunk_size [0%nat] = Some [p; q] /\
  drawn_at p 0 (- 1 / 2) = None /\ drawn_at p 0 (1 / 2) = Some 1 /\ drawn_at q 0 (- 1 / 2) = None /\ drawn_at q 0 (1 / 2) = Some 1.
Proof.
  destruct small_page as (p & q & E & Sp & Sq). destruct small_ok as [S T]. exists (fun _ => small), one_file, 100%nat, p, q.
  split; [reflexivity|]. split; [reflexivity|]. split; [exact S|]. split; [exact T|]. split; [exact E|]. destruct small_pixel as (A & B & C & _).
  assert (PP : pitches_positive small) by (unfold pitches_positive, small; cbn; lra).
  assert (G : forall f p, f one_track = Some (0, - 1 / 2) -> shows_density small 0 f [one_track] p -> drawn_at p 0 (- 1 / 2) = None /\ drawn_at p 0 (1 / 2) = Some 1).
  { intros f r Ef (F & _ & I). split.
    - replace (- 1 / 2) with (- (1 / 2)) by lra. rewrite (C129_axis small 0 r 0 (1 / 2) 1 2 F PP); [|cbn; lia|cbn; lia|exact C|cbn; lra|cbn; lra].
      destruct (I 1%nat 2%nat) as (m & N & ->); [cbn; lia|cbn; lia|]. inversion N as [|? ? ? X _|? ? ? _ M]; subst.
      + exfalso. destruct X as (u & Eu & X). rewrite Ef in Eu. injection Eu as <-. contradiction.
      + inversion M; subst. reflexivity.
    - replace (1 / 2) with (- (- 1 / 2)) by lra. rewrite (C129_axis small 0 r 0 (- 1 / 2) 1 1 F PP); [|cbn; lia|cbn; lia|exact A|cbn; lra|cbn; lra].
      destruct (I 1%nat 1%nat) as (m & N & ->); [cbn; lia|cbn; lia|]. inversion N as [|? ? ? _ M|? ? ? X _]; subst.
      + inversion M; subst. reflexivity.
      + exfalso. apply X. exists (0, - 1 / 2). auto. }
  destruct (G track_position p eq_refl Sp). destruct (G row_hit q eq_refl Sq). auto.
Qed.
(** Desired: the pages of a DUT show its own tracks. *)
Theorem C129_empty_refuted : exists telescope file chunk_size p q, file 1%nat = Some [] /\ plot_track_density telescope file chunk_size [0%nat; 1%nat] = Some [p; q; renamed 1 p; renamed 1 q] /\
  p_number (renamed 1 p) = 1 /\ p_dut (renamed 1 p) = 1%nat.
Proof.
  destruct small_page as (p & q & E & Sp & _). exists (fun _ => small), one_file, 100%nat, p, q. split; [reflexivity|].
  destruct (C129_empty (fun _ => small) one_file 100 0 1 ltac:(lia) eq_refl) as (_ & _ & H & _). split; [exact (H p q E)|]. split; [|reflexivity]. cbn [renamed p_number].
  destruct Sp as (_ & (n & N & ->) & _). inversion N as [|? ? ? _ M|? ? ? X _]; subst; [inversion M; subst; reflexivity|].
  exfalso. apply X. exists (0, - 1 / 2). split; [reflexivity|]. apply small_pixel.
Qed.
(** The hypotheses are met: a telescope with one DUT. *)
Example C129_case : sensors (fun _ => small) [0%nat] /\ tables one_file 100 [0%nat] /\ (forall d rows, In d [0%nat] -> one_file d = Some rows ->
  (exists r, In r rows /\ at_sensor small track_position r) /\ (exists r, In r rows /\ at_sensor small row_hit r)) /\ in_pixel small 1 1 (0, - 1 / 2).
Proof.
  destruct small_ok as [S T]. split; [exact S|]. split; [exact T|]. destruct small_pixel as (A & _ & _ & B). split; [|exact A].
  intros d rows [<-|[]] [= <-]. split; exists one_track; (split; [now left|]); exists (0, - 1 / 2); auto.
Qed.

Print Assumptions C129_density.
Print Assumptions C129_charge.
Print Assumptions C129_chunk_size.
Print Assumptions C129_centre.
Print Assumptions C129_axis.
Print Assumptions C129_empty.
Print Assumptions C129_axis_refuted.
Print Assumptions C129_empty_refuted.
