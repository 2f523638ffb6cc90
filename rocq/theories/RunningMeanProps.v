(* C40: mean residuals per bin are the means over all entries of all chunks; entries outside of the range of the first chunk are lost. *)
From Coq Require Import List Arith ZArith Lia Reals Lra Bool.
From Verif Require Import GeometryModel GeometryProofs CorrelateModel CorrelateBinsProps PrealignModel PrealignProps RunningMeanModel.
Import ListNotations.
Local Open Scope R_scope.

(** * Specification: sum and number of the values with a position in the bin. *)
Fixpoint spec_sum {P} (inb : P -> bool) (entries : list (P * R)) : R :=
  match entries with [] => 0 | (x, v) :: es => if inb x then v + spec_sum inb es else spec_sum inb es end.
Fixpoint spec_number {P} (inb : P -> bool) (entries : list (P * R)) : nat :=
  match entries with [] => 0 | (x, v) :: es => if inb x then S (spec_number inb es) else spec_number inb es end.

Section Bin.
  Context {P : Type} (inb : P -> bool).
  Implicit Types (es fs : list (P * R)) (cs ds : list (list (P * R))).

  Lemma values_number es : length (values inb es) = spec_number inb es.
  Proof. unfold values. rewrite map_length. induction es as [|[x v] es IH]; [reflexivity|]. cbn [filter spec_number fst]. destruct (inb x); cbn [length]; auto. Qed.
  Lemma values_sum es : sum (values inb es) = spec_sum inb es.
  Proof. unfold values. induction es as [|[x v] es IH]; [reflexivity|]. cbn [filter spec_sum fst]. destruct (inb x); cbn [map sum fold_right snd]; [unfold sum in IH; now rewrite IH|assumption]. Qed.
  Lemma number_app es fs : spec_number inb (es ++ fs) = (spec_number inb es + spec_number inb fs)%nat.
  Proof. induction es as [|[x v] es IH]; [reflexivity|]. cbn [app spec_number]. rewrite IH. destruct (inb x); reflexivity. Qed.
  Lemma sum_app es fs : spec_sum inb (es ++ fs) = spec_sum inb es + spec_sum inb fs.
  Proof. induction es as [|[x v] es IH]; cbn [app spec_sum]; [lra|]. rewrite IH. destruct (inb x); lra. Qed.
  Lemma number_zero_sum es : spec_number inb es = 0%nat -> spec_sum inb es = 0.
  Proof. induction es as [|[x v] es IH]; [reflexivity|]. cbn [spec_number spec_sum]. destruct (inb x); [discriminate|assumption]. Qed.

  Definition is_mean (s : R * R) es : Prop := snd s = INR (spec_number inb es) /\ fst s * snd s = spec_sum inb es.
  Lemma chunk_is_mean es : is_mean (chunk_mean inb es, chunk_count inb es) es.
  Proof.
    unfold is_mean, chunk_mean, chunk_count. cbn [fst snd]. rewrite values_number. split; [reflexivity|]. rewrite <- values_number, <- values_sum.
    destruct (values inb es) as [|v l]; [cbn; lra|]. field. apply not_0_INR. discriminate.
  Qed.
  Lemma average_is_mean s t es fs : is_mean s es -> is_mean t fs -> is_mean (ma_average (fst s) (fst t) (snd s) (snd t)) (es ++ fs).
  Proof.
    intros [N1 S1] [N2 S2]. unfold is_mean, ma_average. rewrite number_app, sum_app, plus_INR, <- S1, <- S2.
    destruct (Reqb (snd s + snd t) 0) eqn:E; cbn [fst snd]; (split; [lra|]).
    - apply Reqb_true in E. pose proof (pos_INR (spec_number inb es)). pose proof (pos_INR (spec_number inb fs)).
      assert (snd s = 0) as -> by lra. assert (snd t = 0) as -> by lra. ring.
    - apply Reqb_false in E. field. assumption.
  Qed.
  Lemma running_is_mean cs : forall s es, is_mean s es ->
    is_mean (fold_left (fun s c => ma_average (fst s) (chunk_mean inb c) (snd s) (chunk_count inb c)) cs s) (es ++ concat cs).
  Proof.
    induction cs as [|c cs IH]; intros s es H; cbn [fold_left concat]; [now rewrite app_nil_r|]. rewrite app_assoc. apply IH.
    change (chunk_mean inb c) with (fst (chunk_mean inb c, chunk_count inb c)). change (chunk_count inb c) with (snd (chunk_mean inb c, chunk_count inb c)) at 2.
    apply average_is_mean; [assumption|apply chunk_is_mean].
  Qed.
End Bin.

(** For any number of chunks and entries, a bin holds the mean over all its entries of all chunks and their number; nan if it has none. *)
Theorem C40_running {P} (inb : P -> bool) (chunks : list (list (P * R))) : chunks <> [] ->
  let n := spec_number inb (concat chunks) in
  final inb chunks = Some (if (n =? 0)%nat then None else Some (spec_sum inb (concat chunks) / INR n), INR n).
Proof.
  destruct chunks as [|c cs]; [now intros []|]. intros _ n. unfold final, running.
  pose proof (running_is_mean inb cs _ _ (chunk_is_mean inb c)) as H. change (c ++ concat cs) with (concat (c :: cs)) in H.
  destruct (fold_left _ cs _) as [m k]. destruct H as [Hk Hm]. cbn [fst snd] in *. fold n in Hk. subst k. f_equal. f_equal.
  destruct (n =? 0)%nat eqn:E.
  - apply Nat.eqb_eq in E. rewrite E. destruct (Reqb (INR 0) 0) eqn:F; [reflexivity|]. now apply Reqb_false in F.
  - apply Nat.eqb_neq in E. apply not_0_INR in E. destruct (Reqb (INR n) 0) eqn:F; [now apply Reqb_true in F|]. f_equal. rewrite <- Hm. field. assumption.
Qed.

(** The result does not depend on how the same entries are divided into chunks (for given bins). *)
Theorem C40_chunking {P} (inb : P -> bool) (chunks chunks' : list (list (P * R))) : chunks <> [] -> chunks' <> [] ->
  concat chunks = concat chunks' -> final inb chunks = final inb chunks'.
Proof. intros H H' E. rewrite !C40_running by assumption. now rewrite E. Qed.

(** Counts which are added up agree with the counts of the averages. *)
Theorem C40_counts {P} (inb : P -> bool) (chunks : list (list (P * R))) : chunks <> [] ->
  counts inb chunks = Some (INR (spec_number inb (concat chunks))).
Proof.
  destruct chunks as [|c cs]; [now intros []|]. intros _. unfold counts. f_equal. cbn [concat].
  assert (G : forall cs es, fold_left (fun n c => n + chunk_count inb c) cs (INR (spec_number inb es)) = INR (spec_number inb (es ++ concat cs))).
  { clear. induction cs as [|c cs IH]; intros es; cbn [fold_left concat]; [now rewrite app_nil_r|]. rewrite app_assoc, <- IH. f_equal.
    unfold chunk_count. rewrite values_number, number_app, plus_INR. reflexivity. }
  unfold chunk_count at 2. rewrite values_number. apply G.
Qed.

(** * Bins. *)
Definition increasing (edges : list R) : Prop := forall i, (S i < length edges)%nat -> nth i edges 0 < nth (S i) edges 0.
Lemma increasing_le edges : increasing edges -> forall i j, (i <= j)%nat -> (j < length edges)%nat -> nth i edges 0 <= nth j edges 0.
Proof. intros H i j L. induction L as [|j L IH]; intros B; [lra|]. specialize (H j B). specialize (IH ltac:(lia)). lra. Qed.

Lemma in_bin_spec edges i x : in_bin edges i x = true <->
  (S i < length edges)%nat /\ nth i edges 0 <= x /\ (x < nth (S i) edges 0 \/ (S (S i) = length edges /\ x = nth (S i) edges 0)).
Proof.
  unfold in_bin, n_edge_bins. rewrite !andb_true_iff, orb_true_iff, andb_true_iff, Nat.ltb_lt, Nat.eqb_eq, Rleb_true, Rltb_true, Reqb_true.
  split; [intros [[A B] [C|[C D]]]|intros (A & B & [C|[C D]])].
  - split; [lia|split; [assumption|now left]].
  - split; [lia|split; [assumption|right; split; [lia|assumption]]].
  - split; [split; [lia|assumption]|now left].
  - split; [split; [lia|assumption]|right; split; [lia|assumption]].
Qed.

(** With increasing edges every position between the first and the last edge is in exactly one bin, all others in none. *)
Theorem C40_bins edges x : increasing edges -> (2 <= length edges)%nat ->
  ((exists i, in_bin edges i x = true /\ forall j, in_bin edges j x = true -> j = i) <-> nth 0 edges 0 <= x <= nth (length edges - 1) edges 0) /\
  (nth 0 edges 0 <= x <= nth (length edges - 1) edges 0 \/ forall i, in_bin edges i x = false).
Proof.
  intros Hi L.
  assert (U : forall i j, in_bin edges i x = true -> in_bin edges j x = true -> (i < j)%nat -> False).
  { intros i j A B Lt. apply in_bin_spec in A, B. destruct A as (A1 & A2 & A3), B as (B1 & B2 & _).
    pose proof (increasing_le edges Hi (S i) j ltac:(lia) ltac:(lia)) as M. destruct A3 as [A3|[A3 A4]]; [lra|lia]. }
  assert (E : nth 0 edges 0 <= x <= nth (length edges - 1) edges 0 -> exists i, in_bin edges i x = true).
  { intros [B T]. assert (G : forall k, (k < length edges)%nat -> x <= nth k edges 0 -> (0 < k)%nat -> exists i, in_bin edges i x = true).
    { induction k as [|k IH]; intros Lk Tk Pk; [lia|]. destruct (Rle_dec x (nth k edges 0)) as [Le|Gt].
      - destruct (Nat.eq_dec k 0) as [->|N]; [|apply IH; [lia|assumption|lia]].
        exists 0%nat. apply in_bin_spec. split; [lia|]. specialize (Hi 0%nat ltac:(lia)). split; [lra|left; lra].
      - destruct (Req_dec x (nth (S k) edges 0)) as [Eq|Ne].
        + destruct (Nat.eq_dec (S (S k)) (length edges)) as [La|Nl].
          * exists k. apply in_bin_spec. split; [lia|split; [lra|right; tauto]].
          * exists (S k). apply in_bin_spec. split; [lia|split; [lra|]]. specialize (Hi (S k) ltac:(lia)). left. lra.
        + exists k. apply in_bin_spec. split; [lia|split; [lra|left; lra]]. }
    apply (G (length edges - 1)%nat); [lia|assumption|lia]. }
  assert (O : forall i, in_bin edges i x = true -> nth 0 edges 0 <= x <= nth (length edges - 1) edges 0).
  { intros i A. apply in_bin_spec in A. destruct A as (A1 & A2 & A3). pose proof (increasing_le edges Hi 0 i ltac:(lia) ltac:(lia)).
    pose proof (increasing_le edges Hi (S i) (length edges - 1) ltac:(lia) ltac:(lia)). split; [lra|]. destruct A3 as [A3|[_ A3]]; lra. }
  split; [split|].
  - intros (i & A & _). now apply (O i).
  - intros B. destruct (E B) as [i A]. exists i. split; [assumption|]. intros j C. destruct (lt_eq_lt_dec i j) as [[Lt| ->]|Lt]; [destruct (U i j A C Lt)|reflexivity|destruct (U j i C A Lt)].
  - destruct (Rle_dec (nth 0 edges 0) x) as [A|A]; [destruct (Rle_dec x (nth (length edges - 1) edges 0)) as [B|B]; [now left; lra|]|];
      right; intros i; destruct (in_bin edges i x) eqn:F; try reflexivity; apply O in F; lra.
Qed.

Lemma ceil_IZR n : ceil (IZR n) = n.
Proof. pose proof (ceil_spec (IZR n)) as [A B]. apply le_IZR in A. rewrite <- plus_IZR in B. apply lt_IZR in B. lia. Qed.
Lemma ceil_plus_1 x : ceil (x + 1) = (ceil x + 1)%Z.
Proof.
  pose proof (ceil_spec x) as [A B]. pose proof (ceil_spec (x + 1)) as [C D].
  assert (IZR (ceil (x + 1)) < IZR (ceil x + 2)) by (rewrite plus_IZR; lra). assert (IZR (ceil x) < IZR (ceil (x + 1))) by lra.
  apply lt_IZR in H, H0. assert (ceil (x + 1) < ceil x + 2)%Z by assumption. lia.
Qed.

Lemma position_edges_spec w x xs : 0 < w -> let lo := list_min x xs in let hi := list_max x xs in
  lo <= hi /\ exists n, position_edges w x xs = map (fun k => lo + INR k * w) (seq 0 (S n)) /\ lo + INR n * w - w < hi <= lo + INR n * w /\ (lo < hi <-> (0 < n)%nat).
Proof.
  intros Hw lo hi. destruct (list_min_spec xs x) as (_ & A2 & _). destruct (list_max_spec xs x) as (_ & B2 & _). fold lo in A2. fold hi in B2.
  split; [lra|]. exists (Z.to_nat (ceil ((hi - lo) / w))). unfold position_edges, arange. fold lo hi.
  replace ((hi + w - lo) / w) with ((hi - lo) / w + 1) by (field; lra). rewrite ceil_plus_1.
  assert (Q : 0 <= (hi - lo) / w) by (apply Rmult_le_pos; [lra|left; now apply Rinv_0_lt_compat]).
  pose proof (ceil_spec ((hi - lo) / w)) as [C D]. assert (P : (0 <= ceil ((hi - lo) / w))%Z) by (apply le_IZR; lra).
  split; [|split].
  - f_equal. f_equal. lia.
  - rewrite INR_IZR_INZ, Z2Nat.id by assumption. assert (E : hi - lo = (hi - lo) / w * w) by (field; lra).
    apply (Rmult_le_compat_r w) in C; [|lra]. apply (Rmult_lt_compat_r w) in D; [|lra]. lra.
  - split; intros L.
    + assert (0 < (hi - lo) / w) by (apply Rmult_lt_0_compat; [lra|now apply Rinv_0_lt_compat]). assert (0 < ceil ((hi - lo) / w))%Z by (apply lt_IZR; lra). lia.
    + assert (1 <= ceil ((hi - lo) / w))%Z as M by lia. apply IZR_le in M. assert (0 < (hi - lo) / w) by lra.
      assert (E : hi - lo = (hi - lo) / w * w) by (field; lra). pose proof (Rmult_lt_0_compat _ _ H Hw). lra.
Qed.

Lemma nth_map_seq (f : nat -> R) n i : (i < n)%nat -> nth i (map f (seq 0 n)) 0 = f i.
Proof. intros L. rewrite (nth_indep _ 0 (f 0%nat)) by (rewrite map_length, seq_length; assumption). rewrite map_nth, seq_nth by assumption. reflexivity. Qed.

Lemma map_seq_increasing lo w n : 0 < w -> increasing (map (fun k => lo + INR k * w) (seq 0 n)).
Proof. intros Hw i L. rewrite map_length, seq_length in L. rewrite !nth_map_seq by lia. rewrite S_INR. lra. Qed.

(** The bins of the first chunk have the given width and each of its positions is in exactly one of them, if they are not all equal. *)
Theorem C40_first_chunk w x xs : 0 < w -> (exists y, In y xs /\ y <> x) ->
  let edges := position_edges w x xs in
  (forall i, (S i < length edges)%nat -> nth (S i) edges 0 = nth i edges 0 + w) /\
  forall y, In y (x :: xs) -> exists i, in_bin edges i y = true /\ forall j, in_bin edges j y = true -> j = i.
Proof.
  intros Hw (y0 & Hy & Ne) edges. destruct (position_edges_spec w x xs Hw) as (_ & n & E & B & Pn). fold edges in E.
  destruct (list_min_spec xs x) as (_ & A2 & A3). destruct (list_max_spec xs x) as (_ & B2 & B3).
  assert (Lt : list_min x xs < list_max x xs). { specialize (A3 y0 Hy). specialize (B3 y0 Hy). destruct (Rtotal_order x y0) as [?|[?|?]]; [lra|congruence|lra]. }
  apply Pn in Lt. split.
  - intros i L. rewrite E in *. rewrite map_length, seq_length in L. rewrite !nth_map_seq by lia. rewrite S_INR. lra.
  - intros y I. assert (Len : length edges = S n) by now rewrite E, map_length, seq_length.
    apply (C40_bins edges y); [rewrite E; now apply map_seq_increasing|lia|].
    rewrite Len, E. rewrite !nth_map_seq by lia. replace (S n - 1)%nat with n by lia. cbn [INR].
    assert (list_min x xs <= y <= list_max x xs). { destruct I as [->|I]; [tauto|split; [now apply A3|now apply B3]]. } lra.
Qed.

(** Mean residual against position: with at least one track in the first chunk, bin i holds the mean over the entries of all chunks in the bin. *)
Theorem C40_residuals w x v es chunks i : let edges := position_edges w x (map fst es) in let all := (x, v) :: es ++ concat chunks in
  let n := spec_number (in_bin edges i) all in
  residuals_against_position w (((x, v) :: es) :: chunks) i = Some (if (n =? 0)%nat then None else Some (spec_sum (in_bin edges i) all / INR n), INR n).
Proof. intros edges all n. unfold residuals_against_position. rewrite C40_running by discriminate. reflexivity. Qed.

(** Desired: the result does not depend on the chunk size. False: the bins cover only the range of the first chunk, entries of later chunks
    outside of this range are in no bin. *)
Theorem C40_range_refuted : exists w chunks chunks' i v, 0 < w /\ concat chunks = concat chunks' /\
  residuals_against_position w chunks i = Some (None, 0) /\ residuals_against_position w chunks' i = Some (Some v, 1).
Proof.
  exists 1, [[(0, 7); (2, 8)]; [(5, 9)]], [[(0, 7); (2, 8); (5, 9)]], 4%nat, 9. split; [lra|]. split; [reflexivity|].
  unfold residuals_against_position. rewrite !C40_running by discriminate. cbn [concat app map fst].
  assert (E1 : position_edges 1 0 [2] = map (fun k => 0 + INR k * 1) (seq 0 3)).
  { unfold position_edges, arange, list_min, list_max. cbn [fold_left]. rewrite Rmin_left, Rmax_right by lra. replace ((2 + 1 - 0) / 1) with (IZR 3) by lra. now rewrite ceil_IZR. }
  assert (E2 : position_edges 1 0 [2; 5] = map (fun k => 0 + INR k * 1) (seq 0 6)).
  { unfold position_edges, arange, list_min, list_max. cbn [fold_left]. rewrite (Rmin_left 0 2), (Rmin_left 0 5), (Rmax_right 0 2), (Rmax_right 2 5) by lra. replace ((5 + 1 - 0) / 1) with (IZR 6) by lra. now rewrite ceil_IZR. }
  rewrite E1, E2. cbn [spec_number spec_sum].
  assert (N1 : forall y, in_bin (map (fun k => 0 + INR k * 1) (seq 0 3)) 4 y = false) by reflexivity. rewrite !N1.
  assert (N2 : forall y, y < 4 -> in_bin (map (fun k => 0 + INR k * 1) (seq 0 6)) 4 y = false).
  { intros y L. destruct (in_bin _ 4 y) eqn:F; [|reflexivity]. apply in_bin_spec in F. destruct F as (_ & F & _). cbn in F. lra. }
  rewrite (N2 0), (N2 2) by lra.
  assert (N3 : in_bin (map (fun k => 0 + INR k * 1) (seq 0 6)) 4 5 = true).
  { apply in_bin_spec. split; [cbn; lia|]. cbn. split; [lra|right; split; [reflexivity|lra]]. }
  rewrite N3. cbn [Nat.eqb INR]. split; [reflexivity|]. do 3 f_equal. lra.
Qed.

(** All tracks of the first chunk at the same position: there is no bin and every entry is lost. *)
Theorem C40_single_position w x v chunks : 0 < w -> forall i, residuals_against_position w ([(x, v)] :: chunks) i = Some (None, 0).
Proof.
  intros Hw i. unfold residuals_against_position. rewrite C40_running by discriminate. cbn [map fst].
  assert (E : forall i y, in_bin (position_edges w x []) i y = false).
  { intros j y. destruct (position_edges_spec w x [] Hw) as (_ & n & -> & _ & P). assert (n = 0)%nat as ->. { unfold list_min, list_max in P. cbn in P. destruct n; [reflexivity|]. destruct P as [_ P]. assert (x < x) by (apply P; lia). lra. }
    destruct (in_bin _ j y) eqn:F; [|reflexivity]. apply in_bin_spec in F. cbn in F. lia. }
  assert (Z : forall l, spec_number (in_bin (position_edges w x []) i) l = 0%nat) by (induction l as [|[y u] l IH]; [reflexivity|]; cbn [spec_number]; rewrite E; exact IH).
  rewrite Z. reflexivity.
Qed.

Example C40_example : let inb := fun x : nat => Nat.even x in
  final inb [[(1%nat, 5)]; [(2%nat, 3); (4%nat, 6)]; []; [(0%nat, 9); (3%nat, 1)]] = Some (Some 6, 3).
Proof. intros inb. rewrite C40_running by discriminate. cbn. do 2 f_equal; [f_equal|]; lra. Qed.
Example C40_example_empty : let inb := fun x : nat => Nat.even x in final inb [[(1%nat, 5)]; []; [(3%nat, 1)]] = Some (None, 0).
Proof. intros inb. now rewrite C40_running by discriminate. Qed.

Print Assumptions C40_running.
Print Assumptions C40_chunking.
Print Assumptions C40_counts.
Print Assumptions C40_bins.
Print Assumptions C40_first_chunk.
Print Assumptions C40_residuals.
Print Assumptions C40_range_refuted.
Print Assumptions C40_single_position.
