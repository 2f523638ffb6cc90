(** Distributions of charge, frame and cluster size in the efficiency analysis. *)
From Coq Require Import List Arith ZArith Lia Reals Lra Bool.
From Verif Require Import GeometryModel GeometryProofs CorrelateModel CorrelateBinsProps PrealignModel HoughProps RunningMeanModel RunningMeanProps EfficiencyModel EfficiencyProps TrackAngleModel TrackAngleProps FitResidualsModel ResidualsProps EffDistModel.
Import ListNotations.
Local Open Scope R_scope.

(** * Histograms of integers *)
Definition hist (n : nat) (l : list Z) : list nat := map (fun i => number (fun z => (z =? Z.of_nat i)%Z) l) (seq 0 n).
Definition bound (l : list Z) : nat := Z.to_nat (fold_right (fun z m => Z.max (z + 1) m) 0%Z l).
Lemma bound_spec l : forall z, In z l -> (z < Z.of_nat (bound l))%Z.
Proof.
  unfold bound. assert (P : (0 <= fold_right (fun z m => Z.max (z + 1) m) 0 l)%Z) by (induction l; cbn; lia). rewrite Z2Nat.id by exact P. clear P.
  induction l as [|y l IH]; intros z H; [destruct H|]. cbn. destruct H as [-> | H]; [lia|]. specialize (IH z H). lia.
Qed.
Lemma bound_app a b : bound (a ++ b) = Nat.max (bound a) (bound b).
Proof.
  unfold bound. assert (P : forall l, (0 <= fold_right (fun z m => Z.max (z + 1) m) 0 l)%Z) by (intros l; induction l; cbn; lia). rewrite <- Z2Nat.inj_max. f_equal.
  induction a as [|y a IH]; cbn [app fold_right]; [specialize (P b); lia|]. rewrite IH. lia.
Qed.
Lemma bound_last l : (0 < bound l)%nat -> In (Z.of_nat (bound l - 1)) l.
Proof.
  unfold bound. assert (P : forall l, (0 <= fold_right (fun z m => Z.max (z + 1) m) 0 l)%Z) by (intros m; induction m; cbn; lia). intros H.
  assert (Q : (0 < fold_right (fun z m => Z.max (z + 1) m) 0 l)%Z) by lia. rewrite Nat2Z.inj_sub by lia. rewrite Z2Nat.id by lia. clear H. change (Z.of_nat 1) with 1%Z.
  induction l as [|y l IH]; [cbn in Q; lia|]. cbn [fold_right] in *. specialize (P l). destruct (Z.max_spec (y + 1) (fold_right (fun z m => Z.max (z + 1) m) 0%Z l)) as [[A B]|[A B]]; rewrite B in *; [right; apply IH; lia|left; lia].
Qed.
Lemma bound_le n l : (forall z, In z l -> (z < Z.of_nat n)%Z) -> (bound l <= n)%nat.
Proof. intros H. destruct (bound l) as [|b] eqn:E; [lia|]. specialize (H (Z.of_nat (bound l - 1))). rewrite E in H. assert (In (Z.of_nat (S b - 1)) l) by (rewrite <- E; apply bound_last; lia). specialize (H H0). lia. Qed.
Lemma bincount_hist l : bincount l = if existsb (fun z => (z <? 0)%Z) l then None else Some (hist (bound l) l).
Proof. unfold bincount, hist. destruct (existsb _ l); [reflexivity|]. f_equal. apply map_ext. intros i. apply number_filter. Qed.
Lemma hist_length n l : length (hist n l) = n.
Proof. unfold hist. now rewrite map_length, seq_length. Qed.
Lemma hist_nth n l i : (i < n)%nat -> nth i (hist n l) 0%nat = number (fun z => (z =? Z.of_nat i)%Z) l.
Proof. intros H. unfold hist. rewrite nth_indep with (d' := number (fun z => (z =? Z.of_nat 0)%Z) l) by (rewrite map_length, seq_length; lia). rewrite (map_nth (fun i => number (fun z => (z =? Z.of_nat i)%Z) l)). rewrite seq_nth by lia. reflexivity. Qed.
Lemma number_zero {A} (f : A -> bool) l : (forall a, In a l -> f a = false) -> number f l = 0%nat.
Proof. intros H. rewrite (number_ext _ (fun _ => false)) by exact H. apply number_false. Qed.
Lemma hist_above n l i : (forall z, In z l -> (z < Z.of_nat n)%Z) -> (n <= i)%nat -> number (fun z => (z =? Z.of_nat i)%Z) l = 0%nat.
Proof. intros H L. apply number_zero. intros z I. apply H in I. apply Z.eqb_neq. lia. Qed.
Lemma resize_hist n m l : (n <= m)%nat -> (forall z, In z l -> (z < Z.of_nat n)%Z) -> resize (hist n l) m = hist m l.
Proof.
  intros H B. unfold resize. rewrite firstn_all2 by (rewrite hist_length; lia). rewrite hist_length. unfold hist. replace m with (n + (m - n))%nat at 2 by lia. rewrite seq_app, map_app. f_equal.
  assert (G : forall k s, (n <= s)%nat -> repeat 0%nat k = map (fun i => number (fun z => (z =? Z.of_nat i)%Z) l) (seq s k)).
  { induction k as [|k IH]; intros s L; [reflexivity|]. cbn [repeat seq map]. rewrite (hist_above n) by auto. f_equal. apply IH. lia. }
  apply G. lia.
Qed.
Lemma add_counts_hist a b : add_counts (hist (bound a) a) (hist (bound b) b) = hist (bound (a ++ b)) (a ++ b).
Proof.
  unfold add_counts. rewrite !hist_length. assert (G : forall n, map (fun p => (fst p + snd p)%nat) (combine (hist n a) (hist n b)) = hist n (a ++ b)).
  { intros n. unfold hist. rewrite add_map. apply map_ext. intros i. now rewrite number_of_app. }
  rewrite bound_app. destruct (Nat.ltb_spec (bound a) (bound b)) as [L|L].
  - rewrite resize_hist by (try apply bound_spec; lia). rewrite G. f_equal. lia.
  - rewrite resize_hist by (try apply bound_spec; lia). rewrite G. f_equal. lia.
Qed.
Lemma count_chunks_some chunks : forall a, count_chunks (Some (hist (bound a) a)) chunks = if existsb (fun z => (z <? 0)%Z) (concat chunks) then None else Some (Some (hist (bound (a ++ concat chunks)) (a ++ concat chunks))).
Proof.
  induction chunks as [|c cs IH]; intros a; cbn [count_chunks concat]; [cbn; now rewrite app_nil_r|]. unfold count_chunk. rewrite bincount_hist, existsb_app. destruct (existsb (fun z => (z <? 0)%Z) c); [reflexivity|].
  rewrite add_counts_hist, IH. cbn [orb]. now rewrite app_assoc.
Qed.
Lemma count_chunks_concat chunks : chunks <> [] -> count_chunks None chunks = if existsb (fun z => (z <? 0)%Z) (concat chunks) then None else Some (Some (hist (bound (concat chunks)) (concat chunks))).
Proof.
  destruct chunks as [|c cs]; intros H; [congruence|]. cbn [count_chunks concat]. unfold count_chunk. rewrite bincount_hist, existsb_app. destruct (existsb (fun z => (z <? 0)%Z) c); [reflexivity|].
  rewrite count_chunks_some. reflexivity.
Qed.
Lemma concat_selected {A B} (f : A -> bool) (g : A -> B) chunks : concat (map (fun ts => map g (filter f ts)) chunks) = map g (filter f (concat chunks)).
Proof. induction chunks as [|c cs IH]; [reflexivity|]. cbn. now rewrite IH, filter_app, map_app. Qed.
Lemma total_hist n l : (forall z, In z l -> (0 <= z < Z.of_nat n)%Z) -> list_sum (hist n l) = length l.
Proof.
  induction l as [|z l IH]; intros H.
  - unfold hist. cbn. clear. induction (seq 0 n); cbn; auto.
  - assert (E : list_sum (hist n (z :: l)) = (list_sum (hist n [z]) + list_sum (hist n l))%nat).
    { unfold hist. cbn [number]. clear. induction (seq 0 n) as [|i is IH]; [reflexivity|]. cbn [map list_sum fold_right] in *. unfold list_sum in IH. rewrite IH. lia. }
    rewrite E, IH by (intros; apply H; now right). cbn [length]. replace (list_sum (hist n [z])) with 1%nat; [reflexivity|].
    specialize (H z (or_introl eq_refl)). unfold hist. cbn [number].
    assert (G : forall m s, list_sum (map (fun i => ((if (z =? Z.of_nat i)%Z then 1 else 0) + 0)%nat) (seq s m)) = if (Z.of_nat s <=? z)%Z && (z <? Z.of_nat (s + m))%Z then 1%nat else 0%nat).
    { clear. induction m as [|m IH]; intros s. { cbn. destruct (Z.leb_spec (Z.of_nat s) z), (Z.ltb_spec z (Z.of_nat (s + 0))); cbn; auto; lia. }
      cbn [seq map list_sum fold_right]. unfold list_sum in IH. rewrite IH. destruct (Z.eqb_spec z (Z.of_nat s)), (Z.leb_spec (Z.of_nat (S s)) z), (Z.ltb_spec z (Z.of_nat (S s + m))), (Z.leb_spec (Z.of_nat s) z), (Z.ltb_spec z (Z.of_nat (s + S m))); cbn; auto; lia. }
    rewrite G. cbn [Nat.add]. destruct (Z.leb_spec (Z.of_nat 0) z), (Z.ltb_spec z (Z.of_nat n)); cbn; auto; lia.
Qed.

(** * Specification: a distribution of the values of the tracks [ts] selected by [sel] *)
Definition is_distribution {T} (sel : T -> bool) (value : T -> Z) (ts : list T) (h : list nat) : Prop :=
  (forall t, In t ts -> sel t = true -> (0 <= value t)%Z) /\
  (forall i, nth i h 0%nat = number (fun t => sel t && (value t =? Z.of_nat i)%Z) ts) /\
  list_sum h = number sel ts /\ last h 1%nat <> 0%nat.

Lemma number_map {A B} (f : B -> bool) (g : A -> B) l : number f (map g l) = number (fun a => f (g a)) l.
Proof. induction l as [|a l IH]; [reflexivity|]. cbn. now rewrite IH. Qed.
Lemma hist_distribution {T} (sel : T -> bool) value ts : existsb (fun z => (z <? 0)%Z) (map value (filter sel ts)) = false ->
  is_distribution sel value ts (hist (bound (map value (filter sel ts))) (map value (filter sel ts))).
Proof.
  intros N. set (l := map value (filter sel ts)) in *. assert (P : forall z, In z l -> (0 <= z)%Z).
  { intros z I. destruct (Z_lt_ge_dec z 0) as [L|L]; [|lia]. assert (X : existsb (fun z => (z <? 0)%Z) l = true) by (apply existsb_exists; exists z; split; [auto|now apply Z.ltb_lt]). congruence. }
  split; [intros t I S; apply P; apply in_map; apply filter_In; auto|]. split; [|split].
  - intros i. assert (E : number (fun t => sel t && (value t =? Z.of_nat i)%Z) ts = number (fun z => (z =? Z.of_nat i)%Z) l) by (unfold l; rewrite number_map; symmetry; apply number_filter_and).
    rewrite E. destruct (Nat.lt_ge_cases i (bound l)) as [L|L]; [now apply hist_nth|]. rewrite nth_overflow by (rewrite hist_length; lia). symmetry. apply (hist_above (bound l)); [apply bound_spec|exact L].
  - rewrite total_hist by (intros z I; split; [apply P|apply bound_spec]; exact I). unfold l. rewrite map_length. apply number_filter.
  - destruct (bound l) as [|b] eqn:B; [cbn; lia|]. unfold hist. rewrite seq_S, map_app. cbn [map]. rewrite last_last. cbn [Nat.add].
    assert (I : In (Z.of_nat b) l). { replace b with (bound l - 1)%nat by lia. apply bound_last. lia. }
    assert ((0 < number (fun z => (z =? Z.of_nat b)%Z) l)%nat); [|lia]. apply number_pos. apply existsb_exists. exists (Z.of_nat b). split; [auto|apply Z.eqb_refl].
Qed.
Lemma distribution_unique {T} (sel : T -> bool) value ts h h' : is_distribution sel value ts h -> is_distribution sel value ts h' -> h = h'.
Proof.
  intros (_ & A & _ & La) (_ & B & _ & Lb).
  assert (G : forall (a b : list nat), last a 1%nat <> 0%nat -> (forall i, nth i a 0%nat = nth i b 0%nat) -> (length a <= length b)%nat).
  { intros a b L E. destruct (Nat.le_gt_cases (length a) (length b)) as [H|H]; [auto|]. exfalso. apply L. destruct (exists_last (l := a)) as (a' & x & ->); [destruct a; [cbn in H; lia|discriminate]|].
    rewrite last_last. specialize (E (length a')). rewrite app_nth2, Nat.sub_diag in E by lia. cbn [nth] in E. rewrite E. apply nth_overflow. rewrite app_length in H. cbn in H. lia. }
  assert (E : forall i, nth i h 0%nat = nth i h' 0%nat) by (intros i; now rewrite A, B).
  apply nth_ext with (d := 0%nat) (d' := 0%nat); [|intros; apply E]. apply Nat.le_antisymm; apply G; auto.
Qed.

Section Tracks.
  Context {T : Type} (valid region : T -> bool) (value : T -> Z).

  (** The histogram of a region contains every track of the region with valid hit of all chunks exactly once, in the bin of its value, and ends with the largest
      value; the analysis fails exactly if there is a negative value. *)
  Theorem C106_region chunks : chunks <> [] ->
    match region_distribution valid region value chunks with
    | Some (Some h) => is_distribution (fun t => region t && valid t) value (concat chunks) h
    | Some None => False
    | None => exists t, In t (concat chunks) /\ region t = true /\ valid t = true /\ (value t < 0)%Z
    end.
  Proof using.
    intros H. unfold region_distribution. rewrite count_chunks_concat by (destruct chunks; [congruence|discriminate]). rewrite concat_selected.
    destruct (existsb _ _) eqn:E.
    - apply existsb_exists in E as (z & I & L). apply in_map_iff in I as (t & <- & I). apply filter_In in I as [I S]. apply andb_true_iff in S. exists t. apply Z.ltb_lt in L. tauto.
    - now apply hist_distribution.
  Qed.

  (** The histogram of the whole DUT, if the first chunk has a valid hit. *)
  Theorem C106_dut c cs : existsb valid c = true ->
    match dut_distribution valid value (c :: cs) with
    | Some h => is_distribution valid value (concat (c :: cs)) h
    | None => exists t, In t (concat (c :: cs)) /\ valid t = true /\ (value t < 0)%Z
    end.
  Proof using.
    clear region. intros H. unfold dut_distribution. rewrite H. rewrite count_chunks_concat by discriminate. rewrite concat_selected.
    assert (E : filter valid (concat (c :: filter (existsb valid) cs)) = filter valid (concat (c :: cs))).
    { cbn [concat]. rewrite !filter_app. f_equal. clear. induction cs as [|d cs IH]; [reflexivity|]. cbn [filter concat]. rewrite filter_app. destruct (existsb valid d) eqn:X; cbn [concat]; [rewrite filter_app; now rewrite IH|].
      rewrite IH. replace (filter valid d) with (@nil T); [reflexivity|]. symmetry. clear -X. induction d as [|t d IH]; [reflexivity|]. cbn in *. apply orb_false_iff in X as [X Y]. rewrite X. auto. }
    rewrite E. destruct (existsb (fun z => (z <? 0)%Z) _) eqn:X.
    - apply existsb_exists in X as (z & I & L). apply in_map_iff in I as (t & <- & I). apply filter_In in I as [I S]. exists t. apply Z.ltb_lt in L. tauto.
    - now apply hist_distribution.
  Qed.

  (** The histograms do not depend on the chunks. *)
  Theorem C106_chunks chunks chunks' : chunks <> [] -> chunks' <> [] -> concat chunks = concat chunks' ->
    region_distribution valid region value chunks = region_distribution valid region value chunks'.
  Proof using.
    intros H H' E. unfold region_distribution. rewrite !count_chunks_concat by (destruct chunks, chunks'; congruence || discriminate). rewrite !concat_selected. now rewrite E.
  Qed.
End Tracks.

(** * Charge: truncated to integers *)
Lemma Int_part_eq x z : Int_part x = z <-> IZR z <= x < IZR z + 1.
Proof.
  destruct (base_Int_part x) as [A B]. split; [intros <-; lra|]. intros [L U]. assert (IZR (Int_part x) < IZR z + 1) by lra. assert (IZR z < IZR (Int_part x) + 1) by lra.
  rewrite <- plus_IZR in *. apply lt_IZR in H, H0. lia.
Qed.
Lemma trunc_nonneg x : (0 <= trunc x)%Z <-> -1 < x.
Proof.
  unfold trunc. destruct (Rleb 0 x) eqn:E; [apply Rleb_true in E|apply Rleb_false in E].
  - destruct (base_Int_part x) as [A B]. split; [lra|]. intros _. assert (IZR (-1) < IZR (Int_part x)) by (cbn; lra). apply lt_IZR in H. lia.
  - destruct (base_Int_part (- x)) as [A B]. split; intros H.
    + assert (Int_part (- x) <= 0)%Z by lia. apply IZR_le in H0. lra.
    + assert (IZR (Int_part (- x)) < IZR 1) by (cbn; lra). apply lt_IZR in H0. lia.
Qed.
Lemma trunc_bin x i : -1 < x -> (trunc x =? Z.of_nat i)%Z = Rltb x (INR i + 1) && (Rleb (INR i) x || (i =? 0)%nat).
Proof.
  intros H. unfold trunc. rewrite (INR_IZR_INZ i). destruct (Rleb 0 x) eqn:E; [apply Rleb_true in E|apply Rleb_false in E].
  - destruct (Z.eqb_spec (Int_part x) (Z.of_nat i)) as [K|K].
    + apply Int_part_eq in K. symmetry. apply andb_true_iff. rewrite orb_true_iff, Rltb_true, Rleb_true. lra.
    + symmetry. apply andb_false_iff. destruct (Rltb x (IZR (Z.of_nat i) + 1)) eqn:L; [|auto]. right. apply Rltb_true in L. apply orb_false_iff. split.
      * apply Rleb_false. destruct (Rle_lt_dec (IZR (Z.of_nat i)) x); [|auto]. exfalso. apply K. apply Int_part_eq. lra.
      * destruct i; [|reflexivity]. exfalso. apply K. apply Int_part_eq. cbn in *. lra.
  - assert (Z : Int_part (- x) = 0%Z) by (apply Int_part_eq; lra). rewrite Z. cbn [Z.opp]. destruct i as [|i].
    + cbn. symmetry. apply andb_true_iff. rewrite Rltb_true, orb_true_r. split; [lra|auto].
    + replace (0 =? Z.of_nat (S i))%Z with false by (symmetry; apply Z.eqb_neq; lia). symmetry. apply andb_false_iff. right. apply orb_false_iff. split; [|reflexivity]. apply Rleb_false.
      assert (0 <= IZR (Z.of_nat (S i))) by (apply IZR_le; lia). lra.
Qed.

(** The charge histogram: bin i contains the charges from i to below i + 1, the first bin also negative charges above -1; charges of -1 and below are an error. *)
Theorem C106_charge {T} (valid region : T -> bool) (charge : T -> R) chunks : chunks <> [] ->
  let sel t := region t && valid t in
  match region_distribution valid region (fun t => trunc (charge t)) chunks with
  | Some (Some h) => (forall t, In t (concat chunks) -> sel t = true -> -1 < charge t) /\ list_sum h = number sel (concat chunks) /\
      forall i, nth i h 0%nat = number (fun t => sel t && (Rltb (charge t) (INR i + 1) && (Rleb (INR i) (charge t) || (i =? 0)%nat))) (concat chunks)
  | Some None => False
  | None => exists t, In t (concat chunks) /\ sel t = true /\ charge t <= -1
  end.
Proof.
  intros H sel. pose proof (C106_region valid region (fun t => trunc (charge t)) chunks H) as K.
  destruct (region_distribution _ _ _ _) as [[h|]|]; [|exact K|].
  - destruct K as (A & B & C & _). assert (P : forall t, In t (concat chunks) -> sel t = true -> -1 < charge t) by (intros t I S; apply trunc_nonneg; auto).
    split; [exact P|]. split; [exact C|]. intros i. rewrite B. apply number_ext. intros t I. fold (sel t). destruct (sel t) eqn:S; [|reflexivity]. cbn [andb]. apply trunc_bin. auto.
  - destruct K as (t & I & R1 & V & L). exists t. split; [auto|]. split; [unfold sel; now rewrite R1, V|]. destruct (Rle_lt_dec (charge t) (-1)); [auto|]. apply trunc_nonneg in r. lia.
Qed.

(** * Mean charge of a region *)
Lemma dot_hist l : forall n, (forall z, In z l -> (0 <= z < Z.of_nat n)%Z) -> dot_counts (hist n l) (map INR (seq 0 n)) = sum (map IZR l).
Proof.
  intros n. unfold hist, dot_counts, sum. induction l as [|z l IH]; intros H.
  - cbn [map fold_right number]. clear. assert (G : forall m s, fold_right Rplus 0 (map (fun cp : nat * R => INR (fst cp) * snd cp) (combine (map (fun _ : nat => 0%nat) (seq s m)) (map INR (seq s m)))) = 0).
    { induction m; intros s; [reflexivity|]. cbn [seq map combine fold_right fst snd]. rewrite IHm. cbn [INR]. ring. } apply G.
  - cbn [map fold_right]. rewrite <- IH by (intros; apply H; now right). specialize (H z (or_introl eq_refl)). cbn [number].
    assert (G : forall m s, fold_right Rplus 0 (map (fun cp : nat * R => INR (fst cp) * snd cp) (combine (map (fun i => ((if (z =? Z.of_nat i)%Z then 1 else 0) + number (fun z => (z =? Z.of_nat i)%Z) l)%nat) (seq s m)) (map INR (seq s m)))) =
      (if (Z.of_nat s <=? z)%Z && (z <? Z.of_nat (s + m))%Z then IZR z else 0) + fold_right Rplus 0 (map (fun cp : nat * R => INR (fst cp) * snd cp) (combine (map (fun i => number (fun z => (z =? Z.of_nat i)%Z) l) (seq s m)) (map INR (seq s m))))).
    { clear. induction m as [|m IH]; intros s. { cbn. destruct (Z.leb_spec (Z.of_nat s) z), (Z.ltb_spec z (Z.of_nat (s + 0))); cbn; try lra; lia. }
      cbn [seq map combine fold_right fst snd]. rewrite IH, plus_INR.
      destruct (Z.eqb_spec z (Z.of_nat s)) as [K|N], (Z.leb_spec (Z.of_nat (S s)) z), (Z.ltb_spec z (Z.of_nat (S s + m))), (Z.leb_spec (Z.of_nat s) z), (Z.ltb_spec z (Z.of_nat (s + S m))); try lia; cbn [andb INR]; try ring;
        rewrite (INR_IZR_INZ s), <- K; ring. }
    rewrite G. cbn [Nat.add]. destruct (Z.leb_spec (Z.of_nat 0) z), (Z.ltb_spec z (Z.of_nat n)); cbn [andb]; try lia. reflexivity.
Qed.
Lemma distribution_hist {T} (sel : T -> bool) value ts h : is_distribution sel value ts h -> h = hist (bound (map value (filter sel ts))) (map value (filter sel ts)) /\ forall z, In z (map value (filter sel ts)) -> (0 <= z)%Z.
Proof.
  intros H. assert (P : forall z, In z (map value (filter sel ts)) -> (0 <= z)%Z). { intros z I. apply in_map_iff in I as (t & <- & I). apply filter_In in I. apply H; tauto. }
  split; [|exact P]. apply (distribution_unique sel value ts); [exact H|]. apply hist_distribution. destruct (existsb _ _) eqn:E; [|reflexivity]. apply existsb_exists in E as (z & I & L). apply P in I. apply Z.ltb_lt in L. lia.
Qed.
Lemma sum_bounds {A} (f g : A -> R) l : l <> [] -> (forall a, In a l -> f a <= g a < f a + 1) -> sum (map f l) <= sum (map g l) < sum (map f l) + INR (length l).
Proof.
  unfold sum. induction l as [|a l IH]; intros N H; [congruence|]. assert (X := H a (or_introl eq_refl)). cbn [map fold_right length]. rewrite S_INR. destruct l as [|b l]; [cbn in *; lra|].
  specialize (IH ltac:(discriminate) ltac:(intros; apply H; now right)). lra.
Qed.
Lemma trunc_between x : 0 <= x -> IZR (trunc x) <= x < IZR (trunc x) + 1.
Proof. intros H. unfold trunc. replace (Rleb 0 x) with true by (symmetry; now apply Rleb_true). now apply Int_part_eq. Qed.

(** The mean charge of a region never fails; it is nan without valid hit in the region and else the mean of the truncated charges: for charges above zero less than 1 below the mean charge. *)
Theorem C106_mean_charge {T} (valid region : T -> bool) (charge : T -> R) c cs hd hr : existsb valid c = true ->
  dut_distribution valid (fun t => trunc (charge t)) (c :: cs) = Some hd -> region_distribution valid region (fun t => trunc (charge t)) (c :: cs) = Some (Some hr) ->
  let sel := filter (fun t => region t && valid t) (concat (c :: cs)) in
  exists m, mean_charge hd hr = Some m /\
  match m with
  | None => sel = []
  | Some m => sel <> [] /\ m = mean (map (fun t => IZR (trunc (charge t))) sel) /\
              ((forall t, In t sel -> 0 <= charge t) -> m <= mean (map charge sel) < m + 1)
  end.
Proof.
  intros V D G sel. pose proof (C106_dut valid (fun t => trunc (charge t)) c cs V) as KD. rewrite D in KD. pose proof (C106_region valid region (fun t => trunc (charge t)) (c :: cs) ltac:(discriminate)) as KR. rewrite G in KR.
  apply distribution_hist in KD as [-> PD]. apply distribution_hist in KR as [-> PR]. fold sel in PR |- *. set (ld := map _ _) in *. set (lr := map (fun t => trunc (charge t)) sel) in *.
  assert (L : (bound lr <= bound ld)%nat). { apply bound_le. intros z I. apply bound_spec. apply in_map_iff in I as (t & <- & I). apply in_map_iff. exists t. split; [reflexivity|]. unfold sel in I. apply filter_In in I as [I S]. apply andb_true_iff in S. apply filter_In. tauto. }
  assert (E : (if (length (hist (bound lr) lr) <? length (hist (bound ld) ld))%nat then resize (hist (bound lr) lr) (length (hist (bound ld) ld)) else hist (bound lr) lr) = hist (bound ld) lr).
  { rewrite !hist_length. destruct (Nat.ltb_spec (bound lr) (bound ld)); [apply resize_hist; [lia|apply bound_spec]|]. f_equal. lia. }
  unfold mean_charge. rewrite E, !hist_length, Nat.eqb_refl. assert (B : forall z, In z lr -> (0 <= z < Z.of_nat (bound ld))%Z) by (intros z I; split; [auto|apply bound_spec in I; lia]).
  eexists. split; [reflexivity|]. unfold get_mean_from_histogram. rewrite total_hist, dot_hist by exact B. destruct (Nat.eqb_spec (length lr) 0) as [Z|Z].
  - unfold lr in Z. rewrite map_length in Z. destruct sel; [reflexivity|discriminate].
  - unfold lr in *. rewrite map_length in *. assert (N : sel <> []) by (intros K; rewrite K in Z; cbn in Z; lia). split; [exact N|]. rewrite map_map. unfold mean. rewrite !map_length. split; [reflexivity|]. intros Q.
    assert (P : 0 < INR (length sel)) by (apply lt_0_INR; lia). destruct (sum_bounds (fun t => IZR (trunc (charge t))) charge sel N) as [S1 S2]; [intros t I; apply trunc_between; auto|].
    split; unfold Rdiv; [apply Rmult_le_compat_r; [left; now apply Rinv_0_lt_compat|exact S1]|].
    apply Rmult_lt_reg_r with (INR (length sel)); [exact P|]. rewrite Rmult_plus_distr_r, !Rmult_assoc, Rinv_l by lra. lra.
Qed.

(** * Cluster size against angle *)
Lemma size_bin i s : in_bin size_edges i (IZR s) = ((i <? 7)%nat && (s =? Z.of_nat i + 1)%Z) || ((i =? 7)%nat && ((s =? 8)%Z || (s =? 9)%Z)).
Proof.
  assert (N : n_edge_bins size_edges = 8%nat) by reflexivity. assert (E : forall k, (k < 9)%nat -> nth k size_edges 0 = IZR (Z.of_nat k + 1)).
  { intros k H. unfold size_edges. rewrite nth_indep with (d' := INR 0) by (rewrite map_length, seq_length; lia). rewrite map_nth, seq_nth by lia. rewrite INR_IZR_INZ. f_equal. lia. }
  unfold in_bin. rewrite N. destruct (Nat.ltb_spec i 8) as [L|L].
  - rewrite !E by lia. apply eq_true_iff_eq. rewrite !andb_true_iff, !orb_true_iff, !andb_true_iff, orb_true_iff, Rleb_true, Rltb_true, Reqb_true, !Nat.eqb_eq, Nat.ltb_lt, !Z.eqb_eq. split.
    + intros [[_ A] B]. apply le_IZR in A. destruct B as [B|[B C]]; [apply lt_IZR in B|apply eq_IZR in C]; lia.
    + intros [[A B]|[A B]]; (split; [split; [reflexivity|apply IZR_le; lia]|]).
      * left. apply IZR_lt. lia.
      * destruct B; [left; apply IZR_lt; lia|right; split; [lia|f_equal; lia]].
  - cbn [andb]. destruct (Nat.ltb_spec i 7), (Nat.eqb_spec i 7); cbn; auto; lia.
Qed.
Lemma number_concat {A} (f : A -> bool) chunks : list_sum (map (fun ts => length (filter f ts)) chunks) = number f (concat chunks).
Proof. induction chunks as [|c cs IH]; [reflexivity|]. cbn [map list_sum fold_right concat]. unfold list_sum in IH. rewrite IH, number_of_app, number_filter. reflexivity. Qed.
(** Bin i of the cluster sizes counts the clusters with i + 1 pixels, for all chunks, but the last of the 8 bins those with 8 and with 9 pixels; larger clusters are in no bin. *)
Theorem C106_cluster_size {T} (valid : T -> bool) size angle edges chunks i j :
  size_against_angle valid size angle edges chunks i j =
  number (fun t => valid t && in_bin edges j (angle t) && (if (i <? 7)%nat then (size t =? Z.of_nat i + 1)%Z else (i =? 7)%nat && ((size t =? 8)%Z || (size t =? 9)%Z))) (concat chunks).
Proof.
  unfold size_against_angle. rewrite number_concat. apply number_ext. intros t _. rewrite size_bin. destruct (valid t), (in_bin edges j (angle t)); cbn [andb]; rewrite ?andb_false_r, ?andb_true_r; try reflexivity.
  destruct (Nat.ltb_spec i 7), (Nat.eqb_spec i 7); cbn [andb orb]; rewrite ?orb_false_r; try reflexivity; lia.
Qed.
(** Desired: clusters of 8 and of 9 pixels are in different bins and all sizes are counted. *)
Theorem C106_cluster_size_refuted : exists edges i, size_against_angle (fun _ => true) (fun t => t) (fun _ => 0) edges [[8%Z]] i 0 = 1%nat /\ size_against_angle (fun _ => true) (fun t => t) (fun _ => 0) edges [[9%Z]] i 0 = 1%nat /\
  forall k, size_against_angle (fun _ => true) (fun t => t) (fun _ => 0) edges [[10%Z]] k 0 = 0%nat.
Proof.
  exists [-1; 1], 7%nat. assert (B : in_bin [-1; 1] 0 0 = true). { unfold in_bin. cbn. replace (Rleb (-1) 0) with true by (symmetry; apply Rleb_true; lra). replace (Rltb 0 1) with true by (symmetry; apply Rltb_true; lra). reflexivity. }
  split; [|split]; [rewrite C106_cluster_size; cbn [concat app number]; rewrite B; reflexivity..|]. intros k. rewrite C106_cluster_size. cbn [concat app number]. rewrite B. cbn [andb].
  destruct (Nat.ltb_spec k 7) as [L|L]; [replace (10 =? Z.of_nat k + 1)%Z with false by (symmetry; apply Z.eqb_neq; lia); reflexivity|]. now rewrite andb_false_r.
Qed.

(** * Angle histograms of small chunks *)
Lemma sum_cs (l : list R) : sum l ^ 2 <= INR (length l) * sum (map (fun x => x ^ 2) l).
Proof.
  induction l as [|x l IH]; [cbn; lra|]. change (sum (x :: l)) with (x + sum l). change (sum (map (fun x => x ^ 2) (x :: l))) with (x ^ 2 + sum (map (fun x => x ^ 2) l)). cbn [length]. rewrite S_INR.
  destruct l as [|y l']; [cbn; nra|]. set (l := y :: l') in *. assert (P : 0 < INR (length l)) by (apply lt_0_INR; cbn; lia). set (n := INR (length l)) in *. set (q := sum (map (fun x => x ^ 2) l)) in *. set (s := sum l) in *.
  assert (H : 0 <= (n * x - s) ^ 2) by apply pow2_ge_0. assert (0 <= n * (n * x ^ 2 + q - 2 * x * s)) by nra. assert (0 <= n * x ^ 2 + q - 2 * x * s) by (apply Rmult_le_reg_l with n; lra). nra.
Qed.
Lemma sum_minus m l : sum (map (fun x => x - m) l) = sum l - INR (length l) * m.
Proof. unfold sum. induction l as [|x l IH]; [cbn; ring|]. cbn [map fold_right length]. rewrite S_INR, IH. ring. Qed.
Lemma sum_app l1 l2 : sum (l1 ++ l2) = sum l1 + sum l2.
Proof. unfold sum. induction l1 as [|x l1 IH]; cbn; [ring|]. rewrite IH. ring. Qed.
(** Samuelson's inequality *)
Lemma samuelson l x : In x l -> (x - mean l) ^ 2 <= (INR (length l) - 1) * (std l * std l).
Proof.
  intros I. assert (N : l <> []) by (intros ->; destruct I). pose proof (std_sum l N) as S. apply in_split in I as (a & b & E). set (m := mean l) in *. set (o := a ++ b).
  assert (P : 0 < INR (length l)) by (apply lt_0_INR; destruct l; [congruence|cbn; lia]).
  assert (Z : sum (map (fun x => x - m) l) = 0). { rewrite sum_minus. unfold m, mean. field. lra. }
  assert (L : INR (length l) = INR (length o) + 1). { rewrite E. unfold o. rewrite !app_length. cbn [length]. rewrite <- S_INR. f_equal. lia. }
  assert (Z' : (x - m) + sum (map (fun x => x - m) o) = 0). { rewrite <- Z, E. unfold o. rewrite !map_app, !sum_app. cbn [map]. change (sum (x - m :: map (fun x => x - m) b)) with (x - m + sum (map (fun x => x - m) b)). ring. }
  assert (S' : (x - m) ^ 2 + sum (map (fun x => (x - m) ^ 2) o) = INR (length l) * (std l * std l)). { rewrite <- S, E. unfold o. rewrite !map_app, !sum_app. cbn [map]. change (sum ((x - m) ^ 2 :: map (fun x => (x - m) ^ 2) b)) with ((x - m) ^ 2 + sum (map (fun x => (x - m) ^ 2) b)). ring. }
  pose proof (sum_cs (map (fun x => x - m) o)) as C. rewrite map_map, map_length in C. replace (sum (map (fun x => x - m) o)) with (- (x - m)) in C by lra.
  set (k := INR (length o)) in *. assert (0 <= k) by apply pos_INR. set (q := sum (map (fun x => (x - m) ^ 2) o)) in *. set (v := std l * std l) in *. set (d := x - m) in *. rewrite L in *.
  replace ((- d) ^ 2) with (d ^ 2) in C by ring. assert (q = (k + 1) * v - d ^ 2) by lra. rewrite H0 in C. apply Rmult_le_reg_l with (k + 1); [lra|]. nra.
Qed.
(** No angle of the first chunk is lost if it has at most 26 tracks with valid hit. *)
Theorem C106_small_chunks n_bins c : (1 <= n_bins)%nat -> not_nan c <> [] -> (length (not_nan c) <= 26)%nat ->
  exists h edges, angle_histogram n_bins [c] = Some (h, edges) /\ list_sum h = length (not_nan c).
Proof.
  intros N H L. destruct (C69_histogram n_bins c [] N H) as (h & edges & lo & hi & E & _ & _ & _ & _ & T & A & B & _). exists h, edges. split; [exact E|]. change (list_sum h) with (total h). rewrite T. cbn [concat]. rewrite app_nil_r.
  assert (G : number (in_range lo hi) c = number (fun x => Rleb lo x && Rleb x hi) (not_nan c)). { rewrite <- (number_filter _ (not_nan c)), not_nan_number. apply number_ext. intros [x|] _; reflexivity. }
  rewrite G. set (l := not_nan c) in *. assert (F : forall x, In x l -> Rleb lo x && Rleb x hi = true).
  { intros x I. pose proof (samuelson l x I) as S. assert (K : INR (length l) <= 26). { apply le_INR in L. replace (INR 26) with 26 in L by (rewrite INR_IZR_INZ; reflexivity). exact L. }
    pose proof (std_pos l) as P. assert (D : (x - mean l) ^ 2 <= (5 * std l) ^ 2) by nra.
    apply andb_true_iff. rewrite !Rleb_true. generalize dependent (mean l). intros m **. split; apply Rnot_lt_le; intros Q; nra. }
  clearbody l. clear -F. induction l as [|x l IH]; [reflexivity|]. cbn. rewrite (F x) by now left. rewrite IH; [reflexivity|]. intros; apply F; now right.
Qed.

(** Three tracks in two chunks: charges 2.5 and 0.5 with valid hit in the region, and one without valid hit. *)
Example C106_case : let chunks := [[(5 / 2, true); (7, false)]; [(1 / 2, true)]] in
  exists hd hr, dut_distribution snd (fun t => trunc (fst t)) chunks = Some hd /\ region_distribution snd (fun _ => true) (fun t => trunc (fst t)) chunks = Some (Some hr) /\ hd = [1%nat; 0%nat; 1%nat] /\ hr = hd /\ mean_charge hd hr = Some (Some 1).
Proof.
  assert (A : trunc (5 / 2) = 2%Z). { unfold trunc. replace (Rleb 0 (5 / 2)) with true by (symmetry; apply Rleb_true; lra). apply Int_part_eq. lra. }
  assert (B : trunc (1 / 2) = 0%Z). { unfold trunc. replace (Rleb 0 (1 / 2)) with true by (symmetry; apply Rleb_true; lra). apply Int_part_eq. lra. }
  exists [1%nat; 0%nat; 1%nat], [1%nat; 0%nat; 1%nat]. split; [|split; [|split; [reflexivity|split; [reflexivity|]]]].
  - unfold dut_distribution. cbn [existsb snd filter map orb fst]. rewrite A, B. vm_compute. reflexivity.
  - unfold region_distribution. cbn [snd filter map andb fst]. rewrite A, B. vm_compute. reflexivity.
  - unfold mean_charge, get_mean_from_histogram. cbn [length Nat.ltb Nat.leb Nat.eqb list_sum fold_right Nat.add seq map]. unfold dot_counts. cbn. do 2 f_equal. lra.
Qed.

Print Assumptions C106_region.
Print Assumptions C106_dut.
Print Assumptions C106_chunks.
Print Assumptions C106_charge.
Print Assumptions C106_mean_charge.
Print Assumptions C106_cluster_size.
Print Assumptions C106_cluster_size_refuted.
Print Assumptions C106_small_chunks.
