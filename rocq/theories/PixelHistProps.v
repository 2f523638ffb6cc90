(** C159: limits of the colours and projections of the maps. *)
From Coq Require Import List Bool Arith ZArith QArith Qround Qabs Qminmax Lia Lqa.
From Verif Require Import PixelHistModel.
Import ListNotations.
Local Open Scope Q_scope.

(** ** Specification *)
(** an entry of the map *)
Definition has (hist : list (list (option Q))) (v : Q) : Prop := exists row, In row hist /\ In (Some v) row.
(** a limit for all entries which is a whole number, and the smallest one of at least 1 *)
Definition whole_limit (hist : list (list (option Q))) (z : Q) : Prop := (exists k, z = inject_Z k) /\ (forall v, has hist v -> v <= z) /\ (forall u, (1 <= u)%Z -> (forall v, has hist v -> v <= inject_Z u) -> z <= inject_Z u).

(** the mean of the entries which are not masked; masked if there are none *)
Fixpoint total (l : list (option Q)) : Q := match l with [] => 0 | Some v :: r => v + total r | None :: r => total r end.
(** how many entries are not masked *)
Fixpoint number (l : list (option Q)) : nat := match l with [] => 0%nat | Some _ :: r => S (number r) | None :: r => number r end.
(** mean of a list with masked entries *)
Definition mean_of (l : list (option Q)) (m : option Q) : Prop := match m with Some a => number l <> 0%nat /\ a * inject_Z (Z.of_nat (number l)) == total l | None => number l = 0%nat end.

(** ** Proofs *)
Lemma mean_spec l : mean_of l (mean l).
Proof.
  unfold mean. set (f := flat_map (fun o : option Q => match o with Some v => [v] | None => [] end)). assert (G : length (f l) = number l /\ fold_right Qplus 0 (f l) == total l).
  { induction l as [|[v|] l (I & J)]; [split; reflexivity| |exact (conj I J)]. change (f (Some v :: l)) with (v :: f l). cbn [length fold_right number total]. split; [rewrite I; reflexivity|rewrite J; reflexivity]. }
  destruct G as (N & T). destruct (f l) as [|v r]; unfold mean_of; [symmetry; exact N|]. rewrite <- N, <- T. split; [discriminate|]. rewrite Qmult_comm, Qmult_div_r; [reflexivity|]. unfold Qeq. cbn. lia.
Qed.
Lemma entries_has hist v : In v (entries hist) <-> has hist v.
Proof.
  unfold entries, has. rewrite in_flat_map. split; intros (row & R & H); exists row; (split; [exact R|]).
  - apply in_flat_map in H. destruct H as ([w|] & W & H); [|destruct H]. destruct H as [->|[]]. exact W.
  - apply in_flat_map. exists (Some v). split; [exact H|left; reflexivity].
Qed.
Lemma fold_Qmax l : forall a, a <= fold_left Qmax l a /\ (forall v, In v l -> v <= fold_left Qmax l a) /\ (forall b, a <= b -> (forall v, In v l -> v <= b) -> fold_left Qmax l a <= b).
Proof.
  induction l as [|y l IH]; intros a; cbn [fold_left]; [split; [lra|split; [intros v []|auto]]|]. destruct (IH (Qmax a y)) as (A & B & C). pose proof (Q.le_max_l a y). pose proof (Q.le_max_r a y). split; [lra|]. split; [intros v [->|I]; [lra|apply B, I]|]. intros b Hb Hv. apply C; [apply Q.max_lub; [exact Hb|apply Hv; left; reflexivity]|]. intros v I. apply Hv. right. exact I.
Qed.
Lemma nearly_small v : nearly_zero v = true -> v <= 1.
Proof. unfold nearly_zero. intros H. apply Qle_bool_iff in H. pose proof (Qle_Qabs v). lra. Qed.
Lemma default_whole hist : whole_limit hist (default_z_max hist) /\ ((forall v, has hist v -> v == 0) -> default_z_max hist = 1).
Proof.
  unfold whole_limit, default_z_max. assert (S := entries_has hist). destruct (entries hist) as [|v l].
  - split; [|reflexivity]. split; [exists 1%Z; reflexivity|]. split; [intros w W; apply S in W; destruct W|]. intros u U _. rewrite Zle_Qle in U. exact U.
  - destruct (forallb nearly_zero (v :: l)) eqn:F.
    + rewrite forallb_forall in F. split; [|reflexivity]. split; [exists 1%Z; reflexivity|]. split; [intros w W; apply S, F in W; apply nearly_small; exact W|]. intros u U _. rewrite Zle_Qle in U. exact U.
    + destruct (fold_Qmax l v) as (A & B & C). pose proof (Qle_ceiling (fold_left Qmax l v)) as Q1. split; [split; [eexists; reflexivity|split]|].
      * intros w W. apply S in W. destruct W as [<-|W]; [lra|specialize (B w W); lra].
      * intros u _ H. rewrite <- Zle_Qle. assert (D : fold_left Qmax l v <= inject_Z u) by (apply C; [apply H, S; left; reflexivity|intros w W; apply H, S; right; exact W]). apply Qceiling_resp_le in D. rewrite Qceiling_Z in D. exact D.
      * intros Z. exfalso. assert (T : forallb nearly_zero (v :: l) = true); [|congruence]. apply forallb_forall. intros w W. apply S, Z in W. unfold nearly_zero. apply Qle_bool_iff. rewrite W. vm_compute. discriminate.
Qed.
(** Without upper limit, it is the smallest whole number of at least 1 (or not below the largest entry) for all entries, and 1 for a map which is empty or zero; a given upper limit is used; the lower limit is the given one unless both agree. *)
Theorem C159_limits hist z_min : let '(lo, hi) := colour_limits hist z_min None in whole_limit hist hi /\ ((forall v, has hist v -> v == 0) -> hi = 1) /\ (~ hi == z_min -> lo = z_min) /\
  forall z, snd (colour_limits hist z_min (Some z)) = z /\ (~ z == z_min -> fst (colour_limits hist z_min (Some z)) = z_min).
Proof.
  unfold colour_limits. cbn [fst snd]. destruct (default_whole hist) as (W & O). split; [exact W|]. split; [exact O|]. assert (E : forall a, ~ a == z_min -> (if Qeq_bool a z_min then 0 else z_min) = z_min) by (intros a N; destruct (Qeq_bool a z_min) eqn:E; [apply Qeq_bool_iff in E; contradiction|reflexivity]). split; [apply E|]. intros z. split; [reflexivity|apply E].
Qed.
(** "The limits are never the same" is false exactly if both limits are 0; with equal limits below 0 the range is upside down. *)
Theorem C159_same_refuted hist z_min z_max : let '(lo, hi) := colour_limits hist z_min z_max in (lo == hi <-> hi == 0 /\ z_min == 0) /\ (hi == z_min -> hi < 0 -> hi < lo).
Proof.
  unfold colour_limits. set (hi := match z_max with Some z => z | None => default_z_max hist end). destruct (Qeq_bool hi z_min) eqn:E.
  - apply Qeq_bool_iff in E. split; [|lra]. split; [intros H; lra|lra].
  - assert (N : ~ hi == z_min) by (intros H; apply Qeq_bool_iff in H; congruence). split; [|intros H; contradiction]. split; [intros H; exfalso; apply N; lra|intros (H & K); exfalso; apply N; lra].
Qed.
Lemma combine_snd {A B} (l : list A) (m : list B) p : In p (combine l m) -> In (snd p) m.
Proof. destruct p as (a, b). apply in_combine_r. Qed.
(** "The projection above the map shows it along x" is false: it has one point for each row, and for a map whose values depend only on the column all points have the same value. *)
Theorem C159_projection_refuted row rows columns x0 x1 n : let points := top_projection (repeat row rows) columns x0 x1 n in length points = rows /\ forall p q, In p points -> In q points -> snd p = snd q.
Proof.
  unfold top_projection. destruct (central columns n) as (a, b). cbv zeta. split.
  - rewrite combine_length. unfold middles. rewrite !map_length, seq_length, repeat_length. apply Nat.min_id.
  - assert (G : forall p, In p (combine (middles x0 x1 (length (repeat row rows))) (map (fun r => mean (slice r a b)) (repeat row rows))) -> snd p = mean (slice row a b)).
    { intros p H. apply combine_snd, in_map_iff in H. destruct H as (r & <- & R). apply repeat_spec in R. rewrite R. reflexivity. }
    intros p q P Q. rewrite (G p P), (G q Q). reflexivity.
Qed.
(** What it shows: its k-th point is the mean of the central columns of the k-th row, at the middle of the k-th of as many equal parts of the x range as there are rows. *)
Theorem C159_projection hist columns x0 x1 n k row : nth_error hist k = Some row -> length row = columns -> (n <= columns)%nat -> exists x m, nth_error (top_projection hist columns x0 x1 n) k = Some (x, m) /\
  x == x0 + (inject_Z (Z.of_nat k) + (1 # 2)) * ((x1 - x0) / inject_Z (Z.of_nat (length hist))) /\
  mean_of (firstn (2 * (n / 2)) (skipn (columns / 2 - n / 2) row)) m.
Proof.
  intros R L N. assert (Lk : (k < length hist)%nat) by (apply nth_error_Some; congruence). unfold top_projection, central. eexists _, _. split; [|split].
  - assert (G : forall A B (l : list A) (m : list B) i a b, nth_error l i = Some a -> nth_error m i = Some b -> nth_error (combine l m) i = Some (a, b)) by (induction l as [|u l IH]; intros [|v m] [|i] a b; cbn; intros; try discriminate; [congruence|apply IH; assumption]).
    apply G; [|apply map_nth_error; exact R]. unfold middles. apply map_nth_error. rewrite (nth_error_nth' _ 0%nat) by (rewrite seq_length; exact Lk). rewrite seq_nth by exact Lk. reflexivity.
  - cbn [Nat.add]. reflexivity.
  - match goal with |- mean_of ?u (mean ?w) => replace w with u; [apply mean_spec|symmetry] end. unfold slice, slice_index. rewrite L. assert (H1 : (n / 2 <= columns / 2)%nat) by (apply Nat.div_le_mono; lia). assert (H2 := Nat.div_mod columns 2 ltac:(lia)).
    destruct (Z.ltb_spec (Z.of_nat (columns / 2) - Z.of_nat (n / 2)) 0) as [X|_]; [lia|]. destruct (Z.ltb_spec (Z.of_nat (columns / 2) + Z.of_nat (n / 2)) 0) as [X|_]; [lia|].
    rewrite <- Nat2Z.inj_sub by exact H1. rewrite <- Nat2Z.inj_add. rewrite !Nat2Z.id. rewrite (Nat.min_l (columns / 2 - n / 2)) by lia. rewrite (Nat.min_l (columns / 2 + n / 2)) by lia. f_equal. lia.
Qed.

(** Non-vacuity: a map of two rows and four columns. *)
Example C159_case : let hist := [[Some (3 # 2); None; Some 2; Some 4]; [Some 0; Some 1; Some 6; Some (13 # 2)]] in colour_limits hist 0 None = (0, 7) /\ colour_limits hist 7 None = (0, 7) /\ colour_limits hist 0 (Some 0) = (0, 0) /\
  map (fun p => (Qred (fst p), option_map Qred (snd p))) (top_projection hist 4 0 8 2) = [(2, Some 2); (6, Some (7 # 2))].
Proof. vm_compute. auto. Qed.

Print Assumptions C159_limits.
Print Assumptions C159_same_refuted.
Print Assumptions C159_projection_refuted.
Print Assumptions C159_projection.
