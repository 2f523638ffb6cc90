(** C133: the statistics of fit_tracks and their figures. *)
From Coq Require Import ZArith QArith List Bool Arith Lia Lqa.
From Verif Require Import SelectionModel SelectionProps FitTracksModel StoreTracksModel StoreTracksProps FitArgsModel FitArgsProps FitStatsModel.
Import ListNotations.
Local Open Scope nat_scope.

(** * Specification *)
(** the number of indices below n with a property *)
Definition number_of (n : nat) (P : nat -> Prop) (k : nat) : Prop := exists s, NoDup s /\ length s = k /\ forall i, In i s <-> i < n /\ P i.
(** a part of b, nothing if b is empty *)
Definition is_share (q : Q) (a b : nat) : Prop := (b = 0 /\ (q == 0)%Q) \/ (0 < b /\ (q * inject_Z (Z.of_nat b) == inject_Z (Z.of_nat a))%Q).
(** the hit and the track of candidate i have positions in the DUT *)
Definition has_distance (t : track_data) (tracks : list (nat -> point)) (d i : nat) : Prop :=
  exists hx hy tx ty, c_hit (nth i (candidates t) no_candidate) d = (Some hx, Some hy) /\ nth i tracks (fun _ => (None, None)) d = (Some tx, Some ty).

Lemma share_ok a b : is_share (share a b) a b.
Proof.
  unfold is_share, share. destruct (Nat.eqb_spec b 0) as [->|N]; [left; split; [auto|reflexivity]|]. right. split; [lia|]. field. intros E. unfold Qeq in E. cbn in E. lia.
Qed.
Lemma quotient_ok a b q : quotient a b = Some q -> 0 < b /\ is_share q a b.
Proof.
  unfold quotient. destruct (Nat.eqb_spec b 0) as [|N]; [discriminate|]. intros [= <-]. split; [lia|]. right. split; [lia|]. field. intros E. unfold Qeq in E. cbn in E. lia.
Qed.
Lemma share_bounds q a b : is_share q a b -> a <= b -> (0 <= q <= 1)%Q.
Proof.
  intros [[_ E]|[P E]] L; [rewrite E; split; discriminate|].
  assert (B : (0 < inject_Z (Z.of_nat b))%Q) by (unfold Qlt; cbn; lia). assert (A : (0 <= inject_Z (Z.of_nat a) <= inject_Z (Z.of_nat b))%Q) by (unfold Qle; cbn; lia).
  split; apply Qmult_lt_0_le_reg_r with (inject_Z (Z.of_nat b)); auto; rewrite E; lra.
Qed.
Lemma number_unique n P k m : number_of n P k -> number_of n P m -> k = m.
Proof. intros (s & N & <- & S) (u & M & <- & U). apply Nat.le_antisymm; apply NoDup_incl_length; auto; intros i I; [apply U, S, I|apply S, U, I]. Qed.
Lemma number_le n (P R : nat -> Prop) k m : number_of n P k -> number_of n R m -> (forall i, i < n -> P i -> R i) -> k <= m.
Proof. intros (s & N & <- & S) (u & M & <- & U) H. apply NoDup_incl_length; auto. intros i I. apply S in I. apply U. split; [tauto|apply H; tauto]. Qed.
Lemma number_total n P k : number_of n P k -> k <= n.
Proof. intros (s & N & <- & S). rewrite <- (seq_length n 0). apply NoDup_incl_length; auto. intros i I. apply S in I. apply in_seq. lia. Qed.

Section Shares.
  Variables (t : track_data) (tracks : list (nat -> point)).
  Hypothesis H : consistent t tracks.
  Notation n := (length (candidates t)).
  Notation I := (positions (fit_mask t)).
  Notation stored i := (nth i (store_mask t) false = true).
  Notation is_fitted i := (nth i (fit_mask t) false = true).

  Lemma count_number (p : nat -> bool) (P : nat -> Prop) : (forall k, k < length I -> p k = true <-> P (nth k I 0)) -> (forall i, P i -> is_fitted i) ->
    number_of n P (count p (seq 0 (length (fitted t)))).
  Proof using H.
    intros E F. rewrite (fitted_len t tracks H). exists (map (fun k => nth k I 0) (filter p (seq 0 (length I)))). split; [|split].
    - assert (G : forall l, NoDup l -> (forall k, In k l -> k < length I) -> NoDup (map (fun k => nth k I 0) l)).
      { induction l as [|a l IH]; intros N B; cbn; [constructor|]. inversion N; subst. constructor; [|apply IH; auto; intros k K; apply B; now right].
        intros C. apply in_map_iff in C. destruct C as (b & Eq & Ib). assert (a < length I) by (apply B; now left). assert (b < length I) by (apply B; now right).
        destruct (Nat.lt_trichotomy a b) as [L|[L|L]]; [pose proof (positions_lt (fit_mask t) a b L); lia|subst; contradiction|pose proof (positions_lt (fit_mask t) b a L); lia]. }
      apply G; [apply NoDup_filter, seq_NoDup|]. intros k K. apply filter_In in K. destruct K as [K _]. apply in_seq in K. lia.
    - now rewrite map_length.
    - intros i. rewrite in_map_iff. split.
      + intros (k & <- & K). apply filter_In in K. destruct K as [K Pk]. apply in_seq in K. split; [apply (I_nth t tracks H); lia|]. apply E; [lia|exact Pk].
      + intros (L & Pi). assert (Ii : In i I). { apply positions_In. destruct H as (L1 & _). rewrite L1. split; [exact L|apply F, Pi]. }
        destruct (In_nth _ _ 0 Ii) as (k & K & <-). exists k. split; [reflexivity|]. apply filter_In. split; [apply in_seq; lia|]. apply E; auto.
  Qed.
  Lemma stored_fitted_nth k : k < length I -> stored_fitted t k = true <-> stored (nth k I 0).
  Proof using H.
    intros K. unfold stored_fitted. destruct H as (L1 & L2 & _). rewrite (choose_positions bool false) by congruence.
    rewrite (nth_indep _ _ (nth 0 (store_mask t) false)) by (rewrite map_length; exact K). rewrite (map_nth (fun i => nth i (store_mask t) false)). reflexivity.
  Qed.
  Lemma finite_nth d k : k < length I -> finite_distance t d k = true <-> has_distance t tracks d (nth k I 0).
  Proof using H.
    intros K. unfold finite_distance, has_distance. rewrite (fitted_nth t tracks H) by exact K. rewrite (inter_nth t tracks H) by exact K.
    destruct (c_hit (nth (nth k I 0) (candidates t) no_candidate) d) as [[hx|] [hy|]], (nth (nth k I 0) tracks (fun _ => (None, None)) d) as [[tx|] [ty|]]; cbn;
      (split; [try discriminate; intros _; exists hx, hy, tx, ty; auto|intros (? & ? & ? & ? & [=] & [=]); reflexivity]).
  Qed.
  Lemma good_number : number_of n (fun i => stored i) (length (filter (fun b => b) (store_mask t))).
  Proof using H.
    destruct H as (L1 & L2 & _). exists (positions (store_mask t)). split; [apply NoDup_filter, seq_NoDup|]. split.
    - transitivity (length (choose (store_mask t) (store_mask t))); [rewrite (choose_positions bool false) by reflexivity; now rewrite map_length|].
      rewrite <- (choose_filter bool (fun b => b)), map_id. reflexivity.
    - intros i. rewrite positions_In, L2. reflexivity.
  Qed.

  Hypothesis Pix : forall s, In s (settings t) -> (0 < fst (pixel s) /\ 0 < snd (pixel s))%Q.
  (** The shares of a DUT: of the stored tracks those with hit and track in the DUT; of these those with quality, with isolated track and with isolated hit; and the part of all candidates
      which have been fitted (whether they are stored or not) with quality, isolated track and isolated hit. *)
  Theorem C133_shares d l : d < length (settings t) -> dut_stat t d (nth d (settings t) default_settings) = Some l ->
    let s := nth d (settings t) default_settings in
    let hit i := stored i /\ has_distance t tracks d i in
    let quality i := good_hit s (shifts t d) (c_hit (nth i (candidates t) no_candidate) d) (nth i tracks (fun _ => (None, None)) d) in
    exists q1 q2 q3 q4 q5 n_good n_hit n_quality n_track n_alone n_all, l = [q1; q2; q3; q4; q5] /\
      number_of n (fun i => stored i) n_good /\ number_of n hit n_hit /\ number_of n (fun i => hit i /\ quality i) n_quality /\
      number_of n (fun i => hit i /\ track_alone t tracks d s i) n_track /\ number_of n (fun i => hit i /\ hit_alone t d s i) n_alone /\
      number_of n (fun i => is_fitted i /\ quality i /\ track_alone t tracks d s i /\ hit_alone t d s i) n_all /\
      is_share q1 n_hit n_good /\ is_share q2 n_quality n_hit /\ is_share q3 n_track n_hit /\ is_share q4 n_alone n_hit /\ is_share q5 n_all n /\
      Forall (fun q => 0 <= q <= 1)%Q l.
  Proof using H Pix.
    intros D E s hit quality. fold s in E. assert (Is : In s (settings t)) by (apply nth_In; exact D). unfold dut_stat in E.
    destruct (use_ellipse_for s) as [el|] eqn:U; [|discriminate]. destruct (isolation_for s) as [iso|] eqn:J; [|discriminate].
    destruct (quotient _ _) as [last|] eqn:Q; [|discriminate]. injection E as <-.
    assert (SF : forall i, stored i -> is_fitted i) by (destruct H as (_ & _ & _ & S & _); exact S).
    assert (Hq : forall k, k < length I -> quality_sel s el (shifts t d) (c_hit (nth k (fitted t) no_candidate) d) (inter_of t d k) = true <-> quality (nth k I 0)).
    { intros k K. unfold quality. rewrite (fitted_nth t tracks H), (inter_nth t tracks H) by exact K. apply quality_spec; auto. }
    assert (Ht : forall k, k < length I -> track_isolated t d iso k = true <-> track_alone t tracks d s (nth k I 0)) by (intros k K; apply (track_isolated_spec t tracks H); auto).
    assert (Hh : forall k, k < length I -> hit_isolated t d iso el (candidate_index t k) = true <-> hit_alone t d s (nth k I 0)).
    { intros k K. rewrite (index_nth t k). apply (hit_isolated_spec t tracks H); auto. apply (I_nth t tracks H), K. }
    assert (Hd : forall k, k < length I -> stored_fitted t k && finite_distance t d k = true <-> hit (nth k I 0)).
    { intros k K. rewrite andb_true_iff, stored_fitted_nth, finite_nth by exact K. reflexivity. }
    assert (N1 := good_number).
    assert (N2 : number_of n hit (count (fun k => stored_fitted t k && finite_distance t d k) (seq 0 (length (fitted t))))).
    { apply count_number; [exact Hd|]. intros i (A & _). auto. }
    assert (N3 := fun p P (X : forall k, k < length I -> p k = true <-> P (nth k I 0)) => count_number (fun k => stored_fitted t k && finite_distance t d k && p k) (fun i => hit i /\ P i)
      (fun k K => ltac:(rewrite andb_true_iff, (Hd k K), (X k K); reflexivity)) (fun i A => SF i (proj1 (proj1 A)))).
    assert (N4 : number_of n (fun i => is_fitted i /\ quality i /\ track_alone t tracks d s i /\ hit_alone t d s i)
      (count (fun k => quality_sel s el (shifts t d) (c_hit (nth k (fitted t) no_candidate) d) (inter_of t d k) && track_isolated t d iso k && hit_isolated t d iso el (candidate_index t k)) (seq 0 (length (fitted t))))).
    { apply count_number; [|intros i A; apply A]. intros k K. rewrite !andb_true_iff, (Hq k K), (Ht k K), (Hh k K). pose proof (I_nth t tracks H k K). tauto. }
    destruct (quotient_ok _ _ _ Q) as [Pn Q5]. eexists _, _, _, _, _, _, _, _, _, _, _.
    split; [reflexivity|]. split; [exact N1|]. split; [exact N2|]. split; [exact (N3 _ _ Hq)|]. split; [exact (N3 _ _ Ht)|]. split; [exact (N3 _ _ Hh)|]. split; [exact N4|].
    split; [apply share_ok|]. split; [apply share_ok|]. split; [apply share_ok|]. split; [apply share_ok|]. split; [exact Q5|].
    repeat constructor; try (apply (share_bounds _ _ _ (share_ok _ _))); try (apply (share_bounds _ _ _ Q5)); try (apply (number_total _ _ _ N4)).
    - apply (number_le _ _ _ _ _ N2 N1). intros i _ A. apply A.
    - apply (number_le _ _ _ _ _ N2 N1). intros i _ A. apply A.
    - apply (number_le _ _ _ _ _ (N3 _ _ Hq) N2). intros i _ A. apply A.
    - apply (number_le _ _ _ _ _ (N3 _ _ Hq) N2). intros i _ A. apply A.
    - apply (number_le _ _ _ _ _ (N3 _ _ Ht) N2). intros i _ A. apply A.
    - apply (number_le _ _ _ _ _ (N3 _ _ Ht) N2). intros i _ A. apply A.
    - apply (number_le _ _ _ _ _ (N3 _ _ Hh) N2). intros i _ A. apply A.
    - apply (number_le _ _ _ _ _ (N3 _ _ Hh) N2). intros i _ A. apply A.
  Qed.
End Shares.

(** * All DUTs *)
Lemma all_some_nth {A} : forall (l : list (option A)) r, all_some l = Some r -> length r = length l /\ forall k a, nth_error r k = Some a <-> nth_error l k = Some (Some a).
Proof.
  induction l as [|[a|] l IH]; intros r E; cbn in E; try discriminate.
  - injection E as <-. split; [reflexivity|]. intros [|k] b; split; discriminate.
  - destruct (all_some l) as [r'|]; [|discriminate]. injection E as <-. destruct (IH _ eq_refl) as [L N]. split; [cbn; congruence|].
    intros [|k] b; cbn; [|apply N]. split; congruence.
Qed.
Lemma all_some_exists {A} : forall l : list (option A), (forall a, In a l -> a <> None) <-> exists r, all_some l = Some r.
Proof.
  induction l as [|[a|] l IH]; cbn.
  - split; [exists []; reflexivity|intros _ a []].
  - split.
    + intros H. destruct (proj1 IH (fun b I => H b (or_intror I))) as (r & ->). exists (a :: r). reflexivity.
    + intros (r & E). destruct (all_some l) as [r'|]; [|discriminate]. intros b [<-|I]; [discriminate|]. apply (proj2 IH); eauto.
  - split; [intros H; exfalso; apply (H None); auto|intros (r & E); discriminate].
Qed.
Lemma dut_stats_nth t l : dut_stats t = Some l -> length l = length (settings t) /\
  forall d a, nth_error l d = Some a <-> d < length (settings t) /\ dut_stat t d (nth d (settings t) default_settings) = Some a.
Proof.
  intros E. apply all_some_nth in E. destruct E as [L N]. rewrite map_length, seq_length in L. split; [exact L|]. intros d a. rewrite N. split.
  - intros X. destruct (Nat.lt_ge_cases d (length (settings t))) as [D|D].
    + split; [exact D|]. rewrite (nth_error_nth' _ None) in X by (rewrite map_length, seq_length; exact D). injection X as X. rewrite <- X.
      rewrite (nth_indep _ None (dut_stat t (length (settings t)) (nth (length (settings t)) (settings t) (DutSettings (0%Q, 0%Q) None None None None)))) by (rewrite map_length, seq_length; exact D).
      rewrite (map_nth (fun i => dut_stat t i (nth i (settings t) (DutSettings (0%Q, 0%Q) None None None None)))). rewrite seq_nth by exact D. cbn [plus].
      rewrite (nth_indep (settings t) default_settings (DutSettings (0%Q, 0%Q) None None None None)) by exact D. reflexivity.
    + rewrite (proj2 (nth_error_None _ _)) in X; [discriminate|]. rewrite map_length, seq_length. exact D.
  - intros (D & X). rewrite (map_nth_error _ d (seq 0 (length (settings t))) (d := d)); [|rewrite (nth_error_nth' _ 0) by (rewrite seq_length; exact D); now rewrite seq_nth by exact D].
    rewrite (nth_indep (settings t) (DutSettings (0%Q, 0%Q) None None None None) default_settings) by exact D. now rewrite X.
Qed.
Lemma stat_exists t d s : dut_stat t d s <> None <-> distances_valid s /\ candidates t <> [].
Proof.
  unfold dut_stat, distances_valid. pose proof (use_ellipse_spec s) as U. pose proof (isolation_spec s) as J. unfold quotient.
  destruct (use_ellipse_for s) as [e|]; [|split; [congruence|]; intros ((A & _) & _); destruct U as (qx & qy & E & N); exfalso; apply N, A, E].
  destruct (isolation_for s) as [[ix iy]|]; [|split; [congruence|]; intros ((_ & A) & _); destruct J as (qx & qy & E & N); exfalso; apply N, A, E].
  destruct (candidates t) as [|c l]; cbn; [split; [congruence|intros (_ & A); now destruct A]|]. split; [|discriminate]. intros _. split; [split; [apply U|apply J]|discriminate].
Qed.
(** The statistics of a chunk exist if and only if all distances are valid and there is a candidate (an empty chunk is divided by). *)
Theorem C133_exists t : (exists l, dut_stats t = Some l) <-> forall s, In s (settings t) -> distances_valid s /\ candidates t <> [].
Proof.
  unfold dut_stats. rewrite <- all_some_exists. split.
  - intros A s I. destruct (In_nth _ _ (DutSettings (0%Q, 0%Q) None None None None) I) as (d & D & E). apply (stat_exists t d s). apply A. apply in_map_iff. exists d. rewrite E. split; [reflexivity|]. apply in_seq. lia.
  - intros A o I. apply in_map_iff in I. destruct I as (d & <- & D). apply in_seq in D. apply stat_exists, A, nth_In. lia.
Qed.

(** * Figures *)
Definition usable (n_duts : nat) (c : chunk) : Prop := length (settings (data c)) = n_duts /\ (exists tracks, consistent (data c) tracks) /\
  (forall s, In s (settings (data c)) -> (0 < fst (pixel s) /\ 0 < snd (pixel s))%Q).
Lemma five t tracks d l : consistent t tracks -> (forall s, In s (settings t) -> (0 < fst (pixel s) /\ 0 < snd (pixel s))%Q) -> d < length (settings t) ->
  dut_stat t d (nth d (settings t) default_settings) = Some l -> length l = 5 /\ Forall (fun q => 0 <= q <= 1)%Q l.
Proof.
  intros H P D E. destruct (C133_shares t tracks H P d l D E) as (q1 & q2 & q3 & q4 & q5 & a & b & c & e & f & g & -> & X). split; [reflexivity|]. repeat apply proj2 in X. exact X.
Qed.
Lemma factor_ok prev stat : Forall (fun q => 0 <= q <= 1)%Q stat -> exists f, factor prev stat = Some f /\ In f [1; 10; 100] /\
  Forall (fun q => 0 <= q * inject_Z (Z.of_nat f) <= 1)%Q stat /\ (f < 100 -> Exists (fun q => 1 < q * inject_Z (Z.of_nat f) * 10)%Q stat).
Proof.
  intros F. rewrite Forall_forall in F. unfold factor.
  assert (G : forall x, forallb (fun q => Qle_bool q x) stat = true -> forall q, In q stat -> (q <= x)%Q) by (intros x X q I; rewrite forallb_forall in X; apply Qle_bool_iff, X, I).
  assert (Ng : forall x, forallb (fun q => Qle_bool q x) stat = false -> exists q, In q stat /\ (x < q)%Q).
  { clear. intros x. induction stat as [|a l IH]; cbn; [discriminate|]. destruct (Qle_bool a x) eqn:E; cbn; [intros X; destruct (IH X) as (q & I & L); eauto|].
    intros _. exists a. split; [auto|]. apply Qnot_le_lt. intros L. apply Qle_bool_iff in L. congruence. }
  destruct (forallb (fun q => Qle_bool q (1 # 100)) stat) eqn:E1; [|destruct (forallb (fun q => Qle_bool q (1 # 10)) stat) eqn:E2; [|destruct (forallb (fun q => Qle_bool q 1) stat) eqn:E3]].
  - exists 100. split; [reflexivity|]. split; [cbn; auto|]. split; [|lia]. apply Forall_forall. intros q I. specialize (G _ E1 q I). specialize (F q I). change (inject_Z (Z.of_nat 100)) with 100%Q. lra.
  - exists 10. split; [reflexivity|]. split; [cbn; auto|]. change (inject_Z (Z.of_nat 10)) with 10%Q. split.
    + apply Forall_forall. intros q I. specialize (G _ E2 q I). specialize (F q I). lra.
    + intros _. destruct (Ng _ E1) as (q & I & L). apply Exists_exists. exists q. split; [exact I|]. lra.
  - exists 1. split; [reflexivity|]. split; [cbn; auto|]. change (inject_Z (Z.of_nat 1)) with 1%Q. split.
    + apply Forall_forall. intros q I. specialize (F q I). lra.
    + intros _. destruct (Ng _ E2) as (q & I & L). apply Exists_exists. exists q. split; [exact I|]. lra.
  - destruct (Ng _ E3) as (q & I & L). specialize (F q I). lra.
Qed.
Lemma curves_ok idx : forall stats prev k cs, Forall (Forall (fun q => 0 <= q <= 1)%Q) stats -> stat_curves idx prev k stats = Some cs ->
  length cs = length stats /\ forall j stat, nth_error stats j = Some stat -> exists f, nth_error cs j = Some (Curve (Some (k + j)) f (combine idx (map (fun q => (q * inject_Z (Z.of_nat f))%Q) stat))) /\
    In f [1; 10; 100] /\ length idx = length stat /\ Forall (fun q => 0 <= q * inject_Z (Z.of_nat f) <= 1)%Q stat /\ (f < 100 -> Exists (fun q => 1 < q * inject_Z (Z.of_nat f) * 10)%Q stat).
Proof.
  induction stats as [|stat stats IH]; intros prev k cs F E; cbn [stat_curves] in E.
  - injection E as <-. split; [reflexivity|]. intros [|j] s; discriminate.
  - inversion F as [|? ? F1 F2]; subst. destruct (factor_ok prev stat F1) as (f & Ef & A & B & C). rewrite Ef in E.
    destruct (Nat.ltb_spec k 5); cbn [andb] in E; [|discriminate]. destruct (Nat.eqb_spec (length idx) (length stat)) as [L|]; [|discriminate].
    destruct (stat_curves idx (Some f) (S k) stats) as [cs'|] eqn:R; [|discriminate]. injection E as <-. destruct (IH _ _ _ F2 R) as [Ln N]. split; [cbn; congruence|].
    intros [|j] s Es; cbn in Es |- *.
    + injection Es as <-. exists f. rewrite Nat.add_0_r. auto.
    + rewrite <- Nat.add_succ_comm. apply N, Es.
Qed.
Lemma curves_exist idx : forall stats prev k, Forall (Forall (fun q => 0 <= q <= 1)%Q) stats -> Forall (fun s => length s = length idx) stats -> k + length stats <= 5 -> stat_curves idx prev k stats <> None.
Proof.
  induction stats as [|stat stats IH]; intros prev k F G L; cbn [stat_curves]; [discriminate|]. inversion F as [|? ? F1 F2]; subst. inversion G as [|? ? G1 G2]; subst. cbn in L.
  destruct (factor_ok prev stat F1) as (f & -> & _). destruct (Nat.ltb_spec k 5); [|lia]. cbn [andb]. rewrite G1, Nat.eqb_refl.
  specialize (IH (Some f) (S k) F2 G2 ltac:(lia)). destruct (stat_curves idx (Some f) (S k) stats); [discriminate|congruence].
Qed.
Lemma transposed_five l : l <> [] -> Forall (fun s => length s = 5) l -> transposed l = map (fun i => map (fun s => nth i s 0%Q) l) (seq 0 5).
Proof.
  destruct l as [|a r]; [congruence|]. intros _ F. unfold transposed. inversion F as [|? ? F1 F2]; subst. f_equal. f_equal. clear F. revert F1. generalize (length a). induction r as [|b r IH]; intros m E; cbn; [exact E|].
  inversion F2 as [|? ? G1 G2]; subst. apply IH; auto. rewrite G1. reflexivity.
Qed.
Lemma forall2_intro {A B} (R : A -> B -> Prop) : forall l m, length l = length m -> (forall k a b, nth_error l k = Some a -> nth_error m k = Some b -> R a b) -> Forall2 R l m.
Proof. induction l as [|a l IH]; intros [|b m] L H; try discriminate; constructor; [apply (H 0); reflexivity|]. apply IH; [cbn in L; lia|]. intros k. apply (H (S k)). Qed.
Lemma nth_error_some {A} (l : list A) k : k < length l -> exists a, nth_error l k = Some a.
Proof. intros L. destruct (nth_error l k) eqn:E; [eauto|]. apply nth_error_None in E. lia. Qed.
Lemma combine_nth_error {A B} : forall (l : list A) (m : list B) k p, nth_error (combine l m) k = Some p <-> nth_error l k = Some (fst p) /\ nth_error m k = Some (snd p).
Proof.
  induction l as [|a l IH]; intros [|b m] [|k] [x y]; cbn; try (split; [discriminate|intros []; discriminate]); [|apply IH]. split; [intros [= <- <-]; auto|intros [[= ->] [= ->]]; reflexivity].
Qed.
Lemma map_nth_error_inv {A B} (f : A -> B) l k b : nth_error (map f l) k = Some b -> exists a, nth_error l k = Some a /\ b = f a.
Proof. rewrite nth_error_map. destruct (nth_error l k) as [a|]; [|discriminate]. intros [= <-]. eauto. Qed.

(** The page of a DUT (its number, with the DUTs whose tracks are stored in the title): the first curve has for each chunk the share of the candidates selected for storage; the other five curves have the five
    shares of the DUT, times 1, 10 or 100, so that no point exceeds 1 and the largest such factor is used. *)
Theorem C133_pages n_duts step chunks pages : chunks <> [] -> Forall (usable n_duts) chunks -> fit_statistics n_duts step chunks = Some pages ->
  length pages = n_duts /\ forall d p, nth_error pages d = Some p -> page_dut p = d /\ page_fit_duts p = snd step /\
    exists first others, page_curves p = first :: others /\ length others = 5 /\ curve_label first = None /\ curve_factor first = 1 /\
      Forall2 (fun c pt => fst pt = index_chunk c /\ is_share (snd pt) (count_occ bool_dec (selected c) true) (length (selected c))) chunks (curve_points first) /\
      forall k cv, nth_error others k = Some cv -> curve_label cv = Some k /\ In (curve_factor cv) [1; 10; 100] /\
        Forall2 (fun c pt => fst pt = index_chunk c /\ exists l, dut_stat (data c) d (nth d (settings (data c)) default_settings) = Some l /\
          (snd pt == nth k l 0 * inject_Z (Z.of_nat (curve_factor cv)))%Q) chunks (curve_points cv) /\
        Forall (fun pt => 0 <= snd pt <= 1)%Q (curve_points cv) /\ (curve_factor cv < 100 -> Exists (fun pt => 1 < snd pt * 10)%Q (curve_points cv)).
Proof.
  intros Ne Us E. unfold fit_statistics in E. destruct (all_some (map (fun c => chunk_stat (selected c)) chunks)) as [cst|] eqn:E1; [|discriminate].
  destruct (all_some (map (fun c => dut_stats (data c)) chunks)) as [st|] eqn:E2; [|discriminate]. apply all_some_nth in E1. apply all_some_nth in E2. apply all_some_nth in E.
  destruct E1 as [L1 N1], E2 as [L2 N2], E as [L N]. rewrite map_length in L1, L2. rewrite map_length, seq_length in L. split; [exact L|]. intros d p Ep.
  assert (D : d < n_duts) by (rewrite <- L; apply nth_error_Some; congruence). apply N, map_nth_error_inv in Ep. destruct Ep as (d' & Ed & Ep). 
  rewrite (nth_error_nth' _ 0), seq_nth in Ed by (rewrite ?seq_length; exact D). injection Ed as <-. cbn [plus] in Ep. unfold stat_page in Ep. symmetry in Ep.
  rewrite map_length, L1, Nat.eqb_refl in Ep.
  (* the statistics of every chunk *)
  assert (St : forall k s, nth_error st k = Some s -> exists c l, nth_error chunks k = Some c /\ usable n_duts c /\ dut_stats (data c) = Some s /\ nth_error s d = Some l /\
    dut_stat (data c) d (nth d (settings (data c)) default_settings) = Some l /\ length l = 5 /\ Forall (fun q => 0 <= q <= 1)%Q l).
  { intros k s Es. apply N2, map_nth_error_inv in Es. destruct Es as (c & Ec & Es). symmetry in Es. assert (U : usable n_duts c) by (rewrite Forall_forall in Us; apply Us, (nth_error_In _ _ Ec)).
    destruct U as (Ul & (tracks & Uc) & Up). destruct (dut_stats_nth _ _ Es) as [Ls Ns]. destruct (nth_error_some s d) as (l & El); [rewrite Ls, Ul; exact D|].
    assert (X := proj1 (Ns d l) El). destruct X as [Dl X]. destruct (five _ _ _ _ Uc Up Dl X) as [F1 F2]. exists c, l. split; [exact Ec|]. split; [split; [exact Ul|split; [exists tracks; exact Uc|exact Up]]|]. auto 10. }
  assert (Nst : st <> []) by (intros ->; destruct chunks; [congruence|discriminate]).
  assert (Las : exists a b, nth_error (last st []) d = Some (a :: b)).
  { destruct (exists_last Nst) as (l' & s & ->). rewrite last_last. destruct (St (length l') s) as (c & l & _ & _ & _ & El & _ & F & _).
    - rewrite nth_error_app2 by lia. now rewrite Nat.sub_diag.
    - destruct l as [|a b]; [discriminate|]. eauto. }
  destruct Las as (a & b & Las). rewrite Las in Ep. destruct (all_some (map (fun item => nth_error item d) st)) as [shown|] eqn:Sh; [|discriminate].
  apply all_some_nth in Sh. destruct Sh as [Ls Ns]. rewrite map_length in Ls.
  assert (Sw : forall k l, nth_error shown k = Some l -> exists c, nth_error chunks k = Some c /\ dut_stat (data c) d (nth d (settings (data c)) default_settings) = Some l /\ length l = 5 /\ Forall (fun q => 0 <= q <= 1)%Q l).
  { intros k l El. apply Ns, map_nth_error_inv in El. destruct El as (s & Es & El). destruct (St k s Es) as (c & l' & Ec & _ & _ & El' & X & F1 & F2). rewrite El' in El. injection El as ->. eauto. }
  assert (Fs : Forall (fun s => length s = 5) shown). { apply Forall_forall. intros s I. apply In_nth_error in I. destruct I as (k & I). destruct (Sw k s I) as (c & _ & _ & X & _). exact X. }
  assert (Nsh : shown <> []) by (intros ->; destruct st; [congruence|discriminate]).
  rewrite (transposed_five shown Nsh Fs) in Ep. destruct (stat_curves _ _ _ _) as [cs|] eqn:C; [|discriminate]. injection Ep as <-. cbn [page_dut page_fit_duts page_curves].
  split; [reflexivity|]. split; [reflexivity|]. exists (Curve None 1 (combine (map index_chunk chunks) cst)), cs. split; [reflexivity|].
  apply curves_ok in C.
  2:{ apply Forall_forall. intros s I. apply in_map_iff in I. destruct I as (i & <- & Ii). apply in_seq in Ii. apply Forall_forall. intros q Iq. apply in_map_iff in Iq. destruct Iq as (l & <- & Il).
      apply In_nth_error in Il. destruct Il as (k & Il). destruct (Sw k l Il) as (c & _ & _ & X & Y). rewrite Forall_forall in Y. apply Y, nth_In. lia. }
  destruct C as [Lc Nc]. rewrite map_length, seq_length in Lc. split; [exact Lc|]. split; [reflexivity|]. split; [reflexivity|]. cbn [curve_points]. split.
  - apply forall2_intro; [rewrite combine_length, map_length; lia|]. intros k c pt Ec Ept. apply combine_nth_error in Ept. destruct Ept as [P1 P2].
    rewrite nth_error_map, Ec in P1. injection P1 as <-. split; [reflexivity|]. apply N1 in P2. rewrite nth_error_map, Ec in P2. injection P2 as P2. unfold chunk_stat in P2.
    apply quotient_ok in P2. destruct P2 as [_ P2]. replace (count_occ bool_dec (selected c) true) with (length (filter (fun b => b) (selected c))); [exact P2|].
    generalize (selected c). induction l as [|[] l IH]; cbn; [reflexivity|f_equal; exact IH|exact IH].
  - intros k cv Ecv. assert (K : k < 5) by (rewrite <- Lc; apply nth_error_Some; congruence). assert (Ek : nth_error (map (fun i => map (fun s => nth i s 0%Q) shown) (seq 0 5)) k = Some (map (fun s => nth k s 0%Q) shown)).
    { rewrite nth_error_map, (nth_error_nth' _ 0) by (rewrite seq_length; exact K). rewrite seq_nth by exact K. reflexivity. }
    destruct (Nc k _ Ek) as (f & X & If & Lf & Bf & Mf). rewrite Ecv in X. injection X as ->. cbn [curve_label curve_factor curve_points plus]. split; [reflexivity|]. split; [exact If|].
    assert (Pt : forall pt, In pt (combine (map index_chunk chunks) (map (fun q => (q * inject_Z (Z.of_nat f))%Q) (map (fun s => nth k s 0%Q) shown))) -> In (snd pt) (map (fun q => (q * inject_Z (Z.of_nat f))%Q) (map (fun s => nth k s 0%Q) shown))).
    { intros [u v] I. apply in_combine_r in I. exact I. }
    split; [|split].
    + apply forall2_intro; [rewrite combine_length, !map_length; lia|]. intros j c pt Ec Ept. apply combine_nth_error in Ept. destruct Ept as [P1 P2].
      rewrite nth_error_map, Ec in P1. injection P1 as <-. split; [reflexivity|]. rewrite map_map in P2. apply map_nth_error_inv in P2. destruct P2 as (l & El & ->).
      destruct (Sw j l El) as (c' & Ec' & X & _). rewrite Ec in Ec'. injection Ec' as <-. exists l. split; [exact X|reflexivity].
    + apply Forall_forall. intros pt I. apply Pt in I. apply in_map_iff in I. destruct I as (q & <- & I). rewrite Forall_forall in Bf. apply Bf, I.
    + intros Lt. specialize (Mf Lt). apply Exists_exists in Mf. destruct Mf as (q & I & Q). apply In_nth_error in I. destruct I as (j & I).
      assert (J : j < length shown) by (rewrite <- (map_length (fun s => nth k s 0%Q)); apply nth_error_Some; congruence).
      destruct (nth_error_some chunks j) as (c & Ec); [lia|]. apply Exists_exists. exists (index_chunk c, (q * inject_Z (Z.of_nat f))%Q). split; [|exact Q].
      apply (nth_error_In _ j). apply combine_nth_error. cbn [fst snd]. split; [now rewrite nth_error_map, Ec|now rewrite nth_error_map, I].
Qed.
(** The figures are made whenever every chunk has candidates and all distances are valid. *)
Theorem C133_made n_duts step chunks : Forall (usable n_duts) chunks ->
  (forall c, In c chunks -> selected c <> [] /\ forall s, In s (settings (data c)) -> distances_valid s /\ candidates (data c) <> []) -> exists pages, fit_statistics n_duts step chunks = Some pages.
Proof.
  intros Us Ok. unfold fit_statistics.
  destruct (proj1 (all_some_exists (map (fun c => chunk_stat (selected c)) chunks))) as (cst & E1).
  { intros o I. apply in_map_iff in I. destruct I as (c & <- & I). destruct (Ok c I) as [S _]. unfold chunk_stat, quotient. destruct (selected c); [congruence|]. discriminate. }
  destruct (proj1 (all_some_exists (map (fun c => dut_stats (data c)) chunks))) as (st & E2).
  { intros o I. apply in_map_iff in I. destruct I as (c & <- & I). destruct (Ok c I) as [_ S]. apply C133_exists in S. destruct S as (l & ->). discriminate. }
  rewrite E1, E2. apply all_some_nth in E1. apply all_some_nth in E2. destruct E1 as [L1 N1], E2 as [L2 N2]. rewrite map_length in L1, L2.
  apply all_some_exists. intros o I. apply in_map_iff in I. destruct I as (d & <- & D). apply in_seq in D. unfold stat_page. rewrite map_length, L1, Nat.eqb_refl.
  assert (St : forall k s, nth_error st k = Some s -> exists l, nth_error s d = Some l /\ length l = 5 /\ Forall (fun q => 0 <= q <= 1)%Q l).
  { intros k s Es. apply N2, map_nth_error_inv in Es. destruct Es as (c & Ec & Es). symmetry in Es. assert (U : usable n_duts c) by (rewrite Forall_forall in Us; apply Us, (nth_error_In _ _ Ec)).
    destruct U as (Ul & (tracks & Uc) & Up). destruct (dut_stats_nth _ _ Es) as [Ls Ns]. destruct (nth_error_some s d) as (l & El); [lia|].
    assert (X := proj1 (Ns d l) El). destruct X as [Dl X]. destruct (five _ _ _ _ Uc Up Dl X) as [F1 F2]. eauto. }
  assert (Z : exists shown, (match nth_error (last st []) d with Some (_ :: _) => all_some (map (fun item => nth_error item d) st) | _ => Some [] end) = Some shown /\
    (shown = [] \/ length shown = length chunks /\ Forall (fun s => length s = 5 /\ Forall (fun q => 0 <= q <= 1)%Q s) shown)).
  { destruct (nth_error (last st []) d) as [[|a b]|]; [exists []; auto| |exists []; auto].
    destruct (proj1 (all_some_exists (map (fun item => nth_error item d) st))) as (shown & E).
    { intros o I. apply in_map_iff in I. destruct I as (s & <- & I). apply In_nth_error in I. destruct I as (k & I). destruct (St k s I) as (l & -> & _). discriminate. }
    exists shown. split; [exact E|]. right. apply all_some_nth in E. destruct E as [L N]. rewrite map_length in L. split; [congruence|]. apply Forall_forall. intros l I. apply In_nth_error in I. destruct I as (k & I).
    apply N, map_nth_error_inv in I. destruct I as (s & Es & El). destruct (St k s Es) as (l' & El' & X). rewrite El' in El. injection El as ->. exact X. }
  destruct Z as (shown & -> & [->|[L F]]); [discriminate|]. destruct shown as [|s0 r]; [discriminate|]. rewrite transposed_five; [|discriminate|].
  2:{ apply Forall_forall. intros s I. rewrite Forall_forall in F. apply (F s I). }
  assert (C : stat_curves (map index_chunk chunks) None 0 (map (fun i => map (fun s => nth i s 0%Q) (s0 :: r)) (seq 0 5)) <> None).
  { apply curves_exist; [| |rewrite map_length, seq_length; lia].
    - apply Forall_forall. intros s I. apply in_map_iff in I. destruct I as (i & <- & Ii). apply in_seq in Ii. apply Forall_forall. intros q Iq. apply in_map_iff in Iq. destruct Iq as (l & <- & Il).
      rewrite Forall_forall in F. destruct (F l Il) as [X Y]. rewrite Forall_forall in Y. apply Y, nth_In. lia.
    - apply Forall_forall. intros s I. apply in_map_iff in I. destruct I as (i & <- & Ii). rewrite !map_length. exact L. }
  destruct (stat_curves _ _ _ _); [discriminate|congruence].
Qed.
(** The page of the last share says "Share of tracks fulfilling hit requirements and have quality/isolated track/isolated hit flag set", but tracks which do not fulfil the hit requirements are counted:
    the share is 1 although no track of the chunk is selected. *)
Definition not_stored : track_data := TrackData [Candidate 1 (fun _ => at_ 0 0) ones] [true] [false] [fun _ => at_ 0 0] [ex_settings None] (fun _ => (0%Q, 0%Q)).
Theorem C133_last_refuted : ~ (forall c tracks q l, consistent (data c) tracks -> selected c = store_mask (data c) -> chunk_stat (selected c) = Some q ->
  dut_stat (data c) 0 (nth 0 (settings (data c)) default_settings) = Some l -> (nth 4 l 0 <= q)%Q).
Proof.
  intros X. specialize (X (Chunk 1 [false] not_stored) [fun _ => at_ 0 0] 0%Q [0; 0; 0; 0; 1]%Q). assert (L : (1 <= 0)%Q); [|now apply L].
  apply X; try reflexivity. split; [reflexivity|]. split; [reflexivity|]. split; [reflexivity|]. split; [intros [|[|i]]; discriminate|]. split; [reflexivity|].
  intros i j I J. assert (j = 0) by (cbn in J; lia). assert (i = 0) by lia. subst. lia.
Qed.
(** The title lists as "Fit DUTs" the DUTs whose tracks are stored; with exclude_dut_hit this is, in every fit, the one DUT which is not used in the fit. *)
Theorem C133_title_refuted n chunks pages step steps d p : 3 <= n -> fit_arguments n (defaults true) = inr steps -> In step steps -> chunks <> [] -> Forall (usable n) chunks ->
  fit_statistics n step chunks = Some pages -> nth_error pages d = Some p ->
  exists e, page_fit_duts p = [e] /\ e < n /\ ~ In e (fit_duts (fst step)) /\ forall o, o < n -> o <> e -> In o (fit_duts (fst step)).
Proof.
  intros Hn A I Ne Us E Ep. rewrite (proj1 (C116_excluded n Hn)) in A. injection A as <-. apply in_map_iff in I. destruct I as (e & <- & I). apply in_seq in I.
  destruct (C133_pages n _ chunks pages Ne Us E) as [_ X]. destruct (X d p Ep) as (_ & T & _). exists e. split; [exact T|]. split; [lia|].
  unfold fit_duts. cbn [fst f_exclude f_fit f_dut]. split.
  - rewrite nodup_In. unfold set_minus. intros M. apply filter_In in M. destruct M as [_ M]. rewrite Nat.eqb_refl in M. discriminate.
  - intros o O Q. apply nodup_In. unfold set_minus. apply filter_In. split; [apply in_seq; lia|]. destruct (Nat.eqb_spec o e); [congruence|reflexivity].
Qed.

(** * Examples *)
Definition ex_chunks : list chunk := [Chunk 4 [true; false; false; true] (ex_data (Some (2, 2)%Q)); Chunk 7 [true; true; false; true] (ex_data (Some (2, 2)%Q))].
Definition shown (o : option (list page)) := option_map (map (fun p => (page_dut p, page_fit_duts p, map (fun c => (curve_label c, curve_factor c, map (fun pt => (fst pt, Qred (snd pt))) (curve_points c))) (page_curves p)))) o.
Example C133_case : Forall (usable 3) ex_chunks /\ option_map (map (map Qred)) (dut_stats (ex_data (Some (2, 2)%Q))) =
    Some [[1; 1; 1; 1 # 2; 1 # 4]; [1 # 2; 1; 1; 1; 1 # 2]; [1; 1; 1; 1; 1 # 2]]%Q /\
  option_map (fun l => nth_error l 1) (shown (fit_statistics 3 (FitConfig 0 [0; 1; 2] [] true None, [0]) ex_chunks)) = Some (Some (1, [0],
    [(None, 1, [(4, (1 # 2)%Q); (7, (3 # 4)%Q)]); (Some 0, 1, [(4, (1 # 2)%Q); (7, (1 # 2)%Q)]); (Some 1, 1, [(4, (1)%Q); (7, (1)%Q)]); (Some 2, 1, [(4, (1)%Q); (7, (1)%Q)]); (Some 3, 1, [(4, (1)%Q); (7, (1)%Q)]); (Some 4, 1, [(4, (1 # 2)%Q); (7, (1 # 2)%Q)])])).
Proof.
  split; [|split; [vm_compute; reflexivity|vm_compute; reflexivity]]. assert (U : forall i s, usable 3 (Chunk i s (ex_data (Some (2, 2)%Q)))); [|constructor; [apply U|constructor; [apply U|constructor]]].
  intros i s. destruct (C73_example (Some (2, 2)%Q)) as [A B]. split; [reflexivity|]. split; [exists ex_tracks; exact A|exact B].
Qed.

Print Assumptions C133_shares.
Print Assumptions C133_exists.
Print Assumptions C133_pages.
Print Assumptions C133_made.
Print Assumptions C133_last_refuted.
Print Assumptions C133_title_refuted.
