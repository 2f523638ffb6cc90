(** Properties of store_track_data: C73 (rows and flags of the stored tracks), C74 (chi2). *)
From Coq Require Import ZArith QArith Qabs List Bool Arith Lia Lqa.
From Verif Require Import SelectionModel BitsModel FitTracksModel FitTracksProps StoreTracksModel.
Import ListNotations.
Local Open Scope nat_scope.

(** * Selections by masks *)
Definition positions (m : list bool) : list nat := filter (fun i => nth i m false) (seq 0 (length m)).

Lemma filter_ext_in_ A (f g : A -> bool) l : (forall x, In x l -> f x = g x) -> filter f l = filter g l.
Proof. induction l as [|a l IH]; simpl; intros H; auto. rewrite (H a), IH; auto. Qed.
Lemma filter_map_ A B (f : A -> B) p l : filter p (map f l) = map f (filter (fun x => p (f x)) l).
Proof. induction l as [|a l IH]; simpl; auto. destruct (p (f a)); simpl; rewrite IH; auto. Qed.
Lemma choose_positions A (d : A) : forall m l, length m = length l -> choose m l = map (fun i => nth i l d) (positions m).
Proof.
  induction m as [|b m IH]; intros [|x l] E; try discriminate E; auto. injection E as E.
  unfold positions. cbn [length seq]. rewrite <- seq_shift. cbn [filter nth]. rewrite filter_map_.
  destruct b; cbn [choose map nth]; rewrite map_map, (IH l E); auto.
Qed.
Lemma choose_map A B (f : A -> B) : forall m l, choose m (map f l) = map f (choose m l).
Proof. induction m as [|[] m IH]; intros [|x l]; simpl; rewrite ?IH; auto. Qed.
Lemma choose_filter A (p : A -> bool) l : choose (map p l) l = filter p l.
Proof. induction l as [|a l IH]; simpl; auto. destruct (p a); rewrite IH; auto. Qed.
Lemma choose_seq m : choose m (seq 0 (length m)) = positions m.
Proof.
  rewrite (choose_positions nat 0) by (rewrite seq_length; auto). rewrite <- (map_id (positions m)) at 2.
  apply map_ext_in. intros i Hi. apply filter_In in Hi. destruct Hi as [Hi _]. apply in_seq in Hi. rewrite seq_nth; lia.
Qed.
Lemma positions_In m i : In i (positions m) <-> i < length m /\ nth i m false = true.
Proof. unfold positions. rewrite filter_In, in_seq. split; intros [? ?]; split; auto; lia. Qed.
Lemma filter_sorted (p : nat -> bool) : forall n a i j, i < j -> j < length (filter p (seq a n)) ->
  nth i (filter p (seq a n)) 0 < nth j (filter p (seq a n)) 0.
Proof.
  induction n as [|n IH]; intros a i j Hij Hj; simpl in *; [lia|]. destruct (p a); [|apply IH; auto].
  destruct j as [|j]; [lia|]. destruct i as [|i]; simpl in *; [|apply IH; lia].
  assert (In (nth j (filter p (seq (S a) n)) 0) (filter p (seq (S a) n))) by (apply nth_In; lia).
  apply filter_In in H. destruct H as [H _]. apply in_seq in H. lia.
Qed.
Lemma positions_lt m i j : i < j -> j < length (positions m) -> nth i (positions m) 0 < nth j (positions m) 0.
Proof. apply filter_sorted. Qed.

(** * Flags of one track *)
Lemma or_flag_bit sel d f e : Z.testbit (or_flag sel d f) (Z.of_nat e) = Z.testbit f (Z.of_nat e) || (sel && (e =? d) && (d <? 32)).
Proof.
  unfold or_flag. destruct sel; simpl; [|rewrite orb_false_r; auto]. rewrite Z.lor_spec. f_equal. unfold uint32.
  destruct (Nat.ltb_spec d 32) as [L|L].
  - rewrite andb_true_r, Z.mod_small, Z.shiftl_1_l.
    + rewrite Z.pow2_bits_eqb by lia. destruct (Nat.eqb_spec e d) as [->|]; [apply Z.eqb_refl|apply Z.eqb_neq; lia].
    + rewrite Z.shiftl_1_l. split; [apply Z.pow_nonneg; lia|apply Z.pow_lt_mono_r; lia].
  - rewrite andb_false_r, Z.shiftl_1_l. replace (2 ^ Z.of_nat d)%Z with (2 ^ (Z.of_nat d - 32) * 2 ^ 32)%Z.
    + rewrite Z.mod_mul by lia. apply Z.testbit_0_l.
    + rewrite <- Z.pow_add_r by lia. f_equal. lia.
Qed.

(** ** Specification *)
Definition within (limit : option (coord * coord)) (h : Q) : Prop :=
  forall lo hi, limit = Some (lo, hi) -> (forall a, lo = Some a -> (a <= h)%Q) /\ (forall b, hi = Some b -> (h <= b)%Q).
Definition large (s : dut_settings) : Prop :=
  forall qx qy, quality_distance s = Some (qx, qy) -> ((5 # 2) * fst (pixel s) <= qx /\ (5 # 2) * snd (pixel s) <= qy)%Q.
Definition good_hit (s : dut_settings) (shift : Q * Q) (hit track : point) : Prop :=
  exists hx hy tx ty, hit = (Some hx, Some hy) /\ track = (Some tx, Some ty) /\ within (limit_x s) hx /\ within (limit_y s) hy /\
    forall qx qy, quality_distance s = Some (qx, qy) ->
      let rx := (hx - (tx + fst shift))%Q in let ry := (hy - (ty + snd shift))%Q in
      (large s -> ((rx / qx) ^ 2 + (ry / qy) ^ 2 <= 1)%Q) /\ (~ large s -> (- qx <= rx <= qx /\ - qy <= ry <= qy)%Q).
Definition distances_valid (s : dut_settings) : Prop :=
  (forall qx qy, quality_distance s = Some (qx, qy) -> (0 <= qx /\ 0 <= qy)%Q) /\
  (forall ix iy, isolation_distance s = Some (ix, iy) -> (0 <= ix /\ 0 <= iy)%Q).
Definition isolation_limits (s : dut_settings) (l : limits) : Prop :=
  match isolation_distance s with
  | Some (ix, iy) => max_x l = ix /\ max_y l = iy
  | None => max_x l = 0%Q /\ max_y l = 0%Q
  end.
Definition default_settings : dut_settings := DutSettings (1%Q, 1%Q) None None None None.

Lemma in_limit_spec l h : in_limit l h = true <-> within l h.
Proof.
  unfold in_limit, within. destruct l as [[lo hi]|]; [|split; auto; intros; discriminate].
  rewrite andb_true_iff. split.
  - intros [A B] lo' hi' E. injection E as <- <-. split; intros a ->; apply Qle_bool_iff; auto.
  - intros H. destruct (H _ _ eq_refl) as [A B]. split; [destruct lo|destruct hi]; auto; apply Qle_bool_iff; auto.
Qed.
Lemma use_ellipse_spec s : match use_ellipse_for s with
  | Some e => (forall qx qy, quality_distance s = Some (qx, qy) -> (0 <= qx /\ 0 <= qy)%Q) /\ (e = true <-> large s)
  | None => exists qx qy, quality_distance s = Some (qx, qy) /\ ~ (0 <= qx /\ 0 <= qy)%Q end.
Proof.
  unfold use_ellipse_for, large. destruct (quality_distance s) as [[qx qy]|].
  - destruct (Qle_bool 0 qx) eqn:A; [destruct (Qle_bool 0 qy) eqn:B|]; simpl.
    + apply Qle_bool_iff in A. apply Qle_bool_iff in B. split; [intros ? ? E; injection E as <- <-; auto|].
      rewrite andb_true_iff, !Qle_bool_iff. split; [intros H ? ? E; injection E as <- <-; auto|]. intros H. apply H. auto.
    + exists qx, qy. split; auto. intros [_ H]. apply Qle_bool_iff in H. congruence.
    + exists qx, qy. split; auto. intros [H _]. apply Qle_bool_iff in H. congruence.
  - split; [intros; discriminate|]. split; auto. intros _ ? ? E. discriminate E.
Qed.
Lemma isolation_spec s : match isolation_for s with
  | Some (ix, iy) => (forall ix iy, isolation_distance s = Some (ix, iy) -> (0 <= ix /\ 0 <= iy)%Q) /\ forall e, isolation_limits s (Limits ix iy e)
  | None => exists ix iy, isolation_distance s = Some (ix, iy) /\ ~ (0 <= ix /\ 0 <= iy)%Q end.
Proof.
  unfold isolation_for, isolation_limits. destruct (isolation_distance s) as [[qx qy]|].
  - destruct (Qle_bool 0 qx) eqn:A; [destruct (Qle_bool 0 qy) eqn:B|]; simpl.
    + apply Qle_bool_iff in A. apply Qle_bool_iff in B. split; auto. intros ? ? E; injection E as <- <-; auto.
    + exists qx, qy. split; auto. intros [_ H]. apply Qle_bool_iff in H. congruence.
    + exists qx, qy. split; auto. intros [H _]. apply Qle_bool_iff in H. congruence.
  - split; [intros; discriminate|]. auto.
Qed.
Lemma quality_spec s e shift hit track : (0 < fst (pixel s) /\ 0 < snd (pixel s))%Q -> use_ellipse_for s = Some e ->
  quality_sel s e shift hit track = true <-> good_hit s shift hit track.
Proof.
  intros P U. pose proof (use_ellipse_spec s) as K. rewrite U in K. destruct K as [V L]. unfold quality_sel, good_hit, residual.
  destruct hit as [[hx|] [hy|]], track as [[tx|] [ty|]]; cbn [fst snd];
    try (split; [discriminate|intros (? & ? & ? & ? & ? & ? & _); discriminate]).
  rewrite !andb_true_iff, !in_limit_spec. split.
  - intros [[A B] C]. exists hx, hy, tx, ty. do 4 (split; [auto|]). intros qx qy E. rewrite E in C. cbv zeta. split.
    + intros Lg. rewrite (proj2 L Lg) in C. apply Qle_bool_iff in C. destruct (Lg _ _ E) as [Lx Ly].
      setoid_replace (((hx - (tx + fst shift)) / qx) ^ 2 + ((hy - (ty + snd shift)) / qy) ^ 2)%Q with
        ((hx - tx - fst shift) * (hx - tx - fst shift) / (qx * qx) + (hy - ty - snd shift) * (hy - ty - snd shift) / (qy * qy))%Q; auto.
      field. split; lra.
    + intros Sm. destruct e; [exfalso; apply Sm, L; auto|]. apply andb_true_iff in C. rewrite !Qle_bool_iff, !Qabs_Qle_condition in C. lra.
  - intros (hx' & hy' & tx' & ty' & E1 & E2 & A & B & C). injection E1 as <- <-. injection E2 as <- <-. split; [auto|].
    destruct (quality_distance s) as [[qx qy]|] eqn:E; auto. destruct (C _ _ eq_refl) as [C1 C2]. cbv zeta in C1, C2. destruct e.
    + apply Qle_bool_iff. pose proof (proj1 L eq_refl) as Lg. specialize (C1 Lg). destruct (Lg _ _ E) as [Lx Ly].
      setoid_replace ((hx - tx - fst shift) * (hx - tx - fst shift) / (qx * qx) + (hy - ty - snd shift) * (hy - ty - snd shift) / (qy * qy))%Q with
        (((hx - (tx + fst shift)) / qx) ^ 2 + ((hy - (ty + snd shift)) / qy) ^ 2)%Q; auto.
      field. split; lra.
    + assert (~ large s) as N by (intros Lg; apply L in Lg; discriminate). specialize (C2 N). apply andb_true_iff. rewrite !Qle_bool_iff, !Qabs_Qle_condition. lra.
Qed.

(** * The loop over the DUTs *)
Section Loop.
  Variable t : track_data.
  Definition sel_quality (d : nat) (s : dut_settings) (k : nat) : bool :=
    match use_ellipse_for s with Some e => quality_sel s e (shifts t d) (c_hit (nth k (fitted t) no_candidate) d) (inter_of t d k) | None => false end.
  Definition sel_track (d : nat) (s : dut_settings) (k : nat) : bool :=
    match isolation_for s with Some i => track_isolated t d i k | None => false end.
  Definition sel_hit (d : nat) (s : dut_settings) (k : nat) : bool :=
    match use_ellipse_for s, isolation_for s with Some e, Some i => hit_isolated t d i e (candidate_index t k) | _, _ => false end.

  Lemma nth_map_combine B (g : nat * flags -> B) l k db : k < length l -> nth k (map g (combine (seq 0 (length l)) l)) db = g (k, nth k l (Flags 0 0 0)).
  Proof.
    intros H. rewrite (nth_indep _ db (g (0, Flags 0 0 0))) by (rewrite map_length, combine_length, seq_length; lia).
    rewrite map_nth. rewrite combine_nth by apply seq_length. rewrite seq_nth by auto. auto.
  Qed.

  Definition bit (f : Z) (e : nat) : bool := Z.testbit f (Z.of_nat e).
  Lemma all_flags_spec : forall ss d l l', all_flags t d ss l = Some l' -> length l' = length l /\ forall k e, k < length l ->
    let old := nth k l (Flags 0 0 0) in let new := nth k l' (Flags 0 0 0) in
    let here := (d <=? e) && (e <? d + length ss) && (e <? 32) in let s := nth (e - d) ss default_settings in
    bit (quality_flag new) e = bit (quality_flag old) e || (here && sel_quality e s k) /\
    bit (isolated_track_flag new) e = bit (isolated_track_flag old) e || (here && sel_track e s k) /\
    bit (isolated_hit_flag new) e = bit (isolated_hit_flag old) e || (here && sel_hit e s k).
  Proof.
    induction ss as [|s ss IH]; intros d l l' E; cbn [all_flags] in E.
    - injection E as <-. split; auto. intros k e Hk. cbv zeta. cbn [length]. rewrite Nat.add_0_r.
      assert ((d <=? e) && (e <? d) = false) as -> by (destruct (Nat.leb_spec d e), (Nat.ltb_spec e d); auto; lia). simpl. rewrite !orb_false_r. auto.
    - destruct (dut_flags t d s l) as [l1|] eqn:D; [|discriminate E]. destruct (IH _ _ _ E) as [Len Hb]. clear IH.
      unfold dut_flags in D. destruct (use_ellipse_for s) as [el|] eqn:U; [|discriminate D]. destruct (isolation_for s) as [i|] eqn:J; [|discriminate D].
      assert (L1 : length l1 = length l) by (injection D as <-; rewrite map_length, combine_length, seq_length; lia). split; [congruence|].
      intros k e Hk. specialize (Hb k e ltac:(lia)). cbv zeta in Hb |- *. cbn [length].
      assert (N : nth k l1 (Flags 0 0 0) = let f := nth k l (Flags 0 0 0) in
        Flags (or_flag (sel_quality d s k) d (quality_flag f)) (or_flag (sel_track d s k) d (isolated_track_flag f)) (or_flag (sel_hit d s k) d (isolated_hit_flag f))).
      { injection D as <-. rewrite nth_map_combine by auto. unfold sel_quality, sel_track, sel_hit. rewrite U, J. auto. }
      rewrite N in Hb. cbv zeta in Hb. cbn [quality_flag isolated_track_flag isolated_hit_flag] in Hb. unfold bit in *.
      rewrite !or_flag_bit in Hb. destruct (Nat.eqb_spec e d) as [Ee|Ne].
      + subst e. replace (S d <=? d) with false in Hb by (symmetry; apply Nat.leb_gt; lia). cbn [andb] in Hb. rewrite !orb_false_r, !andb_true_r in Hb.
        replace (d <=? d) with true by (symmetry; apply Nat.leb_refl). replace (d <? d + S (length ss)) with true by (symmetry; apply Nat.ltb_lt; lia).
        rewrite Nat.sub_diag. cbn [nth andb]. destruct Hb as (-> & -> & ->). rewrite (andb_comm (sel_quality _ _ _)), (andb_comm (sel_track _ _ _)), (andb_comm (sel_hit _ _ _)). auto.
      + rewrite !andb_false_r, !andb_false_l, !orb_false_r in Hb. destruct Hb as (-> & -> & ->).
        assert ((S d <=? e) && (e <? S d + length ss) = (d <=? e) && (e <? d + S (length ss))) as ->.
        { destruct (Nat.leb_spec (S d) e), (Nat.leb_spec d e), (Nat.ltb_spec e (S d + length ss)), (Nat.ltb_spec e (d + S (length ss))); auto; lia. }
        destruct (Nat.leb_spec d e); [|auto]. replace (e - d) with (S (e - S d)) by lia. cbn [nth]. auto.
  Qed.
  Lemma all_flags_defined : forall ss d l, (exists l', all_flags t d ss l = Some l') <-> forall s, In s ss -> distances_valid s.
  Proof.
    induction ss as [|s ss IH]; intros d l; cbn [all_flags].
    - split; [intros _ s []|]. eauto.
    - pose proof (use_ellipse_spec s) as U. pose proof (isolation_spec s) as J. unfold dut_flags.
      destruct (use_ellipse_for s) as [e|].
      + destruct (isolation_for s) as [[ix iy]|].
        * rewrite IH. split.
          -- intros H s' [<-|I]; auto. split; [apply U|apply J].
          -- intros H s' I. apply H. right. auto.
        * split; [intros (? & ?); discriminate|]. intros H. destruct (H s) as [_ V]; [left; auto|]. destruct J as (ix & iy & E & N). destruct (N (V _ _ E)).
      + split; [intros (? & ?); discriminate|]. intros H. destruct (H s) as [V _]; [left; auto|]. destruct U as (ix & iy & E & N). destruct (N (V _ _ E)).
  Qed.
End Loop.

(** * The stored rows *)
Section Rows.
  Variable t : track_data.
  (** the intersections with the DUTs of the track that belongs to a candidate *)
  Variable tracks : list (nat -> point).
  Notation n := (length (candidates t)).
  Definition consistent : Prop :=
    length (fit_mask t) = n /\ length (store_mask t) = n /\ length tracks = n /\
    (forall i, nth i (store_mask t) false = true -> nth i (fit_mask t) false = true) /\
    intersections t = choose (fit_mask t) tracks /\
    (forall i j, i <= j -> j < n -> (c_event (nth i (candidates t) no_candidate) <= c_event (nth j (candidates t) no_candidate))%Z).
  Hypothesis H : consistent.
  Notation I := (positions (fit_mask t)).
  Notation cand i := (nth i (candidates t) no_candidate).
  Notation track i := (nth i tracks (fun _ => (None, None))).

  Lemma fitted_map : fitted t = map (fun i => cand i) I.
  Proof. destruct H as (L & _). unfold fitted. apply choose_positions. auto. Qed.
  Lemma fitted_len : length (fitted t) = length I.
  Proof. rewrite fitted_map, map_length. auto. Qed.
  Lemma fitted_nth k : k < length I -> nth k (fitted t) no_candidate = cand (nth k I 0).
  Proof.
    intros Hk. rewrite fitted_map. rewrite (nth_indep _ no_candidate (cand 0)) by (rewrite map_length; auto).
    apply (map_nth (fun i => cand i)).
  Qed.
  Lemma inter_nth d k : k < length I -> inter_of t d k = track (nth k I 0) d.
  Proof.
    intros Hk. destruct H as (L & _ & L3 & _ & E & _). unfold inter_of. rewrite E, (choose_positions (nat -> point) (fun _ => (None, None))) by congruence.
    rewrite (nth_indep _ _ (track 0)) by (rewrite map_length; auto). rewrite (map_nth (fun i => track i)). auto.
  Qed.
  Lemma index_nth k : candidate_index t k = nth k I 0.
  Proof. unfold candidate_index. rewrite choose_seq. auto. Qed.
  Lemma I_nth k : k < length I -> nth k I 0 < n /\ nth (nth k I 0) (fit_mask t) false = true.
  Proof. intros Hk. destruct H as (L & _). rewrite <- L. apply positions_In, nth_In. auto. Qed.

  (** ** Specification of the flags of candidate i for DUT e *)
  Definition track_alone (e : nat) (s : dut_settings) (i : nat) : Prop :=
    forall j l, j < n -> nth j (fit_mask t) false = true -> j <> i -> c_event (cand j) = c_event (cand i) ->
      isolation_limits s l -> use_ellipse l = true -> ~ near l (track i e) (track j e).
  Definition hit_alone (e : nat) (s : dut_settings) (i : nat) : Prop :=
    forall j l, j < n -> j <> i -> c_event (cand j) = c_event (cand i) ->
      isolation_limits s l -> (use_ellipse l = true <-> large s) -> ~ near l (c_hit (cand i) e) (c_hit (cand j) e).
  Definition flags_of (i : nat) (f : flags) : Prop :=
    forall e, let s := nth e (settings t) default_settings in
      let known := e < length (settings t) /\ e < 32 in
      (Z.testbit (quality_flag f) (Z.of_nat e) = true <-> known /\ good_hit s (shifts t e) (c_hit (cand i) e) (track i e)) /\
      (Z.testbit (isolated_track_flag f) (Z.of_nat e) = true <-> known /\ track_alone e s i) /\
      (Z.testbit (isolated_hit_flag f) (Z.of_nat e) = true <-> known /\ hit_alone e s i).

  Lemma pair_eta (p : point) : p = (fst p, snd p).
  Proof. destruct p; auto. Qed.

  Lemma track_isolated_spec e s d k : k < length I -> isolation_for s = Some d -> track_isolated t e d k = true <-> track_alone e s (nth k I 0).
  Proof.
    intros Hk J. pose proof (isolation_spec s) as Sp. rewrite J in Sp. destruct d as [ix iy]. destruct Sp as [_ Sp].
    unfold track_isolated. rewrite C25_isolation; [|intros r r' H1 H2|rewrite fitted_len; auto].
    - rewrite fitted_len. unfold track_alone. cbn [fst snd]. split.
      + intros A j l Hj Fj Nj Ej Il Ul Nr.
        assert (In j I) as Ij by (apply positions_In; destruct H as (L & _); split; [lia|auto]).
        destruct (In_nth _ _ 0 Ij) as (m & Hm & Em). subst j.
        apply (A m); auto.
        * congruence.
        * rewrite !fitted_nth by auto. auto.
        * rewrite <- !pair_eta, !inter_nth by auto.
          assert (l = Limits ix iy true) as <-; auto. specialize (Sp true). unfold isolation_limits in *. destruct l as [lx ly u]; cbn in *. subst u.
          destruct (isolation_distance s) as [[a b]|]; destruct Sp, Il; subst; auto.
      + intros A m Hm Nm Em Nr. rewrite !fitted_nth in Em by auto. rewrite <- !pair_eta, !inter_nth in Nr by auto.
        destruct (I_nth m Hm) as [B1 B2]. apply (A (nth m I 0) (Limits ix iy true)); auto.
        intros Eq. destruct (Nat.lt_trichotomy m k) as [Lt|[Lt|Lt]]; [|lia|];
          [pose proof (positions_lt (fit_mask t) m k Lt Hk)|pose proof (positions_lt (fit_mask t) k m Lt Hm)]; lia.
    - rewrite fitted_len in H2. rewrite !fitted_nth by lia. destruct H as (_ & _ & _ & _ & _ & S). apply S; [|apply I_nth; auto].
      destruct (Nat.eq_dec r r') as [->|]; auto. apply Nat.lt_le_incl, positions_lt; lia.
  Qed.
  Lemma hit_isolated_spec e s d el i : i < n -> isolation_for s = Some d -> use_ellipse_for s = Some el -> hit_isolated t e d el i = true <-> hit_alone e s i.
  Proof.
    intros Hk J U. pose proof (isolation_spec s) as Sp. rewrite J in Sp. destruct d as [ix iy]. destruct Sp as [_ Sp].
    pose proof (use_ellipse_spec s) as Su. rewrite U in Su. destruct Su as [_ Su].
    unfold hit_isolated. rewrite C25_isolation; [|intros r r' H1 H2; destruct H as (_ & _ & _ & _ & _ & S); apply S; auto|auto].
    unfold hit_alone, hit_of. cbn [fst snd]. split.
    - intros A j l Hj Nj Ej Il Ul. specialize (A j Hj Nj Ej). rewrite <- !pair_eta in A.
      assert (l = Limits ix iy el) as ->; auto. specialize (Sp true). unfold isolation_limits in *. destruct l as [lx ly u]; cbn in *.
      assert (u = el) as -> by (destruct u, el; intuition congruence).
      destruct (isolation_distance s) as [[a b]|]; destruct Sp, Il; subst; auto.
    - intros A j Hj Nj Ej. rewrite <- !pair_eta. apply A; auto.
  Qed.

  Hypothesis Pix : forall s, In s (settings t) -> (0 < fst (pixel s) /\ 0 < snd (pixel s))%Q.

  Lemma track_flags_spec fl : track_flags t = Some fl -> length fl = length I /\ forall k, k < length I -> flags_of (nth k I 0) (nth k fl (Flags 0 0 0)).
  Proof.
    intros E. assert (V : forall s, In s (settings t) -> distances_valid s) by (apply (all_flags_defined t _ 0 (map (fun _ => Flags 0 0 0) (fitted t))); exists fl; auto).
    apply all_flags_spec in E. rewrite map_length, fitted_len in E. destruct E as [Len E]. split; auto.
    intros k Hk e. specialize (E k e Hk). cbv zeta in E |- *.
    assert (nth k (map (fun _ => Flags 0 0 0) (fitted t)) (Flags 0 0 0) = Flags 0 0 0) as Z0.
    { destruct (nth_in_or_default k (map (fun _ => Flags 0 0 0) (fitted t)) (Flags 0 0 0)) as [i|]; auto. apply in_map_iff in i. destruct i as (? & <- & _). auto. }
    rewrite Z0 in E. unfold bit in E. cbn [quality_flag isolated_track_flag isolated_hit_flag] in E. rewrite Z.testbit_0_l, Nat.sub_0_r in E. cbn [orb] in E.
    replace (0 <=? e) with true in E by auto. cbn [andb Nat.add] in E. destruct E as (-> & -> & ->).
    set (s := nth e (settings t) default_settings).
    assert (G : forall b P, (e < length (settings t) -> b = true <-> P) -> (e <? length (settings t)) && (e <? 32) && b = true <-> (e < length (settings t) /\ e < 32) /\ P).
    { intros b P Q. rewrite !andb_true_iff, !Nat.ltb_lt. split; intros [[A B] C]; repeat split; auto; apply Q; auto. }
    assert (D : e < length (settings t) -> In s (settings t)) by (intros; apply nth_In; auto).
    destruct (I_nth k Hk) as [Hi _]. split; [|split]; apply G; intros He; specialize (D He).
    - unfold sel_quality. destruct (use_ellipse_for s) as [el|] eqn:U.
      + rewrite fitted_nth, inter_nth by auto. apply quality_spec; auto.
      + pose proof (use_ellipse_spec s) as Su. rewrite U in Su. destruct Su as (qx & qy & Eq & N). destruct (V s D) as [Vq _]. destruct (N (Vq _ _ Eq)).
    - unfold sel_track. destruct (isolation_for s) as [d|] eqn:J; [apply track_isolated_spec; auto|].
      pose proof (isolation_spec s) as Su. rewrite J in Su. destruct Su as (qx & qy & Eq & N). destruct (V s D) as [_ Vq]. destruct (N (Vq _ _ Eq)).
    - unfold sel_hit. destruct (use_ellipse_for s) as [el|] eqn:U; [destruct (isolation_for s) as [d|] eqn:J|].
      + rewrite index_nth. apply hit_isolated_spec; auto.
      + pose proof (isolation_spec s) as Su. rewrite J in Su. destruct Su as (qx & qy & Eq & N). destruct (V s D) as [_ Vq]. destruct (N (Vq _ _ Eq)).
      + pose proof (use_ellipse_spec s) as Su. rewrite U in Su. destruct Su as (qx & qy & Eq & N). destruct (V s D) as [Vq _]. destruct (N (Vq _ _ Eq)).
  Qed.

  (** ** chi2 of candidate i *)
  Definition res (i d : nat) (proj : point -> coord) (shift : Q) : coord :=
    match proj (c_hit (cand i) d), proj (track i d) with Some h, Some x => Some (h - x - shift)%Q | _, _ => None end.

  Definition row_of (sfd : list nat) (d : nat) (fl : list flags) (k : nat) : track_row :=
    TrackRow (cand (nth k I 0)) (track (nth k I 0) d) (track_chi2 t sfd k) (track_chi2_red t sfd k) (nth k fl (Flags 0 0 0)).

  Lemma store_choose : choose (store_mask t) (candidates t) = map (fun i => cand i) (positions (store_mask t)).
  Proof. destruct H as (_ & L & _). apply choose_positions. auto. Qed.
  Lemma filter_filter_ A (p q : A -> bool) l : filter p (filter q l) = filter (fun x => p x && q x) l.
  Proof. induction l as [|a l IH]; simpl; auto. destruct (q a) eqn:Eq; simpl; rewrite ?andb_true_r, ?andb_false_r, IH; auto. Qed.
  Lemma positions_store : positions (store_mask t) = filter (fun i => nth i (store_mask t) false) I.
  Proof.
    destruct H as (L1 & L2 & _ & S & _). unfold positions. rewrite filter_filter_, L1, L2. apply filter_ext_in_. intros i _.
    destruct (nth i (store_mask t) false) eqn:E; auto. rewrite (S i E). auto.
  Qed.
  Lemma map_nth_seq (l : list nat) : map (fun k => nth k l 0) (seq 0 (length l)) = l.
  Proof.
    apply (nth_ext _ _ 0 0); rewrite map_length, seq_length; auto. intros k Hk.
    rewrite (nth_indep _ 0 (nth 0 l 0)) by (rewrite map_length, seq_length; auto). rewrite (map_nth (fun k => nth k l 0)), seq_nth by auto. auto.
  Qed.
  (** the positions in the fitted tracks of the stored tracks *)
  Definition kept : list nat := filter (fun k => nth (nth k I 0) (store_mask t) false) (seq 0 (length I)).
  Lemma kept_positions : map (fun k => nth k I 0) kept = positions (store_mask t).
  Proof. unfold kept. rewrite positions_store. rewrite <- (map_nth_seq I) at 2. rewrite filter_map_. auto. Qed.

  Lemma combine_map A B C (f : A -> B) (g : A -> C) l : combine (map f l) (map g l) = map (fun x => (f x, g x)) l.
  Proof. induction l as [|a l IH]; simpl; rewrite ?IH; auto. Qed.
  Lemma results_spec sfd fl d : length fl = length I -> results_array false t sfd fl d = Some (map (row_of sfd d fl) kept).
  Proof.
    intros Len. unfold results_array. rewrite store_choose.
    assert (V : choose (choose (fit_mask t) (store_mask t)) (map (fun kf => let '(k, f) := (kf : nat * flags) in (inter_of t d k, track_chi2 t sfd k, track_chi2_red t sfd k, f)) (combine (seq 0 (length fl)) fl))
      = map (fun k => (inter_of t d k, track_chi2 t sfd k, track_chi2_red t sfd k, nth k fl (Flags 0 0 0))) kept).
    { destruct H as (L1 & L2 & _). rewrite (choose_positions _ false) by congruence.
      assert (C : combine (seq 0 (length fl)) fl = map (fun k => (k, nth k fl (Flags 0 0 0))) (seq 0 (length fl))).
      { apply (nth_ext _ _ (0, Flags 0 0 0) (0, Flags 0 0 0)); rewrite combine_length, ?map_length, seq_length; [lia|]. intros k Hk.
        rewrite combine_nth by apply seq_length. rewrite (nth_indep _ (0, Flags 0 0 0) ((fun k => (k, nth k fl (Flags 0 0 0))) 0)) by (rewrite map_length, seq_length; lia).
        rewrite (map_nth (fun k => (k, nth k fl (Flags 0 0 0)))), !seq_nth by lia. auto. }
      rewrite C, map_map, choose_map. unfold kept. rewrite Len.
      rewrite <- (map_nth_seq I) at 1. rewrite map_map, choose_filter. auto. }
    rewrite V, <- kept_positions, !map_length, Nat.eqb_refl, map_map, combine_map, map_map. f_equal. apply map_ext_in. intros k Hk.
    unfold kept in Hk. apply filter_In in Hk. destruct Hk as [Hk _]. apply in_seq in Hk. unfold row_of. rewrite inter_nth by lia. auto.
  Qed.
  Lemma tables_spec sfd fl : length fl = length I -> forall ds, tables false t sfd fl ds = Some (map (fun d => (d, map (row_of sfd d fl) kept)) ds).
  Proof. intros Len. induction ds as [|d ds IH]; cbn [tables map]; auto. rewrite results_spec, IH by auto. auto. Qed.

  (** ** C73: a table for each DUT of fit_duts, with a row for each candidate selected for storage, in
      order, with the data of this candidate, the intersection and the flags of its track. *)
  Theorem C73_rows fit_duts sfd tbl : store_track_data false t fit_duts sfd = Some tbl ->
    map fst tbl = filter (fun d => existsb (Nat.eqb d) fit_duts) (seq 0 (length (settings t))) /\
    forall d rows, In (d, rows) tbl ->
      Forall2 (fun i r => row_candidate r = cand i /\ row_offset r = track i d /\ flags_of i (row_flags r))
        (filter (fun i => nth i (store_mask t) false) (seq 0 n)) rows.
  Proof.
    unfold store_track_data. destruct (track_flags t) as [fl|] eqn:E; [|discriminate]. destruct (track_flags_spec fl E) as [Len F].
    rewrite tables_spec by auto. intros X. injection X as <-. split.
    - rewrite map_map, map_id. auto.
    - intros d rows Hin. apply in_map_iff in Hin. destruct Hin as (d' & Eq & _). injection Eq as -> <-.
      replace (filter (fun i => nth i (store_mask t) false) (seq 0 n)) with (positions (store_mask t)).
      + rewrite <- kept_positions. assert (K : forall k, In k kept -> k < length I).
        { intros k Hk. apply filter_In in Hk. destruct Hk as [Hk _]. apply in_seq in Hk. lia. }
        induction kept as [|k r IH]; simpl; constructor.
        * cbn. repeat apply conj; auto. apply F, K. left. auto.
        * apply IH. intros; apply K; right; auto.
      + unfold positions. destruct H as (_ & -> & _). auto.
  Qed.

  (** without keep_data it fails only for negative distances; with keep_data whenever there is a DUT *)
  Theorem C73_succeeds fit_duts sfd : (exists tbl, store_track_data false t fit_duts sfd = Some tbl) <-> forall s, In s (settings t) -> distances_valid s.
  Proof.
    rewrite <- (all_flags_defined t (settings t) 0 (map (fun _ => Flags 0 0 0) (fitted t))). unfold store_track_data. split.
    - intros (tbl & E). destruct (track_flags t) as [fl|] eqn:T; [|discriminate]. exists fl. auto.
    - intros (fl & E). assert (track_flags t = Some fl) as T by exact E. rewrite T. destruct (track_flags_spec fl T) as [Len F]. rewrite tables_spec; eauto.
  Qed.
  Theorem C73_keep_data fit_duts sfd d : In d fit_duts -> d < length (settings t) -> store_track_data true t fit_duts sfd = None.
  Proof.
    intros Hd Hl. unfold store_track_data. destruct (track_flags t) as [fl|]; auto.
    assert (In d (filter (fun d => memb d fit_duts) (seq 0 (length (settings t))))).
    { apply filter_In. split; [apply in_seq; lia|]. apply existsb_exists. exists d. split; auto. apply Nat.eqb_refl. }
    destruct (filter _ _) as [|a r]; [destruct H0|]. auto.
  Qed.
  (** ** C74: chi2 *)
  (** the residual of candidate i in DUT d, in units of the error; 0 if there is none *)
  Definition pull (r : coord) (err : Q) : Q := match r with Some q => if Qeq_bool err 0 then 0%Q else (q / err)%Q | None => 0%Q end.
  Definition pull_x (i d : nat) : Q := pull (res i d fst (fst (shifts t d))) (fst (c_err (cand i) d)).
  Definition pull_y (i d : nat) : Q := pull (res i d snd (snd (shifts t d))) (snd (c_err (cand i) d)).
  Definition sumQ (f : nat -> Q) (l : list nat) : Q := fold_right (fun d a => (f d + a)%Q) 0%Q l.

  Lemma x_residual_nth k d : k < length I -> x_residual t k d = res (nth k I O) d fst (fst (shifts t d)).
  Proof. intros Hk. unfold x_residual, residual, res. rewrite fitted_nth, inter_nth by auto. auto. Qed.
  Lemma y_residual_nth k d : k < length I -> y_residual t k d = res (nth k I O) d snd (snd (shifts t d)).
  Proof. intros Hk. unfold y_residual, residual, res. rewrite fitted_nth, inter_nth by auto. auto. Qed.
  Lemma term_pull r e a : (sum_valid (chi2_term r e :: a) == pull r e ^ 2 + sum_valid a)%Q.
  Proof.
    unfold sum_valid. cbn [fold_right]. unfold chi2_term, pull. destruct r as [q|]; [|simpl; ring]. destruct (Qeq_bool e 0) eqn:E; [simpl; ring|].
    apply Qeq_bool_neq in E. field. auto.
  Qed.
  Lemma chi2_nth sfd k : k < length I -> (track_chi2 t sfd k == sumQ (fun d => pull_x (nth k I O) d ^ 2 + pull_y (nth k I O) d ^ 2) sfd)%Q.
  Proof.
    intros Hk. unfold track_chi2. induction sfd as [|d sfd IH]; [reflexivity|].
    cbn [map]. rewrite !term_pull, x_residual_nth, y_residual_nth, fitted_nth by auto.
    cbn [sumQ fold_right]. fold (sumQ (fun d => pull_x (nth k I O) d ^ 2 + pull_y (nth k I O) d ^ 2)%Q sfd). rewrite <- IH. unfold pull_x, pull_y. rewrite fitted_nth by auto. ring.
  Qed.
  Lemma count_nth sfd k : k < length I -> count_valid (map (x_residual t k) sfd) = length (filter (fun d => match res (nth k I O) d fst (fst (shifts t d)) with Some _ => true | None => false end) sfd).
  Proof.
    intros Hk. unfold count_valid. rewrite filter_map_, map_length. f_equal. apply filter_ext_in_. intros d _. rewrite x_residual_nth by auto. auto.
  Qed.

  Lemma div_mul c z : z <> 0%Z -> (c / inject_Z z * inject_Z z == c)%Q.
  Proof. intros B. field. intros C. apply B, inject_Z_injective. exact C. Qed.

  (** The chi2 of a row is the sum over the fit DUTs of the squared residuals divided by the squared
      errors; hits with an error of 0 and missing hits do not count.  chi2_red is chi2 / (2 (n - 2)) for n fit
      DUTs with hit, infinite for n = 2 if chi2 is not zero. *)
  Theorem C74_chi2 fit_duts sfd tbl : store_track_data false t fit_duts sfd = Some tbl -> forall d rows, In (d, rows) tbl ->
    Forall2 (fun i r => (row_chi2 r == sumQ (fun d => pull_x i d ^ 2 + pull_y i d ^ 2) sfd)%Q /\
        let m := length (filter (fun d => match res i d fst (fst (shifts t d)) with Some _ => true | None => false end) sfd) in
        ((row_chi2 r == 0)%Q -> row_chi2_red r = Some 0%Q) /\
        (~ (row_chi2 r == 0)%Q -> m = 2 -> row_chi2_red r = None) /\
        (~ (row_chi2 r == 0)%Q -> m <> 2 -> exists q, row_chi2_red r = Some q /\ (q * inject_Z (2 * (Z.of_nat m - 2)) == row_chi2 r)%Q))
      (filter (fun i => nth i (store_mask t) false) (seq 0 n)) rows.
  Proof.
    unfold store_track_data. destruct (track_flags t) as [fl|] eqn:E; [|discriminate]. destruct (track_flags_spec fl E) as [Len F].
    rewrite tables_spec by auto. intros X. injection X as <-. intros d rows Hin. apply in_map_iff in Hin. destruct Hin as (d' & Eq & _). injection Eq as -> <-.
    replace (filter (fun i => nth i (store_mask t) false) (seq 0 n)) with (positions (store_mask t)) by (unfold positions; destruct H as (_ & -> & _); auto).
    rewrite <- kept_positions. assert (K : forall k, In k kept -> k < length I).
    { intros k Hk. apply filter_In in Hk. destruct Hk as [Hk _]. apply in_seq in Hk. lia. }
    induction kept as [|k r IH]; simpl; constructor; [|apply IH; intros; apply K; right; auto].
    assert (Hk : k < length I) by (apply K; left; auto). cbn. split; [apply chi2_nth; auto|].
    rewrite <- count_nth by auto. unfold track_chi2_red. set (m := count_valid _).
    destruct (Qeq_bool (track_chi2 t sfd k) 0) eqn:Z0.
    - apply Qeq_bool_iff in Z0. split; [auto|]. split; intros N; destruct (N Z0).
    - apply Qeq_bool_neq in Z0. split; [intros N; destruct (Z0 N)|]. cbv zeta. split.
      + intros _ ->. auto.
      + intros _ Nm. destruct (Z.eqb_spec (2 * (Z.of_nat m - 2)) 0) as [B|B]; [lia|]. eexists. split; [reflexivity|]. apply div_mul. auto.
  Qed.
  Lemma sumQ_nonneg f l : (forall d, 0 <= f d)%Q -> (0 <= sumQ f l)%Q.
  Proof. intros P. induction l as [|d l IH]; simpl; [apply Qle_refl|]. pose proof (P d). fold (sumQ f l). lra. Qed.
  Lemma sumQ_zero f l : (forall d, 0 <= f d)%Q -> (sumQ f l == 0)%Q -> forall d, In d l -> (f d == 0)%Q.
  Proof.
    intros P. induction l as [|a l IH]; simpl; [intros _ d []|]. fold (sumQ f l). intros E d Hd. pose proof (P a). pose proof (sumQ_nonneg f l P).
    destruct Hd as [<-|Hd]; [lra|]. apply IH; auto. lra.
  Qed.
  Lemma Forall2_impl_ A B (P Q : A -> B -> Prop) l m : (forall a b, P a b -> Q a b) -> Forall2 P l m -> Forall2 Q l m.
  Proof. intros K. induction 1; constructor; auto. Qed.
  Lemma sq_nonneg q : (0 <= q ^ 2)%Q. Proof. simpl. nra. Qed.
  Lemma sq_zero q : (q ^ 2 == 0)%Q -> (q == 0)%Q.
  Proof. simpl. intros E. destruct (Qeq_dec q 0) as [|N]; auto. destruct (Qmult_integral _ _ E); auto. Qed.
  Lemma pull_zero r e : (pull r e == 0)%Q <-> forall q, r = Some q -> ~ (e == 0)%Q -> (q == 0)%Q.
  Proof.
    unfold pull. destruct r as [q|]; [|split; [intros _ ? E; discriminate E|intros; reflexivity]]. destruct (Qeq_bool e 0) eqn:E.
    - apply Qeq_bool_iff in E. split; [intros _ ? _ N; destruct (N E)|intros; reflexivity].
    - apply Qeq_bool_neq in E. split.
      + intros Z0 ? X _. injection X as <-. setoid_replace q with (q / e * e)%Q by (field; auto). rewrite Z0. ring.
      + intros Z0. rewrite (Z0 q eq_refl E). field. auto.
  Qed.
  (** chi2 is not negative, and zero iff the track passes through every hit of the fit DUTs with an error *)
  Theorem C74_zero fit_duts sfd tbl : store_track_data false t fit_duts sfd = Some tbl -> forall d rows, In (d, rows) tbl ->
    Forall2 (fun i r => (0 <= row_chi2 r)%Q /\ ((row_chi2 r == 0)%Q <-> forall e, In e sfd ->
        (forall hx tx, fst (c_hit (cand i) e) = Some hx -> fst (track i e) = Some tx -> ~ (fst (c_err (cand i) e) == 0)%Q -> (hx == tx + fst (shifts t e))%Q) /\
        (forall hy ty, snd (c_hit (cand i) e) = Some hy -> snd (track i e) = Some ty -> ~ (snd (c_err (cand i) e) == 0)%Q -> (hy == ty + snd (shifts t e))%Q)))
      (filter (fun i => nth i (store_mask t) false) (seq 0 n)) rows.
  Proof.
    intros E d rows Hin. pose proof (C74_chi2 fit_duts sfd tbl E d rows Hin) as C. eapply Forall2_impl_; [|exact C]. clear.
    intros i r [C _]. rewrite C. set (f := fun d => (pull_x i d ^ 2 + pull_y i d ^ 2)%Q).
    assert (P : forall d, (0 <= f d)%Q) by (intros d; unfold f; pose proof (sq_nonneg (pull_x i d)); pose proof (sq_nonneg (pull_y i d)); lra).
    split; [apply sumQ_nonneg; auto|]. split.
    - intros Z0 e He. pose proof (sumQ_zero f sfd P Z0 e He) as Ze. unfold f in Ze. pose proof (sq_nonneg (pull_x i e)). pose proof (sq_nonneg (pull_y i e)).
      assert (X : (pull_x i e == 0)%Q) by (apply sq_zero; lra). assert (Y : (pull_y i e == 0)%Q) by (apply sq_zero; lra).
      unfold pull_x in X. unfold pull_y in Y. rewrite pull_zero in X, Y. split.
      + intros hx tx A B N. specialize (X (hx - tx - fst (shifts t e))%Q). unfold res in X. rewrite A, B in X. specialize (X eq_refl N). lra.
      + intros hx tx A B N. specialize (Y (hx - tx - snd (shifts t e))%Q). unfold res in Y. rewrite A, B in Y. specialize (Y eq_refl N). lra.
    - clear C. intros Z0. induction sfd as [|e sfd IH]; [reflexivity|]. change (f e + sumQ f sfd == 0)%Q. rewrite IH by (intros; apply Z0; right; auto).
      destruct (Z0 e) as [X Y]; [left; auto|]. assert (A : (pull_x i e == 0)%Q).
      { apply pull_zero. intros q. unfold res. destruct (fst (c_hit (cand i) e)) as [hx|] eqn:A; [|discriminate]. destruct (fst (track i e)) as [tx|] eqn:B; [|discriminate].
        intros Eq N. injection Eq as <-. rewrite (X _ _ eq_refl eq_refl N). ring. }
      assert (B : (pull_y i e == 0)%Q).
      { apply pull_zero. intros q. unfold res. destruct (snd (c_hit (cand i) e)) as [hx|] eqn:A'; [|discriminate]. destruct (snd (track i e)) as [tx|] eqn:B; [|discriminate].
        intros Eq N. injection Eq as <-. rewrite (Y _ _ eq_refl eq_refl N). ring. }
      unfold f. rewrite A, B. reflexivity.
  Qed.
End Rows.

(** The quality flag bounds both residuals by the quality distance, for both shapes. *)
Theorem C73_quality_bound s shift hx hy tx ty qx qy : (0 < fst (pixel s) /\ 0 < snd (pixel s))%Q -> quality_distance s = Some (qx, qy) ->
  good_hit s shift (Some hx, Some hy) (Some tx, Some ty) -> (Qabs (hx - tx - fst shift) <= qx /\ Qabs (hy - ty - snd shift) <= qy)%Q.
Proof.
  intros P E (hx' & hy' & tx' & ty' & E1 & E2 & _ & _ & C). injection E1 as <- <-. injection E2 as <- <-. destruct (C _ _ E) as [C1 C2]. cbv zeta in C1, C2.
  rewrite !Qabs_Qle_condition. assert (D : large s \/ ~ large s).
  { pose proof (use_ellipse_spec s) as U. destruct (use_ellipse_for s) as [[]|]; [left; apply U; auto|right; intros L; apply U in L; discriminate|].
    destruct U as (a & b & Ea & N). rewrite E in Ea. injection Ea as <- <-. right. intros L. destruct (L _ _ E). apply N. lra. }
  destruct D as [L|L]; [|specialize (C2 L); lra]. specialize (C1 L). destruct (L _ _ E) as [Lx Ly].
  assert (G : forall r q, (0 < q)%Q -> ((r / q) ^ 2 <= 1)%Q -> (- q <= r <= q)%Q).
  { intros r q Hq Hr. setoid_replace r with (r / q * q)%Q by (field; lra). remember (r / q)%Q as z. simpl in Hr. assert (- 1 <= z <= 1)%Q by nra. nra. }
  assert (X : ((((hx - (tx + fst shift)) / qx) ^ 2 <= 1)%Q)) by (pose proof (sq_nonneg ((hy - (ty + snd shift)) / qy)); lra).
  assert (Y : ((((hy - (ty + snd shift)) / qy) ^ 2 <= 1)%Q)) by (pose proof (sq_nonneg ((hx - (tx + fst shift)) / qx)); lra).
  apply G in X; [|lra]. apply G in Y; [|lra]. lra.
Qed.

(** A missing hit is flagged as isolated. *)
Theorem C73_missing_hit t tracks i f e : flags_of t tracks i f -> e < length (settings t) -> e < 32 ->
  fst (c_hit (nth i (candidates t) no_candidate) e) = None -> Z.testbit (isolated_hit_flag f) (Z.of_nat e) = true.
Proof.
  intros F L1 L2 N. apply F. split; auto. intros j l _ _ _ _ _ (a & b & c & d & Ea & _). congruence.
Qed.

(** * Examples *)
Definition hits3 (a b c : point) : nat -> point := fun d => match d with 0 => a | 1 => b | 2 => c | _ => (None, None) end.
Definition at_ (x y : Q) : point := (Some x, Some y).
Definition none_ : point := (None, None).
Definition ones : nat -> Q * Q := fun _ => (1%Q, 1%Q).
Definition ex_settings (q : option (Q * Q)) : dut_settings := DutSettings (1%Q, 1%Q) (Some (Some (- 50)%Q, Some 50%Q)) None q (Some (4%Q, 4%Q)).
Definition ex_tracks : list (nat -> point) := [hits3 (at_ 0 0) (at_ 0 0) (at_ 0 0); hits3 none_ none_ none_; hits3 (at_ 3 3) (at_ 20 3) (at_ 40 3); hits3 (at_ 7 7) (at_ 7 7) (at_ 7 7)].
Definition ex_data (q : option (Q * Q)) : track_data := TrackData
  [Candidate 1 (hits3 (at_ 0 0) (at_ 2 2) (at_ 0 0)) ones; Candidate 1 (hits3 (at_ 60 0) none_ none_) ones;
   Candidate 1 (hits3 (at_ 3 3) (at_ 20 3) (at_ 60 3)) ones; Candidate 4 (hits3 (at_ 7 7) none_ (at_ 7 7)) ones]
  [true; false; true; true] [true; false; false; true]
  (choose [true; false; true; true] ex_tracks) [ex_settings q; ex_settings q; ex_settings q] (fun _ => (0%Q, 0%Q)).
Definition summary (o : option (list (nat * list track_row))) : option (list (nat * list (Z * point * Q * coord * (Z * Z * Z)))) :=
  match o with
  | Some l => Some (map (fun dr => (fst dr, map (fun r => (c_event (row_candidate r), row_offset r, Qred (row_chi2 r), option_map Qred (row_chi2_red r),
      (quality_flag (row_flags r), isolated_track_flag (row_flags r), isolated_hit_flag (row_flags r)))) (snd dr))) l)
  | None => None
  end.
Example C73_example q : consistent (ex_data q) ex_tracks /\ forall s, In s (settings (ex_data q)) -> (0 < fst (pixel s) /\ 0 < snd (pixel s))%Q.
Proof.
  split.
  - repeat split.
    + intros [|[|[|[|i]]]]; simpl; intros E; try discriminate E; auto.
    + intros i j Hij Hj. simpl in Hj. assert (j <= 3) by lia. assert (i <= 3) by lia. destruct j as [|[|[|[|j]]]]; try lia; destruct i as [|[|[|[|i]]]]; try lia; simpl; lia.
  - intros s [<-|[<-|[<-|[]]]]; simpl; split; reflexivity.
Qed.
Example C73_example_tables : summary (store_track_data false (ex_data (Some (2, 2)%Q)) [2; 0] [0; 1; 2]) =
  Some [(0, [(1%Z, at_ 0 0, 8%Q, Some 4%Q, (7%Z, 7%Z, 6%Z)); (4%Z, at_ 7 7, 0%Q, Some 0%Q, (5%Z, 7%Z, 7%Z))]);
        (2, [(1%Z, at_ 0 0, 8%Q, Some 4%Q, (7%Z, 7%Z, 6%Z)); (4%Z, at_ 7 7, 0%Q, Some 0%Q, (5%Z, 7%Z, 7%Z))])].
Proof. vm_compute. reflexivity. Qed.
(** A larger quality distance can remove the quality flag, since the shape changes from the rectangle
    to the ellipse, and it changes the isolation of hits. *)
Theorem C73_larger_distance_refuted :
  summary (store_track_data false (ex_data (Some (2, 2)%Q)) [0] [0; 1; 2]) =
    Some [(0, [(1%Z, at_ 0 0, 8%Q, Some 4%Q, (7%Z, 7%Z, 6%Z)); (4%Z, at_ 7 7, 0%Q, Some 0%Q, (5%Z, 7%Z, 7%Z))])] /\
  summary (store_track_data false (ex_data (Some (5 # 2, 5 # 2)%Q)) [0] [0; 1; 2]) =
    Some [(0, [(1%Z, at_ 0 0, 8%Q, Some 4%Q, (5%Z, 7%Z, 7%Z)); (4%Z, at_ 7 7, 0%Q, Some 0%Q, (5%Z, 7%Z, 7%Z))])].
Proof. split; vm_compute; reflexivity. Qed.
(** Two hits and a track next to them: the reduced chi2 is infinite; a hit with error 0 does not count *)
Example C74_example_two : summary (store_track_data false (TrackData
    [Candidate 1 (hits3 (at_ 1 0) (at_ 2 2) none_) ones; Candidate 1 (hits3 (at_ 1 0) (at_ 2 2) (at_ 9 9)) (fun d => match d with 2 => (0%Q, 0%Q) | _ => (1%Q, 1%Q) end)]
    [true; true] [true; true] [hits3 (at_ 0 0) (at_ 0 0) (at_ 0 0); hits3 (at_ 1 0) (at_ 2 2) (at_ 0 0)] [ex_settings None; ex_settings None; ex_settings None] (fun _ => (0%Q, 0%Q))) [0] [0; 1; 2]) =
  Some [(0, [(1%Z, at_ 0 0, 9%Q, None, (3%Z, 0%Z, 4%Z)); (1%Z, at_ 1 0, 0%Q, Some 0%Q, (7%Z, 0%Z, 4%Z))])].
Proof. vm_compute. reflexivity. Qed.

Print Assumptions C73_rows.
Print Assumptions C73_succeeds.
Print Assumptions C73_keep_data.
Print Assumptions C74_chi2.
Print Assumptions C74_zero.
Print Assumptions C73_quality_bound.
Print Assumptions C73_missing_hit.
Print Assumptions C73_larger_distance_refuted.
