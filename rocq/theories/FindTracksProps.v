(** Properties of the track finding: C23 (hits are only exchanged within an event), C24 (columns). *)
From Coq Require Import Ascii String ZArith QArith Qabs List Bool Arith Lia Permutation.
From Verif Require Import FindTracksModel FindTracksProofs.
Import ListNotations.
Local Open Scope nat_scope.

(** *** C23 *)
(** [idx r]: the row from which the values of row r are taken.  Within each event, the rows are permuted. *)
Definition permutes_within_events (n : nat) (events : nat -> Z) (idx : nat -> nat) : Prop :=
  Permutation (map idx (seq 0 n)) (seq 0 n) /\ forall r, r < n -> events (idx r) = events r.

Section C23.
  Variable F : Type.
  Variable isnan : F -> bool.
  Variables fadd fsub fmul fdiv : F -> F -> F.
  Variables fneg fsqrt : F -> F.
  Variable nonneg : F -> bool.
  Variable flt : F -> F -> bool.
  Variable n_rows : nat.
  Variable events : nat -> Z.
  Variable zs : list nat.
  Variable extra : list nat.
  Variable translation normal : nat -> nat -> F.
  Notation loop := (find_tracks_loop F isnan fadd fsub fmul fdiv fneg fsqrt nonneg flt n_rows events zs extra translation normal).

  Theorem C23_hits_permuted : NoDup zs -> forall x y z,
    exists a, loop (Arrays x y z (fun r _ => r)) = Some a /\
      (forall d, permutes_within_events n_rows events (fun r => ai a r d)) /\
      (forall r d, r < n_rows -> ax a r d = x (ai a r d) d /\ ay a r d = y (ai a r d) d /\ az a r d = z (ai a r d) d) /\
      (forall r d, r < n_rows -> ~ In d (tl zs) -> ai a r d = r).
  Proof.
    intros Hz x y z. set (a0 := Arrays x y z (fun r _ => r)).
    assert (P0 : permuted F n_rows events zs a0 a0).
    { constructor; simpl; auto. }
    destruct (events_loop_permuted F isnan fadd fsub fmul fdiv fneg fsqrt nonneg flt n_rows events zs extra translation normal Hz a0
      (seq 0 n_rows) (-1)%Z a0 P0) as (a & E & P).
    exists a. split; [exact E|]. split; [|split].
    - intros d. split.
      + apply NoDup_Permutation_bis.
        * assert (K : forall l, NoDup l -> (forall r, In r l -> r < n_rows) -> NoDup (map (fun r => ai a r d) l)).
          { induction l as [|r l IH]; intros N H; simpl; [constructor|]. inversion N; subst. constructor.
            - rewrite in_map_iff. intros (r' & E' & Hr'). apply (p_inj _ _ _ _ _ _ P) in E'; [subst; contradiction| |]; apply H; simpl; auto.
            - apply IH; auto. intros; apply H; simpl; auto. }
          apply K; [apply seq_NoDup|]. intros r Hr. apply in_seq in Hr. lia.
        * rewrite map_length. auto.
        * intros v Hv. apply in_map_iff in Hv. destruct Hv as (r & <- & Hr). apply in_seq in Hr.
          destruct (p_event _ _ _ _ _ _ P r d) as [H _]; [lia|]. apply in_seq. lia.
      + intros r Hr. apply (p_event _ _ _ _ _ _ P). auto.
    - intros r d Hr. exact (p_pos _ _ _ _ _ _ P r d Hr).
    - intros r d Hr Hd. exact (p_first _ _ _ _ _ _ P r d Hr Hd).
  Qed.

  (** The hit chosen for a track is the closest of the candidates.  A row is a candidate if it has a hit in
      the DUT that is not closer to the prediction of its own track. *)
  Variable a : arrays F.
  Variables track dut : nat.
  Variables rx ry : F.
  Notation dist h := (distance F fadd fsub fmul fsqrt (ax a h dut) (ay a h dut) rx ry).
  Definition candidate (h : nat) : Prop :=
    h <> track /\ isnan (ax a h dut) = false /\
    (get_first_dut F isnan a h zs = Some dut \/
     exists first ox oy, get_first_dut F isnan a h zs = Some first /\
       reference F isnan fadd fsub fmul fdiv fneg fsqrt zs extra translation normal a h dut first = Some (ox, oy) /\
       flt (distance F fadd fsub fmul fsqrt (ax a h dut) (ay a h dut) ox oy) (dist h) = false).

  Notation search := (hit_loop F isnan fadd fsub fmul fdiv fneg fsqrt nonneg flt zs extra translation normal a track dut rx ry).
  Hypothesis order_trans : forall u v w, flt v u = false -> flt w v = false -> flt w u = false.
  Hypothesis order_total : forall u v, flt u v = true -> flt v u = false.
  Hypothesis dist_nonneg : forall h, nonneg (dist h) = true.

  (** the result of a search that starts with best hit b (None: the track has no hit in the DUT) *)
  Lemma search_best : In dut zs -> forall hits b sw, (sw = true -> candidate b) ->
    forall r sw', search hits (b, if isnan (ax a b dut) then None else Some (dist b), sw) = Some (r, sw') ->
      (sw' = true -> candidate r) /\ (sw' = false -> r = b /\ sw = false) /\
      (isnan (ax a b dut) = false -> isnan (ax a r dut) = false /\ flt (dist b) (dist r) = false) /\
      (forall h, In h hits -> candidate h -> isnan (ax a r dut) = false /\ flt (dist h) (dist r) = false) /\
      (r = b \/ In r hits).
  Proof using order_trans order_total dist_nonneg. clear n_rows events.
    intros Hd. induction hits as [|h hits IH]; intros b sw Hb r sw' E.
    { simpl in E. injection E as <- <-. split; [auto|]. split; [intros ->; auto|]. split; [|split; [intros h []|auto]].
      intros Nb. split; auto.
      destruct (flt (dist b) (dist b)) eqn:E; auto. pose proof (order_total _ _ E). congruence. }
    cbn [hit_loop] in E.
    (* skipping a row that is no candidate or further away *)
    assert (Skip : (candidate h -> isnan (ax a b dut) = false /\ flt (dist h) (dist b) = false) ->
      search hits (b, if isnan (ax a b dut) then None else Some (dist b), sw) = Some (r, sw') -> 
      (sw' = true -> candidate r) /\ (sw' = false -> r = b /\ sw = false) /\
      (isnan (ax a b dut) = false -> isnan (ax a r dut) = false /\ flt (dist b) (dist r) = false) /\
      (forall h', In h' (h :: hits) -> candidate h' -> isnan (ax a r dut) = false /\ flt (dist h') (dist r) = false) /\
      (r = b \/ In r (h :: hits))).
    { intros Hs E'. destruct (IH b sw Hb r sw' E') as (H1 & H2 & H3 & H4 & H5).
      split; [auto|]. split; [auto|]. split; [auto|]. split; [|simpl; tauto].
      intros h' [<-|Hh'] Hc; [|auto]. destruct (Hs Hc) as [Q1 Q2]. destruct (H3 Q1) as [Q3 Q4]. split; auto.
      apply (order_trans _ (dist b)); auto. }
    destruct (Nat.eqb_spec track h) as [->|Nh].
    { apply Skip; auto. intros (C & _). congruence. }
    destruct (isnan (ax a h dut)) eqn:En.
    { apply Skip; auto. intros (_ & C & _). congruence. }
    cbn [fst snd] in E.
    destruct (match (if isnan (ax a b dut) then None else Some (dist b)) with Some b' => nonneg b' && flt b' (dist h) | None => false end) eqn:Eb.
    { apply Skip; auto. intros _. destruct (isnan (ax a b dut)); [discriminate|]. apply andb_true_iff in Eb. split; auto.
      apply order_total. tauto. }
    (* taking the row *)
    assert (Take : candidate h -> search hits (h, Some (dist h), true) = Some (r, sw') -> 
      (sw' = true -> candidate r) /\ (sw' = false -> r = b /\ sw = false) /\
      (isnan (ax a b dut) = false -> isnan (ax a r dut) = false /\ flt (dist b) (dist r) = false) /\
      (forall h', In h' (h :: hits) -> candidate h' -> isnan (ax a r dut) = false /\ flt (dist h') (dist r) = false) /\
      (r = b \/ In r (h :: hits))).
    { intros Hc E'. specialize (IH h true (fun _ => Hc) r sw'). rewrite En in IH.
      destruct (IH E') as (H1 & H2 & H3 & H4 & H5).
      destruct (H3 eq_refl) as [H6 H7].
      split; [auto|]. split; [intros K; destruct (H2 K); discriminate|]. split.
      - intros Nb. split; auto. rewrite Nb, dist_nonneg in Eb. simpl in Eb.
        apply (order_trans _ (dist h)); auto.
      - split; [|right; simpl; destruct H5 as [->|]; auto].
        intros h' [<-|Hh'] Hc'; auto. }
    destruct (get_first_dut F isnan a h zs) as [fo|] eqn:Ef; [|discriminate].
    destruct (Nat.eqb_spec fo dut) as [->|Nf].
    { apply Take; auto. repeat split; auto. }
    destruct (reference F isnan fadd fsub fmul fdiv fneg fsqrt zs extra translation normal a h dut fo) as [[ox oy]|] eqn:Er; [|discriminate].
    destruct (flt _ _) eqn:El in E.
    - apply Skip; auto. intros (_ & _ & [C|(f1 & x1 & y1 & C1 & C2 & C3)]); [congruence|].
      rewrite Ef in C1. injection C1 as <-. rewrite Er in C2. injection C2 as <- <-. congruence.
    - apply Take; auto. repeat split; auto. right. exists fo, ox, oy. auto.
  Qed.

  (** [chosen, swap]: the outcome of the search started by _find_tracks for a track. *)
  Theorem C23_closest_hit : In dut zs -> forall hits chosen swap,
    search hits (track, if isnan (ax a track dut) then None else Some (dist track), false) = Some (chosen, swap) ->
    (if swap then candidate chosen /\ In chosen hits else chosen = track) /\
    (forall h, In h hits -> candidate h -> isnan (ax a chosen dut) = false /\ flt (dist h) (dist chosen) = false) /\
    (isnan (ax a track dut) = false -> flt (dist track) (dist chosen) = false).
  Proof using order_trans order_total dist_nonneg. clear n_rows events.
    intros Hd hits r sw E.
    destruct (search_best Hd hits track false (fun H => False_ind _ (diff_false_true H)) r sw E) as (H1 & H2 & H3 & H4 & H5).
    repeat split.
    - destruct sw; [split; auto|]; [|apply H2; auto]. destruct H5 as [->|]; auto. destruct (H1 eq_refl) as [C _]. congruence.
    - apply (H4 h); auto.
    - apply (H4 h); auto.
    - intros Hn. apply H3. auto.
  Qed.
End C23.

(** Two tracks in event 5 whose hits are exchanged in DUT 1 and a track in event 7; coordinates are
    rationals, None is nan; distances are compared by their squares.  (Not a literal run of the code:
    any arithmetic is allowed.) *)
Definition qop (f : Q -> Q -> Q) (a b : option Q) : option Q :=
  match a, b with Some x, Some y => Some (f x y) | _, _ => None end.
Definition ex_x (r d : nat) : option Q :=
  match r, d with
  | 0, 0 => Some 0%Q | 1, 0 => Some 10%Q | 2, 0 => Some 3%Q
  | 0, 1 => Some 10%Q | 1, 1 => Some 0%Q | 2, 1 => None
  | 0, 2 => Some 0%Q | 1, 2 => Some 10%Q | 2, 2 => Some 3%Q
  | _, _ => None
  end.
Definition ex_z (r d : nat) : option Q := Some (inject_Z (Z.of_nat d)).
Definition ex_loop := find_tracks_loop (option Q)
  (fun a => match a with None => true | _ => false end)
  (qop Qplus) (qop Qminus) (qop Qmult) (qop Qdiv) (option_map Qopp) (fun a => a)
  (fun a => match a with Some x => Qle_bool 0 x | None => false end)
  (fun a b => match a, b with Some x, Some y => negb (Qle_bool y x) | _, _ => false end)
  3 (fun r => if r <=? 1 then 5%Z else 7%Z) [0; 1; 2] [0; 1; 2]
  (fun d i => if i =? 2 then Some (inject_Z (Z.of_nat d)) else Some 0%Q) (fun _ i => if i =? 2 then Some 1%Q else Some 0%Q).
Example C23_case :
  NoDup [0; 1; 2] /\
  match ex_loop (Arrays ex_x (fun _ _ => Some 0%Q) ex_z (fun r _ => r)) with
  | Some a => map (fun r => map (ai a r) [0; 1; 2]) [0; 1; 2] = [[0; 1; 0]; [1; 0; 1]; [2; 2; 2]]
  | None => False
  end.
Proof. split; [repeat constructor; simpl; intuition lia|]. vm_compute. reflexivity. Qed.

(** *** C24 *)
(** name of the column that holds the quantity [base] of a DUT, as built by the analysis: x_dut_3 *)
Definition column_of (base : string) (dut : nat) : list ascii := chars base ++ chars "_dut_" ++ decimal dut.

Lemma chars_app s t : chars (s ++ t) = chars s ++ chars t.
Proof. unfold chars. induction s; simpl; congruence. Qed.

Lemma decimal_digit d : d < 10 -> decimal d = [ascii_of_nat (48 + d)].
Proof. intros H. unfold decimal. cbn [digits]. rewrite (proj2 (Nat.ltb_lt d 10) H). rewrite Nat.mod_small by auto. reflexivity. Qed.
Lemma digit_inj d e : d < 10 -> e < 10 -> ascii_of_nat (48 + d) = ascii_of_nat (48 + e) -> d = e.
Proof.
  intros H1 H2 E. apply (f_equal nat_of_ascii) in E. rewrite !nat_ascii_embedding in E by lia. lia.
Qed.

Lemma app_snoc_inj {T} (u v : list T) x y : u ++ [x] = v ++ [y] -> u = v /\ x = y.
Proof. apply app_inj_tail. Qed.

Lemma rev_snoc {T} (l : list T) : l = [] \/ exists l' x, l = l' ++ [x].
Proof. destruct l as [|a l] using rev_ind; [auto|right; eauto]. Qed.

(** 'dut_e' occurs in 'base_dut_d' only at the end if 'dut_' does not occur in 'base_dut' *)
Lemma tag_in_column base d e : d < 10 -> e < 10 -> contains (chars "dut_") (chars base ++ chars "_dut") = false ->
  contains (dut_tag e) (column_of base d) = (e =? d).
Proof.
  intros Hd He Hb. unfold dut_tag, column_of. rewrite !decimal_digit by auto.
  destruct (Nat.eqb_spec e d) as [->|N].
  - apply contains_spec. exists (chars base ++ chars "_"), []. change (chars "_dut_") with (chars "_" ++ chars "dut_").
    rewrite app_nil_r, <- !app_assoc. reflexivity.
  - apply not_true_iff_false. rewrite contains_spec. intros (u & t & E).
    change (chars "_dut_") with (chars "_dut" ++ chars "_") in E. rewrite !app_assoc in E.
    destruct (rev_snoc t) as [->|(t1 & x & ->)].
    { rewrite app_nil_r in E. apply app_snoc_inj in E. destruct E as [_ E]. apply digit_inj in E; auto. }
    rewrite !app_assoc in E. apply app_snoc_inj in E. destruct E as [E _].
    change (chars "_") with ["_"%char] in E.
    destruct (rev_snoc t1) as [->|(t2 & y & ->)].
    { rewrite app_nil_r in E. apply app_snoc_inj in E. destruct E as [_ E].
      apply (f_equal nat_of_ascii) in E. rewrite nat_ascii_embedding in E by lia. change (nat_of_ascii "_") with 95 in E. lia. }
    rewrite !app_assoc in E. apply app_snoc_inj in E. destruct E as [E _].
    apply not_true_iff_false in Hb. apply Hb. apply contains_spec. exists u, ([ascii_of_nat (48 + e)] ++ t2).
    rewrite E. rewrite <- !app_assoc. reflexivity.
Qed.

Section C24.
  Context {V : Type}.
  Notation column := (@column V).

  Lemma copy_names indices : forall duts (cs : list column),
    map fst (fold_left (fun cs dut => map (copy_column indices dut) cs) duts cs) = map fst cs.
  Proof.
    induction duts as [|d duts IH]; intros cs; [reflexivity|]. simpl. rewrite IH, map_map.
    apply map_ext. intros c. unfold copy_column. destruct (contains _ _); reflexivity.
  Qed.

  Lemma copy_nth (indices : nat -> nat -> nat) : forall duts (cs : list column) k,
    nth_error (fold_left (fun cs dut => map (copy_column indices dut) cs) duts cs) k =
    option_map (fun c => fold_left (fun c dut => copy_column indices dut c) duts c) (nth_error cs k).
  Proof.
    induction duts as [|d duts IH]; intros cs k; simpl; [destruct (nth_error cs k); auto|].
    rewrite IH, nth_error_map. destruct (nth_error cs k); auto.
  Qed.
  Lemma copy_none indices : forall duts (c : column), (forall d, In d duts -> contains (dut_tag d) (fst c) = false) ->
    fold_left (fun c dut => copy_column indices dut c) duts c = c.
  Proof.
    induction duts as [|d duts IH]; intros c H; [reflexivity|]. simpl. unfold copy_column at 2.
    rewrite (H d) by (simpl; auto). apply IH. intros; apply H; simpl; auto.
  Qed.

  (** Up to 10 DUTs: the k-th column keeps its position and name; a column of DUT d is rearranged with the
      indices of DUT d; a column without a DUT in its name (event_number) is not changed. *)
  Theorem C24_columns_follow_their_dut : forall n_duts indices (cs : list column),
    n_duts <= 10 ->
    map fst (copy_columns n_duts indices cs) = map fst cs /\
    (forall k base d v, d < n_duts -> contains (chars "dut_") (chars base ++ chars "_dut") = false ->
       nth_error cs k = Some (column_of base d, v) ->
       nth_error (copy_columns n_duts indices cs) k = Some (column_of base d, fun row => v (indices row d))) /\
    (forall k name v, contains (chars "dut_") name = false ->
       nth_error cs k = Some (name, v) -> nth_error (copy_columns n_duts indices cs) k = Some (name, v)).
  Proof.
    intros n indices cs Hn. unfold copy_columns. split; [apply copy_names|]. split.
    - intros k base d v Hd Hb Hk. rewrite copy_nth, Hk. simpl. f_equal.
      replace (seq 0 n) with (seq 0 d ++ d :: seq (S d) (n - S d)).
      2: { replace n with (d + S (n - S d)) at 2 by lia. rewrite seq_app. reflexivity. }
      rewrite fold_left_app. rewrite (copy_none indices (seq 0 d)).
      2: { intros e He. apply in_seq in He. simpl. rewrite tag_in_column by (auto; lia). apply Nat.eqb_neq. lia. }
      simpl. unfold copy_column at 2. simpl. rewrite tag_in_column, Nat.eqb_refl by (auto; lia).
      apply copy_none. intros e He. apply in_seq in He. simpl. rewrite tag_in_column by (auto; lia). apply Nat.eqb_neq. lia.
    - intros k name v Hb Hk. rewrite copy_nth, Hk. simpl. f_equal. apply copy_none.
      intros d _. simpl. apply not_true_iff_false. intros H. apply not_true_iff_false in Hb. apply Hb.
      apply contains_spec in H. destruct H as (u & t & ->). apply contains_spec. exists u, (decimal d ++ t).
      unfold dut_tag. rewrite <- !app_assoc. reflexivity.
  Qed.
End C24.

(** With 11 DUTs the columns of DUT 10 are rearranged a second time, with the indices of DUT 1. *)
Theorem C24_eleven_duts_refuted : exists n_duts (indices : nat -> nat -> nat) (v : nat -> nat) d,
  d < n_duts /\ contains (chars "dut_") (chars "x" ++ chars "_dut") = false /\
  (forall e, Permutation (map (fun r => indices r e) [0; 1]) [0; 1]) /\
  exists w, copy_columns n_duts indices [(column_of "x" d, v)] = [(column_of "x" d, w)] /\ w 0 <> v (indices 0 d).
Proof.
  exists 11, (fun r e => if e =? 1 then 1 - r else r), (fun r => r), 10.
  split; [lia|]. split; [reflexivity|]. split.
  - intros e. destruct (e =? 1); simpl; auto using perm_swap.
  - eexists. split; [vm_compute; reflexivity|]. vm_compute. discriminate.
Qed.

Example C24_case :
  map (fun b => contains (chars "dut_") (chars b ++ chars "_dut")) ["x"; "charge"; "cluster_ID"; "n_hits"; "cluster_shape"]%string = repeat false 5 /\
  contains (chars "dut_") (chars "event_number") = false /\
  map (fun c => map (snd c) [0; 1]) (copy_columns 10 (fun r d => if d =? 1 then 1 - r else r)
     [(chars "event_number", fun r => r + 5); (column_of "x" 0, fun r => r + 20); (column_of "x" 1, fun r => r + 40)])
  = [[5; 6]; [20; 21]; [41; 40]].
Proof. vm_compute. repeat split; reflexivity. Qed.

(** The bits of the hit flag tell which DUTs have a hit. *)
Lemma high_bit x n m : (0 <= x < 2 ^ n)%Z -> (0 <= n <= m)%Z -> Z.testbit x m = false.
Proof.
  intros Hx Hn. destruct (Z.eq_dec x 0) as [->|]; [apply Z.testbit_0_l|].
  apply Z.bits_above_log2; [lia|]. apply Z.log2_lt_pow2; [lia|].
  apply Z.lt_le_trans with (2 ^ n)%Z; [lia|apply Z.pow_le_mono_r; lia].
Qed.
Lemma hit_flag_bits finite : forall n, (0 <= hit_flag n finite < 2 ^ Z.of_nat n)%Z /\
  forall d, Z.testbit (hit_flag n finite) (Z.of_nat d) = ((d <? n) && finite d).
Proof.
  induction n as [|n [IH1 IH2]].
  - split; [cbn; lia|]. intros d. cbn. apply Z.testbit_0_l.
  - assert (E : hit_flag (S n) finite = (hit_flag n finite + Z.shiftl (if finite n then 1 else 0) (Z.of_nat n))%Z).
    { unfold hit_flag. rewrite seq_S, fold_left_app. reflexivity. }
    assert (P : (0 < 2 ^ Z.of_nat n)%Z) by (apply Z.pow_pos_nonneg; lia).
    assert (L : hit_flag (S n) finite = Z.lor (hit_flag n finite) (Z.shiftl (if finite n then 1 else 0) (Z.of_nat n))).
    { rewrite E. rewrite <- Z.lxor_lor; [apply Z.add_nocarry_lxor|].
      all: apply Z.bits_inj'; intros m Hm; rewrite Z.land_spec, Z.testbit_0_l;
        destruct (Z.lt_ge_cases m (Z.of_nat n)) as [Hlt|Hge];
        [rewrite Z.shiftl_spec_low, andb_false_r by lia; auto
        |rewrite (high_bit (hit_flag n finite) (Z.of_nat n) m) by lia; auto]. }
    split.
    + rewrite E, Nat2Z.inj_succ, Z.pow_succ_r, Z.shiftl_mul_pow2 by lia. destruct (finite n); lia.
    + intros d. rewrite L, Z.lor_spec, IH2. rewrite Z.shiftl_spec by lia.
      destruct (Nat.lt_trichotomy d n) as [H|[H|H]].
      * rewrite (proj2 (Nat.ltb_lt d n) H), (proj2 (Nat.ltb_lt d (S n))) by lia.
        rewrite (Z.testbit_neg_r _ (Z.of_nat d - Z.of_nat n)) by lia. apply orb_false_r.
      * subst d. rewrite Nat.ltb_irrefl, (proj2 (Nat.ltb_lt n (S n))), Z.sub_diag by lia.
        destruct (finite n); reflexivity.
      * rewrite (proj2 (Nat.ltb_ge d n)), (proj2 (Nat.ltb_ge d (S n))) by lia. simpl.
        destruct (finite n); [|apply Z.testbit_0_l].
        destruct (Z.of_nat d - Z.of_nat n)%Z eqn:Ed; try lia; reflexivity.
Qed.

Theorem C24_hit_flag : forall n_duts finite d,
  Z.testbit (hit_flag n_duts finite) (Z.of_nat d) = true <-> d < n_duts /\ finite d = true.
Proof. intros n finite d. rewrite (proj2 (hit_flag_bits finite n)), andb_true_iff, Nat.ltb_lt. reflexivity. Qed.

Print Assumptions C23_hits_permuted.
Print Assumptions C23_closest_hit.
Print Assumptions C24_columns_follow_their_dut.
Print Assumptions C24_eleven_duts_refuted.
Print Assumptions C24_hit_flag.
