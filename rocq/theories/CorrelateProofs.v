(** Proofs about CorrelateModel. *)
From Coq Require Import ZArith List Bool Lia Arith Permutation Sorting.Sorted.
From Verif Require Import EventArraysModel EventArraysProofs ChunksModel ChunksProofs MergeModel MergeProofs CorrelateModel.
Import ListNotations.
Local Open Scope Z_scope.

Lemma flat_map_ext' {A B} (f g : A -> list B) l : (forall x, In x l -> f x = g x) -> flat_map f l = flat_map g l.
Proof. induction l as [|x l IH]; intros H; [reflexivity|]. cbn. rewrite H by now left. f_equal. apply IH. intros. apply H. now right. Qed.

(** ** Histograms *)
Lemma wrap_add z : wrap32 (wrap32 z + 1) = wrap32 (z + 1).
Proof.
  unfold wrap32. f_equal. replace ((z + 2 ^ 31) mod 2 ^ 32 - 2 ^ 31 + 1 + 2 ^ 31) with ((z + 2 ^ 31) mod 2 ^ 32 + 1) by ring.
  rewrite Zplus_mod_idemp_l. f_equal. ring.
Qed.
Definition count (f : hit -> Z) (P : list (hit * hit)) (i j : Z) : nat := length (filter (fun p => (f (fst p) =? i) && (f (snd p) =? j)) P).
Lemma count_perm f P Q i j : Permutation P Q -> count f P i j = count f Q i j.
Proof.
  unfold count. induction 1 as [|x P Q _ IH|x y P|P Q R _ IH1 _ IH2]; cbn; [reflexivity| | |congruence].
  - destruct (_ && _); cbn; congruence.
  - destruct ((f (fst x) =? i) && (f (snd x) =? j)), ((f (fst y) =? i) && (f (snd y) =? j)); reflexivity.
Qed.

Section Dims.
Variables n m k l : Z.  (* dimensions of the histograms *)
(** The pairs that have been counted *)
Definition holds (hs : hists) (P : list (hit * hit)) : Prop :=
  rows (fst hs) = n /\ columns (fst hs) = m /\ rows (snd hs) = k /\ columns (snd hs) = l /\
  forall i j, bin (fst hs) i j = wrap32 (Z.of_nat (count h_x P i j)) /\ bin (snd hs) i j = wrap32 (Z.of_nat (count h_y P i j)).
Definition first_ok (a : hit) : Prop := 0 <= h_x a < n /\ 0 <= h_y a < k.
Definition second_ok (a : hit) : Prop := 0 <= h_x a < m /\ 0 <= h_y a < l.

Lemma holds_perm hs P Q : Permutation P Q -> holds hs P -> holds hs Q.
Proof.
  intros H (A & B & C & D & E). repeat split; auto; destruct (E i j) as [E1 E2].
  - now rewrite E1, (count_perm _ _ _ i j H).
  - now rewrite E2, (count_perm _ _ _ i j H).
Qed.
Lemma bump_ok h i j : 0 <= i < rows h -> 0 <= j < columns h ->
  bump h i j = Ok (Hist (rows h) (columns h) (fun a b => if (a =? i) && (b =? j) then wrap32 (bin h a b + 1) else bin h a b)).
Proof.
  intros Hi Hj. unfold bump.
  destruct (Z.leb_spec 0 i), (Z.ltb_spec i (rows h)), (Z.leb_spec 0 j), (Z.ltb_spec j (columns h)); cbn; try lia. reflexivity.
Qed.
Lemma fill_ok hs P a b : first_ok a -> second_ok b -> holds hs P -> exists hs', fill hs a b = Ok hs' /\ holds hs' ((a, b) :: P).
Proof.
  intros [A1 A2] [B1 B2] (Hn & Hm & Hk & Hl & E). unfold fill. rewrite !bump_ok by lia. eexists. split; [reflexivity|].
  repeat split; auto; cbn [fst snd bin]; unfold count; cbn [filter fst snd].
  - rewrite (Z.eqb_sym (h_x a)), (Z.eqb_sym (h_x b)). destruct ((i =? h_x a) && (j =? h_x b)); [|apply E].
    rewrite (proj1 (E i j)), wrap_add. f_equal. cbn [length]. unfold count. lia.
  - rewrite (Z.eqb_sym (h_y a)), (Z.eqb_sym (h_y b)). destruct ((i =? h_y a) && (j =? h_y b)); [|apply E].
    rewrite (proj2 (E i j)), wrap_add. f_equal. cbn [length]. unfold count. lia.
Qed.

Notation sorted := (sorted_by h_event).
Definition same (r d : hit) : bool := h_event d =? h_event r.
Definition pairs_of (dut : list hit) (r : hit) : list (hit * hit) := map (fun d => (d, r)) (filter (same r) dut).

Lemma sorted_cons a l' : sorted (a :: l') -> sorted l' /\ forall b, In b l' -> h_event a <= h_event b.
Proof. intros H. inversion_clear H. split; [assumption|]. now apply Forall_forall. Qed.
Lemma catch_up_from e dut : sorted dut -> catch_up e dut = filter (from h_event e) dut.
Proof.
  induction dut as [|d dut IH]; intros S; [reflexivity|]. cbn [catch_up filter]. unfold from at 1.
  destruct (sorted_cons _ _ S) as [S' H]. destruct (Z.ltb_spec (h_event d) e); cbn [negb]; [auto|].
  f_equal. symmetry. apply from_all. intros b Hb. specialize (H b Hb). lia.
Qed.
Lemma fill_event_ok r dut : sorted dut -> (forall d, In d dut -> h_event r <= h_event d) -> second_ok r -> Forall first_ok dut ->
  forall hs P, holds hs P -> exists hs', fill_event r dut hs = Ok hs' /\ holds hs' (pairs_of dut r ++ P).
Proof.
  induction dut as [|d dut IH]; intros S H Or Od hs P Hh; cbn [fill_event].
  - eexists. split; [reflexivity|]. exact Hh.
  - destruct (sorted_cons _ _ S) as [S' H']. inversion_clear Od as [|? ? Od1 Od2]. unfold pairs_of. cbn [filter]. unfold same at 1.
    rewrite (Z.eqb_sym (h_event r)). destruct (Z.eqb_spec (h_event d) (h_event r)) as [E|E].
    + destruct (fill_ok _ _ _ _ Od1 Or Hh) as (hs1 & -> & H1). destruct (IH S' (fun x Hx => H x (or_intror Hx)) Or Od2 _ _ H1) as (hs2 & F & H2). exists hs2. split; [exact F|].
      eapply holds_perm; [|exact H2]. cbn [map app]. symmetry. apply Permutation_middle.
    + eexists. split; [reflexivity|]. replace (filter (same r) dut) with (@nil hit); [exact Hh|].
      symmetry. clear - H H' E. specialize (H d (or_introl eq_refl)). induction dut as [|x dut IH]; [reflexivity|]. cbn. unfold same at 1.
      destruct (Z.eqb_spec (h_event x) (h_event r)) as [Ex|Ex]; [|apply IH; intros; apply H'; now right]. specialize (H' x (or_introl eq_refl)). lia.
Qed.
Lemma same_from r e dut : e <= h_event r -> filter (same r) (filter (from h_event e) dut) = filter (same r) dut.
Proof.
  intros H. induction dut as [|d dut IH]; [reflexivity|]. cbn [filter]. unfold from at 1, same at 2.
  destruct (Z.ltb_spec (h_event d) e); cbn [negb filter].
  - destruct (Z.eqb_spec (h_event d) (h_event r)); [lia|exact IH].
  - unfold same at 1. now rewrite IH.
Qed.
Lemma correlate_events_ok ref : sorted ref -> Forall second_ok ref -> forall dut, sorted dut -> Forall first_ok dut ->
  forall hs P, holds hs P -> exists hs', correlate_on_event_number ref dut hs = Ok hs' /\ holds hs' (flat_map (pairs_of dut) ref ++ P).
Proof.
  induction ref as [|r ref IH]; intros S Or dut Sd Od hs P Hh; cbn [correlate_on_event_number flat_map].
  - eexists. split; [reflexivity|]. exact Hh.
  - destruct (sorted_cons _ _ S) as [S' H]. inversion_clear Or as [|? ? O1 O2].
    rewrite catch_up_from by assumption. set (dut1 := filter (from h_event (h_event r)) dut).
    assert (Sd1 : sorted dut1) by now apply sorted_from_filter.
    assert (Od1 : Forall first_ok dut1) by (rewrite Forall_forall in *; intros x Hx; apply filter_In in Hx; now apply Od).
    assert (L1 : forall d, In d dut1 -> h_event r <= h_event d).
    { intros d Hd. apply filter_In in Hd as [_ Hd]. unfold from in Hd. destruct (Z.ltb_spec (h_event d) (h_event r)); [discriminate|lia]. }
    destruct (fill_event_ok r dut1 Sd1 L1 O1 Od1 _ _ Hh) as (hs1 & -> & H1).
    destruct (IH S' O2 dut1 Sd1 Od1 _ _ H1) as (hs2 & -> & H2). eexists. split; [reflexivity|].
    assert (E1 : pairs_of dut1 r = pairs_of dut r) by (unfold pairs_of, dut1; rewrite same_from; [reflexivity|lia]).
    assert (E2 : flat_map (pairs_of dut1) ref = flat_map (pairs_of dut) ref).
    { apply flat_map_ext'. intros x Hx. unfold pairs_of, dut1. rewrite same_from; [reflexivity|]. now apply H. }
    eapply holds_perm; [|exact H2]. rewrite E1, E2, !app_assoc. apply Permutation_app_tail. apply Permutation_app_comm.
Qed.

(** ** Chunks of the DUT *)
Lemma correlate_chunks_ok ref : sorted ref -> Forall second_ok ref -> forall ys, sorted (concat (map fst ys)) -> Forall first_ok (concat (map fst ys)) ->
  forall idx hs P, holds hs P ->
  exists hs', correlate_chunks ref ys idx hs = Ok (next_index idx ys, hs') /\ holds hs' (flat_map (pairs_of (concat (map fst ys))) ref ++ P).
Proof.
  intros Sr Or. induction ys as [|[data i] ys IH]; intros Sy Oy idx hs P Hh; cbn [correlate_chunks map concat fst].
  - eexists. split; [reflexivity|]. replace (flat_map (pairs_of []) ref) with (@nil (hit * hit)); [exact Hh|].
    clear. induction ref; [reflexivity|]. cbn. now rewrite <- IHref.
  - cbn [map concat fst] in Sy, Oy. apply sorted_app_inv in Sy as (S1 & S2 & _). apply Forall_app in Oy as [O1 O2].
    destruct (correlate_events_ok ref Sr Or data S1 O1 _ _ Hh) as (hs1 & -> & H1).
    destruct (IH S2 O2 (Some i) _ _ H1) as (hs2 & -> & H2). eexists. split; [reflexivity|].
    eapply holds_perm; [|exact H2]. rewrite app_assoc. apply Permutation_app_tail.
    clear. induction ref as [|r ref IH]; [constructor|]. cbn [flat_map].
    replace (pairs_of (data ++ concat (map fst ys)) r) with (pairs_of data r ++ pairs_of (concat (map fst ys)) r) by (unfold pairs_of; now rewrite filter_app, map_app).
    rewrite <- IH. rewrite <- !app_assoc.
    set (A := pairs_of (concat _) r). set (B := flat_map (pairs_of (concat _)) ref). set (C := pairs_of data r). set (D := flat_map (pairs_of data) ref).
    transitivity (A ++ C ++ B ++ D); [|rewrite !app_assoc; apply Permutation_app_tail; apply Permutation_app_tail; apply Permutation_app_comm].
    apply Permutation_app_head. rewrite !app_assoc. apply Permutation_app_tail. apply Permutation_app_comm.
Qed.
End Dims.

(** ** Reading the DUT from the last index on *)
Section Read.
Variable cs : nat.
Hypothesis Hcs : (1 <= cs)%nat.
Notation sorted := (sorted_by h_event).
Lemma read_from_spec table lo start t idx : sorted table -> no_big h_event cs table -> pos idx = cnt h_event lo table ->
  (forall v, lo = Some v -> v <= start) -> start <= t ->
  exists ys lo', read_dut h_event cs table (Some start) t idx = (ys, GenDone) /\ concat (map fst ys) = rng h_event (Some start) t table
    /\ pos (next_index idx ys) = cnt h_event lo' table /\ (forall v, lo' = Some v -> v <= t).
Proof using Hcs.
  intros S NB Hp Hlo Hst. set (k := pos idx) in *.
  assert (Hk : (k <= length table)%nat) by (rewrite Hp; apply (cnt_le h_event cs Hcs)).
  set (p := Params (Some start) (Some t) idx None cs false true false).
  assert (Hsl : read table k (length table) = skipn k table) by (unfold read; apply firstn_all2; rewrite skipn_length; lia).
  assert (Ss : sorted (skipn k table)) by (apply sorted_skipn; auto).
  assert (Hle : exists le, skipn k table <> [] -> last_event h_event (skipn k table) = Some le).
  { destruct (skipn k table) as [|x r] eqn:E; [exists 0; congruence|].
    destruct (last_event_some h_event (x :: r)) as [v Hv]; [discriminate|]. exists v. auto. }
  destruct Hle as (le & Hle).
  pose proof (read_in_chunks_spec h_event table p k (length table) Hcs Hk (le_n _)) as R. cbv zeta in R. rewrite Hsl in R. specialize (R Ss le Hle).
  assert (Hrun : read_dut h_event cs table (Some start) t idx = read_in_chunks h_event table p k (length table)).
  { unfold read_dut, data_aligned_at_events. fold p. cbn [p_start_index p_stop_index p_start_event p_stop_event p_indexed p].
    fold (pos idx). fold k. destruct (Nat.ltb_spec (length table) k); [lia|]. destruct (Z.ltb_spec t start); [lia|]. reflexivity. }
  rewrite Hrun. destruct (read_in_chunks h_event table p k (length table)) as [ys e].
  destruct R as [He (i & Hi & Hri & (tail & Ht & Htl & Hsep & HF & Hix))].
  assert (e = GenDone) as ->.
  { destruct He as [|[_ [[_ F]|B]]]; auto; [discriminate F|]. exfalso. eapply (big_event_false h_event cs Hcs); eauto. }
  assert (Hlow : filter (low_ok h_event (low_event h_event p k (skipn k table))) (skipn k table) = filter (from h_event start) table).
  { unfold low_event. cbn [p_start_event p_first_aligned p negb andb low_ok].
    rewrite Hp, skipn_cnt by assumption. rewrite filter_filter2. apply filter_ext_in'. intros a Ha. unfold low_bound. cbn [p_first_aligned p negb andb].
    destruct lo as [v|]; [|reflexivity]. cbn. specialize (Hlo v eq_refl). unfold from.
    destruct (Z.leb_spec v (h_event a)), (Z.ltb_spec (h_event a) start); cbn; auto; lia. }
  rewrite Hlow in Hri, Ht. rewrite (Htl eq_refl), app_nil_r in Ht.
  assert (Hc : concat (map fst ys) = rng h_event (Some start) t table).
  { rewrite <- Ht, filter_filter2. unfold rng. apply filter_ext_in'. intros a Ha. unfold wanted, from, in_lo. rewrite Nat.eqb_refl. cbn [p_stop_event p orb].
    rewrite andb_true_r. rewrite Z.ltb_antisym, negb_involutive. reflexivity. }
  destruct ys as [|y ys].
  - exists [], lo. split; [reflexivity|]. split; [exact Hc|]. split; [exact Hp|]. intros v Hv. specialize (Hlo v Hv). lia.
  - exists (y :: ys), (Some t). split; [reflexivity|]. split; [exact Hc|]. split; [|intros v Hv; injection Hv as <-; lia].
    rewrite (next_index_last cs Hcs idx i _ Hix). rewrite Hc. rewrite <- (rng_cnt h_event cs Hcs (Some start) t table S) by (intros v Hv; injection Hv as <-; lia).
    f_equal.
    assert (Ns : filter (from h_event start) table <> []).
    { inversion_clear HF as [|? ? [N _] _]. intros E0. rewrite E0 in Ht. cbn in Ht. destruct y as [[|c0 c] j]; cbn in *; congruence. }
    assert (Hri2 : skipn i table = skipn (cnt h_event (Some start) table) table).
    { rewrite skipn_cnt by assumption. unfold read in Hri. rewrite firstn_all2 in Hri by (rewrite skipn_length; lia). rewrite Hri.
      apply filter_ext. intros a. unfold from, in_lo. now rewrite Z.ltb_antisym, negb_involutive. }
    pose proof (f_equal (@length hit) Hri2) as L. rewrite !skipn_length in L.
    assert (0 < length (skipn i table))%nat.
    { unfold read in Hri. rewrite firstn_all2 in Hri by (rewrite skipn_length; lia). rewrite Hri. destruct (filter _ table); [congruence|cbn; lia]. }
    rewrite skipn_length in H. pose proof (cnt_le h_event cs Hcs (Some start) table). lia.
Qed.
End Read.

(** ** Chunks of the reference *)
Section Loop.
Variable cs : nat.
Hypothesis Hcs : (1 <= cs)%nat.
Variables n m k l : Z.
Notation sorted := (sorted_by h_event).
Lemma pairs_rng dut r start t : start <= h_event r < t -> pairs_of (rng h_event (Some start) t dut) r = pairs_of dut r.
Proof using.
  clear Hcs. intros H. unfold pairs_of, rng. f_equal. rewrite filter_filter2. apply filter_ext. intros a. unfold same, in_lo.
  destruct (Z.eqb_spec (h_event a) (h_event r)); [|now rewrite andb_false_r]. destruct (Z.leb_spec start (h_event a)), (Z.ltb_spec (h_event a) t); cbn; auto; lia.
Qed.
Lemma correlate_loop_ok dut : sorted dut -> no_big h_event cs dut -> Forall (first_ok n k) dut ->
  forall chunks lo idx hs P, Forall (fun y => fst y <> []) chunks -> separated h_event (map fst chunks) [] -> sorted (concat (map fst chunks)) ->
  Forall (second_ok m l) (concat (map fst chunks)) -> (forall v a, lo = Some v -> In a (concat (map fst chunks)) -> v <= h_event a) ->
  pos idx = cnt h_event lo dut -> holds n m k l hs P ->
  exists hs', correlate_loop cs dut chunks idx hs = Ok hs' /\ holds n m k l hs' (flat_map (pairs_of dut) (concat (map fst chunks)) ++ P).
Proof using Hcs.
  intros Sd Nd Od. induction chunks as [|[ref i] chunks IH]; intros lo idx hs P Fn Sp S O Hlo Hp Hh; cbn [correlate_loop map concat fst flat_map].
  - eexists. split; [reflexivity|]. exact Hh.
  - cbn [map concat fst] in *. inversion_clear Fn as [|? ? Nr Fn']. cbn [fst] in Nr. destruct Sp as [Sp Sp'].
    apply sorted_app_inv in S as (Sr & S' & _). apply Forall_app in O as [Or O'].
    destruct (first_event h_event ref) as [start|] eqn:Ef; [|destruct ref; [congruence|discriminate]].
    destruct (last_event_some h_event ref Nr) as [stop El]. rewrite El.
    pose proof (first_event_min _ _ _ Sr Ef) as Mf. pose proof (last_event_max _ _ _ Sr El) as Ml.
    assert (L : start <= stop + 1).
    { destruct (first_event_in _ _ _ Ef) as (a & Ha & <-). specialize (Ml a Ha). lia. }
    destruct (read_from_spec cs Hcs dut lo start (stop + 1) idx Sd Nd Hp) as (ys & lo' & R & C & Hp' & Hlo'); auto.
    { intros v ->. destruct (first_event_in _ _ _ Ef) as (a & Ha & <-). apply (Hlo v); auto. apply in_or_app. now left. }
    unfold correlate_position. unfold read_dut in R. rewrite R.
    assert (Sy : sorted (concat (map fst ys))) by (rewrite C; now apply rng_sorted).
    assert (Oy : Forall (first_ok n k) (concat (map fst ys))).
    { rewrite C. rewrite Forall_forall in *. intros x Hx. apply Od. unfold rng in Hx. apply filter_In in Hx. tauto. }
    destruct (correlate_chunks_ok n m k l ref Sr Or ys Sy Oy idx _ _ Hh) as (hs1 & -> & H1).
    destruct (IH lo' (next_index idx ys) hs1 (flat_map (pairs_of (concat (map fst ys))) ref ++ P)) as (hs2 & F2 & H2); auto.
    { intros v a Ev Ha. specialize (Hlo' v Ev). destruct (last_event_in _ _ _ El) as (b & Hb & Eb).
      assert (h_event b < h_event a) by (apply Sp; [assumption|now rewrite app_nil_r]). lia. }
    exists hs2. split; [exact F2|]. eapply holds_perm; [|exact H2]. rewrite flat_map_app, app_assoc.
    apply Permutation_app_tail. rewrite C.
    rewrite (flat_map_ext' (pairs_of (rng h_event (Some start) (stop + 1) dut)) (pairs_of dut) ref).
    + apply Permutation_app_comm.
    + intros r Hr. apply pairs_rng. specialize (Mf r Hr). specialize (Ml r Hr). lia.
Qed.
End Loop.

(** ** Correlation of events of one device *)
Section Range.
Variables n m k l : Z.
Notation sorted := (sorted_by h_event).
Definition window (range : Z) (cur a : hit) : bool := (h_event cur - range <=? h_event a) && (h_event a <? h_event cur).
Definition pairs_before (range : Z) (all : list hit) (cur : hit) : list (hit * hit) := map (fun a => (a, cur)) (filter (window range cur) all).
Lemma fill_before_ok cur l' : sorted l' -> (exists b, In b l' /\ h_event cur <= h_event b) -> second_ok m l cur -> Forall (first_ok n k) l' ->
  forall hs P, holds n m k l hs P ->
  exists hs', fill_before cur l' hs = Ok hs' /\ holds n m k l hs' (map (fun a => (a, cur)) (filter (below h_event (h_event cur)) l') ++ P).
Proof.
  induction l' as [|a l' IH]; intros S (b & Hb & Lb) Oc O hs P Hh; cbn [fill_before filter map]; [contradiction|].
  destruct (sorted_cons _ _ S) as [S' H]. inversion_clear O as [|? ? O1 O2]. unfold below at 1.
  destruct (Z.ltb_spec (h_event a) (h_event cur)) as [La|La].
  - destruct (fill_ok _ _ _ _ _ _ _ _ O1 Oc Hh) as (hs1 & -> & H1).
    destruct (IH S') with (hs := hs1) (P := (a, cur) :: P) as (hs2 & F & H2); auto.
    { destruct Hb as [<-|Hb]; [lia|]. now exists b. }
    exists hs2. split; [exact F|]. eapply holds_perm; [|exact H2]. cbn [map app]. symmetry. apply Permutation_middle.
  - eexists. split; [reflexivity|]. replace (filter (below h_event (h_event cur)) l') with (@nil hit); [exact Hh|].
    symmetry. clear - La H. induction l' as [|x l' IH]; [reflexivity|]. cbn. unfold below at 1.
    destruct (Z.ltb_spec (h_event x) (h_event cur)) as [Ex|Ex]; [|apply IH; intros; apply H; now right]. specialize (H x (or_introl eq_refl)). lia.
Qed.
Lemma range_loop_ok all range : 0 <= range -> sorted all -> Forall (first_ok n k) all -> Forall (second_ok m l) all ->
  forall todo last start hs P, (forall a, In a todo -> In a all) ->
  (forall a, In a todo -> h_event a = last -> start = Some (searchsorted h_event all (last - range))) -> holds n m k l hs P ->
  exists hs', range_loop all todo range last start hs = Ok hs' /\ holds n m k l hs' (flat_map (pairs_before range all) todo ++ P).
Proof.
  intros Hr S O1 O2. induction todo as [|cur todo IH]; intros last start hs P I Hs Hh; cbn [range_loop flat_map].
  - eexists. split; [reflexivity|]. exact Hh.
  - set (start' := if h_event cur =? last then start else _).
    assert (E : start' = Some (searchsorted h_event all (h_event cur - range))).
    { unfold start'. destruct (Z.eqb_spec (h_event cur) last) as [<-|]; [|reflexivity]. apply (Hs cur); [now left|reflexivity]. }
    rewrite E. rewrite searchsorted_below, skipn_below by assumption.
    destruct (fill_before_ok cur (filter (from h_event (h_event cur - range)) all)) with (hs := hs) (P := P) as (hs1 & -> & H1); auto.
    + now apply sorted_from_filter.
    + exists cur. split; [|lia]. apply filter_In. split; [apply I; now left|]. unfold from. destruct (Z.ltb_spec (h_event cur) (h_event cur - range)); [lia|reflexivity].
    + rewrite Forall_forall in O2. apply O2, I. now left.
    + rewrite Forall_forall in *. intros x Hx. apply filter_In in Hx. now apply O1.
    + destruct (IH (h_event cur) (Some (searchsorted h_event all (h_event cur - range))) hs1
         (map (fun a => (a, cur)) (filter (below h_event (h_event cur)) (filter (from h_event (h_event cur - range)) all)) ++ P)) as (hs2 & F & H2); auto.
      { intros a Ha. apply I. now right. }
      exists hs2. split; [exact F|]. eapply holds_perm; [|exact H2]. rewrite !app_assoc. apply Permutation_app_tail.
      rewrite Permutation_app_comm. apply Permutation_app_tail. unfold pairs_before.
      rewrite filter_filter2. erewrite filter_ext; [apply Permutation_refl|]. intros a. unfold from, below, window.
      rewrite Z.ltb_antisym, negb_involutive. reflexivity.
Qed.
End Range.
