(** C137: the file of check_file and its figures. *)
From Coq Require Import Ascii String List Arith ZArith Reals Bool Lia Lra Sorting.Sorted Permutation.
From Verif Require Import GeometryModel SensorProps FindTracksModel EventArraysModel CorrelateModel CorrelateProps CorrelateBinsProps CheckFileModel CheckFileProps CorrFileModel CorrFileProps CheckPlotModel.
Import ListNotations.
Local Open Scope list_scope.
Local Open Scope Z_scope.

(** * Specification *)
(** A table of hits which check_file accepts: chunks as they are read, hits on the sensor (positions not exactly at the upper border), event numbers which do not decrease; no chunk but the last one ends with event 0. *)
Definition checkable (s : sensor) (names : list string) (chunks : list (list krow)) : Prop :=
  aligned chunks /\ has_columns names /\ ordered 0 (map k_event (concat chunks)) /\ (forall c, In c (removelast chunks) -> List.last (map k_event c) 0 <> 0) /\
  forall r, In r (concat chunks) -> row_accepted s names r /\ (positions_used names = true -> k_x r <> snd (x_extent s) /\ k_y r <> snd (y_extent s)).
(** the bins of a row *)
Definition binned (s : sensor) (names : list string) (resolution : R * R) (r : krow) (h : hit) : Prop :=
  h_event h = k_event r /\ exists p, position_of s names r = Some p /\ (h_x h, h_y h) = indices_of s resolution p.
(** the number of pairs of hits of one chunk, the first in one of the range events in front of the second, with bins i and j *)
Definition pairs (f : hit -> Z) (range : nat) (hits : list (list hit)) (i j : Z) : Z := Z.of_nat (sum_chunks (fun c => pairs_in_range f (Z.of_nat range) c i j) hits).
(** two hits of one chunk with events at most range apart *)
Definition neighbours (range : nat) (chunks : list (list krow)) : Prop := exists c r q, In c chunks /\ In r c /\ In q c /\ k_event q - Z.of_nat range <= k_event r < k_event q.

(** * Lemmas *)
Lemma fill_before_shape cur from : forall hs hs', fill_before cur from hs = Ok hs' -> shape hs' = shape hs.
Proof.
  induction from as [|a from IH]; intros hs hs' E; cbn [fill_before] in E; [discriminate|]. destruct (_ <? _); [|now injection E as <-]. destruct (fill hs a cur) eqn:F; try discriminate.
  rewrite (IH _ _ E). apply (fill_shape _ _ _ _ F).
Qed.
Lemma range_shape all range todo : forall last start hs hs', range_loop all todo range last start hs = Ok hs' -> shape hs' = shape hs.
Proof.
  induction todo as [|cur todo IH]; intros last start hs hs' E; cbn [range_loop] in E; [now injection E as <-|]. destruct (if _ =? _ then _ else _); [|discriminate].
  destruct (fill_before _ _ hs) eqn:F; try discriminate. rewrite (IH _ _ _ _ E). apply (fill_before_shape _ _ _ _ F).
Qed.
Lemma check_shape range chunks : forall hs hs', check_loop chunks range hs = Ok hs' -> shape hs' = shape hs.
Proof.
  induction chunks as [|c chunks IH]; intros hs hs' E; cbn [check_loop] in E; [now injection E as <-|]. destruct (correlate_hits_on_event_range c range hs) eqn:F; try discriminate.
  rewrite (IH _ _ E). apply (range_shape _ _ _ _ _ _ _ F).
Qed.
Lemma sum_pos n (chunks : list (list hit)) : (0 < sum_chunks n chunks)%nat <-> exists c, In c chunks /\ (0 < n c)%nat.
Proof.
  induction chunks as [|c chunks IH]; cbn [sum_chunks]; [split; [lia|intros (c & [] & _)]|]. split.
  - intros H. destruct (Nat.eq_dec (n c) 0) as [Z|Z]; [|exists c; split; [now left|lia]]. destruct (proj1 IH) as (d & I & P); [lia|]. exists d. split; [now right|exact P].
  - intros (d & [<-|I] & P); [lia|]. assert (0 < sum_chunks n chunks)%nat by (apply IH; eauto). lia.
Qed.
Lemma pairs_pos f range c i j : (0 < pairs_in_range f range c i j)%nat <-> exists a b, In a c /\ In b c /\ h_event b - range <= h_event a < h_event b /\ f a = i /\ f b = j.
Proof.
  unfold pairs_in_range. set (g := fun p : hit * hit => _). assert (P : forall l, (0 < length (filter g l))%nat <-> exists p, In p l /\ g p = true).
  { intros l. split.
    - destruct (filter g l) as [|p m] eqn:E; cbn [length]; [lia|]. intros _. exists p. apply filter_In. rewrite E. now left.
    - intros (p & I). apply filter_In in I. destruct (filter g l); [destruct I|cbn [length]; lia]. }
  rewrite P. split.
  - intros ([a b] & I & G). apply in_prod_iff in I. unfold g in G. cbn [fst snd] in G. rewrite !andb_true_iff, Z.leb_le, Z.ltb_lt, !Z.eqb_eq in G. exists a, b. intuition lia.
  - intros (a & b & A & B & (L & M) & <- & <-). exists (a, b). split; [apply in_prod_iff; auto|]. unfold g. cbn [fst snd]. rewrite !andb_true_iff, Z.leb_le, Z.ltb_lt, !Z.eqb_eq. auto.
Qed.
Lemma all_zero l : forallb (fun v => v <=? 0) l = false <-> exists v, In v l /\ 0 < v.
Proof.
  induction l as [|a l IH]; cbn [forallb In]; [split; [discriminate|intros (v & [] & _)]|]. rewrite andb_false_iff, IH, Z.leb_gt. split.
  - intros [H|(v & I & P)]; [exists a|exists v]; auto.
  - intros (v & [<-|I] & P); [left; lia|right; eauto].
Qed.
Lemma page_in nodes p : In p (plot_checks nodes) <-> exists n, In n nodes /\ p_title p = c_title n /\ p_data p = c_data n /\ exists v, In v (all_numbers (c_data n)) /\ 0 < v.
Proof.
  unfold plot_checks. rewrite in_flat_map. split.
  - intros (n & I & P). exists n. split; [exact I|]. destruct (forallb _ _) eqn:F; [destruct P|]. destruct P as [<-|[]]. split; [reflexivity|]. split; [reflexivity|]. apply all_zero, F.
  - intros (n & I & T & D & V). exists n. split; [exact I|]. apply all_zero in V. rewrite V. left. destruct p; cbn in *. congruence.
Qed.
Section File.
  Context (s : sensor) (names : list string) (resolution : R * R) (range : nat) (chunks : list (list krow)).
  Hypothesis (Ps : pitches_positive s) (R1 : (0 < fst resolution)%R) (R2 : (0 < snd resolution)%R).
  Hypothesis (Ok_ : checkable s names chunks).

  Lemma hits_some rows : (forall r, In r rows -> In r (concat chunks)) ->
    exists l, hits_of s names resolution rows = Some l /\ Forall2 (binned s names resolution) rows l /\ Forall (CorrelateProps.inside (fst (shape_of s resolution)) (snd (shape_of s resolution))) l.
  Proof.
    induction rows as [|r rows IH]; intros Sub; cbn [hits_of]; [exists []; repeat constructor|]. destruct IH as (l & E & F & G); [intros; apply Sub; now right|]. rewrite E.
    destruct Ok_ as (_ & _ & _ & _ & Acc). destruct (Acc r (Sub r (or_introl eq_refl))) as [A B].
    assert (X : exists p, position_of s names r = Some p).
    { unfold row_accepted in A. unfold position_of. destruct (positions_used names); [eauto|]. unfold index_to_local. destruct A as [[A1 A2] [A3 A4]]. apply IZR_le in A1, A2, A3, A4. rewrite <- INR_IZR_INZ in A2, A4.
      assert (Q : forall a b, (a <= b)%R -> Rleb a b = true) by (intros a b L; apply GeometryProofs.Rleb_true; exact L). rewrite !Q by lra. cbn [andb]. eauto. }
    destruct X as [p X]. rewrite X. destruct (C121_bins s names resolution r p Ps R1 R2 A X B) as [I J]. eexists. split; [reflexivity|]. split; [|constructor; [split; cbn; assumption|exact G]].
    constructor; [|exact F]. split; [reflexivity|]. exists p. split; [exact X|]. symmetry. apply surjective_pairing.
  Qed.
  Lemma chunk_hits_some cs : (forall c r, In c cs -> In r c -> In r (concat chunks)) ->
    exists l, chunk_hits s names resolution cs = Some l /\ Forall2 (Forall2 (binned s names resolution)) cs l /\ Forall (Forall (CorrelateProps.inside (fst (shape_of s resolution)) (snd (shape_of s resolution)))) l.
  Proof.
    induction cs as [|c cs IH]; intros Sub; cbn [chunk_hits]; [exists []; repeat constructor|]. destruct IH as (l & E & F & G); [intros d r I J; apply (Sub d r); [now right|exact J]|]. rewrite E.
    destruct (hits_some c) as (h & Eh & Fh & Gh); [intros r I; apply (Sub c r); [now left|exact I]|]. rewrite Eh. exists (h :: l). repeat split; constructor; assumption.
  Qed.
  Lemma binned_events rows hits : Forall2 (binned s names resolution) rows hits -> map h_event hits = map k_event rows.
  Proof. induction 1 as [|r h rows hits [E _] F IH]; [reflexivity|]. cbn [map]. rewrite E, IH. reflexivity. Qed.

  Theorem file_ok : exists hits d n hx hy,
    Forall2 (Forall2 (binned s names resolution)) chunks hits /\ Forall (Forall (CorrelateProps.inside (fst (shape_of s resolution)) (snd (shape_of s resolution)))) hits /\ check_file s names chunks = inr (d, n) /\
    write_checks s names resolution range chunks = Some [CheckNode "EventDelta" (chars "Change of event number per non empty event") (Numbers d);
      CheckNode "EventNumber" (chars "Event number of non empty event") (Numbers n);
      CheckNode "CorrelationColumns" (chars "Column Correlation with event range=" ++ decimal range) (Pairs hx);
      CheckNode "CorrelationRows" (chars "Row Correlation with event range=" ++ decimal range) (Pairs hy)] /\
    rows hx = fst (shape_of s resolution) /\ columns hx = fst (shape_of s resolution) /\ rows hy = snd (shape_of s resolution) /\ columns hy = snd (shape_of s resolution) /\
    forall i j, bin hx i j = wrap32 (pairs h_x range hits i j) /\ bin hy i j = wrap32 (pairs h_y range hits i j).
  Proof using Ps R1 R2 Ok_.
    destruct (chunk_hits_some chunks) as (hits & E & F & G); [intros c r I J; apply in_concat; eauto|]. pose proof Ok_ as (Al & Hc & Or & _ & Acc).
    assert (Ne : forall c, In c chunks -> c <> []) by apply Al.
    destruct (proj2 (C121_accepted s names chunks Ne Hc) (conj Or (fun r I => proj1 (Acc r I)))) as ([d n] & C).
    destruct (C61_chunks hits (Z.of_nat range) (fst (shape_of s resolution)) (snd (shape_of s resolution))) as (hx & hy & L & B); [lia| |].
    { assert (Q : forall cs hs, Forall2 (Forall2 (binned s names resolution)) cs hs -> ordered 0 (map k_event (concat cs)) -> Forall (fun h => StronglySorted (fun a b => h_event a <= h_event b) h /\ (forall a, In a h -> 0 <= h_event a)) hs).
      { induction 1 as [|c h cs hs Fc Fs IH]; intros O; constructor.
        - cbn [concat] in O. rewrite map_app in O. apply ordered_app in O. destruct O as [O _]. apply binned_events in Fc. rewrite <- Fc in O. unfold ordered in O. inversion O as [|? ? S1 S2]; subst. split.
          + clear -S1. induction h as [|a h IH]; constructor; inversion S1 as [|? ? T1 T2]; subst; [apply IH; exact T1|]. rewrite Forall_forall in *. intros b I. apply T2, in_map, I.
          + intros a I. rewrite Forall_forall in S2. apply S2, in_map, I.
        - apply IH. cbn [concat] in O. rewrite map_app in O. apply ordered_app in O. destruct O as (_ & O & M). unfold ordered in *. inversion O as [|? ? S1 S2]; subst. constructor; [exact S1|].
          apply Forall_forall. intros x I. apply M; [now left|exact I]. }
      specialize (Q _ _ F Or). rewrite Forall_forall in *. intros h I. destruct (Q h I) as [Q1 Q2]. auto. }
    exists hits, d, n, hx, hy. split; [exact F|]. split; [exact G|]. split; [exact C|]. split.
    - unfold write_checks. rewrite C, E. destruct (shape_of s resolution) as [nx ny]. cbn [fst snd] in L. rewrite L. reflexivity.
    - apply check_shape in L. unfold shape in L. cbn [fst snd zeros rows columns] in L. injection L as -> -> -> ->. repeat (split; [reflexivity|]). exact B.
  Qed.
End File.

(** The file has four nodes with different names: the event numbers with hits, each once and increasing, their differences, and two arrays with the numbers of pairs of hits (modulo the
    range of 32 bits) by the columns or rows of the hits. *)
Theorem C137_file s names resolution range chunks : pitches_positive s -> (0 < fst resolution)%R -> (0 < snd resolution)%R -> checkable s names chunks ->
  exists file, write_checks s names resolution range chunks = Some file /\ map c_name file = ["EventDelta"; "EventNumber"; "CorrelationColumns"; "CorrelationRows"]%string /\
  exists d n hx hy hits, map c_data file = [Numbers d; Numbers n; Pairs hx; Pairs hy] /\
    StronglySorted Z.lt n /\ (forall e, In e n <-> exists r, In r (concat chunks) /\ k_event r = e) /\
    length d = (length n - 1)%nat /\ (forall k a b, nth_error n k = Some a -> nth_error n (S k) = Some b -> nth_error d k = Some (b - a)) /\
    Forall2 (Forall2 (binned s names resolution)) chunks hits /\
    forall i j, bin hx i j = wrap32 (pairs h_x range hits i j) /\ bin hy i j = wrap32 (pairs h_y range hits i j).
Proof.
  intros Ps R1 R2 K. destruct (file_ok s names resolution range chunks Ps R1 R2 K) as (hits & d & n & hx & hy & F & _ & C & W & _ & _ & _ & _ & B). rewrite W. eexists. split; [reflexivity|]. split; [reflexivity|].
  exists d, n, hx, hy, hits. split; [reflexivity|]. destruct K as (Al & _ & _ & NZ & _). destruct (C121_events s names chunks d n Al C NZ) as (S1 & S2 & S3 & S4). auto 10.
Qed.

(** Which pages there are, for any order of the nodes: that of the event numbers if and only if there is an event with a positive number, that of the differences if and only if there are hits of at least two events, those
    of the pairs if and only if two hits of one chunk have events at most event_range apart (all bins with less than 2^31 pairs). The pages show the data of the file; the pixel (i, j) of
    an image has the number of pairs with first bin i and second bin j, the line of numbers goes through (k, number k). *)
Theorem C137_pages s names resolution range chunks : pitches_positive s -> (0 < fst resolution)%R -> (0 < snd resolution)%R -> checkable s names chunks ->
  (forall hits i j, Forall2 (Forall2 (binned s names resolution)) chunks hits -> pairs h_x range hits i j < 2 ^ 31 /\ pairs h_y range hits i j < 2 ^ 31) ->
  exists file, write_checks s names resolution range chunks = Some file /\ forall nodes, Permutation nodes file ->
    (forall p, In p (plot_checks nodes) -> exists n, In n file /\ p_title p = c_title n /\ p_data p = c_data n) /\
    (forall n, In n file -> (In (CheckPage (c_title n) (c_data n)) (plot_checks nodes) <->
      (c_name n = "EventNumber"%string /\ exists r, In r (concat chunks) /\ 0 < k_event r) \/
      (c_name n = "EventDelta"%string /\ exists r q, In r (concat chunks) /\ In q (concat chunks) /\ k_event r <> k_event q) \/
      ((c_name n = "CorrelationColumns" \/ c_name n = "CorrelationRows")%string /\ neighbours range chunks))).
Proof.
  intros Ps R1 R2 K Small. destruct (file_ok s names resolution range chunks Ps R1 R2 K) as (hits & d & n & hx & hy & F & G & C & W & X1 & X2 & Y1 & Y2 & B). rewrite W. eexists. split; [reflexivity|].
  intros nodes P. split.
  { intros p I. apply page_in in I. destruct I as (m & I & T & D & _). exists m. split; [apply (Permutation_in _ P I)|auto]. }
  pose proof K as (Al & _ & _ & NZ & _). destruct (C121_events s names chunks d n Al C NZ) as (S1 & S2 & S3 & S4).
  assert (Pg : forall m, In m [CheckNode "EventDelta" (chars "Change of event number per non empty event") (Numbers d);
      CheckNode "EventNumber" (chars "Event number of non empty event") (Numbers n);
      CheckNode "CorrelationColumns" (chars "Column Correlation with event range=" ++ decimal range) (Pairs hx);
      CheckNode "CorrelationRows" (chars "Row Correlation with event range=" ++ decimal range) (Pairs hy)] ->
      (In (CheckPage (c_title m) (c_data m)) (plot_checks nodes) <-> exists v, In v (all_numbers (c_data m)) /\ 0 < v)).
  { intros m I. rewrite page_in. cbn [p_title p_data]. split.
    - intros (m' & I' & T & D & V). rewrite D. exact V.
    - intros V. exists m. split; [apply (Permutation_in _ (Permutation_sym P) I)|auto]. }
  assert (Nb : forall f, f = h_x \/ f = h_y -> ((exists i j, 0 < pairs f range hits i j) <-> neighbours range chunks)).
  { intros f _. unfold pairs, neighbours. split.
    - intros (i & j & H). assert (H' : (0 < sum_chunks (fun c => pairs_in_range f (Z.of_nat range) c i j) hits)%nat) by lia. apply sum_pos in H'. destruct H' as (h & I & H'). apply pairs_pos in H'.
      destruct H' as (a & b & A1 & A2 & L & _). destruct (forall2_in_r _ _ _ _ F I) as (c & Ic & Fc). destruct (forall2_in_r _ _ _ _ Fc A1) as (r & Ir & Er & _). destruct (forall2_in_r _ _ _ _ Fc A2) as (q & Iq & Eq & _).
      exists c, r, q. rewrite <- Er, <- Eq. auto.
    - intros (c & r & q & Ic & Ir & Iq & L). destruct (forall2_in_l _ _ _ _ F Ic) as (h & I & Fc). destruct (forall2_in_l _ _ _ _ Fc Ir) as (a & A1 & Er & _). destruct (forall2_in_l _ _ _ _ Fc Iq) as (b & A2 & Eq & _).
      exists (f a), (f b). assert (H : (0 < sum_chunks (fun c => pairs_in_range f (Z.of_nat range) c (f a) (f b)) hits)%nat); [|lia]. apply sum_pos. exists h. split; [exact I|]. apply pairs_pos. exists a, b. rewrite Er, Eq. auto. }
  assert (Img : forall f h m, (f = h_x \/ f = h_y) -> rows h = m -> columns h = m -> (forall i j, bin h i j = wrap32 (pairs f range hits i j)) -> (forall i j, pairs f range hits i j < 2 ^ 31) ->
    (forall c a, In c hits -> In a c -> 0 <= f a < m) -> ((exists v, In v (entries h) /\ 0 < v) <-> neighbours range chunks)).
  { intros f h m Hf Hr Hcl Hb Hs Hin. rewrite <- (Nb f Hf). assert (Wr : forall i j, bin h i j = pairs f range hits i j) by (intros i j; rewrite Hb; apply wrap_small; split; [unfold pairs; lia|apply Hs]). split.
    - intros (v & I & V). apply entries_in in I. destruct I as (i & j & _ & _ & ->). exists i, j. rewrite <- Wr. exact V.
    - intros (i & j & V). exists (bin h i j). split; [|rewrite Wr; exact V]. apply entries_in. exists i, j. unfold pairs in V.
      assert (H' : (0 < sum_chunks (fun c => pairs_in_range f (Z.of_nat range) c i j) hits)%nat) by lia. apply sum_pos in H'. destruct H' as (c & I & H'). apply pairs_pos in H'. destruct H' as (a & b & A1 & A2 & _ & <- & <-).
      rewrite Hr, Hcl. split; [eauto|]. split; [eauto|reflexivity]. }
  assert (Ix : forall c a, In c hits -> In a c -> 0 <= h_x a < fst (shape_of s resolution) /\ 0 <= h_y a < snd (shape_of s resolution)).
  { intros c a I J. rewrite Forall_forall in G. specialize (G _ I). rewrite Forall_forall in G. exact (G _ J). }
  assert (Ex : (exists v, In v (entries hx) /\ 0 < v) <-> neighbours range chunks).
  { apply (Img h_x hx _ (or_introl eq_refl) X1 X2); [intros i j; apply B|intros i j; apply (Small hits i j F)|intros c a I J; apply (Ix c a I J)]. }
  assert (Ey : (exists v, In v (entries hy) /\ 0 < v) <-> neighbours range chunks).
  { apply (Img h_y hy _ (or_intror eq_refl) Y1 Y2); [intros i j; apply B|intros i j; apply (Small hits i j F)|intros c a I J; apply (Ix c a I J)]. }
  assert (En : (exists v, In v n /\ 0 < v) <-> exists r, In r (concat chunks) /\ 0 < k_event r).
  { split; [intros (v & I & V); apply S2 in I; destruct I as (r & I & <-); eauto|intros (r & I & V); exists (k_event r); split; [apply S2; eauto|exact V]]. }
  assert (Ed : (exists v, In v d /\ 0 < v) <-> exists r q, In r (concat chunks) /\ In q (concat chunks) /\ k_event r <> k_event q).
  { split.
    - intros (v & I & _). destruct n as [|a [|b n]]; [destruct d; [destruct I|discriminate]|destruct d; [destruct I|discriminate]|].
      destruct (proj1 (S2 a) (or_introl eq_refl)) as (r & Ir & Er). destruct (proj1 (S2 b) (or_intror (or_introl eq_refl))) as (q & Iq & Eq). exists r, q. split; [exact Ir|]. split; [exact Iq|].
      rewrite Er, Eq. inversion S1 as [|? ? _ T]; subst. inversion T; subst. lia.
    - intros (r & q & Ir & Iq & Ne). assert (I1 : In (k_event r) n) by (apply S2; eauto). assert (I2 : In (k_event q) n) by (apply S2; eauto). destruct n as [|a [|b n]]; [destruct I1|exfalso; destruct I1 as [I1|[]], I2 as [I2|[]]; congruence|].
      exists (b - a). split; [apply (nth_error_In d 0), (S4 0%nat a b); reflexivity|]. inversion S1 as [|? ? _ T]; subst. inversion T; subst. lia. }
  intros m I. rewrite (Pg m I). destruct I as [<-|[<-|[<-|[<-|[]]]]]; cbn [c_name c_data all_numbers]; [rewrite Ed|rewrite En|rewrite Ex|rewrite Ey];
    (split; [intros H; auto 6|intros [[Q H]|[[Q H]|[[Q|Q] H]]]; try discriminate Q; exact H]).
Qed.

(** What an image and a line show: the pixel with centre (i, j) the entry (i, j). *)
Theorem C137_drawn h l i j x y k v : (0 <= i < rows h -> 0 <= j < columns h -> (Rabs (x - IZR i) < / 2 -> Rabs (y - IZR j) < / 2 -> drawn_pair h x y = Some (bin h i j))%R) /\
  (In (k, v) (drawn_line l) <-> nth_error l k = Some v).
Proof.
  split.
  - intros I J X Y. apply Rabs_def2 in X, Y. unfold drawn_pair.
    assert (Q : forall z r, (- / 2 < r - IZR z < / 2)%R -> Int_part (r + / 2) = z).
    { intros z r H. apply Z.le_antisymm; [|apply floor_ge; lra]. assert (Int_part (r + / 2) < z + 1); [|lia]. apply floor_lt. rewrite plus_IZR. lra. }
    rewrite (Q i x), (Q j y) by lra. replace ((0 <=? i) && (i <? rows h) && (0 <=? j) && (j <? columns h)) with true; [reflexivity|]. symmetry. rewrite !andb_true_iff, !Z.leb_le, !Z.ltb_lt. lia.
  - unfold drawn_line. assert (G : forall l a, In (k, v) (combine (seq a (length l)) l) <-> (a <= k)%nat /\ nth_error l (k - a) = Some v).
    { clear. induction l as [|w l IH]; intros a; cbn [length seq combine In]; [split; [intros []|intros [_ H]; destruct (k - a)%nat; discriminate]|]. rewrite IH. split.
      - intros [[= <- <-]|[L H]]; [split; [lia|]; now rewrite Nat.sub_diag|]. split; [lia|]. replace (k - a)%nat with (S (k - S a)) by lia. exact H.
      - intros [L H]. destruct (Nat.eq_dec a k) as [<-|N]; [left; rewrite Nat.sub_diag in H; cbn in H; congruence|]. right. split; [lia|]. replace (k - a)%nat with (S (k - S a)) in H by lia. exact H. }
    rewrite G, Nat.sub_0_r. split; [tauto|intros H; split; [lia|exact H]].
Qed.


(** Desired: a file with hits has figures. False: with hits of event 0 only there is none, although the number of the event is stored. *)
Theorem C137_zero_refuted : forall s names resolution range c, pitches_positive s -> (0 < fst resolution)%R -> (0 < snd resolution)%R -> c <> [] -> (forall r, In r c -> k_event r = 0) -> checkable s names [c] ->
  exists file, write_checks s names resolution range [c] = Some file /\ (exists n, In n file /\ c_name n = "EventNumber"%string /\ c_data n = Numbers [0]) /\ plot_checks file = [].
Proof.
  intros s names resolution range c Ps R1 R2 Nc Z K.
  assert (Zr : forall r, In r (concat [c]) -> k_event r = 0) by (intros r I; cbn [concat] in I; rewrite app_nil_r in I; auto).
  assert (Zp : forall f hits i j, Forall2 (Forall2 (binned s names resolution)) [c] hits -> pairs f range hits i j = 0).
  { intros f hits i j F. unfold pairs. destruct (Nat.eq_dec (sum_chunks (fun c => pairs_in_range f (Z.of_nat range) c i j) hits) 0) as [->|N]; [reflexivity|].
    destruct (proj1 (sum_pos (fun c => pairs_in_range f (Z.of_nat range) c i j) hits)) as (h & I & P); [lia|]. apply pairs_pos in P. destruct P as (a & b & A1 & A2 & L & _). exfalso.
    destruct (forall2_in_r _ _ _ _ F I) as (c' & [<-|[]] & Fc). destruct (forall2_in_r _ _ _ _ Fc A1) as (r & Ir & Er & _). destruct (forall2_in_r _ _ _ _ Fc A2) as (q & Iq & Eq & _).
    rewrite Er, Eq, (Z _ Ir), (Z _ Iq) in L. lia. }
  destruct (C137_pages s names resolution range [c] Ps R1 R2 K) as (file & W & Pg). { intros hits i j F. rewrite !Zp by assumption. lia. }
  destruct (C137_file s names resolution range [c] Ps R1 R2 K) as (file' & W' & Nm & d & n & hx & hy & hits & Dt & S1 & S2 & _). rewrite W in W'. injection W' as <-. exists file. split; [exact W|]. split.
  - destruct file as [|n1 [|n2 file]]; try discriminate. exists n2. split; [right; now left|]. cbn [map] in Nm, Dt. injection Nm as _ Nm _. injection Dt as _ Dt _. split; [exact Nm|]. rewrite Dt. f_equal.
    assert (I0 : In 0 n). { apply S2. destruct c as [|r c]; [congruence|]. exists r. cbn [concat app In]. split; [now left|apply Z; now left]. }
    assert (A0 : forall e, In e n -> e = 0) by (intros e I; apply S2 in I; destruct I as (r & I & <-); auto). destruct n as [|a [|b n]]; [destruct I0|f_equal; apply A0; now left|].
    exfalso. rewrite (A0 a), (A0 b) in S1 by (cbn; auto). inversion S1 as [|? ? _ T]; subst. inversion T; subst. lia.
  - destruct (Pg file (Permutation_refl _)) as [P1 P2]. destruct (plot_checks file) as [|p ps] eqn:E; [reflexivity|]. exfalso. destruct (P1 p (or_introl eq_refl)) as (m & Im & T & D). destruct (proj1 (P2 m Im)) as [[_ H]|[[_ H]|[_ H]]].
    + left. destruct p; cbn in *; congruence.
    + destruct H as (r & I & H). rewrite (Zr r I) in H. lia.
    + destruct H as (r & q & I & J & H). rewrite (Zr r I), (Zr q J) in H. congruence.
    + destruct H as (c' & r & q & [<-|[]] & I & J & H). rewrite (Z r I), (Z q J) in H. lia.
Qed.

(** * Examples *)
Definition ex_sensor : sensor := Sensor 1 1 5 5 (Placement 0 0 0 0 0 0).
Definition ex_hit (e c r : Z) : krow := KRow e c r 0 0.
Lemma ex_checkable chunks : (forall c, In c chunks -> c <> []) -> ordered 0 (map k_event (concat chunks)) -> (forall c, In c (removelast chunks) -> List.last (map k_event c) 0 <> 0) ->
  (forall a c b d f e, chunks = a ++ c :: b -> In d b -> In e c -> In f d -> k_event e < k_event f) -> (forall r, In r (concat chunks) -> 1 <= k_column r <= 5 /\ 1 <= k_row r <= 5) ->
  checkable ex_sensor ["event_number"; "column"; "row"]%string chunks.
Proof. intros N O L A P. split; [split; assumption|]. split; [split; reflexivity|]. split; [exact O|]. split; [exact L|]. intros r I. split; [exact (P r I)|discriminate]. Qed.
Example C137_case : pitches_positive ex_sensor /\ checkable ex_sensor ["event_number"; "column"; "row"]%string [[ex_hit 1 2 3; ex_hit 1 4 4; ex_hit 2 2 3]; [ex_hit 5 1 1]] /\
  neighbours 1 [[ex_hit 1 2 3; ex_hit 1 4 4; ex_hit 2 2 3]; [ex_hit 5 1 1]] /\ checkable ex_sensor ["event_number"; "column"; "row"]%string [[ex_hit 0 2 3; ex_hit 0 1 1]].
Proof.
  split; [split; cbn; lra|]. split; [|split].
  - apply ex_checkable.
    + intros c [<-|[<-|[]]]; discriminate.
    + apply nondecreasing_spec. reflexivity.
    + intros c [<-|[]]. cbn. lia.
    + intros a c b d f e E Hd He Hf. destruct a as [|x [|y a]]; cbn in E.
      * injection E as <- <-. destruct Hd as [<-|[]]. destruct Hf as [<-|[]]. destruct He as [<-|[<-|[<-|[]]]]; cbn; lia.
      * injection E as <- <- <-. destruct Hd.
      * injection E as _ _ E. destruct a; discriminate.
    + intros r I. cbn in I. destruct I as [<-|[<-|[<-|[<-|[]]]]]; cbn; lia.
  - exists [ex_hit 1 2 3; ex_hit 1 4 4; ex_hit 2 2 3], (ex_hit 1 2 3), (ex_hit 2 2 3). cbn. intuition lia.
  - apply ex_checkable.
    + intros c [<-|[]]; discriminate.
    + apply nondecreasing_spec. reflexivity.
    + intros c [].
    + intros a c b d f e E Hd He Hf. destruct a as [|x a]; cbn in E; [injection E as <- <-; destruct Hd|]. injection E as _ E. destruct a; discriminate.
    + intros r I. cbn in I. destruct I as [<-|[<-|[]]]; cbn; lia.
Qed.

Print Assumptions file_ok.
Print Assumptions C137_file.
Print Assumptions C137_pages.
Print Assumptions C137_drawn.
Print Assumptions C137_zero_refuted.
