(** C138: the effective pixels of the efficiency plots. *)
From Coq Require Import List Arith ZArith Reals Bool Lia Lra.
From Verif Require Import EffPixelsModel.
Import ListNotations.
Local Open Scope list_scope.

(** * Specification *)
(** the squared distance of two points *)
Definition dist2 (a b : R * R) : R := ((fst a - fst b) * (fst a - fst b) + (snd a - snd b) * (snd a - snd b))%R.
(** what is asked of cKDTree.query: a pixel such that no other pixel is closer *)
Definition finds_nearest (centres : list (R * R)) (query : R * R -> nat) : Prop :=
  forall x, exists c, nth_error centres (query x) = Some c /\ forall i d, nth_error centres i = Some d -> (dist2 x c <= dist2 x d)%R.
(** the bin number i has tracks with hit; its effective pixel is p *)
Definition effective_bin (query : R * R -> nat) (bins : list map_bin) (i p : nat) : Prop := exists b, nth_error bins i = Some b /\ 0 < m_hits b /\ query (moved b) = p.
(** the centre of bin number i is in pixel p *)
Definition in_pixel (query : R * R -> nat) (bins : list map_bin) (i p : nat) : Prop := exists b, nth_error bins i = Some b /\ query (m_centre b) = p.
(** pixel q is seen in the area of pixel p *)
Definition seen_in (query : R * R -> nat) (bins : list map_bin) (q p : nat) : Prop := exists i, effective_bin query bins i q /\ in_pixel query bins i p.

(** * Selected bins *)
Lemma combine_seq {A} (l : list A) : forall a i x, In (i, x) (combine (seq a (length l)) l) <-> a <= i /\ nth_error l (i - a) = Some x.
Proof.
  induction l as [|y l IH]; intros a i x; cbn [length seq combine In]; [split; [intros []|intros [_ H]; destruct (i - a); discriminate]|]. rewrite IH. split.
  - intros [[= <- <-]|[L H]]; [split; [lia|]; now rewrite Nat.sub_diag|]. split; [lia|]. replace (i - a) with (S (i - S a)) by lia. exact H.
  - intros [L H]. destruct (Nat.eq_dec a i) as [<-|N]; [left; rewrite Nat.sub_diag in H; cbn in H; congruence|]. right. split; [lia|]. replace (i - a) with (S (i - S a)) in H by lia. exact H.
Qed.
Lemma selected_in query bins s : In s (selected query bins) <-> exists b, nth_error bins (b_index s) = Some b /\ 0 < m_hits b /\ b_moved s = query (moved b) /\ b_centre s = query (m_centre b).
Proof.
  unfold selected. rewrite in_map_iff. split.
  - intros ([i b] & <- & I). apply filter_In in I. destruct I as [I H]. apply combine_seq in I. destruct I as [_ I]. rewrite Nat.sub_0_r in I. cbn [snd] in H. apply Nat.ltb_lt in H. exists b. cbn. auto.
  - intros (b & I & H & M & C). exists (b_index s, b). split; [destruct s; cbn in *; congruence|]. apply filter_In. split; [apply combine_seq; rewrite Nat.sub_0_r; split; [lia|exact I]|]. apply Nat.ltb_lt, H.
Qed.

Lemma filter_len {A} (f : A -> bool) l : length (filter f l) <= length l.
Proof. induction l as [|a l IH]; cbn [filter length]; [lia|]. destruct (f a); cbn [length]; lia. Qed.

(** * The loop *)
Lemma set_nth_length i v l : length (set_nth i v l) = length l.
Proof. unfold set_nth. rewrite app_length. pose proof (firstn_skipn i l) as E. apply (f_equal (@length _)) in E. rewrite app_length in E. destruct (skipn i l); cbn [length] in *; lia. Qed.
Lemma set_nth_nth i v l j d : i < length l -> nth j (set_nth i v l) d = if j =? i then v else nth j l d.
Proof.
  revert i j. induction l as [|a l IH]; intros [|i] [|j] L; cbn [length] in L; try lia; try reflexivity.
  change (nth j (set_nth i v l) d = if j =? i then v else nth j l d). apply IH. lia.
Qed.
Lemma next_colour_spec k others : 0 < k -> forall r c, exists j, j <= r /\ next_colour k r others c = c + j /\ (forall m, m < j -> In (Z.of_nat ((c + m) mod k)) others) /\ (j < r -> ~ In (Z.of_nat ((c + j) mod k)) others).
Proof.
  intros K. induction r as [|r IH]; intros c; cbn [next_colour].
  - exists 0. split; [lia|]. split; [lia|]. split; [lia|lia].
  - destruct (existsb _ others) eqn:E.
    + apply existsb_exists in E. destruct E as (z & I & E). apply Z.eqb_eq in E. subst z. destruct (IH (S c)) as (j & L & N & A & B). exists (S j). split; [lia|]. split; [lia|]. split.
      * intros [|m] M; [rewrite Nat.add_0_r; exact I|]. replace (c + S m) with (S c + m) by lia. apply A. lia.
      * intros M. replace (c + S j) with (S c + j) by lia. apply B. lia.
    + exists 0. split; [lia|]. split; [lia|]. split; [lia|]. intros _ I. rewrite Nat.add_0_r in I. apply not_true_iff_false in E. apply E, existsb_exists. exists (Z.of_nat (c mod k)). split; [exact I|apply Z.eqb_refl].
Qed.
(** a colour which does not occur is found *)
Lemma next_colour_free k others c f : 0 < k -> f < k -> ~ In (Z.of_nat f) others -> ~ In (Z.of_nat (next_colour k (k - 1) others c mod k)) others.
Proof.
  intros K F N I. destruct (next_colour_spec k others K (k - 1) c) as (j & L & E & A & B). rewrite E in I. destruct (Nat.eq_dec j (k - 1)) as [->|Ne]; [|apply B in I; [exact I|lia]].
  assert (X : exists m, m < k /\ (c + m) mod k = f).
  { pose proof (Nat.mod_upper_bound c k ltac:(lia)) as U. exists ((f + (k - c mod k)) mod k). split; [apply Nat.mod_upper_bound; lia|]. rewrite Nat.add_mod_idemp_r by lia.
    rewrite (Nat.div_mod c k) at 1 by lia. replace (k * (c / k) + c mod k + (f + (k - c mod k))) with (f + (c / k + 1) * k) by nia. rewrite Nat.mod_add by lia. apply Nat.mod_small, F. }
  destruct X as (m & M & X). destruct (Nat.eq_dec m (k - 1)) as [->|Ne]; [rewrite X in I; contradiction|]. apply N. rewrite <- X. apply A. lia.
Qed.

Lemma nth_repeat_lt (v d : Z) n : forall q, q < n -> nth q (repeat v n) d = v.
Proof. induction n as [|m IH]; intros [|q] Q; cbn [repeat nth]; try lia; try reflexivity. apply IH. lia. Qed.

Section Loop.
  Context (k n : nat) (sel : list sel_bin).
  Hypothesis (K : 0 < k) (Range : forall b, In b sel -> b_moved b < n) (Unique : forall a b, In a sel -> In b sel -> b_index a = b_index b -> a = b).
  Definition before (p : nat) : state := fold_left (step k sel) (seq 0 p) (State 0 (repeat (-1)%Z n) (fun _ => (-1)%Z)).
  Lemma before_S p : before (S p) = step k sel (before p) p.
  Proof using. clear K Range Unique. unfold before. rewrite seq_S, fold_left_app. reflexivity. Qed.
  Lemma colours_length p : length (colours (before p)) = n.
  Proof using. clear K Range Unique. induction p as [|p IH]; [apply repeat_length|]. rewrite before_S. unfold step. cbn [colours]. rewrite set_nth_length. exact IH. Qed.
  Lemma colours_stay p q d : q < p -> p <= n -> nth q (colours (before p)) d = nth q (colours (before (S q))) d.
  Proof using.
    clear K Range Unique.
    intros Q P. induction p as [|p IH]; [lia|]. destruct (Nat.eq_dec q p) as [->|Ne]; [reflexivity|]. rewrite before_S. unfold step at 1. cbn [colours].
    rewrite set_nth_nth by (rewrite colours_length; lia). destruct (Nat.eqb_spec q p); [lia|]. apply IH; lia.
  Qed.
  Lemma colours_later p q : p <= q -> q < n -> nth q (colours (before p)) 0%Z = (-1)%Z.
  Proof using.
    clear K Range Unique.
    intros P Q. induction p as [|p IH].
    - unfold before. cbn [seq fold_left colours]. apply nth_repeat_lt. exact Q.
    - rewrite before_S. unfold step. cbn [colours]. rewrite set_nth_nth by (rewrite colours_length; lia). destruct (Nat.eqb_spec q p); [lia|]. apply IH. lia.
  Qed.
  Lemma effective_spec p i : (exists b, In b sel /\ b_index b = i /\ b_moved b < p /\ effective (before p) i = Z.of_nat (b_moved b)) \/
    ((forall b, In b sel -> b_index b = i -> p <= b_moved b) /\ effective (before p) i = (-1)%Z).
  Proof using.
    clear K Range Unique.
    induction p as [|p IH]; [right; split; [intros; lia|reflexivity]|]. rewrite before_S. unfold step. cbn [effective]. destruct (existsb _ sel) eqn:E.
    - left. apply existsb_exists in E. destruct E as (b & I & E). apply andb_true_iff in E. rewrite !Nat.eqb_eq in E. destruct E as [<- <-]. exists b. repeat split; [exact I|lia].
    - apply not_true_iff_false in E. destruct IH as [(b & I & X & L & Y)|[A Y]].
      + left. exists b. repeat split; auto.
      + right. split; [|exact Y]. intros b I X. specialize (A b I X). destruct (Nat.eq_dec (b_moved b) p) as [M|M]; [|lia]. exfalso. apply E, existsb_exists. exists b. split; [exact I|]. apply andb_true_iff. rewrite !Nat.eqb_eq. auto.
  Qed.
  Definition colour (p : nat) : Z := nth p (colours (before n)) 0%Z.
  Lemma colour_eq p : p < n -> colour p = Z.of_nat (next_colour k (k - 1) (other_colours sel (before p) p) (color_index (before p)) mod k).
  Proof using.
    clear K Range Unique.
    intros P. unfold colour. rewrite colours_stay by lia. rewrite before_S. unfold step. cbn [colours]. rewrite set_nth_nth by (rewrite colours_length; exact P). rewrite Nat.eqb_refl. reflexivity.
  Qed.
  Lemma other_colour p z : p < n -> (In z (other_colours sel (before p) p) <->
    exists b, In b sel /\ b_centre b = p /\ ((b_moved b < p /\ z = colour (b_moved b)) \/ (p <= b_moved b /\ z = (-1)%Z))).
  Proof using K Range Unique.
    intros P. unfold other_colours. rewrite in_map_iff. split.
    - intros (b & <- & I). apply filter_In in I. destruct I as [I C]. apply Nat.eqb_eq in C. exists b. split; [exact I|]. split; [exact C|].
      destruct (effective_spec p (b_index b)) as [(b' & I' & X & L & Y)|[A Y]]; rewrite Y; unfold at_index.
      + apply (Unique b' b I' I) in X. subst b'. left. split; [exact L|]. destruct (Z.ltb_spec (Z.of_nat (b_moved b)) 0); [lia|]. rewrite Nat2Z.id. unfold colour. rewrite (colours_stay p (b_moved b)), (colours_stay n (b_moved b)) by lia. reflexivity.
      + right. split; [apply A; auto|]. cbn [Z.ltb Z.compare]. rewrite colours_length. replace (Z.to_nat (Z.of_nat n + -1)) with (n - 1) by lia. apply colours_later; lia.
    - intros (b & I & C & H). exists b. split; [|apply filter_In; split; [exact I|now apply Nat.eqb_eq]].
      destruct (effective_spec p (b_index b)) as [(b' & I' & X & L & Y)|[A Y]]; rewrite Y; unfold at_index.
      + apply (Unique b' b I' I) in X. subst b'. destruct H as [[_ ->]|[H _]]; [|lia]. destruct (Z.ltb_spec (Z.of_nat (b_moved b)) 0); [lia|]. rewrite Nat2Z.id. unfold colour. rewrite (colours_stay p (b_moved b)), (colours_stay n (b_moved b)) by lia. reflexivity.
      + specialize (A b I eq_refl). destruct H as [[H _]|[_ ->]]; [lia|]. cbn [Z.ltb Z.compare]. rewrite colours_length. replace (Z.to_nat (Z.of_nat n + -1)) with (n - 1) by lia. apply colours_later; lia.
  Qed.
  Lemma colour_range p : p < n -> (0 <= colour p < Z.of_nat k)%Z.
  Proof using K. intros P. rewrite colour_eq by exact P. match goal with |- context [?a mod k] => pose proof (Nat.mod_upper_bound a k ltac:(lia)) end. lia. Qed.
  Lemma colour_free p f : p < n -> f < k -> (forall b, In b sel -> b_centre b = p -> b_moved b < p -> colour (b_moved b) <> Z.of_nat f) ->
    forall b, In b sel -> b_centre b = p -> b_moved b < p -> colour (b_moved b) <> colour p.
  Proof using K Range Unique.
    intros P F H b I C L E. assert (N : ~ In (Z.of_nat f) (other_colours sel (before p) p)).
    { rewrite other_colour by exact P. intros (b' & I' & C' & [[L' X]|[_ X]]); [|lia]. apply (H b' I' C' L'). auto. }
    apply (next_colour_free k _ (color_index (before p)) f K F) in N. apply N. rewrite <- colour_eq by exact P. apply other_colour; [exact P|]. exists b. auto 6.
  Qed.
End Loop.

Section Figures.
  Context (k : nat) (centres : list (R * R)) (query : R * R -> nat) (bins : list map_bin).
  Let n := length centres.
  Let s := effective_pixels k n (selected query bins).
  Hypothesis (K : 0 < k) (Q : finds_nearest centres query).
  Lemma query_range x : query x < n.
  Proof using Q. destruct (Q x) as (c & E & _). apply nth_error_Some. unfold n in *. congruence. Qed.
  Lemma sel_range b : In b (selected query bins) -> b_moved b < n.
  Proof using Q. intros I. apply selected_in in I. destruct I as (m & _ & _ & -> & _). apply query_range. Qed.
  Lemma sel_unique a b : In a (selected query bins) -> In b (selected query bins) -> b_index a = b_index b -> a = b.
  Proof. intros I J E. apply selected_in in I, J. destruct I as (x & X1 & _ & X2 & X3), J as (y & Y1 & _ & Y2 & Y3). destruct a, b; cbn in *. subst. rewrite X1 in Y1. injection Y1 as <-. reflexivity. Qed.

  (** Each bin with tracks with hit gets the pixel which is nearest to its centre plus the mean residuals, the other bins are masked; the shown colour is that of the pixel. *)
  Theorem effective_ok i b : nth_error bins i = Some b ->
    (m_hits b = 0 -> effective s i = (-1)%Z /\ shown_colour s i = None) /\
    (0 < m_hits b -> exists p c, effective s i = Z.of_nat p /\ nth_error centres p = Some c /\ (forall j d, nth_error centres j = Some d -> (dist2 (moved b) c <= dist2 (moved b) d)%R) /\
      shown_colour s i = Some (nth p (colours s) 0%Z)).
  Proof using K Q.
    intros E. destruct (effective_spec k n (selected query bins) n i) as [(b' & I & X & L & Y)|[A Y]]; change (before k n (selected query bins) n) with s in Y.
    - apply selected_in in I. destruct I as (m & I & H & M & _). rewrite X, E in I. injection I as <-. split; [lia|]. intros _. destruct (Q (moved b)) as (c & Ec & Nr). exists (query (moved b)), c.
      rewrite M in Y. split; [exact Y|]. split; [exact Ec|]. split; [exact Nr|]. unfold shown_colour. rewrite Y. destruct (Z.eqb_spec (Z.of_nat (query (moved b))) (-1)); [lia|]. unfold at_index. destruct (Z.ltb_spec (Z.of_nat (query (moved b))) 0); [lia|].
      rewrite Nat2Z.id. reflexivity.
    - split; [intros _; split; [exact Y|]; unfold shown_colour; rewrite Y; reflexivity|]. intros H. exfalso.
      assert (I : In (SelBin i (query (moved b)) (query (m_centre b))) (selected query bins)) by (apply selected_in; exists b; cbn; auto). specialize (A _ I eq_refl). cbn in A. pose proof (query_range (moved b)). lia.
  Qed.

  (** Every pixel has one of the k colours. If one of the colours is free, the colour of a pixel is none of those of the pixels with smaller number which are seen in its area. *)
  Theorem colours_ok p : p < n ->
    (0 <= nth p (colours s) 0 < Z.of_nat k)%Z /\
    ((exists f, f < k /\ forall q, q < p -> seen_in query bins q p -> nth q (colours s) 0%Z <> Z.of_nat f) -> forall q, q < p -> seen_in query bins q p -> nth q (colours s) 0%Z <> nth p (colours s) 0%Z).
  Proof using K Q.
    intros P. split; [apply (colour_range k n (selected query bins) K p P)|]. intros (f & F & H) q L (i & (b & E & Hb & M) & (b' & E' & C)). rewrite E in E'. injection E' as <-.
    assert (I : In (SelBin i q p) (selected query bins)) by (apply selected_in; exists b; cbn; auto).
    apply (colour_free k n (selected query bins) K sel_range sel_unique p f P F) with (b := SelBin i q p); [|exact I|reflexivity|exact L].
    intros [i' q' p'] I' Cp Lq. cbn in *. subst p'. apply H; [exact Lq|]. apply selected_in in I'. destruct I' as (m & E1 & H1 & M1 & C1). cbn in *. exists i'. split; exists m; auto.
  Qed.
End Figures.

(** The bins with tracks with hit show the colour of the pixel which is nearest to the centre of the bin plus the mean residuals, the other bins are masked. *)
Theorem C138_effective k centres query bins i b : 0 < k -> finds_nearest centres query -> nth_error bins i = Some b ->
  let s := effective_pixels k (length centres) (selected query bins) in
  (m_hits b = 0 -> shown_colour s i = None) /\
  (0 < m_hits b -> exists p c, effective s i = Z.of_nat p /\ nth_error centres p = Some c /\ (forall j d, nth_error centres j = Some d -> (dist2 (moved b) c <= dist2 (moved b) d)%R) /\
    shown_colour s i = Some (nth p (colours s) 0%Z)).
Proof. intros K Q E. destruct (effective_ok k centres query bins K Q i b E) as [A B]. split; [intros H; apply (A H)|exact B]. Qed.

(** Every pixel has one of the k colours, and it is none of those of the pixels with smaller number which are seen in its area, if these do not have all colours. *)
Theorem C138_colours k centres query bins p : 0 < k -> finds_nearest centres query -> p < length centres ->
  let s := effective_pixels k (length centres) (selected query bins) in
  (0 <= nth p (colours s) 0 < Z.of_nat k)%Z /\
  ((exists f, f < k /\ forall q, q < p -> seen_in query bins q p -> nth q (colours s) 0%Z <> Z.of_nat f) -> forall q, q < p -> seen_in query bins q p -> nth q (colours s) 0%Z <> nth p (colours s) 0%Z).
Proof. intros K Q P. exact (colours_ok k centres query bins K Q p P). Qed.

(** A pixel has a marker if and only if a bin with tracks with hit has its centre in the pixel and is not the first one of all bins with tracks with hit (fewer than 2^16 such bins). *)
Theorem C138_markers k (centres : list (R * R)) query bins p : length bins < 2 ^ 16 -> p < length centres ->
  ((exists c, In (p, c) (markers k (length centres) (selected query bins))) <->
   exists i j b d, i < j /\ nth_error bins j = Some b /\ 0 < m_hits b /\ query (m_centre b) = p /\ nth_error bins i = Some d /\ 0 < m_hits d).
Proof.
  intros L P. set (sel := selected query bins). assert (S1 : length sel <= length bins).
  { unfold sel, selected. rewrite map_length. etransitivity.
    - apply filter_len.
    - rewrite combine_length, seq_length. lia. }
  assert (M : marker_count sel p <> 0 <-> exists a b rest, sel = a :: rest /\ In b rest /\ b_centre b = p).
  { unfold marker_count. set (g := filter _ _). assert (G : length g <= length sel).
    { unfold g. etransitivity; [apply filter_len|]. rewrite combine_length, seq_length. lia. }
    rewrite Nat.mod_small by lia. transitivity (exists e, In e g).
    - destruct g as [|e g]; cbn [length]; split; [lia|intros (e & [])|intros _; exists e; now left|lia].
    - split.
      + intros ([i b] & I). apply filter_In in I. destruct I as [I H]. apply combine_seq in I. destruct I as [_ I]. rewrite Nat.sub_0_r in I. cbn [fst snd] in H. apply andb_true_iff in H. destruct H as [C N]. apply Nat.eqb_eq in C.
        destruct sel as [|a rest]; [destruct i; discriminate|]. exists a, b, rest. split; [reflexivity|]. split; [|exact C]. destruct i as [|i]; [discriminate|]. apply (nth_error_In rest i I).
      + intros (a & b & rest & E & I & C). apply In_nth_error in I. destruct I as [i I]. exists (S i, b). apply filter_In. split; [apply combine_seq; rewrite Nat.sub_0_r, E; split; [lia|exact I]|]. cbn [fst snd]. rewrite C, Nat.eqb_refl. reflexivity. }
  transitivity (marker_count sel p <> 0).
  - unfold markers. split.
    + intros (c & I). apply in_map_iff in I. destruct I as (p' & E & I). injection E as -> _. apply filter_In in I. destruct I as [_ I]. apply negb_true_iff, Nat.eqb_neq in I. exact I.
    + intros H. eexists. apply in_map_iff. exists p. split; [reflexivity|]. apply filter_In. split; [apply in_seq; lia|]. apply negb_true_iff, Nat.eqb_neq. exact H.
  - rewrite M. unfold sel, selected. assert (G : forall l a0, map fst l = seq a0 (length l) -> 
      ((exists a b rest, map (fun p => SelBin (fst p) (query (moved (snd p))) (query (m_centre (snd p)))) (filter (fun p : nat * map_bin => 0 <? m_hits (snd p)) l) = a :: rest /\ In b rest /\ b_centre b = p) <->
      exists i j b d, i < j /\ nth_error (map snd l) j = Some b /\ 0 < m_hits b /\ query (m_centre b) = p /\ nth_error (map snd l) i = Some d /\ 0 < m_hits d)).
    { clear. induction l as [|[m x] l IH]; intros a0 E; cbn [map filter fst snd].
      - split; [intros (a & b & rest & X & _); discriminate|intros (i & j & b & d & _ & X & _); destruct j; discriminate].
      - cbn [map fst length seq] in E. injection E as _ E. destruct (Nat.ltb_spec 0 (m_hits x)) as [H|H].
        + cbn [map fst snd]. split.
          * intros (a & b & rest & X & I & C). injection X as _ <-. apply in_map_iff in I. destruct I as ([m' y] & <- & I). apply filter_In in I. destruct I as [I Hy]. cbn [fst snd b_centre] in *. apply Nat.ltb_lt in Hy.
            apply (in_map snd) in I. cbn [snd] in I. apply In_nth_error in I. destruct I as [j I]. exists 0, (S j), y, x. cbn [nth_error]. repeat split; auto; lia.
          * intros (i & j & b & d & L & Jb & Hb & C & _ & _). destruct j as [|j]; [lia|]. cbn [nth_error] in Jb. apply nth_error_In, in_map_iff in Jb. destruct Jb as ([m' y] & <- & I). cbn [snd] in *. eexists _, (SelBin m' (query (moved y)) (query (m_centre y))), _. split; [reflexivity|]. split; [|exact C].
            apply (in_map (fun p : nat * map_bin => SelBin (fst p) (query (moved (snd p))) (query (m_centre (snd p)))) _ (m', y)). apply filter_In. split; [exact I|]. apply Nat.ltb_lt. exact Hb.
        + rewrite (IH _ E). split.
          * intros (i & j & b & d & L & X). exists (S i), (S j), b, d. split; [lia|exact X].
          * intros ([|i] & j & b & d & L & X & Hb & C & Y & Hd); [cbn in Y; injection Y as <-; lia|]. destruct j as [|j]; [lia|]. exists i, j, b, d. split; [lia|auto]. }
    rewrite (G (combine (seq 0 (length bins)) bins) 0).
    + assert (Sn : forall (l : list map_bin) a0, map snd (combine (seq a0 (length l)) l) = l) by (induction l as [|x l IH]; intros a0; cbn; [reflexivity|now rewrite IH]). rewrite Sn. reflexivity.
    + assert (Fs : forall (l : list map_bin) a0, map fst (combine (seq a0 (length l)) l) = seq a0 (length l)) by (induction l as [|x l IH]; intros a0; cbn; [reflexivity|now rewrite IH]). rewrite Fs, combine_length, seq_length, Nat.min_id. reflexivity.
Qed.

(** Desired: every pixel which is seen in the area of its own bins has a marker. False: the pixel of the first bin with tracks with hit has none if it has no other such bin. *)
Theorem C138_marker_refuted : forall k c r x d, nth_error (d : list (R * R)) 0 = Some c -> k > 0 -> 
  exists query bins, (forall y, query y = 0) /\ bins = [MapBin x r 1] /\ shown_colour (effective_pixels k (length d) (selected query bins)) 0 = Some 0%Z /\ markers k (length d) (selected query bins) = [].
Proof.
  intros k c r x d D K. exists (fun _ => 0), [MapBin x r 1]. split; [reflexivity|]. split; [reflexivity|]. assert (L : 0 < length d) by (apply nth_error_Some; congruence). split.
  - assert (U : forall a b, In a (selected (fun _ => 0) [MapBin x r 1]) -> In b (selected (fun _ => 0) [MapBin x r 1]) -> b_index a = b_index b -> a = b) by (intros a b; apply sel_unique).
    assert (Rg : forall b, In b (selected (fun _ => 0) [MapBin x r 1]) -> b_moved b < length d) by (intros b I; apply selected_in in I; destruct I as (m & _ & _ & -> & _); exact L).
    pose proof (colour_eq k (length d) (selected (fun _ => 0) [MapBin x r 1]) 0 L) as C. unfold colour in C.
    assert (Z0 : next_colour k (k - 1) (other_colours (selected (fun _ => 0) [MapBin x r 1]) (before k (length d) (selected (fun _ => 0) [MapBin x r 1]) 0) 0) (color_index (before k (length d) (selected (fun _ => 0) [MapBin x r 1]) 0)) = 0).
    { destruct (k - 1) as [|m]; [reflexivity|]. change (color_index (before k (length d) (selected (fun _ => 0) [MapBin x r 1]) 0)) with 0. cbn [next_colour]. destruct (existsb _ _) eqn:E; [|reflexivity]. exfalso. apply existsb_exists in E.
      destruct E as (z & I & E). apply Z.eqb_eq in E. apply (other_colour k (length d) _ K Rg U 0 z L) in I. destruct I as (b & _ & _ & [[A _]|[_ A]]); lia. }
    rewrite Z0, Nat.mod_0_l in C by lia. destruct (effective_spec k (length d) (selected (fun _ => 0) [MapBin x r 1]) (length d) 0) as [(b & I & X & B & Y)|[A _]].
    + apply selected_in in I. destruct I as (m & _ & _ & M & _). rewrite M in Y. unfold shown_colour. change (effective_pixels k (length d) (selected (fun _ => 0) [MapBin x r 1])) with (before k (length d) (selected (fun _ => 0) [MapBin x r 1]) (length d)).
      rewrite Y. cbn [Z.of_nat Z.eqb]. f_equal. exact C.
    + specialize (A (SelBin 0 0 0) (or_introl eq_refl) eq_refl). cbn in A. lia.
  - unfold markers. assert (E : filter (fun p => negb (marker_count (selected (fun _ => 0) [MapBin x r 1]) p =? 0)) (seq 0 (length d)) = []); [|now rewrite E].
    assert (M : forall p, marker_count (selected (fun _ => 0) [MapBin x r 1]) p = 0) by (intros p; unfold marker_count; cbn [selected length seq combine filter m_hits snd Nat.ltb Nat.leb map fst b_centre Nat.eqb negb]; rewrite andb_false_r; reflexivity).
    induction (seq 0 (length d)) as [|p l IH]; [reflexivity|]. cbn [filter]. rewrite M. exact IH.
Qed.

(** Desired: the pixels which are seen in the area of one pixel have different colours (comment of L1433). False for every number of colours k >= 2: the pixels 0 and k are seen in the area of pixel 1
    and have the same colour. *)
Fixpoint argmin (x : R * R) (c : R * R) (l : list (R * R)) : nat :=
  match l with [] => 0 | d :: r => let j := argmin x d r in if Rle_dec (dist2 x c) (dist2 x (nth j (d :: r) d)) then 0 else S j end.
Lemma argmin_ok x c l : exists a, nth_error (c :: l) (argmin x c l) = Some a /\ forall i d, nth_error (c :: l) i = Some d -> (dist2 x a <= dist2 x d)%R.
Proof.
  revert c. induction l as [|d l IH]; intros c; [exists c; split; [reflexivity|]; intros [|[|i]] e E; cbn in E; try discriminate; injection E as <-; lra|].
  destruct (IH d) as (a & A & M). cbn [argmin]. rewrite (nth_error_nth _ _ d A). destruct (Rle_dec (dist2 x c) (dist2 x a)) as [H|H].
  - exists c. split; [reflexivity|]. intros [|i] e E; [injection E as <-; lra|]. specialize (M i e E). lra.
  - exists a. split; [exact A|]. intros [|i] e E; [injection E as <-; lra|]. apply (M i e E).
Qed.
Definition row (n : nat) : list (R * R) := map (fun i => (INR i, 0%R)) (seq 0 (S n)).
Definition row_query (n : nat) (x : R * R) : nat := argmin x (0%R, 0%R) (tl (row n)).
Lemma row_nearest n : finds_nearest (row n) (row_query n).
Proof. intros x. exact (argmin_ok x (0%R, 0%R) (tl (row n))). Qed.
Lemma row_nth n i : i <= n -> nth_error (row n) i = Some (INR i, 0%R).
Proof.
  intros L. unfold row. apply (map_nth_error (fun i => (INR i, 0%R))). rewrite (nth_error_nth' _ 0) by (rewrite seq_length; lia). rewrite seq_nth by lia. reflexivity.
Qed.
Lemma row_at n i x : i <= n -> (INR i <= x < INR i + / 2)%R -> row_query n (x, 0%R) = i.
Proof.
  intros L X. destruct (row_nearest n (x, 0%R)) as (c & E & M). set (j := row_query n (x, 0%R)) in *. assert (J : j <= n).
  { assert (H : j < length (row n)) by (apply nth_error_Some; congruence). unfold row in H. rewrite map_length, seq_length in H. lia. }
  rewrite (row_nth n j J) in E. injection E as <-. specialize (M i _ (row_nth n i L)). unfold dist2 in M. cbn [fst snd] in M.
  destruct (Nat.lt_trichotomy i j) as [H|[H|H]]; [|congruence|]; exfalso.
  - apply le_INR in H. rewrite S_INR in H. assert (INR j - x > / 2)%R by lra. assert ((INR j - x) * (INR j - x) > (x - INR i) * (x - INR i))%R by nra. lra.
  - apply le_INR in H. rewrite S_INR in H. assert (x - INR j >= 1)%R by lra. assert ((x - INR j) * (x - INR j) > (x - INR i) * (x - INR i))%R by nra. lra.
Qed.
Definition crowded_bins (k : nat) : list map_bin := [MapBin (1, 0)%R (-1, 0)%R 1; MapBin (5 / 4, 0)%R (INR k - 5 / 4, 0)%R 1].
Theorem C138_same_colour_refuted k : 2 <= k -> let s := effective_pixels k (length (row k)) (selected (row_query k) (crowded_bins k)) in
  finds_nearest (row k) (row_query k) /\ seen_in (row_query k) (crowded_bins k) 0 1 /\ seen_in (row_query k) (crowded_bins k) k 1 /\ effective s 0 = 0%Z /\ effective s 1 = Z.of_nat k /\ shown_colour s 0 = shown_colour s 1.
Proof.
  intros K s. assert (Ln : length (row k) = S k) by (unfold row; now rewrite map_length, seq_length).
  assert (IK : (2 <= INR k)%R) by (apply le_INR in K; cbn in K; lra).
  assert (M0 : row_query k (moved (MapBin (1, 0)%R (-1, 0)%R 1)) = 0) by (unfold moved; cbn [m_centre m_residual fst snd]; replace (0 + 0)%R with 0%R by ring; apply row_at; [lia|cbn; lra]).
  assert (M1 : row_query k (moved (MapBin (5 / 4, 0)%R (INR k - 5 / 4, 0)%R 1)) = k) by (unfold moved; cbn [m_centre m_residual fst snd]; replace (0 + 0)%R with 0%R by ring; apply row_at; [lia|lra]).
  assert (C0 : row_query k (1, 0)%R = 1) by (apply row_at; [lia|cbn; lra]). assert (C1 : row_query k (5 / 4, 0)%R = 1) by (apply row_at; [lia|cbn; lra]).
  assert (SE : selected (row_query k) (crowded_bins k) = [SelBin 0 0 1; SelBin 1 k 1]).
  { unfold selected, crowded_bins. cbn [length seq combine filter m_hits snd Nat.ltb Nat.leb map fst]. rewrite M0, M1. cbn [m_centre]. now rewrite C0, C1. }
  split; [apply row_nearest|]. split; [exists 0; split; eexists; (split; [reflexivity|]); cbn [m_hits m_centre]; auto|]. split; [exists 1; split; eexists; (split; [reflexivity|]); cbn [m_hits m_centre]; auto|].
  assert (F : forall i b, nth_error (crowded_bins k) i = Some b -> 0 < m_hits b -> effective s i = Z.of_nat (row_query k (moved b))).
  { intros i b E H. destruct (effective_spec k (length (row k)) (selected (row_query k) (crowded_bins k)) (length (row k)) i) as [(b' & I & X & _ & Y)|[A _]].
    - apply selected_in in I. destruct I as (m & I & _ & M & _). rewrite X, E in I. injection I as <-. rewrite M in Y. exact Y.
    - exfalso. specialize (A (SelBin i (row_query k (moved b)) (row_query k (m_centre b)))). cbn [b_index b_moved] in A. pose proof (query_range (row k) (row_query k) (row_nearest k) (moved b)).
      enough (length (row k) <= row_query k (moved b)) by lia. apply A; [apply selected_in; exists b; cbn; auto|reflexivity]. }
  assert (F0 : effective s 0 = 0%Z) by (rewrite (F 0 _ eq_refl) by (cbn; lia); rewrite M0; reflexivity).
  assert (F1 : effective s 1 = Z.of_nat k) by (rewrite (F 1 _ eq_refl) by (cbn; lia); rewrite M1; reflexivity).
  split; [exact F0|]. split; [exact F1|]. unfold shown_colour. rewrite F0, F1. cbn [Z.eqb]. destruct (Z.eqb_spec (Z.of_nat k) (-1)) as [W|W]; [lia|clear W]. f_equal. unfold at_index. destruct (Z.ltb_spec (Z.of_nat k) 0) as [W|W]; [lia|clear W]. rewrite Nat2Z.id. cbn [Z.ltb Z.compare Z.to_nat].
  set (sel := selected (row_query k) (crowded_bins k)) in *. set (n := length (row k)) in *.
  assert (Rg : forall b, In b sel -> b_moved b < n) by (intros b I; unfold sel, n in *; apply (sel_range (row k) (row_query k) (crowded_bins k) (row_nearest k) b I)).
  assert (U : forall a b, In a sel -> In b sel -> b_index a = b_index b -> a = b) by (intros a b; apply sel_unique).
  assert (T : forall p, p <= n -> color_index (before k n sel p) = p).
  { assert (Z0 : colour k n sel 0 = 0%Z).
    { rewrite colour_eq by lia. change (color_index (before k n sel 0)) with 0. destruct (k - 1) as [|m] eqn:Ek; [lia|]. cbn [next_colour]. destruct (existsb _ _) eqn:E; [|rewrite Nat.mod_0_l by lia; reflexivity].
      exfalso. apply existsb_exists in E. destruct E as (z & I & _). apply (other_colour k n sel ltac:(lia) Rg U 0 z ltac:(lia)) in I. rewrite SE in I. destruct I as (b & [<-|[<-|[]]] & C & _); discriminate C. }
    induction p as [|p IH]; intros P; [reflexivity|]. rewrite before_S. unfold step. cbn [color_index]. rewrite IH by lia. f_equal. destruct (k - 1) as [|m] eqn:Ek; [lia|]. cbn [next_colour]. destruct (existsb _ _) eqn:E; [|reflexivity].
    exfalso. apply existsb_exists in E. destruct E as (z & I & E). apply Z.eqb_eq in E. subst z. apply (other_colour k n sel ltac:(lia) Rg U p _ ltac:(lia)) in I. destruct I as (b & B & C & H). rewrite SE in B. destruct B as [<-|[<-|[]]]; cbn [b_centre b_moved] in *; subst p.
    - destruct H as [[_ H]|[H _]]; [|lia]. rewrite Z0, Nat.mod_small in H by lia. lia.
    - destruct H as [[H _]|[_ H]]; lia. }
  change (nth 0 (colours s) 0%Z) with (colour k n sel 0). change (nth k (colours s) 0%Z) with (colour k n sel k).
  assert (G : forall p, p < n -> colour k n sel p = Z.of_nat (p mod k)).
  { intros p P. unfold colour. rewrite colours_stay by lia. pose proof (T (S p) ltac:(lia)) as X. rewrite before_S in X |- *. unfold step in X |- *. cbn [color_index colours] in *. rewrite set_nth_nth by (rewrite colours_length; exact P).
    rewrite Nat.eqb_refl. f_equal. f_equal. lia. }
  rewrite (G 0), (G k) by lia. rewrite Nat.mod_0_l, Nat.mod_same by lia. reflexivity.
Qed.

(** Desired: with the hits of the pixels there is a figure of the effective pixels by the numbers of hits. False: with them the figures end with an exception, for every DUT with at most 10^5 pixels. *)
Theorem C138_pixel_hits_refuted k n query bins pixels : (Z.of_nat n <= 10 ^ 5)%Z ->
  snd (effective_figures k n query bins (Some pixels)) = true /\ fst (effective_figures k n query bins (Some pixels)) = fst (effective_figures k n query bins None) /\ snd (effective_figures k n query bins None) = false.
Proof. intros H. unfold effective_figures. destruct (Z.ltb_spec (10 ^ 5) (Z.of_nat n)); [lia|]. cbn. auto. Qed.

(** The page with the effective pixels shows the colour of every bin and the markers; sensors with more than 100000 pixels have neither this page nor the arrows. *)
Theorem C138_figures k n query bins pixels : 
  ((Z.of_nat n <= 10 ^ 5)%Z -> exists colours_shown, fst (effective_figures k n query bins pixels) = [Arrows; Effective colours_shown (markers k n (selected query bins))] /\ length colours_shown = length bins /\
     forall i, i < length bins -> nth i colours_shown None = shown_colour (effective_pixels k n (selected query bins)) i) /\
  ((10 ^ 5 < Z.of_nat n)%Z -> effective_figures k n query bins pixels = ([], false)).
Proof.
  unfold effective_figures. split; intros H.
  - destruct (Z.ltb_spec (10 ^ 5) (Z.of_nat n)); [lia|]. exists (map (shown_colour (effective_pixels k n (selected query bins))) (seq 0 (length bins))). split; [destruct pixels; reflexivity|]. split; [rewrite map_length, seq_length; reflexivity|].
    intros i I. rewrite nth_indep with (d' := shown_colour (effective_pixels k n (selected query bins)) 0) by (rewrite map_length, seq_length; exact I). rewrite map_nth, seq_nth by exact I. reflexivity.
  - destruct (Z.ltb_spec (10 ^ 5) (Z.of_nat n)); [reflexivity|lia].
Qed.

(** a case: three pixels in a row, two colours; the bin at 5/4 belongs to pixel 2 *)
Example C138_case : finds_nearest (row 2) (row_query 2) /\ seen_in (row_query 2) (crowded_bins 2) 2 1 /\ (exists c, In (1, c) (markers 2 (length (row 2)) (selected (row_query 2) (crowded_bins 2)))) /\
  (exists f, f < 2 /\ forall q, q < 1 -> nth q (colours (effective_pixels 2 (length (row 2)) (selected (row_query 2) (crowded_bins 2)))) 0%Z <> Z.of_nat f).
Proof.
  destruct (C138_same_colour_refuted 2 (le_n 2)) as (Q & S0 & S2 & F0 & F1 & E). split; [exact Q|]. split; [exact S2|]. split.
  - apply C138_markers; [apply Nat.lt_le_trans with (2 ^ 2); [cbn; lia|apply Nat.pow_le_mono_r; lia]|cbn; lia|]. exists 0, 1, (MapBin (5 / 4, 0)%R (INR 2 - 5 / 4, 0)%R 1), (MapBin (1, 0)%R (-1, 0)%R 1). split; [lia|]. split; [reflexivity|]. split; [cbn; lia|]. split; [apply row_at; [lia|cbn; lra]|]. split; [reflexivity|cbn; lia].
  - destruct (Z.eq_dec (nth 0 (colours (effective_pixels 2 (length (row 2)) (selected (row_query 2) (crowded_bins 2)))) 0%Z) 0) as [H|H].
    + exists 1. split; [lia|]. intros [|q] L; [rewrite H; cbn; lia|lia].
    + exists 0. split; [lia|]. intros [|q] L; [exact H|lia].
Qed.

Print Assumptions effective_ok.
Print Assumptions colours_ok.
Print Assumptions C138_effective.
Print Assumptions C138_colours.
Print Assumptions C138_markers.
Print Assumptions C138_marker_refuted.
Print Assumptions C138_same_colour_refuted.
Print Assumptions C138_pixel_hits_refuted.
Print Assumptions C138_figures.
