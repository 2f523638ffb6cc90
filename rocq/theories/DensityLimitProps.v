(** C154: pages with the densities of hits and tracks of the efficiency plots. *)
From Coq Require Import List Bool Arith Lia Permutation Sorted.
From Verif Require Import DensityLimitModel.
Import ListNotations.

(** ** Specification *)
(** how many bins satisfy a condition *)
Fixpoint bins_with (p : nat -> bool) (counts : list nat) : nat := match counts with [] => 0 | c :: r => (if p c then 1 else 0) + bins_with p r end.
(** the bins with entries *)
Definition filled (counts : list nat) : nat := bins_with (fun c => 0 <? c) counts.
(** what a page shows: empty bins are white, the others have their number *)
Definition shows (counts : list nat) (bins : list (option nat)) : Prop := Forall2 (fun c b => b = if c =? 0 then None else Some c) counts bins.
(** a limit of the colours: at least 1; of the n filled bins about 5 % of n - 1 are above, and at least 5 % of n - 1 (and one) reach it *)
Definition limit_of (counts : list nat) (z : nat) : Prop :=
  1 <= z /\ 100 * bins_with (fun c => z <? c) counts <= 5 * (filled counts - 1) + 99 /\ 5 * (filled counts - 1) <= 100 * bins_with (fun c => z <=? c) counts /\ 1 <= bins_with (fun c => z <=? c) counts.

(** ** Proofs *)
Lemma insert_perm x l : Permutation (insert x l) (x :: l).
Proof. induction l as [|y l IH]; cbn [insert]; [reflexivity|]. destruct (x <=? y); [reflexivity|]. rewrite IH. apply perm_swap. Qed.
Lemma sort_perm l : Permutation (sort l) l.
Proof. induction l as [|x l IH]; cbn [sort fold_right]; [reflexivity|]. fold (sort l). rewrite insert_perm. constructor. exact IH. Qed.
Lemma insert_sorted x l : StronglySorted le l -> StronglySorted le (insert x l).
Proof.
  induction l as [|y l IH]; intros H; cbn [insert]; [repeat constructor|]. inversion H as [|? ? S F]; subst. destruct (Nat.leb_spec x y) as [L|L].
  - constructor; [exact H|]. constructor; [exact L|]. rewrite Forall_forall in *. intros z I. specialize (F z I). lia.
  - constructor; [apply IH; exact S|]. rewrite Forall_forall in *. intros z I. apply (Permutation_in _ (insert_perm x l)) in I. destruct I as [<-|I]; [lia|apply F; exact I].
Qed.
Lemma sort_sorted l : StronglySorted le (sort l).
Proof. induction l as [|x l IH]; cbn [sort fold_right]; [constructor|]. apply insert_sorted. exact IH. Qed.
Lemma sorted_nth s : StronglySorted le s -> forall i j, i <= j -> j < length s -> nth i s 0 <= nth j s 0.
Proof.
  induction s as [|x s IH]; intros H i j L J; [cbn in J; lia|]. inversion H as [|? ? S F]; subst. destruct j as [|j]; [replace i with 0 by lia; lia|]. cbn [length] in J. destruct i as [|i]; cbn [nth]; [|apply IH; auto; lia].
  rewrite Forall_forall in F. apply F. apply nth_In. lia.
Qed.
Lemma bins_perm p l m : Permutation l m -> bins_with p l = bins_with p m.
Proof. induction 1; cbn [bins_with]; lia. Qed.
Lemma bins_app p l m : bins_with p (l ++ m) = bins_with p l + bins_with p m.
Proof. induction l as [|x l IH]; cbn [bins_with app]; lia. Qed.
Lemma bins_le p l : bins_with p l <= length l.
Proof. induction l as [|x l IH]; cbn [bins_with length]; [lia|]. destruct (p x); lia. Qed.
Lemma bins_none p l : (forall x, In x l -> p x = false) -> bins_with p l = 0.
Proof. induction l as [|x l IH]; intros H; cbn [bins_with]; [reflexivity|]. rewrite (H x) by (left; reflexivity). rewrite IH; [reflexivity|]. intros y I. apply H. right. exact I. Qed.
Lemma bins_all p l : (forall x, In x l -> p x = true) -> bins_with p l = length l.
Proof. induction l as [|x l IH]; intros H; cbn [bins_with length]; [reflexivity|]. rewrite (H x) by (left; reflexivity). rewrite IH; [reflexivity|]. intros y I. apply H. right. exact I. Qed.
Lemma compressed_masked counts p : p 0 = false -> bins_with p (compressed (masked counts)) = bins_with p counts.
Proof.
  intros P. induction counts as [|c r IH]; [reflexivity|]. cbn [masked map]. fold (masked r). unfold compressed. cbn [flat_map]. fold (compressed (masked r)). destruct (Nat.eqb_spec c 0) as [->|N]; cbn [app bins_with]; rewrite IH; [rewrite P; reflexivity|reflexivity].
Qed.
Lemma compressed_filled counts : length (compressed (masked counts)) = filled counts /\ forall c, In c (compressed (masked counts)) -> 1 <= c.
Proof.
  unfold filled. induction counts as [|c r (IH1 & IH2)]; [split; [reflexivity|intros c []]|]. cbn [masked map]. fold (masked r). unfold compressed. cbn [flat_map]. fold (compressed (masked r)). cbn [bins_with]. destruct (Nat.eqb_spec c 0) as [->|N]; cbn [app length].
  - cbn. split; assumption.
  - rewrite (proj2 (Nat.ltb_lt 0 c)) by lia. rewrite IH1. split; [reflexivity|]. intros d [<-|I]; [lia|apply IH2; exact I].
Qed.
Lemma in_firstn_nth (s : list nat) k x : In x (firstn k s) -> exists j, j < k /\ j < length s /\ nth j s 0 = x.
Proof.
  revert s. induction k as [|k IH]; intros s I; [destruct I|]. destruct s as [|y s]; [destruct I|]. cbn [firstn] in I. destruct I as [<-|I]; [exists 0; cbn; repeat split; lia|]. destruct (IH s I) as (j & A & B & C). exists (S j). cbn [length nth]. repeat split; [lia|lia|exact C].
Qed.
Lemma in_skipn_nth (s : list nat) k x : In x (skipn k s) -> exists j, k <= j /\ j < length s /\ nth j s 0 = x.
Proof.
  revert s. induction k as [|k IH]; intros s I; [apply In_nth with (d := 0) in I; destruct I as (j & A & B); exists j; repeat split; [lia|exact A|exact B]|]. destruct s as [|y s]; [destruct I|]. cbn [skipn] in I. destruct (IH s I) as (j & A & B & C). exists (S j). cbn [length nth]. repeat split; [lia|lia|exact C].
Qed.
Lemma limit_exists counts : 0 < filled counts -> exists z, colour_limit (masked counts) = Some z /\ limit_of counts z.
Proof.
  intros N. destruct (compressed_filled counts) as (L & Pos). unfold colour_limit. set (s := sort (compressed (masked counts))). assert (Ls : length s = filled counts) by (unfold s; rewrite (Permutation_length (sort_perm _)); exact L).
  assert (S := sort_sorted (compressed (masked counts))). fold s in S. assert (M := sorted_nth s S). assert (Q : forall p, p 0 = false -> bins_with p s = bins_with p counts) by (intros p P; unfold s; rewrite (bins_perm p _ _ (sort_perm _)); apply compressed_masked; exact P).
  assert (Pn : forall j, j < length s -> 1 <= nth j s 0) by (intros j J; apply Pos; apply (Permutation_in _ (sort_perm _)); fold s; apply nth_In; exact J). clearbody s.
  set (h := 95 * (length s - 1)). set (i := h / 100). set (z := nth i s 0 + (h mod 100 * (nth (Datatypes.S i) s 0 - nth i s 0) + 99) / 100).
  exists z. split; [destruct s; [cbn in Ls; lia|reflexivity]|]. assert (D := Nat.div_mod h 100 ltac:(lia)). fold i in D. assert (R := Nat.mod_upper_bound h 100 ltac:(lia)). set (r := h mod 100) in *.
  assert (I : i < length s) by (unfold h in D; lia). assert (Z1 : nth i s 0 <= z) by (unfold z; lia). assert (P1 := Pn i I). assert (Z : 1 <= z) by lia.
  unfold limit_of. rewrite <- Ls. split; [exact Z|]. rewrite <- (Q (fun c => z <? c)) by reflexivity. rewrite <- (Q (fun c => z <=? c)) by (apply Nat.leb_gt; lia).
  assert (Hi : bins_with (fun c => z <? c) s <= length s - 1 - i).
  { rewrite <- (firstn_skipn (Datatypes.S i) s) at 1. rewrite bins_app. rewrite (bins_none _ (firstn (Datatypes.S i) s)).
    - assert (B := bins_le (fun c => z <? c) (skipn (Datatypes.S i) s)). rewrite skipn_length in B. lia.
    - intros x J. apply in_firstn_nth in J. destruct J as (j & J1 & J2 & <-). apply Nat.ltb_ge. specialize (M j i ltac:(lia) I). lia. }
  assert (Lo : Nat.min (length s - i) (length s - 1 - i) <= bins_with (fun c => z <=? c) s /\ (r = 0 -> length s - i <= bins_with (fun c => z <=? c) s)).
  { assert (G : forall k, (forall x, In x (skipn k s) -> z <= x) -> length s - k <= bins_with (fun c => z <=? c) s).
    { intros k H. rewrite <- (firstn_skipn k s) at 2. rewrite bins_app, (bins_all _ (skipn k s)); [rewrite skipn_length; lia|]. intros x J. apply Nat.leb_le. apply H. exact J. }
    destruct (Nat.eq_dec r 0) as [R0|R0].
    - assert (E : z = nth i s 0) by (unfold z; rewrite R0; cbn [Nat.mul Nat.add]; replace (99 / 100) with 0 by reflexivity; lia).
      assert (H : length s - i <= bins_with (fun c => z <=? c) s). { apply G. intros x J. apply in_skipn_nth in J. destruct J as (j & J1 & J2 & <-). rewrite E. apply M; assumption. }
      split; [lia|intros _; exact H].
    - split; [|intros; contradiction]. assert (I1 : Datatypes.S i < length s) by (unfold h in D; lia). assert (A := M i (Datatypes.S i) ltac:(lia) I1).
      assert (E : z <= nth (Datatypes.S i) s 0). { unfold z. set (d := nth (Datatypes.S i) s 0 - nth i s 0). assert (X : (r * d + 99) / 100 <= d). { apply Nat.lt_succ_r. apply Nat.div_lt_upper_bound; [lia|]. assert (Y : r * d <= 99 * d) by (apply Nat.mul_le_mono_r; lia). clear - Y. lia. } unfold d in *. lia. }
      assert (H : length s - Datatypes.S i <= bins_with (fun c => z <=? c) s). { apply G. intros x J. apply in_skipn_nth in J. destruct J as (j & J1 & J2 & <-). specialize (M (Datatypes.S i) j J1 J2). lia. } lia. }
  destruct Lo as (Lo1 & Lo2). unfold h in D. split; [lia|]. split; [lia|]. destruct (Nat.eq_dec r 0) as [R0|R0]; [specialize (Lo2 R0); lia|]. lia.
Qed.
Lemma limit_empty counts : filled counts = 0 -> colour_limit (masked counts) = None.
Proof.
  intros N. destruct (compressed_filled counts) as (L & _). rewrite N in L. unfold colour_limit. destruct (compressed (masked counts)); [reflexivity|discriminate].
Qed.
Lemma masked_shows counts : shows counts (masked counts).
Proof. unfold shows, masked. induction counts as [|c r IH]; cbn [map]; constructor; [reflexivity|exact IH]. Qed.
(** If each of the three maps has an entry, the three pages of the sensor show their maps, each with a limit of the colours above which are at most about 5 % of the filled bins and which at least 5 % reach. *)
Theorem C154_sensor hits tracks with_hit : 0 < filled hits -> 0 < filled tracks -> 0 < filled with_hit ->
  exists a b c, sensor_pages hits tracks with_hit = ([a; b; c], false) /\ page_kind a = Hits /\ shows hits (page_bins a) /\ limit_of hits (page_limit a) /\ page_kind b = Tracks /\ shows tracks (page_bins b) /\ limit_of tracks (page_limit b) /\
    page_kind c = TracksWithHit /\ shows with_hit (page_bins c) /\ limit_of with_hit (page_limit c).
Proof.
  intros H T W. destruct (limit_exists hits H) as (x & X & Lx), (limit_exists tracks T) as (y & Y & Ly), (limit_exists with_hit W) as (z & Z & Lz). unfold sensor_pages. cbn [pages_until]. rewrite X, Y, Z.
  eexists _, _, _. split; [reflexivity|]. cbn [page_kind page_bins page_limit]. pose proof (masked_shows hits). pose proof (masked_shows tracks). pose proof (masked_shows with_hit). auto 12.
Qed.
(** "The densities of every DUT are drawn" is false: without a hit there is no page at all, and if no track has a hit the plots end with an exception after the second page. *)
Theorem C154_empty_refuted hits tracks with_hit : 
  (filled hits = 0 -> sensor_pages hits tracks with_hit = ([], true)) /\
  (0 < filled hits -> 0 < filled tracks -> filled with_hit = 0 -> exists a b, sensor_pages hits tracks with_hit = ([a; b], true) /\ page_kind a = Hits /\ page_kind b = Tracks).
Proof.
  unfold sensor_pages. cbn [pages_until]. split.
  - intros H. rewrite (limit_empty hits H). reflexivity.
  - intros H T W. destruct (limit_exists hits H) as (x & X & _), (limit_exists tracks T) as (y & Y & _). rewrite X, Y, (limit_empty with_hit W). eexists _, _. split; [reflexivity|]. split; reflexivity.
Qed.
(** The in-pixel pages of a region are always drawn; the limit of an empty map is 1. *)
Theorem C154_region hits tracks with_hit : 
  Forall2 (fun km p => page_kind p = fst km /\ shows (snd km) (page_bins p) /\ (0 < filled (snd km) -> limit_of (snd km) (page_limit p)) /\ (filled (snd km) = 0 -> page_limit p = 1)) [(Hits, hits); (Tracks, tracks); (TracksWithHit, with_hit)] (region_pages hits tracks with_hit).
Proof.
  assert (G : forall k m, let p := DensityPage k (masked m) match colour_limit (masked m) with None => 1 | Some z => z end in page_kind p = k /\ shows m (page_bins p) /\ (0 < filled m -> limit_of m (page_limit p)) /\ (filled m = 0 -> page_limit p = 1)).
  { intros k m. cbn [page_kind page_bins page_limit]. split; [reflexivity|]. split; [apply masked_shows|]. split; [intros N; destruct (limit_exists m N) as (z & -> & Lz); exact Lz|intros N; rewrite (limit_empty m N); reflexivity]. }
  unfold region_pages. cbn [map fst snd]. constructor; [apply (G Hits hits)|]. constructor; [apply (G Tracks tracks)|]. constructor; [apply (G TracksWithHit with_hit)|]. constructor.
Qed.
(** If all filled bins have the same number of entries, it is the limit: no bin is above it. *)
Theorem C154_equal counts c : 0 < c -> 0 < filled counts -> (forall x, In x counts -> x = 0 \/ x = c) -> forall y, colour_limit (masked counts) = Some y -> y = c.
Proof.
  intros C N E y Y. destruct (limit_exists counts N) as (w & W & _ & _ & _ & O). rewrite W in Y. injection Y as ->. destruct (compressed_filled counts) as (L & Pos).
  assert (In_c : forall x, In x (compressed (masked counts)) -> x = c).
  { intros x I. unfold compressed in I. apply in_flat_map in I. destruct I as (o & J & K). unfold masked in J. apply in_map_iff in J. destruct J as (a & Ha & Ia). destruct (Nat.eqb_spec a 0); subst o; [destruct K|]. destruct K as [<-|[]]. destruct (E a Ia); [contradiction|assumption]. }
  unfold colour_limit in W. set (s := sort (compressed (masked counts))) in *. assert (Ls : length s = filled counts) by (unfold s; rewrite (Permutation_length (sort_perm _)); exact L).
  assert (Sc : forall j, j < length s -> nth j s 0 = c) by (intros j J; apply In_c; apply (Permutation_in _ (sort_perm _)); fold s; apply nth_In; exact J). clearbody s. destruct s as [|a s]; [discriminate|]. cbv zeta in W. apply (f_equal (fun o => match o with Some v => v | None => y end)) in W. rewrite <- W.
  set (t := a :: s) in *. assert (T : 0 < length t) by (unfold t; cbn; lia). clearbody t. set (h := 95 * (length t - 1)). assert (D := Nat.div_mod h 100 ltac:(lia)). assert (I : h / 100 < length t) by (unfold h in *; lia). rewrite (Sc _ I). set (r := h mod 100) in *.
  assert (B : r * (nth (S (h / 100)) t 0 - c) = 0). { destruct (Nat.lt_ge_cases (S (h / 100)) (length t)) as [K|K]; [rewrite (Sc _ K), Nat.sub_diag; lia|rewrite nth_overflow by exact K; cbn; lia]. }
  rewrite B. cbn. lia.
Qed.

(** Non-vacuity: a map with 21 filled bins, of which one is hot. *)
Example C154_case : let counts := 0 :: 500 :: repeat 3 19 ++ [0; 7] in filled counts = 21 /\ sensor_pages counts counts [0; 2] = ([DensityPage Hits (masked counts) 7; DensityPage Tracks (masked counts) 7; DensityPage TracksWithHit [None; Some 2] 2], false) /\ region_pages counts counts [0; 0] = [DensityPage Hits (masked counts) 7; DensityPage Tracks (masked counts) 7; DensityPage TracksWithHit [None; None] 1].
Proof. vm_compute. auto. Qed.

Print Assumptions C154_sensor.
Print Assumptions C154_empty_refuted.
Print Assumptions C154_region.
Print Assumptions C154_equal.
