(** C132: the pages of plot_masked_pixels. *)
From Coq Require Import List Arith ZArith Reals Bool Lia Lra.
From Verif Require Import MaskPlotModel CorrelateBinsProps DensityProps.
Import ListNotations.

(** * Specification *)
(** a hit: column and row, from 1; a pixel likewise *)
Definition pixel := (nat * nat)%type.
(** the pixel is set in the array of a mask *)
Definition is_set (m : option array) (p : pixel) : Prop :=
  exists a, m = Some a /\ 1 <= fst p <= columns a /\ 1 <= snd p <= rows a /\ entry a (fst p - 1) (snd p - 1) <> 0.
(** the pixel is noisy or disabled *)
Definition is_masked (f : mask_file) (p : pixel) : Prop := is_set (noisy_mask f) p \/ is_set (disabled_mask f) p.
(** the pixel is on the sensor *)
Definition on_sensor (f : mask_file) (p : pixel) : Prop := 1 <= fst p <= columns (hist_occ f) /\ 1 <= snd p <= rows (hist_occ f).
(** the number of elements with a property *)
Definition how_many {A} (P : A -> Prop) (l : list A) (n : nat) : Prop := exists s, NoDup s /\ length s = n /\ forall i, In i s <-> exists a, nth_error l i = Some a /\ P a.
(** HistOcc is the histogram of these hits *)
Definition occupancy_of (f : mask_file) (hits : list pixel) : Prop :=
  (forall h, In h hits -> on_sensor f h) /\ forall c r, c < columns (hist_occ f) -> r < rows (hist_occ f) -> how_many (fun h => h = (c + 1, r + 1)) hits (entry (hist_occ f) c r).

(** * Numbers *)
Lemma how_many_unique {A} (P : A -> Prop) l n m : how_many P l n -> how_many P l m -> n = m.
Proof.
  intros (s & N & <- & S) (t & M & <- & T). apply Nat.le_antisymm; apply NoDup_incl_length; auto; intros i I; [apply T, S, I|apply S, T, I].
Qed.
Lemma how_many_filter {A} (P : A -> Prop) (q : A -> bool) l : (forall a, q a = true <-> P a) -> how_many P l (length (filter q l)).
Proof.
  intros H. induction l as [|a l (s & N & L & I)].
  - exists []. split; [constructor|]. split; [reflexivity|]. intros i. split; [intros []|intros (a & E & _)]. destruct i; discriminate.
  - cbn [filter]. assert (N' : NoDup (map S s)). { clear -N. induction N as [|x s X N IH]; [constructor|]. cbn. constructor; [|exact IH]. intros C. apply in_map_iff in C. destruct C as (y & E & Y). injection E as ->. contradiction. }
    destruct (q a) eqn:Q.
    + exists (0 :: map S s). split; [constructor; [|exact N']; intros C; apply in_map_iff in C; destruct C as (y & E & _); discriminate|].
      split; [cbn; rewrite map_length; lia|]. intros [|i]; cbn.
      * split; [|left; reflexivity]. intros _. exists a. split; [reflexivity|]. apply H, Q.
      * rewrite <- I. split; [intros [[=]|C]; apply in_map_iff in C; destruct C as (y & [= ->] & Y); exact Y|]. intros Y. right. now apply in_map.
    + exists (map S s). split; [exact N'|]. split; [now rewrite map_length|]. intros [|i]; cbn.
      * split; [intros C; apply in_map_iff in C; destruct C as (y & E & _); discriminate|]. intros (b & [= <-] & B). apply H in B. congruence.
      * rewrite <- I. split; [intros C; apply in_map_iff in C; destruct C as (y & [= ->] & Y); exact Y|]. now apply in_map.
Qed.
Lemma list_sum_add {A} (f g : A -> nat) l : list_sum (map (fun a => f a + g a) l) = list_sum (map f l) + list_sum (map g l).
Proof. unfold list_sum. induction l as [|a l IH]; [reflexivity|]. cbn [map fold_right]. rewrite IH. lia. Qed.
Lemma one_hot k : forall n s, list_sum (map (fun i => if k =? i then 1 else 0) (seq s n)) = if (s <=? k) && (k <? s + n) then 1 else 0.
Proof.
  induction n as [|n IH]; intros s; cbn [seq map list_sum fold_right].
  - destruct (Nat.leb_spec s k), (Nat.ltb_spec k (s + 0)); cbn; lia.
  - change (fold_right Nat.add 0 (map (fun i => if k =? i then 1 else 0) (seq (S s) n))) with (list_sum (map (fun i => if k =? i then 1 else 0) (seq (S s) n))). rewrite IH.
    destruct (Nat.eqb_spec k s), (Nat.leb_spec s k), (Nat.leb_spec (S s) k), (Nat.ltb_spec k (s + S n)), (Nat.ltb_spec k (S s + n)); cbn; lia.
Qed.
(** summing over the values of a key *)
Lemma sum_by_key {A} (key : A -> nat) (q : A -> bool) n : forall l, (forall a, In a l -> key a < n) ->
  list_sum (map (fun i => length (filter (fun a => (key a =? i) && q a) l)) (seq 0 n)) = length (filter q l).
Proof.
  induction l as [|a l IH]; intros H.
  - cbn. clear. induction (seq 0 n); [reflexivity|assumption].
  - assert (E : forall i, length (filter (fun a => (key a =? i) && q a) (a :: l)) = (if q a then if key a =? i then 1 else 0 else 0) + length (filter (fun a => (key a =? i) && q a) l)).
    { intros i. cbn [filter]. destruct (key a =? i), (q a); reflexivity. }
    rewrite (map_ext _ _ E), list_sum_add, IH by (intros b B; apply H; now right). cbn [filter]. destruct (q a).
    + rewrite one_hot. specialize (H a (or_introl eq_refl)). assert ((key a <? 0 + n) = true) as -> by (apply Nat.ltb_lt; lia). reflexivity.
    + assert (Z : list_sum (map (fun _ : nat => 0) (seq 0 n)) = 0) by (clear; induction (seq 0 n); [reflexivity|assumption]). now rewrite Z.
Qed.

(** * Pixels of a mask *)
Lemma nonzero_in m r c : In (r, c) (nonzero_pixels m) <-> is_set (Some m) (c, r).
Proof.
  unfold nonzero_pixels, is_set. cbn [fst snd]. rewrite in_flat_map. split.
  - intros (r' & Hr & H). apply in_flat_map in H. destruct H as (c' & Hc & H). apply in_seq in Hr, Hc. destruct (Nat.eqb_spec (entry m c' r') 0) as [|N]; [destruct H|].
    destruct H as [[= <- <-]|[]]. exists m. rewrite !Nat.add_sub. repeat split; auto; lia.
  - intros (a & [= <-] & C & R & N). exists (r - 1). split; [apply in_seq; lia|]. apply in_flat_map. exists (c - 1). split; [apply in_seq; lia|].
    destruct (Nat.eqb_spec (entry m (c - 1) (r - 1)) 0) as [E|_]; [contradiction|]. left. f_equal; lia.
Qed.
Lemma nodup_app' {A} (a b : list A) : NoDup a -> NoDup b -> (forall x, In x a -> In x b -> False) -> NoDup (a ++ b).
Proof.
  induction a as [|x a IH]; intros A' B D; [exact B|]. inversion A'; subst. cbn. constructor.
  - intros I. apply in_app_or in I. destruct I as [I|I]; [contradiction|]. apply (D x); [now left|exact I].
  - apply IH; auto. intros y Y Z. apply (D y); [now right|exact Z].
Qed.
Lemma nodup_flat_map {A B} (f : A -> list B) l : NoDup l -> (forall a, In a l -> NoDup (f a)) -> (forall a b x, In a l -> In b l -> In x (f a) -> In x (f b) -> a = b) -> NoDup (flat_map f l).
Proof.
  induction l as [|a l IH]; intros N F D; [constructor|]. inversion N; subst. cbn. apply nodup_app'.
  - apply F. now left.
  - apply IH; auto; [intros b I; apply F; now right|]. intros b c x I J. apply D; now right.
  - intros x I J. apply in_flat_map in J. destruct J as (b & Ib & J). assert (a = b) by (apply (D a b x); auto; [now left|now right]). subst. contradiction.
Qed.
Lemma nonzero_nodup m : NoDup (nonzero_pixels m).
Proof.
  unfold nonzero_pixels. apply nodup_flat_map; [apply seq_NoDup| |].
  - intros r _. apply nodup_flat_map; [apply seq_NoDup| |].
    + intros c _. destruct (_ =? 0); repeat constructor. intros [].
    + intros c d x _ _ I J. destruct (_ =? 0); [destruct I|]. destruct (entry m d r =? 0); [destruct J|]. destruct I as [<-|[]], J as [J|[]]. injection J as J. lia.
  - intros r s x _ _ I J. apply in_flat_map in I, J. destruct I as (c & _ & I), J as (d & _ & J). destruct (_ =? 0); [destruct I|]. destruct (entry m d s =? 0); [destruct J|].
    destruct I as [<-|[]], J as [J|[]]. injection J as J. lia.
Qed.
Lemma sum_swap (f : nat -> nat -> nat) : forall l k, list_sum (map (fun a => list_sum (map (f a) k)) l) = list_sum (map (fun b => list_sum (map (fun a => f a b) l)) k).
Proof.
  induction l as [|a l IH]; intros k.
  - cbn. induction k as [|b k IHk]; [reflexivity|exact IHk].
  - cbn [map list_sum fold_right]. change (fold_right Nat.add 0 (map (fun a => list_sum (map (f a) k)) l)) with (list_sum (map (fun a => list_sum (map (f a) k)) l)).
    rewrite IH, <- list_sum_add. reflexivity.
Qed.
Lemma flat_map_len {A B} (f : A -> list B) l : length (flat_map f l) = list_sum (map (fun a => length (f a)) l).
Proof. induction l as [|a l IH]; [reflexivity|]. cbn. now rewrite app_length, IH. Qed.
Lemma count_length m : count_nonzero m = length (nonzero_pixels m).
Proof.
  unfold count_nonzero, nonzero_pixels. rewrite flat_map_len, sum_swap. f_equal. apply map_ext. intros r. rewrite flat_map_len. f_equal. apply map_ext. intros c. destruct (_ =? 0); reflexivity.
Qed.

(** * The pages *)
Definition masked_b (m : option array) (r c : nat) : bool :=
  match m with None => false | Some a => existsb (fun p => (fst p - 1 =? r) && (snd p - 1 =? c)) (nonzero_pixels a) end.
Lemma masked_b_spec m r c : masked_b m r c = true <-> is_set m (c + 1, r + 1).
Proof.
  destruct m as [a|]; cbn.
  - rewrite existsb_exists. split.
    + intros ([r' c'] & I & E). cbn in E. rewrite andb_true_iff, !Nat.eqb_eq in E. pose proof (proj1 (nonzero_in a r' c') I) as S. destruct S as (b & Eb & Cb & Rb & _). cbn in Cb, Rb.
      replace (c + 1) with c' by lia. replace (r + 1) with r' by lia. now apply nonzero_in.
    + intros S. exists (r + 1, c + 1). split; [now apply nonzero_in|]. cbn. rewrite !Nat.add_sub, !Nat.eqb_refl. reflexivity.
  - split; [discriminate|]. intros (a & [=] & _).
Qed.
Lemma set_masks_spec nr nc m mask : (forall p, is_set m p -> fst p <= nc /\ snd p <= nr) ->
  exists mask', set_masks nr nc m mask = Some mask' /\ forall r c, mask' r c = masked_b m r c || mask r c.
Proof.
  intros H. destruct m as [a|]; cbn; [|exists mask; split; reflexivity]. unfold set_mask.
  assert (F : forallb (fun p => (fst p - 1 <? nr) && (snd p - 1 <? nc)) (nonzero_pixels a) = true).
  { apply forallb_forall. intros [r c] I. apply nonzero_in in I. specialize (H _ I). destruct I as (b & _ & C & R & _). cbn [fst snd] in *. rewrite andb_true_iff, !Nat.ltb_lt. lia. }
  rewrite F. eexists. split; [reflexivity|]. reflexivity.
Qed.
Lemma set_masks_none nr nc m mask p : is_set m p -> ~ (fst p <= nc /\ snd p <= nr) -> set_masks nr nc m mask = None.
Proof.
  intros I N. destruct I as (a & -> & C & R & E). cbn. unfold set_mask. destruct (forallb _ _) eqn:F; [|reflexivity]. exfalso. rewrite forallb_forall in F.
  assert (I : In (snd p, fst p) (nonzero_pixels a)) by (apply nonzero_in; exists a; auto). specialize (F _ I). cbn [fst snd] in F. rewrite andb_true_iff, !Nat.ltb_lt in F. lia.
Qed.

Lemma masked_spec f : (forall p, is_masked f p -> on_sensor f p) -> noisy_mask f <> None \/ disabled_mask f <> None ->
  exists image, masked_page f = Some (Some (sums_page (rows (hist_occ f)) (columns (hist_occ f)) image)) /\
    forall r c, image r c = if masked_b (noisy_mask f) r c || masked_b (disabled_mask f) r c then 0 else entry (hist_occ f) c r.
Proof.
  intros H N. set (o := hist_occ f) in *.
  destruct (set_masks_spec (rows o) (columns o) (noisy_mask f) (fun _ _ => false)) as (m1 & E1 & S1). { intros p P. destruct (H p (or_introl P)) as [X Y]. fold o in X, Y. lia. }
  destruct (set_masks_spec (rows o) (columns o) (disabled_mask f) m1) as (m2 & E2 & S2). { intros p P. destruct (H p (or_intror P)) as [X Y]. fold o in X, Y. lia. }
  exists (fun r c => if m2 r c then 0 else entry o c r). split.
  - unfold masked_page. fold o. rewrite E1, E2. destruct (noisy_mask f), (disabled_mask f); try reflexivity. destruct N; congruence.
  - intros r c. rewrite S2, S1, orb_false_r, orb_comm. reflexivity.
Qed.

(** Pages are made if and only if the sensor has pixels and all noisy and disabled pixels are on the sensor: two pages, and one more if the file has a mask. *)
Theorem C132_pages f : ((exists ps, plot_masked_pixels f = Some ps) <-> 0 < columns (hist_occ f) /\ 0 < rows (hist_occ f) /\ forall p, is_masked f p -> on_sensor f p) /\
  forall ps, plot_masked_pixels f = Some ps -> length ps = (if match noisy_mask f, disabled_mask f with None, None => true | _, _ => false end then 2 else 3).
Proof.
  split.
  - unfold plot_masked_pixels. split.
    + intros (ps & E). destruct (Nat.eqb_spec (columns (hist_occ f)) 0), (Nat.eqb_spec (rows (hist_occ f)) 0); cbn [orb] in E; try discriminate. split; [lia|]. split; [lia|].
      intros p P. assert (D : fst p <= columns (hist_occ f) /\ snd p <= rows (hist_occ f)).
      { destruct (le_dec (fst p) (columns (hist_occ f))) as [A|A], (le_dec (snd p) (rows (hist_occ f))) as [B|B]; try (split; assumption); exfalso;
          (assert (X : masked_page f = None);
           [unfold masked_page; destruct P as [P|P];
             [rewrite (set_masks_none _ _ _ _ _ P) by lia; destruct P as (a & -> & _); reflexivity
             |destruct (set_masks _ _ (noisy_mask f) _); [rewrite (set_masks_none _ _ _ _ _ P) by lia|]; destruct P as (a & -> & _); destruct (noisy_mask f); reflexivity]
           |rewrite X in E; discriminate]). }
      destruct P as [(a & _ & C & R & _)|(a & _ & C & R & _)]; split; lia.
    + intros (C & R & M). destruct (Nat.eqb_spec (columns (hist_occ f)) 0), (Nat.eqb_spec (rows (hist_occ f)) 0); try lia. cbn [orb].
      destruct (noisy_mask f) eqn:N; [|destruct (disabled_mask f) eqn:D].
      1, 2: destruct (masked_spec f M) as (im & -> & _); [rewrite ?N, ?D; first [left; discriminate|right; discriminate]|eexists; reflexivity].
      unfold masked_page. rewrite N, D. eexists. reflexivity.
  - intros ps. unfold plot_masked_pixels. destruct (_ || _); [discriminate|]. destruct (masked_page f) as [q|] eqn:E; [|discriminate]. intros [= <-]. unfold masked_page in E.
    destruct (noisy_mask f), (disabled_mask f); cbn in *; try (injection E as <-; reflexivity);
      repeat match type of E with context [match ?x with Some _ => _ | None => _ end] => destruct x; try discriminate end; injection E as <-; reflexivity.
Qed.

Definition marks_show (m : option array) (shown : option (list (nat * nat) * nat)) : Prop :=
  match m, shown with
  | None, None => True
  | Some _, Some (l, n) => NoDup l /\ length l = n /\ forall x y, In (x, y) l <-> is_set m (x, y)
  | _, _ => False
  end.
Lemma marks_ok m : marks_show m (marks m).
Proof.
  destruct m as [a|]; cbn; [|exact I]. split; [|split].
  - apply FinFun.Injective_map_NoDup; [|apply nonzero_nodup]. intros [a1 b1] [a2 b2] E. cbn in E. congruence.
  - rewrite map_length. symmetry. apply count_length.
  - intros x y. rewrite <- nonzero_in. rewrite in_map_iff. split; [intros ([r c] & [= <- <-] & H); exact H|]. intros H. exists (y, x). auto.
Qed.
(** The first page marks every noisy pixel and every disabled pixel once, at its column and row, and its title has their numbers. *)
Theorem C132_marks f ps : plot_masked_pixels f = Some ps -> exists p q, ps = p :: q /\ marks_show (noisy_mask f) (p_noisy p) /\ marks_show (disabled_mask f) (p_disabled p).
Proof.
  unfold plot_masked_pixels. destruct (_ || _); [discriminate|]. destruct (masked_page f) as [q|]; [|discriminate]. intros [= <-]. eexists _, _. split; [reflexivity|]. cbn. split; apply marks_ok.
Qed.

Definition framed (f : mask_file) (p : page) : Prop := p_rows p = rows (hist_occ f) /\ p_columns p = columns (hist_occ f) /\ p_extent p = extent (rows (hist_occ f)) (columns (hist_occ f)).
Lemma shown_pixel f p x y c r : framed f p -> on_sensor f (c, r) -> (INR c - 1 / 2 <= x < INR c + 1 / 2)%R -> (INR r - 1 / 2 <= y < INR r + 1 / 2)%R ->
  shown_at p x y = Some (p_image p (r - 1) (c - 1)).
Proof.
  intros (R0 & C0 & E) (C & R) X Y. unfold shown_at. rewrite E, R0, C0. unfold extent. cbn [fst snd] in C, R.
  assert (NC : (0 < INR (columns (hist_occ f)))%R) by (apply lt_0_INR; lia). assert (NR : (0 < INR (rows (hist_occ f)))%R) by (apply lt_0_INR; lia).
  replace ((x - 1 / 2) / (INR (columns (hist_occ f)) + 1 / 2 - 1 / 2) * INR (columns (hist_occ f)))%R with (x - 1 / 2)%R by (field; lra).
  replace ((y - 1 / 2) / (INR (rows (hist_occ f)) + 1 / 2 - 1 / 2) * INR (rows (hist_occ f)))%R with (y - 1 / 2)%R by (field; lra).
  rewrite (Int_part_eq (Z.of_nat (c - 1))), (Int_part_eq (Z.of_nat (r - 1))) by (rewrite <- INR_IZR_INZ, minus_INR by lia; cbn [INR]; lra).
  assert (B : ((0 <=? Z.of_nat (c - 1)) && (Z.of_nat (c - 1) <? Z.of_nat (columns (hist_occ f))) && (0 <=? Z.of_nat (r - 1)) && (Z.of_nat (r - 1) <? Z.of_nat (rows (hist_occ f))))%Z = true).
  { rewrite !andb_true_iff, !Z.leb_le, !Z.ltb_lt. lia. }
  rewrite B, !Nat2Z.id. reflexivity.
Qed.

(** The pages with the number which each of them shows in a pixel: the occupancy on the first two, on the third zero for noisy and disabled pixels. *)
Lemma pages_inv f ps : plot_masked_pixels f = Some ps -> exists tail, ps = marked_page f :: sums_page (rows (hist_occ f)) (columns (hist_occ f)) (fun r c => entry (hist_occ f) c r) :: tail /\
  (tail = [] \/ exists image, tail = [sums_page (rows (hist_occ f)) (columns (hist_occ f)) image] /\
    forall r c, image r c = if masked_b (noisy_mask f) r c || masked_b (disabled_mask f) r c then 0 else entry (hist_occ f) c r).
Proof.
  intros E. destruct (proj1 (proj1 (C132_pages f)) (ex_intro _ ps E)) as (_ & _ & M). unfold plot_masked_pixels in E. destruct (_ || _); [discriminate|].
  assert (D : (noisy_mask f = None /\ disabled_mask f = None) \/ (noisy_mask f <> None \/ disabled_mask f <> None)).
  { destruct (noisy_mask f); [right; left; discriminate|]. destruct (disabled_mask f); [right; right; discriminate|]. left. auto. }
  destruct D as [[N D]|D].
  - unfold masked_page in E. rewrite N, D in E. injection E as <-. eexists. split; [reflexivity|]. left. reflexivity.
  - destruct (masked_spec f M D) as (im & X & S). rewrite X in E. injection E as <-. eexists. split; [reflexivity|]. right. exists im. split; [reflexivity|exact S].
Qed.
Theorem C132_shown f ps k p x y c r : plot_masked_pixels f = Some ps -> nth_error ps k = Some p -> on_sensor f (c, r) ->
  (INR c - 1 / 2 <= x < INR c + 1 / 2)%R -> (INR r - 1 / 2 <= y < INR r + 1 / 2)%R ->
  exists n, shown_at p x y = Some n /\ (k <= 1 -> n = entry (hist_occ f) (c - 1) (r - 1)) /\
    (k = 2 -> is_masked f (c, r) -> n = 0) /\ (k = 2 -> ~ is_masked f (c, r) -> n = entry (hist_occ f) (c - 1) (r - 1)).
Proof.
  intros E K On X Y. destruct (pages_inv f ps E) as (tail & -> & T). assert (On' := On). destruct On' as [C R]. cbn [fst snd] in C, R. destruct k as [|[|k]]; cbn in K.
  - injection K as <-. eexists. split; [apply (shown_pixel f _ x y c r); auto; repeat split|]. cbn. split; [reflexivity|]. split; lia.
  - injection K as <-. eexists. split; [apply (shown_pixel f _ x y c r); auto; repeat split|]. cbn. split; [reflexivity|]. split; lia.
  - destruct T as [->|(im & -> & I)]; [destruct k; discriminate|]. destruct k as [|k]; [|destruct k; discriminate]. injection K as <-.
    eexists. split; [apply (shown_pixel f _ x y c r); auto; repeat split|]. cbn [p_image sums_page]. rewrite I.
    assert (P : masked_b (noisy_mask f) (r - 1) (c - 1) || masked_b (disabled_mask f) (r - 1) (c - 1) = true <-> is_masked f (c, r)).
    { rewrite orb_true_iff, !masked_b_spec. unfold is_masked. replace (c - 1 + 1) with c by lia. replace (r - 1 + 1) with r by lia. reflexivity. }
    split; [lia|]. destruct (_ || _); split; intros _ M; try reflexivity; [exfalso; apply M, P; reflexivity|apply P in M; discriminate].
Qed.

(** * Sums *)
Definition pix_eqb (a b : pixel) : bool := (fst a =? fst b) && (snd a =? snd b).
Lemma pix_eqb_spec a b : pix_eqb a b = true <-> a = b.
Proof. destruct a, b. unfold pix_eqb. cbn. rewrite andb_true_iff, !Nat.eqb_eq. split; [intros []; congruence|intros [= -> ->]; auto]. Qed.
Definition maskb (f : mask_file) (h : pixel) : bool := masked_b (noisy_mask f) (snd h - 1) (fst h - 1) || masked_b (disabled_mask f) (snd h - 1) (fst h - 1).
Lemma maskb_spec f h : on_sensor f h -> maskb f h = true <-> is_masked f h.
Proof.
  intros (C & R). unfold maskb, is_masked. rewrite orb_true_iff, !masked_b_spec. replace (fst h - 1 + 1) with (fst h) by lia. replace (snd h - 1 + 1) with (snd h) by lia. destruct h. reflexivity.
Qed.
Section Sums.
  Variables (f : mask_file) (hits : list pixel).
  Hypothesis H : occupancy_of f hits.
  Notation nc := (columns (hist_occ f)). Notation nr := (rows (hist_occ f)).
  Lemma entry_number c r : c < nc -> r < nr -> entry (hist_occ f) c r = length (filter (fun h => pix_eqb h (c + 1, r + 1)) hits).
  Proof using H. intros C R. apply (how_many_unique (fun h => h = (c + 1, r + 1)) hits); [apply (proj2 H); auto|]. apply how_many_filter. intros a. apply pix_eqb_spec. Qed.
  (** an image which shows the hits with the property *)
  Definition shows (q : pixel -> bool) (image : nat -> nat -> nat) : Prop :=
    forall r c, r < nr -> c < nc -> image r c = length (filter (fun h => pix_eqb h (c + 1, r + 1) && q h) hits).
  Lemma filter_len_ext {A} (p q : A -> bool) l : (forall a, In a l -> p a = q a) -> length (filter p l) = length (filter q l).
  Proof using. intros E. now rewrite (filter_ext_in _ _ _ E). Qed.
  Lemma on c : In c hits -> 1 <= fst c <= nc /\ 1 <= snd c <= nr. Proof using H. apply (proj1 H). Qed.
  Lemma column_sum q image c : shows q image -> c < nc -> list_sum (map (fun r => image r c) (seq 0 nr)) = length (filter (fun h => (fst h =? c + 1) && q h) hits).
  Proof using H.
    intros S C. rewrite (map_ext_in _ (fun r => length (filter (fun h => (snd h - 1 =? r) && ((fst h =? c + 1) && q h)) hits))).
    - apply (sum_by_key (fun h => snd h - 1)). intros h I. destruct (on h I). lia.
    - intros r I. apply in_seq in I. rewrite S by lia. apply filter_len_ext. intros h J. destruct (on h J) as [A B]. unfold pix_eqb. cbn.
      destruct (Nat.eqb_spec (fst h) (c + 1)), (Nat.eqb_spec (snd h) (r + 1)), (Nat.eqb_spec (snd h - 1) r); try lia; cbn; destruct (q h); reflexivity.
  Qed.
  Lemma row_sum q image r : shows q image -> r < nr -> list_sum (map (fun c => image r c) (seq 0 nc)) = length (filter (fun h => (snd h =? r + 1) && q h) hits).
  Proof using H.
    intros S R. rewrite (map_ext_in _ (fun c => length (filter (fun h => (fst h - 1 =? c) && ((snd h =? r + 1) && q h)) hits))).
    - apply (sum_by_key (fun h => fst h - 1)). intros h I. destruct (on h I). lia.
    - intros c I. apply in_seq in I. rewrite S by lia. apply filter_len_ext. intros h J. destruct (on h J) as [A B]. unfold pix_eqb. cbn.
      destruct (Nat.eqb_spec (fst h) (c + 1)), (Nat.eqb_spec (snd h) (r + 1)), (Nat.eqb_spec (fst h - 1) c); try lia; cbn; destruct (q h); reflexivity.
  Qed.
  Lemma all_shown : shows (fun _ => true) (fun r c => entry (hist_occ f) c r).
  Proof using H. intros r c R C. rewrite entry_number by assumption. apply filter_len_ext. intros h _. now rewrite andb_true_r. Qed.
  Lemma rest_shown image : (forall r c, image r c = if masked_b (noisy_mask f) r c || masked_b (disabled_mask f) r c then 0 else entry (hist_occ f) c r) -> shows (fun h => negb (maskb f h)) image.
  Proof using H.
    intros E r c R C. rewrite E. destruct (_ || _) eqn:M.
    - assert (F : filter (fun h => pix_eqb h (c + 1, r + 1) && negb (maskb f h)) hits = []); [|now rewrite F].
      clear H. induction hits as [|h l IH]; [reflexivity|]. cbn [filter]. destruct (pix_eqb h (c + 1, r + 1)) eqn:P; [|exact IH]. apply pix_eqb_spec in P. subst h.
      unfold maskb. cbn [fst snd]. rewrite !Nat.add_sub, M. exact IH.
    - rewrite entry_number by assumption. apply filter_len_ext. intros h _. destruct (pix_eqb h (c + 1, r + 1)) eqn:P; [|reflexivity]. apply pix_eqb_spec in P. subst h.
      unfold maskb. cbn [fst snd]. rewrite !Nat.add_sub, M. reflexivity.
  Qed.
End Sums.

(** The bars of a page: one bar for each column and each row, at its number, with the length of the number of hits in it which have the property. *)
Definition bars_show (f : mask_file) (hits : list pixel) (P : pixel -> Prop) (p : page) : Prop :=
  length (p_top p) = columns (hist_occ f) /\ length (p_right p) = rows (hist_occ f) /\
  (forall c, 1 <= c <= columns (hist_occ f) -> exists n, nth_error (p_top p) (c - 1) = Some (c, n) /\ how_many (fun h => fst h = c /\ P h) hits n) /\
  (forall r, 1 <= r <= rows (hist_occ f) -> exists n, nth_error (p_right p) (r - 1) = Some (r, n) /\ how_many (fun h => snd h = r /\ P h) hits n) /\
  how_many P hits (list_sum (map snd (p_top p))) /\ list_sum (map snd (p_right p)) = list_sum (map snd (p_top p)).
Lemma how_many_in {A} (P : A -> Prop) (q : A -> bool) l : (forall a, In a l -> q a = true <-> P a) -> how_many P l (length (filter q l)).
Proof.
  intros H. destruct (how_many_filter (fun a => q a = true) q l) as (s & N & L & I); [tauto|]. exists s. split; [exact N|]. split; [exact L|]. intros i. rewrite I.
  split; intros (a & E & Q); exists a; (split; [exact E|]); apply H; auto; eapply nth_error_In, E.
Qed.
Lemma sums_show f hits q image (P : pixel -> Prop) : occupancy_of f hits -> shows f hits q image -> (forall h, In h hits -> q h = true <-> P h) ->
  bars_show f hits P (sums_page (rows (hist_occ f)) (columns (hist_occ f)) image).
Proof.
  intros O S Q. unfold bars_show, sums_page. cbn [p_top p_right]. rewrite !map_length, !seq_length. split; [reflexivity|]. split; [reflexivity|].
  assert (T : forall (g : nat -> nat * nat) n k, k < n -> nth_error (map g (seq 0 n)) k = Some (g k)).
  { intros g n k K. rewrite nth_error_map. rewrite (nth_error_nth' _ 0) by (rewrite seq_length; exact K). now rewrite seq_nth. }
  assert (TopTotal : list_sum (map snd (map (fun c => (c + 1, list_sum (map (fun r => image r c) (seq 0 (rows (hist_occ f)))))) (seq 0 (columns (hist_occ f))))) = length (filter q hits)).
  { rewrite map_map. cbn [snd]. rewrite (map_ext_in _ (fun c => length (filter (fun h => (fst h - 1 =? c) && q h) hits))).
    - apply (sum_by_key (fun h => fst h - 1)). intros h I. destruct (on f hits O h I). lia.
    - intros c I. apply in_seq in I. rewrite (column_sum f hits O q image c S) by lia. apply filter_len_ext. intros h J. destruct (on f hits O h J) as [A B].
      destruct (Nat.eqb_spec (fst h) (c + 1)), (Nat.eqb_spec (fst h - 1) c); try lia; reflexivity. }
  assert (RightTotal : list_sum (map snd (map (fun r => (r + 1, list_sum (map (fun c => image r c) (seq 0 (columns (hist_occ f)))))) (seq 0 (rows (hist_occ f))))) = length (filter q hits)).
  { rewrite map_map. cbn [snd]. rewrite (map_ext_in _ (fun r => length (filter (fun h => (snd h - 1 =? r) && q h) hits))).
    - apply (sum_by_key (fun h => snd h - 1)). intros h I. destruct (on f hits O h I). lia.
    - intros r I. apply in_seq in I. rewrite (row_sum f hits O q image r S) by lia. apply filter_len_ext. intros h J. destruct (on f hits O h J) as [A B].
      destruct (Nat.eqb_spec (snd h) (r + 1)), (Nat.eqb_spec (snd h - 1) r); try lia; reflexivity. }
  split; [|split; [|split]].
  - intros c C. eexists. split; [rewrite T by lia; f_equal; rewrite (column_sum f hits O q image (c - 1) S) by lia; f_equal; lia|].
    replace (c - 1 + 1) with c by lia. apply how_many_in. intros h I. rewrite andb_true_iff, Nat.eqb_eq, (Q h I). reflexivity.
  - intros r R. eexists. split; [rewrite T by lia; f_equal; rewrite (row_sum f hits O q image (r - 1) S) by lia; f_equal; lia|].
    replace (r - 1 + 1) with r by lia. apply how_many_in. intros h I. rewrite andb_true_iff, Nat.eqb_eq, (Q h I). reflexivity.
  - rewrite TopTotal. now apply how_many_in.
  - now rewrite TopTotal, RightTotal.
Qed.
(** The second page shows the number of hits of each column and of each row, the third page of those which are neither in a noisy nor in a disabled pixel. *)
Theorem C132_sums f hits ps : plot_masked_pixels f = Some ps -> occupancy_of f hits ->
  (exists p, nth_error ps 1 = Some p /\ bars_show f hits (fun _ => True) p) /\ (forall p, nth_error ps 2 = Some p -> bars_show f hits (fun h => ~ is_masked f h) p).
Proof.
  intros E O. destruct (pages_inv f ps E) as (tail & -> & T). split.
  - eexists. split; [reflexivity|]. apply (sums_show f hits (fun _ => true)); auto; [now apply all_shown|tauto].
  - intros p K. destruct T as [->|(im & -> & I)]; [discriminate|]. injection K as <-. apply (sums_show f hits (fun h => negb (maskb f h))); auto; [now apply rest_shown|].
    intros h J. rewrite negb_true_iff, <- (maskb_spec f h) by (apply (proj1 O), J). destruct (maskb f h); split; congruence.
Qed.

(** A file with three columns and two rows, five hits, a noisy pixel (2, 1) and a disabled pixel (3, 2). *)
Example C132_case : let o := Array 3 2 (fun c r => if (c =? 1) && (r =? 0) then 3 else if r =? 1 then (if c =? 2 then 0 else 1) else 0) in
  let f := MaskFile o (Some (Array 3 2 (fun c r => if (c =? 1) && (r =? 0) then 1 else 0))) (Some (Array 3 2 (fun c r => if (c =? 2) && (r =? 1) then 1 else 0))) in
  exists ps p q, plot_masked_pixels f = Some ps /\ nth_error ps 0 = Some p /\ nth_error ps 2 = Some q /\ p_noisy p = Some ([(2, 1)], 1) /\ p_disabled p = Some ([(3, 2)], 1) /\
    p_top q = [(1, 1); (2, 1); (3, 0)] /\ p_right q = [(1, 0); (2, 2)] /\ is_masked f (2, 1) /\ ~ is_masked f (1, 2) /\
    occupancy_of f [(2, 1); (1, 2); (2, 1); (2, 2); (2, 1)].
Proof.
  intros o f. eexists _, _, _. split; [reflexivity|]. split; [reflexivity|]. split; [reflexivity|]. repeat (split; [reflexivity|]).
  split; [left; eexists; split; [reflexivity|]; cbn; lia|]. split.
  - intros [(a & [= <-] & _ & _ & N)|(a & [= <-] & _ & _ & N)]; apply N; reflexivity.
  - split.
    + intros h I. unfold on_sensor. cbn in *. repeat destruct I as [<-|I]; cbn; try lia.
    + intros c r C R. cbn in C, R. assert (E : entry (hist_occ f) c r = length (filter (fun h => pix_eqb h (c + 1, r + 1)) [(2, 1); (1, 2); (2, 1); (2, 2); (2, 1)])).
      { destruct c as [|[|[|c]]]; [| | |lia]; (destruct r as [|[|r]]; [reflexivity|reflexivity|lia]). }
      rewrite E. apply how_many_filter. intros a. apply pix_eqb_spec.
Qed.

Print Assumptions C132_pages.
Print Assumptions C132_marks.
Print Assumptions C132_shown.
Print Assumptions C132_sums.
