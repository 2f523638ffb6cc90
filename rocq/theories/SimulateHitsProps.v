(** Properties of simulated hits: C77 (charge sharing), C78 (digitised hits), C79 (number of DUTs). *)
From Coq Require Import ZArith QArith Qround Qabs List Bool Arith Lia Lqa Sorted Permutation.
From Verif Require Import SimulateModel SimulateProps.
Import ListNotations.
Local Open Scope nat_scope.

(** * C77: charge sharing *)
Section Sharing.
  Variable fraction : Z -> Z -> Q.
  Variable column row : Z.
  Variable charge : Q.
  Variable max_column max_row : Z.
  Notation pix col r := ((col, r, fraction (col - column) (r - row) * charge)%Q).
  Notation rows_of := (row_loop fraction column row charge).
  Notation cols_of := (column_loop fraction column row charge max_row).

  Lemma row_loop_spec : forall rows col s, exists k, snd (rows_of rows col s) = snd s ++ map (fun r => pix col r) (firstn k rows) /\
    forall r, In r (firstn k rows) -> (min_fraction <= fraction (col - column) (r - row))%Q.
  Proof.
    induction rows as [|r rows IH]; intros col s; cbn [row_loop].
    - exists 0. simpl. rewrite app_nil_r. split; auto. intros ? [].
    - destruct (Qle_bool min_fraction (fraction (col - column) (r - row))) eqn:E; cbn [negb].
      + apply Qle_bool_iff in E. set (s' := ((fst s + fraction (col - column) (r - row))%Q, snd s ++ [pix col r])).
        destruct (Qle_bool (1 - min_fraction) (fst s + fraction (col - column) (r - row))).
        * exists 1. simpl. split; auto. intros x [<-|[]]; auto.
        * destruct (IH col s') as (k & H & F). exists (S k). rewrite H. simpl. rewrite <- app_assoc. split; auto. intros x [<-|Hx]; auto.
      + exists 0. simpl. rewrite app_nil_r. split; auto. intros ? [].
  Qed.
  Notation ups := (range_up row max_row).
  Notation downs := (range_down (row - 1)).
  Lemma column_loop_spec : forall cols s, exists j blocks, map fst blocks = firstn j cols /\
    snd (cols_of cols s) = snd s ++ flat_map (fun b => map (fun r => pix (fst b) r) (snd b)) blocks /\
    forall col rs, In (col, rs) blocks -> (exists a b, rs = firstn a ups ++ firstn b downs) /\ forall r, In r rs -> (min_fraction <= fraction (col - column) (r - row))%Q.
  Proof.
    induction cols as [|col cols IH]; intros s; cbn [column_loop].
    - exists 0, []. simpl. rewrite app_nil_r. repeat split; auto; destruct H.
    - destruct (_ || _).
      + exists 0, []. simpl. rewrite app_nil_r. repeat split; auto; destruct H.
      + destruct (row_loop_spec ups col s) as (a & Ha & Fa). set (s1 := rows_of ups col s) in *.
        destruct (row_loop_spec downs col s1) as (b & Hb & Fb). set (s2 := rows_of downs col s1) in *.
        destruct (IH s2) as (j & blocks & M & H & F). exists (S j), ((col, firstn a ups ++ firstn b downs) :: blocks). cbn [map fst firstn flat_map snd]. rewrite M, H, Hb, Ha.
        split; auto. split; [rewrite map_app, <- !app_assoc; auto|]. intros c rs [E|Hin]; [|apply F; auto]. injection E as <- <-. split; [exists a, b; auto|].
        intros r Hr. apply in_app_or in Hr. destruct Hr; auto.
  Qed.
  Lemma firstn_In A k (l : list A) x : In x (firstn k l) -> In x l.
  Proof. intros H. rewrite <- (firstn_skipn k l). apply in_or_app. auto. Qed.
  Lemma up_In a b x : In x (range_up a b) <-> (a <= x < b)%Z.
  Proof.
    unfold range_up. rewrite in_map_iff. split; [intros (k & <- & Hk); apply in_seq in Hk; lia|]. intros H. exists (Z.to_nat (x - a)). split; [lia|]. apply in_seq. lia.
  Qed.
  Lemma down_In a x : In x (range_down a) <-> (1 <= x <= a)%Z.
  Proof.
    unfold range_down. rewrite in_map_iff. split; [intros (k & <- & Hk); apply in_seq in Hk; lia|]. intros H. exists (Z.to_nat (a - x)). split; [lia|]. apply in_seq. lia.
  Qed.
  Lemma NoDup_map_inj A B (f : A -> B) l : (forall x y, f x = f y -> x = y) -> NoDup l -> NoDup (map f l).
  Proof. intros I. induction 1 as [|x l N D IH]; simpl; constructor; auto. intros H. apply in_map_iff in H. destruct H as (y & E & Hy). apply I in E. subst. auto. Qed.
  Lemma up_NoDup a b : NoDup (range_up a b). Proof. apply NoDup_map_inj; [intros; lia|apply seq_NoDup]. Qed.
  Lemma down_NoDup a : NoDup (range_down a). Proof. apply NoDup_map_inj; [intros; lia|apply seq_NoDup]. Qed.
  Lemma NoDup_firstn_ A k (l : list A) : NoDup l -> NoDup (firstn k l).
  Proof.
    revert k. induction l as [|x l IH]; intros [|k] N; simpl; try constructor; inversion N as [|? ? N1 N2]; subst; auto. intros H. apply N1, (firstn_In _ k), H.
  Qed.
  Lemma NoDup_app_ A (l m : list A) : NoDup l -> NoDup m -> (forall x, In x l -> ~ In x m) -> NoDup (l ++ m).
  Proof.
    induction 1 as [|x l N D IH]; simpl; intros M H; auto. constructor; [|apply IH; auto]. intros Hin. apply in_app_or in Hin. destruct Hin; [auto|]. apply (H x); auto.
  Qed.
  Lemma rows_NoDup a b : NoDup (firstn a ups ++ firstn b downs).
  Proof.
    apply NoDup_app_; [apply NoDup_firstn_, up_NoDup|apply NoDup_firstn_, down_NoDup|]. intros x H1 H2.
    apply firstn_In, up_In in H1. apply firstn_In, down_In in H2. lia.
  Qed.

  Notation hits := (create_cs_hits fraction column row charge max_column max_row).
  (** the columns and rows with their blocks *)
  Lemma hits_blocks : exists blocks, NoDup (map fst blocks) /\ hits = flat_map (fun b => map (fun r => pix (fst b) r) (snd b)) blocks /\
    forall col rs, In (col, rs) blocks -> (column <= col < max_column \/ 1 <= col < column)%Z /\ NoDup rs /\
      forall r, In r rs -> (row <= r < max_row \/ 1 <= r < row)%Z /\ (min_fraction <= fraction (col - column) (r - row))%Q.
  Proof.
    unfold create_cs_hits. set (s1 := cols_of (range_up column max_column) (0%Q, [])). destruct (column_loop_spec (range_up column max_column) (0%Q, [])) as (j1 & b1 & M1 & H1 & F1). fold s1 in H1.
    destruct (column_loop_spec (range_down (column - 1)) s1) as (j2 & b2 & M2 & H2 & F2).
    exists (b1 ++ b2). rewrite map_app, M1, M2, H2, H1. cbn [snd app]. rewrite flat_map_app. split; [|split; [auto|]].
    - apply NoDup_app_; [apply NoDup_firstn_, up_NoDup|apply NoDup_firstn_, down_NoDup|]. intros x A B. apply firstn_In, up_In in A. apply firstn_In, down_In in B. lia.
    - intros col rs Hin. assert (C : (exists a b, rs = firstn a ups ++ firstn b downs) /\ forall r, In r rs -> (min_fraction <= fraction (col - column) (r - row))%Q) by (apply in_app_or in Hin; destruct Hin; [apply F1|apply F2]; auto).
      destruct C as [(a & b & ->) C]. split; [|split; [apply rows_NoDup|]].
      + apply in_app_or in Hin. destruct Hin as [Hin|Hin]; apply (in_map fst) in Hin; cbn [fst] in Hin; [rewrite M1 in Hin; apply firstn_In, up_In in Hin|rewrite M2 in Hin; apply firstn_In, down_In in Hin]; lia.
      + intros r Hr. split; [|apply C; auto]. apply in_app_or in Hr. destruct Hr as [Hr|Hr]; apply firstn_In in Hr; [apply up_In in Hr|apply down_In in Hr]; lia.
  Qed.

  (** Every pixel gets at most one hit, with its fraction of the charge, at least 1%.  The hits lie between
      column 1 (or that of the seed) and max_column - 1, rows likewise. *)
  Theorem C77_pixels : NoDup (map fst hits) /\ forall c r q, In (c, r, q) hits ->
    (column <= c < max_column \/ 1 <= c < column)%Z /\ (row <= r < max_row \/ 1 <= r < row)%Z /\
    q = (fraction (c - column) (r - row) * charge)%Q /\ (1 # 100 <= fraction (c - column) (r - row))%Q.
  Proof.
    destruct hits_blocks as (blocks & N & -> & F). split.
    - induction blocks as [|[c rs] blocks IH]; simpl; [constructor|]. inversion N as [|? ? N1 N2]; subst. rewrite map_app. apply NoDup_app_.
      + rewrite map_map. apply NoDup_map_inj; [intros x y E; injection E; auto|]. apply (F c rs); left; auto.
      + apply IH; auto. intros; apply F; right; auto.
      + intros x H1 H2. apply N1. rewrite map_map in H1. apply in_map_iff in H1. destruct H1 as (r & <- & _). cbn [fst] in H2.
        apply in_map_iff in H2. destruct H2 as (h & E & Hin). apply in_flat_map in Hin. destruct Hin as ([c' rs'] & Hb & Hm). apply in_map_iff in Hm. destruct Hm as (r' & <- & _).
        cbn [fst] in E. injection E as <- _. apply (in_map fst) in Hb. exact Hb.
    - intros c r q Hin. apply in_flat_map in Hin. destruct Hin as ([c' rs'] & Hb & Hm). apply in_map_iff in Hm. destruct Hm as (r' & E & Hr). cbn [fst snd] in *. injection E as <- <- <-.
      destruct (F _ _ Hb) as (A & _ & B). destruct (B _ Hr) as [B1 B2]. repeat split; auto.
  Qed.
  (** A seed in the last column or row, or beyond, has no hit. *)
  Theorem C77_last_column : (max_column <= column \/ max_row <= row)%Z -> ~ In (column, row) (map fst hits).
  Proof.
    intros H Hin. apply in_map_iff in Hin. destruct Hin as ([[c r] q] & E & Hin). cbn [fst] in E. injection E as -> ->. apply C77_pixels in Hin. lia.
  Qed.
  (** Otherwise the first hit is the seed, if its fraction is at least 1% *)
  Theorem C77_seed : (column < max_column -> row < max_row -> (1 # 100 <= fraction 0 0)%Q -> exists rest, hits = (column, row, (fraction 0 0 * charge)%Q) :: rest)%Z.
  Proof.
    intros Hc Hr Hf. unfold create_cs_hits.
    assert (Uc : range_up column max_column = column :: range_up (column + 1) max_column).
    { unfold range_up. replace (Z.to_nat (max_column - column)) with (S (Z.to_nat (max_column - (column + 1)))) by lia. cbn [seq map]. f_equal; [lia|]. rewrite <- seq_shift, map_map. apply map_ext. intros; lia. }
    assert (Ur : range_up row max_row = row :: range_up (row + 1) max_row).
    { unfold range_up. replace (Z.to_nat (max_row - row)) with (S (Z.to_nat (max_row - (row + 1)))) by lia. cbn [seq map]. f_equal; [lia|]. rewrite <- seq_shift, map_map. apply map_ext. intros; lia. }
    rewrite Uc. cbn [column_loop]. rewrite !Z.sub_diag. cbn [fst].
    assert (E1 : Qle_bool (1 - min_fraction) 0 = false) by reflexivity. assert (E2 : Qle_bool min_fraction (fraction 0 0) = true) by (apply Qle_bool_iff; auto). rewrite E1, E2. cbn [orb negb].
    set (s1 := rows_of (range_up row max_row) column (0%Q, [])).
    assert (S1 : exists rest, snd s1 = (column, row, (fraction 0 0 * charge)%Q) :: rest).
    { unfold s1. rewrite Ur. cbn [row_loop]. rewrite !Z.sub_diag, E2. cbn [negb fst snd app]. destruct (Qle_bool (1 - min_fraction) (0 + fraction 0 0)); [eexists; reflexivity|].
      match goal with |- exists rest, snd (rows_of ?l ?c ?s) = _ => destruct (row_loop_spec l c s) as (k & -> & _) end. cbn [snd app]. eauto. }
    destruct S1 as (rest & S1). destruct (row_loop_spec downs column s1) as (k & S2 & _). rewrite S1 in S2. set (s2 := rows_of downs column s1) in *.
    destruct (column_loop_spec (range_up (column + 1) max_column) s2) as (j & b & _ & S3 & _). rewrite S2 in S3. set (s3 := cols_of _ s2) in *.
    destruct (column_loop_spec (range_down (column - 1)) s3) as (j' & b' & _ & S4 & _). rewrite S3 in S4. rewrite S4. cbn [app]. eauto.
  Qed.

  (** ** The total charge *)
  (** the fractions are differences of cumulative distributions at the borders of the pixels *)
  Definition distributed : Prop := exists F G : Z -> Q,
    (forall k, F k <= F (k + 1)%Z)%Q /\ (forall k, G k <= G (k + 1)%Z)%Q /\ (forall k, 0 <= F k <= 1)%Q /\ (forall k, 0 <= G k <= 1)%Q /\
    forall i j, (fraction i j == (F (i + 1)%Z - F i) * (G (j + 1)%Z - G j))%Q.
  Definition sumZ {A} (f : A -> Q) (l : list A) : Q := fold_right (fun x a => (f x + a)%Q) 0%Q l.
  Lemma sumZ_app A (f : A -> Q) l m : (sumZ f (l ++ m) == sumZ f l + sumZ f m)%Q.
  Proof. induction l as [|x l IH]; simpl; [ring|]. fold (sumZ f (l ++ m)) (sumZ f l). rewrite IH. ring. Qed.
  Lemma sumZ_nonneg A (f : A -> Q) l : (forall x, 0 <= f x)%Q -> (0 <= sumZ f l)%Q.
  Proof. intros P. induction l as [|x l IH]; simpl; [lra|]. fold (sumZ f l). pose proof (P x). lra. Qed.
  Lemma sumZ_incl A (f : A -> Q) : (forall x, 0 <= f x)%Q -> forall l m, NoDup l -> incl l m -> (sumZ f l <= sumZ f m)%Q.
  Proof.
    intros P. induction l as [|x l IH]; intros m N I; [apply sumZ_nonneg; auto|]. inversion N as [|? ? N1 N2]; subst.
    destruct (in_split x m) as (m1 & m2 & ->); [apply I; left; auto|]. specialize (IH (m1 ++ m2) N2). rewrite sumZ_app in *. simpl. fold (sumZ f l) (sumZ f m2).
    assert (incl l (m1 ++ m2)) as K.
    { intros y Hy. assert (In y (m1 ++ x :: m2)) as Q by (apply I; right; auto). apply in_app_or in Q. apply in_or_app. destruct Q as [|[<-|]]; auto. contradiction. }
    specialize (IH K). lra.
  Qed.
  Lemma telescope (F : Z -> Q) a : forall k, (sumZ (fun x => F (x + 1)%Z - F x) (map (fun i => (a + Z.of_nat i)%Z) (seq 0 k)) == F (a + Z.of_nat k)%Z - F a)%Q.
  Proof.
    induction k as [|k IH]; [simpl; rewrite Z.add_0_r; ring|]. rewrite seq_S, map_app, sumZ_app, IH. simpl. replace (a + Z.of_nat k + 1)%Z with (a + Z.pos (Pos.of_succ_nat k))%Z by lia. ring.
  Qed.
  Lemma sumZ_ext A (f g : A -> Q) l : (forall x, f x == g x)%Q -> (sumZ f l == sumZ g l)%Q.
  Proof. intros H. induction l as [|x l IH]; simpl; [reflexivity|]. fold (sumZ f l) (sumZ g l). rewrite IH, H. reflexivity. Qed.
  Lemma sumZ_map A B (f : B -> Q) (g : A -> B) l : sumZ f (map g l) = sumZ (fun x => f (g x)) l.
  Proof. induction l as [|x l IH]; simpl; auto. fold (sumZ f (map g l)). rewrite IH. auto. Qed.
  Lemma sumZ_scale A (f : A -> Q) c l : (sumZ (fun x => f x * c) l == sumZ f l * c)%Q.
  Proof. induction l as [|x l IH]; simpl; [ring|]. fold (sumZ (fun x => f x * c)%Q l) (sumZ f l). rewrite IH. ring. Qed.
  Lemma sumZ_prod (f g : Z -> Q) l m : (sumZ (fun p => f (fst p) * g (snd p)) (list_prod l m) == sumZ f l * sumZ g m)%Q.
  Proof.
    induction l as [|x l IH]; simpl; [ring|]. rewrite sumZ_app, sumZ_map, IH. fold (sumZ f l).
    setoid_replace (sumZ (fun y => f (fst (x, y)) * g (snd (x, y))) m)%Q with (sumZ (fun y => g y * f x) m)%Q by (apply sumZ_ext; intros; simpl; ring). rewrite sumZ_scale. ring.
  Qed.
  Lemma cover (l : list (Z * Z)) : exists a k, incl l (list_prod (map (fun i => (a + Z.of_nat i)%Z) (seq 0 k)) (map (fun i => (a + Z.of_nat i)%Z) (seq 0 k))).
  Proof.
    induction l as [|[x y] l (a & k & H)]; [exists 0%Z, 0; intros ? []|].
    exists (Z.min a (Z.min x y)), (Z.to_nat (Z.max (a + Z.of_nat k) (Z.max (x + 1) (y + 1)) - Z.min a (Z.min x y))).
    assert (R : forall b n z, In z (map (fun i => (b + Z.of_nat i)%Z) (seq 0 n)) <-> (b <= z < b + Z.of_nat n)%Z).
    { intros b n z. rewrite in_map_iff. split; [intros (i & <- & Hi); apply in_seq in Hi; lia|]. intros Hz. exists (Z.to_nat (z - b)). split; [lia|]. apply in_seq. lia. }
    intros [u v] [E|Hin].
    - injection E as <- <-. apply in_prod; apply R; lia.
    - apply H in Hin. apply in_prod_iff in Hin. rewrite !R in Hin. apply in_prod; apply R; lia.
  Qed.
  Theorem C77_charge : distributed -> (0 <= charge)%Q -> (sumZ hit_charge hits <= charge)%Q.
  Proof.
    intros (F & G & MF & MG & BF & BG & E) Hq. destruct C77_pixels as [N P].
    assert (HS : (sumZ hit_charge hits == sumZ (fun p => fraction (fst p) (snd p)) (map (fun h => (hit_column h - column, hit_row h - row)%Z) hits) * charge)%Q).
    { rewrite sumZ_map. rewrite <- sumZ_scale. assert (K : forall h, In h hits -> (hit_charge h == fraction (hit_column h - column) (hit_row h - row) * charge)%Q).
      { intros [[c r] q] Hin. destruct (P c r q Hin) as (_ & _ & -> & _). reflexivity. }
      induction hits as [|h l IH]; [reflexivity|]. simpl. fold (sumZ hit_charge l). rewrite IH; [rewrite (K h) by (left; auto); reflexivity| | |].
      - simpl in N. inversion N; auto.
      - intros; apply P; right; auto.
      - intros; apply K; right; auto. }
    rewrite HS. set (l := map _ hits).
    assert (L : (sumZ (fun p => fraction (fst p) (snd p)) l <= 1)%Q).
    { assert (NL : NoDup l).
      { unfold l. clear HS. revert N. generalize hits. clear. induction l as [|h l IH]; simpl; intros N; constructor; inversion N as [|? ? N1 N2]; subst; auto. intros Hin. apply N1.
        apply in_map_iff in Hin. destruct Hin as (h' & Eq & Hin). injection Eq as E1 E2. apply in_map_iff. exists h'. split; auto. destruct h as [[c r] q], h' as [[c' r'] q']. unfold hit_column, hit_row in *. cbn [fst snd] in *. f_equal; lia. }
      destruct (cover l) as (a & k & C). rewrite (sumZ_ext _ _ (fun p => (F (fst p + 1)%Z - F (fst p)) * (G (snd p + 1)%Z - G (snd p)))%Q) by (intros; apply E).
      eapply Qle_trans; [apply (sumZ_incl _ _) with (m := list_prod (map (fun i => (a + Z.of_nat i)%Z) (seq 0 k)) (map (fun i => (a + Z.of_nat i)%Z) (seq 0 k))); auto|].
      - intros p. pose proof (MF (fst p)). pose proof (MG (snd p)). apply Qmult_le_0_compat; lra.
      - rewrite (sumZ_prod (fun x => F (x + 1)%Z - F x)%Q (fun y => G (y + 1)%Z - G y)%Q), !telescope.
        pose proof (BF (a + Z.of_nat k)%Z). pose proof (BF a). pose proof (BG (a + Z.of_nat k)%Z). pose proof (BG a).
        set (u := F (a + Z.of_nat k)%Z) in *. set (v := F a) in *. set (w := G (a + Z.of_nat k)%Z) in *. set (z := G a) in *.
        assert (u - v <= 1)%Q by lra. assert (w - z <= 1)%Q by lra.
        destruct (Qlt_le_dec (w - z) 0) as [Neg|Pos].
        + exfalso. assert (Mono : forall n, (G a <= G (a + Z.of_nat n)%Z)%Q).
          { induction n as [|n IHn]; [rewrite Z.add_0_r; apply Qle_refl|]. replace (a + Z.of_nat (S n))%Z with (a + Z.of_nat n + 1)%Z by lia. pose proof (MG (a + Z.of_nat n)%Z). lra. }
          pose proof (Mono k). unfold w, z in Neg. lra.
        + nra. }
    nra.
  Qed.
End Sharing.

(** Without diffusion (fraction 1, L113-114) the full charge is given to the seed and once more to the pixel
    below (except in the first row): the second row loop does not look at the total. *)
Lemma range_up_cons a b : (a < b)%Z -> exists l, range_up a b = a :: l.
Proof.
  intros H. unfold range_up. destruct (Z.to_nat (b - a)) as [|n] eqn:E; [lia|]. cbn [seq map]. exists (map (fun k => (a + Z.of_nat k)%Z) (seq 1 n)). f_equal. lia.
Qed.
Lemma range_down_cons a : (0 < a)%Z -> exists l, range_down a = a :: l.
Proof.
  intros H. unfold range_down. destruct (Z.to_nat a) as [|n] eqn:E; [lia|]. cbn [seq map]. exists (map (fun k => (a - Z.of_nat k)%Z) (seq 1 n)). f_equal. lia.
Qed.
Lemma no_diffusion_column column row charge max_row col cols : (row < max_row)%Z -> (1 <= row)%Z -> forall s, (Qle_bool (1 - min_fraction) (fst s) = false) -> (0 <= fst s)%Q ->
  exists total, column_loop (fun _ _ => 1%Q) column row charge max_row (col :: cols) s = (total, snd s ++ (col, row, 1 * charge)%Q :: (if (row =? 1)%Z then [] else [(col, (row - 1)%Z, 1 * charge)%Q])) /\ (1 <= total)%Q.
Proof.
  intros Hm Hr s Hs H0. destruct (range_up_cons row max_row Hm) as (up & Eu). cbn [column_loop]. rewrite Hs, Eu. cbn [row_loop orb].
  change (Qle_bool min_fraction 1) with true. cbn [negb fst snd].
  assert (T : forall t, (1 <= t)%Q -> Qle_bool (1 - min_fraction) t = true) by (intros t Ht; apply Qle_bool_iff; unfold min_fraction; lra).
  rewrite (T (fst s + 1)%Q) by lra. destruct (Z.eqb_spec row 1) as [->|N].
  - change (range_down (1 - 1)) with (@nil Z). cbn [row_loop]. exists (fst s + 1)%Q. split; [|lra]. destruct cols; cbn [column_loop fst]; rewrite ?T by lra; auto.
  - destruct (range_down_cons (row - 1)) as (dn & Ed); [lia|]. rewrite Ed. cbn [row_loop]. change (Qle_bool min_fraction 1) with true. cbn [negb fst snd]. rewrite (T (fst s + 1 + 1)%Q) by lra.
    exists (fst s + 1 + 1)%Q. split; [|lra]. rewrite <- app_assoc. destruct cols; cbn [column_loop fst]; rewrite ?T by lra; auto.
Qed.
Theorem C77_no_diffusion column row charge max_column max_row : (column < max_column)%Z -> (1 <= row < max_row)%Z ->
  create_cs_hits (fun _ _ => 1%Q) column row charge max_column max_row =
    (column, row, 1 * charge)%Q :: (if (row =? 1)%Z then [] else [(column, (row - 1)%Z, 1 * charge)%Q]).
Proof.
  intros Hc Hr. unfold create_cs_hits. destruct (range_up_cons column max_column Hc) as (l & ->).
  destruct (no_diffusion_column column row charge max_row column l (proj2 Hr) (proj1 Hr) (0%Q, [])) as (t & -> & Ht); [reflexivity|apply Qle_refl|]. cbn [snd app].
  destruct (range_down (column - 1)) as [|x r]; [reflexivity|]. cbn [column_loop fst]. assert (Qle_bool (1 - min_fraction) t = true) as -> by (apply Qle_bool_iff; unfold min_fraction; lra). reflexivity.
Qed.
(** Hence the charge is not preserved, and in the last column the hits are in the neighbouring column. *)
Theorem C77_double_charge_refuted : exists hits, create_cs_hits (fun _ _ => 1%Q) 5 5 500 10 10 = hits /\ (sumZ hit_charge hits == 2 * 500)%Q.
Proof. eexists. split; [reflexivity|]. reflexivity. Qed.
Theorem C77_last_column_refuted : exists column row max_column max_row, (1 <= column <= max_column)%Z /\ (1 <= row < max_row)%Z /\
  create_cs_hits (fun _ _ => 1%Q) column row 500 max_column max_row = [((column - 1)%Z, row, 500%Q); ((column - 1)%Z, (row - 1)%Z, 500%Q)].
Proof. exists 10%Z, 5%Z, 10%Z, 10%Z. split; [lia|]. split; [lia|]. reflexivity. Qed.
(** The loss is not limited to 1%: if the charge is spread over many pixels there is no hit at all. *)
Definition ramp (k : Z) : Q := if (k <=? -100)%Z then 0 else if (100 <=? k)%Z then 1 else (k + 100) # 200.
Theorem C77_loss_refuted : distributed (fun i j => (ramp (i + 1) - ramp i) * (ramp (j + 1) - ramp j))%Q /\
  create_cs_hits (fun i j => (ramp (i + 1) - ramp i) * (ramp (j + 1) - ramp j))%Q 500 500 1000 1000 1000 = [].
Proof.
  split; [|vm_compute; reflexivity]. exists ramp, ramp.
  assert (M : forall k, (ramp k <= ramp (k + 1)%Z)%Q).
  { intros k. unfold ramp. destruct (Z.leb_spec k (-100)), (Z.leb_spec (k + 1) (-100)), (Z.leb_spec 100 k), (Z.leb_spec 100 (k + 1)); try lia; unfold Qle; simpl; lia. }
  assert (B : forall k, (0 <= ramp k <= 1)%Q).
  { intros k. unfold ramp. destruct (Z.leb_spec k (-100)), (Z.leb_spec 100 k); try lia; unfold Qle; simpl; lia. }
  repeat split; auto; try apply B. 
Qed.
Example C77_example : create_cs_hits (fun i j => match i, j with 0, 0 => 7 # 10 | 1, 0 => 2 # 10 | -1, 0 => 1 # 1000 | 0, -1 => 4 # 100 | 0, 1 => 3 # 100 | _, _ => 0%Q end%Z) 3 3 100 10 10 =
  [(3%Z, 3%Z, ((7 # 10) * 100)%Q); (3%Z, 4%Z, ((3 # 100) * 100)%Q); (3%Z, 2%Z, ((4 # 100) * 100)%Q); (4%Z, 3%Z, ((2 # 10) * 100)%Q)].
Proof. vm_compute. reflexivity. Qed.

(** * C78: digitised hits *)
Lemma around_spec q : (inject_Z (around q) - (1 # 2) <= q <= inject_Z (around q) + (1 # 2))%Q.
Proof.
  unfold around. pose proof (Qfloor_le q) as L. pose proof (Qlt_floor q) as U. rewrite inject_Z_plus in U. set (f := Qfloor q) in *.
  destruct (Qle_bool (1 # 2) (q - inject_Z f)) eqn:A; cbn [negb].
  - apply Qle_bool_iff in A. destruct (Qle_bool (q - inject_Z f) (1 # 2)) eqn:B; cbn [negb].
    + apply Qle_bool_iff in B. destruct (Z.even f); rewrite ?inject_Z_plus; change (inject_Z 1) with 1%Q in *; lra.
    + rewrite inject_Z_plus. change (inject_Z 1) with 1%Q in *. assert (~ (q - inject_Z f <= 1 # 2)%Q) by (intros C; apply Qle_bool_iff in C; congruence). apply Qnot_le_lt in H. lra.
  - change (inject_Z 1) with 1%Q in *. assert (~ (1 # 2 <= q - inject_Z f)%Q) by (intros C; apply Qle_bool_iff in C; congruence). apply Qnot_le_lt in H. lra.
Qed.
(** A position lies in its pixel, which extends from (c - 1) pitch to c pitch. *)
Theorem C78_pixel x p : (0 < p)%Q -> let c := pixel_of x p in (inject_Z (c - 1) * p <= x <= inject_Z c * p)%Q /\ (Qabs (relative_position x p) <= p / 2)%Q.
Proof.
  intros Hp. cbv zeta. pose proof (around_spec (x / p - (1 # 2))) as A. unfold relative_position, pixel_of in *. set (a := around (x / p - (1 # 2))) in *.
  assert (E : (x == x / p * p)%Q) by (field; lra). set (y := (x / p)%Q) in *.
  assert (Z1 : (inject_Z (a + 1 - 1) == inject_Z a)%Q) by (replace (a + 1 - 1)%Z with a by lia; reflexivity). rewrite Z1, inject_Z_plus. change (inject_Z 1) with 1%Q.
  assert (H2 : (p / 2 == (1 # 2) * p)%Q) by field. rewrite H2, Qabs_Qle_condition, E. split; nra.
Qed.
(** Inside of a pixel the result is unique. *)
Theorem C78_pixel_unique x p k : (0 < p)%Q -> (inject_Z (k - 1) * p < x < inject_Z k * p)%Q -> pixel_of x p = k.
Proof.
  intros Hp H. destruct (C78_pixel x p Hp) as [A _]. set (c := pixel_of x p) in *. assert (inject_Z (k - 1) < inject_Z c)%Q by nra. assert (inject_Z (c - 1) < inject_Z k)%Q by nra.
  rewrite <- Zlt_Qlt in *. lia.
Qed.
(** On a border the pixel depends on the parity. *)
Theorem C78_border p k : (0 < p)%Q -> pixel_of (inject_Z k * p) p = (if Z.even k then k + 1 else k)%Z.
Proof.
  intros Hp. unfold pixel_of, around.
  assert (E : (inject_Z k * p / p - (1 # 2) == inject_Z (k - 1) + (1 # 2))%Q) by (unfold Z.sub; rewrite inject_Z_plus; simpl; field; lra).
  set (q := (inject_Z k * p / p - (1 # 2))%Q) in *.
  assert (F : Qfloor q = (k - 1)%Z).
  { rewrite E. pose proof (Qfloor_le (inject_Z (k - 1) + (1 # 2))) as L. pose proof (Qlt_floor (inject_Z (k - 1) + (1 # 2))) as U. set (f := Qfloor _) in *.
    assert (inject_Z f < inject_Z k)%Q by (assert (K : (inject_Z k == inject_Z (k - 1) + 1)%Q) by (change 1%Q with (inject_Z 1); rewrite <- inject_Z_plus; replace (k - 1 + 1)%Z with k by lia; reflexivity); rewrite K; lra).
    assert (inject_Z (k - 1) < inject_Z (f + 1))%Q by lra. rewrite <- Zlt_Qlt in *. lia. }
  rewrite F. assert (R : (q - inject_Z (k - 1) == 1 # 2)%Q) by (rewrite E; ring).
  assert (Qle_bool (1 # 2) (q - inject_Z (k - 1)) = true) as -> by (apply Qle_bool_iff; rewrite R; apply Qle_refl).
  assert (Qle_bool (q - inject_Z (k - 1)) (1 # 2) = true) as -> by (apply Qle_bool_iff; rewrite R; apply Qle_refl). cbn [negb].
  replace (Z.even (k - 1)) with (negb (Z.even k)) by (rewrite Z.even_sub; destruct (Z.even k); auto). destruct (Z.even k); cbn [negb]; lia.
Qed.
Example C78_pixel_example : pixel_of 120 50 = 3%Z /\ pixel_of 100 50 = 3%Z /\ pixel_of 50 50 = 1%Z /\ pixel_of (-20) 50 = 0%Z.
Proof. repeat split; reflexivity. Qed.

(** Inefficiency: the given number of hits is removed, the others stay in order. *)
Lemma efficient_events A (f : A -> Z) idx k l : StronglySorted Z.le (map f l) -> StronglySorted Z.le (map f (select_efficient idx k l)).
Proof.
  unfold select_efficient. intros S. rewrite map_map. apply (sorted_filter _ (fun x => f (snd x))).
  assert (E : map (fun x : nat * A => f (snd x)) (combine (seq 0 (length l)) l) = map f l).
  { generalize 0. clear S. induction l as [|a l IH]; intros n; simpl; auto. rewrite IH. auto. }
  rewrite E. auto.
Qed.
Lemma efficient_In A idx k (l : list A) x : In x (select_efficient idx k l) -> In x l.
Proof.
  unfold select_efficient. intros H. apply in_map_iff in H. destruct H as ([i y] & <- & H). apply filter_In in H. destruct H as [H _]. apply in_combine_r in H. auto.
Qed.
Lemma filter_length_compl A (p : A -> bool) l : length (filter p l) + length (filter (fun x => negb (p x)) l) = length l.
Proof. induction l as [|a l IH]; simpl; auto. destruct (p a); simpl; lia. Qed.
Theorem C78_efficiency A idx k (l : list A) : Permutation idx (seq 0 (length l)) -> k <= length l -> length (select_efficient idx k l) = length l - k.
Proof.
  intros P Hk. unfold select_efficient. rewrite map_length. set (bad := firstn k idx).
  assert (N : NoDup bad). { unfold bad. apply NoDup_firstn_. apply (Permutation_NoDup (Permutation_sym P)), seq_NoDup. }
  assert (Lb : length bad = k). { unfold bad. rewrite firstn_length. apply Permutation_length in P. rewrite seq_length in P. lia. }
  assert (Ib : forall i, In i bad -> i < length l). { intros i Hi. apply firstn_In in Hi. apply (Permutation_in _ P) in Hi. apply in_seq in Hi. lia. }
  assert (E : length (filter (fun il : nat * A => negb (existsb (Nat.eqb (fst il)) bad)) (combine (seq 0 (length l)) l)) = length (filter (fun i => negb (existsb (Nat.eqb i) bad)) (seq 0 (length l)))).
  { generalize 0. clear. induction l as [|a l IH]; intros n; simpl; auto. destruct (negb _); simpl; rewrite IH; auto. }
  rewrite E. pose proof (filter_length_compl _ (fun i => existsb (Nat.eqb i) bad) (seq 0 (length l))) as C. rewrite seq_length in C.
  assert (F : length (filter (fun i => existsb (Nat.eqb i) bad) (seq 0 (length l))) = k).
  { rewrite <- Lb. apply Permutation_length, NoDup_Permutation; auto; [apply NoDup_filter, seq_NoDup|]. intros i. rewrite filter_In, in_seq, existsb_exists. split.
    - intros [_ (j & Hj & Ej)]. apply Nat.eqb_eq in Ej. rewrite Ej. auto.
    - intros Hi. split; [pose proof (Ib i Hi); lia|]. exists i. split; auto. apply Nat.eqb_refl. }
  lia.
Qed.

Lemma noise_events on noise l : length noise = length l -> map fst (add_noise on noise l) = map fst l.
Proof.
  unfold add_noise. destruct on; auto. rewrite map_map. revert noise. induction l as [|h l IH]; intros [|q noise] L; simpl in *; try discriminate; auto. rewrite IH; auto.
Qed.
Lemma noise_In on noise l e p q : In (e, (p, q)) (add_noise on noise l) -> exists q', In (e, (p, q')) l.
Proof.
  unfold add_noise. destruct on; eauto. intros H. apply in_map_iff in H. destruct H as ([[e' [p' q']] v] & E & H). simpl in E. injection E as -> -> _. apply in_combine_l in H. eauto.
Qed.

(** Without a threshold the part of the hits on the sensor given by the efficiency is kept, rounded up to a whole hit. *)
Theorem C78_kept d eff idx noise hits l : (forall k, length (noise k) = k) -> (forall k, Permutation (idx k) (seq 0 k)) -> (0 <= eff <= 1)%Q -> threshold d = 0%Q -> digitize d eff idx noise hits = Some l ->
  let n := inject_Z (Z.of_nat (length (filter (inside d) (concat (map (hits_of d) hits))))) in (n * eff <= inject_Z (Z.of_nat (length l)) < n * eff + 1)%Q.
Proof.
  intros Ln Pi (E0 & E1) T H. unfold digitize in H. rewrite T in H. destruct (_ && _); [discriminate|]. set (a := filter (inside d) _) in *. clearbody a. cbv zeta. injection H as <-.
  unfold above_threshold. cbn [Qeq_bool Qnum Qden Z.mul Zeq_bool Z.compare]. change (Qeq_bool 0 0) with true. cbv iota.
  assert (A : forall m, length (add_noise (noise_on d) (noise (length m)) m) = length m).
  { intros m. unfold add_noise. destruct (noise_on d); auto. rewrite map_length, combine_length, Ln. lia. }
  rewrite A. clear A. destruct (Qle_bool 1 eff) eqn:Q1.
  - apply Qle_bool_iff in Q1. assert (E : (eff == 1)%Q) by lra. rewrite E, Qmult_1_r. split; lra.
  - set (n := length a). set (k := removed_hits eff n).
    assert (F := Qfloor_le (inject_Z (Z.of_nat n) * (1 - eff))). assert (G := Qlt_floor (inject_Z (Z.of_nat n) * (1 - eff))).
    assert (N0 : (0 <= inject_Z (Z.of_nat n))%Q) by (rewrite <- (Zle_Qle 0); lia).
    assert (P : (0 <= inject_Z (Z.of_nat n) * (1 - eff))%Q) by (apply Qmult_le_0_compat; lra).
    assert (Z0 : (0 <= Qfloor (inject_Z (Z.of_nat n) * (1 - eff)))%Z) by (change 0%Z with (Qfloor 0); now apply Qfloor_resp_le).
    assert (K : (Z.of_nat k = Qfloor (inject_Z (Z.of_nat n) * (1 - eff)))%Z) by (unfold k, removed_hits; lia).
    rewrite <- K in *. rewrite inject_Z_plus in G. assert (B : (inject_Z (Z.of_nat n) * eff >= 0)%Q) by (apply Qmult_le_0_compat; lra).
    assert (Kn : k <= n). { apply Nat2Z.inj_le. rewrite Zle_Qle. lra. }
    rewrite C78_efficiency by (auto; apply Pi). fold n. rewrite Nat2Z.inj_sub by exact Kn. unfold Z.sub. rewrite inject_Z_plus, inject_Z_opp. change (inject_Z 1) with 1%Q in G. split; lra.
Qed.
Example C78_kept_ex : exists d eff idx noise hits l, (forall k, length (noise k) = k) /\ (forall k, Permutation (idx k) (seq 0 k)) /\ (0 <= eff <= 1)%Q /\ threshold d = 0%Q /\
  digitize d eff idx noise hits = Some l /\ length (concat (map (hits_of d) hits)) = 3 /\ length l = 2.
Proof.
  exists (SimDut 10 10 5 5 0 false false), (1 # 2), (fun k => seq 0 k), (fun k => repeat 0%Q k), (repeat (McHit 0 5 5 10 (fun _ _ _ _ => 0%Q)) 3).
  eexists. split; [intros; apply repeat_length|]. split; [reflexivity|]. split; [lra|]. split; [reflexivity|]. split; [reflexivity|]. split; reflexivity.
Qed.

(** The stored hits are sorted by event number; each is in the sensor, belongs to a track of its event, and its
    charge is at least the threshold (unless this is zero). *)
Theorem C78_hits d eff idx noise hits l : (forall k, length (noise k) = k) -> StronglySorted Z.le (map mc_event hits) -> digitize d eff idx noise hits = Some l ->
  StronglySorted Z.le (map fst l) /\
  forall e c r q, In (e, (c, r, q)) l -> (1 <= c <= n_x d)%Z /\ (1 <= r <= n_y d)%Z /\
    (~ (threshold d == 0)%Q -> (threshold d <= q)%Q) /\ exists h, In h hits /\ mc_event h = e.
Proof.
  intros Ln S. unfold digitize. destruct (_ && _); [discriminate|]. set (all := concat (map (hits_of d) hits)). set (l0 := filter (inside d) all). set (l1 := if Qle_bool 1 eff then _ else _).
  intros E. injection E as <-.
  assert (Ev : forall h x, In x (hits_of d h) -> fst x = mc_event h).
  { intros h x Hx. unfold hits_of in Hx. apply in_map_iff in Hx. destruct Hx as (p & <- & _). auto. }
  assert (S0 : StronglySorted Z.le (map fst all)).
  { unfold all. clear -S Ev. induction hits as [|h hits IH]; simpl; [constructor|]. inversion S as [|? ? S1 F]; subst. rewrite map_app. apply sorted_app; auto.
    - assert (G : forall k : list event_hit, (forall x, In x k -> fst x = mc_event h) -> StronglySorted Z.le (map fst k)).
      { induction k as [|x k IHk]; simpl; intros Hk; constructor; [apply IHk; auto|]. apply Forall_forall. intros y Hy. apply in_map_iff in Hy. destruct Hy as (z & <- & Hz). rewrite (Hk x), (Hk z); auto; lia. }
      apply G, Ev.
    - intros a b Ha Hb. apply in_map_iff in Ha. destruct Ha as (x & <- & Hx). rewrite (Ev h x Hx). apply in_map_iff in Hb. destruct Hb as (y & <- & Hy). apply in_concat in Hy. destruct Hy as (m & Hm & Hy).
      apply in_map_iff in Hm. destruct Hm as (h' & <- & Hh). rewrite (Ev h' y Hy). rewrite Forall_forall in F. apply F, in_map. auto. }
  assert (S1 : StronglySorted Z.le (map fst l1)) by (unfold l1; destruct (Qle_bool 1 eff); [|apply efficient_events]; apply sorted_filter; auto).
  assert (I1 : forall x, In x l1 -> In x l0) by (unfold l1; destruct (Qle_bool 1 eff); auto; intros x; apply efficient_In).
  set (l2 := add_noise _ _ _). assert (S2 : StronglySorted Z.le (map fst l2)) by (unfold l2; rewrite noise_events; auto).
  split.
  - unfold above_threshold. destruct (Qeq_bool _ _); auto. apply sorted_filter. auto.
  - intros e c r q Hin. assert (In (e, (c, r, q)) l2 /\ (~ (threshold d == 0)%Q -> (threshold d <= q)%Q)) as [H2 T].
    { unfold above_threshold in Hin. destruct (Qeq_bool (threshold d) 0) eqn:T; [apply Qeq_bool_iff in T; split; auto; intros N; contradiction|]. apply filter_In in Hin. destruct Hin as [A B]. apply Qle_bool_iff in B. auto. }
    apply noise_In in H2. destruct H2 as (q' & H2). apply I1, filter_In in H2. destruct H2 as [H2 H3]. unfold inside, hit_column, hit_row in H3. cbn [fst snd] in H3.
    rewrite !andb_true_iff, !Z.ltb_lt, !Z.leb_le in H3. unfold all in H2. apply in_concat in H2. destruct H2 as (m & Hm & Hy). apply in_map_iff in Hm. destruct Hm as (h & <- & Hh).
    pose proof (Ev h _ Hy). cbn [fst] in H. repeat split; try lia; auto. exists h. auto.
Qed.
(** The file of a DUT is sorted by event number over all chunks. *)
Theorem C78_table d eff idx noise hits n c draws l : (forall i k, length (noise i k) = k) -> (forall i, length (draws i) = chunk_events n c) ->
  (forall i, map mc_event (hits i) = event_numbers (Z.of_nat (i * chunk_events n c)) (draws i)) ->
  hit_table n c (fun i => digitize d eff (idx i) (noise i) (hits i)) = Some l -> StronglySorted Z.le (map fst l).
Proof.
  intros Ln L Hh. unfold hit_table. destruct (n_chunks n c) as [k|]; [|discriminate]. set (m := chunk_events n c) in *. generalize 0. revert l.
  assert (G : forall k a l, fold_right (fun i acc => match digitize d eff (idx i) (noise i) (hits i), acc with Some x, Some y => Some (x ++ y) | _, _ => None end) (Some []) (seq a k) = Some l ->
    StronglySorted Z.le (map fst l) /\ forall e, In e (map fst l) -> (Z.of_nat (a * m) <= e)%Z).
  { clear k. induction k as [|k IH]; intros a l E; cbn [seq fold_right] in E; [injection E as <-; split; [constructor|intros e []]|].
    destruct (digitize d eff (idx a) (noise a) (hits a)) as [x|] eqn:D; [|discriminate]. destruct (fold_right _ _ _) as [y|] eqn:Fy; [|discriminate]. injection E as <-.
    destruct (IH _ _ Fy) as [S1 B1]. destruct (C78_hits d eff (idx a) (noise a) (hits a) x) as [S0 P0]; auto; [rewrite Hh; apply events_sorted|].
    assert (B0 : forall e, In e (map fst x) -> (Z.of_nat (a * m) <= e < Z.of_nat (a * m) + Z.of_nat m)%Z).
    { intros e He. apply in_map_iff in He. destruct He as ([e' [[cc r] q]] & <- & Hx). destruct (P0 _ _ _ _ Hx) as (_ & _ & _ & h & Hin & <-). apply (in_map mc_event) in Hin. rewrite Hh in Hin. apply events_range in Hin. rewrite L in Hin. auto. }
    rewrite map_app. split.
    - apply sorted_app; auto. intros u v Hu Hv. apply B0 in Hu. apply B1 in Hv. lia.
    - intros e He. apply in_app_or in He. destruct He as [He|He]; [apply B0 in He; lia|apply B1 in He; lia]. }
  intros l a E. apply (G k a l). exact E.
Qed.
Definition ex_dut := SimDut 50 50 10 10 20 true true.
Definition ex_fraction : Q -> Q -> Z -> Z -> Q := fun _ _ i j => match i, j with 0, 0 => 7 # 10 | 1, 0 => 2 # 10 | _, _ => 1 # 1000 end%Z.
Example C78_example : digitize ex_dut 1 (fun _ => []) (fun k => repeat (-5)%Q k) [McHit 3 120 120 100 ex_fraction; McHit 4 490 10 100 ex_fraction; McHit 4 30 10 100 ex_fraction] =
  Some [(3%Z, (3%Z, 3%Z, ((7 # 10) * 100 + -5)%Q)); (4%Z, (1%Z, 1%Z, ((7 # 10) * 100 + -5)%Q))].
Proof. vm_compute. reflexivity. Qed.
(** With a threshold of zero hits can have a negative charge. *)
Theorem C78_negative_charge_refuted : exists d eff idx noise hits e c r q, (forall k, length (noise k) = k) /\ threshold d = 0%Q /\ digitize d eff idx noise hits = Some [(e, (c, r, q))] /\ (q < 0)%Q.
Proof.
  exists (SimDut 50 50 10 10 0 true false), 1%Q, (fun _ => []), (fun k => repeat (-120)%Q k), [McHit 3 120 120 100 ex_fraction], 3%Z, 3%Z, 3%Z, (100 + -120)%Q.
  split; [intros; apply repeat_length|]. split; [reflexivity|]. split; [reflexivity|]. reflexivity.
Qed.

(** * C79: the number of DUTs *)
(** Raising n_duts resets the settings with the old number of DUTs, so that the simulation fails; with a lower number the first DUTs are simulated. *)
Theorem C79_n_duts A (hits : Z -> A) n value : files_of_duts (set_n_duts (std_settings n) value) hits =
  if n <? value then None else Some (map (fun i => hits (Z.of_nat i * 10000)%Z) (seq 0 value)).
Proof.
  unfold files_of_duts, set_n_duts. cbn [sim_n_duts z_positions].
  assert (E : z_positions (if sim_n_duts (std_settings n) <? value then std_settings (sim_n_duts (std_settings n)) else std_settings n) = map (fun i => (Z.of_nat i * 10000)%Z) (seq 0 n)) by (destruct (_ <? _); auto).
  rewrite E, !map_length, seq_length. destruct (Nat.ltb_spec n value); auto. f_equal. rewrite map_map, firstn_map. f_equal.
  replace n with (value + (n - value)) by lia. rewrite seq_app, firstn_app, seq_length, Nat.sub_diag. simpl. rewrite app_nil_r. apply firstn_all2. rewrite seq_length. auto.
Qed.
(** Setting the number twice, first lower, changes nothing of this. *)
Theorem C79_more_duts_refuted : exists value, files_of_duts (set_n_duts (std_settings 6) value) (fun z => z) = None /\ files_of_duts (set_n_duts (set_n_duts (std_settings 6) value) value) (fun z => z) = None.
Proof. exists 7. split; reflexivity. Qed.

Print Assumptions C77_pixels.
Print Assumptions C77_last_column.
Print Assumptions C77_seed.
Print Assumptions C77_charge.
Print Assumptions C77_no_diffusion.
Print Assumptions C77_double_charge_refuted.
Print Assumptions C77_last_column_refuted.
Print Assumptions C77_loss_refuted.
Print Assumptions C78_pixel.
Print Assumptions C78_pixel_unique.
Print Assumptions C78_border.
Print Assumptions C78_efficiency.
Print Assumptions C78_kept.
Print Assumptions C78_hits.
Print Assumptions C78_table.
Print Assumptions C78_negative_charge_refuted.
Print Assumptions C79_n_duts.
Print Assumptions C79_more_duts_refuted.
