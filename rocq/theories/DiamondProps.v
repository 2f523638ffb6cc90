(** Property C97: the pixel positions of the diamond sensors *)
From Coq Require Import ZArith QArith Bool List Lia.
From Verif Require Import DiamondModel.
Import ListNotations.
Local Open Scope Z_scope.

(** Specification.  Pixels are pairs of integer indices; positions are in nm. *)
Definition is_pixel (c r : Z) : Prop := 1 <= c <= 80 /\ 1 <= r <= 336.
Definition on_diamond (p q c r : Z) : Prop := p <= c < p + 12 /\ q <= r < q + 62.
Definition center (c r : Z) : Z * Z := (250000 * c - 10125000, 50000 * r - 8425000).
Definition dist2 (u v : Z * Z) : Z := (fst u - fst v) * (fst u - fst v) + (snd u - snd v) * (snd u - snd v).
Notation position := (diamond_position 1).

(** The position relative to the pixel (p, q), of the pixel (p + a, q + b); odd: p is odd *)
Definition rel (pseudo odd : bool) (a b : Z) : Z * Z :=
  let xy := (250000 * a + (if Bool.eqb odd (Z.odd a) then 100000 else -100000), 50000 * b) in
  let mv (sel : bool) dx dy (p : Z * Z) := if sel then (fst p + dx, snd p + dy) else p in
  let tab (m : Z) t (sel : bool) b (p : Z * Z) :=
    fold_left (fun p e => match e with (i, j, dx, dy) => mv (sel && (a mod 4 =? i) && (b mod m =? j)) dx dy p end) t p in
  let sq := (0 <=? a) && (a <? 12) && ((0 <=? b) && (b <? 30)) && (pseudo || negb (square_defects 1 0 0 a b)) in
  let hx := (0 <=? a) && (a <? 12) && ((30 <=? b) && (b <? 62)) && (pseudo || negb (hexagonal_defects 1 0 0 a b)) in
  tab 4 hexagonal hx (b - 30) (tab 2 (if pseudo then square_pseudo else square_3d) sq b xy).

Lemma some_inj {A} (a b : A) : Some a = Some b -> a = b.
Proof. congruence. Qed.
Lemma fold_ext {A B} (f g : A -> B -> A) l : (forall a b, f a b = g a b) -> forall a, fold_left f l a = fold_left g l a.
Proof. intros H; induction l as [|b l IH]; intros a; cbn; [reflexivity|rewrite H; apply IH]. Qed.
Lemma fold_shift t (m : Z) sel a b (u v : Z) : forall x y,
  fold_left (fun (p : Z * Z) e => match e with (i, j, dx, dy) =>
     if sel && (a mod 4 =? i) && (b mod m =? j) then (fst p + dx, snd p + dy) else p end) t (x + u, y + v) =
  (fst (fold_left (fun (p : Z * Z) e => match e with (i, j, dx, dy) =>
     if sel && (a mod 4 =? i) && (b mod m =? j) then (fst p + dx, snd p + dy) else p end) t (x, y)) + u,
   snd (fold_left (fun (p : Z * Z) e => match e with (i, j, dx, dy) =>
     if sel && (a mod 4 =? i) && (b mod m =? j) then (fst p + dx, snd p + dy) else p end) t (x, y)) + v).
Proof.
  induction t as [|[[[i j] dx] dy] t IH]; intros x y; cbn [fold_left]; [reflexivity|].
  destruct (sel && (a mod 4 =? i) && (b mod m =? j)); cbn [fst snd]; [|apply IH].
  rewrite <- IH; do 2 f_equal; ring.
Qed.

Lemma within_1 i o lo hi : within 1 i o lo hi = (lo <=? i - o) && (i - o <? hi).
Proof.
  unfold within; rewrite !Z.mul_1_r; f_equal; apply eq_true_iff_eq; rewrite ?Z.leb_le, ?Z.ltb_lt; lia.
Qed.
Lemma equals_1 i o k : equals 1 i o k = (i - o =? k).
Proof. unfold equals; rewrite !Z.mul_1_r; apply eq_true_iff_eq; rewrite !Z.eqb_eq; lia. Qed.

Lemma position_rel pseudo p q c r : is_pixel c r ->
  position pseudo p q c r = Some (let u := rel pseudo (Z.odd p) (c - p) (r - q) in (fst u + (250000 * p - 10125000), snd u + (50000 * q - 8425000))).
Proof.
  intros [Hc Hr]; unfold diamond_position, fei4_position.
  replace ((1 <=? 2 * c) && (2 * c <=? 161 * 1) && (1 <=? 2 * r) && (2 * r <=? 673 * 1)) with true
    by (symmetry; rewrite !andb_true_iff, !Z.leb_le; lia).
  f_equal.
  assert (E : forall m t sel b0 xy, apply_table 1 m t sel p b0 c r xy =
    fold_left (fun (p0 : Z * Z) e => match e with (i, j, dx, dy) =>
     if sel && ((c - p) mod 4 =? i) && ((r - b0) mod m =? j) then (fst p0 + dx, snd p0 + dy) else p0 end) t xy).
  { intros; unfold apply_table, move, residue; apply fold_ext; intros [x y] [[[i j] dx] dy].
    rewrite !Z.mul_1_r; reflexivity. }
  rewrite !E; clear E.
  assert (S1 : square_defects 1 p q c r = square_defects 1 0 0 (c - p) (r - q)).
  { unfold square_defects; rewrite !within_1, !equals_1, !Z.sub_0_r; reflexivity. }
  assert (S2 : hexagonal_defects 1 p q c r = hexagonal_defects 1 0 0 (c - p) (r - q)).
  { unfold hexagonal_defects; rewrite !within_1, !equals_1, !Z.sub_0_r; reflexivity. }
  unfold in_square, in_hexagonal; rewrite !within_1, S1, S2; clear S1 S2.
  assert (B : move 1 (residue 1 c 0 2 0) 100000 0 (move 1 (residue 1 c 0 2 1) (-100000) 0 (125000 * (2 * c - 81 * 1), 25000 * (2 * r - 337 * 1))) =
     (250000 * (c - p) + (if Bool.eqb (Z.odd p) (Z.odd (c - p)) then 100000 else -100000) + (250000 * p - 10125000), 50000 * (r - q) + (50000 * q - 8425000))).
  { unfold move, residue; rewrite Z.odd_sub; replace (c - 0 * 1) with c by ring; change (2 * 1) with 2.
    rewrite Zmod_odd; destruct (Z.odd c), (Z.odd p); change (0 * 1) with 0; change (1 * 1) with 1; cbn [Z.eqb Pos.eqb xorb Bool.eqb fst snd]; f_equal; lia. }
  rewrite B; clear B; unfold rel; rewrite fold_shift; cbn beta zeta.
  destruct (fold_left _ (if pseudo then _ else _) _) as [x y]; cbn [fst snd].
  rewrite fold_shift; cbn [fst snd]; replace (r - (q + 30)) with (r - q - 30) by ring; reflexivity.
Qed.

(** All integers lo <= i < lo + n satisfy f *)
Fixpoint all_from (n : nat) (lo : Z) (f : Z -> bool) : bool :=
  match n with O => true | S n => f lo && all_from n (lo + 1) f end.
Lemma all_from_spec n : forall lo f, all_from n lo f = true -> forall i, lo <= i < lo + Z.of_nat n -> f i = true.
Proof.
  induction n as [|n IH]; intros lo f H i Hi; [lia|]; cbn [all_from] in H; apply andb_prop in H as [H1 H2].
  destruct (Z.eq_dec i lo) as [->|]; [exact H1|]; apply (IH (lo + 1) f H2); lia.
Qed.

(** Pixels of the diamond with all pixels close to them *)
Definition check_pairs (pseudo odd : bool) (da db : Z) (f : Z * Z -> Z * Z -> bool) : bool :=
  all_from 12 0 (fun a => all_from 62 0 (fun b => let u := rel pseudo odd a b in
    all_from (Z.to_nat (2 * da + 1)) (- da) (fun i => all_from (Z.to_nat (2 * db + 1)) (- db) (fun j =>
      ((i =? 0) && (j =? 0)) || f u (rel pseudo odd (a + i) (b + j)))))).
Lemma check_pairs_spec pseudo odd da db f : 0 <= da -> 0 <= db -> check_pairs pseudo odd da db f = true ->
  forall a b a' b', 0 <= a < 12 -> 0 <= b < 62 -> Z.abs (a' - a) <= da -> Z.abs (b' - b) <= db -> (a, b) <> (a', b') ->
  f (rel pseudo odd a b) (rel pseudo odd a' b') = true.
Proof.
  intros Hda Hdb H a b a' b' Ha Hb Hi Hj N; unfold check_pairs in H.
  apply all_from_spec with (i := a) in H; [|lia]; apply all_from_spec with (i := b) in H; [|lia].
  apply all_from_spec with (i := a' - a) in H; [|lia]; apply all_from_spec with (i := b' - b) in H; [|lia].
  apply orb_prop in H as [H|H].
  - apply andb_prop in H as [H1 H2]; apply Z.eqb_eq in H1, H2; destruct N; f_equal; lia.
  - replace a' with (a + (a' - a)) by ring; replace b' with (b + (b' - b)) by ring; exact H.
Qed.

Lemma rel_outside pseudo odd a b : ~ (0 <= a < 12 /\ 0 <= b < 62) ->
  rel pseudo odd a b = (250000 * a + (if Bool.eqb odd (Z.odd a) then 100000 else -100000), 50000 * b).
Proof.
  intros H; unfold rel.
  assert (E : forall (lo hi : Z) (rest : bool), 0 <= lo -> hi <= 62 -> (0 <=? a) && (a <? 12) && ((lo <=? b) && (b <? hi)) && rest = false).
  { intros lo hi rest H1 H2; apply not_true_iff_false; intros C; repeat (apply andb_prop in C as [C ?]).
    repeat match goal with X : (_ && _) = true |- _ => apply andb_prop in X as [? ?] end.
    repeat match goal with X : (_ <=? _) = true |- _ => apply Z.leb_le in X | X : (_ <? _) = true |- _ => apply Z.ltb_lt in X end; lia. }
  rewrite !E by lia; destruct pseudo; reflexivity.
Qed.

(** Bounds of the displacements *)
Definition bounds_ok (pseudo odd : bool) a b : bool := let u := rel pseudo odd a b in
  (negb odd || (Z.abs (fst u - 250000 * a) <=? 125000)) && (Z.abs (fst u - 250000 * a) <=? 325000) && (-25000 <=? snd u - 50000 * b) && (snd u - 50000 * b <=? 75000).
Lemma bounds_all pseudo odd : all_from 12 0 (fun a => all_from 62 0 (bounds_ok pseudo odd a)) = true.
Proof. destruct pseudo, odd; vm_compute; reflexivity. Qed.
Lemma bounds_in pseudo odd a b : 0 <= a < 12 -> 0 <= b < 62 -> bounds_ok pseudo odd a b = true.
Proof.
  intros Ha Hb; assert (H := all_from_spec _ _ _ (bounds_all pseudo odd) a ltac:(lia)).
  exact (all_from_spec _ _ _ H b ltac:(lia)).
Qed.
Lemma rel_bounds pseudo odd a b : let u := rel pseudo odd a b in
  (odd = true -> Z.abs (fst u - 250000 * a) <= 125000) /\ Z.abs (fst u - 250000 * a) <= 325000 /\ -25000 <= snd u - 50000 * b <= 75000.
Proof.
  destruct (Z_lt_le_dec a 0) as [|A1]; [|destruct (Z_lt_le_dec a 12) as [A2|]; [destruct (Z_lt_le_dec b 0) as [|B1]; [|destruct (Z_lt_le_dec b 62) as [B2|]]|]].
  all: try (rewrite rel_outside by lia; cbn [fst snd]; destruct (Bool.eqb _ _); lia).
  assert (H := bounds_in pseudo odd a b ltac:(lia) ltac:(lia)); unfold bounds_ok in H; revert H.
  generalize (rel pseudo odd a b); intros u H; cbv zeta in *; repeat (apply andb_prop in H as [H ?]).
  repeat match goal with X : (_ <=? _) = true |- _ => apply Z.leb_le in X end.
  split; [|lia]; intros ->; cbn [negb orb] in H; apply Z.leb_le in H; exact H.
Qed.

Lemma sq_ge x k : 0 <= k -> k <= Z.abs x -> k * k <= x * x.
Proof. intros; rewrite <- (Z.abs_square x); nia. Qed.
Lemma dist2_x u v k : 0 <= k -> k <= Z.abs (fst u - fst v) -> k * k <= dist2 u v.
Proof. intros K H; apply sq_ge in H; [|exact K]; unfold dist2; pose proof (Z.square_nonneg (snd u - snd v)); lia. Qed.
Lemma dist2_y u v k : 0 <= k -> k <= Z.abs (snd u - snd v) -> k * k <= dist2 u v.
Proof. intros K H; apply sq_ge in H; [|exact K]; unfold dist2; pose proof (Z.square_nonneg (fst u - fst v)); lia. Qed.
Lemma dist2_sym u v : dist2 u v = dist2 v u.
Proof. unfold dist2; ring. Qed.

Lemma outside_apart pseudo odd a b a' b' : ~ (0 <= a < 12 /\ 0 <= b < 62) -> ~ (0 <= a' < 12 /\ 0 <= b' < 62) -> (a, b) <> (a', b') ->
  50000 * 50000 <= dist2 (rel pseudo odd a b) (rel pseudo odd a' b').
Proof.
  intros H H' N; rewrite !rel_outside by assumption.
  destruct (Z.eq_dec b b') as [->|].
  - apply dist2_x; [lia|]; cbn [fst]; assert (a <> a') by congruence; destruct (Bool.eqb odd (Z.odd a)), (Bool.eqb odd (Z.odd a')); lia.
  - apply dist2_y; [lia|]; cbn [snd]; lia.
Qed.

Lemma check_apart pseudo : check_pairs pseudo true 1 2 (fun u v => 50000 * 50000 <=? dist2 u v) = true.
Proof. destruct pseudo; vm_compute; reflexivity. Qed.
Lemma apart_in pseudo a b a' b' : 0 <= a < 12 /\ 0 <= b < 62 -> (a, b) <> (a', b') ->
  50000 * 50000 <= dist2 (rel pseudo true a b) (rel pseudo true a' b').
Proof.
  intros [Ha Hb] N.
  destruct (rel_bounds pseudo true a b) as (X & _ & Y), (rel_bounds pseudo true a' b') as (X' & _ & Y'); specialize (X eq_refl); specialize (X' eq_refl).
  destruct (Z_le_dec (Z.abs (a' - a)) 1); [|apply dist2_x; lia].
  destruct (Z_le_dec (Z.abs (b' - b)) 2); [|apply dist2_y; lia].
  apply Z.leb_le; apply (check_pairs_spec pseudo true 1 2 (fun u v => 50000 * 50000 <=? dist2 u v)); try lia; try assumption; apply check_apart.
Qed.
Lemma check_distinct pseudo odd : check_pairs pseudo odd 2 2 (fun u v => 1 <=? dist2 u v) = true.
Proof. destruct pseudo, odd; vm_compute; reflexivity. Qed.
Lemma distinct_in pseudo odd a b a' b' : 0 <= a < 12 /\ 0 <= b < 62 -> (a, b) <> (a', b') ->
  1 <= dist2 (rel pseudo odd a b) (rel pseudo odd a' b').
Proof.
  intros [Ha Hb] N.
  destruct (rel_bounds pseudo odd a b) as (_ & X & Y), (rel_bounds pseudo odd a' b') as (_ & X' & Y').
  destruct (Z_le_dec (Z.abs (a' - a)) 2); [|change 1 with (1 * 1); apply dist2_x; lia].
  destruct (Z_le_dec (Z.abs (b' - b)) 2); [|change 1 with (1 * 1); apply dist2_y; lia].
  apply Z.leb_le; apply (check_pairs_spec pseudo odd 2 2 (fun u v => 1 <=? dist2 u v)); try lia; try assumption; apply check_distinct.
Qed.

Lemma both_cases (P : Z -> Z -> Z -> Z -> Prop) : (forall a b a' b', P a b a' b' -> P a' b' a b) ->
  (forall a b a' b', 0 <= a < 12 /\ 0 <= b < 62 -> (a, b) <> (a', b') -> P a b a' b') ->
  (forall a b a' b', ~ (0 <= a < 12 /\ 0 <= b < 62) -> ~ (0 <= a' < 12 /\ 0 <= b' < 62) -> (a, b) <> (a', b') -> P a b a' b') ->
  forall a b a' b', (a, b) <> (a', b') -> P a b a' b'.
Proof.
  intros S I O a b a' b' N.
  assert (D : forall a b, {0 <= a < 12 /\ 0 <= b < 62} + {~ (0 <= a < 12 /\ 0 <= b < 62)}).
  { clear; intros a b; destruct (Z_le_dec 0 a), (Z_lt_dec a 12), (Z_le_dec 0 b), (Z_lt_dec b 62); (left; lia) || (right; lia). }
  destruct (D a b); [apply I; assumption|]; destruct (D a' b'); [apply S, I; congruence|apply O; assumption].
Qed.

(** Different pixels have different positions, wherever the diamond is; if the first column of the diamond is odd, they are at least 50 um apart *)
Theorem C97_distinct : forall pseudo p q c r c' r', is_pixel c r -> is_pixel c' r' -> (c, r) <> (c', r') ->
  position pseudo p q c r <> None /\ position pseudo p q c r <> position pseudo p q c' r'.
Proof.
  intros pseudo p q c r c' r' H H' N; rewrite !position_rel by assumption; split; [discriminate|]; cbv zeta.
  assert (G : 1 <= dist2 (rel pseudo (Z.odd p) (c - p) (r - q)) (rel pseudo (Z.odd p) (c' - p) (r' - q))).
  { apply (both_cases (fun a b a' b' => 1 <= dist2 (rel pseudo (Z.odd p) a b) (rel pseudo (Z.odd p) a' b'))).
    - intros a b a' b'; rewrite dist2_sym; trivial.
    - intros; apply distinct_in; assumption.
    - intros; eapply Z.le_trans; [|apply outside_apart; assumption]; lia.
    - intros E; injection E as ? ?; apply N; f_equal; lia. }
  revert G; generalize (rel pseudo (Z.odd p) (c - p) (r - q)) (rel pseudo (Z.odd p) (c' - p) (r' - q)); intros [x y] [x' y'] G E.
  cbn [fst snd] in E; apply some_inj in E; apply pair_equal_spec in E as [E1 E2]; assert (x = x') by lia; assert (y = y') by lia; subst; revert G; unfold dist2; cbn [fst snd]; lia.
Qed.
Theorem C97_apart : forall pseudo p q c r c' r' u v, Z.odd p = true -> is_pixel c r -> is_pixel c' r' -> (c, r) <> (c', r') ->
  position pseudo p q c r = Some u -> position pseudo p q c' r' = Some v -> 50000 * 50000 <= dist2 u v.
Proof.
  intros pseudo p q c r c' r' u v O H H' N; rewrite !position_rel, O by assumption; cbv zeta.
  assert (G : 50000 * 50000 <= dist2 (rel pseudo true (c - p) (r - q)) (rel pseudo true (c' - p) (r' - q))).
  { apply (both_cases (fun a b a' b' => 50000 * 50000 <= dist2 (rel pseudo true a b) (rel pseudo true a' b'))).
    - intros a b a' b'; rewrite dist2_sym; trivial.
    - intros; apply apart_in; assumption.
    - intros; apply outside_apart; assumption.
    - intros E; injection E as ? ?; apply N; f_equal; lia. }
  revert G; generalize (rel pseudo true (c - p) (r - q)) (rel pseudo true (c' - p) (r' - q)); intros [x y] [x' y'] G E E'.
  cbn [fst snd] in E, E'; apply some_inj in E, E'; subst u v; revert G; unfold dist2; cbn [fst snd].
  replace (x + (250000 * p - 10125000) - (x' + (250000 * p - 10125000))) with (x - x') by ring.
  replace (y + (50000 * q - 8425000) - (y' + (50000 * q - 8425000))) with (y - y') by ring; intros G; exact G.
Qed.

(** The electrode is within half of a column of the center of its pixel if the first column of the diamond is odd; outside of the diamond the position is that of the
    bump bond, 100 um from the center towards the neighbour in the double column *)
Theorem C97_displacement : forall pseudo p q c r u, is_pixel c r -> position pseudo p q c r = Some u ->
  (Z.odd p = true -> Z.abs (fst u - fst (center c r)) <= 125000) /\ -25000 <= snd u - snd (center c r) <= 75000 /\
  (~ on_diamond p q c r -> u = (fst (center c r) + (if Z.odd c then -100000 else 100000), snd (center c r))).
Proof.
  intros pseudo p q c r u H; rewrite position_rel by exact H; cbv zeta.
  pose proof (rel_bounds pseudo (Z.odd p) (c - p) (r - q)) as B; pose proof (rel_outside pseudo (Z.odd p) (c - p) (r - q)) as O'; revert B O'.
  generalize (rel pseudo (Z.odd p) (c - p) (r - q)); intros [x y] (X & _ & Y) O' E; cbn [fst snd] in *; apply some_inj in E; subst u; unfold center; cbn [fst snd].
  split; [intros O; specialize (X O)|split]; try lia.
  intros O; specialize (O' ltac:(unfold on_diamond in O; lia)); rewrite Z.odd_sub in O'; apply pair_equal_spec in O' as [-> ->].
  f_equal; [|lia]; destruct (Z.odd c), (Z.odd p); cbn [xorb Bool.eqb]; lia.
Qed.

(** Specification of the electrodes.  Areas are (first column, last column, first row, last row), relative to the position of the diamond. *)
Definition in_area (a b : Z) (f : Z * Z * Z * Z) : Prop := match f with (a1, a2, b1, b2) => a1 <= a <= a2 /\ b1 <= b <= b2 end.
Definition in_areab (a b : Z) (f : Z * Z * Z * Z) : bool := match f with (a1, a2, b1, b2) => (a1 <=? a) && (a <=? a2) && (b1 <=? b) && (b <=? b2) end.
Definition defects (pseudo : bool) : list (Z * Z * Z * Z) :=
  if pseudo then [] else [(1, 1, 8, 11); (4, 4, 12, 15); (3, 3, 24, 29); (8, 8, 0, 7); (10, 11, 8, 17); (10, 11, 30, 30); (10, 11, 32, 34)].
(** Pixels with an electrode: in groups of four columns and two (four) rows, two are without electrode *)
Definition square_electrode (pseudo : bool) (a b : Z) : Prop := in_area a b (0, 11, 0, 29) /\ (forall f, In f (defects pseudo) -> ~ in_area a b f) /\
  ~ (a mod 4 = 1 /\ b mod 2 = 0) /\ ~ (a mod 4 = 2 /\ b mod 2 = if pseudo then 1 else 0).
Definition hexagonal_electrode (pseudo : bool) (a b : Z) : Prop := in_area a b (0, 11, 30, 61) /\ (forall f, In f (defects pseudo) -> ~ in_area a b f) /\
  ~ ((a mod 4 = 0 \/ a mod 4 = 3) /\ b mod 4 = 1).
Definition square_electrodeb (pseudo : bool) (a b : Z) : bool := in_areab a b (0, 11, 0, 29) && negb (existsb (in_areab a b) (defects pseudo)) &&
  negb ((a mod 4 =? 1) && (b mod 2 =? 0)) && negb ((a mod 4 =? 2) && (b mod 2 =? if pseudo then 1 else 0)).
Definition hexagonal_electrodeb (pseudo : bool) (a b : Z) : bool := in_areab a b (0, 11, 30, 61) && negb (existsb (in_areab a b) (defects pseudo)) &&
  negb (((a mod 4 =? 0) || (a mod 4 =? 3)) && (b mod 4 =? 1)).
Lemma in_areab_spec a b f : in_areab a b f = true <-> in_area a b f.
Proof. destruct f as [[[a1 a2] b1] b2]; unfold in_areab, in_area; rewrite !andb_true_iff, !Z.leb_le; lia. Qed.
Lemma no_defect pseudo a b : negb (existsb (in_areab a b) (defects pseudo)) = true <-> forall f, In f (defects pseudo) -> ~ in_area a b f.
Proof.
  rewrite negb_true_iff, <- not_true_iff_false, existsb_exists; split.
  - intros H f If A; apply H; exists f; split; [exact If|apply in_areab_spec; exact A].
  - intros H (f & If & A); apply (H f If), in_areab_spec, A.
Qed.
Lemma square_electrodeb_spec pseudo a b : square_electrodeb pseudo a b = true <-> square_electrode pseudo a b.
Proof.
  unfold square_electrodeb, square_electrode; rewrite !andb_true_iff, in_areab_spec, no_defect, !negb_true_iff, <- !not_true_iff_false, !andb_true_iff, !Z.eqb_eq; tauto.
Qed.
Lemma hexagonal_electrodeb_spec pseudo a b : hexagonal_electrodeb pseudo a b = true <-> hexagonal_electrode pseudo a b.
Proof.
  unfold hexagonal_electrodeb, hexagonal_electrode; rewrite !andb_true_iff, in_areab_spec, no_defect, !negb_true_iff, <- !not_true_iff_false, !andb_true_iff, !orb_true_iff, !Z.eqb_eq; tauto.
Qed.

(** Positions relative to the center of the first pixel of the diamond *)
Definition on_square_lattice (a b : Z) (u : Z * Z) : Prop :=
  exists i, 0 <= i < 7 /\ fst u = 125000 * i + 1000000 * (a / 4) /\ snd u = 25000 + 100000 * (b / 2).
(** two rows of pixels are one row of electrodes; the electrodes of two columns are a hexagonal lattice of pitch 115.47 um with at most three half pitches on both sides *)
Definition on_hexagonal_lattice (a b : Z) (u : Z * Z) : Prop :=
  exists i, -3 <= i <= 3 /\ (i + b / 2) mod 2 = 0 /\ Z.abs (fst u - (125000 + 500000 * (a / 2) + 57735 * i)) <= 10 /\ snd u = 75000 + 100000 * (b / 2).
Definition electrode_ok (pseudo : bool) (a b : Z) : bool := let u := rel pseudo true a b in
  if square_electrodeb pseudo a b then
    existsb (fun i => (fst u =? 125000 * i + 1000000 * (a / 4)) && (snd u =? 25000 + 100000 * (b / 2))) [0; 1; 2; 3; 4; 5; 6]
  else if hexagonal_electrodeb pseudo a b then
    existsb (fun i => ((i + b / 2) mod 2 =? 0) && (Z.abs (fst u - (125000 + 500000 * (a / 2) + 57735 * i)) <=? 10) && (snd u =? 75000 + 100000 * (b / 2)))
      [-3; -2; -1; 0; 1; 2; 3]
  else (fst u =? 250000 * a + (if Z.odd a then 100000 else -100000)) && (snd u =? 50000 * b).
Lemma electrode_all pseudo : all_from 12 0 (fun a => all_from 62 0 (electrode_ok pseudo a)) = true.
Proof. destruct pseudo; vm_compute; reflexivity. Qed.
Lemma electrode_in pseudo a b : 0 <= a < 12 -> 0 <= b < 62 -> electrode_ok pseudo a b = true.
Proof.
  intros Ha Hb; assert (H := all_from_spec _ _ _ (electrode_all pseudo) a ltac:(lia)).
  exact (all_from_spec _ _ _ H b ltac:(lia)).
Qed.
Lemma electrode_rel pseudo a b : let u := rel pseudo true a b in
  (square_electrode pseudo a b -> on_square_lattice a b u) /\ (hexagonal_electrode pseudo a b -> on_hexagonal_lattice a b u) /\
  (~ square_electrode pseudo a b -> ~ hexagonal_electrode pseudo a b -> u = (250000 * a + (if Z.odd a then 100000 else -100000), 50000 * b)).
Proof.
  destruct (Z_lt_le_dec a 0) as [|A1]; [|destruct (Z_lt_le_dec a 12) as [A2|]; [destruct (Z_lt_le_dec b 0) as [|B1]; [|destruct (Z_lt_le_dec b 62) as [B2|]]|]].
  all: try (cbv zeta; rewrite rel_outside by lia; split; [intros [H _]; cbn [in_area] in H; lia|]; split; [intros [H _]; cbn [in_area] in H; lia|]; intros _ _;
            destruct (Z.odd a); reflexivity).
  assert (H := electrode_in pseudo a b ltac:(lia) ltac:(lia)); unfold electrode_ok in H; revert H.
  generalize (rel pseudo true a b); intros [x y]; cbv zeta; cbn [fst snd].
  destruct (square_electrodeb pseudo a b) eqn:S; [|destruct (hexagonal_electrodeb pseudo a b) eqn:X].
  - intros H; apply square_electrodeb_spec in S; split; [|split].
    + intros _; apply existsb_exists in H as (i & Ii & H); apply andb_prop in H as [H1 H2]; apply Z.eqb_eq in H1, H2.
      exists i; cbn [fst snd]; split; [|split; assumption]; cbn [In] in Ii; lia.
    + intros [Hx _]; destruct S as [Hs _]; cbn [in_area] in Hx, Hs; lia.
    + intros N; contradiction.
  - intros H; apply hexagonal_electrodeb_spec in X; split; [|split].
    + intros [Hs _]; destruct X as [Hx _]; cbn [in_area] in Hx, Hs; lia.
    + intros _; apply existsb_exists in H as (i & Ii & H); apply andb_prop in H as [H H3]; apply andb_prop in H as [H1 H2].
      apply Z.eqb_eq in H1, H3; apply Z.leb_le in H2; exists i; cbn [fst snd]; split; [cbn [In] in Ii; lia|]; split; [exact H1|]; split; assumption.
    + intros _ N; contradiction.
  - intros H; apply andb_prop in H as [H1 H2]; apply Z.eqb_eq in H1, H2; split; [|split].
    + intros C; apply square_electrodeb_spec in C; congruence.
    + intros C; apply hexagonal_electrodeb_spec in C; congruence.
    + intros _ _; f_equal; assumption.
Qed.

(** Pixels with an electrode are on the lattice of the square or hexagonal electrodes, all others at their bump bond *)
Theorem C97_electrodes : forall pseudo p q c r u, Z.odd p = true -> is_pixel c r -> position pseudo p q c r = Some u ->
  let a := c - p in let b := r - q in let v := (fst u - fst (center p q), snd u - snd (center p q)) in
  (square_electrode pseudo a b -> on_square_lattice a b v) /\ (hexagonal_electrode pseudo a b -> on_hexagonal_lattice a b v) /\
  (~ square_electrode pseudo a b -> ~ hexagonal_electrode pseudo a b -> u = (fst (center c r) + (if Z.odd c then -100000 else 100000), snd (center c r))).
Proof.
  intros pseudo p q c r u O H; rewrite position_rel, O by exact H; cbv zeta; intros E.
  pose proof (electrode_rel pseudo (c - p) (r - q)) as B; revert B E.
  generalize (rel pseudo true (c - p) (r - q)); intros [x y] (B1 & B2 & B3) E; apply some_inj in E; subst u; unfold center; cbn [fst snd] in *.
  replace (x + (250000 * p - 10125000) - (250000 * p - 10125000)) with x by ring.
  replace (y + (50000 * q - 8425000) - (50000 * q - 8425000)) with y by ring.
  split; [exact B1|]; split; [exact B2|]; intros N1 N2; specialize (B3 N1 N2); apply pair_equal_spec in B3 as [-> ->].
  rewrite Z.odd_sub, O; f_equal; [destruct (Z.odd c); cbn [xorb]; lia|lia].
Qed.

(** The error is raised exactly for indices outside of the sensor, fractional or not *)
Theorem C97_limits : forall d pseudo p q column row,
  diamond_position d pseudo p q column row = None <->
  ~ (1 # 2 <= column # d <= 161 # 2 /\ 1 # 2 <= row # d <= 673 # 2)%Q.
Proof.
  intros d pseudo p q column row; unfold diamond_position, fei4_position, Qle; cbn [Qnum Qden].
  destruct ((Z.pos d <=? 2 * column) && (2 * column <=? 161 * Z.pos d) && (Z.pos d <=? 2 * row) && (2 * row <=? 673 * Z.pos d)) eqn:E.
  - split; [discriminate|]; intros H; destruct H; rewrite !andb_true_iff, !Z.leb_le in E; lia.
  - split; [|reflexivity]; intros _ H; apply not_true_iff_false in E; apply E; rewrite !andb_true_iff, !Z.leb_le; lia.
Qed.

(** The nearest index *)
Definition nearest (i : Z) (x : Q) : Prop := (inject_Z i - (1 # 2) < x < inject_Z i + (1 # 2))%Q.
Lemma nearest_iff i n m : nearest i (n # m) <-> (2 * i - 1) * Zpos m < 2 * n < (2 * i + 1) * Zpos m.
Proof.
  unfold nearest, Qminus, Qlt, Qplus, Qopp, inject_Z; cbn [Qnum Qden]; rewrite ?Pos.mul_1_l; generalize (Z.pos m); intros M; split; lia.
Qed.
Definition returns_pixel (pseudo : bool) (p q c r : Z) : Prop :=
  exists u i, position pseudo p q c r = Some u /\ fei4_index 1 (fst u) (snd u) = Some i /\ nearest c (fst i) /\ nearest r (snd i).

(** The inherited local_position_to_index gives the pixel back outside of the diamond *)
Theorem C97_round_trip : forall pseudo p q c r, is_pixel c r -> ~ on_diamond p q c r -> returns_pixel pseudo p q c r.
Proof.
  intros pseudo p q c r H N; destruct (position pseudo p q c r) as [u|] eqn:E; [|rewrite position_rel in E by exact H; discriminate].
  destruct (C97_displacement _ _ _ _ _ _ H E) as (_ & _ & U); specialize (U N); subst u; unfold center, is_pixel in *; cbn [fst snd] in *.
  unfold returns_pixel; eexists; eexists; split; [exact E|]; cbn [fst snd]; unfold fei4_index.
  match goal with |- context [if ?b then _ else _] => match b with (_ && _) => replace b with true end end.
  2: { symmetry; rewrite !andb_true_iff, !Z.leb_le; destruct (Z.odd c); lia. }
  split; [reflexivity|]; cbn [fst snd]; rewrite !nearest_iff, !Pos.mul_1_r; destruct (Z.odd c); lia.
Qed.

(** but not on the diamond, for any position of it: pixels of the hexagonal and of the square region are given back as another one *)
Theorem C97_inverse_refuted : forall pseudo p q, Z.odd p = true -> is_pixel p q -> is_pixel p (q + 30) ->
  ~ returns_pixel pseudo p q p (q + 30).
Proof.
  intros pseudo p q O _ H (u & i & E & F & _ & R); rewrite position_rel in E by exact H; rewrite O in E.
  replace (p - p) with 0 in E by ring; replace (q + 30 - q) with 30 in E by ring.
  replace (rel pseudo true 0 30) with (67265, 1575000) in E by (destruct pseudo; vm_compute; reflexivity).
  cbn [fst snd] in E; apply some_inj in E; subst u; revert F; unfold fei4_index; destruct (_ && _); [|discriminate]; intros F; apply some_inj in F; subst i.
  cbn [fst snd] in R; apply nearest_iff in R; rewrite !Pos.mul_1_r in R; lia.
Qed.

(** The position of the diamond is not checked: with an even first column the electrodes are up to 325 um from the center of their pixels, thus in another column *)
Theorem C97_even_refuted : forall pseudo p q, Z.odd p = false -> is_pixel p (q + 1) ->
  exists u, position pseudo p q p (q + 1) = Some u /\ fst u - fst (center p (q + 1)) = 325000.
Proof.
  intros pseudo p q O H; rewrite position_rel, O by exact H; eexists; split; [reflexivity|]; cbv zeta.
  replace (p - p) with 0 by ring; replace (q + 1 - q) with 1 by ring.
  replace (rel pseudo false 0 1) with (325000, 25000) by (destruct pseudo; vm_compute; reflexivity); unfold center; cbn [fst snd]; lia.
Qed.

(** A cluster of two pixels is not between its pixels: the index of the cluster is fractional and selects no electrode.  Indices and positions in halves of pixels and nm. *)
Theorem C97_cluster_refuted : forall pseudo p q, Z.odd p = true -> is_pixel p q -> is_pixel p (q + 1) ->
  exists u v w, position pseudo p q p q = Some u /\ position pseudo p q p (q + 1) = Some v /\
    diamond_position 2 pseudo p q (p + p) (q + (q + 1)) = Some w /\ fst w < 2 * fst u /\ fst w < 2 * fst v.
Proof.
  intros pseudo p q O H H'; rewrite !position_rel, O by assumption; cbv zeta.
  replace (p - p) with 0 by ring; replace (q - q) with 0 by ring; replace (q + 1 - q) with 1 by ring.
  replace (rel pseudo true 0 0) with (0, 25000) by (destruct pseudo; vm_compute; reflexivity).
  replace (rel pseudo true 0 1) with (125000, 25000) by (destruct pseudo; vm_compute; reflexivity).
  unfold is_pixel in *.
  assert (E : diamond_position 2 pseudo p q (p + p) (q + (q + 1)) = Some (2 * (250000 * p - 10125000) - 200000, 50000 * q + 50000 * (q + 1) - 2 * 8425000)).
  { unfold diamond_position, fei4_position.
    match goal with |- context [if ?b then Some _ else _] => replace b with true end.
    2: { symmetry; rewrite !andb_true_iff, !Z.leb_le; lia. }
    assert (S : forall m t a0 b0 sel xy, (m = 2 \/ m = 4) -> (exists k, b0 = q + 2 * k) -> apply_table 2 m t sel a0 b0 (p + p) (q + (q + 1)) xy = xy).
    { intros m t a0 b0 sel xy M [k ->]; unfold apply_table; revert xy; induction t as [|[[[i j] dx] dy] t IH]; intros xy; [reflexivity|]; cbn [fold_left].
      replace (residue 2 (q + (q + 1)) (q + 2 * k) m j) with false; [rewrite andb_false_r; apply IH|].
      symmetry; apply Z.eqb_neq; intros C; destruct M as [-> | ->].
      - pose proof (Z.div_mod (q + (q + 1) - (q + 2 * k) * 2) (2 * 2)) as D; lia.
      - pose proof (Z.div_mod (q + (q + 1) - (q + 2 * k) * 2) (4 * 2)) as D; lia. }
    rewrite !S by ((left; reflexivity) || (right; reflexivity) || (exists 0; ring) || (exists 15; ring)).
    assert (R : forall i, residue 2 (p + p) 0 2 i = (Z.b2z (Z.odd p) =? i)).
    { intros i; unfold residue; replace (p + p - 0 * 2) with (p * 2) by ring; rewrite Z.mul_mod_distr_r by lia.
      rewrite Zmod_odd; apply eq_true_iff_eq; rewrite !Z.eqb_eq; unfold Z.b2z; destruct (Z.odd p); lia. }
    rewrite !R, O; unfold move; cbn [Z.b2z Z.eqb Pos.eqb fst snd]; f_equal; f_equal; lia. }
  rewrite E; do 3 eexists; split; [reflexivity|]; split; [reflexivity|]; split; [reflexivity|]; cbn [fst snd]; lia.
Qed.

(** The sensor at column 41, row 100: the first electrodes, one outside of the diamond, and the halves of a cluster *)
Example C97_case : is_pixel 41 100 /\ is_pixel 41 130 /\ ~ on_diamond 41 100 41 99 /\ on_diamond 41 100 41 100 /\
  position false 41 100 41 100 = Some (125000, -3400000) /\ position false 41 100 41 99 = Some (25000, -3475000) /\
  position false 41 100 41 130 = Some (192265, -1850000) /\ position false 41 100 0 1 = None /\ position false 40 100 40 101 = Some (200000, -3400000).
Proof. unfold is_pixel, on_diamond; repeat split; try lia; vm_compute; reflexivity. Qed.
Example C97_electrode_case : square_electrode false 0 1 /\ ~ square_electrode false 1 8 /\ hexagonal_electrode true 1 33 /\ ~ hexagonal_electrode true 0 33.
Proof. rewrite <- !square_electrodeb_spec, <- !hexagonal_electrodeb_spec; vm_compute; repeat split; discriminate. Qed.

Print Assumptions C97_distinct.
Print Assumptions C97_apart.
Print Assumptions C97_displacement.
Print Assumptions C97_electrodes.
Print Assumptions C97_limits.
Print Assumptions C97_round_trip.
Print Assumptions C97_inverse_refuted.
Print Assumptions C97_even_refuted.
Print Assumptions C97_cluster_refuted.
