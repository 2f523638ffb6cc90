(** Lemmas for the geometry. *)
From Coq Require Import Reals List Bool Arith Lra Lia Nsatz.
From Verif Require Import GeometryModel.
Import ListNotations.
Local Open Scope R_scope.

Lemma Rltb_true a b : Rltb a b = true <-> a < b.
Proof. unfold Rltb. destruct (Rlt_dec a b); split; auto; discriminate. Qed.
Lemma Rltb_false a b : Rltb a b = false <-> b <= a.
Proof. unfold Rltb. destruct (Rlt_dec a b); split; intros; try discriminate; auto; lra. Qed.
Lemma Rleb_true a b : Rleb a b = true <-> a <= b.
Proof. unfold Rleb. destruct (Rle_dec a b); split; auto; discriminate. Qed.
Lemma Rleb_false a b : Rleb a b = false <-> b < a.
Proof. unfold Rleb. destruct (Rle_dec a b); split; intros; try discriminate; auto; lra. Qed.
Lemma Reqb_true a b : Reqb a b = true <-> a = b.
Proof. unfold Reqb. destruct (Req_EM_T a b); split; auto; discriminate. Qed.
Lemma Reqb_false a b : Reqb a b = false <-> a <> b.
Proof. unfold Reqb. destruct (Req_EM_T a b); split; auto; try discriminate; contradiction. Qed.

Lemma lt3 i : (i < 3)%nat -> i = 0%nat \/ i = 1%nat \/ i = 2%nat.
Proof. lia. Qed.
Lemma lt4 i : (i < 4)%nat -> i = 0%nat \/ i = 1%nat \/ i = 2%nat \/ i = 3%nat.
Proof. lia. Qed.

Lemma sc2 a : sin a * sin a + cos a * cos a = 1.
Proof. pose proof (sin2_cos2 a) as H. unfold Rsqr in H. exact H. Qed.

(** the entries of a rotation matrix *)
Lemma rot_entries a b g :
  rotation_matrix a b g 0%nat 0%nat = cos g * cos b /\
  rotation_matrix a b g 0%nat 1%nat = cos g * sin b * sin a - sin g * cos a /\
  rotation_matrix a b g 0%nat 2%nat = cos g * sin b * cos a + sin g * sin a /\
  rotation_matrix a b g 1%nat 0%nat = sin g * cos b /\
  rotation_matrix a b g 1%nat 1%nat = sin g * sin b * sin a + cos g * cos a /\
  rotation_matrix a b g 1%nat 2%nat = sin g * sin b * cos a - cos g * sin a /\
  rotation_matrix a b g 2%nat 0%nat = - sin b /\
  rotation_matrix a b g 2%nat 1%nat = cos b * sin a /\
  rotation_matrix a b g 2%nat 2%nat = cos b * cos a.
Proof.
  unfold rotation_matrix, dot, rotation_matrix_x, rotation_matrix_y, rotation_matrix_z, np_array. cbn [sum_n List.nth].
  repeat split; ring.
Qed.

Ltac rot_unfold a b g :=
  destruct (rot_entries a b g) as (?E00 & ?E01 & ?E02 & ?E10 & ?E11 & ?E12 & ?E20 & ?E21 & ?E22).
Ltac sc a b g :=
  pose proof (sc2 a); pose proof (sc2 b); pose proof (sc2 g);
  generalize dependent (sin a); generalize dependent (cos a);
  generalize dependent (sin b); generalize dependent (cos b);
  generalize dependent (sin g); generalize dependent (cos g); intros.

Lemma rotation_orthogonal_l a b g i j : (i < 3)%nat -> (j < 3)%nat ->
  dot 3 (transpose (rotation_matrix a b g)) (rotation_matrix a b g) i j = eye i j.
Proof.
  intros Hi Hj. unfold dot, transpose, eye. cbn [sum_n].
  destruct (rot_entries a b g) as (E00 & E01 & E02 & E10 & E11 & E12 & E20 & E21 & E22).
  destruct (lt3 i Hi) as [-> | [-> | ->]]; destruct (lt3 j Hj) as [-> | [-> | ->]];
    rewrite ?E00, ?E01, ?E02, ?E10, ?E11, ?E12, ?E20, ?E21, ?E22; cbn [Nat.eqb];
    clear - a b g; sc a b g; nsatz.
Qed.
Lemma rotation_orthogonal_r a b g i j : (i < 3)%nat -> (j < 3)%nat ->
  dot 3 (rotation_matrix a b g) (transpose (rotation_matrix a b g)) i j = eye i j.
Proof.
  intros Hi Hj. unfold dot, transpose, eye. cbn [sum_n].
  destruct (rot_entries a b g) as (E00 & E01 & E02 & E10 & E11 & E12 & E20 & E21 & E22).
  destruct (lt3 i Hi) as [-> | [-> | ->]]; destruct (lt3 j Hj) as [-> | [-> | ->]];
    rewrite ?E00, ?E01, ?E02, ?E10, ?E11, ?E12, ?E20, ?E21, ?E22; cbn [Nat.eqb];
    clear - a b g; sc a b g; nsatz.
Qed.

(** *** generic facts about orthogonal matrices and transformations *)
Definition orthogonal (M : mat) : Prop :=
  (forall i j, (i < 3)%nat -> (j < 3)%nat -> dot 3 (transpose M) M i j = eye i j) /\
  (forall i j, (i < 3)%nat -> (j < 3)%nat -> dot 3 M (transpose M) i j = eye i j).
Lemma rot_orthogonal p : orthogonal (rot p).
Proof. split; intros; [apply rotation_orthogonal_l|apply rotation_orthogonal_r]; auto. Qed.

Lemma dot_assoc3 A B C i j : dot 3 (dot 3 A B) C i j = dot 3 A (dot 3 B C) i j.
Proof. unfold dot. cbn [sum_n]. ring. Qed.
Lemma dot_assoc4 A B C i j : dot 4 (dot 4 A B) C i j = dot 4 A (dot 4 B C) i j.
Proof. unfold dot. cbn [sum_n]. ring. Qed.
Lemma dot3_ext A A' B B' i j : (forall k, (k < 3)%nat -> A i k = A' i k) -> (forall k, (k < 3)%nat -> B k j = B' k j) -> dot 3 A B i j = dot 3 A' B' i j.
Proof. intros HA HB. unfold dot. cbn [sum_n]. rewrite !HA, !HB by lia. reflexivity. Qed.
Lemma dot4_ext A A' B B' i j : (forall k, (k < 4)%nat -> A i k = A' i k) -> (forall k, (k < 4)%nat -> B k j = B' k j) -> dot 4 A B i j = dot 4 A' B' i j.
Proof. intros HA HB. unfold dot. cbn [sum_n]. rewrite !HA, !HB by lia. reflexivity. Qed.
Lemma dot3_eye_l A i j : (i < 3)%nat -> dot 3 eye A i j = A i j.
Proof. intros H. unfold dot, eye. cbn [sum_n]. destruct (lt3 i H) as [-> | [-> | ->]]; cbn [Nat.eqb]; ring. Qed.
Lemma dot3_eye_r A i j : (j < 3)%nat -> dot 3 A eye i j = A i j.
Proof. intros H. unfold dot, eye. cbn [sum_n]. destruct (lt3 j H) as [-> | [-> | ->]]; cbn [Nat.eqb]; ring. Qed.
Lemma dot4_eye_l A i j : (i < 4)%nat -> dot 4 eye A i j = A i j.
Proof. intros H. unfold dot, eye. cbn [sum_n]. destruct (lt4 i H) as [-> | [-> | [-> | ->]]]; cbn [Nat.eqb]; ring. Qed.

(** coordinates of the transformed points *)
Lemma vec_eq (a b : vec) : vx a = vx b -> vy a = vy b -> vz a = vz b -> a = b.
Proof. destruct a as [[? ?] ?], b as [[? ?] ?]. unfold vx, vy, vz. simpl. congruence. Qed.

Lemma apply_rotation_eq v M : apply_rotation_matrix v M =
  (M 0%nat 0%nat * vx v + M 0%nat 1%nat * vy v + M 0%nat 2%nat * vz v,
   M 1%nat 0%nat * vx v + M 1%nat 1%nat * vy v + M 1%nat 2%nat * vz v,
   M 2%nat 0%nat * vx v + M 2%nat 1%nat * vy v + M 2%nat 2%nat * vz v).
Proof. unfold apply_rotation_matrix, of_column, dot, column3. cbn [sum_n]. apply vec_eq; unfold vx, vy, vz; cbn [fst snd]; ring. Qed.
Lemma to_global_eq p v : to_global p v = vadd (apply_rotation_matrix v (rot p)) (pos p).
Proof.
  rewrite apply_rotation_eq. unfold to_global, apply_transformation_matrix, local_to_global_matrix, of_column, dot, column4,
    translation_matrix, extend4, transpose, eye, comp, pos, vadd, vx, vy, vz. cbn [sum_n Nat.eqb Nat.ltb Nat.leb andb fst snd].
  apply vec_eq; unfold vx, vy, vz; cbn [fst snd]; ring.
Qed.
Lemma to_local_eq p v : to_local p v = apply_rotation_matrix (vsub v (pos p)) (transpose (rot p)).
Proof.
  rewrite apply_rotation_eq. unfold to_local, apply_transformation_matrix, global_to_local_matrix, of_column, dot, column4,
    translation_matrix, extend4, transpose, eye, comp, pos, vsub, vx, vy, vz. cbn [sum_n Nat.eqb Nat.ltb Nat.leb andb fst snd].
  apply vec_eq; unfold vx, vy, vz; cbn [fst snd]; ring.
Qed.

Ltac orth3 H :=
  pose proof (H 0%nat 0%nat ltac:(lia) ltac:(lia)); pose proof (H 0%nat 1%nat ltac:(lia) ltac:(lia)); pose proof (H 0%nat 2%nat ltac:(lia) ltac:(lia));
  pose proof (H 1%nat 0%nat ltac:(lia) ltac:(lia)); pose proof (H 1%nat 1%nat ltac:(lia) ltac:(lia)); pose proof (H 1%nat 2%nat ltac:(lia) ltac:(lia));
  pose proof (H 2%nat 0%nat ltac:(lia) ltac:(lia)); pose proof (H 2%nat 1%nat ltac:(lia) ltac:(lia)); pose proof (H 2%nat 2%nat ltac:(lia) ltac:(lia)).

Lemma rotate_back M v : orthogonal M -> apply_rotation_matrix (apply_rotation_matrix v M) (transpose M) = v.
Proof.
  intros [H _]. rewrite !apply_rotation_eq. unfold dot, transpose, eye in *. cbn [sum_n] in H.
  orth3 H. cbn [Nat.eqb] in *. apply vec_eq; unfold vx, vy, vz in *; cbn [fst snd]; clear H.
  all: generalize dependent (fst (fst v)); generalize dependent (snd (fst v)); generalize dependent (snd v); intros z y x.
  all: generalize dependent (M 0%nat 0%nat); generalize dependent (M 0%nat 1%nat); generalize dependent (M 0%nat 2%nat);
    generalize dependent (M 1%nat 0%nat); generalize dependent (M 1%nat 1%nat); generalize dependent (M 1%nat 2%nat);
    generalize dependent (M 2%nat 0%nat); generalize dependent (M 2%nat 1%nat); generalize dependent (M 2%nat 2%nat); intros.
  - nsatz.
  - nsatz.
  - nsatz.
Qed.
Lemma some_vec (a b : vec) : vx a = vx b -> vy a = vy b -> vz a = vz b -> Some a = Some b.
Proof. intros. f_equal. apply vec_eq; auto. Qed.
