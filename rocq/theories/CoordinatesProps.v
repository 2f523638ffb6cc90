(** C88: conversion of hit tables between indices and local positions. *)
From Coq Require Import Ascii String Reals ZArith List Bool Lra Lia.
From Verif Require Import GeometryModel GeometryProofs GeometryProps SensorProps BeamAlignModel BeamAlignProps CoordinatesModel.
Import ListNotations.
Local Open Scope R_scope.

Lemma field_In name r v : field name r = Some v -> In (name, v) r.
Proof. induction r as [|[n w] r IH]; cbn [field]; [discriminate|]. destruct (String.eqb_spec n name) as [->|N]; [intros E; injection E as ->; simpl; auto|simpl; auto]. Qed.
Lemma In_field name r v : NoDup (map fst r) -> In (name, v) r -> field name r = Some v.
Proof.
  induction r as [|[n w] r IH]; cbn [map fst field]; intros ND I; [destruct I|]. inversion ND; subst. destruct I as [E|I].
  - injection E as -> ->. rewrite String.eqb_refl. auto.
  - destruct (String.eqb_spec n name) as [->|N]; [|auto]. destruct H1. apply (in_map fst) in I. exact I.
Qed.
Lemma to_uint16_INR k : (Z.of_nat k < 65536)%Z -> to_uint16 (INR k) = INR k.
Proof.
  intros H. unfold to_uint16. rewrite Int_part_INR, Z.mod_small, INR_IZR_INZ; [auto|]. split; [lia|]. lia.
Qed.

(** A table with pixel indices: one column and one row field, and not yet positions *)
Definition index_table (s : sensor) (r : hit_row) : Prop :=
  NoDup (map fst r) /\ (forall n, In n ["x"; "y"; "z"]%string -> ~ In n (map fst r)) /\
  (exists k, (1 <= k <= n_columns s)%nat /\ In ("column"%string, INR k) r) /\ (exists l, (1 <= l <= n_rows s)%nat /\ In ("row"%string, INR l) r).
Lemma in_range s k l : (1 <= k <= n_columns s)%nat -> (1 <= l <= n_rows s)%nat -> index_in_range s (INR k) (INR l).
Proof.
  intros [K1 K2] [L1 L2]. apply le_INR in K1, K2, L1, L2. simpl in K1, L1. unfold index_in_range. lra.
Qed.
Lemma row_round_trip s r : pitches_positive s -> (Z.of_nat (n_columns s) < 65536)%Z -> (Z.of_nat (n_rows s) < 65536)%Z -> index_table s r ->
  exists r', to_local_row s r = Some r' /\ to_index_row s r' = Some r.
Proof.
  intros P Nc Nr (ND & Fresh & (k & Hk & Ik) & (l & Hl & Il)). unfold to_local_row. rewrite (In_field _ _ _ ND Ik), (In_field _ _ _ ND Il).
  destruct (C31_index_round_trip s (INR k) (INR l) P (in_range _ _ _ Hk Hl)) as (v & Ev & (Hz & _) & Eb). rewrite Ev. eexists. split; [reflexivity|].
  set (f := fun f0 : string * R => _). unfold to_index_row.
  assert (Fx : field "x" (map f r) = Some (vx v)).
  { assert (Nx : ~ In "x"%string (map fst r)) by (apply Fresh; simpl; auto). clear -Ik Nx. induction r as [|[n w] r IH]; [destruct Ik|]. cbn [map field]; cbn [map fst] in Nx. unfold f at 1. cbn [fst]. destruct (String.eqb_spec n "column") as [->|N1]; [cbn; auto|].
    assert (In ("column"%string, INR k) r) by (destruct Ik as [E|?]; [injection E as -> ->; contradiction|auto]).
    destruct (String.eqb_spec n "row") as [->|N2]; [change (field "x" (map f r) = Some (vx v)); apply IH; [auto|intros ?; first [apply Nx|apply Ny]; simpl; auto]|]. destruct (String.eqb_spec n "x") as [->|N3]; [destruct Nx; simpl; auto|]. apply IH; [auto|intros ?; first [apply Nx|apply Ny]; simpl; auto]. }
  assert (Fy : field "y" (map f r) = Some (vy v)).
  { assert (Ny : ~ In "y"%string (map fst r)) by (apply Fresh; simpl; auto). clear -Il Ny. induction r as [|[n w] r IH]; [destruct Il|]. cbn [map field]; cbn [map fst] in Ny. unfold f at 1. cbn [fst]. destruct (String.eqb_spec n "row") as [->|N1]; [cbn; auto|].
    assert (In ("row"%string, INR l) r) by (destruct Il as [E|?]; [injection E as -> ->; contradiction|auto]).
    destruct (String.eqb_spec n "column") as [->|N2]; [change (field "y" (map f r) = Some (vy v)); apply IH; [auto|intros ?; first [apply Nx|apply Ny]; simpl; auto]|]. destruct (String.eqb_spec n "y") as [->|N3]; [destruct Ny; simpl; auto|]. apply IH; [auto|intros ?; first [apply Nx|apply Ny]; simpl; auto]. }
  rewrite Fx, Fy. assert (Ev' : (vx v, vy v, 0) = v) by (destruct v as [[? ?] z]; unfold vx, vy, vz in *; cbn [fst snd] in *; subst z; auto). rewrite Ev', Eb.
  assert (Fz : filter (fun g => negb (String.eqb (fst g) "z")) (map f r) = map f r).
  { assert (Nz : ~ In "z"%string (map fst r)) by (apply Fresh; simpl; auto). clear -Nz. induction r as [|[n w] r IH]; [auto|]. cbn [map filter fst snd] in *. rewrite IH by (intros ?; apply Nz; simpl; auto). unfold f at 1. cbn [fst].
    destruct (String.eqb_spec n "column"); [auto|]. destruct (String.eqb_spec n "row"); [auto|]. cbn [fst]. destruct (String.eqb_spec n "z") as [->|]; [destruct Nz; simpl; auto|auto]. }
  rewrite Fz, map_map. f_equal. rewrite !to_uint16_INR by lia.
  assert (Kc : forall w, In ("column"%string, w) r -> w = INR k) by (intros w Hw; pose proof (In_field _ _ _ ND Hw) as E1; rewrite (In_field _ _ _ ND Ik) in E1; congruence).
  assert (Kr : forall w, In ("row"%string, w) r -> w = INR l) by (intros w Hw; pose proof (In_field _ _ _ ND Hw) as E1; rewrite (In_field _ _ _ ND Il) in E1; congruence).
  assert (Nx : ~ In "x"%string (map fst r)) by (apply Fresh; simpl; auto). assert (Ny : ~ In "y"%string (map fst r)) by (apply Fresh; simpl; auto).
  apply (f_equal Some). rewrite <- (map_id r) at 2. apply map_ext_in. intros [n w] I. unfold f. cbn [fst snd]. destruct (String.eqb_spec n "column") as [->|N1]; [cbn; rewrite (Kc _ I); auto|]. destruct (String.eqb_spec n "row") as [->|N2]; [cbn; rewrite (Kr _ I); auto|]. cbn [fst].
  destruct (String.eqb_spec n "x") as [->|]; [destruct Nx; apply (in_map fst) in I; auto|]. destruct (String.eqb_spec n "y") as [->|]; [destruct Ny; apply (in_map fst) in I; auto|]. auto.
Qed.
Lemma map_error_all {A B} (f : A -> option B) l m : map_error f l = Some m <-> Forall2 (fun x y => f x = Some y) l m.
Proof.
  split; [apply map_error_spec|]. induction 1 as [|x y l m E _ IH]; cbn [map_error]; [auto|]. rewrite E, IH. auto.
Qed.
Lemma Forall2_concat {A B} (P : A -> B -> Prop) l m : Forall2 (Forall2 P) l m -> Forall2 P (concat l) (concat m).
Proof. induction 1; cbn [concat]; [constructor|apply Forall2_app; auto]. Qed.

(** The indices of a table are restored from the positions, with any chunks in either direction. *)
Theorem C88_round_trip s chunks chunks' out : pitches_positive s -> (Z.of_nat (n_columns s) < 65536)%Z -> (Z.of_nat (n_rows s) < 65536)%Z -> Forall (index_table s) (concat chunks) ->
  convert_coordinates s true false chunks = inr out -> concat chunks' = out -> convert_coordinates s false false chunks' = inr (concat chunks).
Proof.
  intros P Nc Nr T. unfold convert_coordinates. destruct (map_error _ chunks) as [o|] eqn:E; [|discriminate]. intros X. injection X as <-. intros C.
  apply map_error_spec in E.
  assert (F : Forall2 (fun r r' => to_local_row s r = Some r') (concat chunks) (concat chunks')).
  { rewrite C. apply Forall2_concat. clear -E. induction E as [|a b l m H _ IH]; constructor; auto. apply map_error_spec. auto. }
  assert (G : Forall2 (fun r' r => to_index_row s r' = Some r) (concat chunks') (concat chunks)).
  { clear -F T P Nc Nr. induction F as [|r r' l m H _ IH]; constructor; inversion T; subst; auto. destruct (row_round_trip s r P Nc Nr) as (r'' & E1 & E2); auto. congruence. }
  assert (H : exists o', map_error (map_error (to_index_row s)) chunks' = Some o' /\ concat o' = concat chunks).
  { revert G. generalize (concat chunks). clear. induction chunks' as [|c cs IH]; intros t G; cbn [concat map_error] in *; [inversion G; exists []; auto|].
    apply Forall2_app_inv_l in G. destruct G as (t1 & t2 & G1 & G2 & ->). apply map_error_all in G1. rewrite G1. destruct (IH t2 G2) as (o' & -> & <-). exists (t1 :: o'). auto. }
  destruct H as (o' & -> & ->). auto.
Qed.
(** ... which always succeeds for indices on the sensor. *)
Theorem C88_succeeds s chunks : pitches_positive s -> (Z.of_nat (n_columns s) < 65536)%Z -> (Z.of_nat (n_rows s) < 65536)%Z -> Forall (index_table s) (concat chunks) ->
  exists out, convert_coordinates s true false chunks = inr out /\ length out = length (concat chunks).
Proof.
  intros P Nc Nr T. unfold convert_coordinates. assert (H : exists o, map_error (map_error (to_local_row s)) chunks = Some o /\ length (concat o) = length (concat chunks)).
  { induction chunks as [|c cs IH]; cbn [concat map_error] in *; [exists []; auto|]. apply Forall_app in T. destruct T as [T1 T2]. destruct (IH T2) as (o & -> & L).
    destruct (map_error_Some _ _ (to_local_row s) c) as (m & Em). { intros r Hr. rewrite Forall_forall in T1. destruct (row_round_trip s r P Nc Nr (T1 _ Hr)) as (r' & E & _). congruence. }
    rewrite Em. exists (m :: o). split; auto. cbn [concat]. rewrite !app_length, L. apply map_error_spec, Forall2_length in Em. lia. }
  destruct H as (o & -> & L). eauto.
Qed.
(** Positions elsewhere in a pixel: the position is in pixel (k, l); left of or below its centre the index before is stored. *)
Lemma Int_part_between x (z : Z) : IZR z <= x < IZR z + 1 -> Int_part x = z.
Proof. intros H. destruct (base_Int_part x) as [B1 B2]. assert (IZR (Int_part x) < IZR (z + 1)) by (rewrite plus_IZR; lra). assert (IZR z < IZR (Int_part x + 1)) by (rewrite plus_IZR; lra). apply lt_IZR in H0, H1. lia. Qed.
Theorem C88_truncated s k l c x y : pitches_positive s -> (1 <= k <= n_columns s)%nat -> (1 <= l <= n_rows s)%nat -> (Z.of_nat (n_columns s) < 65536)%Z -> (Z.of_nat (n_rows s) < 65536)%Z ->
  index_to_local s (INR k) (INR l) = Some c -> Rabs (x - vx c) < column_size s / 2 -> Rabs (y - vy c) < row_size s / 2 ->
  to_index_row s [("x"%string, x); ("y"%string, y)] =
  Some [("column"%string, if Rltb x (vx c) then INR k - 1 else INR k); ("row"%string, if Rltb y (vy c) then INR l - 1 else INR l)].
Proof.
  intros P Hk Hl Nc Nr Hc Hx Hy. destruct P as [P1 P2]. rewrite (index_to_local_some s (INR k) (INR l) (in_range _ _ _ Hk Hl)) in Hc. injection Hc as <-. unfold vx, vy in *. cbn [fst snd] in *.
  assert (Ax := Rabs_def2 _ _ Hx). assert (Ay := Rabs_def2 _ _ Hy). destruct Hk as [K1 K2]. destruct Hl as [L1 L2]. apply le_INR in K1 as K1', K2 as K2', L1 as L1', L2 as L2'. simpl in K1', L1'.
  assert (O : on_sensor s (x, y, 0)). { unfold on_sensor, vx, vy, vz. cbn [fst snd]. split; auto. split; apply abs_le; split; nra. }
  unfold to_index_row. cbn [field String.eqb Ascii.eqb Bool.eqb]. rewrite (local_to_index_some s _ O). unfold vx, vy. cbn [fst snd filter map String.eqb Ascii.eqb Bool.eqb negb].
  assert (U : forall q z n i, 0 < q -> (1 <= i <= n)%nat -> (Z.of_nat n < 65536)%Z -> - (q / 2) < z - q * (INR i - 1 / 2 - 1 / 2 * INR n) < q / 2 ->
    to_uint16 (z / q + 1 / 2 + 1 / 2 * INR n) = if Rltb z (q * (INR i - 1 / 2 - 1 / 2 * INR n)) then INR i - 1 else INR i).
  { clear. intros q z n i Q [I1 I2] N Hz. set (u := z / q + 1 / 2 + 1 / 2 * INR n). assert (Eu : z = q * (u - 1 / 2 - 1 / 2 * INR n)) by (unfold u; field; lra).
    assert (Bu : INR i - 1 / 2 < u < INR i + 1 / 2) by (rewrite Eu in Hz; split; nra). unfold to_uint16. pose proof (INR_IZR_INZ i) as Ei.
    unfold Rltb. destruct (Rlt_dec _ _) as [C|C].
    - assert (u < INR i) by (rewrite Eu in C; nra). rewrite (Int_part_between u (Z.of_nat i - 1)) by (rewrite minus_IZR; lra). rewrite Z.mod_small, minus_IZR; [lra|]. lia.
    - assert (INR i <= u) by (rewrite Eu in C; nra). rewrite (Int_part_between u (Z.of_nat i)) by lra. rewrite Z.mod_small; [lra|]. lia. }
  rewrite (U (column_size s) x (n_columns s) k), (U (row_size s) y (n_rows s) l) by (auto; lra). auto.
Qed.
(** The stored index is not the one of the pixel, and may even be outside of the sensor. *)
Theorem C88_pixel_refuted s : pitches_positive s -> (1 <= Z.of_nat (n_columns s) < 65536)%Z -> (1 <= Z.of_nat (n_rows s) < 65536)%Z ->
  exists x y c, index_to_local s 1 1 = Some c /\ Rabs (x - vx c) < column_size s / 2 /\ Rabs (y - vy c) < row_size s / 2 /\
  to_index_row s [("x"%string, x); ("y"%string, y)] = Some [("column"%string, 0); ("row"%string, 0)].
Proof.
  intros P Hc Hr. assert (P' := P). destruct P' as [P1 P2]. pose proof (index_to_local_some s (INR 1) (INR 1) (in_range s 1 1 ltac:(lia) ltac:(lia))) as E.
  set (c := (column_size s * (INR 1 - 1 / 2 - 1 / 2 * INR (n_columns s)), row_size s * (INR 1 - 1 / 2 - 1 / 2 * INR (n_rows s)), 0)) in E.
  exists (vx c - column_size s / 4), (vy c - row_size s / 4), c. split; [exact E|].
  assert (A1 : Rabs (vx c - column_size s / 4 - vx c) < column_size s / 2) by (replace (vx c - column_size s / 4 - vx c) with (- (column_size s / 4)) by ring; rewrite Rabs_Ropp, Rabs_right; lra).
  assert (A2 : Rabs (vy c - row_size s / 4 - vy c) < row_size s / 2) by (replace (vy c - row_size s / 4 - vy c) with (- (row_size s / 4)) by ring; rewrite Rabs_Ropp, Rabs_right; lra).
  split; [exact A1|]. split; [exact A2|]. rewrite (C88_truncated s 1 1 c _ _ P ltac:(lia) ltac:(lia) ltac:(lia) ltac:(lia) E A1 A2). unfold Rltb. destruct (Rlt_dec _ _) as [C1|C1]; [|destruct C1; lra]. destruct (Rlt_dec _ _) as [C2|C2]; [|destruct C2; lra]. simpl INR. rewrite !Rminus_eq_0. auto.
Qed.
(** A hit outside of the sensor makes the conversion fail; a name of the output file always. *)
Theorem C88_out_of_range s chunks r k : In r (concat chunks) -> field "column" r = Some k -> ~ (1 / 2 <= k <= INR (n_columns s) + 1 / 2) -> convert_coordinates s true false chunks = inl ChunkFailed.
Proof.
  intros I F N. unfold convert_coordinates. destruct (map_error _ chunks) as [o|] eqn:E; [|auto]. exfalso. apply map_error_spec in E. apply in_concat in I. destruct I as (c & Ic & Ir).
  apply In_nth_error in Ic. destruct Ic as (i & Hi). assert (L := Forall2_length _ _ _ _ _ E). destruct (nth_error o i) as [m|] eqn:Em; [|apply nth_error_None in Em; assert (i < length chunks)%nat by (apply nth_error_Some; congruence); lia].
  pose proof (Forall2_nth _ _ _ _ _ _ _ _ E Hi Em) as H. cbv beta in H. apply map_error_spec in H. apply In_nth_error in Ir. destruct Ir as (j & Hj). assert (L' := Forall2_length _ _ _ _ _ H). destruct (nth_error m j) as [r'|] eqn:Er; [|apply nth_error_None in Er; assert (j < length c)%nat by (apply nth_error_Some; congruence); lia].
  pose proof (Forall2_nth _ _ _ _ _ _ _ _ H Hj Er) as G. cbv beta in G. unfold to_local_row in G. rewrite F in G. destruct (field "row" r) as [w|]; [|discriminate]. rewrite (index_to_local_none s k w) in G; [discriminate|]. intros [Q _]. contradiction.
Qed.
Theorem C88_output_refuted s b chunks : convert_coordinates s b true chunks = inl OutputFileUnbound.
Proof. reflexivity. Qed.

Example C88_example : let s := Sensor 250 50 80 336 (Placement 0 0 0 0 0 0) in
  index_table s [("event_number"%string, 7); ("column"%string, INR 3); ("row"%string, INR 336); ("charge"%string, 5)] /\ pitches_positive s.
Proof.
  split; [|split; cbn; lra]. split; [|split; [|split]].
  - cbn [map fst]. repeat constructor; cbn [In]; intuition discriminate.
  - cbn [map fst In]. intros n H K. destruct H as [<-|[<-|[<-|[]]]]; intuition discriminate.
  - exists 3%nat. split; [cbn [n_columns]; lia|]. cbn [In]. auto.
  - exists 336%nat. split; [cbn [n_rows]; lia|]. cbn [In]. auto.
Qed.

Print Assumptions C88_round_trip.
Print Assumptions C88_succeeds.
Print Assumptions C88_truncated.
Print Assumptions C88_pixel_refuted.
Print Assumptions C88_out_of_range.
Print Assumptions C88_output_refuted.
