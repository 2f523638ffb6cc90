(** C86: the scattering in the last plane does not influence the fit, so that its material is not needed (FitKalmanModel: material_missing). *)
From mathcomp Require Import all_ssreflect all_algebra.
From Verif Require Import KalmanFilterModel.
Set Implicit Arguments.
Unset Strict Implicit.
Unset Printing Implicit Defensive.
Import GRing.Theory Num.Theory.
Local Open Scope ring_scope.

Section Last.
Variable F : realFieldType.
Variables n m q : nat.
(** [p] with another scattering *)
Definition with_scattering (p : plane F n m q) (G' : 'M[F]_(n, q)) (Q' : 'M[F]_q) : plane F n m q :=
  Plane (fit p) (obs p) (H p) (V p) (ref p) (Jf p) (Jb p) G' Q'.

Lemma filter_f_from_last ps (p : plane F n m q) G' Q' : forall prev x P, filter_f_from prev x P (rcons ps (with_scattering p G' Q')) = filter_f_from prev x P (rcons ps p).
Proof. by elim: ps => [|a ps IH] prev x P //=; rewrite IH. Qed.
Theorem C86_last_plane ps (p : plane F n m q) G' Q' x P :
  filter_f x P (rcons ps (with_scattering p G' Q')) = filter_f x P (rcons ps p) /\
  filter_b x P (rcons ps (with_scattering p G' Q')) = filter_b x P (rcons ps p) /\
  forall i, smoothed x P (rcons ps (with_scattering p G' Q')) i = smoothed x P (rcons ps p) i.
Proof.
have Ef : filter_f x P (rcons ps (with_scattering p G' Q')) = filter_f x P (rcons ps p) by case: ps => [|a ps] //=; rewrite filter_f_from_last.
have Eb : filter_b x P (rcons ps (with_scattering p G' Q')) = filter_b x P (rcons ps p) by rewrite /filter_b !rev_rcons.
by split=> //; split=> // i; rewrite /smoothed Ef Eb !size_rcons.
Qed.
End Last.
(** Material of any other plane does: two planes, the covariance at the second *)
Theorem C86_other_planes (F : realFieldType) (x : 'cV[F]_1) (P : 'M[F]_1) : exists p r : plane F 1 1 1, exists Q', filter_f x P [:: with_scattering p (G p) Q'; r] <> filter_f x P [:: p; r].
Proof.
exists (Plane false None 0 0 0 1%:M 1%:M 1%:M 0), (Plane false None 0 0 0 1%:M 1%:M 1%:M 0), 1%:M => /= E.
have := congr1 (fun l => predicted_cov (nth (Result 0 0 0 0 0 None) l 1)) E; rewrite /= !mul1mx !trmx1 !mulmx1 => E'.
have := congr1 (fun M : 'M[F]_1 => M 0 0) E'; rewrite !mxE eqxx !mulr1n => /(addrI _) /eqP; by rewrite oner_eq0.
Qed.

Print Assumptions C86_last_plane.
Print Assumptions C86_other_planes.
