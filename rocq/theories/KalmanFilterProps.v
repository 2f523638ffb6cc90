(** Properties of the Kalman filter: C36, C57, C58. *)
From mathcomp Require Import all_ssreflect all_algebra.
From Verif Require Import KalmanFilterModel KalmanFilterProofs.
Set Implicit Arguments.
Unset Strict Implicit.
Unset Printing Implicit Defensive.
Import Order.Theory GRing.Theory Num.Theory.
Local Open Scope ring_scope.

Section Props.
Variable F : realFieldType.
Variables n m q : nat.
Implicit Types (p : plane F n m q) (ps : seq (plane F n m q)) (x y : 'cV[F]_n) (P : 'M[F]_n).

(** ** Specification *)

(** The hit of the plane takes part in the fit *)
Definition used p := fit p && isSome (obs p).
(** The measurement errors are not zero *)
Definition measured p := used p -> pd (V p).
(** The weighted square of the distance of the hit of a plane from a track with state y, if it takes part in the fit *)
Definition hit_cost p y : F :=
  if fit p then
    if obs p is Some z then bil (invmx (V p)) (z - H p *m (y + ref p)) (z - H p *m (y + ref p)) else 0
  else 0.
(** A track with state y at plane [prev] and kicks ws: its state at the last plane, and the cost of its kicks and of its distances from the hits behind [prev] *)
Fixpoint track_f prev y ps (ws : seq 'cV[F]_q) : 'cV[F]_n * F :=
  match ps, ws with
  | p :: ps, w :: ws =>
    let y' := Jf p *m (y + G prev *m w) in
    let t := track_f p y' ps ws in
    (t.1, bil (invmx (Q prev)) w w + hit_cost p y' + t.2)
  | _, _ => (y, 0)
  end.
(** The same against the beam: the planes in the opposite order *)
Fixpoint track_b y ps (ws : seq 'cV[F]_q) : 'cV[F]_n * F :=
  match ps, ws with
  | p :: ps, w :: ws =>
    let y' := Jb p *m y + G p *m w in
    let t := track_b y' ps ws in
    (t.1, bil (invmx (Q p)) w w + hit_cost p y' + t.2)
  | _, _ => (y, 0)
  end.
(** The cost of the whole track, with the deviation from the initial state *)
Definition cost_f x P p ps y ws : F := bil (invmx P) (y - x) (y - x) + hit_cost p y + (track_f p y ps ws).2.
Definition cost_b x P p ps y ws : F := bil (invmx P) (y - x) (y - x) + hit_cost p y + (track_b y ps ws).2.
(** The scattering and the Jacobians used on the way *)
Fixpoint passable_f prev ps :=
  if ps is p :: ps then [/\ pd (Q prev), Jf p \in unitmx, measured p & passable_f p ps] else True.
Fixpoint passable_b ps :=
  if ps is p :: ps then [/\ pd (Q p), Jb p \in unitmx, measured p & passable_b ps] else True.
(** The chi2 of the hits in the fit *)
Fixpoint total_chi2 ps (rs : seq (result F n m)) : F :=
  match ps, rs with
  | p :: ps, r :: rs => (if fit p then odflt 0 (chi2 r) else 0) + total_chi2 ps rs
  | _, _ => 0
  end.

(** ** Update with one hit *)

(** Without a hit in the fit, nothing changes *)
Theorem C36_no_hit p x P : ~~ used p ->
  let r := visit p x P in filtered r = x /\ filtered_cov r = P /\ gain r = 0.
Proof. by rewrite /used /visit; case: (fit p) => //; rewrite /filter_correct; case: (obs p). Qed.

(** The covariance stays positive semi-definite and gets smaller *)
Theorem C36_covariance p x P : psd P -> measured p ->
  let r := visit p x P in psd (filtered_cov r) /\ psd (P - filtered_cov r).
Proof.
move=> DP; rewrite /measured /used /visit /filter_correct.
have Z : psd (P - P) by rewrite subrr; split; [rewrite trmx0 | move=> v; rewrite bil0m].
case: (fit p) => //=; case: (obs p) => [z | ] //= /(_ isT) DV.
by split; [exact: update_psd | exact: update_smaller].
Qed.

Lemma visit_used p x P z : fit p -> obs p = Some z -> visit p x P = filter_correct (ref p) (H p) (V p) x P (Some z).
Proof. by rewrite /visit => -> ->. Qed.
Lemma new_residual (ref x : 'cV[F]_n) (Hm : 'M[F]_(m, n)) z (K : 'M[F]_(n, m)) :
  z - Hm *m (x + K *m (z - Hm *m (x + ref)) + ref) = (z - Hm *m (x + ref)) - Hm *m (K *m (z - Hm *m (x + ref))).
Proof. by set k := K *m _; rewrite [x + k + ref]addrAC [Hm *m (_ + k)]mulmxDr opprD addrA. Qed.

(** The chi2 is the weighted square of the distance between hit and prediction *)
Theorem C36_chi2 p x P z : psd P -> pd (V p) -> obs p = Some z ->
  chi2 (visit p x P) =
    Some (bil (invmx (V p + H p *m P *m (H p)^T)) (z - H p *m (x + ref p)) (z - H p *m (x + ref p))).
Proof.
move=> DP DV O; case E : (fit p).
- rewrite (visit_used _ _ E O) /filter_correct [chi2 _]/=; congr Some.
  by rewrite new_residual chi2_eq // addrC mulmxA.
- rewrite /visit E O [chi2 _]/=; congr Some.
  rewrite quadE mat_inverse_pd ?mulmxA // addrC; apply: psd_pd_add => //; exact: psd_conj.
Qed.
Theorem C36_chi2_positive p x P c : psd P -> pd (V p) -> chi2 (visit p x P) = Some c -> 0 <= c.
Proof.
move=> DP DV; case O : (obs p) => [z | ]; last by rewrite /visit /filter_correct O; case: (fit p).
rewrite (C36_chi2 _ DP DV O) => - [<-]; apply: (proj2 (pd_psd (pd_inv _))).
by rewrite addrC; apply: psd_pd_add => //; exact: psd_conj.
Qed.

Lemma visit_cost p x P y : pd P -> measured p ->
  let r := visit p x P in
  pd (filtered_cov r) /\
  bil (invmx P) (y - x) (y - x) + hit_cost p y
  = (if fit p then odflt 0 (chi2 r) else 0) + bil (invmx (filtered_cov r)) (y - filtered r) (y - filtered r).
Proof.
move=> DP M r; rewrite /r; case U : (used p); last first.
  have [-> [-> _]] := C36_no_hit x P (negbT U).
  split=> //; move: U; rewrite /used /hit_cost /visit /filter_correct.
  by case: (fit p) => //=; case: (obs p) => // _; rewrite addrC.
have DV := M U; move: (U); rewrite /used => /andP [Ef].
case O : (obs p) => [z | ] // _.
have D := update_pd (H p) (pd_psd DP) DV DP.
split; first by rewrite (visit_used _ _ Ef O).
rewrite (C36_chi2 _ (pd_psd DP) DV O) (visit_used _ _ Ef O) /filter_correct /hit_cost Ef O /=.
have -> : z - H p *m (y + ref p) = (z - H p *m (x + ref p)) - H p *m (y - x).
  by rewrite -[RHS]addrA -opprD -mulmxDr [x + _ + _]addrAC [x + _]addrC subrK.
by rewrite (update_cost (H p) (pd_psd DP) DV DP) -[H p *m P *m _]mulmxA [V p + _]addrC opprD [y + (_ - _)]addrA.
Qed.

(** The filtered state minimises the sum of the weighted squares of its distances from the prediction and from the hit; chi2 is the minimum; the covariance is the inverse of the matrix of second derivatives *)
Theorem C36_least_squares p x P y : pd P -> measured p -> used p ->
  let r := visit p x P in
  exists2 c, chi2 r = Some c &
  bil (invmx P) (y - x) (y - x) + hit_cost p y = c + bil (invmx (filtered_cov r)) (y - filtered r) (y - filtered r)
  /\ invmx (filtered_cov r) = invmx P + (H p)^T *m invmx (V p) *m H p.
Proof.
move=> DP M U r; have [_ E] := visit_cost x y DP M; move: (U); rewrite /used => /andP [Ef].
case O : (obs p) => [z | ] // _; have C := C36_chi2 x (pd_psd DP) (M U) O.
rewrite /r; eexists; first exact: C.
move: E; rewrite Ef C /= => ->; split=> //.
by rewrite (visit_used _ _ Ef O) /=; apply: information => //; [exact: pd_psd | exact: M].
Qed.

(** ** All planes *)

(** Every covariance of the filter is positive semi-definite, and no chi2 is negative: neither check_covariance_matrix nor the test for negative chi2 ever does anything *)
Definition accepted (r : result F n m) :=
  [/\ psd (predicted_cov r), psd (filtered_cov r) & forall c, chi2 r = Some c -> 0 <= c].
Definition hit_errors p := forall z, obs p = Some z -> pd (V p).
Lemma visit_accepted p x P : psd P -> hit_errors p -> accepted (visit p x P).
Proof.
move=> DP E.
have M : measured p by rewrite /measured /used => /andP [_]; case O : (obs p) => [z | ] // _; exact: E O.
have [D _] := C36_covariance x DP M; split=> //.
- by rewrite /visit /filter_correct; case: (fit p); case: (obs p).
- move=> c C; have [z O] : exists z, obs p = Some z.
    by move: C; rewrite /visit /filter_correct; case: (obs p) => [z | ]; [exists z | case: (fit p)].
  exact: (C36_chi2_positive DP (E z O) C).
Qed.
Theorem C36_invariant x P ps : psd P -> (forall p, List.In p ps -> hit_errors p /\ psd (Q p)) ->
  (forall r, List.In r (filter_f x P ps) -> accepted r) /\ (forall r, List.In r (filter_b x P ps) -> accepted r).
Proof.
move=> DP E.
have A : forall ps prev x P, psd P -> psd (Q prev) -> (forall p, List.In p ps -> hit_errors p /\ psd (Q p)) ->
  forall r, List.In r (filter_f_from prev x P ps) -> accepted r.
  elim=> // p ps' IH prev x' P' D DQ E' r /= [<- | I].
  - by apply: visit_accepted; [exact: predict_psd | exact: (proj1 (E' p (or_introl erefl)))].
  - move: I; apply: IH; last by move=> p' I'; apply: E'; right.
    + have [] // := @visit_accepted p (Jf p *m x') _ (predict_psd (Jf p) (Jf p *m G prev) D DQ) (proj1 (E' p (or_introl erefl))).
    + exact: (proj2 (E' p (or_introl erefl))).
have B : forall ps x P, psd P -> (forall p, List.In p ps -> hit_errors p /\ psd (Q p)) ->
  forall r, List.In r (filter_b_from x P ps) -> accepted r.
  elim=> // p ps' IH x' P' D E' r /= [<- | I].
  - apply: visit_accepted; first by apply: predict_psd => //; exact: (proj2 (E' p (or_introl erefl))).
    exact: (proj1 (E' p (or_introl erefl))).
  - move: I; apply: IH; last by move=> p' I'; apply: E'; right.
    have [] // := @visit_accepted p (Jb p *m x') _ (predict_psd (Jb p) (G p) D (proj2 (E' p (or_introl erefl)))) (proj1 (E' p (or_introl erefl))).
split.
- case: ps E => // p ps E r /= [<- | I]; first by apply: visit_accepted => //; exact: (proj1 (E p (or_introl erefl))).
  move: I; apply: A; last by move=> p' I'; apply: E; right.
  + have [] // := @visit_accepted p x P DP (proj1 (E p (or_introl erefl))).
  + exact: (proj2 (E p (or_introl erefl))).
- move=> r; rewrite /filter_b.
  have E2 : forall p, List.In p (rev ps) -> hit_errors p /\ psd (Q p).
    move=> p I; apply: E; move: I; elim: (ps) => // a l IH; rewrite rev_cons -cats1 => /List.in_app_iff [I | [-> | []]]; first by right; exact: IH.
    by left.
  case: (rev ps) E2 => // p ps' E2 I.
  have : List.In r (visit p x P :: filter_b_from (filtered (visit p x P)) (filtered_cov (visit p x P)) ps').
    move: I; elim: (_ :: _) => // a l IH; rewrite rev_cons -cats1 => /List.in_app_iff [I | [-> | []]]; first by right; exact: IH.
    by left.
  move=> /= [<- | {}I]; first by apply: visit_accepted => //; exact: (proj1 (E2 p (or_introl erefl))).
  move: I; apply: B; last by move=> p' I'; apply: E2; right.
  have [] // := @visit_accepted p x P DP (proj1 (E2 p (or_introl erefl))).
Qed.

(** One step: prediction through J and a kick through M, then the hit *)
Lemma step_cost p x P (J : 'M[F]_n) (M : 'M[F]_(n, q)) (Qm : 'M[F]_q) : J \in unitmx -> pd P -> pd Qm -> measured p ->
  let r := visit p (J *m x) (J *m (P *m J^T) + M *m (Qm *m M^T)) in
  let c y := (if fit p then odflt 0 (chi2 r) else 0) + bil (invmx (filtered_cov r)) (y - filtered r) (y - filtered r) in
  [/\ pd (filtered_cov r),
      forall u w, c (J *m u + M *m w) <= bil (invmx P) (u - x) (u - x) + bil (invmx Qm) w w + hit_cost p (J *m u + M *m w)
    & forall y, exists u w, J *m u + M *m w = y /\ c y = bil (invmx P) (u - x) (u - x) + bil (invmx Qm) w w + hit_cost p y].
Proof.
move=> UJ DP DQ Me r c.
have D' := predict_pd M UJ DP (pd_psd DQ); have [Df _] := visit_cost (J *m x) 0 D' Me.
split=> //.
- move=> u w; rewrite /c; set y := J *m u + _; have [_ <-] := visit_cost (J *m x) y D' Me; rewrite ler_add2r.
  have [_ ->] := predict_cost M (u - x) w UJ DP DQ.
  have -> : J *m (u - x) + M *m w = y - J *m x by rewrite /y mulmxBr addrAC.
  rewrite ler_addl addr_ge0 //; [exact: (proj2 (pd_psd (pd_inv DP))) | exact: (proj2 (pd_psd (pd_inv DQ)))].
- move=> y; rewrite /c /r; have [_ <-] := visit_cost (J *m x) y D' Me.
  set d := y - J *m x.
  have [E1 _] := predict_cost M (invmx J *m d) 0 UJ DP DQ; move: E1.
  rewrite mulmx0 addr0 mulKVmx //; set P' := J *m (P *m J^T) + _.
  set e' := P *m (_ *m (_ *m d)); set w' := Qm *m (_ *m (_ *m d)) => E1.
  exists (e' + x), w'; split; first by rewrite mulmxDr addrAC E1 /d subrK.
  congr (_ + _); rewrite addrK.
  have [_ E2] := predict_cost M e' w' UJ DP DQ; rewrite E1 in E2.
  by rewrite [RHS]E2 -/P' -/e' -/w' !(subrr, bil0l, addr0).
Qed.

Lemma chain (k h a b e t X T : F) : k + h <= a + b + e -> t + X <= h + T -> k + t + X <= a + (b + e + T).
Proof.
move=> L1 L2; apply: (@le_trans _ _ (k + (h + T))); first by rewrite -addrA ler_add2l.
by rewrite addrA !addrA ler_add2r.
Qed.
Lemma forward_from ps : forall prev x P, pd P -> passable_f prev ps ->
  let rs := filter_f_from prev x P ps in
  let xl := last x (map (@filtered F n m) rs) in let Pl := last P (map (@filtered_cov F n m) rs) in
  let c y := total_chi2 ps rs + bil (invmx Pl) (y - xl) (y - xl) in
  [/\ pd Pl,
      forall y ws, size ws = size ps -> c (track_f prev y ps ws).1 <= bil (invmx P) (y - x) (y - x) + (track_f prev y ps ws).2
    & forall yl, exists y ws, [/\ size ws = size ps, (track_f prev y ps ws).1 = yl
        & c yl = bil (invmx P) (y - x) (y - x) + (track_f prev y ps ws).2]].
Proof.
elim: ps => [ | p ps IH] prev x P DP.
- move=> _; split=> //.
  + by move=> y [] //= _; rewrite add0r addr0.
  + by move=> yl; exists yl, [::]; split=> //=; rewrite add0r addr0.
- move=> [DQ UJ Me Pa] rs xl Pl c.
  have [Df Lo At] := step_cost x (Jf p *m G prev) UJ DP DQ Me.
  set r := visit p _ _ in Df Lo At.
  have [Dl Lo' At'] := IH p (filtered r) (filtered_cov r) Df Pa.
  split=> //.
  + move=> y [ | w ws] // [Z]; have := Lo y w => /=.
    rewrite -mulmxA -mulmxDr; set y' := Jf p *m _ => L1.
    have := Lo' y' ws Z => /=; rewrite /c /rs /xl /Pl /= -/r => L2.
    exact: chain L1 L2.
  + move=> yl; have [y' [ws [Z E1 E2]]] := At' yl; have [u [w [E3 E4]]] := At y'.
    exists u, (w :: ws); move: E3 E4; rewrite -mulmxA -mulmxDr => E3 E4; split=> /=; rewrite ?Z ?E3 //.
    rewrite /c /rs /xl /Pl /= -/r -addrA; move: E2 => /= ->.
    by rewrite addrA E4 -!addrA.
Qed.

Lemma backward_from ps : forall x P, pd P -> passable_b ps ->
  let rs := filter_b_from x P ps in
  let xl := last x (map (@filtered F n m) rs) in let Pl := last P (map (@filtered_cov F n m) rs) in
  let c y := total_chi2 ps rs + bil (invmx Pl) (y - xl) (y - xl) in
  [/\ pd Pl,
      forall y ws, size ws = size ps -> c (track_b y ps ws).1 <= bil (invmx P) (y - x) (y - x) + (track_b y ps ws).2
    & forall yl, exists y ws, [/\ size ws = size ps, (track_b y ps ws).1 = yl
        & c yl = bil (invmx P) (y - x) (y - x) + (track_b y ps ws).2]].
Proof.
elim: ps => [ | p ps IH] x P DP.
- move=> _; split=> //.
  + by move=> y [] //= _; rewrite add0r addr0.
  + by move=> yl; exists yl, [::]; split=> //=; rewrite add0r addr0.
- move=> [DQ UJ Me Pa] rs xl Pl c.
  have [Df Lo At] := step_cost x (G p) UJ DP DQ Me.
  set r := visit p _ _ in Df Lo At.
  have [Dl Lo' At'] := IH (filtered r) (filtered_cov r) Df Pa.
  split=> //.
  + move=> y [ | w ws] // [Z]; have := Lo y w => /=.
    set y' := Jb p *m _ + _ => L1.
    have := Lo' y' ws Z => /=; rewrite /c /rs /xl /Pl /= -/r => L2.
    exact: chain L1 L2.
  + move=> yl; have [y' [ws [Z E1 E2]]] := At' yl; have [u [w [E3 E4]]] := At y'.
    exists u, (w :: ws); split=> /=; rewrite ?Z ?E3 //.
    rewrite /c /rs /xl /Pl /= -/r -addrA; move: E2 => /= ->.
    by rewrite addrA E4 -!addrA.
Qed.

(** The state of the filter at the end is the end of the best track through all planes: the cost of any track is at least the sum of the chi2 and of the weighted square of the distance of its end from the filtered state, and for every end there is a track with exactly this cost *)
Definition no_result : result F n m := Result 0 0 0 0 0 None.
Definition best (r : result F n m) (chi2s : F) (tracks : 'cV[F]_n -> F -> Prop) :=
  [/\ pd (filtered_cov r),
      forall y c, tracks y c -> chi2s + bil (invmx (filtered_cov r)) (y - filtered r) (y - filtered r) <= c
    & forall y, tracks y (chi2s + bil (invmx (filtered_cov r)) (y - filtered r) (y - filtered r))].
Definition tracks_f x P p ps (yl : 'cV[F]_n) (c : F) :=
  exists y ws, [/\ size ws = size ps, (track_f p y ps ws).1 = yl & c = cost_f x P p ps y ws].
Definition tracks_b x P p ps (yl : 'cV[F]_n) (c : F) :=
  exists y ws, [/\ size ws = size ps, (track_b y ps ws).1 = yl & c = cost_b x P p ps y ws].

Theorem C36_forward_fit x P p ps : pd P -> measured p -> passable_f p ps ->
  best (last no_result (filter_f x P (p :: ps))) (total_chi2 (p :: ps) (filter_f x P (p :: ps))) (tracks_f x P p ps).
Proof.
move=> DP Me Pa; set r := visit p x P.
have Df : pd (filtered_cov r) := proj1 (visit_cost x 0 DP Me).
have E y := proj2 (visit_cost x y DP Me).
have [Dl Lo At] := forward_from (filtered r) Df Pa; move: Dl Lo At.
rewrite /= -/r !last_map => Dl Lo At; split=> //.
- move=> yl c [y [ws [Z <- ->]]]; rewrite /cost_f E -/r -!addrA ler_add2l; exact: Lo.
- move=> yl; have [y [ws [Z E1 E2]]] := At yl; exists y, ws; split=> //.
  by rewrite /cost_f E -/r -!addrA; congr (_ + _).
Qed.
Theorem C36_backward_fit x P p ps : pd P -> measured p -> passable_b ps ->
  best (head no_result (filter_b x P (rev (p :: ps)))) (total_chi2 (p :: ps) (rev (filter_b x P (rev (p :: ps))))) (tracks_b x P p ps).
Proof.
move=> DP Me Pa; set r := visit p x P.
have Df : pd (filtered_cov r) := proj1 (visit_cost x 0 DP Me).
have E y := proj2 (visit_cost x y DP Me).
have [Dl Lo At] := backward_from (filtered r) Df Pa; move: Dl Lo At.
rewrite /filter_b revK revK -/r.
have HL (s : seq (result F n m)) : head no_result (rev (r :: s)) = last r s.
  by rewrite lastI rev_rcons.
rewrite HL /= !last_map => Dl Lo At; split=> //.
- move=> yl c [y [ws [Z <- ->]]]; rewrite /cost_b E -/r -!addrA ler_add2l; exact: Lo.
- move=> yl; have [y [ws [Z E1 E2]]] := At yl; exists y, ws; split=> //.
  by rewrite /cost_b E -/r -!addrA; congr (_ + _).
Qed.
(** There is one best track end only *)
Theorem C36_unique_best r c tracks : best r c tracks ->
  tracks (filtered r) c /\ forall y c', tracks y c' -> c <= c' /\ (c' = c -> y = filtered r).
Proof.
move=> [D L A]; split; first by have := A (filtered r); rewrite subrr bil0l addr0.
move=> y c' T; have := L _ _ T => L1.
split; first by apply: le_trans L1; rewrite ler_addl; exact: (proj2 (pd_psd (pd_inv D))).
move=> E; apply/eqP; rewrite -subr_eq0; apply/negPn/negP => N.
have := proj2 (pd_inv D) _ N; move: L1; rewrite E -{2}[c]addr0 ler_add2l => L1.
by rewrite ltNge L1.
Qed.

(** ** C57: hits of planes that do not take part in the fit *)

Definition with_obs p o := Plane (fit p) o (H p) (V p) (ref p) (Jf p) (Jb p) (G p) (Q p).
Definition replace_hit (po : plane F n m q * option 'cV[F]_m) := if fit po.1 then po.1 else with_obs po.1 po.2.
Definition other_hits (ps ps' : seq (plane F n m q)) :=
  exists os, size os = size ps /\ ps' = map replace_hit (zip ps os).
Definition same_state (r r' : result F n m) :=
  [/\ predicted r = predicted r', predicted_cov r = predicted_cov r', filtered r = filtered r', filtered_cov r = filtered_cov r' & gain r = gain r'].

Lemma same_refl r : same_state r r. Proof. by []. Qed.
Lemma visit_other p o x P : same_state (visit (replace_hit (p, o)) x P) (visit p x P).
Proof. by rewrite /replace_hit /=; case E : (fit p) => //; rewrite /visit /with_obs /= E. Qed.
Theorem C57_states x P ps ps' : other_hits ps ps' ->
  (forall i, same_state (nth no_result (filter_f x P ps') i) (nth no_result (filter_f x P ps) i)) /\
  (forall i, same_state (nth no_result (filter_b x P ps') i) (nth no_result (filter_b x P ps) i)).
Proof.
set f := replace_hit.
have A : forall ps os prev prev' x P, size os = size ps -> G prev' = G prev -> Q prev' = Q prev ->
  forall i, same_state (nth no_result (filter_f_from prev' x P (map f (zip ps os))) i) (nth no_result (filter_f_from prev x P ps) i).
  elim=> [ | p ps0 IH] [ | o os] //.
  move=> prev prev' x' P' [Z] EG EQ i.
  rewrite /= EG EQ.
  have J : Jf (f (p, o)) = Jf p by rewrite /f /replace_hit /=; case: (fit p).
  have [E1 E2 E3 E4 E5] := visit_other p o (predict_f (Jf p) (G prev) (Q prev) x' P').1 (predict_f (Jf p) (G prev) (Q prev) x' P').2.
  case: i => [ | i] /=; rewrite J //.
  rewrite /predict_f /= in E3 E4; rewrite E3 E4; apply: IH => //; rewrite /f /replace_hit /=; by case: (fit p).
have B : forall ps os x P, size os = size ps ->
  forall i, same_state (nth no_result (filter_b_from x P (map f (zip ps os))) i) (nth no_result (filter_b_from x P ps) i).
  elim=> [ | p ps0 IH] [ | o os] //.
  move=> x' P' [Z] i.
  have J : Jb (f (p, o)) = Jb p by rewrite /f /replace_hit /=; case: (fit p).
  have EG : G (f (p, o)) = G p by rewrite /f /replace_hit /=; case: (fit p).
  have EQ : Q (f (p, o)) = Q p by rewrite /f /replace_hit /=; case: (fit p).
  have [E1 E2 E3 E4 E5] := visit_other p o (predict_b (Jb p) (G p) (Q p) x' P').1 (predict_b (Jb p) (G p) (Q p) x' P').2.
  case: i => [ | i] /=; rewrite J EG EQ //.
  rewrite /predict_b /= in E3 E4; rewrite E3 E4; exact: IH.
have S' : forall ps x P, size (filter_b_from x P ps) = size ps by elim=> [ | p ps0 IH] x' P' //=; rewrite IH.
move=> [os [Z ->]]; split=> i.
- case: ps os Z => [ | p ps0] [ | o os] // [Z]; rewrite /=.
  have [E1 E2 E3 E4 E5] := visit_other p o x P; case: i => [ | i] //=.
  rewrite E3 E4; apply: A => //; rewrite /f /replace_hit /=; by case: (fit p).
- rewrite /filter_b -map_rev -/f rev_zip //.
  have Z' : size (rev os) = size (rev ps) by rewrite !size_rev.
  case: (rev ps) (rev os) Z' => [ | p ps0] [ | o os'] // [Z']; rewrite [map _ _]/=.
  have [E1 E2 E3 E4 E5] := visit_other p o x P.
  case: (ltnP i (size (p :: ps0))) => L; last first.
    by rewrite !nth_default // size_rev /= S' // size_map size_zip Z' minnn.
  rewrite !nth_rev /= ?S' ?size_map ?size_zip ?Z' ?minnn //.
  case: (_ - _)%N => [ | j] //=; rewrite E3 E4; exact: B.
Qed.
Theorem C57_smoothed x P ps ps' i : other_hits ps ps' -> smoothed x P ps' i = smoothed x P ps i.
Proof.
move=> O; have [A B] := C57_states x P O.
have [_ _ E1 E2 _] := A i; have [_ _ E3 E4 _] := B i.
rewrite /smoothed; rewrite -/no_result E1 E2 E3 E4.
by case: O => os [Z ->]; rewrite size_map size_zip Z minnn.
Qed.

(** ** C58: smoothing *)

Lemma filter_f_take x P ps k : filter_f x P (take k ps) = take k (filter_f x P ps).
Proof.
have A : forall ps k prev x P, filter_f_from prev x P (take k ps) = take k (filter_f_from prev x P ps).
  by elim=> [ | p ps0 IH] [ | k0] prev x' P' //=; rewrite IH.
by case: ps k => [ | p ps] [ | k] //=; rewrite A.
Qed.
Lemma size_filter_f x P ps : size (filter_f x P ps) = size ps.
Proof.
have A : forall ps prev x P, size (filter_f_from prev x P ps) = size ps by elim=> [ | p ps0 IH] prev x' P' //=; rewrite IH.
by case: ps => [ | p ps] //=; rewrite A.
Qed.
Lemma forward_at x P l p r : nth no_result (filter_f x P (l ++ p :: r)) (size l) = last no_result (filter_f x P (rcons l p)).
Proof.
have -> : rcons l p = take (size l).+1 (l ++ p :: r) by rewrite -cat_rcons take_size_cat ?size_rcons.
rewrite filter_f_take -nth_last size_takel; first by rewrite nth_take.
by rewrite size_filter_f size_cat /= addnS ltnS leq_addr.
Qed.
Definition filter_b' x P ps := if ps is p :: ps then let r := visit p x P in r :: filter_b_from (filtered r) (filtered_cov r) ps else [::].
Lemma filter_bE x P ps : filter_b x P ps = rev (filter_b' x P (rev ps)).
Proof. by rewrite /filter_b; case: (rev ps). Qed.
Lemma filter_b_cat x P l l' : exists s, filter_b' x P (l ++ l') = filter_b' x P l ++ s.
Proof.
have A : forall (l l' : seq (plane F n m q)) x P, exists s, filter_b_from x P (l ++ l') = filter_b_from x P l ++ s.
  elim=> [ | p l0 IH] l1 x' P'; first by exists (filter_b_from x' P' l1).
  set r := visit p (Jb p *m x') (predict_b (Jb p) (G p) (Q p) x' P').2.
  by have [s E] := IH l1 (filtered r) (filtered_cov r); exists s; rewrite /= E.
case: l => [ | p l]; first by exists (filter_b' x P l').
by have [s E] := A l l' (filtered (visit p x P)) (filtered_cov (visit p x P)); exists s; rewrite /= E.
Qed.
Lemma size_filter_b x P ps : size (filter_b x P ps) = size ps.
Proof.
have A : forall ps x P, size (filter_b_from x P ps) = size ps by elim=> [ | p ps0 IH] x' P' //=; rewrite IH.
by rewrite /filter_b -(size_rev ps); case: (rev ps) => [ | p l] //; rewrite size_rev /= A.
Qed.
Lemma backward_at x P l p r : nth no_result (filter_b x P (l ++ p :: r)) (size l) = head no_result (filter_b x P (p :: r)).
Proof.
have [s E] := filter_b_cat x P (rev (p :: r)) (rev l).
rewrite filter_bE rev_cat E rev_cat nth_cat.
have Z : size (rev s) = size l.
  have := size_filter_b x P (l ++ p :: r); rewrite filter_bE rev_cat E rev_cat size_cat -filter_bE size_filter_b size_cat.
  by move/eqP; rewrite eqn_add2r => /eqP.
by rewrite Z ltnn subnn -filter_bE nth0.
Qed.

(** The state of a plane between the first and the last one, and its covariance: the state minimises the sum of the costs of a track from the first plane to it and of a track from the last plane to it *)
Theorem C58_mean x P p0 l p r pl r' : let ps := p0 :: l ++ p :: r in rev r = pl :: r' -> pd P ->
  measured p0 -> passable_f p0 (rcons l p) -> measured pl -> passable_b (rcons r' p) ->
  let s := smoothed x P ps (size l).+1 in
  exists c, [/\ pd s.2,
    forall y cf cb, tracks_f x P p0 (rcons l p) y cf -> tracks_b x P pl (rcons r' p) y cb -> c + bil (invmx s.2) (y - s.1) (y - s.1) <= cf + cb
  & forall y, exists cf cb, [/\ tracks_f x P p0 (rcons l p) y cf, tracks_b x P pl (rcons r' p) y cb & c + bil (invmx s.2) (y - s.1) (y - s.1) = cf + cb]].
Proof.
move=> ps R DP M0 Pf Ml Pb s.
have [Df Lf Af] := C36_forward_fit x DP M0 Pf; have [Db Lb Ab] := C36_backward_fit x DP Ml Pb.
move: Df Lf Af Db Lb Ab.
have -> : rev (pl :: rcons r' p) = p :: r by rewrite -rcons_cons rev_rcons -R revK.
set rf := last _ _; set rb := head _ _; set cf := total_chi2 _ _; set cb := total_chi2 _ _.
move=> Df Lf Af Db Lb Ab.
have Es : s = weighted_mean (filtered rf) (filtered_cov rf) (filtered rb) (filtered_cov rb).
  have L : ((size l).+1 == (size ps).-1) = false.
    by rewrite /ps /= size_cat /= addnS eqSS -{1}[size l]addn0 eqn_add2l -(size_rev r) R.
  have F1 : nth no_result (filter_f x P ps) (size l).+1 = rf := forward_at x P (p0 :: l) p r.
  have F2 : nth no_result (filter_b x P ps) (size l).+1 = rb := backward_at x P (p0 :: l) p r.
  by rewrite /s /smoothed -/no_result F1 F2 L.
have DA := pd_inv Df; have DB := pd_inv Db; have DS := pd_add DA DB.
have E2 : s.2 = invmx (invmx (filtered_cov rf) + invmx (filtered_cov rb)).
  by rewrite Es /weighted_mean /= !mat_inverse_pd.
have E1 : s.1 = s.2 *m (invmx (filtered_cov rf) *m filtered rf + invmx (filtered_cov rb) *m filtered rb).
  by rewrite Es /weighted_mean /= !mat_inverse_pd.
exists (cf + cb + (bil (invmx (filtered_cov rf)) (s.1 - filtered rf) (s.1 - filtered rf) + bil (invmx (filtered_cov rb)) (s.1 - filtered rb) (s.1 - filtered rb))).
have E3 : invmx s.2 = invmx (filtered_cov rf) + invmx (filtered_cov rb) by rewrite E2 invmxK.
have SF y : bil (invmx (filtered_cov rf)) (y - filtered rf) (y - filtered rf) + bil (invmx (filtered_cov rb)) (y - filtered rb) (y - filtered rb)
  = bil (invmx s.2) (y - s.1) (y - s.1) + (bil (invmx (filtered_cov rf)) (s.1 - filtered rf) (s.1 - filtered rf) + bil (invmx (filtered_cov rb)) (s.1 - filtered rb) (s.1 - filtered rb)).
  by rewrite (sum_of_forms _ _ _ (proj1 DA) (proj1 DB) (pd_unit DS)) -E2 -E1 E3.
have K y : cf + cb + (bil (invmx (filtered_cov rf)) (s.1 - filtered rf) (s.1 - filtered rf) + bil (invmx (filtered_cov rb)) (s.1 - filtered rb) (s.1 - filtered rb)) + bil (invmx s.2) (y - s.1) (y - s.1)
  = (cf + bil (invmx (filtered_cov rf)) (y - filtered rf) (y - filtered rf)) + (cb + bil (invmx (filtered_cov rb)) (y - filtered rb) (y - filtered rb)).
  by rewrite [RHS]addrACA (SF y) -[LHS]addrA [X in _ + X = _]addrC.
split.
- by rewrite E2; exact: pd_inv.
- by move=> y c1 c2 T1 T2; rewrite K; apply: ler_add; [exact: Lf | exact: Lb].
- by move=> y; exists (cf + bil (invmx (filtered_cov rf)) (y - filtered rf) (y - filtered rf)), (cb + bil (invmx (filtered_cov rb)) (y - filtered rb) (y - filtered rb)); rewrite K.
Qed.

Lemma middle_of_three x P p0 p1 p2 : let ps := [:: p0; p1; p2] in
  nth no_result (filter_f x P ps) 1 = (let r := visit p0 x P in visit p1 (Jf p1 *m filtered r) (Jf p1 *m (filtered_cov r *m (Jf p1)^T) + (Jf p1 *m G p0) *m (Q p0 *m (Jf p1 *m G p0)^T)))
  /\ nth no_result (filter_b x P ps) 1 = (let r := visit p2 x P in visit p1 (Jb p1 *m filtered r) (Jb p1 *m (filtered_cov r *m (Jb p1)^T) + G p1 *m (Q p1 *m (G p1)^T))).
Proof. by []. Qed.

Lemma smoothed_middle x P p0 p1 p2 rf rb : let ps := [:: p0; p1; p2] in
  nth no_result (filter_f x P ps) 1 = rf -> nth no_result (filter_b x P ps) 1 = rb ->
  smoothed x P ps 1 = weighted_mean (filtered rf) (filtered_cov rf) (filtered rb) (filtered_cov rb).
Proof. by move=> ps <- <-. Qed.

(** The best track has state t at plane p: every hit counts once, D is the inverse of its covariance *)
Definition best_at p (forward backward : 'cV[F]_n -> F -> Prop) (t : 'cV[F]_n) (D : 'M[F]_n) :=
  exists c, [/\ pd D,
    forall y cf cb, forward y cf -> backward y cb -> c + bil D (y - t) (y - t) <= cf + cb - hit_cost p y
  & forall y, exists cf cb, [/\ forward y cf, backward y cb & c + bil D (y - t) (y - t) = cf + cb - hit_cost p y]].

(** Planes whose hit does not take part: the smoothed state is that of the best track *)
Theorem C58_unused x P p0 l p r pl r' : let ps := p0 :: l ++ p :: r in rev r = pl :: r' -> pd P ->
  measured p0 -> passable_f p0 (rcons l p) -> measured pl -> passable_b (rcons r' p) -> ~~ used p ->
  let s := smoothed x P ps (size l).+1 in
  best_at p (tracks_f x P p0 (rcons l p)) (tracks_b x P pl (rcons r' p)) s.1 (invmx s.2).
Proof.
move=> ps R DP M0 Pf Ml Pb U s; have [c [D L A]] := C58_mean x R DP M0 Pf Ml Pb.
have Z y : hit_cost p y = 0 by move: U; rewrite /used /hit_cost; case: (fit p) => //; case: (obs p).
exists c; split.
- exact: pd_inv.
- by move=> y cf cb T1 T2; rewrite Z subr0; exact: L.
- by move=> y; have [cf [cb [T1 T2 E]]] := A y; exists cf, cb; rewrite Z subr0.
Qed.

(** First and last plane: the smoothed state is that of the best track *)
Theorem C58_ends x P p ps :
  (pd P -> measured p -> passable_b ps -> let s := smoothed x P (rev (p :: ps)) 0 in
   exists c, [/\ pd s.2, forall y c', tracks_b x P p ps y c' -> c + bil (invmx s.2) (y - s.1) (y - s.1) <= c'
     & forall y, tracks_b x P p ps y (c + bil (invmx s.2) (y - s.1) (y - s.1))]) /\
  (pd P -> measured p -> passable_f p ps -> ps <> [::] -> let s := smoothed x P (p :: ps) (size ps) in
   exists c, [/\ pd s.2, forall y c', tracks_f x P p ps y c' -> c + bil (invmx s.2) (y - s.1) (y - s.1) <= c'
     & forall y, tracks_f x P p ps y (c + bil (invmx s.2) (y - s.1) (y - s.1))]).
Proof.
split=> DP Me Pa.
- have [D L A] := C36_backward_fit x DP Me Pa; move: D L A.
  set cb := total_chi2 _ _; rewrite /smoothed /= -/no_result nth0; by exists cb.
- have [D L A] := C36_forward_fit x DP Me Pa; move: D L A.
  set cf := total_chi2 _ _ => D L A N.
  have E : size ps == 0%N = false by case: (ps) N.
  have El : nth no_result (filter_f x P (p :: ps)) (size ps) = last no_result (filter_f x P (p :: ps)).
    by rewrite -nth_last size_filter_f.
  have Z : (size ps == (size (p :: ps)).-1) = true by rewrite /= eqxx.
  move: D L A; rewrite /smoothed E Z -/no_result El.
  by exists cf.
Qed.

Lemma backward_last x P pl r' p r : rev r = pl :: r' -> pd P -> measured pl -> passable_b (rcons r' p) ->
  exists xb Pb, head no_result (filter_b x P (p :: r)) = visit p xb Pb /\ pd Pb.
Proof.
move=> R DP Ml Pa; rewrite filter_bE rev_cons R -nth0 rcons_cons /=; set v := visit pl x P.
have A : forall l d x0 P0, pd P0 -> passable_b (rcons l p) ->
  exists xb Pb, last d (filter_b_from x0 P0 (rcons l p)) = visit p xb Pb /\ pd Pb.
  elim=> [ | p' l IH] d x0 P0 D0 /= [DQ UJ Me Pa'].
    exists (Jb p *m x0), (Jb p *m (P0 *m (Jb p)^T) + G p *m (Q p *m (G p)^T)); split=> //.
    by apply: predict_pd => //; exact: pd_psd.
  apply: IH => //; have [] // := visit_cost (Jb p' *m x0) 0 (predict_pd (G p') UJ D0 (pd_psd DQ)) Me.
have Dv : pd (filtered_cov v) := proj1 (visit_cost x 0 DP Ml).
have [xb [Pb [E D]]] := A r' v (filtered v) (filtered_cov v) Dv Pa.
exists xb, Pb; split=> //; rewrite -E nth0.
by case: (filter_b_from _ _ _) => [ | a l] //; rewrite lastI rev_rcons.
Qed.

(** Planes between the first and the last one with a hit that takes part: this hit is counted twice. The inverse of the covariance exceeds that of the best track by the information of the hit, and the state is pulled from the best track towards the hit *)
Theorem C58_counted_twice x P p0 l p r pl r' z : let ps := p0 :: l ++ p :: r in rev r = pl :: r' -> pd P ->
  measured p0 -> passable_f p0 (rcons l p) -> measured pl -> passable_b (rcons r' p) -> fit p -> obs p = Some z -> pd (V p) ->
  let s := smoothed x P ps (size l).+1 in
  exists t D, [/\ best_at p (tracks_f x P p0 (rcons l p)) (tracks_b x P pl (rcons r' p)) t D,
    invmx s.2 = D + (H p)^T *m invmx (V p) *m H p
  & s.1 = t + s.2 *m ((H p)^T *m (invmx (V p) *m (z - H p *m (t + ref p))))].
Proof.
move=> ps R DP M0 Pf Ml Pb Ef O DV s; have [c [Ds L A]] := C58_mean x R DP M0 Pf Ml Pb.
have U : used p by rewrite /used Ef O.
have [xb [Pb' [Eb Db]]] := backward_last x R DP Ml Pb.
have [Dfo _ _] := C36_forward_fit x DP M0 Pf.
have Me : measured p by [].
have [c' Ec [_ I]] := C36_least_squares xb 0 Db Me U.
have Es : invmx s.2 = invmx (filtered_cov (last no_result (filter_f x P (p0 :: rcons l p)))) + (invmx Pb' + (H p)^T *m invmx (V p) *m H p).
  have Lz : ((size l).+1 == (size ps).-1) = false.
    by rewrite /ps /= size_cat /= addnS eqSS -{1}[size l]addn0 eqn_add2l -(size_rev r) R.
  have F1 : nth no_result (filter_f x P ps) (size l).+1 = last no_result (filter_f x P (p0 :: rcons l p)) := forward_at x P (p0 :: l) p r.
  have F2 : nth no_result (filter_b x P ps) (size l).+1 = visit p xb Pb' by rewrite -Eb; exact: (backward_at x P (p0 :: l) p r).
  have Dv : pd (filtered_cov (visit p xb Pb')) := proj1 (visit_cost xb 0 Db Me).
  rewrite /s /smoothed -/no_result F1 F2 Lz /weighted_mean /= (mat_inverse_pd Dfo) (mat_inverse_pd Dv).
  by rewrite mat_inverse_pd; [rewrite invmxK I | apply: pd_add; exact: pd_inv].
set D := invmx (filtered_cov (last no_result (filter_f x P (p0 :: rcons l p)))) + invmx Pb'.
have DD : pd D by apply: pd_add; exact: pd_inv.
have ED : invmx s.2 - (H p)^T *m invmx (V p) *m H p = D by rewrite Es addrA addrK.
have SW := inv_sym (proj1 DV); have SS := inv_sym (proj1 Ds).
have UD : invmx s.2 - (H p)^T *m invmx (V p) *m H p \in unitmx by rewrite ED; exact: pd_unit.
set r0 := z - H p *m (s.1 + ref p).
have [W1 W2] := without_hit s.1 r0 SW SS UD.
move: W1 W2; rewrite ED; set b := (H p)^T *m (_ *m r0); set t := s.1 - invmx D *m b => W1 W2.
have HC y : hit_cost p y = bil (invmx (V p)) (r0 - H p *m (y - s.1)) (r0 - H p *m (y - s.1)).
  have E : z - H p *m (y + ref p) = r0 - H p *m (y - s.1).
    by rewrite /r0 -[RHS]addrA -opprD -mulmxDr [s.1 + _ + _]addrAC [s.1 + _]addrC subrK.
  by rewrite /hit_cost Ef O E.
set k := bil (invmx D) b b + _ in W1.
have Q y : c - k + bil D (y - t) (y - t) = c + bil (invmx s.2) (y - s.1) (y - s.1) - hit_cost p y.
  by rewrite HC -[LHS]addrA [- k + _]addrC -W1 addrA.
exists t, D; split.
- exists (c - k); split=> //.
  + by move=> y cf cb T1 T2; rewrite Q ler_add2r; exact: L.
  + by move=> y; have [cf [cb [T1 T2 E]]] := A y; exists cf, cb; rewrite Q E.
- by rewrite -ED subrK.
- have -> : z - H p *m (t + ref p) = r0 + H p *m (s.1 - t).
    rewrite /r0 -addrA; congr (_ + _); rewrite -mulmxN -mulmxN -mulmxDr; congr (_ *m _).
    by rewrite !opprD addrACA addNr add0r addrC.
  rewrite -W2 mulKVmx ?pd_unit //.
  by rewrite addrC subrK.
Qed.

(** ** The chi2 of the smoothed states *)

(** All that the filter needs to know about the planes *)
Definition sound ps :=
  (if ps is p :: ps' then measured p /\ passable_f p ps' else True) /\
  (if rev ps is p :: ps' then measured p /\ passable_b ps' else True).

Lemma passable_f_cat p l r : passable_f p (l ++ r) -> passable_f p l.
Proof. by elim: l p => // a l IH p /= [A B C D]; split=> //; exact: IH. Qed.
Lemma passable_b_cat l r : passable_b (l ++ r) -> passable_b l.
Proof. by elim: l => // a l IH /= [A B C D]; split=> //; exact: IH. Qed.
Lemma forward_last x P l p : pd P -> (if rcons l p is p0 :: l' then measured p0 /\ passable_f p0 l' else True) ->
  exists xb Pb, last no_result (filter_f x P (rcons l p)) = visit p xb Pb /\ pd Pb.
Proof.
case: l => [ | p0 l] DP /=; first by exists x, P.
move=> [Me Pa]; have Dv : pd (filtered_cov (visit p0 x P)) := proj1 (visit_cost x 0 DP Me).
elim: l p0 (visit p0 x P) Dv Pa {Me} => [ | p' l IH] p0 v Dv /= [DQ UJ Me Pa].
- exists (Jf p *m filtered v), (Jf p *m (filtered_cov v *m (Jf p)^T) + Jf p *m G p0 *m (Q p0 *m (Jf p *m G p0)^T)); split=> //.
  by apply: predict_pd => //; exact: pd_psd.
- apply: IH => //; have [] // := visit_cost (Jf p' *m filtered v) 0 (predict_pd (Jf p' *m G p0) UJ Dv (pd_psd DQ)) Me.
Qed.
Lemma visit_residual p x P z : pd P -> pd (V p) -> fit p -> obs p = Some z ->
  pd (V p - H p *m (filtered_cov (visit p x P) *m (H p)^T)).
Proof.
move=> DP DV Ef O; have U : used p by rewrite /used Ef O.
have [c' _ [_ I]] := @C36_least_squares p x P 0 DP (fun _ => DV) U.
exact: residual_of_information (pd_inv DP) DV I.
Qed.

Theorem C36_smoothed_chi2 x P l p r c : pd P -> sound (l ++ p :: r) -> hit_errors p ->
  let s := smoothed x P (l ++ p :: r) (size l) in
  pd s.2 /\ (smoothed_chi2 p s.1 s.2 = Some c -> 0 <= c).
Proof.
move=> DP [S1 S2] He s.
have Me : measured p by rewrite /measured /used => /andP [_]; case O : (obs p) => [z | ] // _; exact: He O.
suff [Ds R] : pd s.2 /\ forall z, fit p -> obs p = Some z -> pd (V p - H p *m (s.2 *m (H p)^T)).
  split=> //; rewrite /smoothed_chi2; case O : (obs p) => [z | ] // [<-]; have DV := He z O.
  rewrite quadE; case Ef : (fit p).
  - rewrite mat_inverse_pd; last exact: R Ef O.
    by apply: (proj2 (pd_psd (pd_inv _))); exact: R Ef O.
  - have D2 : pd (V p + H p *m (s.2 *m (H p)^T)) by rewrite mulmxA; apply: pd_psd_add => //; apply: psd_conj; exact: pd_psd.
    by rewrite mat_inverse_pd //; exact: (proj2 (pd_psd (pd_inv D2))).
have VP x' P' : pd P' -> pd (filtered_cov (visit p x' P')) by move=> D'; exact: (proj1 (visit_cost x' 0 D' Me)).
have B : exists xb Pb, nth no_result (filter_b x P (l ++ p :: r)) (size l) = visit p xb Pb /\ pd Pb.
  rewrite backward_at; move: S2; rewrite rev_cat rev_cons; case R : (rev r) => [ | pl r'].
    by have -> : r = [::] by [rewrite -[r]revK R]; exists x, P.
  by rewrite rcons_cons cat_cons => - [Ml /passable_b_cat Pb]; exact: backward_last R DP Ml Pb.
have Fo : exists xb Pb, nth no_result (filter_f x P (l ++ p :: r)) (size l) = visit p xb Pb /\ pd Pb.
  rewrite forward_at; apply: forward_last => //; move: S1; rewrite -cat_rcons; case: (rcons l p) => [ | a l'] //= [M0 Pf].
  by split=> //; exact: passable_f_cat Pf.
case El : (size l == 0%N).
  have [xb [Pb [E D]]] := B; have -> : s = (filtered (visit p xb Pb), filtered_cov (visit p xb Pb)) by rewrite /s /smoothed -/no_result E El.
  by split=> [ | z Ef O] /=; [exact: VP | exact: visit_residual D (He z O) Ef O].
case Er : (size l == (size (l ++ p :: r)).-1).
  have [xb [Pb [E D]]] := Fo; have -> : s = (filtered (visit p xb Pb), filtered_cov (visit p xb Pb)) by rewrite /s /smoothed -/no_result E El Er.
  by split=> [ | z Ef O] /=; [exact: VP | exact: visit_residual D (He z O) Ef O].
move: El Er S1 S2 @s; case: l {B Fo} => [ | p0 l] // _ Er [M0 Pf]; rewrite rev_cat rev_cons.
case R : (rev r) => [ | pl r'].
  by move: Er; have -> : r = [::] by [rewrite -[r]revK R]; rewrite size_cat addn1 eqxx.
rewrite rcons_cons cat_cons => - [Ml /passable_b_cat Pb] s.
have Pf' : passable_f p0 (rcons l p) by move: (Pf : passable_f p0 (l ++ p :: r)); rewrite -cat_rcons; exact: passable_f_cat.
have [c0 [Ds _ _]] := C58_mean x R DP M0 Pf' Ml Pb; split=> // z Ef O.
have [t [D [Bt I _]]] := C58_counted_twice x R DP M0 Pf' Ml Pb Ef O (He z O).
have [c1 [DD _ _]] := Bt; exact: residual_of_information DD (He z O) I.
Qed.
End Props.

(** ** Concrete cases *)

(** A telescope: parallel planes 1 apart, position and slope, two coordinates; all hypotheses above hold *)
Section Telescope.
Variable F : realFieldType.
Definition drift (d : F) : 'M[F]_(2 + 2) := block_mx 1%:M d%:M 0 1%:M.
Definition telescope_plane (hit : option 'cV[F]_2) : plane F (2 + 2) 2 2 :=
  Plane true hit (row_mx 1%:M 0) (9%:R^-1)%:M 0 (drift 1) (drift (- 1)) (col_mx 0 1%:M) (25%:R^-1)%:M.
Lemma drift_unit d : drift d \in unitmx.
Proof. by rewrite unitmxE det_ublock !det1 mulr1 unitr1. Qed.
Lemma telescope_measured h : measured (telescope_plane h).
Proof. by move=> _; apply: pd_scalar; rewrite invr_gt0 ltr0n. Qed.
Example C36_case (h : seq (option 'cV[F]_2)) : sound (map telescope_plane h) /\ pd ((200%:R : F)%:M : 'M[F]_(2 + 2))
  /\ forall p, List.In p (map telescope_plane h) -> hit_errors p /\ psd (Q p).
Proof.
have DQ : pd ((25%:R^-1 : F)%:M : 'M[F]_2) by apply: pd_scalar; rewrite invr_gt0 ltr0n.
have U d := drift_unit d; have M := telescope_measured.
split; last split; first split.
- case: h => [ | a h] //=; split=> //.
  by elim: h a => [ | b h IH] a //=; split=> //.
- rewrite -map_rev; case: (rev h) => [ | a h'] //=; split=> //.
  by elim: h' => [ | b h' IH] //=; split=> //.
- by apply: pd_scalar; rewrite ltr0n.
- elim: h => [ | a h IH] //= p [<- | ] //; last exact: IH.
  split; last exact: pd_psd.
  by move=> z _; apply: pd_scalar; rewrite invr_gt0 ltr0n.
Qed.
End Telescope.

(** Three hits 0, 1, 0 of the same weight, known mean and variance 1 before the fit: the smoothed state of the middle plane is 1/3, that of the best track is 1/5 *)
Section Middle.
Variable F : realFieldType.
Let c (a : F) : 'M[F]_1 := a%:M.
Definition level_plane (z : F) : plane F 1 1 1 := Plane true (Some (c z)) (c 1) (c 1) 0 (c 1) (c 1) 0 (c 1).
Lemma level_visit (a x z : F) : 0 < a -> let r := visit (level_plane z) (c x) (c a^-1) in
  filtered r = c ((a * x + z) / (a + 1)) /\ filtered_cov r = c (a + 1)^-1.
Proof.
move=> A; have N : a != 0 by rewrite gt_eqF.
have N1 : a + 1 != 0 by rewrite gt_eqF // addr_gt0 ?ltr01.
have N2 : a^-1 + 1 != 0 by rewrite gt_eqF // addr_gt0 ?invr_gt0 ?ltr01.
have K : a^-1 / (a^-1 + 1) = (a + 1)^-1.
  by rewrite -invfM mulrDr mulr1 divff // addrC.
have MI : mat_inverse (c (a^-1 + 1)) = c (a^-1 + 1)^-1.
  rewrite mat_inverse_unit; first by rewrite invmx_scalar.
  by rewrite unitmxE det_scalar1 unitfE.
have EK : c a^-1 *m (c 1 *m mat_inverse (c 1 *m (c a^-1 *m c 1) + c 1)) = c (a + 1)^-1.
  by rewrite !mul1mx mulmx1 -raddfD MI -scalar_mxM K.
rewrite /visit /filter_correct /= !tr_scalar_mx EK !mul1mx addr0; split.
- rewrite -raddfB -scalar_mxM -raddfD; congr c.
  apply: (mulIf N1); rewrite mulfVK // mulrDl [_^-1 * _]mulrC mulfVK // mulrDr mulr1 [x * a]mulrC -addrA.
  by rewrite [x + _]addrC subrK.
- rewrite -scalar_mxM -raddfB; congr c; apply: (mulIf N1).
  rewrite mulVf // mulrBl [_^-1 * a^-1]mulrC mulfVK // -{2}[a^-1]mulr1 -mulrBr addrK mulVf //.
Qed.
Lemma MI (a : F) : 0 < a -> mat_inverse (c a) = c a^-1.
Proof. by move=> A; rewrite mat_inverse_pd ?invmx_scalar //; exact: pd_scalar. Qed.
Lemma level_mean (a b : F) : 0 < a -> (weighted_mean (c b) (c a^-1) (c b) (c a^-1)).1 = c b.
Proof.
move=> A; rewrite /weighted_mean [fst _]/= MI ?invr_gt0 // invrK -raddfD MI ?addr_gt0 //.
by rewrite -!scalar_mxM -raddfD -scalar_mxM -mulrDl mulrA mulVf ?mul1r // gt_eqF // addr_gt0.
Qed.
Lemma level_predict (x : 'cV[F]_1) (P : 'M[F]_1) : c 1 *m x = x /\ c 1 *m (P *m (c 1)^T) + (c 1 *m 0) *m (c 1 *m (c 1 *m 0 : 'M[F]_1)^T) = P
  /\ c 1 *m (P *m (c 1)^T) + 0 *m (c 1 *m (0 : 'M[F]_1)^T) = P.
Proof. by rewrite !mul1mx tr_scalar_mx mulmx1 !mul0mx !addr0. Qed.
Definition three := [:: level_plane 0; level_plane 1; level_plane 0].
Theorem C58_refuted : exists (ps : seq (plane F 1 1 1)) x P t D,
  sound ps /\ pd P /\ size ps = 3%N /\
  best_at (nth (level_plane 0) ps 1) (tracks_f x P (nth (level_plane 0) ps 0) [:: nth (level_plane 0) ps 1])
    (tracks_b x P (nth (level_plane 0) ps 2) [:: nth (level_plane 0) ps 1]) t D /\
  (smoothed x P ps 1).1 <> t /\ (smoothed x P ps 1).2 <> invmx D.
Proof.
have D1 : pd (c 1) by apply: pd_scalar; rewrite ltr01.
have U1 : c 1 \in unitmx by exact: pd_unit.
have Me z : measured (level_plane z) by [].
have So : sound three by split; split.
exists three, (c 0), (c 1^-1).
have D1' : pd (c 1^-1) by rewrite invr1.
have Pf : passable_f (level_plane 0) (rcons [::] (level_plane 1)) by split.
have Pb : passable_b (rcons [::] (level_plane 1)) by split.
have [t [D [B I E]]] := @C58_counted_twice F 1 1 1 (c 0) (c 1^-1) (level_plane 0) [::] (level_plane 1) [:: level_plane 0] (level_plane 0) [::] (c 1) erefl D1'
  (Me 0) Pf (Me 0) Pb isT erefl D1.
have [ct [Ds _ _]] := @C58_mean F 1 1 1 (c 0) (c 1^-1) (level_plane 0) [::] (level_plane 1) [:: level_plane 0] (level_plane 0) [::] erefl D1'
  (Me 0) Pf (Me 0) Pb.
change (level_plane 0 :: [::] ++ level_plane 1 :: [:: level_plane 0]) with three in *; change (size (@nil (plane F 1 1 1))).+1 with 1%N in *.
exists t, D; split=> //; split=> //; split=> //; split=> //.
have N2 : (1 + 1 : F) != 0 by rewrite gt_eqF // addr_gt0 ?ltr01.
have P2 : 0 < (1 + 1 : F) by rewrite !addr_gt0 ?ltr01.
have P3 : 0 < (1 + 1 + 1 : F) by rewrite !addr_gt0 ?ltr01.
have S1 : (smoothed (c 0) (c 1^-1) three 1).1 = c (1 + 1 + 1)^-1.
  have [F0 C0] := level_visit 0 0 ltr01.
  have [F1 C1] := level_visit 0 1 P2.
  rewrite mulr0 addr0 mul0r in F0; rewrite mulr0 add0r mul1r in F1.
  have [Q1 [Q2 Q3]] := level_predict (c 0) (c (1 + 1)^-1).
  set r0 := visit (level_plane 0) (c 0) (c 1^-1) in F0 C0.
  have EF : nth (no_result F 1 1) (filter_f (c 0) (c 1^-1) three) 1 = visit (level_plane 1) (c 1 *m filtered r0)
    (c 1 *m (filtered_cov r0 *m (c 1)^T) + (c 1 *m 0) *m (c 1 *m (c 1 *m 0 : 'M[F]_1)^T)).
    exact: (proj1 (middle_of_three (c 0) (c 1^-1) (level_plane 0) (level_plane 1) (level_plane 0))).
  have EB : nth (no_result F 1 1) (filter_b (c 0) (c 1^-1) three) 1 = visit (level_plane 1) (c 1 *m filtered r0)
    (c 1 *m (filtered_cov r0 *m (c 1)^T) + 0 *m (c 1 *m (0 : 'M[F]_1)^T)).
    exact: (proj2 (middle_of_three (c 0) (c 1^-1) (level_plane 0) (level_plane 1) (level_plane 0))).
  move: EF EB; rewrite F0 C0 Q1 Q2 Q3 => EF EB.
  have := smoothed_middle EF EB; rewrite F1 C1 -/three => ->.
  exact: level_mean P3.
split.
- move=> T; rewrite -T in E; move: E; set s := smoothed _ _ _ _ => /eqP.
  rewrite -{1}[s.1]addr0 (inj_eq (addrI _)) => /eqP Z.
  have {}Z : c 1 - s.1 = 0.
    rewrite -[LHS](mulKmx (pd_unit Ds)) -/s; move: Z; rewrite /= tr_scalar_mx invmx_scalar invr1 !mul1mx addr0 => <-.
    by rewrite mulmx0.
  move: Z; rewrite S1 -raddfB => /matrixP /(_ 0 0); rewrite !mxE eqxx mulr1n => /eqP.
  rewrite subr_eq0 eq_sym -(inj_eq (mulIf (_ : 1 + 1 + 1 != 0))) ?mulVf ?mul1r; try by rewrite gt_eqF.
  by rewrite -{1}[1]add0r (inj_eq (addIr _)) eq_sym (negbTE N2).
- move=> T; move: I; rewrite T invmxK -{1}[D]addr0 => /addrI /matrixP /(_ 0 0).
  by rewrite /= tr_scalar_mx invmx_scalar invr1 !mul1mx !mxE eqxx => /eqP; rewrite eq_sym oner_eq0.
Qed.
End Middle.

Print Assumptions C36_no_hit.
Print Assumptions C36_covariance.
Print Assumptions C36_chi2.
Print Assumptions C36_chi2_positive.
Print Assumptions C36_least_squares.
Print Assumptions C36_invariant.
Print Assumptions C36_forward_fit.
Print Assumptions C36_backward_fit.
Print Assumptions C36_unique_best.
Print Assumptions C57_states.
Print Assumptions C57_smoothed.
Print Assumptions C58_mean.
Print Assumptions C58_unused.
Print Assumptions C58_ends.
Print Assumptions C58_counted_twice.
Print Assumptions C36_smoothed_chi2.
Print Assumptions C58_refuted.
