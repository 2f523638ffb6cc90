(** Properties of the Kalman alignment: C37, C59, C60. *)
From mathcomp Require Import all_ssreflect all_algebra.
From Verif Require Import KalmanFilterModel KalmanFilterProofs AlignKalmanModel.
Set Implicit Arguments.
Unset Strict Implicit.
Unset Printing Implicit Defensive.
Import Order.Theory GRing.Theory Num.Theory.
Local Open Scope ring_scope.

Section Props.
Variable F : rcfType.
Variables k n m : nat.
Implicit Types (s : dut_state F k) (ss : seq (dut_state F k)) (f : dut_fit F k n m) (fs : seq (dut_fit F k n m)) (ts : seq (option (seq (dut_fit F k n m)))).
Implicit Types (a b : 'cV[F]_k) (E : 'M[F]_k) (cuts : 'cV[F]_k).

(** ** Specification *)

(** Nothing is known to be wrong about parameter j: its error is zero, and it is not correlated with the other parameters *)
Definition fixed j E := forall i, E i j = 0 /\ E j i = 0.
(** A relation holds DUT by DUT *)
Fixpoint each (R : dut_state F k -> dut_state F k -> Prop) ss ss' : Prop :=
  match ss, ss' with
  | [::], [::] => True
  | s :: ss, s' :: ss' => R s s' /\ each R ss ss'
  | _, _ => False
  end.
(** The fit gives a result for each DUT *)
Definition complete N ts := forall fs, List.In (Some fs) ts -> size fs = N.
Definition all_fits (ok : dut_fit F k n m -> Prop) ts := forall fs f, List.In (Some fs) ts -> List.In f fs -> ok f.
Definition has_hit f := fhit f <> None.
(** The hit is there, has errors, and the track state has a covariance *)
Definition regular f := [/\ has_hit f, pd (fV f) & psd (fC f)].

(** ** One DUT *)
Lemma calculate_fixed f (a0 a1 : option _) E0 E1 j : calculate_alignment_parameters f a0 E0 = Some (a1, E1) -> fixed j E0 ->
  fixed j E1 /\ (forall a b, a0 = Some a -> a1 = Some b -> b j 0 = a j 0).
Proof.
rewrite /calculate_alignment_parameters; case: ifP => // U [<- <-] Z; set W := invmx _.
have R0 l (X : 'M[F]_(k, l)) i : (E0 *m X) j i = 0.
  by rewrite mxE big1 // => t _; rewrite (proj2 (Z t)) mul0r.
have C0 i : E0^T i j = 0 by rewrite mxE; exact: (proj2 (Z i)).
split.
- move=> i; split; rewrite mxE [X in _ + X]mxE.
  + rewrite (proj1 (Z i)) sub0r !mulmxA [X in - X]mxE big1 ?oppr0 // => t _; by rewrite C0 mulr0.
  + by rewrite (proj2 (Z i)) R0 subr0.
- move=> a b ->; case: fhit => [hit | //] [<-].
  by rewrite mxE -mulmxA R0 addr0.
Qed.
Lemma calculate_hit f a E (a1 : option _) E1 : calculate_alignment_parameters f (Some a) E = Some (a1, E1) -> has_hit f -> exists b, a1 = Some b.
Proof. by rewrite /calculate_alignment_parameters /has_hit; case: ifP => // U [<- _]; case: fhit => // h _; eexists. Qed.

Definition keeps_fixed s s' :=
  (exists a, change s = Some a) -> (exists b, change s' = Some b) /\
  forall j, fixed j (cov s) -> fixed j (cov s') /\ (forall a b, change s = Some a -> change s' = Some b -> b j 0 = a j 0).
Lemma update_keeps_fixed cuts s f s' : has_hit f -> update_dut cuts s f = Some s' -> keeps_fixed s s'.
Proof.
rewrite /update_dut; case C : calculate_alignment_parameters => [[a1 E1] | //] Hf [<-]; case: ifP => _ [a Ea].
- split; first by exists a. by move=> j Z; split=> // b c -> [->].
- split; first by rewrite Ea in C; apply: calculate_hit C Hf.
  by move=> j Z; rewrite /=; apply: calculate_fixed C Z.
Qed.

(** ** Through the tracks *)
Lemma update_each (R : dut_state F k -> dut_state F k -> Prop) (ok : dut_fit F k n m -> Prop) cuts :
  (forall s f s', ok f -> update_dut cuts s f = Some s' -> R s s') ->
  forall ss fs ss', size fs = size ss -> (forall f, List.In f fs -> ok f) -> update_alignment_parameters cuts ss fs = Some ss' -> each R ss ss'.
Proof.
move=> St; elim=> [| s ss IH] [| f fs] ss' //=; first by move=> _ _ [<-].
case=> Sz Ok; case U : update_dut => [s' |] //; case V : update_alignment_parameters => [ss1 |] // [<-] /=.
by split; [apply: St U; apply: Ok; left | apply: IH V => // g Hg; apply: Ok; right].
Qed.
Lemma each_size R ss ss' : each R ss ss' -> size ss = size ss'.
Proof. by elim: ss ss' => [| s ss IH] [| s' ss'] //= [_ /IH ->]. Qed.
Lemma each_trans (R : dut_state F k -> dut_state F k -> Prop) : (forall x y z, R x y -> R y z -> R x z) ->
  forall x y z, each R x y -> each R y z -> each R x z.
Proof. by move=> T; elim=> [| s ss IH] [| s1 ss1] [| s2 ss2] //= [A B] [C D]; split; [exact: T A C | exact: IH B D]. Qed.
Lemma loop_each (R : dut_state F k -> dut_state F k -> Prop) (ok : dut_fit F k n m -> Prop) cuts M :
  (forall x y z, R x y -> R y z -> R x z) ->
  (forall s f s', ok f -> update_dut cuts s f = Some s' -> R s s') ->
  forall ts ss0 ss saved r sv, each R ss0 ss -> each R ss0 saved -> complete (size ss0) ts -> all_fits ok ts ->
  alignment_loop cuts M ss saved ts = Some (r, sv) -> each R ss0 r /\ each R ss0 sv.
Proof.
move=> T St; elim=> [| t ts IH] ss0 ss saved r sv E0 E1 Sz Ok /=; first by case=> <- <-.
case: ifP => // _; case: t Sz Ok => [fs | ] Sz Ok; last first.
  by apply: IH => // fs *; [apply: Sz; right | apply: (Ok fs) => //; right].
case U : update_alignment_parameters => [ss' |] //.
have E2 : each R ss0 ss'.
  apply: (each_trans T E0); apply: (update_each St _ _ U); last by move=> f Hf; apply: (Ok fs) => //; left.
  by rewrite -(each_size E0); apply: Sz; left.
case: ifP => _; first by case=> <- <-.
by apply: IH => // gs *; [apply: Sz; right | apply: (Ok gs) => //; right].
Qed.
Lemma each_refl (R : dut_state F k -> dut_state F k -> Prop) ss : (forall x, R x x) -> each R ss ss.
Proof. by move=> Rr; elim: ss => //= s ss ->. Qed.
Lemma each_nth R ss ss' s0 i : each R ss ss' -> (i < size ss)%N -> R (nth s0 ss i) (nth s0 ss' i).
Proof. by elim: ss ss' i => [| s ss IH] [| s' ss'] [| i] //= [A B] //; exact: IH. Qed.

(** ** C37: fixed parameters do not move *)
Lemma keeps_fixed_refl s : keeps_fixed s s.
Proof. by move=> A; split=> // j Z; split=> // a b -> [->]. Qed.
Lemma keeps_fixed_trans s1 s2 s3 : keeps_fixed s1 s2 -> keeps_fixed s2 s3 -> keeps_fixed s1 s3.
Proof.
move=> A B C; have [D1 D2] := A C; have [G1 G2] := B D1; split=> // j Z.
have [Z2 E2] := D2 j Z; have [Z3 E3] := G2 j Z2; split=> // a b Ea Eb.
have [c Ec] := D1; by rewrite (E3 c b) // (E2 a c).
Qed.
Theorem C37_fixed cuts M ts ss r sv : complete (size ss) ts -> all_fits has_hit ts ->
  alignment_loop cuts M ss ss ts = Some (r, sv) -> each keeps_fixed ss r /\ each keeps_fixed ss sv.
Proof.
move=> Sz Ok; apply: (loop_each keeps_fixed_trans (@update_keeps_fixed cuts)) => //; apply: each_refl; exact: keeps_fixed_refl.
Qed.

(** ** Errors *)
Section Step.
Variables (f : dut_fit F k n m) (E0 : 'M[F]_k).
Hypotheses (PE : psd E0) (PV : pd (fV f)) (PC : psd (fC f)).
Let U : 'M[F]_m := fV f + fH f *m (fC f *m (fH f)^T).
Let S : 'M[F]_m := U + fD f *m (E0 *m (fD f)^T).
Lemma tolerance_pd : pd U.
Proof using PV PC. by rewrite /U mulmxA; apply: pd_psd_add => //; exact: psd_conj. Qed.
Lemma innovation_pd : pd S.
Proof using PE PV PC. by rewrite /S mulmxA; apply: pd_psd_add; [exact: tolerance_pd | exact: psd_conj]. Qed.
Lemma calculate_regular (a0 : option 'cV[F]_k) : exists a1 : option 'cV[F]_k, calculate_alignment_parameters f a0 E0
  = Some (a1, E0 - E0 *m ((fD f)^T *m mat_inverse (fD f *m (E0 *m (fD f)^T) + U)) *m (fD f *m E0)).
Proof using PE PV PC.
rewrite /calculate_alignment_parameters -/U -/S (pd_unit innovation_pd) [X in mat_inverse X]addrC -/S (mat_inverse_pd innovation_pd).
by eexists; congr (Some (_, E0 - _)); rewrite (proj1 PE) !mulmxA.
Qed.
Lemma calculate_psd (a0 a1 : option 'cV[F]_k) E1 : calculate_alignment_parameters f a0 E0 = Some (a1, E1) -> psd E1 /\ psd (E0 - E1).
Proof using PE PV PC.
have [a1' ->] := calculate_regular a0; case=> _ <-.
by split; [exact: update_psd PE tolerance_pd | exact: update_smaller PE tolerance_pd].
Qed.
End Step.

Lemma diagonal E j : bil E (delta_mx j 0) (delta_mx j 0) = E j j.
Proof. by rewrite /bil trmx_delta -rowE -colE !mxE. Qed.
Lemma psd_diagonal E j : psd E -> 0 <= E j j.
Proof. by move=> [_ N]; rewrite -diagonal. Qed.
Lemma psd_diagonal_le E E' j : psd (E - E') -> E' j j <= E j j.
Proof. by move=> P; have := psd_diagonal j P; rewrite mxE [X in _ + X]mxE subr_ge0. Qed.
Lemma psd_sub_trans (A B C : 'M[F]_k) : psd (A - B) -> psd (B - C) -> psd (A - C).
Proof. by move=> P Q; have := psd_add P Q; rewrite addrA subrK. Qed.

(** The change of a parameter is at most [cut] errors for each processed track, and the errors do not grow *)
Definition steady cuts s s' :=
  psd (cov s) -> [/\ psd (cov s'), psd (cov s - cov s'), (processed s <= processed s')%N &
    forall a, change s = Some a -> exists2 b, change s' = Some b &
      forall j, 0 < cuts j 0 -> `|b j 0 - a j 0| <= (processed s' - processed s)%:R * (cuts j 0 * Num.sqrt (cov s j j))].
Lemma update_steady cuts s f s' : regular f -> update_dut cuts s f = Some s' -> steady cuts s s'.
Proof.
move=> [Hf PV PC]; rewrite /update_dut; case C : calculate_alignment_parameters => [[a1 E1] | //] [<-] PE.
case: ifP => [Fl | /negbT Fl].
- by split=> //; [rewrite subrr; split; [rewrite trmx0 | move=> v; rewrite bil0m] |
    move=> a Ea; exists a => // j _; rewrite subrr normr0 subnn mul0r].
- have [PE1 PS] := calculate_psd PE PV PC C; split=> //= a Ea.
  have [b Eb] : exists b, a1 = Some b by rewrite Ea in C; exact: calculate_hit C Hf.
  exists b => // j cj; move: Fl; rewrite Ea Eb /= negb_exists => /forallP /(_ j).
  by rewrite cj /= -leNgt subSnn mul1r.
Qed.
Lemma steady_refl cuts s : steady cuts s s.
Proof.
move=> PE; split=> //; first by rewrite subrr; split; [rewrite trmx0 | move=> v; rewrite bil0m].
by move=> a Ea; exists a => // j _; rewrite subrr normr0 subnn mul0r.
Qed.
Lemma steady_trans cuts s1 s2 s3 : steady cuts s1 s2 -> steady cuts s2 s3 -> steady cuts s1 s3.
Proof.
move=> A B P1; have [P2 L2 N2 D2] := A P1; have [P3 L3 N3 D3] := B P2.
split=> //; [exact: psd_sub_trans L2 L3 | exact: leq_trans N2 N3 |].
move=> a Ea; have [b Eb Db] := D2 a Ea; have [c Ec Dc] := D3 b Eb; exists c => // j cj.
have -> : c j 0 - a j 0 = (c j 0 - b j 0) + (b j 0 - a j 0) by rewrite addrA subrK.
apply: (le_trans (ler_norm_add _ _)).
have -> : (processed s3 - processed s1)%N = ((processed s3 - processed s2) + (processed s2 - processed s1))%N by rewrite addnBA // subnK.
rewrite natrD mulrDl; apply: ler_add; last exact: Db.
apply: (le_trans (Dc j cj)); apply: ler_wpmul2l; first exact: ler0n.
by apply: ler_wpmul2l; [exact: ltW | apply: ler_wsqrtr; exact: psd_diagonal_le].
Qed.
Theorem C37_steady cuts M ts ss r sv : complete (size ss) ts -> all_fits regular ts ->
  alignment_loop cuts M ss ss ts = Some (r, sv) -> each (steady cuts) ss r /\ each (steady cuts) ss sv.
Proof.
move=> Sz Ok; apply: (loop_each (@steady_trans cuts) (@update_steady cuts)) => //; apply: each_refl; exact: steady_refl.
Qed.

(** ** No exception *)
Definition healthy s := psd (cov s) /\ change s <> None.
Lemma update_healthy cuts ss fs : size fs = size ss -> (forall f, List.In f fs -> regular f) -> (forall s, List.In s ss -> healthy s) ->
  exists2 ss', update_alignment_parameters cuts ss fs = Some ss' & size ss' = size ss /\ forall s, List.In s ss' -> healthy s.
Proof.
elim: ss fs => [| s ss IH] [| f fs] //=; first by move=> _ _ He; exists [::].
case=> Sz Ok He; have [Hf PV PC] := Ok f (or_introl erefl); have [PE Na] := He s (or_introl erefl).
have [ss' -> [Sz' He']] := IH fs Sz (fun g Hg => Ok g (or_intror Hg)) (fun g Hg => He g (or_intror Hg)).
have [a1 C] := calculate_regular PE PV PC (change s); rewrite /update_dut C.
case: ifP => _; (eexists; [by [] | split; [by rewrite /= Sz' | move=> t /= [<- | /He' //]]]); first by split.
split=> /=; first by case: (calculate_psd PE PV PC C).
case Ea : (change s) C => [a | //] C; by have [b ->] := calculate_hit C Hf.
Qed.
Theorem C37_no_exception cuts M ts ss sv : complete (size ss) ts -> all_fits regular ts -> (forall s, List.In s ss -> healthy s) ->
  exists r, alignment_loop cuts M ss sv ts = Some r.
Proof.
elim: ts ss sv => [| t ts IH] ss sv Sz Ok He /=; first by eexists.
have -> : has (@is_nan F k) ss = false.
  elim: ss He {Sz} => //= s ss IHs He; rewrite IHs; last by move=> x Hx; apply: He; right.
  by rewrite orbF /is_nan; case: (change s) (proj2 (He s (or_introl erefl))).
have Sz' : complete (size ss) ts by move=> fs Hfs; apply: Sz; right.
have Ok' : all_fits (@regular) ts by move=> fs f Hfs; apply: Ok; right.
case: t Sz Ok => [fs |] Sz Ok; last exact: IH.
have [ss' -> [E' He']] := update_healthy cuts (Sz fs (or_introl erefl)) (fun f => Ok fs f (or_introl erefl)) He.
by case: ifP => _; [eexists | apply: IH => //; rewrite E'].
Qed.

(** ** C59: the best change *)

(** For a fit with a hit, the change of the parameters is E0 u for a u that minimises the cost of the change and of the remaining residual.
    E0 u are the changes possible with errors E0; if E0 is invertible, all changes are, and the cost of a change e is e^T E0^-1 e *)
Definition change_cost f E0 (r : 'cV[F]_m) (u : 'cV[F]_k) : F :=
  bil E0 u u + bil (invmx (fV f + fH f *m (fC f *m (fH f)^T))) (r - fD f *m (E0 *m u)) (r - fD f *m (E0 *m u)).
Theorem C59_best f a E0 hit b E1 : psd E0 -> pd (fV f) -> psd (fC f) -> fhit f = Some hit ->
  calculate_alignment_parameters f (Some a) E0 = Some (Some b, E1) ->
  exists2 u0, b = a + E0 *m u0 & forall u,
    change_cost f E0 (hit - fH f *m fp f) u
    = change_cost f E0 (hit - fH f *m fp f) u0 + (bil E0 (u - u0) (u - u0) + bil (invmx (fV f + fH f *m (fC f *m (fH f)^T))) (fD f *m (E0 *m (u - u0))) (fD f *m (E0 *m (u - u0)))).
Proof.
move=> PE PV PC Eh; rewrite /calculate_alignment_parameters Eh; have DU := tolerance_pd PV PC; have DS := innovation_pd PE PV PC.
rewrite (pd_unit DS); set U := fV f + _ in DU DS *; set S := U + _ in DS *; set r := hit - _; set D := fD f => [[<- _]].
exists (D^T *m (invmx S *m r)); first by rewrite !mulmxA.
set u0 := D^T *m _ => u; rewrite /change_cost -/U -/D.
have R0 : r - D *m (E0 *m u0) = U *m (invmx S *m r).
  rewrite -[X in X - _](mulKVmx (pd_unit DS)) /u0 !mulmxA -mulmxBl -mulmxBl; congr (_ *m _ *m _).
  by rewrite /S -/D !mulmxA addrK.
have -> : r - D *m (E0 *m u) = U *m (invmx S *m r) - D *m (E0 *m (u - u0)) by rewrite -R0 !mulmxBr opprB addrA subrK.
rewrite R0; set e := u - u0; have -> : u = e + u0 by rewrite /e subrK.
set x := D *m (E0 *m e); set y := U *m _.
have SU := inv_sym (proj1 DU); have SE := proj1 PE.
have C1 : bil (invmx U) y x = bil E0 u0 e.
  by rewrite /y bilMl (proj1 DU) mulmxV ?pd_unit // /x !bilMr mul1mx /u0 [in RHS]bilMl trmxK !bilMl.
clearbody x y e u0.
rewrite !bilDl !bilDr !bilNl !bilNr opprK (bilT E0 e u0) SE (bilT (invmx U) x y) SU C1.
rewrite !addrA; set t1 := bil E0 e e; set t2 := bil E0 u0 e; set t3 := bil E0 u0 u0; set t4 := bil _ y y; set t5 := bil _ x x.
clearbody t1 t2 t3 t4 t5.
congr (_ + t5).
by rewrite (addrAC (t1 + t2) t2 t3) (addrAC t1 t2 t3) (addrAC _ t2 t4) addrK (addrAC _ t2 t4) addrK -addrA addrC.
Qed.

(** ** C60: number of tracks, saved alignment, missing hits *)
Lemma update_processed cuts s f s' : update_dut cuts s f = Some s' -> (processed s <= processed s' <= (processed s).+1)%N.
Proof.
rewrite /update_dut; case: calculate_alignment_parameters => [[a1 E1] | //] [<-]; case: ifP => _ /=; rewrite ?leqnn ?leqnSn //.
Qed.
Lemma update_all_le cuts c ss fs ss' : update_alignment_parameters cuts ss fs = Some ss' ->
  all (fun s => processed s <= c)%N ss -> all (fun s => processed s <= c.+1)%N ss'.
Proof.
elim: ss fs ss' => [| s ss IH] [| f fs] ss' /=; try by case=> <-.
case U : update_dut => [s' |] //; case V : update_alignment_parameters => [ss1 |] // [<-] /= /andP [A B].
have /andP [_ L] := update_processed U; by rewrite (leq_trans L) ?ltnS // (IH _ _ V).
Qed.
Lemma update_some_le cuts M ss fs ss' : size fs = size ss -> update_alignment_parameters cuts ss fs = Some ss' ->
  ~~ all (fun s => M < processed s)%N ss -> ~~ all (fun s => M.+1 < processed s)%N ss'.
Proof.
elim: ss fs ss' => [| s ss IH] [| f fs] ss' //= [Sz].
case U : update_dut => [s' |] //; case V : update_alignment_parameters => [ss1 |] // [<-] /=.
have /andP [_ L] := update_processed U; rewrite !negb_and -!leqNgt => /orP [A | A]; apply/orP; [left | right].
- by apply: leq_trans L _; rewrite ltnS.
- exact: IH V A.
Qed.
Lemma update_size cuts ss fs ss' : size fs = size ss -> update_alignment_parameters cuts ss fs = Some ss' -> size ss' = size ss.
Proof.
elim: ss fs ss' => [| s ss IH] [| f fs] ss' //=; first by move=> _ [<-].
case=> Sz; case: update_dut => [s' |] //; case V : update_alignment_parameters => [ss1 |] // [<-] /=; by rewrite (IH _ _ Sz V).
Qed.
(** No DUT gets more tracks than there are *)
Theorem C60_counts cuts M ts ss saved r sv : all (fun s => processed s == 0)%N ss ->
  alignment_loop cuts M ss saved ts = Some (r, sv) -> all (fun s => processed s <= size ts)%N r.
Proof.
move=> Z; have {Z} : all (fun s => processed s <= 0)%N ss by apply: sub_all Z => s /eqP ->.
rewrite -[size ts]add0n; move: 0%N => c; elim: ts ss saved c => [| t ts IH] ss saved c Z /=; first by case=> <- _; rewrite addn0.
case: ifP => // _; rewrite addnS -addSn; case: t => [fs |].
- case U : update_alignment_parameters => [ss' |] //; have Z' := update_all_le U Z; case: ifP => _; last exact: IH.
  by case=> <- _; apply: sub_all Z' => s L; exact: leq_trans L (leq_addr _ _).
- by apply: IH; apply: sub_all Z => s L; apply: leqW.
Qed.
(** The alignment ends as soon as each DUT has more than [max_tracks] tracks: one of them has at most one more *)
Theorem C60_max_tracks cuts M ts ss saved r sv : complete (size ss) ts -> ~~ all (fun s => M < processed s)%N ss ->
  alignment_loop cuts M ss saved ts = Some (r, sv) -> ~~ all (fun s => M.+1 < processed s)%N r.
Proof.
elim: ts ss saved => [| t ts IH] ss saved Sz Z /=.
  case=> <- _; apply: contraNN Z => A; apply: sub_all A => s; exact: ltn_trans.
have Sz' : complete (size ss) ts by move=> fs Hfs; apply: Sz; right.
case: ifP => // _; case: t Sz => [fs |] Sz; last exact: IH.
case U : update_alignment_parameters => [ss' |] //; have E := Sz fs (or_introl erefl).
case: ifP => [_ | /negbT A]; last by apply: IH => //; rewrite (update_size E U).
by case=> <- _; exact: update_some_le U Z.
Qed.
(** The alignment is calculated from the state before the last track: the change by the last track is not saved *)
Theorem C60_saved cuts M ts t ss saved r sv : alignment_loop cuts M ss saved (rcons ts t) = Some (r, sv) ->
  exists ts' t', [/\ (exists ts'', rcons ts t = ts' ++ t' :: ts''), (exists sv', alignment_loop cuts M ss saved ts' = Some (sv, sv')) &
    if t' is Some fs then update_alignment_parameters cuts sv fs = Some r else r = sv].
Proof.
elim: ts ss saved => [| t0 ts IH] ss saved /=.
- case: ifP => // N; case: t => [fs |]; last first.
    by case=> <- <-; exists [::], None; split=> //; [exists [::] | exists saved].
  case U : update_alignment_parameters => [ss' |] //; case: ifP => A [<- <-];
    exists [::], (Some fs); (split=> //; [by exists [::] | by exists saved]).
- case: ifP => // N; case: t0 => [fs |]; last first.
    move=> /IH [ts' [t' [[ts'' E] [sv' L] U]]]; exists (None :: ts'), t'; split=> //; first by exists ts''; rewrite /= E.
    by exists sv'; rewrite /= N.
  case U : update_alignment_parameters => [ss' |] //; case: ifP => A.
    by case=> <- <-; exists [::], (Some fs); split=> //; [exists (rcons ts t) | exists saved].
  move=> /IH [ts' [t' [[ts'' E] [sv' L] U']]]; exists (Some fs :: ts'), t'; split=> //; first by exists ts''; rewrite /= E.
  by exists sv'; rewrite /= N U A.
Qed.
(** A DUT without hit: its alignment is nan from then on, selected or not *)
Lemma no_hit_update cuts s f s' : fhit f = None -> update_dut cuts s f = Some s' -> change s' = None.
Proof.
move=> Hf; rewrite /update_dut /calculate_alignment_parameters Hf; case: ifP => // _ [].
by case: (change s) => [a |] /= <-.
Qed.
Theorem C60_no_hit cuts M ss saved fs t ts ss' : size fs = size ss -> (exists2 f, List.In f fs & fhit f = None) ->
  update_alignment_parameters cuts ss fs = Some ss' -> ~~ all (fun s => M < processed s)%N ss' ->
  alignment_loop cuts M ss saved (Some fs :: t :: ts) = None.
Proof.
move=> Sz [f Hf Nf] U A; rewrite /=; case: ifP => // _; rewrite U (negbTE A).
have -> // : has (@is_nan F k) ss' = true.
elim: ss fs ss' Sz Hf U {A} => [| s ss IH] [| f0 fs] ss' //= [Sz].
case U : update_dut => [s' |] //; case V : update_alignment_parameters => [ss1 |] // => [[E | Hf]] [<-] /=.
- by rewrite E in U; rewrite /is_nan (no_hit_update Nf U).
- by rewrite (IH _ _ Sz Hf V) orbT.
Qed.
End Props.

(** ** From the initial errors *)
Section Alignment.
Variable F : rcfType.
Variables n m : nat.
Variables (n_duts : nat) (select_duts : seq nat) (params : seq (option (pred 'I_6))) (errors cuts : 'cV[F]_6) (first last M : nat).
Implicit Types ts : seq (option (seq (dut_fit F 6 n m))).
Let result ts := kalman_alignment n_duts select_duts params errors cuts first last M ts.

(** Parameter j of DUT d is to be aligned: the DUT and, in the list for DUT d, the parameter are selected; for the first and the last plane, only rotation_gamma *)
Definition aligned d (j : 'I_6) : bool :=
  (d \in select_duts) && (if nth None params d is Some p then p j else false) && ~~ (((d == first) || (d == last)) && (j < 5)%N).

Lemma initial_covE d C : initial_cov select_duts params errors first last d = Some C ->
  C = \matrix_(i, j) if (i == j) && aligned d i then errors i 0 ^+ 2 else 0.
Proof.
rewrite /initial_cov /aligned; case: ifP => _; last first.
  by case=> <-; apply/matrixP=> i j; rewrite !mxE !andbF.
case: nth => [p |] // [<-]; apply/matrixP=> i j; rewrite !mxE; by rewrite -andbA.
Qed.
Lemma initial_fixed d C j : initial_cov select_duts params errors first last d = Some C -> ~~ aligned d j -> fixed j C.
Proof.
move=> /initial_covE -> N i; rewrite !mxE; split; rewrite ?(negbTE N) ?andbF //; case: eqP => //= ->; by rewrite (negbTE N).
Qed.
Lemma initial_psd d C : initial_cov select_duts params errors first last d = Some C -> psd C.
Proof.
move=> /initial_covE ->; split; first by apply/matrixP=> i j; rewrite !mxE eq_sym; case: eqP => // ->.
move=> v; rewrite /bil mxE; apply: sumr_ge0 => i _; rewrite mxE (bigD1 i) //= big1 ?addr0; last first.
  by move=> j /negbTE N; rewrite !mxE N mulr0.
by rewrite !mxE eqxx /=; case: ifP => _; rewrite ?mulr0 ?mul0r // mulrAC mulr_ge0 // -?expr2 sqr_ge0.
Qed.
Lemma initial_statesE duts ss : initial_states select_duts params errors first last duts = Some ss ->
  size ss = size duts /\ forall s0 i, (i < size duts)%N -> exists2 C, initial_cov select_duts params errors first last (nth 0%N duts i) = Some C & nth s0 ss i = DutState (Some 0) C 0.
Proof.
elim: duts ss => [| d duts IH] ss /=; first by case=> <-.
case E : initial_cov => [C |] //; case I : initial_states => [ss1 |] // [<-]; have [Sz N] := IH _ I.
by split=> [| s0 [| i] L]; [rewrite /= Sz | exists C | exact: N].
Qed.
Lemma start ts r sv : result ts = Some (r, sv) -> exists2 ss, size ss = n_duts & alignment_loop cuts M ss ss ts = Some (r, sv)
  /\ forall s0 d, (d < n_duts)%N -> exists2 C, initial_cov select_duts params errors first last d = Some C & nth s0 ss d = DutState (Some 0) C 0.
Proof using.
rewrite /result /kalman_alignment; case I : initial_states => [ss |] // L; have [Sz N] := initial_statesE I.
rewrite size_iota in Sz N; exists ss => //; split=> // s0 d Ld; have := N s0 d Ld; by rewrite nth_iota.
Qed.

(** Parameters not to be aligned are unchanged after any tracks with a hit in each DUT, in the final state and in the saved alignment *)
Theorem C37_unselected ts r sv s0 d j : complete n_duts ts -> all_fits (@has_hit F 6 n m) ts -> result ts = Some (r, sv) ->
  (d < n_duts)%N -> ~~ aligned d j ->
  (exists2 b, change (nth s0 r d) = Some b & b j 0 = 0) /\ (exists2 b, change (nth s0 sv d) = Some b & b j 0 = 0).
Proof using.
move=> Sz Ok /start [ss Es [L N]] Ld Nj; rewrite -Es in Sz Ld.
have [Er Ev] := C37_fixed Sz Ok L; have [C EC Ed] := N s0 d (ltac:(by rewrite -Es)).
have Z := initial_fixed EC Nj.
have K s : keeps_fixed (DutState (Some 0) C 0) s -> exists2 b, change s = Some b & b j 0 = 0.
  case=> [| [b Eb] /(_ j Z) [_ /(_ 0 b erefl Eb)]]; first by exists 0.
  by rewrite mxE => Ez; exists b.
by split; apply: K; rewrite -Ed; apply: each_nth.
Qed.
(** Every other parameter changes by at most [cut] initial errors for each track processed, and its error does not grow *)
Theorem C37_aligned ts r sv s0 d j : complete n_duts ts -> all_fits (@regular F 6 n m) ts -> result ts = Some (r, sv) ->
  (d < n_duts)%N -> aligned d j -> 0 < cuts j 0 ->
  (exists2 b, change (nth s0 r d) = Some b & `|b j 0| <= (processed (nth s0 r d))%:R * (cuts j 0 * `|errors j 0|))
  /\ psd (cov (nth s0 r d)) /\ Num.sqrt (cov (nth s0 r d) j j) <= `|errors j 0|.
Proof using.
move=> Sz Ok /start [ss Es [L N]] Ld Aj cj; rewrite -Es in Sz Ld.
have [Er _] := C37_steady Sz Ok L; have [C EC Ed] := N s0 d (ltac:(by rewrite -Es)).
have := each_nth s0 Er Ld; rewrite Ed => /(_ (initial_psd EC)) [P1 P2 _ /(_ 0 erefl) [b Eb Db]].
have Ej : C j j = errors j 0 ^+ 2 by rewrite (initial_covE EC) mxE eqxx Aj.
split; [exists b => // | split=> //].
- by have := Db j cj; rewrite /= Ej mxE subr0 subn0 sqrtr_sqr.
- have := psd_diagonal_le j P2; rewrite /= Ej => Le; rewrite -(sqrtr_sqr (errors j 0)); exact: ler_wsqrtr.
Qed.
(** With a list of parameters for each selected DUT at the position of the DUT, and regular tracks, there is no exception *)
Theorem C37_total ts : complete n_duts ts -> all_fits (@regular F 6 n m) ts ->
  (forall d, (d < n_duts)%N -> d \in select_duts -> nth None params d <> None) -> exists r, result ts = Some r.
Proof using.
move=> Sz Ok Pa; rewrite /result /kalman_alignment.
have [ss I] : exists ss, initial_states select_duts params errors first last (iota 0 n_duts) = Some ss.
  have: forall d, d \in iota 0 n_duts -> d \in select_duts -> nth None params d <> None by move=> d; rewrite mem_iota add0n; exact: Pa.
  elim: (iota _ _) => [| d duts IH] Pd /=; first by eexists.
  have [|ss ->] := IH; first by move=> e He; apply: Pd; rewrite inE He orbT.
  have : initial_cov select_duts params errors first last d <> None.
    rewrite /initial_cov; case: ifP => // Hd; have := Pd d (mem_head _ _) Hd; by case: nth.
  by case: initial_cov => // C _; eexists.
rewrite I; have [Es N] := initial_statesE I; rewrite size_iota in Es N.
apply: C37_no_exception => //; first by rewrite Es.
move=> s /(List.In_nth _ _ s) [i [Li Ei]].
have Li' : (i < n_duts)%N by rewrite -Es; apply/ssrnat.ltP.
have E2 : nth s ss i = s by rewrite -[RHS]Ei; elim: (ss) (i) => [| x xs IHx] [| y] //=.
have [C EC Ed] := N s i Li'; rewrite -E2 Ed; split=> //=; exact: initial_psd EC.
Qed.
(** The lists of parameters are looked up by the index of the DUT, not by its position in select_duts *)
Theorem C60_parameters ts d : (d < n_duts)%N -> d \in select_duts -> nth None params d = None -> result ts = None.
Proof using.
move=> Ld Sd Nd; rewrite /result /kalman_alignment.
have -> // : initial_states select_duts params errors first last (iota 0 n_duts) = None.
have : d \in iota 0 n_duts by rewrite mem_iota.
elim: (iota _ _) => [| e duts IH] //=; rewrite inE => /orP [/eqP <- | He]; last by rewrite (IH He); case: initial_cov.
by rewrite /initial_cov Sd Nd.
Qed.
End Alignment.

(** ** A case: a hit 1/20 away from the track *)
Section Case.
Variable F : rcfType.
Local Notation c := (20%:R^-1 : F).
Let hit : 'cV[F]_2 := const_mx c.
Let f : dut_fit F 6 4 2 := DutFit (pid_mx 2) 1%:M 1%:M 0 (pid_mx 2) (Some hit).
Let cuts : 'cV[F]_6 := const_mx c.
Let errors : 'cV[F]_6 := const_mx 1.
Let xy : pred 'I_6 := fun j => (j < 2)%N.

Lemma scalarD k (x y : F) : (x%:M + y%:M = (x + y)%:M :> 'M[F]_k).
Proof using. by apply/matrixP=> i j; rewrite !mxE mulrnDl. Qed.
Lemma case_regular : regular f.
Proof using.
split=> //=; first by apply: pd_scalar; exact: ltr01.
by apply: pd_psd; apply: pd_scalar; exact: ltr01.
Qed.
Lemma case_tolerance : fV f + fH f *m (fC f *m (fH f)^T) = 2%:R%:M :> 'M[F]_2.
Proof using. by rewrite /f /= mul1mx tr_pid_mx pid_mx_id // pid_mx_1 scalarD. Qed.
Let E0 : 'M[F]_6 := pid_mx 2.
Let moved : 'cV[F]_6 := pid_mx 2 *m ((3%:R^-1)%:M *m hit).
Lemma movedE j : moved j 0 = (j < 2)%:R * (3%:R^-1 * c).
Proof using.
rewrite /moved mul_scalar_mx mxE.
under eq_bigr => i _ do rewrite !mxE.
case: ltnP => L.
- rewrite (bigD1 (Ordinal L)) //= eqxx big1 ?addr0 // => i /negbTE N.
  by have -> : (j == i :> nat) = false; [rewrite eq_sym; exact: N | rewrite mul0r].
- by rewrite big1 ?mul0r // => i _; rewrite andbF mul0r.
Qed.
Lemma case_calculate : calculate_alignment_parameters f (Some 0) E0 = Some (Some moved, E0 - 3%:R^-1 *: E0).
Proof using.
rewrite /calculate_alignment_parameters case_tolerance /= /E0.
have -> : (pid_mx 2 : 'M[F]_(2, 6)) *m ((pid_mx 2 : 'M[F]_6) *m (pid_mx 2 : 'M[F]_(2, 6))^T) = 1%:M by rewrite tr_pid_mx !pid_mx_id // pid_mx_1.
rewrite scalarD -[X in 2%:R + X]/(1%:R) -natrD [(2 + 1)%N]/=.
rewrite unitmxE det_scalar unitfE expf_eq0 /= pnatr_eq0 /= invmx_scalar mulmx0 subr0 add0r.
congr (Some (Some _, _ - _)).
- by rewrite tr_pid_mx mulmxA pid_mx_id // /moved mulmxA.
- by rewrite !tr_pid_mx mul_scalar_mx -!scalemxAr !pid_mx_id.
Qed.
Lemma case_update p : update_dut cuts (DutState (Some 0) E0 p) f = Some (DutState (Some moved) (E0 - 3%:R^-1 *: E0) p.+1).
Proof using.
rewrite /update_dut /= case_calculate; case: ifP => // /existsP [j /andP [_]].
rewrite movedE !mxE subr0 eqxx /=; case: (j < 2)%N; rewrite ?mul0r ?normr0 ?sqrtr0 ?mulr0 ?ltxx //.
rewrite sqrtr1 mulr1 mul1r ger0_norm; last by rewrite mulr_ge0 // invr_ge0 ler0n.
by rewrite ltNge; case/negP; rewrite ler_pimull ?invr_ge0 ?ler0n // invf_le1 ?ltr0n // ler1n.
Qed.
(** A DUT that is not selected *)
Lemma case_unselected p : update_dut cuts (DutState (Some 0) 0 p) f = Some (DutState (Some 0) 0 p.+1).
Proof using.
rewrite /update_dut /calculate_alignment_parameters case_tolerance /= !mul0mx !mulmx0 addr0 subr0.
rewrite unitmxE det_scalar unitfE expf_eq0 /= pnatr_eq0 /= addr0.
by case: ifP => // /existsP [j /andP [_]]; rewrite !mxE subrr normr0 sqrtr0 mulr0 ltxx.
Qed.
Lemma case_cov dut : dut \in [:: 1%N] -> initial_cov [:: 1%N] [:: None; Some xy] errors 0 2 dut = Some E0.
Proof using.
rewrite inE => /eqP ->; rewrite /initial_cov /=; congr Some; apply/matrixP=> i j; rewrite !mxE andbT expr1n /xy.
by rewrite -val_eqE /=; case: eqP => //= _; case: (i < 2)%N.
Qed.
Lemma case_cov0 sel params first last dut : dut \notin sel -> initial_cov sel params errors first last dut = Some 0.
Proof using.
move=> /negbTE N; rewrite /initial_cov N; congr Some; by apply/matrixP=> i j; rewrite !mxE /= andbF.
Qed.

(** Three planes, the one in the middle to be aligned in x and y; the last track is not saved *)
Definition case_result := kalman_alignment 3 [:: 1%N] [:: None; Some xy] errors cuts 0 2 10 [:: Some [:: f; f; f]].
Lemma case_resultE : case_result =
  Some ([:: DutState (Some 0) 0 1; DutState (Some moved) (E0 - 3%:R^-1 *: E0) 1; DutState (Some 0) 0 1],
        [:: DutState (Some 0) 0 0; DutState (Some 0) E0 0; DutState (Some 0) 0 0]).
Proof using.
rewrite /case_result /kalman_alignment; cbn [initial_states iota]; rewrite (case_cov0 _ _ _ (_ : 0%N \notin _)) // (@case_cov 1%N) // (case_cov0 _ _ _ (_ : 2%N \notin _)) //.
by rewrite /alignment_loop /= !case_unselected case_update.
Qed.
Example C37_case : exists r sv, case_result = Some (r, sv) /\ forall s0,
  [/\ complete 3 [:: Some [:: f; f; f]], all_fits (@regular F 6 4 2) [:: Some [:: f; f; f]],
      aligned [:: 1%N] [:: None; Some xy] 0 2 1%N (inord 0), ~~ aligned [:: 1%N] [:: None; Some xy] 0 2 1%N (inord 2) &
      exists2 b, change (nth s0 r 1) = Some b & b (inord 0) 0 != 0 ].
Proof using.
eexists; eexists; split; first exact: case_resultE.
move=> s0; split.
- by move=> fs [[<-] | //].
- by move=> fs g [[<-] | //] [<- | [<- | [<- | //]]]; exact: case_regular.
- by rewrite /aligned /xy /= inordK.
- by rewrite /aligned /xy /= inordK.
- exists moved => //; rewrite movedE inordK //= mul1r mulf_neq0 // invr_eq0 pnatr_eq0 //.
Qed.
(** Saved is the alignment before the last track *)
Theorem C60_saved_refuted : exists ts r sv,
  @kalman_alignment F 4 2 3 [:: 1%N] [:: None; Some xy] errors cuts 0 2 10 ts = Some (r, sv) /\ forall s0, change (nth s0 sv 1) <> change (nth s0 r 1).
Proof using.
exists [:: Some [:: f; f; f]]; eexists; eexists; split; first exact: case_resultE.
move=> s0 /= [] /matrixP /(_ (inord 0) 0); rewrite movedE inordK // !mxE mul1r => /esym/eqP.
by rewrite mulf_eq0 !invr_eq0 !pnatr_eq0.
Qed.
(** One track more than max_tracks is used *)
Theorem C60_max_tracks_refuted : exists M ts r sv,
  @kalman_alignment F 4 2 1 [::] [::] errors cuts 0 0 M ts = Some (r, sv) /\ all (fun s => M < processed s)%N r.
Proof using.
exists 1%N, [:: Some [:: f]; Some [:: f]; Some [:: f]]; eexists; eexists; split.
- rewrite /kalman_alignment; cbn [initial_states iota]; rewrite case_cov0 //.
  by rewrite /alignment_loop /= !case_unselected /= case_unselected.
- by [].
Qed.
(** A track without hit in the first plane, which is not to be aligned: the alignment of this plane is nan; at the next track, there is an exception *)
Theorem C60_no_hit_refuted : exists (g : dut_fit F 6 4 2), [/\ fhit g = None, psd (fC g),
  (exists r sv, kalman_alignment 3 [:: 1%N] [:: None; Some xy] errors cuts 0 2 10 [:: Some [:: g; f; f]] = Some (r, sv) /\ forall s0, change (nth s0 r 0) = None) &
  kalman_alignment 3 [:: 1%N] [:: None; Some xy] errors cuts 0 2 10 [:: Some [:: g; f; f]; Some [:: f; f; f]] = None].
Proof using.
pose g := DutFit (pid_mx 2) 0 1%:M 0 (pid_mx 2) None : dut_fit F 6 4 2.
have Ug : update_dut cuts (DutState (Some 0) 0 0) g = Some (DutState None 0 1).
  rewrite /update_dut /calculate_alignment_parameters /= !mul0mx !mulmx0 addr0 subr0 mul1mx tr_pid_mx pid_mx_id // pid_mx_1 add0r.
  by rewrite unitmx1.
exists g; split=> //; first by apply: pd_psd; apply: pd_scalar; exact: ltr01.
- eexists; eexists; split.
  + rewrite /kalman_alignment; cbn [initial_states iota]; rewrite (case_cov0 _ _ _ (_ : 0%N \notin _)) // (@case_cov 1%N) // (case_cov0 _ _ _ (_ : 2%N \notin _)) //.
    by rewrite /alignment_loop /= Ug !case_unselected case_update.
  + by [].
- rewrite /kalman_alignment; cbn [initial_states iota]; rewrite (case_cov0 _ _ _ (_ : 0%N \notin _)) // (@case_cov 1%N) // (case_cov0 _ _ _ (_ : 2%N \notin _)) //.
  by rewrite /alignment_loop /= Ug !case_unselected case_update.
Qed.
(** One list of parameters for each selected DUT, as described for the argument, is an IndexError if DUT 4 is the only selected one; so are the lists used by default *)
Theorem C60_parameters_refuted : (forall p ts, @kalman_alignment F 4 2 6 [:: 4%N] [:: Some p] errors cuts 0 5 10 ts = None)
  /\ (forall ts, @kalman_alignment F 4 2 3 [:: 0; 1; 2]%N [:: None; None; None] errors cuts 0 2 10 ts = None).
Proof using.
by split=> [p ts | ts]; [apply: (@C60_parameters _ _ _ _ _ _ _ _ _ _ _ _ 4%N) | apply: (@C60_parameters _ _ _ _ _ _ _ _ _ _ _ _ 0%N)].
Qed.
End Case.

Print Assumptions C37_fixed.
Print Assumptions C37_steady.
Print Assumptions C37_no_exception.
Print Assumptions C59_best.
Print Assumptions C60_counts.
Print Assumptions C60_max_tracks.
Print Assumptions C60_saved.
Print Assumptions C60_no_hit.
Print Assumptions C37_unselected.
Print Assumptions C37_aligned.
Print Assumptions C37_total.
Print Assumptions C60_parameters.
Print Assumptions C60_saved_refuted.
Print Assumptions C60_max_tracks_refuted.
Print Assumptions C60_no_hit_refuted.
Print Assumptions C60_parameters_refuted.
