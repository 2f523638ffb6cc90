(** C41, C70, C71: the transformation of a DUT from its tracks (calculate_transformation). *)
From mathcomp Require Import all_ssreflect all_algebra.
From mathcomp Require Import zify ring.
From Verif Require Import TransformModel.
Set Implicit Arguments.
Unset Strict Implicit.
Unset Printing Implicit Defensive.
Import Order.Theory GRing.Theory Num.Theory.

(** * Chunks *)
Lemma diffs_map (f : nat -> nat) m a : diffs (map f (iota a m.+1)) = [seq f k.+1 - f k | k <- iota a m].
Proof. elim: m a => [//|m IH] a. rewrite -[iota a m.+2]/(a :: iota a.+1 m.+1) map_cons -[iota a m.+1]/(a :: iota a.+1 m) map_cons -IH. by []. Qed.

Lemma read_map (T : Type) (rows : seq T) (f : nat -> nat) m a : f (a + m) = size rows -> (forall k, a <= k < a + m -> f k < f k.+1) ->
  read_chunks (map f (iota a m.+1)) rows = Some [seq take (f k.+1 - f k) (drop (f k) rows) | k <- iota a m].
Proof.
  elim: m a => [|m IH] a; first by rewrite addn0 => E _; rewrite /= E ltnn.
  move=> E H. have L : f a < size rows.
    have G : forall j, j <= m -> f a < f (a + j.+1).
      elim=> [_|j IHj jm]; first by rewrite addn1; apply: H; rewrite leqnn -{1}[a]addn0 ltn_add2l.
      apply: (ltn_trans (IHj (ltnW jm))). rewrite [(a + j.+2)]addnS. apply: H. by rewrite leq_addr ltn_add2l.
    by rewrite -E; apply: G.
  rewrite -[iota a m.+2]/(a :: iota a.+1 m.+1) map_cons -[iota a m.+1]/(a :: iota a.+1 m) map_cons.
  have IH' := IH a.+1 _ _. rewrite -[read_chunks _ _]/(if f a < size rows then match map f (iota a.+1 m.+1) with [::] => None | b :: _ => omap (cons (take (b - f a) (drop (f a) rows))) (read_chunks (map f (iota a.+1 m.+1)) rows) end else Some [::]) L.
  rewrite IH' //; [by rewrite addSnnS|]. move=> k /andP[ak km]. apply: H. by rewrite (ltnW ak) addnS -addSn.
Qed.

Lemma flatten_pieces (T : Type) (rows : seq T) (f : nat -> nat) m a : f (a + m) = size rows -> (forall k, a <= k < a + m -> f k <= f k.+1) ->
  flatten [seq take (f k.+1 - f k) (drop (f k) rows) | k <- iota a m] = drop (f a) rows.
Proof.
  elim: m a => [|m IH] a; first by rewrite addn0 => E _; rewrite E drop_size.
  move=> E H. rewrite /= IH; [|by rewrite addSnnS|move=> k /andP[ak km]; apply: H; by rewrite (ltnW ak) addnS -addSn].
  have L : f a <= f a.+1 by apply: H; rewrite leqnn -{1}[a]addn0 ltn_add2l.
  by rewrite -{2}(subnK L) -drop_drop cat_take_drop.
Qed.

Section Indices.
Variable n : nat.
Lemma indices_diffs s : diffs (chunk_indices n s.+1) = [seq (k.+1 * n) %/ s - (k * n) %/ s | k <- iota 0 s].
Proof. by rewrite /chunk_indices diffs_map. Qed.
(** the number of rows of a chunk: n / s rounded up or down *)
Lemma piece_size s k : 0 < s -> n %/ s <= (k.+1 * n) %/ s - (k * n) %/ s <= (n %/ s).+1.
Proof.
  move=> s0. rewrite mulSn. have H1 : n %/ s + (k * n) %/ s <= (n + k * n) %/ s by rewrite leq_divRL // mulnDl leq_add // leq_trunc_div.
  have H2 : (n + k * n) %/ s < (n %/ s).+1 + ((k * n) %/ s).+1.
    rewrite ltn_divLR // mulnDl. apply: (@leq_trans ((n %/ s).+1 * s + k * n)); first by rewrite ltn_add2r ltn_ceil.
    by rewrite leq_add2l ltnW // ltn_ceil.
  move: H1 H2. move: ((n + k * n) %/ s) ((k * n) %/ s) (n %/ s) => a b d; lia.
Qed.
Lemma find_spec c fuel s : 0 < c -> n.+1 < s + fuel -> 1 < s -> s <= n.+1 ->
  exists s', [/\ find_indices fuel n c s = Some (chunk_indices n s'.+1), 0 < s', s' <= n & all (fun d => d <= c) (diffs (chunk_indices n s'.+1))].
Proof.
  move=> c0. elim: fuel s => [|fuel IH] s; first by rewrite addn0 => H _ L; move: (leq_trans H L); rewrite ltnn.
  move=> H s1 L. rewrite -[find_indices fuel.+1 n c s]/(if all (fun d => d <= c) (diffs (chunk_indices n s)) then Some (chunk_indices n s) else find_indices fuel n c s.+1). case: ifP => A.
    exists s.-1. have E : s.-1.+1 = s by lia. rewrite E. split; [by []|lia|lia|exact: A].
  move: (L). rewrite leq_eqVlt => /orP[/eqP E|L'].
    move/negP: A. case. rewrite E indices_diffs. apply/allP => d /mapP[k _ ->]. have n0 : 0 < n by lia. by rewrite !mulnK // subSnn.
  apply: IH => //; lia.
Qed.
End Indices.

(** The chunks of calculate_transformation contain every row exactly once in the order of the table, none is empty or larger than chunk_size, and their sizes differ by at most one. *)
Theorem C41_chunks (T : Type) (rows : seq T) chunk_size : 0 < chunk_size ->
  exists cs, [/\ chunks chunk_size rows = Some cs, flatten cs = rows, (forall k, k < size cs -> 0 < size (nth [::] cs k) <= chunk_size) &
  forall k l, k < size cs -> l < size cs -> size (nth [::] cs k) <= (size (nth [::] cs l)).+1].
Proof.
  move=> c0. rewrite /chunks. have -> : (chunk_size == 0) = false by apply/eqP => E; rewrite E in c0.
  case E: (size rows) => [|n].
    rewrite div0n. exists [::]. by move: E; case: rows.
  have [| | | |s' [-> s0 sn A]] := @find_spec n.+1 chunk_size n.+3 (maxn (n.+1 %/ chunk_size) 2).
  - exact: c0.
  - lia.
  - by rewrite leq_max orbT.
  - by rewrite geq_max andbT (leq_trans (leq_div _ _)).
  have S : forall k, k * n.+1 %/ s' < k.+1 * n.+1 %/ s'.
    move=> k. have /andP[P _] := piece_size n.+1 k s0. rewrite -subn_gt0. apply: leq_trans P. by rewrite divn_gt0.
  rewrite -[obind _ _]/(read_chunks (map (fun k => k * n.+1 %/ s') (iota 0 s'.+1)) rows) (read_map (f := fun k => k * n.+1 %/ s')); [|by rewrite add0n E mulKn|by move=> k _; apply: S].
  set cs := map _ _. exists cs.
  have Z : forall k, k < size cs -> size (nth [::] cs k) = k.+1 * n.+1 %/ s' - k * n.+1 %/ s'.
    move=> k. rewrite size_map size_iota => ks. rewrite (nth_map 0) ?size_iota // nth_iota // add0n size_take size_drop E.
    have K : k.+1 * n.+1 %/ s' <= n.+1 by rewrite -{2}(mulKn n.+1 s0) leq_div2r // leq_mul2r ks orbT.
    move: (S k) K. move: (k.+1 * n.+1 %/ s') (k * n.+1 %/ s') => a b; case: ifP; lia.
  split=> //.
  - rewrite flatten_pieces ?mul0n ?div0n ?drop0 // ?add0n ?E ?mulKn //. by move=> k _; rewrite ltnW.
  - move=> k ks. rewrite Z // subn_gt0 S /=. move/allP: A => A. apply: A. rewrite indices_diffs. apply/mapP. exists k => //. by move: ks; rewrite size_map mem_iota add0n size_iota.
  - move=> k l ks ls. rewrite !Z //. have /andP[_ P] := piece_size n.+1 k s0. have /andP[Q _] := piece_size n.+1 l s0. by apply: leq_trans P _; rewrite ltnS.
Qed.
Theorem C41_no_rows (T : Type) chunk_size : 0 < chunk_size -> chunks chunk_size (Nil T) = Some [::].
Proof. by case: chunk_size. Qed.
Example C41_chunks_example : chunks 3 (iota 0 7) = Some [:: [:: 0; 1]; [:: 2; 3]; [:: 4; 5; 6]].
Proof. by vm_compute. Qed.

(** * Averages over chunks *)
Local Open Scope ring_scope.
Section Average.
Variable F : realFieldType.
Notation vec := 'cV[F]_3.
Notation chunk := (nat * (vec * 'M[F]_3))%type.

Definition n_total (cs : seq chunk) : nat := (\sum_(c <- cs) c.1)%N.
Definition weighted_sum (cs : seq chunk) : vec := \sum_(c <- cs) c.1%:R *: c.2.1.

Lemma average_sum p q (a b t : 'M[F]_(p, q)) n m : average a b n m = Some t -> (m + n)%:R *: t = m%:R *: b + n%:R *: a.
Proof.
  rewrite /average. case: ifP => // /negbT N [<-]. rewrite addnC scalerA mulfV ?scale1r; first by rewrite addrC.
  by rewrite pnatr_eq0.
Qed.
Lemma add_chunks_sum cs a t b : a_trans a = Some t -> add_chunks a cs = Some b ->
  exists t', [/\ a_trans b = Some t', a_total b = (a_total a + n_total cs)%N & (a_total b)%:R *: t' = (a_total a)%:R *: t + weighted_sum cs].
Proof.
  elim: cs a t => [|c cs IH] a t Ea /=.
    by case=> <-; exists t; rewrite /n_total /weighted_sum !big_nil addn0 addr0.
  rewrite /add_chunk Ea. case E: (average c.2.1 t _ _) => [t1|//]. set r0 := (X in if X is Some r then _ else _). case: r0 => [r|//] /= H.
  have [t' [H1 H2 H3]] := IH (Averages (Some t1) (Some r) (Some c.2.2) (a_total a + c.1)%N) t1 (erefl _) H. exists t'. split=> //; first by rewrite H2 /n_total big_cons addnA.
  by rewrite H3 /= (average_sum E) /weighted_sum big_cons addrA.
Qed.

Lemma add_chunks_last (cs : seq chunk) a b : add_chunks a cs = Some b -> a_last b = if cs is c :: cs' then Some (last c cs').2.2 else a_last a.
Proof.
  elim: cs a => [|c cs IH] a /=; first by case=> <-.
  rewrite /add_chunk. set t0 := (X in if X is Some t then _ else _). case: t0 => [t|//]. set r0 := (X in if X is Some r then _ else _). case: r0 => [r|//] /= H. rewrite (IH _ H). by case: cs {IH H}.
Qed.

(** The stored translation is the average over all chunks, weighted with their numbers of tracks. *)
Theorem C41_translation (cs : seq chunk) t r : combine cs = Some (t, r) -> (0 < n_total cs)%N -> t = (n_total cs)%:R^-1 *: weighted_sum cs.
Proof.
  rewrite /combine. case: cs => [//|c cs]. case E: (add_chunks _ _) => [[[t'|] [r'|] [l|] m]|//] //. case=> <- _ N.
  rewrite /= in E. have [t2 [H1 H2 H3]] := add_chunks_sum (a := Averages (Some c.2.1) (Some c.2.2) (Some c.2.2) (0 + c.1)%N) (t := c.2.1) (erefl _) E. case: H1 H3 => <-. rewrite /= add0n in H2 *. move=> H3.
  have -> : n_total (c :: cs) = m by rewrite H2 /n_total big_cons. have -> : weighted_sum (c :: cs) = m%:R *: t' by rewrite H3 /weighted_sum big_cons.
  rewrite scalerA mulVf ?scale1r // pnatr_eq0 -lt0n. by rewrite H2; move: N; rewrite /n_total big_cons.
Qed.

(** It is calculated if every chunk has tracks, or if there is only one chunk; without chunk there is an exception. *)
Theorem C41_succeeds (c : chunk) (cs : seq chunk) : (forall d, d \in map fst (c :: cs) -> 0 < d)%N -> exists t r, combine (c :: cs) = Some (t, r).
Proof.
  move=> H. have G : forall (ds : seq chunk) (a : averages F) t r l, (0 < a_total a)%N -> a_trans a = Some t -> a_rot a = Some r -> a_last a = Some l -> exists t r l m, add_chunks a ds = Some (Averages (Some t) (Some r) (Some l) m).
    elim=> [|d ds IH] a t r l P Et Er El; first by exists t, r, l, (a_total a); case: a P Et Er El => ? ? ? ? /= _ -> -> ->.
    rewrite /= /add_chunk Et Er /average. have -> : (d.1 + a_total a == 0)%N = false by apply/negbTE; rewrite -lt0n ltn_addl.
    by rewrite /=; apply: IH => /=; rewrite ?ltn_addr.
  rewrite /combine /=. have [|t [r [l [m ->]]]] := G cs (Averages (Some c.2.1) (Some c.2.2) (Some c.2.2) (0 + c.1)%N) c.2.1 c.2.2 c.2.2 _ (erefl _) (erefl _) (erefl _); first by rewrite /= add0n H // inE eqxx.
  by exists t, l.
Qed.
Theorem C41_single (c : chunk) : combine [:: c] = Some c.2.
Proof. by rewrite /combine /=; case: c => n []. Qed.
Theorem C41_no_chunks : combine [::] = None :> option (vec * 'M[F]_3).
Proof. by []. Qed.

(** The rotation is the one of the last chunk. *)
Theorem C41_rotation (cs : seq chunk) (c : chunk) t r : combine (rcons cs c) = Some (t, r) -> r = c.2.2.
Proof.
  rewrite /combine. case E: (add_chunks _ _) => [[[t'|] [r'|] [l|] m]|//] // [_ <-]. have := add_chunks_last E. case: cs {E} => [|d cs] /= [->] //. by rewrite last_rcons.
Qed.

(** Desired: the rotation, too, is an average over all chunks. False: two chunks in the other order give another rotation, and a chunk of one track decides against
    a chunk with any number of tracks. *)
(* half a turn around the x axis *)
Definition flip : 'M[F]_3 := diag_mx (\row_i (if i == 0 :> 'I_3 then 1 else - 1)).
Theorem C41_rotation_refuted n : (0 < n)%N -> exists c d : chunk, [/\ c.1 = n, d.1 = 1%N, c.2.1 = d.2.1 &
  exists t t' r r', [/\ combine [:: c; d] = Some (t, r), combine [:: d; c] = Some (t', r'), r = d.2.2, r' = c.2.2 & r <> r']].
Proof.
  move=> n0. exists (n, (0, 1)), (1%N, (0, flip)). split=> //.
  have [|t [r E]] := @C41_succeeds (n, (0, 1)) [:: (1%N, (0, flip))]; first by move=> d; rewrite !inE => /orP[/eqP->|/eqP->].
  have [|t' [r' E']] := @C41_succeeds (1%N, (0, flip)) [:: (n, (0, 1))]; first by move=> d; rewrite !inE => /orP[/eqP->|/eqP->].
  exists t, t', r, r'. have R := @C41_rotation [:: (n, (0, 1))] (1%N, (0, flip)) t r E. have R' := @C41_rotation [:: (1%N, (0, flip))] (n, (0, 1)) t' r' E'. rewrite /= in R R'. split=> //.
  rewrite R R' => /matrixP/(_ (inord 1) (inord 1)). rewrite !mxE eqxx /= -val_eqE /= inordK //= => /eqP. rewrite eq_sym -subr_eq0 opprK. by rewrite -[1 + 1]/(2%:R) pnatr_eq0.
Qed.
End Average.

Print Assumptions C41_chunks.
Print Assumptions C41_no_rows.
Print Assumptions C41_translation.
Print Assumptions C41_succeeds.
Print Assumptions C41_single.
Print Assumptions C41_no_chunks.
Print Assumptions C41_rotation.
Print Assumptions C41_rotation_refuted.
