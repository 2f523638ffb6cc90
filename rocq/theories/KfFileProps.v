(** C139: file and pages of align_kalman. *)
From Coq Require Import List Arith Reals Bool Lia Lra.
From Verif Require Import KfFileModel.
Import ListNotations.
Local Open Scope list_scope.

Lemma nth_map_seq {A} (h : nat -> A) n d e : d < n -> nth d (map h (seq 0 n)) e = h d.
Proof. intros L. apply nth_error_nth. rewrite nth_error_map, (nth_error_nth' (seq 0 n) 0) by (rewrite seq_length; exact L). rewrite seq_nth by exact L. reflexivity. Qed.

Section Spec.
  Context {D T F : Type} (par sigma : D -> nat -> option R) (place : nat -> D -> option (list R)) (annealing : nat -> R)
    (fit : list D -> list R -> T -> option (R * R * (nat -> F))) (update : nat -> F -> D -> option D) (track_chi2 : R) (max_tracks : nat).
  Notation one_track := (one_track par sigma place annealing fit update track_chi2 max_tracks).
  Notation one_chunk := (one_chunk par sigma place annealing fit update track_chi2 max_tracks).
  Notation alignment_loop := (alignment_loop par sigma place annealing fit update track_chi2 max_tracks).
  Notation deltas := (deltas par sigma).

  (** * Specification *)
  (** the parameter j changes by more than 5 % of its error *)
  Definition too_large (s0 s1 : D) (j : nat) : Prop := exists e a b, sigma s0 j = Some e /\ par s0 j = Some a /\ par s1 j = Some b /\ (5 / 100 * e < Rabs (b - a))%R.
  (** the change in units of the error, 0 without error *)
  Definition is_delta (s0 s1 : D) (j : nat) (x : option R) : Prop :=
    match x with
    | Some v => exists e, sigma s0 j = Some e /\ ((e = 0 /\ v = 0)%R \/ (e <> 0%R /\ exists a b, par s0 j = Some a /\ par s1 j = Some b /\ (v * e = Rabs (b - a))%R))
    | None => sigma s0 j = None \/ par s0 j = None \/ par s1 j = None
    end.
  (** what a track does to DUT d: the row and the next state and number of used tracks *)
  Definition dut_step (d : nat) (ft : option (R * R * (nat -> F))) (s : D) (n : nat) (r : row) (s' : D) (n' : nat) : Prop :=
    place d s = Some (r_place r) /\ r_error r = map (sigma s) (seq 0 6) /\ r_factor r = annealing n /\ length (r_delta r) = 6 /\
    match ft with
    | Some (c, _, g) =>
        ((track_chi2 < c)%R -> s' = s /\ n' = n /\ forall j, nth j (r_delta r) None = None) /\
        ((c <= track_chi2)%R -> exists s1, update d (g d) s = Some s1 /\
          (forall j, j < 6 -> ((exists i, i < j /\ too_large s s1 i) -> nth j (r_delta r) None = None) /\ ((forall i, i < j -> ~ too_large s s1 i) -> is_delta s s1 j (nth j (r_delta r) None))) /\
          ((exists j, j < 6 /\ too_large s s1 j) -> s' = s /\ n' = n) /\ ((forall j, j < 6 -> ~ too_large s s1 j) -> s' = s1 /\ n' = S n))
    | None => s' = s /\ n' = n /\ forall j, nth j (r_delta r) None = None
    end.
  Definition track_step (ss : list D) (ns : list nat) (t : T) (ss' : list D) (ns' : list nat) (e : entry) : Prop :=
    let ft := fit ss (map annealing ns) t in
    (e_chi2 e, e_pvalue e) = match ft with Some (c, p, _) => (c, p) | None => (0, 0)%R end /\
    length ss' = length ss /\ length ns' = length ss /\ length (e_rows e) = length ss /\
    forall d s n s' n' r, nth_error ss d = Some s -> nth_error ns d = Some n -> nth_error ss' d = Some s' -> nth_error ns' d = Some n' -> nth_error (e_rows e) d = Some r -> dut_step d ft s n r s' n'.

  (** * One track *)
  Lemma exceeds_iff s0 s1 j : exceeds par sigma s0 s1 j = true <-> too_large s0 s1 j.
  Proof.
    unfold exceeds, change, too_large. split.
    - destruct (sigma s0 j) as [e|]; [|discriminate]. destruct (par s0 j) as [a|]; [|discriminate]. destruct (par s1 j) as [b|]; [|discriminate]. destruct (Rlt_dec _ _); [|discriminate]. intros _. exists e, a, b. auto.
    - intros (e & a & b & -> & -> & -> & H). destruct (Rlt_dec _ _); [reflexivity|contradiction].
  Qed.
  Lemma delta_ok s0 s1 j : is_delta s0 s1 j (delta par sigma s0 s1 j).
  Proof.
    unfold delta, change. destruct (sigma s0 j) as [e|] eqn:E; [|left; exact E]. destruct (Req_EM_T e 0) as [->|N]; [exists 0%R; auto|].
    destruct (par s0 j) as [a|] eqn:A; [|right; left; exact A]. destruct (par s1 j) as [b|] eqn:B; [|right; right; exact B].
    exists e. split; [exact E|]. right. split; [exact N|]. exists a, b. repeat split; auto. field. exact N.
  Qed.
  Lemma deltas_ok s0 s1 m : forall a, length (fst (deltas s0 s1 (seq a m))) = m /\
    (forall j, j < m -> ((exists i, i < j /\ too_large s0 s1 (a + i)) -> nth j (fst (deltas s0 s1 (seq a m))) None = None) /\
       ((forall i, i < j -> ~ too_large s0 s1 (a + i)) -> is_delta s0 s1 (a + j) (nth j (fst (deltas s0 s1 (seq a m))) None))) /\
    (snd (deltas s0 s1 (seq a m)) = true <-> exists j, j < m /\ too_large s0 s1 (a + j)).
  Proof.
    induction m as [|m IH]; intros a; cbn [seq KfFileModel.deltas].
    - split; [reflexivity|]. split; [lia|]. split; [discriminate|intros (j & L & _); lia].
    - destruct (exceeds par sigma s0 s1 a) eqn:E.
      + apply exceeds_iff in E. cbn [fst snd]. split; [cbn [length]; now rewrite map_length, seq_length|]. split.
        * intros [|j] L; cbn [nth]; (split; [|]).
          -- intros (i & I & _). lia.
          -- intros _. rewrite Nat.add_0_r. apply delta_ok.
          -- intros _. assert (G : forall (l : list nat) k, nth k (map (fun _ => @None R) l) None = None) by (induction l as [|x l IHl]; intros [|k]; cbn; auto). apply G.
          -- intros H. exfalso. apply (H 0); [lia|]. rewrite Nat.add_0_r. exact E.
        * split; [intros _; exists 0; rewrite Nat.add_0_r; split; [lia|exact E]|reflexivity].
      + assert (N : ~ too_large s0 s1 a) by (rewrite <- exceeds_iff, E; discriminate). destruct (IH (S a)) as (A & B & C). destruct (deltas s0 s1 (seq (S a) m)) as [l f]. cbn [fst snd] in *. split; [cbn [length]; now rewrite A|]. split.
        * intros [|j] L; cbn [nth].
          -- split; [intros (i & I & _); lia|]. intros _. rewrite Nat.add_0_r. apply delta_ok.
          -- destruct (B j ltac:(lia)) as [B1 B2]. split.
             ++ intros ([|i] & I & H); [rewrite Nat.add_0_r in H; contradiction|]. apply B1. exists i. split; [lia|]. replace (S a + i) with (a + S i) by lia. exact H.
             ++ intros H. replace (a + S j) with (S a + j) by lia. apply B2. intros i I. specialize (H (S i) ltac:(lia)). replace (S a + i) with (a + S i) by lia. exact H.
        * rewrite C. split.
          -- intros (j & L & H). exists (S j). split; [lia|]. replace (a + S j) with (S a + j) by lia. exact H.
          -- intros ([|j] & L & H); [rewrite Nat.add_0_r in H; contradiction|]. exists j. split; [lia|]. replace (S a + j) with (a + S j) by lia. exact H.
  Qed.

  Lemma all_values_ok ss : forall i ns rs, length ns = length ss -> all_values sigma place annealing i ss ns = Some rs -> length rs = length ss /\
    forall d s n r, nth_error ss d = Some s -> nth_error ns d = Some n -> nth_error rs d = Some r -> place (i + d) s = Some (r_place r) /\ r_error r = map (sigma s) (seq 0 6) /\ r_factor r = annealing n /\ r_delta r = repeat None 6.
  Proof.
    induction ss as [|s ss IH]; intros i [|n ns] rs L E; try discriminate L; cbn [all_values] in E.
    - injection E as <-. split; [reflexivity|]. intros [|d] s n r A; discriminate A.
    - unfold first_values in E. destruct (place i s) as [p|] eqn:P; [|discriminate]. destruct (all_values sigma place annealing (S i) ss ns) as [rs'|] eqn:V; [|discriminate]. injection E as <-. injection L as L.
      destruct (IH (S i) ns rs' L V) as [A B]. split; [cbn [length]; now rewrite A|]. intros [|d] s' n' r X Y Z; cbn [nth_error] in *.
      + injection X as <-. injection Y as <-. injection Z as <-. rewrite Nat.add_0_r. auto.
      + replace (i + S d) with (S i + d) by lia. eapply B; eauto.
  Qed.
  Lemma update_all_ok g ss : forall i ns rs ss' ns' rs', length ns = length ss -> length rs = length ss -> update_all par sigma update i g ss ns rs = Some (ss', ns', rs') ->
    length ss' = length ss /\ length ns' = length ss /\ length rs' = length ss /\
    forall d s n r s' n' r', nth_error ss d = Some s -> nth_error ns d = Some n -> nth_error rs d = Some r -> nth_error ss' d = Some s' -> nth_error ns' d = Some n' -> nth_error rs' d = Some r' ->
      r_place r' = r_place r /\ r_error r' = r_error r /\ r_factor r' = r_factor r /\
      exists s1, update (i + d) (g (i + d)) s = Some s1 /\ r_delta r' = fst (deltas s s1 (seq 0 6)) /\ (s', n') = if snd (deltas s s1 (seq 0 6)) then (s, n) else (s1, S n).
  Proof.
    induction ss as [|s ss IH]; intros i [|n ns] [|r rs] ss' ns' rs' L1 L2 E; try discriminate; cbn [update_all] in E.
    - injection E as <- <- <-. do 3 (split; [reflexivity|]). intros [|d] s n r s' n' r' A; discriminate A.
    - destruct (update i (g i) s) as [s1|] eqn:U; [|discriminate]. destruct (update_all par sigma update (S i) g ss ns rs) as [[[ss1 ns1] rs1]|] eqn:V; [|discriminate]. injection L1 as L1. injection L2 as L2.
      destruct (IH (S i) ns rs ss1 ns1 rs1 L1 L2 V) as (A & B & C & H).
      assert (X : exists a b, (a, b) = (if snd (deltas s s1 (seq 0 6)) then (s, n) else (s1, S n)) /\ ss' = a :: ss1 /\ ns' = b :: ns1 /\ rs' = Row (r_place r) (r_error r) (fst (deltas s s1 (seq 0 6))) (r_factor r) :: rs1).
      { destruct (deltas s s1 (seq 0 6)) as [ds [|]]; injection E as <- <- <-; cbn [fst snd]; eexists _, _; repeat split. }
      destruct X as (a & b & X & -> & -> & ->). split; [cbn [length]; now rewrite A|]. split; [cbn [length]; now rewrite B|]. split; [cbn [length]; now rewrite C|].
      intros [|d] q m w q' m' w' N1 N2 N3 N4 N5 N6; cbn [nth_error] in *.
      + injection N1 as <-. injection N2 as <-. injection N3 as <-. injection N4 as <-. injection N5 as <-. injection N6 as <-. rewrite Nat.add_0_r. repeat split. exists s1. auto.
      + replace (i + S d) with (S i + d) by lia. eapply H; eauto.
  Qed.
  Lemma nth_none_repeat m j : nth j (repeat (@None R) m) None = None.
  Proof. revert j. induction m as [|m IH]; intros [|j]; cbn; auto. Qed.
  (** a track does what the specification says; the loop is left if all numbers are above the limit *)
  Lemma one_track_ok ss ns t ss' ns' e b : length ns = length ss -> one_track ss ns t = Some (ss', ns', e, b) ->
    track_step ss ns t ss' ns' e /\ (b = true -> Forall (fun n => max_tracks < n) ns') /\ (b = false -> ns' = ns \/ ~ Forall (fun n => max_tracks < n) ns').
  Proof.
    intros L E. unfold KfFileModel.one_track in E. destruct (all_values sigma place annealing 0 ss ns) as [rs|] eqn:V; [|discriminate]. destruct (all_values_ok ss 0 ns rs L V) as [A B]. unfold track_step.
    destruct (fit ss (map annealing ns) t) as [[[c p] g]|] eqn:Ft.
    - destruct (Rlt_dec track_chi2 c) as [H|H].
      + injection E as <- <- <- <-. cbn [e_chi2 e_pvalue e_rows]. split; [|split; [discriminate|auto]]. split; [reflexivity|]. split; [reflexivity|]. split; [exact L|]. split; [exact A|].
        intros d s n s' n' r X Y X' Y' Z. rewrite X in X'. rewrite Y in Y'. injection X' as <-. injection Y' as <-. destruct (B d s n r X Y Z) as (B1 & B2 & B3 & B4). unfold dut_step. split; [exact B1|]. split; [exact B2|]. split; [exact B3|].
        split; [now rewrite B4|]. split; [|lra]. intros _. split; [reflexivity|]. split; [reflexivity|]. intros j. rewrite B4. apply nth_none_repeat.
      + destruct (update_all par sigma update 0 g ss ns rs) as [[[ss1 ns1] rs1]|] eqn:U; [|discriminate]. injection E as <- <- <- Eb. destruct (update_all_ok g ss 0 ns rs ss1 ns1 rs1 L A U) as (C1 & C2 & C3 & C). cbn [e_chi2 e_pvalue e_rows].
        assert (FB : forallb (fun n => max_tracks <? n) ns1 = true <-> Forall (fun n => max_tracks < n) ns1).
        { rewrite forallb_forall, Forall_forall. split; intros G x I; [apply Nat.ltb_lt|apply Nat.ltb_lt]; auto. }
        split; [|split; [intros ->; apply FB; exact Eb|intros ->; right; intros G; apply FB in G; congruence]].
        split; [reflexivity|]. split; [exact C1|]. split; [exact C2|]. split; [exact C3|]. intros d s n s' n' r X Y X' Y' Z.
        destruct (nth_error rs d) as [r0|] eqn:R0; [|apply nth_error_None in R0; assert (d < length ss) by (apply nth_error_Some; congruence); lia]. destruct (B d s n r0 X Y R0) as (B1 & B2 & B3 & B4).
        destruct (C d s n r0 s' n' r X Y R0 X' Y' Z) as (D1 & D2 & D3 & s1 & U1 & U2 & U3). cbn [Nat.add] in *. destruct (deltas_ok s s1 6 0) as (G1 & G2 & G3). unfold dut_step. rewrite D1, D2, D3, U2.
        split; [exact B1|]. split; [exact B2|]. split; [exact B3|]. split; [exact G1|]. split; [lra|]. intros _. exists s1. split; [exact U1|]. split; [exact G2|]. split.
        * intros G. apply G3 in G. rewrite G in U3. injection U3 as -> ->. auto.
        * intros G. destruct (snd (deltas s s1 (seq 0 6))); [|injection U3 as -> ->; auto]. destruct (proj1 G3 eq_refl) as (j & J & K). exfalso. exact (G j J K).
    - injection E as <- <- <- <-. cbn [e_chi2 e_pvalue e_rows]. split; [|split; [discriminate|auto]]. split; [reflexivity|]. split; [reflexivity|]. split; [exact L|]. split; [exact A|].
      intros d s n s' n' r X Y X' Y' Z. rewrite X in X'. rewrite Y in Y'. injection X' as <-. injection Y' as <-. destruct (B d s n r X Y Z) as (B1 & B2 & B3 & B4). unfold dut_step. split; [exact B1|]. split; [exact B2|]. split; [exact B3|].
      split; [now rewrite B4|]. split; [reflexivity|]. split; [reflexivity|]. intros j. rewrite B4. apply nth_none_repeat.
  Qed.

  (** * All tracks *)
  (** [es] are the entries of the first tracks of [ts]: all tracks, or as many as are needed until the numbers of used tracks of all DUTs are above the limit *)
  Definition done_with (st : nat -> list D) (cn : nat -> list nat) (ss : list D) (ns : list nat) (ts : list T) (es : list entry) (ss' : list D) (ns' : list nat) : Prop :=
    st 0 = ss /\ cn 0 = ns /\ st (length es) = ss' /\ cn (length es) = ns' /\ length es <= length ts /\
    (forall k e t, nth_error es k = Some e -> nth_error ts k = Some t -> track_step (st k) (cn k) t (st (S k)) (cn (S k)) e) /\
    (length es < length ts -> Forall (fun n => max_tracks < n) ns') /\
    (forall k, k < length es -> ~ Forall (fun n => max_tracks < n) (cn k)).
  Definition tracks_done (ss : list D) (ns : list nat) (ts : list T) (es : list entry) (ss' : list D) (ns' : list nat) : Prop :=
    exists (st : nat -> list D) (cn : nat -> list nat), done_with st cn ss ns ts es ss' ns'.
  Lemma one_chunk_ok ts : forall ss ns ss' ns' es b, length ns = length ss -> ~ Forall (fun n => max_tracks < n) ns -> one_chunk ss ns ts = Some (ss', ns', es, b) ->
    tracks_done ss ns ts es ss' ns' /\ length ns' = length ss' /\ length ss' = length ss /\ (b = false -> length es = length ts).
  Proof.
    induction ts as [|t ts IH]; intros ss ns ss' ns' es b L N E; cbn [KfFileModel.one_chunk] in E.
    - injection E as <- <- <- <-. split; [|auto]. exists (fun _ => ss), (fun _ => ns). do 4 (split; [reflexivity|]). split; [cbn [length]; lia|]. split; [intros [|k] e t A; discriminate A|]. split; [cbn [length]; lia|]. intros k K. cbn [length] in K. lia.
    - destruct (one_track ss ns t) as [[[[s1 n1] e] b1]|] eqn:O; [|discriminate]. destruct (one_track_ok _ _ _ _ _ _ _ L O) as (S1 & S2 & S3). pose proof S1 as (_ & L1 & L2 & _). destruct b1.
      + injection E as <- <- <- <-. split; [|split; [lia|split; [lia|discriminate]]]. exists (fun k => match k with 0 => ss | _ => s1 end), (fun k => match k with 0 => ns | _ => n1 end). unfold done_with. cbn [length]. do 4 (split; [reflexivity|]). split; [lia|]. split; [|split; [auto|]].
        * intros [|k] e' t' A B; [injection A as <-; injection B as <-; exact S1|]. destruct k; discriminate A.
        * intros [|k] K; [exact N|lia].
      + destruct (one_chunk s1 n1 ts) as [[[[s2 n2] es'] b2]|] eqn:C; [|discriminate]. injection E as <- <- <- <-.
        assert (N1 : ~ Forall (fun n => max_tracks < n) n1) by (destruct (S3 eq_refl) as [->|X]; assumption).
        destruct (IH s1 n1 s2 n2 es' b2 ltac:(lia) N1 C) as ((st & cn & A1 & A2 & A3 & A4 & A5 & A6 & A7 & A8) & B1 & B2 & B3). split; [|split; [exact B1|split; [lia|intros H; cbn [length]; rewrite (B3 H); reflexivity]]].
        exists (fun k => match k with 0 => ss | S k => st k end), (fun k => match k with 0 => ns | S k => cn k end). unfold done_with. cbn [length]. do 2 (split; [reflexivity|]). split; [exact A3|]. split; [exact A4|]. split; [lia|]. split; [|split].
        * intros [|k] e' t' A B; cbn [nth_error] in A, B; [injection A as <-; injection B as <-; rewrite A1, A2; exact S1|]. apply (A6 k e' t' A B).
        * intros H. apply A7. lia.
        * intros [|k] K; [exact N|]. apply A8. lia.
  Qed.

  (** * Chunks *)
  Lemma one_chunk_app a c : forall ss ns, one_chunk ss ns (a ++ c) = match one_chunk ss ns a with
    | None => None | Some (s1, n1, es, true) => Some (s1, n1, es, true)
    | Some (s1, n1, es, false) => match one_chunk s1 n1 c with None => None | Some (s2, n2, es', b) => Some (s2, n2, es ++ es', b) end end.
  Proof.
    induction a as [|t a IH]; intros ss ns; cbn [app KfFileModel.one_chunk].
    - destruct (one_chunk ss ns c) as [[[[s2 n2] es] b]|]; reflexivity.
    - destruct (one_track ss ns t) as [[[[s1 n1] e] [|]]|]; [reflexivity| |reflexivity]. rewrite IH. destruct (one_chunk s1 n1 a) as [[[[s2 n2] es] [|]]|]; [reflexivity| |reflexivity]. destruct (one_chunk s2 n2 c) as [[[[s3 n3] es'] b]|]; reflexivity.
  Qed.
  Lemma of_dut_app d a c : of_dut d (a ++ c) = of_dut d a ++ of_dut d c.
  Proof. apply flat_map_app. Qed.
  Lemma store_store n f a na c nc : store n (Some (store n f a na)) c nc = store n f (a ++ c) nc.
  Proof.
    unfold store at 1. set (old := match f with Some g => g | None => File (repeat [] n) [] [] [] end). unfold store. fold old. cbn [f_tables f_processed f_chi2 f_pvalue]. rewrite !map_app, !app_assoc. f_equal. apply map_ext_in. intros d I. apply in_seq in I.
    rewrite of_dut_app, app_assoc. f_equal. apply (nth_map_seq (fun d => nth d (f_tables old) [] ++ of_dut d a)). lia.
  Qed.
  Lemma one_chunk_length ts ss ns ss' ns' es b : length ns = length ss -> one_chunk ss ns ts = Some (ss', ns', es, b) -> length ss' = length ss /\ length ns' = length ss.
  Proof.
    revert ss ns ss' ns' es b. induction ts as [|t ts IH]; intros ss ns ss' ns' es b L E; cbn [KfFileModel.one_chunk] in E; [injection E as <- <- <- <-; auto|].
    destruct (one_track ss ns t) as [[[[s1 n1] e] b1]|] eqn:O; [|discriminate]. destruct (one_track_ok _ _ _ _ _ _ _ L O) as ((_ & L1 & L2 & _) & _). destruct b1; [injection E as <- <- <- <-; lia|].
    destruct (one_chunk s1 n1 ts) as [[[[s2 n2] es'] b2]|] eqn:C; [|discriminate]. injection E as <- <- <- <-. destruct (IH s1 n1 s2 n2 es' b2 ltac:(lia) C). lia.
  Qed.
  Lemma chunks_join r : forall f ss ns c, length ns = length ss -> alignment_loop f ss ns (c :: r) = alignment_loop f ss ns [c ++ concat r].
  Proof.
    induction r as [|c' r IH]; intros f ss ns c L; [cbn [concat]; now rewrite app_nil_r|]. cbn [KfFileModel.alignment_loop concat]. rewrite one_chunk_app. destruct (one_chunk ss ns c) as [[[[s1 n1] es] b]|] eqn:C; [|reflexivity]. destruct b; [reflexivity|].
    destruct (one_chunk_length _ _ _ _ _ _ _ L C) as [L1 L2]. etransitivity; [apply (IH (Some (store (length ss) f es n1)) s1 n1 c'); lia|]. cbn [KfFileModel.alignment_loop]. destruct (one_chunk s1 n1 (c' ++ concat r)) as [[[[s2 n2] es'] b]|]; [|reflexivity].
    rewrite L1, store_store. reflexivity.
  Qed.
End Spec.

(** The file, the last state and the numbers of used tracks do not depend on the chunks of the tracks. *)
Theorem C139_chunks {D T F} par sigma place annealing fit update track_chi2 max_tracks f (ss : list D) ns (a b : list (list T)) : length ns = length ss -> a <> [] -> b <> [] -> concat a = concat b ->
  @alignment_loop D T F par sigma place annealing fit update track_chi2 max_tracks f ss ns a = alignment_loop par sigma place annealing fit update track_chi2 max_tracks f ss ns b.
Proof. intros L A B E. destruct a as [|c a]; [congruence|]. destruct b as [|d b]; [congruence|]. rewrite (chunks_join par sigma place annealing fit update track_chi2 max_tracks a), (chunks_join par sigma place annealing fit update track_chi2 max_tracks b) by exact L. now f_equal; f_equal. Qed.

(** Each table gets one row per track, in the order of the tracks, with the alignment in front of the track; chi2 and p-value of every track are stored; the tracks end where all numbers of used tracks are
    above max_tracks. What was in the file stays in front. *)
Theorem C139_file {D T F} par sigma place annealing fit update track_chi2 max_tracks f (ss : list D) (chunks : list (list T)) f' ss' ns' :
  ss <> [] -> chunks <> [] ->
  @alignment_loop D T F par sigma place annealing fit update track_chi2 max_tracks f ss (repeat 0 (length ss)) chunks = Some (f', ss', ns') ->
  exists g es, f' = Some g /\ tracks_done par sigma place annealing fit update track_chi2 max_tracks ss (repeat 0 (length ss)) (concat chunks) es ss' ns' /\
    length (f_tables g) = length ss /\
    (forall d, d < length ss -> exists rows, nth_error (f_tables g) d = Some (match f with Some o => nth d (f_tables o) [] | None => [] end ++ rows) /\ Forall2 (fun e r => nth_error (e_rows e) d = Some r) es rows) /\
    f_chi2 g = match f with Some o => f_chi2 o | None => [] end ++ map e_chi2 es /\ f_pvalue g = match f with Some o => f_pvalue o | None => [] end ++ map e_pvalue es /\ f_processed g = ns'.
Proof.
  intros S0 C0 E. destruct chunks as [|c r]; [congruence|]. set (n := length ss) in *. assert (L : length (repeat 0 n) = length ss) by (rewrite repeat_length; reflexivity).
  rewrite (chunks_join par sigma place annealing fit update track_chi2 max_tracks r) in E by exact L. cbn [alignment_loop] in E.
  destruct (one_chunk par sigma place annealing fit update track_chi2 max_tracks ss (repeat 0 n) (c ++ concat r)) as [[[[s1 n1] es] b]|] eqn:O; [|discriminate].
  assert (E' : f' = Some (store (length ss) f es n1) /\ ss' = s1 /\ ns' = n1) by (destruct b; injection E as <- <- <-; auto). destruct E' as (-> & -> & ->).
  assert (N : ~ Forall (fun m => max_tracks < m) (repeat 0 n)).
  { unfold n. destruct ss as [|s ss]; [congruence|]. cbn [length repeat]. intros X. inversion X. lia. }
  destruct (one_chunk_ok par sigma place annealing fit update track_chi2 max_tracks _ _ _ _ _ _ _ L N O) as (TD & _ & _ & _). exists (store (length ss) f es n1), es. split; [reflexivity|]. split; [exact TD|].
  fold n. unfold store. cbn [f_tables f_processed f_chi2 f_pvalue]. split; [now rewrite map_length, seq_length|]. split; [|destruct f; auto].
  intros d H. exists (of_dut d es). split.
  - rewrite nth_error_map, (nth_error_nth' (seq 0 n) 0) by (rewrite seq_length; exact H). rewrite seq_nth by exact H. cbn [option_map Nat.add]. f_equal. f_equal. destruct f as [o|]; [reflexivity|]. cbn [f_tables]. clear. revert d. induction n as [|n IH]; intros [|d]; cbn; auto.
  - destruct TD as (st & cn & A1 & A2 & _ & _ & A5 & A6 & _ & _). assert (G : forall k, k <= length es -> length (st k) = n).
    { induction k as [|k IH]; intros K; [rewrite A1; reflexivity|]. destruct (nth_error es k) as [e|] eqn:X; [|apply nth_error_None in X; lia]. destruct (nth_error (concat (c :: r)) k) as [t|] eqn:Y; [|apply nth_error_None in Y; cbn [concat] in *; lia].
      destruct (A6 k e t X Y) as (_ & Z & _). rewrite Z. apply IH. lia. }
    assert (Hr : forall e, In e es -> exists q, nth_error (e_rows e) d = Some q).
    { intros e I. apply In_nth_error in I. destruct I as [k X]. assert (K : k < length es) by (apply nth_error_Some; congruence). destruct (nth_error (concat (c :: r)) k) as [t|] eqn:Y; [|apply nth_error_None in Y; cbn [concat] in *; lia].
      destruct (A6 k e t X Y) as (_ & _ & _ & Z & _). rewrite (G k ltac:(lia)) in Z. destruct (nth_error (e_rows e) d) as [q|] eqn:Q; [eauto|]. apply nth_error_None in Q. lia. }
    clear - Hr. induction es as [|e es IH]; [constructor|]. cbn [of_dut flat_map]. destruct (Hr e (or_introl eq_refl)) as [q Q]. rewrite Q. cbn [app]. constructor; [exact Q|]. apply IH. intros e' I. apply Hr. right. exact I.
Qed.

(** * Pages *)
Lemma all_pages_ok l last : (snd (all_pages l last) = false <-> forall p, In p l -> snd p = false) /\ (snd (all_pages l last) = false -> fst (all_pages l last) = concat (map fst l) ++ last).
Proof.
  induction l as [|[p b] l [IH1 IH2]]; cbn [all_pages map concat fst]; [split; [split; [intros _ p []|reflexivity]|reflexivity]|]. destruct b.
  - cbn [snd]. split; [split; [discriminate|intros H; exact (H (p, true) (or_introl eq_refl))]|discriminate].
  - destruct (all_pages l last) as [q b]. cbn [fst snd] in *. split.
    + rewrite IH1. split; [intros H r [<-|I]; [reflexivity|auto]|intros H r I; apply H; right; exact I].
    + intros H. rewrite (IH2 H), app_assoc. reflexivity.
Qed.
Lemma numbers_in l x : In x (numbers l) <-> In (Some x) l.
Proof.
  unfold numbers. rewrite in_flat_map. split.
  - intros (y & I & H). destruct y as [y|]; [|destruct H]. destruct H as [<-|[]]. exact I.
  - intros I. exists (Some x). split; [exact I|now left].
Qed.
Lemma combine_map {A B C} (f : A -> B) (g : A -> C) l : combine (map f l) (map g l) = map (fun r => (f r, g r)) l.
Proof. induction l as [|r l IH]; cbn [map combine]; [reflexivity|]. now rewrite IH. Qed.
Lemma pages_of_ok j d t : (snd (pages_of j d t) = false <-> exists r v, In r t /\ nth j (r_delta r) None = Some v) /\ (snd (pages_of j d t) = false -> length (fst (pages_of j d t)) = 6 /\
  In (Values d j (map (fun r => (nth_error (r_place r) j, nth j (r_error r) None)) t)) (fst (pages_of j d t)) /\ In (Factors d (map r_factor t)) (fst (pages_of j d t)) /\
  exists ds, In (Deltas d j ds) (fst (pages_of j d t)) /\ In (DeltaHist d j ds) (fst (pages_of j d t)) /\ forall v, In v ds <-> exists r, In r t /\ nth j (r_delta r) None = Some v).
Proof.
  assert (M : forall v, In v (numbers (map (fun r => nth j (r_delta r) None) t)) <-> exists r, In r t /\ nth j (r_delta r) None = Some v).
  { intros v. rewrite numbers_in, in_map_iff. split; intros (r & A & B); eauto. }
  unfold pages_of. rewrite combine_map. destruct (map (fun r => nth_error (r_place r) j) t) as [|y0 yt] eqn:Ey.
  - apply map_eq_nil in Ey. subst t. cbn [fst snd]. split; [split; [discriminate|intros (r & v & [] & _)]|discriminate].
  - clear Ey. destruct (numbers (map (fun r => nth j (r_delta r) None) t)) as [|v0 vs]; cbn [fst snd].
    + split; [split; [discriminate|intros (r & v & I & V); exfalso; apply (M v); eauto]|discriminate].
    + split; [split; [intros _; destruct (proj1 (M v0) (or_introl eq_refl)) as (r & A & B); eauto|reflexivity]|]. intros _. split; [reflexivity|]. split; [left; reflexivity|]. split; [cbn [app In]; auto 8|].
      exists (v0 :: vs). split; [cbn [app In]; auto 8|]. split; [cbn [app In]; auto 8|]. exact M.
Qed.

(** Whether plots are asked for or not, the pages are made. They are complete if and only if each parameter of each DUT has a stored deviation; then there are 36 pages per DUT and four more, and the pages show the
    stored values and errors, the deviations which are not nan and the annealing factors of all rows, chi2, p-values and numbers of used tracks. *)
Theorem C139_pages plot g :
  let out := alignment_pages plot (Some g) in
  (snd out = false <-> forall d t j, nth_error (f_tables g) d = Some t -> j < 6 -> exists r v, In r t /\ nth j (r_delta r) None = Some v) /\
  (snd out = false -> length (fst out) = 36 * length (f_tables g) + 4 /\ In (Chi2Wide (f_chi2 g)) (fst out) /\ In (PValues (f_pvalue g)) (fst out) /\ In (Processed (f_processed g)) (fst out) /\
    forall d t j, nth_error (f_tables g) d = Some t -> j < 6 -> In (Values d j (map (fun r => (nth_error (r_place r) j, nth j (r_error r) None)) t)) (fst out) /\ In (Factors d (map r_factor t)) (fst out) /\
      exists ds, In (Deltas d j ds) (fst out) /\ In (DeltaHist d j ds) (fst out) /\ forall v, In v ds <-> exists r, In r t /\ nth j (r_delta r) None = Some v).
Proof.
  cbv zeta. unfold alignment_pages, plot_kf_alignment. set (l := flat_map _ _). set (last := [Chi2Wide _; _; _; _]). destruct (all_pages_ok l last) as [A B].
  assert (I : forall p, In p l <-> exists j d t, j < 6 /\ nth_error (f_tables g) d = Some t /\ p = pages_of j d t).
  { intros p. unfold l. rewrite in_flat_map. split.
    - intros (j & J & P). apply in_map_iff in P. destruct P as ([d t] & <- & P). apply in_seq in J. exists j, d, t. split; [lia|]. split; [|reflexivity]. clear - P. cbn [fst snd].
      assert (G : forall (l : list (list row)) a, In (d, t) (combine (seq a (length l)) l) -> a <= d /\ nth_error l (d - a) = Some t).
      { induction l as [|x l IH]; intros a; cbn [length seq combine In]; [intros []|]. intros [E|E]; [injection E as <- <-; rewrite Nat.sub_diag; auto|]. apply IH in E. destruct E as [L E]. split; [lia|]. replace (d - a) with (S (d - S a)) by lia. exact E. }
      apply G in P. rewrite Nat.sub_0_r in P. apply P.
    - intros (j & d & t & J & N & ->). exists j. split; [apply in_seq; lia|]. apply in_map_iff. exists (d, t). split; [reflexivity|]. clear - N. 
      assert (G : forall (l : list (list row)) a k, nth_error l k = Some t -> In (a + k, t) (combine (seq a (length l)) l)).
      { induction l as [|x l IH]; intros a [|k] E; try discriminate; cbn [length seq combine In nth_error] in *; [left; rewrite Nat.add_0_r; congruence|]. right. replace (a + S k) with (S a + k) by lia. apply IH, E. }
      apply (G (f_tables g) 0 d N). }
  split.
  - rewrite A. split.
    + intros H d t j N J. apply (proj1 (pages_of_ok j d t)). apply H, I. exists j, d, t. auto.
    + intros H p P. apply I in P. destruct P as (j & d & t & J & N & ->). apply (proj1 (pages_of_ok j d t)), (H d t j N J).
  - intros H. specialize (B H). rewrite A in H. rewrite B. split; [|split; [|split; [|split]]].
    + rewrite app_length. replace (length last) with 4 by reflexivity. f_equal. assert (C : forall m : list (list page * bool), (forall p, In p m -> length (fst p) = 6) -> length (concat (map fst m)) = 6 * length m).
      { induction m as [|p m IH]; intros G; cbn [map concat length]; [reflexivity|]. rewrite app_length, IH by (intros q Q; apply G; now right). rewrite (G p (or_introl eq_refl)). lia. }
      rewrite C; [unfold l; cbn [seq flat_map]; rewrite !app_length, !map_length, !combine_length, !seq_length, Nat.min_id; cbn [length]; lia|].
      intros p P. pose proof (H p P) as Hp. apply I in P. destruct P as (j & d & t & J & N & ->). apply (proj2 (pages_of_ok j d t) Hp).
    + apply in_or_app. right. left. reflexivity.
    + apply in_or_app. right. right. right. left. reflexivity.
    + apply in_or_app. right. right. right. right. left. reflexivity.
    + intros d t j N J. assert (P : In (pages_of j d t) l) by (apply I; exists j, d, t; auto). destruct (proj2 (pages_of_ok j d t) (H _ P)) as (_ & X & Y & ds & Z1 & Z2 & Z3).
      assert (K : forall q, In q (fst (pages_of j d t)) -> In q (concat (map fst l) ++ last)) by (intros q Q; apply in_or_app; left; apply in_concat; exists (fst (pages_of j d t)); split; [apply in_map; exact P|exact Q]).
      split; [auto|]. split; [auto|]. exists ds. auto.
Qed.

Lemma page_shown plot g d t j q : snd (alignment_pages plot (Some g)) = false -> nth_error (f_tables g) d = Some t -> j < 6 -> In q (fst (pages_of j d t)) -> In q (fst (alignment_pages plot (Some g))).
Proof.
  unfold alignment_pages, plot_kf_alignment. set (l := flat_map _ _). set (last := [Chi2Wide _; _; _; _]). destruct (all_pages_ok l last) as [A B]. intros H N J Q. rewrite (B H). apply in_or_app. left. apply in_concat. exists (fst (pages_of j d t)). split; [|exact Q]. apply in_map.
  unfold l. apply in_flat_map. exists j. split; [apply in_seq; lia|]. apply in_map_iff. exists (d, t). split; [reflexivity|]. clear - N.
  assert (G : forall (l : list (list row)) a k, nth_error l k = Some t -> In (a + k, t) (combine (seq a (length l)) l)).
  { induction l as [|x l IH]; intros a [|k] E; try discriminate; cbn [length seq combine In nth_error] in *; [left; rewrite Nat.add_0_r; congruence|]. right. replace (a + S k) with (S a + k) by lia. apply IH, E. }
  apply (G (f_tables g) 0 d N).
Qed.
(** The second page of a parameter shows for every row the stored value minus the value of the first row, the third the stored errors. *)
Theorem C139_changes plot g d t j : snd (alignment_pages plot (Some g)) = false -> nth_error (f_tables g) d = Some t -> j < 6 ->
  In (Errors d j (map (fun r => nth j (r_error r) None) t)) (fst (alignment_pages plot (Some g))) /\
  exists ys, In (Changes d j ys) (fst (alignment_pages plot (Some g))) /\ length ys = length t /\
    forall k r r0 a b, nth_error t k = Some r -> nth_error t 0 = Some r0 -> nth_error (r_place r) j = Some a -> nth_error (r_place r0) j = Some b -> nth_error ys k = Some (Some (a - b)%R).
Proof.
  intros H N J. assert (S : snd (pages_of j d t) = false). { apply (proj1 (pages_of_ok j d t)). exact (proj1 (proj1 (C139_pages plot g)) H d t j N J). } assert (P : forall q, In q (fst (pages_of j d t)) -> In q (fst (alignment_pages plot (Some g)))) by (intros q; apply page_shown; assumption).
  unfold pages_of in S, P. destruct t as [|r0 t]; [cbn in S; discriminate|]. cbn [map] in S, P. set (ds := numbers _) in *. destruct ds as [|v vs]; [discriminate S|]. split.
  - apply P. cbn [fst app In map]. auto.
  - eexists. split; [apply P; cbn [fst app In]; right; left; reflexivity|]. split; [cbn [length]; rewrite !map_length; reflexivity|]. intros k r r0' a b Hk H0 Ha Hb. injection H0 as <-.
    destruct k as [|k]; cbn [nth_error] in *; [injection Hk as <-; rewrite Hb in Ha; injection Ha as ->; rewrite Hb; reflexivity|]. rewrite map_map. rewrite nth_error_map, Hk. cbn [option_map]. rewrite Ha, Hb. reflexivity.
Qed.

(** Without any chunk of tracks there is no table, and the pages end with an exception before the first one. *)
Theorem C139_no_tracks {D T F} par sigma place annealing fit update track_chi2 max_tracks (ss : list D) ns plot : exists f',
  @alignment_loop D T F par sigma place annealing fit update track_chi2 max_tracks None ss ns [] = Some (f', ss, ns) /\ fst (alignment_pages plot f') = [] /\ snd (alignment_pages plot f') = true.
Proof. exists None. split; [reflexivity|]. split; reflexivity. Qed.

(** Without nan the pages of the first run are complete if and only if every DUT of the telescope (selected or not) has a track with accepted chi2 whose first five parameters change by at most 5 % of their errors. *)
Theorem C139_complete {D T F} (par sigma : D -> nat -> option R) place annealing fit update track_chi2 max_tracks (ss : list D) (chunks : list (list T)) f' ss' ns' plot :
  ss <> [] -> chunks <> [] -> (forall s j, par s j <> None /\ sigma s j <> None) ->
  @alignment_loop D T F par sigma place annealing fit update track_chi2 max_tracks None ss (repeat 0 (length ss)) chunks = Some (f', ss', ns') ->
  exists st cn es, done_with par sigma place annealing fit update track_chi2 max_tracks st cn ss (repeat 0 (length ss)) (concat chunks) es ss' ns' /\
    (snd (alignment_pages plot f') = false <->
     forall d, d < length ss -> exists k t c p g s s1, k < length es /\ nth_error (concat chunks) k = Some t /\ fit (st k) (map annealing (cn k)) t = Some (c, p, g) /\ (c <= track_chi2)%R /\
       nth_error (st k) d = Some s /\ update d (g d) s = Some s1 /\ forall j, j < 5 -> ~ too_large par sigma s s1 j).
Proof.
  intros S0 C0 NN E. destruct (C139_file par sigma place annealing fit update track_chi2 max_tracks None ss chunks f' ss' ns' S0 C0 E) as (g & es & -> & (st & cn & Dn) & Lg & Tb & _).
  exists st, cn, es. split; [exact Dn|]. rewrite (proj1 (C139_pages plot g)). destruct Dn as (A1 & A2 & _ & _ & A5 & A6 & _ & _).
  assert (Ls : forall k, k <= length es -> length (st k) = length ss /\ length (cn k) = length ss).
  { induction k as [|k IH]; intros K; [rewrite A1, A2, repeat_length; auto|]. destruct (nth_error es k) as [e|] eqn:X; [|apply nth_error_None in X; lia]. destruct (nth_error (concat chunks) k) as [t|] eqn:Y; [|apply nth_error_None in Y; lia].
    destruct (A6 k e t X Y) as (_ & Z1 & Z2 & _). destruct (IH ltac:(lia)). split; congruence. }
  assert (Row : forall d k e, d < length ss -> nth_error es k = Some e -> exists t r s n s' n', nth_error (concat chunks) k = Some t /\ nth_error (e_rows e) d = Some r /\ nth_error (st k) d = Some s /\
     dut_step par sigma place annealing update track_chi2 d (fit (st k) (map annealing (cn k)) t) s n r s' n').
  { intros d k e H X. assert (K : k < length es) by (apply nth_error_Some; congruence). destruct (nth_error (concat chunks) k) as [t|] eqn:Y; [|apply nth_error_None in Y; lia]. destruct (A6 k e t X Y) as (_ & Z1 & Z2 & Z3 & Z). destruct (Ls k ltac:(lia)) as [L1 L2].
    destruct (nth_error (e_rows e) d) as [r|] eqn:W1; [|apply nth_error_None in W1; lia]. destruct (nth_error (st k) d) as [s|] eqn:W2; [|apply nth_error_None in W2; lia]. destruct (nth_error (cn k) d) as [n|] eqn:W3; [|apply nth_error_None in W3; lia].
    destruct (nth_error (st (S k)) d) as [s'|] eqn:W4; [|apply nth_error_None in W4; lia]. destruct (nth_error (cn (S k)) d) as [n'|] eqn:W5; [|apply nth_error_None in W5; lia]. exists t, r, s, n, s', n'. eauto 10. }
  assert (Nz : forall s s1 j x, is_delta par sigma s s1 j x -> x <> None).
  { intros s s1 j x X ->. cbn [is_delta] in X. destruct (NN s j), (NN s1 j). intuition. }
  assert (Fa : forall d rows, Forall2 (fun e r => nth_error (e_rows e) d = Some r) es rows -> forall r, In r rows <-> exists k e, nth_error es k = Some e /\ nth_error (e_rows e) d = Some r).
  { clear. intros d rows H. induction H as [|e r es rows X H IH]; intros q; [split; [intros []|intros ([|k] & e & A & _); discriminate A]|]. split.
    - intros [<-|I]; [exists 0, e; auto|]. apply IH in I. destruct I as (k & e' & A & B). exists (S k), e'. auto.
    - intros ([|k] & e' & A & B); [injection A as <-; left; congruence|]. right. apply IH. eauto. }
  split.
  - intros H d Ld. destruct (Tb d Ld) as (rows & N & F2). cbn [app] in N. destruct (H d rows 5 N ltac:(lia)) as (r & v & I & V). apply (Fa d rows F2) in I. destruct I as (k & e & X & Y). assert (K : k < length es) by (apply nth_error_Some; congruence).
    destruct (Row d k e Ld X) as (t & r' & s & n & s' & n' & T1 & T2 & T3 & St). rewrite Y in T2. injection T2 as <-. unfold dut_step in St. destruct St as (_ & _ & _ & _ & St). destruct (fit (st k) (map annealing (cn k)) t) as [[[c p] u]|] eqn:Ft.
    + destruct St as [Sa Sb]. destruct (Rlt_dec track_chi2 c) as [Hc|Hc]; [destruct (Sa Hc) as (_ & _ & Sn); rewrite Sn in V; discriminate|]. destruct (Sb ltac:(lra)) as (s1 & U & Dl & _). exists k, t, c, p, u, s, s1. repeat split; auto; try lra.
      intros j J TL. destruct (Dl 5 ltac:(lia)) as [Dn _]. rewrite Dn in V by eauto. discriminate.
    + destruct St as (_ & _ & Sn). rewrite Sn in V. discriminate.
  - intros H d rows j N J. assert (Ld : d < length ss) by (rewrite <- Lg; apply nth_error_Some; congruence). destruct (H d Ld) as (k & t & c & p & u & s & s1 & K & Y & Ft & Hc & Sk & U & NT). destruct (Tb d Ld) as (rows' & N' & F2). cbn [app] in N'. rewrite N in N'. injection N' as <-.
    destruct (nth_error es k) as [e|] eqn:X; [|apply nth_error_None in X; lia]. destruct (Row d k e Ld X) as (t' & r & s0 & n & s' & n' & T1 & T2 & T3 & St). rewrite Y in T1. injection T1 as <-. rewrite Sk in T3. injection T3 as <-.
    unfold dut_step in St. destruct St as (_ & _ & _ & _ & St). rewrite Ft in St. destruct St as [_ Sb]. destruct (Sb Hc) as (s2 & U2 & Dl & _). rewrite U in U2. injection U2 as <-. destruct (Dl j J) as [_ D2].
    destruct (nth j (r_delta r) None) as [v|] eqn:V; [exists r, v; split; [apply (Fa d rows F2); eauto|exact V]|]. exfalso. apply (Nz s s1 j None); [|reflexivity]. apply D2. intros i I. apply NT. lia.
Qed.

(** Desired: the chi2 of a track whose fit fails is not in the file. False: it is stored as 0 (and so is its p-value); if all fits fail the pages end with an exception. *)
Theorem C139_failed_fit_refuted {D T F} (par sigma : D -> nat -> option R) place annealing (fit : list D -> list R -> T -> option (R * R * (nat -> F))) update track_chi2 max_tracks ss ts f' ss' ns' plot :
  (forall a b t, fit a b t = None) -> ss <> [] -> alignment_loop par sigma place annealing fit update track_chi2 max_tracks None ss (repeat 0 (length ss)) [ts] = Some (f', ss', ns') ->
  (exists g, f' = Some g /\ f_chi2 g = repeat 0%R (length ts) /\ f_pvalue g = repeat 0%R (length ts)) /\ snd (alignment_pages plot f') = true.
Proof.
  intros Ff S0 E. destruct (C139_file par sigma place annealing fit update track_chi2 max_tracks None ss [ts] f' ss' ns' S0 ltac:(discriminate) E) as (g & es & -> & (st & cn & Dn) & Lg & Tb & C & P & _).
  destruct Dn as (A1 & A2 & _ & A4 & A5 & A6 & A7 & _). cbn [concat] in *. rewrite app_nil_r in *. cbn [app] in *.
  assert (Ss : forall k, k <= length es -> st k = ss /\ cn k = repeat 0 (length ss)).
  { induction k as [|k IH]; intros K; [auto|]. destruct (nth_error es k) as [e|] eqn:X; [|apply nth_error_None in X; lia]. destruct (nth_error ts k) as [t|] eqn:Y; [|apply nth_error_None in Y; lia]. destruct (IH ltac:(lia)) as [I1 I2].
    destruct (A6 k e t X Y) as (_ & Z1 & Z2 & Z3 & Z). rewrite I1 in *. rewrite I2 in *. rewrite Ff in Z. assert (Q : forall d, d < length ss -> nth_error (st (S k)) d = nth_error ss d /\ nth_error (cn (S k)) d = nth_error (repeat 0 (length ss)) d).
    { intros d H. destruct (nth_error ss d) as [s|] eqn:W1; [|apply nth_error_None in W1; lia]. destruct (nth_error (repeat 0 (length ss)) d) as [n|] eqn:W2; [|apply nth_error_None in W2; rewrite repeat_length in W2; lia].
      destruct (nth_error (st (S k)) d) as [s'|] eqn:W3; [|apply nth_error_None in W3; lia]. destruct (nth_error (cn (S k)) d) as [n'|] eqn:W4; [|apply nth_error_None in W4; lia]. destruct (nth_error (e_rows e) d) as [r|] eqn:W5; [|apply nth_error_None in W5; lia].
      destruct (Z d s n s' n' r W1 W2 W3 W4 W5) as (_ & _ & _ & _ & -> & -> & _). auto. }
    assert (Ex : forall {A} (l m : list A), length l = length m -> (forall d, d < length m -> nth_error l d = nth_error m d) -> l = m).
    { clear. intros A l. induction l as [|a l IH]; intros [|b m] L H; try discriminate; [reflexivity|]. pose proof (H 0 ltac:(cbn; lia)) as H0. injection H0 as ->. f_equal. apply IH; [cbn in L; lia|]. intros d K. apply (H (S d)). cbn. lia. }
    split; apply Ex; [exact Z1|intros d H; apply Q, H|rewrite repeat_length; exact Z2|intros d H; rewrite repeat_length in H; apply Q, H]. }
  assert (Le : length es = length ts).
  { destruct (Nat.eq_dec (length es) (length ts)) as [|Ne]; [assumption|]. assert (H := A7 ltac:(lia)). rewrite <- A4, (proj2 (Ss (length es) (le_n _))) in H. destruct ss; [congruence|]. cbn in H. inversion H. lia. }
  assert (V : forall k e, nth_error es k = Some e -> e_chi2 e = 0%R /\ e_pvalue e = 0%R).
  { intros k e X. assert (K : k < length es) by (apply nth_error_Some; congruence). destruct (nth_error ts k) as [t|] eqn:Y; [|apply nth_error_None in Y; lia]. destruct (A6 k e t X Y) as (Z & _). rewrite Ff in Z. injection Z as -> ->. auto. }
  split.
  - exists g. split; [reflexivity|]. rewrite C, P, <- Le. clear - V. split.
    + induction es as [|e es IH]; [reflexivity|]. cbn. rewrite (proj1 (V 0 e eq_refl)). f_equal. apply IH. intros k e' X. apply (V (S k) e' X).
    + induction es as [|e es IH]; [reflexivity|]. cbn. rewrite (proj2 (V 0 e eq_refl)). f_equal. apply IH. intros k e' X. apply (V (S k) e' X).
  - destruct (snd (alignment_pages plot (Some g))) eqn:Sn; [reflexivity|]. exfalso. apply (proj1 (C139_pages plot g)) with (d := 0) (j := 0) (t := nth 0 (f_tables g) []) in Sn; [|apply nth_error_nth'; rewrite Lg; destruct ss; [congruence|cbn; lia]|lia].
    destruct Sn as (r & v & I & X). assert (L0 : 0 < length ss) by (destruct ss; [congruence|cbn; lia]). destruct (Tb 0 L0) as (rows & N & F2). rewrite (nth_error_nth _ _ [] N) in I.
    assert (Q : exists k e, nth_error es k = Some e /\ nth_error (e_rows e) 0 = Some r).
    { clear - F2 I. induction F2 as [|e q es rows Y H IH]; [destruct I|]. destruct I as [<-|I]; [exists 0, e; auto|]. destruct (IH I) as (k & e' & A & B). exists (S k), e'. auto. }
    destruct Q as (k & e & Y & W). assert (K : k < length es) by (apply nth_error_Some; congruence). destruct (nth_error ts k) as [t|] eqn:Z; [|apply nth_error_None in Z; lia]. destruct (A6 k e t Y Z) as (_ & Z1 & Z2 & Z3 & G). destruct (Ss k ltac:(lia)) as [I1 I2]. destruct (Ss (S k) ltac:(lia)) as [I3 I4].
    rewrite I1, I2, I3, I4, Ff in G. destruct ss as [|s ss]; [congruence|]. destruct (G 0 s 0 s 0 r eq_refl eq_refl eq_refl eq_refl W) as (_ & _ & _ & _ & _ & _ & Nn). rewrite Nn in X. discriminate.
Qed.

(** a small alignment: one parameter with error 100, which a track changes by [by] *)
Definition toy_loop (by_ : R) (tracks : list unit) : option (option file * list R * list nat) :=
  alignment_loop (D := R) (T := unit) (F := unit) (fun s j => Some (if j =? 0 then s else 0%R)) (fun _ _ => Some 100%R) (fun _ s => Some [s; 0; 0; 0; 0; 0]%R) (fun _ => 1%R)
    (fun _ _ _ => Some (1, 1, fun _ => tt)%R) (fun _ _ s => Some (s + by_)%R) 10 100 None [0%R] [0] [tracks].
Lemma toy_track by_ : (Rabs by_ <= 5)%R -> toy_loop by_ [tt] = Some (Some (File [[Row [0; 0; 0; 0; 0; 0]%R (repeat (Some 100%R) 6) (Some (Rabs by_ / 100)%R :: repeat (Some 0%R) 5) 1%R]] [1] [1%R] [1%R]), [0 + by_]%R, [1]).
Proof.
  intros H. unfold toy_loop. cbn [alignment_loop one_chunk]. unfold one_track. cbn [all_values first_values fst snd map seq update_all length]. destruct (Rlt_dec 10 1) as [C|_]; [lra|].
  cbn [deltas]. unfold exceeds, delta, change. cbn [Nat.eqb]. destruct (Req_EM_T 100 0) as [C|_]; [lra|]. rewrite !Rminus_0_r. rewrite (f_equal Rabs (Rplus_0_l by_)). rewrite !Rabs_R0. replace (0 / 100)%R with 0%R by field.
  destruct (Rlt_dec (5 / 100 * 100) (Rabs by_)) as [C|_]; [exfalso; lra|]. destruct (Rlt_dec (5 / 100 * 100) 0) as [C|_]; [exfalso; lra|]. reflexivity.
Qed.
(** Desired: the file tells the result of the alignment. False: what the last track changes is not in the file; two different results have the same file. *)
Theorem C139_last_refuted : exists g a b, a <> b /\ toy_loop 1 [tt] = Some (Some g, [a], [1]) /\ toy_loop (-1) [tt] = Some (Some g, [b], [1]).
Proof.
  eexists _, (0 + 1)%R, (0 + -1)%R. split; [lra|]. assert (A : Rabs (-1) = 1%R) by (rewrite Rabs_left; lra). assert (B : Rabs 1 = 1%R) by apply Rabs_R1. rewrite (toy_track 1), (toy_track (-1)) by (rewrite ?A, ?B; lra). rewrite A, B. split; reflexivity.
Qed.
(** the pages of this alignment are complete *)
Example C139_case : exists g, toy_loop 1 [tt] = Some (Some g, [0 + 1]%R, [1]) /\ snd (alignment_pages false (Some g)) = false /\ length (fst (alignment_pages false (Some g))) = 40.
Proof.
  eexists. split; [apply toy_track; rewrite Rabs_R1; lra|]. split; reflexivity.
Qed.

Print Assumptions C139_chunks.
Print Assumptions C139_file.
Print Assumptions C139_pages.
Print Assumptions C139_changes.
Print Assumptions C139_no_tracks.
Print Assumptions C139_complete.
Print Assumptions C139_failed_fit_refuted.
Print Assumptions C139_last_refuted.
