(** C153: names of the files of the converters. *)
From Coq Require Import Ascii String Decimal DecimalString DecimalNat.
From Coq Require Import List Bool Arith Lia Permutation FinFun.
From Verif Require Import FileNamesModel FileNamesProps ConverterNamesModel.
Import ListNotations.
Local Open Scope nat_scope.

(** ** Specification *)
(** the order of names: equal, a start of the other, or smaller at the first difference *)
Definition before (a b : path) : Prop := (exists r, b = a ++ r) \/ exists c x y r s, a = c ++ x :: r /\ b = c ++ y :: s /\ nat_of_ascii x < nat_of_ascii y.

(** ** Proofs *)
Lemma decimal_inj m n : decimal m = decimal n -> m = n.
Proof.
  intros H. unfold decimal in H. apply (f_equal string_of_list_ascii) in H. rewrite !string_of_list_ascii_of_string in H. apply (f_equal NilEmpty.uint_of_string) in H. rewrite !NilEmpty.usu in H. injection H as H. apply (f_equal Nat.of_uint) in H. rewrite !Unsigned.of_to in H. exact H.
Qed.
Lemma decimal_digits n c : In c (decimal n) -> 48 <= nat_of_ascii c <= 57.
Proof.
  unfold decimal. generalize (Nat.to_uint n). intros u. induction u; cbn [NilEmpty.string_of_uint list_ascii_of_string In]; [intros []|..]; intros [<-|I]; auto; cbn; lia.
Qed.
Lemma header_split p n : splitext (header_output p n) = (fst (splitext p) ++ list_ascii_of_string "_header_id_" ++ decimal n, dot :: list_ascii_of_string "h5").
Proof.
  unfold header_output. destruct (parts (fst (splitext p))) as (d & r & D & Q & N). rewrite Q.
  replace ((d ++ r) ++ list_ascii_of_string "_header_id_" ++ decimal n ++ dot :: list_ascii_of_string "h5") with (d ++ (r ++ list_ascii_of_string "_header_id_" ++ decimal n) ++ dot :: list_ascii_of_string "h5") by (rewrite <- !app_assoc; reflexivity).
  rewrite (split_found d (r ++ list_ascii_of_string "_header_id_" ++ decimal n)); [rewrite <- !app_assoc; reflexivity|exact D| | | |].
  - intros I. apply in_app_or in I. destruct I as [I|I]; [exact (N I)|]. apply in_app_or in I. destruct I as [I|I]; [|apply decimal_digits in I; cbn in I; lia]. cbn in I. repeat (destruct I as [I|I]; [discriminate I|]). exact I.
  - intros I. cbn in I. repeat (destruct I as [I|I]; [discriminate I|]). exact I.
  - intros I. cbn in I. repeat (destruct I as [I|I]; [discriminate I|]). exact I.
  - exists "_"%char. split; [|discriminate]. apply in_or_app. right. left. reflexivity.
Qed.
(** Without given names there is a file for each plane, with its header ID in the name; different IDs have different files and none of them is the input. *)
Theorem C153_planes p ids : exists l, plane_outputs p [] ids = Some l /\ length l = length ids /\
  (forall i n, nth_error ids i = Some n -> exists q, nth_error l i = Some q /\ splitext q = (fst (splitext p) ++ list_ascii_of_string "_header_id_" ++ decimal n, list_ascii_of_string ".h5") /\ q <> p) /\ (NoDup ids <-> NoDup l).
Proof.
  exists (map (header_output p) ids). split; [reflexivity|]. split; [apply map_length|]. split.
  - intros i n H. exists (header_output p n). split; [rewrite nth_error_map, H; reflexivity|]. rewrite header_split. split; [reflexivity|]. intros E. assert (S := header_split p n). rewrite E in S. apply (f_equal fst), (f_equal (@length ascii)) in S. cbn [fst] in S. rewrite !app_length in S. cbn in S. lia.
  - split; [|apply NoDup_map_inv]. apply Injective_map_NoDup. intros m n E. unfold header_output in E. apply app_inv_head, app_inv_head, app_inv_tail in E. apply decimal_inj. exact E.
Qed.
(** Given names are used as they are if there is one for each header ID, otherwise they are rejected. *)
Theorem C153_given p given ids : given <> [] -> (length given = length ids -> plane_outputs p given ids = Some given) /\ (length given <> length ids -> plane_outputs p given ids = None).
Proof.
  intros N. unfold plane_outputs. destruct given as [|g r]; [contradiction|]. split; intros L; [rewrite L, Nat.eqb_refl; reflexivity|]. rewrite (proj2 (Nat.eqb_neq _ _) L). reflexivity.
Qed.
Lemma nat_of_ascii_inj a b : nat_of_ascii a = nat_of_ascii b -> a = b.
Proof. intros H. rewrite <- (ascii_nat_embedding a), <- (ascii_nat_embedding b), H. reflexivity. Qed.
Lemma not_after_before a b : not_after a b = true <-> before a b.
Proof.
  revert b. induction a as [|x a IH]; intros b; cbn [not_after].
  - split; [intros _; left; exists b; reflexivity|reflexivity].
  - destruct b as [|y b].
    + split; [discriminate|]. intros [(r & E)|(c & u & v & r & s & _ & E & _)]; [discriminate|destruct c; discriminate].
    + destruct (Ascii.eqb_spec x y) as [->|D].
      * rewrite IH. split.
        -- intros [(r & ->)|(c & u & v & r & s & -> & -> & L)]; [left; exists r; reflexivity|right; exists (y :: c), u, v, r, s; auto].
        -- intros [(r & E)|(c & u & v & r & s & E & F & L)]; [injection E as ->; left; exists r; reflexivity|]. destruct c as [|z c]; cbn [app] in E, F; inversion E; inversion F; subst; [lia|]. right. exists c, u, v, r, s. auto.
      * rewrite Nat.ltb_lt. split.
        -- intros L. right. exists [], x, y, a, b. auto.
        -- intros [(r & E)|(c & u & v & r & s & E & F & L)]; [injection E as E _; congruence|]. destruct c as [|z c]; cbn [app] in E, F; inversion E; inversion F; subst; [exact L|congruence].
Qed.
Lemma not_after_refl a : not_after a a = true.
Proof. apply not_after_before. left. exists []. symmetry. apply app_nil_r. Qed.
Lemma not_after_total a b : not_after a b = false -> not_after b a = true.
Proof.
  revert b. induction a as [|x a IH]; intros [|y b]; cbn [not_after]; try discriminate; try reflexivity. rewrite (Ascii.eqb_sym y x). destruct (Ascii.eqb_spec x y) as [->|D]; [apply IH|]. rewrite Nat.ltb_ge, Nat.ltb_lt. intros L.
  destruct (Nat.eq_dec (nat_of_ascii x) (nat_of_ascii y)) as [E|E]; [apply nat_of_ascii_inj in E; contradiction|lia].
Qed.
Lemma not_after_trans a b c : not_after a b = true -> not_after b c = true -> not_after a c = true.
Proof.
  revert b c. induction a as [|x a IH]; intros [|y b] [|z c]; cbn [not_after]; try discriminate; try reflexivity.
  destruct (Ascii.eqb_spec x y) as [->|D1], (Ascii.eqb_spec y z) as [->|D2]; rewrite ?Ascii.eqb_refl.
  - apply IH.
  - destruct (Ascii.eqb_spec y z); [contradiction|]. auto.
  - destruct (Ascii.eqb_spec x z); [contradiction|]. auto.
  - rewrite !Nat.ltb_lt. intros L1 L2. destruct (Ascii.eqb_spec x z) as [->|]; [lia|]. apply Nat.ltb_lt. lia.
Qed.
Lemma not_after_antisym a b : not_after a b = true -> not_after b a = true -> a = b.
Proof.
  revert b. induction a as [|x a IH]; intros [|y b]; cbn [not_after]; try discriminate; try reflexivity. rewrite (Ascii.eqb_sym y x). destruct (Ascii.eqb_spec x y) as [->|D]; [intros H1 H2; f_equal; apply IH; assumption|]. rewrite !Nat.ltb_lt. lia.
Qed.
Lemma smallest_spec l : forall p q, fold_left (fun a b => if not_after a b then a else b) l p = q -> In q (p :: l) /\ forall r, In r (p :: l) -> not_after q r = true.
Proof.
  induction l as [|b l IH]; intros p q; cbn [fold_left].
  - intros <-. split; [left; reflexivity|]. intros r [<-|[]]. apply not_after_refl.
  - intros E. apply IH in E. destruct E as (I & M). destruct (not_after p b) eqn:C.
    + split; [destruct I as [I|I]; [left; exact I|right; right; exact I]|]. intros r [<-|[<-|J]]; [apply M; left; reflexivity| |apply M; right; exact J]. apply (not_after_trans q p); [apply M; left; reflexivity|exact C].
    + split; [right; exact I|]. intros r [<-|J]; [|apply M; exact J]. apply (not_after_trans q b); [apply M; left; reflexivity|apply not_after_total; exact C].
Qed.
(** Of a list of raw data files the first name in the order of characters is taken, whatever the order of the list; an empty list is an IndexError. *)
Theorem C153_first l : (l = [] <-> first_sorted l = None) /\ (forall q, first_sorted l = Some q <-> In q l /\ forall r, In r l -> before q r) /\ (forall m, Permutation l m -> first_sorted l = first_sorted m).
Proof.
  assert (U : forall l, l = [] <-> first_sorted l = None) by (intros [|p r]; split; intros E; try discriminate; reflexivity).
  assert (V : forall l q, first_sorted l = Some q <-> In q l /\ forall r, In r l -> before q r).
  { clear l. intros [|p l] q; [split; [discriminate|intros ([] & _)]|]. unfold first_sorted. split.
    - intros E. apply (f_equal (fun o => match o with Some x => x | None => q end)) in E. apply smallest_spec in E. destruct E as (I & M). split; [exact I|]. intros r J. apply not_after_before, M, J.
    - intros (I & M). f_equal. destruct (smallest_spec l p _ eq_refl) as (I' & M'). apply not_after_antisym; [apply M'; exact I|apply not_after_before, M; exact I']. }
  split; [apply U|]. split; [apply V|]. intros m P. destruct (first_sorted m) as [q|] eqn:E.
  - apply V in E. apply V. destruct E as (I & M). split; [apply (Permutation_in _ (Permutation_sym P)), I|]. intros r J. apply M. apply (Permutation_in _ P), J.
  - apply U in E. subst m. apply U. apply Permutation_sym, Permutation_nil in P. exact P.
Qed.
(** process_dut reads the interpreted file of this name and returns the given output name or the name of the interpreted file with the ending of the format. *)
Theorem C153_process raw output p : (match raw with OneFile q => q = p | Files l => In p l /\ forall r, In r l -> before p r end) ->
  interpreted_file raw = Some (fst (splitext p) ++ list_ascii_of_string "_interpreted.h5") /\
  process_dut_output raw output = Some match output with Some o => o | None => fst (splitext p) ++ list_ascii_of_string "_interpreted_formatted_fei4.h5" end.
Proof.
  intros H. assert (I : interpreted_file raw = Some (fst (splitext p) ++ list_ascii_of_string "_interpreted.h5")).
  { unfold interpreted_file. destruct raw as [q|l]; [rewrite H; reflexivity|]. rewrite (proj2 (proj1 (proj2 (C153_first l)) p) H). reflexivity. }
  split; [exact I|]. unfold process_dut_output. rewrite I. destruct output; [reflexivity|]. unfold default_output. destruct (parts (fst (splitext p))) as (d & n & D & Q & N). rewrite Q.
  replace ((d ++ n) ++ list_ascii_of_string "_interpreted.h5") with (d ++ (n ++ list_ascii_of_string "_interpreted") ++ dot :: list_ascii_of_string "h5") by (rewrite <- !app_assoc; reflexivity). rewrite split_found.
  - cbn [fst]. rewrite <- !app_assoc. reflexivity.
  - exact D.
  - intros J. apply in_app_or in J. destruct J as [J|J]; [exact (N J)|]. cbn in J. repeat (destruct J as [J|J]; [discriminate J|]). exact J.
  - intros J. cbn in J. repeat (destruct J as [J|J]; [discriminate J|]). exact J.
  - intros J. cbn in J. repeat (destruct J as [J|J]; [discriminate J|]). exact J.
  - exists "_"%char. split; [apply in_or_app; right; left; reflexivity|discriminate].
Qed.
(** "The name with the lowest index is taken" (comment of L45) is false: of the files 9 and 10 it is that of 10. *)
Theorem C153_lowest_index_refuted root : let file n := root ++ decimal n ++ list_ascii_of_string ".h5" in first_sorted [file 9; file 10] = Some (file 10) /\ first_sorted [file 8; file 9] = Some (file 8).
Proof.
  cbv zeta. assert (G : forall a b, not_after (root ++ a) (root ++ b) = not_after a b) by (intros a b; induction root as [|x r IH]; [reflexivity|cbn [app not_after]; rewrite Ascii.eqb_refl; exact IH]).
  unfold first_sorted. cbn [fold_left]. rewrite !G. split; reflexivity.
Qed.

(** Non-vacuity: the six planes of a telescope, and two raw data files. *)
Example C153_case : let s := list_ascii_of_string in option_map (map string_of_list_ascii) (plane_outputs (s "d/run_5_interpreted.h5"%string) [] [1; 2; 16]) = Some ["d/run_5_interpreted_header_id_1.h5"; "d/run_5_interpreted_header_id_2.h5"; "d/run_5_interpreted_header_id_16.h5"]%string /\
  option_map string_of_list_ascii (process_dut_output (Files [s "run_10.h5"; s "run_9.h5"]%string) None) = Some "run_10_interpreted_formatted_fei4.h5"%string.
Proof. split; reflexivity. Qed.

(** the number which is written with decimal digits *)
Definition value (p : path) : nat := fold_left (fun acc c => 10 * acc + (nat_of_ascii c - 48)) p 0.
Lemma value_uint u : forall acc, fold_left (fun acc c => 10 * acc + (nat_of_ascii c - 48)) (list_ascii_of_string (NilEmpty.string_of_uint u)) acc = Nat.of_uint_acc u acc.
Proof.
  induction u as [|u IH|u IH|u IH|u IH|u IH|u IH|u IH|u IH|u IH|u IH]; intros acc; [reflexivity|..];
  cbn [NilEmpty.string_of_uint list_ascii_of_string fold_left Nat.of_uint_acc]; rewrite IH, Nat.tail_mul_spec; f_equal; match goal with |- _ + (?a - 48) = _ => let v := eval vm_compute in (a - 48) in change (a - 48) with v end; lia.
Qed.
Lemma nzhead_first u v : nzhead u <> D0 v.
Proof. induction u; cbn [nzhead]; try discriminate. exact IHu. Qed.
(** The number in a name is the header ID in decimal digits, without leading zeros. *)
Theorem C153_number n : value (decimal n) = n /\ decimal n <> [] /\ (forall c, In c (decimal n) -> 48 <= nat_of_ascii c <= 57) /\ (forall r, decimal n = "0"%char :: r -> r = [] /\ n = 0).
Proof.
  assert (U : unorm (Nat.to_uint n) = Nat.to_uint n) by (rewrite <- Unsigned.to_of, Unsigned.of_to; reflexivity).
  split; [unfold value, decimal; rewrite value_uint; exact (Unsigned.of_to n)|]. split; [|split; [intros c I; exact (decimal_digits n c I)|]].
  - unfold decimal. rewrite <- U. unfold unorm. destruct (nzhead (Nat.to_uint n)); cbn; discriminate.
  - intros r E. assert (V : value (decimal n) = n) by (unfold value, decimal; rewrite value_uint; exact (Unsigned.of_to n)). unfold decimal in E, V. rewrite <- U in E, V. unfold unorm in E, V. destruct (nzhead (Nat.to_uint n)) eqn:Z; cbn in E; try discriminate E; [|exfalso; exact (nzhead_first _ _ Z)]. injection E as <-. cbn in V. split; [reflexivity|symmetry; exact V].
Qed.

Print Assumptions C153_planes.
Print Assumptions C153_given.
Print Assumptions C153_first.
Print Assumptions C153_process.
Print Assumptions C153_lowest_index_refuted.
Print Assumptions C153_number.
