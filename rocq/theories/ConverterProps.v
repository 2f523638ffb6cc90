(* C46: the formatted hit tables have all hits in the same order with non-decreasing event numbers, or the data is rejected. *)
From Coq Require Import List Arith ZArith Lia Bool.
From Verif Require Import ConverterModel.
Import ListNotations.
Local Open Scope Z_scope.

(** * Specification: all event numbers are at least [last] and do not decrease. *)
Fixpoint ordered_from (last : Z) (events : list Z) : Prop := match events with [] => True | e :: events => last <= e /\ ordered_from e events end.
(** Row of the output for each row of the input which belongs to the table, in the same order. *)
Inductive copied (f : raw_hit -> out_hit) (sel : raw_hit -> Prop) : list raw_hit -> list out_hit -> Prop :=
| copied_nil : copied f sel [] []
| copied_yes h hs os : sel h -> copied f sel hs os -> copied f sel (h :: hs) (f h :: os)
| copied_no h hs os : ~ sel h -> copied f sel hs os -> copied f sel (h :: hs) os.

Lemma decreases_spec last events : decreases last events = false <-> ordered_from last events.
Proof. revert last. induction events as [|e es IH]; intros last; cbn; [tauto|]. rewrite orb_false_iff, Z.ltb_ge, IH. split; intros [A B]; split; auto; lia. Qed.
Lemma last_cons (es : list Z) : forall e l, List.last (e :: es) l = List.last es e.
Proof. induction es as [|a es IH]; intros e l; [reflexivity|]. change (List.last (e :: a :: es) l) with (List.last (a :: es) l). now rewrite !IH. Qed.
Lemma last_app (es fs : list Z) l : List.last (es ++ fs) l = List.last fs (List.last es l).
Proof. revert l. induction es as [|e es IH]; intros l; [reflexivity|]. cbn [app]. now rewrite !last_cons, IH. Qed.
Lemma ordered_app last es fs : ordered_from last (es ++ fs) <-> ordered_from last es /\ ordered_from (List.last es last) fs.
Proof.
  revert last. induction es as [|e es IH]; intros l; cbn [app ordered_from]; [cbn; tauto|]. rewrite IH.
  rewrite last_cons. tauto.
Qed.

Section Format.
  Variable tables : list ((raw_hit -> bool) * (raw_hit -> out_hit)).
  Definition formatted (hits : list raw_hit) : list (list out_hit) := map (fun t => map (snd t) (filter (fst t) hits)) tables.
  Lemma append_formatted hits chunk : append tables (formatted hits) chunk = formatted (hits ++ chunk).
  Proof using.
    unfold append, formatted. induction tables as [|t ts IH]; [reflexivity|]. cbn [map combine]. rewrite IH. cbn [fst snd]. f_equal. now rewrite filter_app, map_app.
  Qed.
  Lemma loop_spec size fuel : (0 < size)%nat -> forall done rest, (length rest <= fuel)%nat -> ordered_from 0 (map w_event done) ->
    let r := format_loop tables fuel size (List.last (map w_event done) 0) rest (formatted done) in
    exists k, (k <= length rest)%nat /\ snd r = formatted (done ++ firstn k rest) /\ ordered_from 0 (map w_event (done ++ firstn k rest)) /\
    (fst r = Ok -> k = length rest) /\ (fst r = Raised -> ~ ordered_from 0 (map w_event (done ++ firstn (k + size) rest))).
  Proof using.
    intros Hs. induction fuel as [|fuel IH]; intros dn rest L O r.
    - destruct rest; [|cbn in L; lia]. exists 0%nat. cbn. rewrite app_nil_r. repeat split; auto; discriminate.
    - destruct rest as [|h rest]; [exists 0%nat; cbn; rewrite app_nil_r; repeat split; auto; discriminate|]. unfold r. clear r. cbn [format_loop].
      set (hits := h :: rest) in *. set (chunk := firstn size hits).
      assert (Lc : (0 < length chunk <= size)%nat). { unfold chunk. rewrite firstn_length. cbn [hits length]. lia. }
      assert (Eh : hits = chunk ++ skipn size hits) by (symmetry; apply firstn_skipn).
      destruct (decreases _ _) eqn:D.
      + exists 0%nat. cbn [firstn fst snd Nat.add]. rewrite app_nil_r. split; [lia|]. split; [reflexivity|]. split; [assumption|]. split; [discriminate|].
        intros _ X. fold chunk in X. rewrite map_app, ordered_app in X. destruct X as [_ X]. apply decreases_spec in X. congruence.
      + apply decreases_spec in D.
        assert (O' : ordered_from 0 (map w_event (dn ++ chunk))) by (rewrite map_app, ordered_app; auto).
        assert (Ls : (length (skipn size hits) <= fuel)%nat) by (rewrite skipn_length; lia).
        destruct (IH (dn ++ chunk) (skipn size hits) Ls O') as (k & K1 & K2 & K3 & K4 & K5). clear IH.
        assert (E : List.last (map w_event (dn ++ chunk)) 0 = List.last (map w_event chunk) (List.last (map w_event dn) 0)).
        { now rewrite map_app, last_app. }
        rewrite E, <- append_formatted in *. rewrite <- append_formatted in K2.
        assert (F : forall j, dn ++ firstn (length chunk + j) hits = (dn ++ chunk) ++ firstn j (skipn size hits)).
        { intros j. rewrite Eh at 1. rewrite firstn_app_2. now rewrite app_assoc. }
        exists (length chunk + k)%nat. rewrite F.
        split; [rewrite Eh, app_length; lia|]. split; [rewrite K2; apply append_formatted|]. split; [assumption|]. split.
        * intros R. specialize (K4 R). rewrite Eh at 1. rewrite app_length. lia.
        * intros R. rewrite <- Nat.add_assoc, F. now apply K5.
  Qed.
End Format.

Lemma ordered_prefix k hits : ordered_from 0 (map w_event hits) -> ordered_from 0 (map w_event (firstn k hits)).
Proof. intros H. rewrite <- (firstn_skipn k hits), map_app, ordered_app in H. tauto. Qed.

Lemma format_spec tables size hits : (0 < size)%nat -> exists r, format_hit_table tables size hits = Some r /\
  (fst r = Ok <-> ordered_from 0 (map w_event hits)) /\ (fst r = Ok -> snd r = formatted tables hits) /\
  exists k, snd r = formatted tables (firstn k hits) /\ ordered_from 0 (map w_event (firstn k hits)) /\
    (fst r = Raised -> ~ ordered_from 0 (map w_event (firstn (k + size) hits))).
Proof.
  intros Hs. destruct size as [|size']; [lia|]. set (size := S size') in *. eexists. split; [reflexivity|].
  destruct (loop_spec tables size (length hits) Hs [] hits (le_n _) I) as (k & K1 & K2 & K3 & K4 & K5). cbn [map List.last app] in *.
  change (map (fun _ => []) tables) with (formatted tables []).
  set (r := format_loop _ _ _ _ _ _) in *. destruct (fst r) eqn:E; split.
  - split; [intros _|reflexivity]. rewrite (K4 eq_refl), firstn_all in K3. assumption.
  - split; [intros _; rewrite (K4 eq_refl), firstn_all in K2; assumption|]. exists k. auto.
  - split; [discriminate|]. intros O. destruct (K5 eq_refl). now apply ordered_prefix.
  - split; [discriminate|]. exists k. auto.
Qed.

Lemma copied_filter (f : raw_hit -> out_hit) (sel : raw_hit -> bool) hits : copied f (fun h => sel h = true) hits (map f (filter sel hits)).
Proof. induction hits as [|h hs IH]; cbn; [constructor|]. destruct (sel h) eqn:E; cbn; constructor; auto. congruence. Qed.

(** Mimosa26: for any chunk size the conversion ends normally if and only if the event numbers are not negative and do not decrease. Then the
    table of each header ID has exactly the hits of this plane, in order, column and row from 1. *)
Theorem C46_pymosa ids n_filenames size hits : (0 < size)%nat -> (forall n, n_filenames = Some n -> n = 0%nat \/ n = length ids) ->
  exists r out, format_pymosa_table ids n_filenames size hits = Some (r, out) /\
    (r = Ok <-> ordered_from 0 (map w_event hits)) /\
    (r = Ok -> length out = length ids /\ forall i, (i < length ids)%nat ->
      copied (fun h => OutHit (w_event h) 0 (w_column h + 1) (w_row h + 1) 0) (fun h => w_plane h = nth i ids 0) hits (nth i out [])).
Proof.
  intros Hs Hn. set (tables := map (fun id => (fun h => w_plane h =? id, format_pymosa)) ids). destruct (format_spec tables size hits Hs) as ([r out] & E & A & B & _). cbn [fst snd] in *.
  exists r, out. split; [|split; [assumption|]].
  - unfold format_pymosa_table. fold tables. rewrite E. destruct n_filenames as [n|]; [|reflexivity]. destruct n; [reflexivity|]. destruct (Hn _ eq_refl) as [X|X]; [discriminate|]. now rewrite X, Nat.eqb_refl.
  - intros R. rewrite (B R). unfold formatted, tables. rewrite !map_map. split; [now rewrite map_length|]. intros i Hi. cbn [fst snd].
    rewrite (nth_indep _ [] ((fun id => map format_pymosa (filter (fun h => w_plane h =? id) hits)) 0)) by now rewrite map_length.
    rewrite (map_nth (fun id => map format_pymosa (filter (fun h => w_plane h =? id) hits))).
    pose proof (copied_filter format_pymosa (fun h => w_plane h =? nth i ids 0) hits) as C. revert C. generalize (map format_pymosa (filter (fun h => w_plane h =? nth i ids 0) hits)).
    clear. intros os C. induction C; constructor; auto; rewrite Z.eqb_eq in *; assumption.
Qed.

(** FE-I4: the same with all hits in one table; frame is the relative BCID, charge the ToT. *)
Theorem C46_fei4 size hits : (0 < size)%nat -> exists r out, format_fei4_table size hits = Some (r, [out]) /\
  (r = Ok <-> ordered_from 0 (map w_event hits)) /\
  (r = Ok -> out = map (fun h => OutHit (w_event h) (w_bcid h) (w_column h) (w_row h) (w_tot h)) hits).
Proof.
  intros Hs. destruct (format_spec [(fun _ => true, format_fei4)] size hits Hs) as ([r out] & E & A & B & k & C & _). cbn [fst snd] in *.
  unfold formatted in *. cbn [map fst snd] in *. exists r. eexists. unfold format_fei4_table. rewrite E, C. split; [reflexivity|]. split; [assumption|]. intros R.
  rewrite (B R) in C. injection C as <-. f_equal. clear. induction hits as [|h hs IH]; [reflexivity|]. cbn. now rewrite IH.
Qed.

(** The chunk size makes no difference for data which is accepted or not. *)
Theorem C46_chunk_size ids size size' hits : (0 < size)%nat -> (0 < size')%nat -> exists r r' out out',
  format_pymosa_table ids None size hits = Some (r, out) /\ format_pymosa_table ids None size' hits = Some (r', out') /\ r = r' /\ (r = Ok -> out = out').
Proof.
  intros H H'. set (tables := map (fun id => (fun h => w_plane h =? id, format_pymosa)) ids).
  destruct (format_spec tables size hits H) as ([r out] & E & A & B & _). destruct (format_spec tables size' hits H') as ([r' out'] & E' & A' & B' & _). cbn [fst snd] in *.
  exists r, r', out, out'. unfold format_pymosa_table. fold tables. rewrite E, E'. split; [reflexivity|]. split; [reflexivity|].
  assert (R : r = r'). { destruct r, r'; try reflexivity; [assert (X : Ok = Ok) by reflexivity; apply A, A' in X; discriminate|assert (X : Ok = Ok) by reflexivity; apply A', A in X; discriminate]. }
  split; [assumption|]. intros O. rewrite (B O). subst r'. now rewrite (B' O).
Qed.

(** Even if the conversion fails, the rows which were written are those of the first chunks: event numbers in the tables never decrease. *)
Lemma ordered_filter (f : raw_hit -> bool) g hits : (forall h, o_event (g h) = w_event h) -> forall last, ordered_from last (map w_event hits) ->
  ordered_from last (map o_event (map g (filter f hits))).
Proof.
  intros Hg. assert (M : forall l a b, a <= b -> ordered_from b l -> ordered_from a l) by (intros [|x l] a b L; cbn; [tauto|]; intros [A B]; split; [lia|assumption]).
  induction hits as [|h hs IH]; intros last; [exact (fun _ => I)|]. cbn. intros [A B]. destruct (f h); cbn; [rewrite Hg; split; [assumption|now apply IH]|]. apply (M _ _ (w_event h)); [assumption|]. now apply IH.
Qed.
Theorem C46_ordered ids n_filenames size hits r out table : format_pymosa_table ids n_filenames size hits = Some (r, out) -> In table out -> ordered_from 0 (map o_event table).
Proof.
  intros E I. assert (E' : format_hit_table (map (fun id => (fun h => w_plane h =? id, format_pymosa)) ids) size hits = Some (r, out)).
  { unfold format_pymosa_table in E. destruct n_filenames as [n|]; [|exact E]. destruct n; [exact E|]. destruct (_ =? _)%nat; [exact E|discriminate]. }
  destruct size as [|size]; [discriminate|]. destruct (format_spec (map (fun id => (fun h => w_plane h =? id, format_pymosa)) ids) (S size) hits) as (r' & F & _ & _ & k & C & O & _); [lia|].
  rewrite F in E'. injection E' as ->. cbn [snd] in C. rewrite C in I. unfold formatted in I. apply in_map_iff in I. destruct I as (t & <- & It). apply in_map_iff in It. destruct It as (id & <- & _).
  cbn [fst snd]. now apply ordered_filter.
Qed.

(** No other plane than those of the list is written; hits of other planes are lost without a message. A header ID twice gives the hits twice. *)
Theorem C46_planes_refuted : exists ids hits out, format_pymosa_table ids None 10 hits = Some (Ok, out) /\ length (concat out) <> length hits.
Proof. exists [1; 1], [RawHit 0 1 5 6 0 0; RawHit 0 2 7 8 0 0; RawHit 1 3 7 8 0 0], [[OutHit 0 0 6 7 0]; [OutHit 0 0 6 7 0]]. split; [reflexivity|]. cbn. lia. Qed.

Example C46_example : format_pymosa_table [1; 2] None 2 [RawHit 3 1 5 6 0 0; RawHit 3 2 7 8 0 0; RawHit 4 2 1 1 0 0; RawHit 9 1 0 0 0 0] =
  Some (Ok, [[OutHit 3 0 6 7 0; OutHit 9 0 1 1 0]; [OutHit 3 0 8 9 0; OutHit 4 0 2 2 0]]).
Proof. reflexivity. Qed.
Example C46_example_rejected : format_fei4_table 2 [RawHit 3 0 5 6 1 2; RawHit 4 0 7 8 3 4; RawHit 3 0 1 1 0 0] = Some (Raised, [[OutHit 3 1 5 6 2; OutHit 4 3 7 8 4]]).
Proof. reflexivity. Qed.

Print Assumptions C46_pymosa.
Print Assumptions C46_fei4.
Print Assumptions C46_chunk_size.
Print Assumptions C46_ordered.
Print Assumptions C46_planes_refuted.
