(** C144: the argument select_extrapolation_duts of find_tracks. *)
From Coq Require Import ZArith List Bool Arith Lia.
From Verif Require Import FindTracksModel FindTracksProofs FindSetupProps FindArgsModel.
Import ListNotations.
Local Open Scope nat_scope.

(** * Specification *)
(** the DUTs named by the argument; none if it is refused *)
Inductive names (n_duts : nat) : selection -> nat -> Prop :=
| names_all d : d < n_duts -> names n_duts NotGiven d
| names_listed l d : In (Z.of_nat d) l -> names n_duts (Sequence l) d.
(** an argument as documented: nothing, or a list of DUTs of the telescope *)
Definition documented (n_duts : nat) (s : selection) : Prop := s = NotGiven \/ exists l, s = Sequence l /\ forall z, In z l -> exists d, d < n_duts /\ z = Z.of_nat d.
(** the reference position of a row at a DUT without extrapolation: its hit in the first DUT *)
Definition first_hit {F} (a : arrays F) (row first_dut : nat) : F * F := (ax a row first_dut, ay a row first_dut).

(** * Proofs *)
Lemma known_spec n l : known_duts n l = true <-> forall z, In z l -> exists d, d < n /\ z = Z.of_nat d.
Proof.
  unfold known_duts. rewrite forallb_forall. split; intros H z Hz; specialize (H z Hz).
  - apply andb_true_iff in H. rewrite Z.leb_le, Z.ltb_lt in H. exists (Z.to_nat z). split; lia.
  - destruct H as (d & D & ->). apply andb_true_iff. rewrite Z.leb_le, Z.ltb_lt. lia.
Qed.
Lemma extrapolation_spec n s l : extrapolation_duts n s = Some l -> documented n s /\ forall d, In d l <-> names n s d.
Proof.
  destruct s as [|m|]; cbn; [| |discriminate].
  - intros E. injection E as <-. split; [left; reflexivity|]. intros d. rewrite in_seq. split; [intros (_ & H); constructor; exact H|intros H; inversion H; subst; lia].
  - destruct (known_duts n m) eqn:K; [|discriminate]. intros E. injection E as <-. pose proof (proj1 (known_spec n m) K) as Q. split; [right; exists m; split; [reflexivity|exact Q]|].
    intros d. rewrite in_map_iff. split.
    + intros (z & <- & Hz). constructor. destruct (Q z Hz) as (e & _ & ->). rewrite Nat2Z.id. exact Hz.
    + intros H. inversion H; subst. exists (Z.of_nat d). split; [apply Nat2Z.id|assumption].
Qed.
Lemma documented_accepted n s : documented n s -> exists l, extrapolation_duts n s = Some l.
Proof. intros [-> |(l & -> & H)]; cbn; [eexists; reflexivity|]. rewrite (proj2 (known_spec n l) H). eexists. reflexivity. Qed.

Section Same.
  Variable F : Type.
  Variable isnan : F -> bool.
  Variables fadd fsub fmul fdiv : F -> F -> F.
  Variables fneg fsqrt : F -> F.
  Variable nonneg : F -> bool.
  Variable flt : F -> F -> bool.
  Variable n_rows : nat.
  Variable events : nat -> Z.
  Variable zs : list nat.
  Variables translation normal : nat -> nat -> F.
  Notation refs extra := (two_refs F isnan zs extra (S (length zs))).
  Notation loop extra := (find_tracks_loop F isnan fadd fsub fmul fdiv fneg fsqrt nonneg flt n_rows events zs extra translation normal).

  Section Congruence.
    Variables extra other : list nat.
    Hypothesis Same : forall a row dut, In dut zs -> refs extra a row dut None = refs other a row dut None.
    Notation reference_ e := (reference F isnan fadd fsub fmul fdiv fneg fsqrt zs e translation normal).
    Lemma same_reference a row dut fd : In dut zs -> reference_ extra a row dut fd = reference_ other a row dut fd.
    Proof using Same. intros H. unfold reference. rewrite (Same a row dut H). reflexivity. Qed.
    Lemma same_hit_loop a track dut rx ry : In dut zs -> forall hits best,
      hit_loop F isnan fadd fsub fmul fdiv fneg fsqrt nonneg flt zs extra translation normal a track dut rx ry hits best = hit_loop F isnan fadd fsub fmul fdiv fneg fsqrt nonneg flt zs other translation normal a track dut rx ry hits best.
    Proof using Same.
      intros D. induction hits as [|h hits IH]; intros best; [reflexivity|]. cbn [hit_loop]. destruct (track =? h); [apply IH|]. destruct (isnan (ax a h dut)); [apply IH|].
      destruct (match snd (fst best) with Some b => _ | None => false end); [apply IH|]. destruct (get_first_dut F isnan a h zs) as [fo|]; [|reflexivity]. destruct (fo =? dut); [apply IH|].
      rewrite (same_reference a h dut fo D). destruct (reference_ other a h dut fo) as [(ox, oy)|]; [|reflexivity]. destruct (flt _ _); apply IH.
    Qed.
    Lemma same_find_at start dut : In dut zs -> forall fuel track a,
      find_tracks_at F isnan fadd fsub fmul fdiv fneg fsqrt nonneg flt n_rows events zs extra translation normal fuel start track dut a = find_tracks_at F isnan fadd fsub fmul fdiv fneg fsqrt nonneg flt n_rows events zs other translation normal fuel start track dut a.
    Proof using Same.
      intros D. induction fuel as [|fuel IH]; intros track a; [reflexivity|]. cbn [find_tracks_at]. destruct (get_first_dut F isnan a track zs) as [fr|]; [|reflexivity]. destruct (match position fr zs with Some _ => _ | None => _ end); [reflexivity|].
      rewrite (same_reference a track dut fr D). destruct (reference_ other a track dut fr) as [(rx, ry)|]; [|reflexivity]. rewrite (same_hit_loop a track dut rx ry D). destruct (hit_loop _ _ _ _ _ _ _ _ _ _ _ _ _ _ _ _ _ _ _ _ _) as [(best, [|])|]; try reflexivity.
      destruct (_ && _); [apply IH|reflexivity].
    Qed.
    Lemma same_rows start dut : In dut zs -> forall rows a,
      rows_loop F isnan fadd fsub fmul fdiv fneg fsqrt nonneg flt n_rows events zs extra translation normal start dut rows a = rows_loop F isnan fadd fsub fmul fdiv fneg fsqrt nonneg flt n_rows events zs other translation normal start dut rows a.
    Proof using Same. intros D. induction rows as [|r rows IH]; intros a; [reflexivity|]. cbn [rows_loop]. rewrite (same_find_at start dut D). destruct (find_tracks_at _ _ _ _ _ _ _ _ _ _ _ _ _ _ _ _ _ _ _ _ _); [apply IH|reflexivity]. Qed.
    Lemma same_duts start : forall duts a, incl duts zs ->
      duts_loop F isnan fadd fsub fmul fdiv fneg fsqrt nonneg flt n_rows events zs extra translation normal start duts a = duts_loop F isnan fadd fsub fmul fdiv fneg fsqrt nonneg flt n_rows events zs other translation normal start duts a.
    Proof using Same.
      induction duts as [|d duts IH]; intros a I; [reflexivity|]. cbn [duts_loop]. rewrite (same_rows start d (I d (or_introl eq_refl))). destruct (rows_loop _ _ _ _ _ _ _ _ _ _ _ _ _ _ _ _ _ _ _ _); [apply IH; intros e E; apply I; right; exact E|reflexivity].
    Qed.
    Lemma same_loop a : loop extra a = loop other a.
    Proof using Same.
      unfold find_tracks_loop. generalize (-1)%Z as z. generalize (seq 0 n_rows) as rows. intros rows. revert a. induction rows as [|r rows IH]; intros a z; [reflexivity|]. cbn [events_loop]. destruct (_ || _); [|apply IH].
      rewrite same_duts by (intros d D; apply tl_in; exact D). destruct (duts_loop _ _ _ _ _ _ _ _ _ _ _ _ _ _ _ _ _ _ _); [apply IH|reflexivity].
    Qed.
  End Congruence.

  Hypothesis Distinct : NoDup zs.
  Lemma same_refs extra other : (forall a row front dut back, zs = (front ++ dut :: back)%list -> used F isnan extra a row front = used F isnan other a row front \/ (length (used F isnan extra a row front) < 2 /\ length (used F isnan other a row front) < 2)) ->
    forall a row dut, In dut zs -> refs extra a row dut None = refs other a row dut None.
  Proof using Distinct.
    intros H a row dut D. destruct (in_split _ _ D) as (front & back & E). assert (L : length front < S (length zs)) by (rewrite E, app_length; cbn; lia).
    rewrite (two_refs_spec F isnan zs extra a row Distinct _ front dut back None E L), (two_refs_spec F isnan zs other a row Distinct _ front dut back None E L). destruct (H a row front dut back E) as [-> |(A & B)]; [reflexivity|].
    destruct (used F isnan extra a row front) as [|s [|f l]], (used F isnan other a row front) as [|s' [|f' l']]; cbn [length] in A, B; try lia; reflexivity.
  Qed.
  Lemma same_members extra other : (forall d, In d extra <-> In d other) -> forall a, loop extra a = loop other a.
  Proof using Distinct.
    intros H. apply same_loop, same_refs. intros a row front _ _ _. left. unfold used. f_equal. apply filter_ext. intros d. f_equal. apply eq_true_iff_eq. rewrite !existsb_exists. split; intros (e & E & Q); exists e; (split; [apply H, E|exact Q]).
  Qed.
  Lemma one_used d extra a row front : NoDup front -> (forall e, In e extra -> e = d) -> length (used F isnan extra a row front) < 2.
  Proof using.
    clear. intros N H. unfold used. rewrite rev_length. set (f := fun e => negb (isnan (ax a row e)) && existsb (Nat.eqb e) extra).
    assert (Q : forall e, In e (filter f front) -> e = d). { intros e E. apply filter_In in E. destruct E as (_ & E). unfold f in E. apply andb_true_iff in E. destruct E as (_ & E). apply existsb_exists in E. destruct E as (g & G & E). apply Nat.eqb_eq in E. subst g. exact (H e G). }
    pose proof (NoDup_filter f N) as M. destruct (filter f front) as [|x [|y l]]; cbn; try lia. exfalso. rewrite (Q x (or_introl eq_refl)), (Q y (or_intror (or_introl eq_refl))) in M. inversion M as [|? ? M1 _]; subst. apply M1. left. reflexivity.
  Qed.
  Lemma none_extrapolated d extra a row dut fd : In dut zs -> (forall e, In e extra -> e = d) -> reference F isnan fadd fsub fmul fdiv fneg fsqrt zs extra translation normal a row dut fd = Some (first_hit a row fd).
  Proof using Distinct.
    intros D H. destruct (in_split _ _ D) as (front & back & E). assert (L : length front < S (length zs)) by (rewrite E, app_length; cbn; lia). unfold reference.
    rewrite (two_refs_spec F isnan zs extra a row Distinct _ front dut back None E L). assert (N : NoDup front) by (rewrite E in Distinct; clear -Distinct; induction front as [|x front IH]; [constructor|]; inversion Distinct as [|? ? A B]; subst; constructor; [intros I; apply A, in_or_app; left; exact I|apply IH, B]).
    pose proof (one_used d extra a row front N H) as Q. destruct (used F isnan extra a row front) as [|s [|f l]]; cbn in Q; try reflexivity; lia.
  Qed.

  Notation chunk s := (find_chunk F isnan fadd fsub fmul fdiv fneg fsqrt nonneg flt n_rows events zs s translation normal).
  (** The check of the argument: exactly None and the lists of DUTs of the telescope are accepted. *)
  Theorem C144_accepted s a : chunk s a = InvalidArgument <-> ~ documented (length zs) s.
  Proof using.
    clear Distinct. unfold find_chunk. destruct (extrapolation_duts (length zs) s) as [l|] eqn:E.
    - split; [destruct (typed l); discriminate|]. intros H. destruct H. exact (proj1 (extrapolation_spec _ _ _ E)).
    - split; [|reflexivity]. intros _ D. destruct (documented_accepted _ _ D) as (l & Q). congruence.
  Qed.
  (** The order of the DUTs in the list and repeated entries have no influence on the tracks, and the list of all DUTs is the same as None. *)
  Theorem C144_set s t a : documented (length zs) s -> documented (length zs) t -> (forall d, names (length zs) s d <-> names (length zs) t d) -> chunk s a = chunk t a.
  Proof using Distinct.
    intros S T H. destruct (documented_accepted _ _ S) as (l & L), (documented_accepted _ _ T) as (m & M). unfold find_chunk. rewrite L, M.
    assert (Q : forall d, In d l <-> In d m). { intros d. rewrite (proj2 (extrapolation_spec _ _ _ L) d), (proj2 (extrapolation_spec _ _ _ M) d). apply H. }
    destruct l as [|x l], m as [|y m]; cbn [typed].
    - reflexivity.
    - destruct (proj2 (Q y) (or_introl eq_refl)).
    - destruct (proj1 (Q x) (or_introl eq_refl)).
    - apply (f_equal Found), same_members, Q.
  Qed.
  (** A list with a single DUT (also repeated) disables the extrapolation: the reference position of each row at each DUT is its hit in the first DUT, and it does not matter which DUT it is. *)
  Theorem C144_single l d : l <> [] -> (forall z, In z l -> z = Z.of_nat d) -> d < length zs ->
    (exists extra, extrapolation_duts (length zs) (Sequence l) = Some extra /\ forall a row dut first_dut, In dut zs -> reference F isnan fadd fsub fmul fdiv fneg fsqrt zs extra translation normal a row dut first_dut = Some (first_hit a row first_dut)) /\
    forall e a, e < length zs -> chunk (Sequence l) a = chunk (Sequence [Z.of_nat e]) a.
  Proof using Distinct.
    intros N H D. assert (Sing : forall m f, m <> [] -> (forall z, In z m -> z = Z.of_nat f) -> f < length zs -> exists x extra, extrapolation_duts (length zs) (Sequence m) = Some (x :: extra) /\ forall g, In g (x :: extra) -> g = f).
    { intros m f M Q Lf. cbn [extrapolation_duts]. rewrite (proj2 (known_spec _ m)) by (intros z Z0; exists f; split; [exact Lf|exact (Q z Z0)]). destruct m as [|z m]; [congruence|]. exists (Z.to_nat z), (map Z.to_nat m). split; [reflexivity|].
      intros g G. change (In g (map Z.to_nat (z :: m))) in G. apply in_map_iff in G. destruct G as (y & <- & Y). rewrite (Q y Y). apply Nat2Z.id. }
    destruct (Sing l d N H D) as (x & extra & E & Q). split.
    - exists (x :: extra). split; [exact E|]. intros a row dut fd Hd. apply (none_extrapolated d); assumption.
    - intros e a He. destruct (Sing [Z.of_nat e] e ltac:(discriminate) ltac:(intros z [<-|[]]; reflexivity) He) as (y & other & E' & Q'). unfold find_chunk. rewrite E, E'. cbn [typed]. apply (f_equal Found), same_loop, same_refs.
      intros b row front dut back Ez. assert (Nf : NoDup front) by (pose proof Distinct as Dz; rewrite Ez in Dz; clear -Dz; induction front as [|u front IH]; [constructor|]; inversion Dz as [|? ? A B]; subst; constructor; [intros I; apply A, in_or_app; left; exact I|apply IH, B]).
      right. split; [apply (one_used d)|apply (one_used e)]; assumption.
  Qed.
  (** An empty list, which is documented to disable the extrapolation too, passes the check, but raises TypeError. *)
  Theorem C144_empty_refuted a : documented (length zs) (Sequence []) /\ chunk (Sequence []) a = UntypedList.
  Proof using. clear Distinct. split; [right; exists []; split; [reflexivity|intros z []]|reflexivity]. Qed.
End Same.

(** * Concrete cases *)
(** Three DUTs: the lists [2; 0] and [0; 2; 2] name the same DUTs; negative numbers and DUTs which do not exist are refused. *)
Example C144_case : documented 3 (Sequence [2; 0]%Z) /\ (forall d, names 3 (Sequence [2; 0]%Z) d <-> names 3 (Sequence [0; 2; 2]%Z) d) /\ extrapolation_duts 3 (Sequence [-1]%Z) = None /\ extrapolation_duts 3 (Sequence [3]%Z) = None.
Proof.
  split; [right; eexists; split; [reflexivity|]; intros z [<-|[<-|[]]]; [exists 2|exists 0]; split; (lia || reflexivity)|]. split; [|split; reflexivity].
  intros d. split; intros H; inversion H; subst; constructor; cbn in *; tauto.
Qed.

Print Assumptions C144_accepted.
Print Assumptions C144_set.
Print Assumptions C144_single.
Print Assumptions C144_empty_refuted.
