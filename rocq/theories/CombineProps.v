(** C19: combining tables of several files. *)
From Coq Require Import ZArith List Bool Arith Lia Sorting.Sorted.
From Verif Require Import CombineModel.
Import ListNotations.
Local Open Scope Z_scope.

Section Props.
  Context {P : Type}.
  Notation row := (row (P:=P)).
  Notation table := (table (P:=P)).

  (** *** Specification *)
  (** the tables called [name], in the order of the files *)
  Definition parts (name : nat) (files : list (list table)) : list (list row) :=
    map snd (filter (fun t => Nat.eqb (fst t) name) (concat files)).
  (** the rows with the event numbers moved by an offset *)
  Inductive moved (off : Z) : list row -> list row -> Prop :=
  | moved_nil : moved off [] []
  | moved_cons : forall e x rows rows', moved off rows rows' -> moved off ((e, x) :: rows) ((e + off, x) :: rows').
  (** the output is the concatenation of the parts moved by the reported offsets *)
  Inductive combined : list (list row) -> list Z -> list row -> Prop :=
  | combined_nil : combined [] [] []
  | combined_cons : forall p ps off offs p' out,
      moved off p p' -> combined ps offs out -> combined (p :: ps) (off :: offs) (p' ++ out).
  Definition ascending (rows : list row) : Prop := StronglySorted (fun a b => fst a <= fst b) rows.

  Lemma moved_map off rows : moved off rows (map (add_offset off) rows).
  Proof. induction rows as [|[e x] r IH]; simpl; constructor; auto. Qed.
  Lemma moved_fun off rows a : moved off rows a -> a = map (add_offset off) rows.
  Proof. induction 1 as [|e x r r' H IH]; simpl; auto. unfold add_offset at 1. simpl. rewrite IH. auto. Qed.
  Lemma shift_map off (rows : list row) : shift_chunk off rows = map (add_offset off) rows.
  Proof.
    unfold shift_chunk. destruct (Z.eqb_spec off 0) as [->|]; auto.
    rewrite <- map_id at 1. apply map_ext. intros [e x]. unfold add_offset. simpl. f_equal. lia.
  Qed.

  Lemma combined_app ps offs out : combined ps offs out -> forall p off p', moved off p p' ->
    combined (ps ++ [p]) (offs ++ [off]) (out ++ p').
  Proof.
    induction 1; intros q o q' Hq; simpl.
    - replace q' with (q' ++ []) by apply app_nil_r. constructor; auto. constructor.
    - rewrite <- app_assoc. constructor; auto.
  Qed.

  Lemma last_event_number_app (a b : list row) d :
    last_event_number (a ++ b) d = last_event_number b (last_event_number a d).
  Proof. unfold last_event_number. rewrite rev_app_distr. destruct (rev b); auto. Qed.

  Lemma copy_loop_spec off (rows : list row) cs : (1 <= cs)%nat -> forall fuel i out chunk,
    (length rows < fuel + i)%nat -> (i = 0 \/ i <= length rows + cs)%nat ->
    copy_loop fuel cs off rows i out chunk =
      Some (out ++ map (add_offset off) (skipn i rows),
            last_event_number (map (add_offset off) (skipn i rows)) chunk).
  Proof.
    intros Hcs. induction fuel as [|f IH]; intros i out chunk Hf Hi; simpl.
    - destruct (Nat.leb_spec (length rows) i); [|lia]. rewrite skipn_all2 by auto. simpl. rewrite app_nil_r. auto.
    - destruct (Nat.leb_spec (length rows) i).
      + rewrite skipn_all2 by auto. simpl. rewrite app_nil_r. auto.
      + rewrite IH; try lia.
        rewrite shift_map. 
        assert (E : skipn i rows = firstn cs (skipn i rows) ++ skipn (i + cs) rows).
        { rewrite <- (firstn_skipn cs (skipn i rows)) at 1. f_equal.
          clear. revert rows. induction i; intros rows; simpl; auto. destruct rows; auto. simpl. destruct cs; auto. }
        rewrite E at 3 4. rewrite map_app, <- app_assoc, last_event_number_app. auto.
  Qed.


  (** *** Invariant of the loop, for one table name *)
  Definition last_of (p : list row) (e : Z) : Prop := exists l x, p = l ++ [(e, x)].
  (** automatic offsets: one more than the last event number written before *)
  Definition auto_chain (ps : list (list row)) (offs : list Z) : Prop :=
    (forall o, nth_error offs 0 = Some o -> o = 0) /\
    (forall i o o' p, nth_error offs i = Some o -> nth_error offs (S i) = Some o' -> nth_error ps i = Some p ->
       exists e, last_of p e /\ o' = o + e + 1).

  Record good (offs : option (list (option Z))) (name : nat) (ps : list (list row)) (s : cstate (P:=P)) : Prop := {
    g_out : combined ps (c_offsets s name) (c_out s name);
    g_len : length (c_offsets s name) = length ps;
    g_last : (ps = [] /\ c_last s name = -1) \/
             (exists l p e o lo, ps = l ++ [p] /\ last_of p e /\ c_offsets s name = lo ++ [o] /\ c_last s name = e + o);
    g_auto : offs = None -> auto_chain ps (c_offsets s name)
  }.

  Lemma upd_same {V} (f : nat -> V) k v : upd f k v k = v.
  Proof. unfold upd. rewrite Nat.eqb_refl. auto. Qed.
  Lemma upd_other {V} (f : nat -> V) k v i : i <> k -> upd f k v i = f i.
  Proof. unfold upd. intros H. destruct (Nat.eqb_spec i k); congruence. Qed.

  Lemma nonempty_last off (l : list row) d : l <> [] ->
    exists e, last_of l e /\ last_event_number (map (add_offset off) l) d = Some (e + off).
  Proof.
    intros H. destruct (exists_last H) as (l' & [e x] & ->). exists e. split; [exists l', x; auto|].
    unfold last_event_number. rewrite map_app, rev_app_distr. auto.
  Qed.

  Lemma combine_table_spec offs cs fi name ps s t : (1 <= cs)%nat -> good offs name ps s ->
    (fst t = name -> snd t <> []) ->
    match combine_table offs cs fi s t with
    | inl s' =>
        (if Nat.eqb (fst t) name
        then good offs name (ps ++ [snd t]) s' /\
             exists off, c_offsets s' name = c_offsets s name ++ [off] /\
               (forall l o, offs = Some l -> nth_error l fi = Some (Some o) -> off = o)
        else good offs name ps s' /\ c_offsets s' name = c_offsets s name) /\
        c_chunk s' <> None
    | inr e => (e = OffsetIndexError /\ exists l, offs = Some l /\ nth_error l fi = None) \/
               (e = UnboundChunk /\ c_chunk s = None /\ fst t <> name /\ snd t = [])
    end.
  Proof.
    intros Hcs G Hne. destruct t as [n rows]. cbn [combine_table fst snd] in *.
    destruct (choose_offset offs fi (c_last s n)) as [off|] eqn:Eo.
    2: { left. split; auto. unfold choose_offset in Eo. destruct offs as [l|]; [|discriminate].
         exists l. split; auto. destruct (nth_error l fi) as [[z|]|]; auto; discriminate. }
    rewrite (copy_loop_spec off rows cs Hcs) by lia. cbn [skipn].
    destruct (last_event_number (map (add_offset off) rows) (c_chunk s)) as [le|] eqn:El.
    - split; [|discriminate]. destruct (Nat.eqb_spec n name) as [->|N].
      + specialize (Hne eq_refl).
        destruct (nonempty_last off rows (c_chunk s) Hne) as (e & H1 & H2). rewrite H2 in El. injection El as <-.
        split.
        * constructor; cbn [c_out c_offsets c_last]; rewrite ?upd_same.
          -- apply combined_app; [apply (g_out _ _ _ _ G)|apply moved_map].
          -- rewrite !app_length, (g_len _ _ _ _ G). auto.
          -- right. exists ps, rows, e, off, (c_offsets s name). auto.
          -- intros Ho. destruct (g_auto _ _ _ _ G Ho) as [A1 A2]. rewrite Ho in Eo. simpl in Eo. injection Eo as Eo.
             pose proof (g_len _ _ _ _ G) as Hl.
             destruct (g_last _ _ _ _ G) as [[-> E]|(l & p & e' & o & lo & E1 & E2 & E3 & E4)].
             ++ rewrite E in Eo. destruct (c_offsets s name); [|discriminate]. simpl. split.
                ** intros o Ho'. injection Ho' as <-. lia.
                ** intros i o o' q Q1 Q2. destruct i; discriminate.
             ++ split.
                ** intros o0 Ho0. apply A1. rewrite nth_error_app1 in Ho0; auto. rewrite E3, app_length. simpl. lia.
                ** intros i o1 o2 q Q1 Q2 Q3.
                   assert (Hi : (S i <= length (c_offsets s name))%nat).
                   { assert (S i < length (c_offsets s name ++ [off]))%nat by (apply nth_error_Some; congruence).
                     rewrite app_length in H. simpl in H. lia. }
                   rewrite nth_error_app1 in Q1 by lia. rewrite nth_error_app1 in Q3 by lia.
                   destruct (Nat.eq_dec (S i) (length (c_offsets s name))) as [Hi'|Hi'].
                   --- rewrite Hi', nth_error_app2, Nat.sub_diag in Q2 by lia. injection Q2 as <-.
                       rewrite E3 in Q1, Hi'. rewrite app_length in Hi'. simpl in Hi'.
                       rewrite nth_error_app2 in Q1 by lia. replace (i - length lo)%nat with O in Q1 by lia. injection Q1 as <-.
                       rewrite E1 in Q3, Hl. rewrite E3, !app_length in Hl. simpl in Hl.
                       rewrite nth_error_app2 in Q3 by lia. replace (i - length l)%nat with O in Q3 by lia. injection Q3 as <-.
                       exists e'. split; auto. lia.
                   --- rewrite nth_error_app1 in Q2 by lia. eapply A2; eauto.
        * exists off. cbn [c_offsets]. rewrite upd_same. split; auto. intros l o Hl Hn. subst offs.
          simpl in Eo. rewrite Hn in Eo. congruence.
      + assert (name <> n) by congruence. split.
        * destruct G as [G1 G2 G3 G4]. constructor; cbn [c_out c_offsets c_last]; rewrite ?upd_other by auto; auto.
        * cbn [c_offsets]. rewrite upd_other; auto.
    - right. split; auto. unfold last_event_number in El.
      destruct (rev (map (add_offset off) rows)) eqn:Er; [|discriminate]. split; auto.
      assert (rows = []). { destruct rows as [|x r]; auto. simpl in Er. destruct (rev (map (add_offset off) r)); discriminate. }
      split; auto. intros ->. apply Hne; auto.
  Qed.

  Definition named (name : nat) (ts : list table) : list (list row) := map snd (filter (fun t => Nat.eqb (fst t) name) ts).
  (** offsets the caller gave for the tables of that name *)
  Definition given (offs : option (list (option Z))) (fi : nat) (os : list Z) : Prop :=
    forall l o, offs = Some l -> nth_error l fi = Some (Some o) -> Forall (fun x => x = o) os.

  Lemma combine_tables_spec offs cs fi name : (1 <= cs)%nat -> forall ts ps s,
    good offs name ps s -> (forall rows, In rows (named name ts) -> rows <> []) ->
    match combine_tables offs cs fi s ts with
    | inl s' => good offs name (ps ++ named name ts) s' /\
                (exists os, c_offsets s' name = c_offsets s name ++ os /\ given offs fi os /\ length os = length (named name ts)) /\
                (c_chunk s' = None -> c_chunk s = None /\ ts = [])
    | inr e => (e = OffsetIndexError /\ exists l, offs = Some l /\ nth_error l fi = None) \/
               (e = UnboundChunk /\ c_chunk s = None /\ exists t r, ts = t :: r /\ fst t <> name /\ snd t = [])
    end.
  Proof.
    intros Hcs. induction ts as [|t r IH]; intros ps s G Hne.
    - simpl. unfold named. simpl. rewrite app_nil_r. split; [auto|]. split; [|auto].
      exists []. rewrite app_nil_r. repeat split; auto. intros l o _ _. constructor.
    - cbn [combine_tables].
      assert (Ht : fst t = name -> snd t <> []).
      { intros E. apply Hne. unfold named. simpl. rewrite E, Nat.eqb_refl. left. auto. }
      assert (Hr : forall rows, In rows (named name r) -> rows <> []).
      { intros rows Hi. apply Hne. unfold named in *. simpl. destruct (fst t =? name)%nat; [right|]; auto. }
      pose proof (combine_table_spec offs cs fi name ps s t Hcs G Ht) as H.
      destruct (combine_table offs cs fi s t) as [s1|e] eqn:E1.
      + destruct H as [H Hc].
        assert (Hc1 : forall s' : cstate (P:=P), (c_chunk s' = None -> c_chunk s1 = None /\ r = []) -> c_chunk s' <> None).
        { intros s' Hs' N. apply Hs' in N. apply Hc, N. }
        unfold named. cbn [filter]. destruct (fst t =? name)%nat eqn:En.
        * destruct H as [G1 (off & O1 & O2)]. specialize (IH (ps ++ [snd t]) s1 G1 Hr).
          destruct (combine_tables offs cs fi s1 r) as [s2|e].
          -- destruct IH as (I1 & (os & I2 & I3 & I4) & I5). cbn [map]. rewrite <- app_assoc in I1. split; [exact I1|].
             split; [|intros N; exfalso; apply (Hc1 s2 I5 N)].
             exists (off :: os). rewrite I2, O1, <- app_assoc. repeat split; auto.
             ++ intros l o Hl Hn. constructor; [eapply O2; eauto|eapply I3; eauto].
             ++ simpl. unfold named in I4. rewrite I4. auto.
          -- destruct IH as [IH|(-> & Hn & _)]; [left; auto|]. exfalso. apply Hc. auto.
        * destruct H as [G1 O1]. specialize (IH ps s1 G1 Hr).
          destruct (combine_tables offs cs fi s1 r) as [s2|e].
          -- destruct IH as (I1 & (os & I2 & I3 & I4) & I5). split; [exact I1|].
             split; [|intros N; exfalso; apply (Hc1 s2 I5 N)]. exists os. rewrite <- O1. auto.
          -- destruct IH as [IH|(-> & Hn & _)]; [left; auto|]. exfalso. apply Hc. auto.
      + destruct H as [H|(-> & H2 & H3 & H4)]; [left; auto|right]. split; auto. split; auto. exists t, r. auto.
  Qed.

  (** files with the tables that were not asked for removed *)
  Definition asked (names : option (list nat)) (files : list (list table)) : list (list table) :=
    map (filter (fun t => match names with None => true | Some l => if in_dec Nat.eq_dec (fst t) l then true else false end)) files.

  Lemma wanted_iff names (t : table) : wanted_table names t =
    match names with None => true | Some l => if in_dec Nat.eq_dec (fst t) l then true else false end.
  Proof.
    unfold wanted_table. destruct names as [l|]; auto. destruct (in_dec Nat.eq_dec (fst t) l) as [H|H].
    - apply existsb_exists. exists (fst t). split; auto. apply Nat.eqb_refl.
    - apply not_true_is_false. intros E. apply existsb_exists in E. destruct E as (x & Hx & E). apply Nat.eqb_eq in E. congruence.
  Qed.

  Lemma named_app name a b : named name (a ++ b) = named name a ++ named name b.
  Proof. unfold named. rewrite filter_app, map_app. auto. Qed.

  Lemma combine_loop_spec names offs cs name : (1 <= cs)%nat -> forall files fi ps s,
    good offs name ps s -> (forall rows, In rows (parts name (asked names files)) -> rows <> []) ->
    match combine_loop names offs cs fi s files with
    | inl s' => good offs name (ps ++ parts name (asked names files)) s' /\
                exists oss, c_offsets s' name = c_offsets s name ++ concat oss /\
                  map (@length Z) oss = map (fun f => length (parts name [f])) (asked names files) /\
                  forall k os, nth_error oss k = Some os -> given offs (fi + k) os
    | inr e => (e = OffsetIndexError /\ exists l, offs = Some l /\ (length l < fi + length files)%nat) \/
               (e = UnboundChunk /\ c_chunk s = None /\ exists t r, concat (asked names files) = t :: r /\ fst t <> name /\ snd t = [])
    end.
  Proof.
    intros Hcs. induction files as [|f r IH]; intros fi ps s G Hne.
    - simpl. unfold parts. simpl. rewrite app_nil_r. split; [auto|]. exists []. simpl. rewrite app_nil_r. split; auto. split; auto.
      intros k os H. destruct k; discriminate.
    - cbn [combine_loop].
      assert (Ew : filter (wanted_table names) f = filter (fun t => match names with None => true | Some l => if in_dec Nat.eq_dec (fst t) l then true else false end) f)
        by (apply filter_ext; intros; apply wanted_iff).
      rewrite Ew. unfold asked in *. cbn [map] in *.
      set (f' := filter (fun t => match names with None => true | Some l => if in_dec Nat.eq_dec (fst t) l then true else false end) f) in *.
      assert (Ep : forall l, parts name (f' :: l) = named name f' ++ parts name l).
      { intros l. unfold parts. simpl. rewrite filter_app, map_app. auto. }
      assert (Hne' : forall rows, In rows (named name f' ++ parts name (asked names r)) -> rows <> []) by (intros rows Hi; apply Hne; rewrite Ep; exact Hi).
      clear Hne. rename Hne' into Hne.
      assert (Hf : forall rows, In rows (named name f') -> rows <> []) by (intros; apply Hne; apply in_or_app; auto).
      pose proof (combine_tables_spec offs cs fi name Hcs f' ps s G Hf) as H.
      destruct (combine_tables offs cs fi s f') as [s1|e].
      + destruct H as (G1 & (os & O1 & O2 & O3) & C1).
        specialize (IH (S fi) (ps ++ named name f') s1 G1 (fun rows Hi => Hne rows (in_or_app _ _ _ (or_intror Hi)))).
        destruct (combine_loop names offs cs (S fi) s1 r) as [s2|e].
        * destruct IH as (I1 & oss & I2 & I3 & I4). rewrite Ep, app_assoc. split; auto.
          exists (os :: oss). split; [simpl; rewrite I2, O1, <- app_assoc; auto|]. split.
          -- simpl. rewrite I3, O3. f_equal. rewrite Ep. unfold parts. simpl. rewrite app_nil_r. auto.
          -- intros k os' Hk. destruct k; simpl in Hk; [injection Hk as <-; rewrite Nat.add_0_r; auto|].
             apply I4 in Hk. replace (fi + S k)%nat with (S fi + k)%nat by lia. auto.
        * destruct IH as [(-> & l & L1 & L2)|(-> & N & t & q & Q)].
          -- left. split; auto. exists l. split; auto. simpl. lia.
          -- right. split; auto. destruct (C1 N) as [N1 N2]. split; auto. exists t, q. rewrite N2. simpl. auto.
      + destruct H as [(-> & l & L1 & L2)|(-> & N & t & q & Q1 & Q2)].
        * left. split; auto. exists l. split; auto. apply nth_error_None in L2. simpl. lia.
        * right. split; auto. split; auto. rewrite Q1. simpl. exists t. eexists. split; [reflexivity|auto].
  Qed.

  Lemma good_init offs name : good offs name [] cinit.
  Proof.
    constructor; simpl; auto; [constructor|]. intros _. split; [discriminate|]. intros i o o' p H. destruct i; discriminate.
  Qed.

  Lemma parts_named name files : parts name files = named name (concat files).
  Proof. reflexivity. Qed.

  (** C19: for every table name whose tables are not empty, the output is the concatenation of the
      tables of all files moved by the reported offsets (so that subtracting the offset gives back the
      input, for every chunk size); the offsets given by the caller are used; the call can only fail
      if the list of offsets is too short or the very first table read is empty. *)
  Theorem C19_combined : forall files names offs cs name,
    (1 <= cs)%nat -> (forall rows, In rows (parts name (asked names files)) -> rows <> []) ->
    match combine_files files names offs cs with
    | inl s => combined (parts name (asked names files)) (c_offsets s name) (c_out s name) /\
        exists oss, c_offsets s name = concat oss /\
          map (@length Z) oss = map (fun f => length (parts name [f])) (asked names files) /\
          forall k os l o, nth_error oss k = Some os -> offs = Some l -> nth_error l k = Some (Some o) ->
            Forall (fun x => x = o) os
    | inr e => (e = OffsetIndexError /\ exists l, offs = Some l /\ (length l < length files)%nat) \/
               (e = UnboundChunk /\ exists t r, concat (asked names files) = t :: r /\ snd t = [])
    end.
  Proof.
    intros files names offs cs name Hcs Hne. unfold combine_files.
    pose proof (combine_loop_spec names offs cs name Hcs files 0 [] cinit (good_init offs name) Hne) as H.
    destruct (combine_loop names offs cs 0 cinit files) as [s|e].
    - destruct H as (G & oss & H1 & H2 & H3). split; [apply (g_out _ _ _ _ G)|]. exists oss. split; [exact H1|]. split; auto.
      intros k os l o Hk Hl Hn. exact (H3 k os Hk l o Hl Hn).
    - destruct H as [H|(-> & _ & t & r & H1 & _ & H2)]; [left; auto|right]. split; auto. exists t, r. auto.
  Qed.

  (** rows of an earlier file have smaller event numbers in the output than those of a later file *)
  Definition kept_apart (ps : list (list row)) (offs : list Z) : Prop :=
    forall i j p q oi oj, (i < j)%nat -> nth_error ps i = Some p -> nth_error ps j = Some q ->
      nth_error offs i = Some oi -> nth_error offs j = Some oj ->
      forall a b, In a p -> In b q -> fst a + oi < fst b + oj.

  Lemma last_of_max p e a : ascending p -> last_of p e -> In a p -> fst a <= e.
  Proof.
    intros S (l & x & ->) Hin. apply in_app_or in Hin. destruct Hin as [Hin|[<-|[]]]; [|simpl; lia].
    revert S Hin. clear. induction l as [|y l IH]; intros S Hin; [contradiction|]. inversion S; subst.
    destruct Hin as [<-|Hin]; auto. rewrite Forall_forall in H2. apply (H2 (e, x)). apply in_or_app. right. left. auto.
  Qed.

  Lemma auto_chain_apart ps offs : length offs = length ps ->
    (forall p, In p ps -> ascending p /\ forall a, In a p -> 0 <= fst a) ->
    auto_chain ps offs -> kept_apart ps offs.
  Proof.
    intros Hl Hp [A1 A2] i j p q oi oj Hij Hi Hj Ho1 Ho2 a b Ha Hb.
    assert (K : forall d o, nth_error offs (S i + d)%nat = Some o -> fst a + oi < o).
    { induction d as [|d IH]; intros o Ho.
      - rewrite Nat.add_0_r in Ho. destruct (A2 i oi o p Ho1 Ho Hi) as (e & E1 & E2).
        pose proof (last_of_max p e a (proj1 (Hp p (nth_error_In _ _ Hi))) E1 Ha). lia.
      - assert (Hlt : (S i + S d < length offs)%nat) by (apply nth_error_Some; congruence).
        destruct (nth_error offs (S i + d)) as [o1|] eqn:E1; [|apply nth_error_None in E1; lia].
        destruct (nth_error ps (S i + d)) as [p1|] eqn:E2; [|apply nth_error_None in E2; lia].
        replace (S i + S d)%nat with (S (S i + d)) in Ho by lia.
        destruct (A2 _ o1 o p1 E1 Ho E2) as (e & F1 & F2). specialize (IH o1 eq_refl).
        assert (0 <= e). { destruct F1 as (l & x & ->). apply (proj2 (Hp _ (nth_error_In _ _ E2)) (e, x)). apply in_or_app. right. left. auto. }
        lia. }
    specialize (K (j - S i)%nat oj). replace (S i + (j - S i))%nat with j in K by lia. specialize (K Ho2).
    pose proof (proj2 (Hp q (nth_error_In _ _ Hj)) b Hb). lia.
  Qed.

  Lemma combined_ascending ps offs out : combined ps offs out -> (forall p, In p ps -> ascending p) ->
    kept_apart ps offs -> ascending out.
  Proof.
    induction 1 as [|p ps off offs p' out M C IH]; intros Hp Ha; [constructor|].
    assert (S1 : ascending p').
    { apply moved_fun in M. subst p'. specialize (Hp p (or_introl eq_refl)). clear - Hp.
      induction Hp as [|a l Hs IH Hf]; simpl; constructor; auto.
      rewrite Forall_forall in *. intros b Hb. apply in_map_iff in Hb. destruct Hb as (c & <- & Hc). specialize (Hf c Hc). simpl. lia. }
    assert (S2 : ascending out).
    { apply IH; [intros; apply Hp; right; auto|]. intros i j q q' o o' Hij H1 H2 H3 H4. apply (Ha (S i) (S j)); auto. lia. }
    assert (L : forall a b, In a p' -> In b out -> fst a <= fst b).
    { intros a b Hina Hinb. apply moved_fun in M. subst p'. apply in_map_iff in Hina. destruct Hina as (a0 & <- & Ha0).
      assert (Hb : exists j q o b0, nth_error ps j = Some q /\ nth_error offs j = Some o /\ In b0 q /\ fst b = fst b0 + o).
      { clear - C Hinb. induction C as [|q ps o offs q' out M C IH]; [contradiction|].
        apply in_app_or in Hinb. destruct Hinb as [Hi|Hi].
        - apply moved_fun in M. subst q'. apply in_map_iff in Hi. destruct Hi as (b0 & <- & Hb0).
          exists 0%nat, q, o, b0. repeat split; auto.
        - destruct (IH Hi) as (j & q1 & o1 & b0 & Q). exists (S j), q1, o1, b0. auto. }
      destruct Hb as (j & q & o & b0 & B1 & B2 & B3 & B4). rewrite B4. simpl.
      assert (fst a0 + off < fst b0 + o); [|lia].
      apply (Ha 0%nat (S j) p q off o); auto. lia. }
    clear - S1 S2 L. induction p' as [|a p' IH]; simpl; auto. inversion S1; subst. constructor.
    - apply IH; auto. intros; apply L; auto. right; auto.
    - apply Forall_app. split; auto. rewrite Forall_forall. intros b Hb. apply L; auto. left; auto.
  Qed.

  (** C19: with automatic offsets events of different files stay apart and in order, and the output is
      sorted by event number. *)
  Theorem C19_events_apart : forall files names cs name s,
    (1 <= cs)%nat ->
    (forall rows, In rows (parts name (asked names files)) ->
       rows <> [] /\ ascending rows /\ forall a, In a rows -> 0 <= fst a) ->
    combine_files files names None cs = inl s ->
    length (c_offsets s name) = length (parts name (asked names files)) /\
    kept_apart (parts name (asked names files)) (c_offsets s name) /\
    ascending (c_out s name).
  Proof.
    intros files names cs name s Hcs Hp E.
    pose proof (combine_loop_spec names None cs name Hcs files 0 [] cinit (good_init None name) (fun r Hr => proj1 (Hp r Hr))) as H.
    unfold combine_files in E. rewrite E in H. destruct H as (G & _). simpl in G.
    assert (K : kept_apart (parts name (asked names files)) (c_offsets s name)).
    { apply auto_chain_apart; [apply G|intros p Hin; apply Hp; auto|apply G; auto]. }
    split; [apply G|]. split; auto.
    eapply combined_ascending; [apply G|intros p Hin; apply Hp; auto|auto].
  Qed.
End Props.

(** Non-vacuity: two files with two tables each, read in chunks of two rows. *)
Definition ex_files : list (list (table (P:=nat))) :=
  [[(0%nat, [(0, 1%nat); (2, 2%nat); (2, 3%nat)]); (1%nat, [(7, 4%nat)])];
   [(0%nat, [(0, 5%nat); (1, 6%nat)]); (1%nat, [(0, 7%nat)])]].
Example C19_example :
  match combine_files ex_files None None 2 with
  | inl s => c_out s 0%nat = [(0, 1%nat); (2, 2%nat); (2, 3%nat); (3, 5%nat); (4, 6%nat)] /\
             c_offsets s 0%nat = [0; 3] /\ c_offsets s 1%nat = [0; 8]
  | inr _ => False
  end.
Proof. vm_compute. repeat split; reflexivity. Qed.

(** An empty table breaks the separation: the last event number is taken from the chunk variable,
    which still holds rows of another table; later files overlap with earlier ones. *)
Theorem C19_empty_table_refuted :
  exists (files : list (list (table (P:=unit)))) s,
    combine_files files None None 10 = inl s /\
    c_offsets s 0%nat = [0; 101; 6] /\ In (50, tt) (nth 0 (parts 0%nat files) []) /\
    c_out s 0%nat = [(50, tt); (100, tt); (50, tt)] /\ ~ ascending (c_out s 0%nat).
Proof.
  exists [[(0%nat, [(50, tt); (100, tt)]); (1%nat, [(5, tt)])]; [(0%nat, [])]; [(0%nat, [(44, tt)])]].
  eexists. split; [vm_compute; reflexivity|]. split; [reflexivity|]. split; [left; auto|]. split; [reflexivity|].
  intros S. inversion S as [|a l S1 F1]; subst. inversion S1 as [|b l' S2 F2]; subst. inversion F2; subst. simpl in H1. lia.
Qed.
(** ... and an empty first table raises. *)
Theorem C19_first_table_empty_refuted :
  exists files : list (list (table (P:=unit))), combine_files files None None 10 = inr UnboundChunk.
Proof. exists [[(0%nat, [])]; [(0%nat, [(1, tt)])]]. vm_compute. reflexivity. Qed.

Print Assumptions C19_combined.
Print Assumptions C19_events_apart.
Print Assumptions C19_empty_table_refuted.
Print Assumptions C19_first_table_empty_refuted.
