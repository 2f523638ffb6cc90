(** Lemmas on the nodes of the output file of the split-map-combine class. *)
From Coq Require Import ZArith Bool Arith Lia Ascii String List.
From Verif Require Import SmcModel SmcProofs SmcNodesModel.
Import ListNotations.

Lemma append_length a b : String.length (a ++ b) = (String.length a + String.length b)%nat.
Proof. induction a; cbn; congruence. Qed.
Lemma substring_append a b : substring 0 (String.length a) (a ++ b) = a.
Proof. induction a; cbn; [destruct b; reflexivity|]. f_equal. exact IHa. Qed.
Lemma without_tmp n : without_suffix (tmp n) = n.
Proof. unfold without_suffix, tmp. rewrite append_length. replace (String.length n + String.length "_tmp" - 4)%nat with (String.length n) by (cbn; lia). apply substring_append. Qed.
Lemma tmp_inj a b : tmp a = tmp b -> a = b.
Proof. intros E. rewrite <- (without_tmp a), <- (without_tmp b), E. reflexivity. Qed.
Lemma tmp_neq a : tmp a <> a.
Proof. intros E. apply (f_equal String.length) in E. unfold tmp in E. rewrite append_length in E. cbn in E. lia. Qed.

Section Files.
  Context {A : Type}.
  Implicit Types f : file A.
  Lemma lookup_remove n m f : lookup n (remove m f) = if String.eqb n m then None else lookup n f.
  Proof.
    induction f as [|[k x] f IH]; cbn; [destruct (String.eqb n m); reflexivity|].
    destruct (String.eqb_spec m k) as [E1|E1]; cbn.
    - subst k. destruct (String.eqb_spec n m); exact IH.
    - destruct (String.eqb_spec n k) as [E2|E2]; [|exact IH]. subst k. destruct (String.eqb_spec n m) as [E3|E3]; congruence.
  Qed.
  Lemma lookup_app n f g : lookup n (f ++ g) = match lookup n f with Some x => Some x | None => lookup n g end.
  Proof. induction f as [|[k x] f IH]; cbn; [reflexivity|]. destruct (String.eqb n k); [reflexivity|exact IH]. Qed.
  Lemma lookup_append_rows n m r f : lookup n (append_rows m r f) =
    if String.eqb n m then match lookup n f with Some (TableNode rows) => Some (TableNode (rows ++ r)) | x => x end else lookup n f.
  Proof.
    induction f as [|[k x] f IH]; cbn; [destruct (String.eqb n m); reflexivity|].
    destruct (String.eqb_spec m k) as [E1|E1]; cbn.
    - subst k. destruct (String.eqb_spec n m) as [E2|E2]; [destruct x; reflexivity|exact IH].
    - destruct (String.eqb_spec n k) as [E2|E2]; [|exact IH]. subst k. destruct (String.eqb_spec n m) as [E3|E3]; [congruence|reflexivity].
  Qed.
  Lemma lookup_rename k n m f : lookup m f = None -> n <> m ->
    lookup k (rename n m f) = if String.eqb k m then lookup n f else if String.eqb k n then None else lookup k f.
  Proof.
    intros H N. induction f as [|[j x] f IH]; cbn; [destruct (String.eqb k m), (String.eqb k n); reflexivity|].
    cbn in H. destruct (String.eqb_spec m j) as [E|E]; [discriminate|]. specialize (IH H).
    destruct (String.eqb_spec n j) as [E1|E1]; cbn.
    - subst j. destruct (String.eqb_spec k m) as [E2|E2]; [reflexivity|]. unfold rename in IH. rewrite IH.
      destruct (String.eqb_spec k m); [contradiction|]. destruct (String.eqb_spec k n); reflexivity.
    - unfold rename in IH. rewrite IH. destruct (String.eqb_spec k j) as [E2|E2]; [|destruct (String.eqb_spec k m); reflexivity].
      subst j. destruct (String.eqb_spec k m) as [E3|E3]; [congruence|]. destruct (String.eqb_spec k n); [congruence|reflexivity].
  Qed.

  (** contents of the slots: the temporary table or the histogram in memory *)
  Inductive holding (f : file A) : list string -> list slot -> list (node A) -> Prop :=
  | h_nil : holding f [] [] []
  | h_table n names s rows c : lookup (tmp n) f = Some (TableNode rows) -> holding f names s c -> holding f (n :: names) (SlotTable :: s) (TableNode rows :: c)
  | h_hist n names h s c : holding f names s c -> holding f (n :: names) (SlotHist h :: s) (ArrayNode h :: c).
  Lemma holding_ext f g names s c : (forall n, In n names -> lookup (tmp n) g = lookup (tmp n) f) -> holding f names s c -> holding g names s c.
  Proof.
    intros H D. induction D as [|n names s rows c L D IH|n names h s c D IH]; constructor.
    - rewrite H by (left; reflexivity). exact L.
    - apply IH. intros k K. apply H. right; exact K.
    - apply IH. intros k K. apply H. right; exact K.
  Qed.
  Definition start (x : item A) : node A := match x with Rows _ => TableNode [] | Hist h => ArrayNode (repeat 0%Z (List.length h)) end.
  Definition add_item (c : node A) (x : item A) : node A :=
    match c, x with TableNode rows, Rows r => TableNode (rows ++ r) | ArrayNode h, Hist r => ArrayNode (combine_hist h r) | c, _ => c end.
  Fixpoint add_items (c : list (node A)) (x : list (item A)) : list (node A) :=
    match c, x with c0 :: c, x0 :: x => add_item c0 x0 :: add_items c x | _, _ => [] end.
  Definition kind_of (c : node A) (x : item A) : Prop := match c, x with TableNode _, Rows _ | ArrayNode _, Hist _ => True | _, _ => False end.

  Lemma create_ok names : forall first f, NoDup names -> List.length first = List.length names -> (forall n, In n names -> lookup (tmp n) f = None) ->
    exists g s, create names first f = Some (g, s) /\ holding g names s (map start first) /\
      (forall k, (forall n, In n names -> k <> tmp n) -> lookup k g = lookup k f) /\
      (forall i n h, nth_error names i = Some n -> nth_error first i = Some (Hist h) -> lookup (tmp n) g = None).
  Proof.
    induction names as [|n names IH]; intros [|x first] f D L T; try discriminate.
    - exists f, []. cbn. split; [reflexivity|]. split; [constructor|]. split; [reflexivity|]. intros [|] ? ? H; discriminate.
    - inversion D as [|? ? D1 D2]; subst. cbn in L. assert (L2 : List.length first = List.length names) by lia. cbn [create map]. destruct x as [r|h].
      + unfold exists_node. rewrite (T n) by (left; reflexivity).
        destruct (IH first (f ++ [(tmp n, TableNode [])])%list D2 L2) as (g & s & C & O & K & Z).
        { intros m M. rewrite lookup_app, T by (right; exact M). cbn. destruct (String.eqb_spec (tmp m) (tmp n)) as [E|E]; [|reflexivity].
          apply tmp_inj in E. subst m. contradiction. }
        rewrite C. exists g, (SlotTable :: s). split; [reflexivity|]. split; [|split].
        * constructor; [|exact O]. rewrite K. { rewrite lookup_app, T by (left; reflexivity). cbn. rewrite String.eqb_refl. reflexivity. }
          intros m M E. apply tmp_inj in E. subst m. contradiction.
        * intros k N. rewrite K by (intros m M; apply N; right; exact M). rewrite lookup_app. destruct (lookup k f); [reflexivity|]. cbn.
          destruct (String.eqb_spec k (tmp n)) as [E|E]; [|reflexivity]. exfalso. exact (N n (or_introl eq_refl) E).
        * intros [|i] m h Hn Hf; [discriminate|]. exact (Z i m h Hn Hf).
      + destruct (IH first f D2 L2) as (g & s & C & O & K & Z); [intros m M; apply T; right; exact M|].
        rewrite C. exists g, (SlotHist (repeat 0%Z (List.length h)) :: s). split; [reflexivity|]. split; [|split].
        * constructor. exact O.
        * intros k N. apply K. intros m M. apply N. right; exact M.
        * intros [|i] m h' Hn Hf; [|exact (Z i m h' Hn Hf)]. cbn in Hn, Hf. injection Hn as <-. rewrite K; [apply T; left; reflexivity|].
          intros m M E. apply tmp_inj in E. subst m. contradiction.
  Qed.

  Lemma add_result_ok names : forall s c r f, NoDup names -> holding f names s c -> Forall2 kind_of c r ->
    exists g t, add_result names s r f = (g, t) /\ holding g names t (add_items c r) /\
      (forall k, (forall n, In n names -> k <> tmp n) -> lookup k g = lookup k f) /\ (forall k, lookup k f = None -> lookup k g = None) /\ Forall2 (fun c c' => forall x, kind_of c x -> kind_of c' x) c (add_items c r).
  Proof.
    induction names as [|n names IH]; intros s c r f D O F; inversion O as [|? ? s2 rows c2 L O2|? ? h s2 c2 O2]; subst.
    - inversion F; subst. exists f, []. cbn. split; [reflexivity|]. split; [constructor|]. split; [reflexivity|]. split; [auto|constructor].
    - inversion D as [|? ? D1 D2]; subst. inversion F as [|? x ? r2 X F2]; subst. destruct x as [q|q]; [|destruct X]. cbn [add_result add_items].
      destruct (IH s2 c2 r2 (append_rows (tmp n) q f) D2) as (g & t & C & O3 & K & Z & V); [|exact F2|].
      { apply holding_ext with (2 := O2). intros m M. rewrite lookup_append_rows. destruct (String.eqb_spec (tmp m) (tmp n)) as [E|E]; [|reflexivity].
        apply tmp_inj in E. subst m. contradiction. }
      rewrite C. exists g, (SlotTable :: t). split; [reflexivity|]. split; [|split; [|split]].
      + constructor; [|exact O3]. rewrite K. { rewrite lookup_append_rows, String.eqb_refl, L. reflexivity. }
        intros m M E. apply tmp_inj in E. subst m. contradiction.
      + intros k N. rewrite K by (intros m M; apply N; right; exact M). rewrite lookup_append_rows. destruct (String.eqb_spec k (tmp n)) as [E|E]; [|reflexivity].
        exfalso. exact (N n (or_introl eq_refl) E).
      + intros k N. apply Z. rewrite lookup_append_rows, N. destruct (String.eqb k (tmp n)); reflexivity.
      + constructor; [|exact V]. intros [?|?]; auto.
    - inversion D as [|? ? D1 D2]; subst. inversion F as [|? x ? r2 X F2]; subst. destruct x as [q|q]; [destruct X|]. cbn [add_result add_items].
      destruct (IH s2 c2 r2 f D2 O2 F2) as (g & t & C & O3 & K & Z & V). rewrite C. exists g, (SlotHist (combine_hist h q) :: t).
      split; [reflexivity|]. split; [constructor; exact O3|]. split; [|split].
      + intros k N. apply K. intros m M. apply N. right; exact M.
      + exact Z.
      + constructor; [|exact V]. intros [?|?]; auto.
  Qed.

  Lemma kinds_next (c c' : list (node A)) r : Forall2 (fun c c' => forall x, kind_of c x -> kind_of c' x) c c' -> Forall2 kind_of c r -> Forall2 kind_of c' r.
  Proof. intros H. revert r. induction H as [|a b c c' E H IH]; intros r F; inversion F; subst; constructor; auto. Qed.
  Lemma add_results_ok names results : forall s c f, NoDup names -> holding f names s c -> Forall (Forall2 kind_of c) results ->
    exists g t, add_results names results (f, s) = (g, t) /\ holding g names t (fold_left add_items results c) /\
      (forall k, (forall n, In n names -> k <> tmp n) -> lookup k g = lookup k f) /\ (forall k, lookup k f = None -> lookup k g = None).
  Proof.
    induction results as [|r results IH]; intros s c f D O F.
    - exists f, s. cbn. auto.
    - inversion F as [|? ? F1 F2]; subst. destruct (add_result_ok names s c r f D O F1) as (g & t & C & O2 & K & Z & V).
      destruct (IH t (add_items c r) g D O2) as (g2 & t2 & C2 & O3 & K2 & Z2).
      { apply Forall_impl with (2 := F2). intros q Q. apply kinds_next with (1 := V). exact Q. }
      exists g2, t2. split; [unfold add_results in *; cbn [fold_left fst snd]; rewrite C; exact C2|]. split; [exact O3|]. split.
      + intros k N. rewrite K2, K by exact N. reflexivity.
      + auto.
  Qed.

  Lemma finish_ok names : forall s c f, NoDup names -> holding f names s c -> (forall n m, In n names -> In m names -> tmp n <> m) ->
    let g := finish names s f in
    (forall i n x, nth_error names i = Some n -> nth_error c i = Some x -> lookup n g = Some x) /\
    (forall i n x, nth_error names i = Some n -> nth_error s i = Some SlotTable -> nth_error c i = Some x -> lookup (tmp n) g = None) /\
    (forall k, ~ In k names -> (forall n, In n names -> k <> tmp n) -> lookup k g = lookup k f) /\
    (forall k, ~ In k names -> lookup k f = None -> lookup k g = None).
  Proof.
    cbv zeta. induction names as [|n names IH]; intros s c f D O T; inversion O as [|? ? s2 rows c2 L O2|? ? h s2 c2 O2]; subst.
    - cbn. split; [|split; [|split; auto]]; intros [|] ? ? H; discriminate.
    - inversion D as [|? ? D1 D2]; subst. cbn [finish]. rewrite without_tmp. set (f1 := rename (tmp n) n (remove n f)).
      assert (Q : forall k, lookup k f1 = if String.eqb k n then lookup (tmp n) f else if String.eqb k (tmp n) then None else lookup k f).
      { intros k. unfold f1. rewrite lookup_rename; [|rewrite lookup_remove, String.eqb_refl; reflexivity|apply tmp_neq]. rewrite !lookup_remove.
        destruct (String.eqb_spec (tmp n) n) as [E|E]; [destruct (tmp_neq n E)|]. destruct (String.eqb k n); reflexivity. }
      destruct (IH s2 c2 f1 D2) as (P1 & P2 & P3 & P4).
      { apply holding_ext with (2 := O2). intros m M. rewrite Q. destruct (String.eqb_spec (tmp m) n) as [E|E].
        - destruct (T m n (or_intror M) (or_introl eq_refl) E).
        - destruct (String.eqb_spec (tmp m) (tmp n)) as [E2|E2]; [apply tmp_inj in E2; subst m; contradiction|reflexivity]. }
      { intros a b Ha Hb. apply T; right; assumption. }
      split; [|split; [|split]].
      + intros [|i] m x Hn Hc; [|exact (P1 i m x Hn Hc)]. cbn in Hn, Hc. injection Hn as <-. injection Hc as <-.
        rewrite P3; [rewrite Q, String.eqb_refl; exact L|exact D1|]. intros m M E. symmetry in E. revert E. apply T; [right; exact M|left; reflexivity].
      + intros [|i] m x Hn Hs Hc; [|exact (P2 i m x Hn Hs Hc)]. cbn in Hn. injection Hn as <-. apply P4.
        * intros M. exact (T n (tmp n) (or_introl eq_refl) (or_intror M) eq_refl).
        * rewrite Q. destruct (String.eqb_spec (tmp n) n) as [E|E]; [destruct (tmp_neq n E)|]. rewrite String.eqb_refl. reflexivity.
      + intros k N M. rewrite P3; [|intros H; apply N; right; exact H|intros m H; apply M; right; exact H]. rewrite Q.
        destruct (String.eqb_spec k n) as [E|E]; [exfalso; apply N; left; symmetry; exact E|].
        destruct (String.eqb_spec k (tmp n)) as [E2|E2]; [exfalso; exact (M n (or_introl eq_refl) E2)|reflexivity].
      + intros k N M. apply P4; [intros H; apply N; right; exact H|]. rewrite Q. destruct (String.eqb_spec k n) as [E|E]; [exfalso; apply N; left; symmetry; exact E|].
        destruct (String.eqb k (tmp n)); [reflexivity|exact M].
    - inversion D as [|? ? D1 D2]; subst. cbn [finish]. set (f1 := (remove n f ++ [(n, ArrayNode h)])%list).
      assert (Q : forall k, lookup k f1 = if String.eqb k n then Some (ArrayNode h) else lookup k f).
      { intros k. unfold f1. rewrite lookup_app, lookup_remove. cbn. destruct (String.eqb k n); [reflexivity|]. destruct (lookup k f); reflexivity. }
      destruct (IH s2 c2 f1 D2) as (P1 & P2 & P3 & P4).
      { apply holding_ext with (2 := O2). intros m M. rewrite Q. destruct (String.eqb_spec (tmp m) n) as [E|E]; [|reflexivity].
        destruct (T m n (or_intror M) (or_introl eq_refl) E). }
      { intros a b Ha Hb. apply T; right; assumption. }
      split; [|split; [|split]].
      + intros [|i] m x Hn Hc; [|exact (P1 i m x Hn Hc)]. cbn in Hn, Hc. injection Hn as <-. injection Hc as <-.
        rewrite P3; [rewrite Q, String.eqb_refl; reflexivity|exact D1|]. intros m M E. symmetry in E. revert E. apply T; [right; exact M|left; reflexivity].
      + intros [|i] m x Hn Hs Hc; [discriminate|exact (P2 i m x Hn Hs Hc)].
      + intros k N M. rewrite P3; [|intros H; apply N; right; exact H|intros m H; apply M; right; exact H]. rewrite Q.
        destruct (String.eqb_spec k n) as [E|E]; [exfalso; apply N; left; symmetry; exact E|reflexivity].
      + intros k N M. apply P4; [intros H; apply N; right; exact H|]. rewrite Q. destruct (String.eqb_spec k n) as [E|E]; [exfalso; apply N; left; symmetry; exact E|exact M].
  Qed.
  Lemma consistent_kinds first r : consistent first r = true -> Forall2 kind_of (map start first) r.
  Proof.
    revert r. induction first as [|a first IH]; intros [|b r] H; try discriminate; cbn; constructor.
    - apply andb_prop in H as [H _]. destruct a, b; try discriminate; exact Logic.I.
    - apply IH. apply andb_prop in H as [_ H]. exact H.
  Qed.
  (** the contents, column by column *)
  Lemma fold_add_items results : forall c i x, Forall (fun r => List.length r = List.length c) results -> nth_error c i = Some x ->
    nth_error (fold_left add_items results c) i = Some (fold_left (fun x r => match nth_error r i with Some y => add_item x y | None => x end) results x).
  Proof.
    assert (S1 : forall c r i x, List.length r = List.length c -> nth_error c i = Some x ->
      nth_error (add_items c r) i = Some (match nth_error r i with Some y => add_item x y | None => x end)).
    { induction c as [|a c IH]; intros [|b r] [|i] x L H; try discriminate; cbn in *.
      - injection H as <-. reflexivity.
      - apply IH; [lia|exact H]. }
    assert (S2 : forall c r, List.length r = List.length c -> List.length (add_items c r) = List.length c).
    { induction c as [|a c IH]; intros [|b r] L; cbn in *; try discriminate; [reflexivity|]. rewrite IH; lia. }
    induction results as [|r results IH]; intros c i x F H; [exact H|]. inversion F as [|? ? F1 F2]; subst. cbn [fold_left]. apply IH.
    - apply Forall_impl with (2 := F2). intros q Q. rewrite S2; assumption.
    - apply S1; assumption.
  Qed.
End Files.
