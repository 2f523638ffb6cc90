(** Properties of the file of histogram_track_angle *)
From Coq Require Import List Arith Reals Bool Lia Lra Permutation Sorted.
From Verif Require Import GeometryModel GeometryProofs RunningMeanModel TrackAngleModel AngleFileModel.
Import ListNotations.

(** ---- small facts ---- *)
Lemma some_inj : forall {T} (a b : T), Some a = Some b -> a = b.
Proof. intros T a b [=]. assumption. Qed.
Lemma selected_in : forall z s d, In d (selected z s) <-> In d z /\ In d s.
Proof.
  intros z s d. unfold selected. rewrite in_flat_map. split.
  - intros (e & Ie & Id). apply repeat_spec in Id as Ee. subst e. split; [exact Ie|].
    apply (count_occ_In Nat.eq_dec). destruct (count_occ Nat.eq_dec s d); [destruct Id|lia].
  - intros [Iz Is]. exists d. split; [exact Iz|]. apply (count_occ_In Nat.eq_dec) in Is.
    destruct (count_occ Nat.eq_dec s d); [lia|left; reflexivity].
Qed.

Lemma selected_nodup : forall z s, NoDup z -> (NoDup (selected z s) <-> forall d, In d z -> count_occ Nat.eq_dec s d <= 1).
Proof.
  intros z s N. induction N as [|d z Nd N IH]; [cbn; split; [intros _ d []|constructor]|].
  change (selected (d :: z) s) with (repeat d (count_occ Nat.eq_dec s d) ++ selected z s). split.
  - intros H e [<-|I].
    + destruct (count_occ Nat.eq_dec s d) as [|[|n]]; [lia|lia|]. cbn in H. inversion_clear H as [|? ? A B]. destruct A. left; reflexivity.
    + apply (proj1 IH); [|exact I]. clear - H. induction (repeat d _) as [|x l IHl]; [exact H|]. apply IHl. inversion H; assumption.
  - intros H. assert (NoDup (selected z s)) as M by (apply IH; intros e I; apply H; right; exact I).
    specialize (H d (or_introl eq_refl)). destruct (count_occ Nat.eq_dec s d) as [|[|n]]; [exact M| |lia].
    cbn. constructor; [|exact M]. intro I. apply selected_in in I. apply Nd, I.
Qed.

Lemma create_inv : forall new f g, create f new = Some g -> g = f ++ new.
Proof.
  induction new as [|e new IH]; cbn; intros f g H; [injection H as <-; rewrite app_nil_r; reflexivity|].
  match type of H with context [if ?b then _ else _] => destruct b end; [discriminate|].
  rewrite (IH _ _ H), <- app_assoc. reflexivity.
Qed.

Lemma existsb_node : forall (f : file) n,
  existsb (fun x : node * hist => if node_eq_dec (fst x) n then true else false) f = true <-> In n (map fst f).
Proof.
  intros f n. rewrite existsb_exists, in_map_iff. split.
  - intros (x & I & E). exists x. destruct (node_eq_dec (fst x) n); [split; assumption|discriminate].
  - intros (x & E & I). exists x. split; [exact I|]. destruct (node_eq_dec (fst x) n); [reflexivity|contradiction].
Qed.

Lemma create_iff : forall new f, NoDup (map fst f) -> (create f new = Some (f ++ new) <-> NoDup (map fst (f ++ new))).
Proof.
  induction new as [|e new IH]; intros f N; [cbn; rewrite app_nil_r; tauto|]. cbn [create].
  match goal with |- context [if ?b then _ else _] => destruct b eqn:E end.
  - apply existsb_node in E. split; [discriminate|]. intro H. exfalso. rewrite map_app in H. apply NoDup_remove_2 in H. apply H, in_or_app. left; exact E.
  - assert (~ In (fst e) (map fst f)) as E' by (intro I; apply existsb_node in I; congruence).
    assert (NoDup (map fst (f ++ [e]))) as N'.
    { rewrite map_app. apply (Permutation_NoDup (Permutation_cons_append _ _)). constructor; assumption. }
    specialize (IH (f ++ [e]) N'). rewrite <- app_assoc in IH. exact IH.
Qed.

Lemma create_nodup : forall new f g, NoDup (map fst f) -> create f new = Some g -> NoDup (map fst g).
Proof. intros new f g N H. pose proof (create_inv _ _ _ H) as ->. apply create_iff; assumption. Qed.

Lemma read_in : forall (f : file) n h, NoDup (map fst f) -> (read f n = Some h <-> In (n, h) f).
Proof.
  induction f as [|[m k] f IH]; intros n h N; [cbn; split; [discriminate|tauto]|]. inversion_clear N as [|? ? A B]. unfold read in *. cbn.
  destruct (node_eq_dec m n) as [->|D]; cbn.
  - split; [intros [= ->]; left; reflexivity|]. intros [[= ->]|I]; [reflexivity|]. destruct A. exact (in_map fst _ _ I).
  - rewrite (IH n h B). split; [right; assumption|]. intros [[= -> _]|I]; [contradiction|exact I].
Qed.

Section Loop.
Variables (n_bins : nat) (telescope : nat -> tracks).

Definition pick (a : angle) (t : three) : hist := match a with Total => fst (fst t) | Alpha => snd (fst t) | Beta => snd t end.

Lemma hists_iff : forall s t h, dut_hists n_bins s t = Some h <-> forall a, dut_hist n_bins s a t = Some (pick a h).
Proof.
  intros s t [[x y] z]. unfold dut_hists. split.
  - intros H a. destruct (dut_hist n_bins s Total t) eqn:E1, (dut_hist n_bins s Alpha t) eqn:E2, (dut_hist n_bins s Beta t) eqn:E3; try discriminate.
    injection H as <- <- <-. destruct a; assumption.
  - intros H. rewrite (H Total), (H Alpha), (H Beta). reflexivity.
Qed.

Lemma no_chunk : forall s t, t_chunks t = [] -> dut_hists n_bins s t = None.
Proof. intros s t E. unfold dut_hists, dut_hist. rewrite E. reflexivity. Qed.

(** the entries of a DUT *)
Definition dut_entries (d : nat) (g l : three) : file := entries Global (Some d) g ++ entries Local (Some d) l.

(** the DUT whose histograms are stored for each DUT of the list, if [p] is the one stored before *)
Fixpoint sources (p : nat) (l : list nat) : list (nat * nat) :=
  match l with
  | [] => []
  | d :: l => let q := match t_chunks (telescope d) with [] => p | _ :: _ => d end in (d, q) :: sources q l
  end.

Definition stored (e : nat * nat) : option file :=
  match dut_hists n_bins Global (telescope (snd e)), dut_hists n_bins Local (telescope (snd e)) with
  | Some g, Some l => Some (dut_entries (fst e) g l)
  | _, _ => None
  end.

Fixpoint all_stored (l : list (nat * nat)) : option file :=
  match l with
  | [] => Some []
  | e :: l => match stored e, all_stored l with Some a, Some b => Some (a ++ b) | _, _ => None end
  end.

Lemma loop_spec : forall duts p g l index f,
  dut_hists n_bins Global (telescope p) = Some g -> dut_hists n_bins Local (telescope p) = Some l -> NoDup (map fst f) ->
  forall out, angle_loop n_bins telescope (S index) (Vars (Some g) (Some l)) f duts = Some out <->
    exists new, all_stored (sources p duts) = Some new /\ out = f ++ new /\ NoDup (map fst out).
Proof.
  induction duts as [|d duts IH]; intros p g l index f Eg El N out.
  - cbn. split.
    + intros [= <-]. exists []. rewrite app_nil_r. auto.
    + intros (new & [= <-] & -> & _). rewrite app_nil_r. reflexivity.
  - cbn [angle_loop sources all_stored]. unfold update, stored. cbn [fst snd v_global v_local].
    assert (forall q g' l', dut_hists n_bins Global (telescope q) = Some g' -> dut_hists n_bins Local (telescope q) = Some l' ->
      (match dut_nodes (S index) d (Vars (Some g') (Some l')) with
       | None => None
       | Some nodes => match create f nodes with None => None | Some f => angle_loop n_bins telescope (S (S index)) (Vars (Some g') (Some l')) f duts end
       end = Some out <->
       exists new, match all_stored (sources q duts) with Some b => Some (dut_entries d g' l' ++ b) | None => None end = Some new /\ out = f ++ new /\ NoDup (map fst out))) as K.
    { intros q g' l' Eg' El'. cbn [dut_nodes v_global v_local]. fold (dut_entries d g' l').
      destruct (create f (dut_entries d g' l')) as [f'|] eqn:C.
      - pose proof (create_nodup _ _ _ N C) as N'. pose proof (create_inv _ _ _ C) as ->.
        rewrite (IH q g' l' (S index) _ Eg' El' N' out). split.
        + intros (new & A & -> & M). rewrite A. exists (dut_entries d g' l' ++ new). split; [reflexivity|]. rewrite app_assoc. split; [reflexivity|exact M].
        + intros (new & A & B & M). destruct (all_stored (sources q duts)) as [b|]; [|discriminate]. injection A as <-. exists b. rewrite <- app_assoc. auto.
      - split; [discriminate|]. intros (new & A & -> & M). destruct (all_stored (sources q duts)) as [b|]; [|discriminate]. injection A as <-.
        exfalso. assert (NoDup (map fst (f ++ dut_entries d g' l') ++ map fst b)) as M0 by (rewrite <- map_app, <- app_assoc; exact M). clear M. rename M0 into M.
        assert (NoDup (map fst (f ++ dut_entries d g' l'))) as M'.
        { clear - M. induction (map fst (f ++ dut_entries d g' l')) as [|x k IHk]; [constructor|]. cbn in M. inversion_clear M as [|? ? A B].
          constructor; [intro I; apply A, in_or_app; left; exact I|apply IHk, B]. }
        apply create_iff in M'; [|exact N]. congruence. }
    destruct (t_chunks (telescope d)) as [|c cs] eqn:Ec.
    + rewrite Eg, El. exact (K p g l Eg El).
    + destruct (dut_hists n_bins Global (telescope d)) as [g'|] eqn:Eg'.
      * destruct (dut_hists n_bins Local (telescope d)) as [l'|] eqn:El'.
        -- exact (K d g' l' Eg' El').
        -- split; [discriminate|]. intros (new & A & _). discriminate.
      * split; [discriminate|]. intros (new & A & _). discriminate.
Qed.

Lemma run_spec : forall d duts out,
  angle_loop n_bins telescope 0 (Vars None None) [] (d :: d :: duts) = Some out <->
  exists g new, dut_hists n_bins Global (telescope d) = Some g /\ all_stored (sources d (d :: duts)) = Some new /\
    out = entries Global None g ++ new /\ NoDup (map fst out).
Proof.
  intros d duts out. cbn [angle_loop sources all_stored]. unfold update at 1. unfold stored at 1. cbn [fst snd].
  assert (NoDup (map fst (entries Global None (([], []), ([], []), ([], []))))) as N0.
  { cbn. repeat constructor; cbn; intuition discriminate. }
  destruct (t_chunks (telescope d)) as [|c cs] eqn:Ec.
  { cbn. split; [discriminate|]. intros (g & new & A & _). rewrite (no_chunk _ _ Ec) in A. discriminate. }
  destruct (dut_hists n_bins Global (telescope d)) as [g|] eqn:Eg.
  2: { split; [discriminate|]. intros (g & new & A & _). discriminate. }
  change (dut_nodes 0 d (Vars (Some g) (v_local (Vars None None)))) with (Some (entries Global None g)). cbv beta iota.
  assert (create [] (entries Global None g) = Some (entries Global None g)) as ->. { apply (proj2 (create_iff (entries Global None g) [] (NoDup_nil _))). exact N0. }
  unfold update. rewrite Ec, Eg. destruct (dut_hists n_bins Local (telescope d)) as [l|] eqn:El.
  2: { split; [discriminate|]. intros (g' & new & _ & A & _). discriminate. }
  change (dut_nodes 1 d (Vars (Some g) (Some l))) with (Some (dut_entries d g l)). cbv beta iota.
  assert (create (entries Global None g) (dut_entries d g l) = Some (entries Global None g ++ dut_entries d g l)) as ->.
  { apply create_iff; [exact N0|]. cbn. repeat constructor; cbn; intuition discriminate. }
  rewrite (loop_spec duts d g l 1 _ Eg El).
  2: { cbn. repeat constructor; cbn; intuition discriminate. }
  split.
  - intros (new & A & -> & M). rewrite A. exists g, (dut_entries d g l ++ new). rewrite app_assoc. auto.
  - intros (g' & new & [= <-] & A & B & M). destruct (all_stored (sources d duts)) as [b|]; [|discriminate]. injection A as <-. exists b. rewrite <- app_assoc. auto.
Qed.

Lemma sources_fst : forall l p, map fst (sources p l) = l.
Proof. induction l as [|d l IH]; intros p; cbn; [reflexivity|]. rewrite IH. reflexivity. Qed.

Lemma stored_in : forall l out, all_stored l = Some out ->
  forall n h, In (n, h) out <-> exists d q s a, In (d, q) l /\ n = (s, a, Some d) /\ dut_hist n_bins s a (telescope q) = Some h.
Proof.
  induction l as [|[d q] l IH]; intros out E n h.
  - injection E as <-. split; [intros []|]. intros (? & ? & ? & ? & [] & _).
  - cbn [all_stored] in E. unfold stored in E. cbn [fst snd] in E.
    destruct (dut_hists n_bins Global (telescope q)) as [g|] eqn:Eg; [|discriminate].
    destruct (dut_hists n_bins Local (telescope q)) as [k|] eqn:El; [|discriminate].
    destruct (all_stored l) as [b|]; [|discriminate]. apply some_inj in E. subst out. rewrite in_app_iff, (IH b eq_refl n h).
    pose proof (proj1 (hists_iff _ _ _) Eg) as Hg. pose proof (proj1 (hists_iff _ _ _) El) as Hl. split.
    + intros [H|(d' & q' & s & a & A & B)].
      * unfold dut_entries, entries in H. cbn in H.
        destruct H as [H|[H|[H|[H|[H|[H|[]]]]]]]; injection H as <- <-; do 4 eexists; (split; [left; reflexivity|]); (split; [reflexivity|]).
        -- exact (Hg Total). -- exact (Hg Alpha). -- exact (Hg Beta). -- exact (Hl Total). -- exact (Hl Alpha). -- exact (Hl Beta).
      * exists d', q', s, a. split; [right; exact A|exact B].
    + intros (d' & q' & s & a & A & -> & Hh). destruct A as [A|A]; [injection A as <- <-|].
      * left. unfold dut_entries, entries. destruct s; [rewrite Hg in Hh|rewrite Hl in Hh]; injection Hh as <-; destruct a; cbn; tauto.
      * right. exists d', q', s, a. auto.
Qed.

Lemma sources_split : forall pre p q b post, t_chunks (telescope q) <> [] -> (forall e, In e b -> t_chunks (telescope e) = []) ->
  forall d, In d (q :: b) -> In (d, q) (sources p (pre ++ q :: b ++ post)).
Proof.
  induction pre as [|x pre IH]; intros p q b post Hq Hb d I.
  - cbn. destruct (t_chunks (telescope q)) eqn:E; [contradiction|]. destruct I as [<-|I]; [left; reflexivity|]. right. clear E Hq.
    induction b as [|e b IHb]; [destruct I|]. cbn. rewrite (Hb e (or_introl eq_refl)). destruct I as [<-|I]; [left; reflexivity|]. right. apply IHb; [|exact I].
    intros e' I'. apply Hb. right; exact I'.
  - cbn. right. apply IH; assumption.
Qed.

Lemma sources_fine : forall l p d q, In (d, q) (sources p l) -> q = p \/ In q l /\ t_chunks (telescope q) <> [].
Proof.
  induction l as [|x l IH]; intros p d q; cbn; [intros []|]. destruct (t_chunks (telescope x)) eqn:E.
  - intros [[= <- <-]|I]; [left; reflexivity|]. destruct (IH _ _ _ I) as [->|[A B]]; [left; reflexivity|right; split; [right; exact A|exact B]].
  - intros [[= <- <-]|I]; [right; split; [left; reflexivity|rewrite E; discriminate]|].
    destruct (IH _ _ _ I) as [->|[A B]]; [right; split; [left; reflexivity|rewrite E; discriminate]|right; split; [right; exact A|exact B]].
Qed.

Lemma all_stored_some : forall l, (forall d q, In (d, q) l -> exists g k, dut_hists n_bins Global (telescope q) = Some g /\ dut_hists n_bins Local (telescope q) = Some k) ->
  exists out, all_stored l = Some out.
Proof.
  induction l as [|[d q] l IH]; intros H; [eexists; reflexivity|]. destruct (H d q (or_introl eq_refl)) as (g & k & A & B).
  destruct IH as [out E]; [intros d' q' I; apply (H d' q'); right; exact I|]. cbn. unfold stored. cbn. rewrite A, B, E. eexists; reflexivity.
Qed.

Lemma all_stored_names : forall l out, all_stored l = Some out ->
  map fst out = flat_map (fun d => [(Global, Total, Some d); (Global, Alpha, Some d); (Global, Beta, Some d); (Local, Total, Some d); (Local, Alpha, Some d); (Local, Beta, Some d)]) (map fst l).
Proof.
  induction l as [|[d q] l IH]; intros out E; [injection E as <-; reflexivity|]. cbn [all_stored] in E. unfold stored in E. cbn [fst snd] in E.
  destruct (dut_hists n_bins Global (telescope q)) as [g|]; [|discriminate]. destruct (dut_hists n_bins Local (telescope q)) as [k|]; [|discriminate].
  destruct (all_stored l) as [b|]; [|discriminate]. apply some_inj in E. subst out. rewrite map_app, (IH b eq_refl). reflexivity.
Qed.
End Loop.

Lemma names_nodup : forall l : list nat,
  NoDup ([(Global, Total, None); (Global, Alpha, None); (Global, Beta, None)] ++
    flat_map (fun d => [(Global, Total, Some d); (Global, Alpha, Some d); (Global, Beta, Some d); (Local, Total, Some d); (Local, Alpha, Some d); (Local, Beta, Some d)]) l) <-> NoDup l.
Proof.
  assert (forall (l : list nat) s a o, In (s, a, o) (flat_map (fun d => [(Global, Total, Some d); (Global, Alpha, Some d); (Global, Beta, Some d); (Local, Total, Some d); (Local, Alpha, Some d); (Local, Beta, Some d)]) l)
    <-> exists d, o = Some d /\ In d l) as M.
  { intros l s a o. rewrite in_flat_map. split.
    - intros (d & I & H). exists d. split; [|exact I]. cbn in H. intuition congruence.
    - intros (d & -> & I). exists d. split; [exact I|]. destruct s, a; cbn; tauto. }
  intros l. transitivity (NoDup (flat_map (fun d => [(Global, Total, Some d); (Global, Alpha, Some d); (Global, Beta, Some d); (Local, Total, Some d); (Local, Alpha, Some d); (Local, Beta, Some d)]) l)).
  - split.
    + intros H. cbn in H. inversion_clear H as [|? ? _ H1]. inversion_clear H1 as [|? ? _ H2]. inversion_clear H2 as [|? ? _ H3]. exact H3.
    + intros H. cbn [app]. repeat constructor; [..|exact H]; cbn [In]; rewrite M; intros K; intuition (try discriminate);
      match goal with X : exists _, _ |- _ => destruct X as (? & X & _); discriminate end.
  - induction l as [|d l IH]; [cbn; split; constructor|]. cbn [flat_map app]. split.
    + intros H. inversion_clear H as [|? ? A H1]. inversion_clear H1 as [|? ? _ H2]. inversion_clear H2 as [|? ? _ H3]. inversion_clear H3 as [|? ? _ H4].
      inversion_clear H4 as [|? ? _ H5]. inversion_clear H5 as [|? ? _ H6]. constructor; [|apply IH, H6]. intro I. apply A. do 5 right. apply M. exists d. auto.
    + intros H. inversion_clear H as [|? ? A B]. repeat constructor; [..|apply IH, B]; cbn [In]; rewrite M; intros K; intuition (try discriminate);
      match goal with X : exists _, _ |- _ => destruct X as (? & X & ?); injection X as ->; contradiction end.
Qed.

(** ---- specification ---- *)
(** the telescope: [count] DUTs at the positions [z] along the beam; [order] lists their indices along the beam *)
Definition beam_order (count : nat) (z : nat -> R) (order : list nat) : Prop := Permutation order (seq 0 count) /\ StronglySorted (fun a b => (z a <= z b)%R) order.
(** the selected DUT with the smallest position *)
Definition first_dut (order select : list nat) (d : nat) : Prop := exists a b, order = a ++ d :: b /\ In d select /\ forall e, In e a -> ~ In e select.

Lemma first_selected : forall order select d, NoDup order -> (first_dut order select d <-> exists l, selected order select = d :: l).
Proof.
  intros order select d N. split.
  - intros (a & b & -> & I & H). unfold selected. rewrite flat_map_app. cbn.
    assert (flat_map (fun e => repeat e (count_occ Nat.eq_dec select e)) a = []) as ->.
    { clear - H. induction a as [|e a IH]; [reflexivity|]. cbn. rewrite (proj1 (count_occ_not_In Nat.eq_dec select e) (H e (or_introl eq_refl))). cbn. apply IH. intros; apply H; right; assumption. }
    apply (count_occ_In Nat.eq_dec) in I. destruct (count_occ Nat.eq_dec select d); [lia|]. cbn. eexists; reflexivity.
  - intros [l E]. clear N. revert l E. induction order as [|e order IH]; intros l E; [discriminate|]. cbn in E.
    destruct (count_occ Nat.eq_dec select e) eqn:C.
    + cbn in E. destruct (IH _ E) as (a & b & -> & I & H). exists (e :: a), b. split; [reflexivity|]. split; [exact I|].
      intros x [<-|J]; [apply (count_occ_not_In Nat.eq_dec); exact C|apply H, J].
    + cbn in E. injection E as -> _. exists [], order. split; [reflexivity|]. split; [apply (count_occ_In Nat.eq_dec); lia|intros x []].
Qed.

(** ---- C127 ---- *)
(** The function ends without exception exactly if a DUT of the telescope is selected, no DUT of the telescope is selected twice, the number of bins is not zero, the first DUT has tracks,
    and every selected DUT with tracks has in its first chunk a track for each of its angles. *)
Theorem C127_success : forall n_bins telescope count z order select, beam_order count z order ->
  ((exists out, histogram_track_angle n_bins telescope order select = Some out) <->
   (exists d, first_dut order select d /\ t_chunks (telescope d) <> []) /\
   (forall d, d < count -> count_occ Nat.eq_dec select d <= 1) /\ 0 < n_bins /\
   (forall d c cs s a, In d select -> d < count -> t_chunks (telescope d) = c :: cs -> exists t x, In t c /\ track_angle s a (t_place (telescope d)) t = Some x)).
Proof.
  intros n_bins telescope count z order select [P _].
  assert (NoDup order) as N by (apply (Permutation_NoDup (Permutation_sym P)), seq_NoDup).
  assert (forall d, In d order <-> d < count) as Ord.
  { intro d. split; intro I; [apply (Permutation_in _ P) in I; apply in_seq in I; lia|apply (Permutation_in _ (Permutation_sym P)), in_seq; lia]. }
  assert (forall s a t, (exists h, dut_hist n_bins s a t = Some h) <-> exists c cs, t_chunks t = c :: cs /\ 0 < n_bins /\ exists k x, In k c /\ track_angle s a (t_place t) k = Some x) as Hist.
  { intros s a t. unfold dut_hist, angle_histogram, angle_edges. destruct (t_chunks t) as [|c cs]; cbn [map].
    - split; [intros [h H]; discriminate|intros (c & cs & H & _); discriminate].
    - assert ((exists k x, In k c /\ track_angle s a (t_place t) k = Some x) <-> not_nan (map (track_angle s a (t_place t)) c) <> []) as NN.
      { split.
        - intros (k & x & I & E) Z. assert (In x (not_nan (map (track_angle s a (t_place t)) c))) as J.
          { unfold not_nan. apply in_flat_map. exists (Some x). split; [rewrite <- E; apply in_map, I|left; reflexivity]. }
          rewrite Z in J. destruct J.
        - intros Z. destruct (not_nan (map (track_angle s a (t_place t)) c)) as [|x l] eqn:E; [contradiction|].
          assert (In x (not_nan (map (track_angle s a (t_place t)) c))) as J by (rewrite E; left; reflexivity).
          unfold not_nan in J. apply in_flat_map in J. destruct J as (y & J & K). apply in_map_iff in J. destruct J as (k & <- & I). exists k. destruct (track_angle s a (t_place t) k); [|destruct K]. eexists. split; [exact I|reflexivity]. }
      split.
      + intros [h H]. exists c, cs. split; [reflexivity|]. destruct n_bins as [|n]; [discriminate|]. split; [lia|]. apply NN. intro Z. rewrite Z in H. discriminate.
      + intros (c' & cs' & [= <- <-] & Hn & K). apply NN in K. destruct n_bins as [|n]; [lia|]. destruct (not_nan (map (track_angle s a (t_place t)) c)); [contradiction|]. eexists; reflexivity. }
  assert (forall s t, (exists h, dut_hists n_bins s t = Some h) <-> forall a, exists h, dut_hist n_bins s a t = Some h) as Hists.
  { intros s t. split.
    - intros [h H] a. exists (pick a h). apply hists_iff. exact H.
    - intros H. unfold dut_hists. destruct (H Total) as [x ->], (H Alpha) as [y ->], (H Beta) as [w ->]. eexists; reflexivity. }
  unfold histogram_track_angle. destruct (selected order select) as [|d duts] eqn:Es.
  { split; [intros [out H]; discriminate|]. intros ((d & F & _) & _). apply (first_selected _ _ _ N) in F. destruct F as [l F]. congruence. }
  assert (first_dut order select d) as Fd by (apply (first_selected _ _ _ N); eexists; exact Es).
  assert (forall e, In e (d :: duts) <-> e < count /\ In e select) as Sel by (intro e; rewrite <- Es, selected_in, Ord; reflexivity).
  split.
  - intros [out H]. apply run_spec in H. destruct H as (g & new & Eg & A & -> & M).
    assert (t_chunks (telescope d) <> []) as Nd by (intro E; rewrite (no_chunk _ _ _ E) in Eg; discriminate).
    split; [exists d; split; assumption|]. split.
    + intros e He. rewrite map_app, (all_stored_names _ _ _ _ A), (sources_fst telescope) in M.
      apply (names_nodup (d :: duts)) in M. rewrite <- Es in M. apply (selected_nodup _ _ N); [exact M|apply Ord, He].
    + split.
      * destruct (proj1 (Hists Global (telescope d)) (ex_intro _ g Eg) Total) as [h Hh].
        destruct (proj1 (Hist _ _ _) (ex_intro _ h Hh)) as (c & cs & _ & K & _). exact K.
      * intros e c cs s a Ie He Ec.
        assert (In (e, e) (sources telescope d (d :: duts))) as Src.
        { assert (In e (d :: duts)) as Ie' by (apply Sel; auto). apply in_split in Ie'. destruct Ie' as (pre & post & ->).
          apply (sources_split telescope pre d e [] post); [rewrite Ec; discriminate|intros x []|left; reflexivity]. }
        assert (exists h, dut_hist n_bins s a (telescope e) = Some h) as Hh.
        { clear - A Src. revert new A Src. induction (sources telescope d (d :: duts)) as [|[x y] l IH]; intros new A Src; [destruct Src|].
          cbn [all_stored] in A. unfold stored in A. cbn [fst snd] in A. destruct (dut_hists n_bins Global (telescope y)) as [g|] eqn:Eg; [|discriminate].
          destruct (dut_hists n_bins Local (telescope y)) as [k|] eqn:El; [|discriminate]. destruct (all_stored n_bins telescope l) as [b|]; [|discriminate].
          destruct Src as [[= -> ->]|Src]; [|exact (IH b eq_refl Src)].
          destruct s; [exists (pick a g)|exists (pick a k)]; apply hists_iff; assumption. }
        apply Hist in Hh. destruct Hh as (c' & cs' & Ec' & _ & K). rewrite Ec in Ec'. injection Ec' as <- <-. exact K.
  - intros ((d' & F & Nd) & Once & Hn & K). apply (first_selected _ _ _ N) in F. destruct F as [l F]. rewrite Es in F. injection F as <- <-.
    assert (forall e s, In e (d :: duts) -> t_chunks (telescope e) <> [] -> exists h, dut_hists n_bins s (telescope e) = Some h) as Good.
    { intros e s Ie Ne. apply Hists. intro a. apply Hist. destruct (t_chunks (telescope e)) as [|c cs] eqn:Ec; [contradiction|]. exists c, cs. split; [reflexivity|]. split; [exact Hn|].
      apply Sel in Ie. apply (K e c cs s a (proj2 Ie) (proj1 Ie) Ec). }
    destruct (Good d Global (or_introl eq_refl) Nd) as [g Eg].
    destruct (all_stored_some n_bins telescope (sources telescope d (d :: duts))) as [new A].
    { intros e q I. apply sources_fine in I.
      assert (In q (d :: duts) /\ t_chunks (telescope q) <> []) as [Iq Nq] by (destruct I as [->|I]; [split; [left; reflexivity|exact Nd]|exact I]).
      destruct (Good q Global Iq Nq) as [g' ?], (Good q Local Iq Nq) as [k ?]. exists g', k. auto. }
    exists (entries Global None g ++ new). apply run_spec. exists g, new. split; [exact Eg|]. split; [exact A|]. split; [reflexivity|].
    rewrite map_app, (all_stored_names _ _ _ _ A), (sources_fst telescope). apply (names_nodup (d :: duts)). rewrite <- Es. apply (selected_nodup _ _ N). intros e I. apply Once, Ord, I.
Qed.

(** Every node of the file: the angles of the telescope are the global angles of the selected DUT with the smallest position along the beam;
    a selected DUT with tracks has its own histograms, of the slopes of its own table; there is no node of any other DUT. *)
Theorem C127_file : forall n_bins telescope count z order select out, beam_order count z order -> histogram_track_angle n_bins telescope order select = Some out ->
  (forall a, exists d, In d select /\ d < count /\ (forall e, In e select -> e < count -> (z d <= z e)%R) /\ read out (Global, a, None) = dut_hist n_bins Global a (telescope d)) /\
  (forall d s a, In d select -> d < count -> t_chunks (telescope d) <> [] -> read out (s, a, Some d) = dut_hist n_bins s a (telescope d)) /\
  (forall s a d h, read out (s, a, d) = Some h -> d = None /\ s = Global \/ exists e, d = Some e /\ In e select /\ e < count).
Proof.
  intros n_bins telescope count z order select out [P Z] H.
  assert (NoDup order) as N by (apply (Permutation_NoDup (Permutation_sym P)), seq_NoDup).
  assert (forall d, In d order <-> d < count) as Ord.
  { intro d. split; intro I; [apply (Permutation_in _ P) in I; apply in_seq in I; lia|apply (Permutation_in _ (Permutation_sym P)), in_seq; lia]. }
  unfold histogram_track_angle in H. destruct (selected order select) as [|d duts] eqn:Es; [discriminate|].
  assert (forall e, In e (d :: duts) <-> e < count /\ In e select) as Sel by (intro e; rewrite <- Es, selected_in, Ord; reflexivity).
  assert (first_dut order select d) as Fd by (apply (first_selected _ _ _ N); eexists; exact Es).
  apply run_spec in H. destruct H as (g & new & Eg & A & Eo & M).
  pose proof (proj1 (hists_iff _ _ _ _) Eg) as Hg. split; [|split].
  - intros a. exists d. destruct (proj1 (Sel d) (or_introl eq_refl)) as [Hd Id]. split; [exact Id|]. split; [exact Hd|]. split.
    + intros e Ie He. destruct Fd as (pre & post & -> & _ & F).
      assert (In e (pre ++ d :: post)) as J by (apply Ord, He). apply in_app_or in J. destruct J as [J|[<-|J]]; [destruct (F e J Ie)|apply Rle_refl|].
      clear - Z J. induction pre as [|x pre IH]; cbn in Z; inversion_clear Z as [|? ? Z1 Z2]; [|apply IH, Z1]. rewrite Forall_forall in Z2. apply Z2, J.
    + rewrite (Hg a). apply read_in; [exact M|]. rewrite Eo. apply in_or_app. left. destruct a; cbn; tauto.
  - intros e s a Ie He Ne.
    assert (In (e, e) (sources telescope d (d :: duts))) as Src.
    { assert (In e (d :: duts)) as Ie' by (apply Sel; auto). apply in_split in Ie'. destruct Ie' as (pre & post & ->).
      apply (sources_split telescope pre d e [] post); [exact Ne|intros x []|left; reflexivity]. }
    assert (exists h, dut_hist n_bins s a (telescope e) = Some h) as [h Hh].
    { clear - A Src. revert new A Src. induction (sources telescope d (d :: duts)) as [|[x y] l IH]; intros new A Src; [destruct Src|].
      cbn [all_stored] in A. unfold stored in A. cbn [fst snd] in A. destruct (dut_hists n_bins Global (telescope y)) as [g|] eqn:Eg; [|discriminate].
      destruct (dut_hists n_bins Local (telescope y)) as [k|] eqn:El; [|discriminate]. destruct (all_stored n_bins telescope l) as [b|]; [|discriminate].
      destruct Src as [[= -> ->]|Src]; [|exact (IH b eq_refl Src)].
      destruct s; [exists (pick a g)|exists (pick a k)]; apply hists_iff; assumption. }
    rewrite Hh. apply read_in; [exact M|]. rewrite Eo. apply in_or_app. right. apply (stored_in _ _ _ _ A). exists e, e, s, a. auto.
  - intros s a o h R. apply read_in in R; [|exact M]. rewrite Eo in R. apply in_app_or in R. destruct R as [R|R].
    + left. cbn in R. intuition congruence.
    + right. apply (stored_in _ _ _ _ A) in R. destruct R as (e & q & s' & a' & I & [= -> -> ->] & _). exists e. split; [reflexivity|].
      apply (in_map fst) in I. rewrite sources_fst in I. apply Sel in I. tauto.
Qed.

(** A selected DUT without tracks: its nodes hold the histograms of the last DUT with tracks before it. *)
Theorem C127_empty : forall n_bins telescope count z order select out, beam_order count z order -> histogram_track_angle n_bins telescope order select = Some out ->
  forall pre q between d post s a, order = pre ++ q :: between ++ d :: post -> In q select -> In d select -> t_chunks (telescope q) <> [] ->
    (forall e, In e (between ++ [d]) -> In e select -> t_chunks (telescope e) = []) ->
    read out (s, a, Some d) = dut_hist n_bins s a (telescope q) /\ read out (s, a, Some d) <> None.
Proof.
  intros n_bins telescope count z order select out [P _] H pre q between d post s a Eord Iq Id Nq Emp.
  assert (NoDup order) as N by (apply (Permutation_NoDup (Permutation_sym P)), seq_NoDup).
  unfold histogram_track_angle in H. destruct (selected order select) as [|d0 duts] eqn:Es; [discriminate|].
  apply run_spec in H. destruct H as (g & new & Eg & A & Eo & M).
  assert (exists n, count_occ Nat.eq_dec select q = S n) as [n Cn] by (apply (count_occ_In Nat.eq_dec) in Iq; destruct (count_occ Nat.eq_dec select q); [lia|eexists; reflexivity]).
  assert (selected order select = (selected pre select ++ repeat q n) ++ q :: selected (between ++ [d]) select ++ selected post select) as Sp.
  { rewrite Eord. unfold selected. rewrite flat_map_app. cbn [flat_map]. rewrite Cn, <- !app_assoc. f_equal.
    change (between ++ d :: post) with (between ++ [d] ++ post). rewrite (app_assoc between), flat_map_app.
    match goal with |- _ = repeat q n ++ q :: ?x => change (repeat q n ++ q :: x) with (repeat q n ++ [q] ++ x) end. rewrite (app_assoc (repeat q n)), <- repeat_cons. reflexivity. }
  assert (In (d, q) (sources telescope d0 (d0 :: duts))) as Src.
  { rewrite <- Es, Sp. apply sources_split; [exact Nq| |].
    - intros e I. apply selected_in in I. apply Emp; tauto.
    - right. apply selected_in. split; [apply in_or_app; right; left; reflexivity|exact Id]. }
  assert (exists h, dut_hist n_bins s a (telescope q) = Some h) as [h Hh].
  { clear - A Src. revert new A Src. induction (sources telescope d0 (d0 :: duts)) as [|[x y] l IH]; intros new A Src; [destruct Src|].
    cbn [all_stored] in A. unfold stored in A. cbn [fst snd] in A. destruct (dut_hists n_bins Global (telescope y)) as [g|] eqn:Eg; [|discriminate].
    destruct (dut_hists n_bins Local (telescope y)) as [k|] eqn:El; [|discriminate]. destruct (all_stored n_bins telescope l) as [b|]; [|discriminate].
    destruct Src as [[= -> ->]|Src]; [|exact (IH b eq_refl Src)].
    destruct s; [exists (pick a g)|exists (pick a k)]; apply hists_iff; assumption. }
  assert (read out (s, a, Some d) = Some h) as R.
  { apply read_in; [exact M|]. rewrite Eo. apply in_or_app. right. apply (stored_in _ _ _ _ A). exists d, q, s, a. auto. }
  rewrite R, Hh. split; [reflexivity|discriminate].
Qed.

(** The order of the selection and DUTs which are not in the telescope do not matter. *)
Theorem C127_order : forall n_bins telescope count z order select select', beam_order count z order ->
  (forall d, d < count -> count_occ Nat.eq_dec select d = count_occ Nat.eq_dec select' d) ->
  histogram_track_angle n_bins telescope order select = histogram_track_angle n_bins telescope order select'.
Proof.
  intros n_bins telescope count z order select select' [P _] H. unfold histogram_track_angle.
  assert (selected order select = selected order select') as ->; [|reflexivity].
  assert (forall d, In d order -> d < count) as Ord by (intros d I; apply (Permutation_in _ P) in I; apply in_seq in I; lia).
  clear P. unfold selected. induction order as [|d order IH]; [reflexivity|]. cbn. rewrite (H d), IH; [reflexivity| |].
  - intros e I. apply Ord. right; exact I.
  - apply Ord. left; reflexivity.
Qed.

(** The histograms stored under the name of a DUT are not always made of the tracks of this DUT: a DUT without tracks. *)
Theorem C127_empty_refuted : ~ (forall n_bins telescope count z order select out d s a h, beam_order count z order -> histogram_track_angle n_bins telescope order select = Some out ->
  In d select -> d < count -> read out (s, a, Some d) = Some h -> dut_hist n_bins s a (telescope d) = Some h).
Proof.
  intros H.
  set (tel := fun d => match d with O => Tracks (Placement 0 0 0 0 0 0) [[Some (1, 1, 1)%R]] | _ => Tracks (Placement 0 0 0 0 0 0) [] end).
  assert (beam_order 2 INR [0; 1]) as B.
  { split; [apply Permutation_refl|]. repeat constructor; cbn; lra. }
  assert (forall s a, exists x, track_angle s a (Placement 0 0 0 0 0 0) (Some (1, 1, 1)%R) = Some x) as An.
  { assert (forall v : vec, vx v <> 0%R -> vy v <> 0%R -> forall a, exists x, component a (angles v) = Some x) as K.
    { intros v Hx Hy a. unfold angles, get_angles, normalized.
      assert (0 < vx v * vx v)%R as Px by nra. assert (0 < vy v * vy v)%R as Py by nra.
      assert (forall r : R, (0 < r)%R -> Reqb r 0 = false) as Pos. { intros r Hr. destruct (Reqb r 0) eqn:E; [|reflexivity]. apply GeometryProofs.Reqb_true in E. lra. }
      set (w := (vx v, vy v, Rabs (vz v)) : vec). assert (0 < vdot w w)%R as Pw.
      { unfold w, vdot, vx, vy, vz in *. cbn. pose proof (Rle_0_sqr (Rabs (snd v))) as Q. unfold Rsqr in Q. lra. }
      rewrite (Pos _ Pw). set (k := (/ sqrt (vdot w w))%R). assert (0 < k)%R as Pk by (apply Rinv_0_lt_compat, sqrt_lt_R0, Pw).
      assert (0 < k * k)%R as Pkk by nra. assert (0 < k * vx v * (k * vx v))%R as Qx by nra. assert (0 < k * vy v * (k * vy v))%R as Qy by nra.
      destruct a; cbn [component fst snd]; [eexists; reflexivity| |].
      - unfold projected_angle, normalized. rewrite Pos; [eexists; reflexivity|]. unfold onto_plane, vsub, vscale, vdot, w, vx, vy, vz in *. cbn in *.
        match goal with |- (0 < ?e)%R => assert (0 <= e - k * snd (fst v) * (k * snd (fst v)))%R as L end; [|lra]. ring_simplify.
        pose proof (Rle_0_sqr (k * Rabs (snd v))) as Q. unfold Rsqr in Q. nra.
      - unfold projected_angle, normalized. rewrite Pos; [eexists; reflexivity|]. unfold onto_plane, vsub, vscale, vdot, w, vx, vy, vz in *. cbn in *.
        match goal with |- (0 < ?e)%R => assert (0 <= e - k * fst (fst v) * (k * fst (fst v)))%R as L end; [|lra]. ring_simplify.
        pose proof (Rle_0_sqr (k * Rabs (snd v))) as Q. unfold Rsqr in Q. nra. }
    intros s a. unfold track_angle. apply K; destruct s; unfold global_slope; rewrite ?GeometryProofs.to_global_eq; cbn; rewrite ?sin_0, ?cos_0; cbn; lra. }
  destruct (proj2 (C127_success 1 tel 2 INR [0; 1] [0; 1] B)) as [out E].
  { split; [exists 0; split; [exists [], [1]; split; [reflexivity|]; split; [left; reflexivity|intros e []]|discriminate]|].
    split; [intros [|[|d]] Hd; cbn; lia|]. split; [lia|]. intros [|[|d]] c cs s a _ Hd Ec; [|discriminate|lia].
    injection Ec as <- <-. destruct (An s a) as [x Hx]. exists (Some (1, 1, 1)%R), x. split; [left; reflexivity|exact Hx]. }
  destruct (C127_empty 1 tel 2 INR [0; 1] [0; 1] out B E [] 0 [] 1 [] Global Total eq_refl) as [R1 R2]; [left; reflexivity|right; left; reflexivity|discriminate| |].
  { intros e [<-|[]] _. reflexivity. }
  destruct (read out (Global, Total, Some 1)) as [h|] eqn:Eh; [|contradiction].
  specialize (H 1 tel 2 INR [0; 1] [0; 1] out 1 Global Total h B E (or_intror (or_introl eq_refl)) (le_n 2) Eh). discriminate.
Qed.

(** Two DUTs which are given against the order of the beam and a DUT which is not in the telescope: the nodes of the telescope are those of the first DUT along the beam. *)
Example C127_case : forall slope : vec, forall tel : nat -> tracks, (forall d, tel d = Tracks (Placement 0 0 (INR d) 0 0 0) [[None; Some slope]; []]) ->
  (forall a, exists x, component a (angles slope) = Some x) -> (forall a, exists x, component a (angles (global_slope (Placement 0 0 0 0 0 0) slope)) = Some x) ->
  exists out, histogram_track_angle 10 tel [0; 1; 2] [2; 1; 7] = Some out /\
    (forall a, read out (Global, a, None) = dut_hist 10 Global a (tel 1)) /\ (forall s a, read out (s, a, Some 2) = dut_hist 10 s a (tel 2)) /\ (forall s a, read out (s, a, Some 0) = None).
Proof.
  intros slope tel Ht An Ag. assert (beam_order 3 INR [0; 1; 2]) as B.
  { split; [apply Permutation_refl|]. repeat constructor; cbn; lra. }
  destruct (proj2 (C127_success 10 tel 3 INR [0; 1; 2] [2; 1; 7] B)) as [out E].
  { split; [exists 1; split; [exists [0], [2]; split; [reflexivity|]; split; [right; left; reflexivity|intros e [<-|[]] [I|[I|[I|[]]]]; discriminate]|rewrite Ht; discriminate]|].
    split; [intros [|[|[|d]]] Hd; cbn; lia|]. split; [lia|]. intros d c cs s a _ Hd Ec. rewrite Ht in Ec |- *. injection Ec as <- <-.
    destruct s; [destruct (Ag a) as [x Hx]|destruct (An a) as [x Hx]]; exists (Some slope), x; (split; [right; left; reflexivity|exact Hx]). }
  exists out. split; [exact E|]. destruct (C127_file _ _ _ _ _ _ _ B E) as (A1 & A2 & A3). split; [|split].
  - intros a. destruct (A1 a) as (d & I & Hd & Hz & R). assert (d = 1) as ->; [|exact R].
    destruct I as [<-|[<-|[<-|[]]]]; [|reflexivity|lia]. specialize (Hz 1 (or_intror (or_introl eq_refl))). cbn in Hz. assert (1 < 3) as L by lia. specialize (Hz L). lra.
  - intros s a. apply A2; [left; reflexivity|lia|rewrite Ht; discriminate].
  - intros s a. destruct (read out (s, a, Some 0)) as [h|] eqn:R; [|reflexivity]. destruct (A3 _ _ _ _ R) as [[? _]|(e & [= <-] & I & _)]; [discriminate|].
    destruct I as [I|[I|[I|[]]]]; discriminate.
Qed.

Print Assumptions C127_success.
Print Assumptions C127_file.
Print Assumptions C127_empty.
Print Assumptions C127_order.
Print Assumptions C127_empty_refuted.
