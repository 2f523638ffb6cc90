(** Property C117: resolutions and names of regions of calculate_efficiency. *)
From Coq Require Import ZArith List Arith Bool Lia.
From Verif Require Import EffArgsModel.
Import ListNotations.

Lemma bind_inr {A B} (r : error + A) (f : A -> error + B) b : bind r f = inr b <-> exists a, r = inr a /\ f a = inr b.
Proof. destruct r as [e|a]; cbn; split; [discriminate|intros (a & H & _); discriminate|eauto|intros (a' & H & E)]. injection H as ->. exact E. Qed.
Lemma guard_bind {B} ok e (f : unit -> error + B) b : bind (guard ok e) f = inr b <-> ok = true /\ f tt = inr b.
Proof. destruct ok; cbn; split; intuition discriminate. Qed.
Lemma nth_repeat_some {A} (v : A) n k : k < n -> nth_error (repeat v n) k = Some v.
Proof. revert k. induction n as [|n IH]; intros [|k] H; cbn; try lia; [reflexivity|apply IH; lia]. Qed.

Lemma NoDup_parts {A} (l m : list A) : NoDup (l ++ m) -> NoDup l /\ NoDup m /\ forall o, In o m -> ~ In o l.
Proof.
  induction l as [|p l IH]; cbn; intros N; [split; [constructor|split; [exact N|intros o _ []]]|]. inversion N as [|? ? Np N']; subst. destruct (IH N') as (N1 & N2 & N3).
  split; [constructor; [intros X; apply Np, in_or_app; auto|exact N1]|]. split; [exact N2|]. intros o Ho [->|X]; [apply Np, in_or_app; auto|apply (N3 o Ho X)].
Qed.

Section C117.
  Context {V : Type}.
  Variable tenth : V -> V.
  Variable vmin : V -> V -> V.
  Notation component := (component V).
  Notation item := (item V).
  Notation argument := (argument V).
  Notation heap := (heap V).
  Notation use_dut := (use_dut V tenth vmin).
  Notation use_duts := (use_duts V tenth vmin).
  Notation efficiency_arguments := (efficiency_arguments V tenth vmin).
  Arguments CNone {V}. Arguments CNum {V}. Arguments COther {V}. Arguments INone {V}. Arguments INum {V}. Arguments ITuple {V}. Arguments IList {V}.
  Arguments ANone {V}. Arguments ATuple {V}. Arguments AList {V}. Arguments ANum {V}. Arguments fill {V}. Arguments number {V}. Arguments resolve {V}. Arguments check_pairs {V}.
  Arguments Dut {V}. Arguments pixel_size {V}. Arguments with_regions {V}. Arguments dut_resolution {V}. Arguments dut_in_pixel {V}. Arguments duts_of {V}. Arguments item_length {V}.

  (** ** Specification *)
  (** the item of the argument for the selected DUT with index [k] *)
  Definition item_of (a : argument) (k : nat) (i : item) : Prop :=
    match a with ANone => i = INone | ATuple c => i = ITuple c | AList l => nth_error l k = Some i | ANum _ => False end.
  (** what a component asks for *)
  Definition component_asks (c : component) (default v : V) : Prop := c = CNum v \/ (c = CNone /\ v = default).
  (** what an item asks for; the lists have the contents [h] *)
  Definition item_asks (h : heap) (i : item) (default v : V * V) : Prop :=
    match i with
    | INone => v = default
    | INum _ => False
    | ITuple c => c = [CNum (fst v); CNum (snd v)]
    | IList o => exists a b, h o = [a; b] /\ component_asks a (fst default) (fst v) /\ component_asks b (snd default) (snd v)
    end.
  (** the list objects in an argument *)
  Definition objects_of (l : list item) : list nat := flat_map (fun i => match i with IList o => [o] | _ => [] end) l.
  Definition objects (a : argument) : list nat := match a with AList l => objects_of l | _ => [] end.

  (** ** Proofs *)
  Definition pairs (h : heap) (i : item) : Prop := match i with INone => True | INum _ => False | _ => item_length h i = 2 end.
  Lemma check_pairs_spec n h a l : check_pairs n h a = inr l <->
    n <> 0 /\ length l = n /\ (forall k i, nth_error l k = Some i -> item_of a k i /\ pairs h i) /\ (forall l', a = AList l' -> length l' = n).
  Proof.
    unfold check_pairs. rewrite bind_inr. split.
    - intros (l' & E & H). rewrite !guard_bind in H. destruct H as (H1 & H2 & H3 & H4 & H5). injection H5 as ->.
      apply Nat.eqb_eq in H2. split; [destruct l; [discriminate|cbn in H2; lia]|]. split; [exact H2|]. split.
      + intros k i Hk. rewrite forallb_forall in H3, H4. specialize (H3 i (nth_error_In _ _ Hk)). specialize (H4 i (nth_error_In _ _ Hk)). split.
        * assert (Kl : k < n) by (rewrite <- H2; apply nth_error_Some; congruence). destruct a as [|c|l'|v]; cbn; try discriminate.
          -- injection E as <-. rewrite nth_repeat_some in Hk by exact Kl. congruence.
          -- injection E as <-. rewrite nth_repeat_some in Hk by exact Kl. congruence.
          -- injection E as ->. exact Hk.
        * destruct i; cbn in *; try discriminate; auto; apply Nat.eqb_eq in H4; exact H4.
      + intros l' ->. injection E as ->. exact H2.
    - intros (N & L & I & A). exists l. split.
      + destruct a as [|c|l'|v].
        * f_equal. symmetry. clear A N. revert l L I. induction n as [|n IH]; intros [|i l] L I; cbn in *; try lia; [reflexivity|].
          destruct (I 0 i eq_refl) as [-> _]. f_equal. apply IH; [lia|]. intros k j Hk. apply (I (S k) j Hk).
        * f_equal. symmetry. clear A N. revert l L I. induction n as [|n IH]; intros [|i l] L I; cbn in *; try lia; [reflexivity|].
          destruct (I 0 i eq_refl) as [-> _]. f_equal. apply IH; [lia|]. intros k j Hk. apply (I (S k) j Hk).
        * f_equal. specialize (A l' eq_refl). apply nth_ext with (d := INone) (d' := INone); [lia|]. intros k Hk.
          destruct (nth_error l k) as [i|] eqn:E; [|apply nth_error_None in E; lia]. destruct (I k i E) as [J _]. cbn in J.
          rewrite (nth_error_nth _ _ _ J), (nth_error_nth _ _ _ E). reflexivity.
        * destruct l as [|i l]; [cbn in L; congruence|]. destruct (I 0 i eq_refl) as [[] _].
      + rewrite !guard_bind. split; [destruct l; [cbn in L; congruence|reflexivity]|]. split; [apply Nat.eqb_eq; exact L|].
        split; [|split; [|reflexivity]]; apply forallb_forall; intros i Hi; apply In_nth_error in Hi; destruct Hi as [k Hk]; destruct (I k i Hk) as [_ P];
          destruct i; cbn in *; try contradiction; auto; apply Nat.eqb_eq; exact P.
  Qed.

  Lemma two {A} (l : list A) : length l = 2 -> exists a b, l = [a; b].
  Proof. destruct l as [|a [|b [|c l]]]; cbn; try discriminate. eauto. Qed.
  (** a list as it is after its use *)
  Definition filled (v : V * V) : list component := [CNum (fst v); CNum (snd v)].
  Lemma resolve_spec h i default v h' : pairs h i -> resolve h i default = inr (v, h') <->
    item_asks h i default v /\ h' = match i with IList o => fun p => if p =? o then filled v else h p | _ => h end.
  Proof.
    intros P. destruct i as [|w|c|o]; cbn [resolve item_asks].
    - split; [intros H; injection H as <- <-; auto|intros [-> ->]; reflexivity].
    - destruct P.
    - cbn in P. destruct (two _ P) as (a & b & ->). cbn [nth]. split.
      + intros H. destruct a, b; cbn in H; try discriminate. injection H as <- <-. auto.
      + intros [E ->]. injection E as -> ->. destruct v. reflexivity.
    - cbn in P. destruct (two _ P) as (a & b & E). rewrite E. cbn [nth]. split.
      + intros H. unfold filled. destruct a as [|x|], b as [|y|]; cbn in H; try discriminate; injection H as <- <-; (split; [|reflexivity]); do 2 eexists; (split; [reflexivity|]); split; cbn; unfold component_asks; auto.
      + intros [(a' & b' & E' & Ha & Hb) ->]. injection E' as <- <-. destruct v as [v1 v2]. cbn in Ha, Hb. destruct Ha as [->|[-> ->]], Hb as [->|[-> ->]]; reflexivity.
  Qed.
  Lemma pairs_kept h i o v : pairs h i -> pairs (fun p => if p =? o then filled v else h p) i.
  Proof. destruct i as [|w|c|p]; cbn; auto. destruct (p =? o); auto. Qed.
  (** the lists after the use of an item *)
  Definition after_item (h : heap) (i : item) (v : V * V) : heap := match i with IList o => fun p => if p =? o then filled v else h p | _ => h end.
  Lemma pairs_after h i j v : pairs h i -> pairs (after_item h j v) i.
  Proof. destruct j; cbn; auto. apply pairs_kept. Qed.

  Definition ready (h : heap) (d : dut V) : Prop := pairs h (dut_resolution d) /\ pairs h (dut_in_pixel d).
  Lemma use_dut_spec h d r h' : ready h d -> use_dut h d = inr (r, h') <->
    exists v, item_asks h (dut_resolution d) (pixel_size d) v /\ fst r = v /\
      if with_regions d
      then exists w, item_asks (after_item h (dut_resolution d) v) (dut_in_pixel d) (in_pixel_default V tenth vmin v (pixel_size d)) w /\ snd r = Some w /\
             h' = after_item (after_item h (dut_resolution d) v) (dut_in_pixel d) w
      else snd r = None /\ h' = after_item h (dut_resolution d) v.
  Proof.
    intros [P1 P2]. unfold use_dut. rewrite bind_inr. split.
    - intros ([v h1] & H1 & H2). apply resolve_spec in H1; [|exact P1]. destruct H1 as [A E]. fold (after_item h (dut_resolution d) v) in E. exists v. split; [exact A|]. cbn [fst snd] in H2.
      destruct (with_regions d).
      + rewrite bind_inr in H2. destruct H2 as ([w h2] & H2 & H3). cbn [fst snd] in H3. injection H3 as <- <-. split; [reflexivity|]. exists w. subst h1.
        apply resolve_spec in H2; [|apply pairs_after; exact P2]. destruct H2 as [B ->]. auto.
      + injection H2 as <- <-. auto.
    - intros (v & A & E & H). exists (v, after_item h (dut_resolution d) v). split; [apply resolve_spec; auto|]. cbn [fst snd]. destruct r as [r1 r2]. cbn in E. subst r1. destruct (with_regions d).
      + destruct H as (w & B & Er & ->). cbn in Er. subst r2. rewrite bind_inr. exists (w, after_item (after_item h (dut_resolution d) v) (dut_in_pixel d) w). split; [|reflexivity].
        apply resolve_spec; [apply pairs_after; exact P2|]. auto.
      + destruct H as [Er ->]. cbn in Er. subst r2. reflexivity.
  Qed.
  Lemma ready_after h d j v : ready h d -> ready (after_item h j v) d.
  Proof. intros [A B]. split; apply pairs_after; assumption. Qed.
  Lemma ready_use h d e r h' : ready h e -> ready h d -> use_dut h e = inr (r, h') -> ready h' d.
  Proof.
    intros E Q H. apply use_dut_spec in H; [|exact E]. destruct H as (v & _ & _ & H). destruct (with_regions e).
    - destruct H as (w & _ & _ & ->). apply ready_after, ready_after, Q.
    - destruct H as (_ & ->). apply ready_after, Q.
  Qed.

  (** list objects of a DUT *)
  Definition dut_objects (d : dut V) : list nat := objects_of [dut_resolution d; dut_in_pixel d].
  Lemma after_other h i v o : ~ In o (objects_of [i]) -> after_item h i v o = h o.
  Proof. destruct i as [|w|c|p]; cbn; auto. intros N. destruct (Nat.eqb_spec o p); [|reflexivity]. exfalso. apply N. left. auto. Qed.
  Lemma asks_other h h' i default v : (forall o, In o (objects_of [i]) -> h' o = h o) -> (item_asks h' i default v <-> item_asks h i default v).
  Proof. destruct i as [|w|c|p]; cbn; try tauto. intros E. rewrite E by (left; reflexivity). reflexivity. Qed.
  Lemma use_other h d r h' o : ready h d -> use_dut h d = inr (r, h') -> ~ In o (dut_objects d) -> h' o = h o.
  Proof.
    intros Q H N. apply use_dut_spec in H; [|exact Q]. destruct H as (v & _ & _ & H). unfold dut_objects in N. cbn [objects_of flat_map] in N. rewrite app_nil_r in N.
    assert (N1 : ~ In o (objects_of [dut_resolution d])) by (cbn [objects_of flat_map]; rewrite app_nil_r; intros X; apply N, in_or_app; auto).
    assert (N2 : ~ In o (objects_of [dut_in_pixel d])) by (cbn [objects_of flat_map]; rewrite app_nil_r; intros X; apply N, in_or_app; auto).
    destruct (with_regions d).
    - destruct H as (w & _ & _ & ->). rewrite after_other by exact N2. apply after_other. exact N1.
    - destruct H as (_ & ->). apply after_other. exact N1.
  Qed.

  (** the resolutions asked for by a DUT *)
  Definition dut_asks (h : heap) (d : dut V) (r : (V * V) * option (V * V)) : Prop :=
    item_asks h (dut_resolution d) (pixel_size d) (fst r) /\
    if with_regions d then exists w, snd r = Some w /\ item_asks h (dut_in_pixel d) (vmin (fst (fst r)) (tenth (fst (pixel_size d))), vmin (snd (fst r)) (tenth (snd (pixel_size d)))) w
    else snd r = None.
  Lemma use_duts_asks : forall l h rs h', (forall d, In d l -> ready h d) -> NoDup (flat_map dut_objects l) -> use_duts h l = inr (rs, h') ->
    Forall2 (dut_asks h) l rs.
  Proof.
    induction l as [|d l IH]; intros h rs h' Q N H; cbn [use_duts EffArgsModel.use_duts] in H.
    - injection H as <- <-. constructor.
    - rewrite bind_inr in H. destruct H as ([r h1] & H1 & H). rewrite bind_inr in H. destruct H as ([rs2 h2] & H2 & H). cbn [fst snd] in *. injection H as <- <-.
      cbn [flat_map] in N. assert (Qd := Q d (or_introl eq_refl)). destruct (NoDup_parts _ _ N) as (Nd & Nl & Dis).
      constructor.
      + apply use_dut_spec in H1; [|exact Qd]. destruct H1 as (v & A & Ev & H1). split; [rewrite Ev; exact A|]. destruct (with_regions d).
        * destruct H1 as (w & B & Er & _). exists w. split; [exact Er|]. rewrite Ev. apply (asks_other h) in B; [exact B|]. intros o Ho. apply after_other. intros X.
          unfold dut_objects in Nd. cbn [objects_of flat_map] in Nd, Ho, X. rewrite app_nil_r in Nd, Ho, X. destruct (dut_resolution d), (dut_in_pixel d); cbn in *; try tauto.
          destruct Ho as [<-|[]], X as [->|[]]. inversion Nd; subst. apply H3. left. reflexivity.
        * tauto.
      + assert (Q' : forall e, In e l -> ready h1 e) by (intros e He; apply (ready_use h e d r h1 Qd); auto; apply Q; right; exact He).
        specialize (IH h1 rs2 h2 Q' Nl H2).
        assert (Same : forall o, In o (flat_map dut_objects l) -> h1 o = h o) by (intros o Ho; apply (use_other h d r h1 o Qd H1); auto).
        clear -IH Same. induction IH as [|e r l rs E F IH]; constructor.
        * destruct E as [E1 E2]. split.
          -- apply (asks_other h) in E1; [exact E1|]. intros o Ho. apply Same. cbn [flat_map]. apply in_or_app. left. unfold dut_objects. cbn [objects_of flat_map] in *. rewrite app_nil_r in *. apply in_or_app. auto.
          -- destruct (with_regions e); [|exact E2]. destruct E2 as (w & Ew & E2). exists w. split; [exact Ew|]. apply (asks_other h) in E2; [exact E2|].
             intros o Ho. apply Same. cbn [flat_map]. apply in_or_app. left. unfold dut_objects. cbn [objects_of flat_map] in *. rewrite app_nil_r in *. apply in_or_app. auto.
        * apply IH. intros o Ho. apply Same. cbn [flat_map]. apply in_or_app. auto.
  Qed.

  Lemma duts_of_length (pixels : list ((V * V) * bool)) res inp n : length pixels = n -> length res = n -> length inp = n -> length (duts_of pixels res inp) = n.
  Proof.
    revert res inp n. induction pixels as [|p pixels IH]; intros [|r res] [|i inp] n L1 L2 L3; cbn in *; try lia. destruct n; [lia|]. rewrite (IH res inp n) by lia. reflexivity.
  Qed.
  Lemma duts_of_nth : forall (pixels : list ((V * V) * bool)) res inp k d, nth_error (duts_of pixels res inp) k = Some d ->
    nth_error pixels k = Some (pixel_size d, with_regions d) /\ nth_error res k = Some (dut_resolution d) /\ nth_error inp k = Some (dut_in_pixel d).
  Proof.
    induction pixels as [|[p b] pixels IH]; intros [|r res] [|i inp] [|k] d H; cbn in H; try discriminate.
    - injection H as <-. auto.
    - cbn [nth_error]. apply IH. exact H.
  Qed.
  (** the list objects of the DUTs are those of the two arguments *)
  Lemma objects_perm : forall (pixels : list ((V * V) * bool)) res inp n, length pixels = n -> length res = n -> length inp = n ->
    NoDup (objects_of res ++ objects_of inp) -> NoDup (flat_map dut_objects (duts_of pixels res inp)).
  Proof.
    intros pixels res inp n L1 L2 L3 N.
    assert (P : forall o, count_occ Nat.eq_dec (flat_map dut_objects (duts_of pixels res inp)) o = count_occ Nat.eq_dec (objects_of res ++ objects_of inp) o).
    { clear N. revert res inp n L1 L2 L3. induction pixels as [|p pixels IH]; intros [|r res] [|i inp] n L1 L2 L3 o; cbn in L1, L2, L3; try lia; [reflexivity|].
      destruct n; [lia|]. cbn [duts_of flat_map objects_of]. rewrite !count_occ_app, (IH res inp n) by lia. rewrite count_occ_app.
      unfold dut_objects. cbn [dut_resolution dut_in_pixel objects_of flat_map]. rewrite !count_occ_app. fold (objects_of res). fold (objects_of inp). cbn [count_occ]. lia. }
    rewrite (NoDup_count_occ Nat.eq_dec) in N |- *. intros o. rewrite P. apply N.
  Qed.
  Lemma objects_sub n h a l : check_pairs n h a = inr l -> (forall o, count_occ Nat.eq_dec (objects_of l) o = count_occ Nat.eq_dec (objects a) o).
  Proof.
    unfold check_pairs. rewrite bind_inr. intros (l' & E & H) o. rewrite !guard_bind in H. destruct H as (_ & _ & _ & _ & H). injection H as ->.
    destruct a as [|c|l'|v]; cbn [objects]; try discriminate; injection E as E.
    - subst l. clear. induction n; cbn; auto.
    - subst l. clear. induction n; cbn; auto.
    - subst l. reflexivity.
  Qed.

  (** If no list object is used twice, the resolution of a DUT is the one asked for, with the pixel size of the DUT where None is given; the in-pixel resolution is used only with regions, and
      is by default the smaller one of the resolution and a tenth of the pixel size. *)
  Theorem C117_resolutions : forall (pixels : list ((V * V) * bool)) h a_res a_inp rs h', efficiency_arguments pixels h a_res a_inp = inr (rs, h') ->
    NoDup (objects a_res ++ objects a_inp) ->
    length rs = length pixels /\
    forall k pixel regions, nth_error pixels k = Some (pixel, regions) ->
    exists r p i j, nth_error rs k = Some (r, p) /\ item_of a_res k i /\ item_asks h i pixel r /\ item_of a_inp k j /\
      if regions then exists w, p = Some w /\ item_asks h j (vmin (fst r) (tenth (fst pixel)), vmin (snd r) (tenth (snd pixel))) w else p = None.
  Proof.
    intros pixels h a_res a_inp rs h' H N. unfold efficiency_arguments in H. rewrite bind_inr in H. destruct H as (res & Hr & H). rewrite bind_inr in H. destruct H as (inp & Hi & H).
    assert (Nr := objects_sub _ _ _ _ Hr). assert (Ni := objects_sub _ _ _ _ Hi).
    apply check_pairs_spec in Hr, Hi. destruct Hr as (_ & Lr & Ir & _), Hi as (_ & Li & Ii & _).
    assert (Ld : length (duts_of pixels res inp) = length pixels) by (apply duts_of_length; auto).
    assert (Q : forall d, In d (duts_of pixels res inp) -> ready h d).
    { intros d Hd. apply In_nth_error in Hd. destruct Hd as [k Hk]. apply duts_of_nth in Hk. destruct Hk as (_ & K1 & K2). split; [apply (Ir k _ K1)|apply (Ii k _ K2)]. }
    assert (F : Forall2 (dut_asks h) (duts_of pixels res inp) rs).
    { apply (use_duts_asks _ _ _ h'); auto. apply (objects_perm _ _ _ (length pixels)); auto.
      rewrite (NoDup_count_occ Nat.eq_dec) in N |- *. intros o. specialize (N o). rewrite !count_occ_app in *.
      rewrite Nr, Ni. exact N. }
    split; [rewrite <- Ld; symmetry; clear -F; induction F; cbn; congruence |].
    intros k pixel regions Hk. destruct (nth_error (duts_of pixels res inp) k) as [d|] eqn:Ed.
    2:{ apply nth_error_None in Ed. rewrite Ld in Ed. apply nth_error_None in Ed. congruence. }
    assert (X : exists r, nth_error rs k = Some r /\ dut_asks h d r).
    { clear -F Ed. revert k Ed. induction F as [|e r l rs E F IH]; intros [|k] Ed; cbn in *; try discriminate; [injection Ed as ->; eauto|apply IH; exact Ed]. }
    destruct X as ([r p] & Er & A1 & A2). apply duts_of_nth in Ed. destruct Ed as (E1 & E2 & E3). rewrite Hk in E1. injection E1 as -> ->. cbn [fst snd] in *.
    exists r, p, (dut_resolution d), (dut_in_pixel d). split; [exact Er|]. split; [apply (Ir k _ E2)|]. split; [exact A1|]. split; [apply (Ii k _ E3)|].
    destruct (with_regions d); [destruct A2 as (w & -> & A2); exists w; auto|exact A2].
  Qed.

  (** ** Shared lists *)
  Lemma asks_filled h o default v w : h o = filled v -> item_asks h (IList o) default w -> w = v.
  Proof.
    intros E (a & b & E' & Ha & Hb). rewrite E in E'. injection E' as <- <-. destruct v, w. cbn in *. destruct Ha as [Ha|[Ha _]], Hb as [Hb|[Hb _]]; congruence.
  Qed.
  Lemma filled_after h i o v default w : h o = filled v -> item_asks h i default w -> after_item h i w o = filled v.
  Proof.
    intros E A. destruct i as [|x|c|p]; cbn; auto. destruct (Nat.eqb_spec o p) as [<-|]; [|exact E]. rewrite (asks_filled _ _ _ _ _ E A). reflexivity.
  Qed.
  Lemma filled_use h d r h' o v : ready h d -> use_dut h d = inr (r, h') -> h o = filled v -> h' o = filled v.
  Proof.
    intros Q H E. apply use_dut_spec in H; [|exact Q]. destruct H as (x & A & _ & H). destruct (with_regions d).
    - destruct H as (w & B & _ & ->). eapply filled_after; [|exact B]. eapply filled_after; eauto.
    - destruct H as (_ & ->). eapply filled_after; eauto.
  Qed.
  Lemma filled_first h d r h' o : ready h d -> use_dut h d = inr (r, h') -> dut_resolution d = IList o -> h' o = filled (fst r).
  Proof.
    intros Q H E. apply use_dut_spec in H; [|exact Q]. destruct H as (x & A & -> & H). rewrite E in H.
    assert (F : after_item h (IList o) x o = filled x) by (cbn; rewrite Nat.eqb_refl; reflexivity).
    destruct (with_regions d).
    - destruct H as (w & B & _ & ->). eapply filled_after; eauto.
    - destruct H as (_ & ->). exact F.
  Qed.
  Lemma shared_later : forall l h rs h' o v, (forall d, In d l -> ready h d) -> use_duts h l = inr (rs, h') -> h o = filled v ->
    h' o = filled v /\ forall k d r, nth_error l k = Some d -> nth_error rs k = Some r -> dut_resolution d = IList o -> fst r = v.
  Proof.
    induction l as [|e l IH]; intros h rs h' o v Q H E; cbn [use_duts EffArgsModel.use_duts] in H.
    - injection H as <- <-. split; [exact E|]. intros [|k]; discriminate.
    - rewrite bind_inr in H. destruct H as ([r1 h1] & H1 & H). rewrite bind_inr in H. destruct H as ([rs2 h2] & H2 & H). cbn [fst snd] in *. injection H as <- <-.
      assert (Qe := Q e (or_introl eq_refl)). destruct (IH h1 rs2 h2 o v) as [I1 I2]; auto.
      { intros d Hd. apply (ready_use h d e r1 h1 Qe); auto. apply Q. right. exact Hd. }
      { apply (filled_use _ _ _ _ _ _ Qe H1 E). }
      split; [exact I1|]. intros [|k] d r Hd Hr Ho; cbn in Hd, Hr; [|apply (I2 k d r); auto]. injection Hd as ->. injection Hr as ->.
      apply use_dut_spec in H1; [|exact Qe]. destruct H1 as (x & A & -> & _). rewrite Ho in A. apply (asks_filled _ _ _ _ _ E A).
  Qed.
  Lemma shared_duts : forall l h rs h' o, (forall d, In d l -> ready h d) -> use_duts h l = inr (rs, h') ->
    forall j k d e r s, nth_error l j = Some d -> nth_error l k = Some e -> nth_error rs j = Some r -> nth_error rs k = Some s ->
      dut_resolution d = IList o -> dut_resolution e = IList o -> fst r = fst s /\ h' o = filled (fst r).
  Proof.
    induction l as [|x l IH]; intros h rs h' o Q H j k d e r s Hj Hk Hr Hs Hd He; [destruct j; discriminate|]. cbn [use_duts EffArgsModel.use_duts] in H.
    rewrite bind_inr in H. destruct H as ([r1 h1] & H1 & H). rewrite bind_inr in H. destruct H as ([rs2 h2] & H2 & H). cbn [fst snd] in *. injection H as <- <-.
    assert (Qx := Q x (or_introl eq_refl)).
    assert (Q' : forall d, In d l -> ready h1 d) by (intros y Hy; apply (ready_use h y x r1 h1 Qx); auto; apply Q; right; exact Hy).
    destruct j as [|j], k as [|k]; cbn in Hj, Hk, Hr, Hs.
    - injection Hj as ->. injection Hk as ->. injection Hr as ->. injection Hs as ->. split; [reflexivity|].
      apply (shared_later l h1 rs2 h2 o (fst s) Q' H2). apply (filled_first _ _ _ _ _ Qx H1 Hd).
    - injection Hj as ->. injection Hr as ->. destruct (shared_later l h1 rs2 h2 o (fst r) Q' H2 (filled_first _ _ _ _ _ Qx H1 Hd)) as [E X].
      split; [|exact E]. symmetry. apply (X k e s Hk Hs He).
    - injection Hk as ->. injection Hs as ->. destruct (shared_later l h1 rs2 h2 o (fst s) Q' H2 (filled_first _ _ _ _ _ Qx H1 He)) as [E X].
      rewrite (X j d r Hj Hr Hd). auto.
    - apply (IH h1 rs2 h2 o Q' H2 j k d e r s); auto.
  Qed.
  Lemma use_duts_length : forall l h rs h', use_duts h l = inr (rs, h') -> length rs = length l.
  Proof.
    induction l as [|x l IH]; intros h rs h' H; cbn [use_duts EffArgsModel.use_duts] in H; [injection H as <- <-; reflexivity|].
    rewrite bind_inr in H. destruct H as ([r1 h1] & _ & H). rewrite bind_inr in H. destruct H as ([rs2 h2] & H2 & H). injection H as <- <-. cbn. f_equal. apply (IH _ _ _ H2).
  Qed.
  Lemma duts_of_some : forall (pixels : list ((V * V) * bool)) res inp k p r i, nth_error pixels k = Some p -> nth_error res k = Some r -> nth_error inp k = Some i ->
    nth_error (duts_of pixels res inp) k = Some (Dut (fst p) (snd p) r i).
  Proof.
    induction pixels as [|q pixels IH]; intros [|r' res] [|i' inp] [|k] p r i H1 H2 H3; cbn in *; try discriminate; [congruence|]. apply IH; assumption.
  Qed.
  (** All DUTs for which the same list object is given have the same resolution, even if their pixel sizes are different; it is in the list object after the call. *)
  Theorem C117_shared : forall (pixels : list ((V * V) * bool)) h a_res a_inp rs h' j k o r s, efficiency_arguments pixels h a_res a_inp = inr (rs, h') ->
    item_of a_res j (IList o) -> item_of a_res k (IList o) -> nth_error rs j = Some r -> nth_error rs k = Some s ->
    fst r = fst s /\ h' o = [CNum (fst (fst r)); CNum (snd (fst r))].
  Proof.
    intros pixels h a_res a_inp rs h' j k o r s H Ij Ik Hr Hs. unfold efficiency_arguments in H. rewrite bind_inr in H. destruct H as (res & Cr & H). rewrite bind_inr in H. destruct H as (inp & Ci & H).
    apply check_pairs_spec in Cr, Ci. destruct Cr as (_ & Lr & Ir & Ar), Ci as (_ & Li & Ii & _).
    assert (Ld : length (duts_of pixels res inp) = length pixels) by (apply duts_of_length; auto).
    assert (Q : forall d, In d (duts_of pixels res inp) -> ready h d).
    { intros d Hd. apply In_nth_error in Hd. destruct Hd as [m Hm]. apply duts_of_nth in Hm. destruct Hm as (_ & K1 & K2). split; [apply (Ir m _ K1)|apply (Ii m _ K2)]. }
    assert (D : forall m t, nth_error rs m = Some t -> item_of a_res m (IList o) -> exists d, nth_error (duts_of pixels res inp) m = Some d /\ dut_resolution d = IList o).
    { intros m t Ht Im. assert (Km : m < length pixels). { rewrite <- Ld, <- (use_duts_length _ _ _ _ H). apply nth_error_Some. congruence. }
      destruct (nth_error (duts_of pixels res inp) m) as [d|] eqn:Ed; [|apply nth_error_None in Ed; lia]. exists d. split; [reflexivity|].
      apply duts_of_nth in Ed. destruct Ed as (_ & E2 & _). destruct (Ir m _ E2) as [J _]. destruct a_res as [|c|l|v]; cbn in Im, J; try discriminate; [congruence|destruct Im]. }
    destruct (D j r Hr Ij) as (d & Hd & Ed), (D k s Hs Ik) as (e & He & Ee).
    apply (shared_duts _ _ _ _ o Q H j k d e r s); auto.
  Qed.

  (** ** Accepted arguments *)
  (** the components of an item can be used *)
  Definition usable (h : heap) (i : item) : Prop :=
    match i with INone => True | INum _ => False | ITuple c => exists x y, c = [CNum x; CNum y] | IList o => exists a b, h o = [a; b] /\ a <> COther /\ b <> COther end.
  Lemma usable_asks h i default : usable h i <-> exists v, item_asks h i default v.
  Proof.
    destruct i as [|w|c|o]; cbn.
    - split; eauto.
    - split; [intros []|intros (v & [])].
    - split; [intros (x & y & ->); exists (x, y); reflexivity|intros (v & ->); eauto].
    - split.
      + intros (a & b & E & Na & Nb). destruct a as [|x|], b as [|y|]; try congruence.
        * exists default. do 2 eexists. split; [exact E|]. unfold component_asks. auto.
        * exists (fst default, y). do 2 eexists. split; [exact E|]. unfold component_asks. auto.
        * exists (x, snd default). do 2 eexists. split; [exact E|]. unfold component_asks. auto.
        * exists (x, y). do 2 eexists. split; [exact E|]. unfold component_asks. auto.
      + intros (v & a & b & E & Ha & Hb). exists a, b. split; [exact E|]. destruct Ha as [->|[-> _]], Hb as [->|[-> _]]; split; discriminate.
  Qed.
  Lemma usable_after h i j default v : item_asks h j default v -> (usable (after_item h j v) i <-> usable h i).
  Proof.
    intros A. destruct j as [|w|c|p]; cbn [after_item]; try reflexivity. destruct i as [|w|c|o]; cbn [usable]; try reflexivity. destruct (Nat.eqb_spec o p) as [->|]; [|reflexivity].
    destruct A as (a & b & E & Ha & Hb). split.
    - intros _. exists a, b. split; [exact E|]. destruct Ha as [->|[-> _]], Hb as [->|[-> _]]; split; discriminate.
    - intros _. do 2 eexists. split; [reflexivity|]. split; discriminate.
  Qed.
  Definition dut_usable (h : heap) (d : dut V) : Prop := usable h (dut_resolution d) /\ (with_regions d = true -> usable h (dut_in_pixel d)).
  Lemma use_dut_ok h d : ready h d -> ((exists r, use_dut h d = inr r) <-> dut_usable h d).
  Proof.
    intros Q. unfold dut_usable. split.
    - intros ([r h'] & H). apply use_dut_spec in H; [|exact Q]. destruct H as (v & A & _ & H). split; [apply (usable_asks h _ (pixel_size d)); eauto|]. intros E. rewrite E in H. destruct H as (w & B & _).
      apply (usable_after h (dut_in_pixel d) _ _ _ A). eapply usable_asks; eauto.
    - intros [U1 U2]. apply (usable_asks h _ (pixel_size d)) in U1. destruct U1 as [v A]. destruct (with_regions d) eqn:E.
      + specialize (U2 eq_refl). apply (usable_after h (dut_in_pixel d) _ _ _ A) in U2. apply (usable_asks _ _ (in_pixel_default V tenth vmin v (pixel_size d))) in U2. destruct U2 as [w B].
        eexists (_, _, _). apply use_dut_spec; [exact Q|]. exists v. rewrite E. cbn [fst snd]. split; [exact A|]. split; [reflexivity|]. exists w. split; [exact B|]. split; reflexivity.
      + eexists (_, _, _). apply use_dut_spec; [exact Q|]. exists v. rewrite E. cbn [fst snd]. split; [exact A|]. split; [reflexivity|]. split; reflexivity.
  Qed.
  Lemma usable_use h d r h' i : ready h d -> use_dut h d = inr (r, h') -> (usable h' i <-> usable h i).
  Proof.
    intros Q H. apply use_dut_spec in H; [|exact Q]. destruct H as (v & A & _ & H). destruct (with_regions d).
    - destruct H as (w & B & _ & ->). rewrite (usable_after _ i _ _ _ B). apply (usable_after _ i _ _ _ A).
    - destruct H as (_ & ->). apply (usable_after _ i _ _ _ A).
  Qed.
  Lemma use_duts_ok : forall l h, (forall d, In d l -> ready h d) -> ((exists r, use_duts h l = inr r) <-> forall d, In d l -> dut_usable h d).
  Proof.
    induction l as [|d l IH]; intros h Q; cbn [use_duts EffArgsModel.use_duts].
    - split; [intros _ d []|intros _; eauto].
    - assert (Qd := Q d (or_introl eq_refl)). split.
      + intros (rs & H). rewrite bind_inr in H. destruct H as ([r h1] & H1 & H). rewrite bind_inr in H. destruct H as (rs2 & H2 & _). cbn [snd] in H2.
        assert (Ud : dut_usable h d) by (apply use_dut_ok; eauto).
        intros e [<-|He]; [exact Ud|]. assert (Q' : forall d, In d l -> ready h1 d) by (intros y Hy; apply (ready_use h y d r h1 Qd); auto; apply Q; right; exact Hy).
        assert (U := proj1 (IH h1 Q') (ex_intro _ _ H2) e He). unfold dut_usable in U |- *. rewrite !(usable_use h d r h1 _ Qd H1) in U. exact U.
      + intros U. destruct (proj2 (use_dut_ok h d Qd) (U d (or_introl eq_refl))) as ([r h1] & H1). rewrite H1. cbn [bind snd fst].
        assert (Q' : forall d, In d l -> ready h1 d) by (intros y Hy; apply (ready_use h y d r h1 Qd); auto; apply Q; right; exact Hy).
        destruct (proj2 (IH h1 Q')) as (rs & H2).
        { intros e He. specialize (U e (or_intror He)). unfold dut_usable in U |- *. rewrite !(usable_use h d r h1 _ Qd H1). exact U. }
        rewrite H2. cbn [bind]. eauto.
  Qed.
  (** an argument with one item for each of the [n] DUTs, where each item is None or has two components *)
  Definition shaped (n : nat) (h : heap) (a : argument) : Prop :=
    (forall l, a = AList l -> length l = n) /\ (forall v, a <> ANum v) /\ forall k i, k < n -> item_of a k i -> pairs h i.
  Lemma item_exists n h a k : shaped n h a -> k < n -> exists i, item_of a k i.
  Proof.
    intros (A & B & _) Hk. destruct a as [|c|l|v]; cbn; eauto.
    - specialize (A l eq_refl). destruct (nth_error l k) eqn:E; [eauto|apply nth_error_None in E; lia].
    - exfalso. apply (B v). reflexivity.
  Qed.
  Lemma item_unique a k i j : item_of a k i -> item_of a k j -> i = j.
  Proof. destruct a; cbn; try congruence. intros []. Qed.
  Lemma check_pairs_ok n h a : (exists l, check_pairs n h a = inr l) <-> n <> 0 /\ shaped n h a.
  Proof.
    split.
    - intros (l & H). pose proof H as H0. apply check_pairs_spec in H. destruct H as (N & L & I & A). split; [exact N|]. split; [exact A|]. split.
      + intros v ->. unfold check_pairs in H0. cbn in H0. discriminate.
      + intros k i Hk Hi. destruct (nth_error l k) as [j|] eqn:E; [|apply nth_error_None in E; lia]. destruct (I k j E) as [J P]. rewrite (item_unique a k i j Hi J). exact P.
    - intros (N & Sh). assert (X : exists l, length l = n /\ forall k i, nth_error l k = Some i -> item_of a k i).
      { destruct Sh as (A & B & _). destruct a as [|c|l|v].
        - exists (repeat INone n). split; [apply repeat_length|]. intros k i Hk. apply nth_error_In, repeat_spec in Hk. exact Hk.
        - exists (repeat (ITuple c) n). split; [apply repeat_length|]. intros k i Hk. apply nth_error_In, repeat_spec in Hk. exact Hk.
        - exists l. split; [apply A; reflexivity|]. auto.
        - exfalso. apply (B v). reflexivity. }
      destruct X as (l & L & I). exists l. apply check_pairs_spec. split; [exact N|]. split; [exact L|]. split; [|apply Sh].
      intros k i Hk. split; [apply I; exact Hk|]. apply Sh with (k := k); [rewrite <- L; apply nth_error_Some; congruence|apply I; exact Hk].
  Qed.
  (** The arguments are accepted iff there are selected DUTs, both arguments have one item for each DUT, tuples have two numbers and lists two numbers or None (the in-pixel resolution only
      of DUTs with regions). *)
  Theorem C117_accepted : forall (pixels : list ((V * V) * bool)) h a_res a_inp, (exists r, efficiency_arguments pixels h a_res a_inp = inr r) <->
    pixels <> [] /\ shaped (length pixels) h a_res /\ shaped (length pixels) h a_inp /\
    forall k pixel regions i j, nth_error pixels k = Some (pixel, regions) -> item_of a_res k i -> item_of a_inp k j -> usable h i /\ (regions = true -> usable h j).
  Proof.
    intros pixels h a_res a_inp. unfold efficiency_arguments.
    assert (Core : forall res inp, check_pairs (length pixels) h a_res = inr res -> check_pairs (length pixels) h a_inp = inr inp ->
      ((exists r, use_duts h (duts_of pixels res inp) = inr r) <->
       forall k pixel regions i j, nth_error pixels k = Some (pixel, regions) -> item_of a_res k i -> item_of a_inp k j -> usable h i /\ (regions = true -> usable h j))).
    { intros res inp Cr Ci. apply check_pairs_spec in Cr, Ci. destruct Cr as (_ & Lr & Ir & _), Ci as (_ & Li & Ii & _). rewrite use_duts_ok.
      - split.
        + intros U k pixel regions i j Hk Hi Hj. destruct (nth_error res k) as [i'|] eqn:Er.
          2:{ apply nth_error_None in Er. rewrite Lr in Er. apply nth_error_None in Er. congruence. }
          destruct (nth_error inp k) as [j'|] eqn:Ei.
          2:{ apply nth_error_None in Ei. rewrite Li in Ei. apply nth_error_None in Ei. congruence. }
          assert (D := duts_of_some _ _ _ _ _ _ _ Hk Er Ei). apply nth_error_In in D. specialize (U _ D). unfold dut_usable in U. cbn in U.
          rewrite (item_unique _ _ _ _ Hi (proj1 (Ir k _ Er))), (item_unique _ _ _ _ Hj (proj1 (Ii k _ Ei))). exact U.
        + intros U d Hd. apply In_nth_error in Hd. destruct Hd as [k Hk]. apply duts_of_nth in Hk. destruct Hk as (K1 & K2 & K3).
          apply (U k _ _ _ _ K1); [apply (Ir k _ K2)|apply (Ii k _ K3)].
      - intros d Hd. apply In_nth_error in Hd. destruct Hd as [m Hm]. apply duts_of_nth in Hm. destruct Hm as (_ & K1 & K2). split; [apply (Ir m _ K1)|apply (Ii m _ K2)]. }
    split.
    - intros (r & H). rewrite bind_inr in H. destruct H as (res & Cr & H). rewrite bind_inr in H. destruct H as (inp & Ci & H).
      assert (X1 := proj1 (check_pairs_ok _ _ _) (ex_intro _ _ Cr)). assert (X2 := proj1 (check_pairs_ok _ _ _) (ex_intro _ _ Ci)).
      split; [destruct pixels; [cbn in X1; tauto|discriminate]|]. split; [apply X1|]. split; [apply X2|]. apply (Core res inp Cr Ci). eauto.
    - intros (N & S1 & S2 & U). assert (Nl : length pixels <> 0) by (destruct pixels; [congruence|discriminate]).
      destruct (proj2 (check_pairs_ok _ _ _) (conj Nl S1)) as (res & Cr), (proj2 (check_pairs_ok _ _ _) (conj Nl S2)) as (inp & Ci).
      rewrite Cr. cbn [bind]. rewrite Ci. cbn [bind]. apply (Core res inp Cr Ci). exact U.
  Qed.
End C117.

(** numbers for the counterexamples: micrometres *)
Definition arguments_Z := efficiency_arguments Z (fun v => v / 10)%Z Z.min.
(** The list [None, 50] for two DUTs, given as the same object ([[None, 50]] * 2): the second DUT gets the pixel size of the first one.  Two lists with the same contents give what was asked for. *)
Theorem C117_shared_refuted : exists h h' rs, arguments_Z [((250, 50)%Z, false); ((100, 150)%Z, false)] h (AList _ [IList _ 0; IList _ 0]) (ANone _) = inr (rs, h') /\
  h 0 = [CNone _; CNum _ 50%Z] /\ nth_error rs 1 = Some ((250, 50)%Z, None) /\ ~ item_asks h (IList _ 0) (100, 150)%Z (250, 50)%Z.
Proof.
  exists (fun _ => [CNone _; CNum _ 50%Z]). do 2 eexists. split; [reflexivity|]. split; [reflexivity|]. split; [reflexivity|].
  intros (a & b & E & Ha & Hb). injection E as <- <-. cbn in Ha. destruct Ha as [Ha|[_ Ha]]; discriminate.
Qed.
(** The list is changed by the call: used again for a DUT with another pixel size, it asks for the resolution of the first call. *)
Theorem C117_reused_refuted : exists h h' rs rs' h'', arguments_Z [((250, 50)%Z, false)] h (AList _ [IList _ 0]) (ANone _) = inr (rs, h') /\
  arguments_Z [((100, 150)%Z, false)] h' (AList _ [IList _ 0]) (ANone _) = inr (rs', h'') /\ nth_error rs' 0 = Some ((250, 50)%Z, None) /\
  h 0 = [CNone _; CNum _ 50%Z] /\ ~ item_asks h (IList _ 0) (100, 150)%Z (250, 50)%Z.
Proof.
  exists (fun _ => [CNone _; CNum _ 50%Z]). do 4 eexists. split; [reflexivity|]. split; [reflexivity|]. split; [reflexivity|]. split; [reflexivity|].
  intros (a & b & E & Ha & Hb). injection E as <- <-. cbn in Ha. destruct Ha as [Ha|[_ Ha]]; discriminate.
Qed.
(** None in a tuple is an error, although a pair with None can be given as a list. *)
Theorem C117_tuple_refuted : forall h, arguments_Z [((250, 50)%Z, false)] h (ATuple _ [CNone _; CNum _ 50%Z]) (ANone _) = inl TypeErr.
Proof. reflexivity. Qed.
(** A tuple with one pair for each DUT passes the checks if there are two DUTs, but is then taken as one pair. *)
Theorem C117_tuple_of_tuples_refuted : forall h a, check_pairs Z 2 h (ATuple _ [COther _; COther _]) = inr [ITuple _ [COther _; COther _]; ITuple _ [COther _; COther _]] /\
  exists e, arguments_Z [((250, 50)%Z, false); ((100, 150)%Z, false)] h (ATuple _ [COther _; COther _]) a = inl e.
Proof.
  intros h a. split; [reflexivity|]. destruct (arguments_Z _ h (ATuple _ [COther _; COther _]) a) as [e|r] eqn:E; [eauto|]. exfalso.
  assert (X := proj1 (C117_accepted _ _ _ _ _ _) (ex_intro _ _ E)). destruct X as (_ & _ & S2 & U).
  destruct (item_exists 2 h a 0 S2 ltac:(lia)) as [j Hj]. destruct (U 0 (250, 50)%Z false _ j eq_refl eq_refl Hj) as [(x & y & Q) _]. discriminate.
Qed.

(** ** Names of the regions *)
(** the names used for a DUT *)
Definition names_asked {N} (given : option (list (option N))) (regions : option nat) (used : option (list (option N))) : Prop :=
  match regions with
  | Some (S k) => exists l, used = Some l /\ length l = S k /\ (given = Some l \/ (given = None /\ forall n, In n l -> n = None))
  | _ => used = given
  end.
Lemma all_none {N} (l : list (option N)) : (forall n, In n l -> n = None) -> l = repeat None (length l).
Proof. induction l as [|n l IH]; cbn; intros H; [reflexivity|]. rewrite (H n) by auto. f_equal. apply IH. intros m Hm. apply H. auto. Qed.
Lemma expand_names_spec {N} : forall (names : list (option (list (option N)))) regions l, length names = length regions ->
  (expand_names names regions = inr l <-> length l = length names /\ forall k g r u, nth_error names k = Some g -> nth_error regions k = Some r -> nth_error l k = Some u -> names_asked g r u).
Proof.
  induction names as [|n names IH]; intros [|r regions] l L; cbn in L; try lia; cbn [expand_names].
  - split; [intros H; injection H as <-; split; [reflexivity|intros [|k]; discriminate]|]. intros [H _]. destruct l; [reflexivity|discriminate].
  - set (first := match r with Some (S k) => _ | _ => _ end).
    assert (F : forall u, first = inr u <-> names_asked n r u).
    { intros u. unfold first, names_asked. destruct r as [[|k]|]; try (split; [intros H; injection H as ->; reflexivity|intros ->; reflexivity]). destruct n as [ns|].
      - destruct (Nat.eqb_spec (length ns) (S k)) as [E|E]; split.
        + intros H. injection H as <-. exists ns. auto.
        + intros (l' & -> & L' & [G|[G _]]); [injection G as ->; reflexivity|discriminate].
        + discriminate.
        + intros (l' & -> & L' & [G|[G _]]); [injection G as ->; congruence|discriminate].
      - rewrite repeat_length, Nat.eqb_refl. split.
        + intros H. injection H as <-. exists (None :: repeat None k). split; [reflexivity|]. split; [cbn; rewrite repeat_length; reflexivity|]. right. split; [reflexivity|].
          intros m [<-|Hm]; [reflexivity|]. apply repeat_spec in Hm. exact Hm.
        + intros (l' & -> & L' & [G|[_ G]]); [discriminate|]. rewrite (all_none l' G), L'. reflexivity. }
    clearbody first. rewrite bind_inr. split.
    + intros (u & Hu & H). rewrite bind_inr in H. destruct H as (rest & Hr & H). injection H as <-. apply F in Hu. apply IH in Hr; [|lia]. destruct Hr as [Lr Hr]. split; [cbn; lia|].
      intros [|k] g r' u'; cbn; [congruence|apply Hr].
    + intros [Ll H]. destruct l as [|u l]; [discriminate|]. exists u. split; [apply F, (H 0); reflexivity|]. rewrite bind_inr. exists l. split; [|reflexivity]. apply IH; [lia|].
      split; [cbn in Ll; lia|]. intros k g r' u' H1 H2 H3. apply (H (S k)); assumption.
Qed.
(** The names of the regions: without names, or with None for a DUT, the regions have no names; otherwise there has to be one name for each region of a DUT. *)
Theorem C117_names : forall N n (names : option (list (option (list (option N))))) regions l, length regions = n ->
  (check_names n names regions = inr l <->
   n <> 0 /\ length l = n /\ (forall given, names = Some given -> length given = n) /\
   forall k r u, nth_error regions k = Some r -> nth_error l k = Some u ->
     names_asked (match names with None => None | Some given => nth k given None end) r u).
Proof.
  intros N n names regions l Ln. unfold check_names. set (given := match names with None => repeat None n | Some l => l end). rewrite !guard_bind.
  assert (G : forall k, length given = n -> k < n -> nth_error given k = Some (match names with None => None | Some g => nth k g None end)).
  { intros k Lg Hk. unfold given in *. destruct names as [g|]; [apply nth_error_nth'; lia|apply nth_repeat_some; exact Hk]. }
  split.
  - intros (H1 & H2 & H3). apply Nat.eqb_eq in H2. apply expand_names_spec in H3; [|lia]. destruct H3 as [Ll H3]. split; [intros ->; rewrite H2 in H1; discriminate|]. split; [lia|]. split.
    + intros g E. subst names. exact H2.
    + intros k r u Hr Hu. apply (H3 k _ r u); auto. apply G; [exact H2|]. rewrite <- Ln. apply nth_error_Some. congruence.
  - intros (N0 & Ll & Lg & H). assert (L2 : length given = n). { unfold given. destruct names; [apply Lg; reflexivity|apply repeat_length]. }
    rewrite L2, Nat.eqb_refl. split; [destruct n; [congruence|reflexivity]|]. split; [reflexivity|]. apply expand_names_spec; [lia|]. split; [lia|].
    intros k g r u Hg Hr Hu. rewrite (G k L2) in Hg by (rewrite <- Ln; apply nth_error_Some; congruence). injection Hg as <-. apply (H k); assumption.
Qed.

Example C117_case :
  let h := fun o => match o with 0 => [CNone Z; CNum Z 50%Z] | 1 => [CNum Z 20%Z; CNone Z] | _ => [CNone Z; CNone Z] end in
  let pixels := [((250, 50)%Z, true); ((100, 150)%Z, false); ((18, 18)%Z, true)] in
  let a := AList Z [IList Z 0; INone Z; ITuple Z [CNum Z 36%Z; CNum Z 9%Z]] in
  let b := AList Z [IList Z 1; INone Z; INone Z] in
  match arguments_Z pixels h a b with
  | inr (rs, h') => rs = [((250, 50)%Z, Some (20, 5)%Z); ((100, 150)%Z, None); ((36, 9)%Z, Some (1, 1)%Z)] /\ h' 0 = [CNum Z 250%Z; CNum Z 50%Z] /\ h' 2 = h 2
  | inl _ => False
  end /\
  NoDup (objects a ++ objects b) /\ item_of a 0 (IList Z 0) /\
  check_names (N := nat) 3 None [Some 2; None; Some 0] = inr [Some [None; None]; None; None] /\
  check_names 3 (Some [Some [Some 7; None]; None; None]) [Some 2; None; Some 0] = inr [Some [Some 7; None]; None; None] /\
  check_names 3 (Some [Some [Some 7]; None; None]) [Some 2; None; Some 0] = inl ValueErr.
Proof.
  cbn zeta. split; [vm_compute; auto|]. split; [repeat constructor; simpl; intuition lia|]. repeat split; reflexivity.
Qed.

Print Assumptions C117_resolutions.
Print Assumptions C117_shared.
Print Assumptions C117_accepted.
Print Assumptions C117_shared_refuted.
Print Assumptions C117_reused_refuted.
Print Assumptions C117_tuple_refuted.
Print Assumptions C117_tuple_of_tuples_refuted.
Print Assumptions C117_names.
