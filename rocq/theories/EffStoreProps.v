(** C126: what calculate_efficiency stores. *)
From Coq Require Import Ascii String List Arith Lia Reals Lra Bool.
From Verif Require Import EffStoreModel.
Import ListNotations.
Local Open Scope list_scope.

(** *** Specification *)
(** the percentage of w out of t tracks: undefined without track *)
Definition is_percentage (w t : nat) (v : option R) : Prop := match v with None => t = 0%nat | Some x => t <> 0%nat /\ (x * INR t = 100 * INR w)%R end.
(** the array of percentages for a list of counts (with hit, tracks) *)
Definition percentages_of (counts : list (nat * nat)) (l : list (option R)) : Prop := Forall2 (fun p v => is_percentage (fst p) (snd p) v) counts l.
(** the arrays of a DUT that calculate_efficiency documents by their names *)
Definition maps_of_dut : list string :=
  ["hist_2d_x_edges"; "hist_2d_y_edges"; "count_hits_2d_hist"; "count_tracks_2d_hist"; "count_tracks_with_hit_2d_hist";
   "stat_2d_x_residuals_hist"; "stat_2d_y_residuals_hist"; "stat_2d_residuals_hist"; "stat_2d_charge_hist"; "stat_2d_frame_hist"; "stat_2d_cluster_size_hist";
   "stat_2d_total_angle_hist"; "stat_2d_alpha_angle_hist"; "stat_2d_beta_angle_hist"; "count_1d_charge_hist"; "count_1d_frame_hist";
   "count_1d_total_angle_hist"; "count_1d_alpha_angle_hist"; "count_1d_beta_angle_hist";
   "count_1d_total_angle_hist_edges"; "count_1d_alpha_angle_hist_edges"; "count_1d_beta_angle_hist_edges"]%string.
Definition maps_of_region : list string :=
  map (append "efficiency_regions_count_1d_") ["charge_hist"; "frame_hist"; "cluster_size_hist"; "cluster_shape_hist"; "total_angle_hist"; "alpha_angle_hist"; "beta_angle_hist";
     "total_angle_hist_edges"; "alpha_angle_hist_edges"; "beta_angle_hist_edges"]%string ++
   map (append "count_in_pixel_") ["hits_2d_hists"; "tracks_2d_hists"; "tracks_with_hit_2d_hists"; "cluster_shape_2d_hists"]%string ++
   map (append "stat_in_pixel_") ["x_residuals_2d_hists"; "y_residuals_2d_hists"; "residuals_2d_hists"; "charge_2d_hists"; "frame_2d_hists"; "cluster_size_2d_hists"; "cluster_shape_2d_hists"]%string.
Definition attributes_of_region : list string :=
  map (append "efficiency_regions_") ["efficiencies"; "in_pixel_hist_extent"; "in_pixel_plot_range"; "analyze_cluster_shapes"]%string.
Definition regions_list {A} (d : dut_result A) : list (region A) := match regions d with Some l => l | None => [] end.

Lemma percentage_ok p : is_percentage (fst p) (snd p) (percentage p).
Proof.
  unfold is_percentage, percentage. destruct (Nat.eqb_spec (snd p) 0) as [E|E]; [exact E|]. split; [exact E|]. assert (INR (snd p) <> 0)%R by (apply not_0_INR; exact E). field. exact H.
Qed.
Lemma percentage_unique w t a b : is_percentage w t a -> is_percentage w t b -> a = b.
Proof.
  unfold is_percentage. destruct a as [x|], b as [y|]; try tauto; try (intros (N & _) E; contradiction); try (intros E (N & _); contradiction).
  intros (N & Ex) (_ & Ey). f_equal. assert (INR t <> 0)%R by (apply not_0_INR; exact N). apply (Rmult_eq_reg_r (INR t)); [congruence|exact H].
Qed.
Lemma percentages_ok density c : percentages_of c (stored_data (masked_percentages density c)).
Proof. unfold percentages_of, stored_data, masked_percentages. rewrite map_map. induction c as [|p c IH]; cbn; constructor; [apply percentage_ok|exact IH]. Qed.
(** *** Paths *)
Lemma nodup_app_r {X} (a b : list X) : NoDup (a ++ b) -> NoDup b.
Proof. induction a as [|x a IH]; intros H; [exact H|]. cbn in H. inversion H. auto. Qed.
Lemma nodup_disjoint {X} (a b : list X) x : NoDup (a ++ b) -> In x a -> In x b -> False.
Proof. induction a as [|y a IH]; intros H Ia Ib; [destruct Ia|]. cbn in H. inversion H as [|? ? N N']; subst. destruct Ia as [->|Ia]; [apply N, in_app_iff; right; exact Ib|exact (IH N' Ia Ib)]. Qed.
Lemma nodup_app_l {X} (a b : list X) : NoDup (a ++ b) -> NoDup a.
Proof. induction a as [|x a IH]; intros H; [constructor|]. cbn in H. inversion H as [|? ? N N']; subst. constructor; [intros I; apply N, in_app_iff; left; exact I|apply IH, N']. Qed.
Lemma nodup_app {X} (a b : list X) : NoDup a -> NoDup b -> (forall x, In x a -> ~ In x b) -> NoDup (a ++ b).
Proof.
  induction 1 as [|x a N H IH]; intros Nb D; [exact Nb|]. cbn. constructor.
  - rewrite in_app_iff. intros [I|I]; [contradiction|]. apply (D x); [left; reflexivity|exact I].
  - apply IH; [exact Nb|]. intros y I. apply D. right. exact I.
Qed.
Section Paths.
  Context {A : Type}.
  Implicit Types (file new : list (entry A)).
  Lemma exists_path file (e : entry A) : existsb (fun f : entry A => if path_eq_dec (fst f) (fst e) then true else false) file = true <-> In (fst e) (map fst file).
  Proof.
    rewrite existsb_exists, in_map_iff. split; intros (f & P & Q); exists f.
    - destruct (path_eq_dec (fst f) (fst e)); [auto|discriminate].
    - destruct (path_eq_dec (fst f) (fst e)); [auto|contradiction].
  Qed.
  Lemma create_inv new : forall file out, create file new = inr out -> out = file ++ new.
  Proof. induction new as [|n t IH]; intros file out H; cbn in H; [injection H as <-; rewrite app_nil_r; reflexivity|]. match type of H with context [if ?b then _ else _] => destruct b end; [discriminate|]. rewrite (IH _ _ H), <- app_assoc. reflexivity. Qed.
  Lemma create_iff new : forall file, NoDup (map fst file) -> ((exists out, create file new = inr out) <-> NoDup (map fst (file ++ new))).
  Proof.
    induction new as [|e t IH]; intros file N; cbn [create].
    - rewrite app_nil_r. split; [intros _; exact N|intros _; eexists; reflexivity].
    - assert (K := exists_path file e). match type of K with context [existsb ?f file] => destruct (existsb f file) end.
      + split; [intros (o & [=])|]. intros D. exfalso. rewrite map_app in D. cbn [map] in D. apply NoDup_remove_2 in D. apply D. rewrite in_app_iff. left. apply K. reflexivity.
      + assert (F : ~ In (fst e) (map fst file)) by (intros I; apply K in I; discriminate).
        rewrite IH; [rewrite <- app_assoc; reflexivity|]. rewrite map_app. apply nodup_app; [exact N|constructor; [intros []|constructor]|]. intros x I [<-|[]]. contradiction.
  Qed.
  Lemma read_in file p v : NoDup (map fst file) -> In (p, v) file -> read file p = Some v.
  Proof.
    unfold read. induction file as [|f file IH]; intros N I; [destruct I|]. destruct I as [->|I].
    - cbn. destruct (path_eq_dec p p); [reflexivity|congruence].
    - cbn [map] in N. inversion N as [|? ? N1 N2]; subst. cbn [find]. destruct (path_eq_dec (fst f) p) as [E|E]; [|apply IH; assumption].
      exfalso. apply N1. rewrite E. change p with (fst (p, v)). apply in_map, I.
  Qed.
  Lemma read_some file p v : read file p = Some v -> In (p, v) file.
  Proof.
    unfold read. destruct (find _ file) as [f|] eqn:E; [|discriminate]. intros [= <-]. apply find_some in E as (I & Q). destruct (path_eq_dec (fst f) p) as [<-|]; [|discriminate]. destruct f. exact I.
  Qed.
  Definition path_dut (p : path) : nat := match p with DutGroup d | DutNode d _ | RegionGroup d _ | RegionNode d _ _ | RegionAttr d _ _ => d end.
  Definition path_region (p : path) : option nat := match p with DutGroup _ | DutNode _ _ => None | RegionGroup _ k | RegionNode _ k _ | RegionAttr _ k _ => Some k end.
  (** the paths of a region, from the names *)
  Definition region_paths (d k : nat) : list path := RegionGroup d k :: map (RegionAttr d k) region_attrs ++
    map (RegionNode d k) (region_names_before ++ ["efficiency_regions_stat_pixel_efficiency_hist"%string] ++ region_names_between ++ ["efficiency_regions_stat_in_pixel_efficiency_2d_hist"%string] ++ region_names_after).
  Lemma region_paths_eq density d (kr : nat * region A) : map fst (region_entries density d kr) = region_paths d (fst kr).
  Proof. destruct kr as [k r]. reflexivity. Qed.
  Definition own_names (c : bool) : list string := dut_names ++ ["stat_2d_efficiency_hist"; "stat_pixel_efficiency_hist"; "stat_2d_efficiency_hist_mask"]%string ++ (if c then ["count_pixel_hits_2d_hist"%string] else []).
  Lemma dut_paths_eq density d (r : dut_result A) : map fst (dut_entries density d r) = DutGroup d :: map (DutNode d) (own_names (clusters r)) ++ flat_map (region_paths d) (seq 0 (length (regions_list r))).
  Proof.
    assert (G : forall (rs : list (region A)) s, map fst (flat_map (region_entries density d) (combine (seq s (length rs)) rs)) = flat_map (region_paths d) (seq s (length rs))).
    { induction rs as [|x rs IH]; intros s; cbn [length seq combine flat_map]; [reflexivity|]. rewrite map_app, IH, region_paths_eq. reflexivity. }
    unfold dut_entries, regions_list, own_names. destruct (regions r) as [rs|].
    - specialize (G rs 0%nat). revert G. generalize (flat_map (region_entries density d) (combine (seq 0 (length rs)) rs)) as l. generalize (flat_map (region_paths d) (seq 0 (length rs))) as m. intros m l G. destruct (clusters r); cbn; rewrite <- G; reflexivity.
    - destruct (clusters r); reflexivity.
  Qed.
End Paths.
Fixpoint nodupb (l : list string) : bool := match l with [] => true | a :: l => negb (existsb (String.eqb a) l) && nodupb l end.
Lemma nodupb_ok l : nodupb l = true -> NoDup l.
Proof.
  induction l as [|a l IH]; cbn; [constructor|]. intros H. apply andb_true_iff in H as (N & H). constructor; [|auto]. intros I. apply negb_true_iff in N. assert (existsb (String.eqb a) l = true) by (apply existsb_exists; exists a; split; [exact I|apply String.eqb_refl]). congruence.
Qed.
Lemma names_in l m : forallb (fun n => existsb (String.eqb n) m) l = true -> forall n, In n l -> In n m.
Proof. intros H n I. rewrite forallb_forall in H. specialize (H n I). apply existsb_exists in H as (x & J & E). apply String.eqb_eq in E. subst x. exact J. Qed.
Lemma nodup_map {X Y} (f : X -> Y) l : (forall a b, f a = f b -> a = b) -> NoDup l -> NoDup (map f l).
Proof. intros J. induction 1 as [|a l N H IH]; cbn; constructor; [|exact IH]. intros I. apply in_map_iff in I as (b & E & I). apply J in E. subst b. contradiction. Qed.
Lemma in_region_paths d k p : In p (region_paths d k) -> path_dut p = d /\ path_region p = Some k.
Proof. intros [<-|I]; [auto|]. apply in_app_iff in I as [I|I]; apply in_map_iff in I as (n & <- & _); auto. Qed.
Lemma region_paths_nodup d k : NoDup (region_paths d k).
Proof.
  unfold region_paths. constructor.
  - rewrite in_app_iff. intros [I|I]; apply in_map_iff in I as (n & E & _); discriminate.
  - apply nodup_app.
    + apply nodup_map; [intros a b [= ->]; reflexivity|apply nodupb_ok; reflexivity].
    + apply nodup_map; [intros a b [= ->]; reflexivity|apply nodupb_ok; reflexivity].
    + intros p I J. apply in_map_iff in I as (n & <- & _). apply in_map_iff in J as (m & E & _). discriminate.
Qed.
Lemma dut_paths_nodup {A} density d (r : dut_result A) : NoDup (map fst (dut_entries density d r)).
Proof.
  rewrite dut_paths_eq. set (n := length (regions_list r)). clearbody n.
  assert (R : forall n s, NoDup (flat_map (region_paths d) (seq s n)) /\ forall p, In p (flat_map (region_paths d) (seq s n)) -> exists k, (s <= k)%nat /\ path_region p = Some k).
  { clear n. induction n as [|n IH]; intros s; cbn [seq flat_map]; [split; [constructor|intros p []]|]. destruct (IH (S s)) as (N & F). split.
    - apply nodup_app; [apply region_paths_nodup|exact N|]. intros p I J. apply in_region_paths in I as (_ & I). destruct (F p J) as (k & L & E). rewrite I in E. injection E as ->. lia.
    - intros p I. apply in_app_iff in I as [I|I]; [exists s; split; [lia|apply (in_region_paths d s p I)]|]. destruct (F p I) as (k & L & E). exists k. split; [lia|exact E]. }
  destruct (R n 0%nat) as (N & F). constructor.
  - rewrite in_app_iff. intros [I|I]; [apply in_map_iff in I as (x & E & _); discriminate|]. destruct (F _ I) as (k & _ & E). discriminate.
  - apply nodup_app; [|exact N|].
    + apply nodup_map; [intros a b [= ->]; reflexivity|]. apply nodupb_ok. destruct (clusters r); reflexivity.
    + intros p I J. apply in_map_iff in I as (x & <- & _). destruct (F _ J) as (k & _ & E). discriminate.
Qed.
Lemma dut_paths_dut {A} density d (r : dut_result A) p : In p (map fst (dut_entries density d r)) -> path_dut p = d.
Proof.
  rewrite dut_paths_eq. intros [<-|I]; [reflexivity|]. apply in_app_iff in I as [I|I]; [apply in_map_iff in I as (x & <- & _); reflexivity|].
  apply in_flat_map in I as (k & _ & I). apply (in_region_paths d k p I).
Qed.
(** *** C126 *)
(** a bin that counts: enough tracks, and a hit (or no track at all) *)
Definition counts_as_efficient (density : nat) (p : nat * nat) : Prop := (density <= snd p)%nat /\ (fst p <> 0%nat \/ snd p = 0%nat).
Lemma any_iff density c : np_any (masked_percentages density c) = true <-> exists p, In p c /\ counts_as_efficient density p.
Proof.
  unfold np_any, masked_percentages, counts_as_efficient. rewrite existsb_exists. split.
  - intros (e & I & H). apply in_map_iff in I as (p & <- & I). exists p. split; [exact I|]. cbn [fst snd] in H. apply andb_true_iff in H as (L & V). apply negb_true_iff, Nat.ltb_ge in L. split; [exact L|].
    unfold percentage in V. destruct (Nat.eqb_spec (snd p) 0) as [E|E]; [right; exact E|]. left. intros Z. destruct (Req_EM_T _ 0) as [_|F]; [discriminate|]. apply F. rewrite Z. cbn [INR]. unfold Rdiv. ring.
  - intros (p & I & L & H). exists (percentage p, Nat.ltb (snd p) density). split; [apply in_map_iff; exists p; auto|]. cbn [fst snd]. apply andb_true_iff. split; [apply negb_true_iff, Nat.ltb_ge, L|].
    unfold percentage. destruct (Nat.eqb_spec (snd p) 0) as [E|E]; [reflexivity|]. destruct H as [H|H]; [|contradiction]. destruct (Req_EM_T _ 0) as [Z|_]; [|reflexivity]. exfalso.
    assert (INR (fst p) <> 0)%R by (apply not_0_INR; exact H). assert (INR (snd p) <> 0)%R by (apply not_0_INR; exact E). apply H0. apply (Rmult_eq_reg_r (100 / INR (snd p))%R); [rewrite Rmult_0_l, <- Z; unfold Rdiv; ring|].
    unfold Rdiv. apply Rmult_integral_contrapositive. split; [lra|apply Rinv_neq_0_compat; exact H1].
Qed.
Section C126.
  Context {A : Type}.
  Variable results : nat -> dut_result A.
  Lemma store_inv density duts : forall file0 file, store density results file0 duts = inr file -> file = file0 ++ flat_map (fun d => dut_entries density d (results d)) duts.
  Proof.
    induction duts as [|d duts IH]; intros file0 file H; cbn [store] in H; [injection H as <-; rewrite app_nil_r; reflexivity|].
    destruct (negb _); [discriminate|]. destruct (create file0 _) as [|f] eqn:C; [discriminate|]. apply create_inv in C. subst f. rewrite (IH _ _ H). cbn [flat_map]. rewrite app_assoc. reflexivity.
  Qed.
  Lemma duts_nodup density duts : NoDup duts -> NoDup (map fst (flat_map (fun d => dut_entries density d (results d)) duts)).
  Proof.
    induction 1 as [|d duts N H IH]; [constructor|]. cbn [flat_map]. rewrite map_app. apply nodup_app; [apply dut_paths_nodup|exact IH|].
    intros p I J. apply dut_paths_dut in I. rewrite flat_map_concat_map, concat_map, map_map in J. apply in_concat in J as (l & L & J). apply in_map_iff in L as (x & <- & X). apply dut_paths_dut in J. congruence.
  Qed.
  (** The file is written exactly if no DUT is selected twice and every DUT has a bin with enough tracks (minimum_track_density) and a hit, or without any track; otherwise an exception is raised. *)
  Theorem C126_success density duts : (exists file, store density results [] duts = inr file) <->
    NoDup duts /\ forall d, In d duts -> exists p, In p (bins (results d)) /\ counts_as_efficient density p.
  Proof.
    assert (G : forall duts file0, NoDup (map fst file0) -> ((exists file, store density results file0 duts = inr file) <->
      NoDup (map fst (file0 ++ flat_map (fun d => dut_entries density d (results d)) duts)) /\ forall d, In d duts -> np_any (masked_percentages density (bins (results d))) = true)).
    { clear duts. induction duts as [|d duts IH]; intros file0 N; cbn [store flat_map].
      - rewrite app_nil_r. split; [intros _; split; [exact N|intros d []]|intros _; eexists; reflexivity].
      - destruct (np_any (masked_percentages density (bins (results d)))) eqn:E; cbn [negb].
        + assert (CI := create_iff (dut_entries density d (results d)) file0 N). destruct (create file0 _) as [e|f] eqn:C.
          * split; [intros (f & [=])|]. intros (D & _). rewrite app_assoc, map_app in D.
            assert (X : exists out, @inl store_error (list (entry A)) e = inr out) by (apply CI; apply nodup_app_l in D; exact D). destruct X as (? & [=]).
          * assert (Ef := create_inv _ _ _ C). subst f. rewrite IH; [|apply CI; eexists; reflexivity]. rewrite <- app_assoc. split; intros (D & H); (split; [exact D|]); [intros x [<-|I]; auto|intros x I; apply H; right; exact I].
        + split; [intros (f & [=])|]. intros (_ & H). specialize (H d (or_introl eq_refl)). congruence. }
    rewrite (G duts [] (NoDup_nil _)). cbn [app]. split.
    - intros (D & H). split; [|intros d I; apply any_iff, H, I]. clear H G. induction duts as [|d duts IH]; [constructor|]. cbn [flat_map] in D. rewrite map_app in D. constructor.
      + intros I. assert (P : In (DutGroup d) (map fst (flat_map (fun d => dut_entries density d (results d)) duts))).
        { apply in_map_iff. exists (DutGroup d, None). split; [reflexivity|]. apply in_flat_map. exists d. split; [exact I|left; reflexivity]. }
        apply (nodup_disjoint _ _ _ D) in P; [exact P|]. left. reflexivity.
      + apply IH. exact (nodup_app_r _ _ D).
    - intros (D & H). split; [apply duts_nodup, D|intros d I; apply any_iff, H, I].
  Qed.
  (** Everything can be read back from the file. For a selected DUT: its arrays under their names, the percentages of tracks with hit for every bin and every pixel, the mask of the bins with too few tracks, and the pixel hits if a file of clusters
      was given; for each of its regions the attributes, the arrays and the percentages of the pixels and of the in-pixel bins. *)
  Theorem C126_read density duts file : store density results [] duts = inr file -> forall d, In d duts -> let r := results d in
    read file (DutGroup d) = Some None /\
    (forall n, In n maps_of_dut -> read file (DutNode d n) = Some (Some (Array (array r n)))) /\
    (exists l, read file (DutNode d "stat_2d_efficiency_hist") = Some (Some (Percentages l)) /\ percentages_of (bins r) l) /\
    (exists l, read file (DutNode d "stat_2d_efficiency_hist_mask") = Some (Some (Mask l)) /\ Forall2 (fun p b => b = true <-> (snd p < density)%nat) (bins r) l) /\
    (exists l, read file (DutNode d "stat_pixel_efficiency_hist") = Some (Some (Percentages l)) /\ percentages_of (pixels r) l) /\
    read file (DutNode d "count_pixel_hits_2d_hist") = (if clusters r then Some (Some (Array (array r "count_pixel_hits_2d_hist"))) else None) /\
    (forall k g, nth_error (regions_list r) k = Some g ->
      read file (RegionGroup d k) = Some None /\
      (forall n, In n attributes_of_region -> read file (RegionAttr d k n) = Some (Some (Array (region_attr g n)))) /\
      (forall n, In n maps_of_region -> read file (RegionNode d k n) = Some (Some (Array (region_array g n)))) /\
      (exists l, read file (RegionNode d k "efficiency_regions_stat_pixel_efficiency_hist") = Some (Some (Percentages l)) /\ percentages_of (region_pixels g) l) /\
      (exists l, read file (RegionNode d k "efficiency_regions_stat_in_pixel_efficiency_2d_hist") = Some (Some (Percentages l)) /\ percentages_of (region_in_pixel g) l)).
  Proof.
    intros H d I r. destruct (proj1 (C126_success density duts) (ex_intro _ _ H)) as (ND & _). assert (N := duts_nodup density duts ND). apply store_inv in H. cbn [app] in H. rewrite <- H in N.
    assert (J : forall p v, In (p, v) (dut_entries density d r) -> read file p = Some v).
    { intros p v J. apply read_in; [exact N|]. rewrite H. apply in_flat_map. exists d. auto. }
    assert (SubD : forall n, In n maps_of_dut -> In n dut_names) by (apply names_in; reflexivity).
    assert (SubR : forall n, In n maps_of_region -> In n (region_names_before ++ region_names_between ++ region_names_after)) by (apply names_in; reflexivity).
    assert (SubA : forall n, In n attributes_of_region -> In n region_attrs) by (apply names_in; reflexivity).
    split; [apply J; left; reflexivity|]. split; [|split; [|split; [|split; [|split]]]].
    - intros n X. apply J. right. apply in_app_iff. left. apply in_map_iff. exists n. split; [reflexivity|apply SubD, X].
    - exists (stored_data (masked_percentages density (bins r))). split; [|apply percentages_ok]. apply J. right. apply in_app_iff. right. apply in_app_iff. left. left. reflexivity.
    - exists (stored_mask (masked_percentages density (bins r))). split; [apply J; right; apply in_app_iff; right; apply in_app_iff; left; right; right; left; reflexivity|].
      unfold stored_mask, masked_percentages. rewrite map_map. induction (bins r) as [|p c IH]; cbn; constructor; [apply Nat.ltb_lt|exact IH].
    - exists (stored_data (masked_percentages density (pixels r))). split; [|apply percentages_ok]. apply J. right. apply in_app_iff. right. apply in_app_iff. left. right. left. reflexivity.
    - destruct (clusters r) eqn:C.
      + apply J. right. apply in_app_iff. right. apply in_app_iff. right. apply in_app_iff. left. rewrite C. left. reflexivity.
      + destruct (read file (DutNode d "count_pixel_hits_2d_hist")) as [v|] eqn:E; [|reflexivity]. exfalso. apply read_some in E. rewrite H in E. apply in_flat_map in E as (x & _ & E).
        assert (P := in_map fst _ _ E). cbn [fst] in P. assert (D := dut_paths_dut _ _ _ _ P). cbn in D. subst x. rewrite dut_paths_eq in P. destruct P as [P|P]; [discriminate|]. apply in_app_iff in P as [P|P].
        * apply in_map_iff in P as (n & [= ->] & P). fold r in P. rewrite C in P. clear -P.
          assert (Q : existsb (String.eqb "count_pixel_hits_2d_hist") (own_names false) = true) by (apply existsb_exists; exists "count_pixel_hits_2d_hist"%string; split; [exact P|reflexivity]). discriminate.
        * apply in_flat_map in P as (k & _ & P). apply in_region_paths in P as (_ & P). discriminate.
    - intros k g K. assert (Q : forall p v, In (p, v) (region_entries density d (k, g)) -> read file p = Some v).
      { intros p v Q. apply J. unfold dut_entries. right. apply in_app_iff. right. apply in_app_iff. right. apply in_app_iff. right. unfold regions_list in K. destruct (regions r) as [rs|]; [|destruct k; discriminate].
        apply in_flat_map. exists (k, g). split; [|exact Q]. assert (Z : forall rs s k, nth_error rs k = Some g -> In ((s + k)%nat, g) (combine (seq s (length rs)) rs)).
        { clear. induction rs as [|a rs IH]; intros s k E; [destruct k; discriminate|]. destruct k as [|k]; cbn in E.
          - injection E as ->. left. rewrite Nat.add_0_r. reflexivity.
          - right. rewrite <- Nat.add_succ_comm. apply IH, E. }
        apply (Z rs 0%nat k K). }
      split; [apply Q; left; reflexivity|]. split; [|split; [|split]].
      + intros n X. apply Q. right. apply in_app_iff. left. apply in_map_iff. exists n. split; [reflexivity|apply SubA, X].
      + intros n X. apply SubR in X. apply Q. right. apply in_app_iff. right. apply in_app_iff in X as [X|X]; [apply in_app_iff; left; apply in_map_iff; exists n; auto|]. apply in_app_iff. right. apply in_app_iff. right.
        apply in_app_iff in X as [X|X]; [apply in_app_iff; left; apply in_map_iff; exists n; auto|]. apply in_app_iff. right. apply in_app_iff. right. apply in_map_iff. exists n. auto.
      + exists (stored_data (masked_percentages density (region_pixels g))). split; [|apply percentages_ok]. apply Q. right. apply in_app_iff. right. apply in_app_iff. right. apply in_app_iff. left. left. reflexivity.
      + exists (stored_data (masked_percentages density (region_in_pixel g))). split; [|apply percentages_ok]. apply Q. right. apply in_app_iff. right. apply in_app_iff. right. apply in_app_iff. right. apply in_app_iff. right. apply in_app_iff. left. left. reflexivity.
  Qed.
  (** Nothing else is in the file: what belongs to a DUT belongs to a selected one, and what belongs to a region to one of its regions. *)
  Theorem C126_only density duts file p v : store density results [] duts = inr file -> read file p = Some v ->
    In (path_dut p) duts /\ forall k, path_region p = Some k -> (k < length (regions_list (results (path_dut p))))%nat.
  Proof.
    intros H E. apply store_inv in H. cbn [app] in H. apply read_some in E. rewrite H in E. apply in_flat_map in E as (d & I & E). assert (P := in_map fst _ _ E). cbn [fst] in P.
    assert (D := dut_paths_dut _ _ _ _ P). rewrite D. split; [exact I|]. intros k K. rewrite dut_paths_eq in P. destruct P as [<-|P]; [discriminate|]. apply in_app_iff in P as [P|P]; [apply in_map_iff in P as (n & <- & _); discriminate|].
    apply in_flat_map in P as (j & Jn & P). apply in_region_paths in P as (_ & P). rewrite K in P. injection P as <-. apply in_seq in Jn. lia.
  Qed.
End C126.
(** Percentages are from 0 to 100, 100 exactly if all tracks have a hit, and with the number of tracks they give the number of tracks with hit. *)
Theorem C126_percentages : forall w t x, (w <= t)%nat -> is_percentage w t (Some x) -> (0 <= x <= 100)%R /\ (x = 100%R <-> w = t) /\ (x = 0%R <-> w = 0%nat) /\ (forall w', is_percentage w' t (Some x) -> w' = w).
Proof.
  intros w t x L (N & E). assert (P : (0 < INR t)%R) by (apply lt_0_INR; lia). assert (W : (0 <= INR w <= INR t)%R) by (split; [apply pos_INR|apply le_INR; exact L]).
  split; [split; [apply (Rmult_le_reg_r (INR t)); lra|apply (Rmult_le_reg_r (INR t)); lra]|]. split; [|split].
  - split; [intros ->; apply INR_eq; lra|intros ->; apply (Rmult_eq_reg_r (INR t)); lra].
  - split; [intros ->; apply INR_eq; cbn; lra|intros ->; cbn in E; apply (Rmult_eq_reg_r (INR t)); lra].
  - intros w' (_ & E'). apply INR_eq. lra.
Qed.
(** Refuted: all efficiencies zero are refused. With minimum_track_density 0 a bin without track is enough: nan counts as different from zero. *)
Theorem C126_zero_refuted : exists (results : nat -> dut_result unit) file, (forall p, In p (bins (results 0%nat)) -> fst p = 0%nat) /\ store 0 results [] [0%nat] = inr file.
Proof.
  set (r := fun _ : nat => DutResult [(0, 5); (0, 0)]%nat [] (fun _ => tt) false None). assert (X : exists file, store 0 r [] [0%nat] = inr file).
  { apply C126_success. split; [constructor; [intros []|constructor]|]. intros d _. exists (0, 0)%nat. split; [right; left; reflexivity|]. split; [cbn; lia|right; reflexivity]. }
  destruct X as (file & X). exists r, file. split; [|exact X]. intros p [<-|[<-|[]]]; reflexivity.
Qed.
(** Refuted: bins with too few tracks can be told from the others. Except for the mask of stat_2d_efficiency_hist no array depends on minimum_track_density: the masks of pixels, of regions and of all other maps are lost. *)
Theorem C126_mask_refuted : forall A (results : nat -> dut_result A) density density' duts file file' p, store density results [] duts = inr file -> store density' results [] duts = inr file' ->
  (forall d, p <> DutNode d "stat_2d_efficiency_hist_mask") -> read file p = read file' p.
Proof.
  intros A results density density' duts file file' p H H' M.
  destruct (proj1 (C126_success results density duts) (ex_intro _ _ H)) as (ND & _). assert (N := duts_nodup results density duts ND). assert (N' := duts_nodup results density' duts ND). apply store_inv in H, H'. cbn [app] in H, H'. rewrite <- H in N. rewrite <- H' in N'.
  assert (S : forall a b c, stored_data (masked_percentages a c) = stored_data (masked_percentages b c)) by (intros a b c; unfold stored_data, masked_percentages; rewrite !map_map; reflexivity).
  assert (Rg : forall a b d kr, region_entries (A := A) a d kr = region_entries b d kr) by (intros a b d [k r]; unfold region_entries; rewrite (S a b (region_pixels r)), (S a b (region_in_pixel r)); reflexivity).
  assert (D : forall a b d r v, In (p, v) (dut_entries (A := A) a d r) -> In (p, v) (dut_entries b d r)).
  { intros a b d r v I. unfold dut_entries in *. destruct I as [I|I]; [left; exact I|right]. apply in_app_iff in I as [I|I]; apply in_app_iff; [left; exact I|right]. apply in_app_iff in I as [I|I]; apply in_app_iff.
    - left. destruct I as [I|[I|[I|[]]]]; [left; rewrite (S b a); exact I|right; left; rewrite (S b a); exact I|injection I as E _; exfalso; exact (M d (eq_sym E))].
    - right. apply in_app_iff in I as [I|I]; apply in_app_iff; [left; exact I|right]. destruct (regions r) as [rs|]; [|exact I]. rewrite (flat_map_ext _ _ (Rg b a d)). exact I. }
  assert (F : forall a b v, In (p, v) (flat_map (fun d => dut_entries a d (results d)) duts) -> In (p, v) (flat_map (fun d => dut_entries b d (results d)) duts)).
  { intros a b v I. apply in_flat_map in I as (d & Id & I). apply in_flat_map. exists d. split; [exact Id|apply (D a b), I]. }
  destruct (read file p) as [v|] eqn:E.
  - apply read_some in E. rewrite H in E. apply (F _ density') in E. rewrite <- H' in E. symmetry. apply read_in; assumption.
  - destruct (read file' p) as [v|] eqn:E'; [|reflexivity]. apply read_some in E'. rewrite H' in E'. apply (F _ density) in E'. rewrite <- H in E'. apply read_in in E'; [congruence|exact N].
Qed.
(** Refuted: the file tells how many tracks are behind the efficiency of a pixel. One track with hit and hundred tracks with hit give the same file. *)
Theorem C126_pixel_refuted : exists results results' : nat -> dut_result unit, pixels (results 0%nat) = [(1, 1)]%nat /\ pixels (results' 0%nat) = [(100, 100)]%nat /\
  exists file, store 1 results [] [0%nat] = inr file /\ store 1 results' [] [0%nat] = inr file.
Proof.
  set (r := fun n (_ : nat) => DutResult [(100, 100)]%nat [(n, n)] (fun _ => tt) false None). exists (r 1%nat), (r 100%nat). split; [reflexivity|]. split; [reflexivity|].
  assert (X : forall n, exists file, store 1 (r n) [] [0%nat] = inr file).
  { intros n. apply C126_success. split; [constructor; [intros []|constructor]|]. intros d _. exists (100, 100)%nat. split; [left; reflexivity|]. split; [cbn; lia|left; cbn; lia]. }
  destruct (X 1%nat) as (f1 & X1). destruct (X 100%nat) as (f2 & X2). exists f1. split; [exact X1|]. rewrite X2. f_equal. apply store_inv in X1, X2. rewrite X1, X2. cbn [app flat_map]. f_equal. unfold dut_entries, r. cbn [pixels bins array clusters regions].
  replace (stored_data (masked_percentages 1 [(1%nat, 1%nat)])) with (stored_data (masked_percentages 1 [(100%nat, 100%nat)])); [reflexivity|].
  unfold stored_data, masked_percentages. cbn [map fst]. f_equal. apply (percentage_unique 1 1).
  - split; [lia|]. assert (INR 100 <> 0)%R by (apply not_0_INR; lia). unfold Rdiv. rewrite Rinv_r by assumption. cbn [INR]. ring.
  - apply (percentage_ok (1, 1)%nat).
Qed.
(** a DUT with a region and clusters meets the hypotheses *)
Definition case_region : region nat := Region [(3, 4)]%nat [(1, 2); (0, 0)]%nat (fun _ => 7%nat) (fun _ => 9%nat).
Definition case_results (d : nat) : dut_result nat := DutResult [(3, 4); (0, 0); (0, 1)]%nat [(3, 5)]%nat (fun _ => d) true (Some [case_region; case_region]).
Example C126_case : exists file, store 2 case_results [] [0; 3]%nat = inr file /\ read file (RegionNode 3 1 "count_in_pixel_hits_2d_hists") = Some (Some (Array 7%nat)) /\ read file (DutNode 3 "stat_2d_efficiency_hist_mask") = Some (Some (Mask [false; true; true])).
Proof.
  assert (X : exists file, store 2 case_results [] [0; 3]%nat = inr file).
  { apply C126_success. split; [constructor; [intros [K|[]]; discriminate|constructor; [intros []|constructor]]|]. intros d _. exists (3, 4)%nat. split; [left; reflexivity|]. split; [cbn; lia|left; cbn; lia]. }
  destruct X as (file & X). exists file. split; [exact X|]. destruct (C126_read _ _ _ _ X 3%nat (or_intror (or_introl eq_refl))) as (_ & _ & _ & M & _ & _ & R). split.
  - destruct (R 1%nat case_region eq_refl) as (_ & _ & Q & _). apply Q. apply (names_in ["count_in_pixel_hits_2d_hists"]%string); [reflexivity|left; reflexivity].
  - destruct M as (l & -> & F). inversion F as [|? b1 ? ? E1 F1]; subst. inversion F1 as [|? b2 ? ? E2 F2]; subst. inversion F2 as [|? b3 ? ? E3 F3]; subst. inversion F3; subst. cbn [snd] in *.
    do 2 f_equal. f_equal. f_equal; [destruct b1; [destruct (proj1 E1 eq_refl); lia|reflexivity]|]. f_equal; [apply E2; lia|]. f_equal. apply E3. lia.
Qed.

Print Assumptions C126_success.
Print Assumptions C126_read.
Print Assumptions C126_only.
Print Assumptions C126_percentages.
Print Assumptions C126_zero_refuted.
Print Assumptions C126_mask_refuted.
Print Assumptions C126_pixel_refuted.
