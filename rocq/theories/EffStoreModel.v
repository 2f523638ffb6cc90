(** Model of what result_analysis.calculate_efficiency stores: the percentages with their masks (L1479-1489, L1497-1499, L1501-1507, L1548-1556, L1574-1579), the error if all
    efficiencies are zero (L1604-1605) and the groups and arrays of the output file (L1676-2091).
    Simplifications: real numbers instead of doubles, nan is None; a histogram is the list of its entries; the arrays which are not percentages are values of an
    abstract type, named by the variable which holds them; the plots (L1607-1674) are not modelled.  A masked array which is assigned to an array of the
    file is stored without its mask (pytables converts it with np.array). *)
From Coq Require Import Ascii String List Arith Reals Bool.
Import ListNotations.
Local Open Scope list_scope.

(** result_analysis.py L1479-1480, L1497-1498, L1503-1505, L1574-1575: nan without track *)
Definition percentage (p : nat * nat) : option R :=
  if Nat.eqb (snd p) 0 then None else Some (INR (fst p) / INR (snd p) * 100)%R.
(** np.ma.array: value and mask of each entry; (with hit, tracks) are the counts of an entry [for result_analysis.py L1482, L1499, L1549, L1578] *)
Definition masked_percentages (density : nat) (counts : list (nat * nat)) : list (option R * bool) :=
  map (fun p => (percentage p, Nat.ltb (snd p) density)) counts.
(** np.any of a masked array: masked entries do not count, nan is true [for result_analysis.py L1604] *)
Definition np_any (a : list (option R * bool)) : bool :=
  existsb (fun e => negb (snd e) && match fst e with None => true | Some v => if Req_EM_T v 0 then false else true end) a.
(** the data of a masked array, as it is stored [for result_analysis.py L1853-1883] *)
Definition stored_data (a : list (option R * bool)) : list (option R) := map fst a.
(** .mask [for result_analysis.py L1869-1875] *)
Definition stored_mask (a : list (option R * bool)) : list bool := map snd a.

Section Store.
  (** the arrays which are not percentages *)
  Variable A : Type.
  (** result_analysis.py L1479-2091 *)
  Inductive stored := Percentages (l : list (option R)) | Mask (l : list bool) | Array (a : A).
  (** results of a region: counts (with hit, tracks) of the pixels and of the in-pixel bins (after their extension), other arrays by name [for result_analysis.py L1891-2082] *)
  Record region := Region { region_pixels : list (nat * nat); region_in_pixel : list (nat * nat); region_array : string -> A; region_attr : string -> A }.
  (** results of a DUT: counts of the bins and of the pixels, other arrays by name, whether there is a file of clusters, regions [for result_analysis.py L1479-2091] *)
  Record dut_result := DutResult { bins : list (nat * nat); pixels : list (nat * nat); array : string -> A; clusters : bool; regions : option (list region) }.
  (** groups and arrays: DUTn, DUTn/name, DUTn/Region_k, DUTn/Region_k/name, and attributes of DUTn/Region_k [for result_analysis.py L1676-2082] *)
  Inductive path := DutGroup (dut : nat) | DutNode (dut : nat) (name : string) | RegionGroup (dut r : nat) | RegionNode (dut r : nat) (name : string) | RegionAttr (dut r : nat) (name : string).
  (** an entry of the file: a group has no value *)
  Definition entry : Type := (path * option stored)%type.
  (** result_analysis.py L1678-1851 *)
  Definition dut_names : list string :=
    ["hist_2d_x_edges"; "hist_2d_y_edges"; "count_hits_2d_hist"; "count_tracks_2d_hist"; "count_tracks_with_hit_2d_hist"; "stat_2d_x_residuals_hist"; "stat_2d_y_residuals_hist";
     "stat_2d_residuals_hist"; "count_1d_charge_hist"; "stat_2d_charge_hist"; "count_1d_frame_hist"; "stat_2d_frame_hist"; "stat_2d_cluster_size_hist"; "count_1d_total_angle_hist";
     "count_1d_total_angle_hist_edges"; "stat_2d_total_angle_hist"; "count_1d_alpha_angle_hist"; "count_1d_alpha_angle_hist_edges"; "stat_2d_alpha_angle_hist";
     "count_1d_beta_angle_hist"; "count_1d_beta_angle_hist_edges"; "stat_2d_beta_angle_hist"]%string.
  (** result_analysis.py L1899-1977 *)
  Definition region_names_before : list string :=
    ["efficiency_regions_count_1d_charge_hist"; "efficiency_regions_count_1d_frame_hist"; "efficiency_regions_count_1d_cluster_size_hist";
     "efficiency_regions_count_1d_total_angle_hist"; "efficiency_regions_count_1d_total_angle_hist_edges"; "efficiency_regions_count_1d_alpha_angle_hist";
     "efficiency_regions_count_1d_alpha_angle_hist_edges"; "efficiency_regions_count_1d_beta_angle_hist"; "efficiency_regions_count_1d_beta_angle_hist_edges";
     "efficiency_regions_count_1d_cluster_shape_hist"]%string.
  (** result_analysis.py L1987-2009 *)
  Definition region_names_between : list string :=
    ["count_in_pixel_hits_2d_hists"; "count_in_pixel_tracks_2d_hists"; "count_in_pixel_tracks_with_hit_2d_hists"]%string.
  (** result_analysis.py L2019-2081 *)
  Definition region_names_after : list string :=
    ["stat_in_pixel_x_residuals_2d_hists"; "stat_in_pixel_y_residuals_2d_hists"; "stat_in_pixel_residuals_2d_hists"; "stat_in_pixel_charge_2d_hists"; "stat_in_pixel_frame_2d_hists";
     "stat_in_pixel_cluster_size_2d_hists"; "count_in_pixel_cluster_shape_2d_hists"; "stat_in_pixel_cluster_shape_2d_hists"]%string.
  (** result_analysis.py L1894-1897 *)
  Definition region_attrs : list string :=
    ["efficiency_regions_efficiencies"; "efficiency_regions_in_pixel_hist_extent"; "efficiency_regions_in_pixel_plot_range"; "efficiency_regions_analyze_cluster_shapes"]%string.
  (** result_analysis.py L1892-2082: one region *)
  Definition region_entries (density dut : nat) (kr : nat * region) : list entry :=
    let (k, r) := kr in
    (RegionGroup dut k, None) ::
    map (fun n => (RegionAttr dut k n, Some (Array (region_attr r n)))) region_attrs ++
    map (fun n => (RegionNode dut k n, Some (Array (region_array r n)))) region_names_before ++
    [(RegionNode dut k "efficiency_regions_stat_pixel_efficiency_hist", Some (Percentages (stored_data (masked_percentages density (region_pixels r)))))] ++
    map (fun n => (RegionNode dut k n, Some (Array (region_array r n)))) region_names_between ++
    [(RegionNode dut k "efficiency_regions_stat_in_pixel_efficiency_2d_hist", Some (Percentages (stored_data (masked_percentages density (region_in_pixel r)))))] ++
    map (fun n => (RegionNode dut k n, Some (Array (region_array r n)))) region_names_after.
  (** result_analysis.py L1676-2082: a DUT *)
  Definition dut_entries (density dut : nat) (d : dut_result) : list entry :=
    (DutGroup dut, None) ::
    map (fun n => (DutNode dut n, Some (Array (array d n)))) dut_names ++
    [(DutNode dut "stat_2d_efficiency_hist", Some (Percentages (stored_data (masked_percentages density (bins d)))));
     (DutNode dut "stat_pixel_efficiency_hist", Some (Percentages (stored_data (masked_percentages density (pixels d)))));
     (DutNode dut "stat_2d_efficiency_hist_mask", Some (Mask (stored_mask (masked_percentages density (bins d)))))] ++
    (if clusters d then [(DutNode dut "count_pixel_hits_2d_hist", Some (Array (array d "count_pixel_hits_2d_hist")))] else []) ++
    match regions d with
    | Some rs => flat_map (region_entries density dut) (combine (seq 0 (length rs)) rs)
    | None => []
    end.
  (** RuntimeError of L1605, NodeError of an existing group or array [for result_analysis.py L1604-2082] *)
  Inductive store_error := AllZero | NodeExists.
  (** paths are compared [for result_analysis.py L1676-2082] *)
  Definition path_eq_dec (p q : path) : {p = q} + {p <> q}.
  Proof. decide equality; try apply Nat.eq_dec; apply string_dec. Defined.
  (** create_group, create_carray [for result_analysis.py L1676-2082] *)
  Fixpoint create (file new : list entry) : store_error + list entry :=
    match new with
    | [] => inr file
    | e :: new => if existsb (fun f : entry => if path_eq_dec (fst f) (fst e) then true else false) file then inl NodeExists else create (file ++ [e]) new
    end.
  (** the loop over the DUTs [for result_analysis.py L1479-2091]; the results of a DUT are given *)
  Fixpoint store (density : nat) (results : nat -> dut_result) (file : list entry) (duts : list nat) : store_error + list entry :=
    match duts with
    | [] => inr file
    | d :: duts =>
        if negb (np_any (masked_percentages density (bins (results d)))) then inl AllZero
        else match create file (dut_entries density d (results d)) with inl e => inl e | inr file => store density results file duts end
    end.
  (** reading an array of the file *)
  Definition read (file : list entry) (p : path) : option (option stored) :=
    option_map snd (find (fun f : entry => if path_eq_dec (fst f) p then true else false) file).
End Store.
Arguments Percentages {A}. Arguments Mask {A}. Arguments Array {A}.
Arguments Region {A}. Arguments region_pixels {A}. Arguments region_in_pixel {A}. Arguments region_array {A}. Arguments region_attr {A}.
Arguments DutResult {A}. Arguments bins {A}. Arguments pixels {A}. Arguments array {A}. Arguments clusters {A}. Arguments regions {A}.
Arguments region_entries {A}. Arguments dut_entries {A}. Arguments create {A}. Arguments store {A}. Arguments read {A}.
