(** Model of result_analysis.histogram_track_angle (L2341-2538): order of the selected DUTs, the histograms of the global and local angles of each DUT and the nodes of the output file.
    The histogram of an angle and the angles of a slope are in TrackAngleModel.
    Simplifications: exact real numbers instead of doubles, a slope with nan is None; the order of the DUTs along the beam (np.argsort of the intersections) is given; a histogram and
    its edges, which are stored in two nodes, are one entry here; fits and plots are not modelled. *)
From Coq Require Import List Arith Reals Bool.
From Verif Require Import GeometryModel RunningMeanModel TrackAngleModel.
Import ListNotations.

(** result_analysis.py L2355: the entries of z_sorted_dut_indices which are equal to an item of select_duts, once for each such item, in the order of z_sorted_dut_indices *)
Definition selected (z_sorted_dut_indices select_duts : list nat) : list nat :=
  flat_map (fun d => repeat d (count_occ Nat.eq_dec select_duts d)) z_sorted_dut_indices.
(** Tracks_DUTn: the local slopes of the chunks; the rotation of the DUT [for result_analysis.py L2363-2385] *)
Record tracks := Tracks { t_place : placement; t_chunks : list (list (option vec)) }.
(** result_analysis.py L2369-2397 *)
Inductive system := Global | Local.
(** result_analysis.py L2387-2397 *)
Inductive angle := Total | Alpha | Beta.
(** result_analysis.py L2387-2397 *)
Definition component (a : angle) (t : option R * option R * option R) : option R := match a with Total => fst (fst t) | Alpha => snd (fst t) | Beta => snd t end.
(** result_analysis.py L2370-2397: the angle of a track; nan for a slope which is nan *)
Definition track_angle (s : system) (a : angle) (p : placement) (slope : option vec) : option R :=
  match slope with
  | None => None
  | Some v => component a (angles (match s with Global => global_slope p v | Local => v end))
  end.
(** a histogram with its edges [for result_analysis.py L2399-2427] *)
Definition hist : Type := (list nat * list R)%type.
(** result_analysis.py L2399-2427: the histogram of one angle of the tracks of a DUT, over all chunks *)
Definition dut_hist (n_bins : nat) (s : system) (a : angle) (t : tracks) : option hist :=
  angle_histogram n_bins (map (map (track_angle s a (t_place t))) (t_chunks t)).
(** the variables of the three histograms [for result_analysis.py L2399-2427] *)
Definition three : Type := (hist * hist * hist)%type.
(** result_analysis.py L2399-2427 *)
Definition dut_hists (n_bins : nat) (s : system) (t : tracks) : option three :=
  match dut_hist n_bins s Total t, dut_hist n_bins s Alpha t, dut_hist n_bins s Beta t with Some h, Some i, Some j => Some (h, i, j) | _, _, _ => None end.
(** the variables of the global and of the local histograms, None: not yet bound; they outlive the iteration over one DUT [for result_analysis.py L2362-2427] *)
Record vars := Vars { v_global : option three; v_local : option three }.
(** result_analysis.py L2367-2427: the loop over the chunks; None: exception.  Without chunk nothing is assigned; the local angles are not calculated for the telescope (index 0) *)
Definition update (n_bins index : nat) (t : tracks) (v : vars) : option vars :=
  match t_chunks t with
  | [] => Some v
  | _ :: _ =>
      match dut_hists n_bins Global t with
      | None => None
      | Some g =>
          match index with
          | O => Some (Vars (Some g) (v_local v))
          | S _ => match dut_hists n_bins Local t with None => None | Some l => Some (Vars (Some g) (Some l)) end
          end
      end
  end.
(** name of a node: system, angle, DUT (None: no suffix) [for result_analysis.py L2430-2502] *)
Definition node : Type := (system * angle * option nat)%type.
(** result_analysis.py L2430-2502 *)
Definition file : Type := list (node * hist).
(** result_analysis.py L2430-2533 *)
Definition entries (s : system) (d : option nat) (t : three) : file :=
  [((s, Total, d), fst (fst t)); ((s, Alpha, d), snd (fst t)); ((s, Beta, d), snd t)].
(** result_analysis.py L2430-2533: the nodes of a DUT; None: UnboundLocalError *)
Definition dut_nodes (index d : nat) (v : vars) : option file :=
  match v_global v with
  | None => None
  | Some g =>
      match index with
      | O => Some (entries Global None g)
      | S _ => match v_local v with None => None | Some l => Some (entries Global (Some d) g ++ entries Local (Some d) l) end
      end
  end.
(** names are compared [for result_analysis.py L2430-2502] *)
Definition node_eq_dec (a b : node) : {a = b} + {a <> b}.
Proof. repeat (decide equality). Defined.
(** create_carray; None: NodeError [for result_analysis.py L2430-2502] *)
Fixpoint create (f new : file) : option file :=
  match new with
  | [] => Some f
  | e :: new => if existsb (fun x : node * hist => if node_eq_dec (fst x) (fst e) then true else false) f then None else create (f ++ [e]) new
  end.
(** result_analysis.py L2362-2533 *)
Fixpoint angle_loop (n_bins : nat) (telescope : nat -> tracks) (index : nat) (v : vars) (f : file) (duts : list nat) : option file :=
  match duts with
  | [] => Some f
  | d :: duts =>
      match update n_bins index (telescope d) v with
      | None => None
      | Some v => match dut_nodes index d v with
                  | None => None
                  | Some nodes => match create f nodes with None => None | Some f => angle_loop n_bins telescope (S index) v f duts end
                  end
      end
  end.
(** result_analysis.py L2341-2533; None: exception.  IndexError (L2361) if no DUT of the telescope is selected; the first DUT is inserted for the telescope *)
Definition histogram_track_angle (n_bins : nat) (telescope : nat -> tracks) (z_sorted_dut_indices select_duts : list nat) : option file :=
  match selected z_sorted_dut_indices select_duts with
  | [] => None
  | d :: duts => angle_loop n_bins telescope 0 (Vars None None) [] (d :: d :: duts)
  end.
(** reading a node of the file [for result_analysis.py L2430-2533] *)
Definition read (f : file) (n : node) : option hist := option_map snd (find (fun x : node * hist => if node_eq_dec (fst x) n then true else false) f).
