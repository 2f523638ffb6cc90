(** Models the default names of output files and the choice of the method of fit_tracks.
    Source: dut_alignment.py L84, L215, L226, L850, L1121, L1137; hit_analysis.py L111, L287, L566, L838, L1285, L1560; result_analysis.py L60-63, L798-801, L2128-2131, L2339, L2574;
    track_analysis.py L67, L617-646; tools/data_selection.py L55, L125, L232; tools/plot_utils.py L210, L316, L419, L551, L642, L691, L849, L1053, L1134, L2534, L2596; converter/pybar_fei4_converter.py L107.
    Simplifications: names are lists of ASCII characters with the separator of posixpath; os.path.splitext, dirname and join follow the standard library. *)
From Coq Require Import Ascii String.
From Coq Require Import List Bool Arith.
Import ListNotations.
Local Open Scope nat_scope.

(** a file name [for dut_alignment.py L84 and the other lines above] *)
Definition path : Type := list ascii.
(** the separator of directories [for hit_analysis.py L1285] *)
Definition slash : ascii := "/"%char.
(** the character in front of an extension [for dut_alignment.py L84] *)
Definition dot : ascii := "."%char.
(** str.rfind; None: -1 [for dut_alignment.py L84, hit_analysis.py L1285] *)
Fixpoint rfind (c : ascii) (p : path) : option nat :=
  match p with
  | [] => None
  | x :: r => match rfind c r with Some i => Some (S i) | None => if Ascii.eqb x c then Some 0 else None end
  end.
(** os.path.splitext: the last dot after the last separator, unless only dots are in front of it [for dut_alignment.py L84 and the other lines with splitext] *)
Definition splitext (p : path) : path * path :=
  match rfind dot p with
  | None => (p, [])
  | Some d =>
      let start := match rfind slash p with None => 0 | Some s => S s end in
      if (start <=? d) && existsb (fun c => negb (Ascii.eqb c dot)) (firstn (d - start) (skipn start p)) then (firstn d p, skipn d p) else (p, [])
  end.
(** str.rstrip('/') [for hit_analysis.py L1285, L1560, track_analysis.py L67, L641] *)
Fixpoint strip_front (p : path) : path := match p with [] => [] | c :: r => if Ascii.eqb c slash then strip_front r else p end.
(** str.rstrip('/') [for hit_analysis.py L1285, L1560, track_analysis.py L67, L641] *)
Definition rstrip (p : path) : path := rev (strip_front (rev p)).
(** os.path.dirname [for hit_analysis.py L1285, L1560, track_analysis.py L67, L641] *)
Definition dirname (p : path) : path :=
  let head := match rfind slash p with None => [] | Some s => firstn (S s) p end in
  if forallb (fun c => Ascii.eqb c slash) head then head else rstrip head.
(** os.path.join, the second part is relative [for hit_analysis.py L1285, L1560, track_analysis.py L67, L641] *)
Definition join (a b : path) : path :=
  match rev a with
  | [] => b
  | c :: _ => if Ascii.eqb c slash then a ++ b else a ++ slash :: b
  end.

(** the functions whose default output is the name of the input with another ending [for the lines given in stem] *)
Inductive step :=
  | LocalToGlobal | GlobalToLocal | Prealign | Align | AlignKalman | KalmanFile
  | IndexToLocal | LocalToIndex | CheckFile | MaskFile | Cluster
  | Residuals | Efficiency | Purity | TrackAngles | ResidualCorrelation
  | Combine | Reduce | SelectTracks | FormatFei4
  | TracksPerEventPdf | ClusterHistsPdf | EventsPdf | Chi2Pdf | TrackDensityPdf | ChargePdf | PrealignPdf.
(** what is appended to the root of the input name, without the extension *)
Definition stem (s : step) : path :=
  list_ascii_of_string match s with
  | LocalToGlobal => "_global_coordinates" (* dut_alignment.py L84 *)
  | GlobalToLocal => "_local_coordinates" (* dut_alignment.py L84 *)
  | Prealign => "_prealigned" (* dut_alignment.py L215 *)
  | PrealignPdf => "_prealigned" (* dut_alignment.py L226 *)
  | Align => "_aligned" (* dut_alignment.py L850, for configurations without "prealigned" in the name; the others are in AlignArgsModel *)
  | AlignKalman => "_aligned_kalman" (* dut_alignment.py L1121, likewise *)
  | KalmanFile => "_KFA_alignment" (* dut_alignment.py L1137 *)
  | IndexToLocal => "_local_coordinates" (* hit_analysis.py L111 *)
  | LocalToIndex => "_index" (* hit_analysis.py L111 *)
  | CheckFile => "_check" (* hit_analysis.py L287 *)
  | MaskFile => "_mask" (* hit_analysis.py L566 *)
  | Cluster => "_clustered" (* hit_analysis.py L838 *)
  | Residuals => "_residuals" (* result_analysis.py L60 *)
  | Efficiency => "_efficiency" (* result_analysis.py L798 *)
  | Purity => "_purity" (* result_analysis.py L2128 *)
  | TrackAngles => "_track_angles" (* result_analysis.py L2339 *)
  | ResidualCorrelation => "_residual_correlation" (* result_analysis.py L2574 *)
  | Combine => "_combined" (* tools/data_selection.py L55 *)
  | Reduce => "_reduced" (* tools/data_selection.py L125 *)
  | SelectTracks => "_selected" (* tools/data_selection.py L232 *)
  | FormatFei4 => "_formatted_fei4" (* converter/pybar_fei4_converter.py L107 *)
  | TracksPerEventPdf => "_tracks_per_event" (* tools/plot_utils.py L316 *)
  | ClusterHistsPdf => "_cluster_hists" (* tools/plot_utils.py L419 *)
  | EventsPdf => "_events" (* tools/plot_utils.py L691 *)
  | Chi2Pdf => "_chi2" (* tools/plot_utils.py L849 *)
  | TrackDensityPdf => "_track_density" (* tools/plot_utils.py L1053 *)
  | ChargePdf => "_mean_charge" (* tools/plot_utils.py L1134 *)
  end%string.
(** the extension after the dot [for the lines given in stem] *)
Definition extension (s : step) : path :=
  list_ascii_of_string match s with
  | Prealign | Align | AlignKalman => "yaml"
  | TracksPerEventPdf | ClusterHistsPdf | EventsPdf | Chi2Pdf | TrackDensityPdf | ChargePdf | PrealignPdf => "pdf"
  | _ => "h5"
  end%string.
(** os.path.splitext(input)[0] + ending [for the lines given in stem] *)
Definition default_output (s : step) (p : path) : path := fst (splitext p) ++ stem s ++ dot :: extension s.
(** the characters at which two names agree from the start [for tools/data_selection.py L54] *)
Fixpoint agreement (a b : path) : path := match a, b with x :: a, y :: b => if Ascii.eqb x y then x :: agreement a b else [] | _, _ => [] end.
(** os.path.commonprefix (which compares only the smallest and the largest name, with the same result) [for tools/data_selection.py L54] *)
Definition commonprefix (l : list path) : path := match l with [] => [] | p :: r => fold_left agreement r p end.
(** tools/data_selection.py L53-55: the default output of combine_files *)
Definition combined_output (inputs : list path) : path := default_output Combine (commonprefix inputs).
(** os.path.splitext(file)[0] + '.pdf' [for result_analysis.py L63, L801, L2131, track_analysis.py L643, tools/plot_utils.py L210, L551, L642, L2534, L2596] *)
Definition pdf_of (p : path) : path := fst (splitext p) ++ dot :: list_ascii_of_string "pdf".
(** os.path.join(os.path.dirname(input), name) [for hit_analysis.py L1285 (Correlated.h5), L1560 (Merged.h5), track_analysis.py L67 (Track_Candidates.h5), L641] *)
Definition beside (p : path) (name : string) : path := join (dirname p) (list_ascii_of_string name).

(** str.lower and str.upper of a character [for track_analysis.py L621, L641] *)
Definition lower (c : ascii) : ascii := let n := nat_of_ascii c in if (65 <=? n) && (n <=? 90) then ascii_of_nat (n + 32) else c.
(** str.upper of a character [for track_analysis.py L641] *)
Definition upper (c : ascii) : ascii := let n := nat_of_ascii c in if (97 <=? n) && (n <=? 122) then ascii_of_nat (n - 32) else c.
(** str.title of a single word [for track_analysis.py L641] *)
Definition title (p : path) : path := match p with [] => [] | c :: r => upper c :: map lower r end.
(** the ValueErrors of the options [for track_analysis.py L622-632] *)
Inductive option_error := UnknownMethod | NoBeamEnergy | NoParticleMass | ScatteringWithoutKalman.
(** track_analysis.py L621-641: the default output of fit_tracks, or the ValueError; beam_energy and particle_mass: is a value given (not None and not 0); planes: are scattering planes given *)
Definition fit_tracks_output (method : path) (beam_energy particle_mass planes : bool) (p : path) : option_error + path :=
  let method := map lower method in
  let is s := if list_eq_dec ascii_dec method (list_ascii_of_string s) then true else false in
  if negb (is "fit" || is "kalman")%string then inl UnknownMethod
  else if is "kalman"%string && negb beam_energy then inl NoBeamEnergy
  else if is "kalman"%string && negb particle_mass then inl NoParticleMass
  else if planes && negb (is "kalman"%string) then inl ScatteringWithoutKalman
  else inr (join (dirname p) (list_ascii_of_string "Tracks_" ++ title method ++ list_ascii_of_string ".h5")).
