(** Model of tools/plot_utils.py plot_masked_pixels (L185-301): the pages with the occupancy, the marked pixels and the sums of columns and rows.
    Simplifications: the numbers of hits are natural numbers without upper limit; color scale, limits of the axes and names are not modelled; of the titles only the numbers of
    pixels are modelled; an exception is None, also if some pages have been saved before. *)
From Coq Require Import List Arith ZArith Reals Bool.
Import ListNotations.

(** an array of the mask file, with indices [column, row] from 0 [for tools/plot_utils.py L186-200] *)
Record array := Array { columns : nat; rows : nat; entry : nat -> nat -> nat }.
(** the file of pixel masks: HistOcc, NoisyPixelMask and DisabledPixelMask (None: no such node) [for tools/plot_utils.py L186-200] *)
Record mask_file := MaskFile { hist_occ : array; noisy_mask : option array; disabled_mask : option array }.

(** np.dstack(np.nonzero(mask.T))[0] + 1: pairs of row and column, from 1, row by row [for tools/plot_utils.py L188, L194] *)
Definition nonzero_pixels (m : array) : list (nat * nat) :=
  flat_map (fun r => flat_map (fun c => if entry m c r =? 0 then [] else [(r + 1, c + 1)]) (seq 0 (columns m))) (seq 0 (rows m)).
(** np.count_nonzero(mask) [for tools/plot_utils.py L189, L195] *)
Definition count_nonzero (m : array) : nat :=
  list_sum (map (fun c => list_sum (map (fun r => if entry m c r =? 0 then 0 else 1) (seq 0 (rows m)))) (seq 0 (columns m))).

(** a page: image with indices [row, column]; left, right, bottom and top; marks (x, y) of the noisy and of the disabled pixels and the numbers of the title (None: not drawn);
    bars (centre, length) of the columns and of the rows [for tools/plot_utils.py L214-301] *)
Record page := Page { p_rows : nat; p_columns : nat; p_image : nat -> nat -> nat; p_extent : R * R * R * R;
  p_noisy : option (list (nat * nat) * nat); p_disabled : option (list (nat * nat) * nat); p_top : list (nat * nat); p_right : list (nat * nat) }.
(** tools/plot_utils.py L219, L257 *)
Definition extent (n_rows n_columns : nat) : R * R * R * R := (1 / 2, INR n_columns + 1 / 2, 1 / 2, INR n_rows + 1 / 2)%R.
(** tools/plot_utils.py L223-229: ax.plot(pixels[:, 1], pixels[:, 0]) and the number of the title *)
Definition marks (m : option array) : option (list (nat * nat) * nat) :=
  match m with None => None | Some m => Some (map (fun p => (snd p, fst p)) (nonzero_pixels m), count_nonzero m) end.
(** tools/plot_utils.py L214-233 *)
Definition marked_page (f : mask_file) : page :=
  let o := hist_occ f in
  Page (rows o) (columns o) (fun r c => entry o c r) (extent (rows o) (columns o)) (marks (noisy_mask f)) (marks (disabled_mask f)) [] [].
(** tools/plot_utils.py L247-301: the image with the sums of the columns (axis 0) and of the rows (axis 1) *)
Definition sums_page (n_rows n_columns : nat) (image : nat -> nat -> nat) : page :=
  Page n_rows n_columns image (extent n_rows n_columns) None None
    (map (fun c => (c + 1, list_sum (map (fun r => image r c) (seq 0 n_rows)))) (seq 0 n_columns))
    (map (fun r => (r + 1, list_sum (map (fun c => image r c) (seq 0 n_columns)))) (seq 0 n_rows)).

(** occupancy_mask[pixels.T[0] - 1, pixels.T[1] - 1] = 1; None: IndexError [for tools/plot_utils.py L240-244] *)
Definition set_mask (n_rows n_columns : nat) (pixels : list (nat * nat)) (mask : nat -> nat -> bool) : option (nat -> nat -> bool) :=
  if forallb (fun p => (fst p - 1 <? n_rows) && (snd p - 1 <? n_columns)) pixels
  then Some (fun r c => existsb (fun p => (fst p - 1 =? r) && (snd p - 1 =? c)) pixels || mask r c)
  else None.
(** tools/plot_utils.py L241-244: nothing is set without the node *)
Definition set_masks (n_rows n_columns : nat) (m : option array) (mask : nat -> nat -> bool) : option (nat -> nat -> bool) :=
  match m with None => Some mask | Some m => set_mask n_rows n_columns (nonzero_pixels m) mask end.
(** tools/plot_utils.py L235-301, masked_hits is True; Some None: no page *)
Definition masked_page (f : mask_file) : option (option page) :=
  let o := hist_occ f in
  match noisy_mask f, disabled_mask f with
  | None, None => Some None
  | _, _ =>
      match set_masks (rows o) (columns o) (noisy_mask f) (fun _ _ => false) with
      | None => None
      | Some mask =>
          match set_masks (rows o) (columns o) (disabled_mask f) mask with
          | None => None
          | Some mask => Some (Some (sums_page (rows o) (columns o) (fun r c => if mask r c then 0 else entry o c r)))
          end
      end
  end.
(** tools/plot_utils.py L185-301; np.percentile of an empty array is an IndexError (L212) *)
Definition plot_masked_pixels (f : mask_file) : option (list page) :=
  let o := hist_occ f in
  if (columns o =? 0) || (rows o =? 0) then None
  else match masked_page f with
       | None => None
       | Some p => Some (marked_page f :: sums_page (rows o) (columns o) (fun r c => entry o c r) :: match p with Some p => [p] | None => [] end)
       end.

(** ax.imshow(image, origin='lower', extent=(left, right, bottom, top)): the number which is drawn at the point (x, y); None: outside [for tools/plot_utils.py L219, L257] *)
Definition shown_at (p : page) (x y : R) : option nat :=
  match p_extent p with
  | (x0, x1, y0, y1) =>
      let c := Int_part ((x - x0) / (x1 - x0) * INR (p_columns p)) in
      let r := Int_part ((y - y0) / (y1 - y0) * INR (p_rows p)) in
      if ((0 <=? c) && (c <? Z.of_nat (p_columns p)) && (0 <=? r) && (r <? Z.of_nat (p_rows p)))%Z then Some (p_image p (Z.to_nat r) (Z.to_nat c)) else None
  end.
