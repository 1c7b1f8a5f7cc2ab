(** Model of Raster.sample with grid=True and order=1 (src/glimpse/raster.py:959-997), Raster._sample_1d (1027-1038), Raster._sample_grid (1040-1068) and Raster.resample (1070-1081), on RasterModel.

    scipy.interpolate.RectBivariateSpline with kx = ky = 1 and s = 0 is the piecewise bilinear function through the values, with the pieces at the borders extended to bbox (its knots are the ends of bbox and all coordinates but the first and last).  Evaluated on a grid (FITPACK bispev), coordinates outside bbox are replaced by the nearest end of bbox, and coordinates that decrease are refused with ValueError, unless either vector is empty.  [lo]: helpers.numpy_dtype_minmax(dtype)[0] (helpers.py:84-115), the lowest number of the type of the array; the theorems hold for every [lo].  Arithmetic is exact.

    Simplified: the fill value is of the type of the array; coordinates of the target grid of resample are copied (in the code, the vectors are shared with the grid).  Not modelled: orders other than 1. *)
From Coq Require Import Lra.
From Verif Require Import Base HelpersModel GridModel RasterModel.
Open Scope R_scope.

Section Lowest.
Variable lo : R.

(** numpy.nanmin; None: nan *)
Fixpoint nan_min (l : list (option R)) : option R :=
  match l with
  | [] => None
  | None :: r => nan_min r
  | Some x :: r => match nan_min r with Some m => Some (Rmin x m) | None => Some x end
  end.
Definition no_nans (v : option R) : R := match v with Some x => x | None => lo end.
(** self.array[...] = values, in place *)
Definition poke (l : list (option R)) (s : raster) : raster := upd_ah s (set_nth (rarr s) l (ah s)).
(** self.array[is_nan] = nan; [before]: the array when is_nan was computed *)
Definition nans_back (before now : list (option R)) : list (option R) := map2 (fun b v => match b with None => None | Some _ => v end) before now.
(** raster.py:1063-1064: [::xdir] reverses *)
Definition backwards (l : list R) : bool := match l with a :: b :: _ => negb (Rltb a b) | _ => false end.
Fixpoint nondecr (l : list R) : bool := match l with a :: ((b :: _) as r) => Rleb a b && nondecr r | _ => true end.
(** the nearest point of the interval (limits in any order) *)
Definition to_range (l : R * R) (x : R) : R := Rmax (Rmin (fst l) (snd l)) (Rmin (Rmax (fst l) (snd l)) x).
(** the bilinear function at a point *)
Definition bilinear (gx gy : list R) (v : nat -> nat -> R) (x y : R) : R :=
  let '(i, t) := rgi_locate gx x in let '(j, u) := rgi_locate gy y in
  (1 - t) * ((1 - u) * v i j + u * v i (S j)) + t * ((1 - u) * v (S i) j + u * v (S i) (S j)).
(** samples[samples < Zmin] = nan *)
Definition hide_low (zmin : option R) (v : R) : option R := match zmin with Some m => if Rltb v m then None else Some v | None => Some v end.

(** raster.py:1040-1068: rows of samples, one row for each y.  The state is also that after an exception. *)
Definition sample_2d (xs ys : list R) (s : raster) : raster * result (list (list (option R))) :=
  let xneg := Rltb (dcell (xaxis (rgrid s))) 0 in
  let yneg := Rltb (dcell (yaxis (rgrid s))) 0 in
  let before := rvalues s in
  let zmin := nan_min before in
  let s1 := poke (map (fun v => Some (no_nans v)) before) s in
  match get_y s1 with
  | Err e => (s1, Err e)
  | Ok (py, s2) =>
    match get_x s2 with
    | Err e => (s2, Err e)
    | Ok (px, s3) =>
      let gx := oriented xneg (xbuf s3 px) in
      let gy := oriented yneg (xbuf s3 py) in
      let value a b := no_nans (cellv s3 (if yneg then (rny s3 - 1 - b)%nat else b) (if xneg then (rnx s3 - 1 - a)%nat else a)) in
      let xb := backwards xs in let yb := backwards ys in
      let xs' := oriented xb xs in let ys' := oriented yb ys in
      if negb (nondecr xs' && nondecr ys') && negb (match xs, ys with [], _ | _, [] => true | _, _ => false end) then (s3, Err ValueError) else
      let rows := map (fun y => map (fun x => hide_low zmin (bilinear gx gy value (to_range (rxlim s3) x) (to_range (rylim s3) y))) xs') ys' in
      let rows := oriented yb (map (oriented xb) rows) in
      (poke (nans_back before (rvalues s3)) s3, Ok rows)
    end
  end.
(** raster.py:1027-1038 along the axis that is not a single cell: true for y *)
Definition sample_1d (dim : bool) (at_ : list R) (s : raster) : result (list (option R) * raster) :=
  if dim then
    let neg := Rltb (dcell (yaxis (rgrid s))) 0 in
    let* (p, s) := get_y s in
    Ok (map (interp1_linear (oriented neg (xbuf s p)) (fun a => cellv s (if neg then (rny s - 1 - a)%nat else a) 0)) at_, s)
  else
    let neg := Rltb (dcell (xaxis (rgrid s))) 0 in
    let* (p, s) := get_x s in
    Ok (map (interp1_linear (oriented neg (xbuf s p)) (fun a => cellv s 0 (if neg then (rnx s - 1 - a)%nat else a))) at_, s).
(** raster.py:981-993 *)
Definition grid_values (xs ys : list R) (s : raster) : raster * result (list (list (option R))) :=
  if (1 <? rnx s)%nat && (1 <? rny s)%nat then sample_2d xs ys s
  else if (1 <? rnx s)%nat then
    match sample_1d false xs s with Err e => (s, Err e) | Ok (z, s) => (s, Ok (repeat z (length z))) end
  else if (1 <? rny s)%nat then
    match sample_1d true ys s with Err e => (s, Err e) | Ok (z, s) => (s, Ok (map (fun v => repeat v (length z)) z)) end
  else (s, Ok (repeat (repeat (nth 0 (rvalues s) None) (length ys)) (length xs))).
(** samples[yout, :] = fill; samples[:, xout] = fill (raster.py:994-997).  numpy refuses masks of another length than the axis. *)
Definition fill_out (f : option R) (xin yin : list bool) (rows : list (list (option R))) : result (list (list (option R))) :=
  let width := match rows with [] => length xin | r :: _ => length r end in
  if (length rows =? length yin)%nat && (width =? length xin)%nat
  then Ok (map2 (fun (y : bool) r => map2 (fun (x : bool) v => if x && y then v else f) xin r) yin rows)
  else Err IndexError.
(** raster.py:959-997, grid=True, order=1.  [fill]: None = "extrapolate" *)
Definition sample_grid (bounds_error : bool) (fill : option (option R)) (xs ys : list R) (s : raster) : raster * result (list (list (option R))) :=
  let xin := map (inbounds1 (xaxis (rgrid s))) xs in
  let yin := map (inbounds1 (yaxis (rgrid s))) ys in
  if bounds_error then if forallb (fun b => b) xin && forallb (fun b => b) yin then grid_values xs ys s else (s, Err ValueError)
  else match fill with
       | None => grid_values xs ys s
       | Some f => let (s', r) := grid_values xs ys s in (s', let* rows := r in fill_out f xin yin rows)
       end.
(** raster.py:1070-1081.  numpy arrays have at least one row here *)
Definition resample (bounds_error : bool) (fill : option (option R)) (g : grid) (s : raster) : raster * result unit :=
  match (let* xs := centers (xaxis g) in let* ys := centers (yaxis g) in Ok (xs, ys)) with
  | Err e => (s, Err e)
  | Ok (xs, ys) =>
    match sample_grid bounds_error fill xs ys s with
    | (s, Err e) => (s, Err e)
    | (s, Ok rows) =>
      let s := set_array (length rows) (length (hd [] rows)) (concat rows) true s in
      match set_xlim [fst (gxlim g); snd (gxlim g)] true s with
      | Err e => (s, Err e)
      | Ok s =>
        match set_ylim [fst (gylim g); snd (gylim g)] true s with
        | Err e => (s, Err e)
        | Ok s =>
          let s := upd_x (upd_xh s (xh s ++ [xs])) (Some (length (xh s))) (rX s) in
          (upd_y (upd_xh s (xh s ++ [ys])) (Some (length (xh s))) (rY s), Ok tt)
        end
      end
    end
  end.
End Lowest.
