(** Model of Raster.resize (src/glimpse/raster.py:1176-1185) with order = 1 (the default), Grid.resize (290-300), Raster.zlim (863-866) and Raster.box3d (877-880), on RasterModel.

    scipy.ndimage.zoom is modelled after its source (1.4.1, the version of poetry.lock; not in /repo): the size is round(n * scale), python's round; along an axis with n cells before and m after, cell k is taken from the coordinate k * (n - 1) / (m - 1), with k itself for m = 1; the two cells around the coordinate are weighted, also if a weight is zero, and a cell beyond the last is mirrored.  Exact reals; products of numbers too large for the type of an integer array are outside the model. *)
From Coq Require Import Lia.
From Verif Require Import Base HelpersModel GridModel RasterModel.
Open Scope R_scope.

Definition zoom_size (n : nat) (scale : R) : Z := Rround (INR n * scale).
(** the coordinate of new cell k, in cells before *)
Definition zoom_at (n m k : nat) : R := INR k * (if (m =? 1)%nat then 1 else (INR n - 1) / (INR m - 1)).
(** cell n is cell n - 2; the only cell of an axis is always 0 *)
Definition mirror (n i : nat) : nat := if (i <? n)%nat then i else (n - 2)%nat.
(** the two cells, and the weight of the second *)
Definition zoom_axis (n m k : nat) : nat * nat * R :=
  let f := Rfloor (zoom_at n m k) in (Z.to_nat f, mirror n (S (Z.to_nat f)), zoom_at n m k - IZR f).
(** integer arrays: halves away from zero *)
Definition zoom_cast (flt : bool) (v : R) : R := if flt then v else IZR (Rtrunc (if Rltb 0 v then v + / 2 else v - / 2)).
Definition zoom_cell (s : raster) (ny nx r c : nat) : option R :=
  let '(i, i', t) := zoom_axis (rny s) ny r in let '(j, j', u) := zoom_axis (rnx s) nx c in
  option_map (zoom_cast (raflt s))
    (oadd (oadd (oscale ((1 - t) * (1 - u)) (cellv s i j)) (oscale ((1 - t) * u) (cellv s i j')))
          (oadd (oscale (t * (1 - u)) (cellv s i' j)) (oscale (t * u) (cellv s i' j')))).
(** raster.py:1176-1185.  numpy refuses arrays of negative size. *)
Definition resize (scale : R) (s : raster) : result raster :=
  let ny := zoom_size (rny s) scale in let nx := zoom_size (rnx s) scale in
  if ((ny <? 0) || (nx <? 0))%Z%bool then Err ValueError else
  let ny := Z.to_nat ny in let nx := Z.to_nat nx in
  Ok (set_array ny nx (flat_map (fun r => map (zoom_cell s ny nx r) (seq 0 nx)) (seq 0 ny)) (raflt s) s).

(** raster.py:290-300 *)
Definition grid_resize (scale : R) (s : gobj) : result gobj :=
  gstep (GSetSize [Rfloor (IZR (gnx (og s)) * scale + / 2); Rfloor (IZR (gny (og s)) * scale + / 2)]) s.

(** numpy.nanmin, numpy.nanmax: None = nan, of only nans; an empty array raises ValueError *)
Fixpoint nan_fold (f : R -> R -> R) (l : list (option R)) : option R :=
  match l with
  | [] => None
  | None :: l => nan_fold f l
  | Some x :: l => match nan_fold f l with Some y => Some (f x y) | None => Some x end
  end.
(** raster.py:863-866 *)
Definition zlim (s : raster) : result (option R * option R) :=
  match rvalues s with [] => Err ValueError | l => Ok (nan_fold Rmin l, nan_fold Rmax l) end.
(** raster.py:877-880: zlim.min() and zlim.max() of both nan or both numbers *)
Definition omin (a b : option R) : option R := match a, b with Some x, Some y => Some (Rmin x y) | _, _ => None end.
Definition omax (a b : option R) : option R := match a, b with Some x, Some y => Some (Rmax x y) | _, _ => None end.
Definition box3d (s : raster) : result (list (option R)) :=
  let* z := zlim s in let g := rgrid s in
  Ok [Some (amin (xaxis g)); Some (amin (yaxis g)); omin (fst z) (snd z); Some (amax (xaxis g)); Some (amax (yaxis g)); omax (fst z) (snd z)].
