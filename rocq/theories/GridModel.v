(** Model of the geometry of Grid / Raster (src/glimpse/raster.py).

    One point at a time: the arrays (n, 2) of the code are processed
    row by row, so a function on one point models the vectorised function.
    Coordinates are exact reals, limits finite. *)
From Verif Require Import Base HelpersModel.
Open Scope R_scope.

(** The attributes that define a grid: size (nx, ny), xlim = (left, right),
    ylim = (top, bottom) (raster.py:54-57). *)
Record grid := mkgrid { gnx : Z; gny : Z; gxlim : R * R; gylim : R * R }.

(** One axis: limits and number of cells. *)
Definition axis := ((R * R) * Z)%type.
Definition xaxis (g : grid) : axis := (gxlim g, gnx g).
Definition yaxis (g : grid) : axis := (gylim g, gny g).

(** raster.py:118-121, one component *)
Definition dcell (a : axis) : R := (snd (fst a) - fst (fst a)) / IZR (snd a).
Definition gd (g : grid) : R * R := (dcell (xaxis g), dcell (yaxis g)).

(** raster.py:123-136 *)
Definition amin (a : axis) : R := Rmin (fst (fst a)) (snd (fst a)).
Definition amax (a : axis) : R := Rmax (fst (fst a)) (snd (fst a)).
Definition box2d (g : grid) : list R :=
  [amin (xaxis g); amin (yaxis g); amax (xaxis g); amax (yaxis g)].

(** raster.py:138-151 and 160-173: cell centers along an axis (without the cache) *)
Definition centers (a : axis) : result (list R) :=
  let* v := linspace (amin a + Rabs (dcell a) / 2) (amax a - Rabs (dcell a) / 2) (snd a) in
  Ok (if Rltb (dcell a) 0 then rev v else v).

(** raster.py:230-239 for a pair of numbers *)
Definition parse_limits (v : list R) : result (R * R) :=
  match v with
  | [a; b] => if Reqb a b then Err ValueError else Ok (a, b)
  | _ => Err ValueError
  end.

(** raster.py:74-85 *)
Definition parse_size (v : list Z) : result (Z * Z) :=
  let* p := match v with [a] => Ok (a, a) | [a; b] => Ok (a, b) | _ => Err ValueError end in
  if (fst p <=? 0)%Z || (snd p <=? 0)%Z then Err ValueError else Ok p.

(** The argument x (or y) of the constructor: absent, a vector or a matrix
    given by its rows. *)
Inductive coord_arg := CNone | CVec (v : list R) | CMat (rows : list (list R)).

(** raster.py:241-267.  [dim] = 0 (x) or 1 (y).  Result: limits, coordinate
    vector and matrix (the two caches).
    Simplified: a matrix has rows of equal length >= 1. *)
Definition parse_xy (nx ny : Z) (value : coord_arg) (dim : bool)
  : result ((R * R) * option (list R) * option (list (list R))) :=
  let vec v X :=
    if (2 <? length v)%nat then
      match v with
      | x0 :: x1 :: _ =>
        let dx := x1 - x0 in
        let* lim := parse_limits [x0 - dx / 2; last v 0 + dx / 2] in
        Ok (lim, Some v, X)
      | _ => Err ValueError
      end
    else if (length v =? 2)%nat then let* lim := parse_limits v in Ok (lim, None, X)
    else Err ValueError in
  match value with
  | CNone => vec [0; IZR (if dim then ny else nx)] None
  | CVec v => vec v None
  | CMat rows =>
    if ((Z.of_nat (length rows) =? ny) && (Z.of_nat (length (hd [] rows)) =? nx))%Z%bool
    then vec (if dim then map (hd 0) rows else hd [] rows) (Some rows)
    else Err ValueError (* raises at a later conversion; not modelled further *)
  end.

(** raster.py:331-336, one axis and one point *)
Definition inbounds1 (a : axis) (x : R) : bool := Rleb (amin a) x && Rleb x (amax a).
Definition inbounds_xy (g : grid) (xy : R * R) : bool :=
  inbounds1 (xaxis g) (fst xy) && inbounds1 (yaxis g) (snd xy).
(** raster.py:338-340 *)
Definition inbounds_uv (g : grid) (uv : R * R) : bool :=
  Rleb 0 (fst uv) && Rleb (fst uv) (IZR (gnx g)) && Rleb 0 (snd uv) && Rleb (snd uv) (IZR (gny g)).

(** raster.py:372-387, one coordinate *)
Definition snap1 (a : axis) (ctr edg inb : bool) (x : R) : R :=
  let origin := fst (fst a) in
  let t := (x - origin) / dcell a in
  let t := if ctr && negb edg then t - / 2 else if ctr && edg then t * 2 else t in
  let t := IZR (Rfloor (t + / 2)) in
  let t := if negb edg && inb && Reqb x (snd (fst a)) then t - 1 else t in
  let t := if ctr && negb edg then t + / 2 else if ctr && edg then t / 2 else t in
  t * dcell a + origin.
(** raster.py:370-387 *)
Definition snap_xy (g : grid) (ctr edg inb : bool) (xy : R * R) : result (R * R) :=
  if negb ctr && negb edg then Err ValueError
  else Ok (snap1 (xaxis g) ctr edg inb (fst xy), snap1 (yaxis g) ctr edg inb (snd xy)).
(** raster.py:414-420: (xmin, ymin, xmax, ymax) of the snapped corners *)
Definition snap_box (g : grid) (xy size : R * R) (ctr edg inb : bool) : result (R * R * R * R) :=
  let lo := (fst xy - fst size * / 2, snd xy - snd size * / 2) in
  let hi := (fst xy + fst size * / 2, snd xy + snd size * / 2) in
  if negb (inbounds_xy g lo) || negb (inbounds_xy g hi) then Err IndexError else
  let* a := snap_xy g ctr edg inb lo in
  let* b := snap_xy g ctr edg inb hi in
  Ok (fst a, snd a, fst b, snd b).

(** raster.py:443-444 *)
Definition xyz_to_uv (g : grid) (xy : R * R) : R * R :=
  ((fst xy - fst (gxlim g)) / dcell (xaxis g), (snd xy - fst (gylim g)) / dcell (yaxis g)).
(** raster.py:456-458 without the constant nan z *)
Definition uv_to_xyz (g : grid) (uv : R * R) : R * R :=
  (fst uv * dcell (xaxis g) + fst (gxlim g), snd uv * dcell (yaxis g) + fst (gylim g)).
(** raster.py:474-475; argument (row, col), result (x, y) *)
Definition rowcol_to_xy (g : grid) (rc : R * R) : R * R :=
  ((snd rc + / 2) * dcell (xaxis g) + fst (gxlim g), (fst rc + / 2) * dcell (yaxis g) + fst (gylim g)).
(** raster.py:495-499 with snap=False: (row, col) *)
Definition xy_to_rowcol (g : grid) (xy : R * R) : R * R :=
  ((snd xy - fst (gylim g)) / dcell (yaxis g) - / 2, (fst xy - fst (gxlim g)) / dcell (xaxis g) - / 2).
(** raster.py:493-499 with snap=True *)
Definition xy_to_rowcol_snap (g : grid) (inb : bool) (xy : R * R) : result (Z * Z) :=
  let* xy := snap_xy g true false inb xy in
  let rc := xy_to_rowcol g xy in
  Ok (Rtrunc (fst rc), Rtrunc (snd rc)).

(** raster.py:511, numpy.ravel_multi_index *)
Definition rowcol_to_idx (g : grid) (rc : Z * Z) : result Z := ravel_index (gny g, gnx g) rc.
(** raster.py:523, numpy.unravel_index *)
Definition idx_to_rowcol (g : grid) (i : Z) : result (Z * Z) :=
  if ((0 <=? i) && (i <? gnx g * gny g))%Z then Ok (i / gnx g, i mod gnx g)%Z else Err ValueError.

(** raster.py:541-573.  Result: new xlim, new ylim, (first row, last row),
    (first column, last column). *)
Definition crop_extent (g : grid) (xlim ylim : option (R * R))
  : result ((R * R) * (R * R) * (Z * Z) * (Z * Z)) :=
  let xl := match xlim with Some l => l | None => gxlim g end in
  let yl := match ylim with Some l => l | None => gylim g end in
  let some := map (@Some R) in
  let* box := intersect_boxes
    [ some [Rmin (fst xl) (snd xl); Rmin (fst yl) (snd yl); Rmax (fst xl) (snd xl); Rmax (fst yl) (snd yl)];
      some (box2d g) ] in
  match box with
  | [Some x0; Some y0; Some x1; Some y1] =>
    let (x0, x1) := if Rltb (snd (gxlim g)) (fst (gxlim g)) then (x1, x0) else (x0, x1) in
    let (y0, y1) := if Rltb (snd (gylim g)) (fst (gylim g)) then (y1, y0) else (y0, y1) in
    let* (r0, c0) := xy_to_rowcol_snap g true (x0, y0) in
    let* (r1, c1) := xy_to_rowcol_snap g true (x1, y1) in
    let snap_down (a : axis) (v : R) :=
      Reqb (Rmod (snd (fst a) - v) (dcell a)) 0 && negb (Reqb v (snd (fst a))) in
    let r1 := if snap_down (yaxis g) y1 then (r1 - 1)%Z else r1 in
    let c1 := if snap_down (xaxis g) x1 then (c1 - 1)%Z else c1 in
    let p0 := rowcol_to_xy g (IZR r0, IZR c0) in
    let p1 := rowcol_to_xy g (IZR r1, IZR c1) in
    Ok ((fst p0 + - / 2 * dcell (xaxis g), fst p1 + / 2 * dcell (xaxis g)),
        (snd p0 + - / 2 * dcell (yaxis g), snd p1 + / 2 * dcell (yaxis g)),
        (r0, r1), (c0, c1))
  | _ => Err OtherError
  end.

(** raster.py:593-604, one axis: the slices (start, stop) of the tiles.
    [size] is the target tile size.  When round(n / size) is 0 the division
    by zero gives an infinite tile width (raster.py:594).
    Simplified: size <= 0 is not modelled (OtherError). *)
Definition tile_axis (n size overlap : Z) : result (list (Z * Z)) :=
  if (size <=? 0)%Z then Err OtherError else
  let k := Rround (IZR n / IZR size) in
  let group (i : Z) : Z :=
    if (k =? 0)%Z then 0%Z else Rfloor (IZR i / IZR (Rceil (IZR n / IZR k))) in
  let xi := map group (Zrange n) in
  (* numpy.searchsorted(side="right") of a sorted array *)
  let right (v : Z) : Z := Z.of_nat (length (filter (fun x => (x <=? v)%Z) xi)) in
  let ends := 0%Z :: map right (unique_Z xi) in
  let m := length ends in
  let starts := map (fun p => if ((0 <? fst p) && (fst p <? m - 1))%nat then (snd p - overlap)%Z else snd p)
                    (combine (seq 0 m) ends) in
  Ok (combine (firstn (m - 1) starts) (tl ends)).
(** raster.py:580-609: pairs (rows, cols) of slices *)
Definition tile_indices (g : grid) (size overlap : Z * Z) : result (list ((Z * Z) * (Z * Z))) :=
  let* xs := tile_axis (gnx g) (fst size) (fst overlap) in
  let* ys := tile_axis (gny g) (snd size) (snd overlap) in
  Ok (flat_map (fun r => map (fun c => (r, c)) xs) ys).
