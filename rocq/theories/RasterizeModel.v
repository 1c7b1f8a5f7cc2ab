(** Model of Raster.rasterize and Raster.rasterize_polygons (src/glimpse/raster.py:1101-1145) and of polygons_to_mask (src/glimpse/helpers.py:1460-1527). *)
From Verif Require Import Base HelpersModel GridModel.
Open Scope R_scope.

(** assignment of a mean to an array of floats, or of integers (truncated, numpy casting; overflow is not modelled) *)
Definition cast_mean (flt : bool) (m : R) : option R := Some (if flt then m else IZR (Rtrunc m)).
(** raster.py:1101-1117.  [a] is the flattened array of the raster (two dimensional), None = nan.  Simplified: finite coordinates and values. *)
Definition raster_rasterize (g : grid) (flt : bool) (a : list (option R)) (xy : list (R * R)) (values : list R) : result (list (option R)) :=
  if negb (Nat.eqb (length values) (length xy)) then Err IndexError else
  let sel := filter (fun p => inbounds_xy g (fst p)) (combine xy values) in
  let* rowcol := mapM (fun p => xy_to_rowcol_snap g true (fst p)) sel in
  rasterize_into (cast_mean flt) (map fst rowcol) (map snd rowcol) (map snd sel) (gny g, gnx g) a.

(** The edges of a ring, which is closed implicitly (helpers.py:1489-1497 and GDAL). *)
Definition ring := list (R * R).
Definition ring_edges (p : ring) : list ((R * R) * (R * R)) := match p with [] => [] | v :: r => combine p (r ++ [v]) end.
(** gdal.RasterizeLayer with default options, one polygon, one cell (helpers.py:1522): the intersections of the edges with the horizontal line through the center of the row are sorted and paired, and cells whose center is between the two of a pair are burned, that is when an odd number of intersections is left of the center.
    Simplified: the additional filling of edges that lie exactly on the line is not modelled. *)
Definition gdal_burns (p : ring) (row col : Z) : bool :=
  let y := IZR row + / 2 in let x := IZR col + / 2 in
  let hits := filter (fun e : (R * R) * (R * R) => let '((x1, y1), (x2, y2)) := e in
    let '((xa, ya), (xb, yb)) := if Rltb y1 y2 then ((x1, y1), (x2, y2)) else ((x2, y2), (x1, y1)) in
    (Rleb ya y && Rltb y yb && Rltb ((y - ya) * (xb - xa) / (yb - ya) + xa) x)%bool) (ring_edges p) in
  Nat.odd (length hits).
(** RasterizeLayer: all polygons of a layer burn the same value, helpers.py:1522,1526 *)
Definition rasterize_layer (rings : list ring) (value : Z) (a : list (list Z)) : list (list Z) :=
  map (fun rv => map (fun cv => if existsb (fun p => gdal_burns p (fst rv) (fst cv)) rings then value else snd cv)
                     (combine (Zrange (Z.of_nat (length (snd rv)))) (snd rv)))
      (combine (Zrange (Z.of_nat (length a))) a).
(** helpers.py:1515-1527; size = (nx, ny) *)
Definition polygons_to_mask (polygons : list ring) (size : Z * Z) (holes : option (list ring)) : list (list bool) :=
  let raster := repeat (repeat 0%Z (Z.to_nat (fst size))) (Z.to_nat (snd size)) in
  let raster := rasterize_layer polygons 1%Z raster in
  let raster := match holes with Some ((_ :: _) as h) => rasterize_layer h 0%Z raster | _ => raster end in
  map (map (fun v => negb (Z.eqb v 0))) raster.
(** raster.py:1141-1145 *)
Definition to_uv (g : grid) (p : ring) : ring := map (fun xy => let rc := xy_to_rowcol g xy in (snd rc + / 2, fst rc + / 2)) p.
Definition rasterize_polygons (g : grid) (polygons : list ring) (holes : option (list ring)) : list (list bool) :=
  polygons_to_mask (map (to_uv g) polygons) (gnx g, gny g) (match holes with Some h => Some (map (to_uv g) h) | None => None end).
