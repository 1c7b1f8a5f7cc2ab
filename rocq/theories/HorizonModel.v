(** Model of Raster.horizon (src/glimpse/raster.py:1389-1463).

    Simplified: two-dimensional arrays; nan is None; angles and coordinates are exact reals.  [cor]: the elevation correction of a squared distance (helpers.elevation_corrections, or 0 without correction). *)
From Verif Require Import Base XReal HelpersModel RayModel GridModel GetitemModel.
Open Scope R_scope.

Notation vec3_ := (R * R * R)%type.

(** raster.py:1417-1419: clockwise from north *)
Definition direction (heading : R) : R * R := let theta := - (heading - 90) * (PI / 180) in (cos theta, sin theta).
(** raster.py:1421-1422: start and end of a ray in the bounds; None: nan *)
Definition ray_points (g : grid) (o : R * R) (heading : R) : option (R * R) * option (R * R) :=
  let d := direction heading in
  let t := ray_box [fst o; snd o] [fst d; snd d] [amin (xaxis g); amin (yaxis g)] [amax (xaxis g); amax (yaxis g)] in
  let at_ x := match x with Fin t => Some (fst o + t * fst d, snd o + t * snd d) | _ => None end in
  (at_ (fst t), at_ (snd t)).
(** numpy.nanargmax: the first position of the maximum; ValueError if all values are nan or there are none *)
Fixpoint nanargmax_ (i : nat) (best : option (nat * R)) (l : list (option R)) : option (nat * R) :=
  match l with
  | [] => best
  | None :: r => nanargmax_ (S i) best r
  | Some x :: r => nanargmax_ (S i) (match best with Some (_, b) => if Rltb b x then Some (i, x) else best | None => Some (i, x) end) r
  end.
Definition nanargmax (l : list (option R)) : result nat := match nanargmax_ 0 None l with Some (i, _) => Ok i | None => Err ValueError end.

(** raster.py:1434-1452 for one heading and an origin in bounds: the cells from that of the origin to that of the end, the first left out; None: a row of nan.  A ray without end (nan) is not modelled further (OtherError). *)
Definition sight (r : sraster) (cor : R -> R) (o : vec3_) (start : Z * Z) (stop : option (R * R)) : result (option vec3_) :=
  let '(ox, oy, oz) := o in
  match stop with
  | None => Err OtherError
  | Some e =>
    let* stop := xy_to_rowcol_snap (s_grid r) true e in
    let cells := map (fun p => (snd p, fst p)) (bresenham_line (snd start, fst start) (snd stop, fst stop)) in
    let cells := tl cells in
    let* _ := mapM (rowcol_to_idx (s_grid r)) cells in
    let dz := map (fun p => option_map (fun z => z - oz) (zat None (zat [] (s_rows r) (fst p)) (snd p))) cells in
    let xy := map (fun p => rowcol_to_xy (s_grid r) (IZR (fst p), IZR (snd p))) cells in
    let d2 := map (fun p => (fst p - ox) ^ 2 + (snd p - oy) ^ 2) xy in
    let* maxi := nanargmax (map2 (fun z d => option_map (fun z => (z + cor d) / sqrt d) z) dz d2) in
    if ((maxi <? length dz - 1)%nat && existsb (fun z : option R => match z with Some _ => true | None => false end) (skipn (S maxi) dz))%bool
    then Ok (match nth maxi dz None with Some z => let p := nth maxi xy (0, 0) in Some (fst p, snd p, z + oz) | None => None end)
    else Ok None
  end.

(** raster.py:1412-1463.  An origin out of bounds gives bresenham_line a start that is a float: range() raises TypeError, after int(nan) raised ValueError if the ray misses the raster. *)
Definition horizon (r : sraster) (cor : R -> R) (o : vec3_) (headings : list R) : result (list (list (option vec3_))) :=
  let '(ox, oy, oz) := o in
  let g := s_grid r in
  let* hxyz :=
    if inbounds_xy g (ox, oy) then
      let* start := xy_to_rowcol_snap g true (ox, oy) in
      mapM (fun h => sight r cor o start (snd (ray_points g (ox, oy) h))) headings
    else match headings with
         | [] => Ok []
         | h :: _ => match fst (ray_points g (ox, oy) h) with None => Err ValueError | Some _ => Err TypeError end
         end in
  let mask := map (fun p : option vec3_ => match p with Some _ => false | None => true end) hxyz in
  let* splits := boolean_split hxyz mask true IncAll in
  match mask with
  | [] => Err IndexError
  | m :: _ => Ok (if m then odds splits else evens splits)
  end.
