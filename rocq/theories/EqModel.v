(** Model of equality and copies of grids and rasters (src/glimpse/raster.py:59-65, 286-288, 661-667, 883-885, 902-909). *)
From Verif Require Import Base HelpersModel GridModel ImageModel RasterFileModel PathModel WriteModel.
Open Scope R_scope.

(** whether the size of a grid is an array, as from its setter, or a tuple, as usually given to Grid (raster.py:55, 70-72) *)
Record egrid := mkegrid { eg : grid; eg_array : bool; eg_crs : option crs }.
(** (self.xlim == other.xlim).all() *)
Definition lim_eqb (a b : R * R) : bool := (Reqb (fst a) (fst b) && Reqb (snd a) (snd b))%bool.
(** raster.py:59-65 *)
Definition grid_eq (a b : egrid) : bool :=
  ((gny (eg a) =? gny (eg b)) && (gnx (eg a) =? gnx (eg b)))%Z && lim_eqb (gxlim (eg a)) (gxlim (eg b)) && lim_eqb (gylim (eg a)) (gylim (eg b)).
(** raster.py:286-288: tuples have no method copy.  The limits go through Grid.__init__ (raster.py:55-57). *)
Definition grid_copy (a : egrid) : result egrid :=
  if negb (eg_array a) then Err AttributeError else
  let* xl := parse_limits [fst (gxlim (eg a)); snd (gxlim (eg a))] in
  let* yl := parse_limits [fst (gylim (eg a)); snd (gylim (eg a))] in
  Ok (mkegrid (mkgrid (gnx (eg a)) (gny (eg a)) xl yl) true None).

Record eraster := mkeraster { er_array : pic cell; er_xlim : R * R; er_ylim : R * R; er_datetime : option Z; er_crs : option crs }.
(** numpy: the dimension of two broadcast together, if they can be *)
Definition bdim (n m : Z) : option Z := if (n =? m)%Z then Some n else if (n =? 1)%Z then Some m else if (m =? 1)%Z then Some n else None.
Definition bget (a : pic cell) (i j : Z) : option cell :=
  match nth_error (rows a) (Z.to_nat (if (ph a =? 1)%Z then 0%Z else i)) with Some r => nth_error r (Z.to_nat (if (pw a =? 1)%Z then 0%Z else j)) | None => None end.
(** nan is not equal to anything *)
Definition cell_eqb (a b : option cell) : bool := match a, b with Some (Some x), Some (Some y) => Reqb x y | _, _ => false end.
(** numpy.array_equiv for two dimensions *)
Definition array_equiv (a b : pic cell) : bool :=
  match bdim (ph a) (ph b), bdim (pw a) (pw b) with
  | Some h, Some w => forallb (fun i => forallb (fun j => cell_eqb (bget a i j) (bget b i j)) (Zrange w)) (Zrange h)
  | _, _ => false
  end.
(** raster.py:661-667 *)
Definition raster_eq (a b : eraster) : bool := array_equiv (er_array a) (er_array b) && lim_eqb (er_xlim a) (er_xlim b) && lim_eqb (er_ylim a) (er_ylim b).
(** raster.py:902-909 *)
Definition raster_copy (a : eraster) : result eraster :=
  let* xl := parse_limits [fst (er_xlim a); snd (er_xlim a)] in
  let* yl := parse_limits [fst (er_ylim a); snd (er_ylim a)] in
  Ok (mkeraster (er_array a) xl yl (er_datetime a) None).
(** raster.py:882-885, for a raster whose array is in memory (before it is read from a file the size is a tuple, raster.py:869-874) *)
Definition raster_grid (a : eraster) : result egrid :=
  let* xl := parse_limits [fst (er_xlim a); snd (er_xlim a)] in
  let* yl := parse_limits [fst (er_ylim a); snd (er_ylim a)] in
  Ok (mkegrid (mkgrid (pw (er_array a)) (ph (er_array a)) xl yl) true None).
