(** Model of rasters in files: Raster.open (src/glimpse/raster.py:694-759), Raster.read (761-835), Raster.size (868-874), the array property (837-858) and Grid.read (182-220).

    A file is its picture of one band (nan: None), its geotransform without rotation (GetGeoTransform 0, 1, 3 and 5), whether the band's type is float, and its no-data value.  GDAL resampling is a parameter, as for images (ImageModel.gdal_read).  Simplified: exact reals; [sharedmem.copy] is the identity; the no-data value is compared exactly; crs and datetime are kept outside. *)
From Verif Require Import Base HelpersModel GridModel ImageModel.
Open Scope R_scope.

Notation cell := (option R).
Record rfile := mkrfile { rf_pic : pic cell; rf_transform : R * R * R * R; rf_float : bool; rf_nodata : option R }.

(** raster.py:719-724 and 201-208: Grid(size, x=t0 + t1 * [0, nx], y=t3 + t5 * [0, ny]); the limits go through Grid._parse_limits *)
Definition file_grid (f : rfile) : result grid :=
  let '(t0, t1, t3, t5) := rf_transform f in
  let nx := pw (rf_pic f) in let ny := ph (rf_pic f) in
  let* xl := parse_limits [t0 + t1 * 0; t0 + t1 * IZR nx] in
  let* yl := parse_limits [t3 + t5 * 0; t3 + t5 * IZR ny] in
  Ok (mkgrid nx ny xl yl).

(** _gdal_kwargs *)
Record kwargs := mkkwargs { xoff : Z; yoff : Z; win_x : Z; win_y : Z; buf_x : Z; buf_y : Z }.
(** _array, xlim, ylim, _nan, _gdal_kwargs *)
Record fraster := mkfraster { f_array : option (pic cell); f_xlim : R * R; f_ylim : R * R; f_nan : option R; f_kw : kwargs }.

(** raster.py:728-733: [if d] is false for 0 and None *)
Definition buffer (win : Z) (cellsize : R) (d : option R) : Z :=
  match d with
  | Some d => if Reqb d 0 then win else Rceil (Rabs (IZR win * cellsize / d))
  | None => win
  end.

(** raster.py:717-759 *)
Definition open (f : rfile) (d : option R) (xlim ylim : option (R * R)) (nan : option R) : result fraster :=
  let* g := file_grid f in
  let* (xl, yl, rows, cols) := crop_extent g xlim ylim in
  let wx := (snd cols - fst cols + 1)%Z in
  let wy := (snd rows - fst rows + 1)%Z in
  let bx := buffer wx (fst (gd g)) d in
  let by_ := buffer wy (snd (gd g)) d in
  let nan := match nan with
             | Some v => Some v
             | None => match rf_nodata f with Some v => if (rf_float f && negb (Reqb v 0))%bool then Some v else None | None => None end
             end in
  let* xl := parse_limits [fst xl; snd xl] in
  let* yl := parse_limits [fst yl; snd yl] in
  Ok (mkfraster None xl yl nan (mkkwargs (fst cols) (fst rows) wx wy bx by_)).

(** raster.py:868-874 *)
Definition fsize (r : fraster) : Z * Z :=
  match f_array r with None => (buf_x (f_kw r), buf_y (f_kw r)) | Some a => psize a end.

(** raster.py:823-827: array[array == nan] = nan *)
Definition blank (nan : option R) (a : pic cell) : pic cell :=
  mkpic (pw a) (ph a) (map (map (fun v : cell => match v, nan with Some x, Some n => if Reqb x n then None else v | _, _ => v end)) (rows a)).

Section Read.
  (** what GDAL gives for a window and the size of a buffer *)
  Variable rescale : pic cell -> Z * Z -> pic cell.

  (** raster.py:793-835.  The box (left, top, right, bottom) is of integers. *)
  Definition fread (f : rfile) (box : option zbox4) (cache : bool) (r : fraster) : result (pic cell * fraster) :=
    let* _ :=
      match box with
      | Some (l, t, rt, b) =>
        let '(w, h) := fsize r in
        if ((0 <=? l) && (l <=? w) && (0 <=? t) && (t <=? h) && (0 <=? rt) && (rt <=? w) && (0 <=? b) && (b <=? h))%Z%bool then Ok tt else Err ValueError
      | None => Ok tt
      end in
    let* (array, new_array, r) :=
      match f_array r with
      | Some a => Ok (a, false, r)
      | None =>
        let k := f_kw r in
        let k :=
          match box with
          | Some (l, t, rt, b) =>
            let sx := IZR (win_x k) / IZR (buf_x k) in
            let sy := IZR (win_y k) / IZR (buf_y k) in
            let px v := IZR v * sx + IZR (xoff k) in
            let py v := IZR v * sy + IZR (yoff k) in
            mkkwargs (Rtrunc (px l)) (Rtrunc (py t)) (Rtrunc (px rt - px l)) (Rtrunc (py b - py t)) (rt - l)%Z (b - t)%Z
          | None => k
          end in
        let* a := gdal_read rescale (rf_pic f) (Some (xoff k, yoff k, win_x k, win_y k)) (Some (buf_x k, buf_y k)) in
        let a := blank (f_nan r) a in
        Ok (a, true, if cache then mkfraster (Some a) (f_xlim r) (f_ylim r) (f_nan r) (f_kw r) else r)
      end in
    match box with
    | Some bx => if (cache || negb new_array)%bool then Ok (subset bx array, r) else Ok (array, r)
    | None => Ok (array, r)
    end.

  (** raster.py:837-842: the array property reads and keeps the array *)
  Definition farray (f : rfile) (r : fraster) : result (pic cell * fraster) :=
    match f_array r with Some a => Ok (a, r) | None => let* (a, r) := fread f None true r in Ok (a, mkfraster (Some a) (f_xlim r) (f_ylim r) (f_nan r) (f_kw r)) end.

  (** what a user can do; setting array to None clears the cache *)
  Inductive fop := FRead (box : option zbox4) (cache : bool) | FArray | FClear.
  Definition fstep (f : rfile) (o : fop) (r : fraster) : fraster :=
    match o with
    | FRead b c => match fread f b c r with Ok (_, r') => r' | Err _ => r end
    | FArray => match farray f r with Ok (_, r') => r' | Err _ => r end
    | FClear => mkfraster None (f_xlim r) (f_ylim r) (f_nan r) (f_kw r)
    end.
  Definition frun (f : rfile) (os : list fop) (r : fraster) : fraster := fold_left (fun r o => fstep f o r) os r.
End Read.

(** Grid.read (raster.py:198-220): [grid.n = ...] sets an attribute that nothing else uses *)
Definition grid_read (f : rfile) (d : option R) (xlim ylim : option (R * R)) : result (grid * (Z * Z)) :=
  let* g := file_grid f in
  let* (xl, yl, rows, cols) := crop_extent g xlim ylim in
  let wx := (snd cols - fst cols + 1)%Z in
  let wy := (snd rows - fst rows + 1)%Z in
  let n := (buffer wx (fst (gd g)) d, buffer wy (snd (gd g)) d) in
  let* xl := parse_limits [fst xl; snd xl] in
  let* yl := parse_limits [fst yl; snd yl] in
  Ok (mkgrid (gnx g) (gny g) xl yl, n).
