(** Model of writing rasters: write_raster, crs_to_wkt and gdal_driver_from_path (src/glimpse/helpers.py:486-615), Raster.write (src/glimpse/raster.py:1476-1490) and Image.write (src/glimpse/image.py:210-222).

    GDAL is represented by the list of its drivers in order of registration, by the text it gives for a coordinate reference system, and by the dataset that CreateCopy makes of another.  Simplified: exact numbers; Create, SetGeoTransform, WriteArray and CreateCopy do not fail; a new dataset is zero; a file is the dataset in it. *)
From Coq Require Import Ascii.
From Verif Require Import Base HelpersModel GridModel ImageModel RasterFileModel PathModel.
Open Scope R_scope.

(** a driver: name, DCAP_RASTER, DCAP_VECTOR, DMD_EXTENSIONS (split), DCAP_CREATE, DCAP_CREATECOPY *)
Record driver := mkdriver { d_name : str; d_raster : bool; d_vector : bool; d_ext : option (list str); d_create : bool; d_copy : bool }.
(** GeoTransform: all six numbers *)
Definition transform := (R * R * R * R * R * R)%type.
(** bands, whether their type is float, transform, projection, no-data value *)
Record dataset := mkds { ds_bands : list (pic cell); ds_float : bool; ds_transform : option transform; ds_wkt : option str; ds_nodata : option R }.
(** a coordinate reference system argument: int, str or anything else *)
Inductive crs := CInt (n : Z) | CStr (s : str) | COther.
Definition fs := str -> option dataset.
Definition put (p : str) (d : dataset) (f : fs) : fs := fun q => if str_eqb q p then Some d else f q.

(** str.lower for one character *)
Definition lower (c : ascii) : ascii := let n := nat_of_ascii c in if (Nat.leb 65 n && Nat.leb n 90)%bool then ascii_of_nat (n + 32) else c.
(** helpers.py:535-545: [raster], [vector] say which drivers are considered *)
Fixpoint first_driver (ext : str) (raster vector : bool) (ds : list driver) : option driver :=
  match ds with
  | [] => None
  | d :: r =>
    if ((raster && d_raster d) || (vector && d_vector d))%bool then
      match d_ext d with
      | Some ((_ :: _) as es) => if existsb (str_eqb ext) es then Some d else first_driver ext raster vector r
      | _ => first_driver ext raster vector r
      end
    else first_driver ext raster vector r
  end.
Definition gdal_driver_from_path (drivers : list driver) (path : str) (raster vector : bool) : option driver :=
  first_driver (map lower (skipn 1 (splitext1 path))) raster vector drivers.

Section Gdal.
  Variable drivers : list driver.
  (** ImportFromEPSG, ImportFromWkt, ImportFromProj4, then ExportToWkt *)
  Variable wkt_epsg : Z -> str. Variable wkt_wkt : str -> str. Variable wkt_proj4 : str -> str.
  (** CreateCopy *)
  Variable copied : driver -> dataset -> dataset.

  (** helpers.py:506-518 *)
  Definition crs_to_wkt (c : crs) : result str :=
    match c with
    | CInt n => Ok (wkt_epsg n)
    | CStr s => if existsb (Ascii.eqb "["%char) s then Ok (wkt_wkt s) else if existsb (Ascii.eqb "+"%char) s then Ok (wkt_proj4 s) else Err ValueError
    | COther => Err ValueError
    end.
  (** [if crs] *)
  Definition crs_true (c : option crs) : option crs :=
    match c with Some (CInt n) => if (n =? 0)%Z then None else Some (CInt n) | Some (CStr []) => None | o => o end.

  Definition zero_pic (a : pic cell) : pic cell := mkpic (pw a) (ph a) (map (map (fun _ => Some 0)) (rows a)).
  (** helpers.py:576-615.  [a]: the bands of the array; [supported]: whether its type is one of GDAL. *)
  Definition write_raster (a : list (pic cell)) (flt supported : bool) (path : str) (drv : option str) (nan : option R) (c : option crs) (t : option transform) (f : fs) : result unit * fs :=
    if negb supported then (Err ValueError, f) else
    match (match drv with Some ((_ :: _) as n) => find (fun d => str_eqb (d_name d) n) drivers | _ => gdal_driver_from_path drivers path true false end) with
    | None => (Err ValueError, f)
    | Some d =>
      if (negb (d_create d) && negb (d_copy d))%bool then (Err ValueError, f) else
      let output := mkds (map zero_pic a) flt t None None in
      let f := if d_create d then put path output f else f in
      match (match crs_true c with Some c => let* w := crs_to_wkt c in Ok (Some w) | None => Ok None end) with
      | Err e => (Err e, f)
      | Ok w =>
        let output := mkds a flt t w nan in
        (Ok tt, if d_create d then put path output f else put path (copied d output) f)
      end
    end.

  (** raster.py:1476-1490.  [kcrs], [kt]: crs and transform among the optional arguments (None: not given) *)
  Definition raster_write (g : grid) (a : pic cell) (flt supported : bool) (own : option crs) (path : str) (drv : option str) (nan : option R) (kcrs : option (option crs)) (kt : option (option transform)) (f : fs) : result unit * fs :=
    let t := match kt with Some t => t | None => Some (fst (gxlim g), dcell (xaxis g), 0, fst (gylim g), 0, dcell (yaxis g)) end in
    let c := match kcrs with Some c => c | None => own end in
    write_raster [a] flt supported path drv nan c t f.
  (** image.py:220-222; [array] is the array given, or what read returns *)
  Definition image_write (array : list (pic cell)) (flt supported : bool) (path : str) (drv : option str) (f : fs) : result unit * fs :=
    write_raster array flt supported path drv None None None f.
End Gdal.

(** a band of a dataset as Raster.open sees it (RasterFileModel); without transform GDAL gives (0, 1, 0, 0, 0, 1) *)
Definition file_of (d : dataset) (band : nat) (f : rfile) : Prop :=
  exists p, nth_error (ds_bands d) band = Some p /\
  let '(t0, t1, _, t3, _, t5) := match ds_transform d with Some t => t | None => (0, 1, 0, 0, 0, 1) end in f = mkrfile p (t0, t1, t3, t5) (ds_float d) (ds_nodata d).
