(** Model of Image.project, image.py:294-354, for one band.

    The image read from the file (image.py:342) is [img row column], of the size of its camera (ImageModel.v models the reading).
    scipy's RegularGridInterpolator (1.4.1, image.py:350-353) is that of RasterModel.v, with its treatment of nan coordinates.
    Cameras of at least two pixels in each direction; real arithmetic. *)
From Verif Require Import Base HelpersModel CameraModel ControlModel RasterModel.
Open Scope R_scope.

(** image.py:324-325, 333-340: np.linspace(0.5, n - 0.5, n) *)
Definition pixel_grid (n : Z) : result (list R) := linspace (/ 2) (IZR n - / 2) n.
(** image.py:329-331: the target pixel in the source image, None = nan *)
Definition look (src dst : cam) (uv : vec2) : option vec2 := xyz_to_uv src true (xy_to_xyz dst true 1 (uv_to_xy dst uv)).
(** image.py:350-353.  bounds_error=False, fill_value=nan.  Comparisons with nan are false: nan is not out of bounds, has the last interval,
    and a weight of nan (linear: nan; nearest: not weight <= 0.5, the upper end of the interval). *)
Definition below (g : list R) (x : R) : bool := Rltb x (nth 0 g 0).
Definition above (g : list R) (x : R) : bool := Rltb (nth (length g - 1) g 0) x.
Definition sample_image (linear : bool) (pu pv : list R) (img : nat -> nat -> R) (q : option vec2) : option R :=
  match q with
  | None => if linear then None else Some (img (length pv - 1)%nat (length pu - 1)%nat)
  | Some (u, v) =>
    if (below pu u || above pu u || below pv v || above pv v)%bool then None
    else (if linear then rgi_linear else rgi_nearest) pv pu (fun r c => Some (img r c)) v u
  end.
(** image.py:345-347, 353: the array has the type of the image; numbers assigned to integers are truncated, nan becomes some integer *)
Inductive dtype := DFloat | DInt (of_nan : Z).
Definition cast (d : dtype) (x : option R) : option R :=
  match d, x with DFloat, x => x | DInt _, Some x => Some (IZR (Rtrunc x)) | DInt n, None => Some (IZR n) end.
(** image.py:319-354 *)
Definition project (src dst : cam) (linear : bool) (d : dtype) (img : nat -> nat -> R) : result (list (list (option R))) :=
  if differ (get_xyz dst) (get_xyz src) then Err ValueError else
  let* u := pixel_grid (nth 0 (get_imgsz dst) 0%Z) in
  let* v := pixel_grid (nth 1 (get_imgsz dst) 0%Z) in
  let* pu := pixel_grid (nth 0 (get_imgsz src) 0%Z) in
  let* pv := pixel_grid (nth 1 (get_imgsz src) 0%Z) in
  Ok (map (fun y => map (fun x => cast d (sample_image linear pu pv img (look src dst (x, y)))) u) v).
