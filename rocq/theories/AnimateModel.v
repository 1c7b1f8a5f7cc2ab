(** Model of the animations of Observer: animate (src/glimpse/track/observer.py:280-366), track (368-453), plot_tile (216-239), and of
    Image.plot's extent (src/glimpse/image.py:242-248), on ObserverModel, TemplateModel and HelpersModel.

    A frame is what update_plot gives matplotlib: the tile, its extent, the marked points and the limits of the axes.  Images are photographs
    (Image); [proj i p] is xyz_to_uv of world point p in image i (Observer.xyz_to_uv, observer.py:102-113; Image.xyz_to_uv, image.py:272-278),
    None is nan.  Labels and line styles are not modelled. *)
From Verif Require Import Base HelpersModel GridModel TemplateModel ImageModel ObserverModel MeshModel CameraModel.
Open Scope R_scope.

Definition rbox := (R * R * R * R)%type.
(** half the size of the tiles, observer.py:312, 404 *)
Definition halfsize (size : Z * Z) : pt2 := (IZR (fst size) * / 2, IZR (snd size) * / 2).
(** the box of tile [size] about a point, observer.py:337 *)
Definition wanted_box (uv : pt2) (size : Z * Z) : list R :=
  let h := halfsize size in [fst uv - fst h; snd uv - snd h; fst uv + fst h; snd uv + snd h].
(** Camera.inframe for a camera of nx * ny pixels, camera.py:678-696 *)
Definition in_image (nx ny : Z) (p : pt2) : bool :=
  (Rleb 0 (fst p) && Rleb (fst p) (IZR nx) && (Rleb 0 (snd p) && Rleb (snd p) (IZR ny)))%bool.
Definition some_box (b : list (option R)) : result (list R) :=
  mapM (fun x => match x with Some v => Ok v | None => Err ValueError end) b.
(** the box read from an image of nx * ny pixels, observer.py:337-348; None: a white tile (349-351) *)
Definition frame_box (nx ny : Z) (uv : pt2) (size : Z * Z) : result (option rbox) :=
  let box := wanted_box uv size in
  let* polygon := box_to_polygon box in
  let inbounds := map (in_image nx ny) polygon in
  if existsb (fun b => b) inbounds then
    let* box := if forallb (fun b => b) inbounds then Ok box
      else let* b := intersect_boxes [map Some box; map Some [0; 0; IZR nx; IZR ny]] in some_box b in
    let* (lo, hi) := unravel_box box in
    let g := image_grid nx ny in
    let* a := snap_xy g false true true (nth 0 lo 0, nth 1 lo 0) in
    let* b := snap_xy g false true true (nth 0 hi 0, nth 1 hi 0) in
    Ok (Some (fst a, snd a, fst b, snd b))
  else Ok None.

Section Frames.
Context {V : Type}.
Variable rescale : pic V -> Z * Z -> pic V.
(** Image.read of image [i] for a box of floats, image.py:174-208: slicing an array by floats raises TypeError *)
Definition read_floats (i : nat) (box : rbox) (cache : bool) (st : store V) : result (arr * store V) :=
  match nth_error (imgs st) i with
  | None => Err OtherError
  | Some im =>
    let size := match held st im with Some a => psize a | None => psize (hi_file im) end in
    let resize := negb (size_eqb (hi_cam im) size) in
    let sliced := (cache || match hi_array im with Some _ => negb resize | None => false end)%bool in
    if sliced then Err TypeError else
    let '(l, t, r, d) := box in
    let fx v := Rround (v * (IZR (fst size) / IZR (fst (hi_cam im)))) in
    let fy v := Rround (v * (IZR (snd size) / IZR (snd (hi_cam im)))) in
    let* a := gdal_read rescale (hi_file im) (Some (fx l, fy t, fx (r - l), fy (d - t))) (if resize then Some (hi_cam im) else None) in
    Ok (mk_arr (length (bufs st)) None, mk_store (bufs st ++ [a]) (imgs st))
  end.
(** a frame; no tile: white *)
Record frame := mk_frame { fr_tile : option arr; fr_extent : list R; fr_points : list (option pt2); fr_xlim : R * R; fr_ylim : R * R }.
(** AxesImage extent (left, right, bottom, top) of a box, observer.py:235, 354 *)
Definition extent (b : list R) : list R := [nth 0 b 0; nth 2 b 0; nth 3 b 0; nth 1 b 0].
Definition list_of_box (b : rbox) : list R := let '(l, t, r, d) := b in [l; t; r; d].
(** limits of the axes, observer.py:332-333, 357-358 *)
Definition limits (uv : pt2) (size : Z * Z) : (R * R) * (R * R) :=
  let h := halfsize size in ((fst uv - fst h, fst uv + fst h), (snd uv + snd h, snd uv - fst h)).
(** update_plot of Observer.animate for image index [i], observer.py:335-361; [puv] is where the point is seen (nan limits of axes raise
    ValueError in matplotlib).  The limits are those of the left plot *)
Definition animate_frame (o : observer) (i : Z) (size : Z * Z) (puv : nat -> option pt2) (st : store V) : result (frame * store V) :=
  let* k := py_get (o_images o) i in
  match nth_error (imgs st) k with
  | None => Err OtherError
  | Some im =>
    match puv k with
    | None => Err ValueError
    | Some uv =>
      let* b := frame_box (fst (hi_cam im)) (snd (hi_cam im)) uv size in
      let (xl, yl) := limits uv size in
      match b with
      | Some box =>
        let* (a, st) := read_floats k box (o_cache o) st in
        Ok (mk_frame (Some a) (extent (list_of_box box)) [Some uv] xl yl, st)
      | None => Ok (mk_frame None (extent (wanted_box uv size)) [Some uv] xl yl, st)
      end
    end
  end.
(** frames: a numpy array, or another sequence; numpy.where(frames == i)[0][0], observer.py:434 (a list is not equal to an integer) *)
Definition frame_index (is_array : bool) (frames : list Z) (i : Z) : result nat :=
  if is_array then
    (fix go (l : list Z) (j : nat) := match l with [] => Err IndexError | x :: l => if (x =? i)%Z then Ok j else go l (S j) end) frames 0%nat
  else Err IndexError.
(** update_plot of Observer.track for image index [i], observer.py:433-448 (the right plot, whose limits are left to matplotlib) *)
Definition track_frame (o : observer) (is_array : bool) (frames : list Z) (size : Z * Z) (xyz : list vec3) (proj : nat -> vec3 -> option pt2) (i : Z) (st : store V)
  : result (list (option pt2) * zbox4 * arr * store V) :=
  let* j := frame_index is_array frames i in
  let* k := py_get (o_images o) i in
  let track := map (proj k) (firstn (S j) xyz) in
  let* uv := py_get track (-1) in
  match nth_error (imgs st) k with
  | None => Err OtherError
  | Some im =>
    match uv with
    | None => Err IndexError
    | Some uv =>
      let* box := tile_box (fst (hi_cam im)) (snd (hi_cam im)) uv size in
      let* (a, st) := extract_tile rescale o box i st in
      Ok (track, box, a, st)
    end
  end.
End Frames.
(** Observer.plot_tile, observer.py:233-235: extent of a tile of w * h pixels *)
Definition plot_tile_extent (box : option (list R)) (w h : Z) : list R :=
  extent (match box with Some b => b | None => [0; 0; IZR h; IZR w] end).
(** Image.plot, image.py:244-247: extent of an image of w * h pixels *)
Definition plot_image_extent (w h : Z) : list R := [0; IZR w; IZR h; 0].
