(** Model of Camera.project_dem (src/glimpse/camera.py:945-1107).

    Arrays are lists of rows; nan elevations are None.  Simplified: the values are numbers (a nan makes the pixels it falls in nan), each layer of values is a list of rows; tiles that are rescaled (scipy.ndimage.zoom) are modelled (OtherError, for UnboundLocalError) only if values is None, see camera.py:1062-1067: tile_values is not yet assigned; rescaled values are not modelled.  Tiles are not rescaled with the default scale_limits (1, 1); the progress bar is omitted.  The processes of a pool finish in any order: [arrival]. *)
From Verif Require Import Base HelpersModel GridModel CameraModel GetitemModel.
Open Scope R_scope.

(** a layer of the image: one layer of values, or the depth *)
Inductive band := BValue (v : list (list R)) | BDepth.

Definition at2 {A} (d : A) (rows : list (list A)) (r c : Z) : A := zat d (zat [] rows r) c.
Definition pairs (rows cols : list Z) : list (Z * Z) := flat_map (fun r => map (fun c => (r, c)) cols) rows.
Fixpoint somes {A} (l : list (option A)) : list A := match l with [] => [] | Some x :: l => x :: somes l | None :: l => somes l end.

(** camera.py:1053-1055: cells per pixel at the mean distance, between the limits *)
Definition tile_scale (c : cam) (scale : R) (limits : R * R) (tile : sraster) (mean_xyz : vec3) : R :=
  let depth := snd (xyz_to_xy c false mean_xyz) in
  let d := (Rabs (fst (gd (s_grid tile))) + Rabs (snd (gd (s_grid tile)))) / 2 in
  let t := scale * d / (depth / ((f_ c 0 + f_ c 1) / 2)) in
  Rmin (Rmax t (Rmin (fst limits) (snd limits))) (Rmax (fst limits) (snd limits)).

(** camera.py:1033-1096 for one tile (pair of slices of rows and columns) and one layer: flat indices of pixels and their values, or nothing *)
Definition process (c : cam) (dem : sraster) (mask : list (list bool)) (scale : R) (limits : R * R) (b : band) (t : (Z * Z) * (Z * Z)) : result (option (list Z * list R)) :=
  let '((r0, r1), (c0, c1)) := t in
  let* rows := positions (gny (s_grid dem)) (Some r0) (Some r1) None in
  let* cols := positions (gnx (s_grid dem)) (Some c0) (Some c1) None in
  let tile_mask := map (fun p => map (zat false (zat [] mask p)) cols) rows in
  let sel := filter (fun p => at2 false tile_mask (fst p) (snd p)) (pairs (Zrange (Z.of_nat (length rows))) (Zrange (Z.of_nat (length cols)))) in
  match sel with
  | [] => Ok None                                                                    (* 1037-1039 *)
  | _ =>
    let* tile := getitem dem (ISlice (Some r0) (Some r1) None) (ISlice (Some c0) (Some c1) None) in
    match somes (map (fun p => at2 None (s_rows tile) (fst p) (snd p)) sel) with
    | [] => Ok None                                                                  (* 1049-1051 *)
    | zs =>
      let mid (l : R * R) := (fst l + snd l) / 2 in
      let s := tile_scale c scale limits tile (mid (gxlim (s_grid tile)), mid (gylim (s_grid tile)), sumR zs / IZR (Z.of_nat (length zs))) in
      if negb (Reqb s 1) then Err OtherError else
      let* x := sx tile in
      let* y := sy tile in
      let xyz (p : Z * Z) : option vec3 := option_map (fun z => (zat 0 x (snd p), zat 0 y (fst p), z)) (at2 None (s_rows tile) (fst p) (snd p)) in
      let uv (p : Z * Z) : option vec2 := match xyz p with Some q => xyz_to_uv c false q | None => None end in
      let value (p : Z * Z) : R :=
        match b with
        | BValue v => at2 0 (map (fun q => map (zat 0 (zat [] v q)) cols) rows) (fst p) (snd p)
        | BDepth => match xyz p with Some q => snd (xyz_to_xy c false q) | None => 0 end   (* not in frame *)
        end in
      match filter (fun p => inframe c (uv p)) sel with
      | [] => Ok None                                                                (* 1077-1079 *)
      | is_in =>
        let rr p := match uv p with Some (u, v) => Rtrunc v | None => 0%Z end in
        let cc p := match uv p with Some (u, v) => Rtrunc u | None => 0%Z end in
        let* (fidx, means) := rasterize_points (map rr is_in) (map cc is_in) (map value is_in) (nth 1 (get_imgsz c) 0%Z, nth 0 (get_imgsz c) 0%Z) in
        Ok (Some (fidx, means))
      end
    end
  end.

(** camera.py:1098-1104: array[idx] = values *)
Definition reduce (a : list (option R)) (r : option (list Z * list R)) : list (option R) :=
  match r with None => a | Some (fidx, means) => fold_left (fun acc p => set_nth (Z.to_nat (fst p)) (Some (snd p)) acc) (combine fidx means) a end.

Definition has_shape {A} (g : grid) (m : list (list A)) : bool := (Nat.eqb (length m) (Z.to_nat (gny g)) && forallb (fun row => Nat.eqb (length row) (Z.to_nat (gnx g))) m)%bool.

(** camera.py:1012-1107: the layers of the image, each flattened by rows.  [arrival]: the order in which the tiles are done *)
Definition project_dem (c : cam) (dem : sraster) (values : option (list (list (list R)))) (mask : option (list (list bool))) (tile_size overlap : Z * Z) (scale : R) (limits : R * R) (return_depth : bool) (arrival : list nat) : result (list (list (option R))) :=
  let* bands := match values with
    | Some vs => if forallb (has_shape (s_grid dem)) vs then Ok (map BValue vs ++ (if return_depth then [BDepth] else [])) else Err ValueError
    | None => if return_depth then Ok [BDepth] else Err ValueError
    end in
  let mask := match mask with Some m => m | None => map (map (fun z : option R => match z with Some _ => true | None => false end)) (s_rows dem) end in
  if negb (has_shape (s_grid dem) mask) then Err ValueError else
  let* tiles := tile_indices (s_grid dem) tile_size overlap in
  let blank := repeat None (Z.to_nat (nth 1 (get_imgsz c) 0%Z * nth 0 (get_imgsz c) 0%Z)) in
  mapM (fun b => let* done := mapM (process c dem mask scale limits b) tiles in Ok (fold_left reduce (map (fun k => nth k done None) arrival) blank)) bands.
