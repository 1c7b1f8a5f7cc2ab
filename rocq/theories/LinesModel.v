(** Model of the projection of world lines by optimize.Lines (src/glimpse/optimize.py:319-375: _xyzs_to_uvs and predicted), on CameraModel, HelpersModel (boolean_split), RayModel (clip_polyline_box), LineModel (interpolate_line) and ControlModel.

    Focal lengths and image size are not zero (divisions by zero give inf or nan).  numpy.argsort, used by interpolate_line, is a parameter. *)
From Verif Require Import Base HelpersModel RayModel LineModel CameraModel ControlModel.
Open Scope R_scope.

Definition list_of2 (p : vec2) : list R := [fst p; snd p].
Definition pair_of (p : list R) : vec2 := (nth 0 p 0, nth 1 p 0).
(** optimize.py:326: python refuses 1 / 0 *)
Definition lines_step (c : cam) (density : R) : result R :=
  if Reqb density 0 then Err OtherError else Ok (1 / density / Rmax (f_ c 0) (f_ c 1)).
(** optimize.py:327-329: numpy.min and numpy.max of the camera coordinates of points on the edges of the image *)
Definition lines_box (c : cam) : result (list R * list R) :=
  let* uv := edges c (nth 0 (imgszR c) 0 / 2) (nth 1 (imgszR c) 0 / 2) in
  let xy := map list_of2 (map (uv_to_xy c) uv) in
  let* lo := colwise Rmin xy in
  let* hi := colwise Rmax xy in
  Ok (lo, hi).
Definition isnone {A} (o : option A) : bool := match o with None => true | Some _ => false end.
Fixpoint somes {A} (l : list (option A)) : list A := match l with [] => [] | Some x :: l => x :: somes l | None :: l => somes l end.
(** optimize.py:334-337: the parts of a world line in front of the camera, in camera coordinates *)
Definition front_lines (c : cam) (directions : bool) (xyz : list vec3) : result (list (list vec2)) :=
  let xy := map (fun p => fst (xyz_to_xy c directions p)) xyz in
  let* runs := boolean_split xy (map isnone xy) false IncFalse in
  Ok (map somes runs).
(** optimize.py:341-347 *)
Definition line_points (argsort : list R -> list nat) (c : cam) (step : R) (lo hi : list R) (line : list vec2) : result (list (list vec2)) :=
  let* clines := clip_polyline_box false (map list_of2 line) lo hi in
  mapM (fun cline => let* pts := interpolate_line argsort 2 cline None None None (Some step) true Endpoints in Ok (map (fun p => xy_to_uv c (pair_of p)) pts)) clines.
(** optimize.py:319-352 *)
Definition lines_project (argsort : list R -> list nat) (c : cam) (directions : bool) (density : R) (xyzs : list (list vec3)) : result (list (list vec2)) :=
  let* step := lines_step c density in
  let* (lo, hi) := lines_box c in
  let* fronts := mapM (front_lines c directions) xyzs in
  let inlines := concat fronts in
  let* puvs := mapM (line_points argsort c step lo hi) inlines in
  match concat puvs with [] => Ok (map (map (xy_to_uv c)) inlines) | puvs => Ok puvs end.
(** optimize.py:354-375.  [position]: the position of the camera when the control was made *)
Definition lines_predict (argsort : list R -> list nat) (c : cam) (position : list R) (directions : bool) (density : R) (xyzs : list (list vec3)) (l : lines) : result (list vec2) :=
  if (directions && differ (get_xyz c) position)%bool then Err ValueError else
  let* puvs := lines_project argsort c directions density xyzs in
  lines_predicted l (concat puvs).
