(** Model of box_to_grid in all modes (src/glimpse/helpers.py:1239-1311), grid_to_points (1313-1329), box_to_polygon (1217-1237) and Camera.grid (src/glimpse/camera.py:698-739), on HelpersModel and CameraModel.

    Boxes have at least one dimension; a step that is iterable has one value for each dimension. *)
From Coq Require Import String.
From Verif Require Import Base HelpersModel CameraModel.
Notation length := List.length.
Open Scope R_scope.

(** all combinations, the last axis fastest *)
Fixpoint product (axes : list (list R)) : list (list R) :=
  match axes with [] => [[]] | a :: r => flat_map (fun x => map (cons x) (product r)) a end.
(** numpy.meshgrid (indexing "xy"): arrays of shape (n2, n1, n3, ...), here as their values in C order: coordinates at each place *)
Definition mesh_places (axes : list (list R)) : list (list R) :=
  match axes with
  | a :: b :: r => flat_map (fun y => flat_map (fun x => map (fun z => x :: y :: z) (product r)) a) b
  | _ => product axes
  end.
Definition mesh_shape (axes : list (list R)) : list nat :=
  match axes with a :: b :: r => length b :: length a :: map (@length R) r | _ => map (@length R) axes end.
Definition meshgrid (axes : list (list R)) : list (list R) := map (fun i => map (fun p => nth i p 0) (mesh_places axes)) (seq 0 (length axes)).
(** helpers.py:1313-1329: numpy.reshape(grid, (len(grid), -1)).T; the arrays in C order, all of the same size *)
Definition grid_to_points (grid : list (list R)) : list (list R) := map (fun k => map (fun g => nth k g 0) grid) (seq 0 (length (hd [] grid))).
Inductive gridded := Vectors (v : list (list R)) | Grids (shape : list nat) (g : list (list R)) | GPoints (p : list (list R)).
Inductive step_arg := Step (s : R) | Steps (s : list R).
(** helpers.py:1290-1311 *)
Definition box_to_grid (box : list R) (step : step_arg) (snap : option (list R)) (mode : string) : result gridded :=
  let* (lo, _) := unravel_box box in
  let step := match step with Step s => repeat s (length lo) | Steps s => s end in
  let* arrays := box_to_grid_vectors box step snap in
  if String.eqb mode "vectors" then Ok (Vectors arrays)
  else if String.eqb mode "grids" then Ok (Grids (mesh_shape arrays) (meshgrid arrays))
  else if String.eqb mode "points" then Ok (GPoints (grid_to_points (meshgrid arrays)))
  else Err ValueError.
(** camera.py:698-739 *)
Definition camera_grid (c : cam) (step : step_arg) (snap : list R) (mode : string) : result gridded :=
  box_to_grid [0; 0; nth 0 (imgszR c) 0; nth 1 (imgszR c) 0] step (Some snap) mode.
(** helpers.py:1217-1237 *)
Definition box_to_polygon (box : list R) : result (list (R * R)) :=
  let* (lo, hi) := unravel_box box in
  let b (i j : nat) := nth j (match i with O => lo | _ => hi end) 0 in
  Ok [(b 0 0, b 0 1); (b 0 0, b 1 1); (b 1 0, b 1 1); (b 1 0, b 0 1); (b 0 0, b 0 1)]%nat.
