(** Model of RasterInterpolant (src/glimpse/raster.py:1528-1771).

    Observation coordinates [x] are reals; [dt] says whether they are
    datetimes (then [x] counts microseconds), which changes what a division by zero does.
    Simplified: the means (and sigmas) are rasters in memory with one common
    grid of square cells, d, xlim, ylim, zlim and fun are not given, so that no raster is
    cropped, resized or resampled (raster.py:1740-1768); rasters are then lists
    of cell values, None = nan.  The target cell size is modelled separately ([parse_resize]). *)
From Verif Require Import Base HelpersModel.
Open Scope R_scope.

(** numpy.where(mask)[0] *)
Definition where_ (m : list bool) : list nat := map fst (filter snd (combine (seq 0 (length m)) m)).
(** stable argsort (numpy's default sort for up to 16 elements is an insertion sort) *)
Fixpoint insert_by (key : nat -> R) (i : nat) (l : list nat) : list nat :=
  match l with
  | [] => [i]
  | j :: r => if Rltb (key j) (key i) || Reqb (key j) (key i) then j :: insert_by key i r else i :: l
  end.
Definition argsort (v : list R) : list nat :=
  fold_left (fun acc i => insert_by (fun k => nth k v 0) i acc) (seq 0 (length v)) [].

(** raster.py:1656-1671 *)
Definition nearest (extrapolate : bool) (x : list R) (xi : R) : result (nat * nat) :=
  let dx := map (fun v => v - xi) x in
  match dx with
  | [] => Err IndexError                                   (* dx[0] *)
  | _ =>
    let* (i, j) :=
      if extrapolate then
        match argsort (map Rabs dx) with i :: j :: _ => Ok (i, j) | _ => Err ValueError end
      else
        let before := where_ (map (fun v => Rleb v 0) dx) in
        let after := where_ (map (fun v => Rleb 0 v) dx) in
        match before, after with
        | [], _ | _, [] => Err ValueError
        | _, _ =>
          let* a := argmin Rltb (map (fun k => Rabs (nth k dx 0)) before) in
          let* b := argmin Rltb (map (fun k => nth k dx 0) after) in
          Ok (nth a before 0%nat, nth b after 0%nat)
        end in
    (* ij.sort(key=x): stable *)
    Ok (if Rltb (nth j x 0) (nth i x 0) then (j, i) else (i, j))
  end.

(** nan-propagating arithmetic *)
Definition olift2 (f : R -> R -> R) (a b : option R) : option R :=
  match a, b with Some u, Some v => Some (f u v) | _, _ => None end.

(** raster.py:1683: (xi - x[0]) / dx.  Zero divided by zero is nan for
    numbers and raises for datetimes; a non-zero number divided by zero
    is infinite, which is not modelled. *)
Definition scale_of (dt : bool) (x0 x1 xi : R) : result (option R) :=
  if Reqb (x1 - x0) 0 then
    if dt then Err ZeroDivisionError else if Reqb (xi - x0) 0 then Ok None else Err OtherError
  else Ok (Some ((xi - x0) / (x1 - x0))).
(** raster.py:1681-1684, one cell *)
Definition mean_cell (scale : option R) (z0 z1 : option R) : option R :=
  olift2 Rplus z0 (olift2 Rmult (olift2 Rminus z1 z0) scale).
(** raster.py:1687-1697, one cell; [near]: distance to the nearest of the two coordinates *)
Definition sigma_cell (scale : option R) (near dx : R) (z0 z1 s0 s1 : option R) : option R :=
  match scale, z0, z1, s0, s1 with
  | Some t, Some z0, Some z1, Some s0, Some s1 =>
      Some (sqrt ((s0 ^ 2 + t ^ 2 * (s0 ^ 2 + s1 ^ 2)) + ((1 / 3) * (z1 - z0) * (near / dx)) ^ 2))
  | _, _, _, _, _ => None
  end.
(** raster.py:1739, 1771: [call] without and with return_sigma *)
Definition call (dt extrapolate : bool) (x : list R) (means : list (list (option R))) (xi : R) : result (list (option R)) :=
  let* (i, j) := nearest extrapolate x xi in
  let* t := scale_of dt (nth i x 0) (nth j x 0) xi in
  Ok (map2 (mean_cell t) (nth i means []) (nth j means [])).
(** raster.py:1625-1626: without sigmas, zero *)
Definition call_sigma (dt extrapolate : bool) (x : list R) (means : list (list (option R)))
    (sigmas : option (list (list (option R)))) (xi : R) : result (list (option R)) :=
  let* (i, j) := nearest extrapolate x xi in
  let x0 := nth i x 0 in let x1 := nth j x 0 in
  let* t := scale_of dt x0 x1 xi in
  let near := Rmin (Rabs (xi - x0)) (Rabs (xi - x1)) in
  let sig k := match sigmas with
               | Some s => nth k s []
               | None => map (fun _ => Some 0) (nth k means [])
               end in
  Ok (map2 (fun p q => sigma_cell t near (x1 - x0) (fst p) (fst q) (snd p) (snd q))
        (combine (nth i means []) (sig i)) (combine (nth j means []) (sig j))).

(** raster.py:1577, 1584-1586: size of one axis of a raster of [n] square
    cells of size [d0] after the target cell size [d] was applied (Raster.resize
    -> scipy.ndimage.zoom: int(round(n * zoom))) *)
Definition parse_resize (d : R) (n : Z) (d0 : R) : Z :=
  if Reqb d d0 then n else Rround (IZR n * (d / d0)).
