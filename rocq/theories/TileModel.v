(** Model of helpers.normalize (helpers.py:311-331) and Tracker.extract_tile (track/tracker.py:494-534).

    Arrays are flat lists of pixels.  The median filter (scipy.ndimage.filters.median_filter with the options highpass) is a parameter. *)
From Verif Require Import Base HelpersModel.
Open Scope R_scope.

(** numpy mean and standard deviation *)
Definition variance (l : list R) : R := mean (map (fun x => (x - mean l) ^ 2) l).
Definition std (l : list R) : R := sqrt (variance l).
(** helpers.py:331.  None: all values are nan (a - a.mean() is 0 and 1 / a.std() is inf), or the array is empty *)
Definition normalize (a : list R) : option (list R) :=
  if Reqb (std a) 0 then None else Some (map (fun x => (x - mean a) * (1 / std a)) a).

(** the array read from the image: one value per pixel, or one per band *)
Inductive raw := Gray (l : list R) | Color (l : list (list R)).
(** tracker.py:523-524 *)
Definition gray (r : raw) : list R := match r with Gray l => l | Color l => map mean l end.
(** helpers.compute_cdf without inverse *)
Definition cdf_of (a : list R) : list R * list R := let '(v, q, _) := compute_cdf a in (v, q).
(** tracker.py:523-534: the tile and its histogram (which is returned on request).  None: a tile of nan *)
Definition extract_tile (median : list R -> list R) (histogram : option (list R * list R)) (r : raw) : result (option (list R * (list R * list R))) :=
  match normalize (gray r) with
  | None => Ok None
  | Some t =>
    let* t := match histogram with None => Ok t | Some h => match_cdf t h end in
    Ok (Some (map2 Rminus t (median t), cdf_of t))
  end.
