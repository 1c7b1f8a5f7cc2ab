(** What a horizon is, independently of the model's code (C92). *)
From Verif Require Import Base GridModel GridSpec GetitemModel.
Open Scope R_scope.

(** the array has one row per grid row and one value per grid column *)
Definition rows_fit (r : sraster) : Prop := Z.of_nat (length (s_rows r)) = gny (s_grid r) /\ Forall (fun row => Z.of_nat (length row) = gnx (s_grid r)) (s_rows r).
(** the elevation of cell (row, column); None: nan *)
Definition elev (r : sraster) (p : Z * Z) : option R := nth (Z.to_nat (snd p)) (nth (Z.to_nat (fst p)) (s_rows r) []) None.
Definition in_grid (g : grid) (p : Z * Z) : Prop := (0 <= fst p < gny g)%Z /\ (0 <= snd p < gnx g)%Z.
(** cell p contains the point (x, y) *)
Definition cell_has (g : grid) (p : Z * Z) (x y : R) : Prop := in_grid g p /\ in_cell (xaxis g) (snd p) x /\ in_cell (yaxis g) (fst p) y.

(** The cells in sight from (x, y) in cell [start] at heading h (degrees clockwise from north): those of the digital line from [start], exclusive, to the cell where the ray leaves the grid: one cell per step along the longer side, each within half a cell of the line between the two ends. *)
Definition sightline (g : grid) (x y : R) (start : Z * Z) (h : R) (cells : list (Z * Z)) : Prop :=
  exists t stop, 0 <= t
    /\ (forall u, 0 <= u -> ((in_axis (xaxis g) (x + u * sin (h * PI / 180)) /\ in_axis (yaxis g) (y + u * cos (h * PI / 180))) <-> u <= t))
    /\ cell_has g stop (x + t * sin (h * PI / 180)) (y + t * cos (h * PI / 180))
    /\ (let dr := (fst stop - fst start)%Z in let dc := (snd stop - snd start)%Z in let n := Z.max (Z.abs dr) (Z.abs dc) in
        Z.of_nat (length cells) = n
        /\ forall i r c, nth_error cells i = Some (r, c) -> in_grid g (r, c)
             /\ (if (Z.abs dc <? Z.abs dr)%Z then r = (fst start + (Z.of_nat i + 1) * Z.sgn dr)%Z else c = (snd start + (Z.of_nat i + 1) * Z.sgn dc)%Z)
             /\ (2 * Z.abs ((r - fst start) * dc - (c - snd start) * dr) <= n)%Z).

(** the tangent of the angle at which the center of cell p, of elevation z, is seen from (x, y, z0) *)
Definition slope (g : grid) (cor : R -> R) (o : R * R * R) (p : Z * Z) (z : R) : R :=
  let '(x, y, z0) := o in
  let d2 := (center (xaxis g) (snd p) - x) ^ 2 + (center (yaxis g) (fst p) - y) ^ 2 in (z - z0 + cor d2) / sqrt d2.
(** cell i of the line is the first of those seen at the greatest angle *)
Definition highest (r : sraster) (cor : R -> R) (o : R * R * R) (cells : list (Z * Z)) (i : nat) (p : Z * Z) (z : R) : Prop :=
  nth_error cells i = Some p /\ elev r p = Some z
  /\ forall j q w, nth_error cells j = Some q -> elev r q = Some w ->
       slope (s_grid r) cor o q w <= slope (s_grid r) cor o p z /\ ((j < i)%nat -> slope (s_grid r) cor o q w < slope (s_grid r) cor o p z).
(** the point of the horizon on a line: the highest cell, unless no valid cell follows it *)
Definition horizon_point (r : sraster) (cor : R -> R) (o : R * R * R) (cells : list (Z * Z)) (h : option (R * R * R)) : Prop :=
  exists i p z, highest r cor o cells i p z /\
    let followed := exists j q w, (i < j)%nat /\ nth_error cells j = Some q /\ elev r q = Some w in
    (followed /\ h = Some (center (xaxis (s_grid r)) (snd p), center (yaxis (s_grid r)) (fst p), z)) \/ (~ followed /\ h = None).
(** the line crosses a valid cell *)
Definition sees (r : sraster) (cells : list (Z * Z)) : Prop := exists p z, In p cells /\ elev r p = Some z.

(** the maximal runs of consecutive headings with a point, the last and the first being one run if both ends have a point *)
Definition circular_runs {A} (pts : list (option A)) (segs : list (list (option A))) : Prop :=
  exists runs : list (bool * list (option A)), concat (map snd runs) = pts
    /\ (forall b l, In (b, l) runs -> l <> [] /\ forall p, In p l -> (b = true <-> p <> None))
    /\ (forall i r s, nth_error runs i = Some r -> nth_error runs (S i) = Some s -> fst r <> fst s)
    /\ (forall m p mid q, runs = (m, p) :: mid ++ [(m, q)] -> segs = map snd (filter (fun r => fst r) ((m, q ++ p) :: mid)))
    /\ ((forall m p mid q, runs <> (m, p) :: mid ++ [(m, q)]) -> segs = map snd (filter (fun r => fst r) runs)).
