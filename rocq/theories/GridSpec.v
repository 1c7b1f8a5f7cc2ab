(** Specification vocabulary for Grid / Raster geometry.  An axis has limits
    (first, last) - increasing or decreasing - divided in [n] equal cells. *)
From Verif Require Import Base GridModel.
Open Scope R_scope.

Definition axis_ok (a : axis) : Prop := fst (fst a) <> snd (fst a) /\ (1 <= snd a)%Z.
(** what the limit and size setters guarantee *)
Definition grid_ok (g : grid) : Prop := axis_ok (xaxis g) /\ axis_ok (yaxis g).

(** position at [t] cell widths from the first limit; cell k spans edges k and k+1 *)
Definition at_cells (a : axis) (t : R) : R :=
  fst (fst a) + t * ((snd (fst a) - fst (fst a)) / IZR (snd a)).
Definition edge (a : axis) (k : Z) : R := at_cells a (IZR k).
Definition center (a : axis) (k : Z) : R := at_cells a (IZR k + / 2).
(** x is in the closed / open interval spanned by cell k *)
Definition between (p q x : R) : Prop := Rmin p q <= x <= Rmax p q.
Definition in_cell (a : axis) (k : Z) (x : R) : Prop := between (edge a k) (edge a (k + 1)) x.
Definition inside_cell (a : axis) (k : Z) (x : R) : Prop :=
  Rmin (edge a k) (edge a (k + 1)) < x < Rmax (edge a k) (edge a (k + 1)).
Definition in_axis (a : axis) (x : R) : Prop := between (fst (fst a)) (snd (fst a)) x.

(** Python semantics of the slice start:stop on a sequence of length n *)
Definition slice_bound (n i : Z) : Z := if (i <? 0)%Z then Z.max 0 (n + i) else Z.min i n.
Definition in_slice (n : Z) (s : Z * Z) (k : Z) : Prop :=
  (slice_bound n (fst s) <= k < slice_bound n (snd s))%Z.

(** the requested limits of a crop, in either order; the whole axis by default *)
Definition request (o : option (R * R)) (a : axis) : R * R := match o with Some l => l | None => fst a end.
(** x is strictly within the requested limits *)
Definition requested (l : R * R) (x : R) : Prop := Rmin (fst l) (snd l) < x < Rmax (fst l) (snd l).
Definition overlaps (l : R * R) (a : axis) : Prop := exists x, requested l x /\ requested (fst a) x.
(** cell k is one of the cells of the grid that the request intersects *)
Definition cell_hit (l : R * R) (a : axis) (k : Z) : Prop :=
  (0 <= k < snd a)%Z /\ exists x, inside_cell a k x /\ requested l x.

(** tile = (row slice, column slice) contains cell (r, c) *)
Definition tile_covers (g : grid) (t : (Z * Z) * (Z * Z)) (r c : Z) : Prop :=
  in_slice (gny g) (fst t) r /\ in_slice (gnx g) (snd t) c.
(** a slice extended by the overlap toward lower indices (the first one is not) *)
Definition extend (ov : Z) (s : Z * Z) : Z * Z := (if (fst s =? 0)%Z then 0%Z else (fst s - ov)%Z, snd s).
