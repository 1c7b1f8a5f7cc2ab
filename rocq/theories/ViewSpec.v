(** Specification vocabulary for viewsheds.  Cells are numbered row by row:
    cell k of a grid with nx columns is in row k / nx and column k mod nx. *)
From Verif Require Import Base HelpersModel CameraModel GridModel GridSpec.
Open Scope R_scope.

Section View.
  Variables (g : grid) (vals : list (option R)) (ox oy oz : R) (cor : R -> R).
  Let nx := Z.to_nat (gnx g).
  Definition east (k : nat) : R := center (xaxis g) (Z.of_nat (k mod nx)) - ox.
  Definition north (k : nat) : R := center (yaxis g) (Z.of_nat (k / nx)) - oy.
  (** horizontal distance from the viewpoint to the center of cell k *)
  Definition distance (k : nat) : R := sqrt (east k ^ 2 + north k ^ 2).
  (** cells at the same distance, to the nearest cell width, form a ring *)
  Definition ring (k : nat) : Z := Rfloor (distance k / Rabs (dcell (xaxis g)) + / 2).
  Definition azimuth (k : nat) : R := atan2 (north k) (east k).
  (** slope of the line of sight to a cell of elevation z *)
  Definition slope_to (k : nat) (z : R) : R := (z - oz + cor (distance k ^ 2)) / distance k.
  Definition slope (k : nat) : option R := option_map (slope_to k) (nth k vals None).
  Definition is_cell (k : nat) : Prop := (k < length vals)%nat.
  (** i is a cell of ring p seen first when turning from heading h one way, j the other way *)
  Definition turn (a b : R) : R := Rmod (b - a) (2 * PI).
  Definition neighbour_before (p : Z) (h : R) (i : nat) : Prop :=
    is_cell i /\ ring i = p /\ forall k, is_cell k -> ring k = p -> turn (azimuth i) h <= turn (azimuth k) h.
  Definition neighbour_after (p : Z) (h : R) (j : nat) : Prop :=
    is_cell j /\ ring j = p /\ forall k, is_cell k -> ring k = p -> turn h (azimuth j) <= turn h (azimuth k).
  (** p is the last non-empty ring before ring q (the ring of the viewpoint itself, 0, does not count) *)
  Definition preceding_ring (p q : Z) : Prop :=
    (0 < p < q)%Z /\ (exists k, is_cell k /\ ring k = p) /\ forall k, is_cell k -> (ring k <= p \/ q <= ring k)%Z.
  Definition first_ring (q : Z) : Prop :=
    (0 < q)%Z /\ forall k, is_cell k -> (ring k = 0 \/ q <= ring k)%Z.
End View.
