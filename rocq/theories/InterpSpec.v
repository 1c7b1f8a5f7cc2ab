(** Specification vocabulary for raster time series. *)
From Verif Require Import Base.
Open Scope R_scope.
(** node i is the last one at or before xi, node j the first one at or after it *)
Definition last_before (x : list R) (xi : R) (i : nat) : Prop :=
  (i < length x)%nat /\ nth i x 0 <= xi /\ forall k, (k < length x)%nat -> nth k x 0 <= xi -> nth k x 0 <= nth i x 0.
Definition first_after (x : list R) (xi : R) (j : nat) : Prop :=
  (j < length x)%nat /\ xi <= nth j x 0 /\ forall k, (k < length x)%nat -> xi <= nth k x 0 -> nth j x 0 <= nth k x 0.
Definition bounded (x : list R) (xi : R) : Prop := (exists a, In a x /\ a <= xi) /\ (exists b, In b x /\ xi <= b).
(** i and j are two of the nearest nodes *)
Definition two_nearest (x : list R) (xi : R) (i j : nat) : Prop :=
  (i < length x)%nat /\ (j < length x)%nat /\ i <> j /\
  forall k, (k < length x)%nat -> k <> i -> k <> j ->
    Rabs (nth i x 0 - xi) <= Rabs (nth k x 0 - xi) /\ Rabs (nth j x 0 - xi) <= Rabs (nth k x 0 - xi).
(** straight line through (x0, z0) and (x1, z1) *)
Definition line (x0 z0 x1 z1 xi : R) : R := z0 + (z1 - z0) * ((xi - x0) / (x1 - x0)).
