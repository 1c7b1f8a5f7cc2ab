(** Specification vocabulary for the motion models. *)
From Verif Require Import Base MotionModel.
Open Scope R_scope.

(** a particle with real components: position and velocity *)
Definition pv := (vec3 * vec3)%type.
Definition to_pt (s : pv) : pt :=
  let '((x, y, z), (vx, vy, vz)) := s in mkpt (Some x) (Some y) (Some z) (Some vx) (Some vy) (Some vz).
Definition add3 (a b : vec3) : vec3 := let '(a0, a1, a2) := a in let '(b0, b1, b2) := b in (a0 + b0, a1 + b1, a2 + b2).
Definition mul3 (k : R) (a : vec3) : vec3 := let '(a0, a1, a2) := a in (k * a0, k * a1, k * a2).
(** the independent normal variables: mean + sigma * draw, component by component *)
Definition had3 (a b : vec3) : vec3 := let '(a0, a1, a2) := a in let '(b0, b1, b2) := b in (a0 * b0, a1 * b1, a2 * b2).
Definition drawn3 (m s e : vec3) : vec3 := add3 m (had3 s e).
Definition drawn2 (m s e : vec2) : vec2 := (fst m + fst s * fst e, snd m + snd s * snd e).

(** uniformly accelerated motion during t *)
Definition uniform (t : R) (a : vec3) (s : pv) : pv :=
  (add3 (fst s) (add3 (mul3 t (snd s)) (mul3 (t ^ 2 / 2) a)), add3 (snd s) (mul3 t a)).
(** horizontal displacement *)
Definition hshift (t : R) (a : vec2) (s : pv) : vec2 :=
  let '(_, (vx, vy, _)) := s in (t * vx + fst a * t ^ 2 / 2, t * vy + snd a * t ^ 2 / 2).
Definition hpos (s : pv) : vec2 := let '((x, y, _), _) := s in (x, y).
Definition height (s : pv) : R := let '((_, _, z), _) := s in z.
Definition add2 (a b : vec2) : vec2 := (fst a + fst b, snd a + snd b).
Definition hypot (a : vec2) : R := sqrt (fst a ^ 2 + snd a ^ 2).
(** uniformly accelerated horizontally, the height above the surface [elev] changes by [dz] only *)
Definition along (elev : vec2 -> R) (t : R) (a : vec2) (dz : R) (s : pv) : pv :=
  let q := add2 (hpos s) (hshift t a s) in
  let '(_, (vx, vy, vz)) := s in
  ((fst q, snd q, elev q + (height s - elev (hpos s)) + dz), (vx + t * fst a, vy + t * snd a, vz)).

(** [d.sample([(x, y)])] returns v *)
Definition samples (d : RasterModel.raster) (q : vec2) (v : option R) : Prop :=
  exists d', RasterModel.sample true true None (fst q) (snd q) d = Ok (v, d').
Definition outside (d : RasterModel.raster) (q : vec2) : Prop :=
  RasterModel.sample true true None (fst q) (snd q) d = Err ValueError.

(** horizontal speed *)
Definition speed (s : pv) : R := let '(_, (vx, vy, _)) := s in sqrt (vx ^ 2 + vy ^ 2).
(** acceleration of polar components: ar along the velocity, speed * ath across it (to the left), az up *)
Definition polar (s : pv) (c : vec3) : vec3 :=
  let '(ar, ath, az) := c in
  let '(_, (vx, vy, _)) := s in
  (ar * (vx / speed s) + ath * - vy, ar * (vy / speed s) + ath * vx, az).
(** its horizontal part *)
Definition polar2 (s : pv) (c : vec2) : vec2 := let '(ax, ay, _) := polar s (fst c, snd c, 0) in (ax, ay).
(** rotation about the vertical axis *)
Definition rot3 (f : R) (a : vec3) : vec3 := let '(x, y, z) := a in (cos f * x - sin f * y, sin f * x + cos f * y, z).
Definition rotate (f : R) (s : pv) : pv := (rot3 f (fst s), rot3 f (snd s)).
