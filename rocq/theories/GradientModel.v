(** Model of Raster.gradient (src/glimpse/raster.py:1465-1474) and Raster.hillshade (1247-1262).

    Simplified: two-dimensional arrays of exact reals without nan.  numpy.gradient with scalar spacings and matplotlib.colors.LightSource.hillshade (version 3: vert_exag = 1) are modelled after their documentation and source; they are not in /repo. *)
From Verif Require Import Base HelpersModel GridModel.
Open Scope R_scope.

(** an array: its shape and its values by (row, column) *)
Record field := mkfield { fny : nat; fnx : nat; fz : nat -> nat -> R }.
(** numpy.gradient along one axis of length n: central differences inside, one-sided differences at the ends *)
Definition difference (n : nat) (h : R) (f : nat -> R) (i : nat) : R :=
  if (i =? 0)%nat then (f 1%nat - f 0%nat) / h
  else if (i =? n - 1)%nat then (f (n - 1)%nat - f (n - 2)%nat) / h
  else (f (i + 1)%nat - f (i - 1)%nat) / (2 * h).
(** numpy.gradient(z, h0, h1): derivatives along rows and along columns; ValueError if an axis has fewer than 2 elements *)
Definition np_gradient (z : field) (h0 h1 : R) : result ((nat -> nat -> R) * (nat -> nat -> R)) :=
  if ((fny z <? 2)%nat || (fnx z <? 2)%nat)%bool then Err ValueError else
  Ok (fun i j => difference (fny z) h0 (fun k => fz z k j) i, fun i j => difference (fnx z) h1 (fun k => fz z i k) j).

(** raster.py:1473-1474: (dz/dx, dz/dy) *)
Definition gradient (z : field) (g : grid) : result ((nat -> nat -> R) * (nat -> nat -> R)) :=
  let* (dzdy, dzdx) := np_gradient z (snd (gd g)) (fst (gd g)) in Ok (dzdx, dzdy).

(** all values of an array *)
Definition values (ny nx : nat) (f : nat -> nat -> R) : list R := flat_map (fun i => map (f i) (seq 0 nx)) (seq 0 ny).
Definition minimum (l : list R) : R := fold_right Rmin (hd 0 l) l.
Definition maximum (l : list R) : R := fold_right Rmax (hd 0 l) l.
Definition clip01 (x : R) : R := Rmin (Rmax x 0) 1.

(** LightSource.direction (azdeg clockwise from north, altdeg up from the horizon) *)
Definition direction3 (azdeg altdeg : R) : R * R * R :=
  let az := (90 - azdeg) * PI / 180 in let alt := altdeg * PI / 180 in (cos az * cos alt, sin az * cos alt, sin alt).
Definition dot (a b : R * R * R) : R := let '(a1, a2, a3) := a in let '(b1, b2, b3) := b in a1 * b1 + a2 * b2 + a3 * b3.
(** LightSource.hillshade(z, dx, dy, fraction) and shade_normals: dy is negated ("the first row is the top of the image"), intensities are stretched to the range from 0 to 1 unless they are all alike *)
Definition ls_hillshade (azdeg altdeg : R) (z : field) (dx dy fraction : R) : result (nat -> nat -> R) :=
  let dy := - dy in
  let* (e_dy, e_dx) := np_gradient z dy dx in
  let intensity i j :=
    let n := (- e_dx i j, - e_dy i j, 1) in
    dot n (direction3 azdeg altdeg) / sqrt (dot n n) in
  let all := values (fny z) (fnx z) intensity in
  let imin := minimum all in let imax := maximum all in
  let intensity i j := intensity i j * fraction in
  let stretched i j := if Rltb (/ 1000000) (imax - imin) then (intensity i j - imin) / (imax - imin) else intensity i j in
  Ok (fun i j => clip01 (stretched i j)).
(** raster.py:1261-1262 *)
Definition hillshade (z : field) (g : grid) (azimuth altitude fraction : R) : result (nat -> nat -> R) :=
  ls_hillshade azimuth altitude z (fst (gd g)) (snd (gd g)) fraction.
