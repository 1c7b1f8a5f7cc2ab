(** Model of the motion models, src/glimpse/track/motion.py.

    Components of a particle are [option R] (None = nan).  The random numbers of
    [numpy.random.randn] are arguments, one row for each particle.
    Simplified: the caches that [Raster.sample] fills are not threaded through (sampled values do
    not depend on them: raster_sample_history_independent); random number arrays have the right length. *)
From Verif Require Import Base HelpersModel GridModel RasterModel.
Open Scope R_scope.

Notation onum := (option R).
Definition omap2 (f : R -> R -> R) (a b : onum) : onum := match a, b with Some x, Some y => Some (f x y) | _, _ => None end.
Definition osub := omap2 Rminus.
Definition omul := omap2 Rmult.
(** x / y where x = 0 whenever y = 0 (the only division of the module that can meet 0): 0 / 0 = nan *)
Definition odiv (a b : onum) : onum :=
  match a, b with Some x, Some y => if Reqb y 0 then None else Some (x / y) | _, _ => None end.
Definition osqrt (a : onum) : onum := option_map sqrt a.
Definition osq (a : onum) : onum := omul a a.

(** one row (x, y, z, vx, vy, vz) of the particles array *)
Record pt := mkpt { px : onum; py : onum; pz : onum; pvx : onum; pvy : onum; pvz : onum }.
Definition vec3 := (R * R * R)%type.
Definition vec2 := (R * R)%type.
(** mean + sigma * randn *)
Definition normal (m s e : R) : R := m + s * e.
Definition normal2 (m s e : vec2) : vec2 := (normal (fst m) (fst s) (fst e), normal (snd m) (snd s) (snd e)).
Definition normal3 (m s e : vec3) : vec3 :=
  let '(m0, m1, m2) := m in let '(s0, s1, s2) := s in let '(e0, e1, e2) := e in (normal m0 s0 e0, normal m1 s1 e1, normal m2 s2 e2).

(** dt.total_seconds() / time_unit.total_seconds() *)
Definition time_units (dt unit : Z) : result R := if (unit =? 0)%Z then Err ZeroDivisionError else Ok (IZR dt / IZR unit).

(** the dem and dem_sigma arguments: a Raster, a number or None *)
Inductive dem_arg := DRaster (s : raster) | DNumber (v : R) | DNone.
(** [if not isinstance(dem, Raster): dem = Raster(dem)], motion.py:136-141; Raster.__init__ raster.py:643-651:
    a number is an array of one cell with limits (0, size) = (0, 1), and Raster(None) sets the
    limits to None, which _parse_limits rejects (a vector of length one) *)
Definition as_raster (a : dem_arg) : result raster :=
  match a with
  | DRaster s => Ok s
  | DNumber v => new_raster 1 1 [Some v] false [0; 1] [0; 1] false false
  | DNone => let* _ := parse_limits [0] in Err OtherError
  end.
(** dem.sample at one point; a nan coordinate is not in bounds *)
Definition dem_at (s : raster) (x y : onum) : result onum :=
  match x, y with
  | Some x, Some y => let* (v, _) := sample true true None x y s in Ok v
  | _, _ => Err ValueError
  end.

(** positions and velocities after [t] units of time with acceleration a, motion.py:176-179:
    p + (t * v + 0.5 * a * t ** 2), v + t * a *)
Definition move1 (t : R) (p v a : onum) : onum := oadd p (oadd (oscale t v) (omul (oscale (/ 2) a) (Some (t ^ 2)))).
Definition push1 (t : R) (v a : onum) : onum := oadd v (oscale t a).

(** ** Motion, motion.py:41-89 *)
Record base_motion := mk_base { b_xy : vec2; b_unit : Z; b_n : nat; b_vs : vec3 }.
(** motion.py:60-63 *)
Definition base_init (m : base_motion) (noise : list vec3) : list pt :=
  map (fun e => let '(vx, vy, vz) := normal3 (0, 0, 0) (b_vs m) e in
                mkpt (Some (fst (b_xy m))) (Some (snd (b_xy m))) (Some 0) (Some vx) (Some vy) (Some vz)) (firstn (b_n m) noise).
(** motion.py:73-74 *)
Definition base_evolve (m : base_motion) (dt : Z) (ps : list pt) : result (list pt) :=
  let* t := time_units dt (b_unit m) in
  Ok (map (fun p => mkpt (oadd (px p) (oscale t (pvx p))) (oadd (py p) (oscale t (pvy p))) (oadd (pz p) (oscale t (pvz p)))
                         (pvx p) (pvy p) (pvz p)) ps).

(** ** CartesianMotion and CylindricalMotion *)
(** [k_v], [k_a]: vxyz and axyz, or vrthz and arthz *)
Record motion3 := mk_motion3 { k_xy : vec2; k_unit : Z; k_dem : raster; k_dem_sigma : raster; k_n : nat; k_xys : vec2;
  k_v : vec3; k_vs : vec3; k_a : vec3; k_as : vec3 }.
(** motion.py:134-147 and 245-258 *)
Definition new_motion3 (xy : vec2) (unit : Z) (dem dem_sigma : dem_arg) (n : nat) (xys : vec2) (v vs a as_ : vec3) : result motion3 :=
  let* dem := as_raster dem in
  let* ds := as_raster dem_sigma in
  Ok (mk_motion3 xy unit dem ds n xys v vs a as_).
(** the random numbers of one particle at initialization: xy, z, v *)
Definition init_noise := (vec2 * R * vec3)%type.
(** positions, motion.py:157-161 and 268-272 ([self.dem_sigma is not None] always holds, see [as_raster]) *)
Definition init_xyz (m : motion3) (e : init_noise) : result (onum * onum * onum) :=
  let '(exy, ez, _) := e in
  let '(x, y) := normal2 (k_xy m) (k_xys m) exy in
  let* z := dem_at (k_dem m) (Some x) (Some y) in
  let* zs := dem_at (k_dem_sigma m) (Some x) (Some y) in
  Ok (Some x, Some y, oadd z (oscale ez zs)).
(** motion.py:162 *)
Definition cartesian_velocity (m : motion3) (e : init_noise) : vec3 := normal3 (k_v m) (k_vs m) (snd e).
(** motion.py:273-282 *)
Definition cylindrical_velocity (m : motion3) (e : init_noise) : vec3 :=
  let '(r, th, z) := normal3 (k_v m) (k_vs m) (snd e) in (r * cos th, r * sin th, z).
Definition init3 (vel : motion3 -> init_noise -> vec3) (m : motion3) (noise : list init_noise) : result (list pt) :=
  mapM (fun e => let* (xy, z) := init_xyz m e in
                 let '(vx, vy, vz) := vel m e in Ok (mkpt (fst xy) (snd xy) z (Some vx) (Some vy) (Some vz))) (firstn (k_n m) noise).
(** motion.py:149-163 *)
Definition cartesian_init := init3 cartesian_velocity.
(** motion.py:260-283 *)
Definition cylindrical_init := init3 cylindrical_velocity.
(** motion.py:176-179 and 308-311 for one particle *)
Definition advance (t : R) (p : pt) (a : onum * onum * onum) : pt :=
  let '(ax, ay, az) := a in
  mkpt (move1 t (px p) (pvx p) ax) (move1 t (py p) (pvy p) ay) (move1 t (pz p) (pvz p) az)
       (push1 t (pvx p) ax) (push1 t (pvy p) ay) (push1 t (pvz p) az).
(** motion.py:175 *)
Definition cartesian_acc (m : motion3) (p : pt) (e : vec3) : onum * onum * onum :=
  let '(ax, ay, az) := normal3 (k_a m) (k_as m) e in (Some ax, Some ay, Some az).
(** the horizontal acceleration of motion.py:297-305 and 504-513 *)
Definition polar_acc (p : pt) (ar ath : R) : onum * onum :=
  let vr := osqrt (oadd (osq (pvx p)) (osq (pvy p))) in
  (osub (oscale ar (odiv (pvx p) vr)) (oscale ath (pvy p)), oadd (oscale ar (odiv (pvy p) vr)) (oscale ath (pvx p))).
(** motion.py:295-307 *)
Definition cylindrical_acc (m : motion3) (p : pt) (e : vec3) : onum * onum * onum :=
  let '(ar, ath, az) := normal3 (k_a m) (k_as m) e in let '(ax, ay) := polar_acc p ar ath in (ax, ay, Some az).
Definition evolve3 (acc : motion3 -> pt -> vec3 -> onum * onum * onum) (m : motion3) (dt : Z) (noise : list vec3) (ps : list pt) : result (list pt) :=
  let* t := time_units dt (k_unit m) in Ok (map2 (fun p e => advance t p (acc m p e)) ps noise).
(** motion.py:165-179 *)
Definition cartesian_evolve := evolve3 cartesian_acc.
(** motion.py:285-311 *)
Definition cylindrical_evolve := evolve3 cylindrical_acc.
(** motion.py:194-204 for one particle *)
Definition log_likelihood1 (m : motion3) (p : pt) : result onum :=
  let* z := dem_at (k_dem m) (px p) (py p) in
  let* zs := dem_at (k_dem_sigma m) (px p) (py p) in
  Ok (match zs with
      | Some s => if Reqb s 0 then Some 0 else oscale (1 / (2 * s ^ 2)) (osq (osub z (pz p)))
      | None => None
      end).
Definition log_likelihoods (m : motion3) (ps : list pt) : result (list onum) := mapM (log_likelihood1 m) ps.

(** ** TangentCartesianMotion and TangentCylindricalMotion *)
Record motion2 := mk_motion2 { g_xy : vec2; g_unit : Z; g_dem : raster; g_dem_sigma : raster; g_n : nat; g_xys : vec2;
  g_v : vec2; g_vs : vec2; g_a : vec2; g_as : vec2; g_slope : R }.
(** motion.py:363-377 and 454-468 *)
Definition new_motion2 (xy : vec2) (unit : Z) (dem dem_sigma : dem_arg) (n : nat) (xys v vs a as_ : vec2) (slope : R) : result motion2 :=
  let* dem := as_raster dem in
  let* ds := as_raster dem_sigma in
  Ok (mk_motion2 xy unit dem ds n xys v vs a as_ slope).
Definition init_noise2 := (vec2 * R * vec2)%type.
(** motion.py:390 *)
Definition tangent_velocity (m : motion2) (e : init_noise2) : vec2 := normal2 (g_v m) (g_vs m) (snd e).
(** motion.py:481-489 *)
Definition tangent_cyl_velocity (m : motion2) (e : init_noise2) : vec2 :=
  let '(r, th) := normal2 (g_v m) (g_vs m) (snd e) in (r * cos th, r * sin th).
Definition init2 (vel : motion2 -> init_noise2 -> vec2) (m : motion2) (noise : list init_noise2) : result (list pt) :=
  mapM (fun e =>
    let '(exy, ez, _) := e in
    let '(x, y) := normal2 (g_xy m) (g_xys m) exy in
    let* zs := dem_at (g_dem_sigma m) (Some x) (Some y) in
    let* z := dem_at (g_dem m) (Some x) (Some y) in
    let '(vx, vy) := vel m e in
    Ok (mkpt (Some x) (Some y) (oadd z (oscale ez zs)) (Some vx) (Some vy) (Some 0))) (firstn (g_n m) noise).
(** motion.py:379-391 *)
Definition tangent_init := init2 tangent_velocity.
(** motion.py:470-490 *)
Definition tangent_cyl_init := init2 tangent_cyl_velocity.
(** motion.py:403 *)
Definition tangent_acc (m : motion2) (p : pt) (e : vec2) : onum * onum :=
  let '(ax, ay) := normal2 (g_a m) (g_as m) e in (Some ax, Some ay).
(** motion.py:502-513 *)
Definition tangent_cyl_acc (m : motion2) (p : pt) (e : vec2) : onum * onum :=
  let '(ar, ath) := normal2 (g_a m) (g_as m) e in polar_acc p ar ath.
(** t * v + 0.5 * a * t ** 2 *)
Definition shift1 (t : R) (v a : onum) : onum := oadd (oscale t v) (omul (oscale (/ 2) a) (Some (t ^ 2))).
(** motion.py:401-412 and 500-522, in place: the particles left behind and the outcome.
    The random numbers of one particle: acceleration, slope. *)
Definition evolve2 (acc : motion2 -> pt -> vec2 -> onum * onum) (m : motion2) (dt : Z) (noise : list (vec2 * R)) (ps : list pt)
  : list pt * result unit :=
  match time_units dt (g_unit m) with
  | Err e => (ps, Err e)
  | Ok t =>
    let axy := map2 (fun p e => acc m p (fst e)) ps noise in
    let dxy := map2 (fun p a => (shift1 t (pvx p) (fst a), shift1 t (pvy p) (snd a))) ps axy in
    match mapM (fun p => dem_at (g_dem m) (px p) (py p)) ps with
    | Err e => (ps, Err e)
    | Ok zs =>
      let offsets := map2 (fun p z => osub (pz p) z) ps zs in
      let walk := map2 (fun d e => oscale (g_slope m * snd e) (osqrt (oadd (osq (fst d)) (osq (snd d))))) dxy noise in
      let offsets := map2 oadd offsets walk in
      let ps1 := map2 (fun p d => mkpt (oadd (px p) (fst d)) (oadd (py p) (snd d)) (pz p) (pvx p) (pvy p) (pvz p)) ps dxy in
      match mapM (fun p => dem_at (g_dem m) (px p) (py p)) ps1 with
      | Err e => (ps1, Err e)
      | Ok zs1 =>
        let ps2 := map2 (fun p z => mkpt (px p) (py p) z (pvx p) (pvy p) (pvz p)) ps1 (map2 oadd zs1 offsets) in
        (map2 (fun p a => mkpt (px p) (py p) (pz p) (push1 t (pvx p) (fst a)) (push1 t (pvy p) (snd a)) (pvz p)) ps2 axy, Ok tt)
      end
    end
  end.
(** motion.py:393-412 *)
Definition tangent_evolve := evolve2 tangent_acc.
(** motion.py:492-522 *)
Definition tangent_cyl_evolve := evolve2 tangent_cyl_acc.
