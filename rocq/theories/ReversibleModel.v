(** Model of Camera.reversible and of the regula falsi undistortion (src/glimpse/camera.py:1317-1411). *)
From Verif Require Import Base HelpersModel CameraModel.
Open Scope R_scope.

(** numpy.all(v[1:] >= v[:-1]) *)
Fixpoint nondecreasing (v : list R) : bool :=
  match v with
  | a :: ((b :: _) as r) => (Rleb a b && nondecreasing r)%bool
  | _ => true
  end.

(** camera.py:1386-1411.  Simplified: focal lengths are not zero. *)
Definition reversible (c : cam) : result bool :=
  let nx := nth 0 (get_imgsz c) 0%Z in let ny := nth 1 (get_imgsz c) 0%Z in
  let* xs := linspace (- (IZR nx / (2 * f_ c 0))) (IZR nx / (2 * f_ c 0)) nx in
  let continuous_row := nondecreasing (map (fun x => fst (distort c (x, 0))) xs) in
  let* ys := linspace (- (IZR ny / (2 * f_ c 1))) (IZR ny / (2 * f_ c 1)) ny in
  let continuous_col := nondecreasing (map (fun y => snd (distort c (0, y))) ys) in
  Ok (continuous_row && continuous_col)%bool.

(** camera.py:1317-1367, one point.  One step: (x1, y1, x2, y2) with y = distort x - xy; a point is finished as soon as one coordinate of y2 - y1 is 0 (not_converged = numpy.all(dy != 0, axis=1)).  Default tolerance 0. *)
Definition vsub (a b : vec2) : vec2 := (fst a - fst b, snd a - snd b).
Record rf_state := mkrf { rf_x1 : vec2; rf_y1 : vec2; rf_x2 : vec2; rf_y2 : vec2 }.
Definition rf_finished (s : rf_state) : bool := let dy := vsub (rf_y2 s) (rf_y1 s) in negb (nonzero (fst dy) && nonzero (snd dy)).
Definition rf_coord (x1 y1 x2 y2 : R) : R := (x1 * y2 - x2 * y1) / (y2 - y1).
Definition rf_step (c : cam) (xy : vec2) (s : rf_state) : rf_state :=
  let '(mkrf (x1, x1') (y1, y1') (x2, x2') (y2, y2')) := s in
  let x3 := (rf_coord x1 y1 x2 y2, rf_coord x1' y1' x2' y2') in
  mkrf (x2, x2') (y2, y2') x3 (vsub (distort c x3) xy).
Fixpoint rf_run (c : cam) (xy : vec2) (iterations : nat) (s : rf_state) : vec2 :=
  match iterations with
  | O => rf_x2 s
  | S n => if rf_finished s then rf_x2 s else rf_run c xy n (rf_step c xy s)
  end.
Definition undistort_regulafalsi (c : cam) (iterations : nat) (xy : vec2) : vec2 :=
  let x2 := (fst xy / 2, snd xy / 2) in
  rf_run c xy iterations (mkrf (0, 0) (- fst xy, - snd xy) x2 (vsub (distort c x2) xy)).
