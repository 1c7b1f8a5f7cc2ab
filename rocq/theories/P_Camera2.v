(** C64: the projection is the documented lens model (pinhole, then Brown-Conrady distortion with rational radial terms), spelled out. *)
From Verif Require Import Base BaseLemmas HelpersModel CameraModel CameraSpec CameraStateProofs.
Open Scope R_scope.

(** The lens model, written from the documentation (and as in OpenCV). *)
Definition lens_radial (k1 k2 k3 k4 k5 k6 r2 : R) : R :=
  (1 + k1 * r2 + k2 * r2 ^ 2 + k3 * r2 ^ 3) / (1 + k4 * r2 + k5 * r2 ^ 2 + k6 * r2 ^ 3).
Definition lens (k1 k2 k3 k4 k5 k6 p1 p2 x y : R) : R * R :=
  let r2 := x ^ 2 + y ^ 2 in
  (x * lens_radial k1 k2 k3 k4 k5 k6 r2 + 2 * p1 * x * y + p2 * (r2 + 2 * x ^ 2),
   y * lens_radial k1 k2 k3 k4 k5 k6 r2 + p1 * (r2 + 2 * y ^ 2) + 2 * p2 * x * y).

Lemma if_nonzero_add a b k : (if nonzero k then a + k * b else a) = a + k * b.
Proof. unfold nonzero, Reqb. destruct (Req_EM_T k 0) as [->|]; cbn; ring. Qed.
Lemma if_nonzero_add2 a b c k : (if nonzero k then a + k * b * c else a) = a + k * b * c.
Proof. unfold nonzero, Reqb. destruct (Req_EM_T k 0) as [->|]; cbn; ring. Qed.
Lemma if_nonzero_add3 a b c d k : (if nonzero k then a + k * b * c * d else a) = a + k * b * c * d.
Proof. unfold nonzero, Reqb. destruct (Req_EM_T k 0) as [->|]; cbn; ring. Qed.
Lemma anynz_false l : anynz l = false -> forall x, In x l -> x = 0.
Proof.
  unfold anynz. induction l as [|a l IH]; cbn; [tauto|]. intros H x [<-|I]; apply orb_false_iff in H; destruct H as [H1 H2]; auto.
  unfold nonzero, Reqb in H1. destruct (Req_EM_T a 0); [assumption|discriminate].
Qed.
Lemma radial_formula c k1 k2 k3 k4 k5 k6 r2 : get_k c = [k1; k2; k3; k4; k5; k6] ->
  radial_distortion c r2 = lens_radial k1 k2 k3 k4 k5 k6 r2.
Proof.
  intros K. unfold radial_distortion, kk. rewrite K. cbn [nth slice skipn firstn]. rewrite !if_nonzero_add, !if_nonzero_add2, !if_nonzero_add3. unfold lens_radial.
  unfold slice. cbn [skipn firstn].
  destruct (anynz [k4; k5; k6]) eqn:A.
  - f_equal; ring.
  - pose proof (anynz_false _ A) as Z. rewrite (Z k4), (Z k5), (Z k6) by (cbn; tauto). field.
Qed.
Lemma distort_formula c k1 k2 k3 k4 k5 k6 p1 p2 x y : get_k c = [k1; k2; k3; k4; k5; k6] -> get_p c = [p1; p2] ->
  distort c (x, y) = lens k1 k2 k3 k4 k5 k6 p1 p2 x y.
Proof.
  intros K P. unfold distort, tangential_distortion, pp. rewrite (radial_formula c k1 k2 k3 k4 k5 k6 _ K). rewrite K, P. cbn [nth].
  assert (Z : anynz [k1; k2; k3; k4; k5; k6] = false -> forall r2, lens_radial k1 k2 k3 k4 k5 k6 r2 = 1).
  { intros A r2. pose proof (anynz_false _ A) as Z. unfold lens_radial. rewrite (Z k1), (Z k2), (Z k3), (Z k4), (Z k5), (Z k6) by (cbn; tauto). field. }
  assert (Y : anynz [p1; p2] = false -> p1 = 0 /\ p2 = 0).
  { intros A. pose proof (anynz_false _ A) as Q. split; apply Q; cbn; tauto. }
  unfold lens. replace (x ^ 2 + y ^ 2) with (x * x + y * y) by ring.
  destruct (anynz [k1; k2; k3; k4; k5; k6]) eqn:A, (anynz [p1; p2]) eqn:B; cbn [negb andb].
  - f_equal; ring.
  - destruct (Y eq_refl) as [-> ->]. f_equal; ring.
  - rewrite Z by reflexivity. f_equal; ring.
  - rewrite Z by reflexivity. destruct (Y eq_refl) as [-> ->]. f_equal; ring.
Qed.

(** World point (x, y, z), camera at (X, Y, Z0): right, down and forward coordinates are the products with the rows of the rotation
    (camera_rotation_is_yaw_pitch_roll, camera_optical_axis); the image point is the distorted (right, down) / forward in focal lengths,
    from the center of the image plus the principal point offset; curvature and refraction lower far points. *)
Theorem camera_projection_formula : forall c X Y Z0 yaw pitch roll (W H : Z) fx fy cx cy k1 k2 k3 k4 k5 k6 p1 p2 x y z,
  vec c = [X; Y; Z0; yaw; pitch; roll; IZR W; IZR H; fx; fy; cx; cy; k1; k2; k3; k4; k5; k6; p1; p2] ->
  let drop := match correction c with Some (radius, refraction) => (1 - refraction) * ((x - X) ^ 2 + (y - Y) ^ 2) / (2 * radius) | None => 0 end in
  let along i := let '(a0, a1, a2) := row i (rotation (yaw, pitch, roll)) in a0 * (x - X) + a1 * (y - Y) + a2 * (z - Z0 - drop) in
  let right := along 0%nat in let down := along 1%nat in let forward := along 2%nat in
  xyz_to_uv c false (x, y, z) =
    if Rle_dec forward 0 then None
    else let '(xd, yd) := lens k1 k2 k3 k4 k5 k6 p1 p2 (right / forward) (down / forward) in
         Some (fx * xd + (IZR W / 2 + cx), fy * yd + (IZR H / 2 + cy)).
Proof.
  intros c X Y Z0 yaw pitch roll W H fx fy cx cy k1 k2 k3 k4 k5 k6 p1 p2 x y z V drop along right down forward.
  assert (K : get_k c = [k1; k2; k3; k4; k5; k6]) by (unfold get_k, slice; rewrite V; reflexivity).
  assert (P : get_p c = [p1; p2]) by (unfold get_p, slice; rewrite V; reflexivity).
  assert (RR : Rm c = rotation (yaw, pitch, roll)) by (unfold Rm, get_viewdir, slice; rewrite V; reflexivity).
  assert (F0 : f_ c 0 = fx) by (unfold f_, get_f, slice; rewrite V; reflexivity).
  assert (F1 : f_ c 1 = fy) by (unfold f_, get_f, slice; rewrite V; reflexivity).
  assert (IS : imgszR c = [IZR W; IZR H]).
  { unfold imgszR, get_imgsz, slice. rewrite V. cbn [skipn firstn map]. rewrite !Rtrunc_IZR. reflexivity. }
  assert (C0 : center c 0 = IZR W / 2 + cx) by (unfold center; rewrite IS; unfold get_c, slice; rewrite V; reflexivity).
  assert (C1 : center c 1 = IZR H / 2 + cy) by (unfold center; rewrite IS; unfold get_c, slice; rewrite V; reflexivity).
  assert (D : offset c false (x, y, z) = (x - X, y - Y, z - Z0 - drop)).
  { unfold offset, get_xyz, slice, v3. rewrite V. cbn [skipn firstn nth sub3]. subst drop. destruct (correction c) as [[ra re]|].
    - unfold elevation_corrections. f_equal. unfold Rdiv. ring.
    - f_equal. ring. }
  unfold xyz_to_uv, xyz_to_xy. rewrite D, RR.
  assert (A : forall i, dot3 (row i (rotation (yaw, pitch, roll))) (x - X, y - Y, z - Z0 - drop) = along i).
  { intros i. unfold along, dot3. destruct (row i (rotation (yaw, pitch, roll))) as [[a0 a1] a2]. reflexivity. }
  rewrite !A. fold right down forward. unfold Rleb. destruct (Rle_dec forward 0) as [L|L]; [reflexivity|].
  cbn [fst option_map]. unfold xy_to_uv. rewrite (distort_formula c k1 k2 k3 k4 k5 k6 p1 p2 _ _ K P), F0, F1, C0, C1.
  destruct (lens k1 k2 k3 k4 k5 k6 p1 p2 (right / forward) (down / forward)) as [xd yd]. f_equal. f_equal; ring.
Qed.
Print Assumptions camera_projection_formula.
(** looking north and level from the origin: 2 right, 1 up and 10 ahead *)
Example camera_projection_formula_ex : forall c,
  vec c = [0; 0; 0; 0; 0; 0; 100; 50; 10; 20; 3; -1; 0; 0; 0; 0; 0; 0; / 4; 0] -> correction c = None ->
  xyz_to_uv c false (2, 10, 1) = Some (10 * (2 / 10 + 2 * / 4 * (2 / 10) * (-1 / 10)) + 53, 20 * (-1 / 10 + / 4 * (7 / 100)) + 24).
Proof.
  intros c V C. rewrite (camera_projection_formula c _ _ _ _ _ _ 100 50 _ _ _ _ _ _ _ _ _ _ _ _ 2 10 1 V). rewrite C. cbv zeta.
  unfold rotation, row, deg2rad. rewrite Rmult_0_l, sin_0, cos_0. cbv beta iota zeta.
  match goal with |- context [Rle_dec ?a 0] => replace a with 10 by ring; destruct (Rle_dec 10 0); [lra|] end.
  unfold lens, lens_radial. cbv zeta. f_equal. f_equal; field.
Qed.
