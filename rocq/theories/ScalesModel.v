(** Model of optimize.Cameras.camera_scales (src/glimpse/optimize.py:1325-1407) and _build_scales (1568-1577), on CameraModel and ParamsModel.

    Exact reals.  Controls have at least one point each (an empty array would still be given to numpy.vstack).  Divisions by zero, where numpy gives inf, are outside the model: cameras have positive image sizes and focal lengths, some world point is not at the camera position, and the denominators of k[3:6] do not vanish. *)
From Verif Require Import Base HelpersModel CameraModel ParamsModel.
Open Scope R_scope.

(** What camera_scales asks of a control: whether it is of type Points (with xyz) or Lines (with xyzs), which camera it has, and whether its coordinates are directions *)
Inductive world := WPoints (cam : nat) (xyz : list vec3) (directions : bool) | WLines (cam : nat) (xyzs : list (list vec3)) (directions : bool) | WOther.
(** optimize.py:1347-1358: world points seen by camera [o] *)
Definition world_points (o : nat) (controls : list world) : list vec3 :=
  concat (map (fun w => match w with
    | WPoints c xyz d => if ((c =? o)%nat && negb d)%bool then xyz else []
    | WLines c xyzs d => if ((c =? o)%nat && negb d)%bool then concat xyzs else []
    | WOther => [] end) controls).
(** optimize.py:1362: numpy.linalg.norm without axis is the norm of the whole matrix (of one number, which is its mean) *)
Definition frobenius (ps : list vec3) (q : vec3) : R := sqrt (sumR (map (fun p => dot3 (sub3 p q) (sub3 p q)) ps)).
Definition mean2 (l : list R) : R := (nth 0 l 0 + nth 1 l 0) / 2.
(** optimize.py:1343-1344 *)
Definition mean_r_uv (c : cam) : R := mean2 (imgszR c) / 6 * (sqrt 2 + ln (1 + sqrt 2)).
Definition mean_r_xy (c : cam) : R := mean_r_uv c / mean2 (get_f c).
(** optimize.py:1341-1405: pixels per unit change of each parameter *)
Definition dpixels (o : nat) (c : cam) (controls : list world) : list R :=
  let f := mean2 (get_f c) in
  let r := mean_r_xy c in
  let xyz := match world_points o controls with [] => 1 | ps => f / frobenius ps (v3 (get_xyz c)) end in
  let degrees i := 2 * atan (nth i (imgszR c) 0 / (2 * nth i (get_f c) 0)) * (180 / PI) in
  [xyz; xyz; xyz;
   nth 0 (imgszR c) 0 / degrees 0%nat; nth 1 (imgszR c) 0 / degrees 1%nat;
   2 * mean_r_uv c * sin (PI / 180 / 2);
   / 2; / 2;
   r; r;
   1; 1;
   r ^ 3 * f * sqrt 2; r ^ 5 * f * (2 * sqrt 2); r ^ 7 * f * (4 * sqrt 2);
   r ^ 3 / (1 + kk c 3 * r ^ 2) * f * sqrt 2; r ^ 5 / (1 + kk c 4 * r ^ 4) * f * (2 * sqrt 2); r ^ 7 / (1 + kk c 5 * r ^ 6) * f * (4 * sqrt 2);
   sqrt 5 * r ^ 2 * f; sqrt 5 * r ^ 2 * f].
(** optimize.py:1407 *)
Definition camera_scales (o : nat) (c : cam) (controls : list world) : list R := map (fun d => 1 / d) (dpixels o c controls).

(** a camera object with vector [v] *)
Definition cam_of (v : list R) : cam := mkcam v v None None.
(** optimize.py:1568-1577.  numpy.row_stack of nothing raises ValueError; indices of groups are not negative. *)
Definition build_scales (m : model) (h : heap) (controls : list world) : result (list R) :=
  let scales := map (fun o => camera_scales o (cam_of (h o)) controls) (m_cams m) in
  let cam_scales := map2 (fun s mask => mget mask s) scales (m_cam_masks m) in
  let* group_scales := mapM (fun mi =>
    let* rows := mapM (fun i => match nth_error scales i with Some s => Ok (mget (fst mi) s) | None => Err IndexError end) (snd mi) in
    match rows with [] => Err ValueError | _ => Ok (mean_columns rows (count_true (fst mi))) end) (combine (m_group_masks m) (m_group_indices m)) in
  match group_scales, cam_scales with
  | [], _ | _, [] => Err ValueError
  | _, _ => Ok (concat group_scales ++ concat cam_scales)
  end.
