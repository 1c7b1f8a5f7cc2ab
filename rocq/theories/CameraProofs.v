(** Proofs about camera geometry: rotation, projection, resizing. *)
From Verif Require Import Base BaseLemmas HelpersModel CameraModel CameraSpec CameraStateProofs.
Open Scope R_scope.

Ltac tup := repeat match goal with |- (_, _) = (_, _) => f_equal end.

(** ** Rotation *)
Lemma sc x : sin x * sin x + cos x * cos x = 1.
Proof. pose proof (sin2_cos2 x) as H. unfold Rsqr in H. exact H. Qed.

Lemma rotation_orthonormal v i j : (i < 3)%nat -> (j < 3)%nat ->
  dot3 (row i (rotation v)) (row j (rotation v)) = if (i =? j)%nat then 1 else 0.
Proof.
  destruct v as [[a b] g]. intros Hi Hj. unfold rotation. cbv zeta.
  pose proof (sc (deg2rad a)) as A. pose proof (sc (deg2rad b)) as B. pose proof (sc (deg2rad g)) as G.
  set (s0 := sin (deg2rad a)) in *. set (c0 := cos (deg2rad a)) in *.
  set (s1 := sin (deg2rad b)) in *. set (c1 := cos (deg2rad b)) in *.
  set (s2 := sin (deg2rad g)) in *. set (c2 := cos (deg2rad g)) in *.
  assert (A' : c0 * c0 = 1 - s0 * s0) by lra.
  assert (B' : c1 * c1 = 1 - s1 * s1) by lra.
  assert (G' : c2 * c2 = 1 - s2 * s2) by lra.
  destruct i as [|[|[|i]]]; try lia; destruct j as [|[|[|j]]]; try lia; cbn [row dot3 Nat.eqb];
    ring [A' B' G'].
Qed.

Lemma rotation_columns v i j : (i < 3)%nat -> (j < 3)%nat ->
  entry (rotation v) 0 i * entry (rotation v) 0 j + entry (rotation v) 1 i * entry (rotation v) 1 j
  + entry (rotation v) 2 i * entry (rotation v) 2 j = if (i =? j)%nat then 1 else 0.
Proof.
  destruct v as [[a b] g]. intros Hi Hj. unfold entry, rotation. cbv zeta.
  pose proof (sc (deg2rad a)) as A. pose proof (sc (deg2rad b)) as B. pose proof (sc (deg2rad g)) as G.
  set (s0 := sin (deg2rad a)) in *. set (c0 := cos (deg2rad a)) in *.
  set (s1 := sin (deg2rad b)) in *. set (c1 := cos (deg2rad b)) in *.
  set (s2 := sin (deg2rad g)) in *. set (c2 := cos (deg2rad g)) in *.
  assert (A' : c0 * c0 = 1 - s0 * s0) by lra.
  assert (B' : c1 * c1 = 1 - s1 * s1) by lra.
  assert (G' : c2 * c2 = 1 - s2 * s2) by lra.
  destruct i as [|[|[|i]]]; try lia; destruct j as [|[|[|j]]]; try lia; cbn [row comp Nat.eqb];
    ring [A' B' G'].
Qed.

Definition det3 (m : mat3) : R :=
  entry m 0 0 * (entry m 1 1 * entry m 2 2 - entry m 1 2 * entry m 2 1)
  - entry m 0 1 * (entry m 1 0 * entry m 2 2 - entry m 1 2 * entry m 2 0)
  + entry m 0 2 * (entry m 1 0 * entry m 2 1 - entry m 1 1 * entry m 2 0).

Lemma rotation_det v : det3 (rotation v) = 1.
Proof.
  destruct v as [[a b] g]. unfold det3, entry, rotation. cbv zeta. cbn [row comp].
  pose proof (sc (deg2rad a)) as A. pose proof (sc (deg2rad b)) as B. pose proof (sc (deg2rad g)) as G.
  set (s0 := sin (deg2rad a)) in *. set (c0 := cos (deg2rad a)) in *.
  set (s1 := sin (deg2rad b)) in *. set (c1 := cos (deg2rad b)) in *.
  set (s2 := sin (deg2rad g)) in *. set (c2 := cos (deg2rad g)) in *.
  assert (A' : c0 * c0 = 1 - s0 * s0) by lra.
  assert (B' : c1 * c1 = 1 - s1 * s1) by lra.
  assert (G' : c2 * c2 = 1 - s2 * s2) by lra.
  ring [A' B' G'].
Qed.

Definition matmul (m n : mat3) : mat3 :=
  let e i j := entry m i 0 * entry n 0 j + entry m i 1 * entry n 1 j + entry m i 2 * entry n 2 j in
  ((e 0%nat 0%nat, e 0%nat 1%nat, e 0%nat 2%nat),
   (e 1%nat 0%nat, e 1%nat 1%nat, e 1%nat 2%nat),
   (e 2%nat 0%nat, e 2%nat 1%nat, e 2%nat 2%nat)).

Lemma deg2rad_period d : deg2rad (d + 360) = deg2rad d + 2 * PI.
Proof. unfold deg2rad. field. Qed.
Lemma rotation_periodic a b g :
  rotation (a + 360, b, g) = rotation (a, b, g) /\ rotation (a, b + 360, g) = rotation (a, b, g)
  /\ rotation (a, b, g + 360) = rotation (a, b, g).
Proof.
  unfold rotation. cbv zeta. rewrite !deg2rad_period, !cos_plus, !sin_plus, cos_2PI, sin_2PI.
  repeat split; tup; ring.
Qed.

(** length and orientation *)
Definition apply3 (m : mat3) (v : vec3) : vec3 := (dot3 (row 0 m) v, dot3 (row 1 m) v, dot3 (row 2 m) v).
Definition cross3 (a b : vec3) : vec3 :=
  let '(a0, a1, a2) := a in let '(b0, b1, b2) := b in
  (a1 * b2 - a2 * b1, a2 * b0 - a0 * b2, a0 * b1 - a1 * b0).

Lemma rotation_preserves_dot v p q :
  dot3 (apply3 (rotation v) p) (apply3 (rotation v) q) = dot3 p q.
Proof.
  pose proof (rotation_columns v 0 0 ltac:(lia) ltac:(lia)) as H00.
  pose proof (rotation_columns v 0 1 ltac:(lia) ltac:(lia)) as H01.
  pose proof (rotation_columns v 0 2 ltac:(lia) ltac:(lia)) as H02.
  pose proof (rotation_columns v 1 1 ltac:(lia) ltac:(lia)) as H11.
  pose proof (rotation_columns v 1 2 ltac:(lia) ltac:(lia)) as H12.
  pose proof (rotation_columns v 2 2 ltac:(lia) ltac:(lia)) as H22.
  unfold entry in *. generalize dependent (rotation v). intros [[[[m00 m01] m02] [[m10 m11] m12]] [[m20 m21] m22]].
  cbn [row comp Nat.eqb]. intros.
  destruct p as [[p0 p1] p2], q as [[q0 q1] q2]. cbn [apply3 dot3 row].
  transitivity (p0 * q0 * (m00 * m00 + m10 * m10 + m20 * m20)
    + p1 * q1 * (m01 * m01 + m11 * m11 + m21 * m21)
    + p2 * q2 * (m02 * m02 + m12 * m12 + m22 * m22)
    + (p0 * q1 + p1 * q0) * (m00 * m01 + m10 * m11 + m20 * m21)
    + (p0 * q2 + p2 * q0) * (m00 * m02 + m10 * m12 + m20 * m22)
    + (p1 * q2 + p2 * q1) * (m01 * m02 + m11 * m12 + m21 * m22)).
  - ring.
  - rewrite H00, H01, H02, H11, H12, H22. ring.
Qed.
Lemma rotation_cross v : cross3 (row 0 (rotation v)) (row 1 (rotation v)) = row 2 (rotation v).
Proof.
  destruct v as [[a b] g]. unfold rotation. cbv zeta. cbn [row cross3].
  pose proof (sc (deg2rad a)) as A. pose proof (sc (deg2rad b)) as B. pose proof (sc (deg2rad g)) as G.
  set (s0 := sin (deg2rad a)) in *. set (c0 := cos (deg2rad a)) in *.
  set (s1 := sin (deg2rad b)) in *. set (c1 := cos (deg2rad b)) in *.
  set (s2 := sin (deg2rad g)) in *. set (c2 := cos (deg2rad g)) in *.
  assert (A' : c0 * c0 = 1 - s0 * s0) by lra.
  assert (B' : c1 * c1 = 1 - s1 * s1) by lra.
  assert (G' : c2 * c2 = 1 - s2 * s2) by lra.
  tup; ring [A' B' G'].
Qed.

(** ** Derivative *)
Lemma d_deg x : derivable_pt_lim deg2rad x (PI / 180).
Proof.
  intros eps He. exists (mkposreal 1 Rlt_0_1). intros h Hh _. unfold deg2rad.
  replace (((x + h) * (PI / 180) - x * (PI / 180)) / h - PI / 180) with 0 by (field; auto).
  rewrite Rabs_R0. exact He.
Qed.
Lemma d_sin_deg x : derivable_pt_lim (fun t => sin (deg2rad t)) x (cos (deg2rad x) * (PI / 180)).
Proof.
  apply (derivable_pt_lim_comp deg2rad sin); [|apply derivable_pt_lim_sin].
  apply d_deg.
Qed.
Lemma d_cos_deg x : derivable_pt_lim (fun t => cos (deg2rad t)) x (- sin (deg2rad x) * (PI / 180)).
Proof.
  apply (derivable_pt_lim_comp deg2rad cos); [|apply derivable_pt_lim_cos].
  apply d_deg.
Qed.

(** a function of the form k0 + k1 sin + k2 cos *)
Lemma d_lin k0 k1 k2 x f d :
  (forall t, f t = k0 + k1 * sin (deg2rad t) + k2 * cos (deg2rad t)) ->
  d = (k1 * cos (deg2rad x) - k2 * sin (deg2rad x)) * (PI / 180) ->
  derivable_pt_lim f x d.
Proof.
  intros Hf ->.
  assert (D : derivable_pt_lim (fun t => k0 + k1 * sin (deg2rad t) + k2 * cos (deg2rad t)) x
    (0 + (k1 * (cos (deg2rad x) * (PI / 180))) + k2 * (- sin (deg2rad x) * (PI / 180)))).
  { apply (derivable_pt_lim_plus (fun t => k0 + k1 * sin (deg2rad t)) (fun t => k2 * cos (deg2rad t))).
    - apply (derivable_pt_lim_plus (fun _ => k0) (fun t => k1 * sin (deg2rad t))).
      + apply derivable_pt_lim_const.
      + apply (derivable_pt_lim_scal (fun t => sin (deg2rad t))). apply d_sin_deg.
    - apply (derivable_pt_lim_scal (fun t => cos (deg2rad t))). apply d_cos_deg. }
  replace ((k1 * cos (deg2rad x) - k2 * sin (deg2rad x)) * (PI / 180)) with
    (0 + (k1 * (cos (deg2rad x) * (PI / 180))) + k2 * (- sin (deg2rad x) * (PI / 180))) by ring.
  intros eps Heps. destruct (D eps Heps) as [del Hd]. exists del. intros h Hh Hb.
  rewrite !Hf. apply Hd; auto.
Qed.

Definition set_angle (v : vec3) (j : nat) (t : R) : vec3 :=
  let '(a, b, g) := v in match j with 0%nat => (t, b, g) | 1%nat => (a, t, g) | _ => (a, b, t) end.

Lemma rprime_derivative v i j k : (i < 3)%nat -> (j < 3)%nat -> (k < 3)%nat ->
  derivable_pt_lim (fun t => entry (rotation (set_angle v j t)) k i) (comp j v) (rprime v i j k).
Proof.
  destruct v as [[a b] g]. intros Hi Hj Hk.
  set (c0 := cos (deg2rad a)). set (s0 := sin (deg2rad a)).
  set (c1 := cos (deg2rad b)). set (s1 := sin (deg2rad b)).
  set (c2 := cos (deg2rad g)). set (s2 := sin (deg2rad g)).
  destruct j as [|[|[|j]]]; try lia;
  destruct i as [|[|[|i]]]; try lia; destruct k as [|[|[|k]]]; try lia;
  unfold rprime, entry, rotation, rprime_literal, set_angle; cbv zeta; cbn [row comp].
  (* yaw *)
  all: fold c0; fold s0; fold c1; fold s1; fold c2; fold s2.
  - apply (d_lin 0 (s1 * s2) c2); [intros; ring|fold c0; fold s0; ring].
  - apply (d_lin 0 (c2 * s1) (- s2)); [intros; ring|fold c0; fold s0; ring].
  - apply (d_lin 0 c1 0); [intros; ring|fold c0; fold s0; ring].
  - apply (d_lin 0 (- c2) (s1 * s2)); [intros; ring|fold c0; fold s0; ring].
  - apply (d_lin 0 s2 (c2 * s1)); [intros; ring|fold c0; fold s0; ring].
  - apply (d_lin 0 0 c1); [intros; ring|fold c0; fold s0; ring].
  - apply (d_lin (- c1 * s2) 0 0); [intros; ring|fold c0; fold s0; ring].
  - apply (d_lin (- c1 * c2) 0 0); [intros; ring|fold c0; fold s0; ring].
  - apply (d_lin s1 0 0); [intros; ring|fold c0; fold s0; ring].
  (* pitch *)
  - apply (d_lin (c0 * c2) (s0 * s2) 0); [intros; ring|fold c1; fold s1; ring].
  - apply (d_lin (- (c0 * s2)) (c2 * s0) 0); [intros; ring|fold c1; fold s1; ring].
  - apply (d_lin 0 0 s0); [intros; ring|fold c1; fold s1; ring].
  - apply (d_lin (- (c2 * s0)) (c0 * s2) 0); [intros; ring|fold c1; fold s1; ring].
  - apply (d_lin (s0 * s2) (c0 * c2) 0); [intros; ring|fold c1; fold s1; ring].
  - apply (d_lin 0 0 c0); [intros; ring|fold c1; fold s1; ring].
  - apply (d_lin 0 0 (- s2)); [intros; ring|fold c1; fold s1; ring].
  - apply (d_lin 0 0 (- c2)); [intros; ring|fold c1; fold s1; ring].
  - apply (d_lin 0 1 0); [intros; ring|fold c1; fold s1; ring].
  (* roll *)
  - apply (d_lin 0 (s0 * s1) c0); [intros; ring|fold c2; fold s2; ring].
  - apply (d_lin 0 (- c0) (s0 * s1)); [intros; ring|fold c2; fold s2; ring].
  - apply (d_lin (c1 * s0) 0 0); [intros; ring|fold c2; fold s2; ring].
  - apply (d_lin 0 (c0 * s1) (- s0)); [intros; ring|fold c2; fold s2; ring].
  - apply (d_lin 0 s0 (c0 * s1)); [intros; ring|fold c2; fold s2; ring].
  - apply (d_lin (c0 * c1) 0 0); [intros; ring|fold c2; fold s2; ring].
  - apply (d_lin 0 (- c1) 0); [intros; ring|fold c2; fold s2; ring].
  - apply (d_lin 0 0 (- c1)); [intros; ring|fold c2; fold s2; ring].
  - apply (d_lin s1 0 0); [intros; ring|fold c2; fold s2; ring].
Qed.

(** ** Unprojecting *)
Definition ray_of (m : mat3) (x y : R) : vec3 := add3 (add3 (scale3 x (row 0 m)) (scale3 y (row 1 m))) (row 2 m).

Lemma dot3_ray v i d x y : (i < 3)%nat ->
  dot3 (row i (rotation v)) (scale3 d (ray_of (rotation v) x y)) = d * match i with 0%nat => x | 1%nat => y | _ => 1 end.
Proof.
  intros Hi. unfold ray_of.
  pose proof (rotation_orthonormal v i 0 Hi ltac:(lia)) as H0.
  pose proof (rotation_orthonormal v i 1 Hi ltac:(lia)) as H1.
  pose proof (rotation_orthonormal v i 2 Hi ltac:(lia)) as H2.
  generalize dependent (rotation v). intros [[r0 r1] r2]. cbn [row]. intros.
  transitivity (d * (x * dot3 (row i (r0, r1, r2)) r0 + y * dot3 (row i (r0, r1, r2)) r1 + dot3 (row i (r0, r1, r2)) r2)).
  - destruct r0 as [[? ?] ?], r1 as [[? ?] ?], r2 as [[? ?] ?]. destruct i as [|[|[|i]]]; try lia; cbn; ring.
  - cbn [row] in *. rewrite H0, H1, H2. destruct i as [|[|[|i]]]; try lia; cbn; ring.
Qed.

Lemma xy_to_xyz_ray c dirs d xy :
  xy_to_xyz c dirs d xy = let ray := scale3 d (ray_of (Rm c) (fst xy) (snd xy)) in
    if dirs then ray else add3 ray (v3 (get_xyz c)).
Proof.
  destruct xy as [x y]. unfold xy_to_xyz, ray_of. cbv zeta. cbn [fst snd].
  destruct (Reqb_spec d 1) as [->|]; [|reflexivity].
  assert (G : forall a : vec3, scale3 1 a = a).
  { intros [[? ?] ?]. cbn. tup; ring. }
  rewrite G. reflexivity.
Qed.

Lemma sub_add_3 a b : sub3 (add3 a b) b = a.
Proof. destruct a as [[? ?] ?], b as [[? ?] ?]. cbn. tup; ring. Qed.
Lemma add_sub_3 a b : add3 (sub3 a b) b = a.
Proof. destruct a as [[? ?] ?], b as [[? ?] ?]. cbn. tup; ring. Qed.

Lemma offset_xy_to_xyz c dirs d xy : (dirs = true \/ correction c = None) ->
  offset c dirs (xy_to_xyz c dirs d xy) = scale3 d (ray_of (Rm c) (fst xy) (snd xy)).
Proof.
  intros H. rewrite xy_to_xyz_ray. cbv zeta. unfold offset. destruct dirs; [reflexivity|].
  rewrite sub_add_3. destruct H as [H|H]; [discriminate|]. rewrite H. destruct (scale3 _ _) as [[? ?] ?]. reflexivity.
Qed.

Lemma xyz_to_xy_inv c dirs d xy : (dirs = true \/ correction c = None) -> 0 < d ->
  xyz_to_xy c dirs (xy_to_xyz c dirs d xy) = (Some xy, d).
Proof.
  intros H Hd. unfold xyz_to_xy. cbv zeta. rewrite offset_xy_to_xyz by auto. unfold Rm. rewrite !dot3_ray by lia.
  rewrite Rmult_1_r. destruct (Rleb_spec d 0); [lra|]. destruct xy as [x y]. cbn [fst snd].
  replace (d * x / d) with x by (field; lra). replace (d * y / d) with y by (field; lra). reflexivity.
Qed.

(** uv -> xyz -> uv, for any distortion whose removal is exact at this point *)
Lemma uv_round_trip_general c dirs d uv :
  (dirs = true \/ correction c = None) -> 0 < d -> f_ c 0 <> 0 -> f_ c 1 <> 0 ->
  (let p := ((fst uv - center c 0) * (1 / f_ c 0), (snd uv - center c 1) * (1 / f_ c 1)) in
   distort c (undistort c p) = p) ->
  xyz_to_uv c dirs (xy_to_xyz c dirs d (uv_to_xy c uv)) = Some uv
  /\ snd (xyz_to_xy c dirs (xy_to_xyz c dirs d (uv_to_xy c uv))) = d.
Proof.
  intros Hd Hp F0 F1 Hdist. cbv zeta in Hdist. unfold xyz_to_uv. rewrite xyz_to_xy_inv by auto. cbn [fst snd option_map].
  split; [|reflexivity]. f_equal. destruct uv as [u v]. unfold uv_to_xy, xy_to_uv. cbn [fst snd] in *. rewrite Hdist.
  f_equal; field; auto.
Qed.

Definition no_distortion (c : cam) : Prop := get_k c = repeat 0 6 /\ get_p c = repeat 0 2.

Lemma anynz_zeros n : anynz (repeat 0 n) = false.
Proof. induction n; [reflexivity|]. unfold anynz in *. cbn [repeat existsb]. rewrite IHn. unfold nonzero. destruct (Reqb_spec 0 0); [reflexivity|congruence]. Qed.
Lemma undistort_none c xy : no_distortion c -> undistort c xy = xy.
Proof. intros [K P]. unfold undistort. rewrite K, P. rewrite (anynz_zeros 6), (anynz_zeros 2). reflexivity. Qed.
Lemma distort_none c xy : no_distortion c -> distort c xy = xy.
Proof. intros [K P]. destruct xy. unfold distort. rewrite K, P. rewrite (anynz_zeros 6), (anynz_zeros 2). reflexivity. Qed.

Lemma uv_round_trip c dirs d uv : no_distortion c ->
  (dirs = true \/ correction c = None) -> 0 < d -> f_ c 0 <> 0 -> f_ c 1 <> 0 ->
  xyz_to_uv c dirs (xy_to_xyz c dirs d (uv_to_xy c uv)) = Some uv
  /\ snd (xyz_to_xy c dirs (xy_to_xyz c dirs d (uv_to_xy c uv))) = d.
Proof.
  intros N H1 H2 H3 H4. apply uv_round_trip_general; auto. cbv zeta. rewrite undistort_none, distort_none; auto.
Qed.

(** the camera frame is a basis *)
Lemma rotation_expand v p :
  add3 (add3 (scale3 (dot3 (row 0 (rotation v)) p) (row 0 (rotation v))) (scale3 (dot3 (row 1 (rotation v)) p) (row 1 (rotation v))))
    (scale3 (dot3 (row 2 (rotation v)) p) (row 2 (rotation v))) = p.
Proof.
  pose proof (rotation_columns v 0 0 ltac:(lia) ltac:(lia)) as H00.
  pose proof (rotation_columns v 0 1 ltac:(lia) ltac:(lia)) as H01.
  pose proof (rotation_columns v 0 2 ltac:(lia) ltac:(lia)) as H02.
  pose proof (rotation_columns v 1 1 ltac:(lia) ltac:(lia)) as H11.
  pose proof (rotation_columns v 1 2 ltac:(lia) ltac:(lia)) as H12.
  pose proof (rotation_columns v 2 2 ltac:(lia) ltac:(lia)) as H22.
  unfold entry in *. generalize dependent (rotation v). intros [[[[m00 m01] m02] [[m10 m11] m12]] [[m20 m21] m22]].
  cbn [row comp Nat.eqb]. intros. destruct p as [[p0 p1] p2]. cbn [dot3 scale3 add3].
  f_equal; [f_equal|].
  - transitivity (p0 * (m00 * m00 + m10 * m10 + m20 * m20) + p1 * (m00 * m01 + m10 * m11 + m20 * m21)
      + p2 * (m00 * m02 + m10 * m12 + m20 * m22)); [ring|]. rewrite H00, H01, H02. ring.
  - transitivity (p0 * (m00 * m01 + m10 * m11 + m20 * m21) + p1 * (m01 * m01 + m11 * m11 + m21 * m21)
      + p2 * (m01 * m02 + m11 * m12 + m21 * m22)); [ring|]. rewrite H01, H11, H12. ring.
  - transitivity (p0 * (m00 * m02 + m10 * m12 + m20 * m22) + p1 * (m01 * m02 + m11 * m12 + m21 * m22)
      + p2 * (m02 * m02 + m12 * m12 + m22 * m22)); [ring|]. rewrite H02, H12, H22. ring.
Qed.

Lemma scale_ray m x y d : d <> 0 -> scale3 d (ray_of m (x / d) (y / d))
  = add3 (add3 (scale3 x (row 0 m)) (scale3 y (row 1 m))) (scale3 d (row 2 m)).
Proof.
  intros H. unfold ray_of. destruct m as [[r0 r1] r2]. cbn [row]. destruct r0 as [[? ?] ?], r1 as [[? ?] ?], r2 as [[? ?] ?].
  cbn. tup; field; auto.
Qed.

(** xyz -> uv -> xyz *)
Lemma xyz_round_trip_general c dirs p uv :
  (dirs = true \/ correction c = None) -> f_ c 0 <> 0 -> f_ c 1 <> 0 ->
  (forall xy, fst (xyz_to_xy c dirs p) = Some xy -> undistort c (distort c xy) = xy) ->
  xyz_to_uv c dirs p = Some uv ->
  xy_to_xyz c dirs (snd (xyz_to_xy c dirs p)) (uv_to_xy c uv) = p.
Proof.
  intros Hd F0 F1 Hu H. unfold xyz_to_uv in H.
  destruct (fst (xyz_to_xy c dirs p)) as [xy|] eqn:E; [|discriminate]. cbn in H. injection H as <-.
  specialize (Hu xy eq_refl).
  assert (Ex : uv_to_xy c (xy_to_uv c xy) = xy).
  { unfold uv_to_xy, xy_to_uv. destruct (distort c xy) as [x y] eqn:Ed.
    replace ((x * f_ c 0 + center c 0 - center c 0) * (1 / f_ c 0)) with x by (field; auto).
    replace ((y * f_ c 1 + center c 1 - center c 1) * (1 / f_ c 1)) with y by (field; auto). exact Hu. }
  rewrite Ex. rewrite xy_to_xyz_ray. cbv zeta.
  unfold xyz_to_xy in E |- *. cbv zeta in E |- *. cbn [fst snd] in E |- *.
  assert (Eo : offset c dirs p = if dirs then p else sub3 p (v3 (get_xyz c))).
  { unfold offset. destruct dirs; auto. destruct (sub3 p (v3 (get_xyz c))) as [[? ?] ?].
    destruct Hd as [Hd|Hd]; [discriminate|]. rewrite Hd. reflexivity. }
  set (z := dot3 (row 2 (Rm c)) (offset c dirs p)) in *.
  destruct (Rleb_spec z 0) as [|Hz]; [discriminate|].
  assert (Exy : xy = (dot3 (row 0 (Rm c)) (offset c dirs p) / z, dot3 (row 1 (Rm c)) (offset c dirs p) / z)) by congruence.
  rewrite Exy. cbn [fst snd].
  rewrite scale_ray by lra. unfold z, Rm. rewrite rotation_expand, Eo.
  destruct dirs; auto. apply add_sub_3.
Qed.
Lemma xyz_round_trip c dirs p uv : no_distortion c ->
  (dirs = true \/ correction c = None) -> f_ c 0 <> 0 -> f_ c 1 <> 0 ->
  xyz_to_uv c dirs p = Some uv ->
  xy_to_xyz c dirs (snd (xyz_to_xy c dirs p)) (uv_to_xy c uv) = p.
Proof. intros N H1 H2 H3 H. apply xyz_round_trip_general; auto. intros. rewrite distort_none, undistort_none; auto. Qed.

(** ** Behind the camera *)
Definition axis_depth (c : cam) (dirs : bool) (p : vec3) : R :=
  dot3 (row 2 (Rm c)) (if dirs then p else sub3 p (v3 (get_xyz c))).
Lemma dot3_comm a b : dot3 a b = dot3 b a.
Proof. destruct a as [[? ?] ?], b as [[? ?] ?]. cbn. ring. Qed.

Lemma projection_depth c dirs p : (dirs = true \/ correction c = None) ->
  snd (xyz_to_xy c dirs p) = axis_depth c dirs p
  /\ (xyz_to_uv c dirs p = None <-> axis_depth c dirs p <= 0)
  /\ (infront c dirs p = true <-> xyz_to_uv c dirs p <> None).
Proof.
  intros H.
  assert (Eo : offset c dirs p = if dirs then p else sub3 p (v3 (get_xyz c))).
  { unfold offset. destruct dirs; auto. destruct (sub3 p (v3 (get_xyz c))) as [[? ?] ?].
    destruct H as [H|H]; [discriminate|]. rewrite H. reflexivity. }
  unfold xyz_to_uv, xyz_to_xy, infront, axis_depth. cbv zeta. cbn [fst snd]. rewrite Eo.
  rewrite (dot3_comm _ (row 2 (Rm c))).
  set (z := dot3 (row 2 (Rm c)) (if dirs then p else sub3 p (v3 (get_xyz c)))).
  destruct (Rleb_spec z 0), (Rltb_spec 0 z); cbn [option_map]; try lra; (split; [reflexivity|]); repeat split; intros; try congruence; try lra; try tauto; try discriminate.
Qed.
Lemma projection_nan_iff_depth c dirs p :
  xyz_to_uv c dirs p = None <-> snd (xyz_to_xy c dirs p) <= 0.
Proof.
  unfold xyz_to_uv, xyz_to_xy. cbv zeta. cbn [fst snd]. destruct (Rleb_spec (dot3 (row 2 (Rm c)) (offset c dirs p)) 0); cbn [option_map];
    split; intros; auto; try congruence; try lra; try discriminate.
Qed.

(** ** Rays *)
Lemma dot3_scale a t b : dot3 a (scale3 t b) = t * dot3 a b.
Proof. destruct a as [[? ?] ?], b as [[? ?] ?]. cbn. ring. Qed.
Lemma xyz_to_uv_scale c t d : 0 < t -> xyz_to_uv c true (scale3 t d) = xyz_to_uv c true d.
Proof.
  intros Ht. unfold xyz_to_uv, xyz_to_xy, offset. cbv zeta. cbn [fst]. rewrite !dot3_scale.
  set (z := dot3 (row 2 (Rm c)) d).
  destruct (Rleb_spec (t * z) 0) as [H|H], (Rleb_spec z 0) as [K|K]; auto.
  - exfalso. assert (0 < t * z) by (apply Rmult_lt_0_compat; lra). lra.
  - exfalso. assert (t * z <= 0). { replace 0 with (t * 0) by ring. apply Rmult_le_compat_l; lra. } lra.
  - cbn [option_map]. f_equal. f_equal. f_equal; field; lra.
Qed.
Lemma ray_invariance c d t : correction c = None -> 0 < t ->
  xyz_to_uv c false (add3 (scale3 t d) (v3 (get_xyz c))) = xyz_to_uv c true d.
Proof.
  intros H Ht. rewrite <- (xyz_to_uv_scale c t d Ht).
  unfold xyz_to_uv, xyz_to_xy, offset. rewrite sub_add_3, H. destruct (scale3 t d) as [[? ?] ?]. reflexivity.
Qed.
