(** Property theorems about src/glimpse/camera.py (C15-C25, C55, C56). *)
From Verif Require Import Base BaseLemmas HelpersModel HelpersSpec CameraModel CameraSpec.
From Verif Require Import CameraStateProofs CameraProofs CameraProofs2 CameraProofs3 CameraProofs4 CameraHeap.
Open Scope R_scope.

(** A concrete camera for the examples: imgsz (4, 2), f (1, 1). *)
Definition excam_vec : list R := [0; 0; 0; 0; 0; 0; 4; 2; 1; 1; 0; 0; 0; 0; 0; 0; 0; 0; 0; 0].
Definition excam : cam := mkcam excam_vec excam_vec None None.
Lemma excam_wf : wf excam. Proof. split; reflexivity. Qed.

(** C15 *)
Theorem camera_set_changes_only_its_component : forall o c c', wf c -> cam_step o c = Ok c' ->
  wf c' /\ orig c' = orig c /\ correction c' = correction c /\
  forall q, ~ In q (touches o) -> cget q (vec c') = cget q (vec c).
Proof. exact cam_step_frame. Qed.
Print Assumptions camera_set_changes_only_its_component.
Example camera_set_ex : wf excam /\ (exists c', cam_step (OF [7; 8]) excam = Ok c' /\ cget Foc (vec c') = [7; 8]).
Proof. split; [apply excam_wf|]. eexists. split; reflexivity. Qed.

Theorem camera_set_reads_back : forall x c, wf c ->
  (exists c', set_xyz x c = Ok c' /\ get_xyz c' = pad 3 0 x) /\
  (exists c', set_viewdir x c = Ok c' /\ get_viewdir c' = pad 3 0 x) /\
  (exists c', set_c x c = Ok c' /\ get_c c' = pad 2 0 x) /\
  (exists c', set_k x c = Ok c' /\ get_k c' = pad 6 0 x) /\
  (exists c', set_p x c = Ok c' /\ get_p c' = pad 2 0 x) /\
  (x <> [] -> exists c', set_f x c = Ok c' /\ get_f c' = pair_of x) /\
  (x <> [] -> Forall integral (pair_of x) -> exists c', set_imgsz x c = Ok c' /\ map IZR (get_imgsz c') = pair_of x) /\
  (~ Forall integral (pair_of x) -> set_imgsz x c = Err ValueError).
Proof.
  intros x c W.
  destruct (set_xyz_spec x c W) as (c1 & E1 & S1). destruct (set_viewdir_spec x c W) as (c2 & E2 & S2).
  destruct (set_c_spec x c W) as (c3 & E3 & S3). destruct (set_k_spec x c W) as (c4 & E4 & S4).
  destruct (set_p_spec x c W) as (c5 & E5 & S5).
  split; [exists c1; split; [exact E1|apply S1]|]. split; [exists c2; split; [exact E2|apply S2]|].
  split; [exists c3; split; [exact E3|apply S3]|]. split; [exists c4; split; [exact E4|apply S4]|].
  split; [exists c5; split; [exact E5|apply S5]|].
  split. { intros Hx. destruct (set_f_spec x c W Hx) as (c6 & E6 & S6). exists c6. split; [exact E6|apply S6]. }
  split. { intros Hx Hi. destruct (set_imgsz_spec x c W Hx Hi) as (c7 & E7 & S7). exists c7. split; [exact E7|].
           apply imgszR_of; [apply S7|exact Hi]. }
  apply set_imgsz_bad.
Qed.
Print Assumptions camera_set_reads_back.

(** resetting after any sequence of operations (resets and failing operations included) *)
Theorem camera_reset_restores : forall c ops, wf c -> vec (reset (cam_run ops c)) = orig c.
Proof. exact reset_restores. Qed.
Print Assumptions camera_reset_restores.
(** a copy has the same parameters, and resets to the state at the time of the copy *)
Theorem camera_copy_state : forall c ops, wf c ->
  vec (copy c) = vec c /\ vec (reset (cam_run ops (copy c))) = vec c.
Proof. intros c ops W. split; [reflexivity|]. apply reset_restores. destruct W; split; auto. Qed.
Print Assumptions camera_copy_state.
Example camera_reset_ex : vec (reset (cam_run [OF [7; 8]; OXyz [1; 2; 3]; OIdealize] excam)) = excam_vec.
Proof. rewrite camera_reset_restores; [reflexivity|apply excam_wf]. Qed.

(** With arrays held in a heap and shared by reference, any program that
    creates, copies, resets and modifies cameras behaves as if each camera were
    an independent value: no copy or reset shares storage. *)
Theorem camera_objects_independent : forall l,
  cameras (run_actions l (mkworld [] [])) = run_spec l [].
Proof. exact run_refines. Qed.
Print Assumptions camera_objects_independent.
Definition exargs : cam_args := mkargs [4; 2] (Some [1; 1]) None None None None [] [] [] [] None.
Example camera_objects_ex : exists c, construct exargs = Ok c
  /\ run_spec [ANew exargs; ACopy 0; AOp 1 (OF [7; 8])] [] <> [].
Proof.
  destruct (construct_spec exargs) as [_ H]; try (cbn; unfold nonempty; congruence).
  destruct H as (c & E & _).
  { unfold rejected. cbn. intros [[[A|A] B]|[[A B]|[[A B]|[[A B]|A]]]]; try congruence. apply A.
    repeat constructor; eexists; reflexivity. }
  exists c. split; [exact E|]. cbn [run_spec act_spec]. rewrite E. cbn [app nth_error].
  destruct (cam_step (OF [7; 8]) (copy c)); cbn; congruence.
Qed.

(** C16.  The combinations rejected are spelled out by [rejected] in terms of
    which arguments are given. *)
Theorem camera_constructor : forall a,
  a_imgsz a <> [] -> nonempty (a_f a) -> nonempty (a_fmm a) -> nonempty (a_cmm a) -> nonempty (a_sensorsz a) ->
  (rejected a -> construct a = Err ValueError) /\
  (~ rejected a -> exists c, construct a = Ok c /\ wf c /\ orig c = vec c
     /\ correction c = a_correction a /\ sensorsz c = option_map pair_of (a_sensorsz a)
     /\ cget Xyz (vec c) = pad 3 0 (a_xyz a) /\ cget Viewdir (vec c) = pad 3 0 (a_viewdir a)
     /\ cget Imgsz (vec c) = pair_of (a_imgsz a) /\ get_imgsz c = map Rtrunc (pair_of (a_imgsz a))
     /\ cget Krad (vec c) = pad 6 0 (a_k a) /\ cget Ptan (vec c) = pad 2 0 (a_p a)
     /\ (forall f, a_f a = Some f -> cget Foc (vec c) = pair_of f)
     /\ (forall x, a_c a = Some x -> cget Cen (vec c) = pad 2 0 x)
     /\ (a_c a = None -> a_cmm a = None -> cget Cen (vec c) = [0; 0])
     /\ (forall m s, a_fmm a = Some m -> a_sensorsz a = Some s ->
           cget Foc (vec c) = map2 Rdiv (map2 Rmult (pair_of m) (pair_of (a_imgsz a))) (pair_of s))
     /\ (forall m s, a_cmm a = Some m -> a_sensorsz a = Some s ->
           cget Cen (vec c) = map2 Rdiv (map2 Rmult (pair_of m) (pair_of (a_imgsz a))) (pair_of s))).
Proof. exact construct_spec. Qed.
Print Assumptions camera_constructor.
Theorem camera_constructor_millimetres : forall a c,
  a_imgsz a <> [] -> nonempty (a_f a) -> nonempty (a_fmm a) -> nonempty (a_cmm a) -> nonempty (a_sensorsz a) ->
  construct a = Ok c ->
  (forall s, a_sensorsz a = Some s -> (forall x, In x (pair_of s) -> x <> 0)) ->
  (forall x, In x (pair_of (a_imgsz a)) -> x <> 0) ->
  (forall m, a_fmm a = Some m -> get_fmm c = Some (Ok (pair_of m)))
  /\ (forall m, a_cmm a = Some m -> get_cmm c = Some (Ok (pair_of m))).
Proof. exact construct_mm. Qed.
Print Assumptions camera_constructor_millimetres.
Example camera_constructor_ex :
  ~ rejected (mkargs [4; 2] None None (Some [24; 12]) (Some [50]) (Some [1; 2]) [] [] [] [] None)
  /\ rejected (mkargs [4; 2] None None None (Some [50]) None [] [] [] [] None).
Proof.
  split.
  - unfold rejected. cbn. intros [[[A|A] B]|[[A B]|[[A B]|[[A B]|A]]]]; try congruence. apply A.
    repeat constructor; eexists; reflexivity.
  - left. cbn. split; [left; congruence|reflexivity].
Qed.

(** C17 *)
Theorem camera_rotation_proper : forall v : vec3,
  (forall i j, (i < 3)%nat -> (j < 3)%nat ->
     dot3 (row i (rotation v)) (row j (rotation v)) = if (i =? j)%nat then 1 else 0)
  /\ det3 (rotation v) = 1
  /\ (forall p q, dot3 (apply3 (rotation v) p) (apply3 (rotation v) q) = dot3 p q)
  /\ cross3 (row 0 (rotation v)) (row 1 (rotation v)) = row 2 (rotation v).
Proof.
  intros v. split; [exact (rotation_orthonormal v)|]. split; [exact (rotation_det v)|].
  split; [exact (rotation_preserves_dot v)|exact (rotation_cross v)].
Qed.
Print Assumptions camera_rotation_proper.
Theorem camera_rotation_periodic : forall a b g,
  rotation (a + 360, b, g) = rotation (a, b, g) /\ rotation (a, b + 360, g) = rotation (a, b, g)
  /\ rotation (a, b, g + 360) = rotation (a, b, g).
Proof. exact rotation_periodic. Qed.
Print Assumptions camera_rotation_periodic.
(** the sequence of elementary rotations described in the source comment
    (point north, then yaw, pitch, roll) *)
Theorem camera_rotation_is_yaw_pitch_roll : forall y p r,
  let C t := cos (deg2rad t) in let S t := sin (deg2rad t) in
  let ri := rmat 1 0 0  0 0 (-1)  0 1 0 in
  let ry := rmat (C y) 0 (- S y)  0 1 0  (S y) 0 (C y) in
  let rp := rmat 1 0 0  0 (C p) (S p)  0 (- S p) (C p) in
  let rr := rmat (C r) (S r) 0  (- S r) (C r) 0  0 0 1 in
  rotation (y, p, r) = matmul rr (matmul rp (matmul ry ri)).
Proof. exact rotation_product. Qed.
Print Assumptions camera_rotation_is_yaw_pitch_roll.
Theorem camera_optical_axis : forall y p r,
  row 2 (rotation (y, p, r)) = (cos (deg2rad p) * sin (deg2rad y), cos (deg2rad y) * cos (deg2rad p), sin (deg2rad p)).
Proof. reflexivity. Qed.
Print Assumptions camera_optical_axis.

(** C18 *)
Theorem camera_rprime_is_derivative : forall v i j k, (i < 3)%nat -> (j < 3)%nat -> (k < 3)%nat ->
  derivable_pt_lim (fun t => entry (rotation (set_angle v j t)) k i) (comp j v) (rprime v i j k).
Proof. exact rprime_derivative. Qed.
Print Assumptions camera_rprime_is_derivative.

(** C19 *)
Theorem camera_unproject_project : forall c dirs d uv, no_distortion c ->
  (dirs = true \/ correction c = None) -> 0 < d -> f_ c 0 <> 0 -> f_ c 1 <> 0 ->
  xyz_to_uv c dirs (xy_to_xyz c dirs d (uv_to_xy c uv)) = Some uv
  /\ snd (xyz_to_xy c dirs (xy_to_xyz c dirs d (uv_to_xy c uv))) = d.
Proof. exact uv_round_trip. Qed.
Print Assumptions camera_unproject_project.
Theorem camera_project_unproject : forall c dirs p uv, no_distortion c ->
  (dirs = true \/ correction c = None) -> f_ c 0 <> 0 -> f_ c 1 <> 0 ->
  xyz_to_uv c dirs p = Some uv ->
  xy_to_xyz c dirs (snd (xyz_to_xy c dirs p)) (uv_to_xy c uv) = p.
Proof. exact xyz_round_trip. Qed.
Print Assumptions camera_project_unproject.
(** also with a k1 coefficient, off the vertical line through the principal point *)
Theorem camera_unproject_project_k1 : forall c k1 dirs d u v, k1_only c k1 ->
  (dirs = true \/ correction c = None) -> 0 < d -> f_ c 0 <> 0 -> f_ c 1 <> 0 ->
  (u <> center c 0 \/ v = center c 1) ->
  xyz_to_uv c dirs (xy_to_xyz c dirs d (uv_to_xy c (u, v))) = Some (u, v).
Proof.
  intros c k1 dirs d u v Hk Hd Hp F0 F1 Hu. apply uv_round_trip_general; auto. cbv zeta. cbn [fst snd].
  apply (k1_undistort_exact c k1); auto. destruct Hu as [Hu| ->].
  - left. apply Rmult_integral_contrapositive_currified; [lra|]. apply Rmult_integral_contrapositive_currified; [lra|].
    apply Rinv_neq_0_compat; auto.
  - right. ring.
Qed.
Print Assumptions camera_unproject_project_k1.
Theorem camera_project_unproject_k1 : forall c k1 dirs p uv, k1_only c k1 ->
  (dirs = true \/ correction c = None) -> f_ c 0 <> 0 -> f_ c 1 <> 0 ->
  (forall x y, fst (xyz_to_xy c dirs p) = Some (x, y) -> x <> 0 /\ (k1 < 0 -> x * x + y * y < - 1 / (3 * k1))) ->
  xyz_to_uv c dirs p = Some uv ->
  xy_to_xyz c dirs (snd (xyz_to_xy c dirs p)) (uv_to_xy c uv) = p.
Proof.
  intros c k1 dirs p uv Hk Hd F0 F1 Hx. apply xyz_round_trip_general; auto.
  intros [x y] E. destruct (Hx x y E). apply (k1_distort_undistort c k1); auto.
Qed.
Print Assumptions camera_project_unproject_k1.
Example camera_round_trip_ex : no_distortion excam /\ correction excam = None /\ f_ excam 0 <> 0 /\ f_ excam 1 <> 0.
Proof. split; [split; reflexivity|]. split; [reflexivity|]. unfold f_. cbn. lra. Qed.

(** C20 *)
Theorem camera_behind_is_nan : forall c dirs p, (dirs = true \/ correction c = None) ->
  snd (xyz_to_xy c dirs p) = axis_depth c dirs p
  /\ (xyz_to_uv c dirs p = None <-> axis_depth c dirs p <= 0)
  /\ (infront c dirs p = true <-> xyz_to_uv c dirs p <> None).
Proof. exact projection_depth. Qed.
Print Assumptions camera_behind_is_nan.
(** with elevation corrections, nan still means a depth that is not positive ... *)
Theorem camera_nan_iff_depth : forall c dirs p,
  xyz_to_uv c dirs p = None <-> snd (xyz_to_xy c dirs p) <= 0.
Proof. exact projection_nan_iff_depth. Qed.
Print Assumptions camera_nan_iff_depth.
(** ... but infront ignores the corrections *)
Theorem camera_infront_correction_refuted :
  ~ (forall c p, wf c -> (infront c false p = true <-> xyz_to_uv c false p <> None)).
Proof.
  intros H. set (v := [0; 0; 0; 0; 90; 0; 4; 2; 1; 1; 0; 0; 0; 0; 0; 0; 0; 0; 0; 0]).
  specialize (H (mkcam v v None (Some (1, 0))) (2, 0, 1) (conj eq_refl eq_refl)).
  assert (ER : row 2 (Rm (mkcam v v None (Some (1, 0)))) = (0, 0, 1)).
  { unfold Rm, get_viewdir, slice, v3. cbn [vec v skipn firstn nth]. unfold rotation. cbv zeta. cbn [row].
    unfold deg2rad. replace (90 * (PI / 180)) with (PI / 2) by field.
    rewrite cos_PI2, sin_PI2, !Rmult_0_l, Rmult_0_r. reflexivity. }
  destruct H as [H _]. apply H.
  - unfold infront. cbv zeta. rewrite ER. unfold get_xyz, slice, v3. cbn. apply Rltb_true. lra.
  - unfold xyz_to_uv, xyz_to_xy, offset. cbv zeta. rewrite ER. unfold get_xyz, slice, v3. cbn [vec v skipn firstn nth sub3 correction fst].
    unfold elevation_corrections.
    match goal with |- context [Rleb ?e 0] => assert (E : e <= 0) end.
    { cbn [dot3]. field_simplify. lra. }
    apply Rleb_true in E. rewrite E. reflexivity.
Qed.
Print Assumptions camera_infront_correction_refuted.

(** C21 *)
Theorem camera_ray_invariance : forall c d t, correction c = None -> 0 < t ->
  xyz_to_uv c false (add3 (scale3 t d) (v3 (get_xyz c))) = xyz_to_uv c true d.
Proof. exact ray_invariance. Qed.
Print Assumptions camera_ray_invariance.
Theorem camera_direction_scale : forall c t d, 0 < t -> xyz_to_uv c true (scale3 t d) = xyz_to_uv c true d.
Proof. exact xyz_to_uv_scale. Qed.
Print Assumptions camera_direction_scale.

(** C22 *)
Theorem camera_resize_integral : forall s force de c c' w h w' h', wf c -> scaled_from c -> integral_request s force ->
  resize s force de c = Ok c' ->
  cget Imgsz (vec c) = [w; h] -> cget Imgsz (vec c') = [w'; h'] ->
  (forall dirs p, xyz_to_uv c' dirs p =
    option_map (fun uv => (fst uv * (w' / w), snd uv * (h' / h))) (xyz_to_uv c dirs p))
  /\ (forall ss, sensorsz c = Some ss -> length ss = 2%nat -> ~ In 0 (cget Imgsz (vec c')) ->
        get_fmm c' = get_fmm c /\ get_cmm c' = get_cmm c)
  /\ resize_target s force de c = Ok [w'; h'].
Proof.
  intros s force de c c' w h w' h' W S Hi H Ew Ew'. split; [|split].
  - apply (resize_scales_projection s force de); auto.
  - intros ss Hs Hl Hn. apply (resize_keeps_fmm s force de c c' ss); auto.
  - destruct (resize_step s force de c c' W S Hi H) as (_ & _ & _ & _ & _ & _ & w1 & h1 & w2 & h2 & _ & _ & _ & Et & Ei & _).
    congruence.
Qed.
Print Assumptions camera_resize_integral.
Theorem camera_resize_factor_size : forall t force de c w0 h0, cget Imgsz (orig c) = [IZR w0; IZR h0] ->
  resize_target [t] force de c = Ok [IZR (Rfloor (t * IZR w0 + / 2)); IZR (Rfloor (t * IZR h0 + / 2))].
Proof. exact resize_factor_target. Qed.
Print Assumptions camera_resize_factor_size.
(** every sequence of successful resizes preserves the invariant above ... *)
Theorem camera_resize_sequence : forall c c', resized c c' -> wf c -> scaled_from c ->
  wf c' /\ scaled_from c' /\ orig c' = orig c /\ sensorsz c' = sensorsz c /\ correction c' = correction c
  /\ (forall q, ~ In q [Imgsz; Foc; Cen] -> cget q (vec c') = cget q (vec c)).
Proof. exact resized_inv. Qed.
Print Assumptions camera_resize_sequence.
(** ... and a final resize(1) restores every parameter. *)
Theorem camera_resize_one_restores : forall c c1 c2 force de, wf c -> vec c = orig c ->
  (exists w h, cget Imgsz (vec c) = [IZR w; IZR h] /\ w <> 0%Z /\ h <> 0%Z) ->
  resized c c1 -> resize [1] force de c1 = Ok c2 -> vec c2 = vec c.
Proof. exact resize_one_restores. Qed.
Print Assumptions camera_resize_one_restores.
Example camera_resize_ex : wf excam /\ scaled_from excam /\ exists c', resize [2] false 0 excam = Ok c'
  /\ cget Imgsz (vec c') = [8; 4].
Proof.
  split; [apply excam_wf|]. split.
  { apply scaled_init; [apply excam_wf|reflexivity|]. repeat constructor; eexists; reflexivity. }
  assert (F : forall n, Rfloor (IZR n + / 2) = n) by (intros; apply Rfloor_imp; lra).
  assert (Et : resize_target [2] false 0 excam = Ok [8; 4]).
  { rewrite (camera_resize_factor_size 2 false 0 excam 4 2) by reflexivity.
    replace (2 * 4 + / 2) with (8 + / 2) by lra. replace (2 * 2 + / 2) with (4 + / 2) by lra. rewrite !F. reflexivity. }
  assert (G : get_imgsz excam = [4%Z; 2%Z]).
  { unfold get_imgsz. cbn [excam vec excam_vec slice skipn firstn map]. rewrite !Rtrunc_IZR. reflexivity. }
  unfold resize. rewrite Et. cbn [bind]. rewrite G. cbn [existsb Z.eqb orb].
  unfold imgszR. rewrite G. unfold zip_op at 1. cbn [length map Nat.eqb bind map2].
  rewrite !Rround_IZR.
  destruct (set_imgsz_spec [8; 4] excam excam_wf) as (c1 & E1 & S1); [congruence|repeat constructor; eexists; reflexivity|].
  rewrite E1. cbn [bind]. destruct S1 as (W1 & _ & _ & _ & G1 & F1).
  assert (Ef : get_f c1 = [1; 1]) by (change (cgetc Foc c1 = [1; 1]); rewrite F1 by congruence; reflexivity).
  rewrite Ef. unfold zip_op at 1. cbn [length Nat.eqb bind map2].
  destruct (set_f_spec [1 * (8 / 4); 1 * (4 / 2)] c1 W1) as (c2 & E2 & S2); [congruence|].
  rewrite E2. cbn [bind]. destruct S2 as (W2 & _ & _ & _ & G2 & F2).
  assert (Ec : get_c c2 = [0; 0]) by (change (cgetc Cen c2 = [0; 0]); rewrite F2, F1 by congruence; reflexivity).
  rewrite Ec. unfold zip_op at 1. cbn [length Nat.eqb bind map2].
  destruct (set_c_spec [0 * (8 / 4); 0 * (4 / 2)] c2 W2) as (c3 & E3 & S3). exists c3. split; [exact E3|].
  destruct S3 as (_ & _ & _ & _ & _ & F3). change (cgetc Imgsz c3 = [8; 4]). rewrite F3, F2 by congruence. exact G1.
Qed.
(** force=True with a fractional size rounds the image size but not f and c *)
Theorem camera_resize_force_refuted :
  ~ (forall s de c c' w h w' h', wf c -> scaled_from c -> resize s true de c = Ok c' ->
       cget Imgsz (vec c) = [w; h] -> cget Imgsz (vec c') = [w'; h'] ->
       forall fx fy, cget Foc (vec c) = [fx; fy] -> cget Foc (vec c') = [fx * (w' / w); fy * (h' / h)]).
Proof.
  intros H.
  assert (G : get_imgsz excam = [4%Z; 2%Z]).
  { unfold get_imgsz. cbn [excam vec excam_vec slice skipn firstn map]. rewrite !Rtrunc_IZR. reflexivity. }
  assert (K : exists c', resize [5 - 3 / 4; 2] true 0 excam = Ok c' /\ cget Imgsz (vec c') = [4; 2]
     /\ cget Foc (vec c') = [1 * ((5 - 3 / 4) / 4); 1 * (2 / 2)]).
  { unfold resize. cbn [resize_target length Nat.ltb Nat.leb andb bind]. rewrite G. cbn [existsb Z.eqb orb].
    unfold imgszR. rewrite G. unfold zip_op at 1. cbn [length map Nat.eqb bind map2].
    rewrite Rround_IZR. rewrite (Rround_imp 4) by (apply Rabs_def1; lra).
    destruct (set_imgsz_spec [4; 2] excam excam_wf) as (c1 & E1 & S1); [congruence|repeat constructor; eexists; reflexivity|].
    rewrite E1. cbn [bind]. destruct S1 as (W1 & _ & _ & _ & G1 & F1).
    assert (Ef : get_f c1 = [1; 1]) by (change (cgetc Foc c1 = [1; 1]); rewrite F1 by congruence; reflexivity).
    rewrite Ef. unfold zip_op at 1. cbn [length Nat.eqb bind map2].
    destruct (set_f_spec [1 * ((5 - 3 / 4) / 4); 1 * (2 / 2)] c1 W1) as (c2 & E2 & S2); [congruence|].
    rewrite E2. cbn [bind]. destruct S2 as (W2 & _ & _ & _ & G2 & F2).
    assert (Ec : get_c c2 = [0; 0]) by (change (cgetc Cen c2 = [0; 0]); rewrite F2, F1 by congruence; reflexivity).
    rewrite Ec. unfold zip_op at 1. cbn [length Nat.eqb bind map2].
    destruct (set_c_spec [0 * ((5 - 3 / 4) / 4); 0 * (2 / 2)] c2 W2) as (c3 & E3 & S3). exists c3. split; [exact E3|].
    destruct S3 as (_ & _ & _ & _ & _ & F3). split.
    - change (cgetc Imgsz c3 = [4; 2]). rewrite F3, F2 by congruence. exact G1.
    - change (cgetc Foc c3 = pair_of [1 * ((5 - 3 / 4) / 4); 1 * (2 / 2)]). rewrite F3 by congruence. exact G2. }
  destruct K as (c' & E & Ei & Ef).
  assert (S : scaled_from excam).
  { apply scaled_init; [apply excam_wf|reflexivity|]. repeat constructor; eexists; reflexivity. }
  specialize (H _ _ _ _ 4 2 4 2 excam_wf S E eq_refl Ei 1 1 eq_refl). rewrite Ef in H. injection H as H. lra.
Qed.
Print Assumptions camera_resize_force_refuted.
(** the size check rounds half to even but the size is then rounded half up:
    with original size (5, 10) and factor 1/2, target (2, 5) is accepted as
    (3, 5) *)
Theorem camera_resize_target_size_refuted :
  ~ (forall n m de c new w0 h0, cget Imgsz (orig c) = [IZR w0; IZR h0] -> w0 <> 0%Z -> h0 <> 0%Z ->
       resize_target [IZR n; IZR m] false de c = Ok new -> new = [IZR n; IZR m]).
Proof.
  intros H. set (v := [0; 0; 0; 0; 0; 0; 5; 10; 1; 1; 0; 0; 0; 0; 0; 0; 0; 0; 0; 0]).
  assert (E : resize_target [IZR 2; IZR 5] false (/ 2) (mkcam v v None None) = Ok [3; 5]).
  { unfold resize_target. cbn [length Nat.ltb Nat.leb andb orig]. unfold slice. cbn [v skipn firstn].
    unfold get_scale_from_size. cbn [map2 forallb hd].
    destruct (Reqb_spec 2 5); [lra|]. cbn [andb].
    destruct (Reqb_spec (2 / 5) (2 / 5)); [|lra]. cbn [andb]. destruct (Reqb_spec (2 / 5) (5 / 10)); [lra|]. cbn [andb].
    assert (R1 : Rround (/ 2 * 5) = 2%Z).
    { unfold Rround. assert (Rfloor (/ 2 * 5) = 2%Z) as -> by (apply Rfloor_imp; lra).
      destruct (Rltb_spec (/ 2 * 5 - 2) (/ 2)); [lra|]. destruct (Rltb_spec (/ 2) (/ 2 * 5 - 2)); [lra|]. reflexivity. }
    assert (R2 : Rround (/ 2 * 10) = 5%Z) by (apply Rround_imp; apply Rabs_def1; lra).
    rewrite R1, R2. destruct (Reqb_spec (sumR [Rabs (2 - 2); Rabs (5 - 5)]) 0) as [_|N].
    - cbn [bind map]. assert (Rfloor (/ 2 * 5 + / 2) = 3%Z) as -> by (apply Rfloor_imp; lra).
      assert (Rfloor (/ 2 * 10 + / 2) = 5%Z) as -> by (apply Rfloor_imp; lra). reflexivity.
    - exfalso. apply N. cbn. replace (2 - 2) with 0 by ring. replace (5 - 5) with 0 by ring. rewrite Rabs_R0. ring. }
  specialize (H 2%Z 5%Z (/ 2) (mkcam v v None None) _ 5%Z 10%Z eq_refl ltac:(lia) ltac:(lia) E). injection H as H. lra.
Qed.
Print Assumptions camera_resize_target_size_refuted.

(** C23 *)
Theorem camera_k1_undistort_off_axis : forall c k1 x y, k1_only c k1 -> (x <> 0 \/ y = 0) ->
  distort c (undistort c (x, y)) = (x, y).
Proof. exact k1_undistort_exact. Qed.
Print Assumptions camera_k1_undistort_off_axis.
Theorem camera_k1_distort_undistort : forall c k1 x y, k1_only c k1 -> x <> 0 ->
  (k1 < 0 -> x * x + y * y < - 1 / (3 * k1)) ->
  undistort c (distort c (x, y)) = (x, y).
Proof. exact k1_distort_undistort. Qed.
Print Assumptions camera_k1_distort_undistort.
(** points on the vertical axis of the camera frame collapse to the center *)
Theorem camera_k1_undistort_refuted :
  (forall c k1 y, k1_only c k1 -> undistort c (0, y) = (0, 0))
  /\ ~ (forall c k1 x y, k1_only c k1 -> distort c (undistort c (x, y)) = (x, y)).
Proof.
  split; [exact k1_axis_collapses|]. intros H.
  set (v := [0; 0; 0; 0; 0; 0; 4; 2; 1; 1; 0; 0; 1; 0; 0; 0; 0; 0; 0; 0]).
  assert (K : k1_only (mkcam v v None None) 1) by (split; [reflexivity|split; [reflexivity|lra]]).
  specialize (H _ _ 0 1 K). rewrite (k1_axis_collapses _ 1) in H by auto. rewrite (distort_k1 _ 1) in H by auto.
  injection H as H. lra.
Qed.
Print Assumptions camera_k1_undistort_refuted.
(** general distortion: a fixed point of the iterative method is an exact inverse *)
Theorem camera_oulu_fixed_point_exact : forall c xy u,
  let r2 := fst u * fst u + snd u * snd u in
  radial_distortion c r2 <> 0 ->
  (anynz (get_k c) = true \/ anynz (get_p c) = true) ->
  oulu_step c xy u = u -> distort c u = xy.
Proof. exact oulu_fixed_point. Qed.
Print Assumptions camera_oulu_fixed_point_exact.
Example camera_k1_ex : exists c, k1_only c (- / 10) /\ undistort c (1 / 2, 1 / 4) <> (0, 0).
Proof.
  set (v := [0; 0; 0; 0; 0; 0; 4; 2; 1; 1; 0; 0; - / 10; 0; 0; 0; 0; 0; 0; 0]).
  assert (K : k1_only (mkcam v v None None) (- / 10)) by (split; [reflexivity|split; [reflexivity|lra]]).
  exists (mkcam v v None None). split; [exact K|]. intros E.
  pose proof (k1_undistort_exact _ _ (1 / 2) (1 / 4) K ltac:(left; lra)) as H. rewrite E in H.
  rewrite (distort_k1 _ _ _ _ K) in H. injection H as H _. lra.
Qed.

(** C24 *)
Theorem camera_rasterize_inside : forall c nx ny uv values, get_imgsz c = [nx; ny] -> (0 <= nx)%Z -> (0 <= ny)%Z ->
  length values = length uv ->
  (forall u v, In (Some (u, v)) uv -> inframe c (Some (u, v)) = true -> u < IZR nx /\ v < IZR ny) ->
  exists a, rasterize c uv values = Ok a /\ Z.of_nat (length a) = (ny * nx)%Z /\
    forall r q, (0 <= r < ny)%Z -> (0 <= q < nx)%Z ->
      nth_error a (Z.to_nat (r * nx + q)) =
        Some (match pixel_values uv values r q with
              | [] => None
              | here => Some (sumR here / IZR (Z.of_nat (length here)))
              end).
Proof. exact rasterize_spec. Qed.
Print Assumptions camera_rasterize_inside.
Theorem camera_rasterize_refuted :
  exists c uv values, (forall p, In p uv -> inframe c p = true) /\ length values = length uv
    /\ rasterize c uv values = Err ValueError.
Proof.
  exists excam, [Some (4, 1)], [1].
  assert (G : get_imgsz excam = [4%Z; 2%Z]).
  { unfold get_imgsz. cbn [excam vec excam_vec slice skipn firstn map]. rewrite !Rtrunc_IZR. reflexivity. }
  assert (F : inframe excam (Some (4, 1)) = true).
  { unfold inframe, imgszR. rewrite G. cbn [map nth]. rewrite !andb_true_iff, !Rleb_true. lra. }
  split; [intros p [<-|[]]; exact F|]. split; [reflexivity|].
  unfold rasterize. rewrite G. cbn [combine filter fst]. rewrite F. cbn [map fst snd nth].
  rewrite !Rtrunc_IZR. reflexivity.
Qed.
Print Assumptions camera_rasterize_refuted.

(** C25 *)
Theorem camera_unproject_depths_refuted : forall c dirs ds uv,
  (1 < length ds)%nat -> uv_to_xyz c dirs (DArray ds) uv = Err ValueError.
Proof. exact uv_to_xyz_array_raises. Qed.
Print Assumptions camera_unproject_depths_refuted.

(** C55 *)
Theorem camera_viewbox_contains_frustum : forall c W H depth, no_distortion c -> get_imgsz c = [W; H] -> (1 <= W)%Z -> (1 <= H)%Z ->
  f_ c 0 <> 0 -> f_ c 1 <> 0 -> 0 < depth ->
  exists lo hi, viewbox c depth = Ok (lo ++ hi) /\ length lo = 3%nat /\ length hi = 3%nat /\
    forall u v d, 0 <= u <= IZR W -> 0 <= v <= IZR H -> 0 <= d <= depth ->
      forall i, (i < 3)%nat ->
        nth i lo 0 <= comp i (xy_to_xyz c false d (uv_to_xy c (u, v))) <= nth i hi 0.
Proof. exact viewbox_contains_frustum. Qed.
Print Assumptions camera_viewbox_contains_frustum.
Example camera_viewbox_ex : no_distortion excam /\ get_imgsz excam = [4; 2]%Z.
Proof.
  split; [split; reflexivity|]. unfold get_imgsz. cbn [excam vec excam_vec slice skipn firstn map]. rewrite !Rtrunc_IZR. reflexivity.
Qed.

(** C56 *)
Theorem camera_spherical_inverse : forall c p, p <> v3 (get_xyz c) ->
  let '(az, alt, d) := xyz_to_spherical c false p in
  spherical_to_xyz c az alt (Some d) = p /\ 0 <= az < 360 /\ -90 <= alt <= 90 /\ 0 < d.
Proof. exact spherical_inverse. Qed.
Print Assumptions camera_spherical_inverse.
Theorem camera_spherical_round_trip : forall c az alt d, 0 <= az < 360 -> -90 < alt < 90 -> 0 < d ->
  xyz_to_spherical c false (spherical_to_xyz c az alt (Some d)) = (az, alt, d).
Proof. exact spherical_round_trip. Qed.
Print Assumptions camera_spherical_round_trip.
