(** Proofs: how the view of a camera changes when it is moved or turned. *)
From Verif Require Import Base BaseLemmas HelpersModel HelpersSpec CameraModel CameraSpec CameraStateProofs.
Open Scope R_scope.

(** the same lens and image: everything but the position and direction *)
Definition same_lens (c c' : cam) : Prop := correction c' = correction c /\ get_imgsz c' = get_imgsz c /\ get_f c' = get_f c /\ get_c c' = get_c c /\ get_k c' = get_k c /\ get_p c' = get_p c.
Lemma set_xyz_inv x y z c c' : wf c -> set_xyz [x; y; z] c = Ok c' -> same_lens c c' /\ get_xyz c' = [x; y; z] /\ get_viewdir c' = get_viewdir c.
Proof.
  intros W E. destruct (set_xyz_spec [x; y; z] c W) as (c1 & E1 & S). rewrite E in E1. injection E1 as <-. destruct S as (_ & _ & _ & CO & V & F).
  pose proof (F Imgsz ltac:(discriminate)) as F1. pose proof (F Foc ltac:(discriminate)) as F2. pose proof (F Cen ltac:(discriminate)) as F3. pose proof (F Krad ltac:(discriminate)) as F4. pose proof (F Ptan ltac:(discriminate)) as F5. pose proof (F Viewdir ltac:(discriminate)) as F6.
  unfold cgetc in *. cbn [cpos clen] in *. unfold same_lens, get_imgsz, get_f, get_c, get_k, get_p, get_xyz, get_viewdir. rewrite F1. repeat split; assumption.
Qed.
Lemma set_viewdir_inv x y z c c' : wf c -> set_viewdir [x; y; z] c = Ok c' -> same_lens c c' /\ get_viewdir c' = [x; y; z] /\ get_xyz c' = get_xyz c.
Proof.
  intros W E. destruct (set_viewdir_spec [x; y; z] c W) as (c1 & E1 & S). rewrite E in E1. injection E1 as <-. destruct S as (_ & _ & _ & CO & V & F).
  pose proof (F Imgsz ltac:(discriminate)) as F1. pose proof (F Foc ltac:(discriminate)) as F2. pose proof (F Cen ltac:(discriminate)) as F3. pose proof (F Krad ltac:(discriminate)) as F4. pose proof (F Ptan ltac:(discriminate)) as F5. pose proof (F Xyz ltac:(discriminate)) as F6.
  unfold cgetc in *. cbn [cpos clen] in *. unfold same_lens, get_imgsz, get_f, get_c, get_k, get_p, get_xyz, get_viewdir. rewrite F1. repeat split; assumption.
Qed.
Lemma same_lens_distort c c' q : same_lens c c' -> distort c' q = distort c q.
Proof. intros (_ & _ & _ & _ & K & P). destruct q as [x y]. unfold distort, radial_distortion, tangential_distortion, kk, pp. now rewrite K, P. Qed.
Lemma same_lens_uv c c' q : same_lens c c' -> xy_to_uv c' q = xy_to_uv c q.
Proof. intros S. unfold xy_to_uv. rewrite (same_lens_distort c c' q S). destruct S as (_ & I & F & C & _ & _). unfold f_, center, imgszR. now rewrite I, F, C. Qed.
Lemma iter_ext {A} (f g : A -> A) (H : forall x, f x = g x) n x : Nat.iter n f x = Nat.iter n g x.
Proof. induction n as [|n IH]; [reflexivity|]. change (f (Nat.iter n f x) = g (Nat.iter n g x)). now rewrite H, IH. Qed.
Lemma same_lens_xy c c' q : same_lens c c' -> uv_to_xy c' q = uv_to_xy c q.
Proof.
  intros (_ & I & F & C & K & P). destruct q as [u v]. unfold uv_to_xy, f_, center, imgszR. rewrite I, F, C. set (xy := (_, _)). clearbody xy. unfold undistort, kk. rewrite K, P.
  destruct (negb (anynz (get_k c)) && negb (anynz (get_p c)))%bool; [reflexivity|]. destruct (nonzero (nth 0 (get_k c) 0) && _ && _)%bool.
  - unfold undistort_k1, kk. now rewrite K.
  - unfold undistort_oulu. apply iter_ext. intros [a b]. unfold oulu_step, tangential_distortion, radial_distortion, kk, pp. now rewrite K, P.
Qed.

(** turned clockwise by [a] degrees about the vertical line through [o] *)
Definition turned (a : R) (d : vec3) : vec3 := let '(x, y, z) := d in let C := cos (deg2rad a) in let S := sin (deg2rad a) in (x * C + y * S, - x * S + y * C, z).
Definition turned_about (o : vec3) (a : R) (p : vec3) : vec3 := add3 o (turned a (sub3 p o)).
(** turned by [a] degrees in the image plane *)
Definition rolled (a : R) (q : vec2) : vec2 := let '(x, y) := q in let C := cos (deg2rad a) in let S := sin (deg2rad a) in (x * C + y * S, - x * S + y * C).

Lemma deg2rad_plus a b : deg2rad (a + b) = deg2rad a + deg2rad b. Proof. unfold deg2rad. ring. Qed.
Lemma unit_circle a : cos a * cos a + sin a * sin a = 1. Proof. pose proof (sin2_cos2 a). unfold Rsqr in *. lra. Qed.
Lemma sub3_turned o a p : sub3 (turned_about o a p) o = turned a (sub3 p o).
Proof. destruct o as [[o0 o1] o2], p as [[p0 p1] p2]. unfold turned_about, turned, sub3, add3. cbv zeta. apply (f_equal2 pair); [apply (f_equal2 pair)|]; ring. Qed.
Lemma rotation_yaw a y p r d i : (i < 3)%nat -> dot3 (row i (rotation (y + a, p, r))) (turned a d) = dot3 (row i (rotation (y, p, r))) d.
Proof.
  intros H. destruct d as [[d0 d1] d2]. unfold turned, rotation. cbv zeta. rewrite deg2rad_plus, cos_plus, sin_plus.
  pose proof (unit_circle (deg2rad a)) as U. generalize dependent (cos (deg2rad a)). generalize (sin (deg2rad a)). intros s c U.
  assert (U2 : s * s = 1 - c * c) by lra.
  destruct i as [|[|[|i]]]; [..|lia]; unfold row, dot3.
  - ring_simplify. replace (s ^ 2) with (1 - c * c) by (rewrite <- U2; ring). ring.
  - ring_simplify. replace (s ^ 2) with (1 - c * c) by (rewrite <- U2; ring). ring.
  - ring_simplify. replace (s ^ 2) with (1 - c * c) by (rewrite <- U2; ring). ring.
Qed.
Lemma turned_level a d : let '(x, y, z) := turned a d in let '(x0, y0, z0) := d in x * x + y * y = x0 * x0 + y0 * y0 /\ z = z0.
Proof.
  destruct d as [[x y] z]. unfold turned. cbv zeta. split; [|reflexivity]. pose proof (unit_circle (deg2rad a)) as U. generalize dependent (cos (deg2rad a)). generalize (sin (deg2rad a)). intros s c U.
  transitivity ((x * x + y * y) * (c * c + s * s)); [ring|rewrite U; ring].
Qed.
Lemma turned_drop a d e : let '(x, y, z) := turned a d in turned a (let '(x0, y0, z0) := d in (x0, y0, z0 + e)) = (x, y, z + e).
Proof. destruct d as [[x y] z]. reflexivity. Qed.
Lemma rotation_roll a y p r d :
  dot3 (row 0 (rotation (y, p, r + a))) d = cos (deg2rad a) * dot3 (row 0 (rotation (y, p, r))) d + sin (deg2rad a) * dot3 (row 1 (rotation (y, p, r))) d /\
  dot3 (row 1 (rotation (y, p, r + a))) d = cos (deg2rad a) * dot3 (row 1 (rotation (y, p, r))) d - sin (deg2rad a) * dot3 (row 0 (rotation (y, p, r))) d /\
  row 2 (rotation (y, p, r + a)) = row 2 (rotation (y, p, r)).
Proof. destruct d as [[d0 d1] d2]. unfold rotation. cbv zeta. rewrite deg2rad_plus, cos_plus, sin_plus. unfold row, dot3. split; [ring|]. split; [ring|reflexivity]. Qed.
Lemma rotation_flip y p r : rotation (y + 180, 180 - p, r + 180) = rotation (y, p, r).
Proof.
  assert (D : deg2rad 180 = PI) by (unfold deg2rad; field). replace (180 - p) with (- p + 180) by ring. unfold rotation. cbv zeta. rewrite !deg2rad_plus, D.
  replace (deg2rad (- p)) with (- deg2rad p) by (unfold deg2rad; ring).
  rewrite !neg_cos, !neg_sin, cos_neg, sin_neg. apply (f_equal2 pair); [apply (f_equal2 pair)|]; (apply (f_equal2 pair); [apply (f_equal2 pair)|]); ring.
Qed.
