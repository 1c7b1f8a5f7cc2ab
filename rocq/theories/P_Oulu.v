(** C114: removing distortion iteratively converges to the undistorted point. *)
From Coq Require Import Rgeom.
From Verif Require Import Base BaseLemmas HelpersModel CameraModel CameraSpec CameraStateProofs CameraProofs CameraProofs2 CameraProofs3 P_Camera2 OuluProofs.
Open Scope R_scope.

(** * Specification *)
(** [norm] and [away] (OuluProofs) are the Euclidean norm of a point and the distance of two points (dist_euc of the standard library). *)
(** Bounds over the disk of radius [rho], for the lens with coefficients k1, k2, k3, p1, p2: how much the radial factor differs from one, how fast it changes with the radius, and the ratio by which the error of a point at radius [r] shrinks in one pass *)
Definition deviation (k1 k2 k3 rho : R) : R := Rabs k1 * rho ^ 2 + Rabs k2 * rho ^ 4 + Rabs k3 * rho ^ 6.
Definition steepness (k1 k2 k3 rho : R) : R := 2 * Rabs k1 * rho + 4 * Rabs k2 * rho ^ 3 + 6 * Rabs k3 * rho ^ 5.
Definition ratio (k1 k2 k3 p1 p2 rho r : R) : R := (steepness k1 k2 k3 rho * r + 6 * rho * (Rabs p1 + Rabs p2)) / (1 - deviation k1 k2 k3 rho).

(** * Proofs *)
Theorem oulu_converges : forall c k1 k2 k3 k4 k5 k6 p1 p2 u rho A m n,
  get_k c = [k1; k2; k3; k4; k5; k6] -> get_p c = [p1; p2] ->
  let d a := lens_radial k1 k2 k3 k4 k5 k6 (a ^ 2) in
  0 < m -> (forall a, 0 <= a <= rho -> m <= d a) ->
  (forall a b, 0 <= a <= rho -> 0 <= b <= rho -> Rabs (d a - d b) <= A * Rabs (a - b)) ->
  let q := (A * norm u + 6 * rho * (Rabs p1 + Rabs p2)) / m in
  q <= 1 -> norm u + away (distort c u) u <= rho ->
  away (undistort_oulu c n (distort c u)) u <= q ^ n * away (distort c u) u.
Proof.
  intros c k1 k2 k3 k4 k5 k6 p1 p2 u rho A m n K P d Hm Hd HA q Hq Hu.
  exact (proj1 (iterations c k1 k2 k3 k4 k5 k6 p1 p2 K P u rho A m Hm Hd HA Hq Hu n)).
Qed.
Lemma poly_radial k1 k2 k3 w : lens_radial k1 k2 k3 0 0 0 w = 1 + k1 * w + k2 * w ^ 2 + k3 * w ^ 3.
Proof. unfold lens_radial. field. Qed.
Lemma abs_le_mult k s t : 0 <= s <= t -> - (Rabs k * t) <= k * s <= Rabs k * t.
Proof.
  intros H. pose proof (Rabs_pos k). pose proof (Rle_abs k). pose proof (Rle_abs (- k)). rewrite Rabs_Ropp in *.
  assert (Rabs k * s <= Rabs k * t) by (apply Rmult_le_compat_l; lra). assert (k * s <= Rabs k * s) by (apply Rmult_le_compat_r; lra). assert (- k * s <= Rabs k * s) by (apply Rmult_le_compat_r; lra). lra.
Qed.
Lemma poly_bounds k1 k2 k3 rho a : 0 <= a <= rho -> 1 - deviation k1 k2 k3 rho <= lens_radial k1 k2 k3 0 0 0 (a ^ 2) <= 1 + deviation k1 k2 k3 rho.
Proof.
  intros H. rewrite poly_radial. unfold deviation. rewrite <- !pow_mult. cbn [Nat.mul Nat.add].
  assert (Pw : forall n, 0 <= a ^ n <= rho ^ n) by (intros n; split; [apply pow_le; lra | apply pow_incr; lra]).
  pose proof (abs_le_mult k1 _ _ (Pw 2%nat)). pose proof (abs_le_mult k2 _ _ (Pw 4%nat)). pose proof (abs_le_mult k3 _ _ (Pw 6%nat)). lra.
Qed.
Lemma pow_lipschitz n a b rho : 0 <= a <= rho -> 0 <= b <= rho -> Rabs (a ^ S n - b ^ S n) <= INR (S n) * rho ^ n * Rabs (a - b).
Proof.
  intros Ha Hb. induction n as [| n IH]; [cbn [INR pow]; rewrite !Rmult_1_r, Rmult_1_l; lra |].
  replace (a ^ S (S n) - b ^ S (S n)) with (a * (a ^ S n - b ^ S n) + b ^ S n * (a - b)) by (cbn [pow]; ring).
  eapply Rle_trans; [apply Rabs_triang |]. rewrite !Rabs_mult, (Rabs_right a), (Rabs_right (b ^ S n)) by (try lra; apply Rle_ge, pow_le; lra).
  pose proof (Rabs_pos (a - b)) as D. pose proof (Rabs_pos (a ^ S n - b ^ S n)) as D2. assert (Hp : b ^ S n <= rho ^ S n) by (apply pow_incr; lra).
  pose proof (Rmult_le_compat_r _ _ _ D Hp). pose proof (Rmult_le_compat _ _ _ _ (proj1 Ha) D2 (proj2 Ha) IH) as M. rewrite (S_INR (S n)). replace (rho ^ S n) with (rho * rho ^ n) in * by reflexivity. lra.
Qed.
Lemma poly_steep k1 k2 k3 rho a b : 0 <= a <= rho -> 0 <= b <= rho -> Rabs (lens_radial k1 k2 k3 0 0 0 (a ^ 2) - lens_radial k1 k2 k3 0 0 0 (b ^ 2)) <= steepness k1 k2 k3 rho * Rabs (a - b).
Proof.
  intros Ha Hb. rewrite !poly_radial. rewrite <- !pow_mult. cbn [Nat.mul Nat.add].
  replace (1 + k1 * a ^ 2 + k2 * a ^ 4 + k3 * a ^ 6 - (1 + k1 * b ^ 2 + k2 * b ^ 4 + k3 * b ^ 6)) with (k1 * (a ^ 2 - b ^ 2) + k2 * (a ^ 4 - b ^ 4) + k3 * (a ^ 6 - b ^ 6)) by ring.
  eapply Rle_trans; [apply Rabs_triang |]. pose proof (Rabs_triang (k1 * (a ^ 2 - b ^ 2)) (k2 * (a ^ 4 - b ^ 4))) as T. rewrite !Rabs_mult in *.
  pose proof (Rmult_le_compat_l _ _ _ (Rabs_pos k1) (pow_lipschitz 1 a b rho Ha Hb)) as E1. pose proof (Rmult_le_compat_l _ _ _ (Rabs_pos k2) (pow_lipschitz 3 a b rho Ha Hb)) as E2. pose proof (Rmult_le_compat_l _ _ _ (Rabs_pos k3) (pow_lipschitz 5 a b rho Ha Hb)) as E3.
  replace (INR 2) with 2 in E1 by (cbn; ring). replace (INR 4) with 4 in E2 by (cbn; ring). replace (INR 6) with 6 in E3 by (cbn; ring). unfold steepness. rewrite pow_1 in E1. lra.
Qed.
(** cameras without denominator coefficients: the error of undistorting a distorted point is at most ratio ^ 20 times the displacement, and distorting again misses the point by little more *)
Theorem undistort_converges : forall c k1 k2 k3 p1 p2 u rho,
  get_k c = [k1; k2; k3; 0; 0; 0] -> get_p c = [p1; p2] -> (k2 <> 0 \/ k3 <> 0 \/ p1 <> 0 \/ p2 <> 0) ->
  deviation k1 k2 k3 rho < 1 -> let q := ratio k1 k2 k3 p1 p2 rho (norm u) in q <= 1 ->
  norm u + away (distort c u) u <= rho ->
  away (undistort c (distort c u)) u <= q ^ 20 * away (distort c u) u /\
  away (distort c (undistort c (distort c u))) (distort c u) <= (1 + deviation k1 k2 k3 rho) * (q ^ 20 + q ^ 21) * away (distort c u) u.
Proof.
  intros c k1 k2 k3 p1 p2 u rho K P N D q Hq Hu.
  assert (E : forall xy, undistort c xy = undistort_oulu c 20 xy).
  { intros xy. unfold undistort, kk. rewrite K, P. cbn [tl nth].
    assert (Nz : forall x, x <> 0 -> nonzero x = true) by (intros x H; unfold nonzero, Reqb; destruct (Req_EM_T x 0); [contradiction | reflexivity]).
    assert (Any : forall x l, In x l -> x <> 0 -> anynz l = true) by (intros x l I H; unfold anynz; apply existsb_exists; exists x; split; [exact I | apply Nz; exact H]).
    assert (A2 : (anynz [k2; k3; 0; 0; 0] = true \/ anynz [p1; p2] = true)).
    { destruct N as [H | [H | [H | H]]]; [left; apply (Any k2) | left; apply (Any k3) | right; apply (Any p1) | right; apply (Any p2)]; try exact H; cbn; tauto. }
    assert (A1 : anynz [k2; k3; 0; 0; 0] = true -> anynz [k1; k2; k3; 0; 0; 0] = true) by (intros H; unfold anynz in *; cbn [existsb] in *; rewrite H; apply orb_true_r).
    destruct A2 as [H | H]; [rewrite (A1 H), H | rewrite H]; cbn [negb andb]; rewrite ?andb_false_r; reflexivity. }
  rewrite E.
  assert (Hb : forall a, 0 <= a <= rho -> 1 - deviation k1 k2 k3 rho <= lens_radial k1 k2 k3 0 0 0 (a ^ 2)) by (intros a Ha; apply poly_bounds; exact Ha).
  pose proof (fun a b => poly_steep k1 k2 k3 rho a b) as Hs.
  split.
  - apply (oulu_converges c k1 k2 k3 0 0 0 p1 p2 u rho (steepness k1 k2 k3 rho) (1 - deviation k1 k2 k3 rho)); try assumption. lra.
  - apply (residual c k1 k2 k3 0 0 0 p1 p2 K P u rho (steepness k1 k2 k3 rho) (1 - deviation k1 k2 k3 rho) ltac:(lra) Hb Hs Hq Hu 20).
    intros a Ha. apply poly_bounds; exact Ha.
Qed.
(** ** World points *)
Definition apart3 (p q : vec3) : R := sqrt (dot3 (sub3 p q) (sub3 p q)).
Lemma seen_point c dirs p u : (dirs = true \/ correction c = None) -> fst (xyz_to_xy c dirs p) = Some u -> 0 < snd (xyz_to_xy c dirs p) /\ xy_to_xyz c dirs (snd (xyz_to_xy c dirs p)) u = p.
Proof.
  intros Hd E. rewrite xy_to_xyz_ray. cbv zeta. unfold xyz_to_xy in E |- *. cbv zeta in E |- *. cbn [fst snd] in E |- *.
  assert (Eo : offset c dirs p = if dirs then p else sub3 p (v3 (get_xyz c))).
  { unfold offset. destruct dirs; auto. destruct (sub3 p (v3 (get_xyz c))) as [[? ?] ?]. destruct Hd as [Hd|Hd]; [discriminate|]. rewrite Hd. reflexivity. }
  set (z := dot3 (row 2 (Rm c)) (offset c dirs p)) in *.
  destruct (Rleb_spec z 0) as [|Hz]; [discriminate|]. split; [lra |].
  assert (Exy : u = (dot3 (row 0 (Rm c)) (offset c dirs p) / z, dot3 (row 1 (Rm c)) (offset c dirs p) / z)) by congruence.
  rewrite Exy. cbn [fst snd]. rewrite scale_ray by lra. unfold z, Rm. rewrite rotation_expand, Eo. destruct dirs; auto. apply add_sub_3.
Qed.
Lemma apart3_ray c dirs z u v : 0 < z -> apart3 (xy_to_xyz c dirs z u) (xy_to_xyz c dirs z v) = z * away u v.
Proof.
  intros Hz. unfold apart3. rewrite away_norm. unfold norm. cbn [fst snd].
  assert (E : dot3 (sub3 (xy_to_xyz c dirs z u) (xy_to_xyz c dirs z v)) (sub3 (xy_to_xyz c dirs z u) (xy_to_xyz c dirs z v)) = (z * z) * ((fst u - fst v) ^ 2 + (snd u - snd v) ^ 2)).
  { rewrite !xy_to_xyz_ray. cbv zeta. unfold ray_of, Rm.
    pose proof (rotation_orthonormal (v3 (get_viewdir c)) 0 0 ltac:(lia) ltac:(lia)) as H0. pose proof (rotation_orthonormal (v3 (get_viewdir c)) 1 1 ltac:(lia) ltac:(lia)) as H1. pose proof (rotation_orthonormal (v3 (get_viewdir c)) 0 1 ltac:(lia) ltac:(lia)) as H2. cbn [Nat.eqb] in *.
    generalize dependent (rotation (v3 (get_viewdir c))). intros [[r0 r1] r2]. cbn [row]. intros. generalize (v3 (get_xyz c)). intros o.
    set (a := fst u - fst v). set (b := snd u - snd v).
    transitivity (z * z * (a ^ 2 * dot3 r0 r0 + b ^ 2 * dot3 r1 r1 + 2 * a * b * dot3 r0 r1)); [| rewrite H0, H1, H2; ring].
    unfold a, b. destruct r0 as [[? ?] ?], r1 as [[? ?] ?], r2 as [[? ?] ?], o as [[? ?] ?]. destruct dirs; cbn [dot3 sub3 add3 scale3]; ring. }
  rewrite E, sqrt_mult_alt by (apply Rmult_le_pos; lra). rewrite sqrt_square by lra. reflexivity.
Qed.
Lemma away_affine x y x' y' f0 f1 c0 c1 : away (x * f0 + c0, y * f1 + c1) (x' * f0 + c0, y' * f1 + c1) <= Rmax (Rabs f0) (Rabs f1) * away (x, y) (x', y').
Proof.
  rewrite !away_norm. cbn [fst snd]. set (M := Rmax (Rabs f0) (Rabs f1)). assert (M0 : Rabs f0 <= M) by apply Rmax_l. assert (M1 : Rabs f1 <= M) by apply Rmax_r. pose proof (Rabs_pos f0). pose proof (Rabs_pos f1).
  apply norm_le; [apply Rmult_le_pos; [lra | apply norm_pos] |]. set (a := x - x'). set (b := y - y').
  replace (M * norm (a, b) * (M * norm (a, b))) with (M * M * (norm (a, b) * norm (a, b))) by ring. rewrite norm_sq. cbn [fst snd].
  replace (x * f0 + c0 - (x' * f0 + c0)) with (a * f0) by (unfold a; ring). replace (y * f1 + c1 - (y' * f1 + c1)) with (b * f1) by (unfold b; ring).
  assert (S : forall f t, Rabs f <= M -> (t * f) ^ 2 <= M * M * t ^ 2).
  { intros f t Hf. replace ((t * f) ^ 2) with (t ^ 2 * (f * f)) by ring. replace (f * f) with (Rabs f * Rabs f) by (rewrite <- Rabs_mult, Rabs_right; [reflexivity | apply Rle_ge, Rle_0_sqr]).
    rewrite (Rmult_comm (M * M)). apply Rmult_le_compat_l; [apply pow2_ge_0 |]. pose proof (Rabs_pos f). apply Rmult_le_compat; lra. }
  pose proof (S f0 a M0). pose proof (S f1 b M1). lra.
Qed.
(** a world point that projects to uv, and the point at its depth that is computed from uv: how far apart they are, and how far the latter projects from uv *)
Theorem unproject_error : forall c dirs p u uv k1 k2 k3 p1 p2 rho,
  (dirs = true \/ correction c = None) -> f_ c 0 <> 0 -> f_ c 1 <> 0 ->
  get_k c = [k1; k2; k3; 0; 0; 0] -> get_p c = [p1; p2] -> (k2 <> 0 \/ k3 <> 0 \/ p1 <> 0 \/ p2 <> 0) ->
  fst (xyz_to_xy c dirs p) = Some u -> xyz_to_uv c dirs p = Some uv ->
  deviation k1 k2 k3 rho < 1 -> let q := ratio k1 k2 k3 p1 p2 rho (norm u) in q <= 1 ->
  norm u + away (distort c u) u <= rho ->
  let depth := snd (xyz_to_xy c dirs p) in
  let p' := xy_to_xyz c dirs depth (uv_to_xy c uv) in
  apart3 p' p <= depth * (q ^ 20 * away (distort c u) u) /\
  exists uv', xyz_to_uv c dirs p' = Some uv' /\ away uv' uv <= Rmax (Rabs (f_ c 0)) (Rabs (f_ c 1)) * ((1 + deviation k1 k2 k3 rho) * (q ^ 20 + q ^ 21) * away (distort c u) u).
Proof.
  intros c dirs p u uv k1 k2 k3 p1 p2 rho Hd F0 F1 K P N E Euv D q Hq Hu depth p'.
  destruct (undistort_converges c k1 k2 k3 p1 p2 u rho K P N D Hq Hu) as [C1 C2]. fold q in C1, C2.
  destruct (seen_point c dirs p u Hd E) as [Z Ep]. fold depth in Z, Ep.
  assert (Ex : uv_to_xy c uv = undistort c (distort c u)).
  { unfold xyz_to_uv in Euv. rewrite E in Euv. cbn [option_map] in Euv. injection Euv as <-. unfold uv_to_xy, xy_to_uv. destruct (distort c u) as [x y] eqn:Ed.
    replace ((x * f_ c 0 + center c 0 - center c 0) * (1 / f_ c 0)) with x by (field; auto).
    replace ((y * f_ c 1 + center c 1 - center c 1) * (1 / f_ c 1)) with y by (field; auto). reflexivity. }
  unfold p'. rewrite Ex. set (w := undistort c (distort c u)) in *. split.
  - rewrite <- Ep at 1. rewrite apart3_ray by exact Z. apply Rmult_le_compat_l; [lra | exact C1].
  - exists (xy_to_uv c w). split.
    + unfold xyz_to_uv. rewrite xyz_to_xy_inv by assumption. reflexivity.
    + unfold xyz_to_uv in Euv. rewrite E in Euv. cbn [option_map] in Euv. apply (f_equal (fun o => match o with Some x => x | None => (0, 0) end)) in Euv. rewrite <- Euv. unfold xy_to_uv. destruct (distort c w) as [x y], (distort c u) as [x' y'].
      eapply Rle_trans; [apply away_affine |]. apply Rmult_le_compat_l; [| exact C2]. eapply Rle_trans; [apply (Rabs_pos (f_ c 0)) | apply Rmax_l].
Qed.
Print Assumptions oulu_converges.
Print Assumptions undistort_converges.
Print Assumptions unproject_error.
(** * The hypotheses are met *)
(** k1 = -1/10, k2 = 1/50, p1 = 1/1000: within half a focal length of the axis the error shrinks at least eightfold in each pass *)
Definition lens_cam : cam := mkcam (map IZR [0; 0; 0; 0; 0; 0; 1000; 1000; 1000; 1000; 0; 0]%Z ++ [- / 10; / 50; 0; 0; 0; 0; / 1000; 0]) [] None None.
Example ex_ratio : 0 <= ratio (- / 10) (/ 50) 0 (/ 1000) 0 (6 / 10) (/ 2) <= / 8 /\ deviation (- / 10) (/ 50) 0 (6 / 10) < 1.
Proof.
  assert (A1 : Rabs (- / 10) = / 10) by (rewrite Rabs_Ropp, Rabs_right; lra). assert (A2 : Rabs (/ 50) = / 50) by (rewrite Rabs_right; lra). assert (A3 : Rabs (/ 1000) = / 1000) by (rewrite Rabs_right; lra).
  assert (D : deviation (- / 10) (/ 50) 0 (6 / 10) = 38592 / 1000000) by (unfold deviation; rewrite A1, A2, Rabs_R0; lra).
  assert (S : steepness (- / 10) (/ 50) 0 (6 / 10) = 13728 / 100000) by (unfold steepness; rewrite A1, A2, Rabs_R0; lra).
  unfold ratio. rewrite S, D, A3, Rabs_R0. split; lra.
Qed.
Example ex_undistort : let u := (3 / 10, 4 / 10) in
  norm u = / 2 /\ norm u + away (distort lens_cam u) u <= 6 / 10 /\ away (undistort lens_cam (distort lens_cam u)) u <= (/ 8) ^ 20 * away (distort lens_cam u) u.
Proof.
  intros u. assert (Nu : norm u = / 2) by (unfold norm, u; cbn [fst snd]; replace ((3 / 10) ^ 2 + (4 / 10) ^ 2) with (/ 2 * / 2) by field; apply sqrt_square; lra).
  assert (K : get_k lens_cam = [- / 10; / 50; 0; 0; 0; 0]) by reflexivity. assert (P : get_p lens_cam = [/ 1000; 0]) by reflexivity.
  assert (Hu : norm u + away (distort lens_cam u) u <= 6 / 10).
  { rewrite Nu. assert (away (distort lens_cam u) u <= 1 / 10); [| lra]. unfold u. rewrite (distort_formula _ _ _ _ _ _ _ _ _ _ _ K P). rewrite away_norm. apply norm_le; [lra |]. unfold lens, lens_radial. cbn [fst snd]. lra. }
  destruct ex_ratio as [[R0 R1] D]. split; [exact Nu |]. split; [exact Hu |].
  destruct (undistort_converges lens_cam (- / 10) (/ 50) 0 (/ 1000) 0 u (6 / 10) K P ltac:(left; lra) D ltac:(rewrite Nu; lra) Hu) as [C _]. rewrite Nu in C.
  eapply Rle_trans; [exact C |]. apply Rmult_le_compat_r; [apply away_pos |]. apply pow_incr. split; assumption.
Qed.
