(** C104: the mean radius of the scale factors is the mean distance of the points of a square image from its center. *)
From Verif Require Import Base BaseLemmas HelpersModel CameraModel CameraStateProofs CameraProofs ScalesModel P_Camera2 P_Scales.
Open Scope R_scope.

(** * Specification *)
(** [m] is the mean distance to the center of the points of a square of side [s].  The square consists of eight mirror images of the triangle 0 <= y <= x <= s / 2 about its center, so this is the mean over that triangle: the integral over x of the integrals over y of the distance is [m] times the area. *)
Definition mean_distance (s m : R) : Prop :=
  exists (inner : R -> R) (outer : Riemann_integrable inner 0 (s / 2)),
    (forall x, 0 <= x <= s / 2 -> exists pr : Riemann_integrable (fun y => sqrt (x ^ 2 + y ^ 2)) 0 x, RiemannInt pr = inner x) /\
    RiemannInt outer = m * ((s / 2) * (s / 2) / 2).

(** * Proofs *)
Lemma ftc (F f : R -> R) a b (D : forall x, derivable_pt_lim F x (f x)) (C : continuity f) : a <= b -> exists pr : Riemann_integrable f a b, RiemannInt pr = F b - F a.
Proof.
  intros L. assert (pr : Riemann_integrable f a b) by (apply continuity_implies_RiemannInt; [exact L | intros x _; apply C]). exists pr.
  set (d := (fun x => exist (fun l => derivable_pt_abs F x l) (f x) (D x)) : derivable F).
  set (G := @mkC1 F d C). exact (@FTC_Riemann G a b pr).
Qed.
Lemma sqrt_cont x : x <> 0 -> continuity (fun y => sqrt (x ^ 2 + y ^ 2)).
Proof.
  intros N y. apply (continuity_pt_comp (fun y => x ^ 2 + y ^ 2) sqrt); [reg |].
  apply derivable_continuous_pt. exists (/ (2 * sqrt (x ^ 2 + y ^ 2))). apply derivable_pt_lim_sqrt.
  pose proof (Rsqr_pos_lt x N) as H. pose proof (Rle_0_sqr y). unfold Rsqr in *. lra.
Qed.
Lemma prim x y : 0 < x -> derivable_pt_lim (fun y => x ^ 2 * ((y * / x) * sqrt ((y * / x) ^ 2 + 1) + arcsinh (y * / x)) / 2) y (sqrt (x ^ 2 + y ^ 2)).
Proof.
  intros P. set (t := y * / x). set (r := sqrt (t ^ 2 + 1)).
  assert (Hp : 0 < t ^ 2 + 1) by (pose proof (Rle_0_sqr t); unfold Rsqr in *; lra).
  assert (Hr : 0 < r) by (apply sqrt_lt_R0; exact Hp). assert (Er : r * r = t ^ 2 + 1) by (apply sqrt_sqrt; lra).
  assert (Et : sqrt (x ^ 2 + y ^ 2) = x * r).
  { replace (x ^ 2 + y ^ 2) with ((x * x) * (t ^ 2 + 1)) by (unfold t; field; lra). rewrite sqrt_mult by (try lra; nra). rewrite sqrt_square by lra. reflexivity. }
  assert (A : derivable_pt_lim (fun t => t * sqrt (t ^ 2 + 1) + arcsinh t) t (2 * r)).
  { replace (2 * r) with ((1 * r + t * (/ (2 * r) * (2 * t + 0))) + / r) by (apply (Rmult_eq_reg_l r); [| lra]; field_simplify; [| lra]; replace (r ^ 2) with (t ^ 2 + 1) by (rewrite <- Er; ring); field).
    apply derivable_pt_lim_plus; [| apply derivable_pt_lim_arcsinh].
    apply (derivable_pt_lim_mult (fun t => t) (fun t => sqrt (t ^ 2 + 1))); [apply derivable_pt_lim_id |].
    apply (derivable_pt_lim_comp (fun t => t ^ 2 + 1) sqrt); [| apply derivable_pt_lim_sqrt; exact Hp].
    apply (derivable_pt_lim_plus (fun t => t ^ 2) (fun _ => 1)); [| apply derivable_pt_lim_const].
    replace (2 * t) with (INR 2 * t ^ 1) by (cbn; ring). apply (derivable_pt_lim_pow t 2). }
  rewrite Et. replace (x * r) with (x ^ 2 * / 2 * ((2 * r) * / x)) by (field; lra).
  assert (B : derivable_pt_lim (fun y => y * / x) y (/ x)).
  { pose proof (derivable_pt_lim_mult (fun y => y) (fun _ => / x) y _ _ (derivable_pt_lim_id y) (derivable_pt_lim_const (/ x) y)) as M. cbv beta in M. replace (1 * / x + y * 0) with (/ x) in M by ring. exact M. }
  pose proof (derivable_pt_lim_comp (fun y => y * / x) (fun t => t * sqrt (t ^ 2 + 1) + arcsinh t) y _ _ B A) as Cc.
  pose proof (derivable_pt_lim_scal _ (x ^ 2 * / 2) y _ Cc) as Dd.
  intros e He. destruct (Dd e He) as [del Hd]. exists del. intros h H0 H1. specialize (Hd h H0 H1). unfold mult_real_fct in Hd.
  match type of Hd with Rabs ?u < _ => match goal with |- Rabs ?v < _ => replace v with u; [exact Hd |] end end.
  unfold Ranalysis1.comp, Rdiv. ring.
Qed.
Lemma inner_int x : 0 <= x -> exists pr : Riemann_integrable (fun y => sqrt (x ^ 2 + y ^ 2)) 0 x, RiemannInt pr = (sqrt 2 + ln (1 + sqrt 2)) / 2 * x ^ 2.
Proof.
  intros H. destruct (Req_dec x 0) as [-> | N].
  - exists (RiemannInt_P7 _ 0). rewrite RiemannInt_P9. ring.
  - assert (P : 0 < x) by lra.
    destruct (ftc _ (fun y => sqrt (x ^ 2 + y ^ 2)) 0 x (fun y => prim x y P) (sqrt_cont x N) H) as [pr E]. exists pr. rewrite E.
    rewrite Rinv_r, Rmult_0_l by lra. rewrite arcsinh_0. unfold arcsinh. replace (1 ^ 2 + 1) with 2 by ring. field.
Qed.
Theorem mean_radius : forall c s, 0 < s -> imgszR c = [s; s] -> mean_distance s (mean_r_uv c).
Proof.
  intros c s P E. set (k := (sqrt 2 + ln (1 + sqrt 2)) / 2). set (F := fun x => k / 3 * x ^ 3).
  assert (D : forall x, derivable_pt_lim F x (k * x ^ 2)).
  { intros x. replace (k * x ^ 2) with (k / 3 * (INR 3 * x ^ 2)) by (cbn; field). apply (derivable_pt_lim_scal (fun x => x ^ 3) (k / 3)). apply (derivable_pt_lim_pow x 3). }
  destruct (ftc F (fun x => k * x ^ 2) 0 (s / 2) D ltac:(reg) ltac:(lra)) as [pr Ep].
  exists (fun x => k * x ^ 2), pr. split.
  - intros x Hx. apply inner_int. lra.
  - rewrite Ep. unfold F, mean_r_uv, mean2. rewrite E. cbn [nth]. unfold k. field.
Qed.
(** images that are not square: the mean distance in a square whose side is the mean of both sides; camera coordinates: divided by the mean of both focal lengths *)
Theorem mean_radius_any : forall c, proper c ->
  mean_distance ((nth 0 (imgszR c) 0 + nth 1 (imgszR c) 0) / 2) (mean_r_uv c) /\ mean_r_uv c = mean_r_xy c * ((f_ c 0 + f_ c 1) / 2).
Proof.
  intros c (L & W & H & F0 & F1). split.
  - set (s := (nth 0 (imgszR c) 0 + nth 1 (imgszR c) 0) / 2). assert (P : 0 < s) by (unfold s; lra).
    set (k := (sqrt 2 + ln (1 + sqrt 2)) / 2). set (F := fun x => k / 3 * x ^ 3).
    assert (D : forall x, derivable_pt_lim F x (k * x ^ 2)).
    { intros x. replace (k * x ^ 2) with (k / 3 * (INR 3 * x ^ 2)) by (cbn; field). apply (derivable_pt_lim_scal (fun x => x ^ 3) (k / 3)). apply (derivable_pt_lim_pow x 3). }
    destruct (ftc F (fun x => k * x ^ 2) 0 (s / 2) D ltac:(reg) ltac:(lra)) as [pr Ep].
    exists (fun x => k * x ^ 2), pr. split; [intros x Hx; apply inner_int; lra |]. rewrite Ep. unfold F, mean_r_uv, mean2. fold s. unfold k. field.
  - unfold mean_r_xy, mean2. unfold f_ in *. field. lra.
Qed.
(** Finding: the factors of the denominator's coefficients.  Where only the coefficient in question is not zero, its change by the factor displaces points at the mean radius by this much instead of one pixel (about 0.7, 0.35 and 0.18 pixels when the coefficient is zero, as for the numerator) *)
Lemma Rinv_4 a : 1 / a = / a.
Proof. unfold Rdiv. apply Rmult_1_l. Qed.
Lemma apart_back x y u v t r : 0 <= t * r -> x ^ 2 + y ^ 2 = r ^ 2 -> apart (u - t * x, v - t * y) (u, v) = t * r.
Proof. intros H E. unfold apart. cbn [fst snd]. replace ((u - t * x - u) ^ 2 + (v - t * y - v) ^ 2) with (t ^ 2 * (x ^ 2 + y ^ 2)) by ring. rewrite E. replace (t ^ 2 * r ^ 2) with ((t * r) * (t * r)) by ring. apply sqrt_square; exact H. Qed.
Lemma lens_k4 k w : lens_radial 0 0 0 k 0 0 w = / (1 + k * w ^ 1).
Proof. unfold lens_radial, Rdiv. replace (1 + 0 * w + 0 * w ^ 2 + 0 * w ^ 3) with 1 by ring. rewrite Rmult_1_l. apply f_equal. ring. Qed.
Lemma lens_k5 k w : lens_radial 0 0 0 0 k 0 w = / (1 + k * w ^ 2).
Proof. unfold lens_radial, Rdiv. replace (1 + 0 * w + 0 * w ^ 2 + 0 * w ^ 3) with 1 by ring. rewrite Rmult_1_l. apply f_equal. ring. Qed.
Lemma lens_k6 k w : lens_radial 0 0 0 0 0 k w = / (1 + k * w ^ 3).
Proof. unfold lens_radial, Rdiv. replace (1 + 0 * w + 0 * w ^ 2 + 0 * w ^ 3) with 1 by ring. rewrite Rmult_1_l. apply f_equal. ring. Qed.
Theorem scale_denominator_refuted : forall i o c controls p x y, (i < 3)%nat -> proper c -> square c ->
  (forall j, (j < 6)%nat -> j <> (3 + i)%nat -> kk c j = 0) -> 0 < 1 + kk c (3 + i) * mean_r_xy c ^ (2 * i + 2) ->
  fst (xyz_to_xy c false p) = Some (x, y) -> x ^ 2 + y ^ 2 = mean_r_xy c ^ 2 ->
  displaces c (changed (15 + i) (scale (15 + i) o c controls) c) p (/ ((1 + kk c (3 + i) * mean_r_xy c ^ (2 * i + 2)) * (2 ^ i * sqrt 2 + / mean_r_uv c))).
Proof.
  intros i o c controls p x y Hi P Q Kz Dp E Rd. destruct (mean_r_pos c P) as (A & B & F). pose proof P as (L & _).
  assert (S2 : 0 < sqrt 2) by (apply sqrt_lt_R0; lra).
  assert (Ef : mean2 (get_f c) = f_ c 0) by (unfold mean2, square in *; unfold f_ in *; lra).
  assert (Em : mean_r_uv c = mean_r_xy c * f_ c 0) by (unfold mean_r_xy; rewrite Ef in *; field; lra). rewrite Ef in F.
  assert (P2 : 0 < 2 ^ i) by (apply pow_lt; lra). set (q := 2 ^ i * sqrt 2). assert (Pq : 0 < q) by (apply Rmult_lt_0_compat; assumption).
  set (r := mean_r_xy c) in *. set (K := kk c (3 + i)) in *. set (D := 1 + K * r ^ (2 * i + 2)) in *.
  assert (Pr : 0 < r ^ (2 * i + 2)) by (apply pow_lt; exact B).
  assert (Es : scale (15 + i) o c controls = D / (r * f_ c 0 * q * r ^ (2 * i + 2))).
  { rewrite <- Ef. unfold D, K, q, r. destruct i as [| [| [| i]]]; [| | | lia]; unfold scale, camera_scales, dpixels; cbn [Nat.add Nat.mul nth map]; fold r; rewrite Rinv_4;
      rewrite Ef; field; repeat split; try lra; unfold D, K in Dp; cbn [Nat.add Nat.mul] in Dp; lra. }
  rewrite Es. set (t := D / (r * f_ c 0 * q * r ^ (2 * i + 2))).
  assert (T1 : t * r ^ (2 * i + 2) = D / (r * f_ c 0 * q)) by (unfold t; field; repeat split; lra).
  assert (T2 : r ^ (2 * i + 2) = (x ^ 2 + y ^ 2) ^ (i + 1)). { rewrite Rd, <- pow_mult. f_equal. lia. }
  assert (PD : 0 < r * f_ c 0 * q) by (apply Rmult_lt_0_compat; [apply Rmult_lt_0_compat; [exact B | exact F] | exact Pq]).
  set (d := / (D * (q + / mean_r_uv c))). assert (Pd : 0 < d). { apply Rinv_0_lt_compat, Rmult_lt_0_compat; [exact Dp |]. apply Rplus_lt_0_compat; [exact Pq | apply Rinv_0_lt_compat; exact A]. }
  assert (Ed : d = (- (f_ c 0 * (/ (D + D / (r * f_ c 0 * q)) - / D))) * r).
  { assert (X : 0 < q * (r * f_ c 0)) by (rewrite Rmult_comm; exact PD). clearbody q r D. unfold d. rewrite Em. field. repeat split; try lra; apply Rgt_not_eq; unfold Rgt. apply Rplus_lt_0_compat; [apply Rmult_lt_0_compat; assumption | exact Dp]. }
  rewrite Ed. rewrite Ed in Pd. rewrite <- T1. rewrite <- T1 in Pd. assert (Pd' : 0 <= - (f_ c 0 * (/ (D + t * r ^ (2 * i + 2)) - / D))) by (apply Rlt_le; apply (Rmult_lt_reg_r r); [exact B |]; rewrite Rmult_0_l; exact Pd).
  assert (PD2 : 0 < D + t * r ^ (2 * i + 2)) by (rewrite T1; apply Rplus_lt_0_compat; [exact Dp | unfold Rdiv; apply Rmult_lt_0_compat; [exact Dp | apply Rinv_0_lt_compat; exact PD]]).
  apply via_xy with (xy := (x, y)) (z := (x, y)); [exact E | rewrite !changed_xy by (lia || exact L); exact E |].
  unfold D in *. clear D. rewrite T2 in *. clear T1 T2 Ed Pd Es E Ef Em PD d. unfold K in *. clear K. clearbody t r. clear P A.
  assert (K0 := Kz 0%nat). assert (K1 := Kz 1%nat). assert (K2 := Kz 2%nat). assert (K3 := Kz 3%nat). assert (K4 := Kz 4%nat). assert (K5 := Kz 5%nat). clear Kz.
  unfold square, f_, kk in *.
  open_cam c L. unfold xy_to_uv, f_, center in *. cbn [get_f get_k slice firstn skipn vec nth] in *. subst a9.
  destruct i as [| [| [| i]]]; [| | | lia]; cbn [Nat.add nth] in *;
    rewrite K0, K1, K2 in * by lia; 
    [rewrite K4, K5 in * by lia | rewrite K3, K5 in * by lia | rewrite K3, K4 in * by lia];
    unfold changed; cbn [vec nth set_nth orig sensorsz correction]; rewrite !distort20; unfold lens; rewrite ?lens_k4, ?lens_k5, ?lens_k6; rewrite !Rmult_plus_distr_r, <- !Rplus_assoc; cbn [get_f get_c slice firstn skipn vec nth imgszR get_imgsz map];
    match goal with Pd' : 0 <= ?s |- apart (?u', ?v') (?u, ?w) = _ => replace u' with (u - s * x) by ring; replace v' with (w - s * y) by ring end; (apply apart_back; [apply Rmult_le_pos; [exact Pd' | lra] | exact Rd]).
Qed.
Print Assumptions mean_radius.
Print Assumptions mean_radius_any.
(** a square image *)
Example ex_mean_radius : mean_distance 3500 (mean_r_uv ex_cam).
Proof.
  destruct (mean_radius_any ex_cam (proj1 ex_cam_proper)) as (A & _).
  replace ((nth 0 (imgszR ex_cam) 0 + nth 1 (imgszR ex_cam) 0) / 2) with 3500 in A; [exact A |].
  unfold imgszR, get_imgsz, ex_cam; cbn [cam_of vec map slice firstn skipn]; rewrite !Rtrunc_IZR. cbn [nth]. lra.
Qed.
Print Assumptions scale_denominator_refuted.
(** a point at the mean radius of that camera, and its fourth coefficient *)
Example ex_scale_denominator : exists p, displaces ex_cam (changed 15 (scale 15 0 ex_cam []) ex_cam) p (/ ((1 + 0 * mean_r_xy ex_cam ^ 2) * (1 * sqrt 2 + / mean_r_uv ex_cam))).
Proof.
  destruct ex_cam_proper as (P & Q & N & K & _ & _ & S0). destruct (S0 (mean_r_xy ex_cam, 0)) as [p Hp]. exists p.
  apply (scale_denominator_refuted 0 0 ex_cam [] p (mean_r_xy ex_cam) 0); [lia | exact P | exact Q | | | exact Hp | ring].
  - intros j Hj _. unfold kk, ex_cam. destruct j as [| [| [| [| [| [| j]]]]]]; (reflexivity || lia).
  - change (kk ex_cam (3 + 0)) with 0. lra.
Qed.
