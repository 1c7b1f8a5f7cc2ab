(** Proofs: camera model conversions. *)
From Verif Require Import Base BaseLemmas HelpersModel XReal CameraModel CameraSpec CameraStateProofs P_Camera2 ParamsModel ParamsSpec ParamsProofs ParamsProofs3 ConvertModel.
Open Scope R_scope.

(** ** Cameras as explicit vectors *)
Definition cam_of (X Y Z0 ya pi ro : R) (W H : Z) (f0 f1 c0 c1 k1 k2 k3 k4 k5 k6 p1 p2 : R) : list R :=
  [X; Y; Z0; ya; pi; ro; IZR W; IZR H; f0; f1; c0; c1; k1; k2; k3; k4; k5; k6; p1; p2].
Lemma construct_px W H f0 f1 c0 c1 k1 k2 k3 k4 k5 k6 p1 p2 k :
  k = [k1; k2; k3; k4; k5; k6] \/ (k = [k1; k2; k3] /\ k4 = 0 /\ k5 = 0 /\ k6 = 0) ->
  let v := cam_of 0 0 0 0 0 0 W H f0 f1 c0 c1 k1 k2 k3 k4 k5 k6 p1 p2 in
  construct (mkargs [IZR W; IZR H] (Some [f0; f1]) (Some [c0; c1]) None None None k [p1; p2] [0; 0; 0] [0; 0; 0] None) = Ok (mkcam v v None None).
Proof.
  intros Hk v. assert (E : forall n, Reqb (IZR n) (IZR n) = true) by (intros n; unfold Reqb; destruct (Req_EM_T (IZR n) (IZR n)); [reflexivity|contradiction]).
  unfold construct. cbn. unfold set_imgsz. cbn. rewrite !Rtrunc_IZR, !E. cbn.
  destruct Hk as [->|(-> & -> & -> & ->)]; cbn; unfold v, cam_of; reflexivity.
Qed.
Lemma construct_mm W H fw fh fo cx cy :
  let v := cam_of 0 0 0 0 0 0 W H (fo * IZR W / fw) (fo * IZR H / fh) (cx * IZR W / fw) (cy * IZR H / fh) 0 0 0 0 0 0 0 0 in
  construct (mkargs [IZR W; IZR H] None None (Some [fw; fh]) (Some [fo]) (Some [cx; cy]) [0; 0; 0; 0; 0; 0] [0; 0] [0; 0; 0] [0; 0; 0] None)
  = Ok (mkcam v v (Some [fw; fh]) None).
Proof.
  intros v. assert (E : forall n, Reqb (IZR n) (IZR n) = true) by (intros n; unfold Reqb; destruct (Req_EM_T (IZR n) (IZR n)); [reflexivity|contradiction]).
  unfold construct. cbn. unfold set_imgsz. cbn. rewrite !Rtrunc_IZR, !E. cbn.
  do 2 (unfold mm_to_px, imgszR, get_imgsz, slice; change (Pos.to_nat 2) with 2%nat; cbn; rewrite ?Rtrunc_IZR; cbn). unfold v, cam_of. reflexivity.
Qed.

Section Explicit.
Variables (c : cam) (X Y Z0 ya pi ro : R) (W H : Z) (f0 f1 c0 c1 k1 k2 k3 k4 k5 k6 p1 p2 : R).
Hypothesis V : vec c = cam_of X Y Z0 ya pi ro W H f0 f1 c0 c1 k1 k2 k3 k4 k5 k6 p1 p2.
Lemma ex_k : get_k c = [k1; k2; k3; k4; k5; k6]. Proof. unfold get_k, slice. rewrite V. reflexivity. Qed.
Lemma ex_p : get_p c = [p1; p2]. Proof. unfold get_p, slice. rewrite V. reflexivity. Qed.
Lemma ex_f : get_f c = [f0; f1]. Proof. unfold get_f, slice. rewrite V. reflexivity. Qed.
Lemma ex_c : get_c c = [c0; c1]. Proof. unfold get_c, slice. rewrite V. reflexivity. Qed.
Lemma ex_sz : get_imgsz c = [W; H].
Proof. unfold get_imgsz, slice. rewrite V. cbn [cam_of skipn firstn map]. now rewrite !Rtrunc_IZR. Qed.
Lemma ex_wh : wh c = (W, H). Proof. unfold wh. now rewrite ex_sz. Qed.
Lemma ex_szR : imgszR c = [IZR W; IZR H]. Proof. unfold imgszR. now rewrite ex_sz. Qed.
Lemma ex_proj x y : xy_to_uv c (x, y) =
  let '(xd, yd) := lens k1 k2 k3 k4 k5 k6 p1 p2 x y in (f0 * xd + (IZR W / 2 + c0), f1 * yd + (IZR H / 2 + c1)).
Proof.
  unfold xy_to_uv. rewrite (distort_formula c _ _ _ _ _ _ _ _ x y ex_k ex_p). destruct (lens k1 k2 k3 k4 k5 k6 p1 p2 x y) as [xd yd].
  unfold f_, center. rewrite ex_f, ex_c, ex_szR. cbn [nth]. f_equal; ring.
Qed.
End Explicit.

(** ** Polynomials that vanish *)
Lemma small_poly a b c d e : exists eps, 0 < eps /\ forall t, 0 < t <= eps -> a * t + b * t ^ 2 + c * t ^ 3 + d * t ^ 4 + e * t ^ 6 > -1.
Proof.
  set (M := Rabs a + Rabs b + Rabs c + Rabs d + Rabs e). assert (HM : 0 <= M) by (unfold M; pose proof (Rabs_pos a); pose proof (Rabs_pos b); pose proof (Rabs_pos c); pose proof (Rabs_pos d); pose proof (Rabs_pos e); lra).
  exists (/ (2 * (M + 1))). assert (He : 0 < / (2 * (M + 1))) by (apply Rinv_0_lt_compat; lra). split; [exact He|]. intros t [T1 T2].
  assert (T3 : t <= 1). { apply Rle_trans with (1 := T2). rewrite <- Rinv_1. apply Rinv_le_contravar; lra. }
  assert (P : forall n, 0 < t ^ (S n) <= t). { intros n. induction n as [|n IH]; [cbn; lra|]. change (t ^ S (S n)) with (t * t ^ S n). split; [apply Rmult_lt_0_compat; lra|]. nra. }
  assert (Q : forall x n, - (Rabs x * t) <= x * t ^ (S n)).
  { intros x n. destruct (P n) as [Pa Pb]. pose proof (Rabs_pos x). assert (- (Rabs x) * t ^ S n <= x * t ^ S n) by (apply Rmult_le_compat_r; [lra|]; unfold Rabs; destruct (Rcase_abs x); lra). nra. }
  pose proof (Q a 0%nat) as Qa. pose proof (Q b 1%nat) as Qb. pose proof (Q c 2%nat) as Qc. pose proof (Q d 3%nat) as Qd. pose proof (Q e 5%nat) as Qe.
  rewrite pow_1 in Qa.
  assert (M * t < 1). { apply Rle_lt_trans with (M * / (2 * (M + 1))); [now apply Rmult_le_compat_l|]. apply Rmult_lt_reg_r with (2 * (M + 1)); [lra|]. rewrite Rmult_assoc, Rinv_l by lra. lra. }
  unfold M in *. lra.
Qed.
Lemma quad_zero a b c eps : 0 < eps -> (forall s, 0 < s <= eps -> a + b * s + c * s ^ 2 = 0) -> a = 0 /\ b = 0 /\ c = 0.
Proof.
  intros He Hz. pose proof (Hz eps ltac:(lra)) as E1. pose proof (Hz (eps / 2) ltac:(lra)) as E2. pose proof (Hz (eps / 4) ltac:(lra)) as E3.
  assert (Hb : b * eps / 2 + c * eps ^ 2 * 3 / 4 = 0) by (replace (b * eps / 2 + c * eps ^ 2 * 3 / 4) with ((a + b * eps + c * eps ^ 2) - (a + b * (eps / 2) + c * (eps / 2) ^ 2)) by field; lra).
  assert (Hb2 : b * eps / 4 + c * eps ^ 2 * 3 / 16 = 0) by (replace (b * eps / 4 + c * eps ^ 2 * 3 / 16) with ((a + b * (eps / 2) + c * (eps / 2) ^ 2) - (a + b * (eps / 4) + c * (eps / 4) ^ 2)) by field; lra).
  assert (Hc : c * eps ^ 2 = 0) by lra. assert (c = 0) by (apply Rmult_integral in Hc; destruct Hc as [Hc|Hc]; [exact Hc|exfalso; assert (0 < eps ^ 2) by (apply pow_lt; lra); lra]).
  subst c. assert (Hb' : b * eps = 0) by lra. assert (b = 0) by (apply Rmult_integral in Hb'; destruct Hb'; [assumption|lra]). subst b. repeat split; lra.
Qed.

(** ** Where the camera's projection is defined *)
Definition defined_at (c : cam) (xy : vec2) : Prop :=
  let r2 := fst xy ^ 2 + snd xy ^ 2 in 1 + kk c 3 * r2 + kk c 4 * r2 ^ 2 + kk c 5 * r2 ^ 3 <> 0.
Definition same_projection (c : cam) (g : vec2 -> vec2) : Prop := forall xy, defined_at c xy -> g xy = xy_to_uv c xy.
(** A camera with 20 parameters and an integral image size. *)
Definition sound (c : cam) : Prop := length (vec c) = 20%nat /\ integral (nth 6 (vec c) 0) /\ integral (nth 7 (vec c) 0).
Lemma sound_vec c : sound c -> exists X Y Z0 ya pi ro W H f0 f1 c0 c1 k1 k2 k3 k4 k5 k6 p1 p2, vec c = cam_of X Y Z0 ya pi ro W H f0 f1 c0 c1 k1 k2 k3 k4 k5 k6 p1 p2.
Proof.
  intros (L & I6 & I7). destruct (vec c) as [|x0 [|x1 [|x2 [|x3 [|x4 [|x5 [|x6 [|x7 [|x8 [|x9 [|x10 [|x11 [|x12 [|x13 [|x14 [|x15 [|x16 [|x17 [|x18 [|x19 [|x20 l]]]]]]]]]]]]]]]]]]]]]; try discriminate L.
  cbn in I6, I7. destruct I6 as [W ->], I7 as [H ->]. do 20 eexists. reflexivity.
Qed.

Lemma lens_poly k1 k2 k3 p1 p2 x y : lens k1 k2 k3 0 0 0 p1 p2 x y =
  (x * (1 + k1 * (x ^ 2 + y ^ 2) + k2 * (x ^ 2 + y ^ 2) ^ 2 + k3 * (x ^ 2 + y ^ 2) ^ 3) + 2 * p1 * x * y + p2 * (x ^ 2 + y ^ 2 + 2 * x ^ 2),
   y * (1 + k1 * (x ^ 2 + y ^ 2) + k2 * (x ^ 2 + y ^ 2) ^ 2 + k3 * (x ^ 2 + y ^ 2) ^ 3) + p1 * (x ^ 2 + y ^ 2 + 2 * y ^ 2) + 2 * p2 * x * y).
Proof. unfold lens, lens_radial. cbv zeta. f_equal; field. Qed.

(** a rational radial factor equal to its numerator has denominator 1 *)
Lemma radial_exact k1 k2 k3 k4 k5 k6 :
  (forall s, 0 < s -> 1 + k4 * s + k5 * s ^ 2 + k6 * s ^ 3 <> 0 -> lens_radial k1 k2 k3 k4 k5 k6 s = 1 + k1 * s + k2 * s ^ 2 + k3 * s ^ 3) -> k4 = 0 /\ k5 = 0 /\ k6 = 0.
Proof.
  intros HH. destruct (small_poly k1 k2 k3 0 0) as (e1 & E1 & N1). destruct (small_poly k4 k5 k6 0 0) as (e2 & E2 & N2).
  apply (quad_zero k4 k5 k6 (Rmin e1 e2)); [now apply Rmin_glb_lt|]. intros s [S1 S2].
  assert (A : s <= e1) by (pose proof (Rmin_l e1 e2); lra). assert (B : s <= e2) by (pose proof (Rmin_r e1 e2); lra).
  specialize (N1 s (conj S1 A)). specialize (N2 s (conj S1 B)). assert (D : 1 + k4 * s + k5 * s ^ 2 + k6 * s ^ 3 > 0) by lra.
  specialize (HH s S1 ltac:(lra)). unfold lens_radial in HH. set (N := 1 + k1 * s + k2 * s ^ 2 + k3 * s ^ 3) in *. set (DD := 1 + k4 * s + k5 * s ^ 2 + k6 * s ^ 3) in *.
  assert (HN : N > 0) by (unfold N; lra). assert (N = N * DD) by (rewrite <- HH at 2; field; lra).
  assert (DD = 1) by nra. assert (s * (k4 + k5 * s + k6 * s ^ 2) = 0) by (unfold DD in *; lra). apply Rmult_integral in H1. destruct H1; lra.
Qed.
