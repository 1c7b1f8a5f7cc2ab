(** C104: scale factors of camera parameters are changes that displace image points by about one pixel. *)
From Verif Require Import Base BaseLemmas HelpersModel CameraModel CameraSpec CameraStateProofs CameraProofs ParamsModel ParamsSpec ParamsProofs ParamsProofs2 ScalesModel P_Camera2 P_Params.
Open Scope R_scope.

(** * Specification *)
(** the camera with parameter [i] changed by [t] *)
Definition changed (i : nat) (t : R) (c : cam) : cam := mkcam (set_nth i (nth i (vec c) 0 + t) (vec c)) (orig c) (sensorsz c) (correction c).
(** distance of image points *)
Definition apart (p q : vec2) : R := sqrt ((fst p - fst q) ^ 2 + (snd p - snd q) ^ 2).
Definition displaces (c c' : cam) (p : vec3) (d : R) : Prop := exists uv uv', xyz_to_uv c false p = Some uv /\ xyz_to_uv c' false p = Some uv' /\ apart uv' uv = d.
Definition proper (c : cam) : Prop := length (vec c) = 20%nat /\ 0 < nth 0 (imgszR c) 0 /\ 0 < nth 1 (imgszR c) 0 /\ 0 < f_ c 0 /\ 0 < f_ c 1.
Definition square (c : cam) : Prop := f_ c 0 = f_ c 1.
Definition scale (i o : nat) (c : cam) (controls : list world) : R := nth i (camera_scales o c controls) 0.

(** * Proofs *)
Lemma vec20 (v : list R) : length v = 20%nat -> exists a0 a1 a2 a3 a4 a5 a6 a7 a8 a9 a10 a11 a12 a13 a14 a15 a16 a17 a18 a19,
  v = [a0; a1; a2; a3; a4; a5; a6; a7; a8; a9; a10; a11; a12; a13; a14; a15; a16; a17; a18; a19].
Proof.
  intros H. do 20 (destruct v as [| ? v]; [discriminate |]). destruct v; [| discriminate]. do 20 eexists. reflexivity.
Qed.
Lemma apart_x x y t : 0 <= t -> apart (x + t, y) (x, y) = t.
Proof. intros H. unfold apart. cbn [fst snd]. replace ((x + t - x) ^ 2 + (y - y) ^ 2) with (t * t) by ring. apply sqrt_square; exact H. Qed.
Lemma apart_y x y t : 0 <= t -> apart (x, y + t) (x, y) = t.
Proof. intros H. unfold apart. cbn [fst snd]. replace ((x - x) ^ 2 + (y + t - y) ^ 2) with (t * t) by ring. apply sqrt_square; exact H. Qed.
Lemma mean_r_pos c : proper c -> 0 < mean_r_uv c /\ 0 < mean_r_xy c /\ 0 < mean2 (get_f c).
Proof.
  intros (L & W & H & F0 & F1).
  assert (S2 : 0 < sqrt 2) by (apply sqrt_lt_R0; lra).
  assert (Ln : 0 < ln (1 + sqrt 2)) by (rewrite <- ln_1; apply ln_increasing; lra).
  assert (A : 0 < mean_r_uv c). { unfold mean_r_uv, mean2. apply Rmult_lt_0_compat; lra. }
  assert (B : 0 < mean2 (get_f c)). { unfold mean2. unfold f_ in *. lra. }
  split; [exact A |]. split; [| exact B]. unfold mean_r_xy. apply Rdiv_lt_0_compat; assumption.
Qed.
Lemma fov_pos w f : 0 < w -> 0 < f -> 0 < 2 * atan (w / (2 * f)) * (180 / PI).
Proof.
  intros W F. assert (0 < atan (w / (2 * f))). { rewrite <- atan_0. apply atan_increasing. apply Rdiv_lt_0_compat; lra. }
  assert (0 < 180 / PI) by (apply Rdiv_lt_0_compat; [lra | apply PI_RGT_0]). apply Rmult_lt_0_compat; lra.
Qed.
Lemma sin_small : 0 < sin (PI / 180 / 2).
Proof. pose proof PI_RGT_0. apply sin_gt_0; lra. Qed.

Lemma sumR_cons a l : sumR (a :: l) = a + sumR l.
Proof. reflexivity. Qed.
Definition sq (p q : vec3) : R := dot3 (sub3 p q) (sub3 p q).
Lemma sq_nonneg p q : 0 <= sq p q.
Proof. destruct p as [[x0 x1] x2], q as [[y0 y1] y2]. unfold sq, dot3, sub3. pose proof (Rle_0_sqr (x0 - y0)). pose proof (Rle_0_sqr (x1 - y1)). pose proof (Rle_0_sqr (x2 - y2)). unfold Rsqr in *. lra. Qed.
Lemma sq_pos p q : p <> q -> 0 < sq p q.
Proof.
  destruct p as [[x0 x1] x2], q as [[y0 y1] y2]. intros H. unfold sq, dot3, sub3.
  assert (x0 - y0 <> 0 \/ x1 - y1 <> 0 \/ x2 - y2 <> 0).
  { destruct (Req_dec x0 y0) as [E0 | ?]; [| left; lra]. destruct (Req_dec x1 y1) as [E1 | ?]; [| right; left; lra]. destruct (Req_dec x2 y2) as [E2 | ?]; [| right; right; lra]. subst. congruence. }
  pose proof (Rle_0_sqr (x0 - y0)) as Q0. pose proof (Rle_0_sqr (x1 - y1)) as Q1. pose proof (Rle_0_sqr (x2 - y2)) as Q2. unfold Rsqr in *.
  destruct H0 as [N | [N | N]]; apply Rsqr_pos_lt in N; unfold Rsqr in N; lra.
Qed.
Lemma sum_sq_nonneg l q : 0 <= sumR (map (fun p => sq p q) l).
Proof. induction l; [apply Rle_refl |]. cbn [map]. rewrite sumR_cons. pose proof (sq_nonneg a q). lra. Qed.
Lemma frob_pos l q p : In p l -> p <> q -> 0 < sumR (map (fun p => dot3 (sub3 p q) (sub3 p q)) l).
Proof.
  change (In p l -> p <> q -> 0 < sumR (map (fun p => sq p q) l)).
  induction l as [| x l IH]; intros I N; [destruct I |]. cbn [map]. rewrite sumR_cons. pose proof (sum_sq_nonneg l q). pose proof (sq_nonneg x q). destruct I as [-> | I]; [pose proof (sq_pos p q N); lra | specialize (IH I N); lra].
Qed.

(** ** Positive *)
Theorem scales_positive : forall o c controls, proper c ->
  (world_points o controls <> [] -> exists p, In p (world_points o controls) /\ p <> v3 (get_xyz c)) ->
  (forall i, (3 <= i < 6)%nat -> 0 < 1 + kk c i * mean_r_xy c ^ (2 * (i - 2))) ->
  length (camera_scales o c controls) = 20%nat /\ Forall (fun s => 0 < s) (camera_scales o c controls).
Proof.
  intros o c controls P N K. split; [reflexivity |]. destruct (mean_r_pos c P) as (A & B & D). destruct P as (L & W & H & F0 & F1).
  unfold camera_scales. apply Forall_map. apply Forall_impl with (P := fun d => 0 < d); [intros d Hd; apply Rdiv_lt_0_compat; lra |].
  assert (S2 : 0 < sqrt 2) by (apply sqrt_lt_R0; lra). assert (S5 : 0 < sqrt 5) by (apply sqrt_lt_R0; lra).
  pose proof (K 3%nat ltac:(lia)) as K3. pose proof (K 4%nat ltac:(lia)) as K4. pose proof (K 5%nat ltac:(lia)) as K5. cbn [Nat.sub Nat.mul] in K3, K4, K5. simpl (2 * 1)%nat in K3. simpl (2 * 2)%nat in K4. simpl (2 * 3)%nat in K5.
  assert (X : 0 < match world_points o controls with [] => 1 | ps => mean2 (get_f c) / frobenius ps (v3 (get_xyz c)) end).
  { destruct (world_points o controls) as [| q qs]; [lra |]. apply Rdiv_lt_0_compat; [exact D |]. unfold frobenius. apply sqrt_lt_R0.
    destruct (N ltac:(discriminate)) as (p & Ip & Np). apply frob_pos with (p := p); assumption. }
  unfold dpixels. pose proof (fov_pos _ _ W F0) as V0. pose proof (fov_pos _ _ H F1) as V1. unfold f_ in V0, V1.
  pose proof sin_small. pose proof (pow_lt _ 2 B). pose proof (pow_lt _ 3 B). pose proof (pow_lt _ 5 B). pose proof (pow_lt _ 7 B).
  repeat (apply Forall_cons; [first [exact X | lra | apply Rdiv_lt_0_compat; assumption | repeat first [assumption | match goal with |- 0 < _ * _ => apply Rmult_lt_0_compat | |- 0 < _ / _ => apply Rdiv_lt_0_compat end | lra]] |]). apply Forall_nil.
Qed.

(** ** Center and size: exact *)
(** parameters from the seventh on do not change directions *)
Lemma changed_xy i t c p : (6 <= i)%nat -> length (vec c) = 20%nat -> xyz_to_xy (changed i t c) false p = xyz_to_xy c false p.
Proof.
  intros Hi L. destruct c as [v o s k]. cbn [vec] in L. destruct (vec20 v L) as (a0 & a1 & a2 & a3 & a4 & a5 & a6 & a7 & a8 & a9 & a10 & a11 & a12 & a13 & a14 & a15 & a16 & a17 & a18 & a19 & ->).
  do 6 (destruct i as [| i]; [lia |]). reflexivity.
Qed.
Lemma via_xy c c' p xy z d : fst (xyz_to_xy c false p) = Some xy -> fst (xyz_to_xy c' false p) = Some z -> apart (xy_to_uv c' z) (xy_to_uv c xy) = d -> displaces c c' p d.
Proof. intros A B D. unfold displaces, xyz_to_uv. rewrite A, B. cbn [option_map]. eauto. Qed.
Theorem scale_center : forall i o c controls p xy, (i < 2)%nat -> length (vec c) = 20%nat -> fst (xyz_to_xy c false p) = Some xy ->
  displaces c (changed (10 + i) (scale (10 + i) o c controls) c) p 1.
Proof.
  intros i o c controls p xy Hi L E. apply via_xy with (xy := xy) (z := xy); [exact E | rewrite changed_xy by (lia || exact L); exact E |].
  assert (S1 : scale (10 + i) o c controls = 1) by (destruct i as [| [| i]]; [| | lia]; unfold scale, camera_scales, dpixels; cbn [Nat.add nth map]; lra). rewrite S1.
  destruct c as [v og s k]. cbn [vec] in L. destruct (vec20 v L) as (a0 & a1 & a2 & a3 & a4 & a5 & a6 & a7 & a8 & a9 & a10 & a11 & a12 & a13 & a14 & a15 & a16 & a17 & a18 & a19 & ->).
  unfold xy_to_uv. destruct i as [| [| i]]; [| | lia]; cbn [Nat.add].
  - change (distort (changed 10 1 _) xy) with (distort {| vec := [a0; a1; a2; a3; a4; a5; a6; a7; a8; a9; a10; a11; a12; a13; a14; a15; a16; a17; a18; a19]; orig := og; sensorsz := s; correction := k |} xy).
    destruct (distort _ xy) as [x y]. unfold center, f_, changed. cbn [get_f get_c slice firstn skipn vec nth set_nth imgszR get_imgsz map].
    match goal with |- apart (?u', ?v') (?u, ?w) = 1 => replace u' with (u + 1) by ring end. apply apart_x. lra.
  - change (distort (changed 11 1 _) xy) with (distort {| vec := [a0; a1; a2; a3; a4; a5; a6; a7; a8; a9; a10; a11; a12; a13; a14; a15; a16; a17; a18; a19]; orig := og; sensorsz := s; correction := k |} xy).
    destruct (distort _ xy) as [x y]. unfold center, f_, changed. cbn [get_f get_c slice firstn skipn vec nth set_nth imgszR get_imgsz map].
    match goal with |- apart (?u', ?v') (?u, ?w) = 1 => replace v' with (w + 1) by ring end. apply apart_y. lra.
Qed.
Theorem scale_imgsz : forall i o c controls p xy (n : Z), (i < 2)%nat -> length (vec c) = 20%nat -> nth (6 + i) (vec c) 0 = IZR n -> fst (xyz_to_xy c false p) = Some xy ->
  displaces c (changed (6 + i) (scale (6 + i) o c controls) c) p 1.
Proof.
  intros i o c controls p xy n Hi L In E. apply via_xy with (xy := xy) (z := xy); [exact E | rewrite changed_xy by (lia || exact L); exact E |].
  assert (S1 : scale (6 + i) o c controls = 2) by (destruct i as [| [| i]]; [| | lia]; unfold scale, camera_scales, dpixels; cbn [Nat.add nth map]; field). rewrite S1.
  assert (T2 : Rtrunc (IZR n + 2) = (n + 2)%Z) by (rewrite <- (plus_IZR n 2); apply Rtrunc_IZR).
  destruct c as [v og s k]. cbn [vec] in L. destruct (vec20 v L) as (a0 & a1 & a2 & a3 & a4 & a5 & a6 & a7 & a8 & a9 & a10 & a11 & a12 & a13 & a14 & a15 & a16 & a17 & a18 & a19 & ->).
  unfold xy_to_uv. destruct i as [| [| i]]; [| | lia]; cbn [Nat.add vec nth] in *; subst.
  - change (distort (changed 6 2 _) xy) with (distort {| vec := [a0; a1; a2; a3; a4; a5; IZR n; a7; a8; a9; a10; a11; a12; a13; a14; a15; a16; a17; a18; a19]; orig := og; sensorsz := s; correction := k |} xy).
    destruct (distort _ xy) as [x y]. unfold center, f_, changed. cbn [get_f get_c slice firstn skipn vec nth set_nth imgszR get_imgsz map]. rewrite T2, Rtrunc_IZR, plus_IZR.
    match goal with |- apart (?u', ?v') (?u, ?w) = 1 => replace u' with (u + 1) by field end. apply apart_x. lra.
  - change (distort (changed 7 2 _) xy) with (distort {| vec := [a0; a1; a2; a3; a4; a5; a6; IZR n; a8; a9; a10; a11; a12; a13; a14; a15; a16; a17; a18; a19]; orig := og; sensorsz := s; correction := k |} xy).
    destruct (distort _ xy) as [x y]. unfold center, f_, changed. cbn [get_f get_c slice firstn skipn vec nth set_nth imgszR get_imgsz map]. rewrite T2, Rtrunc_IZR, plus_IZR.
    match goal with |- apart (?u', ?v') (?u, ?w) = 1 => replace v' with (w + 1) by field end. apply apart_y. lra.
Qed.

(** ** Focal lengths, changed together *)
Lemma cam20 c : length (vec c) = 20%nat -> exists a0 a1 a2 a3 a4 a5 a6 a7 a8 a9 a10 a11 a12 a13 a14 a15 a16 a17 a18 a19,
  vec c = [a0; a1; a2; a3; a4; a5; a6; a7; a8; a9; a10; a11; a12; a13; a14; a15; a16; a17; a18; a19].
Proof. apply vec20. Qed.
Ltac open_cam c L := destruct c as [v og sz corr]; cbn [vec] in L; destruct (vec20 v L) as (a0 & a1 & a2 & a3 & a4 & a5 & a6 & a7 & a8 & a9 & a10 & a11 & a12 & a13 & a14 & a15 & a16 & a17 & a18 & a19 & ->).
Lemma changed_len i t c : length (vec c) = 20%nat -> (i < 20)%nat -> length (vec (changed i t c)) = 20%nat.
Proof. intros L Hi. open_cam c L. do 20 (destruct i as [| i]; [reflexivity |]). lia. Qed.
Lemma apart_scaled x y u v t r : 0 <= t * r -> x ^ 2 + y ^ 2 = r ^ 2 -> apart (u + t * x, v + t * y) (u, v) = t * r.
Proof. intros H E. unfold apart. cbn [fst snd]. replace ((u + t * x - u) ^ 2 + (v + t * y - v) ^ 2) with (t ^ 2 * (x ^ 2 + y ^ 2)) by ring. rewrite E. replace (t ^ 2 * r ^ 2) with ((t * r) * (t * r)) by ring. apply sqrt_square; exact H. Qed.
Theorem scale_focal : forall o c controls p xy x y, proper c -> fst (xyz_to_xy c false p) = Some xy -> distort c xy = (x, y) -> x ^ 2 + y ^ 2 = mean_r_xy c ^ 2 ->
  scale 9 o c controls = scale 8 o c controls /\
  displaces c (changed 8 (scale 8 o c controls) (changed 9 (scale 9 o c controls) c)) p 1.
Proof.
  intros o c controls p xy x y P E D Rd. destruct (mean_r_pos c P) as (_ & B & _). destruct P as (L & _).
  assert (E8 : scale 8 o c controls = / mean_r_xy c) by (unfold scale, camera_scales, dpixels; cbn [nth map]; apply Rmult_1_l).
  assert (E9 : scale 9 o c controls = / mean_r_xy c) by (unfold scale, camera_scales, dpixels; cbn [nth map]; apply Rmult_1_l).
  split; [congruence |]. rewrite E8, E9. set (t := / mean_r_xy c) in *.
  assert (T1 : t * mean_r_xy c = 1) by (apply Rinv_l; lra).
  apply via_xy with (xy := xy) (z := xy); [exact E | rewrite !changed_xy by (first [lia | exact L | apply changed_len; [exact L | lia]]); exact E |].
  rewrite <- T1. clear E8 E9. clearbody t. clear E. generalize dependent (mean_r_xy c). intros r Rd B T1.
  open_cam c L. unfold xy_to_uv.
  change (distort (changed 8 t (changed 9 t _)) xy) with (distort {| vec := [a0; a1; a2; a3; a4; a5; a6; a7; a8; a9; a10; a11; a12; a13; a14; a15; a16; a17; a18; a19]; orig := og; sensorsz := sz; correction := corr |} xy).
  rewrite D. unfold center, f_, changed. cbn [get_f get_c slice firstn skipn vec nth set_nth imgszR get_imgsz map].
  match goal with |- apart (?u', ?v') (?u, ?w) = _ => replace u' with (u + t * x) by ring; replace v' with (w + t * y) by ring end.
  apply apart_scaled; [lra | exact Rd].
Qed.

(** ** Distortion *)
Lemma distort20 a0 a1 a2 a3 a4 a5 a6 a7 a8 a9 a10 a11 a12 a13 a14 a15 a16 a17 a18 a19 og sz corr x y :
  distort (mkcam [a0; a1; a2; a3; a4; a5; a6; a7; a8; a9; a10; a11; a12; a13; a14; a15; a16; a17; a18; a19] og sz corr) (x, y) = lens a12 a13 a14 a15 a16 a17 a18 a19 x y.
Proof. apply distort_formula; reflexivity. Qed.
Theorem scale_tangential : forall i o c controls p x, (i < 2)%nat -> proper c -> square c -> fst (xyz_to_xy c false p) = Some (x, x) -> 2 * x ^ 2 = mean_r_xy c ^ 2 ->
  displaces c (changed (18 + i) (scale (18 + i) o c controls) c) p 1.
Proof.
  intros i o c controls p x Hi P Q E Rd. destruct (mean_r_pos c P) as (_ & B & F). pose proof P as (L & _).
  assert (S5 : 0 < sqrt 5) by (apply sqrt_lt_R0; lra).
  assert (Ef : mean2 (get_f c) = f_ c 0) by (unfold mean2, square in *; unfold f_ in *; lra). rewrite Ef in F.
  assert (Es : scale (18 + i) o c controls = / (sqrt 5 * mean_r_xy c ^ 2 * f_ c 0)).
  { rewrite <- Ef. destruct i as [| [| i]]; [| | lia]; unfold scale, camera_scales, dpixels; cbn [Nat.add nth map]; apply Rmult_1_l. }
  rewrite Es. set (t := / (sqrt 5 * mean_r_xy c ^ 2 * f_ c 0)).
  assert (T1 : t * f_ c 0 * mean_r_xy c ^ 2 * sqrt 5 = 1) by (unfold t; field; split; [| split]; lra).
  assert (T0 : 0 < t). { apply Rinv_0_lt_compat. apply Rmult_lt_0_compat; [apply Rmult_lt_0_compat; [exact S5 | apply pow_lt; exact B] | exact F]. }
  apply via_xy with (xy := (x, x)) (z := (x, x)); [exact E | rewrite !changed_xy by (lia || exact L); exact E |].
  rewrite <- Rd in T1. clearbody t. clear Es Rd B Ef E. unfold square, f_ in *.
  open_cam c L. unfold xy_to_uv, f_, center in *. cbn [get_f slice firstn skipn vec nth] in Q, F, T1. subst a9.
  assert (S5' : sqrt 5 * sqrt 5 = 5) by (apply sqrt_sqrt; lra).
  assert (Z : (t * a8 * (2 * x ^ 2)) ^ 2 * 5 = 1). { rewrite <- S5'. replace ((t * a8 * (2 * x ^ 2)) ^ 2 * (sqrt 5 * sqrt 5)) with ((t * a8 * (2 * x ^ 2) * sqrt 5) ^ 2) by ring. rewrite T1. ring. }
  destruct i as [| [| i]]; [| | lia]; cbn [Nat.add]; unfold changed; cbn [vec nth set_nth orig sensorsz correction]; rewrite !distort20; unfold lens; cbn [get_f get_c slice firstn skipn vec nth imgszR get_imgsz map]; unfold apart; cbn [fst snd];
    match goal with |- sqrt ?e = 1 => replace e with ((t * a8 * (2 * x ^ 2)) ^ 2 * 5) by ring end; rewrite Z; apply sqrt_1.
Qed.
(** Finding: the radial factors are too large by powers of two: their changes displace points at the mean radius by less than a pixel *)
Theorem scale_radial_refuted : forall i o c controls p x y, (i < 3)%nat -> proper c -> square c -> kk c 3 = 0 -> kk c 4 = 0 -> kk c 5 = 0 ->
  fst (xyz_to_xy c false p) = Some (x, y) -> x ^ 2 + y ^ 2 = mean_r_xy c ^ 2 ->
  displaces c (changed (12 + i) (scale (12 + i) o c controls) c) p (/ (2 ^ i * sqrt 2)).
Proof.
  intros i o c controls p x y Hi P Q K3 K4 K5 E Rd. destruct (mean_r_pos c P) as (_ & B & F). pose proof P as (L & _).
  assert (S2 : 0 < sqrt 2) by (apply sqrt_lt_R0; lra).
  assert (Ef : mean2 (get_f c) = f_ c 0) by (unfold mean2, square in *; unfold f_ in *; lra). rewrite Ef in F.
  set (n := (2 * i + 3)%nat).
  assert (Es : scale (12 + i) o c controls = / (mean_r_xy c ^ n * f_ c 0 * (2 ^ i * sqrt 2))).
  { rewrite <- Ef. destruct i as [| [| [| i]]]; [| | | lia]; unfold n, scale, camera_scales, dpixels; cbn [Nat.add Nat.mul nth map]; rewrite Rdiv_1_l || (unfold Rdiv; rewrite Rmult_1_l); f_equal; ring. }
  rewrite Es. set (t := / (mean_r_xy c ^ n * f_ c 0 * (2 ^ i * sqrt 2))).
  assert (P2 : 0 < 2 ^ i) by (apply pow_lt; lra). assert (Pr : 0 < mean_r_xy c ^ n) by (apply pow_lt; exact B).
  assert (T1 : t * f_ c 0 * mean_r_xy c ^ (2 * i + 2) * mean_r_xy c = / (2 ^ i * sqrt 2)).
  { replace (t * f_ c 0 * mean_r_xy c ^ (2 * i + 2) * mean_r_xy c) with (t * f_ c 0 * mean_r_xy c ^ n) by (unfold n; replace (2 * i + 3)%nat with (S (2 * i + 2)) by lia; simpl; ring). unfold t. field. repeat split; lra. }
  assert (T2 : mean_r_xy c ^ (2 * i + 2) = (x ^ 2 + y ^ 2) ^ (i + 1)). { rewrite Rd, <- pow_mult. f_equal. lia. }
  assert (T0 : 0 < / (2 ^ i * sqrt 2)) by (apply Rinv_0_lt_compat; apply Rmult_lt_0_compat; assumption).
  rewrite T2 in T1. rewrite <- T1. rewrite <- T1 in T0.
  apply via_xy with (xy := (x, y)) (z := (x, y)); [exact E | rewrite !changed_xy by (lia || exact L); exact E |].
  generalize dependent (mean_r_xy c). intros r. intros. clear T2 Es E Ef Pr P. clearbody t. unfold square, f_, kk in *.
  open_cam c L. unfold xy_to_uv, f_, center in *. cbn [get_f get_k slice firstn skipn vec nth] in Q, F, T0, T1, K3, K4, K5. cbn [get_f slice firstn skipn vec nth]. subst a9 a15 a16 a17.
  assert (Lr : forall k1 k2 k3 r2, lens_radial k1 k2 k3 0 0 0 r2 = 1 + k1 * r2 + k2 * r2 ^ 2 + k3 * r2 ^ 3) by (intros; unfold lens_radial; field).
  destruct i as [| [| [| i]]]; [| | | lia]; cbn [Nat.add]; unfold changed; cbn [vec nth set_nth orig sensorsz correction]; rewrite !distort20; unfold lens; rewrite !Lr; cbn [get_f get_c slice firstn skipn vec nth imgszR get_imgsz map]; cbn [Nat.add] in T0;
    match goal with |- apart (?u', ?v') (?u, ?w) = ?s * r => replace u' with (u + s * x) by ring; replace v' with (w + s * y) by ring end; (apply apart_scaled; [lra | exact Rd]).
Qed.

(** ** Angles *)
Lemma triple_eq (a b c a' b' c' : R) : a = a' -> b = b' -> c = c' -> (a, b, c) = (a', b', c').
Proof. intros -> -> ->. reflexivity. Qed.
Lemma some_pair (a b a' b' : R) : a = a' -> b = b' -> Some (a, b) = Some (a', b').
Proof. intros -> ->. reflexivity. Qed.
Lemma deg2rad_add a b : deg2rad (a + b) = deg2rad a + deg2rad b.
Proof. unfold deg2rad. ring. Qed.
Lemma offset_same c c' p : get_xyz c' = get_xyz c -> correction c' = correction c -> offset c' false p = offset c false p.
Proof. intros A B. unfold offset. rewrite A, B. reflexivity. Qed.
Lemma xy_some c p xy : fst (xyz_to_xy c false p) = Some xy -> let d := offset c false p in
  0 < dot3 (row 2 (Rm c)) d /\ fst xy = dot3 (row 0 (Rm c)) d / dot3 (row 2 (Rm c)) d /\ snd xy = dot3 (row 1 (Rm c)) d / dot3 (row 2 (Rm c)) d.
Proof.
  intros E d. unfold xyz_to_xy in E. fold d in E. cbn [fst] in E. unfold Rleb in E. destruct (Rle_dec (dot3 (row 2 (Rm c)) d) 0) as [N | N]; [discriminate |]. injection E as <-. split; [lra | split; reflexivity].
Qed.
Lemma some_xy c p x y z : 0 < z -> dot3 (row 2 (Rm c)) (offset c false p) = z -> dot3 (row 0 (Rm c)) (offset c false p) = x -> dot3 (row 1 (Rm c)) (offset c false p) = y ->
  fst (xyz_to_xy c false p) = Some (x / z, y / z).
Proof. intros Z E2 E0 E1. unfold xyz_to_xy. cbn [fst]. rewrite E2, E0, E1. unfold Rleb. destruct (Rle_dec z 0); [lra | reflexivity]. Qed.
Lemma no_distortion_changed i t c : (i < 12)%nat -> length (vec c) = 20%nat -> no_distortion c -> no_distortion (changed i t c).
Proof. intros Hi L N. open_cam c L. do 12 (destruct i as [| i]; [exact N |]). lia. Qed.
Lemma changed_angle i t c : (i < 6)%nat -> length (vec c) = 20%nat -> get_f (changed i t c) = get_f c /\ center (changed i t c) 0 = center c 0 /\ center (changed i t c) 1 = center c 1.
Proof. intros Hi L. open_cam c L. do 6 (destruct i as [| i]; [split; [| split]; reflexivity |]). lia. Qed.
Lemma roll_row0 a b g t : row 0 (rotation (a, b, g + t)) = add3 (scale3 (cos (deg2rad t)) (row 0 (rotation (a, b, g)))) (scale3 (sin (deg2rad t)) (row 1 (rotation (a, b, g)))).
Proof. unfold rotation. cbn [row]. rewrite deg2rad_add, cos_plus, sin_plus. unfold add3, scale3. apply triple_eq; ring. Qed.
Lemma roll_row1 a b g t : row 1 (rotation (a, b, g + t)) = add3 (scale3 (cos (deg2rad t)) (row 1 (rotation (a, b, g)))) (scale3 (- sin (deg2rad t)) (row 0 (rotation (a, b, g)))).
Proof. unfold rotation. cbn [row]. rewrite deg2rad_add, cos_plus, sin_plus. unfold add3, scale3. apply triple_eq; ring. Qed.
Lemma roll_row2 a b g t : row 2 (rotation (a, b, g + t)) = row 2 (rotation (a, b, g)).
Proof. reflexivity. Qed.
Lemma yaw_row0 a t : row 0 (rotation (a + t, 0, 0)) = add3 (scale3 (cos (deg2rad t)) (row 0 (rotation (a, 0, 0)))) (scale3 (- sin (deg2rad t)) (row 2 (rotation (a, 0, 0)))).
Proof. unfold rotation. cbn [row]. rewrite deg2rad_add, cos_plus, sin_plus. replace (deg2rad 0) with 0 by (unfold deg2rad; ring). rewrite sin_0, cos_0. unfold add3, scale3. apply triple_eq; ring. Qed.
Lemma yaw_row1 a t : row 1 (rotation (a + t, 0, 0)) = row 1 (rotation (a, 0, 0)).
Proof. unfold rotation. cbn [row]. replace (deg2rad 0) with 0 by (unfold deg2rad; ring). rewrite sin_0, cos_0. apply triple_eq; ring. Qed.
Lemma yaw_row2 a t : row 2 (rotation (a + t, 0, 0)) = add3 (scale3 (cos (deg2rad t)) (row 2 (rotation (a, 0, 0)))) (scale3 (sin (deg2rad t)) (row 0 (rotation (a, 0, 0)))).
Proof. unfold rotation. cbn [row]. rewrite deg2rad_add, cos_plus, sin_plus. replace (deg2rad 0) with 0 by (unfold deg2rad; ring). rewrite sin_0, cos_0. unfold add3, scale3. apply triple_eq; ring. Qed.
Lemma pitch_row0 a b t : row 0 (rotation (a, b + t, 0)) = row 0 (rotation (a, b, 0)).
Proof. unfold rotation. cbn [row]. replace (deg2rad 0) with 0 by (unfold deg2rad; ring). rewrite sin_0, cos_0. apply triple_eq; ring. Qed.
Lemma pitch_row1 a b t : row 1 (rotation (a, b + t, 0)) = add3 (scale3 (cos (deg2rad t)) (row 1 (rotation (a, b, 0)))) (scale3 (sin (deg2rad t)) (row 2 (rotation (a, b, 0)))).
Proof. unfold rotation. cbn [row]. rewrite deg2rad_add, cos_plus, sin_plus. replace (deg2rad 0) with 0 by (unfold deg2rad; ring). rewrite sin_0, cos_0. unfold add3, scale3. apply triple_eq; ring. Qed.
Lemma pitch_row2 a b t : row 2 (rotation (a, b + t, 0)) = add3 (scale3 (cos (deg2rad t)) (row 2 (rotation (a, b, 0)))) (scale3 (- sin (deg2rad t)) (row 1 (rotation (a, b, 0)))).
Proof. unfold rotation. cbn [row]. rewrite deg2rad_add, cos_plus, sin_plus. replace (deg2rad 0) with 0 by (unfold deg2rad; ring). rewrite sin_0, cos_0. unfold add3, scale3. apply triple_eq; ring. Qed.
Lemma dot_comb s u t v d : dot3 (add3 (scale3 s u) (scale3 t v)) d = s * dot3 u d + t * dot3 v d.
Proof. destruct u as [[u0 u1] u2], v as [[w0 w1] w2], d as [[d0 d1] d2]. unfold dot3, add3, scale3. ring. Qed.
Lemma uv_none c x y : no_distortion c -> xy_to_uv c (x, y) = (x * f_ c 0 + center c 0, y * f_ c 1 + center c 1).
Proof. intros N. unfold xy_to_uv. rewrite (distort_none c _ N). reflexivity. Qed.
Lemma half_angle a : (cos a - 1) ^ 2 + sin a ^ 2 = (2 * sin (a / 2)) ^ 2.
Proof.
  replace a with (2 * (a / 2)) at 1 2 by field. rewrite cos_2a, sin_2a. pose proof (sc (a / 2)) as Q. set (s := sin (a / 2)) in *. set (k := cos (a / 2)) in *.
  assert (K : k * k = 1 - s * s) by lra. replace ((k * k - s * s - 1) ^ 2 + (2 * s * k) ^ 2) with ((k * k - s * s - 1) ^ 2 + 4 * s * s * (k * k)) by ring. rewrite K. ring.
Qed.
(** roll: one degree displaces a point at the mean distance from the image center by the inverse of the factor *)
Theorem scale_roll : forall o c controls p x y, proper c -> square c -> no_distortion c -> fst (xyz_to_xy c false p) = Some (x, y) ->
  (x * f_ c 0) ^ 2 + (y * f_ c 1) ^ 2 = mean_r_uv c ^ 2 ->
  displaces c (changed 5 1 c) p (/ scale 5 o c controls).
Proof.
  intros o c controls p x y P Q N E Rd. destruct (mean_r_pos c P) as (B & _ & _). pose proof P as (L & _ & _ & F0 & F1).
  pose proof sin_small as Sp.
  assert (Es : / scale 5 o c controls = 2 * sin (PI / 180 / 2) * mean_r_uv c).
  { unfold scale, camera_scales, dpixels. cbn [nth map]. unfold Rdiv at 1. rewrite Rmult_1_l, Rinv_inv. ring. }
  rewrite Es. destruct (xy_some c p (x, y) E) as (Z & Ex & Ey). cbv zeta in Z, Ex, Ey. cbn [fst snd] in Ex, Ey.
  destruct (changed_angle 5 1 c ltac:(lia) L) as (Gf & G0 & G1).
  assert (Eo : offset (changed 5 1 c) false p = offset c false p).
  { apply offset_same; [| reflexivity]. clear - L. open_cam c L. reflexivity. }
  assert (EV : exists a b g, v3 (get_viewdir c) = (a, b, g) /\ v3 (get_viewdir (changed 5 1 c)) = (a, b, g + 1)).
  { clear - L. open_cam c L. do 3 eexists. split; reflexivity. }
  destruct EV as (a & b & g & V & V').
  assert (ER : Rm c = rotation (a, b, g)) by (unfold Rm; rewrite V; reflexivity). assert (ER' : Rm (changed 5 1 c) = rotation (a, b, g + 1)) by (unfold Rm; rewrite V'; reflexivity).
  set (d := offset c false p) in *. set (C := cos (deg2rad 1)). set (Sn := sin (deg2rad 1)).
  set (zc := dot3 (row 2 (Rm c)) d) in *.
  apply via_xy with (xy := (x, y)) (z := (C * x + Sn * y, C * y - Sn * x)); [exact E | |].
  - assert (X : fst (xyz_to_xy (changed 5 1 c) false p) = Some ((C * dot3 (row 0 (Rm c)) d + Sn * dot3 (row 1 (Rm c)) d) / zc, (C * dot3 (row 1 (Rm c)) d + - Sn * dot3 (row 0 (Rm c)) d) / zc)).
    { apply some_xy; [exact Z | | |]; rewrite Eo, ER'; fold d; [rewrite roll_row2, <- ER; reflexivity | rewrite roll_row0, dot_comb, <- ER; reflexivity | rewrite roll_row1, dot_comb, <- ER; reflexivity]. }
    rewrite X, Ex, Ey. apply some_pair; field; lra.
  - rewrite uv_none by (apply no_distortion_changed; [lia | exact L | exact N]). rewrite uv_none by exact N. rewrite G0, G1. unfold f_ in *. rewrite Gf. unfold square, f_ in Q. rewrite <- Q in *. set (f := nth 0 (get_f c) 0) in *.
    unfold apart. cbn [fst snd].
    match goal with |- sqrt ?e = _ => replace e with (((C - 1) ^ 2 + Sn ^ 2) * ((x * f) ^ 2 + (y * f) ^ 2)) by ring end.
    rewrite Rd. unfold C, Sn. rewrite half_angle. replace (deg2rad 1 / 2) with (PI / 180 / 2) by (unfold deg2rad; field).
    replace ((2 * sin (PI / 180 / 2)) ^ 2 * mean_r_uv c ^ 2) with ((2 * sin (PI / 180 / 2) * mean_r_uv c) * (2 * sin (PI / 180 / 2) * mean_r_uv c)) by ring. apply sqrt_square.
    apply Rlt_le. apply Rmult_lt_0_compat; [lra | exact B].
Qed.

(** yaw and pitch: the factor times the size of the image is the change that moves a point from one edge of the image to the other *)
Lemma double_atan w f : 0 < f -> let al := atan (w / (2 * f)) in let q := w / (2 * f) in cos (2 * al) + sin (2 * al) * q = 1 /\ cos (2 * al) * q - sin (2 * al) = - q.
Proof.
  intros F. cbv zeta. set (q := w / (2 * f)). assert (Hc : 0 < cos (atan q)) by (apply cos_gt_0; pose proof (atan_bound q); lra).
  assert (Et : sin (atan q) = q * cos (atan q)). { pose proof (tan_atan q) as H. unfold tan in H. rewrite <- H at 2. field. lra. }
  rewrite cos_2a, sin_2a. pose proof (sc (atan q)) as U. rewrite Et in *. set (k := cos (atan q)) in *. split.
  - replace (k * k - q * k * (q * k) + 2 * (q * k) * k * q) with (q * k * (q * k) + k * k) by ring. exact U.
  - replace ((k * k - q * k * (q * k)) * q - 2 * (q * k) * k) with (- q * (q * k * (q * k) + k * k)) by ring. rewrite U. ring.
Qed.
Lemma view_scale i o c controls : (i < 2)%nat -> 0 < nth i (imgszR c) 0 -> deg2rad (nth i (imgszR c) 0 * scale (3 + i) o c controls) = 2 * atan (nth i (imgszR c) 0 / (2 * f_ c i)).
Proof.
  intros Hi W. pose proof PI_RGT_0 as Pp. unfold scale, camera_scales, dpixels, f_, deg2rad. destruct i as [| [| i]]; [| | lia]; cbn [Nat.add nth map].
  - set (w := nth 0 (imgszR c) 0) in *. set (t := atan (w / (2 * nth 0 (get_f c) 0))). destruct (Req_dec t 0) as [-> | N]; [| field; lra]. rewrite Rmult_0_r, Rmult_0_l. unfold Rdiv. rewrite Rinv_0, Rmult_0_r, Rinv_0. ring.
  - set (w := nth 1 (imgszR c) 0) in *. set (t := atan (w / (2 * nth 1 (get_f c) 0))). destruct (Req_dec t 0) as [-> | N]; [| field; lra]. rewrite Rmult_0_r, Rmult_0_l. unfold Rdiv. rewrite Rinv_0, Rmult_0_r, Rinv_0. ring.
Qed.
Theorem scale_yaw : forall o c controls p w, proper c -> no_distortion c -> skipn 1 (get_viewdir c) = [0; 0] -> w = nth 0 (imgszR c) 0 ->
  fst (xyz_to_xy c false p) = Some (w / (2 * f_ c 0), 0) ->
  displaces c (changed 3 (w * scale 3 o c controls) c) p w.
Proof.
  intros o c controls p w P N V Ew E. pose proof P as (L & W & _ & F0 & F1). rewrite <- Ew in W.
  pose proof (view_scale 0 o c controls ltac:(lia) ltac:(rewrite <- Ew; exact W)) as Ed. rewrite <- Ew in Ed. cbn [Nat.add] in Ed. set (t := w * scale 3 o c controls) in *. clearbody t.
  pose proof (double_atan w (f_ c 0) F0) as (D1 & D2). cbv zeta in D1, D2. rewrite <- Ed in D1, D2.
  destruct (xy_some c p _ E) as (Z & Ex & Ey). cbv zeta in Z, Ex, Ey. cbn [fst snd] in Ex, Ey.
  destruct (changed_angle 3 t c ltac:(lia) L) as (Gf & G0 & G1).
  assert (Eo : offset (changed 3 t c) false p = offset c false p).
  { apply offset_same; [| reflexivity]. clear - L. open_cam c L. reflexivity. }
  assert (EV : exists a, v3 (get_viewdir c) = (a, 0, 0) /\ v3 (get_viewdir (changed 3 t c)) = (a + t, 0, 0)).
  { clear - L V. open_cam c L. cbn in V. injection V as -> ->. eexists. split; reflexivity. }
  destruct EV as (a & Va & Va').
  assert (ER : Rm c = rotation (a, 0, 0)) by (unfold Rm; rewrite Va; reflexivity). assert (ER' : Rm (changed 3 t c) = rotation (a + t, 0, 0)) by (unfold Rm; rewrite Va'; reflexivity).
  set (d := offset c false p) in *. set (zc := dot3 (row 2 (Rm c)) d) in *. set (xc := dot3 (row 0 (Rm c)) d) in *. set (yc := dot3 (row 1 (Rm c)) d) in *. set (q := w / (2 * f_ c 0)) in *.
  assert (Xc : xc = q * zc) by (rewrite Ex; field; lra). assert (Yc : yc = 0 * zc) by (rewrite Ey; field; lra).
  apply via_xy with (xy := (q, 0)) (z := (- q, 0)); [exact E | |].
  - assert (X : fst (xyz_to_xy (changed 3 t c) false p) = Some ((- q * zc) / zc, (0 * zc) / zc)).
    { apply some_xy; [exact Z | | |]; rewrite Eo, ER'; fold d.
      - rewrite yaw_row2, dot_comb, <- ER. fold zc xc. rewrite Xc. replace (cos (deg2rad t) * zc + sin (deg2rad t) * (q * zc)) with ((cos (deg2rad t) + sin (deg2rad t) * q) * zc) by ring. rewrite D1. ring.
      - rewrite yaw_row0, dot_comb, <- ER. fold zc xc. rewrite Xc. replace (cos (deg2rad t) * (q * zc) + - sin (deg2rad t) * zc) with ((cos (deg2rad t) * q - sin (deg2rad t)) * zc) by ring. rewrite D2. ring.
      - rewrite yaw_row1, <- ER. fold yc. exact Yc. }
    rewrite X. apply some_pair; field; lra.
  - rewrite uv_none by (apply no_distortion_changed; [lia | exact L | exact N]). rewrite uv_none by exact N. rewrite G0, G1. unfold f_ in *. rewrite Gf. unfold apart. cbn [fst snd].
    match goal with |- sqrt ?e = _ => replace e with (w * w) by (unfold q; field; lra) end. apply sqrt_square. lra.
Qed.
Theorem scale_pitch : forall o c controls p h, proper c -> no_distortion c -> nth 2 (get_viewdir c) 0 = 0 -> h = nth 1 (imgszR c) 0 ->
  fst (xyz_to_xy c false p) = Some (0, - (h / (2 * f_ c 1))) ->
  displaces c (changed 4 (h * scale 4 o c controls) c) p h.
Proof.
  intros o c controls p w P N V Ew E. pose proof P as (L & _ & W & F0 & F1). rewrite <- Ew in W.
  pose proof (view_scale 1 o c controls ltac:(lia) ltac:(rewrite <- Ew; exact W)) as Ed. rewrite <- Ew in Ed. cbn [Nat.add] in Ed. set (t := w * scale 4 o c controls) in *. clearbody t.
  pose proof (double_atan w (f_ c 1) F1) as (D1 & D2). cbv zeta in D1, D2. rewrite <- Ed in D1, D2.
  destruct (xy_some c p _ E) as (Z & Ex & Ey). cbv zeta in Z, Ex, Ey. cbn [fst snd] in Ex, Ey.
  destruct (changed_angle 4 t c ltac:(lia) L) as (Gf & G0 & G1).
  assert (Eo : offset (changed 4 t c) false p = offset c false p).
  { apply offset_same; [| reflexivity]. clear - L. open_cam c L. reflexivity. }
  assert (EV : exists a b, v3 (get_viewdir c) = (a, b, 0) /\ v3 (get_viewdir (changed 4 t c)) = (a, b + t, 0)).
  { clear - L V. open_cam c L. cbn in V. subst a5. do 2 eexists. split; reflexivity. }
  destruct EV as (a & b & Va & Va').
  assert (ER : Rm c = rotation (a, b, 0)) by (unfold Rm; rewrite Va; reflexivity). assert (ER' : Rm (changed 4 t c) = rotation (a, b + t, 0)) by (unfold Rm; rewrite Va'; reflexivity).
  set (d := offset c false p) in *. set (zc := dot3 (row 2 (Rm c)) d) in *. set (xc := dot3 (row 0 (Rm c)) d) in *. set (yc := dot3 (row 1 (Rm c)) d) in *. set (q := w / (2 * f_ c 1)) in *.
  assert (Xc : xc = 0 * zc) by (rewrite Ex; field; lra). assert (Yc : yc = - q * zc) by (rewrite Ey; field; lra).
  apply via_xy with (xy := (0, - q)) (z := (0, q)); [exact E | |].
  - assert (X : fst (xyz_to_xy (changed 4 t c) false p) = Some ((0 * zc) / zc, (q * zc) / zc)).
    { apply some_xy; [exact Z | | |]; rewrite Eo, ER'; fold d.
      - rewrite pitch_row2, dot_comb, <- ER. fold zc yc. rewrite Yc. replace (cos (deg2rad t) * zc + - sin (deg2rad t) * (- q * zc)) with ((cos (deg2rad t) + sin (deg2rad t) * q) * zc) by ring. rewrite D1. ring.
      - rewrite pitch_row0, <- ER. fold xc. exact Xc.
      - rewrite pitch_row1, dot_comb, <- ER. fold zc yc. rewrite Yc. replace (cos (deg2rad t) * (- q * zc) + sin (deg2rad t) * zc) with (- (cos (deg2rad t) * q - sin (deg2rad t)) * zc) by ring. rewrite D2. ring. }
    rewrite X. apply some_pair; field; lra.
  - rewrite uv_none by (apply no_distortion_changed; [lia | exact L | exact N]). rewrite uv_none by exact N. rewrite G0, G1. unfold f_ in *. rewrite Gf. unfold apart. cbn [fst snd].
    match goal with |- sqrt ?e = _ => replace e with (w * w) by (unfold q; field; lra) end. apply sqrt_square. lra.
Qed.

(** ** Position *)
Definition moved (w : vec3) (c : cam) : cam := changed 0 (comp 0 w) (changed 1 (comp 1 w) (changed 2 (comp 2 w) c)).
Theorem seen_points : forall o controls p, In p (world_points o controls) <->
  (exists xyz, In (WPoints o xyz false) controls /\ In p xyz) \/ (exists xyzs l, In (WLines o xyzs false) controls /\ In l xyzs /\ In p l).
Proof.
  intros o controls p. unfold world_points. rewrite in_concat. split.
  - intros (ps & I & Ip). apply in_map_iff in I as (w & <- & I). destruct w as [k xyz d | k xyzs d |]; [| | destruct Ip].
    + destruct (k =? o)%nat eqn:Ek, d; try (destruct Ip; fail). cbn in Ip. apply Nat.eqb_eq in Ek as ->. left. eauto.
    + destruct (k =? o)%nat eqn:Ek, d; try (destruct Ip; fail). cbn in Ip. apply Nat.eqb_eq in Ek as ->. apply in_concat in Ip as (l & Il & Ip). right. eauto.
  - intros [(xyz & I & Ip) | (xyzs & l & I & Il & Ip)].
    + exists xyz. split; [| exact Ip]. apply in_map_iff. eexists. split; [| exact I]. cbn. rewrite Nat.eqb_refl. reflexivity.
    + exists (concat xyzs). split; [| apply in_concat; eauto]. apply in_map_iff. eexists. split; [| exact I]. cbn. rewrite Nat.eqb_refl. reflexivity.
Qed.

Lemma sum_same ps q D : Forall (fun r => sq r q = D ^ 2) ps -> sumR (map (fun r => dot3 (sub3 r q) (sub3 r q)) ps) = INR (length ps) * D ^ 2.
Proof.
  induction ps as [| p ps IH]; intros H; [cbn; ring |]. inversion H; subst. cbn [map]. rewrite sumR_cons, IH by assumption. cbn [length]. rewrite S_INR. unfold sq in H2. rewrite H2. ring.
Qed.
Lemma moved_facts w c : length (vec c) = 20%nat -> v3 (get_xyz (moved w c)) = add3 (v3 (get_xyz c)) w /\ Rm (moved w c) = Rm c /\ get_f (moved w c) = get_f c /\ center (moved w c) 0 = center c 0 /\ center (moved w c) 1 = center c 1 /\
  (no_distortion c -> no_distortion (moved w c)) /\ correction (moved w c) = correction c.
Proof. intros L. destruct w as [[w0 w1] w2]. open_cam c L. do 5 (split; [reflexivity |]). split; [intros N; exact N | reflexivity]. Qed.
Lemma position_displaces c p D t : proper c -> square c -> no_distortion c -> correction c = None -> 0 < D -> 0 <= t -> p = add3 (v3 (get_xyz c)) (scale3 D (row 2 (Rm c))) ->
  displaces c (moved (scale3 t (row 0 (Rm c))) c) p (t / D * f_ c 0).
Proof.
  intros P Q N K HD Ht Ep. pose proof P as (L & _ & _ & F0 & F1).
  destruct (moved_facts (scale3 t (row 0 (Rm c))) c L) as (Mx & MR & Mf & M0 & M1 & MN & MK). set (c' := moved (scale3 t (row 0 (Rm c))) c) in *.
  assert (O : offset c false p = scale3 D (row 2 (Rm c))).
  { unfold offset. rewrite K, Ep. destruct (v3 (get_xyz c)) as [[x0 x1] x2], (row 2 (Rm c)) as [[r0 r1] r2]. cbn. apply triple_eq; ring. }
  assert (O' : offset c' false p = add3 (scale3 D (row 2 (Rm c))) (scale3 (- t) (row 0 (Rm c)))).
  { unfold offset. rewrite MK, K, Ep, Mx. destruct (v3 (get_xyz c)) as [[x0 x1] x2], (row 2 (Rm c)) as [[r0 r1] r2], (row 0 (Rm c)) as [[s0 s1] s2]. cbn. apply triple_eq; ring. }
  assert (Or : forall i j, (i < 3)%nat -> (j < 3)%nat -> dot3 (row i (Rm c)) (row j (Rm c)) = if Nat.eqb i j then 1 else 0) by (intros; unfold Rm; apply rotation_orthonormal; assumption).
  assert (DS : forall u s a s' b, dot3 u (add3 (scale3 s a) (scale3 s' b)) = s * dot3 u a + s' * dot3 u b) by (intros; rewrite dot3_comm, dot_comb; f_equal; f_equal; apply dot3_comm).
  apply via_xy with (xy := (0 / D, 0 / D)) (z := (- t / D, 0 / D)).
  - apply some_xy; [exact HD | | |]; rewrite O, dot3_scale, Or by lia; cbn [Nat.eqb]; ring.
  - apply some_xy; [exact HD | | |]; rewrite O', MR, DS, !Or by lia; cbn [Nat.eqb]; ring.
  - rewrite uv_none by auto. rewrite uv_none by exact N. rewrite M0, M1. unfold f_ in *. rewrite Mf. unfold apart. cbn [fst snd].
    match goal with |- sqrt ?e = ?r => replace e with (r * r) by (field; lra) end. apply sqrt_square. apply Rmult_le_pos; [| lra]. apply Rmult_le_pos; [exact Ht |]. apply Rlt_le, Rinv_0_lt_compat, HD.
Qed.
(** Finding: the distance used is the root of the sum of squared distances, so with [n] world points at the same distance, moving the camera by the factor displaces a point by the root of [n], not by one pixel *)
Theorem scale_position_refuted : forall o c controls p D, proper c -> square c -> no_distortion c -> correction c = None -> 0 < D ->
  world_points o controls <> [] -> Forall (fun r => dot3 (sub3 r (v3 (get_xyz c))) (sub3 r (v3 (get_xyz c))) = D ^ 2) (world_points o controls) ->
  p = add3 (v3 (get_xyz c)) (scale3 D (row 2 (Rm c))) ->
  scale 1 o c controls = scale 0 o c controls /\ scale 2 o c controls = scale 0 o c controls /\
  scale 0 o c controls = sqrt (INR (length (world_points o controls))) * (D / f_ c 0) /\
  displaces c (moved (scale3 (scale 0 o c controls) (row 0 (Rm c))) c) p (sqrt (INR (length (world_points o controls)))).
Proof.
  intros o c controls p D P Q N K HD Ne Fa Ep. split; [reflexivity |]. split; [reflexivity |]. pose proof P as (L & _ & _ & F0 & F1).
  assert (Ef : mean2 (get_f c) = f_ c 0) by (unfold mean2, square in *; unfold f_ in *; lra).
  assert (Ln : 0 < INR (length (world_points o controls))). { apply lt_0_INR. destruct (world_points o controls); [congruence | cbn; lia]. }
  assert (Es : scale 0 o c controls = sqrt (INR (length (world_points o controls))) * (D / f_ c 0)).
  { unfold scale, camera_scales, dpixels. cbn [nth map]. rewrite Ef. assert (Fr : frobenius (world_points o controls) (v3 (get_xyz c)) = sqrt (INR (length (world_points o controls))) * D).
    { unfold frobenius. rewrite (sum_same _ _ D Fa). rewrite sqrt_mult by (try apply pow2_ge_0; lra). f_equal. apply sqrt_pow2. lra. }
    destruct (world_points o controls) as [| r rs]; [congruence |]. rewrite Fr. pose proof (sqrt_lt_R0 _ Ln). field. repeat split; lra. }
  split; [exact Es |]. rewrite Es. pose proof (sqrt_lt_R0 _ Ln) as Sp.
  replace (sqrt (INR (length (world_points o controls)))) with (sqrt (INR (length (world_points o controls))) * (D / f_ c 0) / D * f_ c 0) at 2 by (field; lra).
  apply position_displaces; auto. apply Rlt_le. apply Rmult_lt_0_compat; [exact Sp | apply Rdiv_lt_0_compat; assumption].
Qed.
(** one world point, or none: with one point the factor is right, without points it is one *)
Theorem scale_position : forall o c controls, proper c -> square c -> no_distortion c -> correction c = None ->
  (world_points o controls = [] -> scale 0 o c controls = 1 /\ scale 1 o c controls = 1 /\ scale 2 o c controls = 1) /\
  (forall p D, 0 < D -> p = add3 (v3 (get_xyz c)) (scale3 D (row 2 (Rm c))) -> world_points o controls = [p] ->
    displaces c (moved (scale3 (scale 0 o c controls) (row 0 (Rm c))) c) p 1).
Proof.
  intros o c controls P Q N K. split.
  - intros E. unfold scale, camera_scales, dpixels. cbn [nth map]. rewrite E. lra.
  - intros p D HD Ep E. destruct (scale_position_refuted o c controls p D P Q N K HD) as (_ & _ & _ & H); [rewrite E; discriminate | | exact Ep |].
    + rewrite E. apply Forall_cons; [| apply Forall_nil]. rewrite Ep. assert (Or : dot3 (row 2 (Rm c)) (row 2 (Rm c)) = 1) by (unfold Rm; rewrite rotation_orthonormal by lia; reflexivity).
      revert Or. destruct (v3 (get_xyz c)) as [[x0 x1] x2], (row 2 (Rm c)) as [[r0 r1] r2]. unfold dot3, sub3, add3, scale3. intros Or.
      match goal with |- ?e = _ => replace e with (D ^ 2 * (r0 * r0 + r1 * r1 + r2 * r2)) by ring end. rewrite Or. ring.
    + rewrite E in H. cbn [length INR] in H. rewrite sqrt_1 in H. exact H.
Qed.

(** ** The factors of the parameters of a model *)
Lemma combine_map2 {A B C} (f : A * B -> C) (g : A -> B -> C) l l' : (forall a b, f (a, b) = g a b) -> map f (combine l l') = map2 g l l'.
Proof. intros H. revert l'. induction l as [| a l IH]; intros [| b l']; try reflexivity. cbn. rewrite H, IH. reflexivity. Qed.
Lemma map2_map_flip {A B C} (s : nat -> A) (g : A -> B -> C) cams masks : map2 g (map s cams) masks = map2 (fun mask o => g (s o) mask) masks cams.
Proof. revert masks. induction cams as [| o cams IH]; intros [| k masks]; try reflexivity. cbn. rewrite IH. reflexivity. Qed.
Lemma build_initial m h controls : consistent m h -> m_cams m <> [] -> m_group_masks m <> [] -> Forall (fun idx => idx <> []) (m_group_indices m) ->
  build_scales m h controls = Ok (initial_params m (fun o => camera_scales o (cam_of (h o)) controls)).
Proof.
  intros Cm Ne Ng Fi. destruct Cm as (_ & _ & L1 & L2 & _ & _ & F3 & _). unfold build_scales. set (s := fun o => camera_scales o (cam_of (h o)) controls).
  rewrite (mapM_all_ok _ (fun mi => group_values m s (fst mi) (snd mi))).
  - cbn [bind]. unfold initial_params. rewrite (combine_map2 _ (group_values m s)) by reflexivity. rewrite (map2_map_flip s (fun v mask => mget mask v)).
    destruct (m_group_masks m) as [| k ks]; [congruence |]. destruct (m_group_indices m) as [| x xs]; [discriminate |]. destruct (m_cams m) as [| o os]; [congruence |]. destruct (m_cam_masks m) as [| y ys]; [discriminate |]. reflexivity.
  - intros (mask, idx) I. apply in_combine_r in I. cbn [fst snd]. rewrite Forall_forall in Fi, F3. specialize (Fi _ I). specialize (F3 _ I). rewrite Forall_forall in F3.
    rewrite (mapM_all_ok _ (fun j => mget mask (s (nth j (m_cams m) 0%nat)))).
    + cbn [bind]. destruct idx as [| j idx]; [congruence |]. reflexivity.
    + intros j Ij. rewrite nth_error_map. rewrite (nth_error_nth' (m_cams m) 0%nat (F3 j Ij)). reflexivity.
Qed.
Theorem model_scales : forall m h controls, consistent m h -> m_cams m <> [] -> m_group_masks m <> [] -> Forall (fun idx => idx <> []) (m_group_indices m) ->
  exists scales, build_scales m h controls = Ok scales /\ length scales = n_params m /\
  (forall j q, (j < length (m_cams m))%nat -> cam_on m j q = true -> let o := nth j (m_cams m) 0%nat in nth (cam_pos m j q) scales 0 = scale q o (cam_of (h o)) controls) /\
  (forall i q, (i < length (m_group_masks m))%nat -> group_on m i q = true ->
    nth (group_pos m i q) scales 0 = sumR (map (fun j => let o := nth j (m_cams m) 0%nat in scale q o (cam_of (h o)) controls) (nth i (m_group_indices m) [])) / INR (length (nth i (m_group_indices m) []))).
Proof.
  intros m h controls Cm Ne Ng Fi. exists (initial_params m (fun o => camera_scales o (cam_of (h o)) controls)). split; [apply build_initial; assumption |].
  assert (W : wide m (fun o => camera_scales o (cam_of (h o)) controls)) by (intros o _; reflexivity).
  split; [apply (initial_length m h Cm); exact W |]. split.
  - intros j q Lj O. apply (initial_cam m h Cm _ W); assumption.
  - intros i q Li O. rewrite (initial_group m h Cm _ W) by assumption. reflexivity.
Qed.

Print Assumptions scales_positive.
Print Assumptions scale_center.
Print Assumptions scale_imgsz.
Print Assumptions scale_focal.
Print Assumptions scale_tangential.
Print Assumptions scale_radial_refuted.
Print Assumptions scale_roll.
Print Assumptions scale_yaw.
Print Assumptions scale_pitch.
Print Assumptions seen_points.
Print Assumptions scale_position_refuted.
Print Assumptions scale_position.
Print Assumptions model_scales.

(** * The hypotheses are met *)
(** a camera at the origin with images of 4000 by 3000 pixels, focal lengths 2000 and no distortion sees every camera coordinate *)
Definition ex_cam : cam := cam_of (map IZR [0; 0; 0; 0; 0; 0; 4000; 3000; 2000; 2000; 0; 0; 0; 0; 0; 0; 0; 0; 0; 0]%Z).
Example ex_cam_proper : proper ex_cam /\ square ex_cam /\ no_distortion ex_cam /\ correction ex_cam = None /\ nth 0 (imgszR ex_cam) 0 = 4000 /\ skipn 1 (get_viewdir ex_cam) = [0; 0] /\ forall xy, exists p, fst (xyz_to_xy ex_cam false p) = Some xy.
Proof.
  assert (I : imgszR ex_cam = [4000; 3000]) by (unfold imgszR, get_imgsz, ex_cam; cbn [cam_of vec map slice firstn skipn]; rewrite !Rtrunc_IZR; reflexivity).
  split; [| split; [reflexivity | split; [split; reflexivity | split; [reflexivity | split; [rewrite I; reflexivity | split; [reflexivity |]]]]]].
  - split; [reflexivity |]. rewrite I. unfold f_, ex_cam. cbn. repeat split; lra.
  - intros xy. exists (xy_to_xyz ex_cam false 1 xy). rewrite xyz_to_xy_inv; [reflexivity | right; reflexivity | lra].
Qed.
(** four points ten meters away, one in front of the camera, some in lines and one of another camera: twice the right factor *)
Definition ex_controls : list world := [WPoints 0 [(0, 10, 0); (10, 0, 0)] false; WOther; WLines 0 [[(0, 0, 10)]; [(0, -10, 0)]] false; WPoints 1 [(5, 5, 5)] false; WPoints 0 [(7, 7, 7)] true].
Example ex_scale_position : scale 0 0 ex_cam ex_controls = 2 * (10 / 2000) /\ displaces ex_cam (moved (scale3 (scale 0 0 ex_cam ex_controls) (row 0 (Rm ex_cam))) ex_cam) (add3 (0, 0, 0) (scale3 10 (row 2 (Rm ex_cam)))) 2.
Proof.
  destruct ex_cam_proper as (P & Q & N & K & _).
  destruct (scale_position_refuted 0 ex_cam ex_controls (add3 (0, 0, 0) (scale3 10 (row 2 (Rm ex_cam)))) 10 P Q N K ltac:(lra)) as (_ & _ & A & B).
  - discriminate.
  - repeat (apply Forall_cons; [cbn; ring |]). apply Forall_nil.
  - reflexivity.
  - change (length (world_points 0 ex_controls)) with 4%nat in A, B. replace (sqrt (INR 4)) with 2 in A, B by (replace (INR 4) with (2 * 2) by (cbn; ring); symmetry; apply sqrt_square; lra). split; [exact A | exact B].
Qed.
(** two cameras that share a focal length *)
Example ex_model_scales : consistent two_controls start /\ m_cams two_controls <> [] /\ m_group_masks two_controls <> [] /\ Forall (fun idx => idx <> []) (m_group_indices two_controls) /\ exists s, build_scales two_controls start ex_controls = Ok s /\ length s = 3%nat.
Proof.
  destruct sparsity_two_applies as (_ & C & _). split; [exact C |]. split; [discriminate |]. split; [discriminate |]. split; [repeat constructor; discriminate |].
  destruct (model_scales two_controls start ex_controls C) as (s & A & B & _); [discriminate | discriminate | repeat constructor; discriminate |]. exists s. split; [exact A | exact B].
Qed.
