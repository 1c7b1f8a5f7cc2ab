(** Proofs about lens distortion removal. *)
From Verif Require Import Base BaseLemmas HelpersModel CameraModel CameraSpec CameraStateProofs CameraProofs.
Open Scope R_scope.

(** ** atan2 *)
Lemma cos_atan_pos t : 0 < cos (atan t).
Proof. pose proof (atan_bound t). apply cos_gt_0; lra. Qed.
Lemma sin_atan_cos t : sin (atan t) = t * cos (atan t).
Proof.
  pose proof (cos_atan_pos t). pose proof (tan_atan t) as T. unfold tan in T.
  rewrite <- T at 2. field. lra.
Qed.
Lemma atan2_polar x y : x <> 0 ->
  0 < x * cos (atan2 y x) /\ sin (atan2 y x) * x = y * cos (atan2 y x).
Proof.
  intros Hx. unfold atan2. pose proof (cos_atan_pos (y / x)) as Hc. pose proof (sin_atan_cos (y / x)) as Hs.
  destruct (Rltb_spec 0 x).
  - split; [apply Rmult_lt_0_compat; auto|]. rewrite Hs. field. auto.
  - destruct (Rltb_spec x 0); [|lra].
    assert (K : forall d, (d = PI \/ d = - PI) -> 0 < x * cos (atan (y / x) + d) /\ sin (atan (y / x) + d) * x = y * cos (atan (y / x) + d)).
    { intros d Hd. rewrite cos_plus, sin_plus.
      assert (cos d = -1) as -> by (destruct Hd as [->| ->]; [apply cos_PI|rewrite cos_neg; apply cos_PI]).
      assert (sin d = 0) as -> by (destruct Hd as [->| ->]; [apply sin_PI|rewrite sin_neg, sin_PI; ring]).
      split.
      - replace (x * (cos (atan (y / x)) * -1 - sin (atan (y / x)) * 0)) with ((- x) * cos (atan (y / x))) by ring.
        apply Rmult_lt_0_compat; lra.
      - rewrite Hs. field. auto. }
    destruct (Rltb_spec y 0); [apply (K (- PI))|apply (K PI)]; auto.
Qed.

(** ** The cubic *)
Definition k1_root (k1 Rr : R) : R :=
  let Q := - 1 / (3 * k1) in
  if Rltb (Rr * Rr) (Q * Q * Q) then
    let th := acos (Rr * / (Q * sqrt Q)) in
    - 2 * sqrt Q * cos ((th - 2 * PI) / 3)
  else
    let A := - sign Rr * npower (Rabs Rr + sqrt (Rr * Rr - Q * Q * Q)) (1 / 3) in
    let B := if Reqb A 0 then 0 else Q / A in
    A + B.

Lemma undistort_k1_root c x y : undistort_k1 c (x, y) =
  let phi := atan2 y x in
  let r := k1_root (kk c 0) (if Reqb x 0 then 0 else - x / (2 * kk c 0 * cos phi)) in
  (cos phi * r, sin phi * r).
Proof. reflexivity. Qed.

Lemma cos_3x x : cos (3 * x) = 4 * (cos x * cos x * cos x) - 3 * cos x.
Proof.
  replace (3 * x) with (2 * x + x) by ring. rewrite cos_plus, sin_2a, cos_2a.
  pose proof (sc x). assert (S : sin x * sin x = 1 - cos x * cos x) by lra. ring [S].
Qed.

Lemma Q3_pos Q : 0 < Q * Q * Q -> 0 < Q.
Proof.
  intros H. destruct (Rlt_le_dec 0 Q) as [|N]; auto. exfalso.
  pose proof (Rmult_le_pos (- Q) (- Q) ltac:(lra) ltac:(lra)) as P.
  pose proof (Rmult_le_pos (- Q * - Q) (- Q) P ltac:(lra)). lra.
Qed.

(** the angle used in the three-root case *)
Lemma three_roots_facts Q Rr : Rr * Rr < Q * Q * Q ->
  0 < Q /\ 0 < sqrt Q /\ sqrt Q * sqrt Q = Q /\ -1 <= Rr * / (Q * sqrt Q) <= 1.
Proof.
  intros H. assert (HQ : 0 < Q). { apply Q3_pos. pose proof (Rle_0_sqr Rr). unfold Rsqr in *. lra. }
  assert (Hs : 0 < sqrt Q) by (apply sqrt_lt_R0; auto).
  assert (Hss : sqrt Q * sqrt Q = Q) by (apply sqrt_sqrt; lra).
  split; auto. split; auto. split; auto.
  set (s := sqrt Q) in *.
  assert (HD : 0 < Q * s) by (apply Rmult_lt_0_compat; auto).
  assert (HD2 : Rr * Rr < (Q * s) * (Q * s)).
  { replace ((Q * s) * (Q * s)) with (Q * Q * (s * s)) by ring. rewrite Hss. exact H. }
  set (D := Q * s) in *.
  assert (E : Rr = (Rr * / D) * D) by (field; lra).
  assert (B : - D < Rr < D).
  { split.
    - destruct (Rlt_le_dec (- D) Rr) as [|N]; auto. exfalso.
      assert (D * D <= (- Rr) * (- Rr)) by (apply Rmult_le_compat; lra). lra.
    - destruct (Rlt_le_dec Rr D) as [|N]; auto. exfalso.
      assert (D * D <= Rr * Rr) by (apply Rmult_le_compat; lra). lra. }
  split.
  - apply (Rmult_le_reg_r D); [auto|]. rewrite <- E. lra.
  - apply (Rmult_le_reg_r D); [auto|]. rewrite <- E. lra.
Qed.

Lemma npower_cube a : 0 <= a -> npower a (1 / 3) * npower a (1 / 3) * npower a (1 / 3) = a.
Proof.
  intros H. unfold npower. destruct (Rltb_spec 0 a); [|lra].
  rewrite <- !Rpower_plus. replace (1 / 3 + 1 / 3 + 1 / 3) with 1 by field. apply Rpower_1. auto.
Qed.

(** the returned radius solves r^3 - 3 Q r + 2 R = 0 *)
Lemma k1_root_cubic k1 Rr : k1 <> 0 -> let Q := - 1 / (3 * k1) in let r := k1_root k1 Rr in
  r * r * r - 3 * Q * r + 2 * Rr = 0.
Proof.
  intros Hk Q r. unfold r, k1_root. fold Q. cbv zeta.
  destruct (Rltb_spec (Rr * Rr) (Q * Q * Q)) as [H|H].
  - destruct (three_roots_facts Q Rr H) as (HQ & Hs & Hss & Hb).
    set (s := sqrt Q) in *. set (th := acos (Rr * / (Q * s))).
    set (a := (th - 2 * PI) / 3).
    assert (E : 4 * (cos a * cos a * cos a) - 3 * cos a = Rr * / (Q * s)).
    { rewrite <- cos_3x. unfold a. replace (3 * ((th - 2 * PI) / 3)) with (th - 2 * PI) by field.
      rewrite cos_minus, cos_2PI, sin_2PI. unfold th. rewrite cos_acos by auto. ring. }
    assert (E2 : Rr = Q * s * (4 * (cos a * cos a * cos a) - 3 * cos a)).
    { rewrite E. field. split; lra. }
    rewrite E2. rewrite <- Hss. ring.
  - destruct (Req_dec Rr 0) as [->|Hr].
    + unfold sign. destruct (Rltb_spec 0 0); [lra|].
      replace (- 0 * npower (Rabs 0 + sqrt (0 * 0 - Q * Q * Q)) (1 / 3)) with 0 by ring.
      destruct (Reqb_spec 0 0); [ring|congruence].
    + set (D := sqrt (Rr * Rr - Q * Q * Q)).
      assert (HD : D * D = Rr * Rr - Q * Q * Q) by (apply sqrt_sqrt; lra).
      assert (HDp : 0 <= D) by apply sqrt_pos.
      assert (Ha : 0 < Rabs Rr) by (apply Rabs_pos_lt; auto).
      set (N := npower (Rabs Rr + D) (1 / 3)).
      assert (HN : N * N * N = Rabs Rr + D) by (apply npower_cube; lra).
      assert (HN0 : N <> 0) by (intros E; rewrite E in HN; lra).
      set (g := sign Rr).
      assert (Hg : g * g = 1 /\ g * Rabs Rr = Rr).
      { unfold g, sign. destruct (Rltb_spec 0 Rr); [rewrite Rabs_pos_eq by lra; lra|].
        destruct (Rltb_spec Rr 0); [rewrite Rabs_left by lra; lra|lra]. }
      destruct Hg as [Hg1 Hg2].
      assert (Hg0 : g <> 0) by (intros E; rewrite E in Hg1; lra).
      assert (HA : - g * N <> 0) by (intros E; apply Rmult_integral in E; destruct E; [lra|auto]).
      destruct (Reqb_spec (- g * N) 0) as [|_]; [contradiction|].
      set (A := - g * N) in *.
      assert (HA3 : A * A * A = - g * (Rabs Rr + D)).
      { unfold A. transitivity (- (g * g) * g * (N * N * N)); [ring|]. rewrite Hg1, HN. ring. }
      assert (HB : (Q / A) * (Q / A) * (Q / A) = - g * (Rabs Rr - D)).
      { apply (Rmult_eq_reg_l (A * A * A)).
        - transitivity (Q * Q * Q); [field; auto|]. rewrite HA3.
          transitivity (g * g * (Rabs Rr * Rabs Rr - D * D)); [|ring].
          rewrite Hg1, HD. rewrite <- Rabs_mult. rewrite (Rabs_pos_eq (Rr * Rr)).
          + ring.
          + pose proof (Rle_0_sqr Rr). unfold Rsqr in *. lra.
        - apply Rmult_integral_contrapositive_currified; auto using Rmult_integral_contrapositive_currified. }
      set (B := Q / A) in *.
      assert (HAB : A * B = Q) by (unfold B; field; auto).
      transitivity (A * A * A + B * B * B + 3 * (A * B) * (A + B) - 3 * Q * (A + B) + 2 * Rr); [ring|].
      rewrite HAB, HA3, HB. transitivity (2 * (Rr - g * Rabs Rr)); [ring|]. rewrite Hg2. ring.
Qed.

Lemma k1_root_solves k1 Rr : k1 <> 0 -> let r := k1_root k1 Rr in r * (1 + k1 * (r * r)) = - 2 * k1 * Rr.
Proof.
  intros Hk r. pose proof (k1_root_cubic k1 Rr Hk) as H. cbv zeta in H. fold r in H.
  assert (E : k1 * (r * r * r - 3 * (- 1 / (3 * k1)) * r + 2 * Rr) = 0) by (rewrite H; ring).
  assert (E2 : k1 * (r * r * r - 3 * (- 1 / (3 * k1)) * r + 2 * Rr) = r * (1 + k1 * (r * r)) + 2 * k1 * Rr) by (field; auto).
  lra.
Qed.

(** ** Cameras with k1 only *)
Definition k1_only (c : cam) (k1 : R) : Prop :=
  get_k c = [k1; 0; 0; 0; 0; 0] /\ get_p c = [0; 0] /\ k1 <> 0.

Lemma nz0 : nonzero 0 = false.
Proof. unfold nonzero. destruct (Reqb_spec 0 0); [reflexivity|congruence]. Qed.
Lemma nz1 k : k <> 0 -> nonzero k = true.
Proof. intros H. unfold nonzero. destruct (Reqb_spec k 0); [contradiction|reflexivity]. Qed.

Lemma distort_k1 c k1 x y : k1_only c k1 ->
  distort c (x, y) = (x * (1 + k1 * (x * x + y * y)), y * (1 + k1 * (x * x + y * y))).
Proof.
  intros (K & P & N). unfold distort, radial_distortion, kk. rewrite K, P. unfold slice.
  cbn [skipn firstn nth anynz existsb]. unfold anynz. cbn [existsb]. rewrite nz0, (nz1 k1 N). reflexivity.
Qed.
Lemma undistort_is_k1 c k1 xy : k1_only c k1 -> undistort c xy = undistort_k1 c xy.
Proof.
  intros (K & P & N). unfold undistort, kk. rewrite K, P. cbn [nth tl]. unfold anynz. cbn [existsb].
  rewrite nz0, (nz1 k1 N). reflexivity.
Qed.

(** radius and angle of a point off the vertical axis *)
Lemma polar x y : x <> 0 -> let phi := atan2 y x in let rad := x / cos phi in
  cos phi <> 0 /\ 0 < rad /\ rad * cos phi = x /\ rad * sin phi = y /\ rad * rad = x * x + y * y.
Proof.
  intros Hx phi rad. destruct (atan2_polar x y Hx) as [H1 H2]. fold phi in H1, H2.
  assert (Hc : cos phi <> 0) by (intros E; rewrite E in H1; lra).
  assert (E1 : rad * cos phi = x) by (unfold rad; field; auto).
  assert (E2 : rad * sin phi = y).
  { unfold rad. replace (x / cos phi * sin phi) with (sin phi * x / cos phi) by (field; auto). rewrite H2. field. auto. }
  split; auto. split.
  - unfold rad. replace (x / cos phi) with (x * cos phi / (cos phi * cos phi)) by (field; auto).
    apply Rdiv_lt_0_compat; auto. pose proof (Rsqr_pos_lt _ Hc). unfold Rsqr in *. auto.
  - split; auto. split; auto. rewrite <- E1, <- E2. pose proof (sc phi) as S.
    transitivity (rad * rad * (sin phi * sin phi + cos phi * cos phi)); [rewrite S; ring|ring].
Qed.

Lemma undistort_k1_form c k1 x y : k1_only c k1 -> x <> 0 ->
  let phi := atan2 y x in let rad := x / cos phi in
  let r := k1_root k1 (- rad / (2 * k1)) in
  undistort c (x, y) = (cos phi * r, sin phi * r) /\ r * (1 + k1 * (r * r)) = rad.
Proof.
  intros Hk Hx phi rad r. destruct (polar x y Hx) as (Hc & _). fold phi in Hc.
  rewrite (undistort_is_k1 c k1) by auto. rewrite undistort_k1_root. destruct Hk as (K & P & N).
  unfold kk. rewrite K. cbn [nth]. cbv zeta. fold phi. destruct (Reqb_spec x 0); [contradiction|].
  assert (ER : - x / (2 * k1 * cos phi) = - rad / (2 * k1)) by (unfold rad; field; auto).
  rewrite ER. fold r. split; [reflexivity|].
  unfold r. rewrite k1_root_solves by auto. field. auto.
Qed.

Theorem k1_undistort_exact c k1 x y : k1_only c k1 -> (x <> 0 \/ y = 0) ->
  distort c (undistort c (x, y)) = (x, y).
Proof.
  intros Hk Hxy. destruct (Req_dec x 0) as [->|Hx].
  - destruct Hxy as [| ->]; [lra|]. rewrite (undistort_is_k1 c k1) by auto. rewrite undistort_k1_root. cbv zeta.
    destruct (Reqb_spec 0 0) as [_|]; [|congruence].
    pose proof Hk as (K & P & N). unfold kk. rewrite K. cbn [nth].
    assert (E : k1_root k1 0 = 0).
    { unfold k1_root. cbv zeta. set (Q := - 1 / (3 * k1)).
      destruct (Rltb_spec (0 * 0) (Q * Q * Q)) as [H|H].
      - rewrite Rmult_0_l, acos_0. replace ((PI / 2 - 2 * PI) / 3) with (- (PI / 2)) by field.
        rewrite cos_neg, cos_PI2. ring.
      - unfold sign. destruct (Rltb_spec 0 0); [lra|].
        replace (- 0 * npower (Rabs 0 + sqrt (0 * 0 - Q * Q * Q)) (1 / 3)) with 0 by ring.
        destruct (Reqb_spec 0 0); [ring|congruence]. }
    rewrite E, !Rmult_0_r. rewrite (distort_k1 c k1) by auto. f_equal; ring.
  - destruct (undistort_k1_form c k1 x y Hk Hx) as [E Hr]. destruct (polar x y Hx) as (Hc & Hp & P1 & P2 & P3).
    set (phi := atan2 y x) in *. set (rad := x / cos phi) in *. set (r := k1_root k1 (- rad / (2 * k1))) in *.
    rewrite E, (distort_k1 c k1) by auto.
    pose proof (sc phi) as S.
    assert (R2 : cos phi * r * (cos phi * r) + sin phi * r * (sin phi * r) = r * r).
    { transitivity ((sin phi * sin phi + cos phi * cos phi) * (r * r)); [ring|]. rewrite S. ring. }
    rewrite R2. rewrite <- P1, <- P2. rewrite <- Hr. f_equal; ring.
Qed.

(** branch with three real roots: the root returned is the one on the
    increasing part of the distortion curve around the image center *)
Lemma k1_root_small k1 Rr : k1 < 0 -> (let Q := - 1 / (3 * k1) in Rr * Rr < Q * Q * Q) ->
  k1_root k1 Rr * k1_root k1 Rr <= - 1 / (3 * k1).
Proof.
  intros Hk H. cbv zeta in H. unfold k1_root. set (Q := - 1 / (3 * k1)) in *. cbv zeta.
  destruct (Rltb_spec (Rr * Rr) (Q * Q * Q)); [|lra].
  destruct (three_roots_facts Q Rr H) as (HQ & Hs & Hss & Hb).
  set (s := sqrt Q) in *. set (th := acos (Rr * / (Q * s))).
  pose proof (acos_bound (Rr * / (Q * s))) as Bth. fold th in Bth. pose proof PI_RGT_0.
  set (a := (th - 2 * PI) / 3).
  assert (Ba : - (2 * (PI / 3)) <= a <= - (PI / 3)) by (unfold a; lra).
  assert (C1 : cos a <= 1 / 2).
  { rewrite <- cos_neg, <- cos_PI3. destruct (Req_dec (- a) (PI / 3)) as [->|]; [lra|].
    left. apply cos_decreasing_1; lra. }
  assert (C2 : - 1 / 2 <= cos a).
  { rewrite <- cos_neg. replace (- 1 / 2) with (cos (2 * (PI / 3))) by (rewrite cos_2PI3; field).
    destruct (Req_dec (- a) (2 * (PI / 3))) as [->|]; [lra|]. left. apply cos_decreasing_1; lra. }
  assert (C3 : cos a * cos a <= 1 / 4).
  { assert (0 <= (1 / 2 - cos a) * (1 / 2 + cos a)) by (apply Rmult_le_pos; lra). lra. }
  replace (-2 * s * cos a * (-2 * s * cos a)) with (4 * (s * s) * (cos a * cos a)) by ring. rewrite Hss.
  assert (0 <= Q * (1 / 4 - cos a * cos a)) by (apply Rmult_le_pos; lra). lra.
Qed.

(** distort is injective in the radius where it increases *)
Lemma g_inj k1 r s : (k1 < 0 -> r * r < - 1 / (3 * k1)) -> (k1 < 0 -> s * s <= - 1 / (3 * k1)) ->
  k1 <> 0 -> 0 <= r -> r * (1 + k1 * (r * r)) = s * (1 + k1 * (s * s)) -> r = s.
Proof.
  intros Hr Hs Hk Hr0 E.
  assert (F : (r - s) * (1 + k1 * (r * r + r * s + s * s)) = 0) by lra.
  apply Rmult_integral in F. destruct F as [F|F]; [lra|]. exfalso.
  destruct (Rdichotomy _ _ Hk) as [N|N].
  - specialize (Hr N). specialize (Hs N).
    assert (Hq : 0 <= (r - s) * (r - s)) by (pose proof (Rle_0_sqr (r - s)); unfold Rsqr in *; lra).
    set (Q := - 1 / (3 * k1)) in *.
    assert (E1 : r * r + r * s + s * s < 3 * Q) by lra.
    assert (E2 : k1 * (3 * Q) = - 1) by (unfold Q; field; lra).
    assert (k1 * (3 * Q) < k1 * (r * r + r * s + s * s)).
    { assert (0 < (- k1) * (3 * Q - (r * r + r * s + s * s))) by (apply Rmult_lt_0_compat; lra). lra. }
    lra.
  - assert (0 <= r * r + r * s + s * s).
    { pose proof (Rle_0_sqr (r + s)). pose proof (Rle_0_sqr r). pose proof (Rle_0_sqr s). unfold Rsqr in *. lra. }
    assert (0 <= k1 * (r * r + r * s + s * s)) by (apply Rmult_le_pos; lra). lra.
Qed.

Theorem k1_distort_undistort c k1 x y : k1_only c k1 -> x <> 0 ->
  (k1 < 0 -> x * x + y * y < - 1 / (3 * k1)) ->
  undistort c (distort c (x, y)) = (x, y).
Proof.
  intros Hk Hx Hreg. pose proof Hk as (K & P & N).
  set (rho := sqrt (x * x + y * y)).
  assert (Pos : 0 < x * x + y * y).
  { pose proof (Rsqr_pos_lt x Hx). pose proof (Rle_0_sqr y). unfold Rsqr in *. lra. }
  assert (Hrho : 0 < rho) by (apply sqrt_lt_R0; auto).
  assert (Hrho2 : rho * rho = x * x + y * y) by (apply sqrt_sqrt; lra).
  set (m := 1 + k1 * (x * x + y * y)).
  assert (Hm : 0 < m).
  { unfold m. destruct (Rdichotomy _ _ N) as [L|L].
    - specialize (Hreg L).
      assert (0 < (- k1) * (- 1 / (3 * k1) - (x * x + y * y))) by (apply Rmult_lt_0_compat; lra).
      assert ((- k1) * (- 1 / (3 * k1)) = 1 / 3) by (field; lra). lra.
    - assert (0 < k1 * (x * x + y * y)) by (apply Rmult_lt_0_compat; lra). lra. }
  rewrite (distort_k1 c k1) by auto. fold m.
  assert (Hxm : x * m <> 0) by (apply Rmult_integral_contrapositive_currified; lra).
  destruct (undistort_k1_form c k1 (x * m) (y * m) Hk Hxm) as [E Hr].
  destruct (polar (x * m) (y * m) Hxm) as (Hc & Hp & P1 & P2 & P3).
  set (phi := atan2 (y * m) (x * m)) in *. set (rad := x * m / cos phi) in *.
  set (r := k1_root k1 (- rad / (2 * k1))) in *.
  assert (Erad : rad = rho * m).
  { apply Rsqr_inj; [lra| |unfold Rsqr; rewrite P3; transitivity ((rho * rho) * (m * m)); [rewrite Hrho2; ring|ring]].
    apply Rmult_le_pos; lra. }
  assert (Er : rho = r).
  { apply (g_inj k1); auto; [rewrite Hrho2; auto| |lra|].
    - intros L. unfold r. apply k1_root_small; auto. cbv zeta. rewrite Erad. specialize (Hreg L).
      unfold m. rewrite <- Hrho2. rewrite <- Hrho2 in Hreg. set (Q := - 1 / (3 * k1)) in *.
      assert (Ek : k1 = - 1 / (3 * Q)) by (unfold Q; field; lra).
      assert (HQ : 0 < Q). { pose proof (Rle_0_sqr rho). unfold Rsqr in *. lra. }
      set (t := rho * rho) in *.
      assert (Ev : - (rho * (1 + k1 * t)) / (2 * k1) = rho * (3 * Q - t) / 2) by (rewrite Ek; field; lra).
      rewrite Ev. replace (rho * (3 * Q - t) / 2 * (rho * (3 * Q - t) / 2)) with (t * (3 * Q - t) * (3 * Q - t) / 4) by (unfold t; field).
      assert (0 < (Q - t) * (Q - t) * (4 * Q - t)).
      { apply Rmult_lt_0_compat; [apply Rmult_lt_0_compat; lra|lra]. }
      lra.
    - rewrite Hr, Erad. unfold m. rewrite Hrho2. reflexivity. }
  rewrite E, <- Er.
  assert (Em : m <> 0) by lra.
  f_equal; apply (Rmult_eq_reg_r m); auto.
  - rewrite <- P1, Erad. ring.
  - rewrite <- P2, Erad. ring.
Qed.

(** a point on the vertical axis collapses to the center *)
Theorem k1_axis_collapses c k1 y : k1_only c k1 -> undistort c (0, y) = (0, 0).
Proof.
  intros Hk. rewrite (undistort_is_k1 c k1) by auto. rewrite undistort_k1_root. cbv zeta.
  destruct (Reqb_spec 0 0) as [_|]; [|congruence].
  pose proof Hk as (K & P & N). unfold kk. rewrite K. cbn [nth].
  assert (E : k1_root k1 0 = 0).
  { unfold k1_root. cbv zeta. set (Q := - 1 / (3 * k1)).
    destruct (Rltb_spec (0 * 0) (Q * Q * Q)) as [H|H].
    - rewrite Rmult_0_l, acos_0. replace ((PI / 2 - 2 * PI) / 3) with (- (PI / 2)) by field.
      rewrite cos_neg, cos_PI2. ring.
    - unfold sign. destruct (Rltb_spec 0 0); [lra|].
      replace (- 0 * npower (Rabs 0 + sqrt (0 * 0 - Q * Q * Q)) (1 / 3)) with 0 by ring.
      destruct (Reqb_spec 0 0); [ring|congruence]. }
  rewrite E, !Rmult_0_r. reflexivity.
Qed.

(** ** Oulu iteration: a point left unchanged by one more pass is an exact inverse *)
Theorem oulu_fixed_point c xy u :
  let r2 := fst u * fst u + snd u * snd u in
  radial_distortion c r2 <> 0 ->
  (anynz (get_k c) = true \/ anynz (get_p c) = true) ->
  oulu_step c xy u = u -> distort c u = xy.
Proof.
  destruct xy as [x y], u as [ux uy]. cbn [fst snd]. cbv zeta. intros Hr Hne H. unfold oulu_step in H. cbv zeta in H.
  unfold distort. set (r2 := ux * ux + uy * uy) in *.
  destruct (anynz (get_k c)) eqn:EK; cbn [andb negb] in *.
  - rewrite andb_false_r in H.
    destruct (tangential_distortion c (ux, uy) r2) as [tx ty] eqn:ET.
    injection H as H1 H2.
    assert (G1 : ux * radial_distortion c r2 + tx = x) by (rewrite <- H1 at 1; field; auto).
    assert (G2 : uy * radial_distortion c r2 + ty = y) by (rewrite <- H2 at 1; field; auto).
    destruct (anynz (get_p c)) eqn:EP.
    + rewrite G1, G2. reflexivity.
    + assert (Hp : forall i, pp c i = 0).
      { intros i. unfold pp. destruct (nth_in_or_default i (get_p c) 0) as [Hin|E]; [|exact E].
        unfold anynz in EP. destruct (Req_dec (nth i (get_p c) 0) 0) as [|Nz]; auto. exfalso.
        assert (existsb nonzero (get_p c) = true) by (apply existsb_exists; exists (nth i (get_p c) 0); split; auto; apply nz1; auto).
        congruence. }
      unfold tangential_distortion in ET. rewrite !Hp in ET. injection ET as <- <-.
      f_equal; [rewrite <- G1; ring|rewrite <- G2; ring].
  - destruct Hne as [|EP]; [discriminate|]. rewrite EP in *. cbn [andb negb] in *.
    destruct (tangential_distortion c (ux, uy) r2) as [tx ty] eqn:ET. injection H as H1 H2.
    f_equal; lra.
Qed.
