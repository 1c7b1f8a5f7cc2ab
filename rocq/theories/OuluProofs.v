(** Convergence of the iterative removal of distortion (Camera._undistort_oulu): a contraction about the undistorted point. *)
From Coq Require Import Rgeom.
From Verif Require Import Base BaseLemmas HelpersModel CameraModel CameraSpec CameraStateProofs CameraProofs CameraProofs2 CameraProofs3 P_Camera2.
Open Scope R_scope.

Definition norm (p : vec2) : R := sqrt (fst p ^ 2 + snd p ^ 2).
Definition away (p q : vec2) : R := dist_euc (fst p) (snd p) (fst q) (snd q).

Lemma norm_pos p : 0 <= norm p. Proof. apply sqrt_pos. Qed.
Lemma norm_sq p : norm p * norm p = fst p ^ 2 + snd p ^ 2.
Proof. apply sqrt_sqrt. pose proof (Rle_0_sqr (fst p)). pose proof (Rle_0_sqr (snd p)). unfold Rsqr in *. lra. Qed.
Lemma norm_le p k : 0 <= k -> fst p ^ 2 + snd p ^ 2 <= k * k -> norm p <= k.
Proof. intros Hk H. unfold norm. rewrite <- (sqrt_square k) by exact Hk. apply sqrt_le_1_alt. exact H. Qed.
Lemma away_norm p q : away p q = norm (fst p - fst q, snd p - snd q).
Proof. unfold away, dist_euc, norm, Rsqr. cbn [fst snd]. f_equal. ring. Qed.
Lemma norm_away0 p : norm p = away p (0, 0).
Proof. rewrite away_norm. cbn [fst snd]. rewrite !Rminus_0_r. destruct p; reflexivity. Qed.
Lemma away_pos p q : 0 <= away p q. Proof. rewrite away_norm. apply norm_pos. Qed.
Lemma away_sym p q : away p q = away q p. Proof. apply distance_symm. Qed.
Lemma away_tri p q r : away p q <= away p r + away r q. Proof. apply triangle. Qed.
Lemma norm_add p q : norm (fst p + fst q, snd p + snd q) <= norm p + norm q.
Proof.
  rewrite (norm_away0 p), (norm_away0 (fst p + fst q, snd p + snd q)). replace (norm q) with (away (fst p + fst q, snd p + snd q) p).
  - pose proof (away_tri (fst p + fst q, snd p + snd q) (0, 0) p); lra.
  - rewrite away_norm. cbn [fst snd]. replace (fst p + fst q - fst p) with (fst q) by ring. replace (snd p + snd q - snd p) with (snd q) by ring. destruct q; reflexivity.
Qed.
Lemma norm_scale k p : norm (k * fst p, k * snd p) = Rabs k * norm p.
Proof. unfold norm. cbn [fst snd]. replace ((k * fst p) ^ 2 + (k * snd p) ^ 2) with (Rsqr k * (fst p ^ 2 + snd p ^ 2)) by (unfold Rsqr; ring). rewrite sqrt_mult_alt by apply Rle_0_sqr. now rewrite sqrt_Rsqr_abs. Qed.
Lemma norm_diff p q : Rabs (norm p - norm q) <= away p q.
Proof.
  rewrite !norm_away0. apply Rabs_le. split.
  - pose proof (away_tri q (0, 0) p). rewrite (away_sym q p) in H. lra.
  - pose proof (away_tri p (0, 0) q). lra.
Qed.

(** the tangential part *)
Definition tang (p1 p2 : R) (p : vec2) : vec2 :=
  let '(x, y) := p in (2 * p1 * x * y + p2 * (x ^ 2 + y ^ 2 + 2 * x ^ 2), p1 * (x ^ 2 + y ^ 2 + 2 * y ^ 2) + 2 * p2 * x * y).
Lemma tang_lipschitz p1 p2 u v rho : norm u <= rho -> norm v <= rho -> away (tang p1 p2 u) (tang p1 p2 v) <= 6 * rho * (Rabs p1 + Rabs p2) * away u v.
Proof.
  intros Hu Hv. destruct u as [x y], v as [z w]. rewrite !away_norm. cbn [tang fst snd].
  set (sx := x + z). set (sy := y + w). set (dx := x - z). set (dy := y - w).
  assert (Hs : norm (sx, sy) <= 2 * rho) by (pose proof (norm_add (x, y) (z, w)) as H; cbn [fst snd] in H; fold sx sy in H; lra).
  set (a := (sy * dx + sx * dy, sx * dx + 3 * sy * dy) : vec2). set (b := (3 * sx * dx + sy * dy, sx * dy + sy * dx) : vec2).
  assert (Na : norm a <= 3 * norm (sx, sy) * norm (dx, dy)).
  { apply norm_le; [repeat apply Rmult_le_pos; try lra; apply norm_pos |]. replace (3 * norm (sx, sy) * norm (dx, dy) * (3 * norm (sx, sy) * norm (dx, dy))) with (9 * (norm (sx, sy) * norm (sx, sy)) * (norm (dx, dy) * norm (dx, dy))) by ring.
    rewrite !norm_sq. cbn [fst snd a]. pose proof (Rle_0_sqr (sx * dx)). pose proof (Rle_0_sqr (sx * dy - sy * dx / 2)). pose proof (Rle_0_sqr (sy * dx)). unfold Rsqr in *. lra. }
  assert (Nb : norm b <= 3 * norm (sx, sy) * norm (dx, dy)).
  { apply norm_le; [repeat apply Rmult_le_pos; try lra; apply norm_pos |]. replace (3 * norm (sx, sy) * norm (dx, dy) * (3 * norm (sx, sy) * norm (dx, dy))) with (9 * (norm (sx, sy) * norm (sx, sy)) * (norm (dx, dy) * norm (dx, dy))) by ring.
    rewrite !norm_sq. cbn [fst snd b]. pose proof (Rle_0_sqr (sy * dy)). pose proof (Rle_0_sqr (sy * dx - sx * dy / 2)). pose proof (Rle_0_sqr (sx * dy)). unfold Rsqr in *. lra. }
  assert (Nd : 0 <= norm (dx, dy)) by apply norm_pos.
  assert (B : forall t, t <= 3 * norm (sx, sy) * norm (dx, dy) -> t <= 6 * rho * norm (dx, dy)).
  { intros t H. eapply Rle_trans; [exact H |]. replace (6 * rho * norm (dx, dy)) with (3 * (2 * rho) * norm (dx, dy)) by ring. apply Rmult_le_compat_r; [exact Nd |]. lra. }
  apply B in Na. apply B in Nb.
  match goal with |- norm ?e <= _ => replace e with (p1 * fst a + p2 * fst b, p1 * snd a + p2 * snd b) by (unfold a, b, sx, sy, dx, dy; cbn [fst snd]; apply (f_equal2 pair); ring) end.
  pose proof (norm_add (p1 * fst a, p1 * snd a) (p2 * fst b, p2 * snd b)) as H. cbn [fst snd] in H. rewrite !norm_scale in H.
  eapply Rle_trans; [exact H |]. pose proof (Rabs_pos p1). pose proof (Rabs_pos p2).
  pose proof (Rmult_le_compat_l _ _ _ (Rabs_pos p1) Na). pose proof (Rmult_le_compat_l _ _ _ (Rabs_pos p2) Nb). lra.
Qed.

Section Converge.
  Variables (c : cam) (k1 k2 k3 k4 k5 k6 p1 p2 : R).
  Hypotheses (K : get_k c = [k1; k2; k3; k4; k5; k6]) (P : get_p c = [p1; p2]).
  Let d (a : R) : R := lens_radial k1 k2 k3 k4 k5 k6 (a ^ 2).
  Lemma distort_parts u : distort c u = (fst u * d (norm u) + fst (tang p1 p2 u), snd u * d (norm u) + snd (tang p1 p2 u)).
  Proof.
    destruct u as [x y]. rewrite (distort_formula c k1 k2 k3 k4 k5 k6 p1 p2 x y K P). unfold lens, d. replace (norm (x, y) ^ 2) with (x ^ 2 + y ^ 2) by (pose proof (norm_sq (x, y)) as Q; cbn [fst snd] in Q; lra).
    cbn [tang fst snd]. apply (f_equal2 pair); ring.
  Qed.
  Lemma step_parts xy u : oulu_step c xy u = ((fst xy - fst (tang p1 p2 u)) / d (norm u), (snd xy - snd (tang p1 p2 u)) / d (norm u)).
  Proof.
    destruct xy as [x y], u as [ux uy]. unfold oulu_step, tangential_distortion, pp. rewrite !(radial_formula c k1 k2 k3 k4 k5 k6 _ K). rewrite K, P. cbn [nth fst snd tang].
    unfold d. replace (norm (ux, uy) ^ 2) with (ux * ux + uy * uy) by (pose proof (norm_sq (ux, uy)) as Q; cbn [fst snd] in Q; lra).
    destruct (anynz [k1; k2; k3; k4; k5; k6]) eqn:A; cbn [negb andb].
    - rewrite andb_false_r. apply (f_equal2 pair); unfold Rdiv; rewrite Rmult_1_l; apply (f_equal2 Rmult); ring.
    - pose proof (anynz_false _ A) as Z. assert (E : lens_radial k1 k2 k3 k4 k5 k6 (ux * ux + uy * uy) = 1) by (unfold lens_radial; rewrite (Z k1), (Z k2), (Z k3), (Z k4), (Z k5), (Z k6) by (cbn; tauto); field).
      rewrite E. destruct (anynz [p1; p2]); cbn [andb]; apply (f_equal2 pair); field.
  Qed.
  Variables (u : vec2) (rho A m : R).
  Hypotheses (Hm : 0 < m) (Hd : forall a, 0 <= a <= rho -> m <= d a) (HA : forall a b, 0 <= a <= rho -> 0 <= b <= rho -> Rabs (d a - d b) <= A * Rabs (a - b)).
  Let q : R := (A * norm u + 6 * rho * (Rabs p1 + Rabs p2)) / m.
  Hypotheses (Hq : q <= 1) (Hu : norm u + away (distort c u) u <= rho).
  Lemma rho_u : 0 <= norm u <= rho. Proof. pose proof (norm_pos u). pose proof (away_pos (distort c u) u). lra. Qed.
  Lemma step_contracts v : norm v <= rho -> away (oulu_step c (distort c u) v) u <= q * away v u.
  Proof.
    intros Hv. pose proof rho_u as [U0 U1]. pose proof (norm_pos v) as V0. set (dv := d (norm v)). assert (Dv : m <= dv) by (apply Hd; lra).
    rewrite step_parts, distort_parts. fold dv. set (du := d (norm u)). cbn [fst snd].
    rewrite (away_norm _ u). cbn [fst snd].
    match goal with |- norm ?e <= _ => replace e with (/ dv * (((du - dv) * fst u) + (fst (tang p1 p2 u) - fst (tang p1 p2 v))), / dv * (((du - dv) * snd u) + (snd (tang p1 p2 u) - snd (tang p1 p2 v))))
      by (apply (f_equal2 pair); field; lra) end.
    pose proof (norm_scale (/ dv) ((du - dv) * fst u + (fst (tang p1 p2 u) - fst (tang p1 p2 v)), (du - dv) * snd u + (snd (tang p1 p2 u) - snd (tang p1 p2 v)))) as Es. cbn [fst snd] in Es. rewrite Es.
    pose proof (norm_add ((du - dv) * fst u, (du - dv) * snd u) (fst (tang p1 p2 u) - fst (tang p1 p2 v), snd (tang p1 p2 u) - snd (tang p1 p2 v))) as Ha. cbn [fst snd] in Ha. rewrite norm_scale in Ha. rewrite <- away_norm in Ha.
    pose proof (tang_lipschitz p1 p2 u v rho U1 Hv) as Ht. rewrite (away_sym u v) in Ht.
    assert (Hr : Rabs (du - dv) <= A * away v u).
    { eapply Rle_trans; [apply HA; lra |]. destruct (Req_dec (norm u) (norm v)) as [E | E].
      - rewrite E, Rminus_diag_eq, Rabs_R0 by reflexivity. rewrite Rmult_0_r. destruct (Req_dec (away v u) 0) as [-> | N]; [lra |]. apply Rmult_le_pos; [| apply away_pos].
        (* some pair of distinct radii shows that A is not negative *)
        destruct (Req_dec rho 0) as [Z | Z].
        + exfalso. apply N. assert (norm u = 0) by lra. assert (norm v = 0) by lra. pose proof (away_tri v u (0, 0)). rewrite (away_sym (0, 0) u), <- !norm_away0 in H1. pose proof (away_pos v u). lra.
        + pose proof (HA 0 rho ltac:(lra) ltac:(lra)) as H. pose proof (Rabs_pos (d 0 - d rho)). rewrite (Rabs_minus_sym 0 rho), Rminus_0_r, (Rabs_right rho) in H by lra. apply (Rmult_le_reg_r rho); [lra |]. lra.
      - rewrite Rabs_minus_sym. pose proof (norm_diff v u) as G. apply Rmult_le_compat_l; [| exact G].
        pose proof (HA (norm u) (norm v) ltac:(lra) ltac:(lra)) as H. pose proof (Rabs_pos (d (norm u) - d (norm v))). assert (0 < Rabs (norm u - norm v)) by (apply Rabs_pos_lt; lra).
        apply (Rmult_le_reg_r (Rabs (norm u - norm v))); [assumption |]. lra. }
    pose proof (Rmult_le_compat_r _ _ _ U0 Hr) as Hr'.
    assert (Hi : Rabs (/ dv) <= / m) by (rewrite Rabs_right by (apply Rle_ge, Rlt_le, Rinv_0_lt_compat; lra); apply Rinv_le_contravar; lra).
    match goal with |- Rabs (/ dv) * ?n <= _ => set (N := n) in * end. assert (Hn : N <= (A * norm u + 6 * rho * (Rabs p1 + Rabs p2)) * away v u) by lra. assert (N0 : 0 <= N) by apply norm_pos.
    apply Rle_trans with (/ m * N); [apply Rmult_le_compat_r; [exact N0 | exact Hi] |].
    unfold q, Rdiv. rewrite (Rmult_comm (A * _ + _) (/ m)), Rmult_assoc. apply Rmult_le_compat_l; [apply Rlt_le, Rinv_0_lt_compat; exact Hm | exact Hn].
  Qed.
  Lemma near_u v : away v u <= away (distort c u) u -> norm v <= rho.
  Proof. intros H. pose proof (norm_diff v u) as G. pose proof (Rle_abs (norm v - norm u)). lra. Qed.
  Lemma q_pos : away (distort c u) u <> 0 -> 0 <= q.
  Proof.
    intros N. pose proof (step_contracts (distort c u) (near_u _ (Rle_refl _))) as H. pose proof (away_pos (oulu_step c (distort c u) (distort c u)) u). pose proof (away_pos (distort c u) u).
    apply (Rmult_le_reg_r (away (distort c u) u)); lra.
  Qed.
  Lemma iterations n : let v := undistort_oulu c n (distort c u) in away v u <= q ^ n * away (distort c u) u /\ norm v <= rho.
  Proof.
    cbv zeta. unfold undistort_oulu. set (e := away (distort c u) u). assert (E0 : 0 <= e) by apply away_pos.
    destruct (Req_dec e 0) as [Z | N].
    - assert (G : forall n, away (Nat.iter n (oulu_step c (distort c u)) (distort c u)) u <= 0).
      { clear n. induction n as [| n IH]; [cbn; fold e; lra |]. cbn [Nat.iter nat_rect]. set (v := Nat.iter n _ _) in *. change (nat_rect _ _ _ n) with v.
        pose proof (step_contracts v (near_u v ltac:(fold e; lra))). pose proof (away_pos v u). assert (away v u = 0) by lra. rewrite H1, Rmult_0_r in H. exact H. }
      pose proof (G n). split; [rewrite Z, Rmult_0_r; exact H | apply near_u; fold e; lra].
    - pose proof (q_pos N) as Q0. assert (G : away (Nat.iter n (oulu_step c (distort c u)) (distort c u)) u <= q ^ n * e).
      { induction n as [| n IH]; [cbn; fold e; lra |]. cbn [Nat.iter nat_rect]. set (v := Nat.iter n _ _) in *. change (nat_rect _ _ _ n) with v.
        assert (q ^ n <= 1) by (rewrite <- (pow1 n); apply pow_incr; lra).
        pose proof (step_contracts v (near_u v ltac:(fold e; pose proof (Rmult_le_compat_r e _ _ E0 H); lra))) as S1.
        pose proof (Rmult_le_compat_l q _ _ Q0 IH) as S2. cbn [pow]. lra. }
      split; [exact G |]. apply near_u. fold e. assert (q ^ n <= 1) by (rewrite <- (pow1 n); apply pow_incr; lra). pose proof (Rmult_le_compat_r e _ _ E0 H). lra.
  Qed.
  (** what remains of the distortion after [n] passes *)
  Lemma residual n M : (forall a, 0 <= a <= rho -> d a <= M) -> let v := undistort_oulu c n (distort c u) in
    away (distort c v) (distort c u) <= M * (q ^ n + q ^ S n) * away (distort c u) u.
  Proof.
    intros HM. cbv zeta. pose proof (iterations n) as [I1 I2]. pose proof (iterations (S n)) as [I3 _]. unfold undistort_oulu in *. cbn [Nat.iter nat_rect] in I3.
    set (v := Nat.iter n _ _) in *. change (nat_rect _ _ _ n) with v in I3. set (e := away (distort c u) u) in *.
    pose proof (norm_pos v) as V0. assert (Dv : m <= d (norm v)) by (apply Hd; lra). assert (Mv : d (norm v) <= M) by (apply HM; lra).
    assert (E : away (distort c v) (distort c u) = d (norm v) * away v (oulu_step c (distort c u) v)).
    { rewrite !away_norm. rewrite (step_parts (distort c u) v). rewrite (distort_parts v). cbn [fst snd].
      rewrite <- (Rabs_right (d (norm v))) at 3 by lra. match goal with |- _ = _ * norm ?e => rewrite <- (norm_scale (d (norm v)) e) end. cbn [fst snd]. apply f_equal. apply (f_equal2 pair); field; lra. }
    rewrite E. pose proof (away_tri v (oulu_step c (distort c u) v) u) as T. rewrite (away_sym u) in T.
    assert (B : away v (oulu_step c (distort c u) v) <= (q ^ n + q ^ S n) * e) by lra.
    pose proof (away_pos v (oulu_step c (distort c u) v)).
    apply Rle_trans with (M * away v (oulu_step c (distort c u) v)); [apply Rmult_le_compat_r; assumption |].
    rewrite Rmult_assoc. apply Rmult_le_compat_l; [lra | exact B].
  Qed.
End Converge.
