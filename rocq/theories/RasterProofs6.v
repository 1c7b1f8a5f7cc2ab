From Coq Require Import Lia Lra.
From Verif Require Import Base BaseLemmas HelpersModel HelpersSpec BoxProofs GridModel GridSpec GridProofs GridProofs2 RasterModel RasterSpec RasterProofs RasterProofs2 RasterProofs3 RasterProofs4 RasterProofs5.
Open Scope R_scope.

(** ** consequences of the linear specification *)
Lemma planar_bracket a n x k k' t b0 b1 : brackets a n x k k' t ->
  (1 - t) * (b0 + b1 * center a (Z.of_nat k)) + t * (b0 + b1 * center a (Z.of_nat k')) = b0 + b1 * x.
Proof. intros (_ & _ & _ & E & _). rewrite E. ring. Qed.
Theorem sample_planar x y s b0 bx by_ : base s -> zinv s -> (1 < rnx s)%nat -> (1 < rny s)%nat ->
  (forall r c, (r < rny s)%nat -> (c < rnx s)%nat ->
     cellv s r c = Some (b0 + bx * center (xaxis (rgrid s)) (Z.of_nat c) + by_ * center (yaxis (rgrid s)) (Z.of_nat r))) ->
  exists s', sample_value true x y s = Ok (Some (b0 + bx * x + by_ * y), s').
Proof.
  intros B Z Nx Ny P. destruct (sample_linear_spec x y s B Z Nx Ny) as (c & c' & t & r & r' & u & s' & Bx & By & E).
  exists s'. rewrite E. do 2 f_equal.
  destruct Bx as (X1 & X2 & _ & X3 & _). destruct By as (Y1 & Y2 & _ & Y3 & _).
  rewrite !P by auto. cbn. f_equal. rewrite X3, Y3. ring.
Qed.

Lemma center_lin a k : center a (Z.of_nat k) = fst (fst a) + (INR k + / 2) * dcell a.
Proof. apply center_INR. Qed.
Lemma between_centers a n k : (k < n)%nat -> between (center a 0) (center a (Z.of_nat (n - 1))) (center a (Z.of_nat k)).
Proof.
  intros H. change 0%Z with (Z.of_nat 0). rewrite !center_INR. cbn [INR]. unfold between.
  assert (H0 := pos_INR k). assert (H1 : INR k <= INR (n - 1)) by (apply le_INR; lia).
  destruct (Rle_dec 0 (dcell a)).
  - assert (0 * dcell a <= INR k * dcell a) by (apply Rmult_le_compat_r; lra).
    assert (INR k * dcell a <= INR (n - 1) * dcell a) by (apply Rmult_le_compat_r; lra).
    rewrite Rmin_left, Rmax_right by lra. lra.
  - assert (INR k * dcell a <= 0) by nra.
    assert (INR (n - 1) * dcell a <= INR k * dcell a) by nra.
    rewrite Rmin_right, Rmax_left by lra. lra.
Qed.
Lemma bracket_at_center a n k0 k k' t : axis_ok a -> (k0 < n)%nat -> brackets a n (center a (Z.of_nat k0)) k k' t ->
  (t = 0 /\ k = k0) \/ (t = 1 /\ k' = k0).
Proof.
  intros Ok H0 (K1 & K2 & K3 & E & T). specialize (T (between_centers a n k0 H0)). pose proof (dcell_nz a Ok) as Nz.
  rewrite !center_INR in E.
  assert (E' : (INR k0 - INR k - t * (INR k' - INR k)) * dcell a = 0) by lra.
  apply Rmult_integral in E' as [E'|]; [|contradiction].
  assert (J : INR k' - INR k = 1 \/ INR k' - INR k = -1) by (destruct K3 as [-> | ->]; rewrite S_INR; [left|right]; lra).
  assert (Q : forall p q, Rabs (INR p - INR q) < 1 -> p = q).
  { intros p q Hpq. apply INR_eq. apply Rabs_def2 in Hpq. destruct (lt_eq_lt_dec p q) as [[L|L]|L]; [|congruence|]; apply INR_le1 in L; lra. }
  destruct (Rlt_dec t 1) as [Lt|Lt].
  - assert (k = k0) as ->. { symmetry. apply Q. apply Rabs_def1; destruct J as [J|J]; rewrite J in E'; lra. }
    left. split; auto. destruct J as [J|J]; rewrite J in E'; lra.
  - right. assert (t = 1) by lra. subst t. split; auto. apply INR_eq. lra.
Qed.
Theorem sample_at_center r c s : base s -> zinv s -> no_nan s -> (r < rny s)%nat -> (c < rnx s)%nat ->
  exists s', sample_value true (center (xaxis (rgrid s)) (Z.of_nat c)) (center (yaxis (rgrid s)) (Z.of_nat r)) s = Ok (cellv s r c, s').
Proof.
  intros B Z D Hr Hc. destruct (b_ok s B) as [Ax Ay].
  assert (L : forall v, oadd (oscale 1 (Some v)) (oscale 0 (Some v)) = Some v) by (intros; cbn; f_equal; ring).
  destruct (Nat.ltb_spec 1 (rnx s)) as [Nx|Nx]; destruct (Nat.ltb_spec 1 (rny s)) as [Ny|Ny].
  - destruct (sample_linear_spec (center (xaxis (rgrid s)) (Z.of_nat c)) (center (yaxis (rgrid s)) (Z.of_nat r)) s B Z Nx Ny) as (c1 & c2 & t & r1 & r2 & u & s' & Bx & By & E).
    exists s'. rewrite E. do 2 f_equal. assert (Bx' := Bx). assert (By' := By). destruct Bx' as (X1 & X2 & _). destruct By' as (Y1 & Y2 & _).
    apply bracket_at_center in Bx; auto. apply bracket_at_center in By; auto.
    pose proof (D r1 c1 Y1 X1). pose proof (D r2 c1 Y2 X1). pose proof (D r1 c2 Y1 X2). pose proof (D r2 c2 Y2 X2).
    destruct Bx as [[-> <-]|[-> <-]], By as [[-> <-]|[-> <-]];
      destruct (cellv s r1 c1), (cellv s r2 c1), (cellv s r1 c2), (cellv s r2 c2); try congruence; cbn; f_equal; ring.
  - assert (Ny1 : rny s = 1%nat) by lia.
    destruct (sample_linear_row (center (xaxis (rgrid s)) (Z.of_nat c)) (center (yaxis (rgrid s)) (Z.of_nat r)) s B Nx Ny1) as (c1 & c2 & t & s' & Bx & E).
    exists s'. rewrite E. do 2 f_equal. assert (Bx' := Bx). destruct Bx' as (X1 & X2 & _). apply bracket_at_center in Bx; auto.
    replace r with 0%nat by lia. pose proof (D 0%nat c1 ltac:(lia) X1). pose proof (D 0%nat c2 ltac:(lia) X2).
    destruct Bx as [[-> <-]|[-> <-]]; destruct (cellv s 0 c1), (cellv s 0 c2); try congruence; cbn; f_equal; ring.
  - assert (Nx1 : rnx s = 1%nat) by lia.
    destruct (sample_linear_col (center (xaxis (rgrid s)) (Z.of_nat c)) (center (yaxis (rgrid s)) (Z.of_nat r)) s B Nx1 Ny) as (c1 & c2 & t & s' & Bx & E).
    exists s'. rewrite E. do 2 f_equal. assert (Bx' := Bx). destruct Bx' as (X1 & X2 & _). apply bracket_at_center in Bx; auto.
    replace c with 0%nat by lia. pose proof (D c1 0%nat X1 ltac:(lia)). pose proof (D c2 0%nat X2 ltac:(lia)).
    destruct Bx as [[-> <-]|[-> <-]]; destruct (cellv s c1 0), (cellv s c2 0); try congruence; cbn; f_equal; ring.
  - exists s. unfold sample_value. replace (rnx s) with 1%nat by lia. replace (rny s) with 1%nat by lia. cbn [andb Nat.ltb Nat.leb].
    replace r with 0%nat by lia. replace c with 0%nat by lia. reflexivity.
Qed.
(** within the range of the centers, linear interpolation stays within the range of the values *)
Lemma lerp_bound t a b lo hi : 0 <= t <= 1 -> lo <= a <= hi -> lo <= b <= hi -> lo <= (1 - t) * a + t * b <= hi.
Proof. intros. split; nra. Qed.
Theorem sample_within_values x y s lo hi v s' : base s -> zinv s -> (1 < rnx s)%nat -> (1 < rny s)%nat ->
  between (center (xaxis (rgrid s)) 0) (center (xaxis (rgrid s)) (Z.of_nat (rnx s - 1))) x ->
  between (center (yaxis (rgrid s)) 0) (center (yaxis (rgrid s)) (Z.of_nat (rny s - 1))) y ->
  (forall r c w, (r < rny s)%nat -> (c < rnx s)%nat -> cellv s r c = Some w -> lo <= w <= hi) ->
  sample_value true x y s = Ok (Some v, s') -> lo <= v <= hi.
Proof.
  intros B Z Nx Ny Hx Hy W E. destruct (sample_linear_spec x y s B Z Nx Ny) as (c & c' & t & r & r' & u & s1 & Bx & By & E1).
  rewrite E1 in E. injection E as E _. destruct Bx as (X1 & X2 & _ & _ & X3). destruct By as (Y1 & Y2 & _ & _ & Y3).
  specialize (X3 Hx). specialize (Y3 Hy).
  destruct (cellv s r c) as [v1|] eqn:E11; [|discriminate]. destruct (cellv s r' c) as [v2|] eqn:E12; [|discriminate].
  destruct (cellv s r c') as [v3|] eqn:E13; [|discriminate]. destruct (cellv s r' c') as [v4|] eqn:E14; [|discriminate].
  cbn in E. injection E as <-. apply W in E11, E12, E13, E14; auto.
  pose proof (lerp_bound u v1 v2 lo hi Y3 E11 E12) as A1. pose proof (lerp_bound u v3 v4 lo hi Y3 E13 E14) as A2.
  pose proof (lerp_bound t _ _ lo hi X3 A1 A2). lra.
Qed.

(** ** the value does not depend on the caches *)
Definition cvec (a : axis) (n : nat) : list R := map (fun k => center a (Z.of_nat k)) (seq 0 n).
Lemma cvec_centers a n : snd a = Z.of_nat n -> is_centers a (cvec a n).
Proof.
  intros H. split; [unfold cvec; rewrite map_length, seq_length, H, Nat2Z.id; auto|]. unfold cvec. rewrite map_length, seq_length. intros k Hk.
  rewrite (nth_indep _ 0 (center a (Z.of_nat 0))) by (rewrite map_length, seq_length; auto).
  rewrite (map_nth (fun k => center a (Z.of_nat k))). rewrite seq_nth by auto. reflexivity.
Qed.
Definition canon (linear : bool) (ax ay : axis) (nx ny : nat) (cell : nat -> nat -> option R) (x y : R) : option R :=
  let rx := Rltb (dcell ax) 0 in let ry := Rltb (dcell ay) 0 in
  if (1 <? nx)%nat && (1 <? ny)%nat then
    (if linear then rgi_linear else rgi_nearest) (oriented rx (cvec ax nx)) (oriented ry (cvec ay ny)) (fun a b => cell (opos ry ny b) (opos rx nx a)) x y
  else if (1 <? nx)%nat then (if linear then interp1_linear else interp1_nearest) (oriented rx (cvec ax nx)) (fun a => cell 0%nat (opos rx nx a)) x
  else if (1 <? ny)%nat then (if linear then interp1_linear else interp1_nearest) (oriented ry (cvec ay ny)) (fun a => cell (opos ry ny a) 0%nat) y
  else cell 0%nat 0%nat.
Lemma rgi_linear_ext gx gy v w x y : (forall a b, v a b = w a b) -> rgi_linear gx gy v x y = rgi_linear gx gy w x y.
Proof. intros H. unfold rgi_linear. destruct (rgi_locate gx x), (rgi_locate gy y). rewrite !H. reflexivity. Qed.
Lemma rgi_nearest_ext gx gy v w x y : (forall a b, v a b = w a b) -> rgi_nearest gx gy v x y = rgi_nearest gx gy w x y.
Proof. intros H. unfold rgi_nearest. destruct (rgi_locate gx x), (rgi_locate gy y). rewrite !H. reflexivity. Qed.
Lemma interp1_linear_ext g v w x : (forall a, v a = w a) -> interp1_linear g v x = interp1_linear g w x.
Proof. intros H. unfold interp1_linear. destruct (rgi_locate g x). rewrite !H. reflexivity. Qed.
Lemma interp1_nearest_ext g v w x : (forall a, v a = w a) -> interp1_nearest g v x = interp1_nearest g w x.
Proof. intros H. unfold interp1_nearest. apply H. Qed.
Theorem sample_canon linear x y s : base s -> zinv s ->
  exists s', sample_value linear x y s = Ok (canon linear (xaxis (rgrid s)) (yaxis (rgrid s)) (rnx s) (rny s) (cellv s) x y, s') /\ base s' /\ zinv s'
    /\ rgrid s' = rgrid s /\ rvalues s' = rvalues s.
Proof.
  intros B Z. unfold sample_value, canon.
  destruct (Nat.ltb_spec 1 (rnx s)) as [Nx|Nx]; destruct (Nat.ltb_spec 1 (rny s)) as [Ny|Ny]; cbn [andb].
  - destruct (get_zf_spec s B Z) as (z & s' & -> & H2 & H3 & H4 & H5 & H6 & H7). cbn [bind]. exists s'. split; [|auto 10].
    assert (H4' := H4 z H2). assert (H4'' := H4'). destruct H4'' as (A1 & A2 & A3 & A4 & A5 & A6 & A7 & A8 & A9 & A10 & A11).
    rewrite H5 in *. destruct (rgrid_dims s s' H5) as [Ex Ey].
    unfold zgrid_x, zgrid_y. rewrite A6, A7.
    rewrite (is_centers_unique _ _ _ A8 (cvec_centers (xaxis (rgrid s)) (rnx s) eq_refl)).
    rewrite (is_centers_unique _ _ _ A9 (cvec_centers (yaxis (rgrid s)) (rny s) eq_refl)).
    do 2 f_equal. destruct linear; [apply rgi_linear_ext|apply rgi_nearest_ext]; intros a b;
      rewrite zvalue_cell by auto; rewrite A6, A7, Ex, Ey; apply cellv_eq; auto.
  - destruct (get_x_spec s B) as (p & s' & -> & E1 & B1 & Eg & F1 & F2 & F3 & F4 & F5 & F6 & F7 & F8 & F9 & _ & _ & (t & Ft)). cbn [bind].
    assert (Q := proj2 (b_x s' B1 p E1)). rewrite Eg in Q.
    assert (V : rvalues s' = rvalues s) by (unfold rvalues, abuf; congruence).
    exists s'. split; [|split; [auto|split; [|auto]]].
    + rewrite (is_centers_unique _ _ _ Q (cvec_centers (xaxis (rgrid s)) (rnx s) eq_refl)).
      do 2 f_equal. destruct linear; [apply interp1_linear_ext|apply interp1_nearest_ext]; intros a; rewrite F5; apply cellv_eq; auto.
    + intros z Hz. rewrite F9 in Hz. apply (zf_ok_grow s s' z t); auto.
  - destruct (get_y_spec s B) as (p & s' & -> & E1 & B1 & Eg & F1 & F2 & F3 & F4 & F5 & F6 & F7 & F8 & F9 & _ & _ & (t & Ft)). cbn [bind].
    assert (Q := proj2 (b_y s' B1 p E1)). rewrite Eg in Q.
    assert (V : rvalues s' = rvalues s) by (unfold rvalues, abuf; congruence).
    exists s'. split; [|split; [auto|split; [|auto]]].
    + rewrite (is_centers_unique _ _ _ Q (cvec_centers (yaxis (rgrid s)) (rny s) eq_refl)).
      do 2 f_equal. destruct linear; [apply interp1_linear_ext|apply interp1_nearest_ext]; intros a; rewrite F4; apply cellv_eq; auto.
    + intros z Hz. rewrite F9 in Hz. apply (zf_ok_grow s s' z t); auto.
  - exists s. split; [|auto]. f_equal. 
Qed.

(** ** shift equivariance *)
Lemma cvec_shift d a n : cvec (shift_axis d a) n = map (fun x => x + d) (cvec a n).
Proof. unfold cvec. rewrite map_map. apply map_ext. intros. apply shift_center. Qed.
Lemma oriented_map {A B} r (f : A -> B) l : oriented r (map f l) = map f (oriented r l).
Proof. destruct r; cbn; auto. symmetry. apply map_rev. Qed.
Lemma count_shift d x g : length (filter (fun v => Rltb v (x + d)) (map (fun v => v + d) g)) = length (filter (fun v => Rltb v x) g).
Proof.
  induction g as [|a g IH]; auto. cbn. replace (Rltb (a + d) (x + d)) with (Rltb a x).
  - destruct (Rltb a x); cbn; auto.
  - destruct (Rltb a x) eqn:E; symmetry; [apply Rltb_true in E; apply Rltb_true; lra|apply Rltb_false in E; apply Rltb_false; lra].
Qed.
Lemma nth_map_shift d g k : (k < length g)%nat -> nth k (map (fun v => v + d) g) 0 = nth k g 0 + d.
Proof. intros H. rewrite (nth_indep _ 0 (0 + d)) by (rewrite map_length; auto). apply (map_nth (fun v => v + d)). Qed.
Lemma locate_shift d g x : (2 <= length g)%nat -> rgi_locate (map (fun v => v + d) g) (x + d) = rgi_locate g x.
Proof.
  intros L. unfold rgi_locate. rewrite count_shift, map_length. set (i := Nat.min _ _). assert (Hi : (S i < length g)%nat) by lia.
  rewrite !nth_map_shift by lia. f_equal. replace (x + d - (nth i g 0 + d)) with (x - nth i g 0) by ring.
  replace (nth (S i) g 0 + d - (nth i g 0 + d)) with (nth (S i) g 0 - nth i g 0) by ring. reflexivity.
Qed.
Lemma bilinear_shift d t u a b c e :
  oadd (oadd (oscale ((1 - t) * (1 - u)) (oplus d a)) (oscale ((1 - t) * u) (oplus d b))) (oadd (oscale (t * (1 - u)) (oplus d c)) (oscale (t * u) (oplus d e)))
  = oplus d (oadd (oadd (oscale ((1 - t) * (1 - u)) a) (oscale ((1 - t) * u) b)) (oadd (oscale (t * (1 - u)) c) (oscale (t * u) e))).
Proof. destruct a, b, c, e; try reflexivity. cbn. f_equal. ring. Qed.
Lemma mid_shift d g : map2 (fun a b => (a + b) / 2) (map (fun v => v + d) g) (tl (map (fun v => v + d) g)) = map (fun v => v + d) (map2 (fun a b => (a + b) / 2) g (tl g)).
Proof.
  destruct g as [|a g]; auto. cbn [tl map]. revert a. induction g as [|b g IH]; intros a; [reflexivity|]. cbn. f_equal; [field|apply IH].
Qed.
Lemma cvec_length a n : length (cvec a n) = n.
Proof. unfold cvec. rewrite map_length, seq_length. auto. Qed.
Theorem canon_shift linear ax ay nx ny cell x y dx dy dz :
  canon linear (shift_axis dx ax) (shift_axis dy ay) nx ny (fun r c => oplus dz (cell r c)) (x + dx) (y + dy)
  = oplus dz (canon linear ax ay nx ny cell x y).
Proof.
  unfold canon. rewrite !shift_dcell, !cvec_shift, !oriented_map.
  destruct (Nat.ltb_spec 1 nx) as [Nx|Nx]; destruct (Nat.ltb_spec 1 ny) as [Ny|Ny]; cbn [andb].
  - destruct linear.
    + unfold rgi_linear. rewrite !locate_shift by (rewrite oriented_length, cvec_length; lia).
      destruct (rgi_locate _ x), (rgi_locate _ y). apply bilinear_shift.
    + unfold rgi_nearest. rewrite !locate_shift by (rewrite oriented_length, cvec_length; lia).
      destruct (rgi_locate _ x), (rgi_locate _ y). reflexivity.
  - destruct linear.
    + unfold interp1_linear. rewrite !locate_shift by (rewrite oriented_length, cvec_length; lia). destruct (rgi_locate _ x) as [i t].
      destruct (cell 0%nat (opos _ nx i)), (cell 0%nat (opos _ nx (S i))); try reflexivity. cbn. f_equal. ring.
    + unfold interp1_nearest. rewrite mid_shift, count_shift, map_length. reflexivity.
  - destruct linear.
    + unfold interp1_linear. rewrite !locate_shift by (rewrite oriented_length, cvec_length; lia). destruct (rgi_locate _ y) as [i t].
      destruct (cell (opos _ ny i) 0%nat), (cell (opos _ ny (S i)) 0%nat); try reflexivity. cbn. f_equal. ring.
    + unfold interp1_nearest. rewrite mid_shift, count_shift, map_length. reflexivity.
  - reflexivity.
Qed.
