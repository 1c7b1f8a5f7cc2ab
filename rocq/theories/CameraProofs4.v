(** Proofs about rasterize, per-point depths, spherical coordinates and the view box. *)
From Verif Require Import Base BaseLemmas HelpersModel HelpersSpec CameraModel CameraSpec CameraStateProofs CameraProofs CameraProofs3.
From Verif Require Import AggregateProofs BoxProofs.
Open Scope R_scope.

(** ** rasterize *)
(** values of the points inside pixel (row r, column c) *)
Definition pixel_values (uv : list (option vec2)) (values : list R) (r c : Z) : list R :=
  map snd (filter (fun p => match fst p with
                            | Some (u, v) => ((Rfloor v =? r) && (Rfloor u =? c))%Z
                            | None => false end) (combine uv values)).

Lemma Rtrunc_floor x : 0 <= x -> Rtrunc x = Rfloor x.
Proof. intros H. unfold Rtrunc. destruct (Rltb_spec x 0); [lra|reflexivity]. Qed.

Lemma combine_map_same {A B C} (f : A -> B) (g : A -> C) l : combine (map f l) (map g l) = map (fun x => (f x, g x)) l.
Proof. induction l; cbn; f_equal; auto. Qed.
Lemma filter_map_comm {A B} (f : A -> B) p l : filter p (map f l) = map f (filter (fun x => p (f x)) l).
Proof. induction l; cbn; auto. destruct (p (f a)); cbn; f_equal; auto. Qed.
Lemma filter_filter {A} (p q : A -> bool) l : filter p (filter q l) = filter (fun x => (q x && p x)%bool) l.
Proof. induction l as [|a l IH]; cbn; auto. destruct (q a); cbn; [destruct (p a); cbn; rewrite IH; auto|auto]. Qed.

Theorem rasterize_spec c nx ny uv values : get_imgsz c = [nx; ny] -> (0 <= nx)%Z -> (0 <= ny)%Z ->
  length values = length uv ->
  (forall u v, In (Some (u, v)) uv -> inframe c (Some (u, v)) = true -> u < IZR nx /\ v < IZR ny) ->
  exists a, rasterize c uv values = Ok a /\ Z.of_nat (length a) = (ny * nx)%Z /\
    forall r q, (0 <= r < ny)%Z -> (0 <= q < nx)%Z ->
      nth_error a (Z.to_nat (r * nx + q)) =
        Some (match pixel_values uv values r q with
              | [] => None
              | here => Some (sumR here / IZR (Z.of_nat (length here)))
              end).
Proof.
  intros Hi Hnx Hny Hl Hin. unfold rasterize. rewrite Hi. cbn [nth].
  set (sel := filter (fun p => inframe c (fst p)) (combine uv values)).
  set (rows := map (fun p : option vec2 * R => match fst p with Some (u, v) => Rtrunc v | None => 0%Z end) sel).
  set (cols := map (fun p : option vec2 * R => match fst p with Some (u, v) => Rtrunc u | None => 0%Z end) sel).
  assert (Hfr : forall u v, inframe c (Some (u, v)) = true <-> 0 <= u <= IZR nx /\ 0 <= v <= IZR ny).
  { intros u v. unfold inframe, imgszR. rewrite Hi. cbn [map nth]. rewrite !andb_true_iff, !Rleb_true. tauto. }
  assert (Hsel : forall p, In p sel -> exists u v w, p = (Some (u, v), w) /\ 0 <= u < IZR nx /\ 0 <= v < IZR ny).
  { intros [o w] Hp. unfold sel in Hp. apply filter_In in Hp. destruct Hp as [Hp Hf]. cbn [fst] in Hf.
    destruct o as [[u v]|]; [|discriminate]. exists u, v, w. split; [reflexivity|].
    apply in_combine_l in Hp. destruct (Hin u v Hp Hf). apply Hfr in Hf. lra. }
  destruct (rasterize_into_spec Some ny nx rows cols (map snd sel) (repeat None (Z.to_nat (ny * nx)))) as (a & E & La & Ha).
  - unfold rows, cols. rewrite !map_length. reflexivity.
  - unfold rows. rewrite !map_length. reflexivity.
  - intros r q Hrq. unfold rows, cols in Hrq. rewrite combine_map_same in Hrq. apply in_map_iff in Hrq.
    destruct Hrq as (p & Ep & Hp). destruct (Hsel p Hp) as (u & v & w & -> & Hu & Hv). cbn [fst] in Ep. injection Ep as <- <-.
    rewrite !Rtrunc_floor by lra. split; split; try (apply Rfloor_le; lra); apply Rfloor_lt; lra.
  - exact Hnx.
  - rewrite repeat_length. nia.
  - exists a. split; [exact E|]. split; [rewrite La, repeat_length; nia|].
    intros r q Hr Hq. rewrite (Ha r q Hr Hq). cbv zeta.
    assert (Ec : cell_values rows cols (map snd sel) r q = pixel_values uv values r q).
    { unfold cell_values, rows, cols. rewrite combine_map_same, combine_map_same, filter_map_comm, map_map. cbn [fst snd].
      unfold pixel_values. unfold sel. rewrite filter_filter. f_equal. apply filter_ext_in.
      intros [o w] Hp. cbn [fst snd]. destruct o as [[u v]|]; [|reflexivity].
      assert (Ho : In (Some (u, v)) uv) by (apply in_combine_l in Hp; exact Hp).
      destruct (inframe c (Some (u, v))) eqn:Ef; cbn [andb].
      - apply Hfr in Ef. rewrite !Rtrunc_floor by lra. reflexivity.
      - symmetry. apply andb_false_iff. destruct (Z.eqb_spec (Rfloor v) r); [right|auto].
        destruct (Z.eqb_spec (Rfloor u) q); [exfalso|auto]. subst.
        assert (inframe c (Some (u, v)) = true).
        { apply Hfr. pose proof (Rfloor_lb u). pose proof (Rfloor_ub u). pose proof (Rfloor_lb v). pose proof (Rfloor_ub v).
          destruct Hr as [R1 R2], Hq as [Q1 Q2]. apply IZR_le in R1, Q1.
          assert (R3 : (Rfloor v + 1 <= ny)%Z) by lia. assert (Q3 : (Rfloor u + 1 <= nx)%Z) by lia.
          apply IZR_le in R3, Q3. rewrite plus_IZR in R3, Q3. lra. }
        congruence. }
    rewrite Ec. destruct (pixel_values uv values r q); [|reflexivity].
    assert (Hlt : (Z.to_nat (r * nx + q) < Z.to_nat (ny * nx))%nat) by nia.
    rewrite nth_error_repeat; auto.
Qed.

(** ** Depths *)
Theorem uv_to_xyz_depths c dirs depth uv : (dirs = true \/ correction c = None) ->
  match depth with DScalar d => True | DSeq ds => length ds = length uv | DArray ds => length ds = 1%nat end ->
  exists xyz, uv_to_xyz c dirs depth uv = Ok xyz /\ length xyz = length uv /\
    forall k p, nth_error xyz k = Some p ->
      let d := match depth with DScalar d => d | DSeq ds => nth k ds 0 | DArray ds => hd 0 ds end in
      snd (xyz_to_xy c dirs p) = d.
Proof.
  intros Hd Hlen.
  assert (G : forall d xy, snd (xyz_to_xy c dirs (xy_to_xyz c dirs d xy)) = d).
  { intros d xy. unfold xyz_to_xy. cbv zeta. cbn [snd]. rewrite offset_xy_to_xyz by auto.
    unfold Rm. rewrite dot3_ray by lia. ring. }
  destruct depth as [d|ds|ds]; cbn [uv_to_xyz].
  - eexists. split; [reflexivity|]. split; [rewrite !map_length; reflexivity|].
    intros k p Hp. rewrite nth_error_map in Hp. destruct (nth_error _ k); [|discriminate]. cbn in Hp. injection Hp as <-. apply G.
  - rewrite map_length, Hlen, Nat.eqb_refl. eexists. split; [reflexivity|].
    split; [rewrite map2_length, map_length; lia|].
    intros k p Hp. rewrite nth_error_map2 in Hp.
    destruct (nth_error ds k) as [d|] eqn:Ed; [|discriminate].
    destruct (nth_error (map (uv_to_xy c) uv) k) as [xy|]; [|discriminate]. injection Hp as <-.
    cbv zeta. rewrite G. symmetry. apply nth_error_nth. exact Ed.
  - destruct ds as [|d [|]]; cbn in Hlen; try lia. cbn [hd]. eexists. split; [reflexivity|].
    split; [rewrite !map_length; reflexivity|].
    intros k p Hp. rewrite nth_error_map in Hp. destruct (nth_error _ k); [|discriminate]. cbn in Hp. injection Hp as <-. apply G.
Qed.

Theorem uv_to_xyz_array_raises c dirs ds uv : (1 < length ds)%nat -> uv_to_xyz c dirs (DArray ds) uv = Err ValueError.
Proof. intros H. destruct ds as [|a [|b ds]]; cbn in H; try lia. reflexivity. Qed.

(** ** Angles *)
Lemma Rmod_bounds x y : 0 < y -> 0 <= Rmod x y < y.
Proof.
  intros Hy. unfold Rmod. pose proof (Rfloor_lb (x / y)) as A. pose proof (Rfloor_ub (x / y)) as B.
  assert (E : x = y * (x / y)) by (field; lra).
  assert (0 <= y * (x / y - IZR (Rfloor (x / y)))) by (apply Rmult_le_pos; lra).
  assert (0 < y * (IZR (Rfloor (x / y)) + 1 - x / y)) by (apply Rmult_lt_0_compat; lra).
  lra.
Qed.
Lemma sincos_period_Z x k : sin (x + 2 * PI * IZR k) = sin x /\ cos (x + 2 * PI * IZR k) = cos x.
Proof.
  destruct (Z_le_dec 0 k) as [H|H].
  - rewrite <- (Z2Nat.id k) by auto. rewrite <- INR_IZR_INZ.
    replace (2 * PI * INR (Z.to_nat k)) with (2 * INR (Z.to_nat k) * PI) by ring.
    split; [apply sin_period|apply cos_period].
  - set (n := Z.to_nat (- k)). assert (E : IZR k = - INR n).
    { unfold n. rewrite INR_IZR_INZ, Z2Nat.id by lia. rewrite opp_IZR. ring. }
    rewrite E. split.
    + rewrite <- (sin_period (x + 2 * PI * - INR n) n). f_equal. ring.
    + rewrite <- (cos_period (x + 2 * PI * - INR n) n). f_equal. ring.
Qed.
Lemma Rmod_2PI x : sin (Rmod x (2 * PI)) = sin x /\ cos (Rmod x (2 * PI)) = cos x.
Proof.
  unfold Rmod. set (k := Rfloor _).
  replace (x - 2 * PI * IZR k) with (x + 2 * PI * IZR (- k)) by (rewrite opp_IZR; ring).
  apply sincos_period_Z.
Qed.

Lemma atan2_sc x y : (x <> 0 \/ y <> 0) -> let rho := sqrt (x * x + y * y) in
  0 < rho /\ rho * cos (atan2 y x) = x /\ rho * sin (atan2 y x) = y.
Proof.
  intros H rho.
  assert (Pos : 0 < x * x + y * y).
  { pose proof (Rle_0_sqr x). pose proof (Rle_0_sqr y).
    destruct H as [N|N]; pose proof (Rsqr_pos_lt _ N); unfold Rsqr in *; lra. }
  assert (Hrho : 0 < rho) by (apply sqrt_lt_R0; auto).
  assert (Hrho2 : rho * rho = x * x + y * y) by (apply sqrt_sqrt; lra).
  split; auto. destruct (Req_dec x 0) as [->|Hx].
  - assert (Hy : y <> 0) by tauto. unfold atan2. destruct (Rltb_spec 0 0); [lra|].
    destruct (Rltb_spec 0 y) as [L|L].
    + rewrite cos_PI2, sin_PI2. assert (rho = y) by (apply Rsqr_inj; unfold Rsqr; lra). lra.
    + destruct (Rltb_spec y 0); [|lra]. rewrite cos_neg, sin_neg, cos_PI2, sin_PI2.
      assert (rho = - y) by (apply Rsqr_inj; unfold Rsqr; lra). lra.
  - destruct (polar x y Hx) as (Hc & Hp & P1 & P2 & P3).
    assert (E : rho = x / cos (atan2 y x)) by (apply Rsqr_inj; unfold Rsqr; lra).
    rewrite E. auto.
Qed.

Definition vsub_cam (c : cam) (p : vec3) : vec3 := sub3 p (v3 (get_xyz c)).

(** spherical -> xyz after xyz -> spherical *)
Theorem spherical_inverse c p : p <> v3 (get_xyz c) ->
  let '(az, alt, d) := xyz_to_spherical c false p in
  spherical_to_xyz c az alt (Some d) = p /\ 0 <= az < 360 /\ -90 <= alt <= 90 /\ 0 < d.
Proof.
  intros Hp. unfold xyz_to_spherical. cbv iota.
  destruct (sub3 p (v3 (get_xyz c))) as [[x y] z] eqn:E.
  assert (Hn : x <> 0 \/ y <> 0 \/ z <> 0).
  { destruct (Req_dec x 0) as [->|]; auto. destruct (Req_dec y 0) as [->|]; auto. destruct (Req_dec z 0) as [->|]; auto.
    exfalso. apply Hp. rewrite <- (add_sub_3 p (v3 (get_xyz c))), E. destruct (v3 (get_xyz c)) as [[? ?] ?]. cbn. tup; ring. }
  set (r := sqrt (x * x + y * y + z * z)).
  assert (Pos : 0 < x * x + y * y + z * z).
  { pose proof (Rle_0_sqr x). pose proof (Rle_0_sqr y). pose proof (Rle_0_sqr z).
    destruct Hn as [N|[N|N]]; pose proof (Rsqr_pos_lt _ N); unfold Rsqr in *; lra. }
  assert (Hr : 0 < r) by (apply sqrt_lt_R0; auto).
  assert (Hr2 : r * r = x * x + y * y + z * z) by (apply sqrt_sqrt; lra).
  assert (Hz : -1 <= z / r <= 1).
  { assert (- r <= z <= r).
    { pose proof (Rle_0_sqr x). pose proof (Rle_0_sqr y). unfold Rsqr in *.
      apply Rabs_le_inv'.
      rewrite <- (Rabs_pos_eq r) by lra. apply Rsqr_le_abs_0. unfold Rsqr. lra. }
    split; apply (Rmult_le_reg_r r); auto; unfold Rdiv; rewrite Rmult_assoc, Rinv_l by lra; lra. }
  pose proof PI_RGT_0 as HPI.
  assert (Haz : 0 <= Rmod (90 - atan2 y x * 180 / PI) 360 < 360) by (apply Rmod_bounds; lra).
  pose proof (acos_bound (z / r)) as Bac.
  assert (Halt : -90 <= 90 - acos (z / r) * 180 / PI <= 90).
  { assert (acos (z / r) * 180 / PI <= 180).
    { apply (Rmult_le_reg_r PI); auto. unfold Rdiv. rewrite Rmult_assoc, Rinv_l by lra. lra. }
    assert (0 <= acos (z / r) * 180 / PI) by (apply Rdiv_nonneg; lra). lra. }
  split; [|auto].
  unfold spherical_to_xyz.
  set (A := Rmod (PI / 2 - Rmod (90 - atan2 y x * 180 / PI) 360 * PI / 180) (2 * PI)).
  set (L := Rmod (PI / 2 - (90 - acos (z / r) * 180 / PI) * PI / 180) (2 * PI)).
  assert (EA : sin A = sin (atan2 y x) /\ cos A = cos (atan2 y x)).
  { unfold A. destruct (Rmod_2PI (PI / 2 - Rmod (90 - atan2 y x * 180 / PI) 360 * PI / 180)) as [-> ->].
    unfold Rmod. set (k := Rfloor _).
    replace (PI / 2 - (90 - atan2 y x * 180 / PI - 360 * IZR k) * PI / 180) with (atan2 y x + 2 * PI * IZR k) by (field; lra).
    apply sincos_period_Z. }
  assert (EL : sin L = sqrt (1 - z / r * (z / r)) /\ cos L = z / r).
  { unfold L. destruct (Rmod_2PI (PI / 2 - (90 - acos (z / r) * 180 / PI) * PI / 180)) as [-> ->].
    replace (PI / 2 - (90 - acos (z / r) * 180 / PI) * PI / 180) with (acos (z / r)) by (field; lra).
    rewrite cos_acos, sin_acos by auto. split; [reflexivity|reflexivity]. }
  destruct EA as [-> ->], EL as [-> ->].
  set (s := sqrt (1 - z / r * (z / r))).
  assert (Hs : r * s = sqrt (x * x + y * y)).
  { unfold s. rewrite <- (sqrt_square r) at 1 by lra. rewrite <- sqrt_mult_alt.
    - f_equal. transitivity (r * r - z * z); [field; lra|lra].
    - apply Rmult_le_pos; lra. }
  rewrite <- (add_sub_3 p (v3 (get_xyz c))), E. f_equal. cbn [scale3].
  assert (E1 : r * (s * cos (atan2 y x)) = x /\ r * (s * sin (atan2 y x)) = y).
  { destruct (Req_dec x 0) as [Hx|Hx]; [destruct (Req_dec y 0) as [Hy|Hy]|].
    - subst. replace (0 * 0 + 0 * 0) with 0 in Hs by ring. rewrite sqrt_0 in Hs. split.
      + transitivity (r * s * cos (atan2 0 0)); [ring|]. rewrite Hs. ring.
      + transitivity (r * s * sin (atan2 0 0)); [ring|]. rewrite Hs. ring.
    - destruct (atan2_sc x y ltac:(auto)) as (_ & P1 & P2). split.
      + rewrite <- P1 at 2. rewrite <- Hs. ring.
      + rewrite <- P2 at 2. rewrite <- Hs. ring.
    - destruct (atan2_sc x y ltac:(auto)) as (_ & P1 & P2). split.
      + rewrite <- P1 at 2. rewrite <- Hs. ring.
      + rewrite <- P2 at 2. rewrite <- Hs. ring. }
  destruct E1 as [-> ->]. f_equal. field. lra.
Qed.

Lemma cos_eq_1 x : - (2 * PI) < x < 2 * PI -> cos x = 1 -> x = 0.
Proof.
  intros B H. destruct (Req_dec x 0) as [|N]; auto. exfalso.
  assert (E : cos x = 1 - 2 * (sin (x / 2) * sin (x / 2))).
  { replace x with (2 * (x / 2)) at 1 by field. rewrite cos_2a_sin. ring. }
  assert (S : sin (x / 2) = 0).
  { assert (Z : sin (x / 2) * sin (x / 2) = 0) by lra. apply Rmult_integral in Z. tauto. }
  destruct (Rlt_le_dec 0 x).
  - pose proof (sin_gt_0 (x / 2) ltac:(lra) ltac:(lra)). lra.
  - pose proof (sin_gt_0 (- (x / 2)) ltac:(lra) ltac:(lra)) as P. rewrite sin_neg in P. lra.
Qed.
Lemma angle_unique a b : sin a = sin b -> cos a = cos b -> - (2 * PI) < a - b < 2 * PI -> a = b.
Proof.
  intros S C B. assert (a - b = 0); [|lra]. apply cos_eq_1; auto. rewrite cos_minus, S, C.
  pose proof (sc b). lra.
Qed.

(** xyz -> spherical after spherical -> xyz *)
Theorem spherical_round_trip c az alt d : 0 <= az < 360 -> -90 < alt < 90 -> 0 < d ->
  xyz_to_spherical c false (spherical_to_xyz c az alt (Some d)) = (az, alt, d).
Proof.
  intros Ha Hl Hd. pose proof PI_RGT_0 as HPI.
  unfold xyz_to_spherical, spherical_to_xyz. cbv iota. rewrite sub_add_3. cbn [scale3].
  set (A := Rmod (PI / 2 - az * PI / 180) (2 * PI)). set (L := Rmod (PI / 2 - alt * PI / 180) (2 * PI)).
  destruct (Rmod_2PI (PI / 2 - az * PI / 180)) as [SA CA]. fold A in SA, CA.
  set (l := PI / 2 - alt * PI / 180).
  destruct (Rmod_2PI l) as [SL CL]. change (Rmod l (2 * PI)) with L in SL, CL.
  assert (Bl : 0 < l < PI).
  { unfold l. assert (K : alt * PI / 180 = alt * (PI / 180)) by field. rewrite K.
    assert (0 < (90 - alt) * (PI / 180)) by (apply Rmult_lt_0_compat; lra).
    assert (0 < (90 + alt) * (PI / 180)) by (apply Rmult_lt_0_compat; lra). lra. }
  assert (Hsl : 0 < sin l) by (apply sin_gt_0; lra).
  rewrite SL, CL.
  set (x := d * (sin l * cos A)). set (y := d * (sin l * sin A)). set (z := d * cos l).
  assert (R2 : x * x + y * y = (d * sin l) * (d * sin l)).
  { unfold x, y. transitivity ((d * sin l) * (d * sin l) * (sin A * sin A + cos A * cos A)); [ring|]. rewrite sc. ring. }
  assert (Er : sqrt (x * x + y * y + z * z) = d).
  { rewrite R2. unfold z. replace (d * sin l * (d * sin l) + d * cos l * (d * cos l)) with (d * d * (sin l * sin l + cos l * cos l)) by ring.
    rewrite sc, Rmult_1_r. apply sqrt_square. lra. }
  rewrite Er.
  assert (Erho : sqrt (x * x + y * y) = d * sin l).
  { rewrite R2. apply sqrt_square. apply Rmult_le_pos; lra. }
  assert (Hrho : 0 < d * sin l) by (apply Rmult_lt_0_compat; auto).
  assert (Hnz : x <> 0 \/ y <> 0).
  { destruct (Req_dec x 0) as [X|X]; auto. destruct (Req_dec y 0) as [Y|Y]; auto. exfalso.
    rewrite X, Y in R2. assert (0 < d * sin l * (d * sin l)) by (apply Rmult_lt_0_compat; auto). lra. }
  destruct (atan2_sc x y Hnz) as (_ & P1 & P2). rewrite Erho in P1, P2.
  set (t := atan2 y x) in *.
  assert (Ct : cos t = cos A).
  { apply (Rmult_eq_reg_l (d * sin l)); [|lra]. rewrite P1. unfold x. ring. }
  assert (St : sin t = sin A).
  { apply (Rmult_eq_reg_l (d * sin l)); [|lra]. rewrite P2. unfold y. ring. }
  f_equal. f_equal.
  - (* azimuth *)
    set (az' := Rmod (90 - t * 180 / PI) 360).
    assert (Baz : 0 <= az' < 360) by (apply Rmod_bounds; lra).
    assert (Esc : sin (az' * PI / 180) = sin (az * PI / 180) /\ cos (az' * PI / 180) = cos (az * PI / 180)).
    { unfold az', Rmod. set (k := Rfloor _).
      replace ((90 - t * 180 / PI - 360 * IZR k) * PI / 180) with ((PI / 2 - t) + 2 * PI * IZR (- k)) by (rewrite opp_IZR; field; lra).
      destruct (sincos_period_Z (PI / 2 - t) (- k)) as [-> ->].
      rewrite sin_shift, cos_shift, Ct, St, SA, CA, sin_shift, cos_shift. auto. }
    destruct Esc as [ES EC].
    assert (E : az' * PI / 180 = az * PI / 180).
    { apply angle_unique; auto.
      replace (az' * PI / 180 - az * PI / 180) with ((az' - az) * (PI / 180)) by field.
      assert (0 < (360 - (az' - az)) * (PI / 180)) by (apply Rmult_lt_0_compat; lra).
      assert (0 < (360 + (az' - az)) * (PI / 180)) by (apply Rmult_lt_0_compat; lra). lra. }
    apply (Rmult_eq_reg_r (PI / 180)); [|lra].
    replace (az' * (PI / 180)) with (az' * PI / 180) by field.
    replace (az * (PI / 180)) with (az * PI / 180) by field. exact E.
  - unfold z. replace (d * cos l / d) with (cos l) by (field; lra). rewrite acos_cos by lra.
    unfold l. field. lra.
Qed.

(** ** View box *)
Lemma linspace_ends H : (1 <= H)%Z -> exists v, linspace 0 (IZR H) (Rtrunc (IZR H / 1 + 1)) = Ok v
  /\ (2 <= length v)%nat /\ hd 0 v = 0 /\ last v 0 = IZR H.
Proof.
  intros HH. replace (IZR H / 1 + 1) with (IZR (H + 1)) by (rewrite plus_IZR; field). rewrite Rtrunc_IZR.
  unfold linspace. destruct (Z.ltb_spec (H + 1) 0); [lia|]. eexists. split; [reflexivity|].
  set (f := fun i : Z => if (H + 1 =? 1)%Z then 0 else 0 + IZR i * ((IZR H - 0) / IZR (H + 1 - 1))).
  assert (L : length (map f (Zrange (H + 1))) = Z.to_nat (H + 1)) by (rewrite map_length, Zrange_length; auto).
  assert (IZR H <> 0) by (apply not_0_IZR; lia).
  assert (Ff : forall i, f i = IZR i).
  { intros i. unfold f. destruct (Z.eqb_spec (H + 1) 1); [lia|]. replace (H + 1 - 1)%Z with H by lia. field. auto. }
  split; [rewrite L; lia|]. split.
  - unfold Zrange. replace (Z.to_nat (H + 1)) with (S (Z.to_nat H)) by lia. cbn [seq map hd]. rewrite Ff. reflexivity.
  - unfold Zrange. replace (Z.to_nat (H + 1)) with (S (Z.to_nat H)) by lia.
    rewrite seq_S, !map_app. cbn [map]. rewrite last_last, Ff. cbn [plus]. rewrite Z2Nat.id by lia. reflexivity.
Qed.

Lemma edges_corners c W H : get_imgsz c = [W; H] -> (1 <= W)%Z -> (1 <= H)%Z ->
  exists l, edges c 1 1 = Ok l /\ In (0, 0) l /\ In (IZR W, 0) l /\ In (0, IZR H) l /\ In (IZR W, IZR H) l.
Proof.
  intros Hi HW HH. unfold edges, imgszR. rewrite Hi. cbn [map nth]. cbv zeta.
  destruct (linspace_ends W HW) as (u & Eu & Lu & Hu & Tu). destruct (linspace_ends H HH) as (v & Ev & Lv & Hv & Tv).
  rewrite Eu, Ev. cbn [bind].
  destruct (Nat.eqb_spec (length u) 0); [lia|]. destruct (Nat.ltb_spec (length v) 2); [lia|]. cbn [orb].
  eexists. split; [reflexivity|].
  assert (I1 : In 0 u) by (destruct u; cbn in *; [lia|left; auto]).
  assert (I2 : In (IZR W) u).
  { rewrite <- Tu. destruct u as [|a u]; [cbn in Lu; lia|]. clear.
    rewrite (app_removelast_last 0) at 2 by congruence. apply in_or_app. right. cbn. auto. }
  rewrite Tv. repeat split.
  - apply in_or_app. left. apply in_map_iff. eauto.
  - apply in_or_app. left. apply in_map_iff. eauto.
  - apply in_or_app. right. apply in_or_app. right. apply in_or_app. left. apply in_map_iff. exists 0. split; auto. apply in_rev in I1; auto.
  - apply in_or_app. right. apply in_or_app. right. apply in_or_app. left. apply in_map_iff. exists (IZR W). split; auto. apply in_rev in I2; auto.
Qed.

(** an affine function on a segment lies between its end values *)
Lemma affine_bound lo hi a b t n : 0 < n -> 0 <= t <= n -> lo <= a <= hi -> lo <= a + b * n <= hi -> lo <= a + b * t <= hi.
Proof.
  intros Hn Ht Ha Hb.
  assert (E : (a + b * t) * n = a * (n - t) + (a + b * n) * t) by ring.
  assert (lo * n <= (a + b * t) * n <= hi * n).
  { rewrite E. replace (lo * n) with (lo * (n - t) + lo * t) by ring. replace (hi * n) with (hi * (n - t) + hi * t) by ring.
    split; apply Rplus_le_compat; apply Rmult_le_compat_r; lra. }
  split; apply (Rmult_le_reg_r n); lra.
Qed.

Theorem viewbox_contains_frustum c W H depth : no_distortion c -> get_imgsz c = [W; H] -> (1 <= W)%Z -> (1 <= H)%Z ->
  f_ c 0 <> 0 -> f_ c 1 <> 0 -> 0 < depth ->
  exists lo hi, viewbox c depth = Ok (lo ++ hi) /\ length lo = 3%nat /\ length hi = 3%nat /\
    forall u v d, 0 <= u <= IZR W -> 0 <= v <= IZR H -> 0 <= d <= depth ->
      forall i, (i < 3)%nat ->
        nth i lo 0 <= comp i (xy_to_xyz c false d (uv_to_xy c (u, v))) <= nth i hi 0.
Proof.
  intros Nd Hi HW HH F0 F1 Hd. unfold viewbox. destruct (edges_corners c W H Hi HW HH) as (l & El & C1 & C2 & C3 & C4).
  rewrite El. cbn [bind uv_to_xyz].
  set (pts := map list_of3 (v3 (get_xyz c) :: map (xy_to_xyz c false depth) (map (uv_to_xy c) l))).
  destruct (bounding_box_spec 3 pts) as (lo & hi & Eb & Llo & Lhi & Hb).
  { unfold pts. cbn. congruence. }
  { unfold rect, pts. intros r Hr. apply in_map_iff in Hr. destruct Hr as ([[? ?] ?] & <- & _). reflexivity. }
  exists lo, hi. split; [exact Eb|]. split; [auto|]. split; [auto|].
  intros u v d Hu Hv Hdd i Hi3. destruct (Hb i Hi3) as [Hall _].
  assert (G0 : nth i lo 0 <= comp i (v3 (get_xyz c)) <= nth i hi 0).
  { specialize (Hall (list_of3 (v3 (get_xyz c)))). replace (comp i (v3 (get_xyz c))) with (nth i (list_of3 (v3 (get_xyz c))) 0).
    - apply Hall. unfold pts. left. reflexivity.
    - destruct (v3 (get_xyz c)) as [[? ?] ?]. destruct i as [|[|[|i]]]; try lia; reflexivity. }
  assert (G : forall a b, In (a, b) l -> nth i lo 0 <= comp i (xy_to_xyz c false depth (uv_to_xy c (a, b))) <= nth i hi 0).
  { intros a b Hab. specialize (Hall (list_of3 (xy_to_xyz c false depth (uv_to_xy c (a, b))))).
    replace (comp i (xy_to_xyz c false depth (uv_to_xy c (a, b)))) with (nth i (list_of3 (xy_to_xyz c false depth (uv_to_xy c (a, b)))) 0).
    - apply Hall. unfold pts. right. apply in_map. apply in_map. apply in_map. exact Hab.
    - destruct (xy_to_xyz c false depth (uv_to_xy c (a, b))) as [[? ?] ?]. destruct i as [|[|[|i]]]; try lia; reflexivity. }
  (* coordinates as a function of u, v and depth *)
  set (m0 := comp i (row 0 (Rm c))). set (m1 := comp i (row 1 (Rm c))). set (m2 := comp i (row 2 (Rm c))).
  set (o := comp i (v3 (get_xyz c))) in *.
  assert (E : forall d a b, comp i (xy_to_xyz c false d (uv_to_xy c (a, b)))
     = o + (m0 * ((a - center c 0) * (1 / f_ c 0)) + m1 * ((b - center c 1) * (1 / f_ c 1)) + m2) * d).
  { intros d' a b. rewrite xy_to_xyz_ray. cbv zeta. unfold uv_to_xy. rewrite undistort_none by auto. cbn [fst snd].
    unfold ray_of, m0, m1, m2, o. destruct (Rm c) as [[[[? ?] ?] [[? ?] ?]] [[? ?] ?]]. destruct (v3 (get_xyz c)) as [[? ?] ?].
    destruct i as [|[|[|i]]]; try lia; cbn; ring. }
  rewrite E. apply (affine_bound _ _ o _ d depth); auto.
  set (q := fun a b => o + (m0 * ((a - center c 0) * (1 / f_ c 0)) + m1 * ((b - center c 1) * (1 / f_ c 1)) + m2) * depth).
  change (nth i lo 0 <= q u v <= nth i hi 0).
  assert (Q : forall a b, In (a, b) l -> nth i lo 0 <= q a b <= nth i hi 0) by (intros a b Hab; unfold q; rewrite <- E; apply G; auto).
  assert (WP : 0 < IZR W) by (apply IZR_lt; lia). assert (HP : 0 < IZR H) by (apply IZR_lt; lia).
  assert (Lu : forall b, In (0, b) l -> In (IZR W, b) l -> nth i lo 0 <= q u b <= nth i hi 0).
  { intros b I1 I2. replace (q u b) with (q 0 b + (m0 * (1 / f_ c 0) * depth) * u) by (unfold q; ring).
    apply (affine_bound _ _ _ _ u (IZR W)); auto.
    replace (q 0 b + m0 * (1 / f_ c 0) * depth * IZR W) with (q (IZR W) b) by (unfold q; ring). auto. }
  replace (q u v) with (q u 0 + (m1 * (1 / f_ c 1) * depth) * v) by (unfold q; ring).
  apply (affine_bound _ _ _ _ v (IZR H)); auto.
  replace (q u 0 + m1 * (1 / f_ c 1) * depth * IZR H) with (q u (IZR H)) by (unfold q; ring). auto.
Qed.
