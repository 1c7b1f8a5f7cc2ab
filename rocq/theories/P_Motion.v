(** C44: motion models (src/glimpse/track/motion.py). *)
From Verif Require Import Base BaseLemmas HelpersModel GridModel RasterModel RasterSpec MotionModel MotionSpec MotionProofs MotionProofs2.
Open Scope R_scope.

(** ** Motion: constant velocity *)
Theorem motion_constant_velocity : forall m dt ss, b_unit m <> 0%Z ->
  base_evolve m dt (map to_pt ss) = Ok (map (fun s => to_pt (add3 (fst s) (mul3 (IZR dt / IZR (b_unit m)) (snd s)), snd s)) ss).
Proof.
  intros m dt ss U. rewrite base_evolve_uniform by assumption. f_equal. apply map_ext. intros s. f_equal.
  destruct s as [[[x y] z] [[vx vy] vz]]. unfold uniform, add3, mul3; cbn [fst snd]. repeat (f_equal; try ring).
Qed.
Print Assumptions motion_constant_velocity.

(** ** CartesianMotion *)
(** every particle moves with its own drawn acceleration axyz + axyz_sigma * draw for dt / time_unit units *)
Theorem cartesian_motion_exact : forall m dt noise ss, k_unit m <> 0%Z ->
  cartesian_evolve m dt noise (map to_pt ss)
  = Ok (map2 (fun s e => to_pt (uniform (IZR dt / IZR (k_unit m)) (drawn3 (k_a m) (k_as m) e) s)) ss noise).
Proof. exact cartesian_evolve_drawn. Qed.
Print Assumptions cartesian_motion_exact.
Definition ex_dem : raster := mkraster [] [[Some 0; Some 1; Some 2; Some 3]] (0, 2) false (2, 0) false 2 2 0 false None None None None None.
Definition ex3 a as_ := mk_motion3 (1, 1) 86400 ex_dem ex_dem 2 (0, 0) (1, 2, 3) (0, 0, 0) a as_.
Lemma div_cancel t u : t <> 0 -> t * u / t = u. Proof. intros H. field. exact H. Qed.
Example cartesian_motion_ex : k_unit (ex3 (2, 0, 0) (0, 1, 0)) <> 0%Z /\
  cartesian_evolve (ex3 (2, 0, 0) (0, 1, 0)) 172800 [(5, 4, 5)] [to_pt ((1, 1, 0), (1, 2, 3))] = Ok [to_pt ((7, 13, 6), (5, 10, 3))].
Proof.
  split; [discriminate|]. change [to_pt ((1, 1, 0), (1, 2, 3))] with (map to_pt [((1, 1, 0), (1, 2, 3))]).
  rewrite cartesian_motion_exact by discriminate. cbn [k_unit ex3 map2 k_a k_as]. replace (172800 / 86400) with 2 by lra.
  do 3 f_equal. unfold uniform, drawn3, add3, had3, mul3; cbn [fst snd]. repeat (f_equal; try lra).
Qed.

(** without noise (axyz_sigma = 0): two steps are one step, and a step back undoes a step, whatever the random draws *)
Theorem cartesian_motion_composes : forall m dt dt' n1 n2 n3 ss ps, k_unit m <> 0%Z -> k_as m = (0, 0, 0) ->
  length n1 = length ss -> length n2 = length ss -> length n3 = length ss ->
  cartesian_evolve m dt n1 (map to_pt ss) = Ok ps ->
  cartesian_evolve m dt' n2 ps = cartesian_evolve m (dt + dt') n3 (map to_pt ss) /\
  cartesian_evolve m (- dt) n2 ps = Ok (map to_pt ss).
Proof.
  intros m dt dt' n1 n2 n3 ss ps U S L1 L2 L3 E.
  assert (C : forall d n l, length n = length l -> cartesian_evolve m d n (map to_pt l) = Ok (map to_pt (map (uniform (IZR d / IZR (k_unit m)) (k_a m)) l))).
  { intros d n l Ln. rewrite cartesian_motion_exact by assumption. rewrite S. f_equal. rewrite map_map.
    rewrite <- (map2_const (fun s => to_pt (uniform (IZR d / IZR (k_unit m)) (k_a m) s)) l n) by auto.
    apply map2_ext_in. intros s e _. now rewrite drawn3_0. }
  rewrite C in E by auto. injection E as <-.
  assert (V : IZR (k_unit m) <> 0) by (apply not_0_IZR; exact U).
  rewrite !C by (rewrite ?map_length; auto). rewrite !map_map. split.
  - f_equal. apply map_ext. intros s. rewrite uniform_compose. do 2 f_equal. rewrite plus_IZR. field. exact V.
  - f_equal. rewrite <- (map_id (map to_pt ss)), map_map. apply map_ext. intros s. rewrite uniform_compose.
    replace (IZR dt / IZR (k_unit m) + IZR (- dt) / IZR (k_unit m)) with 0 by (rewrite opp_IZR; field; exact V). now rewrite uniform_0.
Qed.
Print Assumptions cartesian_motion_composes.
Example cartesian_motion_composes_ex : let m := ex3 (2, 0, 0) (0, 0, 0) in k_unit m <> 0%Z /\ k_as m = (0, 0, 0) /\
  exists ps, cartesian_evolve m 172800 [(5, 4, 5)] [to_pt ((1, 1, 0), (1, 2, 3))] = Ok ps.
Proof. cbn. repeat split; try discriminate. eexists; reflexivity. Qed.

(** The time unit is a matter of notation: counting time in units k times as long, with speeds and
    accelerations converted, moves the particles the same way (noise included). *)
Theorem cartesian_motion_unit_free : forall m dt k noise ss, k_unit m <> 0%Z -> (k <> 0)%Z ->
  let conv s := (fst s, mul3 (IZR k) (snd s)) in
  let m' := mk_motion3 (k_xy m) (k * k_unit m) (k_dem m) (k_dem_sigma m) (k_n m) (k_xys m) (mul3 (IZR k) (k_v m)) (mul3 (IZR k) (k_vs m))
              (mul3 (IZR k ^ 2) (k_a m)) (mul3 (IZR k ^ 2) (k_as m)) in
  exists ss', cartesian_evolve m dt noise (map to_pt ss) = Ok (map to_pt ss') /\
              cartesian_evolve m' dt noise (map to_pt (map conv ss)) = Ok (map to_pt (map conv ss')).
Proof.
  intros m dt k noise ss U K conv m'.
  exists (map2 (fun s e => uniform (IZR dt / IZR (k_unit m)) (drawn3 (k_a m) (k_as m) e) s) ss noise).
  rewrite !cartesian_motion_exact; try assumption. 2:{ subst m'; cbn [k_unit]. lia. }
  subst m'; cbn [k_unit k_a k_as]. rewrite !map_map2, map2_map_l. split; [reflexivity|]. f_equal. apply map2_ext_in. intros s e _. f_equal.
  assert (V : IZR (k_unit m) <> 0) by (apply not_0_IZR; exact U). assert (W : IZR k <> 0) by (apply not_0_IZR; exact K).
  rewrite mult_IZR. destruct m as [? u ? ? ? ? ? ? [[a0 a1] a2] [[s0 s1] s2]], s as [[[x y] z] [[vx vy] vz]], e as [[e0 e1] e2]. cbn [k_unit k_a k_as] in *.
  unfold conv, uniform, drawn3, had3, add3, mul3; cbn [fst snd]. repeat (f_equal; try (field; auto)).
Qed.
Print Assumptions cartesian_motion_unit_free.

(** ** CylindricalMotion *)
(** The acceleration of polar components (ar, ath) has ar along the velocity and ath * speed across it. *)
Theorem polar_acceleration : forall s ar ath az, speed s <> 0 ->
  let '(_, (vx, vy, _)) := s in let '(ax, ay, az') := polar s (ar, ath, az) in
  ax * vx + ay * vy = ar * speed s /\ vx * ay - vy * ax = ath * speed s ^ 2 /\ az' = az.
Proof.
  intros [[[x y] z] [[vx vy] vz]] ar ath az H. unfold polar.
  assert (Q : speed ((x, y, z), (vx, vy, vz)) ^ 2 = vx ^ 2 + vy ^ 2).
  { unfold speed. rewrite pow2_sqrt; [reflexivity|]. nra. }
  set (sp := speed _) in *. split; [|split; [|reflexivity]].
  - replace ((ar * (vx / sp) + ath * - vy) * vx + (ar * (vy / sp) + ath * vx) * vy) with (ar * ((vx ^ 2 + vy ^ 2) / sp)) by (field; exact H).
    rewrite <- Q. field. exact H.
  - rewrite Q. field. exact H.
Qed.
Print Assumptions polar_acceleration.
(** moving particles *)
Theorem cylindrical_motion_moving : forall m dt noise ss, k_unit m <> 0%Z -> (forall s, In s ss -> speed s <> 0) ->
  cylindrical_evolve m dt noise (map to_pt ss)
  = Ok (map2 (fun s e => to_pt (uniform (IZR dt / IZR (k_unit m)) (polar s (drawn3 (k_a m) (k_as m) e)) s)) ss noise).
Proof. exact cylindrical_evolve_drawn. Qed.
Print Assumptions cylindrical_motion_moving.
(** no direction is special: rotated particles move to the rotated positions *)
Theorem cylindrical_motion_isotropic : forall m dt noise ss f, k_unit m <> 0%Z -> (forall s, In s ss -> speed s <> 0) ->
  exists ss', cylindrical_evolve m dt noise (map to_pt ss) = Ok (map to_pt ss') /\
    cylindrical_evolve m dt noise (map to_pt (map (rotate f) ss)) = Ok (map to_pt (map (rotate f) ss')).
Proof.
  intros m dt noise ss f U S.
  exists (map2 (fun s e => uniform (IZR dt / IZR (k_unit m)) (polar s (drawn3 (k_a m) (k_as m) e)) s) ss noise).
  rewrite !cylindrical_motion_moving; auto.
  - rewrite !map_map2, map2_map_l. split; [reflexivity|]. f_equal. apply map2_ext_in. intros s e _. now rewrite rot_polar, rot_uniform.
  - intros s I. apply in_map_iff in I. destruct I as (s' & <- & I). rewrite rot_speed. auto.
Qed.
Print Assumptions cylindrical_motion_isotropic.
Example cylindrical_motion_ex : let s := ((0, 0, 0), (3, 4, 0)) in speed s <> 0 /\
  cylindrical_evolve (ex3 (5, 1, 0) (0, 0, 0)) 86400 [(0, 0, 0)] [to_pt s] = Ok [to_pt ((5 / 2, 15 / 2, 0), (2, 11, 0))].
Proof.
  assert (S : speed ((0, 0, 0), (3, 4, 0)) = 5) by (unfold speed; replace (3 ^ 2 + 4 ^ 2) with (5 * 5) by ring; apply sqrt_square; lra).
  cbv zeta. split; [lra|]. change [to_pt ((0, 0, 0), (3, 4, 0))] with (map to_pt [((0, 0, 0), (3, 4, 0))]).
  rewrite cylindrical_motion_moving; [|discriminate|intros s [<-|[]]; lra].
  cbn [k_unit ex3 map2 k_a k_as]. rewrite drawn3_0. unfold polar. rewrite S. replace (86400 / 86400) with 1 by lra.
  do 3 f_equal. unfold uniform, add3, mul3; cbn [fst snd]. repeat (f_equal; try lra).
Qed.
(** ... but a particle at rest, such as every particle of the default vrthz = (0, 0, 0), becomes nan,
    even when the acceleration is zero: the claim "exact kinematics" is false there. *)
Theorem cylindrical_motion_at_rest_refuted : forall m dt e s, k_unit m <> 0%Z -> speed s = 0 ->
  exists z vz, cylindrical_evolve m dt [e] [to_pt s] = Ok [mkpt None None (Some z) None None (Some vz)].
Proof. exact polar_at_rest. Qed.
Print Assumptions cylindrical_motion_at_rest_refuted.
(** C44, exact for every particle: as moving particles, except that a particle without horizontal velocity loses its horizontal
    position and velocity; time units of zero raise. *)
Theorem cylindrical_motion_exact : forall m dt noise ss,
  (k_unit m = 0%Z -> exists e, cylindrical_evolve m dt noise (map to_pt ss) = Err e) /\
  (k_unit m <> 0%Z -> cylindrical_evolve m dt noise (map to_pt ss)
   = Ok (map2 (fun s e => let s' := uniform (IZR dt / IZR (k_unit m)) (polar s (drawn3 (k_a m) (k_as m) e)) s in
               if Req_EM_T (speed s) 0 then mkpt None None (Some (height s')) None None (Some (snd (snd s'))) else to_pt s') ss noise)).
Proof.
  intros m dt noise ss. split.
  - intros U. unfold cylindrical_evolve, evolve3, time_units. rewrite U. cbn. eexists. reflexivity.
  - intros U. unfold cylindrical_evolve, evolve3. rewrite units_ok by assumption. cbn [bind]. f_equal.
    rewrite map2_map_l. apply map2_ext_in. intros s e _. destruct (Req_EM_T (speed s) 0) as [Z|Z].
    + unfold cylindrical_acc. rewrite normal3_drawn. destruct (drawn3 _ _ _) as [[ar ath] az].
      destruct s as [[[x y] z] [[vx vy] vz]]. unfold speed in Z.
      assert (P : polar_acc (to_pt ((x, y, z), (vx, vy, vz))) ar ath = (None, None)).
      { unfold polar_acc. cbn [to_pt pvx pvy]. unfold osq, omul, omap2, osqrt, oadd, option_map, odiv, osub, oscale, omap2.
        replace (vx * vx + vy * vy) with (vx ^ 2 + vy ^ 2) by ring. rewrite Z.
        unfold Reqb. destruct (Req_EM_T 0 0) as [_|C]; [reflexivity|now destruct C]. }
      cbn [to_pt] in P |- *. rewrite P. unfold advance, uniform, polar, height, add3, mul3. cbn. f_equal; f_equal; try field. apply not_0_IZR; exact U.
    + unfold cylindrical_acc. rewrite normal3_drawn.
      destruct (drawn3 _ _ _) as [[ar ath] az]. destruct (polar_acc_moving s ar ath az Z) as (ax & ay & -> & ->). apply advance_uniform.
Qed.
Print Assumptions cylindrical_motion_exact.
Example cylindrical_motion_at_rest_ex : speed ((5, 5, 0), (0, 0, 0)) = 0.
Proof. unfold speed. replace (0 ^ 2 + 0 ^ 2) with 0 by ring. apply sqrt_0. Qed.
(** ... and turning at a constant rate without radial acceleration is not an exact turn: the speed grows with every step
    (forward and backward), so steps neither compose nor reverse. *)
Theorem cylindrical_motion_turning_refuted : forall m dt s ath az, k_unit m <> 0%Z -> speed s <> 0 -> k_as m = (0, 0, 0) -> k_a m = (0, ath, az) ->
  exists s', cylindrical_evolve m dt [(0, 0, 0)] [to_pt s] = Ok [to_pt s'] /\
    speed s' = speed s * sqrt (1 + (ath * (IZR dt / IZR (k_unit m))) ^ 2) /\
    (ath <> 0 -> dt <> 0%Z -> exists s'', cylindrical_evolve m (- dt) [(0, 0, 0)] [to_pt s'] = Ok [to_pt s''] /\ speed s < speed s'' /\ s'' <> s).
Proof.
  intros m dt s ath az U S N A.
  assert (V : IZR (k_unit m) <> 0) by (apply not_0_IZR; exact U).
  assert (T : forall d s, speed s <> 0 -> let t := IZR d / IZR (k_unit m) in exists s', cylindrical_evolve m d [(0, 0, 0)] [to_pt s] = Ok [to_pt s'] /\ speed s' = speed s * sqrt (1 + (ath * t) ^ 2)).
  { clear S s. intros d s S t. exists (uniform t (polar s (k_a m)) s). split.
    - change [to_pt s] with (map to_pt [s]). rewrite cylindrical_motion_moving; [|assumption|intros q [<-|[]]; exact S].
      cbn [map2]. rewrite N, drawn3_0. reflexivity.
    - rewrite A. destruct s as [[[x y] z] [[vx vy] vz]]. 
      match goal with |- context [polar ?p ?c] => assert (Z : polar p c = (ath * - vy, ath * vx, az)) by (unfold polar; repeat (f_equal; try ring)) end.
      rewrite Z. unfold uniform, add3, mul3, speed; cbn [fst snd]. rewrite <- sqrt_mult; [|nra|nra]. f_equal. unfold Rdiv. ring. }
  destruct (T dt s S) as (s' & E & Q). exists s'. split; [exact E|]. split; [exact Q|]. intros Ha Hd.
  assert (P : 0 < speed s). { unfold speed in *. destruct s as [[[x y] z] [[vx vy] vz]]. pose proof (sqrt_pos (vx ^ 2 + vy ^ 2)). lra. }
  assert (t0 : 0 < (ath * (IZR dt / IZR (k_unit m))) ^ 2).
  { assert (W : ath * (IZR dt / IZR (k_unit m)) <> 0). { apply Rmult_integral_contrapositive_currified; auto. unfold Rdiv. apply Rmult_integral_contrapositive_currified; [apply not_0_IZR; exact Hd|apply Rinv_neq_0_compat; exact V]. } rewrite <- Rsqr_pow2. now apply Rsqr_pos_lt. }
  assert (G : 1 < sqrt (1 + (ath * (IZR dt / IZR (k_unit m))) ^ 2)). { rewrite <- sqrt_1 at 1. apply sqrt_lt_1; lra. }
  destruct (T (- dt)%Z s') as (s'' & E' & Q'); [nra|]. exists s''. split; [exact E'|].
  assert (G' : 1 <= sqrt (1 + (ath * (IZR (- dt) / IZR (k_unit m))) ^ 2)). { rewrite <- sqrt_1 at 1. apply sqrt_le_1; [lra| |]; pose proof (pow2_ge_0 (ath * (IZR (- dt) / IZR (k_unit m)))); lra. }
  set (g := sqrt (1 + (ath * (IZR dt / IZR (k_unit m))) ^ 2)) in *. set (g' := sqrt (1 + (ath * (IZR (- dt) / IZR (k_unit m))) ^ 2)) in *.
  clearbody g g'. assert (L1 : speed s < speed s') by (rewrite Q; clear -P G; nra).
  assert (L2 : speed s' <= speed s'') by (rewrite Q'; assert (0 < speed s') by lra; clear -G' H; nra).
  assert (L : speed s < speed s'') by lra. split; [exact L|]. intros ->. lra.
Qed.
Print Assumptions cylindrical_motion_turning_refuted.

(** ** Tangent models *)
(** Horizontally uniformly accelerated; the height above the sampled surface changes only by the random walk
    slope_sigma * draw * (horizontal distance); the vertical velocity never changes. *)
Theorem tangent_motion_follows_surface : forall m dt noise ss elev, g_unit m <> 0%Z -> length noise = length ss ->
  let t := IZR dt / IZR (g_unit m) in
  let a (e : vec2 * R) := drawn2 (g_a m) (g_as m) (fst e) in
  (forall s e, In (s, e) (combine ss noise) ->
     samples (g_dem m) (hpos s) (Some (elev (hpos s))) /\
     samples (g_dem m) (add2 (hpos s) (hshift t (a e) s)) (Some (elev (add2 (hpos s) (hshift t (a e) s))))) ->
  tangent_evolve m dt noise (map to_pt ss)
  = (map2 (fun s e => to_pt (along elev t (a e) (g_slope m * snd e * hypot (hshift t (a e) s)) s)) ss noise, Ok tt).
Proof.
  intros m dt noise ss elev U L t a S.
  exact (tangent_ok tangent_acc m (fun _ e => drawn2 (g_a m) (g_as m) e) dt U noise ss (fun s e _ => tangent_acc_drawn m s (fst e)) L elev S).
Qed.
Print Assumptions tangent_motion_follows_surface.
Theorem tangent_cylindrical_motion_follows_surface : forall m dt noise ss elev, g_unit m <> 0%Z -> length noise = length ss ->
  (forall s, In s ss -> speed s <> 0) ->
  let t := IZR dt / IZR (g_unit m) in
  let a s (e : vec2 * R) := polar2 s (drawn2 (g_a m) (g_as m) (fst e)) in
  (forall s e, In (s, e) (combine ss noise) ->
     samples (g_dem m) (hpos s) (Some (elev (hpos s))) /\
     samples (g_dem m) (add2 (hpos s) (hshift t (a s e) s)) (Some (elev (add2 (hpos s) (hshift t (a s e) s))))) ->
  tangent_cyl_evolve m dt noise (map to_pt ss)
  = (map2 (fun s e => to_pt (along elev t (a s e) (g_slope m * snd e * hypot (hshift t (a s e) s)) s)) ss noise, Ok tt).
Proof.
  intros m dt noise ss elev U L M t a S.
  refine (tangent_ok tangent_cyl_acc m (fun s e => polar2 s (drawn2 (g_a m) (g_as m) e)) dt U noise ss _ L elev S).
  intros s e I. apply tangent_cyl_acc_drawn. apply M. now apply in_combine_l in I.
Qed.
Print Assumptions tangent_cylindrical_motion_follows_surface.
(** the height above the surface after a step *)
Theorem tangent_height_above_surface : forall elev t a dz s,
  height (along elev t a dz s) - elev (hpos (along elev t a dz s)) = height s - elev (hpos s) + dz.
Proof. intros elev t a dz [[[x y] z] [[vx vy] vz]]. unfold along; cbn [height hpos fst snd]. rewrite <- surjective_pairing. unfold hpos, hshift, height. ring. Qed.
Print Assumptions tangent_height_above_surface.
(** without noise a step back undoes a step, heights included *)
Theorem tangent_motion_reverses : forall m dt n1 n2 ss elev ps, g_unit m <> 0%Z -> length n1 = length ss -> length n2 = length ss ->
  g_as m = (0, 0) -> g_slope m = 0 ->
  let t := IZR dt / IZR (g_unit m) in
  (forall s, In s ss -> samples (g_dem m) (hpos s) (Some (elev (hpos s))) /\
     samples (g_dem m) (add2 (hpos s) (hshift t (g_a m) s)) (Some (elev (add2 (hpos s) (hshift t (g_a m) s))))) ->
  tangent_evolve m dt n1 (map to_pt ss) = (ps, Ok tt) ->
  tangent_evolve m (- dt) n2 ps = (map to_pt ss, Ok tt).
Proof.
  intros m dt n1 n2 ss elev ps U L1 L2 A G t S E.
  assert (D : forall e, drawn2 (g_a m) (g_as m) e = g_a m).
  { intros [e0 e1]. rewrite A. unfold drawn2. cbn [fst snd]. destruct (g_a m) as [a0 a1]. cbn [fst snd]. f_equal; ring. }
  assert (E1 : tangent_evolve m dt n1 (map to_pt ss) = (map to_pt (map (along elev t (g_a m) 0) ss), Ok tt)).
  { rewrite (tangent_motion_follows_surface m dt n1 ss elev U L1).
    - f_equal. rewrite map_map, <- (map2_const (fun s => to_pt (along elev t (g_a m) 0 s)) ss n1) by auto.
      apply map2_ext_in. intros s e _. rewrite D. fold t. do 2 f_equal. rewrite G. ring.
    - intros s e I. rewrite D. apply S. now apply in_combine_l in I. }
  rewrite E1 in E. injection E as <-. clear E1.
  assert (V : IZR (g_unit m) <> 0) by (apply not_0_IZR; exact U).
  assert (Rv : forall s, let s' := along elev t (g_a m) 0 s in hpos s' = add2 (hpos s) (hshift t (g_a m) s) /\ add2 (hpos s') (hshift (- t) (g_a m) s') = hpos s /\
                 along elev (- t) (g_a m) 0 s' = s).
  { intros [[[x y] z] [[vx vy] vz]] s'. assert (P : hpos s' = add2 (hpos ((x, y, z), (vx, vy, vz))) (hshift t (g_a m) ((x, y, z), (vx, vy, vz)))).
    { subst s'. unfold along. unfold hpos at 1. now rewrite <- surjective_pairing. }
    assert (P' : add2 (hpos s') (hshift (- t) (g_a m) s') = hpos ((x, y, z), (vx, vy, vz))).
    { rewrite P. subst s'. unfold along, hpos, hshift, add2. cbn [fst snd]. f_equal; field. }
    split; [exact P|split; [exact P'|]].
    unfold along at 1. rewrite P'. subst s'. unfold along at 1. cbn [hpos fst snd]. rewrite tangent_height_above_surface.
    unfold height, hpos. repeat (f_equal; try ring). }
  assert (T : IZR (- dt) / IZR (g_unit m) = - t) by (unfold t; rewrite opp_IZR; field; exact V).
  rewrite (tangent_motion_follows_surface m (- dt) n2 (map (along elev t (g_a m) 0) ss) elev U).
  - f_equal. rewrite T. rewrite map2_map_l. rewrite <- (map2_const to_pt ss n2) by auto. apply map2_ext_in. intros s e _. rewrite D, G.
    replace (0 * snd e * hypot (hshift (- t) (g_a m) (along elev t (g_a m) 0 s))) with 0 by ring. f_equal. apply Rv.
  - now rewrite map_length.
  - rewrite T. intros s' e I. rewrite D. apply in_combine_l in I. apply in_map_iff in I. destruct I as (s & <- & I).
    destruct (Rv s) as (P & P' & _). cbv zeta in P, P'. destruct (S s I) as [S1 S2]. rewrite P', P. split; assumption.
Qed.
Print Assumptions tangent_motion_reverses.
(** Leaving the surface: if a particle starts outside the raster the step raises ValueError and changes nothing; if a particle ends
    outside it raises ValueError too, but leaves all the particles moved horizontally, with their old heights and velocities. *)
Theorem tangent_motion_outside : forall m dt noise ss, g_unit m <> 0%Z -> length noise = length ss ->
  let t := IZR dt / IZR (g_unit m) in
  let stop s (e : vec2 * R) := add2 (hpos s) (hshift t (drawn2 (g_a m) (g_as m) (fst e)) s) in
  (forall q, (exists v, samples (g_dem m) q v) \/ outside (g_dem m) q) ->
  ((exists s, In s ss /\ outside (g_dem m) (hpos s)) -> tangent_evolve m dt noise (map to_pt ss) = (map to_pt ss, Err ValueError)) /\
  ((forall s, In s ss -> exists v, samples (g_dem m) (hpos s) v) ->
   (exists s e, In (s, e) (combine ss noise) /\ outside (g_dem m) (stop s e)) ->
   tangent_evolve m dt noise (map to_pt ss)
   = (map2 (fun s e => to_pt ((fst (stop s e), snd (stop s e), height s), snd s)) ss noise, Err ValueError)).
Proof.
  intros m dt noise ss U L t stop D. split.
  - intros O. apply tangent_start_err; auto.
  - intros S O. unfold tangent_evolve.
    rewrite (tangent_end_err tangent_acc m (fun _ e => drawn2 (g_a m) (g_as m) e) dt U noise ss (fun s e _ => tangent_acc_drawn m s (fst e)) S).
    + f_equal. apply map2_ext_in. intros s e _. unfold hmoved, ends. fold t. fold (stop s e).
      destruct s as [[[x y] z] [[vx vy] vz]]. reflexivity.
    + intros; apply D.
    + exact O.
Qed.
Print Assumptions tangent_motion_outside.

(** ** Initialization *)
Lemma dem_xy d x y v : samples d (x, y) v -> dem_at d (Some x) (Some y) = Ok v.
Proof. intros H. exact (dem_at_samples d (x, y) v H). Qed.
(** Each particle: position xy + xy_sigma * draw, height of the surface there + (dem_sigma there) * draw, velocity
    vxyz + vxyz_sigma * draw. *)
Theorem cartesian_initialize : forall m noise elev sig, k_n m = length noise ->
  let q (e : init_noise) := drawn2 (k_xy m) (k_xys m) (fst (fst e)) in
  (forall e, In e noise -> samples (k_dem m) (q e) (Some (elev (q e))) /\ samples (k_dem_sigma m) (q e) (Some (sig (q e)))) ->
  cartesian_init m noise
  = Ok (map (fun e => to_pt ((fst (q e), snd (q e), elev (q e) + sig (q e) * snd (fst e)), drawn3 (k_v m) (k_vs m) (snd e))) noise).
Proof.
  intros m noise elev sig N q S. unfold cartesian_init, init3. rewrite N, firstn_all. apply mapM_ok. intros e I. destruct (S e I) as [S1 S2]. subst q. cbv beta in *.
  unfold init_xyz, cartesian_velocity. rewrite normal3_drawn. destruct e as [[exy ez] ev]. cbn [fst snd] in *. rewrite normal2_drawn.
  destruct (drawn2 (k_xy m) (k_xys m) exy) as [x y]. rewrite (dem_xy _ _ _ _ S1). cbn [bind]. rewrite (dem_xy _ _ _ _ S2). cbn [bind fst snd].
  destruct (drawn3 (k_v m) (k_vs m) ev) as [[vx vy] vz]. cbn [to_pt oscale oadd option_map]. do 3 f_equal. ring.
Qed.
Print Assumptions cartesian_initialize.
(** The cylindrical model draws speed and direction. *)
Theorem cylindrical_initialize : forall m noise elev sig, k_n m = length noise ->
  let q (e : init_noise) := drawn2 (k_xy m) (k_xys m) (fst (fst e)) in
  let v (e : init_noise) := let '(r, th, vz) := drawn3 (k_v m) (k_vs m) (snd e) in (r * cos th, r * sin th, vz) in
  (forall e, In e noise -> samples (k_dem m) (q e) (Some (elev (q e))) /\ samples (k_dem_sigma m) (q e) (Some (sig (q e)))) ->
  cylindrical_init m noise = Ok (map (fun e => to_pt ((fst (q e), snd (q e), elev (q e) + sig (q e) * snd (fst e)), v e)) noise)
  /\ forall e, In e noise -> forall s, speed (s, v e) = Rabs (fst (fst (drawn3 (k_v m) (k_vs m) (snd e)))).
Proof.
  intros m noise elev sig N q v S. split.
  - unfold cylindrical_init, init3. rewrite N, firstn_all. apply mapM_ok. intros e I. destruct (S e I) as [S1 S2]. subst q v. cbv beta in *.
    unfold init_xyz, cylindrical_velocity. rewrite normal3_drawn. destruct e as [[exy ez] ev]. cbn [fst snd] in *. rewrite normal2_drawn.
    destruct (drawn2 (k_xy m) (k_xys m) exy) as [x y]. rewrite (dem_xy _ _ _ _ S1). cbn [bind]. rewrite (dem_xy _ _ _ _ S2). cbn [bind fst snd].
    destruct (drawn3 (k_v m) (k_vs m) ev) as [[r th] vz]. cbn [to_pt oscale oadd option_map]. do 3 f_equal. ring.
  - intros e _ [[x y] z]. subst v. cbv beta. destruct (drawn3 (k_v m) (k_vs m) (snd e)) as [[r th] vz]. unfold speed. cbn [fst snd].
    replace ((r * cos th) ^ 2 + (r * sin th) ^ 2) with (Rsqr r * (Rsqr (sin th) + Rsqr (cos th))) by (unfold Rsqr; ring).
    rewrite sin2_cos2, Rmult_1_r. apply sqrt_Rsqr_abs.
Qed.
Print Assumptions cylindrical_initialize.
Theorem tangent_initialize : forall m noise elev sig, g_n m = length noise ->
  let q (e : init_noise2) := drawn2 (g_xy m) (g_xys m) (fst (fst e)) in
  let v (e : init_noise2) := drawn2 (g_v m) (g_vs m) (snd e) in
  (forall e, In e noise -> samples (g_dem m) (q e) (Some (elev (q e))) /\ samples (g_dem_sigma m) (q e) (Some (sig (q e)))) ->
  tangent_init m noise
  = Ok (map (fun e => to_pt ((fst (q e), snd (q e), elev (q e) + sig (q e) * snd (fst e)), (fst (v e), snd (v e), 0))) noise) /\
  tangent_cyl_init m noise
  = Ok (map (fun e => to_pt ((fst (q e), snd (q e), elev (q e) + sig (q e) * snd (fst e)), (fst (v e) * cos (snd (v e)), fst (v e) * sin (snd (v e)), 0))) noise).
Proof.
  intros m noise elev sig N q v S. split; unfold tangent_init, tangent_cyl_init, init2; rewrite N, firstn_all; apply mapM_ok;
    intros e I; destruct (S e I) as [S1 S2]; subst q v; cbv beta in *; unfold tangent_velocity, tangent_cyl_velocity; destruct e as [[exy ez] ev]; cbn [fst snd] in *;
    rewrite !normal2_drawn; destruct (drawn2 (g_xy m) (g_xys m) exy) as [x y]; rewrite (dem_xy _ _ _ _ S2); cbn [bind];
    rewrite (dem_xy _ _ _ _ S1); cbn [bind fst snd]; change (normal2 (g_v m) (g_vs m) ev) with (drawn2 (g_v m) (g_vs m) ev); destruct (drawn2 (g_v m) (g_vs m) ev) as [v0 v1]; cbn [to_pt oscale oadd option_map fst snd]; do 3 f_equal; ring.
Qed.
Print Assumptions tangent_initialize.

(** ** Log likelihoods (added as penalties): squared distance from the surface in units of its uncertainty; none where the
    uncertainty is zero. *)
Theorem motion_log_likelihood : forall m ss elev sig,
  (forall s, In s ss -> samples (k_dem m) (hpos s) (Some (elev (hpos s))) /\ samples (k_dem_sigma m) (hpos s) (Some (sig (hpos s)))) ->
  exists ls, log_likelihoods m (map to_pt ss) = Ok (map Some ls) /\
    Forall2 (fun s l => 0 <= l /\ (sig (hpos s) = 0 -> l = 0) /\
                        (sig (hpos s) <> 0 -> l = ((height s - elev (hpos s)) / sig (hpos s)) ^ 2 / 2)) ss ls.
Proof.
  intros m ss elev sig S.
  exists (map (fun s => if Reqb (sig (hpos s)) 0 then 0 else ((height s - elev (hpos s)) / sig (hpos s)) ^ 2 / 2) ss). split.
  - unfold log_likelihoods. rewrite map_map.
    rewrite (mapM_ok _ (fun p => match mapM (log_likelihood1 m) [p] with Ok [v] => v | _ => None end)).
    + f_equal. rewrite map_map. apply map_ext_in. intros s I. destruct (S s I) as [S1 S2]. cbn [mapM]. unfold log_likelihood1.
      rewrite to_pt_px, to_pt_py, to_pt_pz, (dem_at_samples _ _ _ S1). cbn [bind]. rewrite (dem_at_samples _ _ _ S2). cbn [bind].
      destruct (Reqb (sig (hpos s)) 0) eqn:E; cbn [bind]; [reflexivity|]. apply Reqb_false in E. cbn [osub omap2 osq omul oscale option_map]. f_equal.
      field. exact E.
    + intros p I. apply in_map_iff in I. destruct I as (s & <- & I). destruct (S s I) as [S1 S2]. cbn [mapM]. unfold log_likelihood1.
      rewrite to_pt_px, to_pt_py, (dem_at_samples _ _ _ S1). cbn [bind]. rewrite (dem_at_samples _ _ _ S2). cbn [bind].
      destruct (Reqb (sig (hpos s)) 0); cbn [bind]; [reflexivity|]. reflexivity.
  - clear S. induction ss as [|s l IH]; constructor; auto. destruct (Reqb (sig (hpos s)) 0) eqn:E; [apply Reqb_true in E|apply Reqb_false in E].
    + split; [lra|split; [auto|tauto]].
    + split; [|split; [tauto|auto]]. pose proof (pow2_ge_0 ((height s - elev (hpos s)) / sig (hpos s))). lra.
Qed.
Print Assumptions motion_log_likelihood.

(** ** Constructors *)
(** dem_sigma=None, the default of CartesianMotion, CylindricalMotion and TangentCylindricalMotion, raises *)
Theorem motion_default_dem_sigma_refuted : forall xy unit dem n xys v vs a as_ w ws b bs slope, 
  (exists d, as_raster dem = Ok d) ->
  new_motion3 xy unit dem DNone n xys v vs a as_ = Err ValueError /\ new_motion2 xy unit dem DNone n xys w ws b bs slope = Err ValueError.
Proof. intros xy unit dem n xys v vs a as_ w ws b bs slope [d E]. unfold new_motion3, new_motion2. rewrite E. split; reflexivity. Qed.
Print Assumptions motion_default_dem_sigma_refuted.
(** A number as surface is only defined on the unit square: elsewhere initialization raises. *)
Theorem motion_scalar_dem_refuted : forall v d x y, as_raster (DNumber v) = Ok d ->
  (0 <= x <= 1 /\ 0 <= y <= 1 -> samples d (x, y) (Some v)) /\ (~ (0 <= x <= 1 /\ 0 <= y <= 1) -> outside d (x, y)).
Proof.
  intros v d x y E. unfold as_raster, new_raster, parse_limits in E. unfold Reqb in E. destruct (Req_EM_T 0 1) as [C|_]; [lra|]. cbn [bind] in E. injection E as <-.
  unfold samples, outside, sample. cbn [fst snd].
  assert (B : inbounds_xy (rgrid (mkraster [] [[Some v]] (0, 1) false (0, 1) false 1 1 0 false None None None None None)) (x, y) = Rleb 0 x && Rleb x 1 && (Rleb 0 y && Rleb y 1)).
  { unfold inbounds_xy, inbounds1, xaxis, yaxis, rgrid, amin, amax. cbn [rxlim rylim gxlim gylim gnx gny fst snd rnx rny].
    rewrite Rmin_left, Rmax_right by lra. reflexivity. }
  rewrite B. unfold Rleb. split; intros H.
  - destruct (Rle_dec 0 x), (Rle_dec x 1), (Rle_dec 0 y), (Rle_dec y 1); try lra. cbn. eexists. reflexivity.
  - destruct (Rle_dec 0 x), (Rle_dec x 1), (Rle_dec 0 y), (Rle_dec y 1); try reflexivity. exfalso. apply H. lra.
Qed.
Print Assumptions motion_scalar_dem_refuted.

(** ** The hypotheses about sampling are met by every raster reached by any history of uses *)
From Verif Require Import GridSpec GridProofs RasterProofs2 P_Raster.
Theorem surface_defined : forall d, reached d ->
  forall q, (exists v, samples d q v) \/ outside d q.
Proof.
  intros d Rd [x y]. destruct (raster_sample_bounds d true x y Rd) as ((v & V) & H1 & H2). unfold samples, outside. cbn [fst snd].
  destruct (Classical_Prop.classic (in_axis (xaxis (rgrid d)) x /\ in_axis (yaxis (rgrid d)) y)) as [I|I].
  - left. exists v. pose proof (H1 true None I) as E. rewrite V in E. unfold sampled in E.
    destruct (sample true true None x y d) as [[w d']|]; [|discriminate]. cbn in E. injection E as <-. now exists d'.
  - right. apply H2. exact I.
Qed.
Print Assumptions surface_defined.
Lemma ex_dem_reached : reached ex_dem.
Proof.
  apply fresh_reached. exists 2%nat, 2%nat, [Some 0; Some 1; Some 2; Some 3], false, [0; 2], [2; 0], false, false.
  split; [|cbn; lia]. unfold new_raster. rewrite !parse_limits_ne by lra. reflexivity.
Qed.
Definition ex_elev (q : vec2) : R := fst q - 2 * snd q + 5 / 2.
Lemma ex_dem_samples x y : 0 <= x <= 2 -> 0 <= y <= 2 -> samples ex_dem (x, y) (Some (ex_elev (x, y))).
Proof.
  intros Hx Hy. destruct (raster_sample_bounds ex_dem true x y ex_dem_reached) as (_ & H1 & _).
  assert (P : sampled (sample true false None x y ex_dem) = Ok (Some (5 / 2 + 1 * x + -2 * y))).
  { apply raster_sample_planar; [apply ex_dem_reached|cbn; lia|cbn; lia|]. intros r c Hr Hc. cbn in Hr, Hc.
    unfold center, at_cells, dcell, xaxis, yaxis, rgrid, ex_dem. cbn [gxlim gylim gnx gny rnx rny rxlim rylim fst snd Z.of_nat Pos.of_succ_nat Pos.succ].
    assert (r = 0 \/ r = 1)%nat as [->| ->] by lia; assert (c = 0 \/ c = 1)%nat as [->| ->] by lia; unfold cellv; cbn [rnx ex_dem rvalues abuf rarr ah nth Nat.mul Nat.add Z.of_nat Pos.of_succ_nat]; f_equal; lra. }
  rewrite <- (H1 true None) in P.
  - unfold samples, sampled in *. cbn [fst snd]. destruct (sample true true None x y ex_dem) as [[w d']|]; [|discriminate]. cbn in P. injection P as ->. exists d'. unfold ex_elev. cbn [fst snd]. do 3 f_equal. lra.
  - unfold in_axis, between, amin, amax, xaxis, yaxis, rgrid, ex_dem. cbn [gxlim gylim rxlim rylim fst snd]. unfold Rmin, Rmax. repeat destruct (Rle_dec _ _); lra.
Qed.
Definition ex2 : motion2 := mk_motion2 (1, 1) 86400 ex_dem ex_dem 1 (0, 0) (1, 0) (0, 0) (0, 0) (0, 0) 0.
Example tangent_motion_ex : let s := ((1 / 2, 3 / 2, 10), (1, 0, 0)) in
  samples (g_dem ex2) (hpos s) (Some (ex_elev (hpos s))) /\
  samples (g_dem ex2) (add2 (hpos s) (hshift 1 (0, 0) s)) (Some (ex_elev (add2 (hpos s) (hshift 1 (0, 0) s)))) /\
  tangent_evolve ex2 86400 [((0, 0), 0)] [to_pt s] = ([to_pt ((3 / 2, 3 / 2, 11), (1, 0, 0))], Ok tt).
Proof.
  cbv zeta.
  assert (A : samples (g_dem ex2) (hpos ((1 / 2, 3 / 2, 10), (1, 0, 0))) (Some (ex_elev (hpos ((1 / 2, 3 / 2, 10), (1, 0, 0)))))) by (apply ex_dem_samples; lra).
  assert (B : samples (g_dem ex2) (add2 (hpos ((1 / 2, 3 / 2, 10), (1, 0, 0))) (hshift 1 (0, 0) ((1 / 2, 3 / 2, 10), (1, 0, 0)))) (Some (ex_elev (add2 (hpos ((1 / 2, 3 / 2, 10), (1, 0, 0))) (hshift 1 (0, 0) ((1 / 2, 3 / 2, 10), (1, 0, 0))))))).
  { unfold add2, hpos, hshift. apply ex_dem_samples; cbn [fst snd]; lra. }
  split; [exact A|split; [exact B|]]. change [to_pt ((1 / 2, 3 / 2, 10), (1, 0, 0))] with (map to_pt [((1 / 2, 3 / 2, 10), (1, 0, 0))]).
  assert (T : IZR 86400 / IZR (g_unit ex2) = 1) by (cbn; lra).
  assert (D : drawn2 (g_a ex2) (g_as ex2) (0, 0) = (0, 0)) by (unfold drawn2, ex2; cbn [g_a g_as fst snd]; f_equal; lra).
  rewrite (tangent_motion_follows_surface ex2 86400 [((0, 0), 0)] _ ex_elev).
  - f_equal. cbn [map2]. f_equal. rewrite T. cbn [fst snd]. rewrite D. f_equal. unfold along, hpos, hshift, add2, height, ex_elev. cbn [fst snd g_slope ex2]. repeat (f_equal; try lra).
  - discriminate.
  - reflexivity.
  - rewrite T. intros s e [E|[]]. injection E as <- <-. cbn [fst]. rewrite D. split; assumption.
Qed.
Example tangent_motion_outside_ex : let s := ((1 / 2, 3 / 2, 10), (5, 0, 0)) in
  outside (g_dem ex2) (add2 (hpos s) (hshift 1 (0, 0) s)).
Proof.
  cbv zeta. destruct (raster_sample_bounds ex_dem true (11 / 2) (3 / 2) ex_dem_reached) as (_ & _ & H).
  unfold outside, add2, hpos, hshift. cbn [fst snd]. replace (1 / 2 + (1 * 5 + 0 * 1 ^ 2 / 2)) with (11 / 2) by lra. replace (3 / 2 + (1 * 0 + 0 * 1 ^ 2 / 2)) with (3 / 2) by lra.
  apply H. unfold in_axis, between, amax, xaxis, rgrid, ex_dem. cbn [gxlim rxlim fst snd]. unfold Rmax. repeat destruct (Rle_dec _ _); lra.
Qed.
Example motion_log_likelihood_ex : samples (k_dem (ex3 (0, 0, 0) (0, 0, 0))) (1, 1) (Some (ex_elev (1, 1))) /\ ex_elev (1, 1) <> 0.
Proof. split; [apply ex_dem_samples; lra|unfold ex_elev; cbn [fst snd]; lra]. Qed.
