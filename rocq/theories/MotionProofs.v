From Verif Require Import Base BaseLemmas HelpersModel GridModel RasterModel MotionModel MotionSpec.
Open Scope R_scope.

Lemma pv_eq (s s' : pv) : s = s' -> to_pt s = to_pt s'. Proof. congruence. Qed.
Lemma units_ok dt u : u <> 0%Z -> time_units dt u = Ok (IZR dt / IZR u).
Proof. intros H. unfold time_units. rewrite (proj2 (Z.eqb_neq u 0) H). reflexivity. Qed.
Lemma map2_map_l {A B C D} (f : B -> C -> D) (g : A -> B) l m : map2 f (map g l) m = map2 (fun a c => f (g a) c) l m.
Proof. revert m. induction l as [|x l IH]; intros [|y m]; cbn; auto. now rewrite IH. Qed.
Lemma map2_ext_in {A B C} (f g : A -> B -> C) l m : (forall x y, In (x, y) (combine l m) -> f x y = g x y) -> map2 f l m = map2 g l m.
Proof. revert m. induction l as [|x l IH]; intros [|y m] H; cbn; auto. f_equal. apply H; now left. apply IH. intros. apply H. now right. Qed.
Lemma map_map2 {A B C D} (h : C -> D) (f : A -> B -> C) l m : map h (map2 f l m) = map2 (fun a b => h (f a b)) l m.
Proof. revert m. induction l as [|x l IH]; intros [|y m]; cbn; auto. now rewrite IH. Qed.
Lemma map2_len {A B C} (f : A -> B -> C) l m : length l = length m -> length (map2 f l m) = length l.
Proof. revert m. induction l as [|x l IH]; intros [|y m] H; cbn in *; auto; try lia. Qed.
Lemma map2_const {A B C} (f : A -> C) l (m : list B) : length l = length m -> map2 (fun a _ => f a) l m = map f l.
Proof. revert m. induction l as [|x l IH]; intros [|y m] H; cbn in *; auto; try lia. rewrite IH; auto. Qed.

Lemma advance_uniform t s ax ay az : advance t (to_pt s) (Some ax, Some ay, Some az) = to_pt (uniform t (ax, ay, az) s).
Proof.
  destruct s as [[[x y] z] [[vx vy] vz]]. cbn [to_pt advance uniform px py pz pvx pvy pvz].
  unfold move1, push1, oadd, oscale, omul, omap2, option_map, uniform, add3, mul3; cbn [fst snd].
  f_equal; f_equal; lra.
Qed.
Lemma normal3_drawn m s e : normal3 m s e = drawn3 m s e.
Proof. destruct m as [[m0 m1] m2], s as [[s0 s1] s2], e as [[e0 e1] e2]. reflexivity. Qed.

Lemma cartesian_evolve_drawn m dt noise ss : k_unit m <> 0%Z ->
  cartesian_evolve m dt noise (map to_pt ss)
  = Ok (map2 (fun s e => to_pt (uniform (IZR dt / IZR (k_unit m)) (drawn3 (k_a m) (k_as m) e) s)) ss noise).
Proof.
  intros U. unfold cartesian_evolve, evolve3. rewrite units_ok by assumption. cbn [bind]. f_equal.
  rewrite map2_map_l. apply map2_ext_in. intros s e _. unfold cartesian_acc. rewrite normal3_drawn.
  destruct (drawn3 _ _ _) as [[ax ay] az]. apply advance_uniform.
Qed.
Lemma uniform_compose t u a s : uniform u a (uniform t a s) = uniform (t + u) a s.
Proof.
  destruct s as [[[x y] z] [[vx vy] vz]], a as [[ax ay] az]. unfold uniform, add3, mul3; cbn [fst snd].
  repeat (f_equal; try lra).
Qed.
Lemma uniform_0 a s : uniform 0 a s = s.
Proof. destruct s as [[[x y] z] [[vx vy] vz]], a as [[ax ay] az]. unfold uniform, add3, mul3; cbn [fst snd]. repeat (f_equal; try lra). Qed.
Lemma drawn3_0 m e : drawn3 m (0, 0, 0) e = m.
Proof. destruct m as [[m0 m1] m2], e as [[e0 e1] e2]. cbn. repeat (f_equal; try lra). Qed.

Lemma base_evolve_uniform m dt ss : b_unit m <> 0%Z ->
  base_evolve m dt (map to_pt ss) = Ok (map (fun s => to_pt (uniform (IZR dt / IZR (b_unit m)) (0, 0, 0) s)) ss).
Proof.
  intros U. unfold base_evolve. rewrite units_ok by assumption. cbn [bind]. set (t := IZR dt / IZR (b_unit m)). clearbody t. f_equal. rewrite map_map. apply map_ext. intros s.
  destruct s as [[[x y] z] [[vx vy] vz]]. cbn [to_pt px py pz pvx pvy pvz oadd oscale option_map].
  unfold uniform, add3, mul3; cbn [fst snd to_pt]. f_equal; f_equal; ring.
Qed.

(** polar acceleration *)
Lemma polar_acc_moving s ar ath az : speed s <> 0 ->
  exists ax ay, polar_acc (to_pt s) ar ath = (Some ax, Some ay) /\ polar s (ar, ath, az) = (ax, ay, az).
Proof.
  destruct s as [[[x y] z] [[vx vy] vz]]. unfold speed. intros H.
  unfold polar_acc. cbn [to_pt pvx pvy]. unfold osq, omul, omap2, osqrt, oadd, option_map, odiv, osub, oscale, omap2.
  replace (vx * vx + vy * vy) with (vx ^ 2 + vy ^ 2) by ring.
  rewrite (proj2 (Reqb_false _ _) H). cbn [option_map]. eexists _, _. split; [reflexivity|].
  unfold polar, speed. repeat (f_equal; try ring).
Qed.
Lemma speed_sq s : speed s = sqrt (fst (fst (snd s)) ^ 2 + snd (fst (snd s)) ^ 2).
Proof. destruct s as [[[x y] z] [[vx vy] vz]]. reflexivity. Qed.
Lemma cylindrical_evolve_drawn m dt noise ss : k_unit m <> 0%Z -> (forall s, In s ss -> speed s <> 0) ->
  cylindrical_evolve m dt noise (map to_pt ss)
  = Ok (map2 (fun s e => to_pt (uniform (IZR dt / IZR (k_unit m)) (polar s (drawn3 (k_a m) (k_as m) e)) s)) ss noise).
Proof.
  intros U Sp. unfold cylindrical_evolve, evolve3. rewrite units_ok by assumption. cbn [bind]. f_equal.
  rewrite map2_map_l. apply map2_ext_in. intros s e I. apply in_combine_l in I. unfold cylindrical_acc. rewrite normal3_drawn.
  destruct (drawn3 _ _ _) as [[ar ath] az]. destruct (polar_acc_moving s ar ath az (Sp s I)) as (ax & ay & -> & ->). apply advance_uniform.
Qed.
Lemma rot_speed f s : speed (rotate f s) = speed s.
Proof.
  destruct s as [[[x y] z] [[vx vy] vz]]. unfold speed, rotate, rot3; cbn [fst snd]. f_equal.
  pose proof (sin2_cos2 f) as H. unfold Rsqr in H.
  replace ((cos f * vx - sin f * vy) ^ 2 + (sin f * vx + cos f * vy) ^ 2) with ((sin f * sin f + cos f * cos f) * (vx ^ 2 + vy ^ 2)) by ring.
  rewrite H. ring.
Qed.
Lemma rot_polar f s c : polar (rotate f s) c = rot3 f (polar s c).
Proof.
  unfold polar. destruct c as [[ar ath] az]. rewrite rot_speed.
  destruct s as [[[x y] z] [[vx vy] vz]]. unfold rotate, rot3; cbn [fst snd]. set (sp := speed _). unfold Rdiv. repeat (f_equal; try ring).
Qed.
Lemma rot_uniform f t a s : uniform t (rot3 f a) (rotate f s) = rotate f (uniform t a s).
Proof.
  destruct s as [[[x y] z] [[vx vy] vz]], a as [[ax ay] az]. unfold uniform, rotate, rot3, add3, mul3; cbn [fst snd]. repeat (f_equal; try ring).
Qed.
Lemma polar_at_rest m dt e s : k_unit m <> 0%Z -> speed s = 0 ->
  exists z vz, cylindrical_evolve m dt [e] [to_pt s] = Ok [mkpt None None (Some z) None None (Some vz)].
Proof.
  intros U S. unfold cylindrical_evolve, evolve3. rewrite units_ok by assumption. cbn [bind map2].
  unfold cylindrical_acc. destruct (normal3 _ _ _) as [[ar ath] az].
  destruct s as [[[x y] z] [[vx vy] vz]]. unfold speed in S.
  assert (P : polar_acc (to_pt ((x, y, z), (vx, vy, vz))) ar ath = (None, None)).
  { unfold polar_acc. cbn [to_pt pvx pvy]. unfold osq, omul, omap2, osqrt, oadd, option_map, odiv, osub, oscale, omap2.
    replace (vx * vx + vy * vy) with (vx ^ 2 + vy ^ 2) by ring. rewrite S.
    unfold Reqb. destruct (Req_EM_T 0 0) as [_|C]; [reflexivity|now destruct C]. }
  cbn [to_pt] in P |- *. rewrite P. cbn [advance to_pt px py pz pvx pvy pvz]. eexists _, _. reflexivity.
Qed.
