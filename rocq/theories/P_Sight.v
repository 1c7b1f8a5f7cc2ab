(** C126: how the view of a camera changes when it is moved, turned, rolled or scaled. *)
From Verif Require Import Base BaseLemmas HelpersModel HelpersSpec CameraModel CameraSpec CameraStateProofs SightProofs P_Dem.
Open Scope R_scope.

Definition list3 (p : vec3) : list R := let '(x, y, z) := p in [x; y; z].
Definition each {A B} (f : A -> B) (r : result (list A)) : result (list B) := match r with Ok l => Ok (map f l) | Err e => Err e end.
Lemma v3_list3 p : v3 (list3 p) = p. Proof. destruct p as [[x y] z]. reflexivity. Qed.
Lemma set_list3 p c c' : wf c -> cam_step (OXyz (list3 p)) c = Ok c' -> same_lens c c' /\ v3 (get_xyz c') = p /\ Rm c' = Rm c.
Proof. intros W E. destruct p as [[x y] z]. destruct (set_xyz_inv x y z c c' W E) as (L & X & V). split; [exact L|]. unfold Rm. rewrite X, V. now split. Qed.
Lemma turn_list3 p c c' : wf c -> cam_step (OViewdir (list3 p)) c = Ok c' -> same_lens c c' /\ Rm c' = rotation p /\ get_xyz c' = get_xyz c.
Proof. intros W E. destruct p as [[x y] z]. destruct (set_viewdir_inv x y z c c' W E) as (L & X & V). split; [exact L|]. unfold Rm. rewrite X. now split. Qed.
Lemma uv_to_xyz_each c c' dirs depth uv (f : vec3 -> vec3) : (forall q, uv_to_xy c' q = uv_to_xy c q) -> (forall d q, xy_to_xyz c' dirs d q = f (xy_to_xyz c dirs d q)) ->
  uv_to_xyz c' dirs depth uv = each f (uv_to_xyz c dirs depth uv).
Proof.
  intros U X. unfold uv_to_xyz. rewrite (map_ext _ _ U). set (xy := map (uv_to_xy c) uv). clearbody xy.
  assert (M1 : forall d, map (xy_to_xyz c' dirs d) xy = map f (map (xy_to_xyz c dirs d) xy)) by (intros d; rewrite map_map; apply map_ext; intros; apply X).
  assert (M2 : forall ds, map2 (fun d p => xy_to_xyz c' dirs d p) ds xy = map f (map2 (fun d p => xy_to_xyz c dirs d p) ds xy)).
  { induction xy as [|q xy IH]; intros ds; destruct ds as [|d ds]; try reflexivity. unfold map2 in *. cbn. rewrite X. f_equal. apply IH. intros d'. specialize (M1 d'). cbn in M1. now injection M1. }
  destruct depth as [d|ds|ds]; cbn [each]; [now rewrite M1| |].
  - destruct (length ds =? length xy)%nat; [now rewrite M2|]. destruct ds as [|d [|]]; try reflexivity. cbn [each]. now rewrite M1.
  - destruct ds as [|d [|]]; cbn [each]; try rewrite M1; reflexivity.
Qed.

(** Moving the camera and the points by the same vector changes nothing: positions in the image, depths, what is in front; points found from the image move along. Directions are not affected. *)
Theorem view_moved : forall c c' t p dirs depth uv, wf c -> cam_step (OXyz (list3 (add3 (v3 (get_xyz c)) t))) c = Ok c' ->
  xyz_to_uv c' false (add3 p t) = xyz_to_uv c false p /\ xyz_to_xy c' false (add3 p t) = xyz_to_xy c false p /\ infront c' false (add3 p t) = infront c false p /\
  xyz_to_uv c' true p = xyz_to_uv c true p /\
  uv_to_xyz c' dirs depth uv = each (fun q => if dirs : bool then q else add3 q t) (uv_to_xyz c dirs depth uv).
Proof.
  intros c c' t p dirs depth uv W E. destruct (set_list3 _ _ _ W E) as (L & X & RR).
  assert (S3 : sub3 (add3 p t) (add3 (v3 (get_xyz c)) t) = sub3 p (v3 (get_xyz c))) by (destruct p as [[x y] z], t as [[t0 t1] t2]; destruct (v3 (get_xyz c)) as [[a b] d]; unfold sub3, add3; apply (f_equal2 pair); [apply (f_equal2 pair)|]; ring).
  assert (O : offset c' false (add3 p t) = offset c false p) by (unfold offset; rewrite X, S3; destruct L as [-> _]; reflexivity).
  assert (B : xyz_to_xy c' false (add3 p t) = xyz_to_xy c false p) by (unfold xyz_to_xy; rewrite O, RR; reflexivity).
  split; [unfold xyz_to_uv; rewrite B; destruct (fst (xyz_to_xy c false p)); [cbn; now rewrite (same_lens_uv c c' _ L)|reflexivity]|]. split; [exact B|].
  split; [unfold infront; now rewrite X, S3, RR|].
  split; [unfold xyz_to_uv, xyz_to_xy, offset; rewrite RR; cbv zeta; cbn [fst]; destruct (Rleb _ 0); [reflexivity|cbn [option_map]; now rewrite (same_lens_uv c c' _ L)]|].
  apply uv_to_xyz_each; [intros q; apply (same_lens_xy c c' q L)|]. intros d [x y]. unfold xy_to_xyz. rewrite RR, X. set (ray := if Reqb d 1 then _ else _). clearbody ray. destruct dirs; [reflexivity|].
  destruct ray as [[r0 r1] r2], t as [[t0 t1] t2]. destruct (v3 (get_xyz c)) as [[a b] e]. unfold add3. apply (f_equal2 pair); [apply (f_equal2 pair)|]; ring.
Qed.
Print Assumptions view_moved.

(** Turning the camera clockwise about the vertical, with the points, changes nothing. *)
Theorem view_turned : forall c c' a p, wf c -> let '(y, pitch, roll) := v3 (get_viewdir c) in cam_step (OViewdir [y + a; pitch; roll]) c = Ok c' ->
  let p' := turned_about (v3 (get_xyz c)) a p in
  xyz_to_uv c' false p' = xyz_to_uv c false p /\ xyz_to_xy c' false p' = xyz_to_xy c false p /\ xyz_to_uv c' true (turned a p) = xyz_to_uv c true p.
Proof.
  intros c c' a p W. destruct (v3 (get_viewdir c)) as [[y pitch] roll] eqn:V. intros E p'. destruct (turn_list3 (y + a, pitch, roll) c c' W E) as (L & RR & X).
  assert (RC : Rm c = rotation (y, pitch, roll)) by (unfold Rm; now rewrite V).
  assert (G : forall dirs q q', offset c' dirs q' = turned a (offset c dirs q) -> xyz_to_xy c' dirs q' = xyz_to_xy c dirs q).
  { intros dirs q q' O. unfold xyz_to_xy. cbv zeta. rewrite O, RR, RC, !rotation_yaw by lia. reflexivity. }
  assert (GU : forall dirs q q', offset c' dirs q' = turned a (offset c dirs q) -> xyz_to_uv c' dirs q' = xyz_to_uv c dirs q).
  { intros dirs q q' O. unfold xyz_to_uv. rewrite (G _ _ _ O). destruct (fst (xyz_to_xy c dirs q)); [cbn; now rewrite (same_lens_uv c c' _ L)|reflexivity]. }
  assert (O1 : offset c' false p' = turned a (offset c false p)).
  { unfold p', offset. rewrite X, sub3_turned. destruct L as [-> _]. pose proof (turned_level a (sub3 p (v3 (get_xyz c)))) as T.
    pose proof (fun e => turned_drop a (sub3 p (v3 (get_xyz c))) e) as TD.
    destruct (sub3 p (v3 (get_xyz c))) as [[dx dy] dz]. destruct (turned a (dx, dy, dz)) as [[tx ty] tz] eqn:TT. destruct T as [T1 T2]. destruct (correction c) as [[radius refraction]|]; [|symmetry; exact TT].
    rewrite TD, T1. reflexivity. }
  split; [apply GU; exact O1|]. split; [apply G; exact O1|]. apply GU. reflexivity.
Qed.
Print Assumptions view_turned.

(** Rolling the camera by [a] turns the normalized image by [a] and leaves the depth. If the focal lengths are equal and there is no tangential distortion, image points turn about the principal point. *)
Definition principal (c : cam) : vec2 := (nth 0 (imgszR c) 0 / 2 + nth 0 (get_c c) 0, nth 1 (imgszR c) 0 / 2 + nth 1 (get_c c) 0).
Definition plus2 (a b : vec2) : vec2 := (fst a + fst b, snd a + snd b).
Lemma rolled_distort c a q : anynz (get_p c) = false -> distort c (rolled a q) = rolled a (distort c q).
Proof.
  intros NP. destruct q as [x y]. unfold rolled. cbv zeta. pose proof (unit_circle (deg2rad a)) as U. generalize dependent (cos (deg2rad a)). generalize (sin (deg2rad a)). intros s k U. unfold distort. rewrite NP. cbn [negb]. rewrite !andb_true_r. destruct (anynz (get_k c)); cbn [negb]; [|reflexivity]. cbv zeta.
  replace ((x * k + y * s) * (x * k + y * s) + (- x * s + y * k) * (- x * s + y * k)) with (x * x + y * y) by (transitivity ((x * x + y * y) * (k * k + s * s)); [rewrite U; ring|ring]).
  set (m := radial_distortion c _). clearbody m. apply (f_equal2 pair); ring.
Qed.
Theorem view_rolled : forall c c' a dirs p, wf c -> let '(y, pitch, roll) := v3 (get_viewdir c) in cam_step (OViewdir [y; pitch; roll + a]) c = Ok c' ->
  xyz_to_xy c' dirs p = (option_map (rolled a) (fst (xyz_to_xy c dirs p)), snd (xyz_to_xy c dirs p)) /\
  (f_ c 0 = f_ c 1 -> anynz (get_p c) = false ->
   forall uv, xyz_to_uv c dirs p = Some uv -> exists q, uv = plus2 (principal c) q /\ xyz_to_uv c' dirs p = Some (plus2 (principal c) (rolled a q))).
Proof.
  intros c c' a dirs p W. destruct (v3 (get_viewdir c)) as [[y pitch] roll] eqn:V. intros E. destruct (turn_list3 (y, pitch, roll + a) c c' W E) as (L & RR & X).
  assert (RC : Rm c = rotation (y, pitch, roll)) by (unfold Rm; now rewrite V).
  assert (O : offset c' dirs p = offset c dirs p) by (unfold offset; rewrite X; destruct L as [-> _]; reflexivity).
  assert (B : xyz_to_xy c' dirs p = (option_map (rolled a) (fst (xyz_to_xy c dirs p)), snd (xyz_to_xy c dirs p))).
  { unfold xyz_to_xy. cbv zeta. rewrite O, RR, RC. destruct (rotation_roll a y pitch roll (offset c dirs p)) as (-> & -> & ->). cbn [fst snd]. destruct (Rleb _ 0) eqn:Z; [reflexivity|]. cbn [option_map]. apply (f_equal2 pair); [apply f_equal|reflexivity]. unfold rolled. cbv zeta.
    assert (N : dot3 (row 2 (rotation (y, pitch, roll))) (offset c dirs p) <> 0) by (intros N; rewrite N in Z; unfold Rleb in Z; destruct (Rle_dec 0 0); [discriminate|lra]).
    apply (f_equal2 pair); field; exact N. }
  split; [exact B|]. intros F NP uv EU. unfold xyz_to_uv in *. rewrite B. cbn [fst]. destruct (fst (xyz_to_xy c dirs p)) as [q|]; [|discriminate]. cbn [option_map] in *. injection EU as <-.
  rewrite (same_lens_uv c c' _ L). unfold xy_to_uv. rewrite (rolled_distort c a q NP). destruct (distort c q) as [x z]. exists (x * f_ c 0, z * f_ c 0). unfold plus2, principal, rolled, center. cbn [fst snd]. rewrite <- F. split; [|f_equal]; apply (f_equal2 pair); ring.
Qed.
Print Assumptions view_rolled.

(** Directions of view that differ by half a turn of each angle (pitch to the supplement) are the same view. *)
Theorem view_flipped : forall c c' dirs p, wf c -> let '(y, pitch, roll) := v3 (get_viewdir c) in cam_step (OViewdir [y + 180; 180 - pitch; roll + 180]) c = Ok c' ->
  xyz_to_uv c' dirs p = xyz_to_uv c dirs p /\ xyz_to_xy c' dirs p = xyz_to_xy c dirs p.
Proof.
  intros c c' dirs p W. destruct (v3 (get_viewdir c)) as [[y pitch] roll] eqn:V. intros E. destruct (turn_list3 (y + 180, 180 - pitch, roll + 180) c c' W E) as (L & RR & X).
  rewrite rotation_flip in RR. assert (RC : Rm c' = Rm c) by (unfold Rm at 2; rewrite V; exact RR).
  assert (O : offset c' dirs p = offset c dirs p) by (unfold offset; rewrite X; destruct L as [-> _]; reflexivity).
  assert (B : xyz_to_xy c' dirs p = xyz_to_xy c dirs p) by (unfold xyz_to_xy; now rewrite O, RC). split; [|exact B].
  unfold xyz_to_uv. rewrite B. destruct (fst (xyz_to_xy c dirs p)); [cbn; now rewrite (same_lens_uv c c' _ L)|reflexivity].
Qed.
Print Assumptions view_flipped.

(** The way back: points and directions found from image points by the turned camera are those found by the camera, turned; the half-turned direction finds the same; and what is in front is the same. *)
Lemma row_yaw a y p r i : (i < 3)%nat -> row i (rotation (y + a, p, r)) = turned a (row i (rotation (y, p, r))).
Proof.
  intros H. unfold rotation, turned. cbv zeta. rewrite deg2rad_plus, cos_plus, sin_plus. destruct i as [|[|[|i]]]; [..|lia]; unfold row; apply (f_equal2 pair); [apply (f_equal2 pair)| |apply (f_equal2 pair)| |apply (f_equal2 pair)|]; ring.
Qed.
Theorem view_turned_back : forall c c' a p dirs depth uv, wf c -> let '(y, pitch, roll) := v3 (get_viewdir c) in cam_step (OViewdir [y + a; pitch; roll]) c = Ok c' ->
  uv_to_xyz c' dirs depth uv = each (if dirs : bool then turned a else turned_about (v3 (get_xyz c)) a) (uv_to_xyz c dirs depth uv) /\
  infront c' false (turned_about (v3 (get_xyz c)) a p) = infront c false p /\ infront c' true (turned a p) = infront c true p.
Proof.
  intros c c' a p dirs depth uv W. destruct (v3 (get_viewdir c)) as [[y pitch] roll] eqn:V. intros E. destruct (turn_list3 (y + a, pitch, roll) c c' W E) as (L & RR & X).
  assert (RC : Rm c = rotation (y, pitch, roll)) by (unfold Rm; now rewrite V).
  split; [|split].
  - apply uv_to_xyz_each; [intros q; apply (same_lens_xy c c' q L)|]. intros d [x z]. unfold xy_to_xyz. rewrite RR, RC, X, !row_yaw by lia.
    destruct (row 0 (rotation (y, pitch, roll))) as [[a0 a1] a2], (row 1 (rotation (y, pitch, roll))) as [[b0 b1] b2], (row 2 (rotation (y, pitch, roll))) as [[c0 c1] c2]. destruct (v3 (get_xyz c)) as [[o0 o1] o2].
    destruct dirs, (Reqb d 1); unfold turned_about, turned, add3, sub3, scale3; cbv zeta; apply (f_equal2 pair); try (apply (f_equal2 pair)); ring.
  - unfold infront. rewrite X, sub3_turned, RR, RC. f_equal. generalize (sub3 p (v3 (get_xyz c))). intros d. pose proof (rotation_yaw a y pitch roll d 2 ltac:(lia)) as Y.
    assert (S : forall u v, dot3 u v = dot3 v u) by (intros [[? ?] ?] [[? ?] ?]; unfold dot3; ring). rewrite S, Y. apply S.
  - unfold infront. rewrite RR, RC. f_equal. pose proof (rotation_yaw a y pitch roll p 2 ltac:(lia)) as Y.
    assert (S : forall u v, dot3 u v = dot3 v u) by (intros [[? ?] ?] [[? ?] ?]; unfold dot3; ring). rewrite S, Y. apply S.
Qed.
Print Assumptions view_turned_back.
Theorem view_flipped_back : forall c c' dirs p depth uv, wf c -> let '(y, pitch, roll) := v3 (get_viewdir c) in cam_step (OViewdir [y + 180; 180 - pitch; roll + 180]) c = Ok c' ->
  uv_to_xyz c' dirs depth uv = uv_to_xyz c dirs depth uv /\ infront c' dirs p = infront c dirs p.
Proof.
  intros c c' dirs p depth uv W. destruct (v3 (get_viewdir c)) as [[y pitch] roll] eqn:V. intros E. destruct (turn_list3 (y + 180, 180 - pitch, roll + 180) c c' W E) as (L & RR & X).
  rewrite rotation_flip in RR. assert (RC : Rm c' = Rm c) by (unfold Rm at 2; rewrite V; exact RR).
  split; [|unfold infront; now rewrite RC, X]. rewrite (uv_to_xyz_each c c' dirs depth uv (fun q => q)).
  - destruct (uv_to_xyz c dirs depth uv); cbn [each]; [now rewrite map_id|reflexivity].
  - intros q; apply (same_lens_xy c c' q L).
  - intros d [x z]. unfold xy_to_xyz. now rewrite RC, X.
Qed.
Print Assumptions view_flipped_back.

(** Without correction, scaling all coordinates leaves the image and multiplies the depths; with correction it does not (the drop of far points is quadratic). *)
Theorem view_scaled : forall c c' s p, wf c -> correction c = None -> 0 < s -> cam_step (OXyz (list3 (scale3 s (v3 (get_xyz c))))) c = Ok c' ->
  xyz_to_uv c' false (scale3 s p) = xyz_to_uv c false p /\ snd (xyz_to_xy c' false (scale3 s p)) = s * snd (xyz_to_xy c false p).
Proof.
  intros c c' s p W N S E. destruct (set_list3 _ _ _ W E) as (L & X & RR).
  assert (O : offset c' false (scale3 s p) = scale3 s (offset c false p)).
  { unfold offset. rewrite X. destruct L as [-> _]. rewrite N. destruct p as [[x y] z]. destruct (v3 (get_xyz c)) as [[a b] d]. unfold sub3, scale3. apply (f_equal2 pair); [apply (f_equal2 pair)|]; ring. }
  assert (D : forall r d, dot3 r (scale3 s d) = s * dot3 r d) by (intros [[r0 r1] r2] [[d0 d1] d2]; unfold dot3, scale3; ring).
  assert (B : fst (xyz_to_xy c' false (scale3 s p)) = fst (xyz_to_xy c false p) /\ snd (xyz_to_xy c' false (scale3 s p)) = s * snd (xyz_to_xy c false p)).
  { unfold xyz_to_xy. cbv zeta. rewrite O, RR, !D. cbn [fst snd]. split; [|reflexivity]. set (w := dot3 (row 2 (Rm c)) _). clearbody w.
    assert (Z : Rleb (s * w) 0 = Rleb w 0) by (unfold Rleb; destruct (Rle_dec w 0), (Rle_dec (s * w) 0); try reflexivity; exfalso; nra). rewrite Z. destruct (Rleb w 0) eqn:Q; [reflexivity|].
    assert (w <> 0) by (intros ->; unfold Rleb in Q; destruct (Rle_dec 0 0); [discriminate|lra]). f_equal. apply (f_equal2 pair); field; split; lra. }
  destruct B as [B1 B2]. split; [|exact B2]. unfold xyz_to_uv. rewrite B1. destruct (fst (xyz_to_xy c false p)); [cbn; now rewrite (same_lens_uv c c' _ L)|reflexivity].
Qed.
Print Assumptions view_scaled.

(** Moving the principal point, or magnifying, moves image points with it; image points moved along give the same points in the world. *)
Lemma body_same c c' : get_xyz c' = get_xyz c -> get_viewdir c' = get_viewdir c -> correction c' = correction c -> (forall dirs p, xyz_to_xy c' dirs p = xyz_to_xy c dirs p) /\ (forall dirs d q, xy_to_xyz c' dirs d q = xy_to_xyz c dirs d q).
Proof. intros X V CO. split; intros dirs; [intros p; unfold xyz_to_xy, offset, Rm; now rewrite X, V, CO|intros d [x y]; unfold xy_to_xyz, Rm; now rewrite X, V]. Qed.
Lemma undistort_same c c' q : get_k c' = get_k c -> get_p c' = get_p c -> undistort c' q = undistort c q.
Proof.
  intros K P. unfold undistort, kk. rewrite K, P. destruct (negb (anynz (get_k c)) && negb (anynz (get_p c)))%bool; [reflexivity|]. destruct (nonzero (nth 0 (get_k c) 0) && _ && _)%bool.
  - unfold undistort_k1, kk. now rewrite K.
  - unfold undistort_oulu. apply iter_ext. intros [a b]. unfold oulu_step, tangential_distortion, radial_distortion, kk, pp. now rewrite K, P.
Qed.
Lemma distort_same c c' q : get_k c' = get_k c -> get_p c' = get_p c -> distort c' q = distort c q.
Proof. intros K P. destruct q as [x y]. unfold distort, radial_distortion, tangential_distortion, kk, pp. now rewrite K, P. Qed.
Lemma uv_to_xyz_map c c' dirs depth uv (g : vec2 -> vec2) : (forall q, uv_to_xy c' (g q) = uv_to_xy c q) -> (forall d q, xy_to_xyz c' dirs d q = xy_to_xyz c dirs d q) ->
  uv_to_xyz c' dirs depth (map g uv) = uv_to_xyz c dirs depth uv.
Proof.
  intros U X. unfold uv_to_xyz. rewrite map_map, (map_ext _ _ U). set (xy := map (uv_to_xy c) uv). clearbody xy.
  assert (M1 : forall d, map (xy_to_xyz c' dirs d) xy = map (xy_to_xyz c dirs d) xy) by (intros d; apply map_ext; intros; apply X).
  assert (M2 : forall ds, map2 (fun d p => xy_to_xyz c' dirs d p) ds xy = map2 (fun d p => xy_to_xyz c dirs d p) ds xy).
  { clear M1. induction xy as [|q xy IH]; intros ds; destruct ds as [|d ds]; try reflexivity. unfold map2 in *. cbn. rewrite X. f_equal. apply IH. }
  destruct depth as [d|ds|ds]; [now rewrite M1| |]; [destruct (length ds =? length xy)%nat; [now rewrite M2|]|]; destruct ds as [|d [|]]; rewrite ?M1; reflexivity.
Qed.
Theorem view_recentered : forall c c' dx dy dirs p depth uv, wf c -> cam_step (OC [nth 0 (get_c c) 0 + dx; nth 1 (get_c c) 0 + dy]) c = Ok c' ->
  xyz_to_uv c' dirs p = option_map (plus2 (dx, dy)) (xyz_to_uv c dirs p) /\ uv_to_xyz c' dirs depth (map (plus2 (dx, dy)) uv) = uv_to_xyz c dirs depth uv.
Proof.
  intros c c' dx dy dirs p depth uv W E. cbn [cam_step] in E. destruct (set_c_spec [nth 0 (get_c c) 0 + dx; nth 1 (get_c c) 0 + dy] c W) as (c1 & E1 & S). rewrite E in E1. injection E1 as <-. destruct S as (_ & _ & _ & CO & V & F).
  pose proof (F Imgsz ltac:(discriminate)) as F1. pose proof (F Foc ltac:(discriminate)) as F2. pose proof (F Xyz ltac:(discriminate)) as F3. pose proof (F Krad ltac:(discriminate)) as F4. pose proof (F Ptan ltac:(discriminate)) as F5. pose proof (F Viewdir ltac:(discriminate)) as F6.
  destruct (body_same c c' F3 F6 CO) as [B1 B2]. change (get_c c' = [nth 0 (get_c c) 0 + dx; nth 1 (get_c c) 0 + dy]) in V. change (get_f c' = get_f c) in F2. assert (I : imgszR c' = imgszR c) by (unfold imgszR, get_imgsz; f_equal; f_equal; exact F1).
  split.
  - unfold xyz_to_uv. rewrite B1. destruct (fst (xyz_to_xy c dirs p)) as [q|]; [|reflexivity]. cbn [option_map]. unfold xy_to_uv. rewrite (distort_same c c' q F4 F5). destruct (distort c q) as [x y]. unfold center, f_, plus2. cbn [fst snd]. rewrite V, I, F2. cbn [nth]. f_equal. apply (f_equal2 pair); ring.
  - apply uv_to_xyz_map; [|apply B2]. intros [u v]. unfold uv_to_xy, plus2. cbn [fst snd]. rewrite (undistort_same c c' _ F4 F5). f_equal. unfold center, f_. rewrite V, I, F2. cbn [nth]. apply (f_equal2 pair); (apply f_equal2; [ring|reflexivity]).
Qed.
Print Assumptions view_recentered.
Definition times2 (s : R) (q : vec2) : vec2 := (s * fst q, s * snd q).
Theorem view_magnified : forall c c' s dirs p depth qs, wf c -> s <> 0 -> cam_step (OF [s * f_ c 0; s * f_ c 1]) c = Ok c' ->
  (xyz_to_uv c' dirs p = None <-> xyz_to_uv c dirs p = None) /\
  (forall q, xyz_to_uv c dirs p = Some (plus2 (principal c) q) -> xyz_to_uv c' dirs p = Some (plus2 (principal c) (times2 s q))) /\
  uv_to_xyz c' dirs depth (map (fun q => plus2 (principal c) (times2 s q)) qs) = uv_to_xyz c dirs depth (map (plus2 (principal c)) qs).
Proof.
  intros c c' s dirs p depth qs W NS E. cbn [cam_step] in E. destruct (set_f_spec [s * f_ c 0; s * f_ c 1] c W ltac:(discriminate)) as (c1 & E1 & S). rewrite E in E1. injection E1 as <-. destruct S as (_ & _ & _ & CO & V & F).
  pose proof (F Imgsz ltac:(discriminate)) as F1. pose proof (F Cen ltac:(discriminate)) as F2. pose proof (F Xyz ltac:(discriminate)) as F3. pose proof (F Krad ltac:(discriminate)) as F4. pose proof (F Ptan ltac:(discriminate)) as F5. pose proof (F Viewdir ltac:(discriminate)) as F6.
  destruct (body_same c c' F3 F6 CO) as [B1 B2]. change (get_f c' = [s * f_ c 0; s * f_ c 1]) in V. change (get_c c' = get_c c) in F2. assert (I : imgszR c' = imgszR c) by (unfold imgszR, get_imgsz; f_equal; f_equal; exact F1).
  assert (C : forall i, center c' i = center c i) by (intros i; unfold center; now rewrite I, F2).
  assert (F0 : f_ c' 0 = s * f_ c 0 /\ f_ c' 1 = s * f_ c 1) by (unfold f_; rewrite V; split; reflexivity). destruct F0 as [G0 G1].
  split; [|split].
  - unfold xyz_to_uv. rewrite B1. destruct (fst (xyz_to_xy c dirs p)); cbn; split; congruence.
  - intros [q0 q1]. unfold xyz_to_uv. rewrite B1. destruct (fst (xyz_to_xy c dirs p)) as [q|]; [|discriminate]. cbn [option_map]. unfold xy_to_uv. rewrite (distort_same c c' q F4 F5). destruct (distort c q) as [x y]. rewrite !C, G0, G1. unfold plus2, times2, principal, center. cbn [fst snd].
    intros [= Q0 Q1]. f_equal. replace q0 with (x * f_ c 0) by lra. replace q1 with (y * f_ c 1) by lra. apply (f_equal2 pair); ring.
  - rewrite <- (map_map (times2 s) (plus2 (principal c))). rewrite <- (uv_to_xyz_map c c' dirs depth (map (plus2 (principal c)) qs) (fun u => plus2 (principal c) (times2 s (plus2 u (times2 (-1) (principal c)))))); [| |apply B2].
    + rewrite !map_map. f_equal. apply map_ext. intros [a b]. unfold plus2, times2. cbn [fst snd]. apply (f_equal2 pair); ring.
    + intros [u v]. unfold uv_to_xy at 1. unfold plus2, times2. cbn [fst snd]. rewrite (undistort_same c c' _ F4 F5). unfold uv_to_xy. f_equal. rewrite !C, G0, G1. unfold principal, center. cbn [fst snd].
      assert (K : forall f d, (d) * (1 / f) = (s * d) * (1 / (s * f))). { intros f d. unfold Rdiv. rewrite Rinv_mult. rewrite !Rmult_1_l. rewrite <- Rmult_assoc. rewrite (Rmult_comm (s * d) (/ s)). rewrite <- (Rmult_assoc (/ s)). rewrite Rinv_l by exact NS. ring. }
      apply (f_equal2 pair); (etransitivity; [|symmetry; apply K]; apply f_equal2; [ring|reflexivity]).
Qed.
Print Assumptions view_magnified.

(** The example camera looks north from the origin and sees the point (1, 2, 0) *)
Lemma dem_cam_wf : wf dem_cam. Proof. split; reflexivity. Qed.
Example view_ex : wf dem_cam /\ v3 (get_viewdir dem_cam) = (0, 0, 0) /\ correction dem_cam = None /\ f_ dem_cam 0 = f_ dem_cam 1 /\ anynz (get_p dem_cam) = false /\
  (exists c', cam_step (OXyz (list3 (add3 (v3 (get_xyz dem_cam)) (1, 2, 3)))) dem_cam = Ok c') /\ (exists c', cam_step (OXyz (list3 (scale3 2 (v3 (get_xyz dem_cam))))) dem_cam = Ok c') /\
  (exists c', cam_step (OViewdir [0 + 30; 0; 0]) dem_cam = Ok c') /\ (exists c', cam_step (OViewdir [0; 0; 0 + 30]) dem_cam = Ok c') /\ (exists c', cam_step (OViewdir [0 + 180; 180 - 0; 0 + 180]) dem_cam = Ok c') /\ (exists c', cam_step (OC [nth 0 (get_c dem_cam) 0 + 1; nth 1 (get_c dem_cam) 0 + 2]) dem_cam = Ok c') /\ (exists c', cam_step (OF [2 * f_ dem_cam 0; 2 * f_ dem_cam 1]) dem_cam = Ok c') /\
  xyz_to_uv dem_cam false (1, 2, 0) = Some (1 / 2 + 2, 1).
Proof.
  split; [exact dem_cam_wf|]. split; [reflexivity|]. split; [reflexivity|]. split; [reflexivity|].
  split; [cbn; unfold nonzero, Reqb; destruct (Req_EM_T 0 0); [reflexivity|congruence]|].
  do 7 (split; [eexists; reflexivity|]). apply dem_cam_uv.
Qed.
(** seen at the same place when camera and point are moved, and turned *)
Example view_moved_ex : forall c', cam_step (OXyz (list3 (add3 (v3 (get_xyz dem_cam)) (1, 2, 3)))) dem_cam = Ok c' -> xyz_to_uv c' false (add3 (1, 2, 0) (1, 2, 3)) = Some (1 / 2 + 2, 1).
Proof. intros c' E. destruct (view_moved dem_cam c' (1, 2, 3) (1, 2, 0) false (DScalar 1) [] dem_cam_wf E) as [H _]. rewrite H. apply dem_cam_uv. Qed.
Example view_turned_ex : forall c', cam_step (OViewdir [0 + 90; 0; 0]) dem_cam = Ok c' -> xyz_to_uv c' false (turned_about (0, 0, 0) 90 (1, 2, 0)) = Some (1 / 2 + 2, 1).
Proof. intros c' E. destruct (view_turned dem_cam c' 90 (1, 2, 0) dem_cam_wf E) as [H _]. refine (eq_trans H _). apply dem_cam_uv. Qed.
