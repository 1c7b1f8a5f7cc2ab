(** Property C74: predictions of image-image matches. *)
From Verif Require Import Base BaseLemmas HelpersModel CameraModel CameraSpec CameraStateProofs CameraProofs CameraProofs2 ControlModel P_Control P_Camera.
Open Scope R_scope.

(** The lens of the camera can be inverted at the image of the point *)
Definition exact_lens (c : cam) (p : vec3) : Prop := f_ c 0 <> 0 /\ f_ c 1 <> 0 /\ forall xy, fst (xyz_to_xy c false p) = Some xy -> undistort c (distort c xy) = xy.
(** Both cameras are at the same place and correct elevations alike *)
Definition same_place (a b : cam) : Prop := get_xyz a = get_xyz b /\ correction a = correction b.
(** [uv] are the images of the world points [ps] *)
Definition images (c : cam) (ps : list vec3) (uv : list vec2) : Prop := map (xyz_to_uv c false) ps = map Some uv.

Lemma offset_place a b p : same_place a b -> offset a false p = offset b false p.
Proof. intros [E F]. unfold offset. now rewrite E, F. Qed.
Lemma project_offset c p : xyz_to_xy c false p = xyz_to_xy c true (offset c false p). Proof. reflexivity. Qed.
Lemma ray_depth c z xy : 0 < z -> xy_to_xyz c true z xy = scale3 z (xy_to_xyz c true 1 xy).
Proof.
  intros Hz. unfold xy_to_xyz. destruct xy as [x y]. destruct (Reqb_spec 1 1); [|lra]. destruct (Reqb_spec z 1) as [->|]; [|reflexivity]. destruct (add3 _ _) as [[u v] w]. unfold scale3. repeat f_equal; ring.
Qed.
Lemma scale3_inv z v : z <> 0 -> scale3 (/ z) (scale3 z v) = v.
Proof. intros H. destruct v as [[x y] w]. unfold scale3. repeat f_equal; field; exact H. Qed.
(** The ray of the image of a point goes through the point. *)
Lemma ray_through c p uv : exact_lens c p -> xyz_to_uv c false p = Some uv -> exists z, 0 < z /\ xy_to_xyz c true 1 (uv_to_xy c uv) = scale3 (/ z) (offset c false p).
Proof.
  intros (F0 & F1 & L) H. assert (H' : xyz_to_uv c true (offset c false p) = Some uv) by exact H.
  pose proof (xyz_round_trip_general c true (offset c false p) uv (or_introl eq_refl) F0 F1 L H') as E. exists (snd (xyz_to_xy c true (offset c false p))).
  assert (Hz : 0 < snd (xyz_to_xy c true (offset c false p))).
  { unfold xyz_to_uv, xyz_to_xy in H'. cbn [fst] in H'. unfold xyz_to_xy. cbn [snd]. match type of H' with option_map _ (if Rleb ?z 0 then _ else _) = _ => destruct (Rleb_spec z 0) as [|N]; [discriminate|lra] end. }
  split; [exact Hz|]. rewrite (ray_depth c _ _ Hz) in E. transitivity (scale3 (/ snd (xyz_to_xy c true (offset c false p))) (scale3 (snd (xyz_to_xy c true (offset c false p))) (xy_to_xyz c true 1 (uv_to_xy c uv)))); [symmetry; apply scale3_inv; lra|now rewrite E].
Qed.
Lemma predict_true a b p ub : same_place a b -> exact_lens b p -> xyz_to_uv b false p = Some ub -> xyz_to_uv a true (xy_to_xyz b true 1 (uv_to_xy b ub)) = xyz_to_uv a false p.
Proof.
  intros S L H. destruct (ray_through b p ub L H) as (z & Hz & ->). rewrite (xyz_to_uv_scale a (/ z)) by (now apply Rinv_0_lt_compat). rewrite <- (offset_place a b p S). reflexivity.
Qed.
Lemma predict_all a b ps ua ub : same_place a b -> Forall (exact_lens b) ps -> images a ps ua -> images b ps ub -> map (fun uv => xyz_to_uv a true (xy_to_xyz b true 1 (uv_to_xy b uv))) ub = map Some ua.
Proof.
  intros S. revert ua ub. induction ps as [|p ps IH]; intros ua ub L A B; unfold images in *; destruct ua as [|x ua], ub as [|y ub]; try discriminate; [reflexivity|]. cbn [map] in *. injection A as A1 A2. injection B as B1 B2. inversion L; subst.
  rewrite (predict_true a b p y S) by assumption. rewrite A1. f_equal. now apply IH.
Qed.
Lemma images_length c ps uv : images c ps uv -> length uv = length ps. Proof. intros H. apply (f_equal (@length _)) in H. now rewrite !map_length in H. Qed.
Lemma differ_refl a : differ a a = false. Proof. unfold differ. induction a as [|x a IH]; [reflexivity|]. cbn. destruct (Reqb_spec x x); [exact IH|contradiction]. Qed.
Lemma test_position_same a b : get_xyz a = get_xyz b -> test_position a b = Ok tt. Proof. intros E. unfold test_position. now rewrite E, differ_refl. Qed.

(** The predictions from true images of world points are the true images: for any points in front of two cameras at the same place, residuals are zero. *)
Theorem matches_true_points a b ps ua ub w : same_place a b -> Forall (exact_lens a) ps -> Forall (exact_lens b) ps -> images a ps ua -> images b ps ub ->
  exists m, new_matches Matches false a b (Some (ua, ub)) None w = Ok m /\
    m_observed true m = Ok ua /\ m_predicted true m = Ok (map Some ua) /\ m_observed false m = Ok ub /\ m_predicted false m = Ok (map Some ub).
Proof.
  intros S La Lb A B. unfold new_matches, test_matches. rewrite (images_length _ _ _ A), (images_length _ _ _ B), Nat.eqb_refl. cbn [bind]. rewrite (test_position_same a b (proj1 S)). cbn [bind].
  eexists. split; [reflexivity|]. unfold m_observed, m_predicted, m_cam. cbn [m_type m_uvs m_a m_b sel fst snd negb]. rewrite (test_position_same a b (proj1 S)). cbn [bind].
  assert (S' : same_place b a) by (destruct S; split; congruence). rewrite (predict_all a b ps ua ub S Lb A B), (predict_all b a ps ub ua S' La B A). auto.
Qed.
Print Assumptions matches_true_points.

(** ** Rotation types: cameras may turn and move together, as long as their internal parameters stay the same *)
Lemma slice_internals i n (c : cam) : slice (6 + i) n (vec c) = slice i n (internals c).
Proof. unfold slice, internals. assert (K : forall (l : list R), skipn (6 + i) l = skipn i (skipn 6 l)) by (intros l; do 6 (destruct l as [|? l]; [cbn; now rewrite skipn_nil|]); reflexivity). now rewrite K. Qed.
Lemma internals_same a a' : internals a' = internals a -> (forall uv, uv_to_xy a' uv = uv_to_xy a uv) /\ (forall xy, xy_to_uv a' xy = xy_to_uv a xy).
Proof.
  intros E. assert (G : forall i n, slice (6 + i) n (vec a') = slice (6 + i) n (vec a)) by (intros; now rewrite !slice_internals, E).
  assert (E1 : get_f a' = get_f a) by apply (G 2%nat 2%nat). assert (E2 : get_c a' = get_c a) by apply (G 4%nat 2%nat). assert (E3 : get_k a' = get_k a) by apply (G 6%nat 6%nat). assert (E4 : get_p a' = get_p a) by apply (G 12%nat 2%nat).
  assert (E5 : get_imgsz a' = get_imgsz a) by (unfold get_imgsz; change (slice 6 2 (vec a')) with (slice (6 + 0) 2 (vec a')); rewrite (G 0%nat 2%nat); reflexivity).
  assert (C : forall i, center a' i = center a i) by (intros i; unfold center, imgszR; now rewrite E5, E2). assert (F : forall i, f_ a' i = f_ a i) by (intros i; unfold f_; now rewrite E1).
  assert (D : forall xy, distort a' xy = distort a xy) by (intros [x y]; unfold distort, radial_distortion, tangential_distortion, kk, pp; now rewrite E3, E4).
  assert (U : forall xy, undistort a' xy = undistort a xy).
  { intros xy. assert (O : forall n u, Nat.iter n (oulu_step a' xy) u = Nat.iter n (oulu_step a xy) u).
    { induction n as [|n IH]; intros u; [reflexivity|]. cbn [Nat.iter nat_rect]. unfold Nat.iter in IH. rewrite IH. unfold oulu_step, radial_distortion, tangential_distortion, kk, pp. now rewrite E3, E4. }
    unfold undistort, undistort_oulu. rewrite O. unfold undistort_k1, kk. rewrite E3, E4. reflexivity. }
  split.
  - intros [u v]. unfold uv_to_xy. now rewrite !C, !F, U.
  - intros xy. unfold xy_to_uv. now rewrite D, !C, !F.
Qed.

(** [a'] has the internal parameters of [a] (image size, focal length, principal point, distortion). *)
Definition same_lens (a a' : cam) : Prop := internals a' = internals a.
Lemma differ_iff a b : length a = length b -> (differ a b = false <-> a = b).
Proof.
  intros L. split; [|intros ->; apply differ_refl]. revert b L. unfold differ. induction a as [|x a IH]; intros [|y b] L; try discriminate; [reflexivity|]. cbn [map2 existsb]. destruct (Reqb_spec x y) as [->|]; cbn; [|discriminate]. intros H. f_equal. apply IH; [now injection L|exact H].
Qed.
Lemma test_internals_same a b a' b' t uvs xys w : same_lens a a' -> same_lens b b' -> test_internals (mkmatches t a' b' uvs xys w None (Some (internals a, internals b))) = Ok tt.
Proof. unfold same_lens, test_internals. cbn [m_internals m_a m_b]. intros -> ->. now rewrite !differ_refl. Qed.
Definition rotated (t : mtype) (a b : cam) uvs xys w (a' b' : cam) (m : matches) : Prop :=
  exists m0, new_matches t false a b uvs xys w = Ok m0 /\ m = set_cams m0 a' b'.

(** A RotationMatches predicts what a Matches of the same image points predicts, wherever the cameras have moved since construction, as long as they are together and kept their lenses ... *)
Theorem rotation_predicted a b a' b' ua ub w m m' first : same_lens a a' -> same_lens b b' -> get_xyz a' = get_xyz b' ->
  rotated RotationMatches a b (Some (ua, ub)) None w a' b' m -> new_matches Matches false a' b' (Some (ua, ub)) None w = Ok m' ->
  m_predicted first m = m_predicted first m' /\ m_observed first m = m_observed first m'.
Proof.
  intros A B P (m0 & E0 & ->) E1. unfold new_matches in E0, E1. destruct (test_matches false (Some (ua, ub))); [|discriminate]. cbn [bind] in *. rewrite (test_position_same _ _ P) in E1. cbn [bind] in E1. injection E0 as <-. injection E1 as <-.
  split; [|reflexivity]. unfold m_predicted, set_cams. cbn [m_type m_a m_b m_uvs m_xys m_weights m_imgszs m_internals]. rewrite (test_position_same _ _ P). cbn [bind]. rewrite test_internals_same by assumption. cbn [bind]. apply (f_equal (@Ok _)).
  destruct (internals_same a a' A) as [Ua _]. destruct (internals_same b b' B) as [Ub _]. destruct first; cbn [negb sel fst snd m_cam]; rewrite !map_map; apply map_ext; intros uv; cbn [m_b m_a]; rewrite ?Ua, ?Ub; reflexivity.
Qed.
(** ... and otherwise refuses. *)
Theorem rotation_predicted_refused t a b a' b' uvs xys w m first : t = RotationMatches \/ t = RotationMatchesXY -> wf a -> wf b -> wf a' -> wf b' -> rotated t a b uvs xys w a' b' m ->
  (m_predicted first m = Err ValueError <-> get_xyz a' <> get_xyz b' \/ ~ same_lens a a' \/ ~ same_lens b b').
Proof.
  intros T Wa Wb Wa' Wb' (m0 & E0 & ->).
  assert (K : m_type m0 = t /\ m_internals m0 = Some (internals a, internals b) /\ m_xys m0 <> None).
  { destruct T as [-> | ->]; unfold new_matches in E0; destruct uvs as [[u v]|], xys as [[x y]|]; try discriminate; try (destruct (test_matches _ _); [|discriminate]; injection E0 as <-; cbn; repeat split; auto; discriminate). }
  destruct K as (K1 & K2 & K3).
  assert (G : m_predicted first (set_cams m0 a' b') = Err ValueError <-> differ (get_xyz a') (get_xyz b') = true \/ (differ (internals a') (internals a) || differ (internals b') (internals b))%bool = true).
  { unfold m_predicted, set_cams. cbn [m_type m_a m_b m_uvs m_xys m_weights m_imgszs m_internals]. unfold test_position, test_internals. cbn [m_type m_a m_b m_uvs m_xys m_weights m_imgszs m_internals]. rewrite K1, K2.
    destruct T as [-> | ->]; destruct (differ (get_xyz a') (get_xyz b')); cbn [bind]; try (split; [now left|reflexivity]); destruct (_ || _)%bool; cbn [bind]; try (split; [now right|reflexivity]); (destruct (m_xys m0); [|contradiction]); (split; [discriminate|intros [?|?]; discriminate]). }
  assert (Lv : forall c, wf c -> length (vec c) = 20%nat) by (intros c Wc; apply Wc).
  assert (L1 : forall c, wf c -> length (get_xyz c) = 3%nat) by (intros c Wc; unfold get_xyz, slice; rewrite firstn_length, skipn_length, (Lv c Wc); reflexivity).
  assert (L2 : forall c, wf c -> length (internals c) = 14%nat) by (intros c Wc; unfold internals; rewrite skipn_length, (Lv c Wc); reflexivity).
  rewrite G. clear G. rewrite orb_true_iff. unfold same_lens.
  rewrite <- (differ_iff (get_xyz a') (get_xyz b')) by (rewrite !L1; auto). rewrite <- (differ_iff (internals a') (internals a)) by (rewrite !L2; auto). rewrite <- (differ_iff (internals b') (internals b)) by (rewrite !L2; auto). rewrite !not_false_iff_true. reflexivity.
Qed.
Lemma xy_uv_map c l : map (option_map (xy_to_uv c)) (map (fun d => fst (xyz_to_xy c true d)) l) = map (xyz_to_uv c true) l.
Proof. rewrite map_map. reflexivity. Qed.
(** RotationMatchesXY predicts the camera coordinates whose image coordinates are those of RotationMatches. *)
Theorem rotation_xy_predicted a b a' b' ua ub w m m' first : rotated RotationMatchesXY a b (Some (ua, ub)) None w a' b' m -> rotated RotationMatches a b (Some (ua, ub)) None w a' b' m' ->
  m_predicted first m' = (let* l := m_predicted first m in Ok (map (option_map (xy_to_uv (m_cam m first))) l)) /\
  (m_observed first m = let* l := m_observed first m' in Ok (map (uv_to_xy (if first then a else b)) l)).
Proof.
  intros (m0 & E0 & ->) (m1 & E1 & ->). unfold new_matches in E0, E1. destruct (test_matches false (Some (ua, ub))); [|discriminate]. cbn [bind] in *. injection E0 as <-. injection E1 as <-.
  unfold m_predicted, m_observed, set_cams, test_internals. cbn [m_type m_a m_b m_uvs m_xys m_weights m_imgszs m_internals]. split; [|destruct first; reflexivity].
  destruct (test_position a' b'); [|reflexivity]. cbn [bind]. destruct (_ || _)%bool; [reflexivity|]. cbn [bind]. now rewrite xy_uv_map.
Qed.

Lemma unit3_scale t v : 0 < t -> unit3 (scale3 t v) = unit3 v.
Proof.
  intros Ht. unfold unit3. destruct v as [[x y] z]. unfold scale3, dot3. cbn.
  replace (t * x * (t * x) + t * y * (t * y) + t * z * (t * z)) with ((t * t) * (x * x + y * y + z * z)) by ring.
  rewrite sqrt_mult_alt by nra. rewrite sqrt_square by lra. destruct (Req_dec (sqrt (x * x + y * y + z * z)) 0) as [E|N].
  - rewrite E, Rmult_0_r. apply sqrt_eq_0 in E; [|nra]. assert (x = 0 /\ y = 0 /\ z = 0) as (-> & -> & ->) by (repeat split; nra). repeat f_equal; ring.
  - apply (f_equal2 pair); [apply (f_equal2 pair)|]; field; split; auto; lra.
Qed.
Lemma rays_all c ps uv : Forall (exact_lens c) ps -> images c ps uv -> map (fun xy => unit3 (xy_to_xyz c true 1 xy)) (map (uv_to_xy c) uv) = map (fun p => unit3 (offset c false p)) ps.
Proof.
  intros L. revert uv. induction ps as [|p ps IH]; intros [|x uv] A; unfold images in *; try discriminate; [reflexivity|]. cbn [map] in *. injection A as A1 A2. inversion L; subst. rewrite IH by assumption. f_equal. destruct (ray_through c p x) as (z & Hz & ->); auto. apply unit3_scale. now apply Rinv_0_lt_compat.
Qed.
(** RotationMatchesXYZ: the rays of both cameras through true images of the same world points are the same, the unit vectors towards these points. *)
Theorem rotation_rays a b ps ua ub w : same_place a b -> Forall (exact_lens a) ps -> Forall (exact_lens b) ps -> images a ps ua -> images b ps ub ->
  exists m, new_matches RotationMatchesXYZ false a b (Some (ua, ub)) None w = Ok m /\
    m_rays true m = Ok (map (fun p => unit3 (offset a false p)) ps) /\ m_rays false m = m_rays true m.
Proof.
  intros S La Lb A B. unfold new_matches, test_matches. rewrite (images_length _ _ _ A), (images_length _ _ _ B), Nat.eqb_refl. cbn [bind]. eexists. split; [reflexivity|]. unfold m_rays. cbn [m_a m_b m_xys m_cam sel fst snd]. rewrite (test_position_same _ _ (proj1 S)). cbn [bind]. rewrite test_internals_same by reflexivity. cbn [bind].
  rewrite (rays_all a ps ua La A), (rays_all b ps ub Lb B). split; [reflexivity|]. apply (f_equal (@Ok _)). apply map_ext. intros p. now rewrite (offset_place a b p S).
Qed.
Theorem rays_unit m first l : m_rays first m = Ok l -> Forall (fun d => dot3 d d = 1 \/ d = (0, 0, 0)) l.
Proof.
  unfold m_rays. destruct (test_position _ _); [|discriminate]. cbn [bind]. destruct (test_internals m); [|discriminate]. cbn [bind]. destruct (m_xys m) as [p|]; [|discriminate]. intros E. injection E as <-. apply Forall_map, Forall_forall. intros xy _. set (v := xy_to_xyz _ _ _ _). destruct v as [[x y] z]. unfold unit3, scale3, dot3. cbn.
  destruct (Req_dec (x * x + y * y + z * z) 0) as [E|N].
  - assert (x = 0 /\ y = 0 /\ z = 0) as (-> & -> & ->) by (repeat split; nra). right. repeat f_equal; ring.
  - left. assert (P : 0 < x * x + y * y + z * z) by nra. pose proof (sqrt_lt_R0 _ P). pose proof (sqrt_sqrt _ (Rlt_le _ _ P)) as Q. set (s := sqrt _) in *. transitivity ((x * x + y * y + z * z) * / (s * s)); [field; lra|rewrite Q; field; lra].
Qed.

(** Converting between types is constructing with the type from the same image points, for cameras that kept their lenses. *)
Definition has_position_test (t : mtype) (a b : cam) : Prop := t = Matches -> get_xyz a = get_xyz b.
Theorem to_type_new s t a b a' b' ua ub w m : same_lens a a' -> same_lens b b' -> rotated s a b (Some (ua, ub)) None w a' b' m -> s <> t ->
  to_type t m = new_matches t false a' b' (Some (ua, ub)) None w.
Proof.
  intros A B (m0 & E0 & ->) N. unfold new_matches in E0.
  destruct (internals_same a a' A) as [Ua _]. destruct (internals_same b b' B) as [Ub _].
  destruct s; (destruct (test_matches false (Some (ua, ub))) eqn:T; [|discriminate]); cbn [bind] in E0; try (destruct (test_position a b); [|discriminate]; cbn [bind] in E0); injection E0 as <-; unfold to_type; cbn [set_cams m_type m_a m_b m_uvs m_xys m_weights]; destruct t; try contradiction; cbn [mtype_eqb]; try reflexivity; cbn [new_matches]; rewrite T; cbn [bind]; unfold same_lens in *; rewrite ?A, ?B; (apply (f_equal (@Ok _))); rewrite ?(map_ext _ _ Ua), ?(map_ext _ _ Ub); reflexivity.
Qed.
Print Assumptions rotation_predicted. Print Assumptions rotation_predicted_refused. Print Assumptions rotation_rays. Print Assumptions to_type_new.
(** Refuted: "image coordinates may be discarded" -- without image coordinates, RotationMatchesXY cannot be constructed. *)
Theorem rotation_xy_only_refuted a b xys w : new_matches RotationMatchesXY false a b None (Some xys) w = Err AttributeError /\ new_matches RotationMatchesXYZ false a b None (Some xys) w = Err AttributeError.
Proof. split; reflexivity. Qed.

(** Non-vacuity: two cameras at the same place, the second with another focal length, see a point ahead. *)
Definition excam2 : cam := mkcam [0; 0; 0; 0; 0; 0; 4; 2; 3; 5; 0; 0; 0; 0; 0; 0; 0; 0; 0; 0] [] None None.
Lemma ex_lens c p : no_distortion c -> f_ c 0 <> 0 -> f_ c 1 <> 0 -> exact_lens c p.
Proof. intros [K P] F0 F1. split; [exact F0|]. split; [exact F1|]. intros [x y] _. unfold undistort, distort. rewrite K, P, !anynz_zeros. reflexivity. Qed.
Example matches_ex : exists m, new_matches Matches false P_Camera.excam excam2 (Some ([(3, 1)], [(5, 1)])) None None = Ok m /\ m_predicted true m = Ok [Some (3, 1)] /\ m_predicted false m = Ok [Some (5, 1)].
Proof.
  assert (Im : forall c u v, get_viewdir c = [0; 0; 0] -> get_xyz c = [0; 0; 0] -> correction c = None -> no_distortion c -> u = f_ c 0 + center c 0 -> v = center c 1 -> images c [(1, 1, 0)] [(u, v)]).
  { intros c u v E1 E2 E3 [E4 E5] -> ->. unfold images. cbn [map]. apply (f_equal2 cons); [|reflexivity]. unfold xyz_to_uv, xyz_to_xy, offset, Rm. rewrite E1, E2, E3. unfold v3. cbn [nth]. unfold rotation, deg2rad. rewrite !Rmult_0_l, cos_0, sin_0. unfold row, dot3, sub3. cbn [fst snd].
    match goal with |- option_map _ (if Rleb ?z 0 then _ else _) = _ => destruct (Rleb_spec z 0) as [L|L]; [exfalso; lra|] end. cbn [option_map]. apply (f_equal (@Some _)). unfold xy_to_uv, distort. rewrite E4, E5, !anynz_zeros. cbn [negb andb]. apply (f_equal2 pair); field. }
  assert (W : imgszR P_Camera.excam = [4; 2] /\ imgszR excam2 = [4; 2]) by (split; unfold imgszR, get_imgsz; cbn [P_Camera.excam excam2 vec P_Camera.excam_vec slice skipn firstn map]; rewrite !Rtrunc_IZR; reflexivity). destruct W as [W1 W2].
  destruct (matches_true_points P_Camera.excam excam2 [(1, 1, 0)] [(3, 1)] [(5, 1)] None) as (m & M1 & _ & M2 & _ & M3).
  - split; reflexivity.
  - constructor; [|constructor]. apply ex_lens; [split; reflexivity|unfold f_; cbn; lra..].
  - constructor; [|constructor]. apply ex_lens; [split; reflexivity|unfold f_; cbn; lra..].
  - apply Im; try reflexivity; [split; reflexivity| |]; unfold f_, center; rewrite W1; cbn; lra.
  - apply Im; try reflexivity; [split; reflexivity| |]; unfold f_, center; rewrite W2; cbn; lra.
  - exists m. auto.
Qed.
