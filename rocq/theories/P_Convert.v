(** Property C48: conversions between the camera and external camera models. *)
From Verif Require Import Base BaseLemmas HelpersModel XReal CameraModel CameraSpec CameraStateProofs P_Camera2 ParamsModel ParamsSpec ParamsProofs ParamsProofs3 ConvertModel ConvertProofs ConvertProofs2.
Open Scope R_scope.

Local Ltac explicit S := destruct (sound_vec _ S) as (X & Y & Z0 & ya & pi & ro & W & H & f0 & f1 & c0 & c1 & k1 & k2 & k3 & k4 & k5 & k6 & p1 & p2 & V).
Local Ltac getters V := rewrite ?(ex_k _ _ _ _ _ _ _ _ _ _ _ _ _ _ _ _ _ _ _ _ _ V), ?(ex_p _ _ _ _ _ _ _ _ _ _ _ _ _ _ _ _ _ _ _ _ _ V), ?(ex_f _ _ _ _ _ _ _ _ _ _ _ _ _ _ _ _ _ _ _ _ _ V),
  ?(ex_c _ _ _ _ _ _ _ _ _ _ _ _ _ _ _ _ _ _ _ _ _ V), ?(ex_wh _ _ _ _ _ _ _ _ _ _ _ _ _ _ _ _ _ _ _ _ _ V), ?(ex_sz _ _ _ _ _ _ _ _ _ _ _ _ _ _ _ _ _ _ _ _ _ V), ?(ex_szR _ _ _ _ _ _ _ _ _ _ _ _ _ _ _ _ _ _ _ _ _ V).
Lemma all0_3 a b c : all0 [a; b; c] = true <-> a = 0 /\ b = 0 /\ c = 0.
Proof. unfold all0, Reqb. cbn. destruct (Req_EM_T a 0), (Req_EM_T b 0), (Req_EM_T c 0); cbn; split; try discriminate; intuition lra. Qed.
Lemma nonzero_false x : nonzero x = false <-> x = 0.
Proof. unfold nonzero, Reqb. destruct (Req_EM_T x 0); cbn; split; try discriminate; intuition. Qed.
Lemma pair_eq (a b c d : R) : (a, b) = (c, d) <-> a = c /\ b = d.
Proof. split; [intros E; injection E; auto|intros [-> ->]; reflexivity]. Qed.
Definition keeps_length (solve : solver) : Prop := forall f x0, length (solve f x0) = length x0.

(* ------------------------------------------------------------------ *)
(** ** From a camera *)

(** Without optimisation, Agisoft.from_camera and Matlab.from_camera project every point
    like the camera if and only if k4 = k5 = k6 = 0; OpenCV.from_camera always does. *)
Theorem agisoft_from_exact_iff c uv solve : sound c -> f_ c 0 <> 0 ->
  exists a, ag_from_camera c ONo uv solve = Ok (a, None) /\
  (same_projection c (ag_xy_to_uv a) <-> kk c 3 = 0 /\ kk c 4 = 0 /\ kk c 5 = 0).
Proof.
  intros S F. exists (ag_from_initial c). split; [reflexivity|]. explicit S.
  assert (P : forall x y, ag_xy_to_uv (ag_from_initial c) (x, y) = let '(xd, yd) := lens k1 k2 k3 0 0 0 p1 p2 x y in (f0 * xd + (IZR W / 2 + c0), f1 * yd + (IZR H / 2 + c1))).
  { intros x y. unfold ag_xy_to_uv, ag_from_initial. getters V. unfold ci. cbn [nth ag_imgsz ag_f ag_cx ag_cy ag_k1 ag_k2 ag_k3 ag_k4 ag_p1 ag_p2 ag_b1 ag_b2 fst snd]. rewrite lens_poly. f_equal; field. }
  unfold same_projection, defined_at, kk, f_ in *. getters V. rewrite (ex_f _ _ _ _ _ _ _ _ _ _ _ _ _ _ _ _ _ _ _ _ _ V) in F. cbn [nth] in *.
  split.
  - intros HH. apply (radial_exact k1 k2 k3). intros s Hs D. specialize (HH (sqrt s, 0)). cbn [fst snd] in HH. replace (sqrt s ^ 2 + 0 ^ 2) with s in HH by (rewrite <- Rsqr_pow2, Rsqr_sqrt; lra).
    specialize (HH D). rewrite P, (ex_proj _ _ _ _ _ _ _ _ _ _ _ _ _ _ _ _ _ _ _ _ _ V) in HH. unfold lens in HH. replace (sqrt s ^ 2 + 0 ^ 2) with s in HH by (rewrite <- Rsqr_pow2, Rsqr_sqrt; lra).
    cbv zeta in HH. apply pair_eq in HH. destruct HH as [HH _]. assert (Q : 0 < sqrt s) by now apply sqrt_lt_R0.
    assert (E : f0 * sqrt s * lens_radial k1 k2 k3 0 0 0 s = f0 * sqrt s * lens_radial k1 k2 k3 k4 k5 k6 s) by lra.
    apply Rmult_eq_reg_l in E; [|apply Rmult_integral_contrapositive_currified; lra]. rewrite <- E. unfold lens_radial. field.
  - intros (-> & -> & ->) [x y] _. rewrite P. symmetry. apply (ex_proj _ _ _ _ _ _ _ _ _ _ _ _ _ _ _ _ _ _ _ _ _ V).
Qed.
Print Assumptions agisoft_from_exact_iff.

Theorem matlab_from_exact_iff c uv solve : sound c -> f_ c 0 <> 0 ->
  exists m, ml_from_camera c ONo uv solve = Ok (m, None) /\
  (same_projection c (ml_xy_to_uv m) <-> kk c 3 = 0 /\ kk c 4 = 0 /\ kk c 5 = 0).
Proof.
  intros S F. exists (ml_from_initial c). split; [reflexivity|]. explicit S.
  assert (P : forall x y, ml_xy_to_uv (ml_from_initial c) (x, y) = let '(xd, yd) := lens k1 k2 k3 0 0 0 p1 p2 x y in (f0 * xd + (IZR W / 2 + c0), f1 * yd + (IZR H / 2 + c1))).
  { intros x y. unfold ml_xy_to_uv, ml_from_initial. getters V. unfold ci. cbn [nth ml_imgsz ml_fc ml_cc ml_kc ml_alpha fst snd]. rewrite lens_poly. f_equal; field. }
  unfold same_projection, defined_at, kk, f_ in *. getters V. rewrite (ex_f _ _ _ _ _ _ _ _ _ _ _ _ _ _ _ _ _ _ _ _ _ V) in F. cbn [nth] in *.
  split.
  - intros HH. apply (radial_exact k1 k2 k3). intros s Hs D. specialize (HH (sqrt s, 0)). cbn [fst snd] in HH. replace (sqrt s ^ 2 + 0 ^ 2) with s in HH by (rewrite <- Rsqr_pow2, Rsqr_sqrt; lra).
    specialize (HH D). rewrite P, (ex_proj _ _ _ _ _ _ _ _ _ _ _ _ _ _ _ _ _ _ _ _ _ V) in HH. unfold lens in HH. replace (sqrt s ^ 2 + 0 ^ 2) with s in HH by (rewrite <- Rsqr_pow2, Rsqr_sqrt; lra).
    cbv zeta in HH. apply pair_eq in HH. destruct HH as [HH _]. assert (Q : 0 < sqrt s) by now apply sqrt_lt_R0.
    assert (E : f0 * sqrt s * lens_radial k1 k2 k3 0 0 0 s = f0 * sqrt s * lens_radial k1 k2 k3 k4 k5 k6 s) by lra.
    apply Rmult_eq_reg_l in E; [|apply Rmult_integral_contrapositive_currified; lra]. rewrite <- E. unfold lens_radial. field.
  - intros (-> & -> & ->) [x y] _. rewrite P. symmetry. apply (ex_proj _ _ _ _ _ _ _ _ _ _ _ _ _ _ _ _ _ _ _ _ _ V).
Qed.
Print Assumptions matlab_from_exact_iff.

Theorem opencv_from_exact c : sound c -> same_projection c (cv_xy_to_uv (cv_from_camera c)).
Proof.
  intros S [x y] _. explicit S. rewrite (ex_proj _ _ _ _ _ _ _ _ _ _ _ _ _ _ _ _ _ _ _ _ _ V). unfold cv_xy_to_uv, cv_from_camera, ci. getters V.
  cbn [nth cv_imgsz cv_fx cv_fy cv_cx cv_cy cv_k1 cv_k2 cv_k3 cv_k4 cv_k5 cv_k6 cv_p1 cv_p2 cv_s1 cv_s2 cv_s3 cv_s4 fst snd]. unfold lens, lens_radial. cbv zeta. f_equal; unfold Rdiv; ring.
Qed.
Print Assumptions opencv_from_exact.

Lemma pm_plain sz fo xp yp fw fh u v : pm_uv_to_xy (mk_pm sz fo xp yp fw fh 0 0 0 0 0) (u, v) = ((u * fw / IZR (fst sz) - xp) / fo, (v * fh / IZR (snd sz) - yp) / fo).
Proof. unfold pm_uv_to_xy. cbn [pm_imgsz pm_focal pm_xp pm_yp pm_fw pm_fh pm_k1 pm_k2 pm_k3 pm_p1 pm_p2]. f_equal; unfold Rdiv; ring. Qed.
(** PhotoModeler models the inverse: image points to ideal coordinates. *)
Theorem photomodeler_from_exact c Wd Ht fx fy sw sh uv solve : sound c -> get_imgsz c = [Wd; Ht] -> get_f c = [fx; fy] -> sensorsz c = Some [sw; sh] ->
  Wd <> 0%Z -> Ht <> 0%Z -> fx <> 0 -> fy <> 0 -> sw <> 0 -> sh <> 0 -> fx * sw / IZR Wd = fy * sh / IZR Ht -> get_k c = [0; 0; 0; 0; 0; 0] -> get_p c = [0; 0] ->
  exists m, (forall o, pm_from_camera c o uv solve = Ok (m, None)) /\ (forall p, xy_to_uv c (pm_uv_to_xy m p) = p) /\ forall pts, residuals_out (pm_uv_to_xy m) c pts = map (fun _ => (0, 0)) pts.
Proof.
  intros S Esz Ef Es HW HH Hfx Hfy Hsw Hsh Em Ek Ep. explicit S.
  rewrite (ex_sz _ _ _ _ _ _ _ _ _ _ _ _ _ _ _ _ _ _ _ _ _ V) in Esz. injection Esz as -> ->. rename Wd into W, Ht into H.
  rewrite (ex_f _ _ _ _ _ _ _ _ _ _ _ _ _ _ _ _ _ _ _ _ _ V) in Ef. injection Ef as -> ->.
  pose proof Ek as Ek'. pose proof Ep as Ep'.
  rewrite (ex_k _ _ _ _ _ _ _ _ _ _ _ _ _ _ _ _ _ _ _ _ _ V) in Ek. injection Ek as -> -> -> -> -> ->.
  rewrite (ex_p _ _ _ _ _ _ _ _ _ _ _ _ _ _ _ _ _ _ _ _ _ V) in Ep. injection Ep as -> ->.
  assert (HW' : IZR W <> 0) by now apply not_0_IZR. assert (HH' : IZR H <> 0) by now apply not_0_IZR.
  assert (Gf : get_fmm c = Some (Ok [fx * sw / IZR W; fy * sh / IZR H])) by (unfold get_fmm, px_to_mm; rewrite Es; getters V; reflexivity).
  assert (Gc : get_cmm c = Some (Ok [c0 * sw / IZR W; c1 * sh / IZR H])) by (unfold get_cmm, px_to_mm; rewrite Es; getters V; reflexivity).
  set (m := mk_pm (W, H) ((fx * sw / IZR W + fy * sh / IZR H) / 2) (c0 * sw / IZR W + sw / 2) (c1 * sh / IZR H + sh / 2) sw sh 0 0 0 0 0).
  assert (Ei : pm_from_initial c = Ok m) by (unfold pm_from_initial; rewrite Es, Gf, Gc; cbn [bind]; unfold ci; getters V; reflexivity).
  assert (Inv : forall p, xy_to_uv c (pm_uv_to_xy m p) = p).
  { intros [u v]. unfold m. rewrite pm_plain.
    rewrite (ex_proj _ _ _ _ _ _ _ _ _ _ _ _ _ _ _ _ _ _ _ _ _ V). rewrite lens_poly.
    assert (E1 : (fx * sw / IZR W + fy * sh / IZR H) / 2 = fx * sw / IZR W) by (rewrite Em; lra).
    assert (E2 : (fx * sw / IZR W + fy * sh / IZR H) / 2 = fy * sh / IZR H) by (rewrite Em; lra).
    cbn [fst snd]. f_equal; [rewrite E1|rewrite E2]. all: field; auto. }
  exists m. split; [|split; [exact Inv|]].
  - intros o. unfold pm_from_camera. rewrite Ei. cbn [bind]. rewrite Gf. cbn [bind]. unfold ci. cbn [nth]. rewrite Ek', Ep'. rewrite Em.
    unfold Reqb at 1. destruct (Req_EM_T _ _) as [_|N]; [|exfalso; now apply N]. unfold all0, Reqb. cbn. destruct (Req_EM_T 0 0) as [_|N]; [|lra]. cbn. now rewrite orb_true_r.
  - intros pts. unfold residuals_out. apply map_ext. intros p. rewrite Inv. unfold sub2. f_equal; ring.
Qed.
Print Assumptions photomodeler_from_exact.

(** When the conversion is exact nothing is optimised, whatever is asked for, and the
    residuals of the Converter vanish. *)
Theorem agisoft_from_no_optimization c : sound c -> kk c 3 = 0 -> kk c 4 = 0 -> kk c 5 = 0 ->
  exists a, (forall o uv solve, ag_from_camera c o uv solve = Ok (a, None)) /\
  forall pts, residuals_in (ag_xy_to_uv a) c pts = map (fun _ => (0, 0)) pts.
Proof.
  intros S A B C. exists (ag_from_initial c). split.
  - intros o uv solve. unfold ag_from_camera. explicit S. unfold kk in A, B, C. rewrite (ex_k _ _ _ _ _ _ _ _ _ _ _ _ _ _ _ _ _ _ _ _ _ V) in *. cbn in A, B, C. unfold slice. cbn [skipn firstn].
    rewrite (proj2 (all0_3 k4 k5 k6)) by auto. now rewrite orb_true_r.
  - intros pts. unfold residuals_in. apply map_ext. intros p. assert (E : same_projection c (ag_xy_to_uv (ag_from_initial c))).
    { intros [x y] _. explicit S. unfold kk in A, B, C. rewrite (ex_k _ _ _ _ _ _ _ _ _ _ _ _ _ _ _ _ _ _ _ _ _ V) in *. cbn in A, B, C. subst k4 k5 k6.
      rewrite (ex_proj _ _ _ _ _ _ _ _ _ _ _ _ _ _ _ _ _ _ _ _ _ V), lens_poly. unfold ag_xy_to_uv, ag_from_initial, ci. getters V.
      cbn [nth ag_imgsz ag_f ag_cx ag_cy ag_k1 ag_k2 ag_k3 ag_k4 ag_p1 ag_p2 ag_b1 ag_b2 fst snd]. f_equal; field. }
    rewrite E; [unfold sub2; f_equal; ring|]. unfold defined_at. rewrite A, B, C. lra.
Qed.
Print Assumptions agisoft_from_no_optimization.

Theorem matlab_from_no_optimization c : sound c -> kk c 3 = 0 -> kk c 4 = 0 -> kk c 5 = 0 ->
  exists m, (forall o uv solve, ml_from_camera c o uv solve = Ok (m, None)) /\
  forall pts, residuals_in (ml_xy_to_uv m) c pts = map (fun _ => (0, 0)) pts.
Proof.
  intros S A B C. exists (ml_from_initial c). split.
  - intros o uv solve. unfold ml_from_camera. explicit S. unfold kk in A, B, C. rewrite (ex_k _ _ _ _ _ _ _ _ _ _ _ _ _ _ _ _ _ _ _ _ _ V) in *. cbn in A, B, C. unfold slice. cbn [skipn firstn].
    rewrite (proj2 (all0_3 k4 k5 k6)) by auto. now rewrite orb_true_r.
  - intros pts. unfold residuals_in. apply map_ext. intros p. assert (E : same_projection c (ml_xy_to_uv (ml_from_initial c))).
    { intros [x y] _. explicit S. unfold kk in A, B, C. rewrite (ex_k _ _ _ _ _ _ _ _ _ _ _ _ _ _ _ _ _ _ _ _ _ V) in *. cbn in A, B, C. subst k4 k5 k6.
      rewrite (ex_proj _ _ _ _ _ _ _ _ _ _ _ _ _ _ _ _ _ _ _ _ _ V), lens_poly. unfold ml_xy_to_uv, ml_from_initial, ci. getters V.
      cbn [nth ml_imgsz ml_fc ml_cc ml_kc ml_alpha fst snd]. f_equal; field. }
    rewrite E; [unfold sub2; f_equal; ring|]. unfold defined_at. rewrite A, B, C. lra.
Qed.
Print Assumptions matlab_from_no_optimization.

(** Otherwise optimize=True starts the solver at the camera's values and replaces exactly
    the documented parameters by its solution: k1, k2, k3 (Agisoft), kc (Matlab). *)
Theorem agisoft_from_optimizes c uv solve pts : sound c -> ~ (kk c 3 = 0 /\ kk c 4 = 0 /\ kk c 5 = 0) -> keeps_length solve -> converter (wh c) c uv = Ok pts ->
  exists a v1 v2 v3 f, ag_from_camera c ONo uv solve = Ok (a, None) /\ solve f [kk c 0; kk c 1; kk c 2] = [v1; v2; v3] /\
  let with_k x1 x2 x3 := mk_ag (ag_imgsz a) (ag_f a) (ag_cx a) (ag_cy a) x1 x2 x3 (ag_k4 a) (ag_p1 a) (ag_p2 a) (ag_b1 a) (ag_b2 a) in
  ag_from_camera c OYes uv solve = Ok (with_k v1 v2 v3, Some [kk c 0; kk c 1; kk c 2]) /\
  forall x1 x2 x3, f [x1; x2; x3] = residuals_in (ag_xy_to_uv (with_k x1 x2 x3)) c pts.
Proof.
  intros S N L Ec. explicit S. unfold kk in *. rewrite (ex_k _ _ _ _ _ _ _ _ _ _ _ _ _ _ _ _ _ _ _ _ _ V) in *. cbn [nth] in N |- *.
  assert (A : all0 (slice 3 3 (get_k c)) = false).
  { rewrite (ex_k _ _ _ _ _ _ _ _ _ _ _ _ _ _ _ _ _ _ _ _ _ V). unfold slice. cbn [skipn firstn]. destruct (all0 [k4; k5; k6]) eqn:E; [|reflexivity]. exfalso. apply N. now apply all0_3. }
  set (a := ag_from_initial c). set (f := fun v => match apply_values ag_get ag_set [(AGk1, STrue); (AGk2, STrue); (AGk3, STrue)] v a with Ok y => residuals_in (ag_xy_to_uv y) c pts | Err _ => [] end).
  assert (Ls : length (solve f [k1; k2; k3]) = 3%nat) by (rewrite L; reflexivity). destruct (solve f [k1; k2; k3]) as [|v1 [|v2 [|v3 [|]]]] eqn:Es; try discriminate Ls. clear Ls.
  exists a, v1, v2, v3, f. split; [reflexivity|]. split; [exact Es|]. cbv zeta.
  assert (Ka : ag_k1 a = k1 /\ ag_k2 a = k2 /\ ag_k3 a = k3) by (unfold a, ag_from_initial, ci; getters V; cbn; auto). destruct Ka as (Ka1 & Ka2 & Ka3).
  assert (Ap : forall x1 x2 x3, apply_values ag_get ag_set [(AGk1, STrue); (AGk2, STrue); (AGk3, STrue)] [x1; x2; x3] a
    = Ok (mk_ag (ag_imgsz a) (ag_f a) (ag_cx a) (ag_cy a) x1 x2 x3 (ag_k4 a) (ag_p1 a) (ag_p2 a) (ag_b1 a) (ag_b2 a))) by reflexivity.
  split.
  - unfold ag_from_camera. fold a. rewrite A. cbn [falsy orb]. change (ag_imgsz a) with (wh c). rewrite Ec. cbn [bind]. unfold optimize_xcam.
    cbn [filter truthy snd]. assert (St : start_values ag_get [(AGk1, STrue); (AGk2, STrue); (AGk3, STrue)] a = Ok [k1; k2; k3]) by (cbn [start_values extend_values ag_get bind app]; now rewrite Ka1, Ka2, Ka3).
    rewrite St. cbn [bind]. fold f. rewrite Es, Ap. reflexivity.
  - intros. unfold f. now rewrite Ap.
Qed.
Print Assumptions agisoft_from_optimizes.

Theorem matlab_from_optimizes c uv solve pts : sound c -> ~ (kk c 3 = 0 /\ kk c 4 = 0 /\ kk c 5 = 0) -> keeps_length solve -> converter (wh c) c uv = Ok pts ->
  exists m f, ml_from_camera c ONo uv solve = Ok (m, None) /\
  let x0 := [kk c 0; kk c 1; pp c 0; pp c 1; kk c 2] in
  let with_kc kc := mk_ml (ml_imgsz m) (ml_fc m) (ml_cc m) kc (ml_alpha m) in
  ml_from_camera c OYes uv solve = Ok (with_kc (solve f x0), Some x0) /\
  forall kc, length kc = 5%nat -> f kc = residuals_in (ml_xy_to_uv (with_kc kc)) c pts.
Proof.
  intros S N L Ec. explicit S. unfold kk, pp in *. rewrite (ex_p _ _ _ _ _ _ _ _ _ _ _ _ _ _ _ _ _ _ _ _ _ V). rewrite (ex_k _ _ _ _ _ _ _ _ _ _ _ _ _ _ _ _ _ _ _ _ _ V) in *. cbn [nth] in N |- *.
  assert (A : all0 (slice 3 3 (get_k c)) = false).
  { rewrite (ex_k _ _ _ _ _ _ _ _ _ _ _ _ _ _ _ _ _ _ _ _ _ V). unfold slice. cbn [skipn firstn]. destruct (all0 [k4; k5; k6]) eqn:E; [|reflexivity]. exfalso. apply N. now apply all0_3. }
  set (m := ml_from_initial c). set (f := fun v => match apply_values ml_get ml_set [(MLkc, STrue)] v m with Ok y => residuals_in (ml_xy_to_uv y) c pts | Err _ => [] end).
  assert (Km : ml_kc m = [k1; k2; p1; p2; k3]) by (unfold m, ml_from_initial, ci; getters V; reflexivity).
  assert (Ap : forall x1 x2 x3 x4 x5, apply_values ml_get ml_set [(MLkc, STrue)] [x1; x2; x3; x4; x5] m = Ok (mk_ml (ml_imgsz m) (ml_fc m) (ml_cc m) [x1; x2; x3; x4; x5] (ml_alpha m))).
  { intros. cbn [apply_values ml_get]. rewrite Km. reflexivity. }
  assert (L5 : forall l : list R, length l = 5%nat -> exists x1 x2 x3 x4 x5, l = [x1; x2; x3; x4; x5]).
  { intros [|x1 [|x2 [|x3 [|x4 [|x5 [|]]]]]] Q; try discriminate Q. now exists x1, x2, x3, x4, x5. }
  exists m, f. split; [reflexivity|]. cbv zeta. split.
  - unfold ml_from_camera. fold m. rewrite A. cbn [falsy orb]. change (ml_imgsz m) with (wh c). rewrite Ec. cbn [bind]. unfold optimize_xcam. cbn [filter truthy snd].
    assert (St : start_values ml_get [(MLkc, STrue)] m = Ok [k1; k2; p1; p2; k3]) by (cbn [start_values ml_get extend_values bind]; rewrite Km; reflexivity).
    rewrite St. cbn [bind]. fold f. destruct (L5 (solve f [k1; k2; p1; p2; k3])) as (x1 & x2 & x3 & x4 & x5 & ->); [now rewrite L|]. rewrite Ap. reflexivity.
  - intros kc Lk. destruct (L5 kc Lk) as (x1 & x2 & x3 & x4 & x5 & ->). unfold f. now rewrite Ap.
Qed.
Print Assumptions matlab_from_optimizes.

(** With a dictionary: reading the selected parameters back gives the solver's solution
    and everything else is kept.  [selected] and [good_sel] describe True and lists of indices. *)
Lemma ag_key_dec (a b : ag_key) : {a = b} + {a <> b}. Proof. decide equality. Qed.
Lemma ml_key_dec (a b : ml_key) : {a = b} + {a <> b}. Proof. decide equality. Qed.
Lemma pm_key_dec (a b : pm_key) : {a = b} + {a <> b}. Proof. decide equality. Qed.
Lemma list1 (v : list R) : length v = 1%nat -> [ci v 0] = v. Proof. destruct v as [|a [|]]; intros E; try discriminate E. reflexivity. Qed.
Lemma list2 (v : list R) : length v = 2%nat -> [ci v 0; ci v 1] = v. Proof. destruct v as [|a [|b [|]]]; intros E; try discriminate E. reflexivity. Qed.
Lemma ag_get_set k v a : length v = length (ag_get k a) -> ag_get k (ag_set k v a) = v.
Proof. intros L. rewrite <- (list1 v L) at 2. destruct a, k; reflexivity. Qed.
Lemma ag_get_other k k' v a : k <> k' -> ag_get k' (ag_set k v a) = ag_get k' a.
Proof. destruct a, k, k'; intros N; try reflexivity; exfalso; now apply N. Qed.
Lemma pm_get_set k v a : length v = length (pm_get k a) -> pm_get k (pm_set k v a) = v.
Proof. intros L. rewrite <- (list1 v L) at 2. destruct a, k; reflexivity. Qed.
Lemma pm_get_other k k' v a : k <> k' -> pm_get k' (pm_set k v a) = pm_get k' a.
Proof. destruct a, k, k'; intros N; try reflexivity; exfalso; now apply N. Qed.
Lemma ml_get_set k v m : length v = length (ml_get k m) -> ml_get k (ml_set k v m) = v.
Proof. intros L. destruct m, k; cbn in L |- *; [now apply list2|now apply list2|reflexivity|now apply list1]. Qed.
Lemma ml_get_other k k' v m : k <> k' -> ml_get k' (ml_set k v m) = ml_get k' m.
Proof. destruct m, k, k'; intros N; try reflexivity; exfalso; now apply N. Qed.

(** optimize_xcam: the selection holds the solver's solution, nothing else changes; the
    residuals given to the solver are those of such a camera. *)
Definition only_selected {X K} (getx : K -> X -> list R) (resid : X -> list vec2) (solve : solver) (d : list (K * sel)) (x : X) (r : result (X * option (list R))) : Prop :=
  let read := start_values getx (filter (fun ks => truthy (snd ks)) d) in
  exists x' x0 f, r = Ok (x', Some x0) /\ read x = Ok x0 /\ read x' = Ok (solve f x0) /\
  (forall k i, ~ selected K d k i -> nth i (getx k x') 0 = nth i (getx k x) 0) /\
  (forall w, length w = length x0 -> exists y, read y = Ok w /\ f w = resid y /\ forall k i, ~ selected K d k i -> nth i (getx k y) 0 = nth i (getx k x) 0).
Theorem agisoft_from_selected c d uv solve pts a : sound c -> ~ (kk c 3 = 0 /\ kk c 4 = 0 /\ kk c 5 = 0) -> keeps_length solve -> converter (wh c) c uv = Ok pts ->
  ag_from_camera c ONo uv solve = Ok (a, None) -> d <> [] -> NoDup (map fst d) -> (forall k s, In (k, s) d -> good_sel agisoft ag_key ag_get a k s) ->
  only_selected ag_get (fun a => residuals_in (ag_xy_to_uv a) c pts) solve d a (ag_from_camera c (ODict d) uv solve).
Proof.
  intros S N L Ec Ea Nd Nk G. injection Ea as <-. explicit S.
  assert (A : all0 (slice 3 3 (get_k c)) = false).
  { unfold kk in N. rewrite (ex_k _ _ _ _ _ _ _ _ _ _ _ _ _ _ _ _ _ _ _ _ _ V) in *. unfold slice. cbn [skipn firstn nth] in *. destruct (all0 [k4; k5; k6]) eqn:E; [|reflexivity]. exfalso. apply N. now apply all0_3. }
  unfold ag_from_camera. rewrite A. replace (falsy (ODict d)) with false by (destruct d; [contradiction|reflexivity]). cbn [orb]. change (ag_imgsz (ag_from_initial c)) with (wh c). rewrite Ec. cbn [bind].
  destruct (optimize_xcam_spec agisoft ag_key ag_get ag_set ag_key_dec ag_get_set ag_get_other (fun x => residuals_in (ag_xy_to_uv x) c pts) d solve (ag_from_initial c) Nk G L) as (x0 & x' & f & E1 & E2 & E3 & E4 & _ & E5).
  exists x', x0, f. auto.
Qed.
Print Assumptions agisoft_from_selected.
Theorem matlab_from_selected c d uv solve pts a : sound c -> ~ (kk c 3 = 0 /\ kk c 4 = 0 /\ kk c 5 = 0) -> keeps_length solve -> converter (wh c) c uv = Ok pts ->
  ml_from_camera c ONo uv solve = Ok (a, None) -> d <> [] -> NoDup (map fst d) -> (forall k s, In (k, s) d -> good_sel matlab ml_key ml_get a k s) ->
  only_selected ml_get (fun a => residuals_in (ml_xy_to_uv a) c pts) solve d a (ml_from_camera c (ODict d) uv solve).
Proof.
  intros S N L Ec Ea Nd Nk G. injection Ea as <-. explicit S.
  assert (A : all0 (slice 3 3 (get_k c)) = false).
  { unfold kk in N. rewrite (ex_k _ _ _ _ _ _ _ _ _ _ _ _ _ _ _ _ _ _ _ _ _ V) in *. unfold slice. cbn [skipn firstn nth] in *. destruct (all0 [k4; k5; k6]) eqn:E; [|reflexivity]. exfalso. apply N. now apply all0_3. }
  unfold ml_from_camera. rewrite A. replace (falsy (ODict d)) with false by (destruct d; [contradiction|reflexivity]). cbn [orb]. change (ml_imgsz (ml_from_initial c)) with (wh c). rewrite Ec. cbn [bind].
  destruct (optimize_xcam_spec matlab ml_key ml_get ml_set ml_key_dec ml_get_set ml_get_other (fun x => residuals_in (ml_xy_to_uv x) c pts) d solve (ml_from_initial c) Nk G L) as (x0 & x' & f & E1 & E2 & E3 & E4 & _ & E5).
  exists x', x0, f. auto.
Qed.
Print Assumptions matlab_from_selected.

(** Finding: a single index, documented as "first element" and so on, either raises or is ignored. *)
Theorem convert_index_refuted c uv solve pts : sound c -> ~ (kk c 3 = 0 /\ kk c 4 = 0 /\ kk c 5 = 0) -> keeps_length solve -> converter (wh c) c uv = Ok pts ->
  ml_from_camera c (ODict [(MLkc, SInt 1)]) uv solve = Err TypeError /\
  exists m, ml_from_camera c ONo uv solve = Ok (m, None) /\ ml_from_camera c (ODict [(MLkc, SInt 0)]) uv solve = Ok (m, Some []).
Proof.
  intros S N L Ec. explicit S.
  assert (A : all0 (slice 3 3 (get_k c)) = false).
  { unfold kk in N. rewrite (ex_k _ _ _ _ _ _ _ _ _ _ _ _ _ _ _ _ _ _ _ _ _ V) in *. unfold slice. cbn [skipn firstn nth] in *. destruct (all0 [k4; k5; k6]) eqn:E; [|reflexivity]. exfalso. apply N. now apply all0_3. }
  unfold ml_from_camera. rewrite A. cbn [falsy length Nat.eqb orb]. change (ml_imgsz (ml_from_initial c)) with (wh c). rewrite Ec. cbn [bind]. split; [reflexivity|].
  exists (ml_from_initial c). split; reflexivity.
Qed.
Print Assumptions convert_index_refuted.

(* ------------------------------------------------------------------ *)
(** ** To a camera *)

(** Without optimisation the camera projects every point like the external camera if and
    only if the documented parameters vanish. *)
Theorem agisoft_to_exact_iff a uv solve : ag_f a <> 0 ->
  exists c, ag_to_camera a ONo uv solve = Ok (c, None) /\ (same_projection c (ag_xy_to_uv a) <-> ag_k4 a = 0 /\ ag_b2 a = 0).
Proof.
  intros F. destruct a as [[W H] f cx cy k1 k2 k3 k4 p1 p2 b1 b2]. cbn [ag_f ag_k4 ag_b2] in *.
  set (v := cam_of 0 0 0 0 0 0 W H (f + b1) f cx cy k1 k2 k3 0 0 0 p2 p1). set (c := mkcam v v None None). exists c.
  assert (E : ag_to_initial (mk_ag (W, H) f cx cy k1 k2 k3 k4 p1 p2 b1 b2) = Ok c) by (apply construct_px; auto).
  split; [unfold ag_to_camera; rewrite E; reflexivity|].
  assert (V : vec c = cam_of 0 0 0 0 0 0 W H (f + b1) f cx cy k1 k2 k3 0 0 0 p2 p1) by reflexivity.
  pose proof (ex_proj _ _ _ _ _ _ _ _ _ _ _ _ _ _ _ _ _ _ _ _ _ V) as P.
  assert (Df : forall xy, defined_at c xy) by (intros xy; unfold defined_at, kk; rewrite (ex_k _ _ _ _ _ _ _ _ _ _ _ _ _ _ _ _ _ _ _ _ _ V); cbn [nth]; lra).
  split.
  - intros HH.
    assert (Q : forall t, f * k4 * t ^ 9 = 0 /\ b2 * (t * (1 + 3 * p2 * t + k1 * t ^ 2 + k2 * t ^ 4 + k3 * t ^ 6 + k4 * t ^ 8)) = 0).
    { intros t. specialize (HH (0, t) (Df _)). rewrite P, lens_poly in HH. unfold ag_xy_to_uv in HH. cbn [ag_imgsz ag_f ag_cx ag_cy ag_k1 ag_k2 ag_k3 ag_k4 ag_p1 ag_p2 ag_b1 ag_b2 fst snd] in HH.
      apply pair_eq in HH. destruct HH as [H1 H2]. assert (A : f * k4 * t ^ 9 = 0) by lra. split; [exact A|]. lra. }
    assert (K4 : k4 = 0). { destruct (Q 1) as [A _]. rewrite pow1, Rmult_1_r in A. apply Rmult_integral in A. destruct A; [contradiction|assumption]. }
    split; [exact K4|]. subst k4. destruct (small_poly (3 * p2) k1 0 k2 k3) as (e & E1 & E2). specialize (E2 e ltac:(lra)). destruct (Q e) as [_ B].
    apply Rmult_integral in B. destruct B as [B|B]; [exact B|]. apply Rmult_integral in B. destruct B as [B|B]; lra.
  - intros [-> ->] [x y] _. rewrite P, lens_poly. unfold ag_xy_to_uv. cbn [ag_imgsz ag_f ag_cx ag_cy ag_k1 ag_k2 ag_k3 ag_k4 ag_p1 ag_p2 ag_b1 ag_b2 fst snd]. f_equal; field.
Qed.
Print Assumptions agisoft_to_exact_iff.

Theorem matlab_to_exact_iff m uv solve : fst (ml_fc m) <> 0 ->
  exists c, ml_to_camera m ONo uv solve = Ok (c, None) /\ (same_projection c (ml_xy_to_uv m) <-> ml_alpha m = 0).
Proof.
  intros F. destruct m as [[W H] [fx fy] [cx cy] kc al]. cbn [ml_fc ml_alpha fst] in *.
  set (v := cam_of 0 0 0 0 0 0 W H fx fy (cx + / 2 - IZR W / 2) (cy + / 2 - IZR H / 2) (ci kc 0) (ci kc 1) (ci kc 4) 0 0 0 (ci kc 2) (ci kc 3)). set (c := mkcam v v None None). exists c.
  assert (E : ml_to_initial (mk_ml (W, H) (fx, fy) (cx, cy) kc al) = Ok c) by (apply construct_px; auto).
  split; [unfold ml_to_camera; rewrite E; reflexivity|].
  assert (V : vec c = cam_of 0 0 0 0 0 0 W H fx fy (cx + / 2 - IZR W / 2) (cy + / 2 - IZR H / 2) (ci kc 0) (ci kc 1) (ci kc 4) 0 0 0 (ci kc 2) (ci kc 3)) by reflexivity.
  pose proof (ex_proj _ _ _ _ _ _ _ _ _ _ _ _ _ _ _ _ _ _ _ _ _ V) as P.
  assert (Df : forall xy, defined_at c xy) by (intros xy; unfold defined_at, kk; rewrite (ex_k _ _ _ _ _ _ _ _ _ _ _ _ _ _ _ _ _ _ _ _ _ V); cbn [nth]; lra).
  split.
  - intros HH. destruct (small_poly (3 * ci kc 2) (ci kc 0) 0 (ci kc 1) (ci kc 4)) as (e & E1 & E2). specialize (E2 e ltac:(lra)).
    specialize (HH (0, e) (Df _)). rewrite P, lens_poly in HH. unfold ml_xy_to_uv in HH. cbn [ml_imgsz ml_fc ml_cc ml_kc ml_alpha fst snd] in HH. apply pair_eq in HH. destruct HH as [HH _].
    assert (B : fx * (al * (e * (1 + (3 * ci kc 2 * e + ci kc 0 * e ^ 2 + 0 * e ^ 3 + ci kc 1 * e ^ 4 + ci kc 4 * e ^ 6)))) = 0) by lra.
    apply Rmult_integral in B. destruct B as [B|B]; [contradiction|]. apply Rmult_integral in B. destruct B as [B|B]; [exact B|]. apply Rmult_integral in B. destruct B; lra.
  - intros -> [x y] _. rewrite P, lens_poly. unfold ml_xy_to_uv. cbn [ml_imgsz ml_fc ml_cc ml_kc ml_alpha fst snd]. f_equal; field.
Qed.
Print Assumptions matlab_to_exact_iff.

Theorem opencv_to_exact_iff o uv solve : cv_fx o <> 0 -> cv_fy o <> 0 ->
  exists c, cv_to_camera o ONo uv solve = Ok (c, None) /\ (same_projection c (cv_xy_to_uv o) <-> cv_s1 o = 0 /\ cv_s2 o = 0 /\ cv_s3 o = 0 /\ cv_s4 o = 0).
Proof.
  intros Fx Fy. destruct o as [[W H] fx fy cx cy k1 k2 k3 k4 k5 k6 p1 p2 s1 s2 s3 s4]. cbn [cv_fx cv_fy cv_s1 cv_s2 cv_s3 cv_s4] in *.
  set (v := cam_of 0 0 0 0 0 0 W H fx fy (cx - IZR W / 2) (cy - IZR H / 2) k1 k2 k3 k4 k5 k6 p1 p2). set (c := mkcam v v None None). exists c.
  assert (E : cv_to_initial (mk_cv (W, H) fx fy cx cy k1 k2 k3 k4 k5 k6 p1 p2 s1 s2 s3 s4) = Ok c) by (apply construct_px; auto).
  split; [unfold cv_to_camera; rewrite E; reflexivity|].
  assert (V : vec c = cam_of 0 0 0 0 0 0 W H fx fy (cx - IZR W / 2) (cy - IZR H / 2) k1 k2 k3 k4 k5 k6 p1 p2) by reflexivity.
  pose proof (ex_proj _ _ _ _ _ _ _ _ _ _ _ _ _ _ _ _ _ _ _ _ _ V) as P.
  assert (Pc : forall x y, cv_xy_to_uv (mk_cv (W, H) fx fy cx cy k1 k2 k3 k4 k5 k6 p1 p2 s1 s2 s3 s4) (x, y) =
    let '(xd, yd) := lens k1 k2 k3 k4 k5 k6 p1 p2 x y in let r := x ^ 2 + y ^ 2 in (fx * (xd + r * (s1 + s2 * r)) + cx, fy * (yd + r * (s3 + s4 * r)) + cy)).
  { intros x y. unfold cv_xy_to_uv, lens, lens_radial. cbn [cv_imgsz cv_fx cv_fy cv_cx cv_cy cv_k1 cv_k2 cv_k3 cv_k4 cv_k5 cv_k6 cv_p1 cv_p2 cv_s1 cv_s2 cv_s3 cv_s4]. cbv zeta. f_equal; unfold Rdiv; ring. }
  unfold same_projection, defined_at, kk. rewrite (ex_k _ _ _ _ _ _ _ _ _ _ _ _ _ _ _ _ _ _ _ _ _ V). cbn [nth]. split.
  - intros HH. destruct (small_poly k4 k5 k6 0 0) as (e & E1 & E2).
    assert (Q : forall r, 0 < r <= e -> s1 + s2 * r + 0 * r ^ 2 = 0 /\ s3 + s4 * r + 0 * r ^ 2 = 0).
    { intros r Hr. specialize (E2 r Hr). assert (Rr : sqrt r ^ 2 + 0 ^ 2 = r) by (rewrite <- Rsqr_pow2, Rsqr_sqrt; lra). specialize (HH (sqrt r, 0)). cbn [fst snd] in HH. rewrite Rr in HH.
      specialize (HH ltac:(lra)). rewrite P, Pc in HH. destruct (lens k1 k2 k3 k4 k5 k6 p1 p2 (sqrt r) 0) as [xd yd]. rewrite Rr in HH. cbv zeta in HH. apply pair_eq in HH. destruct HH as [H1 H2].
      assert (A : fx * (r * (s1 + s2 * r)) = 0) by lra. assert (B : fy * (r * (s3 + s4 * r)) = 0) by lra.
      apply Rmult_integral in A. destruct A as [A|A]; [contradiction|]. apply Rmult_integral in A. apply Rmult_integral in B. destruct B as [B|B]; [contradiction|]. apply Rmult_integral in B. destruct A as [A|A], B as [B|B]; lra. }
    destruct (quad_zero s1 s2 0 e E1 (fun r Hr => proj1 (Q r Hr))) as (-> & -> & _). destruct (quad_zero s3 s4 0 e E1 (fun r Hr => proj2 (Q r Hr))) as (-> & -> & _). auto.
  - intros (-> & -> & -> & ->) [x y] _. rewrite P, Pc. destruct (lens k1 k2 k3 k4 k5 k6 p1 p2 x y) as [xd yd]. cbv zeta. f_equal; field.
Qed.
Print Assumptions opencv_to_exact_iff.

Theorem photomodeler_to_exact_iff m uv solve : pm_focal m <> 0 -> pm_fw m <> 0 -> pm_fh m <> 0 -> fst (pm_imgsz m) <> 0%Z -> snd (pm_imgsz m) <> 0%Z ->
  exists c, pm_to_camera m ONo uv solve = Ok (c, None) /\
  ((forall p, xy_to_uv c (pm_uv_to_xy m p) = p) <-> pm_k1 m = 0 /\ pm_k2 m = 0 /\ pm_k3 m = 0 /\ pm_p1 m = 0 /\ pm_p2 m = 0).
Proof.
  destruct m as [[W H] fo xp yp fw fh k1 k2 k3 p1 p2]. cbn [pm_focal pm_fw pm_fh pm_imgsz fst snd pm_k1 pm_k2 pm_k3 pm_p1 pm_p2]. intros Hf Hw Hh HW HH.
  assert (HW' : IZR W <> 0) by now apply not_0_IZR. assert (HH' : IZR H <> 0) by now apply not_0_IZR.
  set (v := cam_of 0 0 0 0 0 0 W H (fo * IZR W / fw) (fo * IZR H / fh) ((xp - fw / 2) * IZR W / fw) ((yp - fh / 2) * IZR H / fh) 0 0 0 0 0 0 0 0). set (c := mkcam v v (Some [fw; fh]) None). exists c.
  assert (E : pm_to_initial (mk_pm (W, H) fo xp yp fw fh k1 k2 k3 p1 p2) = Ok c) by apply construct_mm.
  split; [unfold pm_to_camera; rewrite E; reflexivity|].
  assert (V : vec c = v) by reflexivity.
  pose proof (ex_proj _ _ _ _ _ _ _ _ _ _ _ _ _ _ _ _ _ _ _ _ _ V) as P.
  assert (K : forall x y, let u := (x + xp) * IZR W / fw in let w := (yp - y) * IZR H / fh in let r2 := x ^ 2 + y ^ 2 in
    let ex := x * (k1 * r2 + k2 * r2 ^ 2 + k3 * r2 ^ 3) + (p1 * (r2 + 2 * x ^ 2) + 2 * p2 * (x * y)) in
    let ey := y * (k1 * r2 + k2 * r2 ^ 2 + k3 * r2 ^ 3) + (p2 * (r2 + 2 * y ^ 2) + 2 * p1 * (x * y)) in
    xy_to_uv c (pm_uv_to_xy (mk_pm (W, H) fo xp yp fw fh k1 k2 k3 p1 p2) (u, w)) = (u + IZR W / fw * ex, w - IZR H / fh * ey)).
  { intros x y u w r2 ex ey. unfold pm_uv_to_xy. cbn [pm_imgsz pm_focal pm_xp pm_yp pm_fw pm_fh pm_k1 pm_k2 pm_k3 pm_p1 pm_p2 fst snd].
    replace (u * fw / IZR W - xp) with x by (unfold u; field; auto). replace ((w * fh / IZR H - yp) * -1) with y by (unfold w; field; auto). fold r2.
    change (x + (x * (k1 * r2 + k2 * r2 ^ 2 + k3 * r2 ^ 3) + (p1 * (r2 + 2 * x ^ 2) + 2 * p2 * (x * y)))) with (x + ex).
    change (y + (y * (k1 * r2 + k2 * r2 ^ 2 + k3 * r2 ^ 3) + (p2 * (r2 + 2 * y ^ 2) + 2 * p1 * (x * y)))) with (y + ey).
    rewrite P, lens_poly. generalize ex ey. intros ex' ey'. unfold u, w. f_equal; field; auto. }
  split.
  - intros HE. assert (Z : forall x y, let r2 := x ^ 2 + y ^ 2 in x * (k1 * r2 + k2 * r2 ^ 2 + k3 * r2 ^ 3) + (p1 * (r2 + 2 * x ^ 2) + 2 * p2 * (x * y)) = 0 /\
      y * (k1 * r2 + k2 * r2 ^ 2 + k3 * r2 ^ 3) + (p2 * (r2 + 2 * y ^ 2) + 2 * p1 * (x * y)) = 0).
    { intros x y r2. specialize (K x y). cbv zeta in K. rewrite HE in K. apply pair_eq in K. fold r2 in K. destruct K as [K1 K2].
      assert (A : IZR W / fw <> 0) by (apply Rmult_integral_contrapositive_currified; [assumption|now apply Rinv_neq_0_compat]).
      assert (B : IZR H / fh <> 0) by (apply Rmult_integral_contrapositive_currified; [assumption|now apply Rinv_neq_0_compat]).
      split; [apply (Rmult_eq_reg_l (IZR W / fw)); [lra|assumption]|apply (Rmult_eq_reg_l (IZR H / fh)); [lra|assumption]]. }
    assert (P1 : p1 = 0) by (pose proof (proj1 (Z 1 0)); pose proof (proj1 (Z (-1) 0)); lra).
    assert (P2 : p2 = 0) by (pose proof (proj2 (Z 0 1)); pose proof (proj2 (Z 0 (-1))); lra). subst p1 p2.
    assert (Q : k1 = 0 /\ k2 = 0 /\ k3 = 0).
    { apply (quad_zero k1 k2 k3 1); [lra|]. intros s Hs. pose proof (proj1 (Z (sqrt s) 0)) as A. cbv zeta in A. replace (sqrt s ^ 2 + 0 ^ 2) with s in A by (rewrite <- Rsqr_pow2, Rsqr_sqrt; lra).
      assert (Sq : 0 < sqrt s) by (apply sqrt_lt_R0; lra). assert (B : sqrt s * s * (k1 + k2 * s + k3 * s ^ 2) = 0) by lra. apply Rmult_integral in B. destruct B as [B|B]; [|exact B].
      apply Rmult_integral in B. destruct B; lra. }
    destruct Q as (-> & -> & ->). auto.
  - intros (-> & -> & -> & -> & ->) [u w]. specialize (K (u * fw / IZR W - xp) (yp - w * fh / IZR H)). cbv zeta in K.
    replace ((u * fw / IZR W - xp + xp) * IZR W / fw) with u in K by (field; auto). replace ((yp - (yp - w * fh / IZR H)) * IZR H / fh) with w in K by (field; auto). rewrite K. f_equal; ring.
Qed.
Print Assumptions photomodeler_to_exact_iff.

(** Whether to_camera optimises: never when exact; otherwise, by default, starting from and
    changing only the documented camera parameters (positions in the camera vector: f 8-9,
    c 10-11, k 12-17, p 18-19). *)
Definition only_positions (ps : list nat) (c : cam) (r : result (cam * option (list R))) : Prop :=
  exists c', r = Ok (c', Some (map (fun q => nth q (vec c) 0) ps)) /\ forall q, ~ In q ps -> nth q (vec c') 0 = nth q (vec c) 0.
Lemma only_mask ps resid d solve c b : keeps_length solve -> length (vec c) = 20%nat ->
  parse_params d None = Ok (map (fun q => existsb (Nat.eqb q) ps) (seq 0 20), b) ->
  mget (map (fun q => existsb (Nat.eqb q) ps) (seq 0 20)) (vec c) = map (fun q => nth q (vec c) 0) ps ->
  only_positions ps c (optimize_cam resid d solve c).
Proof.
  intros L Lv E M. destruct (optimize_cam_spec resid d solve c _ _ E eq_refl Lv L) as (c' & f & E1 & E2 & _ & E3 & _). exists c'. split; [now rewrite E1, M|].
  intros q N. apply E3. destruct (Nat.lt_ge_cases q 20) as [H|H]; [|apply nth_overflow; rewrite map_length, seq_length; lia].
  rewrite (nth_map_d (fun q => existsb (Nat.eqb q) ps) (seq 0 20) q 0%nat false) by now rewrite seq_length. rewrite seq_nth by assumption. cbn [plus].
  destruct (existsb (Nat.eqb q) ps) eqn:Q; [|reflexivity]. exfalso. apply N. apply existsb_exists in Q. destruct Q as (x & I & E'). apply Nat.eqb_eq in E'. now subst.
Qed.
Local Ltac mask_done := match goal with |- only_positions _ ?c (optimize_cam _ _ _ ?c) => eapply only_mask; [assumption|reflexivity|reflexivity|reflexivity] end.
Theorem agisoft_to_camera a uv solve : exists c, ag_to_camera a ONo uv solve = Ok (c, None) /\
  (ag_k4 a = 0 -> ag_b2 a = 0 -> forall o, ag_to_camera a o uv solve = Ok (c, None)) /\
  (forall pts, converter (ag_imgsz a) c uv = Ok pts -> keeps_length solve ->
     (ag_k4 a <> 0 -> ag_b2 a = 0 -> only_positions [12; 13; 14; 15; 16; 17]%nat c (ag_to_camera a OYes uv solve)) /\
     (ag_b2 a <> 0 -> only_positions [8; 9; 10; 11; 12; 13; 14; 15; 16; 17]%nat c (ag_to_camera a OYes uv solve))).
Proof.
  destruct a as [[W H] f cx cy k1 k2 k3 k4 p1 p2 b1 b2]. cbn [ag_k4 ag_b2 ag_imgsz].
  set (v := cam_of 0 0 0 0 0 0 W H (f + b1) f cx cy k1 k2 k3 0 0 0 p2 p1). set (c := mkcam v v None None). exists c.
  assert (E : ag_to_initial (mk_ag (W, H) f cx cy k1 k2 k3 k4 p1 p2 b1 b2) = Ok c) by (apply construct_px; auto).
  unfold ag_to_camera. rewrite E. cbn [bind ag_k4 ag_b2 ag_imgsz]. split; [reflexivity|]. split.
  - intros -> -> o. unfold anynz. cbn. rewrite !(proj2 (nonzero_false 0)) by reflexivity. cbn. now rewrite orb_true_r.
  - intros pts Ec L. rewrite Ec. cbn [falsy orb bind]. split.
    + intros Hk ->. rewrite (proj2 (nonzero_false 0)) by reflexivity. destruct (nonzero k4) eqn:N; [|apply nonzero_false in N; contradiction]. unfold anynz. cbn [existsb]. rewrite N. cbn [orb negb]. mask_done.
    + intros Hb. destruct (nonzero b2) eqn:N; [|apply nonzero_false in N; contradiction]. unfold anynz. cbn [existsb]. rewrite N. rewrite orb_true_r. cbn [negb]. destruct (nonzero k4); mask_done.
Qed.
Print Assumptions agisoft_to_camera.
Theorem matlab_to_camera m uv solve : exists c, ml_to_camera m ONo uv solve = Ok (c, None) /\
  (ml_alpha m = 0 -> forall o, ml_to_camera m o uv solve = Ok (c, None)) /\
  (forall pts, converter (ml_imgsz m) c uv = Ok pts -> keeps_length solve -> ml_alpha m <> 0 ->
     only_positions [8; 9; 10; 11; 12; 13; 14; 15; 16; 17; 18; 19]%nat c (ml_to_camera m OYes uv solve)).
Proof.
  destruct m as [[W H] [fx fy] [cx cy] kc al]. cbn [ml_alpha ml_imgsz].
  set (v := cam_of 0 0 0 0 0 0 W H fx fy (cx + / 2 - IZR W / 2) (cy + / 2 - IZR H / 2) (ci kc 0) (ci kc 1) (ci kc 4) 0 0 0 (ci kc 2) (ci kc 3)). set (c := mkcam v v None None). exists c.
  assert (E : ml_to_initial (mk_ml (W, H) (fx, fy) (cx, cy) kc al) = Ok c) by (apply construct_px; auto).
  unfold ml_to_camera. rewrite E. cbn [bind ml_alpha ml_imgsz]. split; [reflexivity|]. split.
  - intros -> o. rewrite (proj2 (nonzero_false 0)) by reflexivity. cbn. now rewrite orb_true_r.
  - intros pts Ec L Ha. rewrite Ec. destruct (nonzero al) eqn:N; [|apply nonzero_false in N; contradiction]. cbn [falsy orb negb bind]. mask_done.
Qed.
Print Assumptions matlab_to_camera.
Theorem opencv_to_camera o uv solve : exists c, cv_to_camera o ONo uv solve = Ok (c, None) /\
  (cv_s1 o = 0 -> cv_s2 o = 0 -> cv_s3 o = 0 -> cv_s4 o = 0 -> forall op, cv_to_camera o op uv solve = Ok (c, None)) /\
  (forall pts, converter (cv_imgsz o) c uv = Ok pts -> keeps_length solve -> ~ (cv_s1 o = 0 /\ cv_s2 o = 0 /\ cv_s3 o = 0 /\ cv_s4 o = 0) ->
     only_positions [12; 13; 14; 15; 16; 17; 18; 19]%nat c (cv_to_camera o OYes uv solve)).
Proof.
  destruct o as [[W H] fx fy cx cy k1 k2 k3 k4 k5 k6 p1 p2 s1 s2 s3 s4]. cbn [cv_s1 cv_s2 cv_s3 cv_s4 cv_imgsz].
  set (v := cam_of 0 0 0 0 0 0 W H fx fy (cx - IZR W / 2) (cy - IZR H / 2) k1 k2 k3 k4 k5 k6 p1 p2). set (c := mkcam v v None None). exists c.
  assert (E : cv_to_initial (mk_cv (W, H) fx fy cx cy k1 k2 k3 k4 k5 k6 p1 p2 s1 s2 s3 s4) = Ok c) by (apply construct_px; auto).
  unfold cv_to_camera. rewrite E. cbn [bind cv_s1 cv_s2 cv_s3 cv_s4 cv_imgsz]. split; [reflexivity|]. split.
  - intros -> -> -> -> op. unfold anynz. cbn [existsb]. rewrite (proj2 (nonzero_false 0)) by reflexivity. cbn. now rewrite orb_true_r.
  - intros pts Ec L Ha. rewrite Ec. destruct (anynz [s1; s2; s3; s4]) eqn:N; [cbn [falsy orb negb bind]; mask_done|]. exfalso. apply Ha. pose proof (anynz_false _ N) as Z. repeat split; apply Z; cbn; tauto.
Qed.
Print Assumptions opencv_to_camera.
Theorem photomodeler_to_camera m uv solve : exists c, pm_to_camera m ONo uv solve = Ok (c, None) /\
  let nok := pm_k1 m = 0 /\ pm_k2 m = 0 /\ pm_k3 m = 0 in let nop := pm_p1 m = 0 /\ pm_p2 m = 0 in
  (nok -> nop -> forall o, pm_to_camera m o uv solve = Ok (c, None)) /\
  (forall pts, converter (pm_imgsz m) c uv = Ok pts -> keeps_length solve ->
     (~ nok -> nop -> only_positions [12; 13; 14; 15; 16; 17]%nat c (pm_to_camera m OYes uv solve)) /\
     (nok -> ~ nop -> only_positions [18; 19]%nat c (pm_to_camera m OYes uv solve)) /\
     (~ nok -> ~ nop -> only_positions [12; 13; 14; 15; 16; 17; 18; 19]%nat c (pm_to_camera m OYes uv solve))).
Proof.
  destruct m as [[W H] fo xp yp fw fh k1 k2 k3 p1 p2]. cbn [pm_imgsz pm_k1 pm_k2 pm_k3 pm_p1 pm_p2].
  set (v := cam_of 0 0 0 0 0 0 W H (fo * IZR W / fw) (fo * IZR H / fh) ((xp - fw / 2) * IZR W / fw) ((yp - fh / 2) * IZR H / fh) 0 0 0 0 0 0 0 0). set (c := mkcam v v (Some [fw; fh]) None). exists c.
  assert (E : pm_to_initial (mk_pm (W, H) fo xp yp fw fh k1 k2 k3 p1 p2) = Ok c) by apply construct_mm.
  unfold pm_to_camera. rewrite E. cbn [bind pm_imgsz pm_k1 pm_k2 pm_k3 pm_p1 pm_p2]. split; [reflexivity|]. cbv zeta.
  assert (Kf : anynz [k1; k2; k3] = false <-> k1 = 0 /\ k2 = 0 /\ k3 = 0).
  { split; [intros N; pose proof (anynz_false _ N) as Z; repeat split; apply Z; cbn; tauto|]. intros (-> & -> & ->). unfold anynz. cbn [existsb]. now rewrite (proj2 (nonzero_false 0)) by reflexivity. }
  assert (Pf : anynz [p1; p2] = false <-> p1 = 0 /\ p2 = 0).
  { split; [intros N; pose proof (anynz_false _ N) as Z; repeat split; apply Z; cbn; tauto|]. intros (-> & ->). unfold anynz. cbn [existsb]. now rewrite (proj2 (nonzero_false 0)) by reflexivity. }
  split.
  - intros Nk Np o. apply Kf in Nk. apply Pf in Np. rewrite Nk, Np. cbn. now rewrite orb_true_r.
  - intros pts Ec L. rewrite Ec. rewrite <- Kf, <- Pf. split; [|split].
    + intros Nk ->. destruct (anynz [k1; k2; k3]); [|now exfalso; apply Nk]. cbn [falsy orb negb bind app]. mask_done.
    + intros -> Np. destruct (anynz [p1; p2]); [|now exfalso; apply Np]. cbn [falsy orb negb bind app]. mask_done.
    + intros Nk Np. destruct (anynz [k1; k2; k3]); [|now exfalso; apply Nk]. destruct (anynz [p1; p2]); [|now exfalso; apply Np]. cbn [falsy orb negb bind app]. mask_done.
Qed.
Print Assumptions photomodeler_to_camera.

(* ------------------------------------------------------------------ *)
(** ** Round trips *)

(** Camera to external and back: the same image size, focal length, principal point and
    distortion (k4..k6 are zero or kept; position and orientation are not part of the external models). *)
Theorem convert_round_trip c uv solve : sound c ->
  let intrinsics c' := get_imgsz c' = get_imgsz c /\ get_f c' = get_f c /\ get_c c' = get_c c /\ get_k c' = get_k c /\ get_p c' = get_p c in
  (exists c', cv_to_camera (cv_from_camera c) OYes uv solve = Ok (c', None) /\ intrinsics c') /\
  (kk c 3 = 0 -> kk c 4 = 0 -> kk c 5 = 0 ->
     (exists a c', ag_from_camera c OYes uv solve = Ok (a, None) /\ ag_to_camera a OYes uv solve = Ok (c', None) /\ intrinsics c') /\
     (exists m c', ml_from_camera c OYes uv solve = Ok (m, None) /\ ml_to_camera m OYes uv solve = Ok (c', None) /\ intrinsics c')).
Proof.
  intros S intrinsics. explicit S.
  assert (In : forall g0 g1 d0 d1 h1 h2 h3 h4 h5 h6 q1 q2 sz co, g0 = f0 -> g1 = f1 -> d0 = c0 -> d1 = c1 -> h1 = k1 -> h2 = k2 -> h3 = k3 -> h4 = k4 -> h5 = k5 -> h6 = k6 -> q1 = p1 -> q2 = p2 ->
    intrinsics (mkcam (cam_of 0 0 0 0 0 0 W H g0 g1 d0 d1 h1 h2 h3 h4 h5 h6 q1 q2) (cam_of 0 0 0 0 0 0 W H g0 g1 d0 d1 h1 h2 h3 h4 h5 h6 q1 q2) sz co)).
  { intros g0 g1 d0 d1 h1 h2 h3 h4 h5 h6 q1 q2 sz co -> -> -> -> -> -> -> -> -> -> -> ->. unfold intrinsics. getters V. unfold get_f, get_c, get_k, get_p, get_imgsz, slice. cbn [vec cam_of skipn firstn map]. rewrite !Rtrunc_IZR. auto. }
  split.
  - unfold cv_to_camera, cv_to_initial, cv_from_camera, ci. getters V. cbn [nth fst snd cv_imgsz cv_fx cv_fy cv_cx cv_cy cv_k1 cv_k2 cv_k3 cv_k4 cv_k5 cv_k6 cv_p1 cv_p2 cv_s1 cv_s2 cv_s3 cv_s4].
    eexists. split; [rewrite (construct_px W H _ _ _ _ k1 k2 k3 k4 k5 k6) by auto; cbn [bind]; unfold anynz; cbn [existsb]; rewrite (proj2 (nonzero_false 0)) by reflexivity; reflexivity|].
    apply In; try reflexivity; field.
  - unfold kk. rewrite (ex_k _ _ _ _ _ _ _ _ _ _ _ _ _ _ _ _ _ _ _ _ _ V). cbn [nth]. intros -> -> ->. split.
    + exists (ag_from_initial c). unfold ag_from_camera, ag_to_camera, ag_to_initial, ag_from_initial, ci, slice. getters V. cbn [nth skipn firstn fst snd ag_imgsz ag_f ag_cx ag_cy ag_k1 ag_k2 ag_k3 ag_k4 ag_p1 ag_p2 ag_b1 ag_b2].
      rewrite (proj2 (all0_3 0 0 0)) by auto. eexists. split; [reflexivity|]. split.
      * rewrite (construct_px W H _ _ _ _ k1 k2 k3 0 0 0) by auto. cbn [bind]. unfold anynz. cbn [existsb]. rewrite (proj2 (nonzero_false 0)) by reflexivity. reflexivity.
      * apply In; try reflexivity; field.
    + exists (ml_from_initial c). unfold ml_from_camera, ml_to_camera, ml_to_initial, ml_from_initial, ci, slice. getters V. cbn [nth skipn firstn fst snd ml_imgsz ml_fc ml_cc ml_kc ml_alpha].
      rewrite (proj2 (all0_3 0 0 0)) by auto. eexists. split; [reflexivity|]. split.
      * rewrite (construct_px W H _ _ _ _ k1 k2 k3 0 0 0) by auto. cbn [bind]. rewrite (proj2 (nonzero_false 0)) by reflexivity. reflexivity.
      * apply In; try reflexivity; field.
Qed.
Print Assumptions convert_round_trip.

(** External to camera and back: the identity when the conversion is exact. *)
Theorem convert_back_round_trip uv solve :
  (forall a, ag_k4 a = 0 -> ag_b2 a = 0 -> exists c, ag_to_camera a OYes uv solve = Ok (c, None) /\ ag_from_camera c OYes uv solve = Ok (a, None)) /\
  (forall m, ml_alpha m = 0 -> length (ml_kc m) = 5%nat -> exists c, ml_to_camera m OYes uv solve = Ok (c, None) /\ ml_from_camera c OYes uv solve = Ok (m, None)) /\
  (forall o, cv_s1 o = 0 -> cv_s2 o = 0 -> cv_s3 o = 0 -> cv_s4 o = 0 -> exists c, cv_to_camera o OYes uv solve = Ok (c, None) /\ cv_from_camera c = o) /\
  (forall m, pm_k1 m = 0 -> pm_k2 m = 0 -> pm_k3 m = 0 -> pm_p1 m = 0 -> pm_p2 m = 0 -> pm_fw m <> 0 -> pm_fh m <> 0 -> fst (pm_imgsz m) <> 0%Z -> snd (pm_imgsz m) <> 0%Z ->
     exists c, pm_to_camera m OYes uv solve = Ok (c, None) /\ pm_from_camera c OYes uv solve = Ok (m, None)).
Proof.
  assert (Z0 : nonzero 0 = false) by now apply nonzero_false.
  split; [|split; [|split]].
  - intros [[W H] f cx cy k1 k2 k3 k4 p1 p2 b1 b2]. cbn [ag_k4 ag_b2]. intros -> ->. set (v := cam_of 0 0 0 0 0 0 W H (f + b1) f cx cy k1 k2 k3 0 0 0 p2 p1). exists (mkcam v v None None).
    assert (E : ag_to_initial (mk_ag (W, H) f cx cy k1 k2 k3 0 p1 p2 b1 0) = Ok (mkcam v v None None)) by (apply construct_px; auto).
    unfold ag_to_camera. rewrite E. cbn [bind ag_k4 ag_b2]. unfold anynz. cbn [existsb]. rewrite Z0. split; [reflexivity|].
    assert (V : vec (mkcam v v None None) = v) by reflexivity. unfold ag_from_camera, ag_from_initial, ci, slice. getters V. cbn [nth skipn firstn]. rewrite (proj2 (all0_3 0 0 0)) by auto. cbn [falsy orb].
    replace (f + b1 - f) with b1 by ring. reflexivity.
  - intros [[W H] [fx fy] [cx cy] kc al]. cbn [ml_alpha ml_kc]. intros -> L. destruct kc as [|q1 [|q2 [|q3 [|q4 [|q5 [|]]]]]]; try discriminate L.
    set (v := cam_of 0 0 0 0 0 0 W H fx fy (cx + / 2 - IZR W / 2) (cy + / 2 - IZR H / 2) q1 q2 q5 0 0 0 q3 q4). exists (mkcam v v None None).
    assert (E : ml_to_initial (mk_ml (W, H) (fx, fy) (cx, cy) [q1; q2; q3; q4; q5] 0) = Ok (mkcam v v None None)) by (apply (construct_px W H fx fy _ _ q1 q2 q5 0 0 0 q3 q4); auto).
    unfold ml_to_camera. rewrite E. cbn [bind ml_alpha]. rewrite Z0. split; [reflexivity|].
    assert (V : vec (mkcam v v None None) = v) by reflexivity. unfold ml_from_camera, ml_from_initial, ci, slice. getters V. cbn [nth skipn firstn fst snd]. rewrite (proj2 (all0_3 0 0 0)) by auto. cbn [falsy orb].
    replace (cx + / 2 - IZR W / 2 + / 2 * IZR W - / 2) with cx by field. replace (cy + / 2 - IZR H / 2 + / 2 * IZR H - / 2) with cy by field. reflexivity.
  - intros [[W H] fx fy cx cy k1 k2 k3 k4 k5 k6 p1 p2 s1 s2 s3 s4]. cbn [cv_s1 cv_s2 cv_s3 cv_s4]. intros -> -> -> ->.
    set (v := cam_of 0 0 0 0 0 0 W H fx fy (cx - IZR W / 2) (cy - IZR H / 2) k1 k2 k3 k4 k5 k6 p1 p2). exists (mkcam v v None None).
    assert (E : cv_to_initial (mk_cv (W, H) fx fy cx cy k1 k2 k3 k4 k5 k6 p1 p2 0 0 0 0) = Ok (mkcam v v None None)) by (apply construct_px; auto).
    unfold cv_to_camera. rewrite E. cbn [bind cv_s1 cv_s2 cv_s3 cv_s4]. unfold anynz. cbn [existsb]. rewrite Z0. split; [reflexivity|].
    assert (V : vec (mkcam v v None None) = v) by reflexivity. unfold cv_from_camera, ci. getters V. cbn [nth fst snd].
    replace (cx - IZR W / 2 + IZR W / 2) with cx by field. replace (cy - IZR H / 2 + IZR H / 2) with cy by field. reflexivity.
  - intros [[W H] fo xp yp fw fh k1 k2 k3 p1 p2]. cbn [pm_k1 pm_k2 pm_k3 pm_p1 pm_p2 pm_fw pm_fh pm_imgsz fst snd]. intros -> -> -> -> -> Hw Hh HW HH.
    assert (HW' : IZR W <> 0) by now apply not_0_IZR. assert (HH' : IZR H <> 0) by now apply not_0_IZR.
    set (v := cam_of 0 0 0 0 0 0 W H (fo * IZR W / fw) (fo * IZR H / fh) ((xp - fw / 2) * IZR W / fw) ((yp - fh / 2) * IZR H / fh) 0 0 0 0 0 0 0 0). exists (mkcam v v (Some [fw; fh]) None).
    assert (E : pm_to_initial (mk_pm (W, H) fo xp yp fw fh 0 0 0 0 0) = Ok (mkcam v v (Some [fw; fh]) None)) by apply construct_mm.
    unfold pm_to_camera. rewrite E. cbn [bind pm_k1 pm_k2 pm_k3 pm_p1 pm_p2]. unfold anynz. cbn [existsb]. rewrite Z0. split; [reflexivity|].
    assert (V : vec (mkcam v v (Some [fw; fh]) None) = v) by reflexivity. set (c := mkcam v v (Some [fw; fh]) None) in *.
    assert (Gf : get_fmm c = Some (Ok [fo; fo])).
    { unfold get_fmm, px_to_mm. cbn [sensorsz c]. getters V. unfold zip_op. cbn [length Nat.eqb bind map2]. f_equal. f_equal. f_equal; [|f_equal]; field; auto. }
    assert (Gc : get_cmm c = Some (Ok [xp - fw / 2; yp - fh / 2])).
    { unfold get_cmm, px_to_mm. cbn [sensorsz c]. getters V. unfold zip_op. cbn [length Nat.eqb bind map2]. f_equal. f_equal. f_equal; [|f_equal]; field; auto. }
    unfold pm_from_camera, pm_from_initial. rewrite Gf, Gc. cbn [sensorsz c bind]. unfold ci. getters V. cbn [nth falsy orb].
    unfold Reqb at 1. destruct (Req_EM_T fo fo) as [_|N]; [|contradiction]. unfold all0, Reqb. cbn [forallb]. destruct (Req_EM_T 0 0) as [_|N]; [|lra]. cbn [andb orb].
    replace ((fo + fo) / 2) with fo by field. replace (xp - fw / 2 + fw / 2) with xp by field. replace (yp - fh / 2 + fh / 2) with yp by field. reflexivity.
Qed.
Print Assumptions convert_back_round_trip.

(** OpenCV arrays: the camera matrix and coefficient vector describe the camera completely. *)
Theorem opencv_arrays o : cv_from_arrays (cv_matrix o) (cv_coeffs o) (cv_imgsz o) = o.
Proof. destruct o. reflexivity. Qed.
Print Assumptions opencv_arrays.

(** Finding: PhotoModeler optimises although the conversion is exact when the radial terms cancel. *)
Theorem photomodeler_cancel_refuted : exists c solve m m' x0, sound c /\ keeps_length solve /\
  pm_from_camera c ONo (UPoints []) solve = Ok (m, None) /\ (forall p, defined_at c (pm_uv_to_xy m p) -> xy_to_uv c (pm_uv_to_xy m p) = p) /\
  pm_from_camera c OYes (UPoints []) solve = Ok (m', Some x0).
Proof.
  set (v := cam_of 0 0 0 0 0 0 2 2 1 1 0 0 1 0 0 1 0 0 0 0). set (c := mkcam v v (Some [2; 2]) None). assert (V : vec c = v) by reflexivity.
  assert (Gf : get_fmm c = Some (Ok [1; 1])) by (unfold get_fmm, px_to_mm; cbn [sensorsz c]; getters V; unfold zip_op; cbn [length Nat.eqb bind map2]; f_equal; f_equal; f_equal; [|f_equal]; field).
  assert (Gc : get_cmm c = Some (Ok [0; 0])) by (unfold get_cmm, px_to_mm; cbn [sensorsz c]; getters V; unfold zip_op; cbn [length Nat.eqb bind map2]; f_equal; f_equal; f_equal; [|f_equal]; field).
  set (m := mk_pm (2, 2)%Z 1 1 1 2 2 0 0 0 0 0).
  assert (Ei : pm_from_initial c = Ok m).
  { unfold pm_from_initial. rewrite Gf, Gc. cbn [sensorsz c bind]. unfold ci. getters V. cbn [nth]. unfold m. replace ((1 + 1) / 2) with 1 by field. replace (0 + 2 / 2) with 1 by field. reflexivity. }
  exists c, (fun _ x => x), m. do 2 eexists. split; [split; [reflexivity|split; exists 2%Z; reflexivity]|]. split; [intros f x; reflexivity|]. split; [unfold pm_from_camera; rewrite Ei; cbn [bind]; rewrite Gf; reflexivity|]. split.
  - intros [a b] D. unfold defined_at, kk in D. rewrite (ex_k _ _ _ _ _ _ _ _ _ _ _ _ _ _ _ _ _ _ _ _ _ V) in D. cbn [nth] in D. revert D.
    set (p := pm_uv_to_xy m (a, b)). assert (Ep : p = (a - 1, b - 1)) by (unfold p, pm_uv_to_xy, m; cbn [pm_imgsz pm_focal pm_xp pm_yp pm_fw pm_fh pm_k1 pm_k2 pm_k3 pm_p1 pm_p2 fst snd]; f_equal; field).
    rewrite Ep. cbn [fst snd]. intros D. rewrite (ex_proj _ _ _ _ _ _ _ _ _ _ _ _ _ _ _ _ _ _ _ _ _ V). unfold lens, lens_radial. set (r := (a - 1) ^ 2 + (b - 1) ^ 2) in *. f_equal; field; lra.
  - unfold pm_from_camera. rewrite Ei. cbn [bind]. rewrite Gf. cbn [bind]. unfold ci. cbn [nth]. rewrite (ex_k _ _ _ _ _ _ _ _ _ _ _ _ _ _ _ _ _ _ _ _ _ V).
    assert (A : all0 [1; 0; 0; 1; 0; 0] = false) by (unfold all0, Reqb; cbn [forallb]; destruct (Req_EM_T 1 0) as [E|]; [lra|reflexivity]). rewrite A. rewrite andb_false_r. cbn [andb falsy orb].
    unfold converter. rewrite (ex_sz _ _ _ _ _ _ _ _ _ _ _ _ _ _ _ _ _ _ _ _ _ V). cbn [pm_imgsz m fst snd Z.eqb Pos.eqb andb bind].
    unfold Reqb. destruct (Req_EM_T 1 1) as [_|N]; [|lra]. cbn [app]. rewrite (ex_p _ _ _ _ _ _ _ _ _ _ _ _ _ _ _ _ _ _ _ _ _ V).
    unfold anynz, nonzero, Reqb. cbn [existsb]. destruct (Req_EM_T 1 0) as [E|_]; [lra|]. destruct (Req_EM_T 0 0) as [_|N]; [|lra]. cbn [negb orb app]. reflexivity.
Qed.
Print Assumptions photomodeler_cancel_refuted.
