(** Property C48, continued: PhotoModeler.from_camera exactly, integer selections, narrow images. *)
From Verif Require Import Base BaseLemmas HelpersModel XReal CameraModel CameraSpec CameraStateProofs P_Camera2 ParamsModel ParamsSpec ParamsProofs ParamsProofs3 ConvertModel ConvertProofs ConvertProofs2 P_Convert P_Convert2.
Open Scope R_scope.

Local Ltac explicit S := destruct (sound_vec _ S) as (X & Y & Z0 & ya & pi & ro & W & H & f0 & f1 & c0 & c1 & k1 & k2 & k3 & k4 & k5 & k6 & p1 & p2 & V).
Local Ltac getters V := rewrite ?(ex_k _ _ _ _ _ _ _ _ _ _ _ _ _ _ _ _ _ _ _ _ _ V), ?(ex_p _ _ _ _ _ _ _ _ _ _ _ _ _ _ _ _ _ _ _ _ _ V), ?(ex_f _ _ _ _ _ _ _ _ _ _ _ _ _ _ _ _ _ _ _ _ _ V),
  ?(ex_c _ _ _ _ _ _ _ _ _ _ _ _ _ _ _ _ _ _ _ _ _ V), ?(ex_wh _ _ _ _ _ _ _ _ _ _ _ _ _ _ _ _ _ _ _ _ _ V), ?(ex_sz _ _ _ _ _ _ _ _ _ _ _ _ _ _ _ _ _ _ _ _ _ V), ?(ex_szR _ _ _ _ _ _ _ _ _ _ _ _ _ _ _ _ _ _ _ _ _ V).

Lemma cubic_zero a b c d eps : 0 < eps -> (forall s, 0 < s <= eps -> a + b * s + c * s ^ 2 + d * s ^ 3 = 0) -> a = 0 /\ b = 0 /\ c = 0 /\ d = 0.
Proof.
  intros He Hz. pose proof (Hz eps ltac:(lra)) as E1. pose proof (Hz (eps / 2) ltac:(lra)) as E2. pose proof (Hz (eps / 3) ltac:(lra)) as E3. pose proof (Hz (eps / 4) ltac:(lra)) as E4.
  set (B := b * eps). set (C := c * eps ^ 2). set (D := d * eps ^ 3).
  assert (F1 : a + B + C + D = 0) by (unfold B, C, D; lra).
  assert (F2 : a + B / 2 + C / 4 + D / 8 = 0) by (unfold B, C, D; rewrite <- E2; field).
  assert (F3 : a + B / 3 + C / 9 + D / 27 = 0) by (unfold B, C, D; rewrite <- E3; field).
  assert (F4 : a + B / 4 + C / 16 + D / 64 = 0) by (unfold B, C, D; rewrite <- E4; field).
  assert (G : a = 0 /\ B = 0 /\ C = 0 /\ D = 0) by lra. destruct G as (Ga & Gb & Gc & Gd). split; [exact Ga|].
  assert (eps <> 0) by lra. assert (eps ^ 2 <> 0) by now apply pow_nonzero. assert (eps ^ 3 <> 0) by now apply pow_nonzero.
  unfold B, C, D in *. repeat split.
  - apply Rmult_integral in Gb. tauto.
  - apply Rmult_integral in Gc. tauto.
  - apply Rmult_integral in Gd. tauto.
Qed.

(** Cameras with a sensor size, and positive sizes and focal lengths. *)
Definition physical (c : cam) (Wd Ht : Z) (fx fy sw sh : R) : Prop :=
  sound c /\ get_imgsz c = [Wd; Ht] /\ get_f c = [fx; fy] /\ sensorsz c = Some [sw; sh] /\
  (0 < Wd)%Z /\ (0 < Ht)%Z /\ 0 < fx /\ 0 < fy /\ 0 < sw /\ 0 < sh.
Lemma pm_initial c Wd Ht fx fy sw sh : physical c Wd Ht fx fy sw sh -> exists c0 c1, get_c c = [c0; c1] /\ 
  get_fmm c = Some (Ok [fx * sw / IZR Wd; fy * sh / IZR Ht]) /\
  pm_from_initial c = Ok (mk_pm (Wd, Ht) ((fx * sw / IZR Wd + fy * sh / IZR Ht) / 2) (c0 * sw / IZR Wd + sw / 2) (c1 * sh / IZR Ht + sh / 2) sw sh 0 0 0 0 0).
Proof.
  intros (S & Esz & Ef & Es & _). explicit S.
  rewrite (ex_sz _ _ _ _ _ _ _ _ _ _ _ _ _ _ _ _ _ _ _ _ _ V) in Esz. injection Esz as -> ->.
  rewrite (ex_f _ _ _ _ _ _ _ _ _ _ _ _ _ _ _ _ _ _ _ _ _ V) in Ef. injection Ef as -> ->.
  assert (Gf : get_fmm c = Some (Ok [fx * sw / IZR Wd; fy * sh / IZR Ht])) by (unfold get_fmm, px_to_mm; rewrite Es; getters V; reflexivity).
  assert (Gc : get_cmm c = Some (Ok [c0 * sw / IZR Wd; c1 * sh / IZR Ht])) by (unfold get_cmm, px_to_mm; rewrite Es; getters V; reflexivity).
  exists c0, c1. split; [getters V; reflexivity|]. split; [exact Gf|]. unfold pm_from_initial; rewrite Es, Gf, Gc; cbn [bind]; unfold ci; getters V; reflexivity.
Qed.

(** Without optimisation the PhotoModeler camera inverts the camera's projection if and only if both focal lengths are equal (in millimetres), the
    numerator and denominator of the radial distortion cancel, and there is no tangential distortion. *)
Theorem photomodeler_from_exact_iff c Wd Ht fx fy sw sh uv solve : physical c Wd Ht fx fy sw sh ->
  exists m, pm_from_camera c ONo uv solve = Ok (m, None) /\
  ((forall p, defined_at c (pm_uv_to_xy m p) -> xy_to_uv c (pm_uv_to_xy m p) = p) <->
   fx * sw / IZR Wd = fy * sh / IZR Ht /\ kk c 0 = kk c 3 /\ kk c 1 = kk c 4 /\ kk c 2 = kk c 5 /\ pp c 0 = 0 /\ pp c 1 = 0).
Proof.
  intros Ph. destruct (pm_initial _ _ _ _ _ _ _ Ph) as (d0 & d1 & Ec & Gf & Ei). destruct Ph as (S & Esz & Ef & Es & HW & HH & Hfx & Hfy & Hsw & Hsh).
  eexists. split; [unfold pm_from_camera; rewrite Ei; cbn [bind]; rewrite Gf; reflexivity|].
  explicit S. rewrite (ex_sz _ _ _ _ _ _ _ _ _ _ _ _ _ _ _ _ _ _ _ _ _ V) in Esz. injection Esz as -> ->.
  rewrite (ex_f _ _ _ _ _ _ _ _ _ _ _ _ _ _ _ _ _ _ _ _ _ V) in Ef. injection Ef as -> ->.
  rewrite (ex_c _ _ _ _ _ _ _ _ _ _ _ _ _ _ _ _ _ _ _ _ _ V) in Ec. injection Ec as -> ->.
  assert (PW : 0 < IZR Wd) by now apply IZR_lt. assert (PH : 0 < IZR Ht) by now apply IZR_lt.
  unfold kk, pp, defined_at, kk. rewrite (ex_k _ _ _ _ _ _ _ _ _ _ _ _ _ _ _ _ _ _ _ _ _ V), (ex_p _ _ _ _ _ _ _ _ _ _ _ _ _ _ _ _ _ _ _ _ _ V). cbn [nth].
  set (gx := fx * sw / IZR Wd). set (gy := fy * sh / IZR Ht). set (fo := (gx + gy) / 2).
  assert (Pgx : 0 < gx) by (unfold gx; apply Rdiv_lt_0_compat; [now apply Rmult_lt_0_compat|assumption]).
  assert (Pgy : 0 < gy) by (unfold gy; apply Rdiv_lt_0_compat; [now apply Rmult_lt_0_compat|assumption]).
  assert (Pfo : 0 < fo) by (unfold fo; lra).
  set (m := mk_pm (Wd, Ht) fo (d0 * sw / IZR Wd + sw / 2) (d1 * sh / IZR Ht + sh / 2) sw sh 0 0 0 0 0).
  set (u_of := fun x => fo * IZR Wd / sw * x + (IZR Wd / 2 + d0)). set (v_of := fun y => fo * IZR Ht / sh * y + (IZR Ht / 2 + d1)).
  assert (M : forall x y, pm_uv_to_xy m (u_of x, v_of y) = (x, y)).
  { intros x y. unfold m. rewrite pm_plain. cbn [fst snd]. unfold u_of, v_of. f_equal; field; lra. }
  assert (M' : forall p, exists x y, p = (u_of x, v_of y)).
  { intros [u v]. exists ((u - (IZR Wd / 2 + d0)) * sw / (fo * IZR Wd)), ((v - (IZR Ht / 2 + d1)) * sh / (fo * IZR Ht)). unfold u_of, v_of. f_equal; field; lra. }
  assert (Q : (forall p, (let r2 := fst (pm_uv_to_xy m p) ^ 2 + snd (pm_uv_to_xy m p) ^ 2 in 1 + k4 * r2 + k5 * r2 ^ 2 + k6 * r2 ^ 3 <> 0) -> xy_to_uv c (pm_uv_to_xy m p) = p) <->
    (forall x y, 1 + k4 * (x ^ 2 + y ^ 2) + k5 * (x ^ 2 + y ^ 2) ^ 2 + k6 * (x ^ 2 + y ^ 2) ^ 3 <> 0 ->
       fx * fst (lens k1 k2 k3 k4 k5 k6 p1 p2 x y) = fo * IZR Wd / sw * x /\ fy * snd (lens k1 k2 k3 k4 k5 k6 p1 p2 x y) = fo * IZR Ht / sh * y)).
  { split.
    - intros A x y D. specialize (A (u_of x, v_of y)). rewrite M in A. cbn [fst snd] in A. specialize (A D). rewrite (ex_proj _ _ _ _ _ _ _ _ _ _ _ _ _ _ _ _ _ _ _ _ _ V) in A.
      destruct (lens k1 k2 k3 k4 k5 k6 p1 p2 x y) as [xd yd]. cbn [fst snd]. injection A as A1 A2. unfold u_of in A1. unfold v_of in A2. split; lra.
    - intros A p. destruct (M' p) as (x & y & ->). rewrite M. cbn [fst snd]. intros D. destruct (A x y D) as [A1 A2]. rewrite (ex_proj _ _ _ _ _ _ _ _ _ _ _ _ _ _ _ _ _ _ _ _ _ V).
      destruct (lens k1 k2 k3 k4 k5 k6 p1 p2 x y) as [xd yd]. cbn [fst snd] in A1, A2. unfold u_of, v_of. f_equal; lra. }
  etransitivity; [exact Q|]. clear Q M M'. split.
  - intros A. destruct (small_poly k4 k5 k6 0 0) as (e & E & N).
    assert (D : forall s, 0 < s <= e -> 1 + k4 * s + k5 * s ^ 2 + k6 * s ^ 3 <> 0) by (intros s Hs; specialize (N s Hs); lra).
    assert (Sq : forall s, 0 < s -> sqrt s ^ 2 = s) by (intros s Hs; rewrite <- Rsqr_pow2; apply Rsqr_sqrt; lra).
    assert (Sp : forall s, 0 < s -> 0 < sqrt s) by (intros; now apply sqrt_lt_R0).
    (* on the axes *)
    assert (Ax : forall s, 0 < s <= e -> fx * (sqrt s * lens_radial k1 k2 k3 k4 k5 k6 s + p2 * (3 * s)) = fo * IZR Wd / sw * sqrt s /\ fy * (p1 * s) = 0).
    { intros s Hs. specialize (A (sqrt s) 0). cbn [lens fst snd] in A. unfold lens in A. cbv zeta in A. cbn [fst snd] in A. rewrite (Sq s) in A by lra. replace (s + 0 ^ 2) with s in A by ring.
      destruct (A (D s Hs)) as [A1 A2]. split; [rewrite <- A1; ring|]. replace (fo * IZR Ht / sh * 0) with 0 in A2 by ring. rewrite <- A2. ring. }
    assert (Ay : forall s, 0 < s <= e -> fy * (sqrt s * lens_radial k1 k2 k3 k4 k5 k6 s + p1 * (3 * s)) = fo * IZR Ht / sh * sqrt s /\ fx * (p2 * s) = 0).
    { intros s Hs. specialize (A 0 (sqrt s)). unfold lens in A. cbv zeta in A. cbn [fst snd] in A. rewrite (Sq s) in A by lra. replace (0 ^ 2 + s) with s in A by ring.
      destruct (A (D s Hs)) as [A1 A2]. split; [rewrite <- A2; ring|]. replace (fo * IZR Wd / sw * 0) with 0 in A1 by ring. rewrite <- A1. ring. }
    assert (P1 : p1 = 0). { destruct (Ax e ltac:(lra)) as [_ P]. apply Rmult_integral in P. destruct P as [P|P]; [lra|]. apply Rmult_integral in P. destruct P; lra. }
    assert (P2 : p2 = 0). { destruct (Ay e ltac:(lra)) as [_ P]. apply Rmult_integral in P. destruct P as [P|P]; [lra|]. apply Rmult_integral in P. destruct P; lra. }
    subst p1 p2.
    assert (Rx : forall f g, 0 < f -> (forall s, 0 < s <= e -> f * (sqrt s * lens_radial k1 k2 k3 k4 k5 k6 s + 0 * (3 * s)) = g * sqrt s) -> f = g /\ f * k1 = g * k4 /\ f * k2 = g * k5 /\ f * k3 = g * k6).
    { intros f g Pf B. destruct (cubic_zero (f - g) (f * k1 - g * k4) (f * k2 - g * k5) (f * k3 - g * k6) e E) as (C1 & C2 & C3 & C4); [|lra].
      intros s Hs. specialize (B s Hs). specialize (D s Hs). pose proof (Sp s ltac:(lra)) as Ps.
      assert (B' : f * lens_radial k1 k2 k3 k4 k5 k6 s = g) by (apply Rmult_eq_reg_l with (sqrt s); [lra|lra]).
      unfold lens_radial in B'. assert (B2 : f * (1 + k1 * s + k2 * s ^ 2 + k3 * s ^ 3) = g * (1 + k4 * s + k5 * s ^ 2 + k6 * s ^ 3)) by (rewrite <- B'; field; exact D). lra. }
    destruct (Rx fx (fo * IZR Wd / sw) Hfx) as (X1 & X2 & X3 & X4); [intros s Hs; apply (proj1 (Ax s Hs))|].
    assert (Ex : gx = fo). { unfold gx. rewrite X1. field. lra. }
    split; [unfold fo in Ex; lra|]. rewrite <- X1 in X2, X3, X4.
    repeat split; try (apply Rmult_eq_reg_l with fx; lra).
  - intros (Eg & -> & -> & -> & -> & ->) x y D.
    assert (Fx : fo * IZR Wd / sw = fx). { replace fo with gx by (unfold fo; lra). unfold gx. field. lra. }
    assert (Fy : fo * IZR Ht / sh = fy). { replace fo with gy by (unfold fo; lra). unfold gy. field. lra. }
    rewrite Fx, Fy. unfold lens, lens_radial. cbv zeta. cbn [fst snd]. split; field; exact D.
Qed.
Print Assumptions photomodeler_from_exact_iff.

(** Nothing is optimised, whatever is asked for, if the focal lengths are equal and all distortion coefficients are zero (then the result is exact);
    otherwise optimize=True optimises the focal length, format and principal point if the focal lengths differ, the radial coefficients if
    the camera has any, and the tangential ones if the camera has any - also when the conversion is exact because radial terms cancel (finding). *)
Definition pm_documented (c : cam) (gx gy : R) : list (pm_key * sel) :=
  (if Req_EM_T gx gy then [] else [(PMfocal, STrue); (PMfw, STrue); (PMfh, STrue); (PMxp, STrue); (PMyp, STrue)])
  ++ (if in_dec Bool.bool_dec false (map (fun x => if Req_EM_T x 0 then true else false) (get_k c)) then [(PMk1, STrue); (PMk2, STrue); (PMk3, STrue)] else [])
  ++ (if in_dec Bool.bool_dec false (map (fun x => if Req_EM_T x 0 then true else false) (get_p c)) then [(PMp1, STrue); (PMp2, STrue)] else []).
Lemma anynz_dec {A} l (a b : A) : (if anynz l then a else b) = if in_dec Bool.bool_dec false (map (fun x => if Req_EM_T x 0 then true else false) l) then a else b.
Proof.
  destruct (in_dec _ _ _) as [I|N].
  - apply in_map_iff in I. destruct I as (x & E & I). destruct (Req_EM_T x 0) as [|Nx]; [discriminate|]. replace (anynz l) with true; [reflexivity|].
    symmetry. unfold anynz. apply existsb_exists. exists x. split; [exact I|]. unfold nonzero, Reqb. destruct (Req_EM_T x 0); [contradiction|reflexivity].
  - replace (anynz l) with false; [reflexivity|]. symmetry. unfold anynz. apply Bool.not_true_iff_false. intros E. apply existsb_exists in E. destruct E as (x & I & E).
    apply N. apply in_map_iff. exists x. split; [|exact I]. unfold nonzero, Reqb in E. destruct (Req_EM_T x 0); [discriminate|reflexivity].
Qed.
Theorem photomodeler_from_optimizes c Wd Ht fx fy sw sh uv solve pts m : physical c Wd Ht fx fy sw sh -> keeps_length solve -> converter (Wd, Ht) c uv = Ok pts ->
  pm_from_camera c ONo uv solve = Ok (m, None) ->
  let gx := fx * sw / IZR Wd in let gy := fy * sh / IZR Ht in
  let plain := gx = gy /\ (forall x, In x (get_k c) -> x = 0) /\ (forall x, In x (get_p c) -> x = 0) in
  (plain -> forall o, pm_from_camera c o uv solve = Ok (m, None)) /\
  (~ plain -> only_selected pm_get (fun m => residuals_out (pm_uv_to_xy m) c pts) solve (pm_documented c gx gy) m (pm_from_camera c OYes uv solve)) /\
  (~ plain -> forall d, d <> [] -> NoDup (map fst d) -> (forall k s, In (k, s) d -> good_sel photomodeler pm_key pm_get m k s) ->
     only_selected pm_get (fun m => residuals_out (pm_uv_to_xy m) c pts) solve d m (pm_from_camera c (ODict d) uv solve)).
Proof.
  intros Ph L Ec Em gx gy plain. destruct (pm_initial _ _ _ _ _ _ _ Ph) as (d0 & d1 & Eg & Gf & Ei).
  unfold pm_from_camera in *. rewrite Ei in *. cbn [bind] in *. rewrite Gf in *. cbn [bind ci nth falsy orb] in *. unfold ci in *. cbn [nth] in *. fold gx gy in Em |- *. injection Em as <-.
  set (m := mk_pm (Wd, Ht) _ _ _ _ _ _ _ _ _ _).
  assert (A0 : forall l, all0 l = true <-> forall x, In x l -> x = 0).
  { intros l. unfold all0. rewrite forallb_forall. split; intros Q x I; specialize (Q x I); unfold Reqb in *; destruct (Req_EM_T x 0); try discriminate; auto; contradiction. }
  assert (Pl : (Reqb gx gy && all0 (get_k c) && all0 (get_p c))%bool = true <-> plain).
  { rewrite !andb_true_iff, !A0. unfold plain, Reqb. destruct (Req_EM_T gx gy); intuition discriminate. }
  split; [|split].
  - intros P o. apply Pl in P. rewrite P, orb_true_r. reflexivity.
  - intros N. assert (F : (Reqb gx gy && all0 (get_k c) && all0 (get_p c))%bool = false) by (apply Bool.not_true_iff_false; tauto). rewrite F. cbn [orb].
    change (pm_imgsz m) with (Wd, Ht). rewrite Ec. cbn [bind].
    assert (Ed : (if Reqb gx gy then [] else [(PMfocal, STrue); (PMfw, STrue); (PMfh, STrue); (PMxp, STrue); (PMyp, STrue)])
       ++ (if anynz (get_k c) then [(PMk1, STrue); (PMk2, STrue); (PMk3, STrue)] else []) ++ (if anynz (get_p c) then [(PMp1, STrue); (PMp2, STrue)] else []) = pm_documented c gx gy).
    { unfold pm_documented. rewrite !anynz_dec. unfold Reqb. destruct (Req_EM_T gx gy); reflexivity. }
    rewrite Ed.
    destruct (optimize_xcam_spec photomodeler pm_key pm_get pm_set pm_key_dec pm_get_set pm_get_other (fun x => residuals_out (pm_uv_to_xy x) c pts) (pm_documented c gx gy) solve m) as (x0 & x' & f & E1 & E2 & E3 & E4 & _ & E5).
    + unfold pm_documented. destruct (Req_EM_T gx gy), (in_dec Bool.bool_dec false (map _ (get_k c))), (in_dec Bool.bool_dec false (map _ (get_p c))); cbn; repeat constructor; cbn; intuition discriminate.
    + intros k s I. unfold pm_documented in I. assert (s = STrue); [|subst; exact Logic.I].
      destruct (Req_EM_T gx gy), (in_dec Bool.bool_dec false (map _ (get_k c))), (in_dec Bool.bool_dec false (map _ (get_p c))); cbn in I; intuition congruence.
    + exact L.
    + exists x', x0, f. split; [exact E2|]. split; [exact E1|]. split; [exact E3|]. split; [exact E5|exact E4].
  - intros N d Nd Nk G. assert (F : (Reqb gx gy && all0 (get_k c) && all0 (get_p c))%bool = false) by (apply Bool.not_true_iff_false; tauto). rewrite F.
    replace (length d =? 0)%nat with false by (destruct d; [contradiction|reflexivity]). cbn [orb].
    change (pm_imgsz m) with (Wd, Ht). rewrite Ec. cbn [bind].
    destruct (optimize_xcam_spec photomodeler pm_key pm_get pm_set pm_key_dec pm_get_set pm_get_other (fun x => residuals_out (pm_uv_to_xy x) c pts) d solve m Nk G L) as (x0 & x' & f & E1 & E2 & E3 & E4 & _ & E5).
    exists x', x0, f. split; [exact E2|]. split; [exact E1|]. split; [exact E3|]. split; [exact E5|exact E4].
Qed.
Print Assumptions photomodeler_from_optimizes.

(** Integer selections, for every external camera: an index other than 0 raises, the index 0 has no effect. *)
Theorem convert_index_exact : forall X K (getx : K -> X -> list R) setx resid params solve x,
  ((exists k i, In (k, SInt i) params /\ i <> 0%Z) -> exists e, optimize_xcam getx setx resid params solve x = Err e) /\
  optimize_xcam getx setx resid params solve x = optimize_xcam getx setx resid (filter (fun ks => match snd ks with SInt 0 => false | _ => true end) params) solve x.
Proof.
  intros X K getx setx resid params solve x. unfold optimize_xcam. split.
  - intros (k & i & I & N).
    assert (E : exists e, start_values getx (filter (fun ks => truthy (snd ks)) params) x = Err e).
    { assert (J : In (k, SInt i) (filter (fun ks => truthy (snd ks)) params)).
      { apply filter_In. split; [exact I|]. cbn. apply Z.eqb_neq in N. now rewrite N. }
      revert J. generalize (filter (fun ks => truthy (snd ks)) params). clear -N. intros l. induction l as [|[k' s'] l IH]; [intros []|]. intros J. cbn [start_values]. destruct J as [E|J].
      - injection E as -> ->. cbn [extend_values]. destruct (py_get (getx k x) i); eexists; reflexivity.
      - destruct (IH J) as [e E]. destruct (extend_values (getx k' x) s'); cbn [bind]; [rewrite E; eexists; reflexivity|eexists; reflexivity]. }
    destruct E as [e ->]. exists e. reflexivity.
  - assert (E : filter (fun ks : K * sel => truthy (snd ks)) params = filter (fun ks => truthy (snd ks)) (filter (fun ks => match snd ks with SInt 0 => false | _ => true end) params)).
    { induction params as [|[k s] r IH]; [reflexivity|]. cbn [filter snd]. destruct s as [| | |i|l]; cbn [truthy filter snd].
      1,2,3,5: now rewrite IH.
      destruct i; cbn [Z.eqb negb filter snd truthy]; now rewrite IH. }
    now rewrite <- E.
Qed.
Print Assumptions convert_index_exact.

(** Images so long and narrow that a cell of the default grid is more than twice as wide as the image cannot be gridded: the conversion raises. *)
Theorem convert_grid_narrow W H n : (0 < W)%Z -> (0 < H)%Z -> (0 < n)%Z -> (IZR n * IZR H < IZR W / 4 \/ IZR n * IZR W < IZR H / 4) -> grid W H n = Err ValueError.
Proof.
  intros HW HH Hn Q. assert (PW : 0 < IZR W) by now apply IZR_lt. assert (PH : 0 < IZR H) by now apply IZR_lt. assert (Pn : 0 < IZR n) by now apply IZR_lt.
  set (d := sqrt (IZR W * IZR H / IZR n)).
  assert (K : forall a b, 0 < a -> 0 < b -> IZR n * b < a / 4 -> Rround (b / sqrt (a * b / IZR n)) = 0%Z).
  { intros a b Pa Pb L. assert (P : 0 < a * b / IZR n) by (apply Rdiv_lt_0_compat; [now apply Rmult_lt_0_compat|assumption]).
    assert (S : 2 * b < sqrt (a * b / IZR n)).
    { rewrite <- (sqrt_pow2 (2 * b)) by lra. apply sqrt_lt_1; [nra|lra|]. apply Rmult_lt_reg_r with (IZR n); [assumption|].
      replace (a * b / IZR n * IZR n) with (a * b) by (field; lra). nra. }
    apply Rround_imp. rewrite Rminus_0_r. rewrite Rabs_right by (apply Rle_ge; left; apply Rdiv_lt_0_compat; lra).
    apply Rmult_lt_reg_r with (sqrt (a * b / IZR n)); [lra|]. unfold Rdiv at 1. rewrite Rmult_assoc, Rinv_l by lra. lra. }
  unfold grid. fold d. destruct Q as [Q|Q].
  - pose proof (K _ _ PW PH Q) as E. fold d in E. rewrite E. cbn [Z.eqb]. now rewrite orb_true_r.
  - pose proof (K _ _ PH PW Q) as E. replace (IZR H * IZR W / IZR n) with (IZR W * IZR H / IZR n) in E by (unfold Rdiv; ring). fold d in E. rewrite E. reflexivity.
Qed.
Print Assumptions convert_grid_narrow.
(** a camera with equal focal lengths and cancelling radial terms: exact, but optimised *)
Example photomodeler_ex : let v := cam_of 0 0 0 0 0 0 2 2 1 1 0 0 1 0 0 1 0 0 0 0 in let c := mkcam v v (Some [2; 2]) None in
  physical c 2 2 1 1 2 2 /\ converter (2, 2)%Z c (UPoints []) = Ok [] /\ ~ (forall x, In x (get_k c) -> x = 0).
Proof.
  cbv zeta. set (v := cam_of 0 0 0 0 0 0 2 2 1 1 0 0 1 0 0 1 0 0 0 0). set (c := mkcam v v (Some [2; 2]) None). assert (V : vec c = v) by reflexivity. unfold v in V.
  split; [|split].
  - split; [split; [reflexivity|split; exists 2%Z; reflexivity]|]. split; [getters V; reflexivity|]. split; [getters V; reflexivity|]. split; [reflexivity|]. repeat split; try lia; lra.
  - unfold converter. getters V. reflexivity.
  - getters V. intros Q. specialize (Q 1 ltac:(now left)). lra.
Qed.
