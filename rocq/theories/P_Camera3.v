(** C20, C22, C24, C25: exact characterisations that cover every camera and request, including those for which the plain claim fails. *)
From Coq Require Classical_Prop.
From Verif Require Import Base BaseLemmas HelpersModel HelpersSpec AggregateProofs CameraModel CameraSpec.
From Verif Require Import CameraStateProofs CameraProofs CameraProofs2 CameraProofs3 CameraProofs4 P_Camera.
Open Scope R_scope.

(** C20.  The depth reported for a world point is its distance along the optical axis, lowered by the drop of the
    point (curvature minus refraction) times the sine of the camera's pitch; the projection is nan iff that is not
    positive; infront() looks at the uncorrected distance. *)
Theorem camera_depth_exact : forall c X Y Z0 yaw pitch roll x y z,
  get_xyz c = [X; Y; Z0] -> get_viewdir c = [yaw; pitch; roll] ->
  let drop := match correction c with Some (radius, refraction) => (1 - refraction) * ((x - X) ^ 2 + (y - Y) ^ 2) / (2 * radius) | None => 0 end in
  let along := cos (deg2rad pitch) * sin (deg2rad yaw) * (x - X) + cos (deg2rad yaw) * cos (deg2rad pitch) * (y - Y)
               + sin (deg2rad pitch) * (z - Z0) in
  snd (xyz_to_xy c false (x, y, z)) = along - drop * sin (deg2rad pitch)
  /\ (xyz_to_uv c false (x, y, z) = None <-> along - drop * sin (deg2rad pitch) <= 0)
  /\ (infront c false (x, y, z) = true <-> 0 < along).
Proof.
  intros c X Y Z0 yaw pitch roll x y z GX GV drop along.
  assert (D : snd (xyz_to_xy c false (x, y, z)) = along - drop * sin (deg2rad pitch)).
  { unfold xyz_to_xy. cbv zeta. cbn [snd]. unfold Rm. rewrite GV. unfold v3. cbn [nth].
    rewrite camera_optical_axis. unfold offset. rewrite GX. unfold v3. cbn [nth sub3]. subst drop along.
    destruct (correction c) as [[ra re]|]; unfold elevation_corrections; cbn [dot3].
    - unfold Rdiv. ring.
    - ring. }
  split; [exact D|]. split; [rewrite camera_nan_iff_depth, D; reflexivity|].
  unfold infront. cbv zeta. unfold Rm. rewrite GV, GX. unfold v3. cbn [nth]. rewrite camera_optical_axis. cbn [sub3 dot3].
  match goal with |- Rltb 0 ?e = true <-> _ => replace e with along by (subst along; ring) end.
  apply Rltb_true.
Qed.
Print Assumptions camera_depth_exact.
(** so the two agree for every point iff the correction does not change the sign, in particular for level cameras *)
Corollary camera_depth_level : forall c X Y Z0 yaw roll p, get_xyz c = [X; Y; Z0] -> get_viewdir c = [yaw; 0; roll] ->
  (infront c false p = true <-> xyz_to_uv c false p <> None).
Proof.
  intros c X Y Z0 yaw roll [[x y] z] GX GV.
  destruct (camera_depth_exact c X Y Z0 yaw 0 roll x y z GX GV) as (_ & N & I). cbv zeta in N, I.
  rewrite I. replace (deg2rad 0) with 0 in * by (unfold deg2rad; ring). rewrite sin_0 in *.
  match type of N with _ <-> ?e - ?d * 0 <= 0 => replace (e - d * 0) with e in N by ring; set (a := e) in * end.
  destruct (xyz_to_uv c false (x, y, z)); split; intros H; try congruence.
  - apply Rnot_le_lt. intros L. apply N in L. discriminate.
  - exfalso. pose proof (proj1 N eq_refl). lra.
Qed.
Print Assumptions camera_depth_level.

(** C22.  Every successful resize, whatever the request (also force=True with fractional sizes): with
    [nx, ny] the requested size, the size becomes the rounded request, and the projection of every point is
    scaled by nx / w, ny / h about the image center, which moves to the center of the rounded size. *)
Theorem camera_resize_general : forall s force de c c' (w h : Z), wf c -> resize s force de c = Ok c' ->
  get_imgsz c = [w; h] ->
  exists nx ny, resize_target s force de c = Ok [nx; ny] /\ w <> 0%Z /\ h <> 0%Z
    /\ get_imgsz c' = [Rround nx; Rround ny]
    /\ (forall fx fy, get_f c = [fx; fy] -> get_f c' = [fx * (nx / IZR w); fy * (ny / IZR h)])
    /\ (forall cx cy, get_c c = [cx; cy] -> get_c c' = [cx * (nx / IZR w); cy * (ny / IZR h)])
    /\ (forall q, ~ In q [Imgsz; Foc; Cen] -> cget q (vec c') = cget q (vec c))
    /\ sensorsz c' = sensorsz c /\ correction c' = correction c
    /\ (forall dirs p, xyz_to_uv c' dirs p =
          option_map (fun uv => ((fst uv - IZR w / 2) * (nx / IZR w) + IZR (Rround nx) / 2,
                                 (snd uv - IZR h / 2) * (ny / IZR h) + IZR (Rround ny) / 2)) (xyz_to_uv c dirs p)).
Proof.
  intros s force de c c' w h W H GI.
  destruct (cam_step_frame (OResize s force de) c c' W H) as (W' & O' & K' & F'). cbn [touches] in F'.
  destruct (resize_inv s force de c c' W H) as (new & c1 & c2 & fs & cs & Et & Ln & Nz & S1 & Efs & S2 & Ecs & S3).
  destruct new as [|nx [|ny [|? ?]]]; cbn in Ln; try lia. clear Ln. rewrite GI in Nz.
  assert (Hw0 : w <> 0%Z) by (apply Nz; cbn; auto). assert (Hh0 : h <> 0%Z) by (apply Nz; cbn; auto).
  assert (IR : imgszR c = [IZR w; IZR h]) by (unfold imgszR; rewrite GI; reflexivity).
  destruct S1 as (_ & _ & Z1 & _ & G1 & F1), S2 as (_ & _ & Z2 & _ & G2 & F2), S3 as (_ & _ & Z3 & _ & G3 & F3).
  assert (I' : get_imgsz c' = [Rround nx; Rround ny]).
  { unfold get_imgsz. change (slice 6 2 (vec c')) with (cgetc Imgsz c'). rewrite F3, F2 by congruence. rewrite G1. cbn [map]. rewrite !Rtrunc_IZR. reflexivity. }
  assert (Fo' : get_f c' = fs).
  { change (cgetc Foc c' = fs). rewrite F3 by congruence. exact G2. }
  assert (Ce' : get_c c' = cs) by exact G3.
  rewrite IR in Efs, Ecs. cbn [map2] in Efs, Ecs.
  assert (L : forall q v, length v = 20%nat -> length (cget q v) = clen q).
  { intros q v Hv. unfold cget. rewrite firstn_length, skipn_length, Hv. destruct q; reflexivity. }
  assert (Lf : length (get_f c) = 2%nat) by (apply (L Foc); apply W).
  assert (Lc : length (get_c c) = 2%nat) by (apply (L Cen); apply W).
  destruct (get_f c) as [|fx [|fy [|? ?]]] eqn:Gf; cbn in Lf; try lia.
  destruct (get_c c) as [|cx [|cy [|? ?]]] eqn:Gc; cbn in Lc; try lia. clear Lf Lc. cbn [map2] in Efs, Ecs.
  exists nx, ny. split; [exact Et|]. split; [exact Hw0|]. split; [exact Hh0|]. split; [exact I'|].
  split; [intros ? ? E; injection E as <- <-; congruence|].
  split; [intros ? ? E; injection E as <- <-; congruence|].
  split; [exact F'|]. split; [congruence|]. split; [exact K'|].
  intros dirs p.
  assert (E1 : get_viewdir c' = get_viewdir c) by (apply (F' Viewdir); cbn; intros [|[|[|]]]; congruence).
  assert (E2 : get_xyz c' = get_xyz c) by (apply (F' Xyz); cbn; intros [|[|[|]]]; congruence).
  assert (E3 : get_k c' = get_k c) by (apply (F' Krad); cbn; intros [|[|[|]]]; congruence).
  assert (E4 : get_p c' = get_p c) by (apply (F' Ptan); cbn; intros [|[|[|]]]; congruence).
  assert (X : xyz_to_xy c' dirs p = xyz_to_xy c dirs p).
  { unfold xyz_to_xy, Rm, offset. rewrite E1, E2, K'. reflexivity. }
  assert (Dst : forall xy, distort c' xy = distort c xy).
  { intros [x y]. unfold distort, radial_distortion, tangential_distortion, kk, pp. rewrite E3, E4. reflexivity. }
  unfold xyz_to_uv. rewrite X. destruct (fst (xyz_to_xy c dirs p)) as [xy|]; [|reflexivity]. cbn [option_map]. f_equal.
  unfold xy_to_uv. rewrite Dst. destruct (distort c xy) as [x y]. unfold center, f_, imgszR. rewrite I', GI, Fo', Ce', Efs, Ecs, Gf, Gc.
  cbn [map nth fst snd].
  assert (IZR w <> 0) by (apply not_0_IZR; auto). assert (IZR h <> 0) by (apply not_0_IZR; auto).
  f_equal; field; auto.
Qed.
Print Assumptions camera_resize_general.

(** The size obtained from a target size without force: each side is the requested one, or one more when the
    scale found by the search lands exactly on a half pixel. *)
Theorem camera_resize_target_size : forall n m de c new w0 h0,
  cget Imgsz (orig c) = [IZR w0; IZR h0] -> w0 <> 0%Z -> h0 <> 0%Z ->
  resize_target [IZR n; IZR m] false de c = Ok new ->
  exists n' m', new = [IZR n'; IZR m']
    /\ (n' = n \/ (n' = n + 1)%Z /\ de * IZR w0 = IZR n + / 2)
    /\ (m' = m \/ (m' = m + 1)%Z /\ de * IZR h0 = IZR m + / 2).
Proof.
  intros n m de c new w0 h0 Ho Hw Hh H. unfold resize_target in H.
  change (slice 6 2 (orig c)) with (cget Imgsz (orig c)) in H. rewrite Ho in H.
  cbn [length Nat.ltb Nat.leb andb] in H. unfold get_scale_from_size in H. cbn [map2 forallb hd] in H.
  assert (Nw : IZR w0 <> 0) by (apply not_0_IZR; auto). assert (Nh : IZR h0 <> 0) by (apply not_0_IZR; auto).
  assert (F : forall k, Rfloor (IZR k + / 2) = k) by (intros; apply Rfloor_imp; lra).
  assert (G : forall x k, Rround x = k -> Rfloor (x + / 2) = k \/ (Rfloor (x + / 2) = k + 1)%Z /\ x = IZR k + / 2).
  { intros x k Hr.
    destruct (Req_dec x (IZR k + / 2)) as [->|N].
    - right. split; [|reflexivity]. apply Rfloor_imp. rewrite plus_IZR. lra.
    - left. apply Rfloor_imp.
      pose proof (Rround_near x) as B. rewrite Hr in B. unfold Rabs in B. destruct (Rcase_abs _); lra. }
  assert (Base : exists n' m', [IZR n; IZR m] = [IZR n'; IZR m']
    /\ (n' = n \/ (n' = n + 1)%Z /\ de * IZR w0 = IZR n + / 2)
    /\ (m' = m \/ (m' = m + 1)%Z /\ de * IZR h0 = IZR m + / 2)) by (exists n, m; auto).
  destruct (Reqb_spec (IZR n) (IZR w0)) as [E1|E1], (Reqb_spec (IZR m) (IZR h0)) as [E2|E2]; cbn [andb] in H;
  [cbn [bind map] in H; injection H as <-; rewrite !Rmult_1_l, !F; apply eq_IZR in E1; apply eq_IZR in E2; exists w0, h0; auto|..];
  (destruct (Reqb_spec (IZR n / IZR w0) (IZR n / IZR w0)) as [_|K]; [|congruence]; cbn [andb] in H;
   destruct (Reqb_spec (IZR n / IZR w0) (IZR m / IZR h0)) as [K|K]; cbn [andb] in H;
   [cbn [bind map] in H; injection H as <-;
    replace (IZR n / IZR w0 * IZR w0) with (IZR n) by (field; auto);
    rewrite K; replace (IZR m / IZR h0 * IZR h0) with (IZR m) by (field; auto); rewrite !F; exact Base
   |destruct (Reqb_spec (sumR [Rabs (IZR (Rround (de * IZR w0)) - IZR n); Rabs (IZR (Rround (de * IZR h0)) - IZR m)]) 0) as [Z|Z];
    [|discriminate]; cbn [bind map] in H; injection H as <-;
    pose proof (sumR_abs_zero [IZR (Rround (de * IZR w0)) - IZR n; IZR (Rround (de * IZR h0)) - IZR m] Z) as ZZ;
    pose proof (ZZ _ (or_introl eq_refl)) as Z1; pose proof (ZZ _ (or_intror (or_introl eq_refl))) as Z2;
    apply Rminus_diag_uniq in Z1; apply Rminus_diag_uniq in Z2; apply eq_IZR in Z1; apply eq_IZR in Z2;
    exists (Rfloor (de * IZR w0 + / 2)), (Rfloor (de * IZR h0 + / 2)); split; [reflexivity|];
    split; apply G; assumption]).
Qed.
Print Assumptions camera_resize_target_size.

(** C24.  rasterize fails exactly when an in-frame point lies on the right or bottom border. *)
Theorem camera_rasterize_raises : forall c nx ny uv values, get_imgsz c = [nx; ny] -> (0 <= nx)%Z -> (0 <= ny)%Z ->
  length values = length uv ->
  (rasterize c uv values = Err ValueError <->
   exists u v, In (Some (u, v)) uv /\ inframe c (Some (u, v)) = true /\ (u = IZR nx \/ v = IZR ny)).
Proof.
  intros c nx ny uv values Hi Hnx Hny Hl.
  assert (Hfr : forall u v, inframe c (Some (u, v)) = true <-> 0 <= u <= IZR nx /\ 0 <= v <= IZR ny).
  { intros u v. unfold inframe, imgszR. rewrite Hi. cbn [map nth]. rewrite !andb_true_iff, !Rleb_true. tauto. }
  split.
  - intros E. apply Classical_Prop.NNPP. intros N.
    destruct (rasterize_spec c nx ny uv values Hi Hnx Hny Hl) as (a & Ea & _).
    { intros u v I F. pose proof (proj1 (Hfr u v) F) as B. split; apply Rnot_le_lt; intros L; apply N; exists u, v;
        (split; [exact I|]); (split; [exact F|]); [left|right]; lra. }
    congruence.
  - intros (u & v & I & F & B). unfold rasterize. rewrite Hi. cbn [nth].
    set (sel := filter (fun p => inframe c (fst p)) (combine uv values)). unfold rasterize_into.
    assert (S : exists w, In (Some (u, v), w) sel).
    { destruct (In_nth_error _ _ I) as (k & Ek).
      assert (Lk : (k < length values)%nat) by (rewrite Hl; apply (proj1 (nth_error_Some uv k)); intros Q; pose proof (eq_trans (eq_sym Ek) Q); discriminate).
      destruct (nth_error values k) as [w|] eqn:Ew; [|apply nth_error_None in Ew; lia].
      exists w. apply filter_In. split; [|exact F]. apply (nth_error_In _ k).
      clear - Ek Ew. revert values k Ek Ew. induction uv as [|a uv IH]; intros [|b values] [|k] Ek Ew; cbn in *; try discriminate.
      - injection Ek as ->. injection Ew as ->. reflexivity.
      - apply IH; auto. }
    destruct S as (w & S). rewrite rasterize_points_oob; [reflexivity|rewrite !map_length; reflexivity|].
    intros Sh. red in Sh. specialize (Sh (Rtrunc v) (Rtrunc u)).
    rewrite combine_map_same in Sh.
    assert (P : In (Rtrunc v, Rtrunc u) (map (fun x : option vec2 * R =>
       (match fst x with Some (_, v0) => Rtrunc v0 | None => 0%Z end, match fst x with Some (u0, _) => Rtrunc u0 | None => 0%Z end)) sel)).
    { apply in_map_iff. exists (Some (u, v), w). split; [reflexivity|exact S]. }
    specialize (Sh P). destruct B as [-> | ->]; rewrite Rtrunc_IZR in Sh; lia.
Qed.
Print Assumptions camera_rasterize_raises.

(** C25.  Every form of the depth argument: what is returned and when a ValueError is raised. *)
Theorem camera_unproject_depths_all : forall c dirs depth uv, (dirs = true \/ correction c = None) ->
  let rejected := match depth with
                  | DScalar _ => False
                  | DSeq ds => length ds <> length uv /\ length ds <> 1%nat
                  | DArray ds => (1 < length ds)%nat
                  end in
  (rejected -> uv_to_xyz c dirs depth uv = Err ValueError)
  /\ (~ rejected -> exists xyz, uv_to_xyz c dirs depth uv = Ok xyz /\ length xyz = length uv /\
      forall k p, nth_error xyz k = Some p ->
        snd (xyz_to_xy c dirs p) =
          match depth with
          | DScalar d => d
          | DSeq ds => if (length ds =? 1)%nat then hd 0 ds else nth k ds 0
          | DArray ds => hd 1 ds
          end).
Proof.
  intros c dirs depth uv Hd.
  assert (G : forall d xy, snd (xyz_to_xy c dirs (xy_to_xyz c dirs d xy)) = d).
  { intros d xy. unfold xyz_to_xy. cbv zeta. cbn [snd]. rewrite offset_xy_to_xyz by auto.
    unfold Rm. rewrite dot3_ray by lia. ring. }
  assert (M : forall d xys, exists xyz, @Ok (list vec3) (map (xy_to_xyz c dirs d) xys) = Ok xyz /\ length xyz = length xys /\
      forall k p, nth_error xyz k = Some p -> snd (xyz_to_xy c dirs p) = d).
  { intros d xys. eexists. split; [reflexivity|]. split; [apply map_length|].
    intros k p Hp. rewrite nth_error_map in Hp. destruct (nth_error _ k); [|discriminate]. cbn in Hp. injection Hp as <-. apply G. }
  cbv zeta. destruct depth as [d|ds|ds]; cbn [uv_to_xyz]; (split; [intros Rj|intros Nr]).
  - destruct Rj.
  - destruct (M d (map (uv_to_xy c) uv)) as (xyz & E & L & Q). exists xyz. rewrite map_length in L. auto.
  - destruct Rj as [R1 R2]. rewrite map_length. destruct (Nat.eqb_spec (length ds) (length uv)); [congruence|].
    destruct ds as [|d [|? ?]]; [reflexivity|cbn in R2; lia|reflexivity].
  - rewrite map_length. destruct (Nat.eqb_spec (length ds) (length uv)) as [e|e].
    + destruct (uv_to_xyz_depths c dirs (DSeq ds) uv Hd e) as (xyz & E & L & Q). cbn [uv_to_xyz] in E.
      rewrite map_length, e, Nat.eqb_refl in E. exists xyz. split; [exact E|]. split; [exact L|].
      intros k p Hp. rewrite (Q k p Hp). destruct (Nat.eqb_spec (length ds) 1) as [e1|]; [|reflexivity].
      destruct ds as [|d [|? ?]]; cbn in e1; try lia. assert (Lk : (k < 1)%nat) by (assert (k < length xyz)%nat by (apply (proj1 (nth_error_Some xyz k)); intros Q'; pose proof (eq_trans (eq_sym Hp) Q'); discriminate); cbn in e; lia).
      destruct k; [reflexivity|lia].
    + destruct ds as [|d [|? ?]]; [|cbn [length Nat.eqb hd]|].
      * exfalso. apply Nr. cbn in *. split; [exact e|lia].
      * destruct (M d (map (uv_to_xy c) uv)) as (xyz & E & L & Q). exists xyz. rewrite map_length in L. auto.
      * exfalso. apply Nr. cbn in *. split; [exact e|lia].
  - destruct ds as [|d [|? ?]]; cbn in Rj; try lia. reflexivity.
  - destruct ds as [|d [|? ?]]; cbn [hd].
    + destruct (M 1 (map (uv_to_xy c) uv)) as (xyz & E & L & Q). exists xyz. rewrite map_length in L. auto.
    + destruct (M d (map (uv_to_xy c) uv)) as (xyz & E & L & Q). exists xyz. rewrite map_length in L. auto.
    + exfalso. apply Nr. cbn. lia.
Qed.
Print Assumptions camera_unproject_depths_all.
(** With elevation corrections (world points), the depth comes back lowered by the same correction as in camera_depth_exact. *)
Example camera_unproject_depths_ex :
  uv_to_xyz excam false (DSeq [2; 3]) [(2, 1); (2, 1)] <> Err ValueError /\ uv_to_xyz excam false (DSeq [2; 3; 4]) [(2, 1); (2, 1)] = Err ValueError.
Proof. split; cbn; congruence. Qed.
