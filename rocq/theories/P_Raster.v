(** Property theorems about Raster and the caches of Grid and Raster, src/glimpse/raster.py (C28, C30-C32, C57). *)
From Coq Require Import Lia Lra.
From Verif Require Import Base BaseLemmas HelpersModel GridModel GridSpec GridProofs GridProofs2 RasterModel RasterSpec
  RasterProofs RasterProofs2 RasterProofs3 RasterProofs4 RasterProofs5 RasterProofs6 RasterProofs7.
Open Scope R_scope.

Lemma gbase_coherent s : gbase s -> gcoherent s.
Proof.
  intros B. split; [|split; [|split]].
  - destruct (gget_x_spec s B) as (v & s' & E & C & _). eauto.
  - destruct (gget_y_spec s B) as (v & s' & E & C & _). eauto.
  - destruct (gget_X_spec s B) as (v & s' & E & C & _). eauto.
  - destruct (gget_Y_spec s B) as (v & s' & E & C & _). eauto.
Qed.
Lemma in_axis_center a k : axis_ok a -> (0 <= k < snd a)%Z -> in_axis a (center a k).
Proof.
  intros A [H1 H2]. unfold center. apply in_axis_at; [exact A|]. apply IZR_le in H1.
  assert (IZR k + 1 <= IZR (snd a)) by (rewrite <- plus_IZR; apply IZR_le; lia). lra.
Qed.
Lemma fresh_base s : fresh s -> base s /\ zinv s /\ rzf s = None.
Proof. intros (ny & nx & v & af & xl & yl & xf & yf & H & H1 & H2 & H3). eapply new_raster_base; eauto. Qed.
Lemma reached_base s : reached s -> base s /\ zinv s.
Proof. intros (s0 & ops & F & H). destruct (fresh_base s0 F) as (B & Z & _). eapply sample_safe_inv; eauto. Qed.
Lemma fresh_reached s : fresh s -> reached s.
Proof. intros F. exists s, []. split; [exact F|constructor]. Qed.
Lemma sample_safe_app s os s1 os' s2 : sample_safe s os s1 -> sample_safe s1 os' s2 -> sample_safe s (os ++ os') s2.
Proof. induction 1; cbn; auto. intros. econstructor; eauto. Qed.
Lemma reached_step s o s1 : reached s -> op_ok o -> rstep o s = Ok s1 ->
  (match o with RShift _ _ _ | RSetX _ _ | RSetY _ _ => rzf s = None | _ => True end) -> reached s1.
Proof.
  intros (s0 & ops & F & H) O E S. exists s0, (ops ++ [o]). split; [exact F|].
  eapply sample_safe_app; [exact H|]. econstructor; eauto. constructor.
Qed.
(** an example: the 2 x 2 raster on (0, 2) x (0, 2), fresh and after sampling *)
Example r22_reached : reached r22 /\ reached r22s.
Proof.
  split; [apply fresh_reached, r22_fresh|].
  apply (reached_step r22 (RSample 1 1)); [apply fresh_reached, r22_fresh|exact I|apply r22_sampled|exact I].
Qed.

(** C28: cropping a raster keeps exactly the cells that intersect the request, each with its coordinates and value *)
Theorem raster_crop : forall s xo yo, reached s -> (xo <> None \/ yo <> None) ->
  let xl := request xo (xaxis (rgrid s)) in let yl := request yo (yaxis (rgrid s)) in
  (~ (overlaps xl (xaxis (rgrid s)) /\ overlaps yl (yaxis (rgrid s))) -> crop xo yo s = Err ValueError) /\
  (overlaps xl (xaxis (rgrid s)) /\ overlaps yl (yaxis (rgrid s)) ->
    exists s' r0 r1 c0 c1, crop xo yo s = Ok s' /\ reached s' /\ window s s' r0 r1 c0 c1
      /\ (forall c, cell_hit xl (xaxis (rgrid s)) c <-> (Z.of_nat c0 <= c <= Z.of_nat c1)%Z)
      /\ (forall r, cell_hit yl (yaxis (rgrid s)) r <-> (Z.of_nat r0 <= r <= Z.of_nat r1)%Z)).
Proof.
  intros s xo yo R N xl yl. destruct (reached_base s R) as [B Z]. destruct (crop_spec xo yo s B N) as [H1 H2].
  split; [exact H1|]. intros O. destruct (H2 O) as (s' & r0 & r1 & c0 & c1 & E & B' & Z' & W & C1 & C2).
  exists s', r0, r1, c0, c1. split; [exact E|]. split; [|auto].
  apply (reached_step s (RCrop xo yo)); auto. exact I.
Qed.
Print Assumptions raster_crop.
Example raster_crop_ex : reached r22s /\ overlaps (request (Some (0, 1)) (xaxis (rgrid r22s))) (xaxis (rgrid r22s)).
Proof.
  split; [apply r22_reached|]. unfold overlaps, requested, request. exists (/ 2). cbn.
  unfold Rmin, Rmax; repeat destruct Rle_dec; lra.
Qed.
(** cropping values: only values outside the limits become nan; nothing else changes *)
Theorem raster_crop_values : forall s z0 z1 s', reached s -> crop_z z0 z1 s = Ok s' ->
  reached s' /\ rxlim s' = rxlim s /\ rylim s' = rylim s /\ rny s' = rny s /\ rnx s' = rnx s
  /\ forall r c, match cellv s r c with
       | None => cellv s' r c = None
       | Some v => (Rmin z0 z1 <= v <= Rmax z0 z1 -> cellv s' r c = Some v) /\ (v < Rmin z0 z1 \/ Rmax z0 z1 < v -> cellv s' r c = None)
       end.
Proof.
  intros s z0 z1 s' R E. destruct (reached_base s R) as [B Z]. destruct (crop_z_spec z0 z1 s s' B E) as (B' & V & G & Z').
  split; [apply (reached_step s (RCropZ z0 z1)); auto; exact I|]. destruct (rgrid_dims s s' G) as [Nx Ny].
  split; [exact (f_equal gxlim G)|]. split; [exact (f_equal gylim G)|]. split; [exact Ny|]. split; [exact Nx|].
  intros r c. assert (C : cellv s' r c = zcrop z0 z1 (cellv s r c)).
  { unfold cellv. rewrite V, Nx. change (@None Rdefinitions.R) with (zcrop z0 z1 None) at 1. apply map_nth. }
  rewrite C. destruct (cellv s r c) as [v|]; [|reflexivity]. cbn. split.
  - intros [H1 H2]. replace (Rltb v (Rmin z0 z1)) with false by (symmetry; apply Rltb_false; lra).
    replace (Rltb (Rmax z0 z1) v) with false by (symmetry; apply Rltb_false; lra). reflexivity.
  - intros [H|H]; apply Rltb_true in H; rewrite H; [reflexivity|rewrite Bool.orb_true_r; reflexivity].
Qed.
Print Assumptions raster_crop_values.
Example raster_crop_values_ex : exists s', crop_z 1 2 r22s = Ok s'.
Proof. eexists. reflexivity. Qed.

(** C30: coordinates of a Grid *)
Theorem grid_caches_size_first : forall size xl yl s0 ops s, (1 <= fst size)%Z -> (1 <= snd size)%Z ->
  new_grid size xl yl = Ok s0 -> size_safe s0 ops s -> gcoherent s.
Proof.
  intros size xl yl s0 ops s H1 H2 H S. apply gbase_coherent. eapply size_safe_base; [eapply new_grid_base; eauto|exact S].
Qed.
Print Assumptions grid_caches_size_first.
Definition g22 : gobj := mkgobj (mkgrid 2 2 (0, 2) (0, 2)) None None None None.
Lemma g22_new : new_grid (2, 2)%Z [0; 2] [0; 2] = Ok g22.
Proof. unfold new_grid. rewrite !parse_limits_ne by lra. reflexivity. Qed.
Example grid_caches_ex : exists s, size_safe g22 [GX; GShift (Some 1) None] s /\ og s = mkgrid 2 2 (0 + 1, 2 + 1) (0, 2).
Proof.
  eexists. split.
  - econstructor; [|exact I|econstructor; [|exact I|constructor]].
    + cbn [gstep]. unfold gget_x. cbn [ox g22]. change (xaxis (og g22)) with ((0, 2), 2%Z). rewrite centers02. reflexivity.
    + reflexivity.
  - reflexivity.
Qed.
(** Setting the size after the coordinates were read returns the old coordinates. *)
Theorem grid_caches_refuted : exists s0 s, new_grid (2, 2)%Z [0; 2] [0; 2] = Ok s0 /\ gsteps [GX; GSetSize [4%Z]] s0 = Ok s /\
  gnx (og s) = 4%Z /\ exists v s', gget_x s = Ok (v, s') /\ length v = 2%nat /\ ~ is_centers (xaxis (og s)) v.
Proof.
  exists g22. eexists. split; [apply g22_new|]. split.
  - cbn [gsteps gstep]. unfold gget_x. cbn [ox g22]. change (xaxis (og g22)) with ((0, 2), 2%Z). rewrite centers02. reflexivity.
  - split; [reflexivity|]. eexists _, _. split; [reflexivity|]. split; [reflexivity|]. intros [L _]. cbn in L. discriminate.
Qed.
Print Assumptions grid_caches_refuted.

(** C30: coordinates of a Raster: coherent after any history in which [shift] does not follow a two-dimensional sample. *)
Theorem raster_caches_unshifted : forall s0 ops s, fresh s0 -> shift_safe s0 ops s -> coords_coherent s.
Proof.
  intros s0 ops s F S. apply base_coherent. destruct (fresh_base s0 F) as (B & _). eapply shift_safe_base; eauto.
Qed.
Print Assumptions raster_caches_unshifted.
Example raster_caches_ex : exists s, shift_safe r22 [RShift (Some (mknum true 1)) None None; RSample 1 1; RSetX [10; 12] true] s
  /\ rxlim s = (10, 12).
Proof.
  destruct (centers_is ((0 + 1, 2 + 1), 2%Z)) as (v & Ev & _); [split; cbn; [lra|lia]|].
  eexists. split.
  - econstructor; [exact I|reflexivity|reflexivity|]. econstructor; [exact I| |exact I|].
    + cbn [rstep]. unfold sample, sample_value. cbn [rnx rny upd_x upd_y upd_xlim r22 Nat.ltb Nat.leb andb negb].
      unfold get_zf. cbn [rzf r22 upd_xlim]. unfold get_x. cbn [rx r22 upd_xlim].
      match goal with |- context [centers ?a] => change a with ((0 + 1, 2 + 1), 2%Z) end. rewrite Ev.
      cbn [bind]. unfold get_y. cbn [ry r22 upd_xlim upd_x upd_xh].
      match goal with |- context [centers ?a] => change a with ((0, 2), 2%Z) end. rewrite centers02.
      cbn [bind raflt upd_y upd_x upd_xh upd_xlim r22]. reflexivity.
    + econstructor; [exact I| |exact I|constructor]. cbn [rstep]. unfold set_xlim. rewrite parse_limits_ne by lra. cbn [bind].
      unfold Req2b. cbn [fst snd rxlim upd_zf upd_y upd_x upd_xh upd_xlim r22].
      match goal with |- context [Reqb ?a 10] => replace (Reqb a 10) with false by (symmetry; apply Reqb_false; cbn; lra) end. reflexivity.
  - reflexivity.
Qed.
(** [shift(1)] after a sample moves the coordinates x by 2 (the limits by 1). *)
Theorem raster_caches_refuted : exists s0 ops s, fresh s0 /\ Forall op_ok ops /\ rsteps ops s0 = Ok s /\ ~ coords_coherent s.
Proof.
  exists r22, [RSample 1 1; RShift (Some (mknum true 1)) None None], r22d.
  split; [apply r22_fresh|]. split; [repeat constructor|]. split; [|apply r22d_incoherent].
  cbn [rsteps]. rewrite r22_sampled. cbn [bind]. rewrite r22_double. reflexivity.
Qed.
Print Assumptions raster_caches_refuted.
(** the values sampled depend on the current limits and array only, not on the history *)
Theorem raster_sample_history_independent : forall s s' linear be fill x y, reached s -> reached s' ->
  rnx s' = rnx s -> rny s' = rny s -> rxlim s' = rxlim s -> rylim s' = rylim s -> rvalues s' = rvalues s ->
  sampled (sample linear be fill x y s') = sampled (sample linear be fill x y s).
Proof.
  intros s s' linear be fill x y R R'. destruct (reached_base s R) as [B Z]. destruct (reached_base s' R') as [B' Z'].
  intros. apply sample_same_attributes; auto.
Qed.
Print Assumptions raster_sample_history_independent.
Example raster_sample_history_ex : reached r22 /\ reached r22s /\ rvalues r22s = rvalues r22 /\ r22s <> r22.
Proof. split; [apply r22_reached|]. split; [apply r22_reached|]. split; [reflexivity|]. discriminate. Qed.
(** but setting the limits after a sample leaves the interpolator at the old coordinates:
    the center of cell (0, 0), value 0, is sampled as 1 *)
Theorem raster_sample_stale_refuted : exists s0 ops s, fresh s0 /\ rsteps ops s0 = Ok s /\ cellv s 0 0 = Some 0 /\
  sampled (sample false true None (center (xaxis (rgrid s)) 0) (center (yaxis (rgrid s)) 0) s) = Ok (Some 1).
Proof.
  exists r22, [RSample 1 1; RSetX [10; 12] true], r22l. split; [apply r22_fresh|]. split; [|split; [reflexivity|apply r22l_stale]].
  cbn [rsteps]. rewrite r22_sampled. cbn [bind]. rewrite r22_limits. reflexivity.
Qed.
Print Assumptions raster_sample_stale_refuted.

(** C31 *)
Theorem raster_shift_unsampled : forall s dx dy dz, reached s -> rzf s = None ->
  (addable (rxflt s) dx && addable (ryflt s) dy && addable (raflt s) dz = false -> shift dx dy dz s = Err TypeError) /\
  (addable (rxflt s) dx && addable (ryflt s) dy && addable (raflt s) dz = true ->
   exists s', shift dx dy dz s = Ok s' /\ reached s' /\ coords_coherent s' /\ translated s s' dx dy dz
     /\ forall linear be x y,
          sampled (sample linear be None (x + amount dx) (y + amount dy) s')
          = result_map (option_map (fun v => v + amount dz)) (sampled (sample linear be None x y s))).
Proof.
  intros s dx dy dz R N. destruct (reached_base s R) as [B Z]. destruct (shift_spec dx dy dz s B N) as [H1 H2]. split; [exact H1|].
  intros A. destruct (H2 A) as (s' & E & B' & Z' & Lx & Ly & V & Ny & Nx & _). exists s'. split; [exact E|].
  assert (R' : reached s') by (apply (reached_step s (RShift dx dy dz)); auto; exact I).
  destruct (reached_base s' R') as [_ Zi].
  split; [exact R'|]. split; [apply base_coherent; auto|]. split.
  - split; [exact Lx|]. split; [exact Ly|]. split; [exact Ny|]. split; [exact Nx|]. intros r c. unfold cellv. rewrite V, Nx.
    change (@None Rdefinitions.R) with (oplus (amount dz) None) at 1. apply map_nth.
  - intros linear be x y. apply sample_shift_equivariant; auto.
Qed.
Print Assumptions raster_shift_unsampled.
Example raster_shift_ex : reached r22 /\ rzf r22 = None /\
  addable (rxflt r22) (Some (mknum true 1)) && addable (ryflt r22) (Some (mknum true 2)) && addable (raflt r22) None = true.
Proof. split; [apply r22_reached|]. split; reflexivity. Qed.
(** After a two-dimensional sample: a shift of y without z always raises, having already moved part of the raster, ... *)
Theorem raster_shift_y_after_sample_refuted : forall s z dx d, rzf s = Some z -> shift dx (Some d) None s = Err TypeError.
Proof. intros s z dx d H. exact (shift_y_after_sample_raises s z d dx H). Qed.
Print Assumptions raster_shift_y_after_sample_refuted.
Example raster_shift_y_after_sample_ex : reached r22s /\ rzf r22s = Some z22.
Proof. split; [apply r22_reached|reflexivity]. Qed.
(** ... and a shift of x alone moves the sampled values twice as far:
    the value at the center of the first cell is no longer found there *)
Theorem raster_shift_refuted : exists s s', reached s /\ shift (Some (mknum true 1)) None None s = Ok s'
  /\ rxlim s' = (fst (rxlim s) + 1, snd (rxlim s) + 1) /\ ~ coords_coherent s'
  /\ exists x y, sampled (sample true false None x y s) = Ok (Some (/ 2)) /\ sampled (sample true false None (x + 1) y s') = Ok (Some (- / 2)).
Proof.
  exists r22s, r22d. split; [apply r22_reached|]. split; [apply r22_double|]. split; [reflexivity|]. split; [apply r22d_incoherent|].
  exists 1, (/ 2). split.
  - unfold sample, sample_value. cbn [rnx rny r22s Nat.ltb Nat.leb andb]. unfold get_zf. cbn [rzf r22s bind sampled].
    unfold rgi_linear, rgi_locate, zgrid_x, zgrid_y. cbn [zxrev zyrev z22 oriented xbuf xh r22s zx zy nth filter].
    replace (Rltb (/ 2) 1) with true by (symmetry; apply Rltb_true; lra).
    replace (Rltb (3 / 2) 1) with false by (symmetry; apply Rltb_false; lra).
    replace (Rltb (/ 2) (/ 2)) with false by (symmetry; apply Rltb_false; lra).
    replace (Rltb (3 / 2) (/ 2)) with false by (symmetry; apply Rltb_false; lra).
    cbn [length Nat.min Nat.sub nth]. cbn. do 2 f_equal. field.
  - unfold sample, sample_value. cbn [rnx rny r22d Nat.ltb Nat.leb andb]. unfold get_zf. cbn [rzf r22d bind sampled].
    unfold rgi_linear, rgi_locate, zgrid_x, zgrid_y. cbn [zxrev zyrev z22 oriented xbuf xh r22d zx zy nth filter].
    replace (Rltb (/ 2 + 1 + 1) (1 + 1)) with false by (symmetry; apply Rltb_false; lra).
    replace (Rltb (3 / 2 + 1 + 1) (1 + 1)) with false by (symmetry; apply Rltb_false; lra).
    replace (Rltb (/ 2) (/ 2)) with false by (symmetry; apply Rltb_false; lra).
    replace (Rltb (3 / 2) (/ 2)) with false by (symmetry; apply Rltb_false; lra).
    cbn [length Nat.min Nat.sub nth]. cbn. do 2 f_equal. field.
Qed.
Print Assumptions raster_shift_refuted.

(** C32 *)
Theorem raster_data_extent : forall s,
  ((forall r c, ~ has_data s r c) -> data_extent s = Err ValueError) /\
  ((exists r c, has_data s r c) -> exists r0 r1 c0 c1, data_extent s = Ok ((r0, r1), (c0, c1)) /\ tight s r0 r1 c0 c1).
Proof. exact data_extent_spec. Qed.
Print Assumptions raster_data_extent.
Theorem raster_crop_to_data : forall s, reached s ->
  ((forall r c, ~ has_data s r c) -> crop_to_data s = Err ValueError) /\
  ((exists r c, has_data s r c) -> exists s' r0 r1 c0 c1, crop_to_data s = Ok s' /\ reached s' /\ coords_coherent s'
     /\ tight s r0 r1 c0 c1 /\ window s s' r0 (r1 - 1) c0 (c1 - 1)).
Proof.
  intros s R. destruct (reached_base s R) as [B Z]. destruct (crop_to_data_spec s B) as [H1 H2]. split; [exact H1|].
  intros D. destruct (H2 D) as (s' & r0 & r1 & c0 & c1 & E & B' & Z' & T & W). exists s', r0, r1, c0, c1.
  split; [exact E|]. split; [apply (reached_step s RCropData); auto; exact I|]. split; [apply base_coherent; auto|]. auto.
Qed.
Print Assumptions raster_crop_to_data.
Example raster_data_ex : reached r22s /\ has_data r22s 1 0.
Proof. split; [apply r22_reached|]. unfold has_data. cbn. split; [lia|]. split; [lia|]. discriminate. Qed.

(** C57: sampling.  Points out of bounds raise, or get the fill value, or are extrapolated, as requested. *)
Theorem raster_sample_bounds : forall s linear x y, reached s ->
  let inside := in_axis (xaxis (rgrid s)) x /\ in_axis (yaxis (rgrid s)) y in
  (exists v, sampled (sample linear false None x y s) = Ok v) /\
  (forall be fill, inside -> sampled (sample linear be fill x y s) = sampled (sample linear false None x y s)) /\
  (~ inside -> (forall fill, sample linear true fill x y s = Err ValueError) /\
               (forall f, sample linear false (Some f) x y s = Ok (f, s))).
Proof.
  intros s linear x y R inside. destruct (reached_base s R) as [B Z].
  assert (I : inbounds_xy (rgrid s) (x, y) = true <-> inside).
  { unfold inbounds_xy, inside. cbn [fst snd]. rewrite Bool.andb_true_iff, !inbounds1_spec. reflexivity. }
  split; [|split].
  - destruct (sample_value_base linear x y s B) as (v & s' & E & _). exists v. unfold sample. rewrite E. reflexivity.
  - intros be fill H. apply I in H. unfold sample. rewrite H. cbn. destruct be; [reflexivity|]. destruct fill; reflexivity.
  - intros H. assert (F : inbounds_xy (rgrid s) (x, y) = false) by (apply Bool.not_true_iff_false; tauto).
    unfold sample. rewrite F. cbn. split; reflexivity.
Qed.
Print Assumptions raster_sample_bounds.
(** order 0: the value of the nearest cell *)
Theorem raster_sample_nearest : forall s x y, reached s ->
  exists r c, sampled (sample false false None x y s) = Ok (cellv s r c)
    /\ nearest_cell (xaxis (rgrid s)) (rnx s) x c /\ nearest_cell (yaxis (rgrid s)) (rny s) y r.
Proof.
  intros s x y R. destruct (reached_base s R) as [B Z]. destruct (sample_nearest_spec x y s B Z) as (r & c & s' & E & H).
  exists r, c. split; [unfold sample; rewrite E; reflexivity|exact H].
Qed.
Print Assumptions raster_sample_nearest.
(** order 1: the bilinear combination of the four surrounding cells *)
Theorem raster_sample_linear : forall s x y, reached s -> (1 < rnx s)%nat -> (1 < rny s)%nat ->
  exists c c' t r r' u,
    brackets (xaxis (rgrid s)) (rnx s) x c c' t /\ brackets (yaxis (rgrid s)) (rny s) y r r' u /\
    sampled (sample true false None x y s) = Ok (
      match cellv s r c, cellv s r' c, cellv s r c', cellv s r' c' with
      | Some v00, Some v10, Some v01, Some v11 =>
          Some ((1 - t) * ((1 - u) * v00 + u * v10) + t * ((1 - u) * v01 + u * v11))
      | _, _, _, _ => None
      end).
Proof.
  intros s x y R Nx Ny. destruct (reached_base s R) as [B Z].
  destruct (sample_linear_spec x y s B Z Nx Ny) as (c & c' & t & r & r' & u & s' & H1 & H2 & E).
  exists c, c', t, r, r', u. split; [exact H1|]. split; [exact H2|]. unfold sample. rewrite E. cbn [sampled bind]. f_equal.
  destruct (cellv s r c), (cellv s r' c), (cellv s r c'), (cellv s r' c'); cbn; try reflexivity. f_equal. ring.
Qed.
Print Assumptions raster_sample_linear.
(** exact at cell centers, exact for planes (also extrapolated), and within the range of the values *)
Theorem raster_sample_exact : forall s r c, reached s -> no_nan s -> (r < rny s)%nat -> (c < rnx s)%nat ->
  sampled (sample true true None (center (xaxis (rgrid s)) (Z.of_nat c)) (center (yaxis (rgrid s)) (Z.of_nat r)) s) = Ok (cellv s r c).
Proof.
  intros s r c R N Hr Hc. destruct (raster_sample_bounds s true (center (xaxis (rgrid s)) (Z.of_nat c)) (center (yaxis (rgrid s)) (Z.of_nat r)) R) as (_ & H & _).
  destruct (reached_base s R) as [B Z]. rewrite H.
  - destruct (sample_at_center r c s B Z N Hr Hc) as (s' & E). unfold sample. rewrite E. reflexivity.
  - destruct (b_ok s B) as [Ax Ay]. split; apply in_axis_center; cbn; auto; lia.
Qed.
Print Assumptions raster_sample_exact.
Theorem raster_sample_planar : forall s x y b0 bx by_, reached s -> (1 < rnx s)%nat -> (1 < rny s)%nat ->
  (forall r c, (r < rny s)%nat -> (c < rnx s)%nat ->
     cellv s r c = Some (b0 + bx * center (xaxis (rgrid s)) (Z.of_nat c) + by_ * center (yaxis (rgrid s)) (Z.of_nat r))) ->
  sampled (sample true false None x y s) = Ok (Some (b0 + bx * x + by_ * y)).
Proof.
  intros s x y b0 bx by_ R Nx Ny V. destruct (reached_base s R) as [B Z]. destruct (sample_planar x y s b0 bx by_ B Z Nx Ny V) as (s' & E).
  unfold sample. rewrite E. reflexivity.
Qed.
Print Assumptions raster_sample_planar.
Theorem raster_sample_within_values : forall s x y lo hi v, reached s -> (1 < rnx s)%nat -> (1 < rny s)%nat ->
  between (center (xaxis (rgrid s)) 0) (center (xaxis (rgrid s)) (Z.of_nat (rnx s - 1))) x ->
  between (center (yaxis (rgrid s)) 0) (center (yaxis (rgrid s)) (Z.of_nat (rny s - 1))) y ->
  (forall r c w, (r < rny s)%nat -> (c < rnx s)%nat -> cellv s r c = Some w -> lo <= w <= hi) ->
  sampled (sample true false None x y s) = Ok (Some v) -> lo <= v <= hi.
Proof.
  intros s x y lo hi v R Nx Ny Bx By V E. destruct (reached_base s R) as [B Z].
  destruct (sample_value_base true x y s B) as (w & s' & E' & _).
  unfold sample in E. rewrite E' in E. cbn in E. injection E as ->. eapply sample_within_values; eauto.
Qed.
Print Assumptions raster_sample_within_values.
Example raster_sample_ex : reached r22s /\ no_nan r22s /\ (1 < rnx r22s)%nat /\
  forall r c, (r < rny r22s)%nat -> (c < rnx r22s)%nat ->
     cellv r22s r c = Some (- (3 / 2) + 1 * center (xaxis (rgrid r22s)) (Z.of_nat c) + 2 * center (yaxis (rgrid r22s)) (Z.of_nat r)).
Proof.
  split; [apply r22_reached|]. split; [|split; [cbn; lia|]].
  - intros [|[|r]] [|[|c]] Hr Hc; cbn in Hr, Hc; try lia; discriminate.
  - intros [|[|r]] [|[|c]] Hr Hc; cbn in Hr, Hc; try lia; unfold cellv, center, at_cells; cbn; f_equal; lra.
Qed.
