(** C89: images of the depth of elevation models whose tiles are rescaled. *)
From Verif Require Import Base BaseLemmas HelpersModel HelpersSpec GridModel GridSpec GridProofs RasterModel RasterSpec RasterProofs CameraModel CameraStateProofs CameraProofs GetitemModel P_Getitem AggregateProofs CameraProofs4 TileProofs DemModel DemProofs P_Dem.
Open Scope R_scope.

(** 1 is not between the limits of the scale *)
Definition always_rescaled (limits : R * R) : Prop := (1 < fst limits /\ 1 < snd limits) \/ (fst limits < 1 /\ snd limits < 1).
Lemma tile_scale_not_one c scale limits tile m : always_rescaled limits -> tile_scale c scale limits tile m <> 1.
Proof.
  unfold always_rescaled, tile_scale. cbv zeta. destruct limits as [a b]. cbn [fst snd]. set (t := scale * _ / _). clearbody t.
  unfold Rmin, Rmax. repeat destruct (Rle_dec _ _); lra.
Qed.
Lemma process_rescaled c dem mask scale limits b t r q : coherent dem -> always_rescaled limits -> tile_covers (s_grid dem) t r q -> at2 false mask r q = true -> at2 None (s_rows dem) r q <> None ->
  process c dem mask scale limits b t = Err OtherError.
Proof.
  intros CO L T M NZ. apply (tile_cells_in dem t r q CO) in T. destruct t as [[r0 r1] [c0 c1]].
  assert (NY : (0 <= gny (s_grid dem))%Z) by (destruct CO as ([_ [_ Q]] & _); cbn in Q; lia). assert (NX : (0 <= gnx (s_grid dem))%Z) by (destruct CO as ([[_ Q] _] & _); cbn in Q; lia).
  destruct (positions_ok _ r0 r1 NY) as (rows & Er). destruct (positions_ok _ c0 c1 NX) as (cols & Ec).
  unfold tile_cells in T. unfold process. cbn [fst snd] in *. rewrite Er, Ec in *. cbn [bind].
  set (orig := fun p : Z * Z => (zat 0%Z rows (fst p), zat 0%Z cols (snd p))) in *. set (idx := pairs (Zrange (Z.of_nat (length rows))) (Zrange (Z.of_nat (length cols)))) in *.
  assert (OR : pairs rows cols = map orig idx) by (unfold orig, idx; rewrite pairs_map, !zat_all; reflexivity).
  rewrite OR in T. apply in_map_iff in T. destruct T as [p [Ep Ip]].
  assert (IX : (0 <= fst p < Z.of_nat (length rows))%Z /\ (0 <= snd p < Z.of_nat (length cols))%Z) by (destruct p as [a e]; apply pairs_in in Ip as [H1 H2]; apply zrange_in in H1, H2; auto).
  destruct IX as [I1 I2]. injection Ep as E1 E2.
  match goal with |- context [filter ?f idx] => set (sel := filter f idx); assert (S : In p sel) by (apply filter_In; split; [exact Ip|]; rewrite at2_tile by assumption; unfold orig; rewrite E1, E2; exact M) end.
  destruct sel as [|p0 sel0] eqn:Esel; [destruct S|]. rewrite <- Esel in S |- *. clear Esel.
  assert (NEr : rows <> []) by (intros ->; cbn in I1; lia). assert (NEc : cols <> []) by (intros ->; cbn in I2; lia).
  destruct (raster_getitem dem (ISlice (Some r0) (Some r1) None) (ISlice (Some c0) (Some c1) None) rows cols CO Er Ec) as [_ GI].
  destruct (GI NEr NEc (or_introl eq_refl) (or_introl eq_refl)) as (tile & ET & CT & Ny & Nx & _ & _ & CV & CY & CX & _). rewrite ET. cbn [bind].
  destruct (somes (map (fun p => at2 None (s_rows tile) (fst p) (snd p)) sel)) as [|z zs] eqn:EZ.
  - exfalso. pose proof (somes_nil _ EZ _ (in_map (fun p => at2 None (s_rows tile) (fst p) (snd p)) _ _ S)) as N. cbn beta in N.
    apply NZ. transitivity (at2 None (s_rows tile) (fst p) (snd p)); [|exact N]. symmetry. rewrite <- E1, <- E2. unfold at2. apply CV; lia.
  - cbv zeta. match goal with |- context [Reqb ?s 1] => assert (N : s <> 1) by (apply tile_scale_not_one; exact L); unfold Reqb; destruct (Req_EM_T s 1); [contradiction|] end. reflexivity.
Qed.

(** FINDING: the depth alone (values missing) cannot be projected at other scales than 1, although scale_limits other than (1, 1) ask for it: the code that rescales the values of a tile raises UnboundLocalError. *)
Theorem project_dem_depth_scaled_refuted : forall c dem mask size ov scale limits arrival, coherent dem -> fair size ov -> always_rescaled limits ->
  (exists x y, in_raster dem x y /\ at2 false (mask_of dem mask) x y = true /\ at2 None (s_rows dem) x y <> None) ->
  is_ok (project_dem c dem None mask size ov scale limits true arrival) = false.
Proof.
  intros c dem mask size ov scale limits arrival CO FA L (x & y & IR & M & Z). unfold project_dem. cbn [bind]. fold (mask_of dem mask). destruct (has_shape (s_grid dem) (mask_of dem mask)); [|reflexivity]. cbn [negb].
  destruct (fair_tiles dem size ov CO FA) as (tiles & ET & CV). rewrite ET. cbn [bind mapM].
  destruct (CV x y IR) as (t & It & Ct). pose proof (process_rescaled c dem (mask_of dem mask) scale limits BDepth t x y CO L Ct M Z) as E. clear ET CV.
  assert (F : is_ok (mapM (process c dem (mask_of dem mask) scale limits BDepth) tiles) = false).
  { induction tiles as [|t' tiles IH]; [destruct It|]. cbn [mapM]. destruct It as [->|It]; [rewrite E; reflexivity|].
    destruct (process c dem (mask_of dem mask) scale limits BDepth t'); [|reflexivity]. cbn [bind]. specialize (IH It). destruct (mapM _ tiles); [discriminate|reflexivity]. }
  destruct (mapM (process c dem (mask_of dem mask) scale limits BDepth) tiles); [discriminate|reflexivity].
Qed.
Print Assumptions project_dem_depth_scaled_refuted.
Example depth_scaled_ex : is_ok (project_dem dem_cam dem_ex None None (2, 1)%Z (0, 0)%Z 1 (1 / 4, 1 / 2) true [0%nat]) = false.
Proof.
  apply project_dem_depth_scaled_refuted; [exact dem_ex_coherent|repeat split; cbn; lia|right; cbn; lra|].
  exists 0%Z, 1%Z. split; [split; cbn; lia|]. split; [reflexivity|]. cbn. discriminate.
Qed.
