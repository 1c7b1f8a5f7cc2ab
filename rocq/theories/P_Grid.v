(** Property theorems about the geometry of grids, src/glimpse/raster.py (C26-C29). *)
From Coq Require Import Lia Lra.
From Verif Require Import Base BaseLemmas HelpersModel GridModel GridSpec GridProofs GridProofs2 TileProofs.
Open Scope R_scope.

(** A grid for the examples: 4 x 3 cells, y decreasing. *)
Definition exgrid : grid := mkgrid 4 3 (0, 8) (3, 0).
Lemma exgrid_ok : grid_ok exgrid.
Proof. split; split; cbn; try lra; lia. Qed.

(** C26 *)
Theorem grid_rowcol_xy_inverse : forall g, grid_ok g ->
  (forall rc, xy_to_rowcol g (rowcol_to_xy g rc) = rc) /\
  (forall xy, rowcol_to_xy g (xy_to_rowcol g xy) = xy) /\
  (forall uv, xyz_to_uv g (uv_to_xyz g uv) = uv) /\
  (forall xy, uv_to_xyz g (xyz_to_uv g xy) = xy).
Proof.
  intros g H. repeat split; intros; [apply rowcol_xy_inverse|apply xy_rowcol_inverse|apply uv_xyz_inverse|apply xyz_uv_inverse]; auto.
Qed.
Print Assumptions grid_rowcol_xy_inverse.
Theorem grid_rowcol_snap_round_trip : forall g inb r c, grid_ok g ->
  xy_to_rowcol_snap g inb (rowcol_to_xy g (IZR r, IZR c)) = Ok (r, c).
Proof. exact snap_rowcol_round_trip. Qed.
Print Assumptions grid_rowcol_snap_round_trip.
(** a cell is mapped to its center, and a point in the grid to the cell that contains it *)
Theorem grid_rowcol_is_center : forall g r c,
  rowcol_to_xy g (IZR r, IZR c) = (center (xaxis g) c, center (yaxis g) r).
Proof. exact rowcol_to_xy_centers. Qed.
Print Assumptions grid_rowcol_is_center.
Theorem grid_snapped_cell_contains_point : forall g x y, grid_ok g -> in_axis (xaxis g) x -> in_axis (yaxis g) y ->
  exists r c, xy_to_rowcol_snap g true (x, y) = Ok (r, c) /\ (0 <= r < gny g)%Z /\ (0 <= c < gnx g)%Z
    /\ in_cell (xaxis g) c x /\ in_cell (yaxis g) r y.
Proof. exact snap_rowcol_contains. Qed.
Print Assumptions grid_snapped_cell_contains_point.
Theorem grid_index_bijection : forall g, grid_ok g ->
  (forall r c, (0 <= r < gny g)%Z -> (0 <= c < gnx g)%Z ->
     exists i, rowcol_to_idx g (r, c) = Ok i /\ (0 <= i < gnx g * gny g)%Z /\ idx_to_rowcol g i = Ok (r, c)) /\
  (forall i, (0 <= i < gnx g * gny g)%Z ->
     exists r c, idx_to_rowcol g i = Ok (r, c) /\ (0 <= r < gny g)%Z /\ (0 <= c < gnx g)%Z /\ rowcol_to_idx g (r, c) = Ok i) /\
  (forall r c, ~ ((0 <= r < gny g)%Z /\ (0 <= c < gnx g)%Z) -> rowcol_to_idx g (r, c) = Err ValueError) /\
  (forall i, ~ (0 <= i < gnx g * gny g)%Z -> idx_to_rowcol g i = Err ValueError).
Proof.
  intros g [[_ Hx] [_ Hy]]. split; [intros; apply rowcol_idx_ok; auto|].
  split; [intros i Hi; apply idx_rowcol_ok; auto|]. split; intros; [apply rowcol_idx_err|apply idx_rowcol_err]; auto.
Qed.
Print Assumptions grid_index_bijection.
(** the vector of coordinates: one per cell, at the cell centers, for either orientation *)
Theorem grid_coordinates_are_centers : forall a, axis_ok a ->
  exists xs, centers a = Ok xs /\ Z.of_nat (length xs) = snd a /\
    forall k, (0 <= k < snd a)%Z -> nth_error xs (Z.to_nat k) = Some (center a k).
Proof. exact centers_spec. Qed.
Print Assumptions grid_coordinates_are_centers.
Theorem grid_inbounds_uv_xy : forall g uv, grid_ok g ->
  (inbounds_uv g uv = true <-> inbounds_xy g (uv_to_xyz g uv) = true).
Proof. exact uv_inbounds_xy. Qed.
Print Assumptions grid_inbounds_uv_xy.
Example grid_ex : grid_ok exgrid /\ in_axis (xaxis exgrid) 5 /\ in_axis (yaxis exgrid) 3 /\
  center (xaxis exgrid) 1 = 3 /\ center (yaxis exgrid) 0 = 5 / 2.
Proof.
  split; [apply exgrid_ok|]. unfold in_axis, between, center, at_cells. cbn.
  rewrite Rmin_left, Rmax_right, Rmin_right, Rmax_left by lra. repeat split; lra.
Qed.

(** C27: one coordinate at a time (the modes act on each axis independently) *)
Theorem grid_snap_axes : forall g ctr edg inb xy,
  snap_xy g ctr edg inb xy =
    if negb ctr && negb edg then Err ValueError
    else Ok (snap1 (xaxis g) ctr edg inb (fst xy), snap1 (yaxis g) ctr edg inb (snd xy)).
Proof. reflexivity. Qed.
Theorem grid_snap_centers_nearest : forall g x y, grid_ok g -> in_axis (xaxis g) x -> in_axis (yaxis g) y ->
  exists r c, snap_xy g true false true (x, y) = Ok (center (xaxis g) c, center (yaxis g) r) /\
    (0 <= c < gnx g)%Z /\ (0 <= r < gny g)%Z /\
    (forall k, (0 <= k < gnx g)%Z -> Rabs (x - center (xaxis g) c) <= Rabs (x - center (xaxis g) k)) /\
    (forall k, (0 <= k < gny g)%Z -> Rabs (y - center (yaxis g) r) <= Rabs (y - center (yaxis g) k)).
Proof.
  intros g x y [Hx Hy] Ix Iy.
  destruct (snap_centers_nearest _ _ Hx Ix) as (c & Ec & Bc & Nc). destruct (snap_centers_nearest _ _ Hy Iy) as (r & Er & Br & Nr).
  exists r, c. split; [|auto]. unfold snap_xy. cbn [negb andb fst snd]. rewrite Ec, Er. reflexivity.
Qed.
Print Assumptions grid_snap_centers_nearest.
(** outside the grid, and without [inbounds]: the nearest point of the infinite lattice of centers;
    on the last edge of a cell, the center of the next *)
Theorem grid_snap_centers_lattice : forall a x, axis_ok a ->
  exists m, snap1 a true false false x = center a m /\ in_cell a m x /\ x <> edge a (m + 1)
    /\ forall k, Rabs (x - center a m) <= Rabs (x - center a k).
Proof. exact snap_centers_lattice. Qed.
Print Assumptions grid_snap_centers_lattice.
Theorem grid_snap_edges_nearest : forall g inb x y, grid_ok g ->
  exists i j, snap_xy g false true inb (x, y) = Ok (edge (xaxis g) i, edge (yaxis g) j) /\
    (forall k, Rabs (x - edge (xaxis g) i) <= Rabs (x - edge (xaxis g) k)) /\
    (forall k, Rabs (y - edge (yaxis g) j) <= Rabs (y - edge (yaxis g) k)).
Proof.
  intros g inb x y [Hx Hy].
  destruct (snap_edges_nearest _ inb x Hx) as (i & Ei & Ni). destruct (snap_edges_nearest _ inb y Hy) as (j & Ej & Nj).
  exists i, j. split; [|auto]. unfold snap_xy. cbn [negb andb fst snd]. rewrite Ei, Ej. reflexivity.
Qed.
Print Assumptions grid_snap_edges_nearest.
(** centers and edges: multiples of half a cell *)
Theorem grid_snap_both_nearest : forall g inb x y, grid_ok g ->
  exists i j, snap_xy g true true inb (x, y) = Ok (at_cells (xaxis g) (IZR i / 2), at_cells (yaxis g) (IZR j / 2)) /\
    (forall k, Rabs (x - at_cells (xaxis g) (IZR i / 2)) <= Rabs (x - at_cells (xaxis g) (IZR k / 2))) /\
    (forall k, Rabs (y - at_cells (yaxis g) (IZR j / 2)) <= Rabs (y - at_cells (yaxis g) (IZR k / 2))).
Proof.
  intros g inb x y [Hx Hy].
  destruct (snap_both_nearest _ inb x Hx) as (i & Ei & Ni). destruct (snap_both_nearest _ inb y Hy) as (j & Ej & Nj).
  exists i, j. split; [|auto]. unfold snap_xy. cbn [negb andb fst snd]. rewrite Ei, Ej. reflexivity.
Qed.
Print Assumptions grid_snap_both_nearest.
(** the snapped point of a point in the grid is in the grid (any mode that includes edges, and centers with inbounds) *)
Theorem grid_snap_stays_inbounds : forall g ctr edg inb x y xy, grid_ok g ->
  in_axis (xaxis g) x -> in_axis (yaxis g) y -> (edg = true \/ inb = true) ->
  snap_xy g ctr edg inb (x, y) = Ok xy -> in_axis (xaxis g) (fst xy) /\ in_axis (yaxis g) (snd xy).
Proof.
  intros g ctr edg inb x y xy [Hx Hy] Ix Iy M E. unfold snap_xy in E.
  destruct (negb ctr && negb edg) eqn:N; [discriminate|]. injection E as <-. cbn [fst snd].
  destruct edg.
  - destruct (snap_edges_inbounds _ inb x Hx Ix) as [A B]. destruct (snap_edges_inbounds _ inb y Hy Iy) as [C D].
    destruct ctr; auto.
  - destruct ctr; [|discriminate]. destruct M as [M|M]; [discriminate|]. subst inb.
    assert (Q : forall a m, axis_ok a -> (0 <= m < snd a)%Z -> in_axis a (center a m)).
    { intros a m Ha [L U]. apply in_axis_at; auto. apply IZR_le in L. assert (IZR (m + 1) <= IZR (snd a)) by (apply IZR_le; lia).
      rewrite plus_IZR in H. lra. }
    destruct (snap_centers_nearest _ _ Hx Ix) as (c & -> & Bc & _). destruct (snap_centers_nearest _ _ Hy Iy) as (r & -> & Br & _).
    split; apply Q; auto.
Qed.
Print Assumptions grid_snap_stays_inbounds.
Theorem grid_snap_needs_a_target : forall g inb xy, snap_xy g false false inb xy = Err ValueError.
Proof. reflexivity. Qed.

(** C28 *)
Theorem grid_crop_extent : forall g xo yo, grid_ok g ->
  let xl := request xo (xaxis g) in let yl := request yo (yaxis g) in
  (~ (overlaps xl (xaxis g) /\ overlaps yl (yaxis g)) -> crop_extent g xo yo = Err ValueError) /\
  (overlaps xl (xaxis g) /\ overlaps yl (yaxis g) ->
    exists r0 r1 c0 c1,
      crop_extent g xo yo = Ok ((edge (xaxis g) c0, edge (xaxis g) (c1 + 1)), (edge (yaxis g) r0, edge (yaxis g) (r1 + 1)), (r0, r1), (c0, c1))
      /\ (0 <= r0 <= r1)%Z /\ (r1 < gny g)%Z /\ (0 <= c0 <= c1)%Z /\ (c1 < gnx g)%Z
      /\ (forall c, (c0 <= c <= c1)%Z <-> cell_hit xl (xaxis g) c)
      /\ (forall r, (r0 <= r <= r1)%Z <-> cell_hit yl (yaxis g) r)).
Proof. exact crop_extent_spec. Qed.
Print Assumptions grid_crop_extent.
Example grid_crop_ex : grid_ok exgrid /\ overlaps (1, 5) (xaxis exgrid) /\ overlaps (1, 2) (yaxis exgrid) /\
  cell_hit (1, 5) (xaxis exgrid) 2.
Proof.
  split; [apply exgrid_ok|]. unfold overlaps, requested, cell_hit, inside_cell, edge, at_cells. cbn.
  split; [exists 2; rewrite !Rmin_left, !Rmax_right by lra; lra|].
  split; [exists (3/2); rewrite (Rmin_left 1 2), (Rmax_right 1 2), Rmin_right, Rmax_left by lra; lra|].
  split; [lia|]. exists (9/2). unfold requested, Rmin, Rmax; cbn [fst snd]. repeat destruct Rle_dec; lra.
Qed.

(** C29 *)
Theorem grid_tiles_partition : forall g size, grid_ok g -> (1 <= fst size)%Z -> (1 <= snd size)%Z ->
  exists tiles, tile_indices g size (0, 0)%Z = Ok tiles /\
   (forall r c, In (r, c) tiles -> (0 <= fst r < snd r /\ snd r <= gny g /\ 0 <= fst c < snd c /\ snd c <= gnx g
      /\ 2 * (snd r - fst r) <= 3 * snd size + 1 /\ 2 * (snd c - fst c) <= 3 * fst size + 1)%Z) /\
   (forall r c, (0 <= r < gny g)%Z -> (0 <= c < gnx g)%Z ->
      exists i t, nth_error tiles i = Some t /\ tile_covers g t r c
        /\ forall i' t', nth_error tiles i' = Some t' -> tile_covers g t' r c -> i' = i) /\
   (forall ov, (0 <= fst ov)%Z -> (0 <= snd ov)%Z -> (4 * fst ov <= 3 * fst size)%Z -> (4 * snd ov <= 3 * snd size)%Z ->
      tile_indices g size ov = Ok (map (fun t => (extend (snd ov) (fst t), extend (fst ov) (snd t))) tiles) /\
      forall t, In t tiles -> let t' := (extend (snd ov) (fst t), extend (fst ov) (snd t)) in
        (0 <= fst (fst t'))%Z /\ (0 <= fst (snd t'))%Z /\ (forall r c, tile_covers g t r c -> tile_covers g t' r c)).
Proof. exact tiles_partition. Qed.
Print Assumptions grid_tiles_partition.
Example grid_tiles_ex : grid_ok exgrid /\ (1 <= fst (2, 2))%Z /\ (4 * 1 <= 3 * 2)%Z.
Proof. split; [apply exgrid_ok|]. cbn. lia. Qed.
(** Without the bound on the overlap the property is false: an overlap equal
    to the tile size can give a negative slice start, which Python counts from
    the end, and cells are left out of every tile. *)
Theorem grid_tiles_overlap_refuted : exists g size ov tiles, grid_ok g /\ (1 <= fst size)%Z /\ (1 <= snd size)%Z
  /\ (0 <= fst ov <= fst size)%Z /\ (0 <= snd ov <= snd size)%Z /\ tile_indices g size ov = Ok tiles
  /\ exists r c, (0 <= r < gny g)%Z /\ (0 <= c < gnx g)%Z /\ forall t, In t tiles -> ~ tile_covers g t r c.
Proof.
  exists (mkgrid 16 1 (0, 16) (0, 1)), (10, 10)%Z, (10, 0)%Z.
  assert (K1 : Rround (16 / 10) = 2%Z) by (apply Rround_imp; apply Rabs_def1; lra).
  assert (K0 : Rround (1 / 10) = 0%Z) by (apply Rround_imp; apply Rabs_def1; lra).
  assert (W : tile_w 16 10 = 8%Z).
  { unfold tile_w. rewrite K1. cbn. apply Rceil_imp. lra. }
  assert (W1 : tile_w 1 10 = 1%Z).
  { unfold tile_w. rewrite K0. reflexivity. }
  eexists. split; [split; split; cbn; try lra; lia|]. split; [cbn; lia|]. split; [cbn; lia|]. split; [cbn; lia|]. split; [cbn; lia|].
  unfold tile_indices. cbn [gnx gny fst snd]. rewrite !tile_axis_eq by lia.
  unfold tile_m. rewrite W, W1. cbn. split; [reflexivity|].
  exists 0%Z, 9%Z. split; [lia|]. split; [lia|].
  intros t [<-|[<-|[]]] [_ C]; unfold in_slice, slice_bound in C; cbn in C; lia.
Qed.
Print Assumptions grid_tiles_overlap_refuted.
