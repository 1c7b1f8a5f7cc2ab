From Coq Require Import Lia Lra.
From Verif Require Import Base BaseLemmas HelpersModel HelpersSpec BoxProofs GridModel GridSpec.
Open Scope R_scope.

(** ** one axis *)
Lemma IZR_pos_ge1 n : (1 <= n)%Z -> 1 <= IZR n.
Proof. intros H. apply (IZR_le 1). exact H. Qed.

Lemma dcell_nz a : axis_ok a -> dcell a <> 0.
Proof.
  intros [H1 H2]. unfold dcell. apply IZR_pos_ge1 in H2. unfold Rdiv.
  apply Rmult_integral_contrapositive_currified; [lra|]. apply Rinv_neq_0_compat. lra.
Qed.
Lemma dcell_n a : axis_ok a -> IZR (snd a) * dcell a = snd (fst a) - fst (fst a).
Proof. intros [H1 H2]. unfold dcell. apply IZR_pos_ge1 in H2. field. lra. Qed.
Lemma at_cells_eq a t : at_cells a t = t * dcell a + fst (fst a).
Proof. unfold at_cells, dcell. ring. Qed.
Lemma at_cells_inv a x : axis_ok a -> (at_cells a x - fst (fst a)) / dcell a = x.
Proof. intros H. rewrite at_cells_eq. apply dcell_nz in H. field. exact H. Qed.
Lemma at_cells_surj a x : axis_ok a -> at_cells a ((x - fst (fst a)) / dcell a) = x.
Proof. intros H. rewrite at_cells_eq. apply dcell_nz in H. field. exact H. Qed.
Lemma at_cells_first a : at_cells a 0 = fst (fst a).
Proof. unfold at_cells. ring. Qed.
Lemma at_cells_last a : axis_ok a -> at_cells a (IZR (snd a)) = snd (fst a).
Proof. intros H. rewrite at_cells_eq, dcell_n by auto. ring. Qed.
Lemma at_cells_inj a s t : axis_ok a -> at_cells a s = at_cells a t -> s = t.
Proof. intros H E. rewrite <- (at_cells_inv a s), <- (at_cells_inv a t), E by auto. reflexivity. Qed.

(** betweenness does not depend on the direction of the axis *)
Lemma between_at a p q t : axis_ok a -> (between (at_cells a p) (at_cells a q) (at_cells a t) <-> between p q t).
Proof.
  intros H. unfold between. rewrite !at_cells_eq. pose proof (dcell_nz _ H) as N.
  set (d := dcell a) in *. set (o := fst (fst a)).
  unfold Rmin, Rmax. destruct (Rle_dec p q), (Rle_dec (p * d + o) (q * d + o));
    (destruct (Rtotal_order d 0) as [Hd|[Hd|Hd]]; [|lra|]); split; intros [A B];
    try (assert (p = q) by nra; subst; split; nra); split; nra.
Qed.
Lemma strict_at a p q t : axis_ok a -> p < q ->
  (Rmin (at_cells a p) (at_cells a q) < at_cells a t < Rmax (at_cells a p) (at_cells a q) <-> p < t < q).
Proof.
  intros H Hpq. rewrite !at_cells_eq. pose proof (dcell_nz _ H) as N.
  set (d := dcell a) in *. set (o := fst (fst a)).
  unfold Rmin, Rmax. destruct (Rle_dec (p * d + o) (q * d + o));
    (destruct (Rtotal_order d 0) as [Hd|[Hd|Hd]]; [|lra|]); split; intros [A B]; split; nra.
Qed.
Lemma in_axis_at a t : axis_ok a -> (in_axis a (at_cells a t) <-> 0 <= t <= IZR (snd a)).
Proof.
  intros H. unfold in_axis. rewrite <- (at_cells_last a H). rewrite <- (at_cells_first a) at 1.
  rewrite between_at by auto. destruct H as [_ H]. apply IZR_pos_ge1 in H. unfold between.
  rewrite Rmin_left, Rmax_right by lra. tauto.
Qed.
Lemma in_cell_at a k t : axis_ok a -> (in_cell a k (at_cells a t) <-> IZR k <= t <= IZR k + 1).
Proof.
  intros H. unfold in_cell, edge. rewrite between_at by auto. rewrite plus_IZR. unfold between.
  rewrite Rmin_left, Rmax_right by lra. tauto.
Qed.
Lemma inside_cell_at a k t : axis_ok a -> (inside_cell a k (at_cells a t) <-> IZR k < t < IZR k + 1).
Proof. intros H. unfold inside_cell, edge. rewrite strict_at by (auto; rewrite plus_IZR; lra). rewrite plus_IZR. tauto. Qed.

Lemma inbounds1_spec a x : inbounds1 a x = true <-> in_axis a x.
Proof. unfold inbounds1, in_axis, between, amin, amax. rewrite andb_true_iff, !Rleb_true. tauto. Qed.

(** ** centers *)
Lemma linspace_ok s e n : (0 <= n)%Z ->
  linspace s e n = Ok (map (fun i => if (n =? 1)%Z then s else s + IZR i * ((e - s) / IZR (n - 1))) (Zrange n)).
Proof. intros H. unfold linspace. destruct (n <? 0)%Z eqn:E; [apply Z.ltb_lt in E; lia|]. reflexivity. Qed.

Lemma nth_error_rev {A} (l : list A) k : (k < length l)%nat -> nth_error (rev l) k = nth_error l (length l - 1 - k).
Proof.
  intros H. destruct l as [|d l'] eqn:El; [cbn in H; lia|]. rewrite <- El in *. clear El l'.
  rewrite (nth_error_nth' (rev l) d) by (rewrite rev_length; exact H).
  rewrite (nth_error_nth' l d) by lia. rewrite rev_nth by exact H. f_equal. f_equal. lia.
Qed.

Theorem centers_spec a : axis_ok a ->
  exists xs, centers a = Ok xs /\ Z.of_nat (length xs) = snd a /\
    forall k, (0 <= k < snd a)%Z -> nth_error xs (Z.to_nat k) = Some (center a k).
Proof.
  intros H. unfold centers. pose proof (dcell_nz _ H) as N. pose proof (dcell_n _ H) as En.
  destruct H as [Hl Hn]. set (n := snd a) in *. rewrite linspace_ok by lia. cbn [bind].
  set (l := map _ _).
  assert (Ll : length l = Z.to_nat n) by (unfold l; rewrite map_length; apply Zrange_length).
  assert (Hm : amin a = (if Rltb (dcell a) 0 then snd (fst a) else fst (fst a))
            /\ amax a = (if Rltb (dcell a) 0 then fst (fst a) else snd (fst a))).
  { pose proof (IZR_pos_ge1 n Hn). unfold amin, amax. destruct (Rltb_spec (dcell a) 0).
    - rewrite Rmin_right, Rmax_left by nra. auto.
    - rewrite Rmin_left, Rmax_right by nra. auto. }
  destruct Hm as [Em EM].
  assert (Hk : forall k, (0 <= k < n)%Z -> nth_error l (Z.to_nat k) =
     Some (amin a + (IZR k + / 2) * Rabs (dcell a))).
  { intros k Hk. unfold l. rewrite nth_error_map, nth_error_Zrange by lia. rewrite Z2Nat.id by lia. cbn [option_map].
    f_equal. rewrite Em, EM. destruct (n =? 1)%Z eqn:E1.
    - apply Z.eqb_eq in E1. assert (k = 0)%Z by lia. subst k. lra.
    - apply Z.eqb_neq in E1. assert (2 <= IZR n) by (apply (IZR_le 2); lia). rewrite minus_IZR.
      destruct (Rltb_spec (dcell a) 0).
      + rewrite Rabs_left by lra.
        replace (snd (fst a)) with (fst (fst a) + IZR n * dcell a) by lra. field. lra.
      + rewrite Rabs_right by lra.
        replace (snd (fst a)) with (fst (fst a) + IZR n * dcell a) by lra. field. lra. }
  exists (if Rltb (dcell a) 0 then rev l else l). split; [reflexivity|].
  split; [destruct (Rltb _ _); rewrite ?rev_length, Ll; apply Z2Nat.id; lia|].
  intros k Hkn. unfold center. rewrite at_cells_eq. destruct (Rltb_spec (dcell a) 0) as [Hd|Hd].
  - rewrite nth_error_rev by lia. rewrite Ll.
    replace (Z.to_nat n - 1 - Z.to_nat k)%nat with (Z.to_nat (n - 1 - k)) by lia. rewrite Hk by lia.
    f_equal. rewrite Em, Rabs_left by lra. rewrite !minus_IZR.
    replace (snd (fst a)) with (fst (fst a) + IZR n * dcell a) by lra. lra.
  - rewrite Hk by lia. f_equal. rewrite Em, Rabs_right by lra. lra.
Qed.

(** ** conversions *)
Theorem rowcol_xy_inverse g rc : grid_ok g -> xy_to_rowcol g (rowcol_to_xy g rc) = rc.
Proof.
  intros [Hx Hy]. destruct rc as [r c]. unfold xy_to_rowcol, rowcol_to_xy. cbn [fst snd].
  pose proof (dcell_nz _ Hx). pose proof (dcell_nz _ Hy). f_equal; field; auto.
Qed.
Theorem xy_rowcol_inverse g xy : grid_ok g -> rowcol_to_xy g (xy_to_rowcol g xy) = xy.
Proof.
  intros [Hx Hy]. destruct xy as [x y]. unfold xy_to_rowcol, rowcol_to_xy. cbn [fst snd].
  pose proof (dcell_nz _ Hx). pose proof (dcell_nz _ Hy). f_equal; field; auto.
Qed.
Theorem uv_xyz_inverse g uv : grid_ok g -> xyz_to_uv g (uv_to_xyz g uv) = uv.
Proof.
  intros [Hx Hy]. destruct uv as [u v]. unfold xyz_to_uv, uv_to_xyz. cbn [fst snd].
  pose proof (dcell_nz _ Hx). pose proof (dcell_nz _ Hy). f_equal; field; auto.
Qed.
Theorem xyz_uv_inverse g xy : grid_ok g -> uv_to_xyz g (xyz_to_uv g xy) = xy.
Proof.
  intros [Hx Hy]. destruct xy as [x y]. unfold xyz_to_uv, uv_to_xyz. cbn [fst snd].
  pose proof (dcell_nz _ Hx). pose proof (dcell_nz _ Hy). f_equal; field; auto.
Qed.
Lemma rowcol_to_xy_centers g r c : rowcol_to_xy g (IZR r, IZR c) = (center (xaxis g) c, center (yaxis g) r).
Proof. unfold rowcol_to_xy, center. rewrite !at_cells_eq. reflexivity. Qed.
Lemma uv_to_xyz_edges g u v : uv_to_xyz g (u, v) = (at_cells (xaxis g) u, at_cells (yaxis g) v).
Proof. unfold uv_to_xyz. rewrite !at_cells_eq. reflexivity. Qed.
Lemma uv_inbounds_xy g uv : grid_ok g -> (inbounds_uv g uv = true <-> inbounds_xy g (uv_to_xyz g uv) = true).
Proof.
  intros [Hx Hy]. destruct uv as [u v]. rewrite uv_to_xyz_edges. unfold inbounds_uv, inbounds_xy. cbn [fst snd].
  rewrite !andb_true_iff, !inbounds1_spec, !in_axis_at, !Rleb_true by auto. cbn [xaxis yaxis snd]. tauto.
Qed.

(** ** snapping *)
Lemma snap1_eq a ctr edg inb t : axis_ok a ->
  snap1 a ctr edg inb (at_cells a t) =
  let s := if ctr && negb edg then t - / 2 else if ctr && edg then t * 2 else t in
  let s := IZR (Rfloor (s + / 2)) in
  let s := if negb edg && inb && Reqb t (IZR (snd a)) then s - 1 else s in
  at_cells a (if ctr && negb edg then s + / 2 else if ctr && edg then s / 2 else s).
Proof.
  intros H. unfold snap1. rewrite at_cells_inv by auto.
  assert (E : Reqb (at_cells a t) (snd (fst a)) = Reqb t (IZR (snd a))).
  { rewrite <- (at_cells_last a H). destruct (Reqb_spec t (IZR (snd a))) as [->|N].
    - apply Reqb_true. reflexivity.
    - apply Reqb_false. intros C. apply N. apply (at_cells_inj a); auto. }
  rewrite E. cbv zeta. symmetry. apply at_cells_eq.
Qed.

(** the index of the cell to whose center a position snaps *)
Definition snapped_cell (n : Z) (inb : bool) (t : R) : Z :=
  if inb && Reqb t (IZR n) then (Rfloor t - 1)%Z else Rfloor t.
Lemma snap1_center a inb t : axis_ok a ->
  snap1 a true false inb (at_cells a t) = center a (snapped_cell (snd a) inb t).
Proof.
  intros H. rewrite snap1_eq by auto. cbn [andb negb]. cbv zeta. unfold center, snapped_cell.
  replace (t - / 2 + / 2) with t by ring.
  destruct (inb && Reqb t (IZR (snd a))); rewrite ?minus_IZR; reflexivity.
Qed.
Lemma snapped_cell_in n t : (1 <= n)%Z -> 0 <= t <= IZR n -> (0 <= snapped_cell n true t < n)%Z.
Proof.
  intros Hn Ht. unfold snapped_cell. cbn [andb]. destruct (Reqb_spec t (IZR n)) as [->|N].
  - rewrite Rfloor_IZR. lia.
  - split; [apply Rfloor_le; lra|apply Rfloor_lt; lra].
Qed.
Lemma xy_to_rowcol_snap_eq g inb s t : grid_ok g ->
  xy_to_rowcol_snap g inb (at_cells (xaxis g) s, at_cells (yaxis g) t) =
    Ok (snapped_cell (gny g) inb t, snapped_cell (gnx g) inb s).
Proof.
  intros [Hx Hy]. unfold xy_to_rowcol_snap, snap_xy. cbn [negb andb bind fst snd].
  rewrite !snap1_center by auto. unfold xy_to_rowcol, center. cbn [fst snd].
  change (fst (gylim g)) with (fst (fst (yaxis g))). change (fst (gxlim g)) with (fst (fst (xaxis g))).
  rewrite !at_cells_inv by auto. cbn [xaxis yaxis snd].
  f_equal. rewrite (Rplus_comm _ (/ 2)), (Rplus_comm (IZR _) (/ 2)). unfold Rminus. 
  replace (/ 2 + IZR (snapped_cell (gny g) inb t) + - / 2) with (IZR (snapped_cell (gny g) inb t)) by ring.
  replace (/ 2 + IZR (snapped_cell (gnx g) inb s) + - / 2) with (IZR (snapped_cell (gnx g) inb s)) by ring.
  assert (T : forall n, Rtrunc (IZR n) = n).
  { intros n. unfold Rtrunc. destruct (Rltb _ _); [apply Rceil_IZR|apply Rfloor_IZR]. }
  rewrite !T. reflexivity.
Qed.

Theorem snap_rowcol_round_trip g inb r c : grid_ok g ->
  xy_to_rowcol_snap g inb (rowcol_to_xy g (IZR r, IZR c)) = Ok (r, c).
Proof.
  intros H. rewrite rowcol_to_xy_centers. unfold center. rewrite xy_to_rowcol_snap_eq by auto.
  assert (F : forall n k, snapped_cell n inb (IZR k + / 2) = k).
  { intros n k. assert (E : Rfloor (IZR k + / 2) = k) by (apply Rfloor_imp; lra). unfold snapped_cell.
    destruct (Reqb_spec (IZR k + / 2) (IZR n)) as [C|_]; [|rewrite andb_false_r; exact E].
    exfalso. assert (E2 : Rfloor (IZR n) = n) by apply Rfloor_IZR. rewrite <- C, E in E2. subst. lra. }
  rewrite !F. reflexivity.
Qed.

(** a point in bounds is assigned to an existing cell that contains it *)
Theorem snap_rowcol_contains g x y : grid_ok g -> in_axis (xaxis g) x -> in_axis (yaxis g) y ->
  exists r c, xy_to_rowcol_snap g true (x, y) = Ok (r, c) /\ (0 <= r < gny g)%Z /\ (0 <= c < gnx g)%Z
    /\ in_cell (xaxis g) c x /\ in_cell (yaxis g) r y.
Proof.
  intros [Hx Hy] Ix Iy. pose proof (at_cells_surj (xaxis g) x Hx) as Ex. pose proof (at_cells_surj (yaxis g) y Hy) as Ey.
  set (s := (x - _) / _) in Ex. set (t := (y - _) / _) in Ey. clearbody s t. subst x y.
  rewrite in_axis_at in Ix, Iy by auto.
  exists (snapped_cell (gny g) true t), (snapped_cell (gnx g) true s).
  rewrite xy_to_rowcol_snap_eq by (split; auto). split; [reflexivity|].
  split; [apply snapped_cell_in; [apply Hy|auto]|]. split; [apply snapped_cell_in; [apply Hx|auto]|].
  rewrite !in_cell_at by auto.
  assert (F : forall n u, IZR (snapped_cell n true u) <= u <= IZR (snapped_cell n true u) + 1).
  { intros n u. unfold snapped_cell. cbn [andb]. pose proof (Rfloor_lb u). pose proof (Rfloor_ub u).
    destruct (Reqb_spec u (IZR n)) as [->|_]; [|lra]. rewrite Rfloor_IZR, minus_IZR. lra. }
  split; apply F.
Qed.

(** in-bounds snapping to nearest features *)
Lemma IZR_near_int a b : Rabs (IZR a - IZR b) < 1 -> a = b.
Proof.
  intros H. apply Rabs_def2 in H. rewrite <- minus_IZR in H. destruct H as [H1 H2].
  apply lt_IZR in H1. assert (-1 < a - b)%Z by (apply lt_IZR; lra). lia.
Qed.
Lemma dist_at a s t : Rabs (at_cells a s - at_cells a t) = Rabs (s - t) * Rabs (dcell a).
Proof. rewrite !at_cells_eq, <- Rabs_mult. f_equal. ring. Qed.

Lemma floor_half_nearest u k : Rabs (u - IZR (Rfloor (u + / 2))) <= Rabs (u - IZR k).
Proof.
  pose proof (Rfloor_lb (u + / 2)). pose proof (Rfloor_ub (u + / 2)).
  set (m := Rfloor (u + / 2)) in *.
  destruct (Z.eq_dec m k) as [->|N]; [lra|].
  assert (D : 1 <= Rabs (IZR m - IZR k)).
  { rewrite <- minus_IZR, <- abs_IZR. apply (IZR_le 1). lia. }
  assert (Rabs (u - IZR m) <= / 2) by (apply Rabs_le; lra).
  pose proof (Rabs_triang (u - IZR k) (- (u - IZR m))) as T. rewrite Rabs_Ropp in T.
  replace (u - IZR k + - (u - IZR m)) with (IZR m - IZR k) in T by ring. lra.
Qed.

(** features: cell edges, cell centers, or both *)
Theorem snap_edges_nearest a inb x : axis_ok a ->
  exists m, snap1 a false true inb x = edge a m /\ forall k, Rabs (x - edge a m) <= Rabs (x - edge a k).
Proof.
  intros H. rewrite <- (at_cells_surj a x H). set (t := (x - _) / _). rewrite snap1_eq by auto. cbn [andb negb]. cbv zeta.
  exists (Rfloor (t + / 2)). split; [reflexivity|]. intros k. unfold edge. rewrite !dist_at.
  apply Rmult_le_compat_r; [apply Rabs_pos|]. apply floor_half_nearest.
Qed.
Theorem snap_both_nearest a inb x : axis_ok a ->
  exists m, snap1 a true true inb x = at_cells a (IZR m / 2) /\ forall k, Rabs (x - at_cells a (IZR m / 2)) <= Rabs (x - at_cells a (IZR k / 2)).
Proof.
  intros H. rewrite <- (at_cells_surj a x H). set (t := (x - _) / _). rewrite snap1_eq by auto. cbn [andb negb]. cbv zeta.
  exists (Rfloor (t * 2 + / 2)). split; [reflexivity|]. intros k. rewrite !dist_at.
  apply Rmult_le_compat_r; [apply Rabs_pos|].
  pose proof (floor_half_nearest (t * 2) k) as F.
  assert (E : forall j, t - IZR j / 2 = (t * 2 - IZR j) * / 2) by (intros; lra). rewrite !E, !Rabs_mult.
  apply Rmult_le_compat_r; [apply Rabs_pos|exact F].
Qed.
Theorem snap_centers_nearest a x : axis_ok a -> in_axis a x ->
  exists m, snap1 a true false true x = center a m /\ (0 <= m < snd a)%Z
    /\ forall k, (0 <= k < snd a)%Z -> Rabs (x - center a m) <= Rabs (x - center a k).
Proof.
  intros H I. rewrite <- (at_cells_surj a x H) in *. set (t := (x - _) / _) in *. rewrite in_axis_at in I by auto.
  rewrite snap1_center by auto. exists (snapped_cell (snd a) true t). split; [reflexivity|].
  pose proof (snapped_cell_in (snd a) t (proj2 H) I) as S. split; [exact S|].
  intros k Hk. unfold center. rewrite !dist_at. apply Rmult_le_compat_r; [apply Rabs_pos|].
  unfold snapped_cell in *. cbn [andb] in *. destruct (Reqb_spec t (IZR (snd a))) as [Et|N].
  - rewrite Et, Rfloor_IZR. rewrite minus_IZR. replace (IZR (snd a) - (IZR (snd a) - 1 + / 2)) with (/ 2) by lra.
    rewrite (Rabs_right (/ 2)) by lra.
    assert (IZR k <= IZR (snd a) - 1) by (rewrite <- minus_IZR; apply IZR_le; lia).
    rewrite Rabs_right by lra. lra.
  - pose proof (floor_half_nearest (t - / 2) k) as F. replace (t - / 2 + / 2) with t in F by ring.
    replace (t - (IZR (Rfloor t) + / 2)) with (t - / 2 - IZR (Rfloor t)) by ring.
    replace (t - (IZR k + / 2)) with (t - / 2 - IZR k) by ring. exact F.
Qed.
(** without inbounds: nearest center of the unbounded lattice, ties to the higher index *)
Theorem snap_centers_lattice a x : axis_ok a ->
  exists m, snap1 a true false false x = center a m /\ in_cell a m x /\ x <> edge a (m + 1)
    /\ forall k, Rabs (x - center a m) <= Rabs (x - center a k).
Proof.
  intros H. rewrite <- (at_cells_surj a x H) in *. set (t := (x - _) / _) in *.
  rewrite snap1_center by auto. unfold snapped_cell. cbn [andb]. exists (Rfloor t). split; [reflexivity|].
  pose proof (Rfloor_lb t). pose proof (Rfloor_ub t). split; [|split].
  - apply in_cell_at; auto. lra.
  - intros C. unfold edge in C. apply (at_cells_inj a) in C; auto. rewrite plus_IZR in C. lra.
  - intros k. unfold center. rewrite !dist_at. apply Rmult_le_compat_r; [apply Rabs_pos|].
    pose proof (floor_half_nearest (t - / 2) k) as F. replace (t - / 2 + / 2) with t in F by ring.
    replace (t - (IZR (Rfloor t) + / 2)) with (t - / 2 - IZR (Rfloor t)) by ring.
    replace (t - (IZR k + / 2)) with (t - / 2 - IZR k) by ring. exact F.
Qed.
(** edges of in-bounds points are edges of the grid *)
Theorem snap_edges_inbounds a inb x : axis_ok a -> in_axis a x -> in_axis a (snap1 a false true inb x) /\ in_axis a (snap1 a true true inb x).
Proof.
  intros H I. rewrite <- (at_cells_surj a x H) in *. set (t := (x - _) / _) in *. rewrite in_axis_at in I by auto.
  rewrite !snap1_eq by auto. cbn [andb negb]. cbv zeta. rewrite !in_axis_at by auto.
  assert (G : forall u n, 0 <= u <= IZR n -> 0 <= IZR (Rfloor (u + / 2)) <= IZR n).
  { intros u n Hu. split; [apply (IZR_le 0); apply Rfloor_le; lra|].
    apply IZR_le. apply Z.lt_succ_r. apply Rfloor_lt. rewrite succ_IZR. lra. }
  split; [apply G; exact I|].
  specialize (G (t * 2) (2 * snd a)%Z). rewrite mult_IZR in G. lra.
Qed.

(** ** flat indices *)
Lemma rowcol_idx_ok g r c : (0 <= r < gny g)%Z -> (0 <= c < gnx g)%Z ->
  exists i, rowcol_to_idx g (r, c) = Ok i /\ (0 <= i < gnx g * gny g)%Z /\ idx_to_rowcol g i = Ok (r, c).
Proof.
  intros Hr Hc. exists (r * gnx g + c)%Z. unfold rowcol_to_idx, ravel_index.
  replace ((0 <=? r) && (r <? gny g) && (0 <=? c) && (c <? gnx g))%Z with true
    by (symmetry; rewrite !andb_true_iff, !Z.leb_le, !Z.ltb_lt; lia).
  split; [reflexivity|]. assert (B : (0 <= r * gnx g + c < gnx g * gny g)%Z) by nia. split; [exact B|].
  unfold idx_to_rowcol.
  replace ((0 <=? r * gnx g + c) && (r * gnx g + c <? gnx g * gny g))%Z with true
    by (symmetry; rewrite !andb_true_iff, !Z.leb_le, !Z.ltb_lt; lia).
  f_equal. f_equal.
  - rewrite Z.div_add_l by lia. rewrite Z.div_small by lia. lia.
  - rewrite Z.add_comm, Z.mod_add by lia. apply Z.mod_small. lia.
Qed.
Lemma idx_rowcol_ok g i : (0 <= i < gnx g * gny g)%Z -> (1 <= gnx g)%Z ->
  exists r c, idx_to_rowcol g i = Ok (r, c) /\ (0 <= r < gny g)%Z /\ (0 <= c < gnx g)%Z /\ rowcol_to_idx g (r, c) = Ok i.
Proof.
  intros Hi Hn. exists (i / gnx g)%Z, (i mod gnx g)%Z.
  unfold idx_to_rowcol.
  replace ((0 <=? i) && (i <? gnx g * gny g))%Z with true
    by (symmetry; rewrite !andb_true_iff, !Z.leb_le, !Z.ltb_lt; lia).
  split; [reflexivity|].
  assert (Hc : (0 <= i mod gnx g < gnx g)%Z) by (apply Z.mod_pos_bound; lia).
  assert (Hr : (0 <= i / gnx g < gny g)%Z).
  { split; [apply Z.div_pos; lia|]. apply Z.div_lt_upper_bound; lia. }
  split; [exact Hr|]. split; [exact Hc|].
  unfold rowcol_to_idx, ravel_index.
  replace ((0 <=? i / gnx g) && (i / gnx g <? gny g) && (0 <=? i mod gnx g) && (i mod gnx g <? gnx g))%Z with true
    by (symmetry; rewrite !andb_true_iff, !Z.leb_le, !Z.ltb_lt; lia).
  f_equal. pose proof (Z.div_mod i (gnx g) ltac:(lia)). lia.
Qed.
Lemma rowcol_idx_err g r c : ~ ((0 <= r < gny g)%Z /\ (0 <= c < gnx g)%Z) -> rowcol_to_idx g (r, c) = Err ValueError.
Proof.
  intros N. unfold rowcol_to_idx, ravel_index.
  destruct ((0 <=? r) && (r <? gny g) && (0 <=? c) && (c <? gnx g))%Z eqn:E; [|reflexivity].
  exfalso. apply N. rewrite !andb_true_iff, !Z.leb_le, !Z.ltb_lt in E. lia.
Qed.
Lemma idx_rowcol_err g i : ~ (0 <= i < gnx g * gny g)%Z -> idx_to_rowcol g i = Err ValueError.
Proof.
  intros N. unfold idx_to_rowcol. destruct ((0 <=? i) && (i <? gnx g * gny g))%Z eqn:E; [|reflexivity].
  exfalso. apply N. rewrite !andb_true_iff, !Z.leb_le, !Z.ltb_lt in E. lia.
Qed.
