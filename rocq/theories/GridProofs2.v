From Coq Require Import Lia Lra.
From Verif Require Import Base BaseLemmas HelpersModel HelpersSpec BoxProofs GridModel GridSpec GridProofs.
Open Scope R_scope.

(** ** crop_extent, one axis *)
Definition ax_lo (l : R * R) (a : axis) := Rmax (Rmin (fst l) (snd l)) (amin a).
Definition ax_hi (l : R * R) (a : axis) := Rmin (Rmax (fst l) (snd l)) (amax a).
Definition ax_bad (l : R * R) (a : axis) : bool := Rleb (ax_hi l a - ax_lo l a) 0.

Lemma ax_bad_iff l a : ax_bad l a = true <-> ~ overlaps l a.
Proof.
  unfold ax_bad. rewrite Rleb_true. unfold overlaps, requested, ax_hi, ax_lo, amin, amax. split.
  - intros H (x & [A B] & [C D]).
    assert (Rmax (Rmin (fst l) (snd l)) (Rmin (fst (fst a)) (snd (fst a))) < x) by (apply Rmax_lub_lt; auto).
    assert (x < Rmin (Rmax (fst l) (snd l)) (Rmax (fst (fst a)) (snd (fst a)))) by (apply Rmin_glb_lt; auto). lra.
  - intros N. destruct (Rle_dec (Rmin (Rmax (fst l) (snd l)) (Rmax (fst (fst a)) (snd (fst a))) -
      Rmax (Rmin (fst l) (snd l)) (Rmin (fst (fst a)) (snd (fst a)))) 0) as [|C]; [auto|].
    exfalso. apply N. set (lo := Rmax (Rmin _ _) (Rmin _ _)) in *. set (hi := Rmin (Rmax _ _) (Rmax _ _)) in *.
    exists ((lo + hi) / 2).
    pose proof (Rmax_l (Rmin (fst l) (snd l)) (Rmin (fst (fst a)) (snd (fst a)))).
    pose proof (Rmax_r (Rmin (fst l) (snd l)) (Rmin (fst (fst a)) (snd (fst a)))).
    pose proof (Rmin_l (Rmax (fst l) (snd l)) (Rmax (fst (fst a)) (snd (fst a)))).
    pose proof (Rmin_r (Rmax (fst l) (snd l)) (Rmax (fst (fst a)) (snd (fst a)))).
    fold lo in H, H0. fold hi in H1, H2. lra.
Qed.

(** cell coordinates of the first and last cropped position *)
Definition ax_dec (a : axis) : bool := Rltb (snd (fst a)) (fst (fst a)).
Definition ax_first l a := if ax_dec a then ax_hi l a else ax_lo l a.
Definition ax_last l a := if ax_dec a then ax_lo l a else ax_hi l a.
Definition tc (a : axis) (x : R) := (x - fst (fst a)) / dcell a.

Lemma ax_dec_d a : axis_ok a -> if ax_dec a then dcell a < 0 else 0 < dcell a.
Proof.
  intros H. pose proof (dcell_n a H) as E. destruct H as [H1 H2]. apply IZR_pos_ge1 in H2.
  unfold ax_dec. destruct (Rltb_spec (snd (fst a)) (fst (fst a))); nra.
Qed.
Lemma tc_mono a x y : axis_ok a -> (if ax_dec a then y <= x else x <= y) -> tc a x <= tc a y.
Proof.
  intros H L. pose proof (ax_dec_d a H) as D. unfold tc, Rdiv. destruct (ax_dec a).
  - pose proof (Rinv_lt_0_compat _ D). nra.
  - apply Rmult_le_compat_r; [left; apply Rinv_0_lt_compat; exact D|lra].
Qed.
Lemma tc_smono a x y : axis_ok a -> (if ax_dec a then y < x else x < y) -> tc a x < tc a y.
Proof.
  intros H L. pose proof (ax_dec_d a H) as D. unfold tc, Rdiv. destruct (ax_dec a).
  - pose proof (Rinv_lt_0_compat _ D). nra.
  - apply Rmult_lt_compat_r; [apply Rinv_0_lt_compat; exact D|lra].
Qed.
Lemma at_tc a x : axis_ok a -> at_cells a (tc a x) = x.
Proof. apply at_cells_surj. Qed.
Lemma tc_at a t : axis_ok a -> tc a (at_cells a t) = t.
Proof. intros; unfold tc; apply at_cells_inv; auto. Qed.
Lemma tc_fst a : axis_ok a -> tc a (fst (fst a)) = 0.
Proof. intros H. rewrite <- (at_cells_first a) at 1. apply tc_at; auto. Qed.
Lemma tc_snd a : axis_ok a -> tc a (snd (fst a)) = IZR (snd a).
Proof. intros H. rewrite <- (at_cells_last a H) at 1. apply tc_at; auto. Qed.

Lemma ax_first_last l a : axis_ok a -> ax_bad l a = false ->
  0 <= tc a (ax_first l a) < tc a (ax_last l a) /\ tc a (ax_last l a) <= IZR (snd a).
Proof.
  intros H B. unfold ax_bad in B. apply Rleb_false in B.
  pose proof (Rmax_r (Rmin (fst l) (snd l)) (amin a)) as L. pose proof (Rmin_r (Rmax (fst l) (snd l)) (amax a)) as U.
  fold (ax_lo l a) in L. fold (ax_hi l a) in U.
  rewrite <- (tc_fst a H), <- (tc_snd a H). unfold ax_first, ax_last.
  repeat split.
  - apply tc_mono; auto. destruct (ax_dec a) eqn:E; unfold amin, amax, ax_dec in *.
    + apply Rltb_true in E. rewrite Rmax_left in U by lra. lra.
    + apply Rltb_false in E. rewrite Rmin_left in L by lra. lra.
  - apply tc_smono; auto. destruct (ax_dec a); lra.
  - apply tc_mono; auto. destruct (ax_dec a) eqn:E; unfold amin, amax, ax_dec in *.
    + apply Rltb_true in E. rewrite Rmin_right in L by lra. lra.
    + apply Rltb_false in E. rewrite Rmax_right in U by lra. lra.
Qed.

Definition ax_c0 l a : Z := snapped_cell (snd a) true (tc a (ax_first l a)).
Definition snap_down (a : axis) (v : R) : bool :=
  Reqb (Rmod (snd (fst a) - v) (dcell a)) 0 && negb (Reqb v (snd (fst a))).
Definition ax_c1 l a : Z :=
  let c1 := snapped_cell (snd a) true (tc a (ax_last l a)) in
  if snap_down a (ax_last l a) then (c1 - 1)%Z else c1.

Lemma ax_c0_eq l a : axis_ok a -> ax_bad l a = false -> ax_c0 l a = Rfloor (tc a (ax_first l a)).
Proof.
  intros H B. destruct (ax_first_last l a H B) as [[A1 A2] A3]. unfold ax_c0, snapped_cell. cbn [andb].
  destruct (Reqb_spec (tc a (ax_first l a)) (IZR (snd a))); [lra|reflexivity].
Qed.
Lemma Rmod_zero_iff a x d : d <> 0 -> a = x / d -> (Rmod x d = 0 <-> a = IZR (Rfloor a)).
Proof.
  intros N E. unfold Rmod. rewrite <- E. assert (x = a * d) by (rewrite E; field; auto). split.
  - intros Z. apply (Rmult_eq_reg_r d); [lra|auto].
  - intros Z. rewrite H, Z at 1. ring.
Qed.
Lemma ax_c1_eq l a : axis_ok a -> ax_bad l a = false -> ax_c1 l a = (Rceil (tc a (ax_last l a)) - 1)%Z.
Proof.
  intros H B. destruct (ax_first_last l a H B) as [[A1 A2] A3]. unfold ax_c1, snapped_cell, snap_down. cbn [andb].
  set (v := ax_last l a) in *.
  assert (Ev : Reqb v (snd (fst a)) = Reqb (tc a v) (IZR (snd a))).
  { destruct (Reqb_spec (tc a v) (IZR (snd a))) as [E|E].
    - apply Reqb_true. rewrite <- (at_tc a v H), E. apply at_cells_last; auto.
    - apply Reqb_false. intros C. apply E. rewrite C. apply tc_snd; auto. }
  rewrite Ev. destruct (Reqb_spec (tc a v) (IZR (snd a))) as [E|E].
  - rewrite andb_false_r. rewrite E, Rfloor_IZR, Rceil_IZR. reflexivity.
  - cbn [negb]. rewrite andb_true_r.
    assert (Q : IZR (snd a) - tc a v = (snd (fst a) - v) / dcell a).
    { rewrite <- (tc_snd a H). unfold tc. pose proof (dcell_nz a H). field. auto. }
    pose proof (Rmod_zero_iff _ _ _ (dcell_nz a H) Q) as M.
    pose proof (Rfloor_lb (tc a v)). pose proof (Rfloor_ub (tc a v)).
    destruct (Reqb_spec (Rmod (snd (fst a) - v) (dcell a)) 0) as [Z|Z].
    + apply M in Z. assert (T : tc a v = IZR (snd a - Rfloor (IZR (snd a) - tc a v))%Z) by (rewrite minus_IZR; lra).
      rewrite T, Rfloor_IZR, Rceil_IZR. reflexivity.
    + assert (Nz : tc a v <> IZR (Rfloor (tc a v))).
      { intros C. apply Z, M. rewrite C, <- minus_IZR, Rfloor_IZR. reflexivity. }
      assert (Rceil (tc a v) = (Rfloor (tc a v) + 1)%Z) as ->; [|lia].
      apply Rceil_imp. rewrite plus_IZR. lra.
Qed.

Lemma requested_tc l a t : axis_ok a -> 0 < t < IZR (snd a) -> ax_bad l a = false ->
  (requested l (at_cells a t) <-> tc a (ax_first l a) < t < tc a (ax_last l a)).
Proof.
  intros H Ht B. pose proof (ax_dec_d a H) as D.
  assert (Hin : amin a < at_cells a t < amax a).
  { unfold amin, amax. pose proof (strict_at a 0 (IZR (snd a)) t H ltac:(lra)) as S.
    rewrite at_cells_first, at_cells_last in S by auto. apply S. lra. }
  assert (R1 : requested l (at_cells a t) <-> ax_lo l a < at_cells a t < ax_hi l a).
  { unfold requested, ax_lo, ax_hi. split; intros [X Y].
    - split; [apply Rmax_lub_lt; lra|apply Rmin_glb_lt; lra].
    - split; [eapply Rle_lt_trans; [apply Rmax_l|exact X]|eapply Rlt_le_trans; [exact Y|apply Rmin_l]]. }
  rewrite R1. clear R1. rewrite <- (tc_at a t H) at 3 4. unfold ax_first, ax_last.
  assert (K : forall x y, (if ax_dec a then y < x else x < y) <-> tc a x < tc a y).
  { intros x y. split; [apply tc_smono; auto|]. intros L. destruct (ax_dec a) eqn:E.
    - destruct (Rlt_dec y x) as [|C]; [auto|]. assert (tc a y <= tc a x) by (apply tc_mono; auto; rewrite E; lra). lra.
    - destruct (Rlt_dec x y) as [|C]; [auto|]. assert (tc a y <= tc a x) by (apply tc_mono; auto; rewrite E; lra). lra. }
  rewrite <- !K. destruct (ax_dec a); tauto.
Qed.

Lemma ax_cells l a : axis_ok a -> ax_bad l a = false ->
  (0 <= ax_c0 l a <= ax_c1 l a)%Z /\ (ax_c1 l a < snd a)%Z /\
  forall k, cell_hit l a k <-> (ax_c0 l a <= k <= ax_c1 l a)%Z.
Proof.
  intros H B. destruct (ax_first_last l a H B) as [[A1 A2] A3]. rewrite ax_c0_eq, ax_c1_eq by auto.
  set (t0 := tc a (ax_first l a)) in *. set (t1 := tc a (ax_last l a)) in *.
  pose proof (Rfloor_lb t0). pose proof (Rfloor_ub t0). pose proof (Rceil_ub t1). pose proof (Rceil_lb t1).
  assert (Z0 : (0 <= Rfloor t0)%Z) by (apply Rfloor_le; lra).
  assert (Z1 : (Rceil t1 <= snd a)%Z).
  { apply Z.lt_succ_r. apply lt_IZR. rewrite succ_IZR. lra. }
  assert (Z2 : (Rfloor t0 < Rceil t1)%Z) by (apply lt_IZR; lra).
  split; [lia|]. split; [lia|]. intros k. unfold cell_hit. split.
  - intros (Hk & x & Hi & Hr). rewrite <- (at_tc a x H) in Hi, Hr. rewrite inside_cell_at in Hi by auto.
    assert (Hb : 0 < tc a x < IZR (snd a)).
    { assert (0 <= IZR k) by (apply (IZR_le 0); lia). assert (IZR k + 1 <= IZR (snd a)) by (rewrite <- plus_IZR; apply IZR_le; lia). lra. }
    rewrite requested_tc in Hr by auto. fold t0 t1 in Hr. split.
    + apply Z.lt_succ_r. apply Rfloor_lt. rewrite succ_IZR. lra.
    + assert (k < Rceil t1)%Z by (apply lt_IZR; lra). lia.
  - intros [L U]. split; [lia|].
    assert (K0 : IZR (Rfloor t0) <= IZR k) by (apply IZR_le; lia).
    assert (K1 : IZR k + 1 <= IZR (Rceil t1)) by (rewrite <- plus_IZR; apply IZR_le; lia).
    set (lo := Rmax (IZR k) t0). set (hi := Rmin (IZR k + 1) t1).
    assert (lo < hi) by (unfold lo, hi; apply Rmax_lub_lt; apply Rmin_glb_lt; lra).
    pose proof (Rmax_l (IZR k) t0) as M1. pose proof (Rmax_r (IZR k) t0) as M2.
    pose proof (Rmin_l (IZR k + 1) t1) as M3. pose proof (Rmin_r (IZR k + 1) t1) as M4.
    fold lo in M1, M2. fold hi in M3, M4.
    exists (at_cells a ((lo + hi) / 2)). split; [apply inside_cell_at; auto; lra|].
    apply requested_tc; auto; fold t0 t1; lra.
Qed.

(** ** crop_extent *)
Lemma xy_to_rowcol_snap_eq' g inb x y : grid_ok g ->
  xy_to_rowcol_snap g inb (x, y) = Ok (snapped_cell (gny g) inb (tc (yaxis g) y), snapped_cell (gnx g) inb (tc (xaxis g) x)).
Proof.
  intros H. rewrite <- (at_tc (xaxis g) x (proj1 H)) at 1. rewrite <- (at_tc (yaxis g) y (proj2 H)) at 1.
  apply xy_to_rowcol_snap_eq; auto.
Qed.

Lemma crop_extent_eq g xo yo : grid_ok g ->
  let xl := request xo (xaxis g) in let yl := request yo (yaxis g) in
  crop_extent g xo yo =
    if ax_bad xl (xaxis g) || ax_bad yl (yaxis g) then Err ValueError else
    Ok ((edge (xaxis g) (ax_c0 xl (xaxis g)), edge (xaxis g) (ax_c1 xl (xaxis g) + 1)),
        (edge (yaxis g) (ax_c0 yl (yaxis g)), edge (yaxis g) (ax_c1 yl (yaxis g) + 1)),
        (ax_c0 yl (yaxis g), ax_c1 yl (yaxis g)), (ax_c0 xl (xaxis g), ax_c1 xl (xaxis g))).
Proof.
  intros H xl yl. unfold crop_extent.
  change (match xo with Some l => l | None => gxlim g end) with xl.
  change (match yo with Some l => l | None => gylim g end) with yl. cbv zeta.
  unfold intersect_boxes, box2d. cbn [map length Nat.odd Nat.even negb Nat.div Nat.divmod fst snd firstn skipn fold_left map2 nanop existsb].
  change (Rleb (Rmin (Rmax (fst xl) (snd xl)) (amax (xaxis g)) - Rmax (Rmin (fst xl) (snd xl)) (amin (xaxis g))) 0) with (ax_bad xl (xaxis g)).
  change (Rleb (Rmin (Rmax (fst yl) (snd yl)) (amax (yaxis g)) - Rmax (Rmin (fst yl) (snd yl)) (amin (yaxis g))) 0) with (ax_bad yl (yaxis g)).
  rewrite orb_false_r. destruct (ax_bad xl (xaxis g) || ax_bad yl (yaxis g)) eqn:B; [reflexivity|].
  apply orb_false_iff in B. destruct B as [Bx By].
  cbn [bind app].
  change (Rmin (Rmax (fst xl) (snd xl)) (amax (xaxis g))) with (ax_hi xl (xaxis g)).
  change (Rmax (Rmin (fst xl) (snd xl)) (amin (xaxis g))) with (ax_lo xl (xaxis g)).
  change (Rmin (Rmax (fst yl) (snd yl)) (amax (yaxis g))) with (ax_hi yl (yaxis g)).
  change (Rmax (Rmin (fst yl) (snd yl)) (amin (yaxis g))) with (ax_lo yl (yaxis g)).
  change (Rltb (snd (gxlim g)) (fst (gxlim g))) with (ax_dec (xaxis g)).
  change (Rltb (snd (gylim g)) (fst (gylim g))) with (ax_dec (yaxis g)).
  assert (Px : (if ax_dec (xaxis g) then (ax_hi xl (xaxis g), ax_lo xl (xaxis g)) else (ax_lo xl (xaxis g), ax_hi xl (xaxis g)))
               = (ax_first xl (xaxis g), ax_last xl (xaxis g))) by (unfold ax_first, ax_last; destruct (ax_dec (xaxis g)); reflexivity).
  assert (Py : (if ax_dec (yaxis g) then (ax_hi yl (yaxis g), ax_lo yl (yaxis g)) else (ax_lo yl (yaxis g), ax_hi yl (yaxis g)))
               = (ax_first yl (yaxis g), ax_last yl (yaxis g))) by (unfold ax_first, ax_last; destruct (ax_dec (yaxis g)); reflexivity).
  rewrite Px, Py. rewrite !xy_to_rowcol_snap_eq' by auto. cbn [bind].
  change (if Reqb (Rmod (snd (fst (yaxis g)) - ax_last yl (yaxis g)) (dcell (yaxis g))) 0 && negb (Reqb (ax_last yl (yaxis g)) (snd (fst (yaxis g))))
     then (snapped_cell (gny g) true (tc (yaxis g) (ax_last yl (yaxis g))) - 1)%Z
     else snapped_cell (gny g) true (tc (yaxis g) (ax_last yl (yaxis g)))) with (ax_c1 yl (yaxis g)).
  change (if Reqb (Rmod (snd (fst (xaxis g)) - ax_last xl (xaxis g)) (dcell (xaxis g))) 0 && negb (Reqb (ax_last xl (xaxis g)) (snd (fst (xaxis g))))
     then (snapped_cell (gnx g) true (tc (xaxis g) (ax_last xl (xaxis g))) - 1)%Z
     else snapped_cell (gnx g) true (tc (xaxis g) (ax_last xl (xaxis g)))) with (ax_c1 xl (xaxis g)).
  change (snapped_cell (gny g) true (tc (yaxis g) (ax_first yl (yaxis g)))) with (ax_c0 yl (yaxis g)).
  change (snapped_cell (gnx g) true (tc (xaxis g) (ax_first xl (xaxis g)))) with (ax_c0 xl (xaxis g)).
  rewrite !rowcol_to_xy_centers. cbn [fst snd]. unfold center, edge. rewrite !at_cells_eq, !plus_IZR.
  set (a1 := ax_c0 xl (xaxis g)). set (a2 := ax_c1 xl (xaxis g)). set (a3 := ax_c0 yl (yaxis g)). set (a4 := ax_c1 yl (yaxis g)).
  assert (E1 : forall a k, (IZR k + / 2) * dcell a + fst (fst a) + - / 2 * dcell a = IZR k * dcell a + fst (fst a)) by (intros; lra).
  assert (E2 : forall a k, (IZR k + / 2) * dcell a + fst (fst a) + / 2 * dcell a = (IZR k + 1) * dcell a + fst (fst a)) by (intros; lra).
  rewrite !E1, !E2. reflexivity.
Qed.

Theorem crop_extent_spec g xo yo : grid_ok g ->
  let xl := request xo (xaxis g) in let yl := request yo (yaxis g) in
  (~ (overlaps xl (xaxis g) /\ overlaps yl (yaxis g)) -> crop_extent g xo yo = Err ValueError) /\
  (overlaps xl (xaxis g) /\ overlaps yl (yaxis g) ->
    exists r0 r1 c0 c1,
      crop_extent g xo yo = Ok ((edge (xaxis g) c0, edge (xaxis g) (c1 + 1)), (edge (yaxis g) r0, edge (yaxis g) (r1 + 1)), (r0, r1), (c0, c1))
      /\ (0 <= r0 <= r1)%Z /\ (r1 < gny g)%Z /\ (0 <= c0 <= c1)%Z /\ (c1 < gnx g)%Z
      /\ (forall c, (c0 <= c <= c1)%Z <-> cell_hit xl (xaxis g) c)
      /\ (forall r, (r0 <= r <= r1)%Z <-> cell_hit yl (yaxis g) r)).
Proof.
  intros H xl yl. pose proof (crop_extent_eq g xo yo H) as E. cbv zeta in E. fold xl yl in E. rewrite E.
  assert (Bx := ax_bad_iff xl (xaxis g)). assert (By := ax_bad_iff yl (yaxis g)).
  destruct (ax_bad xl (xaxis g)) eqn:B1; [|destruct (ax_bad yl (yaxis g)) eqn:B2]; cbn [orb].
  - split; [reflexivity|]. intros [O _]. exfalso. apply Bx; auto.
  - split; [reflexivity|]. intros [_ O]. exfalso. apply By; auto.
  - assert (Ox : overlaps xl (xaxis g)).
    { destruct (Classical_Prop.classic (overlaps xl (xaxis g))) as [|N]; [auto|]. apply Bx in N. discriminate. }
    assert (Oy : overlaps yl (yaxis g)).
    { destruct (Classical_Prop.classic (overlaps yl (yaxis g))) as [|N]; [auto|]. apply By in N. discriminate. }
    split; [intros N; exfalso; apply N; auto|]. intros _.
    exists (ax_c0 yl (yaxis g)), (ax_c1 yl (yaxis g)), (ax_c0 xl (xaxis g)), (ax_c1 xl (xaxis g)).
    destruct (ax_cells xl (xaxis g) (proj1 H) B1) as (X1 & X2 & X3).
    destruct (ax_cells yl (yaxis g) (proj2 H) B2) as (Y1 & Y2 & Y3).
    split; [reflexivity|]. split; [exact Y1|]. split; [exact Y2|]. split; [exact X1|]. split; [exact X2|].
    split; intros k; [rewrite X3|rewrite Y3]; tauto.
Qed.

(** the cropped axis has the coordinates of the remaining cells *)
Lemma crop_axis_center a c0 c1 k : axis_ok a -> (c0 <= c1)%Z ->
  let a' := ((edge a c0, edge a (c1 + 1)), (c1 - c0 + 1)%Z) in
  axis_ok a' /\ center a' k = center a (c0 + k).
Proof.
  intros H L a'. unfold a', center, at_cells, edge, axis_ok. cbn [fst snd]. rewrite !at_cells_eq, !plus_IZR, !minus_IZR.
  pose proof (dcell_nz a H) as N. assert (IZR c0 <= IZR c1) by (apply IZR_le; auto). split.
  - split; [|lia]. intros C. assert (Q : (IZR c1 + 1 - IZR c0) * dcell a = 0) by lra.
    apply Rmult_integral in Q. lra.
  - unfold dcell in *. set (D := (snd (fst a) - fst (fst a)) / IZR (snd a)) in *. field. lra.
Qed.
