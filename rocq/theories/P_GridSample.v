(** Property theorems about sampling a raster on a grid and resampling (C97): Raster.sample(grid=True), Raster.resample, src/glimpse/raster.py. *)
From Coq Require Import Lia Lra.
From Verif Require Import Base BaseLemmas HelpersModel GridModel GridSpec GridProofs GridProofs2 RasterModel RasterSpec RasterProofs RasterProofs2 RasterProofs3 RasterProofs4 RasterProofs5 RasterProofs6 RasterProofs7 GridSampleModel GridSampleProofs GridSampleProofs2 P_Raster.
Open Scope R_scope.

(** ** Specification *)
(** increasing or decreasing ([increasing], [decreasing]: strictly) *)
Definition monotone (l : list R) : Prop := increasing l \/ decreasing l.
Definition two_dimensional (s : raster) : Prop := (1 < rnx s)%nat /\ (1 < rny s)%nat.
(** samples[j, i] *)
Definition at_ (rows : list (list (option R))) (j i : nat) : option R := nth i (nth j rows []) None.
(** nothing a user sees of the raster differs: limits, values, coordinates, samples *)
Definition same_raster (s s' : raster) : Prop :=
  rgrid s' = rgrid s /\ (forall r c, cellv s' r c = cellv s r c) /\ coords_coherent s' /\
  forall linear be fill x y, sampled (sample linear be fill x y s') = sampled (sample linear be fill x y s).
Definition within (s : raster) (x y : R) : Prop := in_axis (xaxis (rgrid s)) x /\ in_axis (yaxis (rgrid s)) y.
(** between the centers of the first and last cell *)
Definition among_centers (s : raster) (x y : R) : Prop :=
  between (center (xaxis (rgrid s)) 0) (center (xaxis (rgrid s)) (Z.of_nat (rnx s - 1))) x /\ between (center (yaxis (rgrid s)) 0) (center (yaxis (rgrid s)) (Z.of_nat (rny s - 1))) y.
Definition is_cell (s : raster) (w : R) : Prop := exists r c, (r < rny s)%nat /\ (c < rnx s)%nat /\ cellv s r c = Some w.

Lemma is_cell_in s w : base s -> is_cell s w <-> In (Some w) (rvalues s).
Proof. intros B. split; [intros (r & c & _ & _ & E); exact (cell_in s r c w E)|apply in_cell_ex; exact B]. Qed.
Lemma monotone_accepted xs ys : monotone xs -> monotone ys -> accepted xs ys = true.
Proof.
  intros X Y. unfold accepted. apply Bool.andb_true_iff. split.
  - destruct X; [apply increasing_oriented|apply decreasing_oriented]; assumption.
  - destruct Y; [apply increasing_oriented|apply decreasing_oriented]; assumption.
Qed.
Lemma same_raster_of s s' : base s -> zinv s -> base s' -> zinv s' -> rgrid s' = rgrid s -> ah s' = ah s -> rarr s' = rarr s -> same_raster s s'.
Proof.
  intros B Z B' Z' G A R. assert (V : rvalues s' = rvalues s) by (unfold rvalues, abuf; congruence). destruct (rgrid_dims s s' G) as [Dx Dy].
  split; [exact G|]. split; [intros r c; apply cellv_eq; assumption|]. split; [apply base_coherent; exact B'|]. intros.
  apply sample_same_attributes; try assumption; [exact (f_equal gxlim G)|exact (f_equal gylim G)].
Qed.

(** ** Sampling on a grid returns one value for each pair of coordinates and leaves the raster as it was *)
Theorem grid_sample_returns : forall lo be fill xs ys s, reached s -> two_dimensional s -> monotone xs -> monotone ys ->
  (be = true -> forall x y, In x xs -> In y ys -> within s x y) -> (0 < length xs)%nat -> (0 < length ys)%nat ->
  exists s' rows, sample_grid lo be fill xs ys s = (s', Ok rows) /\ length rows = length ys /\ (forall row, In row rows -> length row = length xs) /\ same_raster s s'.
Proof.
  intros lo be fill xs ys s R [Nx Ny] Mx My W Lx Ly. destruct (reached_base s R) as [B Z].
  destruct (sample_grid_returns lo s B Nx Ny be fill xs ys (monotone_accepted xs ys Mx My)) as (s' & rows & E).
  { intros T. specialize (W T). destruct xs as [|x0 xs]; [cbn in Lx; lia|]. destruct ys as [|y0 ys]; [cbn in Ly; lia|]. split.
    - intros x I. apply (W x y0 I). left. reflexivity.
    - intros y I. apply (W x0 y); [left; reflexivity|exact I]. }
  exists s', rows. split; [exact E|]. destruct (sample_grid_returned lo s B Nx Ny be fill xs ys s' rows E) as (B' & Z' & G & A & Ra & _ & _ & L1 & L2 & _).
  split; [exact L1|]. split; [exact L2|]. apply same_raster_of; auto.
Qed.
Print Assumptions grid_sample_returns.
(** ** ... those of the points, unless lower than every value of the raster, then nan; so always between the outer cell centers *)
Theorem grid_sample_points : forall lo be fill xs ys s s' rows i j v, reached s -> two_dimensional s -> sample_grid lo be fill xs ys s = (s', Ok rows) ->
  (i < length xs)%nat -> (j < length ys)%nat -> let x := nth i xs 0 in let y := nth j ys 0 in within s x y -> sampled (sample true true None x y s) = Ok (Some v) ->
  ((exists w, is_cell s w /\ w <= v) -> at_ rows j i = Some v) /\
  ((forall w, is_cell s w -> v < w) -> at_ rows j i = None) /\
  (among_centers s x y -> at_ rows j i = Some v).
Proof.
  intros lo be fill xs ys s s' rows i j v R [Nx Ny] E I J x y W V. destruct (reached_base s R) as [B Z].
  destruct (sample_grid_returned lo s B Nx Ny be fill xs ys s' rows E) as (_ & _ & _ & _ & _ & _ & _ & _ & _ & Q). specialize (Q i j I J). fold x y in Q. destruct Q as [Q _].
  destruct W as [Wx Wy]. assert (A : at_ rows j i = entry lo s x y).
  { unfold at_. rewrite Q. destruct fill; [|reflexivity]. rewrite !(proj2 (inbounds1_spec _ _)) by assumption. rewrite Bool.orb_true_r. reflexivity. }
  assert (C := sampled_canon s B true None x y (Some v) Z Wx Wy V). symmetry in C.
  destruct (surface_spec lo s x y B Nx Ny) as (c & c' & t & r & r' & u & Bx & By & F & S1 & _). specialize (S1 v C). rewrite A, entry_inside by assumption. rewrite <- S1.
  assert (P1 : (exists w, is_cell s w /\ w <= v) -> hide_low (nan_min (rvalues s)) v = Some v).
  { intros (w & Cw & L). apply (shown s w); [apply is_cell_in; assumption|exact L]. }
  split; [exact P1|]. split.
  - intros L. unfold canon in C. rewrite (proj2 (Nat.ltb_lt _ _) Nx), (proj2 (Nat.ltb_lt _ _) Ny) in C. cbn [andb] in C. unfold rgi_linear in C.
    destruct (rgi_locate _ x) as [i0 t0]. destruct (rgi_locate _ y) as [j0 u0]. destruct (cellv s (opos (Rltb (dcell (yaxis (rgrid s))) 0) (rny s) j0) (opos (Rltb (dcell (xaxis (rgrid s))) 0) (rnx s) i0)) as [w0|] eqn:Cw; [|discriminate].
    apply (hidden s w0); [exact (cell_in _ _ _ _ Cw)|]. intros w Iw. apply L. apply is_cell_in; assumption.
  - intros [Ax Ay]. apply P1. destruct (nan_min (rvalues s)) as [z|] eqn:M.
    + destruct (nan_min_some _ _ M) as [Iz Lz]. exists z. split; [apply is_cell_in; assumption|].
      assert (exists hi, forall r c w, (r < rny s)%nat -> (c < rnx s)%nat -> cellv s r c = Some w -> z <= w <= hi) as (hi & H).
      { exists (fold_right (fun v m => match v with Some x => Rmax x m | None => m end) 0 (rvalues s)). intros r1 c1 w _ _ E1. pose proof (cell_in s r1 c1 w E1) as Iw. split; [apply Lz; exact Iw|]. clear - Iw.
        induction (rvalues s) as [|[a|] l IH]; [destruct Iw| |]; cbn; destruct Iw as [H|H]; [injection H as ->; apply Rmax_l| |discriminate|apply IH; exact H]. eapply Rle_trans; [apply IH; exact H|apply Rmax_r]. }
      destruct (raster_sample_bounds s true x y R) as (_ & Hb & _). specialize (Hb true None (conj Wx Wy)). rewrite Hb in V.
      exact (proj1 (raster_sample_within_values s x y z hi v R Nx Ny Ax Ay H V)).
    + exfalso. unfold canon in C. rewrite (proj2 (Nat.ltb_lt _ _) Nx), (proj2 (Nat.ltb_lt _ _) Ny) in C. cbn [andb] in C. unfold rgi_linear in C.
      destruct (rgi_locate _ x) as [i0 t0]. destruct (rgi_locate _ y) as [j0 u0]. destruct (cellv s (opos (Rltb (dcell (yaxis (rgrid s))) 0) (rny s) j0) (opos (Rltb (dcell (xaxis (rgrid s))) 0) (rnx s) i0)) as [w0|] eqn:Cw; [|discriminate].
      exact (nan_min_none _ M w0 (cell_in _ _ _ _ Cw)).
Qed.
Print Assumptions grid_sample_points.
(** ** Cells that are nan: between the outer cell centers, a sample that they do not contribute to is the combination of the other cells; one that they contribute to is nan, if lo is low enough *)
Theorem grid_sample_nan : forall lo be fill xs ys s s' rows i j, reached s -> two_dimensional s -> sample_grid lo be fill xs ys s = (s', Ok rows) ->
  (i < length xs)%nat -> (j < length ys)%nat -> let x := nth i xs 0 in let y := nth j ys 0 in within s x y -> among_centers s x y -> (exists w, is_cell s w) ->
  exists c c' t r r' u, brackets (xaxis (rgrid s)) (rnx s) x c c' t /\ brackets (yaxis (rgrid s)) (rny s) y r r' u /\
    let corners := [((1 - t) * (1 - u), cellv s r c); ((1 - t) * u, cellv s r' c); (t * (1 - u), cellv s r c'); (t * u, cellv s r' c')] in
    ((forall k v, In (k, v) corners -> k <> 0 -> v <> None) -> at_ rows j i = Some (fold_right (fun e a => match snd e with Some v => fst e * v + a | None => a end) 0 corners)) /\
    (forall k m hi, In (k, None) corners -> (forall w, is_cell s w -> m <= w <= hi) -> lo <= m -> hi - m < k * (hi - lo) -> at_ rows j i = None).
Proof.
  intros lo be fill xs ys s s' rows i j R [Nx Ny] E I J x y W [Ax Ay] (w0 & D). destruct (reached_base s R) as [B Z].
  destruct (sample_grid_returned lo s B Nx Ny be fill xs ys s' rows E) as (_ & _ & _ & _ & _ & _ & _ & _ & _ & Q). specialize (Q i j I J). fold x y in Q. destruct Q as [Q _].
  destruct W as [Wx Wy]. assert (A : at_ rows j i = entry lo s x y).
  { unfold at_. rewrite Q. destruct fill; [|reflexivity]. rewrite !(proj2 (inbounds1_spec _ _)) by assumption. rewrite Bool.orb_true_r. reflexivity. }
  destruct (surface_spec lo s x y B Nx Ny) as (c & c' & t & r & r' & u & Bx & By & F & _). exists c, c', t, r, r', u. split; [exact Bx|]. split; [exact By|].
  rewrite A, entry_inside by assumption. rewrite F. clear F A Q. destruct Bx as (C1 & C2 & _ & _ & T). destruct By as (R1 & R2 & _ & _ & U). specialize (T Ax). specialize (U Ay).
  assert (P1 : 0 <= (1 - t) * (1 - u)) by (apply Rmult_le_pos; lra). assert (P2 : 0 <= (1 - t) * u) by (apply Rmult_le_pos; lra).
  assert (P3 : 0 <= t * (1 - u)) by (apply Rmult_le_pos; lra). assert (P4 : 0 <= t * u) by (apply Rmult_le_pos; lra).
  destruct (nan_min (rvalues s)) as [z|] eqn:M; [|exfalso; apply (nan_min_none _ M w0); apply is_cell_in; assumption]. destruct (nan_min_some _ _ M) as [Iz Lz].
  assert (K : forall r c w, cellv s r c = Some w -> z <= w) by (intros r1 c1 w Ew; apply Lz; exact (cell_in _ _ _ _ Ew)).
  assert (SUM : (1 - t) * (1 - u) + (1 - t) * u + t * (1 - u) + t * u = 1) by ring.
  intros corners. split.
  - intros N. cbn [hide_low].
    assert (G : forall k v, In (k, v) corners -> k * no_nans lo v = match v with Some w => k * w | None => 0 end).
    { intros k [w|] Ik; [reflexivity|]. destruct (Req_dec k 0) as [->|Nk]; [cbn; ring|]. exfalso. exact (N k None Ik Nk eq_refl). }
    assert (Gz : forall k v, In (k, v) corners -> 0 <= k -> (forall w, v = Some w -> z <= w) -> k * z <= match v with Some w => k * w | None => 0 end).
    { intros k [w|] Ik Pk Hw; [apply Rmult_le_compat_l; auto|]. destruct (Req_dec k 0) as [->|Nk]; [lra|]. exfalso. exact (N k None Ik Nk eq_refl). }
    pose proof (G _ _ (or_introl eq_refl)) as G1. pose proof (G _ _ (or_intror (or_introl eq_refl))) as G2. pose proof (G _ _ (or_intror (or_intror (or_introl eq_refl)))) as G3. pose proof (G _ _ (or_intror (or_intror (or_intror (or_introl eq_refl))))) as G4.
    pose proof (Gz _ _ (or_introl eq_refl) P1 (K _ _)) as H1. pose proof (Gz _ _ (or_intror (or_introl eq_refl)) P2 (K _ _)) as H2. pose proof (Gz _ _ (or_intror (or_intror (or_introl eq_refl))) P3 (K _ _)) as H3. pose proof (Gz _ _ (or_intror (or_intror (or_intror (or_introl eq_refl)))) P4 (K _ _)) as H4.
    clear G Gz N. set (e1 := match cellv s r c with Some w => _ | None => 0 end) in *. set (e2 := match cellv s r' c with Some w => _ | None => 0 end) in *. set (e3 := match cellv s r c' with Some w => _ | None => 0 end) in *. set (e4 := match cellv s r' c' with Some w => _ | None => 0 end) in *.
    assert (Fe : fold_right (fun e a => match snd e with Some v => fst e * v + a | None => a end) 0 corners = e1 + e2 + e3 + e4).
    { unfold corners, e1, e2, e3, e4. cbn [fold_right fst snd]. destruct (cellv s r c), (cellv s r' c), (cellv s r c'), (cellv s r' c'); ring. }
    rewrite Fe. match goal with |- context [Rltb ?v z] => replace v with (e1 + e2 + e3 + e4) by (rewrite <- G1, <- G2, <- G3, <- G4; ring) end.
    rewrite (proj2 (Rltb_false _ _)); [reflexivity|]. assert (z = ((1 - t) * (1 - u) + (1 - t) * u + t * (1 - u) + t * u) * z) by (rewrite SUM; ring). lra.
  - intros k m hi Ik Hw Lm Lk. cbn [hide_low].
    assert (Mz : m <= z) by (apply (Hw z); apply is_cell_in; assumption). assert (Hh : lo <= hi) by (destruct (Hw z); [apply is_cell_in; assumption|lra]).
    assert (V : forall r c, (r < rny s)%nat -> (c < rnx s)%nat -> no_nans lo (cellv s r c) <= hi).
    { intros r1 c1 Hr Hc. destruct (cellv s r1 c1) as [w|] eqn:Ew; cbn; [|exact Hh]. apply (Hw w). exists r1, c1. auto. }
    assert (V1 := V r c R1 C1). assert (V2 := V r' c R2 C1). assert (V3 := V r c' R1 C2). assert (V4 := V r' c' R2 C2). clear V.
    rewrite (proj2 (Rltb_true _ _)); [reflexivity|].
    assert (X1 := Rmult_le_compat_l _ _ _ P1 V1). assert (X2 := Rmult_le_compat_l _ _ _ P2 V2). assert (X3 := Rmult_le_compat_l _ _ _ P3 V3). assert (X4 := Rmult_le_compat_l _ _ _ P4 V4).
    assert (Hs : hi = ((1 - t) * (1 - u) + (1 - t) * u + t * (1 - u) + t * u) * hi) by (rewrite SUM; ring).
    destruct Ik as [Ik|[Ik|[Ik|[Ik|[]]]]]; apply pair_equal_spec in Ik; destruct Ik as [<- Ek]; rewrite Ek in *; cbn [no_nans] in *; lra.
Qed.
Print Assumptions grid_sample_nan.
(** ** Out of the limits: refused, the fill value, or ... *)
Theorem grid_sample_out : forall lo xs ys s, reached s -> two_dimensional s ->
  (forall fill x, In x xs -> ~ in_axis (xaxis (rgrid s)) x -> sample_grid lo true fill xs ys s = (s, Err ValueError)) /\
  (forall fill y, In y ys -> ~ in_axis (yaxis (rgrid s)) y -> sample_grid lo true fill xs ys s = (s, Err ValueError)) /\
  (forall f s' rows i j, sample_grid lo false (Some f) xs ys s = (s', Ok rows) -> (i < length xs)%nat -> (j < length ys)%nat -> ~ within s (nth i xs 0) (nth j ys 0) -> at_ rows j i = f).
Proof.
  intros lo xs ys s R [Nx Ny]. destruct (reached_base s R) as [B Z]. split; [|split].
  - intros fill x I N. unfold sample_grid. destruct (forallb _ (map _ xs)) eqn:F; [|reflexivity]. exfalso. apply N. apply inbounds1_spec. exact (proj1 (forallb_map_id _ _) F x I).
  - intros fill y I N. unfold sample_grid. destruct (forallb _ (map _ ys)) eqn:F; [|rewrite Bool.andb_false_r; reflexivity]. exfalso. apply N. apply inbounds1_spec. exact (proj1 (forallb_map_id _ _) F y I).
  - intros f s' rows i j E I J N. destruct (sample_grid_returned lo s B Nx Ny false (Some f) xs ys s' rows E) as (_ & _ & _ & _ & _ & _ & _ & _ & _ & Q). specialize (Q i j I J). destruct Q as [Q _]. unfold at_. rewrite Q.
    cbn [orb]. destruct (inbounds1 _ _) eqn:E1; [|reflexivity]. destruct (inbounds1 (yaxis _) _) eqn:E2; [|reflexivity]. exfalso. apply N. split; apply inbounds1_spec; assumption.
Qed.
Print Assumptions grid_sample_out.
(** ... finding: with fill_value = None values are not extrapolated, as documented: the value is that at the nearest point within the limits *)
Theorem grid_sample_extrapolate_refuted : forall lo xs ys s s' rows i j, reached s -> two_dimensional s -> sample_grid lo false None xs ys s = (s', Ok rows) -> (i < length xs)%nat -> (j < length ys)%nat ->
  exists x y s'', within s x y /\ (forall x' y', within s x' y' -> Rabs (nth i xs 0 - x) <= Rabs (nth i xs 0 - x') /\ Rabs (nth j ys 0 - y) <= Rabs (nth j ys 0 - y')) /\
    sample_grid lo false None [x] [y] s = (s'', Ok [[at_ rows j i]]).
Proof.
  intros lo xs ys s s' rows i j R [Nx Ny] E I J. destruct (reached_base s R) as [B Z].
  destruct (sample_grid_returned lo s B Nx Ny false None xs ys s' rows E) as (_ & _ & _ & _ & _ & _ & _ & _ & _ & Q). specialize (Q i j I J). destruct Q as [Q _].
  exists (to_range (rxlim s) (nth i xs 0)), (to_range (rylim s) (nth j ys 0)). destruct (sample_2d_core lo [to_range (rxlim s) (nth i xs 0)] [to_range (rylim s) (nth j ys 0)] s B) as (s3 & _ & _ & _ & _ & _ & _ & _ & E3).
  exists s3. assert (Wx := to_range_between (rxlim s) (nth i xs 0)). assert (Wy := to_range_between (rylim s) (nth j ys 0)). split; [split; assumption|]. split.
  - intros x' y' [Hx Hy]. split; apply to_range_nearest; assumption.
  - unfold sample_grid. rewrite grid_values_2d by assumption. rewrite E3. cbn [accepted backwards oriented nondecr andb negb map]. do 4 f_equal. unfold at_. rewrite Q. unfold entry. rewrite (to_range_in _ _ Wx), (to_range_in _ _ Wy). reflexivity.
Qed.
Print Assumptions grid_sample_extrapolate_refuted.
(** ** Finding: coordinates that neither increase nor decrease are refused, and the raster is left with the lowest number in place of nan *)
Theorem grid_sample_unsorted_refuted : forall lo xs ys s, reached s -> two_dimensional s -> ~ (forall i j, (i < j < length xs)%nat -> nth i xs 0 <= nth j xs 0) -> ~ (forall i j, (i < j < length xs)%nat -> nth j xs 0 <= nth i xs 0) -> ys <> [] ->
  exists s', sample_grid lo false None xs ys s = (s', Err ValueError) /\ forall r c, (r < rny s)%nat -> (c < rnx s)%nat -> cellv s' r c = Some (match cellv s r c with Some v => v | None => lo end).
Proof.
  intros lo xs ys s R [Nx Ny] N1 N2 Ne. destruct (reached_base s R) as [B Z]. destruct (sample_2d_core lo xs ys s B) as (s3 & B3 & _ & G3 & A3 & R3 & _ & _ & E3).
  exists (poke (map (fun v => Some (no_nans lo v)) (rvalues s)) s3). unfold sample_grid. rewrite grid_values_2d by assumption. rewrite E3.
  assert (A : accepted xs ys = false).
  { unfold accepted. replace (nondecr (oriented (backwards xs) xs)) with false; [reflexivity|]. symmetry. apply Bool.not_true_iff_false. intros T. destruct (backwards xs).
    - apply N2. pose proof (proj1 (nondecr_iff _) T) as T'. cbn [oriented] in T'. rewrite rev_length in T'. intros i j L. specialize (T' (length xs - 1 - j)%nat (length xs - 1 - i)%nat ltac:(lia)). rewrite !rev_nth in T' by lia.
      replace (length xs - S (length xs - 1 - j))%nat with j in T' by lia. replace (length xs - S (length xs - 1 - i))%nat with i in T' by lia. exact T'.
    - apply N1. apply nondecr_iff. exact T. }
  rewrite A. destruct xs as [|x xs]; [exfalso; apply N1; intros i j L; cbn in L; lia|]. destruct ys as [|y ys]; [congruence|]. cbn [negb andb]. split; [reflexivity|].
  intros r c Hr Hc. destruct (rgrid_dims s s3 G3) as [Dx Dy]. unfold cellv, rvalues, abuf, poke. cbn [rarr upd_ah ah rnx]. rewrite nth_set_nth_eq by (rewrite R3, A3; exact (b_arr s B)). rewrite Dx.
  assert (L : (r * rnx s + c < length (rvalues s))%nat) by (rewrite (b_len s B); nia).
  rewrite (nth_indep _ None (Some (no_nans lo None))) by (rewrite map_length; exact L). rewrite (map_nth (fun v => Some (no_nans lo v))). reflexivity.
Qed.
Print Assumptions grid_sample_unsorted_refuted.
(** ** Finding: a raster of nan gives the lowest number and not nan *)
Theorem grid_sample_all_nan_refuted : forall lo be fill xs ys s s' rows i j, reached s -> two_dimensional s -> (forall w, ~ is_cell s w) -> sample_grid lo be fill xs ys s = (s', Ok rows) -> (i < length xs)%nat -> (j < length ys)%nat -> within s (nth i xs 0) (nth j ys 0) ->
  at_ rows j i = Some lo.
Proof.
  intros lo be fill xs ys s s' rows i j R [Nx Ny] N E I J [Wx Wy]. destruct (reached_base s R) as [B Z].
  destruct (sample_grid_returned lo s B Nx Ny be fill xs ys s' rows E) as (_ & _ & _ & _ & _ & _ & _ & _ & _ & Q). specialize (Q i j I J). destruct Q as [Q _]. unfold at_. rewrite Q.
  assert (X : entry lo s (nth i xs 0) (nth j ys 0) = Some lo).
  { rewrite entry_inside by assumption. destruct (surface_spec lo s (nth i xs 0) (nth j ys 0) B Nx Ny) as (c & c' & t & r & r' & u & _ & _ & F & _). rewrite F.
    assert (NN : forall r c, cellv s r c = None). { intros r1 c1. destruct (cellv s r1 c1) as [w|] eqn:Ew; [|reflexivity]. exfalso. apply (N w). apply is_cell_in; [exact B|]. exact (cell_in _ _ _ _ Ew). }
    rewrite !NN. destruct (nan_min (rvalues s)) as [z|] eqn:M; [exfalso; apply (N z); apply is_cell_in; [exact B|]; exact (proj1 (nan_min_some _ _ M))|]. cbn. f_equal. ring. }
  rewrite X. destruct fill; [|reflexivity]. rewrite !(proj2 (inbounds1_spec _ _)) by assumption. rewrite Bool.orb_true_r. reflexivity.
Qed.
Print Assumptions grid_sample_all_nan_refuted.

(** ** Finding: in the outer half cells, where values are extrapolated, ... *)
Lemma bracket2 x c c' t : brackets ((0, 2), 2%Z) 2 x c c' t -> (c = 0%nat /\ c' = 1%nat /\ t = x - / 2) \/ (c = 1%nat /\ c' = 0%nat /\ t = 3 / 2 - x).
Proof.
  intros (A & B & C & E & _). unfold center, at_cells in E. cbn [fst snd] in E. destruct c as [|[|c]]; [|right|lia].
  - left. destruct c' as [|[|c']]; [lia| |lia]. cbn in E. split; [reflexivity|]. split; [reflexivity|]. lra.
  - destruct c' as [|[|c']]; [|lia|lia]. cbn in E. split; [reflexivity|]. split; [reflexivity|]. lra.
Qed.
Definition square (a b c d : option R) : raster := mkraster [] [[a; b; c; d]] (0, 2) true (0, 2) true 2 2 0 true None None None None None.
Lemma square_fresh a b c d : fresh (square a b c d).
Proof.
  exists 2%nat, 2%nat, [a; b; c; d], true, [0; 2], [0; 2], true, true. unfold new_raster. rewrite !parse_limits_ne by lra. cbn [bind]. split; [reflexivity|]. cbn. lia.
Qed.
Lemma square_surface lo a b c d x y : surface lo (square a b c d) x y =
  (3 / 2 - x) * ((3 / 2 - y) * no_nans lo a + (y - / 2) * no_nans lo c) + (x - / 2) * ((3 / 2 - y) * no_nans lo b + (y - / 2) * no_nans lo d).
Proof.
  destruct (fresh_base _ (square_fresh a b c d)) as (B & _ & _).
  destruct (surface_spec lo (square a b c d) x y B) as (c1 & c2 & t & r1 & r2 & u & Bx & By & -> & _); [cbn; lia|cbn; lia|].
  change (brackets ((0, 2), 2%Z) 2 x c1 c2 t) in Bx. change (brackets ((0, 2), 2%Z) 2 y r1 r2 u) in By.
  destruct (bracket2 _ _ _ _ Bx) as [(-> & -> & ->)|(-> & -> & ->)]; destruct (bracket2 _ _ _ _ By) as [(-> & -> & ->)|(-> & -> & ->)]; cbn [cellv rvalues abuf square rarr ah nth rnx Nat.mul Nat.add]; field.
Qed.
Lemma square_sample lo a b c d be fill x y : 0 <= x <= 2 -> 0 <= y <= 2 ->
  exists s', sample_grid lo be fill [x] [y] (square a b c d) = (s', Ok [[hide_low (nan_min [a; b; c; d]) (surface lo (square a b c d) x y)]]).
Proof.
  intros Hx Hy. destruct (fresh_base _ (square_fresh a b c d)) as (B & _ & _).
  assert (W : in_axis ((0, 2), 2%Z) x /\ in_axis ((0, 2), 2%Z) y) by (unfold in_axis, between; cbn; rewrite Rmin_left, Rmax_right by lra; lra).
  destruct (sample_grid_returns lo (square a b c d) B ltac:(cbn; lia) ltac:(cbn; lia) be fill [x] [y] eq_refl) as (s' & rows & E).
  { intros _. split; intros z [<-|[]]; apply W. }
  destruct (sample_grid_returned lo (square a b c d) B ltac:(cbn; lia) ltac:(cbn; lia) be fill [x] [y] s' rows E) as (_ & _ & _ & _ & _ & _ & _ & L1 & L2 & Q).
  exists s'. rewrite E. do 2 f_equal. destruct rows as [|row [|]]; try discriminate L1. specialize (L2 row (or_introl eq_refl)). destruct row as [|v [|]]; try discriminate L2. do 2 f_equal.
  specialize (Q 0%nat 0%nat ltac:(cbn; lia) ltac:(cbn; lia)). destruct Q as [Q _]. cbn [nth] in Q. rewrite Q.
  change (xaxis (rgrid (square a b c d))) with ((0, 2), 2%Z). change (yaxis (rgrid (square a b c d))) with ((0, 2), 2%Z). rewrite !(proj2 (inbounds1_spec _ _)) by apply W. rewrite Bool.orb_true_r.
  rewrite (entry_inside lo (square a b c d) x y (proj1 W) (proj2 W)). destruct fill; reflexivity.
Qed.
(** ... values below the lowest cell become nan, although the raster has no nan *)
Theorem grid_sample_border_refuted : forall lo, exists s x y v s', reached s /\ no_nan s /\ within s x y /\ sampled (sample true true None x y s) = Ok (Some v) /\ sample_grid lo true None [x] [y] s = (s', Ok [[None]]).
Proof.
  intros lo. set (s := square (Some 0) (Some 1) (Some 0) (Some 1)). assert (F : fresh s) by apply square_fresh. assert (Re : reached s) by (apply fresh_reached; exact F).
  destruct (square_sample lo (Some 0) (Some 1) (Some 0) (Some 1) true None 0 1) as (s' & E); [lra|lra|].
  exists s, 0, 1, (- / 2), s'. split; [exact Re|]. split; [intros [|[|r]] [|[|c]] Hr Hc; cbn in Hr, Hc; try lia; discriminate|].
  assert (W : within s 0 1) by (unfold within, in_axis, between; cbn; rewrite Rmin_left, Rmax_right by lra; lra). split; [exact W|]. split.
  - destruct (raster_sample_bounds s true 0 1 Re) as (_ & Hb & _). rewrite (Hb true None W).
    rewrite (raster_sample_planar s 0 1 (- / 2) 1 0 Re); [do 2 f_equal; ring|cbn; lia|cbn; lia|].
    intros [|[|r]] [|[|c]] Hr Hc; cbn in Hr, Hc; try lia; unfold cellv, center, at_cells; cbn; f_equal; lra.
  - fold s in E. rewrite E. do 4 f_equal. unfold s at 1. rewrite square_surface. cbn [no_nans nan_min hide_low]. rewrite (proj2 (Rltb_true _ _)); [reflexivity|]. unfold Rmin. repeat destruct (Rle_dec _ _); lra.
Qed.
Print Assumptions grid_sample_border_refuted.
(** ... and next to a nan cell the sample is huge: half the lowest number, with the other sign *)
Theorem grid_sample_huge_refuted : forall lo, lo < 1 -> exists s x y s', reached s /\ within s x y /\ sampled (sample true true None x y s) = Ok None /\ (forall w, is_cell s w -> w = 1) /\ sample_grid lo true None [x] [y] s = (s', Ok [[Some ((3 - lo) / 2)]]).
Proof.
  intros lo L. set (s := square (Some 1) None (Some 1) None). assert (F : fresh s) by apply square_fresh. assert (Re : reached s) by (apply fresh_reached; exact F).
  destruct (square_sample lo (Some 1) None (Some 1) None true None 0 1) as (s' & E); [lra|lra|].
  exists s, 0, 1, s'. split; [exact Re|].
  assert (W : within s 0 1) by (unfold within, in_axis, between; cbn; rewrite Rmin_left, Rmax_right by lra; lra). split; [exact W|]. split; [|split].
  - destruct (raster_sample_bounds s true 0 1 Re) as (_ & Hb & _). rewrite (Hb true None W).
    destruct (raster_sample_linear s 0 1 Re) as (c & c' & t & r & r' & u & Bx & By & ->); [cbn; lia|cbn; lia|].
    change (brackets ((0, 2), 2%Z) 2 0 c c' t) in Bx. change (brackets ((0, 2), 2%Z) 2 1 r r' u) in By.
    destruct (bracket2 _ _ _ _ Bx) as [(-> & -> & _)|(-> & -> & _)]; destruct (bracket2 _ _ _ _ By) as [(-> & -> & _)|(-> & -> & _)]; reflexivity.
  - intros w ([|[|r]] & [|[|c]] & Hr & Hc & Ew); cbn in Hr, Hc; try lia; cbn in Ew; congruence.
  - fold s in E. rewrite E. do 4 f_equal. unfold s at 1. rewrite square_surface. cbn [no_nans nan_min hide_low]. rewrite (proj2 (Rltb_false _ _)); [f_equal; field|]. rewrite Rmin_left by lra. lra.
Qed.
Print Assumptions grid_sample_huge_refuted.
(** ** Finding: with a single row (or column), the samples are of shape (n, n) for n coordinates along the other axis, whatever the number of coordinates across *)
Theorem grid_sample_row_refuted : forall lo xs ys s, reached s -> (1 < rnx s)%nat -> rny s = 1%nat -> (forall x y, In x xs -> In y ys -> within s x y) -> ys <> [] -> xs <> [] ->
  exists s' rows, sample_grid lo true None xs ys s = (s', Ok rows) /\ length rows = length xs /\ forall i j, (i < length xs)%nat -> (j < length xs)%nat -> Ok (at_ rows j i) = sampled (sample true true None (nth i xs 0) (nth 0 ys 0) s).
Proof.
  intros lo xs ys s R Nx N1 W Ney Nex. destruct (reached_base s R) as [B Z]. unfold sample_grid.
  destruct xs as [|x0 xs]; [congruence|]. destruct ys as [|y0 ys]; [congruence|].
  rewrite (proj2 (forallb_map_id _ (x0 :: xs))) by (intros x I; apply inbounds1_spec; apply (W x y0 I); left; reflexivity).
  rewrite (proj2 (forallb_map_id _ (y0 :: ys))) by (intros y I; apply inbounds1_spec; apply (W x0 y); [left; reflexivity|exact I]). cbn [andb].
  unfold grid_values, sample_1d. rewrite (proj2 (Nat.ltb_lt _ _) Nx), N1. cbn [Nat.ltb Nat.leb andb].
  destruct (get_x_spec s B) as (p & s' & E & _). rewrite E. cbn [bind]. eexists _, _. split; [reflexivity|]. split; [rewrite repeat_length; apply map_length|].
  intros i j I J. unfold at_. set (f := interp1_linear _ _). rewrite (nth_indep _ [] (map f (x0 :: xs))) by (rewrite repeat_length, map_length; exact J). rewrite nth_repeat.
  rewrite (nth_indep _ None (f 0)) by (rewrite map_length; exact I). rewrite (map_nth f). cbn [nth]. set (x := match i with O => x0 | S m => nth m xs 0 end). assert (Ix : In x (x0 :: xs)) by (change x with (nth i (x0 :: xs) 0); apply nth_In; exact I).
  assert (Iy : In y0 (y0 :: ys)) by (left; reflexivity). destruct (raster_sample_bounds s true x y0 R) as (_ & Hb & _). rewrite (Hb true None (W x y0 Ix Iy)). unfold sample, sample_value. rewrite (proj2 (Nat.ltb_lt _ _) Nx), N1. cbn [Nat.ltb Nat.leb andb]. rewrite E. reflexivity.
Qed.
Print Assumptions grid_sample_row_refuted.

Theorem grid_sample_column_refuted : forall lo xs ys s, reached s -> rnx s = 1%nat -> (1 < rny s)%nat -> (forall x y, In x xs -> In y ys -> within s x y) -> ys <> [] -> xs <> [] ->
  exists s' rows, sample_grid lo true None xs ys s = (s', Ok rows) /\ length rows = length ys /\ forall i j, (i < length ys)%nat -> (j < length ys)%nat -> Ok (at_ rows j i) = sampled (sample true true None (nth 0 xs 0) (nth j ys 0) s).
Proof.
  intros lo xs ys s R N1 Ny W Ney Nex. destruct (reached_base s R) as [B Z]. unfold sample_grid.
  destruct xs as [|x0 xs]; [congruence|]. destruct ys as [|y0 ys]; [congruence|].
  rewrite (proj2 (forallb_map_id _ (x0 :: xs))) by (intros x I; apply inbounds1_spec; apply (W x y0 I); left; reflexivity).
  rewrite (proj2 (forallb_map_id _ (y0 :: ys))) by (intros y I; apply inbounds1_spec; apply (W x0 y); [left; reflexivity|exact I]). cbn [andb].
  unfold grid_values, sample_1d. rewrite (proj2 (Nat.ltb_lt _ _) Ny), N1. cbn [Nat.ltb Nat.leb andb].
  destruct (get_y_spec s B) as (p & s' & E & _). rewrite E. cbn [bind]. eexists _, _. split; [reflexivity|]. split; [rewrite !map_length; reflexivity|].
  intros i j I J. unfold at_. set (f := interp1_linear _ _). rewrite map_map. rewrite (nth_indep _ [] (repeat (f 0) (length (map f (y0 :: ys))))) by (rewrite map_length; exact J). rewrite (map_nth (fun y => repeat (f y) (length (map f (y0 :: ys))))).
  rewrite (nth_indep _ None (f (nth j (y0 :: ys) 0))) by (rewrite repeat_length, map_length; exact I). rewrite nth_repeat.
  set (y := nth j (y0 :: ys) 0). cbn [nth]. assert (Iy : In y (y0 :: ys)) by (apply nth_In; exact J).
  assert (Ix : In x0 (x0 :: xs)) by (left; reflexivity). destruct (raster_sample_bounds s true x0 y R) as (_ & Hb & _). rewrite (Hb true None (W x0 y Ix Iy)). unfold sample, sample_value. rewrite (proj2 (Nat.ltb_lt _ _) Ny), N1. cbn [Nat.ltb Nat.leb andb]. rewrite E. reflexivity.
Qed.
Print Assumptions grid_sample_column_refuted.

(** ** Resampling to a grid gives the raster of the samples at its cell centers, with its coordinates *)
Lemma centers_monotone a v : axis_ok a -> is_centers a v -> monotone v.
Proof.
  intros A [_ C]. pose proof (dcell_nz a A) as Nz. destruct (Rtotal_order (dcell a) 0) as [D|[D|D]]; [right|lra|left]; intros i j L; rewrite !C by lia; rewrite !center_INR.
  - assert (INR i < INR j) by (apply lt_INR; lia). nra.
  - assert (INR i < INR j) by (apply lt_INR; lia). nra.
Qed.
Lemma concat_nth {A} (rows : list (list A)) w r c d : (forall row, In row rows -> length row = w) -> (r < length rows)%nat -> (c < w)%nat -> nth (r * w + c) (concat rows) d = nth c (nth r rows []) d.
Proof.
  revert r. induction rows as [|row rows IH]; intros r L Hr Hc; [cbn in Hr; lia|]. cbn [concat]. destruct r as [|r].
  - cbn [Nat.mul Nat.add]. rewrite app_nth1 by (rewrite (L row (or_introl eq_refl)); exact Hc). reflexivity.
  - rewrite app_nth2 by (rewrite (L row (or_introl eq_refl)); nia). rewrite (L row (or_introl eq_refl)). replace (S r * w + c - w)%nat with (r * w + c)%nat by nia. cbn [nth]. apply IH; [intros q I; apply L; right; exact I|cbn in Hr; lia|exact Hc].
Qed.
Lemma concat_len {A} (rows : list (list A)) w : (forall row, In row rows -> length row = w) -> length (concat rows) = (length rows * w)%nat.
Proof. induction rows as [|row rows IH]; intros L; [reflexivity|]. cbn. rewrite app_length, IH, (L row (or_introl eq_refl)); [reflexivity|]. intros q I. apply L. right. exact I. Qed.
Theorem resample_grid : forall lo be fill s g, reached s -> two_dimensional s -> grid_ok g ->
  (be = true -> forall r c, (0 <= r < gny g)%Z -> (0 <= c < gnx g)%Z -> within s (center (xaxis g) c) (center (yaxis g) r)) ->
  exists xs ys s1 rows s', is_centers (xaxis g) xs /\ is_centers (yaxis g) ys /\ sample_grid lo be fill xs ys s = (s1, Ok rows) /\
    resample lo be fill g s = (s', Ok tt) /\ rgrid s' = g /\ coords_coherent s' /\
    forall r c, (r < rny s')%nat -> (c < rnx s')%nat -> cellv s' r c = at_ rows r c.
Proof.
  intros lo be fill s g R T2 [Gx Gy] W. pose proof T2 as [Nx Ny]. destruct (reached_base s R) as [B Z].
  destruct (centers_is _ Gx) as (xs & Ex & Cx). destruct (centers_is _ Gy) as (ys & Ey & Cy).
  assert (Lx : length xs = Z.to_nat (gnx g)) by apply Cx. assert (Ly : length ys = Z.to_nat (gny g)) by apply Cy. assert (Px : (1 <= gnx g)%Z) by apply Gx. assert (Py : (1 <= gny g)%Z) by apply Gy.
  destruct (sample_grid_returns lo s B Nx Ny be fill xs ys (monotone_accepted xs ys (centers_monotone _ _ Gx Cx) (centers_monotone _ _ Gy Cy))) as (s1 & rows & E).
  { intros T. specialize (W T). split.
    - intros x I. destruct (In_nth _ _ 0 I) as (k & K & <-). rewrite (proj2 Cx k K). apply (W 0%Z (Z.of_nat k)); lia.
    - intros y I. destruct (In_nth _ _ 0 I) as (k & K & <-). rewrite (proj2 Cy k K). apply (W (Z.of_nat k) 0%Z); lia. }
  destruct (sample_grid_returned lo s B Nx Ny be fill xs ys s1 rows E) as (B1 & _ & G1 & _ & _ & _ & _ & L1 & L2 & _).
  assert (Hd : length (hd [] rows) = length xs). { destruct rows as [|row rows]; [cbn in L1; lia|]. apply L2. left. reflexivity. }
  exists xs, ys, s1, rows. unfold resample. rewrite Ex, Ey. cbn [bind]. rewrite E.
  destruct (set_array_base (length rows) (length (hd [] rows)) (concat rows) true s1 B1) as (B2 & G2 & V2 & _ & X2 & Y2 & _); [lia|lia|rewrite Hd; apply concat_len; exact L2|].
  remember (set_array (length rows) (length (hd [] rows)) (concat rows) true s1) as s2 eqn:E2. clear E2.
  destruct (set_xlim [fst (gxlim g); snd (gxlim g)] true s2) as [s3|] eqn:E3.
  2: { exfalso. unfold set_xlim in E3. rewrite parse_limits_ne in E3 by apply Gx. cbn [bind] in E3. destruct (Req2b _ _) in E3; discriminate. }
  destruct (set_xlim_base _ _ _ _ B2 E3) as (B3 & G3 & A3 & H3 & _ & X3 & Y3 & _). cbn [nth] in G3.
  destruct (set_ylim [fst (gylim g); snd (gylim g)] true s3) as [s4|] eqn:E4.
  2: { exfalso. unfold set_ylim in E4. rewrite parse_limits_ne in E4 by apply Gy. cbn [bind] in E4. destruct (Req2b _ _) in E4; discriminate. }
  destruct (set_ylim_base _ _ _ _ B3 E4) as (B4 & G4 & A4 & H4 & _ & X4 & Y4 & _). cbn [nth] in G4.
  assert (Gf : rgrid s4 = g).
  { rewrite G4. change (rxlim s3) with (gxlim (rgrid s3)). rewrite G3. cbn [gxlim]. rewrite X3, X2, Y3, Y2, Hd, L1, Lx, Ly, !Z2Nat.id by lia. destruct g as [n m [a b] [c d]]. reflexivity. }
  cbv zeta. set (s6 := upd_y _ _ _). exists s6. split; [exact Cx|]. split; [exact Cy|]. split; [reflexivity|]. split; [reflexivity|]. split; [exact Gf|].
  assert (Bx : xbuf s6 (length (xh s4)) = xs). { unfold xbuf. cbn. rewrite app_nth1 by (rewrite app_length; cbn; lia). apply nth_snoc. }
  assert (By : xbuf s6 (length (xh s4 ++ [xs])) = ys) by apply nth_snoc.
  split.
  - apply base_coherent. destruct B4 as [C1 C2 C3 C4 C5 C6 C7 C8]. constructor; auto.
    + intros p Hp. assert (p = length (xh s4)) as -> by (injection Hp as <-; reflexivity). rewrite Bx. split; [cbn; rewrite !app_length; cbn; lia|]. change (rgrid s6) with (rgrid s4). rewrite Gf. exact Cx.
    + intros p Hp. assert (p = length (xh s4 ++ [xs])) as -> by (injection Hp as <-; reflexivity). rewrite By. split; [cbn; rewrite !app_length; cbn; lia|]. change (rgrid s6) with (rgrid s4). rewrite Gf. exact Cy.
    + intros p q Hp Hq. assert (p = length (xh s4)) as -> by (injection Hp as <-; reflexivity). assert (q = length (xh s4 ++ [xs])) as -> by (injection Hq as <-; reflexivity). rewrite app_length. cbn. lia.
  - intros r c Hr Hc. change (rny s6) with (rny s4) in Hr. change (rnx s6) with (rnx s4) in Hc. unfold cellv. change (rnx s6) with (rnx s4). change (rvalues s6) with (rvalues s4).
    assert (V4 : rvalues s4 = concat rows). { unfold rvalues, abuf. rewrite H4, H3, A4, A3. exact V2. }
    rewrite V4. unfold at_. rewrite X4, X3, X2. apply concat_nth; [intros row I; rewrite Hd; apply L2; exact I|lia|lia].
Qed.
Print Assumptions resample_grid.
(** A raster with data, resampled to its own grid, keeps its values. *)
Theorem resample_own_grid : forall lo s, reached s -> two_dimensional s -> (exists w, is_cell s w) -> (forall w, is_cell s w -> lo < w) ->
  exists s', resample lo true None (rgrid s) s = (s', Ok tt) /\ rgrid s' = rgrid s /\ forall r c, (r < rny s)%nat -> (c < rnx s)%nat -> cellv s' r c = cellv s r c.
Proof.
  intros lo s R T2 D Lw. destruct (reached_base s R) as [B Z]. pose proof T2 as [Nx Ny]. destruct (b_ok s B) as [Ax Ay].
  assert (W : forall r c, (0 <= r < gny (rgrid s))%Z -> (0 <= c < gnx (rgrid s))%Z -> within s (center (xaxis (rgrid s)) c) (center (yaxis (rgrid s)) r)).
  { intros r c Hr Hc. split; apply in_axis_center; assumption. }
  destruct (resample_grid lo true None s (rgrid s) R T2 (b_ok s B) (fun _ => W)) as (xs & ys & s1 & rows & s' & Cx & Cy & E & E' & G & _ & V).
  exists s'. split; [exact E'|]. split; [exact G|]. destruct (rgrid_dims s s' G) as [Dx Dy]. intros r c Hr Hc. rewrite V by lia.
  assert (Lx := is_centers_len s xs Cx). assert (Ly := is_centers_leny s ys Cy).
  destruct (sample_grid_returned lo s B Nx Ny true None xs ys s1 rows E) as (_ & _ & _ & _ & _ & _ & _ & _ & _ & Q). specialize (Q c r ltac:(lia) ltac:(lia)). destruct Q as [Q _]. unfold at_. rewrite Q.
  rewrite (proj2 Cx c) by lia. rewrite (proj2 Cy r) by lia. set (x := center _ _). set (y := center _ (Z.of_nat r)).
  destruct (W (Z.of_nat r) (Z.of_nat c)) as [Wx Wy]; [cbn; lia|cbn; lia|]. rewrite (entry_inside lo s x y Wx Wy). destruct (surface_spec lo s x y B Nx Ny) as (c1 & c2 & t & r1 & r2 & u & Bx & By & F & _). rewrite F.
  destruct D as (w0 & D). assert (I0 : In (Some w0) (rvalues s)) by (apply is_cell_in; assumption).
  assert (K : hide_low (nan_min (rvalues s)) (no_nans lo (cellv s r c)) = cellv s r c).
  { destruct (cellv s r c) as [w|] eqn:Ew; cbn [no_nans].
    - apply (shown s w); [exact (cell_in _ _ _ _ Ew)|lra].
    - apply (hidden s w0 lo I0). intros w Iw. apply Lw. apply is_cell_in; assumption. }
  destruct (bracket_at_center _ _ c c1 c2 t Ax Hc Bx) as [[-> ->]|[-> ->]]; destruct (bracket_at_center _ _ r r1 r2 u Ay Hr By) as [[-> ->]|[-> ->]];
    match goal with |- hide_low _ ?v = _ => replace v with (no_nans lo (cellv s r c)) by ring end; exact K.
Qed.
Print Assumptions resample_own_grid.

(** ** Examples *)
Example grid_sample_case : reached (square (Some 1) None (Some 3) (Some 4)) /\ two_dimensional (square (Some 1) None (Some 3) (Some 4)) /\ monotone [3 / 2; 1; / 2] /\
  (forall x y, In x [3 / 2; 1; / 2] -> In y [1] -> within (square (Some 1) None (Some 3) (Some 4)) x y) /\ is_cell (square (Some 1) None (Some 3) (Some 4)) 3.
Proof.
  split; [apply fresh_reached, square_fresh|]. split; [split; cbn; lia|]. split; [|split].
  - right. intros [|[|[|i]]] [|[|[|j]]] L; cbn in L; try lia; cbn [nth]; lra.
  - intros x y Hx Hy. unfold within, in_axis, between. cbn. rewrite !Rmin_left, !Rmax_right by lra. cbn in Hx, Hy. destruct Hy as [<-|[]]. destruct Hx as [<-|[<-|[<-|[]]]]; lra.
  - exists 1%nat, 0%nat. cbn. repeat split; lia.
Qed.
Example grid_sample_unsorted_case : ~ (forall i j, (i < j < length [0; 2; 1])%nat -> nth i [0; 2; 1] 0 <= nth j [0; 2; 1] 0) /\ ~ (forall i j, (i < j < length [0; 2; 1])%nat -> nth j [0; 2; 1] 0 <= nth i [0; 2; 1] 0).
Proof. split; intros H; [specialize (H 1%nat 2%nat)|specialize (H 0%nat 1%nat)]; cbn in H; specialize (H ltac:(lia)); lra. Qed.
