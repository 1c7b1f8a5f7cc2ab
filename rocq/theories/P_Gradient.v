(** Property theorems about gradients and illumination of rasters (C94). *)
From Coq Require Import Lia Lra FunctionalExtensionality.
From Verif Require Import Base BaseLemmas HelpersModel GridModel GridSpec GridProofs GradientModel.
Open Scope R_scope.

Definition fits (z : field) (g : grid) : Prop := Z.of_nat (fny z) = gny g /\ Z.of_nat (fnx z) = gnx g.
(** the coordinate of the center of cell k, and values of F(x, y) at the cell centers *)
Definition cx (g : grid) (k : nat) : R := center (xaxis g) (Z.of_nat k).
Definition cy (g : grid) (k : nat) : R := center (yaxis g) (Z.of_nat k).
Definition samples (z : field) (g : grid) (F : R -> R -> R) : Prop := forall i j, (i < fny z)%nat -> (j < fnx z)%nat -> fz z i j = F (cx g j) (cy g i).

Lemma center_step a k : axis_ok a -> center a (Z.of_nat (k + 1)) - center a (Z.of_nat k) = dcell a.
Proof. intros A. unfold center. rewrite !at_cells_eq, Nat2Z.inj_add, plus_IZR. cbn [Z.of_nat Pos.of_succ_nat]. ring. Qed.

(** a difference quotient is the derivative somewhere between the two centers *)
Lemma mean_value f f' a b : a <> b -> (forall x, between a b x -> derivable_pt_lim f x (f' x)) -> exists c, between a b c /\ (f b - f a) / (b - a) = f' c.
Proof.
  intros N D. unfold between in *. destruct (Rlt_or_le a b) as [L|L].
  - destruct (MVT_cor2 f f' a b L) as (c & E & Hc). { intros c Hc. apply D. rewrite Rmin_left, Rmax_right by lra. exact Hc. }
    exists c. rewrite Rmin_left, Rmax_right by lra. split; [lra|]. rewrite E. field. lra.
  - destruct (MVT_cor2 f f' b a ltac:(lra)) as (c & E & Hc). { intros c Hc. apply D. rewrite Rmin_right, Rmax_left by lra. exact Hc. }
    exists c. rewrite Rmin_right, Rmax_left by lra. split; [lra|]. replace (f b - f a) with (- (f a - f b)) by ring. rewrite E. field. lra.
Qed.
(** the cells whose centers are used for the derivative at cell i *)
Definition before (i : nat) : nat := if (i =? 0)%nat then 0%nat else (i - 1)%nat.
Definition after (n i : nat) : nat := if (i =? n - 1)%nat then i else (i + 1)%nat.
Lemma difference_quotient a n f i : axis_ok a -> (2 <= n)%nat -> (i < n)%nat ->
  difference n (dcell a) f i = (f (after n i) - f (before i)) / (center a (Z.of_nat (after n i)) - center a (Z.of_nat (before i))) /\ center a (Z.of_nat (before i)) <> center a (Z.of_nat (after n i)).
Proof.
  intros A N I. pose proof (dcell_nz a A) as D. unfold difference, before, after.
  destruct (Nat.eqb_spec i 0) as [->|I0].
  - destruct (Nat.eqb_spec 0 (n - 1)); [lia|]. cbn [Nat.add]. pose proof (center_step a 0 A) as S. cbn [Nat.add] in S. rewrite S. split; [reflexivity|lra].
  - pose proof (center_step a (i - 1) A) as S. replace (i - 1 + 1)%nat with i in S by lia. destruct (Nat.eqb_spec i (n - 1)) as [->|I1].
    + replace (n - 1 - 1)%nat with (n - 2)%nat in * by lia. rewrite S. split; [reflexivity|lra].
    + pose proof (center_step a i A) as S2. replace (center a (Z.of_nat (i + 1)) - center a (Z.of_nat (i - 1))) with (2 * dcell a) by lra. split; [reflexivity|]. lra.
Qed.

Lemma gradient_eq z g : fits z g -> grid_ok g -> (2 <= fny z)%nat -> (2 <= fnx z)%nat ->
  gradient z g = Ok (fun i j => difference (fnx z) (dcell (xaxis g)) (fun k => fz z i k) j, fun i j => difference (fny z) (dcell (yaxis g)) (fun k => fz z k j) i).
Proof. intros _ _ H1 H2. unfold gradient, np_gradient. destruct (Nat.ltb_spec (fny z) 2); [lia|]. destruct (Nat.ltb_spec (fnx z) 2); [lia|]. reflexivity. Qed.

(** If the values are those of a differentiable surface at the cell centers, the gradients in x and in y are the partial derivatives at some point between the neighbouring cell centers in that direction (between the cell's own and its neighbour's at the border), for either orientation of the axes. *)
Theorem gradient_mean_value : forall z g F Fx Fy, fits z g -> grid_ok g -> (2 <= fny z)%nat -> (2 <= fnx z)%nat -> samples z g F ->
  (forall x y, derivable_pt_lim (fun x => F x y) x (Fx x y)) -> (forall x y, derivable_pt_lim (fun y => F x y) y (Fy x y)) ->
  exists dzdx dzdy, gradient z g = Ok (dzdx, dzdy) /\ forall i j, (i < fny z)%nat -> (j < fnx z)%nat ->
    (exists x, between (cx g (before j)) (cx g (after (fnx z) j)) x /\ dzdx i j = Fx x (cy g i)) /\
    (exists y, between (cy g (before i)) (cy g (after (fny z) i)) y /\ dzdy i j = Fy (cx g j) y).
Proof.
  intros z g F Fx Fy FT GO NY NX S DX DY. rewrite (gradient_eq z g FT GO NY NX). eexists _, _. split; [reflexivity|]. intros i j I J.
  assert (BJ : (before j < fnx z)%nat /\ (after (fnx z) j < fnx z)%nat) by (unfold before, after; destruct (Nat.eqb_spec j 0), (Nat.eqb_spec j (fnx z - 1)); lia).
  assert (BI : (before i < fny z)%nat /\ (after (fny z) i < fny z)%nat) by (unfold before, after; destruct (Nat.eqb_spec i 0), (Nat.eqb_spec i (fny z - 1)); lia).
  split.
  - destruct (difference_quotient (xaxis g) (fnx z) (fun k => fz z i k) j (proj1 GO) NX J) as [E N]. rewrite E.
    rewrite (S i (after (fnx z) j)), (S i (before j)) by tauto. exact (mean_value (fun x => F x (cy g i)) (fun x => Fx x (cy g i)) _ _ N (fun x _ => DX x (cy g i))).
  - destruct (difference_quotient (yaxis g) (fny z) (fun k => fz z k j) i (proj2 GO) NY I) as [E N]. rewrite E.
    rewrite (S (after (fny z) i) j), (S (before i) j) by tauto. exact (mean_value (fun y => F (cx g j) y) (fun y => Fy (cx g j) y) _ _ N (fun y _ => DY (cx g j) y)).
Qed.
Print Assumptions gradient_mean_value.

(** So the gradients of a plane are its slopes, in every cell. *)
Theorem gradient_plane : forall z g a b c, fits z g -> grid_ok g -> (2 <= fny z)%nat -> (2 <= fnx z)%nat -> samples z g (fun x y => a + b * x + c * y) ->
  exists dzdx dzdy, gradient z g = Ok (dzdx, dzdy) /\ forall i j, (i < fny z)%nat -> (j < fnx z)%nat -> dzdx i j = b /\ dzdy i j = c.
Proof.
  intros z g a b c FT GO NY NX S. destruct (gradient_mean_value z g (fun x y => a + b * x + c * y) (fun _ _ => b) (fun _ _ => c) FT GO NY NX S) as (p & q & E & H).
  - intros x y eps He. exists (mkposreal 1 Rlt_0_1). intros h N _. replace ((a + b * (x + h) + c * y - (a + b * x + c * y)) / h - b) with 0 by (field; exact N). rewrite Rabs_R0. exact He.
  - intros x y eps He. exists (mkposreal 1 Rlt_0_1). intros h N _. replace ((a + b * x + c * (y + h) - (a + b * x + c * y)) / h - c) with 0 by (field; exact N). rewrite Rabs_R0. exact He.
  - exists p, q. split; [exact E|]. intros i j I J. destruct (H i j I J) as [(x & _ & ->) (y & _ & ->)]. auto.
Qed.
Print Assumptions gradient_plane.

(** Away from the border the gradients of a quadratic surface are exact. *)
Theorem gradient_quadratic : forall z g a b c d e h, fits z g -> grid_ok g -> (2 <= fny z)%nat -> (2 <= fnx z)%nat -> samples z g (fun x y => a + b * x + c * y + d * x ^ 2 + e * x * y + h * y ^ 2) ->
  exists dzdx dzdy, gradient z g = Ok (dzdx, dzdy) /\
    (forall i j, (i < fny z)%nat -> (0 < j < fnx z - 1)%nat -> dzdx i j = b + 2 * d * cx g j + e * cy g i) /\
    (forall i j, (0 < i < fny z - 1)%nat -> (j < fnx z)%nat -> dzdy i j = c + e * cx g j + 2 * h * cy g i).
Proof.
  intros z g a b c d e h FT GO NY NX S. rewrite (gradient_eq z g FT GO NY NX). eexists _, _. split; [reflexivity|]. destruct GO as [GX GY]. split; intros i j I J.
  - unfold difference. destruct (Nat.eqb_spec j 0); [lia|]. destruct (Nat.eqb_spec j (fnx z - 1)); [lia|]. rewrite (S i (j + 1)%nat), (S i (j - 1)%nat) by lia.
    pose proof (center_step (xaxis g) j GX) as S1. pose proof (center_step (xaxis g) (j - 1) GX) as S2. replace (j - 1 + 1)%nat with j in S2 by lia. fold (cx g j) (cx g (j + 1)) (cx g (j - 1)) in S1, S2.
    replace (cx g (j + 1)) with (cx g j + dcell (xaxis g)) by lra. replace (cx g (j - 1)) with (cx g j - dcell (xaxis g)) by lra. pose proof (dcell_nz _ GX). field. assumption.
  - unfold difference. destruct (Nat.eqb_spec i 0); [lia|]. destruct (Nat.eqb_spec i (fny z - 1)); [lia|]. rewrite (S (i + 1)%nat j), (S (i - 1)%nat j) by lia.
    pose proof (center_step (yaxis g) i GY) as S1. pose proof (center_step (yaxis g) (i - 1) GY) as S2. replace (i - 1 + 1)%nat with i in S2 by lia. fold (cy g i) (cy g (i + 1)) (cy g (i - 1)) in S1, S2.
    replace (cy g (i + 1)) with (cy g i + dcell (yaxis g)) by lra. replace (cy g (i - 1)) with (cy g i - dcell (yaxis g)) by lra. pose proof (dcell_nz _ GY). field. assumption.
Qed.
Print Assumptions gradient_quadratic.
Theorem gradient_small : forall z g, (fny z < 2)%nat \/ (fnx z < 2)%nat -> gradient z g = Err ValueError.
Proof. intros z g H. unfold gradient, np_gradient. destruct (Nat.ltb_spec (fny z) 2); [reflexivity|]. destruct (Nat.ltb_spec (fnx z) 2); [reflexivity|lia]. Qed.
Print Assumptions gradient_small.

(** ** Illumination *)
(** the direction of a light at compass azimuth A and altitude B, in degrees *)
Definition light (A B : R) : R * R * R := (sin (A * PI / 180) * cos (B * PI / 180), cos (A * PI / 180) * cos (B * PI / 180), sin (B * PI / 180)).
(** the cosine of the angle between the light and the normal of a surface with slopes p in x and q in y *)
Definition lambert (A B p q : R) : R := (- p * fst (fst (light A B)) - q * snd (fst (light A B)) + snd (light A B)) / sqrt (p ^ 2 + q ^ 2 + 1).
(** intensities scaled from their range to 0 - 1, unless they are all about the same *)
Definition shaded (lo hi fraction v : R) : R := Rmin (Rmax (if Rlt_dec (/ 1000000) (hi - lo) then (v * fraction - lo) / (hi - lo) else v * fraction) 0) 1.
Definition is_range (l : list R) (lo hi : R) : Prop := In lo l /\ In hi l /\ forall v, In v l -> lo <= v <= hi.

Lemma minimum_spec l : l <> [] -> In (minimum l) l /\ forall v, In v l -> minimum l <= v.
Proof.
  intros N. unfold minimum. destruct l as [|x l]; [congruence|]. cbn [hd].
  assert (G : forall m, (fold_right Rmin x m = x \/ In (fold_right Rmin x m) m) /\ forall v, In v m -> (fold_right Rmin x m) <= v).
  { induction m as [|y m (IH1 & IH3)]; [split; [left; reflexivity|intros ? []]|]. change (fold_right Rmin x (y :: m)) with (Rmin y (fold_right Rmin x m)).
    pose proof (Rmin_l y (fold_right Rmin x m)) as L1. pose proof (Rmin_r y (fold_right Rmin x m)) as L2. split.
    - destruct (Rmin_case_strong y (fold_right Rmin x m) (fun r => r = y \/ r = fold_right Rmin x m)) as [->| ->]; [intros _; left; reflexivity|intros _; right; reflexivity|right; left; reflexivity|].
      destruct IH1 as [IH1|IH1]; [left; exact IH1|right; right; exact IH1].
    - intros v [->|Hv]; [lra|]. specialize (IH3 v Hv). lra. }
  destruct (G (x :: l)) as (G1 & G3). split; [destruct G1 as [G1|G1]; [rewrite G1; left; reflexivity|exact G1]|exact G3].
Qed.
Lemma maximum_spec l : l <> [] -> In (maximum l) l /\ forall v, In v l -> v <= maximum l.
Proof.
  intros N. unfold maximum. destruct l as [|x l]; [congruence|]. cbn [hd].
  assert (G : forall m, (fold_right Rmax x m = x \/ In (fold_right Rmax x m) m) /\ forall v, In v m -> v <= (fold_right Rmax x m)).
  { induction m as [|y m (IH1 & IH3)]; [split; [left; reflexivity|intros ? []]|]. change (fold_right Rmax x (y :: m)) with (Rmax y (fold_right Rmax x m)).
    pose proof (Rmax_l y (fold_right Rmax x m)) as L1. pose proof (Rmax_r y (fold_right Rmax x m)) as L2. split.
    - destruct (Rmax_case_strong y (fold_right Rmax x m) (fun r => r = y \/ r = fold_right Rmax x m)) as [->| ->]; [intros _; left; reflexivity|intros _; right; reflexivity|right; left; reflexivity|].
      destruct IH1 as [IH1|IH1]; [left; exact IH1|right; right; exact IH1].
    - intros v [->|Hv]; [lra|]. specialize (IH3 v Hv). lra. }
  destruct (G (x :: l)) as (G1 & G3). split; [destruct G1 as [G1|G1]; [rewrite G1; left; reflexivity|exact G1]|exact G3].
Qed.
Lemma values_in ny nx f i j : (i < ny)%nat -> (j < nx)%nat -> In (f i j) (values ny nx f).
Proof. intros I J. unfold values. apply in_flat_map. exists i. split; [apply in_seq; lia|]. apply in_map. apply in_seq. lia. Qed.
Lemma values_inv ny nx f v : In v (values ny nx f) -> exists i j, (i < ny)%nat /\ (j < nx)%nat /\ v = f i j.
Proof. unfold values. intros H. apply in_flat_map in H. destruct H as (i & I & H). apply in_map_iff in H. destruct H as (j & <- & J). apply in_seq in I, J. exists i, j. repeat split; lia. Qed.

(** Finding: the surface is shaded as if the light was at azimuth 180 - azimuth: the slope in y enters with the wrong sign, for either orientation of the raster.  [p], [q]: the gradients in x and y. *)
Theorem hillshade_mirrored_refuted : forall z g azimuth altitude fraction, fits z g -> grid_ok g -> (2 <= fny z)%nat -> (2 <= fnx z)%nat ->
  exists p q s lo hi, gradient z g = Ok (p, q) /\ hillshade z g azimuth altitude fraction = Ok s
    /\ (exists i j, (i < fny z)%nat /\ (j < fnx z)%nat /\ lo = lambert (180 - azimuth) altitude (p i j) (q i j))
    /\ (exists i j, (i < fny z)%nat /\ (j < fnx z)%nat /\ hi = lambert (180 - azimuth) altitude (p i j) (q i j))
    /\ forall i j, (i < fny z)%nat -> (j < fnx z)%nat ->
         lo <= lambert (180 - azimuth) altitude (p i j) (q i j) <= hi /\ s i j = shaded lo hi fraction (lambert (180 - azimuth) altitude (p i j) (q i j)).
Proof.
  intros z g az al fr FT GO NY NX. rewrite (gradient_eq z g FT GO NY NX).
  set (p := fun i j => difference (fnx z) (dcell (xaxis g)) (fun k => fz z i k) j). set (q := fun i j => difference (fny z) (dcell (yaxis g)) (fun k => fz z k j) i).
  exists p, q.
  unfold hillshade, ls_hillshade, np_gradient. destruct (Nat.ltb_spec (fny z) 2); [lia|]. destruct (Nat.ltb_spec (fnx z) 2); [lia|]. cbn [orb bind]. cbv zeta. cbn [gd fst snd].
  set (I0 := fun i j => dot (- difference (fnx z) (dcell (xaxis g)) (fun k => fz z i k) j, - difference (fny z) (- dcell (yaxis g)) (fun k => fz z k j) i, 1) (direction3 az al) / sqrt (dot (- difference (fnx z) (dcell (xaxis g)) (fun k => fz z i k) j, - difference (fny z) (- dcell (yaxis g)) (fun k => fz z k j) i, 1) (- difference (fnx z) (dcell (xaxis g)) (fun k => fz z i k) j, - difference (fny z) (- dcell (yaxis g)) (fun k => fz z k j) i, 1))).
  assert (E : forall i j, I0 i j = lambert (180 - az) al (p i j) (q i j)).
  { intros i j. unfold I0. assert (DN : difference (fny z) (- dcell (yaxis g)) (fun k => fz z k j) i = - q i j).
    { unfold q, difference. pose proof (dcell_nz _ (proj2 GO)). destruct (i =? 0)%nat; [field; assumption|]. destruct (i =? fny z - 1)%nat; field; assumption. }
    rewrite DN. fold (p i j). unfold lambert, light, dot, direction3. cbn [fst snd].
    replace ((180 - az) * PI / 180) with (PI - az * PI / 180) by field. replace ((90 - az) * PI / 180) with (PI / 2 - az * PI / 180) by field.
    rewrite cos_shift, sin_shift, sin_PI_x, Rtrigo_facts.cos_pi_minus. f_equal; [ring|]. f_equal. ring. }
  set (all := values (fny z) (fnx z) I0). assert (NE : all <> []). { assert (IN : In (I0 0%nat 0%nat) all) by (apply values_in; lia). intros N. rewrite N in IN. destruct IN. }
  destruct (minimum_spec all NE) as [M1 M2]. destruct (maximum_spec all NE) as [X1 X2].
  exists (fun i j => clip01 (if Rltb (/ 1000000) (maximum all - minimum all) then (I0 i j * fr - minimum all) / (maximum all - minimum all) else I0 i j * fr)), (minimum all), (maximum all).
  split; [reflexivity|]. split; [reflexivity|]. split; [|split].
  - destruct (values_inv _ _ _ _ M1) as (i & j & I & J & Q). exists i, j. rewrite Q, E. auto.
  - destruct (values_inv _ _ _ _ X1) as (i & j & I & J & Q). exists i, j. rewrite Q, E. auto.
  - intros i j I J. rewrite <- E. split; [split; [apply M2|apply X2]; apply values_in; assumption|].
    unfold shaded, clip01. destruct (Rltb_spec (/ 1000000) (maximum all - minimum all)) as [C|C]; destruct (Rlt_dec (/ 1000000) (maximum all - minimum all)); try lra; reflexivity.
Qed.
Print Assumptions hillshade_mirrored_refuted.

(** A plane that faces south, away from a light in the north at 45 degrees, is shown fully lit (1), where 0 is right. *)
Theorem hillshade_south_face_refuted : forall z g, fits z g -> grid_ok g -> (2 <= fny z)%nat -> (2 <= fnx z)%nat -> samples z g (fun _ y => y) ->
  lambert 0 45 0 1 = 0 /\ exists s, hillshade z g 0 45 1 = Ok s /\ forall i j, (i < fny z)%nat -> (j < fnx z)%nat -> s i j = 1.
Proof.
  intros z g FT GO NY NX S.
  assert (Q2 : sqrt 2 * sqrt 2 = 2) by (apply sqrt_sqrt; lra). assert (QP : 0 < sqrt 2) by (apply sqrt_lt_R0; lra).
  assert (C4 : cos (45 * PI / 180) = / sqrt 2 /\ sin (45 * PI / 180) = / sqrt 2). { replace (45 * PI / 180) with (PI / 4) by field. rewrite cos_PI4, sin_PI4. split; field; lra. }
  destruct C4 as [C4 S4].
  assert (L1 : lambert 0 45 0 1 = 0). { unfold lambert, light. cbn [fst snd]. replace (0 * PI / 180) with 0 by field. rewrite sin_0, cos_0, C4, S4. unfold Rdiv. ring. }
  assert (L2 : lambert 180 45 0 1 = 1).
  { unfold lambert, light. cbn [fst snd]. replace (180 * PI / 180) with PI by field. rewrite sin_PI, cos_PI, C4, S4. replace (0 ^ 2 + 1 ^ 2 + 1) with 2 by ring. field_simplify; [|lra]. rewrite <- Rsqr_pow2. unfold Rsqr. rewrite Q2. field. }
  split; [exact L1|]. destruct (hillshade_mirrored_refuted z g 0 45 1 FT GO NY NX) as (p & q & s & lo & hi & EG & ES & (i1 & j1 & I1 & J1 & Elo) & (i2 & j2 & I2 & J2 & Ehi) & H).
  destruct (gradient_plane z g 0 0 1 FT GO NY NX) as (p' & q' & EG' & HP). { intros i j I J. rewrite (S i j I J). ring. }
  rewrite EG in EG'. injection EG' as <- <-. replace (180 - 0) with 180 in * by ring. destruct (HP _ _ I1 J1) as [A1 A2]. rewrite A1, A2, L2 in Elo. destruct (HP _ _ I2 J2) as [A3 A4]. rewrite A3, A4, L2 in Ehi. subst lo hi.
  exists s. split; [exact ES|]. intros i j I J. destruct (H i j I J) as [_ ->]. destruct (HP i j I J) as [-> ->]. rewrite L2. unfold shaded. destruct (Rlt_dec (/ 1000000) (1 - 1)) as [C|C]; [exfalso; lra|]. rewrite Rmult_1_r, Rmax_left, Rmin_left by lra. reflexivity.
Qed.
Print Assumptions hillshade_south_face_refuted.

(** 3 rows, from north to south, and 2 columns *)
Definition gfield : field := mkfield 3 2 (fun i j => GridSpec.center (yaxis (mkgrid 2 3 (0, 4) (3, 0))) (Z.of_nat i)).
Example gradient_ex : fits gfield (mkgrid 2 3 (0, 4) (3, 0)) /\ grid_ok (mkgrid 2 3 (0, 4) (3, 0)) /\ (2 <= fny gfield)%nat /\ (2 <= fnx gfield)%nat /\ samples gfield (mkgrid 2 3 (0, 4) (3, 0)) (fun _ y => y).
Proof. repeat split; cbn; try lia; try lra. Qed.
