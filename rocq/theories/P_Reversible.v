(** C90: reversible distortion.  C91: undistortion by regula falsi. *)
From Coq Require Import Ranalysis5.
From Verif Require Import Base BaseLemmas HelpersModel CameraModel CameraProofs GridProofs ReversibleModel.
Open Scope R_scope.

(** ** Distortion as a formula *)
Definition num (c : cam) (r2 : R) : R := 1 + kk c 0 * r2 + kk c 1 * r2 ^ 2 + kk c 2 * r2 ^ 3.
Definition den (c : cam) (r2 : R) : R := 1 + kk c 3 * r2 + kk c 4 * r2 ^ 2 + kk c 5 * r2 ^ 3.
Lemma nz_if (x a b : R) : x * b = 0 -> (if nonzero x then a + x * b else a) = a + x * b.
Proof. intros E. destruct (nonzero x); lra. Qed.
Lemma nonzero_false x : nonzero x = false <-> x = 0.
Proof. unfold nonzero. rewrite negb_false_iff, Reqb_true. tauto. Qed.
Lemma if_nonzero x (a t : R) : (x = 0 -> t = 0) -> (if nonzero x then a + t else a) = a + t.
Proof. intros H. destruct (nonzero x) eqn:E; [reflexivity|]. apply nonzero_false in E. rewrite (H E). ring. Qed.
Lemma anynz_nth l i : anynz l = false -> nth i l 0 = 0.
Proof. revert i. induction l as [|a l IH]; intros [|i]; cbn; intros H; try reflexivity; apply orb_false_iff in H as [H1 H2]; [now apply nonzero_false|now apply IH]. Qed.
Lemma radial_eq c r2 : length (get_k c) = 6%nat -> radial_distortion c r2 = num c r2 / den c r2.
Proof.
  intros L. unfold radial_distortion. cbv zeta. rewrite !if_nonzero by (intros ->; ring). unfold num, den.
  destruct (anynz (slice 3 3 (get_k c))) eqn:E; [f_equal; ring|].
  assert (K : kk c 3 = 0 /\ kk c 4 = 0 /\ kk c 5 = 0).
  { unfold kk. destruct (get_k c) as [|k0 [|k1 [|k2 [|k3 [|k4 [|k5 [|]]]]]]]; try discriminate L. pose proof (anynz_nth _ 0%nat E). pose proof (anynz_nth _ 1%nat E). pose proof (anynz_nth _ 2%nat E). cbn in *. auto. }
  destruct K as (-> & -> & ->). field.
Qed.
Lemma distort_eq c x y : length (get_k c) = 6%nat -> let r2 := x * x + y * y in
  distort c (x, y) = (x * (num c r2 / den c r2) + fst (tangential_distortion c (x, y) r2), y * (num c r2 / den c r2) + snd (tangential_distortion c (x, y) r2)).
Proof.
  intros L r2. assert (RK : anynz (get_k c) = false -> num c r2 / den c r2 = 1) by (intros E; unfold num, den, kk; rewrite !(anynz_nth _ _ E); field).
  assert (TP : anynz (get_p c) = false -> tangential_distortion c (x, y) r2 = (0, 0)) by (intros E; unfold tangential_distortion, pp; rewrite !(anynz_nth _ _ E); f_equal; ring).
  unfold distort. fold r2. rewrite radial_eq by exact L. destruct (anynz (get_k c)); cbn [negb andb].
  - destruct (anynz (get_p c)); [destruct (tangential_distortion c (x, y) r2); reflexivity|]. rewrite TP by reflexivity. cbn [fst snd]. f_equal; ring.
  - rewrite RK by reflexivity. destruct (anynz (get_p c)); cbn [negb]; [destruct (tangential_distortion c (x, y) r2); cbn [fst snd]; f_equal; ring|]. rewrite TP by reflexivity. cbn [fst snd]. f_equal; ring.
Qed.
(** no tangential distortion *)
Definition radial_only (c : cam) : Prop := length (get_k c) = 6%nat /\ pp c 0 = 0 /\ pp c 1 = 0.
Definition axis_g (c : cam) (x : R) : R := x * (num c (x * x) / den c (x * x)).
Lemma distort_row c x : radial_only c -> distort c (x, 0) = (axis_g c x, 0).
Proof. intros (L & P0 & P1). rewrite distort_eq by exact L. cbv zeta. unfold tangential_distortion. rewrite P0, P1. cbn [fst snd]. unfold axis_g. rewrite !Rmult_0_r, !Rplus_0_r. f_equal; ring. Qed.
Lemma distort_col c y : radial_only c -> distort c (0, y) = (0, axis_g c y).
Proof. intros (L & P0 & P1). rewrite distort_eq by exact L. cbv zeta. unfold tangential_distortion. rewrite P0, P1. cbn [fst snd]. unfold axis_g. rewrite !Rmult_0_l, !Rplus_0_l. f_equal; ring. Qed.

(** ** reversible, exactly *)
Lemma nondecreasing_spec v : nondecreasing v = true <-> forall i, (S i < length v)%nat -> nth i v 0 <= nth (S i) v 0.
Proof.
  induction v as [|a v IH]; [split; [intros _ i H; cbn in H; lia|reflexivity]|]. destruct v as [|b v]; [split; [intros _ i H; cbn in H; lia|reflexivity]|].
  change (nondecreasing (a :: b :: v)) with (Rleb a b && nondecreasing (b :: v))%bool. rewrite andb_true_iff, Rleb_true, IH. split.
  - intros [H1 H2] [|i] Hi; [exact H1|]. apply (H2 i). cbn [length] in *. lia.
  - intros H. split; [apply (H 0%nat); cbn; lia|]. intros i Hi. apply (H (S i)). cbn [length] in *. lia.
Qed.
(** sample i of n from -h to h *)
Definition sample (h : R) (n i : Z) : R := if (n =? 1)%Z then - h else - h + IZR i * (2 * h / IZR (n - 1)).
Definition half_width (c : cam) (d : nat) : R := IZR (nth d (get_imgsz c) 0%Z) / (2 * f_ c d).

Lemma nondecreasing_samples (g : R -> R) h n v : (0 <= n)%Z -> linspace (- h) h n = Ok v ->
  (nondecreasing (map g v) = true <-> forall i, (0 <= i < n - 1)%Z -> g (sample h n i) <= g (sample h n (i + 1))).
Proof.
  intros N E. rewrite linspace_ok in E by exact N. injection E as <-. rewrite map_map. rewrite nondecreasing_spec, map_length. unfold Zrange at 1. rewrite map_length, seq_length.
  assert (NT : forall i, (i < Z.to_nat n)%nat -> nth i (map (fun x : Z => g (if (n =? 1)%Z then - h else - h + IZR x * ((h - - h) / IZR (n - 1)))) (Zrange n)) 0 = g (sample h n (Z.of_nat i))).
  { intros i Hi. unfold Zrange. rewrite map_map. rewrite (nth_indep _ 0 ((fun x : nat => g (if (n =? 1)%Z then - h else - h + IZR (Z.of_nat x) * ((h - - h) / IZR (n - 1)))) 0%nat)) by (rewrite map_length, seq_length; exact Hi).
    rewrite (map_nth (fun x : nat => g (if (n =? 1)%Z then - h else - h + IZR (Z.of_nat x) * ((h - - h) / IZR (n - 1))))), seq_nth by exact Hi. unfold sample. replace (2 * h) with (h - - h) by ring. reflexivity. }
  split.
  - intros H i Hi. specialize (H (Z.to_nat i) ltac:(lia)). rewrite !NT in H by lia. rewrite Nat2Z.inj_succ, Z2Nat.id in H by lia. exact H.
  - intros H i Hi. rewrite !NT by lia. specialize (H (Z.of_nat i) ltac:(lia)). rewrite Nat2Z.inj_succ. exact H.
Qed.

(** reversible() tells whether, on the horizontal and vertical axis of the image, the distorted coordinates of consecutive samples (as many as pixels) do not decrease. *)
Theorem reversible_iff : forall c nx ny, get_imgsz c = [nx; ny] -> (0 <= nx)%Z -> (0 <= ny)%Z ->
  exists b, reversible c = Ok b /\ (b = true <->
    (forall i, (0 <= i < nx - 1)%Z -> fst (distort c (sample (half_width c 0) nx i, 0)) <= fst (distort c (sample (half_width c 0) nx (i + 1), 0))) /\
    (forall i, (0 <= i < ny - 1)%Z -> snd (distort c (0, sample (half_width c 1) ny i)) <= snd (distort c (0, sample (half_width c 1) ny (i + 1))))).
Proof.
  intros c nx ny Hi Hx Hy. unfold reversible, half_width. rewrite Hi. cbn [nth].
  destruct (linspace (- (IZR nx / (2 * f_ c 0))) (IZR nx / (2 * f_ c 0)) nx) as [xs|] eqn:Ex; [|rewrite linspace_ok in Ex by exact Hx; discriminate].
  destruct (linspace (- (IZR ny / (2 * f_ c 1))) (IZR ny / (2 * f_ c 1)) ny) as [ys|] eqn:Ey; [|rewrite linspace_ok in Ey by exact Hy; discriminate].
  cbn [bind]. eexists. split; [reflexivity|]. rewrite andb_true_iff. rewrite (nondecreasing_samples (fun x => fst (distort c (x, 0))) _ _ _ Hx Ex), (nondecreasing_samples (fun y => snd (distort c (0, y))) _ _ _ Hy Ey). tauto.
Qed.
Print Assumptions reversible_iff.

(** ** False: distortion is not invertible *)
Lemma path_root (g : R -> R) A u v a b : (forall x, - A <= x <= A -> continuity_pt g x) -> - A <= u -> u < v -> v <= A -> - A <= a -> a < b -> b <= A -> g u < g v -> g b < g a ->
  exists x y, - A <= x <= A /\ - A <= y <= A /\ x <> y /\ g x = g y.
Proof.
  intros C U1 UV V1 A1 AB B1 G1 G2. set (p := fun s => (1 - s) * u + s * a). set (q := fun s => (1 - s) * v + s * b). set (h := fun s => g (p s) - g (q s)).
  assert (RP : forall s, 0 <= s <= 1 -> - A <= p s <= A /\ - A <= q s <= A /\ p s < q s).
  { intros s S. unfold p, q. assert (CV : forall m n, - A <= m <= A -> - A <= n <= A -> - A <= (1 - s) * m + s * n <= A).
    { intros m n M N. pose proof (Rmult_le_pos (1 - s) (m + A) ltac:(lra) ltac:(lra)). pose proof (Rmult_le_pos s (n + A) ltac:(lra) ltac:(lra)). pose proof (Rmult_le_pos (1 - s) (A - m) ltac:(lra) ltac:(lra)). pose proof (Rmult_le_pos s (A - n) ltac:(lra) ltac:(lra)). lra. }
    split; [apply CV; lra|]. split; [apply CV; lra|]. pose proof (Rmult_le_pos (1 - s) (v - u) ltac:(lra) ltac:(lra)). pose proof (Rmult_le_pos s (b - a) ltac:(lra) ltac:(lra)).
    destruct (Rlt_le_dec 0 s) as [P|P]; [pose proof (Rmult_lt_0_compat s (b - a) P ltac:(lra)); lra|]. assert (s = 0) by lra. subst s. lra. }
  assert (CH : forall s, 0 <= s <= 1 -> continuity_pt h s).
  { intros s S. destruct (RP s S) as (R1 & R2 & _). apply continuity_pt_minus.
    - apply (continuity_pt_comp p g); [unfold p; reg|apply C, R1].
    - apply (continuity_pt_comp q g); [unfold q; reg|apply C, R2]. }
  destruct (IVT_interv h 0 1 CH ltac:(lra)) as (s & S & E).
  - unfold h, p, q. replace ((1 - 0) * u + 0 * a) with u by ring. replace ((1 - 0) * v + 0 * b) with v by ring. lra.
  - unfold h, p, q. replace ((1 - 1) * u + 1 * a) with a by ring. replace ((1 - 1) * v + 1 * b) with b by ring. lra.
  - destruct (RP s S) as (R1 & R2 & R3). exists (p s), (q s). split; [exact R1|]. split; [exact R2|]. split; [lra|]. unfold h in E. lra.
Qed.

Lemma axis_g_continuous c x : den c (x * x) <> 0 -> continuity_pt (axis_g c) x.
Proof.
  intros D. unfold axis_g. apply continuity_pt_mult; [reg|]. apply (continuity_pt_div (fun x => num c (x * x)) (fun x => den c (x * x))); [unfold num; reg|unfold den; reg|exact D].
Qed.
(** close to the center of the image, the distortion increases *)
Lemma axis_g_increases c A : 0 < A -> exists t, 0 < t <= A /\ 0 < axis_g c t.
Proof.
  intros PA. set (phi := fun x => num c (x * x) / den c (x * x)). assert (P0 : phi 0 = 1) by (unfold phi, num, den; field).
  assert (C : continuity_pt phi 0) by (unfold phi; apply (continuity_pt_div (fun x => num c (x * x)) (fun x => den c (x * x))); [unfold num; reg|unfold den; reg|unfold den; rewrite !Rmult_0_l; cbn; lra]).
  destruct (C (/ 2) ltac:(lra)) as (d & D1 & D2). set (t := Rmin (d / 2) A). assert (T : 0 < t <= A /\ t < d) by (unfold t; pose proof (Rmin_l (d / 2) A); pose proof (Rmin_r (d / 2) A); pose proof (Rmin_glb_lt (d / 2) A 0 ltac:(lra) PA); lra).
  exists t. split; [lra|]. specialize (D2 t). cbn [dist R_met] in D2. unfold R_dist in D2. rewrite P0, Rminus_0_r in D2.
  assert (Q : Rabs (phi t - 1) < / 2) by (apply D2; split; [split; [exact I|lra]|rewrite Rabs_right by lra; lra]). apply Rabs_def2 in Q. unfold axis_g. fold (phi t). apply Rmult_lt_0_compat; lra.
Qed.
Lemma samples_in h n i : 0 < h -> (0 <= i < n - 1)%Z -> - h <= sample h n i /\ sample h n i < sample h n (i + 1) /\ sample h n (i + 1) <= h.
Proof.
  intros H I. unfold sample. replace (n =? 1)%Z with false by lia. rewrite plus_IZR. destruct I as [I1 I2]. assert (I3 : (i + 1 <= n - 1)%Z) by lia. apply IZR_le in I1, I3. rewrite plus_IZR in I3. set (m := IZR (n - 1)) in *. assert (M : 0 < m) by lra.
  set (w := 2 * h / m). assert (W : 0 < w) by (unfold w; apply Rdiv_lt_0_compat; lra). assert (WM : m * w = 2 * h) by (unfold w; field; lra).
  pose proof (Rmult_le_pos (IZR i) w I1 (Rlt_le _ _ W)). pose proof (Rmult_le_pos (m - (IZR i + 1)) w ltac:(lra) (Rlt_le _ _ W)). lra.
Qed.

(** If reversible() is False and there is no tangential distortion, the distortion is indeed not invertible: two different points on an axis of the image have the same distorted coordinates (if the denominator of the radial distortion does not vanish there). *)
Theorem reversible_false : forall c nx ny, get_imgsz c = [nx; ny] -> (0 <= nx)%Z -> (0 <= ny)%Z -> 0 < f_ c 0 -> 0 < f_ c 1 -> radial_only c ->
  (forall d x, (d < 2)%nat -> - half_width c d <= x <= half_width c d -> den c (x * x) <> 0) -> reversible c = Ok false ->
  exists a b : vec2, a <> b /\ distort c a = distort c b /\ forall p, p = a \/ p = b -> Rabs (fst p) <= half_width c 0 /\ Rabs (snd p) <= half_width c 1.
Proof.
  intros c nx ny Hi Hx Hy F0 F1 RO DN E. destruct (reversible_iff c nx ny Hi Hx Hy) as (b & E' & Sb). rewrite E in E'. injection E' as <-.
  assert (HP : forall d, (d < 2)%nat -> 0 <= half_width c d).
  { intros d Hd. unfold half_width. rewrite Hi. assert (D : d = 0%nat \/ d = 1%nat) by lia. apply IZR_le in Hx, Hy. destruct D as [-> | ->]; cbn [nth]; apply Rmult_le_pos; try assumption; apply Rlt_le, Rinv_0_lt_compat; lra. }
  assert (AX : forall d n, (d < 2)%nat -> nth d (get_imgsz c) 0%Z = n -> (exists i, (0 <= i < n - 1)%Z /\ axis_g c (sample (half_width c d) n (i + 1)) < axis_g c (sample (half_width c d) n i)) ->
    exists x y, - half_width c d <= x <= half_width c d /\ - half_width c d <= y <= half_width c d /\ x <> y /\ axis_g c x = axis_g c y).
  { intros d n Hd En (i & Ii & G). assert (HW : 0 < half_width c d).
    { unfold half_width. rewrite En. apply Rdiv_lt_0_compat; [apply IZR_lt; lia|]. assert (D : d = 0%nat \/ d = 1%nat) by lia. destruct D as [-> | ->]; lra. }
    destruct (samples_in _ _ _ HW Ii) as (S1 & S2 & S3). destruct (axis_g_increases c _ HW) as (t & T1 & T2).
    apply (path_root (axis_g c) (half_width c d) 0 t (sample (half_width c d) n i) (sample (half_width c d) n (i + 1))); try lra.
    - intros x X. apply axis_g_continuous, (DN d); assumption.
    - replace (axis_g c 0) with 0 by (unfold axis_g; ring). exact T2. }
  pose proof (HP 0%nat ltac:(lia)) as H0. pose proof (HP 1%nat ltac:(lia)) as H1.
  destruct (Classical_Prop.classic (exists i, (0 <= i < nx - 1)%Z /\ axis_g c (sample (half_width c 0) nx (i + 1)) < axis_g c (sample (half_width c 0) nx i))) as [EX|NX].
  - destruct (AX 0%nat nx ltac:(lia) ltac:(rewrite Hi; reflexivity) EX) as (x & y & X & Y & N & G). exists (x, 0), (y, 0). split; [congruence|]. split; [rewrite !distort_row by exact RO; congruence|].
    intros p [-> | ->]; cbn [fst snd]; rewrite Rabs_R0; (split; [|exact H1]); apply Rabs_le; lra.
  - destruct (Classical_Prop.classic (exists i, (0 <= i < ny - 1)%Z /\ axis_g c (sample (half_width c 1) ny (i + 1)) < axis_g c (sample (half_width c 1) ny i))) as [EY|NY].
    + destruct (AX 1%nat ny ltac:(lia) ltac:(rewrite Hi; reflexivity) EY) as (x & y & X & Y & N & G). exists (0, x), (0, y). split; [congruence|]. split; [rewrite !distort_col by exact RO; congruence|].
      intros p [-> | ->]; cbn [fst snd]; rewrite Rabs_R0; (split; [exact H0|]); apply Rabs_le; lra.
    + exfalso. enough (false = true) by discriminate. apply Sb. split; intros i Ii; [rewrite !distort_row by exact RO|rewrite !distort_col by exact RO]; cbn [fst snd]; apply Rnot_lt_le; intros Q; [apply NX|apply NY]; exists i; auto.
Qed.
Print Assumptions reversible_false.

(** ** True *)
Theorem reversible_nonnegative : forall c nx ny, get_imgsz c = [nx; ny] -> (0 <= nx)%Z -> (0 <= ny)%Z -> 0 < f_ c 0 -> 0 < f_ c 1 -> radial_only c ->
  0 <= kk c 0 -> 0 <= kk c 1 -> 0 <= kk c 2 -> kk c 3 = 0 -> kk c 4 = 0 -> kk c 5 = 0 -> reversible c = Ok true.
Proof.
  intros c nx ny Hi Hx Hy F0 F1 RO K0 K1 K2 K3 K4 K5. destruct (reversible_iff c nx ny Hi Hx Hy) as (b & E & Sb). rewrite E. f_equal. apply Sb.
  assert (G : forall x, axis_g c x = x + kk c 0 * x ^ 3 + kk c 1 * x ^ 5 + kk c 2 * x ^ 7) by (intros x; unfold axis_g, num, den; rewrite K3, K4, K5; field).
  assert (odd : forall n x y, x <= y -> x ^ (2 * n + 1) <= y ^ (2 * n + 1)).
  { intros n x y XY. destruct (Rle_dec 0 x) as [P|P]; [apply pow_incr; lra|]. assert (EV : forall z, z ^ (2 * n + 1) = z * (z ^ 2) ^ n) by (intros z; rewrite pow_add, pow_mult; ring). destruct (Rle_dec 0 y) as [Q|Q].
    - rewrite !EV. apply Rle_trans with 0; [|apply Rmult_le_pos; [exact Q|apply pow_le; nra]]. enough (0 <= (- x) * (x ^ 2) ^ n) by lra. apply Rmult_le_pos; [lra|apply pow_le; nra].
    - assert (M : (- y) ^ (2 * n + 1) <= (- x) ^ (2 * n + 1)) by (apply pow_incr; lra). rewrite !EV in *. replace ((- x) ^ 2) with (x ^ 2) in M by ring. replace ((- y) ^ 2) with (y ^ 2) in M by ring. lra. }
  assert (MON : forall x y, x <= y -> axis_g c x <= axis_g c y).
  { intros x y XY. rewrite !G. pose proof (odd 1%nat x y XY) as O1. pose proof (odd 2%nat x y XY) as O2. pose proof (odd 3%nat x y XY) as O3. cbn [Nat.mul Nat.add] in O1, O2, O3.
    pose proof (Rmult_le_compat_l _ _ _ K0 O1). pose proof (Rmult_le_compat_l _ _ _ K1 O2). pose proof (Rmult_le_compat_l _ _ _ K2 O3). lra. }
  assert (SM : forall h n i, 0 <= h -> (0 <= i < n - 1)%Z -> sample h n i <= sample h n (i + 1)).
  { intros h n i H I. destruct (Req_dec h 0) as [->|N]; [unfold sample; destruct (n =? 1)%Z; unfold Rdiv; rewrite ?Rmult_0_r, ?Rmult_0_l, ?Rmult_0_r; lra|]. destruct (samples_in h n i ltac:(lra) I); lra. }
  assert (HP : forall d, (d < 2)%nat -> 0 <= half_width c d).
  { intros d Hd. unfold half_width. rewrite Hi. assert (D : d = 0%nat \/ d = 1%nat) by lia. apply IZR_le in Hx, Hy. destruct D as [-> | ->]; cbn [nth]; apply Rmult_le_pos; try assumption; apply Rlt_le, Rinv_0_lt_compat; lra. }
  split; intros i Ii; [rewrite !distort_row by exact RO|rewrite !distort_col by exact RO]; cbn [fst snd]; apply MON, SM; auto.
Qed.
Print Assumptions reversible_nonnegative.

(** Finding: only the two axes are tested, and only at as many samples as pixels, so that True does not mean that the distortion of the image can be inverted.  For every size n, a square image with k1 = -2/7 (f = n/2) is found reversible, but its corner and a point halfway to it have the same distorted coordinates. *)
Definition corner_vec (n : Z) : list R := [0; 0; 0; 0; 0; 0; IZR n; IZR n; IZR n / 2; IZR n / 2; 0; 0; - (2 / 7); 0; 0; 0; 0; 0; 0; 0].
Theorem reversible_corner_refuted : forall n, (1 <= n)%Z -> let c := mkcam (corner_vec n) (corner_vec n) None None in
  get_imgsz c = [n; n] /\ half_width c 0 = 1 /\ half_width c 1 = 1 /\ radial_only c /\ (forall r2, den c r2 <> 0) /\ reversible c = Ok true /\ distort c (1, 1) = distort c (1 / 2, 1 / 2).
Proof.
  intros n N c. assert (Gi : get_imgsz c = [n; n]) by (unfold get_imgsz; cbn [c vec corner_vec slice skipn firstn map]; rewrite !CameraStateProofs.Rtrunc_IZR; reflexivity).
  assert (PN : 0 < IZR n) by (apply IZR_lt; lia).
  assert (H : half_width c 0 = 1 /\ half_width c 1 = 1) by (unfold half_width; rewrite Gi; unfold f_, c, get_f, slice; cbn [nth vec corner_vec skipn firstn]; split; field; lra). destruct H as [H0 H1].
  assert (RO : radial_only c) by (split; [reflexivity|split; reflexivity]).
  assert (K : kk c 0 = - (2 / 7) /\ kk c 1 = 0 /\ kk c 2 = 0 /\ kk c 3 = 0 /\ kk c 4 = 0 /\ kk c 5 = 0) by (repeat split; reflexivity). destruct K as (K0 & K1 & K2 & K3 & K4 & K5).
  split; [exact Gi|]. split; [exact H0|]. split; [exact H1|]. split; [exact RO|]. split; [intros r2; unfold den; rewrite K3, K4, K5; lra|].
  assert (G : forall x, axis_g c x = x - 2 / 7 * x ^ 3) by (intros x; unfold axis_g, num, den; rewrite K0, K1, K2, K3, K4, K5; field).
  assert (MON : forall x y, -1 <= x -> x <= y -> y <= 1 -> axis_g c x <= axis_g c y).
  { intros x y X XY Y. rewrite !G. assert (E : y - 2 / 7 * y ^ 3 - (x - 2 / 7 * x ^ 3) = (y - x) * (1 - 2 / 7 * (x * x + x * y + y * y))) by ring.
    assert (B : x * x + x * y + y * y <= 3) by nra. assert (P : 0 <= (y - x) * (1 - 2 / 7 * (x * x + x * y + y * y))) by (apply Rmult_le_pos; lra). lra. }
  split.
  - destruct (reversible_iff c n n Gi ltac:(lia) ltac:(lia)) as (b & E & Sb). rewrite E. f_equal. apply Sb. rewrite H0, H1.
    split; intros i Ii; [rewrite !distort_row by exact RO|rewrite !distort_col by exact RO]; cbn [fst snd]; destruct (samples_in 1 n i Rlt_0_1 Ii) as (S1 & S2 & S3); apply MON; lra.
  - rewrite !distort_eq by reflexivity. cbv zeta. unfold tangential_distortion, num, den. rewrite K0, K1, K2, K3, K4, K5. destruct RO as (_ & -> & ->). cbn [fst snd]. f_equal; field.
Qed.
Print Assumptions reversible_corner_refuted.
(** a camera with strong negative k1 for which it is False *)
Example reversible_false_ex : exists c, get_imgsz c = [3; 3]%Z /\ radial_only c /\ (forall r2, den c r2 <> 0) /\ 0 < f_ c 0 /\ 0 < f_ c 1 /\ reversible c = Ok false.
Proof.
  set (v := [0; 0; 0; 0; 0; 0; 3; 3; 3 / 2; 3 / 2; 0; 0; -2; 0; 0; 0; 0; 0; 0; 0]). set (c := mkcam v v None None). exists c.
  assert (Gi : get_imgsz c = [3; 3]%Z) by (unfold get_imgsz; cbn [c vec v slice skipn firstn map]; rewrite !CameraStateProofs.Rtrunc_IZR; reflexivity).
  assert (RO : radial_only c) by (split; [reflexivity|split; reflexivity]). split; [exact Gi|]. split; [exact RO|].
  split; [intros r2; unfold den; change (kk c 3) with 0; change (kk c 4) with 0; change (kk c 5) with 0; lra|]. split; [unfold f_; cbn; lra|]. split; [unfold f_; cbn; lra|].
  destruct (reversible_iff c 3 3 Gi ltac:(lia) ltac:(lia)) as (b & E & Sb). rewrite E. f_equal. destruct b; [|reflexivity]. exfalso. destruct (proj1 Sb eq_refl) as [A _]. specialize (A 0%Z ltac:(lia)). rewrite !distort_row in A by exact RO. cbn [fst] in A.
  assert (HW : half_width c 0 = 1) by (unfold half_width; rewrite Gi; unfold f_, c, get_f, slice; cbn [nth vec v skipn firstn]; field). rewrite HW in A.
  assert (G : forall x, axis_g c x = x - 2 * x ^ 3) by (intros x; unfold axis_g, num, den; change (kk c 0) with (-2); change (kk c 1) with 0; change (kk c 2) with 0; change (kk c 3) with 0; change (kk c 4) with 0; change (kk c 5) with 0; field).
  rewrite !G in A. unfold sample in A. change (3 =? 1)%Z with false in A. cbv iota in A. change (3 - 1)%Z with 2%Z in A. change (0 + 1)%Z with 1%Z in A. lra.
Qed.

(** ** Undistortion by regula falsi (C91) *)
(** The solution, once found, is kept: if the iteration reaches a point whose distorted coordinates are exactly the given ones, this is the result of every larger number of iterations. *)
Lemma rf_solution_kept c xy s n : rf_y2 s = (0, 0) -> rf_run c xy n s = rf_x2 s \/ distort c (rf_x2 s) <> (fst xy + fst (rf_y2 s), snd xy + snd (rf_y2 s)).
Proof.
  intros Y. destruct (Classical_Prop.classic (distort c (rf_x2 s) = (fst xy + fst (rf_y2 s), snd xy + snd (rf_y2 s)))) as [D|]; [left|right; assumption]. revert s Y D.
  induction n as [|n IH]; intros s Y D; [reflexivity|]. cbn [rf_run]. destruct (rf_finished s) eqn:F; [reflexivity|]. destruct s as [[x1 x1'] [y1 y1'] [x2 x2'] [y2 y2']]. cbn [rf_y2 rf_x2] in *. injection Y as -> ->.
  unfold rf_finished in F. cbn [rf_y2 rf_y1 vsub fst snd] in F. apply negb_false_iff, andb_true_iff in F as [F1 F2]. unfold nonzero in F1, F2. apply negb_true_iff in F1, F2. apply Reqb_false in F1, F2.
  assert (E : forall a b d, 0 - b <> 0 -> rf_coord a b d 0 = d) by (intros a b d H; unfold rf_coord; field; lra).
  unfold rf_step. rewrite !E by assumption. rewrite D. cbn [fst snd]. unfold vsub. cbn [fst snd].
  rewrite IH; cbn [rf_y2 rf_x2]; [reflexivity|f_equal; ring|rewrite D; cbn [fst snd]; f_equal; ring].
Qed.
Fixpoint rf_iterate (c : cam) (xy : vec2) (n : nat) (s : rf_state) : rf_state := match n with O => s | S n => rf_iterate c xy n (rf_step c xy s) end.
Definition rf_start (c : cam) (xy : vec2) : rf_state := let x2 := (fst xy / 2, snd xy / 2) in mkrf (0, 0) (- fst xy, - snd xy) x2 (vsub (distort c x2) xy).

Lemma rf_result : forall c xy n, exists k, (k <= n)%nat /\
  undistort_regulafalsi c n xy = rf_x2 (rf_iterate c xy k (rf_start c xy)) /\ (forall j, (j < k)%nat -> rf_finished (rf_iterate c xy j (rf_start c xy)) = false) /\ (k = n \/ rf_finished (rf_iterate c xy k (rf_start c xy)) = true).
Proof.
  intros c xy n. unfold undistort_regulafalsi. fold (rf_start c xy). generalize (rf_start c xy). induction n as [|n IH]; intros s.
  - exists 0%nat. split; [lia|]. split; [reflexivity|]. split; [intros; lia|left; reflexivity].
  - cbn [rf_run]. destruct (rf_finished s) eqn:F.
    + exists 0%nat. split; [lia|]. split; [reflexivity|]. split; [intros; lia|right; exact F].
    + destruct (IH (rf_step c xy s)) as (k & K1 & K2 & K3 & K4). exists (S k). split; [lia|]. split; [exact K2|]. split; [|destruct K4 as [->|K4]; [left; reflexivity|right; exact K4]]. intros [|j] J; [exact F|]. cbn [rf_iterate]. apply K3. lia.
Qed.

Lemma rf_residual c xy k : rf_y2 (rf_iterate c xy k (rf_start c xy)) = vsub (distort c (rf_x2 (rf_iterate c xy k (rf_start c xy)))) xy.
Proof.
  assert (G : forall s, rf_y2 s = vsub (distort c (rf_x2 s)) xy -> rf_y2 (rf_iterate c xy k s) = vsub (distort c (rf_x2 (rf_iterate c xy k s))) xy).
  { induction k as [|k IH]; intros s H; [exact H|]. cbn [rf_iterate]. apply IH. destruct s as [[x1 x1'] [y1 y1'] [x2 x2'] [y2 y2']]. reflexivity. }
  apply G. reflexivity.
Qed.
Lemma rf_kept : forall c xy k n, (forall j, (j < k)%nat -> rf_finished (rf_iterate c xy j (rf_start c xy)) = false) ->
  distort c (rf_x2 (rf_iterate c xy k (rf_start c xy))) = xy -> (k <= n)%nat -> undistort_regulafalsi c n xy = rf_x2 (rf_iterate c xy k (rf_start c xy)).
Proof.
  intros c xy k n NF D KN. assert (Y : rf_y2 (rf_iterate c xy k (rf_start c xy)) = (0, 0)) by (rewrite rf_residual, D; unfold vsub; f_equal; ring).
  unfold undistort_regulafalsi. fold (rf_start c xy). revert NF D Y. generalize (rf_start c xy). revert n KN. induction k as [|k IH]; intros n KN s NF D Y.
  - destruct (rf_solution_kept c xy s n Y) as [E|E]; [exact E|]. exfalso. apply E. cbn [rf_iterate] in *. rewrite Y, D. cbn [fst snd]. rewrite !Rplus_0_r. destruct xy; reflexivity.
  - destruct n as [|n]; [lia|]. cbn [rf_run]. pose proof (NF 0%nat ltac:(lia)) as NF0. cbn [rf_iterate] in NF0. rewrite NF0. cbn [rf_iterate] in *. apply IH; [lia| |exact D|exact Y]. intros j J. apply (NF (S j)). lia.
Qed.

(** Specification, apart from the model: the secant method on the residual (distorted coordinates minus the given ones), coordinate by coordinate: it starts with the image center and half of the given point, and the next point is where the line through the last two values crosses zero. *)
Definition residual (c : cam) (xy p : vec2) : vec2 := (fst (distort c p) - fst xy, snd (distort c p) - snd xy).
Definition line_root (a fa b fb : R) : R := a - fa * (b - a) / (fb - fa).
Definition secant_points (c : cam) (xy : vec2) (p : nat -> vec2) : Prop :=
  p 0%nat = (0, 0) /\ p 1%nat = (fst xy / 2, snd xy / 2) /\
  forall k, p (S (S k)) = (line_root (fst (p k)) (fst (residual c xy (p k))) (fst (p (S k))) (fst (residual c xy (p (S k)))),
                           line_root (snd (p k)) (snd (residual c xy (p k))) (snd (p (S k))) (snd (residual c xy (p (S k))))).
(** the last two residuals agree in a coordinate *)
Definition stalled (c : cam) (xy : vec2) (p : nat -> vec2) (k : nat) : Prop :=
  fst (residual c xy (p (S k))) = fst (residual c xy (p k)) \/ snd (residual c xy (p (S k))) = snd (residual c xy (p k)).
(** the points exist (and are determined by the camera and the point) *)
Lemma secant_points_exist : forall c xy, exists p, secant_points c xy p.
Proof.
  intros c xy. set (next := fun ab : vec2 * vec2 => let '(a, b) := ab in (b, (line_root (fst a) (fst (residual c xy a)) (fst b) (fst (residual c xy b)), line_root (snd a) (snd (residual c xy a)) (snd b) (snd (residual c xy b))))).
  exists (fun k => fst (Nat.iter k next ((0, 0), (fst xy / 2, snd xy / 2)))). split; [reflexivity|]. split; [reflexivity|]. intros k. cbn [Nat.iter nat_rect]. unfold Nat.iter. cbn [nat_rect]. destruct (nat_rect _ _ _ k) as [a b]. reflexivity.
Qed.
Lemma distort_origin c : distort c (0, 0) = (0, 0).
Proof. unfold distort, tangential_distortion. destruct (anynz (get_k c)), (anynz (get_p c)); cbn [negb andb]; try reflexivity; cbv zeta; f_equal; ring. Qed.
Lemma rf_states c xy p : secant_points c xy p -> forall k, (forall j, (j < k)%nat -> rf_finished (rf_iterate c xy j (rf_start c xy)) = false) ->
  rf_iterate c xy k (rf_start c xy) = mkrf (p k) (residual c xy (p k)) (p (S k)) (residual c xy (p (S k))).
Proof.
  intros (P0 & P1 & PS). assert (SH : forall k s, rf_iterate c xy (S k) s = rf_step c xy (rf_iterate c xy k s)) by (induction k as [|k IH]; intros s; [reflexivity|exact (IH (rf_step c xy s))]).
  induction k as [|k IH]; intros NF.
  - cbn [rf_iterate]. unfold rf_start, vsub. cbv zeta. rewrite P0, P1. unfold residual. rewrite distort_origin. cbn [fst snd]. f_equal. f_equal; ring.
  - rewrite SH. assert (E := IH (fun j J => NF j ltac:(lia))). pose proof (NF k ltac:(lia)) as F. rewrite E in F |- *. rewrite (PS k). unfold rf_finished in F. cbn [rf_y2 rf_y1] in F. unfold vsub in F. cbn [fst snd] in F.
    apply negb_false_iff, andb_true_iff in F as [F1 F2]. unfold nonzero in F1, F2. apply negb_true_iff in F1, F2. apply Reqb_false in F1, F2.
    destruct (p k) as [a a'], (p (S k)) as [b b']. destruct (residual c xy (a, a')) as [r r'] eqn:ER, (residual c xy (b, b')) as [t t'] eqn:ET. cbn [fst snd] in *. unfold rf_step.
    assert (LR : forall x y u v, v - y <> 0 -> rf_coord x y u v = line_root x y u v) by (intros x y u v H; unfold rf_coord, line_root; field; exact H).
    rewrite !LR by assumption. reflexivity.
Qed.
Lemma stalled_finished c xy p : secant_points c xy p -> forall k, (forall j, (j < k)%nat -> rf_finished (rf_iterate c xy j (rf_start c xy)) = false) ->
  (rf_finished (rf_iterate c xy k (rf_start c xy)) = true <-> stalled c xy p k).
Proof.
  intros SP k NF. rewrite (rf_states c xy p SP k NF). unfold rf_finished, stalled. cbn [rf_y1 rf_y2]. unfold vsub. cbn [fst snd]. rewrite negb_true_iff, andb_false_iff, !nonzero_false. split; (intros [H|H]; [left|right]; lra).
Qed.
Lemma not_stalled_finished c xy p k : secant_points c xy p -> (forall j, (j < k)%nat -> ~ stalled c xy p j) -> forall j, (j < k)%nat -> rf_finished (rf_iterate c xy j (rf_start c xy)) = false.
Proof.
  intros SP NS. induction j as [j IH] using lt_wf_ind. intros J. apply not_true_iff_false. intros T. apply (NS j J). apply (stalled_finished c xy p SP j); [|exact T]. intros i Hi. apply IH; lia.
Qed.
(** The result is the point after the first k steps, where k is the number of iterations or the first step at which the last two residuals agree in a coordinate. *)
Theorem regulafalsi_result : forall c xy n p, secant_points c xy p -> exists k, (k <= n)%nat /\
  undistort_regulafalsi c n xy = p (S k) /\ (forall j, (j < k)%nat -> ~ stalled c xy p j) /\ (k = n \/ stalled c xy p k).
Proof.
  intros c xy n p SP. destruct (rf_result c xy n) as (k & K1 & K2 & K3 & K4). exists k. split; [exact K1|].
  assert (NS : forall j, (j < k)%nat -> forall i, (i < j)%nat -> rf_finished (rf_iterate c xy i (rf_start c xy)) = false) by (intros j J i I; apply K3; lia).
  split; [rewrite K2, (rf_states c xy p SP k K3); reflexivity|]. split.
  - intros j J T. apply (stalled_finished c xy p SP j (NS j J)) in T. rewrite (K3 j J) in T. discriminate T.
  - destruct K4 as [K4|K4]; [left; exact K4|right]. apply (stalled_finished c xy p SP k K3). exact K4.
Qed.
Print Assumptions regulafalsi_result.

(** Once a point solves the equation exactly, it is the result of every larger number of iterations. *)
Theorem regulafalsi_solution_kept : forall c xy p k n, secant_points c xy p -> (forall j, (j < k)%nat -> ~ stalled c xy p j) ->
  distort c (p (S k)) = xy -> (k <= n)%nat -> undistort_regulafalsi c n xy = p (S k).
Proof.
  intros c xy p k n SP NS D KN. pose proof (not_stalled_finished c xy p k SP NS) as NF. pose proof (rf_states c xy p SP k NF) as E.
  rewrite (rf_kept c xy k n NF); [rewrite E; reflexivity|rewrite E; exact D|exact KN].
Qed.
Print Assumptions regulafalsi_solution_kept.
(** with a pure k1 distortion and a point on the diagonal, the first step already moves away from half of the point *)
Example regulafalsi_step_ex : exists c xy p, secant_points c xy p /\ ~ stalled c xy p 0 /\ p 2%nat <> p 1%nat.
Proof.
  set (v := [0; 0; 0; 0; 0; 0; 4; 2; 1; 1; 0; 0; 1; 0; 0; 0; 0; 0; 0; 0]). set (c := mkcam v v None None). exists c, (1, 1). destruct (secant_points_exist c (1, 1)) as (p & SP). exists p. split; [exact SP|]. destruct SP as (P0 & P1 & PS).
  assert (D : distort c (1 / 2, 1 / 2) = (3 / 4, 3 / 4)) by (rewrite distort_eq by reflexivity; unfold tangential_distortion, num, den; change (kk c 0) with 1; change (kk c 1) with 0; change (kk c 2) with 0; change (kk c 3) with 0; change (kk c 4) with 0; change (kk c 5) with 0; change (pp c 0) with 0; change (pp c 1) with 0; cbn [fst snd]; f_equal; field).
  cbn [fst snd] in P1. split.
  - unfold stalled, residual. rewrite P0, P1, D, distort_origin. cbn [fst snd]. intros [H|H]; lra.
  - rewrite (PS 0%nat), P1, P0. unfold residual. rewrite D, distort_origin. cbn [fst snd]. unfold line_root. intros Q. injection Q as Q _. assert (E : 0 - (0 - 1) * (1 / 2 - 0) / (3 / 4 - 1 - (0 - 1)) = 2 / 3) by field. lra.
Qed.

(** Finding: points on an axis of the image are not undistorted: without tangential distortion the residual of the other coordinate is always zero, the iteration stops at once and returns half of the distorted coordinate. *)
Theorem regulafalsi_axis_refuted : forall c n a, radial_only c -> undistort_regulafalsi c n (a, 0) = (a / 2, 0) /\ undistort_regulafalsi c n (0, a) = (0, a / 2).
Proof.
  intros c n a RO. assert (Z : 0 / 2 = 0) by field. assert (NZ : forall x, x = 0 -> nonzero x = false) by (intros x; apply nonzero_false).
  split; unfold undistort_regulafalsi; cbn [fst snd]; rewrite Z; destruct n as [|n]; try reflexivity; cbn [rf_run]; unfold rf_finished; cbn [rf_y2 rf_y1].
  - rewrite distort_row by exact RO. cbn [vsub fst snd]. rewrite (NZ (0 - 0 - - 0)) by ring. rewrite andb_false_r. reflexivity.
  - rewrite distort_col by exact RO. cbn [vsub fst snd]. rewrite (NZ (0 - 0 - - 0)) by ring. reflexivity.
Qed.
Print Assumptions regulafalsi_axis_refuted.
Example regulafalsi_axis_ex : exists c, radial_only c /\ distort c (1 / 2, 0) <> (1, 0) /\ distort c (2, 0) = (1, 0).
Proof.
  set (v := [0; 0; 0; 0; 0; 0; 4; 2; 1; 1; 0; 0; - / 8; 0; 0; 0; 0; 0; 0; 0]). exists (mkcam v v None None). assert (RO : radial_only (mkcam v v None None)) by (split; [reflexivity|split; reflexivity]). split; [exact RO|]. rewrite !distort_row by exact RO.
  assert (G : forall x, axis_g (mkcam v v None None) x = x - / 8 * x ^ 3) by (intros x; unfold axis_g, num, den; change (kk (mkcam v v None None) 0) with (- / 8); change (kk (mkcam v v None None) 1) with 0; change (kk (mkcam v v None None) 2) with 0; change (kk (mkcam v v None None) 3) with 0; change (kk (mkcam v v None None) 4) with 0; change (kk (mkcam v v None None) 5) with 0; field).
  rewrite !G. split; [intros Q; injection Q as Q; lra|f_equal; field].
Qed.
