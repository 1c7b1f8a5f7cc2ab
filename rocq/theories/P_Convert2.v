(** Property C48, continued: the grid of a Converter, defaults, and non-vacuity. *)
From Verif Require Import Base BaseLemmas HelpersModel XReal CameraModel CameraSpec CameraStateProofs P_Camera2 ParamsModel ParamsSpec ParamsProofs ParamsProofs3 ConvertModel ConvertProofs ConvertProofs2 P_Convert.
Open Scope R_scope.

(** ** The default points *)
(** [nu] times [nv] points at the centers of equal cells that cover the image. *)
Definition cell_centers (W H : R) (nu nv : nat) : list vec2 :=
  flat_map (fun j => map (fun i => ((INR i + / 2) * (W / INR nu), (INR j + / 2) * (H / INR nv))) (seq 0 nu)) (seq 0 nv).
Lemma Rabs_le_two x a : Rabs x <= a -> - a <= x <= a.
Proof. unfold Rabs. destruct (Rcase_abs x); lra. Qed.
Lemma arange_cells W nu : 0 < W -> (0 < nu)%nat -> arange (/ 2 * (W / INR nu)) W (W / INR nu) = map (fun i => (INR i + / 2) * (W / INR nu)) (seq 0 nu).
Proof.
  intros HW Hn. assert (Pn : 0 < INR nu) by now apply lt_0_INR. assert (Pd : 0 < W / INR nu) by now apply Rdiv_lt_0_compat.
  unfold arange. replace (Z.to_nat (Rceil ((W - / 2 * (W / INR nu)) / (W / INR nu)))) with nu.
  - apply map_ext. intros i. ring.
  - rewrite (Rceil_imp (Z.of_nat nu)); [now rewrite Nat2Z.id|]. rewrite <- INR_IZR_INZ. replace ((W - / 2 * (W / INR nu)) / (W / INR nu)) with (INR nu - / 2) by (field; lra). lra.
Qed.

Theorem convert_grid W H n : (0 < W)%Z -> (0 < H)%Z -> (0 < n)%Z ->
  exists d nu nv, 0 < d /\ d ^ 2 = IZR W * IZR H / IZR n /\
  Rabs (IZR W / d - INR nu) <= / 2 /\ Rabs (IZR H / d - INR nv) <= / 2 /\
  (grid W H n = Err ValueError \/ grid W H n = Ok (cell_centers (IZR W) (IZR H) nu nv)) /\
  (grid W H n = Err ValueError <-> (nu = 0 \/ nv = 0)%nat).
Proof.
  intros HW HH Hn. assert (PW : 0 < IZR W) by now apply IZR_lt. assert (PH : 0 < IZR H) by now apply IZR_lt. assert (Pn : 0 < IZR n) by now apply IZR_lt.
  assert (P : 0 < IZR W * IZR H / IZR n) by (apply Rdiv_lt_0_compat; [now apply Rmult_lt_0_compat|assumption]).
  set (d := sqrt (IZR W * IZR H / IZR n)). assert (Pd : 0 < d) by now apply sqrt_lt_R0.
  assert (NN : forall x, 0 < x -> (0 <= Rround (x / d))%Z).
  { intros x Hx. apply le_IZR. pose proof (Rround_near (x / d)) as N. apply Rabs_le_two in N. assert (0 < x / d) by now apply Rdiv_lt_0_compat.
    assert (IZR (-1) < IZR (Rround (x / d))) by lra. apply lt_IZR in H1. apply IZR_le. lia. }
  exists d, (Z.to_nat (Rround (IZR W / d))), (Z.to_nat (Rround (IZR H / d))).
  assert (E : forall x, 0 < x -> INR (Z.to_nat (Rround (x / d))) = IZR (Rround (x / d))) by (intros x Hx; rewrite INR_IZR_INZ, Z2Nat.id; auto).
  split; [exact Pd|]. split; [unfold d; rewrite <- Rsqr_pow2; apply Rsqr_sqrt; lra|]. split; [rewrite E by assumption; apply Rround_near|]. split; [rewrite E by assumption; apply Rround_near|].
  unfold grid. fold d. pose proof (NN _ PW) as NW. pose proof (NN _ PH) as NH.
  destruct (Z.eqb_spec (Rround (IZR W / d)) 0) as [Z1|N1]; cbn [orb]; [split; [now left|]; split; [intros _; left; rewrite Z1; reflexivity|reflexivity]|].
  destruct (Z.eqb_spec (Rround (IZR H / d)) 0) as [Z2|N2]; cbn [orb]; [split; [now left|]; split; [intros _; right; rewrite Z2; reflexivity|reflexivity]|].
  assert (E1 : arange (/ 2 * (IZR W / IZR (Rround (IZR W / d)))) (IZR W) (IZR W / IZR (Rround (IZR W / d))) = map (fun i => (INR i + / 2) * (IZR W / INR (Z.to_nat (Rround (IZR W / d))))) (seq 0 (Z.to_nat (Rround (IZR W / d))))).
  { rewrite <- arange_cells by (try assumption; lia). now rewrite E. }
  assert (E2 : arange (/ 2 * (IZR H / IZR (Rround (IZR H / d)))) (IZR H) (IZR H / IZR (Rround (IZR H / d))) = map (fun i => (INR i + / 2) * (IZR H / INR (Z.to_nat (Rround (IZR H / d))))) (seq 0 (Z.to_nat (Rround (IZR H / d))))).
  { rewrite <- arange_cells by (try assumption; lia). now rewrite E. }
  rewrite E1, E2. split.
  - right. f_equal. unfold cell_centers. rewrite flat_map_concat_map, map_map, <- flat_map_concat_map. apply (f_equal (@Ok _)). apply flat_map_ext. intros j. rewrite map_map. reflexivity.
  - split; [discriminate|]. intros [A|A]; lia.
Qed.
Print Assumptions convert_grid.
(** Every cell center lies inside the image. *)
Theorem convert_grid_inside W H nu nv p : 0 < W -> 0 < H -> In p (cell_centers W H nu nv) -> 0 < fst p < W /\ 0 < snd p < H.
Proof.
  intros HW HH I. apply in_flat_map in I. destruct I as (j & Ij & I). apply in_map_iff in I. destruct I as (i & <- & Ii). apply in_seq in Ii, Ij. cbn [fst snd].
  assert (Q : forall k m x, (k < m)%nat -> 0 < x -> 0 < (INR k + / 2) * (x / INR m) < x).
  { intros k m x Hk Hx. assert (Pm : 0 < INR m) by (apply lt_0_INR; lia). pose proof (pos_INR k). assert (INR k + 1 <= INR m) by (rewrite <- S_INR; apply le_INR; lia).
    split; [apply Rmult_lt_0_compat; [lra|now apply Rdiv_lt_0_compat]|]. replace ((INR k + / 2) * (x / INR m)) with (x * ((INR k + / 2) / INR m)) by (field; lra).
    assert ((INR k + / 2) / INR m < 1). { apply Rmult_lt_reg_r with (INR m); [lra|]. unfold Rdiv. rewrite Rmult_assoc, Rinv_l by lra. lra. } nra. }
  split; apply Q; try assumption; lia.
Qed.
Print Assumptions convert_grid_inside.

(** Finding: long and narrow images make the default number of points an error. *)
Theorem convert_grid_refuted : grid 10000 1 1000 = Err ValueError.
Proof.
  unfold grid. assert (S : 3 < sqrt (10000 * 1 / 1000)).
  { rewrite <- (sqrt_square 3) by lra. apply sqrt_lt_1; lra. }
  rewrite (Rround_imp 0 (1 / sqrt (10000 * 1 / 1000))); [now rewrite orb_true_r|].
  rewrite Rminus_0_r, Rabs_right.
  - apply Rmult_lt_reg_r with (sqrt (10000 * 1 / 1000)); [lra|]. unfold Rdiv at 1. rewrite Rmult_1_l, Rinv_l by lra. lra.
  - apply Rle_ge. left. apply Rdiv_lt_0_compat; lra.
Qed.
Print Assumptions convert_grid_refuted.

(** A Converter refuses cameras of different image size; otherwise given points are used as they are. *)
Theorem converter_sizes c sz uv : sound c -> (sz <> wh c -> converter sz c uv = Err ValueError) /\
  (forall l, uv = UPoints l -> sz = wh c -> converter sz c uv = Ok l) /\ (forall n, uv = UGrid n -> sz = wh c -> converter sz c uv = grid (fst sz) (snd sz) n).
Proof.
  intros S. destruct (sound_vec _ S) as (X & Y & Z0 & ya & pi & ro & W & H & f0 & f1 & c0 & c1 & k1 & k2 & k3 & k4 & k5 & k6 & p1 & p2 & V).
  rewrite (ex_wh _ _ _ _ _ _ _ _ _ _ _ _ _ _ _ _ _ _ _ _ _ V). unfold converter. rewrite (ex_sz _ _ _ _ _ _ _ _ _ _ _ _ _ _ _ _ _ _ _ _ _ V). destruct sz as [a b]. cbn [fst snd]. split; [|split].
  - intros N. destruct (Z.eqb_spec a W) as [->|]; [|reflexivity]. destruct (Z.eqb_spec b H) as [->|]; [now exfalso; apply N|reflexivity].
  - intros l -> E. injection E as -> ->. now rewrite !Z.eqb_refl.
  - intros n -> E. injection E as -> ->. now rewrite !Z.eqb_refl.
Qed.
Print Assumptions converter_sizes.

(** Matlab's default principal point is the image center: a Matlab camera without one projects the optical axis there. *)
Theorem matlab_default_center sz fc alpha : ml_xy_to_uv (ml_new sz fc None None alpha) (0, 0) = (IZR (fst sz) / 2, IZR (snd sz) / 2).
Proof. unfold ml_xy_to_uv, ml_new, ci. cbn [ml_fc ml_cc ml_kc ml_alpha fst snd nth]. f_equal; field. Qed.
Print Assumptions matlab_default_center.
(** OpenCV: missing coefficients are zero, those past the twelfth have no effect. *)
Theorem opencv_coeffs m x sz xy : cv_xy_to_uv (cv_from_arrays m x sz) xy = cv_xy_to_uv (cv_from_arrays m (firstn 12 x ++ repeat 0 (12 - length x)) sz) xy.
Proof.
  f_equal. unfold cv_from_arrays. do 12 (destruct x as [|? x]; [reflexivity|]). reflexivity.
Qed.
Print Assumptions opencv_coeffs.

(** ** Non-vacuity *)
Example convert_example : let v := cam_of 1 2 3 4 5 6 4000 3000 3500 3501 10 (-20) 1 2 3 4 5 6 7 8 in let c := mkcam v v None None in
  sound c /\ f_ c 0 <> 0 /\ ~ (kk c 3 = 0 /\ kk c 4 = 0 /\ kk c 5 = 0) /\ keeps_length (fun _ x => x) /\ converter (wh c) c (UPoints [(1, 2)]) = Ok [(1, 2)] /\
  (forall k s, In (k, s) [(MLkc, SList [0; 4]%Z); (MLalpha, STrue)] -> good_sel matlab ml_key ml_get (ml_from_initial c) k s).
Proof.
  intros v c. assert (S : sound c) by (split; [reflexivity|split; [now exists 4000%Z|now exists 3000%Z]]). split; [exact S|]. unfold f_, kk, get_f, get_k, slice. cbn [vec c v cam_of skipn firstn nth].
  split; [lra|]. split; [lra|]. split; [intros f x; reflexivity|]. split; [now apply (converter_sizes c (wh c) (UPoints [(1, 2)]))|].
  intros k s [E|[E|[]]]; injection E as <- <-; unfold good_sel; cbn. all: try (repeat split; repeat constructor; cbn; try lia; intuition discriminate). 
Qed.
Example convert_grid_example : grid 4 4 16 = Ok (cell_centers 4 4 4 4).
Proof.
  destruct (convert_grid 4 4 16) as (d & nu & nv & Pd & Ed & A & B & O & I); try lia. assert (d = 1) by nra. subst d.
  assert (U : forall m, Rabs (4 / 1 - INR m) <= / 2 -> m = 4%nat).
  { intros m Hm. apply Rabs_le_two in Hm. assert (L1 : INR m < INR 5) by (change (INR 5) with (1 + 1 + 1 + 1 + 1); lra). assert (L2 : INR 3 < INR m) by (change (INR 3) with (1 + 1 + 1); lra). apply INR_lt in L1, L2. lia. }
  rewrite (U nu A), (U nv B) in *. destruct O as [O|O]; [|exact O]. apply I in O. destruct O; discriminate.
Qed.
Print Assumptions convert_grid_example.
