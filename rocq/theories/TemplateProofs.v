From Verif Require Import Base BaseLemmas HelpersModel GridModel TemplateModel TemplateSpec.
Open Scope R_scope.

(** ** tile_box *)
Lemma image_axis_dcell n : (0 < n)%Z -> dcell (0, IZR n, n) = 1.
Proof. intros H. unfold dcell. cbn [fst snd]. field. apply IZR_lt in H. lra. Qed.
Lemma snap_edge n x : (0 < n)%Z -> snap1 (0, IZR n, n) false true true x = IZR (Rfloor (x + / 2)).
Proof. intros H. unfold snap1. rewrite image_axis_dcell by assumption. cbn [fst snd andb negb]. replace ((x - 0) / 1 + / 2) with (x + / 2) by field. lra. Qed.
Lemma Rtrunc_nonneg_IZR n : (0 <= n)%Z -> Rtrunc (IZR n) = n.
Proof. intros H. unfold Rtrunc. unfold Rltb. destruct (Rlt_dec (IZR n) 0) as [C|_]; [apply IZR_le in H; lra|]. apply Rfloor_IZR. Qed.
Lemma inbounds_image n x : (0 < n)%Z -> inbounds1 (0, IZR n, n) x = true <-> 0 <= x <= IZR n.
Proof.
  intros H. apply IZR_lt in H. unfold inbounds1, amin, amax. cbn [fst snd]. rewrite Rmin_left, Rmax_right by lra.
  rewrite Bool.andb_true_iff. unfold Rleb. destruct (Rle_dec 0 x), (Rle_dec x (IZR n)); split; intros; try lra; try (destruct H0; discriminate); auto.
Qed.
Lemma Rfloor_half_shift x (w : Z) : Rfloor (x + IZR w * / 2 + / 2) = (Rfloor (x - IZR w * / 2 + / 2) + w)%Z.
Proof. rewrite <- Rfloor_plus_IZR. f_equal. lra. Qed.
Definition axis_fits (n w : Z) (x : R) : Prop := 0 <= x - IZR w / 2 /\ x + IZR w / 2 <= IZR n.
Lemma tile_box_eq nx ny uv w h : (0 < nx)%Z -> (0 < ny)%Z -> (0 <= w)%Z -> (0 <= h)%Z ->
  axis_fits nx w (fst uv) -> axis_fits ny h (snd uv) ->
  let l := Rfloor (fst uv - IZR w * / 2 + / 2) in let t := Rfloor (snd uv - IZR h * / 2 + / 2) in
  tile_box nx ny uv (w, h) = Ok (l, t, l + w, t + h)%Z /\ (0 <= l)%Z /\ (l + w <= nx)%Z /\ (0 <= t)%Z /\ (t + h <= ny)%Z.
Proof.
  intros Nx Ny W H [Fx Fx'] [Fy Fy'] l t. assert (W' := IZR_le _ _ W). assert (H' := IZR_le _ _ H).
  assert (L0 : (0 <= l)%Z) by (apply Rfloor_le; lra). assert (T0 : (0 <= t)%Z) by (apply Rfloor_le; lra).
  assert (L1 : (l + w <= nx)%Z).
  { unfold l. rewrite <- Rfloor_half_shift. apply Z.lt_succ_r. apply Rfloor_lt. rewrite succ_IZR. lra. }
  assert (T1 : (t + h <= ny)%Z).
  { unfold t. rewrite <- Rfloor_half_shift. apply Z.lt_succ_r. apply Rfloor_lt. rewrite succ_IZR. lra. }
  split; [|auto]. unfold tile_box, snap_box. cbn [fst snd].
  assert (B1 : inbounds_xy (image_grid nx ny) (fst uv - IZR w * / 2, snd uv - IZR h * / 2) = true).
  { unfold inbounds_xy. cbn [fst snd]. apply Bool.andb_true_iff. unfold image_grid, xaxis, yaxis. cbn [gxlim gylim gnx gny]. rewrite !inbounds_image by assumption. lra. }
  assert (B2 : inbounds_xy (image_grid nx ny) (fst uv + IZR w * / 2, snd uv + IZR h * / 2) = true).
  { unfold inbounds_xy. cbn [fst snd]. apply Bool.andb_true_iff. unfold image_grid, xaxis, yaxis. cbn [gxlim gylim gnx gny]. rewrite !inbounds_image by assumption. lra. }
  rewrite B1, B2. cbn [negb orb]. unfold snap_xy. cbn [negb andb bind fst snd].
  unfold image_grid, xaxis, yaxis. cbn [gxlim gylim gnx gny]. rewrite !snap_edge by assumption. rewrite !Rfloor_half_shift. fold l t.
  rewrite !Rtrunc_nonneg_IZR by lia. reflexivity.
Qed.
Lemma tile_box_err nx ny uv w h : (0 < nx)%Z -> (0 < ny)%Z -> (0 <= w)%Z -> (0 <= h)%Z ->
  ~ (axis_fits nx w (fst uv) /\ axis_fits ny h (snd uv)) -> tile_box nx ny uv (w, h) = Err IndexError.
Proof.
  intros Nx Ny W H N. assert (W' := IZR_le _ _ W). assert (H' := IZR_le _ _ H). unfold tile_box, snap_box. cbn [fst snd].
  destruct (inbounds_xy (image_grid nx ny) (fst uv - IZR w * / 2, snd uv - IZR h * / 2)) eqn:B1; [|reflexivity].
  destruct (inbounds_xy (image_grid nx ny) (fst uv + IZR w * / 2, snd uv + IZR h * / 2)) eqn:B2; [|reflexivity].
  exfalso. apply N. unfold inbounds_xy in B1, B2. cbn [fst snd] in B1, B2. apply Bool.andb_true_iff in B1, B2.
  unfold image_grid, xaxis, yaxis in B1, B2. cbn [gxlim gylim gnx gny] in B1, B2. rewrite !inbounds_image in B1, B2 by assumption. unfold axis_fits. lra.
Qed.
Lemma axis_fits_dec n w x : axis_fits n w x \/ ~ axis_fits n w x.
Proof. unfold axis_fits. destruct (Rle_dec 0 (x - IZR w / 2)), (Rle_dec (x + IZR w / 2) (IZR n)); [left|right|right|right]; lra. Qed.

(** ** search box *)
Lemma search_axis_bounds s k lo hi : lo <= hi -> (0 <= k)%Z ->
  let b := search_axis s k lo hi in let extra := Rmax 0 (IZR k - (hi - lo)) in
  IZR (fst b) <= lo - IZR s / 2 - extra / 2 < IZR (fst b) + 1 /\ IZR (snd b) - 1 < hi + IZR s / 2 + extra / 2 <= IZR (snd b) /\
  (s + k <= snd b - fst b)%Z.
Proof.
  intros L K b extra.
  assert (E : b = (Rfloor (lo - IZR s / 2 - extra / 2), Rceil (hi + IZR s / 2 + extra / 2))).
  { unfold b, search_axis. cbv zeta. replace (IZR k - (hi + IZR s * / 2 - (lo - IZR s * / 2) - IZR s)) with (IZR k - (hi - lo)) by lra.
    unfold Rltb, extra, Rmax. destruct (Rlt_dec 0 (IZR k - (hi - lo))), (Rle_dec 0 (IZR k - (hi - lo))); try lra; f_equal; f_equal; try lra. }
  rewrite E. cbn [fst snd]. set (x := lo - IZR s / 2 - extra / 2). set (y := hi + IZR s / 2 + extra / 2).
  pose proof (Rfloor_lb x). pose proof (Rfloor_ub x). pose proof (Rceil_lb y). pose proof (Rceil_ub y). repeat split; try lra.
  assert (Q : IZR s + IZR k <= y - x). { unfold x, y, extra, Rmax. destruct (Rle_dec 0 (IZR k - (hi - lo))); lra. }
  apply le_IZR. rewrite plus_IZR, minus_IZR. lra.
Qed.
Lemma min_of_le l x : In x l -> min_of l <= x.
Proof. unfold min_of. generalize (hd 0 l) as d. induction l as [|y l IH]; intros d []; cbn [fold_right]. subst; apply Rmin_l. eapply Rle_trans; [apply Rmin_r|auto]. Qed.
Lemma max_of_ge l x : In x l -> x <= max_of l.
Proof. unfold max_of. generalize (hd 0 l) as d. induction l as [|y l IH]; intros d []; cbn [fold_right]. subst; apply Rmax_l. eapply Rle_trans; [|apply Rmax_r]. auto. Qed.
Lemma min_le_max l : l <> [] -> min_of l <= max_of l.
Proof. intros H. destruct l as [|x l]; [congruence|]. apply Rle_trans with x; [apply min_of_le|apply max_of_ge]; now left. Qed.
Lemma search_box_eq size kx ky uv : search_box size kx ky uv =
  let bx := search_axis (fst size) ky (min_of (map fst uv)) (max_of (map fst uv)) in
  let by_ := search_axis (snd size) kx (min_of (map snd uv)) (max_of (map snd uv)) in (fst bx, fst by_, snd bx, snd by_).
Proof. unfold search_box. destruct (search_axis _ _ _ _) as [l r]. destruct (search_axis _ _ _ _) as [t b]. reflexivity. Qed.

(** ** SSE *)
Lemma Forall_hd_len (a : tile) h w : shaped a h w -> (0 < h)%nat -> length (hd [] a) = w.
Proof. intros [L F] H. destruct a as [|r a]; [cbn in L; lia|]. cbn. now inversion F. Qed.
Lemma match_template_shape a t : (0 < length t)%nat -> let ah := length a in let aw := length (hd [] a) in let h := length t in let w := length (hd [] t) in
  length (match_template a t) = (ah - h + 1)%nat /\ length (hd [] (match_template a t)) = (aw - w + 1)%nat.
Proof.
  intros H ah aw h w. unfold match_template. fold ah aw h w. rewrite map_length, seq_length. split; [reflexivity|].
  assert (E : seq 0 (ah - h + 1) = 0%nat :: seq 1 (ah - h)) by (rewrite Nat.add_1_r; reflexivity). rewrite E. cbn [map hd]. now rewrite map_length, seq_length.
Qed.
Lemma nth_map_seq {A} (f : nat -> A) n i d : (i < n)%nat -> nth i (map f (seq 0 n)) d = f i.
Proof. intros H. rewrite nth_indep with (d' := f 0%nat) by (rewrite map_length, seq_length; lia). rewrite map_nth. f_equal. now rewrite seq_nth. Qed.
Lemma match_template_cell a t r c : (0 < length t)%nat -> (r < length a - length t + 1)%nat -> (c < length (hd [] a) - length (hd [] t) + 1)%nat ->
  cell (match_template a t) r c = mean_sq_diff a t r c.
Proof.
  intros H R C. unfold cell at 1, match_template. rewrite nth_map_seq by assumption. rewrite nth_map_seq by assumption.
  unfold mean_sq_diff, sq_diff. unfold Rdiv. now rewrite Rmult_1_l.
Qed.
Lemma arange_nodes b0 (n : nat) : (0 < n)%nat -> arange (b0 + / 2) (b0 + INR n) = map (fun i => b0 + / 2 + INR i) (seq 0 n).
Proof.
  intros H. unfold arange. do 2 f_equal. replace (b0 + INR n - (b0 + / 2)) with (INR n - / 2) by lra.
  rewrite (Rceil_imp (Z.of_nat n)); [lia|]. rewrite <- INR_IZR_INZ. lra.
Qed.
