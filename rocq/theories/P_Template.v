(** C62: geometry of template matching (tracker.py:536-625, observer.py:115-214). *)
From Verif Require Import Base BaseLemmas HelpersModel GridModel TemplateModel TemplateSpec TemplateProofs TemplateProofs2.
Open Scope R_scope.

(** Observer.tile_box: an integer box of exactly the requested size inside the image, whose center is at most half a pixel from
    the point (per axis); IndexError exactly when the (unsnapped) box does not fit in the image. *)
Theorem tile_box_contract : forall nx ny uv w h, (0 < nx)%Z -> (0 < ny)%Z -> (0 <= w)%Z -> (0 <= h)%Z ->
  let fits := (0 <= fst uv - IZR w / 2 /\ fst uv + IZR w / 2 <= IZR nx) /\ (0 <= snd uv - IZR h / 2 /\ snd uv + IZR h / 2 <= IZR ny) in
  (fits -> exists b, tile_box nx ny uv (w, h) = Ok b /\ inside_image nx ny b /\ box_w b = w /\ box_h b = h /\
     Rabs (fst uv - fst (box_center b)) <= / 2 /\ Rabs (snd uv - snd (box_center b)) <= / 2) /\
  (~ fits -> tile_box nx ny uv (w, h) = Err IndexError).
Proof.
  intros nx ny uv w h Nx Ny W H fits. split.
  - intros [F1 F2]. destruct (tile_box_eq nx ny uv w h Nx Ny W H F1 F2) as (E & L0 & L1 & T0 & T1). eexists. split; [exact E|].
    unfold inside_image, box_w, box_h, box_center. cbn [fst snd]. rewrite !plus_IZR.
    pose proof (Rfloor_lb (fst uv - IZR w * / 2 + / 2)). pose proof (Rfloor_ub (fst uv - IZR w * / 2 + / 2)).
    pose proof (Rfloor_lb (snd uv - IZR h * / 2 + / 2)). pose proof (Rfloor_ub (snd uv - IZR h * / 2 + / 2)).
    repeat split; try lia; apply Rabs_le; lra.
  - intros N. apply tile_box_err; auto.
Qed.
Print Assumptions tile_box_contract.
Example tile_box_ex : exists b, tile_box 20 20 (103 / 10, 5) (5, 4)%Z = Ok b /\ box_w b = 5%Z.
Proof.
  destruct (tile_box_contract 20 20 (103 / 10, 5) 5 4) as [H _]; try lia. destruct H as (b & E & _ & Wb & _). { cbn [fst snd]. lra. } now exists b.
Qed.

(** The search box holds every projected particle with half a template around it, is no more than a pixel (and the widening
    for the spline) larger than needed, and leaves at least k + 1 template positions along each axis. *)
Theorem search_box_contract : forall w h kx ky uv q, (0 <= kx)%Z -> (0 <= ky)%Z -> In q uv ->
  let '(l, t, r, b) := search_box (w, h) kx ky uv in
  IZR l <= fst q - IZR w / 2 /\ fst q + IZR w / 2 <= IZR r /\ IZR t <= snd q - IZR h / 2 /\ snd q + IZR h / 2 <= IZR b /\
  (ky + 1 <= r - l - w + 1)%Z /\ (kx + 1 <= b - t - h + 1)%Z.
Proof.
  intros w h kx ky uv q Kx Ky I. rewrite search_box_eq. cbv zeta. cbn [fst snd].
  assert (NE : uv <> []) by (intros ->; destruct I).
  destruct (search_axis_bounds w ky _ _ (uvx_le uv NE) Ky) as (A1 & A2 & A3). destruct (search_axis_bounds h kx _ _ (uvy_le uv NE) Kx) as (B1 & B2 & B3).
  pose proof (min_of_le _ _ (in_map fst _ _ I)). pose proof (max_of_ge _ _ (in_map fst _ _ I)).
  pose proof (min_of_le _ _ (in_map snd _ _ I)). pose proof (max_of_ge _ _ (in_map snd _ _ I)).
  pose proof (Rmax_l 0 (IZR ky - (max_of (map fst uv) - min_of (map fst uv)))). pose proof (Rmax_l 0 (IZR kx - (max_of (map snd uv) - min_of (map snd uv)))).
  repeat split; try lra; lia.
Qed.
Print Assumptions search_box_contract.
Theorem search_box_tight : forall w h kx ky uv b, (0 <= kx)%Z -> (0 <= ky)%Z -> uv <> [] -> b = search_box (w, h) kx ky uv ->
  let du := max_of (map fst uv) - min_of (map fst uv) in let dv := max_of (map snd uv) - min_of (map snd uv) in
  IZR (box_w b) < Rmax du (IZR ky) + IZR w + 2 /\ IZR (box_h b) < Rmax dv (IZR kx) + IZR h + 2.
Proof.
  intros w h kx ky uv b Kx Ky NE -> du dv. rewrite search_box_eq. cbv zeta. unfold box_w, box_h. cbn [fst snd]. rewrite !minus_IZR.
  destruct (search_axis_bounds w ky _ _ (uvx_le uv NE) Ky) as (A1 & A2 & _). destruct (search_axis_bounds h kx _ _ (uvy_le uv NE) Kx) as (B1 & B2 & _).
  fold du in A1, A2. fold dv in B1, B2.
  assert (E1 : Rmax du (IZR ky) = du + Rmax 0 (IZR ky - du)) by (unfold Rmax; destruct (Rle_dec du (IZR ky)), (Rle_dec 0 (IZR ky - du)); lra).
  assert (E2 : Rmax dv (IZR kx) = dv + Rmax 0 (IZR kx - dv)) by (unfold Rmax; destruct (Rle_dec dv (IZR kx)), (Rle_dec 0 (IZR kx - dv)); lra).
  rewrite E1, E2. unfold du, dv in *. lra.
Qed.
Print Assumptions search_box_tight.

(** A template made by initialize_template. *)
Definition made (nx ny : Z) (uv0 : pt2) (w h : nat) (extract : zbox -> result tile) (t : template) : Prop :=
  (0 < nx)%Z /\ (0 < ny)%Z /\ (0 < w)%nat /\ (0 < h)%nat /\ reads_pixels nx ny extract /\
  make_template nx ny uv0 (Z.of_nat w, Z.of_nat h) extract = Ok t.
Lemma made_props nx ny uv0 w h extract t : made nx ny uv0 w h extract t ->
  shaped (t_tile t) h w /\ t_size t = (Z.of_nat w, Z.of_nat h) /\ Rabs (fst (t_duv t)) <= / 2 /\ Rabs (snd (t_duv t)) <= / 2 /\
  box_w (t_box t) = Z.of_nat w /\ box_h (t_box t) = Z.of_nat h /\
  fst uv0 = fst (box_corner (t_box t)) + IZR (Z.of_nat w) / 2 + fst (t_duv t) /\ snd uv0 = snd (box_corner (t_box t)) + IZR (Z.of_nat h) / 2 + snd (t_duv t).
Proof.
  intros (Nx & Ny & W & H & Rd & E). unfold make_template in E. destruct (tile_box_contract nx ny uv0 (Z.of_nat w) (Z.of_nat h) Nx Ny) as [F1 F2]; try lia.
  destruct (axis_fits_dec nx (Z.of_nat w) (fst uv0)) as [Fx|Fx]; destruct (axis_fits_dec ny (Z.of_nat h) (snd uv0)) as [Fy|Fy];
    try (rewrite F2 in E; [discriminate|intros [Qa Qb]; first [exact (Fx Qa)|exact (Fy Qb)]]).
  destruct (F1 (conj Fx Fy)) as (b & Eb & In & Bw & Bh & Du & Dv). rewrite Eb in E. cbn [bind] in E. destruct b as [[[l tp] r] d].
  destruct (Rd _ In) as (a & Ea & Sa). rewrite Ea in E. cbn [bind] in E. injection E as <-. cbn [t_tile t_size t_duv t_box].
  rewrite Bw, Bh, !Nat2Z.id in Sa. cbn [box_center fst snd] in Du, Dv. unfold box_w in Bw. unfold box_h in Bh.
  assert (Br : IZR r = IZR l + IZR (Z.of_nat w)) by (rewrite <- plus_IZR; f_equal; lia).
  assert (Bd : IZR d = IZR tp + IZR (Z.of_nat h)) by (rewrite <- plus_IZR; f_equal; lia).
  split; [exact Sa|]. split; [rewrite (Forall_hd_len a h w Sa H); destruct Sa as [-> _]; reflexivity|].
  split; [exact Du|]. split; [exact Dv|]. split; [exact Bw|]. split; [exact Bh|]. split.
  - cbn [box_corner fst]. rewrite Br. lra.
  - cbn [box_corner snd]. rewrite Bd. lra.
Qed.

(** Computing log likelihoods never raises: the image is skipped exactly when the search box leaves it, and otherwise every
    particle gets a value, whatever the particles and the later image. *)
Theorem template_likelihoods_total : forall spline nx ny kx ky sigma uv0 w h extract0 nx0 ny0 t uv extract,
  made nx0 ny0 uv0 w h extract0 t -> reads_pixels nx ny extract -> uv <> [] -> (0 <= kx)%Z -> (0 <= ky)%Z ->
  let b := search_box (t_size t) kx ky uv in
  (inside_image nx ny b -> exists ls, log_likelihoods spline nx ny kx ky sigma t uv extract = Ok (Some ls) /\ length ls = length uv) /\
  (~ inside_image nx ny b -> log_likelihoods spline nx ny kx ky sigma t uv extract = Ok None).
Proof.
  intros spline nx ny kx ky sigma uv0 w h extract0 nx0 ny0 t uv extract M Rd NE Kx Ky b.
  destruct (made_props _ _ _ _ _ _ _ M) as (Sh & Sz & Du & Dv & _). destruct M as (_ & _ & W & H & _).
  assert (IFF : box_inbounds nx ny b = true <-> inside_image nx ny b).
  { split; [apply (inbounds_inside nx ny kx ky t uv NE Kx Ky w h W H Sz)|]. unfold b. rewrite search_box_eq. cbv zeta. unfold inside_image, box_inbounds.
    rewrite !Bool.andb_true_iff, !Z.leb_le. lia. }
  split; intros I.
  - apply IFF in I. destruct (likelihoods_eq spline nx ny kx ky sigma t uv extract NE Kx Ky Du Dv w h W H Sh Sz Rd I) as (s & _ & _ & E & _).
    eexists. split; [exact E|]. now rewrite map_length.
  - apply likelihoods_skip. apply Bool.not_true_iff_false. fold b. tauto.
Qed.
Print Assumptions template_likelihoods_total.

(** Alignment: a particle whose projection is the point [uv0] the template was made at, displaced by the same whole number of pixels as the
    tile at row r, column c of the search box is from the template box, gets the mean squared difference between the two tiles over 2 sigma^2. *)
Theorem template_likelihood_aligned : forall spline nx ny kx ky sigma uv0 w h extract0 nx0 ny0 t uv extract r c i,
  interpolates spline ->
  made nx0 ny0 uv0 w h extract0 t -> reads_pixels nx ny extract -> uv <> [] -> (0 <= kx)%Z -> (0 <= ky)%Z ->
  let b := search_box (t_size t) kx ky uv in inside_image nx ny b ->
  (Z.of_nat c <= box_w b - Z.of_nat w)%Z -> (Z.of_nat r <= box_h b - Z.of_nat h)%Z -> (i < length uv)%nat ->
  nth i uv (0, 0) = (fst uv0 + (fst (box_corner b) + INR c - fst (box_corner (t_box t))), snd uv0 + (snd (box_corner b) + INR r - snd (box_corner (t_box t)))) ->
  exists search ls, extract b = Ok search /\ log_likelihoods spline nx ny kx ky sigma t uv extract = Ok (Some ls) /\
    nth i ls 0 = mean_sq_diff search (t_tile t) r c / (2 * sigma ^ 2).
Proof.
  intros spline nx ny kx ky sigma uv0 w h extract0 nx0 ny0 t uv extract r c i Sp M Rd NE Kx Ky b I C R Hi Q.
  destruct (made_props _ _ _ _ _ _ _ M) as (Sh & Sz & Du & Dv & _ & _ & U & V). destruct M as (_ & _ & W & H & _).
  assert (IB : box_inbounds nx ny b = true).
  { revert I. unfold b. rewrite search_box_eq. cbv zeta. unfold inside_image, box_inbounds. rewrite !Bool.andb_true_iff, !Z.leb_le. lia. }
  unfold b in *. rewrite search_box_eq in C, R, Q. cbv zeta in C, R, Q. unfold box_w in C. unfold box_h in R. cbn [box_corner fst snd] in C, R, Q.
  apply (likelihood_aligned spline nx ny kx ky sigma t uv extract NE Kx Ky Du Dv w h W H Sh Sz Rd Sp r c i IB).
  - lia.
  - lia.
  - exact Hi.
  - rewrite Q, U, V. f_equal; lra.
Qed.
Print Assumptions template_likelihood_aligned.
(** so it is 0, the best possible, when the tiles are equal *)
Theorem template_exact_match : forall search tl r c,
  0 <= mean_sq_diff search tl r c /\
  ((forall i j, (i < length tl)%nat -> (j < length (hd [] tl))%nat -> cell search (r + i) (c + j) = cell tl i j) -> mean_sq_diff search tl r c = 0).
Proof.
  intros search tl r c.
  assert (N : forall (f : nat -> R) l, (forall x, In x l -> 0 <= f x) -> 0 <= sumR (map f l)).
  { intros f l. induction l as [|x l IH]; intros P; cbn; [lra|]. assert (0 <= f x) by (apply P; now left). assert (0 <= sumR (map f l)) by (apply IH; intros; apply P; now right). unfold sumR in *. lra. }
  assert (Z : forall (f : nat -> R) l, (forall x, In x l -> f x = 0) -> sumR (map f l) = 0).
  { intros f l. induction l as [|x l IH]; intros P; cbn; [reflexivity|]. rewrite (P x) by (now left). assert (sumR (map f l) = 0) by (apply IH; intros; apply P; now right). unfold sumR in *. lra. }
  unfold mean_sq_diff. split.
  - unfold Rdiv. apply Rmult_le_pos.
    + apply N. intros i _. apply N. intros j _. apply pow2_ge_0.
    + destruct (Req_dec (INR (length (hd [] tl)) * INR (length tl)) 0) as [E|E]; [rewrite E, Rinv_0; lra|].
      apply Rlt_le, Rinv_0_lt_compat. assert (0 <= INR (length (hd [] tl)) * INR (length tl)) by (apply Rmult_le_pos; apply pos_INR). lra.
  - intros E. rewrite Z; [unfold Rdiv; ring|]. intros i Hi. apply in_seq in Hi. apply Z. intros j Hj. apply in_seq in Hj. rewrite E by lia. ring.
Qed.
Print Assumptions template_exact_match.

(** Every particle, displaced by whole pixels or not: its value is that of the spline through the squared differences, at its
    projected coordinates. The nodes of the spline are one pixel apart, and reach every particle up to the subpixel offset of the template
    (at most half a pixel): so the spline is read at most that far outside its nodes. *)
Theorem template_likelihood_nodes : forall spline nx ny kx ky sigma uv0 w h extract0 nx0 ny0 t uv extract,
  made nx0 ny0 uv0 w h extract0 t -> reads_pixels nx ny extract -> uv <> [] -> (0 <= kx)%Z -> (0 <= ky)%Z ->
  let b := search_box (t_size t) kx ky uv in inside_image nx ny b ->
  exists search rows cols, extract b = Ok search /\
    log_likelihoods spline nx ny kx ky sigma t uv extract
    = Ok (Some (map (fun q => spline rows cols (match_template search (t_tile t)) (snd q) (fst q) / (2 * sigma ^ 2)) uv)) /\
    length rows = Z.to_nat (box_h b - Z.of_nat h + 1) /\ length cols = Z.to_nat (box_w b - Z.of_nat w + 1) /\
    (forall i, (S i < length rows)%nat -> nth (S i) rows 0 = nth i rows 0 + 1) /\
    (forall i, (S i < length cols)%nat -> nth (S i) cols 0 = nth i cols 0 + 1) /\
    (forall q, In q uv -> let du := Rabs (fst uv0 - fst (box_center (t_box t))) in let dv := Rabs (snd uv0 - snd (box_center (t_box t))) in
       du <= / 2 /\ dv <= / 2 /\
       nth 0 cols 0 - du <= fst q <= nth (length cols - 1) cols 0 + du /\
       nth 0 rows 0 - dv <= snd q <= nth (length rows - 1) rows 0 + dv).
Proof.
  intros spline nx ny kx ky sigma uv0 w h extract0 nx0 ny0 t uv extract M Rd NE Kx Ky b I.
  destruct (made_props _ _ _ _ _ _ _ M) as (Sh & Sz & Du & Dv & Bw & Bh & U & V). destruct M as (_ & _ & W & H & _).
  assert (IB : box_inbounds nx ny b = true).
  { revert I. unfold b. rewrite search_box_eq. cbv zeta. unfold inside_image, box_inbounds. rewrite !Bool.andb_true_iff, !Z.leb_le. lia. }
  destruct (likelihoods_eq spline nx ny kx ky sigma t uv extract NE Kx Ky Du Dv w h W H Sh Sz Rd IB) as (search & E & S & L & _).
  assert (Cu : fst uv0 - fst (box_center (t_box t)) = fst (t_duv t) /\ snd uv0 - snd (box_center (t_box t)) = snd (t_duv t)).
  { destruct (t_box t) as [[[l tp] r] d]. unfold box_center, box_corner, box_w, box_h in *. cbn [fst snd] in *.
    rewrite U, V, <- Bw, <- Bh, !minus_IZR. split; lra. }
  destruct Cu as [-> ->].
  set (lo := min_of (map fst uv)) in *. set (hi := max_of (map fst uv)) in *. set (lo' := min_of (map snd uv)) in *. set (hi' := max_of (map snd uv)) in *.
  exists search. do 2 eexists. split; [exact E|]. split.
  { rewrite L. do 2 f_equal. apply map_ext. intros q. unfold Rdiv. rewrite Rmult_1_l. reflexivity. }
  rewrite !nodes_len. unfold b. rewrite search_box_eq. cbv zeta. unfold box_w, box_h.
  assert (F1 : fst (t_size t) = Z.of_nat w) by now rewrite Sz. assert (F2 : snd (t_size t) = Z.of_nat h) by now rewrite Sz.
  rewrite F1, F2. fold lo hi lo' hi'.
  destruct (search_axis_bounds (Z.of_nat w) ky lo hi (uvx_le uv NE) Ky) as (A1 & A2 & A3).
  destruct (search_axis_bounds (Z.of_nat h) kx lo' hi' (uvy_le uv NE) Kx) as (B1 & B2 & B3). cbv zeta in *.
  split; [reflexivity|]. split; [reflexivity|].
  split. { intros i Hi. rewrite !nodes_nth by lia. rewrite S_INR. lra. }
  split. { intros i Hi. rewrite !nodes_nth by lia. rewrite S_INR. lra. }
  intros q Hq. split; [exact Du|]. split; [exact Dv|].
  pose proof (min_of_le _ _ (in_map fst _ _ Hq)) as P1. pose proof (max_of_ge _ _ (in_map fst _ _ Hq)) as P2.
  pose proof (min_of_le _ _ (in_map snd _ _ Hq)) as P3. pose proof (max_of_ge _ _ (in_map snd _ _ Hq)) as P4.
  fold lo in P1. fold hi in P2. fold lo' in P3. fold hi' in P4.
  pose proof (Rmax_l 0 (IZR ky - (hi - lo))). pose proof (Rmax_l 0 (IZR kx - (hi' - lo'))).
  pose proof (Rle_abs (fst (t_duv t))). pose proof (Rle_abs (- fst (t_duv t))) as N1. rewrite Rabs_Ropp in N1.
  pose proof (Rle_abs (snd (t_duv t))). pose proof (Rle_abs (- snd (t_duv t))) as N2. rewrite Rabs_Ropp in N2.
  rewrite !nodes_nth by lia. rewrite !minus_INR by lia. cbn [INR]. rewrite !INR_IZR_INZ, !Z2Nat.id by lia. rewrite !plus_IZR, !minus_IZR.
  rewrite <- !INR_IZR_INZ in *. repeat split; lra.
Qed.
Print Assumptions template_likelihood_nodes.
(** Near the edge of the cloud of particles the SSE is read outside its nodes (where scipy returns the value at the nearest node): if the
    particles spread by at least the spline's degree, exactly if the subpixel offset of the template exceeds the distance from the edge of
    the template around the first particle to the whole pixel below, or from the edge around the last one to the whole pixel above. *)
Theorem template_sampling_outside_nodes_refuted : forall s k lo hi duv, (0 <= s)%Z -> (0 <= k)%Z -> IZR k <= hi - lo ->
  let b := search_axis s k lo hi in let n := Z.to_nat (snd b - fst b - s + 1) in let at_node i := nth i (nodes (fst b) s duv n) 0 in
  (lo < at_node 0%nat <-> lo - IZR s / 2 - IZR (Rfloor (lo - IZR s / 2)) < duv) /\
  (at_node (n - 1)%nat < hi <-> IZR (Rceil (hi + IZR s / 2)) - (hi + IZR s / 2) < - duv).
Proof.
  intros s k lo hi duv Hs Hk L b n at_node. assert (E : b = (Rfloor (lo - IZR s / 2), Rceil (hi + IZR s / 2))).
  { unfold b, search_axis. cbv zeta. destruct (Rltb_spec 0 (IZR k - (hi + IZR s * / 2 - (lo - IZR s * / 2) - IZR s))) as [Q|Q]; [lra|]. reflexivity. }
  assert (K0 : 0 <= IZR k) by now apply IZR_le.
  pose proof (Rfloor_lb (lo - IZR s / 2)) as F. pose proof (Rceil_ub (hi + IZR s / 2)) as C.
  assert (N : (1 <= snd b - fst b - s + 1)%Z). { rewrite E. cbn [fst snd]. assert (IZR s <= IZR (Rceil (hi + IZR s / 2) - Rfloor (lo - IZR s / 2))) by (rewrite minus_IZR; lra). apply le_IZR in H. lia. }
  unfold at_node. rewrite !nodes_nth by lia. assert (En : INR (n - 1) = IZR (snd b) - IZR (fst b) - IZR s). { rewrite INR_IZR_INZ. unfold n. rewrite <- !minus_IZR. f_equal. lia. }
  rewrite En, E. cbn [fst snd INR]. split; split; lra.
Qed.
Example template_sampling_outside_ex : let duv := 2 / 5 in Rabs duv <= / 2 /\ IZR 3 <= 31 / 2 - 21 / 2 /\ 21 / 2 - IZR 3 / 2 - IZR (Rfloor (21 / 2 - IZR 3 / 2)) < duv.
Proof. cbv zeta. split; [rewrite Rabs_right; lra|]. split; [lra|]. rewrite (Rfloor_imp 9) by lra. lra. Qed.
Print Assumptions template_sampling_outside_nodes_refuted.
(** the hypotheses are met *)
Example made_ex : exists extract t, made 20 20 (103 / 10, 5) 2 2 extract t /\ reads_pixels 20 20 extract /\ inside_image 20 20 (search_box (t_size t) 3 3 [(103 / 10, 5)]).
Proof.
  set (extract := fun b : zbox => Ok (repeat (repeat 0 (Z.to_nat (box_w b))) (Z.to_nat (box_h b))) : result tile).
  assert (Rd : reads_pixels 20 20 extract).
  { intros b I. eexists. split; [reflexivity|]. split; [apply repeat_length|]. apply Forall_forall. intros x Hx. apply repeat_spec in Hx. subst. apply repeat_length. }
  destruct (tile_box_contract 20 20 (103 / 10, 5) 2 2) as [H _]; try lia. destruct H as (b & E & I & _). { cbn [fst snd]. lra. }
  assert (M : exists t, make_template 20 20 (103 / 10, 5) (Z.of_nat 2, Z.of_nat 2) extract = Ok t).
  { unfold make_template. change (Z.of_nat 2) with 2%Z. rewrite E. cbn [bind]. destruct b as [[[l tp] r] d]. eexists. reflexivity. }
  destruct M as [t M]. exists extract, t. assert (Md : made 20 20 (103 / 10, 5) 2 2 extract t) by (repeat split; auto; lia).
  split; [exact Md|]. split; [exact Rd|]. destruct (made_props _ _ _ _ _ _ _ Md) as (_ & -> & _).
  rewrite search_box_eq. cbv zeta. unfold inside_image. cbn [fst snd map]. change (Z.of_nat 2) with 2%Z.
  assert (Mn : forall x, min_of [x] = x) by (intros; unfold min_of; cbn; unfold Rmin; destruct (Rle_dec x x); reflexivity).
  assert (Mx : forall x, max_of [x] = x) by (intros; unfold max_of; cbn; unfold Rmax; destruct (Rle_dec x x); reflexivity).
  rewrite !Mn, !Mx. destruct (search_axis_bounds 2 3 (103 / 10) (103 / 10)) as (A1 & A2 & A3); [lra|lia|]. destruct (search_axis_bounds 2 3 5 5) as (B1 & B2 & B3); [lra|lia|].
  cbv zeta in *. rewrite Rmax_right in A1, A2, B1, B2 by lra.
  assert (forall z x, x < IZR z + 1 -> -1 <= x -1 -> (0 <= z)%Z). { intros z x H1 H2. apply Z.lt_succ_r, lt_IZR. rewrite succ_IZR. lra. }
  repeat split; try (eapply H; lra); try lia; apply Z.lt_succ_r, lt_IZR; rewrite succ_IZR; lra.
Qed.
