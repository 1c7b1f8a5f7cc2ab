From Coq Require Import Lia Lra.
From Verif Require Import Base BaseLemmas HelpersModel HelpersSpec BoxProofs GridModel GridSpec GridProofs GridProofs2 RasterModel RasterSpec RasterProofs RasterProofs2 RasterProofs3 RasterProofs4 RasterProofs5 RasterProofs6.
Open Scope R_scope.

(** ** Grid objects *)
Record gbase (s : gobj) : Prop := {
  g_ok : grid_ok (og s);
  g_x : forall v, ox s = Some v -> is_centers (xaxis (og s)) v;
  g_y : forall v, oy s = Some v -> is_centers (yaxis (og s)) v;
  g_X : forall v, oX s = Some v -> is_X (xaxis (og s)) (Z.to_nat (gny (og s))) v;
  g_Y : forall v, oY s = Some v -> is_Y (yaxis (og s)) (Z.to_nat (gnx (og s))) v }.
Lemma gget_x_spec s : gbase s -> exists v s', gget_x s = Ok (v, s') /\ is_centers (xaxis (og s)) v /\ gbase s' /\ og s' = og s.
Proof.
  intros B. unfold gget_x. destruct (ox s) as [v|] eqn:E.
  - exists v, s. split; [reflexivity|]. split; [apply (g_x s B); auto|]. auto.
  - destruct (centers_is (xaxis (og s)) (proj1 (g_ok s B))) as (v & -> & C). cbn [bind]. eexists v, _. split; [reflexivity|]. split; [exact C|].
    split; [|reflexivity]. destruct B. constructor; cbn; auto. intros w Hw. injection Hw as <-. auto.
Qed.
Lemma gget_y_spec s : gbase s -> exists v s', gget_y s = Ok (v, s') /\ is_centers (yaxis (og s)) v /\ gbase s' /\ og s' = og s.
Proof.
  intros B. unfold gget_y. destruct (oy s) as [v|] eqn:E.
  - exists v, s. split; [reflexivity|]. split; [apply (g_y s B); auto|]. auto.
  - destruct (centers_is (yaxis (og s)) (proj2 (g_ok s B))) as (v & -> & C). cbn [bind]. eexists v, _. split; [reflexivity|]. split; [exact C|].
    split; [|reflexivity]. destruct B. constructor; cbn; auto. intros w Hw. injection Hw as <-. auto.
Qed.
Lemma gget_X_spec s : gbase s -> exists v s', gget_X s = Ok (v, s') /\ is_X (xaxis (og s)) (Z.to_nat (gny (og s))) v /\ gbase s' /\ og s' = og s.
Proof.
  intros B. unfold gget_X. destruct (oX s) as [v|] eqn:E.
  - exists v, s. split; [reflexivity|]. split; [apply (g_X s B); auto|]. auto.
  - destruct (gget_x_spec s B) as (v & s1 & -> & C & B1 & G). cbn [bind]. eexists _, _. split; [reflexivity|]. rewrite <- G. rewrite <- G in C.
    split; [exists v; auto|]. split; [|reflexivity]. destruct B1. constructor; cbn; auto. intros w Hw. injection Hw as <-. exists v; auto.
Qed.
Lemma gget_Y_spec s : gbase s -> exists v s', gget_Y s = Ok (v, s') /\ is_Y (yaxis (og s)) (Z.to_nat (gnx (og s))) v /\ gbase s' /\ og s' = og s.
Proof.
  intros B. unfold gget_Y. destruct (oY s) as [v|] eqn:E.
  - exists v, s. split; [reflexivity|]. split; [apply (g_Y s B); auto|]. auto.
  - destruct (gget_y_spec s B) as (v & s1 & -> & C & B1 & G). cbn [bind]. eexists _, _. split; [reflexivity|]. rewrite <- G. rewrite <- G in C.
    split; [exists v; auto|]. split; [|reflexivity]. destruct B1. constructor; cbn; auto. intros w Hw. injection Hw as <-. exists v; auto.
Qed.
Lemma gbase_coherent s : gbase s -> gcoherent s.
Proof.
  intros B. split; [|split; [|split]].
  - destruct (gget_x_spec s B) as (v & s1 & E & C & _). eauto.
  - destruct (gget_y_spec s B) as (v & s1 & E & C & _). eauto.
  - destruct (gget_X_spec s B) as (v & s1 & E & C & _). eauto.
  - destruct (gget_Y_spec s B) as (v & s1 & E & C & _). eauto.
Qed.
Lemma parse_size_ok n p : parse_size n = Ok p -> (1 <= fst p)%Z /\ (1 <= snd p)%Z.
Proof.
  unfold parse_size. destruct n as [|a [|b [|]]]; cbn [bind]; try discriminate.
  - destruct (_ || _) eqn:E; [discriminate|]. intros H. injection H as <-. cbn in *. apply Bool.orb_false_iff in E as [E1 E2]. lia.
  - destruct (_ || _) eqn:E; [discriminate|]. intros H. injection H as <-. cbn in *. apply Bool.orb_false_iff in E as [E1 E2]. lia.
Qed.
Definition gsafe (o : gop) (s : gobj) : Prop :=
  match o with GSetSize _ => ox s = None /\ oy s = None /\ oX s = None /\ oY s = None | _ => True end.
Lemma gstep_base o s s' : gbase s -> gsafe o s -> gstep o s = Ok s' -> gbase s'.
Proof.
  intros B Sf H. destruct o as [| | | |l|l|n|dx dy]; cbn [gstep] in H.
  - destruct (gget_x_spec s B) as (v & s1 & E & C & B1 & G). rewrite E in H. injection H as <-. auto.
  - destruct (gget_y_spec s B) as (v & s1 & E & C & B1 & G). rewrite E in H. injection H as <-. auto.
  - destruct (gget_X_spec s B) as (v & s1 & E & C & B1 & G). rewrite E in H. injection H as <-. auto.
  - destruct (gget_Y_spec s B) as (v & s1 & E & C & B1 & G). rewrite E in H. injection H as <-. auto.
  - destruct (parse_limits l) as [p|] eqn:E; [|discriminate]. cbn [bind] in H. apply parse_limits_ok in E as [_ E].
    destruct (Req2b _ _) eqn:Q; injection H as <-; [exact B|]. destruct B as [[[G1 G2] G3] G4 G5 G6 G7]. constructor; cbn; auto; try discriminate. split; [split|]; auto.
  - destruct (parse_limits l) as [p|] eqn:E; [|discriminate]. cbn [bind] in H. apply parse_limits_ok in E as [_ E].
    destruct (Req2b _ _) eqn:Q; injection H as <-; [exact B|]. destruct B as [[G3 [G1 G2]] G4 G5 G6 G7]. constructor; cbn; auto; try discriminate. split; [|split]; auto.
  - cbn in Sf. destruct Sf as (S1 & S2 & S3 & S4).
    destruct (parse_size n) as [p|] eqn:E; [|discriminate]. cbn [bind] in H. apply parse_size_ok in E as [E1 E2]. injection H as <-.
    destruct B as [[[G1 G2] [G3 G4]] _ _ _ _]. constructor; cbn; rewrite ?S1, ?S2, ?S3, ?S4; try discriminate. split; split; auto.
  - assert (Bx : gbase (match dx with None => s | Some d =>
        mkgobj (mkgrid (gnx (og s)) (gny (og s)) (fst (gxlim (og s)) + d, snd (gxlim (og s)) + d) (gylim (og s)))
          (option_map (map (fun x => x + d)) (ox s)) (oy s) (option_map (map (map (fun x => x + d))) (oX s)) (oY s) end)).
    { destruct dx as [d|]; [|exact B]. destruct B as [[G1 G3] G4 G5 G6 G7]. constructor; cbn [og ox oy oX oY].
      - split; [apply (shift_axis_ok d (xaxis (og s))); auto|exact G3].
      - intros v Hv. destruct (ox s) as [w|]; [|discriminate]. injection Hv as <-. apply (shift_centers d (xaxis (og s))). auto.
      - exact G5.
      - intros v Hv. destruct (oX s) as [w|]; [|discriminate]. injection Hv as <-. apply (shift_is_X d (xaxis (og s))). auto.
      - exact G7. }
    cbv zeta in H. injection H as H. set (s1 := match dx with None => s | Some _ => _ end) in *. clearbody s1. subst s'.
    destruct dy as [d|]; [|exact Bx]. destruct Bx as [[G1 G3] G4 G5 G6 G7]. constructor; cbn [og ox oy oX oY].
    + split; [exact G1|apply (shift_axis_ok d (yaxis (og s1))); auto].
    + exact G4.
    + intros v Hv. destruct (oy s1) as [w|]; [|discriminate]. injection Hv as <-. apply (shift_centers d (yaxis (og s1))). auto.
    + exact G6.
    + intros v Hv. destruct (oY s1) as [w|]; [|discriminate]. injection Hv as <-. apply (shift_is_Y d (yaxis (og s1))). auto.
Qed.
Theorem size_safe_base s ops s' : gbase s -> size_safe s ops s' -> gbase s'.
Proof.
  intros B H. induction H as [s|s o s1 os s2 E S H IH]; auto. apply IH. apply (gstep_base o s s1); auto.
Qed.
Lemma new_grid_base size xl yl s : (1 <= fst size)%Z -> (1 <= snd size)%Z -> new_grid size xl yl = Ok s -> gbase s.
Proof.
  intros H1 H2 H. unfold new_grid in H. destruct (parse_limits xl) as [px|] eqn:Ex; [|discriminate]. cbn [bind] in H.
  destruct (parse_limits yl) as [py|] eqn:Ey; [|discriminate]. cbn [bind] in H. injection H as <-.
  apply parse_limits_ok in Ex as [_ Nx]. apply parse_limits_ok in Ey as [_ Ny].
  constructor; try discriminate. split; split; auto.
Qed.

(** ** a 2 x 2 raster on (0, 2) x (0, 2) for counterexamples *)
Definition r22 : raster := mkraster [] [[Some 0; Some 1; Some 2; Some 3]] (0, 2) true (0, 2) true 2 2 0 true None None None None None.
Lemma r22_fresh : fresh r22.
Proof.
  exists 2%nat, 2%nat, [Some 0; Some 1; Some 2; Some 3], true, [0; 2], [0; 2], true, true.
  unfold new_raster. rewrite !parse_limits_ne by lra. cbn [bind]. split; [reflexivity|]. cbn. lia.
Qed.
Lemma is_centers02 : is_centers ((0, 2), 2%Z) [/ 2; 3 / 2].
Proof. split; [reflexivity|]. intros [|[|k]] H; unfold center, at_cells; cbn; [lra|lra|cbn in H; lia]. Qed.
Lemma centers02 : centers ((0, 2), 2%Z) = Ok [/ 2; 3 / 2].
Proof.
  destruct (centers_is ((0, 2), 2%Z)) as (v & E & C). { split; cbn; [lra|lia]. }
  rewrite E. f_equal. apply (is_centers_unique _ _ _ C is_centers02).
Qed.
Lemma dcell02 : Rltb (dcell ((0, 2), 2%Z)) 0 = false.
Proof. apply Rltb_false. unfold dcell. cbn. lra. Qed.
Definition z22 : interp := mkinterp 0 false 1 false 0 2 2.
Definition r22s : raster := mkraster [[/ 2; 3 / 2]; [/ 2; 3 / 2]] [[Some 0; Some 1; Some 2; Some 3]] (0, 2) true (0, 2) true 2 2 0 true (Some 0%nat) (Some 1%nat) None None (Some z22).
Lemma r22_sampled x y : rstep (RSample x y) r22 = Ok r22s.
Proof.
  cbn [rstep]. unfold sample, sample_value. cbn [rnx rny r22 Nat.ltb Nat.leb andb].
  unfold get_zf. cbn [rzf r22]. unfold get_x. cbn [rx r22]. change (xaxis (rgrid r22)) with ((0, 2), 2%Z).
  change (yaxis (rgrid r22)) with ((0, 2), 2%Z). rewrite dcell02, centers02. cbn [bind].
  unfold get_y. cbn [ry upd_x upd_xh r22]. 
  match goal with |- context [centers ?a] => change a with ((0, 2), 2%Z) end. rewrite centers02. reflexivity.
Qed.
(** after sampling, a shift by 1 moves the coordinates by 2 *)
Definition r22d : raster := mkraster [[/ 2 + 1 + 1; 3 / 2 + 1 + 1]; [/ 2; 3 / 2]] [[Some 0; Some 1; Some 2; Some 3]] (0 + 1, 2 + 1) true (0, 2) true 2 2 0 true (Some 0%nat) (Some 1%nat) None None (Some z22).
Lemma r22_double : rstep (RShift (Some (mknum true 1)) None None) r22s = Ok r22d.
Proof. reflexivity. Qed.
Lemma r22d_incoherent : ~ coords_coherent r22d.
Proof.
  intros [(p & s' & E & C) _]. unfold get_x in E. cbn [rx r22d] in E. injection E as <- <-.
  destruct C as [_ C]. specialize (C 0%nat ltac:(cbn; lia)). cbn in C. unfold center, at_cells in C. cbn in C. lra.
Qed.
(** after sampling, setting the limits leaves the interpolator at the old coordinates *)
Definition r22l : raster := mkraster [[/ 2; 3 / 2]; [/ 2; 3 / 2]] [[Some 0; Some 1; Some 2; Some 3]] (10, 12) true (0, 2) true 2 2 0 true None (Some 1%nat) None None (Some z22).
Lemma r22_limits : rstep (RSetX [10; 12] true) r22s = Ok r22l.
Proof.
  cbn [rstep]. unfold set_xlim. rewrite parse_limits_ne by lra. cbn [bind]. unfold Req2b. cbn [fst snd rxlim r22s].
  replace (Reqb 0 10) with false by (symmetry; apply Reqb_false; lra). reflexivity.
Qed.
Lemma r22l_stale : sampled (sample false true None (center (xaxis (rgrid r22l)) 0) (center (yaxis (rgrid r22l)) 0) r22l) = Ok (Some 1).
Proof.
  assert (Ex : center (xaxis (rgrid r22l)) 0 = 21 / 2) by (unfold center, at_cells; cbn; lra).
  assert (Ey : center (yaxis (rgrid r22l)) 0 = / 2) by (unfold center, at_cells; cbn; lra).
  unfold sample. assert (In : inbounds_xy (rgrid r22l) (center (xaxis (rgrid r22l)) 0, center (yaxis (rgrid r22l)) 0) = true).
  { unfold inbounds_xy. rewrite Ex, Ey. cbn [fst snd]. rewrite (proj2 (inbounds1_spec _ _)), (proj2 (inbounds1_spec _ _)); auto;
      unfold in_axis, between; cbn; rewrite Rmin_left, Rmax_right by lra; lra. }
  rewrite In, Ex, Ey. cbn [negb]. unfold sample_value. cbn [rnx rny r22l Nat.ltb Nat.leb andb]. unfold get_zf. cbn [rzf r22l bind sampled].
  unfold rgi_nearest, rgi_locate, zgrid_x, zgrid_y. cbn [zxrev zyrev z22 oriented xbuf xh r22l zx zy nth filter].
  replace (Rltb (/ 2) (21 / 2)) with true by (symmetry; apply Rltb_true; lra).
  replace (Rltb (3 / 2) (21 / 2)) with true by (symmetry; apply Rltb_true; lra).
  replace (Rltb (/ 2) (/ 2)) with false by (symmetry; apply Rltb_false; lra).
  replace (Rltb (3 / 2) (/ 2)) with false by (symmetry; apply Rltb_false; lra). cbn [length Nat.min Nat.sub nth].
  replace (Rleb ((21 / 2 - / 2) / (3 / 2 - / 2)) (/ 2)) with false by (symmetry; apply Rleb_false; lra).
  replace (Rleb ((/ 2 - / 2) / (3 / 2 - / 2)) (/ 2)) with true by (symmetry; apply Rleb_true; lra).
  reflexivity.
Qed.
Lemma shift_y_after_sample_raises s z d dx : rzf s = Some z -> shift dx (Some d) None s = Err TypeError.
Proof.
  intros Z. unfold shift. assert (Zx : forall s1, shift_x dx s = Ok s1 -> rzf s1 = Some z).
  { intros s1. unfold shift_x. destruct dx as [n|]; [|intros H; injection H as <-; auto]. destruct (_ && _); [discriminate|].
    cbv zeta. intros H. injection H as <-. destruct (rx _); cbn; destruct (rX s); auto. }
  destruct (shift_x dx s) as [s1|e] eqn:E1; [|unfold shift_x in E1; destruct dx as [n|]; [|discriminate]; destruct (_ && _) in E1; [|discriminate]; cbn; congruence].
  cbn [bind]. specialize (Zx s1 eq_refl).
  destruct (shift_y (Some d) s1) as [s2|e] eqn:E2; [|unfold shift_y in E2; destruct (_ && _) in E2; [|discriminate]; cbn; congruence].
  cbn [bind]. assert (Z2 : rzf s2 = Some z).
  { unfold shift_y in E2. destruct (_ && _) in E2; [discriminate|]. cbv zeta in E2. injection E2 as <-. destruct (ry _); cbn; destruct (rY s1); auto. }
  rewrite Z2. reflexivity.
Qed.

(** bounds handling *)
Lemma inbounds_shift d a x : inbounds1 (shift_axis d a) (x + d) = inbounds1 a x.
Proof.
  destruct (inbounds1 a x) eqn:E.
  - apply inbounds1_spec in E. apply inbounds1_spec. unfold in_axis, between, Rmin, Rmax, shift_axis in *. cbn in *. repeat destruct Rle_dec; lra.
  - apply Bool.not_true_iff_false in E. apply Bool.not_true_iff_false. intros H. apply E. apply inbounds1_spec in H. apply inbounds1_spec.
    unfold in_axis, between, Rmin, Rmax, shift_axis in *. cbn in *. repeat destruct Rle_dec; lra.
Qed.
Theorem sample_shift_equivariant linear be x y dx dy dz s s' : base s -> zinv s -> base s' -> zinv s' ->
  rnx s' = rnx s -> rny s' = rny s ->
  rxlim s' = (fst (rxlim s) + dx, snd (rxlim s) + dx) -> rylim s' = (fst (rylim s) + dy, snd (rylim s) + dy) ->
  rvalues s' = map (oplus dz) (rvalues s) ->
  sampled (sample linear be None (x + dx) (y + dy) s') = result_map (oplus dz) (sampled (sample linear be None x y s)).
Proof.
  intros B Z B' Z' Nx Ny Lx Ly V.
  assert (Ax : xaxis (rgrid s') = shift_axis dx (xaxis (rgrid s))) by (unfold xaxis, rgrid, shift_axis; cbn; rewrite Lx, Nx; reflexivity).
  assert (Ay : yaxis (rgrid s') = shift_axis dy (yaxis (rgrid s))) by (unfold yaxis, rgrid, shift_axis; cbn; rewrite Ly, Ny; reflexivity).
  assert (C : forall r c, cellv s' r c = oplus dz (cellv s r c)).
  { intros r c. unfold cellv. rewrite V, Nx. change (@None R) with (oplus dz None). apply map_nth. }
  assert (Vv : sampled (sample_value linear (x + dx) (y + dy) s') = result_map (oplus dz) (sampled (sample_value linear x y s))).
  { destruct (sample_canon linear x y s B Z) as (s1 & E1 & _). destruct (sample_canon linear (x + dx) (y + dy) s' B' Z') as (s2 & E2 & _).
    rewrite E1, E2. cbn [sampled result_map bind]. f_equal. rewrite Ax, Ay, Nx, Ny. rewrite <- (canon_shift linear _ _ _ _ _ x y dx dy dz).
    unfold canon. rewrite !shift_dcell. destruct (_ && _).
    - destruct linear; [apply rgi_linear_ext|apply rgi_nearest_ext]; intros; apply C.
    - destruct (1 <? rnx s)%nat; [destruct linear; [apply interp1_linear_ext|apply interp1_nearest_ext]; intros; apply C|].
      destruct (1 <? rny s)%nat; [destruct linear; [apply interp1_linear_ext|apply interp1_nearest_ext]; intros; apply C|]. apply C. }
  unfold sample. assert (I : inbounds_xy (rgrid s') (x + dx, y + dy) = inbounds_xy (rgrid s) (x, y)).
  { unfold inbounds_xy. cbn [fst snd]. rewrite Ax, Ay, !inbounds_shift. reflexivity. }
  rewrite I. destruct be; [|exact Vv]. destruct (negb _); [reflexivity|exact Vv].
Qed.
(** the result only depends on the limits, the shape and the values *)
Theorem sample_same_attributes linear be fill x y s s' : base s -> zinv s -> base s' -> zinv s' ->
  rnx s' = rnx s -> rny s' = rny s -> rxlim s' = rxlim s -> rylim s' = rylim s -> rvalues s' = rvalues s ->
  sampled (sample linear be fill x y s') = sampled (sample linear be fill x y s).
Proof.
  intros B Z B' Z' Nx Ny Lx Ly V.
  assert (Vv : sampled (sample_value linear x y s') = sampled (sample_value linear x y s)).
  { destruct (sample_canon linear x y s B Z) as (s1 & E1 & _). destruct (sample_canon linear x y s' B' Z') as (s2 & E2 & _).
    rewrite E1, E2. cbn [sampled bind]. f_equal. replace (rgrid s') with (rgrid s) by (unfold rgrid; congruence). rewrite Nx, Ny.
    assert (C : forall r c, cellv s' r c = cellv s r c) by (intros; apply cellv_eq; auto).
    unfold canon. destruct (_ && _).
    - destruct linear; [apply rgi_linear_ext|apply rgi_nearest_ext]; intros; apply C.
    - destruct (1 <? rnx s)%nat; [destruct linear; [apply interp1_linear_ext|apply interp1_nearest_ext]; intros; apply C|].
      destruct (1 <? rny s)%nat; [destruct linear; [apply interp1_linear_ext|apply interp1_nearest_ext]; intros; apply C|]. apply C. }
  unfold sample. replace (rgrid s') with (rgrid s) by (unfold rgrid; congruence).
  destruct be; [destruct (negb _); [reflexivity|exact Vv]|]. destruct fill; [destruct (negb _); [reflexivity|exact Vv]|exact Vv].
Qed.
