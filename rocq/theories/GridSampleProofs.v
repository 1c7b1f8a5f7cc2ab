From Coq Require Import Lia Lra.
From Verif Require Import Base BaseLemmas HelpersModel HelpersSpec BoxProofs GridModel GridSpec GridProofs GridProofs2 RasterModel RasterSpec RasterProofs RasterProofs2 RasterProofs3 RasterProofs4 RasterProofs5 RasterProofs6 GridSampleModel.
Open Scope R_scope.

(** ** states *)
Lemma get_x_ah a s : get_x (upd_ah s a) = (let* (p, s') := get_x s in Ok (p, upd_ah s' a)).
Proof. unfold get_x. cbn [rx upd_ah]. destruct (rx s); [reflexivity|]. change (rgrid (upd_ah s a)) with (rgrid s). destruct (centers (xaxis (rgrid s))); reflexivity. Qed.
Lemma get_y_ah a s : get_y (upd_ah s a) = (let* (p, s') := get_y s in Ok (p, upd_ah s' a)).
Proof. unfold get_y. cbn [ry upd_ah]. destruct (ry s); [reflexivity|]. change (rgrid (upd_ah s a)) with (rgrid s). destruct (centers (yaxis (rgrid s))); reflexivity. Qed.
Lemma set_nth_twice {A} n (v w : A) l : set_nth n v (set_nth n w l) = set_nth n v l.
Proof. revert n. induction l as [|x l IH]; intros [|n]; cbn; try reflexivity. now rewrite IH. Qed.
Lemma set_nth_same {A} n (l : list A) d : set_nth n (nth n l d) l = l.
Proof. revert n. induction l as [|x l IH]; intros [|n]; cbn; try reflexivity. now rewrite IH. Qed.
Lemma nans_back_self lo l : nans_back l (map (fun v => Some (no_nans lo v)) l) = l.
Proof. unfold nans_back. induction l as [|[x|] l IH]; cbn; [reflexivity| |]; now rewrite IH. Qed.
Lemma upd_ah_twice s a b : upd_ah (upd_ah s a) b = upd_ah s b. Proof. reflexivity. Qed.
Lemma upd_ah_self s : upd_ah s (ah s) = s. Proof. destruct s. reflexivity. Qed.

(** ** order *)
Definition increasing (l : list R) : Prop := forall i j, (i < j < length l)%nat -> nth i l 0 < nth j l 0.
Definition decreasing (l : list R) : Prop := forall i j, (i < j < length l)%nat -> nth j l 0 < nth i l 0.
Lemma nondecr_iff l : nondecr l = true <-> forall i j, (i < j < length l)%nat -> nth i l 0 <= nth j l 0.
Proof.
  induction l as [|a l IH]; [cbn; split; [intros _ i j H; lia|reflexivity]|]. destruct l as [|b l]; [cbn; split; [intros _ i j H; lia|reflexivity]|].
  change (nondecr (a :: b :: l)) with (Rleb a b && nondecr (b :: l))%bool. rewrite Bool.andb_true_iff, IH, Rleb_true. split.
  - intros [A H] [|i] [|j] L; cbn [length] in L; try lia; cbn [nth].
    + destruct j as [|j]; [exact A|]. specialize (H 0%nat (S j)). cbn [length nth] in H. assert (b <= nth j l 0) by (apply H; lia). lra.
    + apply (H i j). cbn [length]. lia.
  - intros H. split; [apply (H 0%nat 1%nat); cbn; lia|]. intros i j L. apply (H (S i) (S j)). cbn [length] in *. lia.
Qed.
Lemma increasing_oriented l : increasing l -> nondecr (oriented (backwards l) l) = true.
Proof.
  intros H. replace (backwards l) with false; [|].
  - cbn. apply nondecr_iff. intros i j L. apply Rlt_le, H. exact L.
  - destruct l as [|a [|b l]]; [reflexivity|reflexivity|]. cbn. specialize (H 0%nat 1%nat). cbn in H. rewrite (proj2 (Rltb_true _ _)); [reflexivity|apply H; lia].
Qed.
Lemma decreasing_oriented l : decreasing l -> nondecr (oriented (backwards l) l) = true.
Proof.
  intros H. destruct (le_lt_dec (length l) 1) as [S1|S1].
  { destruct l as [|a [|b l]]; [reflexivity|reflexivity|cbn in S1; lia]. }
  replace (backwards l) with true.
  - cbn. apply nondecr_iff. rewrite rev_length. intros i j L. rewrite !rev_nth by lia. apply Rlt_le, H. lia.
  - destruct l as [|a [|b l]]; [cbn in S1; lia|cbn in S1; lia|]. cbn. specialize (H 0%nat 1%nat). cbn in H. rewrite (proj2 (Rltb_false _ _)); [reflexivity|]. apply Rlt_le, H. lia.
Qed.
Lemma oriented_twice {A} b (l : list A) : oriented b (oriented b l) = l.
Proof. destruct b; cbn; [apply rev_involutive|reflexivity]. Qed.
Lemma rows_oriented {A} (f : R -> R -> A) xb yb xs ys :
  oriented yb (map (oriented xb) (map (fun y => map (fun x => f x y) (oriented xb xs)) (oriented yb ys))) = map (fun y => map (fun x => f x y) xs) ys.
Proof.
  rewrite map_map. rewrite (map_ext (fun y => oriented xb (map (fun x => f x y) (oriented xb xs))) (fun y => map (fun x => f x y) xs)).
  - rewrite oriented_map, oriented_twice. reflexivity.
  - intros y. rewrite oriented_map, oriented_twice. reflexivity.
Qed.

Section Lowest.
Variable lo : R.
(** the bilinear function through the cells, nan replaced *)
Definition surface (s : raster) (x y : R) : R :=
  let xneg := Rltb (dcell (xaxis (rgrid s))) 0 in let yneg := Rltb (dcell (yaxis (rgrid s))) 0 in
  bilinear (oriented xneg (cvec (xaxis (rgrid s)) (rnx s))) (oriented yneg (cvec (yaxis (rgrid s)) (rny s)))
    (fun a b => no_nans lo (cellv s (opos yneg (rny s) b) (opos xneg (rnx s) a))) x y.
Definition entry (s : raster) (x y : R) : option R := hide_low (nan_min (rvalues s)) (surface s (to_range (rxlim s) x) (to_range (rylim s) y)).
Definition accepted (xs ys : list R) : bool := (nondecr (oriented (backwards xs) xs) && nondecr (oriented (backwards ys) ys))%bool.

Lemma bilinear_ext gx gy v w x y : (forall a b, v a b = w a b) -> bilinear gx gy v x y = bilinear gx gy w x y.
Proof. intros H. unfold bilinear. destruct (rgi_locate gx x), (rgi_locate gy y). rewrite !H. reflexivity. Qed.
Lemma no_nans_twice v : no_nans lo (Some (no_nans lo v)) = no_nans lo v. Proof. reflexivity. Qed.

(** the state between: x and y cached, nan replaced *)
Lemma sample_2d_core xs ys s : base s -> exists s3, base s3 /\ (zinv s -> zinv s3) /\ rgrid s3 = rgrid s /\ ah s3 = ah s /\ rarr s3 = rarr s /\ raflt s3 = raflt s /\ rzf s3 = rzf s /\
  sample_2d lo xs ys s =
    if (negb (accepted xs ys) && negb (match xs, ys with [], _ | _, [] => true | _, _ => false end))%bool
    then (poke (map (fun v => Some (no_nans lo v)) (rvalues s)) s3, Err ValueError)
    else (s3, Ok (map (fun y => map (fun x => entry s x y) xs) ys)).
Proof.
  intros B. unfold sample_2d, poke. rewrite get_y_ah.
  destruct (get_y_spec s B) as (py & s2 & E2 & Y2 & B2 & G2 & A2 & R2 & L2 & Ny2 & Nx2 & X2 & _ & _ & Z2 & _ & _ & (t2 & T2)). rewrite E2. cbn [bind]. rewrite get_x_ah.
  destruct (get_x_spec s2 B2) as (px & s3 & E3 & X3 & B3 & G3 & A3 & R3 & L3 & Ny3 & Nx3 & Y3 & _ & _ & Z3 & _ & _ & (t3 & T3)). rewrite E3. cbn [bind].
  exists s3. split; [exact B3|]. split.
  { intros Zi z Hz. rewrite Z3, Z2 in Hz. apply (zf_ok_grow s s3 z (t2 ++ t3)); try congruence; try (apply Zi; exact Hz). rewrite T3, T2, <- app_assoc. reflexivity. }
  split; [congruence|]. split; [congruence|]. split; [congruence|]. split; [congruence|]. split; [congruence|].
  rewrite Y2 in Y3.
  pose proof (proj2 (b_x s3 B3 px X3)) as Cx. pose proof (proj2 (b_y s3 B3 py Y3)) as Cy.
  assert (G : rgrid s3 = rgrid s) by congruence. rewrite G in Cx, Cy. destruct (rgrid_dims s s3 G) as [Dx Dy].
  set (low := map (fun v => Some (no_nans lo v)) (rvalues s)).
  assert (R3s : rarr s3 = rarr s) by congruence. assert (A3s : ah s3 = ah s) by congruence.
  assert (V3 : forall a, rvalues (upd_ah s3 (set_nth (rarr s) a (ah s))) = a).
  { intros a. unfold rvalues, abuf. cbn. rewrite R3s. apply nth_set_nth_eq. exact (b_arr s B). }
  change (xbuf (upd_ah s3 (set_nth (rarr s) low (ah s))) px) with (xbuf s3 px). change (xbuf (upd_ah s3 (set_nth (rarr s) low (ah s))) py) with (xbuf s3 py).
  rewrite (is_centers_unique _ _ _ Cx (cvec_centers (xaxis (rgrid s)) (rnx s) eq_refl)). rewrite (is_centers_unique _ _ _ Cy (cvec_centers (yaxis (rgrid s)) (rny s) eq_refl)).
  unfold accepted. cbv zeta. destruct (_ && negb match xs, ys with [], _ | _, [] => true | _, _ => false end)%bool.
  - f_equal. rewrite A3s, R3s. reflexivity.
  - f_equal.
    + rewrite V3. cbn [rarr upd_ah ah]. rewrite R3s, set_nth_twice. unfold low. rewrite nans_back_self. unfold rvalues, abuf. rewrite set_nth_same, <- A3s. rewrite upd_ah_twice. apply upd_ah_self.
    + f_equal. rewrite rows_oriented. apply map_ext. intros y. apply map_ext. intros x. unfold entry, surface. f_equal. 
      change (rxlim (upd_ah s3 (set_nth (rarr s) low (ah s)))) with (rxlim s3). change (rylim (upd_ah s3 (set_nth (rarr s) low (ah s)))) with (rylim s3).
      assert (Lx : rxlim s3 = rxlim s) by exact (f_equal gxlim G). assert (Ly : rylim s3 = rylim s) by exact (f_equal gylim G). rewrite Lx, Ly.
      apply bilinear_ext. intros a b. change (rny (upd_ah s3 (set_nth (rarr s) low (ah s)))) with (rny s3). change (rnx (upd_ah s3 (set_nth (rarr s) low (ah s)))) with (rnx s3). rewrite Dx, Dy.
      unfold opos, cellv. rewrite V3. unfold low. cbn [rnx upd_ah]. rewrite Dx. set (k := ((if Rltb _ 0 then _ else b) * rnx s + _)%nat).
      destruct (lt_dec k (length (rvalues s))) as [K|K].
      * rewrite (nth_indep _ None (Some (no_nans lo None))) by (rewrite map_length; exact K). rewrite (map_nth (fun v => Some (no_nans lo v))). reflexivity.
      * rewrite !nth_overflow by (rewrite ?map_length; lia). reflexivity.
Qed.

(** the surface: bilinear combination of the cells around *)
Lemma surface_spec s x y : base s -> (1 < rnx s)%nat -> (1 < rny s)%nat ->
  exists c c' t r r' u, brackets (xaxis (rgrid s)) (rnx s) x c c' t /\ brackets (yaxis (rgrid s)) (rny s) y r r' u /\
    surface s x y = (1 - t) * ((1 - u) * no_nans lo (cellv s r c) + u * no_nans lo (cellv s r' c)) + t * ((1 - u) * no_nans lo (cellv s r c') + u * no_nans lo (cellv s r' c')) /\
    (forall z, canon true (xaxis (rgrid s)) (yaxis (rgrid s)) (rnx s) (rny s) (cellv s) x y = Some z -> z = surface s x y) /\
    (canon true (xaxis (rgrid s)) (yaxis (rgrid s)) (rnx s) (rny s) (cellv s) x y = None -> cellv s r c = None \/ cellv s r' c = None \/ cellv s r c' = None \/ cellv s r' c' = None).
Proof.
  intros B Nx Ny. destruct (b_ok s B) as [Ax Ay]. unfold surface, bilinear.
  pose proof (ax_locate _ _ Ax (cvec_centers (xaxis (rgrid s)) (rnx s) eq_refl) x) as Qx. pose proof (ax_locate _ _ Ay (cvec_centers (yaxis (rgrid s)) (rny s) eq_refl) y) as Qy.
  rewrite cvec_length in Qx, Qy. specialize (Qx Nx). specialize (Qy Ny). unfold canon. rewrite (proj2 (Nat.ltb_lt _ _) Nx), (proj2 (Nat.ltb_lt _ _) Ny). cbn [andb]. unfold rgi_linear.
  destruct (rgi_locate (oriented (Rltb (dcell (xaxis (rgrid s))) 0) (cvec (xaxis (rgrid s)) (rnx s))) x) as [i t]. destruct (rgi_locate (oriented (Rltb (dcell (yaxis (rgrid s))) 0) (cvec (yaxis (rgrid s)) (rny s))) y) as [j u].
  destruct Qx as [_ Qx]. destruct Qy as [_ Qy]. do 6 eexists. split; [exact Qx|]. split; [exact Qy|]. split; [reflexivity|].
  set (v1 := cellv s _ _). set (v2 := cellv s _ (opos _ _ i)). set (v3 := cellv s _ (opos _ _ (S i))). set (v4 := cellv s _ (opos _ _ (S i))).
  destruct v1, v2, v3, v4; cbn; split; try discriminate; try (intros _; auto; fail); intros z Hz; injection Hz as <-; ring.
Qed.
End Lowest.
