From Coq Require Import Lia Lra.
From Verif Require Import Base BaseLemmas HelpersModel HelpersSpec BoxProofs GridModel GridSpec GridProofs GridProofs2 RasterModel RasterSpec RasterProofs RasterProofs2 RasterProofs3 RasterProofs4.
Open Scope R_scope.

Section Axis.
  Variables (a : axis) (v : list R).
  Hypothesis Ok : axis_ok a.
  Hypothesis C : is_centers a v.
  Let n := length v.
  Let r := Rltb (dcell a) 0.
  Let g := oriented r v.

  Lemma ax_regular : exists p h, regular g p h.
  Proof. eexists _, _. apply (centers_regular a v Ok C). Qed.
  Lemma ax_node k : (k < n)%nat -> nth k g 0 = center a (Z.of_nat (opos r n k)).
  Proof.
    intros H. destruct (opos_inv r n k H) as [H1 H2]. rewrite <- H2 at 1. apply (centers_regular a v Ok C). auto.
  Qed.
  Lemma ax_length : length g = n. Proof. apply oriented_length. Qed.
  Lemma ax_locate x : (2 <= n)%nat -> let '(i, t) := rgi_locate g x in (S i < n)%nat /\ brackets a n x (opos r n i) (opos r n (S i)) t.
  Proof.
    intros L. destruct ax_regular as (p & h & Rg). pose proof (locate_spec g p h x Rg) as H. rewrite ax_length in H. specialize (H L).
    destruct (rgi_locate g x) as [i t]. destruct H as (H1 & H2 & H3 & H4 & H5 & _). split; [exact H1|].
    split; [apply opos_inv; lia|]. split; [apply opos_inv; lia|].
    split; [unfold opos; destruct r; lia|]. rewrite <- !ax_node by lia.
    split; [rewrite H3; lra|]. intros Hb.
    assert (E0 : (nth 0 g 0 = center a 0 /\ nth (n - 1) g 0 = center a (Z.of_nat (n - 1))) \/ (nth 0 g 0 = center a (Z.of_nat (n - 1)) /\ nth (n - 1) g 0 = center a 0)).
    { rewrite !ax_node by lia. unfold opos. destruct r.
      - right. replace (n - 1 - 0)%nat with (n - 1)%nat by lia. replace (n - 1 - (n - 1))%nat with 0%nat by lia. auto.
      - left. auto. }
    assert (Lt : nth 0 g 0 < nth (n - 1) g 0) by (apply (regular_lt g p h); auto; rewrite ax_length; lia).
    assert (B : nth 0 g 0 <= x <= nth (n - 1) g 0).
    { unfold between in Hb. destruct E0 as [[E1 E2]|[E1 E2]]; rewrite <- E1, <- E2 in Hb; [rewrite Rmin_left, Rmax_right in Hb by lra|rewrite Rmin_right, Rmax_left in Hb by lra]; lra. }
    split; [apply H4|apply H5]; lra.
  Qed.
  Lemma ax_nearest x : (2 <= n)%nat -> let '(i, t) := rgi_locate g x in
    nearest_cell a n x (opos r n (if Rleb t (/ 2) then i else S i)).
  Proof.
    intros L. destruct ax_regular as (p & h & Rg). pose proof (locate_nearest g p h x Rg) as H. rewrite ax_length in H. specialize (H L).
    destruct (rgi_locate g x) as [i t]. cbv zeta in H. set (m := if Rleb t (/ 2) then i else S i) in *. destruct H as [H1 H2].
    split; [apply opos_inv; auto|]. intros j Hj. destruct (opos_inv r n j Hj) as [J1 J2].
    rewrite <- ax_node by auto. rewrite <- J2. rewrite <- ax_node by auto. apply H2. auto.
  Qed.
  Lemma ax_nearest1 (f : nat -> option R) x : (2 <= n)%nat -> exists k, nearest_cell a n x k /\ interp1_nearest g (fun b => f (opos r n b)) x = f k.
  Proof.
    intros L. destruct ax_regular as (p & h & Rg). assert (Rg' := Rg). destruct Rg' as [Hh N]. rewrite ax_length in N.
    unfold interp1_nearest. set (b := map2 _ g (tl g)).
    pose proof ax_length as Lg.
    assert (Ltl : length (tl g) = (n - 1)%nat) by (rewrite <- Lg; destruct g; cbn; lia).
    assert (Stl : forall k, nth k (tl g) 0 = nth (S k) g 0) by (intros k; destruct g; [destruct k; reflexivity|reflexivity]).
    assert (Lb : length b = (n - 1)%nat) by (unfold b; rewrite map2_length, Ltl, Lg; lia).
    assert (Nb : forall k, (k < n - 1)%nat -> nth k b 0 = p + (INR k + / 2) * h).
    { intros k Hk. unfold b. replace 0 with ((0 + 0) / 2) by lra. 
      assert (G : forall l1 l2 k, (k < length l1)%nat -> (k < length l2)%nat -> nth k (map2 (fun a0 b0 => (a0 + b0) / 2) l1 l2) ((0 + 0) / 2) = (nth k l1 0 + nth k l2 0) / 2).
      { induction l1 as [|u l1 IH]; intros l2 k' H1 H2; [cbn in H1; lia|]. destruct l2; [cbn in H2; lia|]. destruct k'; [reflexivity|]. cbn. apply IH; cbn in *; lia. }
      rewrite G by lia. rewrite Stl.
      rewrite !N, S_INR by lia. field. }
    rewrite ax_length. destruct (count_lt b x) as (A1 & A2 & A3).
    { rewrite Lb. intros i j H. rewrite !Nb by lia. apply Rplus_lt_compat_l, Rmult_lt_compat_r; auto. assert (INR i < INR j) by (apply lt_INR; lia). lra. }
    set (m := length (filter (fun b0 => Rltb b0 x) b)) in *. rewrite Lb in *. replace (Nat.min m (n - 1)) with m by lia.
    exists (opos r n m). split; [|reflexivity].
    split; [apply opos_inv; lia|]. intros j Hj. destruct (opos_inv r n j Hj) as [J1 J2].
    rewrite <- ax_node by lia. rewrite <- J2, <- ax_node by auto. rewrite !N by lia. set (q := opos r n j) in *.
    destruct (lt_eq_lt_dec q m) as [[Q|Q]|Q].
    - specialize (A2 (m - 1)%nat ltac:(lia)). rewrite Nb in A2 by lia. rewrite minus_INR in A2 by lia. change (INR 1) with 1 in A2.
      apply INR_le1 in Q. assert (H1 : (INR m - 1 + / 2) * h + p < x) by lra.
      assert (H2 : INR q * h <= (INR m - 1) * h) by (apply Rmult_le_compat_r; lra).
      rewrite (Rabs_right (x - (p + INR q * h))) by lra. apply Rabs_le. split; lra.
    - rewrite Q. lra.
    - specialize (A3 m ltac:(lia)). rewrite Nb in A3 by lia.
      apply INR_le1 in Q.
      assert (H2 : (INR m + 1) * h <= INR q * h) by (apply Rmult_le_compat_r; lra).
      rewrite (Rabs_left1 (x - (p + INR q * h))) by lra. apply Rabs_le. split; lra.
  Qed.
End Axis.

Lemma nearest_single a x : nearest_cell a 1 x 0.
Proof. split; [lia|]. intros j Hj. replace j with 0%nat by lia. lra. Qed.

Lemma is_centers_len s v : is_centers (xaxis (rgrid s)) v -> length v = rnx s.
Proof. intros [L _]. cbn in L. rewrite Nat2Z.id in L. exact L. Qed.
Lemma is_centers_leny s v : is_centers (yaxis (rgrid s)) v -> length v = rny s.
Proof. intros [L _]. cbn in L. rewrite Nat2Z.id in L. exact L. Qed.
Lemma cellv_eq s s' r c : rvalues s' = rvalues s -> rnx s' = rnx s -> cellv s' r c = cellv s r c.
Proof. unfold cellv. intros -> ->. reflexivity. Qed.
Lemma rgrid_dims s s' : rgrid s' = rgrid s -> rnx s' = rnx s /\ rny s' = rny s.
Proof. unfold rgrid. intros H. injection H as H1 H2 _ _. lia. Qed.

(** ** nearest neighbour *)
Theorem sample_nearest_spec x y s : base s -> zinv s ->
  exists r c s', sample_value false x y s = Ok (cellv s r c, s')
    /\ nearest_cell (xaxis (rgrid s)) (rnx s) x c /\ nearest_cell (yaxis (rgrid s)) (rny s) y r.
Proof.
  intros B Z. destruct (grid_dims s (b_ok s B)) as [Dx Dy]. destruct (b_ok s B) as [Ax Ay]. unfold sample_value.
  destruct (Nat.ltb_spec 1 (rnx s)) as [Nx|Nx]; destruct (Nat.ltb_spec 1 (rny s)) as [Ny|Ny]; cbn [andb].
  - destruct (get_zf_spec s B Z) as (z & s' & -> & H2 & H3 & H4 & H5 & H6 & H7). cbn [bind].
    specialize (H4 z H2). assert (H4' := H4). destruct H4' as (A1 & A2 & A3 & A4 & A5 & A6 & A7 & A8 & A9 & A10 & A11).
    rewrite H5 in *. destruct (rgrid_dims s s' H5) as [Ex Ey].
    unfold rgi_nearest, zgrid_x, zgrid_y. rewrite A6, A7.
    pose proof (ax_nearest _ _ Ax A8 x) as Qx. pose proof (ax_nearest _ _ Ay A9 y) as Qy.
    rewrite (is_centers_len s) in Qx by auto. rewrite (is_centers_leny s) in Qy by auto. specialize (Qx ltac:(lia)). specialize (Qy ltac:(lia)).
    destruct (rgi_locate _ x) as [i t]. destruct (rgi_locate _ y) as [j u].
    eexists _, _, s'. split; [|split; [exact Qx|exact Qy]].
    rewrite zvalue_cell by auto. rewrite A6, A7, Ex, Ey. rewrite (cellv_eq s s') by auto. reflexivity.
  - assert (Ny1 : rny s = 1%nat) by lia.
    destruct (get_x_spec s B) as (p & s' & -> & E1 & B1 & Eg & F1 & F2 & F3 & F4 & F5 & _). cbn [bind].
    assert (Q := proj2 (b_x s' B1 p E1)). rewrite Eg in Q.
    assert (V : rvalues s' = rvalues s) by (unfold rvalues, abuf; congruence).
    pose proof (ax_nearest1 _ _ Ax Q (fun k => cellv s' 0 k) x) as H. rewrite (is_centers_len s) in H by auto.
    destruct (H ltac:(lia)) as (k & K1 & K2).
    exists 0%nat, k, s'. split; [|split; [exact K1|rewrite Ny1; apply nearest_single]].
    rewrite F5. rewrite <- (cellv_eq s s') by auto. do 2 f_equal. exact K2.
  - assert (Nx1 : rnx s = 1%nat) by lia.
    destruct (get_y_spec s B) as (p & s' & -> & E1 & B1 & Eg & F1 & F2 & F3 & F4 & F5 & _). cbn [bind].
    assert (Q := proj2 (b_y s' B1 p E1)). rewrite Eg in Q.
    assert (V : rvalues s' = rvalues s) by (unfold rvalues, abuf; congruence).
    pose proof (ax_nearest1 _ _ Ay Q (fun k => cellv s' k 0) y) as H. rewrite (is_centers_leny s) in H by auto.
    destruct (H ltac:(lia)) as (k & K1 & K2).
    exists k, 0%nat, s'. split; [|split; [rewrite Nx1; apply nearest_single|exact K1]].
    rewrite F4. rewrite <- (cellv_eq s s') by auto. do 2 f_equal. exact K2.
  - exists 0%nat, 0%nat, s. replace (rnx s) with 1%nat by lia. replace (rny s) with 1%nat by lia.
    split; [reflexivity|split; apply nearest_single].
Qed.

(** ** linear *)
Definition lerp (t : R) (a b : option R) : option R := oadd (oscale (1 - t) a) (oscale t b).
Theorem sample_linear_spec x y s : base s -> zinv s -> (1 < rnx s)%nat -> (1 < rny s)%nat ->
  exists c c' t r r' u s',
    brackets (xaxis (rgrid s)) (rnx s) x c c' t /\ brackets (yaxis (rgrid s)) (rny s) y r r' u /\
    sample_value true x y s = Ok (
      oadd (oadd (oscale ((1 - t) * (1 - u)) (cellv s r c)) (oscale ((1 - t) * u) (cellv s r' c)))
           (oadd (oscale (t * (1 - u)) (cellv s r c')) (oscale (t * u) (cellv s r' c'))), s').
Proof.
  intros B Z Nx Ny. destruct (b_ok s B) as [Ax Ay]. unfold sample_value.
  apply Nat.ltb_lt in Nx, Ny. rewrite Nx, Ny. cbn [andb]. apply Nat.ltb_lt in Nx, Ny.
  destruct (get_zf_spec s B Z) as (z & s' & -> & H2 & H3 & H4 & H5 & H6 & H7). cbn [bind].
  specialize (H4 z H2). assert (H4' := H4). destruct H4' as (A1 & A2 & A3 & A4 & A5 & A6 & A7 & A8 & A9 & A10 & A11).
  rewrite H5 in *. destruct (rgrid_dims s s' H5) as [Ex Ey].
  unfold rgi_linear, zgrid_x, zgrid_y. rewrite A6, A7.
  pose proof (ax_locate _ _ Ax A8 x) as Qx. pose proof (ax_locate _ _ Ay A9 y) as Qy.
  rewrite (is_centers_len s) in Qx by auto. rewrite (is_centers_leny s) in Qy by auto. specialize (Qx ltac:(lia)). specialize (Qy ltac:(lia)).
  destruct (rgi_locate _ x) as [i t]. destruct (rgi_locate _ y) as [j u]. destruct Qx as [Ix Qx]. destruct Qy as [Iy Qy].
  eexists _, _, t, _, _, u, s'. split; [exact Qx|]. split; [exact Qy|].
  rewrite !zvalue_cell by auto. rewrite A6, A7, Ex, Ey. rewrite !(cellv_eq s s') by auto. reflexivity.
Qed.
Theorem sample_linear_row x y s : base s -> (1 < rnx s)%nat -> rny s = 1%nat ->
  exists c c' t s', brackets (xaxis (rgrid s)) (rnx s) x c c' t /\ sample_value true x y s = Ok (lerp t (cellv s 0 c) (cellv s 0 c'), s').
Proof.
  intros B Nx Ny. destruct (b_ok s B) as [Ax Ay]. unfold sample_value.
  apply Nat.ltb_lt in Nx. rewrite Nx, Ny. cbn [andb Nat.ltb Nat.leb]. apply Nat.ltb_lt in Nx.
  destruct (get_x_spec s B) as (p & s' & -> & E1 & B1 & Eg & F1 & F2 & F3 & F4 & F5 & _). cbn [bind].
  assert (Q := proj2 (b_x s' B1 p E1)). rewrite Eg in Q.
  assert (V : rvalues s' = rvalues s) by (unfold rvalues, abuf; congruence).
  pose proof (ax_locate _ _ Ax Q x) as Qx. rewrite (is_centers_len s) in Qx by auto. specialize (Qx ltac:(lia)).
  unfold interp1_linear. destruct (rgi_locate _ x) as [i t]. destruct Qx as [Ix Qx].
  eexists _, _, t, s'. split; [exact Qx|]. rewrite F5, !(cellv_eq s s') by auto. reflexivity.
Qed.
Theorem sample_linear_col x y s : base s -> rnx s = 1%nat -> (1 < rny s)%nat ->
  exists r r' u s', brackets (yaxis (rgrid s)) (rny s) y r r' u /\ sample_value true x y s = Ok (lerp u (cellv s r 0) (cellv s r' 0), s').
Proof.
  intros B Nx Ny. destruct (b_ok s B) as [Ax Ay]. unfold sample_value.
  apply Nat.ltb_lt in Ny. rewrite Nx, Ny. cbn [andb Nat.ltb Nat.leb]. apply Nat.ltb_lt in Ny.
  destruct (get_y_spec s B) as (p & s' & -> & E1 & B1 & Eg & F1 & F2 & F3 & F4 & F5 & _). cbn [bind].
  assert (Q := proj2 (b_y s' B1 p E1)). rewrite Eg in Q.
  assert (V : rvalues s' = rvalues s) by (unfold rvalues, abuf; congruence).
  pose proof (ax_locate _ _ Ay Q y) as Qx. rewrite (is_centers_leny s) in Qx by auto. specialize (Qx ltac:(lia)).
  unfold interp1_linear. destruct (rgi_locate _ y) as [i t]. destruct Qx as [Ix Qx].
  eexists _, _, t, s'. split; [exact Qx|]. rewrite F4, !(cellv_eq s s') by auto. reflexivity.
Qed.
