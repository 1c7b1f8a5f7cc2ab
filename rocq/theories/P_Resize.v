(** C110: resizing of rasters and grids, value limits (Raster.resize, Grid.resize, Raster.zlim, Raster.box3d). *)
From Coq Require Import Lia Lra.
From Verif Require Import Base BaseLemmas HelpersModel GridModel GridSpec GridProofs RasterModel RasterSpec RasterProofs RasterProofs4 P_Raster P_GridSample ResizeModel.
Open Scope R_scope.

(** ** Specification *)
(** cell k of m is taken from between the neighbouring cells i and i' of n, [t] the part of i': the first cells and the last cells correspond, and the others are at equal distances *)
Definition taken_from (n m k i i' : nat) (t : R) : Prop :=
  (i < n)%nat /\ (i' < n)%nat /\ 0 <= t < 1 /\ (t = 0 \/ i' = S i) /\
  (1 - t) * INR i + t * INR i' = if (m =? 1)%nat then 0 else INR k * (INR n - 1) / (INR m - 1).
(** m is the integer nearest to x; of two, the even one *)
Definition rounded_even (x : R) (m : nat) : Prop := Rabs (x - INR m) < / 2 \/ (Rabs (x - INR m) = / 2 /\ Nat.Even m).
Definition mixed (t u a b c d : R) : R := (1 - t) * ((1 - u) * a + u * b) + t * ((1 - u) * c + u * d).
(** integers: nearest, halves away from zero *)
Definition cast_to (flt : bool) (v w : R) : Prop := if flt then w = v else exists z, w = IZR z /\ Rabs (v - w) <= / 2 /\ (Rabs (v - w) = / 2 -> Rabs v < Rabs w).

(** ** Lemmas *)
Lemma zoom_pos n m k : (1 <= n)%nat -> (k < m)%nat -> 0 <= zoom_at n m k <= INR n - 1 /\ zoom_at n m k = if (m =? 1)%nat then 0 else INR k * (INR n - 1) / (INR m - 1).
Proof.
  intros N K. unfold zoom_at. pose proof (le_INR 1 n N) as N'. cbn [INR] in N'. destruct (Nat.eqb_spec m 1) as [->|M].
  - assert (k = 0%nat) by lia. subst. cbn [INR]. lra.
  - assert (M2 : INR 2 <= INR m) by (apply le_INR; lia). cbn [INR] in M2. assert (K1 : INR (S k) <= INR m) by (apply le_INR; lia). rewrite S_INR in K1. pose proof (pos_INR k) as K0.
    split; [|field; lra]. assert (Q : 0 <= (INR n - 1) / (INR m - 1)) by (apply Rmult_le_pos; [lra|left; apply Rinv_0_lt_compat; lra]). split; [nra|].
    apply Rle_trans with ((INR m - 1) * ((INR n - 1) / (INR m - 1))); [apply Rmult_le_compat_r; lra|]. right. field. lra.
Qed.
Lemma zoom_axis_spec n m k : (1 <= n)%nat -> (k < m)%nat -> let '(i, i', t) := zoom_axis n m k in taken_from n m k i i' t.
Proof.
  intros N K. destruct (zoom_pos n m k N K) as [[P0 P1] PE]. unfold zoom_axis, taken_from. rewrite <- PE. set (p := zoom_at n m k) in *.
  pose proof (Rfloor_lb p) as L. pose proof (Rfloor_ub p) as U. assert (F0 : (0 <= Rfloor p)%Z) by (apply Rfloor_le; lra).
  assert (FI : INR (Z.to_nat (Rfloor p)) = IZR (Rfloor p)) by (rewrite INR_IZR_INZ, Z2Nat.id by exact F0; reflexivity).
  assert (FN : (Z.to_nat (Rfloor p) < n)%nat). { apply INR_lt. rewrite FI. pose proof (le_INR 1 n N) as N'. cbn [INR] in N'. lra. }
  split; [exact FN|]. unfold mirror. destruct (Nat.ltb_spec (S (Z.to_nat (Rfloor p))) n) as [Lt|Ge].
  - split; [exact Lt|]. split; [lra|]. split; [right; reflexivity|]. rewrite S_INR, FI. ring.
  - assert (E : p = IZR (Rfloor p)). { assert (Q : (n - 1 <= Z.to_nat (Rfloor p))%nat) by lia. apply le_INR in Q. rewrite minus_INR in Q by exact N. cbn [INR] in Q. lra. }
    split; [lia|]. split; [lra|]. split; [left; lra|]. rewrite FI. assert (T0 : p - IZR (Rfloor p) = 0) by lra. rewrite T0. lra.
Qed.
Lemma resize_inv scale s s' : resize scale s = Ok s' -> zoom_size (rny s) scale = Z.of_nat (rny s') /\ zoom_size (rnx s) scale = Z.of_nat (rnx s') /\
  s' = set_array (rny s') (rnx s') (flat_map (fun r => map (zoom_cell s (rny s') (rnx s') r) (seq 0 (rnx s'))) (seq 0 (rny s'))) (raflt s) s.
Proof.
  unfold resize. set (ny := zoom_size (rny s) scale). set (nx := zoom_size (rnx s) scale). destruct (Z.ltb_spec ny 0); [discriminate|]. destruct (Z.ltb_spec nx 0); [discriminate|]. cbn [orb]. intros E. injection E as E.
  assert (EY : rny s' = Z.to_nat ny) by (rewrite <- E; unfold set_array; destruct (_ && _)%bool; reflexivity). assert (EX : rnx s' = Z.to_nat nx) by (rewrite <- E; unfold set_array; destruct (_ && _)%bool; reflexivity).
  rewrite EY, EX. split; [lia|]. split; [lia|]. symmetry. exact E.
Qed.
Lemma cell_set_array ny nx v flt s r c : cellv (set_array ny nx v flt s) r c = nth (r * nx + c) v None.
Proof.
  unfold cellv. assert (Ev : rvalues (set_array ny nx v flt s) = v).
  { unfold set_array, rvalues, abuf. destruct (_ && _)%bool; cbn [upd_arr upd_ah upd_zf upd_x upd_y ah rarr]; rewrite app_nth2, Nat.sub_diag by lia; reflexivity. }
  rewrite Ev. unfold set_array. destruct (_ && _)%bool; reflexivity.
Qed.
Lemma resize_cell scale s s' r c : resize scale s = Ok s' -> (r < rny s')%nat -> (c < rnx s')%nat -> cellv s' r c = zoom_cell s (rny s') (rnx s') r c.
Proof.
  intros E Hr Hc. destruct (resize_inv _ _ _ E) as (_ & _ & E'). rewrite E' at 1. rewrite cell_set_array, flat_map_concat_map. set (ny := rny s') in *. set (nx := rnx s') in *.
  rewrite (concat_nth _ nx) by (rewrite ?map_length, ?seq_length; try assumption; intros row I; apply in_map_iff in I as (q & <- & _); rewrite map_length, seq_length; reflexivity).
  rewrite (nth_indep _ [] (map (zoom_cell s ny nx 0) (seq 0 nx))) by (rewrite map_length, seq_length; exact Hr). rewrite (map_nth (fun r => map (zoom_cell s ny nx r) (seq 0 nx))), seq_nth by exact Hr. cbn [Nat.add].
  rewrite (nth_indep _ None (zoom_cell s ny nx r 0)) by (rewrite map_length, seq_length; exact Hc). rewrite map_nth, seq_nth by exact Hc. reflexivity.
Qed.
Lemma cast_spec flt v : cast_to flt v (zoom_cast flt v).
Proof.
  unfold cast_to, zoom_cast. destruct flt; [reflexivity|]. eexists. split; [reflexivity|]. unfold Rtrunc. destruct (Rltb 0 v) eqn:V; [apply Rltb_true in V|apply Rltb_false in V].
  - rewrite (proj2 (Rltb_false (v + / 2) 0)) by lra. pose proof (Rfloor_lb (v + / 2)). pose proof (Rfloor_ub (v + / 2)). split; [apply Rabs_le; lra|]. intros T. rewrite (Rabs_right v) by lra. unfold Rabs in *. destruct (Rcase_abs (v - IZR (Rfloor (v + / 2)))); destruct (Rcase_abs (IZR (Rfloor (v + / 2)))); lra.
  - rewrite (proj2 (Rltb_true (v - / 2) 0)) by lra. unfold Rceil. set (q := - (v - / 2)). pose proof (Rfloor_lb q). pose proof (Rfloor_ub q). rewrite opp_IZR. subst q. set (q := IZR (Rfloor (- (v - / 2)))) in *. split; [apply Rabs_le; lra|]. intros T. rewrite (Rabs_left1 v) by lra. unfold Rabs in *. destruct (Rcase_abs (v - - q)); destruct (Rcase_abs (- q)); lra.
Qed.
Lemma reached_resize scale s s' : reached s -> resize scale s = Ok s' -> (1 <= rny s')%nat -> (1 <= rnx s')%nat -> reached s'.
Proof.
  intros (s0 & ops & F & H) E Hy Hx. destruct (resize_inv _ _ _ E) as (_ & _ & E'). exists s0, (ops ++ [RSetArray (rny s') (rnx s') (flat_map (fun r => map (zoom_cell s (rny s') (rnx s') r) (seq 0 (rnx s'))) (seq 0 (rny s'))) (raflt s)]). split; [exact F|].
  eapply sample_safe_app; [exact H|]. econstructor; [|cbn [rstep]; reflexivity|exact I|rewrite <- E'; constructor]. cbn [op_ok]. split; [exact Hy|]. split; [exact Hx|].
  rewrite flat_map_concat_map, (concat_len _ (rnx s')); [rewrite map_length, seq_length; reflexivity|]. intros row I. apply in_map_iff in I as (q & <- & _). rewrite map_length, seq_length. reflexivity.
Qed.
Lemma base_size s : base s -> (1 <= rny s)%nat /\ (1 <= rnx s)%nat.
Proof. intros B. destruct (b_ok s B) as [[_ X] [_ Y]]. cbn in X, Y. lia. Qed.

(** ** Theorems *)
(** Resizing changes the array only: its size is the size times the scale, rounded to an integer (halves to even), the limits stay, and the raster can be used as before, with new cell coordinates. It fails only if a size would be negative. *)
Theorem resize_size : forall scale s, reached s ->
  (0 <= scale -> exists s', resize scale s = Ok s') /\
  (forall e, resize scale s = Err e -> e = ValueError /\ scale < 0) /\
  (forall s', resize scale s = Ok s' -> rounded_even (INR (rnx s) * scale) (rnx s') /\ rounded_even (INR (rny s) * scale) (rny s') /\
    rxlim s' = rxlim s /\ rylim s' = rylim s /\ raflt s' = raflt s /\ ((1 <= rny s')%nat -> (1 <= rnx s')%nat -> reached s')).
Proof.
  intros scale s Re. assert (RE : forall x m, Rround x = Z.of_nat m -> rounded_even x m).
  { intros x m E. unfold rounded_even. pose proof (Rround_near x) as Nr. rewrite E, <- INR_IZR_INZ in Nr. destruct (Rle_lt_or_eq_dec _ _ Nr) as [L|Eq]; [left; exact L|right]. split; [exact Eq|].
    unfold Rround in E. set (f := Rfloor x) in *. rewrite INR_IZR_INZ, <- E in Eq. destruct (Rltb (x - IZR f) (/ 2)) eqn:A.
    - apply Rltb_true in A. pose proof (Rfloor_lb x) as LB. fold f in LB. unfold Rabs in Eq. destruct (Rcase_abs _); lra.
    - apply Rltb_false in A. destruct (Rltb (/ 2) (x - IZR f)) eqn:B.
      + apply Rltb_true in B. pose proof (Rfloor_ub x) as UB. fold f in UB. rewrite plus_IZR in Eq. unfold Rabs in Eq. destruct (Rcase_abs _); lra.
      + apply Nat.even_spec. destruct (Z.even f) eqn:Ev.
        * rewrite E in Ev. rewrite <- Ev. clear. induction m using (well_founded_induction Wf_nat.lt_wf). destruct m as [|[|m]]; [reflexivity|reflexivity|]. rewrite !Nat2Z.inj_succ, Z.even_succ_succ. cbn [Nat.even]. apply H. lia.
        * assert (Ev' : Z.even (Z.of_nat m) = true) by (rewrite <- E, Z.add_1_r, Z.even_succ, <- Z.negb_even, Ev; reflexivity). rewrite <- Ev'. clear. induction m using (well_founded_induction Wf_nat.lt_wf). destruct m as [|[|m]]; [reflexivity|reflexivity|]. rewrite !Nat2Z.inj_succ, Z.even_succ_succ. cbn [Nat.even]. apply H. lia. }
  assert (NN : forall n, 0 <= scale -> (0 <= zoom_size n scale)%Z).
  { intros n H. unfold zoom_size. pose proof (Rround_near (INR n * scale)) as Nr. pose proof (pos_INR n). assert (0 <= INR n * scale) by nra. destruct (Z_lt_le_dec (Rround (INR n * scale)) 0) as [L|]; [|assumption]. assert (L' : (Rround (INR n * scale) <= -1)%Z) by lia. apply IZR_le in L'. unfold Rabs in Nr. destruct (Rcase_abs _); lra. }
  split; [|split].
  - intros H. unfold resize. destruct (Z.ltb_spec (zoom_size (rny s) scale) 0); [specialize (NN (rny s) H); lia|]. destruct (Z.ltb_spec (zoom_size (rnx s) scale) 0); [specialize (NN (rnx s) H); lia|]. eexists. reflexivity.
  - intros e. unfold resize. destruct ((zoom_size (rny s) scale <? 0) || (zoom_size (rnx s) scale <? 0))%Z%bool eqn:B; [|discriminate]. intros E. injection E as <-. split; [reflexivity|].
    destruct (Rlt_le_dec scale 0) as [|G]; [assumption|]. apply orb_prop in B as [B|B]; apply Z.ltb_lt in B; [specialize (NN (rny s) G)|specialize (NN (rnx s) G)]; lia.
  - intros s' E. destruct (resize_inv _ _ _ E) as (Ey & Ex & E'). split; [apply RE; exact Ex|]. split; [apply RE; exact Ey|].
    split; [rewrite E'; unfold set_array; destruct (_ && _)%bool; reflexivity|]. split; [rewrite E'; unfold set_array; destruct (_ && _)%bool; reflexivity|]. split; [rewrite E'; unfold set_array; destruct (_ && _)%bool; reflexivity|].
    intros Hy Hx. exact (reached_resize scale s s' Re E Hy Hx).
Qed.
Print Assumptions resize_size.

(** Each new value is interpolated between the four cells around, the corners of the raster kept; it is NaN exactly if one of the four is, whatever its weight. *)
Theorem resize_values : forall scale s s' r c, reached s -> resize scale s = Ok s' -> (r < rny s')%nat -> (c < rnx s')%nat ->
  exists i i' t j j' u, taken_from (rny s) (rny s') r i i' t /\ taken_from (rnx s) (rnx s') c j j' u /\
    (cellv s' r c = None <-> cellv s i j = None \/ cellv s i j' = None \/ cellv s i' j = None \/ cellv s i' j' = None) /\
    forall a b d e, cellv s i j = Some a -> cellv s i j' = Some b -> cellv s i' j = Some d -> cellv s i' j' = Some e ->
      exists w, cellv s' r c = Some w /\ cast_to (raflt s) (mixed t u a b d e) w.
Proof.
  intros scale s s' r c Re E Hr Hc. destruct (reached_base s Re) as [B _]. destruct (base_size s B) as [Ny Nx]. rewrite (resize_cell _ _ _ _ _ E Hr Hc). unfold zoom_cell.
  pose proof (zoom_axis_spec (rny s) (rny s') r Ny Hr) as TY. pose proof (zoom_axis_spec (rnx s) (rnx s') c Nx Hc) as TX. destruct (zoom_axis (rny s) (rny s') r) as [[i i'] t]. destruct (zoom_axis (rnx s) (rnx s') c) as [[j j'] u].
  exists i, i', t, j, j', u. split; [exact TY|]. split; [exact TX|]. split.
  - destruct (cellv s i j), (cellv s i j'), (cellv s i' j), (cellv s i' j'); cbn; split; intros H; try discriminate; auto; repeat (destruct H as [H|H]); try discriminate.
  - intros a b d e -> -> -> ->. cbn [oscale oadd option_map]. eexists. split; [reflexivity|]. replace (mixed t u a b d e) with ((1 - t) * (1 - u) * a + (1 - t) * u * b + (t * (1 - u) * d + t * u * e)) by (unfold mixed; ring). apply cast_spec.
Qed.
Print Assumptions resize_values.

Lemma all_cells s : no_nan s -> forall r c, (r < rny s)%nat -> (c < rnx s)%nat -> exists a, cellv s r c = Some a.
Proof. intros N r c Hr Hc. destruct (cellv s r c) eqn:E; [eexists; reflexivity|]. exfalso. exact (N r c Hr Hc E). Qed.
Lemma mixed_range t u a b d e lo hi : 0 <= t < 1 -> 0 <= u < 1 -> lo <= a <= hi -> lo <= b <= hi -> lo <= d <= hi -> lo <= e <= hi -> lo <= mixed t u a b d e <= hi.
Proof.
  intros T U A B D E. unfold mixed. assert (P : forall p q, lo <= p <= hi -> lo <= q <= hi -> lo <= (1 - u) * p + u * q <= hi) by (intros p q Hp Hq; split; nra).
  assert (Q : forall p q, lo <= p <= hi -> lo <= q <= hi -> lo <= (1 - t) * p + t * q <= hi) by (intros p q Hp Hq; split; nra). apply Q; apply P; assumption.
Qed.
(** New values are between the lowest and the highest of the old; in particular a constant raster stays constant. *)
Theorem resize_range : forall scale s s' lo hi, reached s -> resize scale s = Ok s' -> (raflt s = false -> exists z0 z1, lo = IZR z0 /\ hi = IZR z1) ->
  (forall r c, (r < rny s)%nat -> (c < rnx s)%nat -> exists v, cellv s r c = Some v /\ lo <= v <= hi) ->
  forall r c, (r < rny s')%nat -> (c < rnx s')%nat -> exists v, cellv s' r c = Some v /\ lo <= v <= hi.
Proof.
  intros scale s s' lo hi Re E ZI H r c Hr Hc. destruct (resize_values scale s s' r c Re E Hr Hc) as (i & i' & t & j & j' & u & (I1 & I2 & T1 & _) & (J1 & J2 & U1 & _) & _ & V).
  destruct (H i j I1 J1) as (a & Ea & Ra). destruct (H i j' I1 J2) as (b & Eb & Rb). destruct (H i' j I2 J1) as (d & Ed & Rd). destruct (H i' j' I2 J2) as (e & Ee & Rre).
  destruct (V a b d e Ea Eb Ed Ee) as (w & Ew & C). exists w. split; [exact Ew|]. pose proof (mixed_range t u a b d e lo hi T1 U1 Ra Rb Rd Rre) as M. unfold cast_to in C. destruct (raflt s); [subst w; exact M|].
  destruct (ZI eq_refl) as (z0 & z1 & -> & ->). destruct C as (z & -> & N & T). set (v := mixed t u a b d e) in *. split; apply IZR_le.
  - destruct (Z_lt_le_dec z z0) as [L|]; [exfalso|assumption]. assert (L' : (z + 1 <= z0)%Z) by lia. apply IZR_le in L'. rewrite plus_IZR in L'. unfold Rabs in N. destruct (Rcase_abs _); lra.
  - destruct (Z_lt_le_dec z1 z) as [L|]; [exfalso|assumption]. assert (L' : (z1 + 1 <= z)%Z) by lia. apply IZR_le in L'. rewrite plus_IZR in L'. unfold Rabs in N. destruct (Rcase_abs _); lra.
Qed.
Print Assumptions resize_range.

Lemma taken_whole n m k i i' t p : taken_from n m k i i' t -> (if (m =? 1)%nat then 0 else INR k * (INR n - 1) / (INR m - 1)) = INR p -> t = 0 /\ i = p.
Proof.
  intros (I1 & I2 & T1 & TI & P) E. rewrite E in P. destruct TI as [T0|I']; [subst t; split; [reflexivity|apply INR_eq; lra]|]. subst i'. rewrite S_INR in P. assert (Q : INR i <= INR p) by nra. assert (Q2 : INR p < INR (S i)) by (rewrite S_INR; nra). apply INR_le in Q. apply INR_lt in Q2. assert (i = p) by lia. subst. split; [lra|reflexivity].
Qed.
(** The first and last rows and columns correspond, and with scale 1 nothing changes, as long as no cell is NaN *)
Lemma resize_kept scale s s' r c p q : reached s -> no_nan s -> raflt s = true -> resize scale s = Ok s' -> (r < rny s')%nat -> (c < rnx s')%nat ->
  (if (rny s' =? 1)%nat then 0 else INR r * (INR (rny s) - 1) / (INR (rny s') - 1)) = INR p -> (if (rnx s' =? 1)%nat then 0 else INR c * (INR (rnx s) - 1) / (INR (rnx s') - 1)) = INR q -> cellv s' r c = cellv s p q.
Proof.
  intros Re N F E Hr Hc P Q. destruct (resize_values scale s s' r c Re E Hr Hc) as (i & i' & t & j & j' & u & TY & TX & _ & V).
  destruct (taken_whole _ _ _ _ _ _ _ TY P) as [T0 Ip]. destruct (taken_whole _ _ _ _ _ _ _ TX Q) as [U0 Jq]. subst. destruct TY as (I1 & I2 & _). destruct TX as (J1 & J2 & _).
  destruct (all_cells s N p q I1 J1) as (a & Ea). destruct (all_cells s N p j' I1 J2) as (b & Eb). destruct (all_cells s N i' q I2 J1) as (d & Ed). destruct (all_cells s N i' j' I2 J2) as (e & Ee).
  destruct (V a b d e Ea Eb Ed Ee) as (w & -> & C). rewrite Ea. rewrite F in C. cbn [cast_to] in C. rewrite C. f_equal. unfold mixed. ring.
Qed.
Theorem resize_corners : forall scale s s', reached s -> no_nan s -> raflt s = true -> resize scale s = Ok s' -> (2 <= rny s')%nat -> (2 <= rnx s')%nat ->
  cellv s' 0 0 = cellv s 0 0 /\ cellv s' (rny s' - 1) 0 = cellv s (rny s - 1) 0 /\
  cellv s' 0 (rnx s' - 1) = cellv s 0 (rnx s - 1) /\ cellv s' (rny s' - 1) (rnx s' - 1) = cellv s (rny s - 1) (rnx s - 1).
Proof.
  intros scale s s' Re N F E Hy Hx. destruct (reached_base s Re) as [B _]. destruct (base_size s B) as [Ny Nx].
  assert (Z : forall n m, (2 <= m)%nat -> (if (m =? 1)%nat then 0 else INR 0 * (INR n - 1) / (INR m - 1)) = INR 0).
  { intros n m M. apply le_INR in M. cbn [INR] in *. destruct (m =? 1)%nat; [reflexivity|]. unfold Rdiv. ring. }
  assert (L : forall n m, (1 <= n)%nat -> (2 <= m)%nat -> (if (m =? 1)%nat then 0 else INR (m - 1) * (INR n - 1) / (INR m - 1)) = INR (n - 1)).
  { intros n m Hn M. destruct (Nat.eqb_spec m 1); [lia|]. rewrite !minus_INR by lia. apply le_INR in M. cbn [INR] in *. field. lra. }
  repeat split; apply (resize_kept scale s s'); try assumption; try lia; auto.
Qed.
Print Assumptions resize_corners.
Theorem resize_same : forall s, reached s -> no_nan s -> raflt s = true -> exists s', resize 1 s = Ok s' /\ rny s' = rny s /\ rnx s' = rnx s /\ forall r c, (r < rny s)%nat -> (c < rnx s)%nat -> cellv s' r c = cellv s r c.
Proof.
  intros s Re N F. destruct (resize_size 1 s Re) as (Ex & _). destruct (Ex ltac:(lra)) as (s' & E). exists s'. split; [exact E|]. destruct (resize_inv _ _ _ E) as (Ey & Ex' & _). unfold zoom_size in *. rewrite Rmult_1_r, INR_IZR_INZ, Rround_IZR in Ey, Ex'. apply Nat2Z.inj in Ey, Ex'.
  split; [congruence|]. split; [congruence|]. intros r c Hr Hc. apply (resize_kept 1 s s'); try assumption; try congruence.
  - rewrite <- Ey. destruct (Nat.eqb_spec (rny s) 1) as [Q|Q]; [assert (r = 0%nat) by lia; subst; reflexivity|]. assert (G : (2 <= rny s)%nat) by lia. apply le_INR in G. cbn [INR] in G. field. lra.
  - rewrite <- Ex'. destruct (Nat.eqb_spec (rnx s) 1) as [Q|Q]; [assert (c = 0%nat) by lia; subst; reflexivity|]. assert (G : (2 <= rnx s)%nat) by lia. apply le_INR in G. cbn [INR] in G. field. lra.
Qed.
Print Assumptions resize_same.

(** ** Finding: the values move relative to the limits.  Values that are a linear function of the coordinates of the cell centers are, after resizing, that function at other points: with n cells before and m after, cell k of m is displaced by (m - n) / (2 m) * (1 - 2 k / (m - 1)) of the old cells, up to half an old cell or more at the borders. *)
Definition displaced (a : axis) (n m k : nat) : R := dcell a * ((INR m - INR n) / (2 * INR m) * (1 - 2 * INR k / (INR m - 1))).
Theorem resize_plane_refuted : forall scale s s' z0 zx zy, reached s -> raflt s = true -> resize scale s = Ok s' -> (2 <= rny s')%nat -> (2 <= rnx s')%nat ->
  let plane x y := z0 + zx * x + zy * y in
  (forall r c, (r < rny s)%nat -> (c < rnx s)%nat -> cellv s r c = Some (plane (center (xaxis (rgrid s)) (Z.of_nat c)) (center (yaxis (rgrid s)) (Z.of_nat r)))) ->
  forall r c, (r < rny s')%nat -> (c < rnx s')%nat ->
    cellv s' r c = Some (plane (center (xaxis (rgrid s')) (Z.of_nat c) + displaced (xaxis (rgrid s)) (rnx s) (rnx s') c) (center (yaxis (rgrid s')) (Z.of_nat r) + displaced (yaxis (rgrid s)) (rny s) (rny s') r)).
Proof.
  intros scale s s' z0 zx zy Re F E Hy Hx plane P r c Hr Hc. destruct (resize_values scale s s' r c Re E Hr Hc) as (i & i' & t & j & j' & u & TY & TX & _ & V).
  destruct (resize_size scale s Re) as (_ & _ & Q). destruct (Q s' E) as (_ & _ & LX & LY & _). destruct (reached_base s Re) as [B _]. destruct (base_size s B) as [Ny Nx].
  assert (Fr : forall (lim : R * R) n m k i i' t, (1 <= n)%nat -> (2 <= m)%nat -> taken_from n m k i i' t -> (1 - t) * center (lim, Z.of_nat n) (Z.of_nat i) + t * center (lim, Z.of_nat n) (Z.of_nat i') = center (lim, Z.of_nat m) (Z.of_nat k) + displaced (lim, Z.of_nat n) n m k).
  { clear. intros lim n m k i i' t Hn Hm (_ & _ & _ & _ & T). destruct (Nat.eqb_spec m 1); [lia|]. rewrite !center_INR. unfold displaced, dcell. cbn [fst snd]. rewrite <- !INR_IZR_INZ. apply le_INR in Hn, Hm. cbn [INR] in *.
    set (l := (snd lim - fst lim)). transitivity (fst lim + ((1 - t) * INR i + t * INR i' + / 2) * (l / INR n)); [ring|]. rewrite T. field. lra. }
  pose proof (Fr (rylim s) (rny s) (rny s') r i i' t Ny Hy TY) as FY. pose proof (Fr (rxlim s) (rnx s) (rnx s') c j j' u Nx Hx TX) as FX.
  destruct TY as (I1 & I2 & _). destruct TX as (J1 & J2 & _). destruct (V _ _ _ _ (P i j I1 J1) (P i j' I1 J2) (P i' j I2 J1) (P i' j' I2 J2)) as (w & -> & C). rewrite F in C. cbn [cast_to] in C. rewrite C. f_equal.
  unfold plane, mixed, xaxis, yaxis, rgrid in *. cbn [gxlim gylim gnx gny] in *. rewrite LX, LY, <- FX, <- FY. ring.
Qed.
Print Assumptions resize_plane_refuted.

(** ** Finding: NaN spreads even if nothing is resized: with scale 1, a NaN cell makes the cells above, to the left and above left of it NaN too. *)
Theorem resize_nan_refuted : forall s r c, reached s -> (r < rny s)%nat -> (c < rnx s)%nat -> cellv s r c = None ->
  exists s', resize 1 s = Ok s' /\ rny s' = rny s /\ rnx s' = rnx s /\ cellv s' r c = None /\ ((1 <= r)%nat -> cellv s' (r - 1) c = None) /\ ((1 <= c)%nat -> cellv s' r (c - 1) = None) /\ ((1 <= r)%nat -> (1 <= c)%nat -> cellv s' (r - 1) (c - 1) = None).
Proof.
  intros s r c Re Hr Hc Nn. destruct (resize_size 1 s Re) as (Ex & _). destruct (Ex ltac:(lra)) as (s' & E). exists s'. split; [exact E|]. destruct (resize_inv _ _ _ E) as (Ey & Ex' & _). unfold zoom_size in *. rewrite Rmult_1_r, INR_IZR_INZ, Rround_IZR in Ey, Ex'. apply Nat2Z.inj in Ey, Ex'.
  split; [congruence|]. split; [congruence|].
  assert (Ax : forall n k, (k < n)%nat -> zoom_axis n n k = (k, mirror n (S k), 0)).
  { intros n k K. assert (Z : zoom_at n n k = IZR (Z.of_nat k)).
    { unfold zoom_at. rewrite <- INR_IZR_INZ. destruct (Nat.eqb_spec n 1) as [|Q]; [ring|]. assert (G : (2 <= n)%nat) by lia. apply le_INR in G. cbn [INR] in G. field. lra. }
    unfold zoom_axis. rewrite Z, Rfloor_IZR, Nat2Z.id. rewrite Rminus_diag_eq by reflexivity. reflexivity. }
  assert (G : forall a b, (a < rny s)%nat -> (b < rnx s)%nat -> (a = r \/ S a = r) -> (b = c \/ S b = c) -> cellv s' a b = None).
  { intros a b Ha Hb Ea Eb. rewrite (resize_cell _ _ _ _ _ E) by congruence. unfold zoom_cell. rewrite <- Ey, <- Ex', !Ax by assumption. unfold mirror.
    destruct Ea as [->|Ea]; destruct Eb as [->|Eb]; rewrite ?Ea, ?Eb; rewrite ?(proj2 (Nat.ltb_lt _ _) Hr), ?(proj2 (Nat.ltb_lt _ _) Hc); rewrite Nn;
      repeat match goal with |- context [oscale ?w (cellv ?q ?x ?y)] => destruct (cellv q x y) end; reflexivity. }
  split; [apply G; auto|]. split; [intros H; apply G; lia|]. split; [intros H; apply G; lia|]. intros H H'. apply G; lia.
Qed.
Print Assumptions resize_nan_refuted.

(** ** Finding: Grid.resize rounds halves up, Raster.resize to even: a raster and its grid resized by the same scale have different sizes when the size would be an even number and a half. *)
Theorem resize_grid_refuted : forall scale g g' s s', gnx (og g) = Z.of_nat (rnx s) -> grid_resize scale g = Ok g' -> resize scale s = Ok s' ->
  ((exists k : nat, INR (rnx s) * scale = INR (2 * k) + / 2 /\ gnx (og g') = Z.of_nat (S (2 * k)) /\ rnx s' = (2 * k)%nat) \/ gnx (og g') = Z.of_nat (rnx s')).
Proof.
  intros scale g g' s s' Eg G E. destruct (resize_inv _ _ _ E) as (_ & Ex & _). unfold zoom_size in Ex. unfold grid_resize in G. cbn [gstep] in G. rewrite Eg, <- INR_IZR_INZ in G. set (x := INR (rnx s) * scale) in *.
  assert (Ng : gnx (og g') = Rfloor (x + / 2)). { unfold parse_size in G. cbn [bind fst snd] in G. destruct (_ || _)%bool; [discriminate|]. cbn [bind fst snd] in G. injection G as <-. reflexivity. }
  rewrite Ng. pose proof (Rfloor_lb x) as L. pose proof (Rfloor_ub x) as U. unfold Rround in Ex. set (f := Rfloor x) in *. destruct (Rltb (x - IZR f) (/ 2)) eqn:A.
  - apply Rltb_true in A. right. rewrite <- Ex. apply Rfloor_imp. lra.
  - apply Rltb_false in A. assert (FU : Rfloor (x + / 2) = (f + 1)%Z) by (apply Rfloor_imp; rewrite plus_IZR; lra). rewrite FU. destruct (Rltb (/ 2) (x - IZR f)) eqn:C; [right; exact Ex|]. apply Rltb_false in C. destruct (Z.even f) eqn:Ev; [|right; exact Ex].
    left. apply Z.even_spec in Ev as (h & Eh). assert (H0 : (0 <= h)%Z) by lia. exists (Z.to_nat h). assert (E2 : (2 * Z.to_nat h)%nat = rnx s') by lia. rewrite E2. split; [|split; [lia|reflexivity]]. rewrite INR_IZR_INZ, <- Ex. lra.
Qed.
Print Assumptions resize_grid_refuted.

(** ** zlim and box3d: the lowest and highest value, NaN left out *)
Definition lowest_highest (l : list (option R)) (lo hi : option R) : Prop :=
  ((forall x, ~ In (Some x) l) /\ lo = None /\ hi = None) \/
  (exists a b, lo = Some a /\ hi = Some b /\ In (Some a) l /\ In (Some b) l /\ forall x, In (Some x) l -> a <= x <= b).
Lemma nan_fold_spec f l : (forall x y, f x y = x \/ f x y = y) -> ((forall x, ~ In (Some x) l) /\ nan_fold f l = None) \/ exists a, nan_fold f l = Some a /\ In (Some a) l.
Proof.
  intros F. induction l as [|[x|] l IH]; [left; split; [intros x []|reflexivity]| |].
  - right. cbn [nan_fold]. destruct IH as [[_ ->]|(a & -> & I)]; [exists x; split; [reflexivity|left; reflexivity]|]. destruct (F x a) as [-> | ->]; eexists; (split; [reflexivity|]); [left; reflexivity|right; exact I].
  - cbn [nan_fold]. destruct IH as [[N ->]|(a & -> & I)]; [left; split; [intros x [|I]; [discriminate|exact (N x I)]|reflexivity]|right; exists a; split; [reflexivity|right; exact I]].
Qed.
Lemma nan_fold_bound f (le : R -> R -> Prop) l a : (forall x y, le (f x y) x /\ le (f x y) y) -> (forall x, le x x) -> (forall x y z, le x y -> le y z -> le x z) -> nan_fold f l = Some a -> forall x, In (Some x) l -> le a x.
Proof.
  intros F Rf Tr. revert a. induction l as [|[y|] l IH]; intros a E x I; [destruct I| |].
  - cbn [nan_fold] in E. destruct (nan_fold f l) as [b|] eqn:B.
    + injection E as <-. destruct I as [I|I]; [injection I as ->; apply F|]. apply Tr with b; [apply F|]. apply IH; [reflexivity|exact I].
    + injection E as <-. destruct I as [I|I]; [injection I as ->; apply Rf|]. exfalso. clear -B I. induction l as [|[z|] l IH]; [exact I|cbn [nan_fold] in B; destruct (nan_fold f l); discriminate|]. destruct I as [I|I]; [discriminate|]. exact (IH B I).
  - destruct I as [I|I]; [discriminate|]. exact (IH a E x I).
Qed.
Lemma cells_in s x : base s -> In (Some x) (rvalues s) <-> exists r c, (r < rny s)%nat /\ (c < rnx s)%nat /\ cellv s r c = Some x.
Proof.
  intros B. split.
  - intros I. apply (In_nth _ _ None) in I as (k & K & E). rewrite (b_len s B) in K. assert (Nx : rnx s <> 0%nat) by nia. exists (k / rnx s)%nat, (k mod rnx s)%nat. split; [apply Nat.div_lt_upper_bound; [exact Nx|lia]|]. split; [apply Nat.mod_upper_bound; exact Nx|]. unfold cellv. rewrite Nat.mul_comm, <- Nat.div_mod by exact Nx. exact E.
  - intros (r & c & Hr & Hc & E). rewrite <- E. apply nth_In. rewrite (b_len s B). nia.
Qed.
Theorem raster_zlim : forall s, reached s -> exists lo hi, zlim s = Ok (lo, hi) /\ box3d s = Ok [Some (amin (xaxis (rgrid s))); Some (amin (yaxis (rgrid s))); lo; Some (amax (xaxis (rgrid s))); Some (amax (yaxis (rgrid s))); hi] /\
  (((forall r c, (r < rny s)%nat -> (c < rnx s)%nat -> cellv s r c = None) /\ lo = None /\ hi = None) \/
   (exists a b, lo = Some a /\ hi = Some b /\ (exists r c, (r < rny s)%nat /\ (c < rnx s)%nat /\ cellv s r c = Some a) /\ (exists r c, (r < rny s)%nat /\ (c < rnx s)%nat /\ cellv s r c = Some b) /\
     forall r c v, (r < rny s)%nat -> (c < rnx s)%nat -> cellv s r c = Some v -> a <= v <= b)).
Proof.
  intros s Re. destruct (reached_base s Re) as [B _]. destruct (base_size s B) as [Ny Nx]. assert (Nl : rvalues s <> []) by (intros E; pose proof (b_len s B) as L; rewrite E in L; cbn in L; nia).
  assert (ZL : zlim s = Ok (nan_fold Rmin (rvalues s), nan_fold Rmax (rvalues s))) by (unfold zlim; destruct (rvalues s); [congruence|reflexivity]). unfold box3d. rewrite ZL. clear ZL. set (l := rvalues s) in *. cbn [bind fst snd].
  assert (FMin : forall x y, Rmin x y = x \/ Rmin x y = y) by (intros; unfold Rmin; destruct (Rle_dec x y); auto). assert (FMax : forall x y, Rmax x y = x \/ Rmax x y = y) by (intros; unfold Rmax; destruct (Rle_dec x y); auto).
  eexists _, _. split; [reflexivity|]. destruct (nan_fold_spec Rmin l FMin) as [[N1 E1]|(a & E1 & I1)]; destruct (nan_fold_spec Rmax l FMax) as [[N2 E2]|(b & E2 & I2)]; [| exfalso; exact (N1 _ I2) | exfalso; exact (N2 _ I1) |].
  - rewrite E1, E2. split; [reflexivity|]. left. split; [|split; reflexivity]. intros r c Hr Hc. destruct (cellv s r c) as [v|] eqn:V; [|reflexivity]. exfalso. apply (N1 v). apply (cells_in s v B). exists r, c. auto.
  - rewrite E1, E2. assert (A : forall x, In (Some x) l -> a <= x) by (apply (nan_fold_bound Rmin Rle l a); [intros x y; split; [apply Rmin_l|apply Rmin_r]|intros; lra|intros; lra|exact E1]).
    assert (Bb : forall x, In (Some x) l -> x <= b) by (intros x; apply (nan_fold_bound Rmax (fun p q => q <= p) l b); [intros p q; split; [apply Rmax_l|apply Rmax_r]|intros; lra|intros; lra|exact E2]).
    split; [cbn [omin omax]; rewrite Rmin_left, Rmax_right by (apply A; exact I2); reflexivity|]. right. exists a, b. split; [reflexivity|]. split; [reflexivity|]. split; [apply (cells_in s a B); exact I1|]. split; [apply (cells_in s b B); exact I2|].
    intros r c v Hr Hc V. assert (I : In (Some v) l) by (apply (cells_in s v B); exists r, c; auto). split; [apply A; exact I|apply Bb; exact I].
Qed.
Print Assumptions raster_zlim.
(** C110: a raster resized to nothing has no limits: zlim and box3d raise ValueError *)
Theorem resize_empty : forall scale s s', resize scale s = Ok s' -> rny s' = 0%nat \/ rnx s' = 0%nat -> zlim s' = Err ValueError /\ box3d s' = Err ValueError.
Proof.
  intros scale s s' E H. destruct (resize_inv _ _ _ E) as (_ & _ & E'). unfold box3d.
  assert (Ev : rvalues s' = []).
  { rewrite E'. set (v := flat_map _ _). assert (V0 : v = []).
    { unfold v. destruct H as [H|H]; rewrite H; cbn [seq]; [reflexivity|]. clear. generalize (seq 0 (rny s')). induction l as [|a l IH]; [reflexivity|]. cbn [flat_map map app]. exact IH. }
    rewrite V0. unfold set_array, rvalues, abuf. destruct (_ && _)%bool; cbn [upd_arr upd_ah upd_zf upd_x upd_y ah rarr]; rewrite app_nth2, Nat.sub_diag by lia; reflexivity. }
  unfold zlim. rewrite Ev. split; reflexivity.
Qed.
Print Assumptions resize_empty.

(** ** Examples *)
Definition row4 : raster := square (Some 1) (Some 2) (Some 3) (Some 4).
Example row4_reached : reached row4. Proof. apply fresh_reached. apply square_fresh. Qed.
(** 2 by 2 cells to 1 by 1: the first cell, not a mean *)
Example row4_half : exists s', resize (/ 2) row4 = Ok s' /\ rny s' = 1%nat /\ rnx s' = 1%nat /\ cellv s' 0 0 = cellv row4 0 0.
Proof.
  destruct (resize_size (/ 2) row4 row4_reached) as (H & _). destruct (H ltac:(lra)) as (s' & E). exists s'. split; [exact E|]. destruct (resize_inv _ _ _ E) as (Ey & Ex & _). unfold zoom_size in *. change (rny row4) with 2%nat in Ey. change (rnx row4) with 2%nat in Ex. cbn [INR] in *. replace ((1 + 1) * / 2) with (IZR 1) in * by lra. rewrite Rround_IZR in *.
  assert (rny s' = 1%nat) by lia. assert (rnx s' = 1%nat) by lia. split; [assumption|]. split; [assumption|]. apply (resize_kept (/ 2) row4 s'); try assumption; try lia.
  - apply row4_reached.
  - intros [|[|r]] [|[|c]] Hr Hc; cbn in Hr, Hc; try lia; discriminate.
  - reflexivity.
  - rewrite H0. reflexivity.
  - rewrite H1. reflexivity.
Qed.
