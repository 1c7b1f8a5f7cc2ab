(** Property theorems about RasterInterpolant, src/glimpse/raster.py (C33, C58). *)
From Verif Require Import Base BaseLemmas HelpersModel InterpModel InterpSpec InterpProofs.
Open Scope R_scope.

(** C33: the two rasters used are the last at or before xi and the first at or after it; raises iff xi is out of range *)
Theorem interpolant_nearest : forall x xi, x <> [] ->
  (~ bounded x xi -> nearest false x xi = Err ValueError) /\
  (bounded x xi -> exists i j, nearest false x xi = Ok (i, j) /\ last_before x xi i /\ first_after x xi j /\ (In xi x -> i = j)).
Proof. exact nearest_spec. Qed.
Print Assumptions interpolant_nearest.
Theorem interpolant_nearest_extrapolate : forall x xi,
  ((length x < 2)%nat -> exists e, nearest true x xi = Err e) /\
  ((2 <= length x)%nat -> exists i j, nearest true x xi = Ok (i, j) /\ two_nearest x xi i j /\ nth i x 0 <= nth j x 0).
Proof. exact nearest_extrapolate_spec. Qed.
Print Assumptions interpolant_nearest_extrapolate.

(** C33: strictly between two nodes the result is on the straight line
    between the two rasters, cell by cell (so between the two values) *)
Theorem interpolant_between : forall dt x means xi n, x <> [] -> length means = length x ->
  Forall (fun m => length m = n) means ->
  (~ bounded x xi -> call dt false x means xi = Err ValueError) /\
  (bounded x xi -> ~ In xi x ->
   exists i j zs, last_before x xi i /\ first_after x xi j /\ call dt false x means xi = Ok zs /\ length zs = n /\
    forall k, (k < n)%nat ->
      match nth k (nth i means []) None, nth k (nth j means []) None with
      | Some z0, Some z1 => exists z, nth k zs None = Some z /\ z = line (nth i x 0) z0 (nth j x 0) z1 xi /\ Rmin z0 z1 <= z <= Rmax z0 z1
      | _, _ => nth k zs None = None
      end).
Proof.
  intros dt x means xi n N L F. split; [intros H; apply call_unbounded; auto|]. intros B NI.
  destruct (call_between dt x means xi n N L F B NI) as (i & j & zs & Hb & Ha & O & E & Lz & V).
  exists i, j, zs. repeat (split; [auto; fail|]). intros k Hk. specialize (V k Hk).
  destruct (nth k (nth i means []) None) as [z0|]; [|exact V]. destruct (nth k (nth j means []) None) as [z1|]; [|exact V].
  eexists. split; [exact V|]. split; [reflexivity|]. apply line_between. exact O.
Qed.
Print Assumptions interpolant_between.
Example interpolant_between_ex : bounded [0; 10; 4] 5 /\ ~ In 5 [0; 10; 4] /\ Forall (fun m : list (option R) => length m = 1%nat) [[Some 1]; [None]; [Some 3]].
Proof.
  split; [split; [exists 0|exists 10]; cbn; split; auto; lra|]. split; [cbn; lra|]. repeat constructor.
Qed.
(** At a node the property is false: the same raster is taken on both sides
    and 0 / 0 makes every cell nan (numbers) or raises (datetimes). *)
Theorem interpolant_at_node_refuted : forall dt x means xi n, length means = length x -> Forall (fun m => length m = n) means ->
  In xi x -> call dt false x means xi = if dt then Err ZeroDivisionError else Ok (repeat None n).
Proof. exact call_at_node. Qed.
Print Assumptions interpolant_at_node_refuted.
Example interpolant_at_node_ex : call false false [0; 10] [[Some 1]; [Some 2]] 10 = Ok [None].
Proof. rewrite (call_at_node false _ _ _ 1); [reflexivity|reflexivity|repeat constructor|cbn; auto]. Qed.
(** extrapolation: the straight line through the two nearest nodes, exact at the nodes *)
Theorem interpolant_extrapolate : forall dt x means xi n, length means = length x -> Forall (fun m => length m = n) means ->
  NoDup x -> (2 <= length x)%nat ->
  exists i j zs, two_nearest x xi i j /\ call dt true x means xi = Ok zs /\ length zs = n /\
    forall k, (k < n)%nat ->
      match nth k (nth i means []) None, nth k (nth j means []) None with
      | Some z0, Some z1 => exists z, nth k zs None = Some z /\ z = line (nth i x 0) z0 (nth j x 0) z1 xi
          /\ (xi = nth i x 0 -> z = z0) /\ (xi = nth j x 0 -> z = z1)
      | _, _ => nth k zs None = None
      end.
Proof.
  intros dt x means xi n L F ND L2. destruct (call_extrapolate dt x means xi n L F ND L2) as (i & j & zs & T & E & Lz & V).
  exists i, j, zs. repeat (split; [auto; fail|]). intros k Hk. specialize (V k Hk). pose proof T as (Hi & Hj & Ne & _).
  assert (Ex : nth i x 0 <> nth j x 0) by (intros Q; apply Ne; apply (proj1 (NoDup_nth x 0) ND i j Hi Hj Q)).
  destruct (nth k (nth i means []) None) as [z0|]; [|exact V]. destruct (nth k (nth j means []) None) as [z1|]; [|exact V].
  eexists. split; [exact V|]. split; [reflexivity|]. unfold line. split; intros ->; field; lra.
Qed.
Print Assumptions interpolant_extrapolate.
Example interpolant_extrapolate_ex : NoDup [0; 10] /\ (2 <= length [0; 10])%nat.
Proof. split; [|cbn; lia]. repeat constructor; cbn; try tauto. intros [H|[]]. lra. Qed.

(** C33: the uncertainty: at least the exact propagation of the errors of
    the two rasters, and at least the uncertainty of the first, plus a third of
    the change to the nearest raster; without errors it vanishes only if the rasters agree *)
Theorem interpolant_sigma : forall dt x means sigmas xi n, x <> [] -> length means = length x -> Forall (fun m => length m = n) means ->
  length sigmas = length x -> Forall (fun m => length m = n) sigmas -> bounded x xi -> ~ In xi x ->
  exists i j ss, last_before x xi i /\ first_after x xi j /\ call_sigma dt false x means (Some sigmas) xi = Ok ss /\ length ss = n /\
    let t := (xi - nth i x 0) / (nth j x 0 - nth i x 0) in 0 < t < 1 /\
    forall k z0 z1 s0 s1, (k < n)%nat -> nth k (nth i means []) None = Some z0 -> nth k (nth j means []) None = Some z1 ->
      nth k (nth i sigmas []) None = Some s0 -> nth k (nth j sigmas []) None = Some s1 ->
      exists s, nth k ss None = Some s /\ 0 <= s /\
        s ^ 2 = s0 ^ 2 + t ^ 2 * (s0 ^ 2 + s1 ^ 2) + ((z1 - z0) * Rmin t (1 - t) / 3) ^ 2 /\
        (1 - t) ^ 2 * s0 ^ 2 + t ^ 2 * s1 ^ 2 <= s ^ 2 /\ s0 <= s /\ (s = 0 <-> s0 = 0 /\ s1 = 0 /\ z0 = z1).
Proof.
  intros dt x means sigmas xi n N L F Ls Fs B NI.
  destruct (call_sigma_between dt x means sigmas xi n N L F Ls Fs B NI) as (i & j & ss & Hb & Ha & O & E & Lz & T & V).
  exists i, j, ss. split; [auto|]. split; [auto|]. split; [auto|]. split; [auto|]. set (t := (xi - nth i x 0) / (nth j x 0 - nth i x 0)) in *. split; [exact T|].
  intros k z0 z1 s0 s1 Hk Z0 Z1 S0 S1. destruct (V k z0 z1 s0 s1 Hk Z0 Z1 S0 S1) as (s & Es & Ps & Q).
  exists s. split; [exact Es|]. split; [exact Ps|]. split; [exact Q|].
  assert (M : 0 < Rmin t (1 - t)) by (apply Rmin_glb_lt; lra). set (m := Rmin t (1 - t)) in *. set (w := (z1 - z0) * m / 3) in *.
  assert (Q1 : 0 <= s0 ^ 2 /\ 0 <= s1 ^ 2 /\ 0 <= w ^ 2 /\ 0 < t ^ 2) by (repeat split; try apply pow2_ge_0; apply pow_lt; lra).
  destruct Q1 as (P0 & P1 & P2 & P3).
  split; [nra|]. split; [nra|]. split.
  - intros ->. assert (A : 0 <= t ^ 2 * (s0 ^ 2 + s1 ^ 2)) by (apply Rmult_le_pos; lra).
    assert (E0 : s0 ^ 2 = 0) by lra. assert (E2 : w ^ 2 = 0) by lra. assert (E3 : t ^ 2 * (s0 ^ 2 + s1 ^ 2) = 0) by lra.
    apply Rmult_integral in E3. assert (E1 : s1 ^ 2 = 0) by lra.
    assert (Sq : forall a, a ^ 2 = 0 -> a = 0) by (intros a Ha0; apply Rsqr_0_uniq; unfold Rsqr; lra).
    split; [auto|]. split; [auto|]. apply Sq in E2. unfold w in E2. assert ((z1 - z0) * m = 0) by lra. apply Rmult_integral in H. lra.
  - intros (-> & -> & ->). assert (W0 : w = 0) by (unfold w; lra). rewrite W0 in Q. apply Rsqr_0_uniq. unfold Rsqr. lra.
Qed.
Print Assumptions interpolant_sigma.

(** C58: the requested cell size.  Coarsening by m refines by m instead. *)
Theorem interpolant_cell_size_refuted : forall d0 n m, 0 < d0 -> (1 < m)%Z ->
  parse_resize (IZR m * d0) (m * n) d0 = (m * (m * n))%Z /\ (0 < n -> m * (m * n) <> n)%Z.
Proof.
  intros d0 n m H1 H2. split; [|intros Hn; assert (n < m * n)%Z by nia; assert (m * n < m * (m * n))%Z by nia; lia]. unfold parse_resize.
  assert (M : 1 < IZR m) by (apply IZR_lt in H2; exact H2).
  replace (Reqb (IZR m * d0) d0) with false by (symmetry; apply Reqb_false; nra).
  replace (IZR (m * n) * (IZR m * d0 / d0)) with (IZR (m * (m * n))) by (rewrite !mult_IZR; field; lra). apply Rround_IZR.
Qed.
Print Assumptions interpolant_cell_size_refuted.
Example interpolant_cell_size_ex : parse_resize 2 10 1 = 20%Z.
Proof. replace 2 with (IZR 2 * 1) by lra. apply (interpolant_cell_size_refuted 1 5 2); [lra|lia]. Qed.
(** C58, exact: a raster of n cells of size d0 resized to a target cell size d <> d0 gets the whole number of cells nearest to
    n d / d0 (instead of n d0 / d); when that is whole, its cells have size d0^2 / d; asking for larger cells never gives fewer
    cells, asking for smaller cells never gives more. *)
Theorem interpolant_cell_size : forall d n d0, 0 < d -> 0 < d0 -> (1 <= n)%Z ->
  let n' := parse_resize d n d0 in
  (d = d0 -> n' = n) /\
  (Rabs (IZR n' - IZR n * d / d0) <= / 2) /\
  (forall k, IZR n * d / d0 = IZR k -> n' = k /\ IZR n * d0 / IZR n' = d0 * d0 / d) /\
  (d0 <= d -> (n <= n')%Z) /\ (d <= d0 -> (n' <= n)%Z).
Proof.
  intros d n d0 Hd H0 Hn n'. assert (N : 1 <= IZR n) by (apply IZR_le; exact Hn).
  assert (E : n' = Rround (IZR n * d / d0)).
  { unfold n', parse_resize. destruct (Reqb d d0) eqn:Q.
    - apply Reqb_true in Q. subst d. replace (IZR n * d0 / d0) with (IZR n) by (field; lra). symmetry. apply Rround_IZR.
    - f_equal. unfold Rdiv. ring. }
  split. { intros ->. rewrite E. replace (IZR n * d0 / d0) with (IZR n) by (field; lra). apply Rround_IZR. }
  pose proof (Rround_near (IZR n * d / d0)) as Nr. rewrite <- E in Nr.
  split. { rewrite <- Rabs_Ropp. replace (- (IZR n' - IZR n * d / d0)) with (IZR n * d / d0 - IZR n') by ring. exact Nr. }
  split.
  { intros k K. assert (Ek : n' = k) by (rewrite E, K; apply Rround_IZR). split; [exact Ek|]. rewrite Ek, <- K. field. split; [lra|split; lra]. }
  assert (M : IZR n * d / d0 - IZR n = IZR n * (d - d0) / d0) by (field; lra).
  pose proof (Rround_nearest (IZR n * d / d0) n) as Nn. rewrite <- E in Nn. rewrite M in Nn.
  assert (G : 0 < / d0) by (apply Rinv_0_lt_compat; exact H0).
  split; intros L.
  - assert (P : 0 <= IZR n * (d - d0) / d0). { unfold Rdiv. apply Rmult_le_pos; [apply Rmult_le_pos; lra|lra]. }
    destruct (Z_le_gt_dec n n') as [|F]; [assumption|]. exfalso. assert (F' : IZR n' <= IZR n - 1) by (rewrite <- minus_IZR; apply IZR_le; lia).
    rewrite (Rabs_right (IZR n * (d - d0) / d0)) in Nn by lra. rewrite Rabs_right in Nn by lra. lra.
  - assert (P : 0 <= IZR n * (d0 - d) / d0). { unfold Rdiv. apply Rmult_le_pos; [apply Rmult_le_pos; lra|lra]. }
    assert (P' : IZR n * (d - d0) / d0 = - (IZR n * (d0 - d) / d0)) by (unfold Rdiv; ring).
    destruct (Z_le_gt_dec n' n) as [|F]; [assumption|]. exfalso. assert (F' : IZR n + 1 <= IZR n') by (rewrite <- plus_IZR; apply IZR_le; lia).
    rewrite P', Rabs_Ropp, (Rabs_right (IZR n * (d0 - d) / d0)) in Nn by lra. rewrite Rabs_left1 in Nn by lra. lra.
Qed.
Print Assumptions interpolant_cell_size.
Example interpolant_cell_size_doubled_ex : parse_resize 2 4 1 = 8%Z /\ IZR 4 * 1 / IZR 8 = 1 * 1 / 2.
Proof.
  destruct (interpolant_cell_size 2 4 1 ltac:(lra) ltac:(lra) ltac:(lia)) as (_ & _ & H & _).
  destruct (H 8%Z ltac:(lra)) as [E F]. rewrite E in F. split; [exact E|exact F].
Qed.
