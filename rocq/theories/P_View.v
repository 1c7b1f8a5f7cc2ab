(** Property theorems about Raster.viewshed, src/glimpse/raster.py:1291-1387 (C34).
    Ring 0 (the cells nearest the viewpoint) is the ring skipped by the code; see viewshed_origin_refuted. *)
From Verif Require Import Base BaseLemmas HelpersModel CameraModel GridModel GridSpec GridProofs RasterSpec RasterProofs ViewModel ViewSpec ViewProofs ViewProofs2 ViewProofs3.
Open Scope R_scope.

Definition cells_of (g : grid) (vals : list (option R)) : Prop := length vals = (Z.to_nat (gny g) * Z.to_nat (gnx g))%nat.
Definition seen (vis : list bool) (k : nat) : Prop := nth k vis false = true.
Lemma viewshed_flat_ok g vals ox oy oz cor vis : grid_ok g -> viewshed g vals (ox, oy, oz) cor = Ok vis ->
  exists xs ys, is_centers (xaxis g) xs /\ is_centers (yaxis g) ys /\ vis = viewshed_flat g xs ys vals ox oy oz cor.
Proof.
  intros [Gx Gy] E. destruct (centers_is _ Gx) as (xs & Ex & Cx). destruct (centers_is _ Gy) as (ys & Ey & Cy).
  unfold viewshed in E. rewrite Ex in E. cbn [bind] in E. rewrite Ey in E. cbn [bind] in E. injection E as <-. exists xs, ys. auto.
Qed.
(** the viewshed always exists and has one entry per cell *)
Theorem viewshed_total : forall g vals o cor, grid_ok g -> cells_of g vals ->
  exists vis, viewshed g vals o cor = Ok vis /\ length vis = length vals.
Proof.
  intros g vals [[ox oy] oz] cor [Gx Gy] C. destruct (centers_is _ Gx) as (xs & Ex & Cx). destruct (centers_is _ Gy) as (ys & Ey & Cy).
  unfold viewshed. rewrite Ex. cbn [bind]. rewrite Ey. cbn [bind]. eexists. split; [reflexivity|].
  assert (Q : forall ps v, length (fold_left (fun acc p => set_nth (fst p) (snd p) acc) ps v) = length (v : list bool)).
  { induction ps as [|p ps IH]; intros v; cbn; [reflexivity|]. rewrite IH. apply set_nth_length. }
  unfold viewshed_flat. destruct (ring_groups _ _) as [|r [|r' rest]]; repeat (destruct (_ =? _)%Z); rewrite ?Q, ?repeat_length; reflexivity.
Qed.
Print Assumptions viewshed_total.

(** C34: a cell of the nearest ring is visible iff it has an elevation *)
Theorem viewshed_first_ring : forall g vals ox oy oz cor vis q k, grid_ok g -> cells_of g vals ->
  viewshed g vals (ox, oy, oz) cor = Ok vis -> is_cell vals k -> first_ring g vals ox oy q -> ring g ox oy k = q ->
  (seen vis k <-> nth k vals None <> None).
Proof.
  intros g vals ox oy oz cor vis q k G C E K F Q. destruct (viewshed_flat_ok _ _ _ _ _ _ _ G E) as (xs & ys & Hx & Hy & ->).
  unfold seen. rewrite (view_first g xs ys vals ox oy oz cor G Hx Hy C k q K F Q). destruct (nth k vals None); split; congruence.
Qed.
Print Assumptions viewshed_first_ring.

(** C34: a cell seen under a steeper angle than all nearer terrain is visible *)
Theorem viewshed_above : forall g vals ox oy oz cor vis k z, grid_ok g -> cells_of g vals ->
  viewshed g vals (ox, oy, oz) cor = Ok vis -> is_cell vals k -> (0 < ring g ox oy k)%Z -> nth k vals None = Some z ->
  (forall j zj, is_cell vals j -> (0 < ring g ox oy j < ring g ox oy k)%Z -> nth j vals None = Some zj ->
     slope_to g ox oy oz cor j zj < slope_to g ox oy oz cor k z) ->
  seen vis k.
Proof.
  intros g vals ox oy oz cor vis k z G C E K P Ez H. destruct (viewshed_flat_ok _ _ _ _ _ _ _ G E) as (xs & ys & Hx & Hy & ->).
  apply (view_above g xs ys vals ox oy oz cor G Hx Hy C k (slope_to g ox oy oz cor k z) K P).
  - unfold slope. rewrite Ez. reflexivity.
  - intros j u Hj Pj Eu. unfold slope in Eu. destruct (nth j vals None) as [zj|] eqn:Ej; [|discriminate]. injection Eu as <-. apply (H j zj Hj Pj Ej).
Qed.
Print Assumptions viewshed_above.

(** C34: a cell seen under no steeper an angle than the two cells of the preceding
    ring between which its line of sight passes is hidden *)
Theorem viewshed_below : forall g vals ox oy oz cor vis p k z, grid_ok g -> cells_of g vals ->
  viewshed g vals (ox, oy, oz) cor = Ok vis -> is_cell vals k -> preceding_ring g vals ox oy p (ring g ox oy k) ->
  nth k vals None = Some z ->
  (forall i, neighbour_before g vals ox oy p (azimuth g ox oy k) i \/ neighbour_after g vals ox oy p (azimuth g ox oy k) i ->
     exists zi, nth i vals None = Some zi /\ slope_to g ox oy oz cor k z <= slope_to g ox oy oz cor i zi) ->
  ~ seen vis k.
Proof.
  intros g vals ox oy oz cor vis p k z G C E K P Ez H. destruct (viewshed_flat_ok _ _ _ _ _ _ _ G E) as (xs & ys & Hx & Hy & ->).
  unfold seen. rewrite (view_below g xs ys vals ox oy oz cor G Hx Hy C k p (slope_to g ox oy oz cor k z) K P); [discriminate| | |].
  - unfold slope. rewrite Ez. reflexivity.
  - intros i Hi. destruct (H i (or_introl Hi)) as (zi & Ei & L). exists (slope_to g ox oy oz cor i zi). unfold slope. rewrite Ei. auto.
  - intros i Hi. destruct (H i (or_intror Hi)) as (zi & Ei & L). exists (slope_to g ox oy oz cor i zi). unfold slope. rewrite Ei. auto.
Qed.
Print Assumptions viewshed_below.

(** C34: raising nearer terrain never makes a hidden cell visible (elevations known everywhere) *)
Theorem viewshed_monotone : forall g vals vals' ox oy oz cor vis vis' k, grid_ok g -> cells_of g vals -> cells_of g vals' ->
  viewshed g vals (ox, oy, oz) cor = Ok vis -> viewshed g vals' (ox, oy, oz) cor = Ok vis' ->
  (forall j, is_cell vals j -> nth j vals None <> None /\ nth j vals' None <> None) ->
  is_cell vals k -> (0 < ring g ox oy k)%Z -> nth k vals' None = nth k vals None ->
  (forall j z z', is_cell vals j -> (0 < ring g ox oy j < ring g ox oy k)%Z -> nth j vals None = Some z -> nth j vals' None = Some z' -> z <= z') ->
  ~ seen vis k -> ~ seen vis' k.
Proof.
  intros g vals vals' ox oy oz cor vis vis' k G C C' E E' NN K P Ek Le N S. apply N.
  destruct (centers_is _ (proj1 G)) as (xs & Ex & Cx). destruct (centers_is _ (proj2 G)) as (ys & Ey & Cy).
  unfold viewshed in E, E'. rewrite Ex in E, E'. cbn [bind] in E, E'. rewrite Ey in E, E'. cbn [bind] in E, E'. injection E as <-. injection E' as <-.
  apply (view_monotone g xs ys vals vals' ox oy oz cor k G Cx Cy C); auto. unfold cells_of in *. congruence.
Qed.
Print Assumptions viewshed_monotone.

(** Finding: the cells of ring 0 - among them the cell the viewer stands in - are
    reported as not visible, whatever their elevation, as soon as the raster has any other cell *)
Theorem viewshed_origin_refuted : forall g vals ox oy oz cor vis k, grid_ok g -> cells_of g vals ->
  viewshed g vals (ox, oy, oz) cor = Ok vis -> is_cell vals k -> ring g ox oy k = 0%Z ->
  (exists j, is_cell vals j /\ (0 < ring g ox oy j)%Z) -> ~ seen vis k.
Proof.
  intros g vals ox oy oz cor vis k G C E K Z J. destruct (viewshed_flat_ok _ _ _ _ _ _ _ G E) as (xs & ys & Hx & Hy & ->).
  unfold seen. rewrite (view_origin g xs ys vals ox oy oz cor G Hx Hy C k K Z J). discriminate.
Qed.
Print Assumptions viewshed_origin_refuted.

(** C34: when no cell is further than half a cell width from the viewpoint, everything is visible *)
Theorem viewshed_colocated : forall g vals ox oy oz cor vis k, grid_ok g -> cells_of g vals ->
  viewshed g vals (ox, oy, oz) cor = Ok vis -> is_cell vals k -> (forall j, is_cell vals j -> ring g ox oy j = 0%Z) -> seen vis k.
Proof.
  intros g vals ox oy oz cor vis k G C E K Z. destruct (viewshed_flat_ok _ _ _ _ _ _ _ G E) as (xs & ys & Hx & Hy & ->).
  unfold seen. apply (view_single g xs ys vals ox oy oz cor G Hx Hy C k K Z).
Qed.
Print Assumptions viewshed_colocated.

(** Consequences on level ground *)
Lemma ring_lt_distance g ox oy j k : grid_ok g -> (ring g ox oy j < ring g ox oy k)%Z -> distance g ox oy j < distance g ox oy k.
Proof.
  intros G H. apply Rnot_le_lt. intros L. assert ((ring g ox oy k <= ring g ox oy j)%Z); [|lia]. unfold ring.
  assert (P : 0 < Rabs (dcell (xaxis g))).
  { apply Rabs_pos_lt. destruct G as [[N P] _]. apply IZR_le in P. unfold dcell. intros E. apply N.
    assert (Q : snd (fst (xaxis g)) - fst (fst (xaxis g)) = 0). { apply Rmult_eq_compat_r with (r := IZR (snd (xaxis g))) in E. unfold Rdiv in E. rewrite Rmult_assoc, Rinv_l in E by lra. lra. } lra. }
  assert (L' : distance g ox oy k / Rabs (dcell (xaxis g)) <= distance g ox oy j / Rabs (dcell (xaxis g))) by (apply Rmult_le_compat_r; [left; apply Rinv_0_lt_compat; exact P|exact L]).
  apply Rfloor_mono. lra.
Qed.
(** from above a plain, all of it is seen (but ring 0); from below, nothing beyond the nearest ring *)
Theorem viewshed_plain_seen : forall g z n ox oy oz vis k, grid_ok g -> cells_of g (repeat (Some z) n) ->
  viewshed g (repeat (Some z) n) (ox, oy, oz) (fun _ => 0) = Ok vis -> (k < n)%nat -> (0 < ring g ox oy k)%Z -> z < oz -> seen vis k.
Proof.
  intros g z n ox oy oz vis k G C E K P Z. eapply viewshed_above; eauto.
  - unfold is_cell. rewrite repeat_length. exact K.
  - apply nth_repeat_lt. exact K.
  - intros j zj Kj Pj Ej. unfold is_cell in Kj. rewrite repeat_length in Kj. rewrite nth_repeat_lt in Ej by exact Kj. injection Ej as <-.
    pose proof (ring_pos_distance g _ ox oy C j ltac:(lia)) as Dj. pose proof (ring_lt_distance g ox oy j k G ltac:(lia)) as L.
    unfold slope_to, Rdiv. rewrite Rplus_0_r. assert (/ distance g ox oy k < / distance g ox oy j) by (apply Rinv_lt_contravar; [apply Rmult_lt_0_compat|]; lra). nra.
Qed.
Print Assumptions viewshed_plain_seen.
Theorem viewshed_plain_hidden : forall g z n ox oy oz vis p k, grid_ok g -> cells_of g (repeat (Some z) n) ->
  viewshed g (repeat (Some z) n) (ox, oy, oz) (fun _ => 0) = Ok vis -> (k < n)%nat ->
  preceding_ring g (repeat (Some z) n) ox oy p (ring g ox oy k) -> oz <= z -> ~ seen vis k.
Proof.
  intros g z n ox oy oz vis p k G C E K P Z. eapply viewshed_below; eauto.
  - unfold is_cell. rewrite repeat_length. exact K.
  - apply nth_repeat_lt. exact K.
  - intros i Hi. assert (Ki : (i < n)%nat /\ ring g ox oy i = p).
    { destruct Hi as [(A & B & _)|(A & B & _)]; unfold is_cell in A; rewrite repeat_length in A; auto. }
    destruct Ki as [Ki Ri]. exists z. split; [apply nth_repeat_lt; exact Ki|]. destruct P as (Pp & _).
    pose proof (ring_pos_distance g _ ox oy C i ltac:(lia)) as Dj. pose proof (ring_lt_distance g ox oy i k G ltac:(lia)) as L.
    unfold slope_to, Rdiv. rewrite Rplus_0_r. assert (/ distance g ox oy k < / distance g ox oy i) by (apply Rinv_lt_contravar; [apply Rmult_lt_0_compat|]; lra). nra.
Qed.
Print Assumptions viewshed_plain_hidden.
(** a concrete case: four cells in a row, seen from the center of the first; the rings are 0, 1, 2, 3 *)
Definition g4 : grid := mkgrid 4 1 (0, 4) (0, 1).
Lemma g4_ok : grid_ok g4. Proof. split; split; cbn; try lra; lia. Qed.
Lemma g4_distance k : (k < 4)%nat -> distance g4 (/ 2) (/ 2) k = INR k.
Proof.
  intros H. assert (E : east g4 (/ 2) k = INR k).
  { unfold east, center, at_cells. change (Z.to_nat (gnx g4)) with 4%nat. rewrite Nat.mod_small by exact H. rewrite <- INR_IZR_INZ. cbn [xaxis g4 gxlim gnx fst snd]. field. }
  assert (N : north g4 (/ 2) k = 0).
  { unfold north, center, at_cells. change (Z.to_nat (gnx g4)) with 4%nat. rewrite Nat.div_small by exact H. cbn [yaxis g4 gylim gny fst snd Z.of_nat]. field. }
  unfold distance. rewrite E, N. replace (INR k ^ 2 + 0 ^ 2) with (INR k ^ 2) by ring. apply sqrt_pow2, pos_INR.
Qed.
Lemma g4_ring k : (k < 4)%nat -> ring g4 (/ 2) (/ 2) k = Z.of_nat k.
Proof.
  intros H. unfold ring. rewrite g4_distance by exact H. replace (Rabs (dcell (xaxis g4))) with 1.
  - apply Rfloor_imp. rewrite <- INR_IZR_INZ. lra.
  - unfold dcell, xaxis, g4. cbn. rewrite Rabs_right; lra.
Qed.
Example viewshed_rings_ex : let vals := [Some 0; Some 0; Some 5; Some 1] in
  grid_ok g4 /\ cells_of g4 vals /\ first_ring g4 vals (/ 2) (/ 2) 1 /\ preceding_ring g4 vals (/ 2) (/ 2) 2 (ring g4 (/ 2) (/ 2) 3) /\
  (exists vis, viewshed g4 vals (/ 2, / 2, 1) (fun _ => 0) = Ok vis /\ seen vis 1 /\ seen vis 2 /\ ~ seen vis 3 /\ ~ seen vis 0).
Proof.
  intros vals. pose proof g4_ok as G. assert (C : cells_of g4 vals) by reflexivity.
  assert (F : first_ring g4 vals (/ 2) (/ 2) 1). { split; [lia|]. intros k K. unfold is_cell in K; cbn in K. rewrite g4_ring by exact K. lia. }
  assert (P : preceding_ring g4 vals (/ 2) (/ 2) 2 (ring g4 (/ 2) (/ 2) 3)).
  { rewrite g4_ring by lia. split; [lia|]. split; [exists 2%nat; split; [unfold is_cell; cbn; lia|apply g4_ring; lia]|]. intros k K. unfold is_cell in K; cbn in K. rewrite g4_ring by exact K. lia. }
  split; [exact G|]. split; [exact C|]. split; [exact F|]. split; [exact P|].
  destruct (viewshed_total g4 vals (/ 2, / 2, 1) (fun _ => 0) G C) as (vis & E & _). exists vis. split; [exact E|].
  split; [|split; [|split]].
  - apply (viewshed_first_ring g4 vals (/ 2) (/ 2) 1 (fun _ => 0) vis 1 1 G C E); [unfold is_cell; cbn; lia|exact F|apply g4_ring; lia|discriminate].
  - apply (viewshed_above g4 vals (/ 2) (/ 2) 1 (fun _ => 0) vis 2 5 G C E); [unfold is_cell; cbn; lia|rewrite g4_ring by lia; lia|reflexivity|].
    intros j zj K Pj Ej. unfold is_cell in K; cbn in K. rewrite !g4_ring in Pj by lia. assert (J : j = 1%nat) by lia. subst j. injection Ej as <-.
    unfold slope_to. rewrite !g4_distance by lia. cbn. lra.
  - apply (viewshed_below g4 vals (/ 2) (/ 2) 1 (fun _ => 0) vis 2 3 1 G C E); [unfold is_cell; cbn; lia|exact P|reflexivity|].
    intros i Hi. assert (Q : is_cell vals i /\ ring g4 (/ 2) (/ 2) i = 2%Z) by (destruct Hi as [(A & B & _)|(A & B & _)]; auto).
    destruct Q as [K Q]. unfold is_cell in K; cbn in K. rewrite g4_ring in Q by exact K. assert (i = 2%nat) by lia. subst i. exists 5. split; [reflexivity|].
    unfold slope_to. rewrite !g4_distance by lia. cbn. lra.
  - apply (viewshed_origin_refuted g4 vals (/ 2) (/ 2) 1 (fun _ => 0) vis 0 G C E); [unfold is_cell; cbn; lia|apply g4_ring; lia|].
    exists 1%nat. split; [unfold is_cell; cbn; lia|]. rewrite g4_ring by lia. lia.
Qed.
