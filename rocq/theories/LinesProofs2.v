(** Proofs about the points interpolated on the pieces (LinesModel.v) *)
From Coq Require Import Lia Lra.
From Verif Require Import Base BaseLemmas HelpersModel HelpersSpec RayModel LineModel LineSpec LineProofs P_Line LinesModel LinesProofs.
Open Scope R_scope.

Definition gap (p q : list R) : R := dist_euc (nth 0 p 0) (nth 1 p 0) (nth 0 q 0) (nth 1 q 0).
Lemma gap_pos p q : 0 <= gap p q.
Proof. apply sqrt_pos. Qed.
Lemma gap_sym p q : gap p q = gap q p.
Proof. apply distance_symm. Qed.
Lemma gap_triangle p q r : gap p r <= gap p q + gap q r.
Proof. apply triangle. Qed.
Lemma gap_refl p : gap p p = 0.
Proof. apply distance_refl. Qed.
Lemma gap_sq a b : length a = 2%nat -> length b = 2%nat -> sqrt (sq_diff a b) = gap a b.
Proof.
  intros La Lb. destruct a as [|a0 [|a1 [|]]]; try discriminate. destruct b as [|b0 [|b1 [|]]]; try discriminate. unfold gap, dist_euc. cbn [sq_diff nth]. f_equal. unfold Rsqr. ring.
Qed.
(** p is s of the way from a to b *)
Definition lerp (a b p : list R) (s : R) : Prop := nth 0 p 0 = (1 - s) * nth 0 a 0 + s * nth 0 b 0 /\ nth 1 p 0 = (1 - s) * nth 1 a 0 + s * nth 1 b 0.
Lemma gap_lerp a b p q s t : lerp a b p s -> lerp a b q t -> gap p q = Rabs (s - t) * gap a b.
Proof.
  intros [P0 P1] [Q0 Q1]. unfold gap, dist_euc. rewrite P0, P1, Q0, Q1. rewrite <- sqrt_Rsqr_abs. rewrite <- sqrt_mult by (first [apply Rle_0_sqr|apply Rplus_le_le_0_compat; apply Rle_0_sqr]). f_equal. unfold Rsqr. ring.
Qed.
Lemma arc_chord m i j : matrix 2 m -> (i <= j < length m)%nat -> gap (nth i m []) (nth j m []) <= arc m j - arc m i.
Proof.
  intros M [H Hj]. induction H as [|j H IH]; [rewrite gap_refl; lra|]. specialize (IH ltac:(lia)). cbn [arc]. rewrite gap_sq by (apply M, nth_In; lia). pose proof (gap_triangle (nth i m []) (nth j m []) (nth (S j) m [])). lra.
Qed.
Lemma on_line_lerp m t p : on_line 2 (arcs m) m t p -> exists j s, (S j < length m)%nat /\ 0 <= s <= 1 /\ t = arc m j + s * (arc m (S j) - arc m j) /\ lerp (nth j m []) (nth (S j) m []) p s.
Proof.
  intros (_ & j & s & J & Hs & E & P). exists j, s. split; [exact J|]. split; [exact Hs|]. unfold arcs in E. rewrite !nth_map_seq in E by lia. split; [exact E|]. split; apply P; lia.
Qed.
(** no chord is longer than the way along the line *)
Lemma chord_le m j s p k t q : matrix 2 m -> (S j < length m)%nat -> (S k < length m)%nat -> 0 <= s <= 1 -> 0 <= t <= 1 -> lerp (nth j m []) (nth (S j) m []) p s -> lerp (nth k m []) (nth (S k) m []) q t ->
  arc m j + s * (arc m (S j) - arc m j) <= arc m k + t * (arc m (S k) - arc m k) -> gap p q <= arc m k + t * (arc m (S k) - arc m k) - (arc m j + s * (arc m (S j) - arc m j)).
Proof.
  intros M J K Hs Ht P Q Le. assert (D : forall i, (S i < length m)%nat -> arc m (S i) - arc m i = gap (nth i m []) (nth (S i) m [])) by (intros i I; cbn [arc]; rewrite gap_sq by (apply M, nth_In; lia); ring).
  rewrite (D j J), (D k K) in *. pose proof (gap_pos (nth j m []) (nth (S j) m [])) as Gj. pose proof (gap_pos (nth k m []) (nth (S k) m [])) as Gk.
  assert (L0 : forall a b, lerp a b a 0) by (intros a b; split; ring). assert (L1 : forall a b, lerp a b b 1) by (intros a b; split; ring).
  assert (Same : forall i s t p q, s <= t -> lerp (nth i m []) (nth (S i) m []) p s -> lerp (nth i m []) (nth (S i) m []) q t -> gap p q = (t - s) * gap (nth i m []) (nth (S i) m [])).
  { intros i s' t' p' q' H P' Q'. rewrite (gap_lerp _ _ _ _ _ _ P' Q'), Rabs_left1 by lra. ring. }
  destruct (Nat.lt_trichotomy j k) as [Lt|[->|Gt]].
  - pose proof (arc_chord m (S j) k M ltac:(lia)) as AC. pose proof (D j J) as Dj. pose proof (Same j s 1 p _ ltac:(lra) P (L1 _ _)) as S1. pose proof (Same k 0 t _ q ltac:(lra) (L0 _ _) Q) as S2.
    pose proof (gap_triangle p (nth (S j) m []) q) as T1. pose proof (gap_triangle (nth (S j) m []) (nth k m []) q) as T2. lra.
  - destruct (Rle_dec s t) as [St|St]; [rewrite (Same k s t p q St P Q); lra|]. assert (Z : (s - t) * gap (nth k m []) (nth (S k) m []) = 0) by (apply Rle_antisym; nra). rewrite gap_sym, (Same k t s q p ltac:(lra) Q P). lra.
  - (* then both are at the same place *)
    pose proof (arc_chord m (S k) j M ltac:(lia)) as AC. pose proof (arc_mono m (S k) j ltac:(lia)) as Mo. pose proof (D k K) as Dk.
    assert (S0 : s * gap (nth j m []) (nth (S j) m []) = 0) by nra. assert (T0 : (1 - t) * gap (nth k m []) (nth (S k) m []) = 0) by nra. assert (A0 : arc m j = arc m (S k)) by nra.
    pose proof (Same j 0 s _ p ltac:(lra) (L0 _ _) P) as S1. pose proof (Same k t 1 q _ ltac:(lra) Q (L1 _ _)) as S2.
    pose proof (gap_triangle q (nth (S k) m []) p) as T1. pose proof (gap_triangle (nth (S k) m []) (nth j m []) p) as T2. rewrite gap_sym. nra.
Qed.
Lemma chord_abs m j s p k t q : matrix 2 m -> (S j < length m)%nat -> (S k < length m)%nat -> 0 <= s <= 1 -> 0 <= t <= 1 -> lerp (nth j m []) (nth (S j) m []) p s -> lerp (nth k m []) (nth (S k) m []) q t ->
  gap p q <= Rabs (arc m k + t * (arc m (S k) - arc m k) - (arc m j + s * (arc m (S j) - arc m j))).
Proof.
  intros M J K Hs Ht P Q. destruct (Rle_dec (arc m j + s * (arc m (S j) - arc m j)) (arc m k + t * (arc m (S k) - arc m k))) as [L|L].
  - rewrite Rabs_right by lra. apply (chord_le m j s p k t q); assumption.
  - rewrite Rabs_left by lra. rewrite gap_sym. replace (- _) with (arc m j + s * (arc m (S j) - arc m j) - (arc m k + t * (arc m (S k) - arc m k))) by ring. apply (chord_le m k t q j s p); try assumption. lra.
Qed.
(** n points at equal distances from 0 to L, with n = L / dx rounded *)
Lemma near_place L dx n tau : 0 < dx -> dx / 2 < L -> 0 <= tau <= L ->
  (forall k, L / dx = IZR k -> n = (k + 1)%Z) -> ((forall k, L / dx <> IZR k) -> Rabs (IZR n - L / dx) <= / 2) ->
  (1 <= n)%Z /\ (n = 1%Z -> Rabs (0 - tau) <= 3 / 2 * dx) /\ ((2 <= n)%Z -> exists k, (0 <= k < n)%Z /\ Rabs (0 + IZR k / IZR (n - 1) * (L - 0) - tau) <= 3 / 2 * dx).
Proof.
  intros Dx HL Ht HI HN. set (r := L / dx) in *. assert (EL : L = r * dx) by (unfold r; field; lra). assert (Hr : / 2 < r) by (apply Rmult_lt_reg_r with dx; lra).
  assert (HC : IZR n - 1 = r \/ Rabs (IZR n - r) <= / 2).
  { destruct (Req_dec r (IZR (Rfloor r))) as [E|E]; [left; rewrite (HI _ E), plus_IZR; lra|]. right. apply HN. intros k Ek. apply E. rewrite Ek at 2. rewrite Rfloor_IZR. exact Ek. }
  assert (N1 : (1 <= n)%Z). { assert (0 < IZR n) by (destruct HC as [E|A]; [lra|]; unfold Rabs in A; destruct (Rcase_abs _); lra). apply lt_IZR in H. lia. }
  split; [exact N1|]. split.
  - intros ->. rewrite Rabs_left1 by lra. destruct HC as [E|A]; [exfalso; lra|]. assert (r <= 3 / 2) by (unfold Rabs in A; destruct (Rcase_abs _); lra). nra.
  - intros N2. assert (N2' : 2 <= IZR n) by (apply IZR_le; exact N2). set (g := L / (IZR n - 1)). assert (G0 : 0 < g) by (unfold g; apply Rmult_lt_0_compat; [lra|apply Rinv_0_lt_compat; lra]). assert (EG : g * (IZR n - 1) = L) by (unfold g; field; lra).
    assert (GB : g <= 5 / 2 * dx).
    { apply Rmult_le_reg_r with (IZR n - 1); [lra|]. rewrite EG, EL. assert (r <= 5 / 2 * (IZR n - 1)) by (destruct HC as [E|A]; [lra|]; unfold Rabs in A; destruct (Rcase_abs _); lra). nra. }
    set (x := tau / g). assert (Ex : tau = x * g) by (unfold x; field; lra). assert (X0 : 0 <= x) by (unfold x; apply Rmult_le_pos; [lra|left; apply Rinv_0_lt_compat; exact G0]). assert (X1 : x <= IZR n - 1) by (apply Rmult_le_reg_r with g; lra).
    set (k := Rfloor (x + / 2)). pose proof (Rfloor_lb (x + / 2)) as LB. pose proof (Rfloor_ub (x + / 2)) as UB. fold k in LB, UB.
    assert (K0 : (0 <= k)%Z) by (apply Rfloor_le; lra). assert (K1 : (k < n)%Z) by (assert (H : IZR k < IZR n) by lra; apply lt_IZR in H; exact H). exists k. split; [lia|].
    rewrite minus_IZR. replace (0 + IZR k / (IZR n - 1) * (L - 0)) with (IZR k * g) by (unfold g; field; lra). rewrite Ex. replace (IZR k * g - x * g) with ((IZR k - x) * g) by ring. rewrite Rabs_mult, (Rabs_right g) by lra.
    assert (Rabs (IZR k - x) <= / 2) by (apply Rabs_le; lra). pose proof (Rabs_pos (IZR k - x)). nra.
Qed.
(** [interpolate_line] of one vertex *)
Lemma interp_one argsort p dx error fill : length p = 2%nat -> dx <> 0 -> interpolate_line argsort 2 [p] None None None (Some dx) error fill = Ok [p].
Proof.
  intros L D. destruct p as [|x [|y [|]]]; try discriminate. destruct (line_default argsort 2 [[x; y]] None None (Some dx) error fill) as (-> & _ & _); [cbn; lia|].
  destruct (line_step argsort 2 [[x; y]] (arcs [[x; y]]) dx error fill) as (n & -> & HI & _); [discriminate|exact D|]. cbv zeta in HI. unfold arcs in *. cbn [length seq map last nth arc] in *. specialize (HI 0%Z ltac:(unfold Rdiv; rewrite Rminus_0_r, Rmult_0_l, Rabs_R0; reflexivity)). subst n. change (0 + 1)%Z with 1%Z.
  rewrite line_count_eq by (first [lia|discriminate]). change (even_places [0] 1) with [0]. unfold interpolate_line, want. cbn [bind length Nat.ltb Nat.leb andb]. unfold interp_rows. cbn [length Nat.eqb negb mapM seq column map nth bind]. unfold np_interp. cbn [combine interp_in].
  destruct (Rltb 0 0); reflexivity.
Qed.
Definition line_len (m : list (list R)) : R := arc m (length m - 1).
Lemma interp_piece argsort m dx : sorts argsort -> m <> [] -> matrix 2 m -> dx <> 0 -> exists out, interpolate_line argsort 2 m None None None (Some dx) true Endpoints = Ok out /\
  (forall p, In p out -> length p = 2%nat /\ ((exists x, m = [x] /\ p = x) \/ exists x y s, adj m x y /\ 0 <= s <= 1 /\ lerp x y p s)) /\
  (0 < dx -> dx / 2 < line_len m -> forall x y q s, adj m x y -> 0 <= s <= 1 -> lerp x y q s -> exists p, In p out /\ gap q p <= 3 / 2 * dx) /\
  (0 < line_len m < dx / 2 -> out = []).
Proof.
  intros So Ne M D. destruct m as [|x0 [|x1 m']]; [contradiction| |].
  - exists [x0]. assert (L0 : length x0 = 2%nat) by (apply M; left; reflexivity). split; [apply interp_one; assumption|]. split; [intros p [<-|[]]; split; [exact L0|left; exists x0; split; reflexivity]|]. split.
    + intros Dx H. exfalso. unfold line_len in H. cbn in H. lra.
    + intros H. exfalso. unfold line_len in H. cbn in H. lra.
  - set (m := x0 :: x1 :: m') in *. assert (N2 : (2 <= length m)%nat) by (unfold m; cbn [length]; lia). destruct (line_default argsort 2 m None None (Some dx) true Endpoints) as (-> & Ri & AL); [lia|].
    assert (Na : arcs m <> []) by (unfold m; discriminate). destruct (line_step argsort 2 m (arcs m) dx true Endpoints Na D) as (n & -> & HI & HN). cbv zeta in HI, HN.
    assert (E0 : nth 0 (arcs m) 0 = 0) by reflexivity. assert (EL : last (arcs m) 0 = line_len m) by (rewrite last_nth, AL; unfold arcs; rewrite nth_map_seq by lia; reflexivity). rewrite E0, EL, Rminus_0_r in *. set (L := line_len m) in *.
    assert (Hn0 : (0 <= n)%Z).
    { pose proof (Rabs_pos (L / dx)) as P. set (r := Rabs (L / dx)) in *. destruct (Req_dec r (IZR (Rfloor r))) as [E|E]; [rewrite (HI _ E); assert (0 <= Rfloor r)%Z by (apply Rfloor_le; lra); lia|].
      assert (A : Rabs (IZR n - r) <= / 2) by (apply HN; intros k Ek; apply E; rewrite Ek at 2; rewrite Rfloor_IZR; exact Ek). assert (-1 < IZR n) by (unfold Rabs in A; destruct (Rcase_abs _); lra). apply lt_IZR in H. lia. }
    destruct (line_count argsort 2 m (arcs m) n None true Endpoints So M AL N2 (or_introl Ri) Hn0) as (out & -> & LO & PK & P1). rewrite E0, EL in *. exists out. split; [reflexivity|].
    assert (Pt : forall k, (0 <= k < n)%Z -> exists t, on_line 2 (arcs m) m t (nth (Z.to_nat k) out [])).
    { intros k Hk. destruct (Z_le_gt_dec 2 n) as [G|G]; [eexists; apply PK; [exact Hk|exact G]|]. assert (k = 0%Z) by lia. subst k. eexists. apply P1. lia. }
    split; [|split].
    + intros p I. apply (In_nth _ _ []) in I as (k & K & <-). destruct (Pt (Z.of_nat k) ltac:(lia)) as (t & OL). rewrite Nat2Z.id in OL. split; [exact (proj1 OL)|]. right. destruct (on_line_lerp m t _ OL) as (j & s & J & Hs & _ & Le). exists (nth j m []), (nth (S j) m []), s. split; [apply adj_nth; exact J|]. split; assumption.
    + intros Dx HL x y q s Ad Hs Q. destruct (adj_index m x y [] Ad) as (j & J & <- & <-). rewrite Rabs_right in HI, HN by (apply Rle_ge; apply Rmult_le_pos; [lra|left; apply Rinv_0_lt_compat; lra]).
      set (tau := arc m j + s * (arc m (S j) - arc m j)).
      assert (HT : 0 <= tau <= L). { unfold tau, L, line_len. pose proof (arc_mono m 0 j ltac:(lia)) as A0. pose proof (arc_mono m j (S j) ltac:(lia)) as A1. pose proof (arc_mono m (S j) (length m - 1) ltac:(lia)) as A2. change (arc m 0) with 0 in A0. split; nra. }
      destruct (near_place L dx n tau Dx HL HT HI HN) as (N1 & NA & NB).
      assert (Fin : forall k t, (0 <= k < n)%Z -> on_line 2 (arcs m) m t (nth (Z.to_nat k) out []) -> Rabs (t - tau) <= 3 / 2 * dx -> exists p, In p out /\ gap q p <= 3 / 2 * dx).
      { intros k t Hk OL Hb. exists (nth (Z.to_nat k) out []). split; [apply nth_In; lia|]. destruct (on_line_lerp m t _ OL) as (j' & s' & J' & Hs' & Et & Le'). eapply Rle_trans; [apply (chord_abs m j s q j' s'); try assumption|]. rewrite <- Et. fold tau. exact Hb. }
      destruct (Z_le_gt_dec 2 n) as [G|G].
      * destruct (NB G) as (k & Hk & Hb). apply (Fin k _ Hk (PK k Hk G) Hb).
      * assert (n = 1%Z) by lia. apply (Fin 0%Z 0 ltac:(lia) (P1 ltac:(lia))). apply NA. assumption.
    + intros [HL0 HL]. assert (Dx : 0 < dx) by lra. assert (R0 : 0 < L / dx) by (apply Rmult_lt_0_compat; [lra|apply Rinv_0_lt_compat; lra]). assert (R1 : L / dx < / 2) by (apply Rmult_lt_reg_r with dx; [lra|]; unfold Rdiv; rewrite Rmult_assoc, Rinv_l by lra; lra).
      rewrite Rabs_right in HN by lra. assert (A : Rabs (IZR n - L / dx) <= / 2). { apply HN. intros k Ek. rewrite Ek in R0, R1. assert (IZR k < 1) by lra. apply lt_IZR in R0, H. lia. }
      assert (IZR n < 1) by (unfold Rabs in A; destruct (Rcase_abs _); lra). apply lt_IZR in H. destruct out; [reflexivity|cbn [length] in LO; lia].
Qed.
