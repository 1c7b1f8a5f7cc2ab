From Coq Require Import Lia Lra Sorting.Sorted.
From Verif Require Import Base BaseLemmas HelpersModel AggregateProofs GridModel GridSpec GridProofs.
Open Scope Z_scope.

Lemma sorted_ext l m : StronglySorted Z.lt l -> StronglySorted Z.lt m -> (forall x, In x l <-> In x m) -> l = m.
Proof.
  revert m. induction l as [|a l IH]; intros m Hl Hm E.
  - destruct m as [|b m]; [reflexivity|]. destruct (proj2 (E b)); left; reflexivity.
  - destruct m as [|b m]; [destruct (proj1 (E a)); left; reflexivity|].
    apply StronglySorted_inv in Hl, Hm. destruct Hl as [Sl Fl], Hm as [Sm Fm]. rewrite Forall_forall in Fl, Fm.
    assert (a = b).
    { destruct (proj1 (E a) (or_introl eq_refl)) as [|Ia]; [auto|].
      destruct (proj2 (E b) (or_introl eq_refl)) as [|Ib]; [auto|].
      specialize (Fl _ Ib). specialize (Fm _ Ia). lia. }
    subst b. f_equal. apply IH; auto. intros x. split; intros Hx.
    + destruct (proj1 (E x) (or_intror Hx)) as [<-|]; [|auto]. specialize (Fl _ Hx). lia.
    + destruct (proj2 (E x) (or_intror Hx)) as [<-|]; [|auto]. specialize (Fm _ Hx). lia.
Qed.

Lemma Rfloor_div a b : 0 < b -> Rfloor (IZR a / IZR b) = a / b.
Proof.
  intros H. pose proof (Z.div_mod a b ltac:(lia)) as E. pose proof (Z.mod_pos_bound a b H) as B.
  assert (P : (0 < IZR b)%R) by (apply (IZR_lt 0); auto). apply Rfloor_imp. rewrite E at 2 3. rewrite plus_IZR, mult_IZR.
  replace ((IZR b * IZR (a / b) + IZR (a mod b)) / IZR b)%R with (IZR (a / b) + IZR (a mod b) / IZR b)%R by (field; lra).
  assert ((0 <= IZR (a mod b) < IZR b)%R) by (split; [apply (IZR_le 0)|apply IZR_lt]; lia).
  split.
  - assert ((0 <= IZR (a mod b) / IZR b)%R) by (apply Rdiv_nonneg; lra). lra.
  - assert ((IZR (a mod b) / IZR b < 1)%R); [|lra]. apply (Rmult_lt_reg_r (IZR b)); [lra|]. unfold Rdiv. rewrite Rmult_assoc, Rinv_l by lra. lra.
Qed.

Lemma filter_Zrange_lt n b : 0 <= n -> 0 <= b <= n -> length (filter (fun i => i <? b) (Zrange n)) = Z.to_nat b.
Proof.
  intros Hn Hb.
  assert (E : filter (fun i => i <? b) (Zrange n) = Zrange b).
  { apply sorted_ext.
    - assert (G : forall l, StronglySorted Z.lt l -> StronglySorted Z.lt (filter (fun i => i <? b) l)).
      { induction l as [|x l IH]; intros S; [constructor|]. apply StronglySorted_inv in S. destruct S as [S F].
        cbn [filter]. destruct (x <? b); auto. constructor; auto. rewrite Forall_forall in *. intros y Hy.
        apply filter_In in Hy. apply F, Hy. }
      apply G, Zrange_sorted.
    - apply Zrange_sorted.
    - intros x. rewrite filter_In, !in_Zrange, Z.ltb_lt. lia. }
  rewrite E. apply Zrange_length.
Qed.

(** tile widths *)
Definition tile_w (n size : Z) : Z :=
  let k := Rround (IZR n / IZR size) in if k =? 0 then n else Rceil (IZR n / IZR k).

Lemma tile_k_bounds n size : 1 <= n -> 1 <= size ->
  let k := Rround (IZR n / IZR size) in 0 <= k /\ 2 * n <= (2 * k + 1) * size /\ (2 * k - 1) * size <= 2 * n.
Proof.
  intros Hn Hs k. pose proof (Rround_near (IZR n / IZR size)) as R. fold k in R.
  apply Rabs_le_inv' in R. assert (P : (1 <= IZR size)%R) by (apply (IZR_le 1); auto).
  assert (Pn : (1 <= IZR n)%R) by (apply (IZR_le 1); auto).
  assert (Q : (IZR n = (IZR n / IZR size) * IZR size)%R) by (field; lra).
  set (q := (IZR n / IZR size)%R) in *.
  assert (A : 2 * n <= (2 * k + 1) * size).
  { apply le_IZR. rewrite !mult_IZR, plus_IZR, mult_IZR. rewrite Q. nra. }
  assert (B : (2 * k - 1) * size <= 2 * n).
  { apply le_IZR. rewrite !mult_IZR, minus_IZR, mult_IZR. rewrite Q. nra. }
  split; [nia|]. auto.
Qed.
Lemma Rceil_div a b : 0 < b -> Rceil (IZR a / IZR b) = - ((- a) / b).
Proof.
  intros H. unfold Rceil. f_equal. rewrite <- Rfloor_div by auto. f_equal. rewrite opp_IZR. lra.
Qed.
Lemma tile_w_bounds n size : 1 <= n -> 1 <= size ->
  let w := tile_w n size in 1 <= w <= n /\ (w < n -> 3 * size <= 4 * w) /\ 2 * w <= 3 * size + 1.
Proof.
  intros Hn Hs w. unfold w, tile_w. cbv zeta. destruct (tile_k_bounds n size Hn Hs) as (K0 & K1 & K2).
  set (k := Rround _) in *. destruct (k =? 0) eqn:E.
  - apply Z.eqb_eq in E. rewrite E in *. split; [lia|]. split; lia.
  - apply Z.eqb_neq in E. rewrite Rceil_div by lia. set (q := (- n) / k).
    assert (Q : - n = k * q + (- n) mod k) by (apply Z.div_mod; lia).
    pose proof (Z.mod_pos_bound (- n) k ltac:(lia)) as M. set (r := (- n) mod k) in *.
    assert (W : k * (- q) - r = n) by lia. set (v := - q) in *. clearbody v r k. clear Q.
    assert (V1 : 1 <= v) by nia. 
    assert (V2 : v <= n) by nia.
    split; [lia|]. split.
    + intros L. assert (2 <= k) by nia. nia.
    + assert (2 * k * v <= (2 * k + 1) * size + 2 * (k - 1)) by nia.
      assert (2 * k * v <= k * (3 * size + 1) + k - 1) by nia.
      assert (2 * v < 3 * size + 2) by nia. lia.
Qed.

Definition tile_m (n size : Z) : Z := (n - 1) / tile_w n size + 1.
Definition tile_j (n w ov j : Z) : Z * Z := (if j =? 0 then 0 else j * w - ov, Z.min n ((j + 1) * w)).

Lemma div_lt_iff i w v : 0 < w -> (i / w <= v <-> i < (v + 1) * w).
Proof.
  intros Hw. pose proof (Z.div_mod i w ltac:(lia)). pose proof (Z.mod_pos_bound i w Hw).
  split; intros; [nia|]. apply Z.lt_succ_r. apply Z.div_lt_upper_bound; lia.
Qed.

Lemma combine_map_seq {A B} (f : nat -> A) (g : nat -> B) l : combine (map f l) (map g l) = map (fun i => (f i, g i)) l.
Proof. induction l; cbn [map combine]; congruence. Qed.

Lemma tile_axis_eq n size ov : 1 <= n -> 1 <= size ->
  tile_axis n size ov = Ok (map (tile_j n (tile_w n size) ov) (Zrange (tile_m n size))).
Proof.
  intros Hn Hs. unfold tile_axis. destruct (size <=? 0) eqn:Es; [apply Z.leb_le in Es; lia|]. cbv zeta.
  destruct (tile_w_bounds n size Hn Hs) as ((W1 & W2) & _). 
  set (k := Rround (IZR n / IZR size)). set (w := tile_w n size) in *.
  set (group := fun i : Z => if k =? 0 then 0 else Rfloor (IZR i / IZR (Rceil (IZR n / IZR k)))).
  assert (G : map group (Zrange n) = map (fun i => i / w) (Zrange n)).
  { apply map_ext_in. intros i Hi. apply in_Zrange in Hi. unfold group, w, tile_w. fold k. cbv zeta.
    destruct (k =? 0) eqn:Ek; [symmetry; apply Z.div_small; lia|].
    apply Rfloor_div. unfold w, tile_w in W1. fold k in W1. rewrite Ek in W1. lia. }
  rewrite G. set (xi := map (fun i => i / w) (Zrange n)).
  set (m := tile_m n size). assert (Hm : 1 <= m).
  { unfold m, tile_m. fold w. pose proof (Z.div_pos (n - 1) w). lia. }
  assert (U : unique_Z xi = Zrange m).
  { apply sorted_ext; [apply unique_Z_sorted|apply Zrange_sorted|]. intros x. rewrite unique_Z_in. unfold xi.
    rewrite in_map_iff, in_Zrange. split.
    - intros (i & <- & Hi). apply in_Zrange in Hi. split; [apply Z.div_pos; lia|]. unfold m, tile_m. fold w.
      apply Z.lt_succ_r. apply Z.div_le_mono; lia.
    - intros Hx. exists (x * w). split; [apply Z.div_mul; lia|]. apply in_Zrange. unfold m, tile_m in Hx. fold w in Hx.
      pose proof (Z.mul_div_le (n - 1) w ltac:(lia)). nia. }
  rewrite U.
  set (right := fun v : Z => Z.of_nat (length (filter (fun x => x <=? v) xi))).
  assert (Rt : forall v, 0 <= v < m -> right v = Z.min n ((v + 1) * w)).
  { intros v Hv. unfold right, xi.
    assert (F : forall l, length (filter (fun x => x <=? v) (map (fun i => i / w) l)) = length (filter (fun i => i <? (v + 1) * w) l)).
    { induction l as [|i l IH]; [reflexivity|]. cbn [map filter].
      replace (i / w <=? v) with (i <? (v + 1) * w).
      - destruct (i <? (v + 1) * w); cbn [length]; congruence.
      - apply eq_true_iff_eq. rewrite Z.ltb_lt, Z.leb_le. symmetry. apply div_lt_iff. lia. }
    rewrite F. destruct (Z_le_gt_dec n ((v + 1) * w)) as [L|L].
    - rewrite Z.min_l by auto.
      rewrite (proj2 (filter_ext_in_iff _ (fun i => i <? n) (Zrange n))).
      + rewrite filter_Zrange_lt by lia. lia.
      + intros i Hi. apply in_Zrange in Hi. apply eq_true_iff_eq. rewrite !Z.ltb_lt. lia.
    - rewrite Z.min_r by lia. rewrite filter_Zrange_lt by lia. lia. }
  set (e := fun i : nat => Z.min n (Z.of_nat i * w)).
  assert (Ee : 0 :: map right (Zrange m) = map e (seq 0 (S (Z.to_nat m)))).
  { cbn [seq map]. f_equal; [unfold e; lia|]. unfold Zrange. rewrite map_map, <- seq_shift, map_map.
    apply map_ext_in. intros i Hi. apply in_seq in Hi. rewrite Rt by lia. unfold e. f_equal. lia. }
  rewrite Ee. rewrite map_length, seq_length.
  replace (S (Z.to_nat m) - 1)%nat with (Z.to_nat m) by lia.
  rewrite <- (map_id (seq 0 (S (Z.to_nat m)))) at 1. rewrite combine_map_seq, map_map. cbn [fst snd].
  rewrite firstn_map.
  replace (firstn (Z.to_nat m) (seq 0 (S (Z.to_nat m)))) with (seq 0 (Z.to_nat m)).
  2:{ rewrite seq_S, firstn_app, seq_length, Nat.sub_diag. cbn [firstn]. rewrite app_nil_r.
      rewrite <- (seq_length (Z.to_nat m) 0) at 2. rewrite firstn_all. reflexivity. }
  change (tl (map e (seq 0 (S (Z.to_nat m))))) with (map e (seq 1 (Z.to_nat m))).
  rewrite <- seq_shift, map_map, combine_map_seq.
  f_equal. unfold Zrange. rewrite map_map. apply map_ext_in. intros i Hi. apply in_seq in Hi.
  unfold tile_j, e. f_equal; [|f_equal; lia].
  destruct (Z.of_nat i =? 0) eqn:E0.
  - apply Z.eqb_eq in E0. assert (i = O) by lia. subst i. cbn [Nat.ltb Nat.leb andb]. lia.
  - apply Z.eqb_neq in E0. assert (X : ((0 <? i) && (i <? Z.to_nat m))%nat = true).
    { rewrite andb_true_iff, !Nat.ltb_lt. lia. }
    rewrite X. f_equal. unfold m, tile_m in Hi. fold w in Hi. 
    pose proof (Z.mul_div_le (n - 1) w ltac:(lia)). 
    assert (Z.of_nat i <= (n - 1) / w) by lia. apply Z.min_r. nia.
Qed.

Definition axis_tiles_ok (n : Z) (l : list (Z * Z)) : Prop := forall s, In s l -> 0 <= fst s < snd s /\ snd s <= n.


Lemma tile_m_pos n size : 1 <= n -> 1 <= size -> 1 <= tile_m n size.
Proof. intros Hn Hs. destruct (tile_w_bounds n size Hn Hs) as ((W1 & W2) & _). unfold tile_m. pose proof (Z.div_pos (n - 1) (tile_w n size)). lia. Qed.

Lemma tile_axis_plain n size : 1 <= n -> 1 <= size -> exists l, tile_axis n size 0 = Ok l
  /\ axis_tiles_ok n l
  /\ (forall s, In s l -> 2 * (snd s - fst s) <= 3 * size + 1)
  /\ (forall k, 0 <= k < n -> exists j s, nth_error l j = Some s /\ fst s <= k < snd s
        /\ forall j' s', nth_error l j' = Some s' -> fst s' <= k < snd s' -> j' = j)
  /\ forall ov, tile_axis n size ov = Ok (map (extend ov) l)
       /\ (0 <= ov -> 4 * ov <= 3 * size -> axis_tiles_ok n (map (extend ov) l)).
Proof.
  intros Hn Hs. destruct (tile_w_bounds n size Hn Hs) as ((W1 & W2) & W3 & W4). pose proof (tile_m_pos n size Hn Hs) as Hm.
  rewrite tile_axis_eq by auto. set (w := tile_w n size) in *. set (m := tile_m n size) in *.
  assert (M1 : (m - 1) * w < n).
  { unfold m, tile_m. fold w. pose proof (Z.mul_div_le (n - 1) w ltac:(lia)). nia. }
  assert (M2 : n <= m * w).
  { unfold m, tile_m. fold w. pose proof (Z.div_mod (n - 1) w ltac:(lia)). pose proof (Z.mod_pos_bound (n - 1) w ltac:(lia)). nia. }
  assert (J : forall j, 0 <= j < m -> tile_j n w 0 j = (j * w, Z.min n ((j + 1) * w))).
  { intros j Hj. unfold tile_j. destruct (j =? 0) eqn:E; [apply Z.eqb_eq in E; subst; f_equal; lia|f_equal; lia]. }
  eexists. split; [reflexivity|]. split; [|split; [|split]].
  - intros s Hs'. apply in_map_iff in Hs'. destruct Hs' as (j & <- & Hj). apply in_Zrange in Hj. rewrite J by auto. cbn [fst snd].
    assert (j * w <= (m - 1) * w) by nia. nia.
  - intros s Hs'. apply in_map_iff in Hs'. destruct Hs' as (j & <- & Hj). apply in_Zrange in Hj. rewrite J by auto. cbn [fst snd]. lia.
  - intros k Hk. pose proof (Z.div_mod k w ltac:(lia)) as D. pose proof (Z.mod_pos_bound k w ltac:(lia)) as B.
    assert (Q0 : 0 <= k / w) by (apply Z.div_pos; lia).
    assert (Q : k / w < m) by (apply Z.div_lt_upper_bound; lia).
    exists (Z.to_nat (k / w)), (k / w * w, Z.min n ((k / w + 1) * w)). split; [|split].
    + rewrite nth_error_map, nth_error_Zrange by lia. cbn [option_map]. rewrite Z2Nat.id by lia. rewrite J by lia. reflexivity.
    + cbn [fst snd]. nia.
    + intros j' s' Hj' Hin. rewrite nth_error_map in Hj'. destruct (nth_error (Zrange m) j') as [z|] eqn:Ez; [|discriminate].
      assert (L : (j' < length (Zrange m))%nat) by (apply nth_error_Some; congruence). rewrite Zrange_length in L.
      rewrite nth_error_Zrange in Ez by auto. injection Ez as <-. cbn [option_map] in Hj'.
      assert (s' = tile_j n w 0 (Z.of_nat j')) by congruence. subst s'. rewrite J in Hin by lia. cbn [fst snd] in Hin.
      assert (Z.of_nat j' = k / w); [|lia]. apply Z.div_unique with (r := k - Z.of_nat j' * w); lia.
  - intros ov.
    assert (X : map (extend ov) (map (tile_j n w 0) (Zrange m)) = map (tile_j n w ov) (Zrange m)).
    { rewrite map_map. apply map_ext_in. intros j Hj. apply in_Zrange in Hj. rewrite J by auto. unfold extend, tile_j. cbn [fst snd].
      f_equal. destruct (j =? 0) eqn:E; [apply Z.eqb_eq in E; subst; reflexivity|].
      apply Z.eqb_neq in E. destruct (j * w =? 0) eqn:E2; [apply Z.eqb_eq in E2; nia|reflexivity]. }
    split; [rewrite tile_axis_eq by auto; fold w m; rewrite X; reflexivity|].
    intros O1 O2. rewrite X. intros s Hs'. apply in_map_iff in Hs'. destruct Hs' as (j & <- & Hj). apply in_Zrange in Hj.
    unfold tile_j. cbn [fst snd]. assert (Y : 0 <= (j + 1) * w) by nia. assert (Z : j * w < n) by nia.
    destruct (j =? 0) eqn:E; [apply Z.eqb_eq in E; subst; lia|]. apply Z.eqb_neq in E.
    assert (ov <= w); [|nia].
    destruct (Z_lt_ge_dec w n) as [L|L]; [specialize (W3 L); lia|]. nia.
Qed.


Lemma in_slice_ok n s k : 0 <= fst s < snd s -> snd s <= n -> (in_slice n s k <-> fst s <= k < snd s).
Proof.
  intros A B. unfold in_slice, slice_bound. destruct (fst s <? 0) eqn:E1; [apply Z.ltb_lt in E1; lia|].
  destruct (snd s <? 0) eqn:E2; [apply Z.ltb_lt in E2; lia|]. rewrite !Z.min_l by lia. tauto.
Qed.

Lemma nth_error_prod {A B} (ys : list A) (xs : list B) i j y x :
  nth_error ys i = Some y -> nth_error xs j = Some x ->
  nth_error (flat_map (fun r => map (fun c => (r, c)) xs) ys) (i * length xs + j) = Some (y, x).
Proof.
  revert i. induction ys as [|y' ys IH]; intros [|i] Hi Hj; try discriminate; cbn [flat_map].
  - cbn in Hi. injection Hi as ->. rewrite Nat.mul_0_l, Nat.add_0_l, nth_error_app1.
    + rewrite nth_error_map, Hj. reflexivity.
    + rewrite map_length. apply nth_error_Some. congruence.
  - cbn in Hi. rewrite nth_error_app2; rewrite map_length; [|lia].
    replace (S i * length xs + j - length xs)%nat with (i * length xs + j)%nat by lia. apply IH; auto.
Qed.
Lemma nth_error_prod_inv {A B} (ys : list A) (xs : list B) k y x :
  nth_error (flat_map (fun r => map (fun c => (r, c)) xs) ys) k = Some (y, x) ->
  exists i j, k = (i * length xs + j)%nat /\ nth_error ys i = Some y /\ nth_error xs j = Some x.
Proof.
  revert k. induction ys as [|y' ys IH]; intros k H; [destruct k; discriminate|]. cbn [flat_map] in H.
  destruct (Nat.lt_ge_cases k (length xs)) as [L|L].
  - rewrite nth_error_app1 in H by (rewrite map_length; auto). rewrite nth_error_map in H.
    destruct (nth_error xs k) eqn:E; [|discriminate]. injection H as -> ->. exists O, k. split; [lia|]. auto.
  - rewrite nth_error_app2 in H by (rewrite map_length; auto). rewrite map_length in H.
    destruct (IH _ H) as (i & j & Ek & Hi & Hj). exists (S i), j. split; [lia|]. auto.
Qed.

Theorem tiles_partition g size : grid_ok g -> 1 <= fst size -> 1 <= snd size ->
  exists tiles, tile_indices g size (0, 0) = Ok tiles /\
   (forall r c, In (r, c) tiles -> 0 <= fst r < snd r /\ snd r <= gny g /\ 0 <= fst c < snd c /\ snd c <= gnx g
      /\ 2 * (snd r - fst r) <= 3 * snd size + 1 /\ 2 * (snd c - fst c) <= 3 * fst size + 1) /\
   (forall r c, 0 <= r < gny g -> 0 <= c < gnx g ->
      exists i t, nth_error tiles i = Some t /\ tile_covers g t r c
        /\ forall i' t', nth_error tiles i' = Some t' -> tile_covers g t' r c -> i' = i) /\
   (forall ov, 0 <= fst ov -> 0 <= snd ov -> 4 * fst ov <= 3 * fst size -> 4 * snd ov <= 3 * snd size ->
      tile_indices g size ov = Ok (map (fun t => (extend (snd ov) (fst t), extend (fst ov) (snd t))) tiles) /\
      forall t, In t tiles -> let t' := (extend (snd ov) (fst t), extend (fst ov) (snd t)) in
        0 <= fst (fst t') /\ 0 <= fst (snd t') /\ (forall r c, tile_covers g t r c -> tile_covers g t' r c)).
Proof.
  intros [[_ Hx] [_ Hy]] Sx Sy. cbn [xaxis yaxis snd] in Hx, Hy. unfold tile_indices.
  destruct (tile_axis_plain (gnx g) (fst size) Hx Sx) as (xs & Ex & Ox & Wx & Cx & Vx).
  destruct (tile_axis_plain (gny g) (snd size) Hy Sy) as (ys & Ey & Oy & Wy & Cy & Vy).
  cbn [fst snd]. rewrite Ex, Ey. cbn [bind]. eexists. split; [reflexivity|].
  assert (I : forall r c, In (r, c) (flat_map (fun r => map (fun c => (r, c)) xs) ys) -> In r ys /\ In c xs).
  { intros r c H. apply in_flat_map in H. destruct H as (r' & Hr & H). apply in_map_iff in H. destruct H as (c' & E & Hc).
    injection E as -> ->. auto. }
  split; [|split].
  - intros r c H. apply I in H. destruct H as [Hr Hc]. specialize (Ox _ Hc). specialize (Oy _ Hr). specialize (Wx _ Hc). specialize (Wy _ Hr).
    repeat split; lia.
  - intros r c Hr Hc. destruct (Cy r Hr) as (i & sr & Ei & Bi & Ui). destruct (Cx c Hc) as (j & sc & Ej & Bj & Uj).
    exists (i * length xs + j)%nat, (sr, sc). split; [apply nth_error_prod; auto|]. 
    assert (S1 : 0 <= fst sr < snd sr /\ snd sr <= gny g) by (apply Oy; apply nth_error_In with i; auto).
    assert (S2 : 0 <= fst sc < snd sc /\ snd sc <= gnx g) by (apply Ox; apply nth_error_In with j; auto).
    split; [split; cbn [fst snd]; apply in_slice_ok; tauto|].
    intros i' [sr' sc'] H' [K1 K2]. cbn [fst snd] in K1, K2. apply nth_error_prod_inv in H'. destruct H' as (i2 & j2 & -> & E1 & E2).
    assert (S3 : 0 <= fst sr' < snd sr' /\ snd sr' <= gny g) by (apply Oy; apply nth_error_In with i2; auto).
    assert (S4 : 0 <= fst sc' < snd sc' /\ snd sc' <= gnx g) by (apply Ox; apply nth_error_In with j2; auto).
    rewrite in_slice_ok in K1, K2 by tauto. rewrite (Ui _ _ E1 K1), (Uj _ _ E2 K2). reflexivity.
  - intros ov O1 O2 O3 O4. destruct (Vx (fst ov)) as [Vx1 Vx2]. destruct (Vy (snd ov)) as [Vy1 Vy2].
    rewrite Vx1, Vy1. cbn [bind]. split.
    + f_equal. clear. induction ys as [|y ys IH]; [reflexivity|]. cbn [map flat_map]. rewrite IH, map_app. f_equal.
      rewrite !map_map. reflexivity.
    + intros [r c] H. apply I in H. destruct H as [Hr Hc]. cbn [fst snd].
      assert (Px := Vx2 O1 O3 _ (in_map (extend (fst ov)) _ _ Hc)). assert (Py := Vy2 O2 O4 _ (in_map (extend (snd ov)) _ _ Hr)).
      specialize (Ox _ Hc). specialize (Oy _ Hr).
      split; [apply Py|]. split; [apply Px|]. intros k l [K1 K2]. cbn [fst snd] in *.
      rewrite in_slice_ok in K1, K2 by tauto. split; cbn [fst snd]; apply in_slice_ok; try tauto;
        unfold extend in *; cbn [fst snd] in *; [destruct (fst r =? 0)|destruct (fst c =? 0)]; lia.
Qed.
