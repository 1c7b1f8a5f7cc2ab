(** C88: subsets of a raster. *)
From Verif Require Import Base BaseLemmas HelpersModel GridModel GridSpec GridProofs RasterModel RasterSpec RasterProofs GetitemModel.
Open Scope R_scope.

(** ** Slices of Python *)
Definition step_of (ix : index) : Z := match ix with ISlice _ _ (Some s) => s | _ => 1%Z end.
Definition selection (n : Z) (ix : index) : result (list Z) := let* (a, b, s) := as_slice ix in positions n a b s.

(** the elements selected by start:stop:step of a sequence of n elements: first, first + step, ... as long as the end is not reached; [first] and [last] count from the end if negative and are moved into the sequence *)
Definition slice_first (n : Z) (start : option Z) (s : Z) : Z :=
  match start with
  | None => if (0 <? s)%Z then 0%Z else (n - 1)%Z
  | Some i => let p := if (i <? 0)%Z then (n + i)%Z else i in if (0 <? s)%Z then Z.max 0 (Z.min n p) else Z.max (-1) (Z.min (n - 1) p)
  end.
Definition slice_end (n : Z) (stop : option Z) (s : Z) : Z :=
  match stop with
  | None => if (0 <? s)%Z then n else (-1)%Z
  | Some i => let p := if (i <? 0)%Z then (n + i)%Z else i in if (0 <? s)%Z then Z.max 0 (Z.min n p) else Z.max (-1) (Z.min (n - 1) p)
  end.
Lemma zrange_length n : length (Zrange n) = Z.to_nat n.
Proof. unfold Zrange. now rewrite map_length, seq_length. Qed.
Lemma zrange_nth n k : (k < Z.to_nat n)%nat -> nth k (Zrange n) 0%Z = Z.of_nat k.
Proof. intros H. unfold Zrange. change 0%Z with (Z.of_nat 0). rewrite map_nth, seq_nth by exact H. reflexivity. Qed.
Lemma adjust_pos n i : (0 <= n)%Z -> adjust n false i = Z.max 0 (Z.min n (if i <? 0 then n + i else i))%Z.
Proof. intros N. unfold adjust. destruct (Z.ltb_spec i 0); [destruct (Z.ltb_spec (i + n) 0); lia|destruct (Z.leb_spec n i); lia]. Qed.
Lemma adjust_neg n i : (0 <= n)%Z -> adjust n true i = Z.max (-1) (Z.min (n - 1) (if i <? 0 then n + i else i))%Z.
Proof. intros N. unfold adjust. destruct (Z.ltb_spec i 0); [destruct (Z.ltb_spec (i + n) 0); lia|destruct (Z.leb_spec n i); lia]. Qed.

Theorem getitem_slice : forall n start stop step, (0 <= n)%Z -> let s := match step with Some s => s | None => 1%Z end in
  (s = 0%Z -> positions n start stop step = Err ValueError) /\
  (s <> 0%Z -> exists ps, positions n start stop step = Ok ps /\
    (forall k, (k < length ps)%nat -> nth k ps 0%Z = (slice_first n start s + Z.of_nat k * s)%Z) /\
    (forall p, In p ps -> (0 <= p < n)%Z) /\
    (forall k, (0 <= k)%Z -> let p := (slice_first n start s + k * s)%Z in In p ps <-> (if 0 <? s then p < slice_end n stop s else slice_end n stop s < p)%Z)).
Proof.
  intros n start stop step N s. unfold positions. fold s. destruct (Z.eqb_spec s 0) as [E|E]; split; try (intros; congruence). intros _.
  assert (LO : (match start with Some i => adjust n (s <? 0) i | None => if s <? 0 then n - 1 else 0 end)%Z = slice_first n start s).
  { unfold slice_first. destruct start as [i|]; destruct (Z.ltb_spec s 0), (Z.ltb_spec 0 s); try lia; [rewrite adjust_neg|rewrite adjust_pos]; lia. }
  assert (HI : (match stop with Some i => adjust n (s <? 0) i | None => if s <? 0 then -1 else n end)%Z = slice_end n stop s).
  { unfold slice_end. destruct stop as [i|]; destruct (Z.ltb_spec s 0), (Z.ltb_spec 0 s); try lia; [rewrite adjust_neg|rewrite adjust_pos]; lia. }
  rewrite LO, HI. set (lo := slice_first n start s). set (hi := slice_end n stop s).
  assert (BL : if (0 <? s)%Z then (0 <= lo /\ hi <= n)%Z else (-1 <= hi /\ lo <= n - 1)%Z).
  { unfold lo, hi, slice_first, slice_end. destruct (0 <? s)%Z, start, stop; lia. }
  clearbody lo hi. clear LO HI.
  set (count := if (s <? 0)%Z then (if (hi <? lo)%Z then ((lo - hi - 1) / - s + 1)%Z else 0%Z) else (if (lo <? hi)%Z then ((hi - lo - 1) / s + 1)%Z else 0%Z)).
  assert (CK : forall k, (0 <= k)%Z -> (k < count)%Z <-> (if 0 <? s then lo + k * s < hi else hi < lo + k * s)%Z).
  { intros k K. unfold count. destruct (Z.ltb_spec s 0), (Z.ltb_spec 0 s); try lia.
    - destruct (Z.ltb_spec hi lo).
      + assert (Q : (k <= (lo - hi - 1) / - s <-> - s * k <= lo - hi - 1)%Z).
        { split; intros Q; [|apply Z.div_le_lower_bound; lia]. pose proof (Z.mul_div_le (lo - hi - 1) (- s) ltac:(lia)). nia. }
        nia.
      + split; nia.
    - destruct (Z.ltb_spec lo hi).
      + assert (Q : (k <= (hi - lo - 1) / s <-> s * k <= hi - lo - 1)%Z).
        { split; intros Q; [|apply Z.div_le_lower_bound; lia]. pose proof (Z.mul_div_le (hi - lo - 1) s ltac:(lia)). nia. }
        nia.
      + split; nia. }
  eexists. split; [reflexivity|]. rewrite map_length, zrange_length.
  assert (NT : forall k, (k < Z.to_nat count)%nat -> nth k (map (fun k0 => lo + k0 * s) (Zrange count))%Z 0%Z = (lo + Z.of_nat k * s)%Z).
  { intros k K. rewrite (nth_indep _ 0%Z (lo + 0 * s)%Z) by (rewrite map_length, zrange_length; exact K). rewrite (map_nth (fun k0 => lo + k0 * s)%Z), zrange_nth by exact K. reflexivity. }
  assert (IP : forall k, (0 <= k)%Z -> In (lo + k * s)%Z (map (fun k0 => lo + k0 * s) (Zrange count))%Z <-> (k < count)%Z).
  { intros k K. rewrite in_map_iff. unfold Zrange. split.
    - intros (x & Ex & Ix). apply in_map_iff in Ix as (m & <- & Im). apply in_seq in Im. assert (Z.of_nat m = k) by nia. lia.
    - intros L. exists k. split; [reflexivity|]. apply in_map_iff. exists (Z.to_nat k). split; [lia|]. apply in_seq. lia. }
  split; [exact NT|]. split.
  - intros p Ip. apply In_nth with (d := 0%Z) in Ip as (k & Lk & <-). rewrite map_length, zrange_length in Lk. rewrite NT by exact Lk. pose proof (proj1 (CK (Z.of_nat k) ltac:(lia)) ltac:(lia)) as Q. destruct (Z.ltb_spec 0 s); nia.
  - intros k K. cbv zeta. rewrite IP by exact K. now apply CK.
Qed.
Print Assumptions getitem_slice.

(** ** One axis *)
Lemma center_eq a k : center a k = fst (fst a) + (IZR k + / 2) * dcell a.
Proof. unfold center, at_cells, dcell. reflexivity. Qed.
Lemma dcell_nz a : axis_ok a -> dcell a <> 0.
Proof. intros [N L]. unfold dcell. intros Q. apply Rmult_integral in Q as [Q|Q]; [lra|]. apply (Rinv_neq_0_compat (IZR (snd a))); [|exact Q]. apply not_0_IZR. lia. Qed.

(** the positions are first, first + s, ... *)
Definition arithmetic (ps : list Z) (s : Z) : Prop := forall k, (k < length ps)%nat -> nth k ps 0%Z = (hd 0%Z ps + Z.of_nat k * s)%Z.
(** what __getitem__ handles: a positive step, or any step if three or more cells are selected, or a single cell *)
Definition sound (s : Z) (ps : list Z) : Prop := (0 < s)%Z \/ (3 <= length ps)%nat \/ length ps = 1%nat.

Lemma axis_from (l0 D : R) (n : Z) : (1 <= n)%Z -> D <> 0 -> let a := ((l0, l0 + IZR n * D), n) in axis_ok a /\ dcell a = D /\ forall k, center a k = l0 + (IZR k + / 2) * D.
Proof.
  intros N ND a. assert (NZ : IZR n <> 0) by (apply not_0_IZR; lia).
  assert (E : dcell a = D) by (unfold a, dcell; cbn [fst snd]; field; exact NZ).
  split; [split; cbn [a fst snd]; [|exact N]|]. { intros Q. assert (IZR n * D = 0) by lra. apply Rmult_integral in H as [|]; contradiction. }
  split; [exact E|]. intros k. rewrite center_eq, E. reflexivity.
Qed.

Definition vec_parse (v : list R) : result ((R * R) * option (list R)) := let* (l, c, _) := parse_xy 0 0 (CVec v) false in Ok (l, c).
Lemma parse_vec nx ny v dim : parse_xy nx ny (CVec v) dim = let* (l, c) := vec_parse v in Ok (l, c, None).
Proof.
  unfold vec_parse, parse_xy. destruct (2 <? length v)%nat; [|destruct (length v =? 2)%nat; [destruct (parse_limits v); reflexivity|reflexivity]].
  destruct v as [|x0 [|x1 v]]; try reflexivity. destruct (parse_limits _); reflexivity.
Qed.
Lemma parse_limits_ne a b : a <> b -> parse_limits [a; b] = Ok (a, b).
Proof. intros N. cbn. now rewrite (proj2 (Reqb_false a b)). Qed.
Lemma last_nth {A} (l : list A) d : last l d = nth (length l - 1) l d.
Proof. induction l as [|x l IH]; [reflexivity|]. destruct l as [|y l]; [reflexivity|]. change (last (x :: y :: l) d) with (last (y :: l) d). rewrite IH. cbn [length]. replace (S (S (length l)) - 1)%nat with (S (S (length l) - 1)) by lia. reflexivity. Qed.

Lemma sub_axis a x ps s step : axis_ok a -> is_centers a x -> (forall p, In p ps -> (0 <= p < snd a)%Z) -> s = match step with Some s => s | None => 1%Z end -> s <> 0%Z -> arithmetic ps s -> ps <> [] -> sound s ps ->
  exists cs l c, sub_coordinates (dcell a) x ps step = Ok cs /\ vec_parse cs = Ok (l, c) /\ let a' := (l, Z.of_nat (length ps)) in
    axis_ok a' /\ (forall k, (k < length ps)%nat -> center a' (Z.of_nat k) = center a (nth k ps 0%Z)) /\ (forall v, c = Some v -> is_centers a' v) /\
    ((0 < s)%Z \/ (3 <= length ps)%nat -> dcell a' = IZR s * dcell a) /\ ((s < 0)%Z -> length ps = 1%nat -> dcell a' = dcell a).
Proof.
  intros A IC PR Es Ns AR NE SD. pose proof (dcell_nz a A) as ND. set (d := dcell a) in *.
  assert (V : forall k, (k < length ps)%nat -> nth k (map (zat 0 x) ps) 0 = center a (nth k ps 0%Z)).
  { intros k K. rewrite (nth_indep _ 0 (zat 0 x 0%Z)) by (rewrite map_length; exact K). rewrite map_nth. unfold zat. destruct IC as [IL IV].
    assert (P : (0 <= nth k ps 0 < snd a)%Z) by (apply PR, nth_In, K). rewrite IV by lia. now rewrite Z2Nat.id by lia. }
  assert (CE : forall k, (k < length ps)%nat -> center a (nth k ps 0%Z) = center a (hd 0%Z ps) + INR k * (IZR s * d)).
  { intros k K. rewrite !center_eq, (AR k K), plus_IZR, mult_IZR, <- INR_IZR_INZ. fold d. ring. }
  set (x0 := center a (hd 0%Z ps)) in *. set (n := length ps) in *.
  assert (N1 : (1 <= n)%nat) by (unfold n; destruct ps; [congruence|cbn; lia]).
  assert (HD0 : forall t, exists w, map (zat 0 x) ps = t -> t = x0 :: w).
  { intros t. exists (tl t). intros <-. pose proof (V 0%nat N1) as Q. rewrite (CE 0%nat N1) in Q. destruct ps as [|p ps']; [congruence|]. cbn [map nth tl] in *. rewrite Q. f_equal. cbn [INR]. ring. }
  (* the axis built from a first center, a cell size and a number of cells *)
  assert (DONE : forall D l c, D <> 0 -> l = (x0 - D / 2, x0 - D / 2 + IZR (Z.of_nat n) * D) -> (forall k, (k < n)%nat -> INR k * D = INR k * (IZR s * d)) -> (c = None \/ c = Some (map (zat 0 x) ps)) ->
    let a' := (l, Z.of_nat n) in axis_ok a' /\ (forall k, (k < n)%nat -> center a' (Z.of_nat k) = center a (nth k ps 0%Z)) /\ (forall v, c = Some v -> is_centers a' v) /\ dcell a' = D).
  { intros D l c HD El ED Ec. cbv zeta. destruct (axis_from (x0 - D / 2) D (Z.of_nat n) ltac:(lia) HD) as (Q1 & Q2 & Q3). rewrite <- El in Q1, Q2, Q3.
    assert (CC : forall k, (k < n)%nat -> center (l, Z.of_nat n) (Z.of_nat k) = center a (nth k ps 0%Z)).
    { intros k K. rewrite Q3, (CE k K), <- (ED k K), <- INR_IZR_INZ. field. }
    split; [exact Q1|]. split; [exact CC|]. split; [|exact Q2]. intros v Ev. destruct Ec as [Ec|Ec]; rewrite Ec in Ev; [discriminate|]. injection Ev as <-. split; [rewrite map_length; cbn [snd]; unfold n; lia|].
    intros k K. rewrite map_length in K. fold n in K. rewrite (CC k K). now apply V. }
  assert (NSD : IZR s * d <> 0) by (intros Q; apply Rmult_integral in Q as [Q|Q]; [apply Ns; now apply eq_IZR|contradiction]).
  unfold sub_coordinates. cbv zeta. rewrite map_length. fold n.
  destruct (Nat.ltb_spec n 3) as [L3|L3].
  - set (D := step_size d step). assert (HD : D <> 0 /\ ((0 < s)%Z -> D = IZR s * d) /\ ((s < 0)%Z -> D = d)).
    { unfold D, step_size. destruct step as [t|]; subst s.
      - destruct (Z.ltb_spec 1 t); [repeat split; [rewrite Rmult_comm; exact NSD|intros; ring|lia]|]. split; [exact ND|]. split; [intros; assert (t = 1%Z) by lia; subst t; ring|reflexivity].
      - split; [exact ND|]. split; [intros; ring|lia]. }
    destruct HD as (HD1 & HD2 & HD3).
    assert (LST : last (map (zat 0 x) ps) 0 = x0 + INR (n - 1) * (IZR s * d)) by (rewrite last_nth, map_length; fold n; rewrite V, CE by lia; reflexivity).
    destruct (HD0 (map (zat 0 x) ps)) as [w Hw]. specialize (Hw eq_refl). cbv zeta. rewrite LST, Hw.
    assert (INRD : forall k, (k < n)%nat -> INR k * D = INR k * (IZR s * d)).
    { intros k K. destruct SD as [S0|[S0|S0]]; [now rewrite HD2|unfold n in L3; lia|]. fold n in S0. assert (k = 0%nat) by lia. subst k. cbn [INR]. ring. }
    assert (X1 : x0 + INR (n - 1) * (IZR s * d) + / 2 * D = x0 - D / 2 + IZR (Z.of_nat n) * D).
    { rewrite <- INRD by lia. rewrite <- INR_IZR_INZ. rewrite (minus_INR n 1 N1). cbn [INR]. field. }
    assert (X2 : x0 - / 2 * D = x0 - D / 2) by field.
    destruct (DONE D (x0 - D / 2, x0 - D / 2 + IZR (Z.of_nat n) * D) None HD1 eq_refl INRD (or_introl eq_refl)) as (Q1 & Q2 & Q3 & Q4).
    rewrite X1, X2. eexists. exists (x0 - D / 2, x0 - D / 2 + IZR (Z.of_nat n) * D), None. split; [reflexivity|]. split.
    { unfold vec_parse, parse_xy. cbn [length Nat.ltb Nat.leb Nat.eqb]. rewrite parse_limits_ne by (destruct Q1 as [Q1 _]; exact Q1). reflexivity. }
    cbv zeta. split; [exact Q1|]. split; [exact Q2|]. split; [exact Q3|]. split.
    + intros [S0|S0]; [rewrite Q4; auto|unfold n in L3; lia].
    + intros S0 _. rewrite Q4. auto.
  - set (v := map (zat 0 x) ps). assert (Lv : length v = n) by apply map_length.
    assert (LST : last v 0 = x0 + INR (n - 1) * (IZR s * d)) by (rewrite last_nth, Lv; unfold v; rewrite V, CE by lia; reflexivity).
    assert (V0 : nth 0 v 0 = x0) by (unfold v; rewrite V, CE by lia; cbn [INR]; ring). assert (V1 : nth 1 v 0 = x0 + IZR s * d) by (unfold v; rewrite V, CE by lia; cbn [INR]; ring).
    destruct (DONE (IZR s * d) (x0 - (IZR s * d) / 2, x0 - (IZR s * d) / 2 + IZR (Z.of_nat n) * (IZR s * d)) (Some v) NSD eq_refl (fun _ _ => eq_refl) (or_intror eq_refl)) as (Q1 & Q2 & Q3 & Q4).
    exists v, (x0 - (IZR s * d) / 2, x0 - (IZR s * d) / 2 + IZR (Z.of_nat n) * (IZR s * d)), (Some v). split; [reflexivity|]. split.
    { unfold vec_parse, parse_xy. rewrite Lv. replace (2 <? n)%nat with true by (symmetry; apply Nat.ltb_lt; lia). rewrite LST. clear Q1 Q2 Q3 Q4 HD0 LST. destruct v as [|a0 [|a1 v']]; cbn [length] in Lv; [lia|lia|]. cbn [nth] in V0, V1. subst a0 a1.
      replace (x0 + IZR s * d - x0) with (IZR s * d) by ring.
      replace (x0 + INR (n - 1) * (IZR s * d) + IZR s * d / 2) with (x0 - IZR s * d / 2 + IZR (Z.of_nat n) * (IZR s * d)) by (rewrite <- INR_IZR_INZ, (minus_INR n 1 N1); cbn [INR]; field).
      rewrite parse_limits_ne; [reflexivity|]. intros Q. assert (QQ : IZR (Z.of_nat n) * (IZR s * d) = 0) by lra. apply Rmult_integral in QQ as [QQ|QQ]; [|contradiction]. apply eq_IZR in QQ. lia. }
    cbv zeta. split; [exact Q1|]. split; [exact Q2|]. split; [exact Q3|]. split; [intros _; exact Q4|]. intros _ S0. unfold n in L3. lia.
Qed.

(** ** Rasters *)
(** array[r, c] *)
Definition cell (r : sraster) (row col : Z) : option R := zat None (zat [] (s_rows r) row) col.
(** the array has the shape of the grid, whose cached coordinates are the centers of its cells *)
Definition coherent (r : sraster) : Prop :=
  grid_ok (s_grid r) /\ length (s_rows r) = Z.to_nat (gny (s_grid r)) /\ (forall row, In row (s_rows r) -> length row = Z.to_nat (gnx (s_grid r))) /\
  (forall v, s_x r = Some v -> is_centers (xaxis (s_grid r)) v) /\ (forall v, s_y r = Some v -> is_centers (yaxis (s_grid r)) v).

Lemma sx_centers r : coherent r -> exists v, sx r = Ok v /\ is_centers (xaxis (s_grid r)) v.
Proof. intros ([GX _] & _ & _ & HX & _). unfold sx. destruct (s_x r) as [v|]; [eauto|]. now apply centers_is. Qed.
Lemma sy_centers r : coherent r -> exists v, sy r = Ok v /\ is_centers (yaxis (s_grid r)) v.
Proof. intros ([_ GY] & _ & _ & _ & HY). unfold sy. destruct (s_y r) as [v|]; [eauto|]. now apply centers_is. Qed.
Lemma selection_parts n ix ps : (0 <= n)%Z -> selection n ix = Ok ps -> exists a b st, as_slice ix = Ok (a, b, st) /\ positions n a b st = Ok ps /\ step_of ix = match st with Some s => s | None => 1%Z end /\ step_of ix <> 0%Z /\ arithmetic ps (step_of ix) /\ (forall p, In p ps -> (0 <= p < n)%Z).
Proof.
  intros N E. unfold selection in E. destruct (as_slice ix) as [[[a b] st]|] eqn:Ea; [|discriminate E]. cbn [bind] in E. exists a, b, st.
  assert (SO : step_of ix = match st with Some s => s | None => 1%Z end) by (destruct ix; cbn in Ea |- *; [injection Ea as <- <- <-; reflexivity|injection Ea as <- <- <-; destruct step; reflexivity|discriminate Ea]).
  destruct (getitem_slice n a b st N) as [S0 S1]. rewrite <- SO in S0, S1. destruct (Z.eq_dec (step_of ix) 0) as [Z0|Z0]; [rewrite (S0 Z0) in E; discriminate|].
  destruct (S1 Z0) as (ps' & E' & NT & RG & _). rewrite E in E'. injection E' as <-. repeat split; try assumption; try apply RG; try assumption.
  intros k K. rewrite (NT k K). destruct ps as [|p ps]; [cbn in K; lia|]. pose proof (NT 0%nat (Nat.lt_0_succ _)) as H0. cbn [nth hd] in H0 |- *. lia.
Qed.
Lemma zat_map {A B} (f : A -> B) l d d' (k : Z) : (0 <= k < Z.of_nat (length l))%Z -> zat d' (map f l) k = f (zat d l k).
Proof. intros K. unfold zat. rewrite (nth_indep _ d' (f d)) by (rewrite map_length; lia). apply map_nth. Qed.

(** raster[i, j] is the raster of the selected rows and columns, each with its values and its center; the size of the cells is multiplied by the step.  It raises IndexError if nothing is selected. *)
Theorem raster_getitem : forall r i j rows cols, coherent r -> selection (gny (s_grid r)) i = Ok rows -> selection (gnx (s_grid r)) j = Ok cols ->
  (rows = [] \/ cols = [] -> getitem r i j = Err IndexError) /\
  (rows <> [] -> cols <> [] -> sound (step_of i) rows -> sound (step_of j) cols ->
   exists r', getitem r i j = Ok r' /\ coherent r' /\ gny (s_grid r') = Z.of_nat (length rows) /\ gnx (s_grid r') = Z.of_nat (length cols) /\ s_datetime r' = s_datetime r /\ s_crs r' = None /\
     (forall a b, (0 <= a < gny (s_grid r'))%Z -> (0 <= b < gnx (s_grid r'))%Z -> cell r' a b = cell r (zat 0%Z rows a) (zat 0%Z cols b)) /\
     (forall a, (0 <= a < gny (s_grid r'))%Z -> center (yaxis (s_grid r')) a = center (yaxis (s_grid r)) (zat 0%Z rows a)) /\
     (forall b, (0 <= b < gnx (s_grid r'))%Z -> center (xaxis (s_grid r')) b = center (xaxis (s_grid r)) (zat 0%Z cols b)) /\
     ((0 < step_of i)%Z \/ (3 <= length rows)%nat -> dcell (yaxis (s_grid r')) = IZR (step_of i) * dcell (yaxis (s_grid r))) /\
     ((0 < step_of j)%Z \/ (3 <= length cols)%nat -> dcell (xaxis (s_grid r')) = IZR (step_of j) * dcell (xaxis (s_grid r)))).
Proof.
  intros r i j rows cols CO Si Sj. destruct (sx_centers r CO) as (x & Ex & Cx). destruct (sy_centers r CO) as (y & Ey & Cy). destruct CO as ([GX GY] & LR & LC & _ & _).
  assert (NY : (0 <= gny (s_grid r))%Z) by (destruct GY as [_ Q]; cbn in Q; lia). assert (NX : (0 <= gnx (s_grid r))%Z) by (destruct GX as [_ Q]; cbn in Q; lia).
  destruct (selection_parts _ _ _ NY Si) as (i0 & i1 & ist & Ei & Pi & Ti & Ni & Ai & Ri). destruct (selection_parts _ _ _ NX Sj) as (j0 & j1 & jst & Ej & Pj & Tj & Nj & Aj & Rj).
  assert (G : getitem r i j = let* cx := sub_coordinates (fst (gd (s_grid r))) x cols jst in let* cy := sub_coordinates (snd (gd (s_grid r))) y rows ist in
    new_sraster (map (fun p => map (zat None (zat [] (s_rows r) p)) cols) rows) cx cy (s_datetime r)).
  { unfold getitem. rewrite Ei. cbn [bind]. rewrite Ej. cbn [bind]. rewrite Ex. cbn [bind]. rewrite Pj. cbn [bind]. rewrite Ey. cbn [bind]. rewrite Pi. reflexivity. }
  rewrite G. clear G. cbn [gd fst snd]. split.
  - intros [-> | ->].
    + destruct (sub_coordinates (dcell (xaxis (s_grid r))) x cols jst) as [cx|e] eqn:Q; [cbn [bind]; reflexivity|]. cbn [bind]. unfold sub_coordinates in Q. cbv zeta in Q. generalize dependent (map (zat 0%R x) cols). intros w Q. destruct (Nat.ltb (length w) 3); [|discriminate Q]. destruct w; [congruence|discriminate Q].
    + reflexivity.
  - intros NR NC Sr Sc. destruct (sub_axis _ x cols _ jst GX Cx Rj Tj Nj Aj NC Sc) as (cx & lx & ccx & E1 & E2 & X1 & X2 & X3 & X4 & _). destruct (sub_axis _ y rows _ ist GY Cy Ri Ti Ni Ai NR Sr) as (cy & ly & ccy & F1 & F2 & Y1 & Y2 & Y3 & Y4 & _).
    rewrite E1. cbn [bind]. rewrite F1. cbn [bind]. set (A := map (fun p => map (zat None (zat [] (s_rows r) p)) cols) rows).
    assert (LA : length A = length rows) by apply map_length. assert (LH : length (hd [] A) = length cols) by (unfold A; destruct rows; [congruence|]; cbn; apply map_length).
    unfold new_sraster. rewrite LA, LH, !parse_vec, E2. cbn [bind]. rewrite F2. cbn [bind]. eexists. split; [reflexivity|]. cbn [s_grid s_rows s_datetime s_crs gnx gny].
    split.
    { split; [split; cbn [s_grid]; [exact X1|exact Y1]|]. cbn [s_grid s_rows s_x s_y gnx gny]. split; [lia|]. split.
      - intros row Ir. unfold A in Ir. apply in_map_iff in Ir as (p & <- & _). rewrite map_length. lia.
      - split; [exact X3|exact Y3]. }
    split; [reflexivity|]. split; [reflexivity|]. split; [reflexivity|]. split; [reflexivity|]. split.
    { intros a b Ha Hb. unfold cell. cbn [s_rows]. unfold A. rewrite (zat_map _ _ 0%Z) by exact Ha. rewrite (zat_map _ _ 0%Z) by exact Hb. reflexivity. }
    split; [intros a Ha; specialize (Y2 (Z.to_nat a) ltac:(lia)); rewrite Z2Nat.id in Y2 by lia; exact Y2|].
    split; [intros b Hb; specialize (X2 (Z.to_nat b) ltac:(lia)); rewrite Z2Nat.id in X2 by lia; exact X2|]. split; [exact Y4|exact X4].
Qed.
Print Assumptions raster_getitem.

(** Indices that are refused: other types, and slices with step 0. *)
Theorem raster_getitem_refused : forall r i j, coherent r ->
  (i = IOther \/ j = IOther -> getitem r i j = Err IndexError) /\
  (i <> IOther -> j <> IOther -> step_of i = 0%Z \/ step_of j = 0%Z -> getitem r i j = Err ValueError).
Proof.
  intros r i j CO. split.
  - intros [-> | ->]; [reflexivity|]. unfold getitem. destruct i; reflexivity.
  - intros Ni Nj Z. destruct (sx_centers r CO) as (x & Ex & _). destruct (sy_centers r CO) as (y & Ey & _). destruct CO as ([[_ GX] [_ GY]] & _). cbn in GX, GY.
    assert (Hi : exists a b s, as_slice i = Ok (a, b, s) /\ step_of i = match s with Some s => s | None => 1%Z end) by (destruct i as [|a b s|]; [do 3 eexists; split; reflexivity|exists a, b, s; split; [reflexivity|destruct s; reflexivity]|congruence]).
    assert (Hj : exists a b s, as_slice j = Ok (a, b, s) /\ step_of j = match s with Some s => s | None => 1%Z end) by (destruct j as [|a b s|]; [do 3 eexists; split; reflexivity|exists a, b, s; split; [reflexivity|destruct s; reflexivity]|congruence]).
    destruct Hi as (i0 & i1 & ist & Ei & Ti). destruct Hj as (j0 & j1 & jst & Ej & Tj). unfold getitem. rewrite Ei. cbn [bind]. rewrite Ej. cbn [bind]. rewrite Ex. cbn [bind].
    destruct (getitem_slice (gnx (s_grid r)) j0 j1 jst ltac:(lia)) as [P0 P1]. rewrite <- Tj in P0, P1. destruct (Z.eq_dec (step_of j) 0) as [Q|Q]; [rewrite (P0 Q); reflexivity|]. destruct (P1 Q) as (cols & -> & _). cbn [bind]. rewrite Ey. cbn [bind].
    destruct (getitem_slice (gny (s_grid r)) i0 i1 ist ltac:(lia)) as [R0 _]. rewrite <- Ti in R0. rewrite R0 by tauto. reflexivity.
Qed.
Print Assumptions raster_getitem_refused.

(** An integer selects one row (or column), counted from the end if negative, except that -1, the last, and integers outside of the raster select nothing and so raise IndexError (finding: -1). *)
Theorem raster_getitem_int : forall n i, (1 <= n)%Z ->
  ((0 <= i < n)%Z -> selection n (IInt i) = Ok [i]) /\ ((- n <= i < -1)%Z -> selection n (IInt i) = Ok [(n + i)%Z]) /\
  ((i = -1 \/ n <= i \/ i < - n)%Z -> selection n (IInt i) = Ok []).
Proof.
  intros n i N. unfold selection. cbn [as_slice bind]. unfold positions. cbn [Z.eqb Z.ltb Z.compare]. unfold adjust.
  assert (Z0 : forall p, map (fun k => (p + k * 1)%Z) (Zrange 1) = [p]) by (intros p; change (Zrange 1) with [0%Z]; cbn [map]; now rewrite Z.mul_0_l, Z.add_0_r).
  assert (DV : forall z, ((z + 1 - z - 1) / 1 + 1 = 1)%Z) by (intros z; rewrite Z.div_1_r; lia).
  split; [|split]; intros H.
  - replace (i <? 0)%Z with false by lia. replace (i + 1 <? 0)%Z with false by lia. replace (n <=? i)%Z with false by lia.
    destruct (Z.leb_spec n (i + 1)); [replace n with (i + 1)%Z by lia|]; rewrite (proj2 (Z.ltb_lt i (i + 1))) by lia; rewrite DV, Z0; reflexivity.
  - replace (i <? 0)%Z with true by lia. replace (i + 1 <? 0)%Z with true by lia. replace (i + n <? 0)%Z with false by lia. replace (i + 1 + n <? 0)%Z with false by lia.
    replace (i + n <? i + 1 + n)%Z with true by lia. replace (i + 1 + n - (i + n) - 1)%Z with 0%Z by lia. cbn [Z.div Z.div_eucl Z.add]. rewrite Z0. do 2 f_equal. lia.
  - do 2 f_equal. match goal with |- map ?f (Zrange ?c) = [] => replace c with 0%Z; [reflexivity|] end. symmetry.
    destruct (Z.ltb_spec i 0), (Z.ltb_spec (i + n) 0), (Z.leb_spec n i), (Z.ltb_spec (i + 1) 0), (Z.ltb_spec (i + 1 + n) 0), (Z.leb_spec n (i + 1)); try lia;
    match goal with |- (if ?b then _ else _) = _ => replace b with false by lia; reflexivity end.
Qed.
Print Assumptions raster_getitem_int.

(** Finding: if exactly two columns are selected with a negative step, the result is wrong: step -1 raises ValueError (both limits are the edge between the two columns), and other steps give other centers. *)
Theorem raster_getitem_pair_refuted : forall r i j rows cols, coherent r -> selection (gny (s_grid r)) i = Ok rows -> rows <> [] -> sound (step_of i) rows ->
  selection (gnx (s_grid r)) j = Ok cols -> length cols = 2%nat -> (step_of j < 0)%Z ->
  (step_of j = (-1)%Z -> getitem r i j = Err ValueError) /\
  ((step_of j < -1)%Z -> exists r', getitem r i j = Ok r' /\ center (xaxis (s_grid r')) 0 <> center (xaxis (s_grid r)) (zat 0%Z cols 0)).
Proof.
  intros r i j rows cols CO Si NR Sr Sj L2 Sn. destruct (sx_centers r CO) as (x & Ex & Cx). destruct (sy_centers r CO) as (y & Ey & Cy). destruct CO as ([GX GY] & LR & LC & _ & _).
  assert (NY : (0 <= gny (s_grid r))%Z) by (destruct GY as [_ Q]; cbn in Q; lia). assert (NX : (0 <= gnx (s_grid r))%Z) by (destruct GX as [_ Q]; cbn in Q; lia).
  destruct (selection_parts _ _ _ NY Si) as (i0 & i1 & ist & Ei & Pi & Ti & Ni & Ai & Ri). destruct (selection_parts _ _ _ NX Sj) as (j0 & j1 & jst & Ej & Pj & Tj & Nj & Aj & Rj).
  assert (G : getitem r i j = let* cx := sub_coordinates (fst (gd (s_grid r))) x cols jst in let* cy := sub_coordinates (snd (gd (s_grid r))) y rows ist in
    new_sraster (map (fun p => map (zat None (zat [] (s_rows r) p)) cols) rows) cx cy (s_datetime r)).
  { unfold getitem. rewrite Ei. cbn [bind]. rewrite Ej. cbn [bind]. rewrite Ex. cbn [bind]. rewrite Pj. cbn [bind]. rewrite Ey. cbn [bind]. rewrite Pi. reflexivity. }
  rewrite G. clear G. cbn [gd fst snd]. destruct (sub_axis _ y rows _ ist GY Cy Ri Ti Ni Ai NR Sr) as (cy & ly & ccy & F1 & F2 & _).
  pose proof (dcell_nz _ GX) as ND. set (d := dcell (xaxis (s_grid r))) in *. set (s := step_of j) in *.
  destruct cols as [|p [|q [|z cols]]]; try discriminate L2. assert (Eq : q = (p + s)%Z) by (specialize (Aj 1%nat ltac:(cbn; lia)); cbn [nth hd] in Aj; lia).
  assert (VX : forall k, (0 <= k < gnx (s_grid r))%Z -> zat 0 x k = center (xaxis (s_grid r)) k) by (intros k K; unfold zat; destruct Cx as [IL IV]; rewrite IV by (cbn [snd] in *; unfold xaxis in IL; cbn [snd] in IL; lia); now rewrite Z2Nat.id by lia).
  assert (SS : step_size d jst = d) by (unfold step_size; destruct jst as [t|]; [subst s; rewrite Tj in Sn; replace (1 <? t)%Z with false by lia; reflexivity|reflexivity]).
  assert (Vp : zat 0 x p = center (xaxis (s_grid r)) p) by (apply VX, Rj; left; reflexivity). assert (Vq : zat 0 x q = center (xaxis (s_grid r)) p + IZR s * d) by (rewrite VX by (apply Rj; right; left; reflexivity); rewrite !center_eq, Eq, plus_IZR; fold d; ring).
  assert (E1 : sub_coordinates d x [p; q] jst = Ok [center (xaxis (s_grid r)) p - / 2 * d; center (xaxis (s_grid r)) p + IZR s * d + / 2 * d]) by (unfold sub_coordinates; cbn [map length Nat.ltb Nat.leb last]; rewrite SS, Vp, Vq; reflexivity).
  rewrite E1. cbn [bind]. rewrite F1. cbn [bind].
  set (c := center (xaxis (s_grid r)) p) in *. set (A := map _ rows). assert (LH : length (hd [] A) = 2%nat) by (unfold A; destruct rows; [congruence|reflexivity]).
  unfold new_sraster. rewrite LH, !parse_vec. split.
  - intros Es. rewrite Es. unfold vec_parse at 1, parse_xy, parse_limits. cbn [length Nat.ltb Nat.leb Nat.eqb]. replace (c - / 2 * d) with (c + -1 * d + / 2 * d) by field. rewrite (proj2 (Reqb_true _ _) eq_refl). reflexivity.
  - intros Hs. assert (IS : IZR s < -1) by (apply IZR_lt in Hs; exact Hs).
    unfold vec_parse at 1, parse_xy. cbn [length Nat.ltb Nat.leb Nat.eqb]. rewrite parse_limits_ne by (intros Q; assert (QQ : (IZR s + 1) * d = 0) by lra; apply Rmult_integral in QQ as [QQ|QQ]; [lra|contradiction]). cbn [bind].
    rewrite F2. cbn [bind]. eexists. split; [reflexivity|]. cbn [s_grid zat nth Z.to_nat]. fold c. rewrite center_eq. unfold dcell, xaxis. cbn [fst snd gnx gxlim]. intros Q. change (Z.of_nat 2) with 2%Z in Q.
    assert (QQ : (IZR s - 1) * d = 0) by lra. apply Rmult_integral in QQ as [QQ|QQ]; [lra|contradiction].
Qed.
Print Assumptions raster_getitem_pair_refuted.

(** Finding: the x-coordinates of a subset of three columns or more share the memory of those of the raster: shifting the subset moves the coordinates of the selected columns in the raster, which are then not the centers of its cells. *)
Theorem raster_getitem_shift_refuted : forall r x j cols dx, coherent r -> sx r = Ok x -> selection (gnx (s_grid r)) j = Ok cols ->
  ((length cols < 3)%nat -> parent_x_after dx x cols = x) /\
  ((3 <= length cols)%nat -> length (parent_x_after dx x cols) = length x /\
     forall k, (0 <= k < gnx (s_grid r))%Z -> (In k cols -> zat 0 (parent_x_after dx x cols) k = center (xaxis (s_grid r)) k + dx) /\ (~ In k cols -> zat 0 (parent_x_after dx x cols) k = center (xaxis (s_grid r)) k)).
Proof.
  intros r x j cols dx CO Ex Sj. destruct (sx_centers r CO) as (x' & Ex' & Cx). rewrite Ex in Ex'. injection Ex' as <-. unfold parent_x_after. split; intros H.
  - replace (length cols <? 3)%nat with true by (symmetry; apply Nat.ltb_lt; exact H). reflexivity.
  - replace (length cols <? 3)%nat with false by (symmetry; apply Nat.ltb_ge; exact H). unfold add_at. split; [now rewrite map_length, seq_length|].
    intros k K. destruct Cx as [IL IV]. unfold xaxis in IL; cbn [snd] in IL. unfold zat at 1 3.
    rewrite (nth_indep _ 0 ((fun k0 : nat => zat 0 x (Z.of_nat k0) + (if existsb (Z.eqb (Z.of_nat k0)) cols then dx else 0)) 0%nat)) by (rewrite map_length, seq_length; lia).
    rewrite (map_nth (fun k0 : nat => zat 0 x (Z.of_nat k0) + (if existsb (Z.eqb (Z.of_nat k0)) cols then dx else 0))), seq_nth by lia. cbn [Nat.add]. rewrite Z2Nat.id by lia.
    assert (V : zat 0 x k = center (xaxis (s_grid r)) k) by (unfold zat; rewrite IV by lia; now rewrite Z2Nat.id by lia). rewrite V.
    destruct (existsb (Z.eqb k) cols) eqn:Ee.
    + split; [reflexivity|]. intros Ni. apply existsb_exists in Ee as (q & Iq & Eq). apply Z.eqb_eq in Eq. now subst q.
    + split; [|intros; ring]. intros Ik. assert (existsb (Z.eqb k) cols = true) by (apply existsb_exists; exists k; split; [exact Ik|apply Z.eqb_refl]). congruence.
Qed.
Print Assumptions raster_getitem_shift_refuted.

(** A raster of 2 rows and 4 columns, and its subset of row 1 and columns 0 and 2. *)
Example getitem_example : exists r, coherent r /\ gnx (s_grid r) = 4%Z /\ selection 2 (IInt 1) = Ok [1%Z] /\ selection 4 (ISlice None None (Some 2%Z)) = Ok [0; 2]%Z /\ sound 2 [0; 2]%Z /\ selection 4 (ISlice None (Some 0%Z) (Some (-1)%Z)) = Ok [3; 2; 1]%Z /\ sound (-1) [3; 2; 1]%Z /\ selection 4 (ISlice None None (Some (-2)%Z)) = Ok [3; 1]%Z.
Proof.
  exists (mksraster [[Some 1; None; Some 3; Some 4]; [Some 5; Some 6; Some 7; Some 8]] (mkgrid 4 2 (0, 8) (4, 0)) None None (Some 7%Z) (Some 32633%Z)). split.
  { split; [split; (split; [cbn; lra|cbn; lia])|]. split; [reflexivity|]. split; [intros row [<-|[<-|[]]]; reflexivity|]. split; intros v Q; discriminate Q. }
  split; [reflexivity|]. split; [reflexivity|]. split; [reflexivity|]. split; [left; lia|]. split; [reflexivity|]. split; [right; left; cbn; lia|reflexivity].
Qed.
