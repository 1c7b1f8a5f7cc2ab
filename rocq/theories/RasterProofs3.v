From Coq Require Import Lia Lra.
From Verif Require Import Base BaseLemmas HelpersModel HelpersSpec BoxProofs GridModel GridSpec GridProofs GridProofs2 RasterModel RasterSpec RasterProofs RasterProofs2.
Open Scope R_scope.

(** ** rows of a row-major array *)
Lemma nth_flat_rows {A} (f : nat -> list A) n rs r c d : (forall i, In i rs -> length (f i) = n) -> (r < length rs)%nat -> (c < n)%nat ->
  nth (r * n + c) (flat_map f rs) d = nth c (f (nth r rs 0%nat)) d.
Proof.
  revert r. induction rs as [|i rs IH]; intros r L Hr Hc; [cbn in Hr; lia|].
  cbn [flat_map]. assert (Li : length (f i) = n) by (apply L; left; auto). destruct r as [|r].
  - cbn. rewrite app_nth1 by lia. reflexivity.
  - rewrite app_nth2 by lia. rewrite Li. replace (S r * n + c - n)%nat with (r * n + c)%nat by lia.
    cbn in Hr. rewrite IH; [reflexivity| |lia|auto]. intros j Hj. apply L. right. auto.
Qed.
Lemma length_flat_rows {A} (f : nat -> list A) n rs : (forall i, In i rs -> length (f i) = n) -> length (flat_map f rs) = (length rs * n)%nat.
Proof.
  induction rs as [|i rs IH]; intros L; [reflexivity|]. cbn. rewrite app_length, IH, L; auto. { left; auto. } intros j Hj. apply L. right; auto.
Qed.
Lemma subarray_length s r0 r1 c0 c1 : length (subarray s r0 r1 c0 c1) = ((r1 - r0) * (c1 - c0))%nat.
Proof. unfold subarray. rewrite (length_flat_rows _ (c1 - c0)); [rewrite seq_length; auto|]. intros. rewrite map_length, seq_length. auto. Qed.
Lemma subarray_nth s r0 r1 c0 c1 r c : (r < r1 - r0)%nat -> (c < c1 - c0)%nat ->
  nth (r * (c1 - c0) + c) (subarray s r0 r1 c0 c1) None = cellv s (r0 + r) (c0 + c).
Proof.
  intros Hr Hc. unfold subarray. rewrite (nth_flat_rows _ (c1 - c0)); auto.
  - rewrite seq_nth by auto. rewrite (nth_indep _ None (cellv s (r0 + r) 0)) by (rewrite map_length, seq_length; auto).
    rewrite (map_nth (fun c => cellv s (r0 + r) c)). rewrite seq_nth by auto. reflexivity.
  - intros. rewrite map_length, seq_length. auto.
  - rewrite seq_length. auto.
Qed.

(** ** crop *)

Theorem crop_spec xo yo s : base s -> (xo <> None \/ yo <> None) ->
  let xl := request xo (xaxis (rgrid s)) in let yl := request yo (yaxis (rgrid s)) in
  (~ (overlaps xl (xaxis (rgrid s)) /\ overlaps yl (yaxis (rgrid s))) -> crop xo yo s = Err ValueError) /\
  (overlaps xl (xaxis (rgrid s)) /\ overlaps yl (yaxis (rgrid s)) ->
    exists s' r0 r1 c0 c1, crop xo yo s = Ok s' /\ base s' /\ rzf s' = None /\ window s s' r0 r1 c0 c1
      /\ (forall c, cell_hit xl (xaxis (rgrid s)) c <-> (Z.of_nat c0 <= c <= Z.of_nat c1)%Z)
      /\ (forall r, cell_hit yl (yaxis (rgrid s)) r <-> (Z.of_nat r0 <= r <= Z.of_nat r1)%Z)).
Proof.
  intros B N xl yl. destruct (crop_extent_spec (rgrid s) xo yo (b_ok s B)) as [Hbad Hok]. fold xl yl in Hbad, Hok.
  assert (E : forall r, crop_extent (rgrid s) xo yo = r -> crop xo yo s =
    let* (xl, yl, (r0, r1), (c0, c1)) := r in
    let a := Z.to_nat r0 in let b := Z.to_nat (r1 + 1) in
    let c := Z.to_nat c0 in let d := Z.to_nat (c1 + 1) in
    let s := set_array (b - a) (d - c) (subarray s a b c d) (raflt s) s in
    let* s := set_xlim [fst xl; snd xl] true s in
    set_ylim [fst yl; snd yl] true s).
  { intros r <-. unfold crop. destruct xo, yo; try reflexivity. destruct N; congruence. }
  split; intros H.
  - rewrite (E _ (Hbad H)). reflexivity.
  - destruct (Hok H) as (r0 & r1 & c0 & c1 & Q & Hr & Hr1 & Hc & Hc1 & Kc & Kr). rewrite (E _ Q). cbn [bind fst snd]. clear E Q.
    cbv zeta.
    cbn [rgrid gnx gny] in Hr1, Hc1.
    set (a := Z.to_nat r0). set (b := Z.to_nat (r1 + 1)). set (c := Z.to_nat c0). set (d := Z.to_nat (c1 + 1)).
    destruct (set_array_base (b - a) (d - c) (subarray s a b c d) (raflt s) s B) as (B1 & G1 & V1 & Z1 & X1 & Y1 & A1); try lia.
    { apply subarray_length. }
    set (s1 := set_array _ _ _ _ _) in *.
    destruct (b_ok s B) as [Ax Ay].
    destruct (crop_axis_center (xaxis (rgrid s)) c0 c1 0 Ax ltac:(lia)) as [[Nx _] _]. cbn [fst snd] in Nx.
    destruct (crop_axis_center (yaxis (rgrid s)) r0 r1 0 Ay ltac:(lia)) as [[Ny _] _]. cbn [fst snd] in Ny.
    destruct (set_xlim [edge (xaxis (rgrid s)) c0; edge (xaxis (rgrid s)) (c1 + 1)] true s1) as [s2|] eqn:E2.
    2:{ exfalso. unfold set_xlim in E2. rewrite parse_limits_ne in E2 by auto. cbn [bind] in E2. destruct (Req2b _ _) in E2; discriminate. }
    cbn [bind].
    destruct (set_xlim_base _ _ _ _ B1 E2) as (B2 & G2 & R2 & H2 & Z2 & X2 & Y2 & A2). cbn [nth] in G2.
    destruct (set_ylim [edge (yaxis (rgrid s)) r0; edge (yaxis (rgrid s)) (r1 + 1)] true s2) as [s3|] eqn:E3.
    2:{ exfalso. unfold set_ylim in E3. rewrite parse_limits_ne in E3 by auto. cbn [bind] in E3. destruct (Req2b _ _) in E3; discriminate. }
    destruct (set_ylim_base _ _ _ _ B2 E3) as (B3 & G3 & R3 & H3 & Z3 & X3 & Y3 & A3). cbn [nth] in G3.
    assert (Gx : gxlim (rgrid s2) = (edge (xaxis (rgrid s)) c0, edge (xaxis (rgrid s)) (c1 + 1))) by (rewrite G2; reflexivity).
    assert (V3 : rvalues s3 = subarray s a b c d) by (unfold rvalues, abuf in *; rewrite H3, R3, H2, R2; exact V1).
    exists s3, a, (Z.to_nat r1), c, (Z.to_nat c1).
    split; [reflexivity|]. split; [exact B3|]. split; [congruence|].
    assert (D1 : (b - a = Z.to_nat r1 - a + 1)%nat) by lia. assert (D2 : (d - c = Z.to_nat c1 - c + 1)%nat) by lia.
    assert (Ex : xaxis (rgrid s3) = ((edge (xaxis (rgrid s)) c0, edge (xaxis (rgrid s)) (c1 + 1)), (c1 - c0 + 1)%Z)).
    { rewrite G3. unfold xaxis at 1. cbn [gxlim gnx]. change (rxlim s2) with (gxlim (rgrid s2)). rewrite Gx. f_equal. rewrite X2, X1. lia. }
    assert (Ey : yaxis (rgrid s3) = ((edge (yaxis (rgrid s)) r0, edge (yaxis (rgrid s)) (r1 + 1)), (r1 - r0 + 1)%Z)).
    { rewrite G3. unfold yaxis at 1. cbn [gylim gny]. f_equal. rewrite Y2, Y1. lia. }
    split.
    { split; [lia|]. split; [lia|]. split; [congruence|]. split; [congruence|]. split; [|split].
      - intros k. rewrite Ex. replace (Z.of_nat c) with c0 by lia. apply crop_axis_center; auto. lia.
      - intros k. rewrite Ey. replace (Z.of_nat a) with r0 by lia. apply crop_axis_center; auto. lia.
      - intros r c' Hr' Hc'. unfold cellv at 1. rewrite V3, X3, X2, X1.
        apply subarray_nth; [rewrite Y3, Y2, Y1 in Hr'; auto|rewrite X3, X2, X1 in Hc'; auto]. }
    split; intros k; [rewrite <- Kc|rewrite <- Kr]; lia.
Qed.

(** ** data extent *)
Lemma argmax_bool_first l : existsb (fun b => b) l = true -> (argmax_bool l < length l)%nat /\ nth (argmax_bool l) l false = true
  /\ forall i, (i < argmax_bool l)%nat -> nth i l false = false.
Proof.
  induction l as [|[|] l IH]; cbn; intros H; [discriminate|split; [lia|split; [auto|intros; lia]]|].
  rewrite H. destruct (IH H) as (A & B & C). split; [lia|]. split; [exact B|]. intros [|i] Hi; [auto|apply C; lia].
Qed.
Lemma existsb_nth l i : nth i l false = true -> existsb (fun b : bool => b) l = true.
Proof.
  intros H. apply existsb_exists. exists true. split; auto. rewrite <- H. apply nth_In.
  destruct (le_lt_dec (length l) i); auto. rewrite nth_overflow in H by auto. discriminate.
Qed.
Lemma argmax_bool_none l : existsb (fun b => b) l = false -> argmax_bool l = 0%nat /\ nth 0 l false = false.
Proof. destruct l as [|[|] l]; cbn; intros H; auto; try discriminate. rewrite H. auto. Qed.
Lemma argmax_bool_last l : existsb (fun b => b) l = true ->
  let e := (length l - argmax_bool (rev l))%nat in (0 < e <= length l)%nat /\ nth (e - 1) l false = true /\ forall i, (e <= i)%nat -> nth i l false = false.
Proof.
  intros H. assert (H' : existsb (fun b => b) (rev l) = true).
  { apply existsb_exists in H as (b & Hb & E). apply existsb_exists. exists b. split; auto. apply in_rev in Hb. auto. }
  destruct (argmax_bool_first _ H') as (A & B & C). rewrite rev_length in A. set (m := argmax_bool (rev l)) in *.
  cbn. split; [lia|]. split.
  - rewrite rev_nth in B by auto. replace (length l - m - 1)%nat with (length l - S m)%nat by lia. exact B.
  - intros i Hi. destruct (le_lt_dec (length l) i); [apply nth_overflow; auto|].
    specialize (C (length l - 1 - i)%nat ltac:(lia)). rewrite rev_nth in C by lia.
    replace (length l - S (length l - 1 - i))%nat with i in C by lia. exact C.
Qed.

Lemma isdata_iff v : isdata v = true <-> v <> None.
Proof. destruct v; cbn; split; congruence. Qed.
Lemma data_row_nth s r : nth r (data_row s) false = true <-> exists c, has_data s r c.
Proof.
  unfold data_row. destruct (le_lt_dec (rny s) r) as [L|L].
  - rewrite nth_overflow by (rewrite map_length, seq_length; auto). split; [discriminate|]. intros (c & H & _). lia.
  - rewrite (nth_indep _ false ((fun r => existsb (fun c => isdata (cellv s r c)) (seq 0 (rnx s))) 0%nat)) by (rewrite map_length, seq_length; auto).
    rewrite (map_nth (fun r => existsb (fun c => isdata (cellv s r c)) (seq 0 (rnx s)))), seq_nth by auto. cbn [plus].
    rewrite existsb_exists. split.
    + intros (c & Hc & D). apply in_seq in Hc. apply isdata_iff in D. exists c. split; auto. split; auto. lia.
    + intros (c & _ & Hc & D). exists c. split; [apply in_seq; lia|]. apply isdata_iff. exact D.
Qed.
Lemma data_col_nth s c : nth c (data_col s) false = true <-> exists r, has_data s r c.
Proof.
  unfold data_col. destruct (le_lt_dec (rnx s) c) as [L|L].
  - rewrite nth_overflow by (rewrite map_length, seq_length; auto). split; [discriminate|]. intros (r & _ & H & _). lia.
  - rewrite (nth_indep _ false ((fun c => existsb (fun r => isdata (cellv s r c)) (seq 0 (rny s))) 0%nat)) by (rewrite map_length, seq_length; auto).
    rewrite (map_nth (fun c => existsb (fun r => isdata (cellv s r c)) (seq 0 (rny s)))), seq_nth by auto. cbn [plus].
    rewrite existsb_exists. split.
    + intros (r & Hr & D). apply in_seq in Hr. apply isdata_iff in D. exists r. split; auto. lia.
    + intros (r & Hr & _ & D). exists r. split; [apply in_seq; lia|]. apply isdata_iff. exact D.
Qed.
Theorem data_extent_spec s :
  ((forall r c, ~ has_data s r c) -> data_extent s = Err ValueError) /\
  ((exists r c, has_data s r c) -> exists r0 r1 c0 c1, data_extent s = Ok ((r0, r1), (c0, c1)) /\ tight s r0 r1 c0 c1).
Proof.
  split.
  - intros H. unfold data_extent. assert (N : existsb (fun b => b) (data_row s) = false).
    { destruct (existsb (fun b => b) (data_row s)) eqn:E; auto. exfalso. destruct (argmax_bool_first _ E) as (_ & A & _).
      apply data_row_nth in A as (c & Hc). apply (H _ _ Hc). }
    destruct (argmax_bool_none _ N) as [-> ->]. reflexivity.
  - intros (r & c & H).
    assert (NR : existsb (fun b => b) (data_row s) = true) by (apply (existsb_nth _ r); apply data_row_nth; exists c; auto).
    assert (NC : existsb (fun b => b) (data_col s) = true) by (apply (existsb_nth _ c); apply data_col_nth; exists r; auto).
    destruct (argmax_bool_first _ NR) as (A1 & A2 & A3). destruct (argmax_bool_first _ NC) as (B1 & B2 & B3).
    destruct (argmax_bool_last _ NR) as (C1 & C2 & C3). destruct (argmax_bool_last _ NC) as (D1 & D2 & D3).
    unfold data_extent. 
    replace (Nat.eqb (argmax_bool (data_row s)) 0 && negb (nth 0 (data_row s) false))%bool with false.
    2:{ destruct (Nat.eqb_spec (argmax_bool (data_row s)) 0) as [E|]; auto. rewrite E in A2. rewrite A2. reflexivity. }
    set (r0 := argmax_bool (data_row s)) in *. set (c0 := argmax_bool (data_col s)) in *.
    set (r1 := (length (data_row s) - argmax_bool (rev (data_row s)))%nat) in *.
    set (c1 := (length (data_col s) - argmax_bool (rev (data_col s)))%nat) in *.
    exists r0, r1, c0, c1. split; [reflexivity|].
    assert (LR : length (data_row s) = rny s) by (unfold data_row; rewrite map_length, seq_length; auto).
    assert (LC : length (data_col s) = rnx s) by (unfold data_col; rewrite map_length, seq_length; auto).
    assert (RR : forall r', nth r' (data_row s) false = true -> (r0 <= r' < r1)%nat).
    { intros r' Hr'. destruct (le_lt_dec r0 r') as [|L]; [|rewrite A3 in Hr' by auto; discriminate].
      destruct (le_lt_dec r1 r') as [L|]; [rewrite C3 in Hr' by auto; discriminate|lia]. }
    assert (CC : forall r', nth r' (data_col s) false = true -> (c0 <= r' < c1)%nat).
    { intros r' Hr'. destruct (le_lt_dec c0 r') as [|L]; [|rewrite B3 in Hr' by auto; discriminate].
      destruct (le_lt_dec c1 r') as [L|]; [rewrite D3 in Hr' by auto; discriminate|lia]. }
    split; [pose proof (RR _ A2); lia|]. split; [pose proof (CC _ B2); lia|].
    split; [intros r' c' H'; split; [apply RR, data_row_nth; exists c'; auto|apply CC, data_col_nth; exists r'; auto]|].
    split; [apply data_row_nth; auto|]. split; [apply data_row_nth; auto|]. split; [apply data_col_nth; auto|apply data_col_nth; auto].
Qed.

(** ** crop_to_data *)
Lemma nth_firstn_lt {A} n k (l : list A) d : (k < n)%nat -> nth k (firstn n l) d = nth k l d.
Proof. revert k l. induction n; intros k l H; [lia|]. destruct l; [destruct k; reflexivity|]. destruct k; [reflexivity|]. cbn. apply IHn. lia. Qed.
Lemma nth_skipn_add {A} n k (l : list A) d : nth k (skipn n l) d = nth (n + k) l d.
Proof. revert l. induction n; intros l; [reflexivity|]. destruct l; [destruct k; reflexivity|]. apply IHn. Qed.
Lemma sublist_centers a v c0 c1 : is_centers a v -> (c0 < c1 <= length v)%nat ->
  let x := sublist c0 c1 v in length x = (c1 - c0)%nat /\ hd 0 x = center a (Z.of_nat c0) /\ last x 0 = center a (Z.of_nat c1 - 1)
  /\ forall k, (k < c1 - c0)%nat -> nth k x 0 = center a (Z.of_nat (c0 + k)).
Proof.
  intros [L N] H x. assert (Lx : length x = (c1 - c0)%nat) by (unfold x, sublist; rewrite firstn_length, skipn_length; lia).
  assert (Nx : forall k, (k < c1 - c0)%nat -> nth k x 0 = center a (Z.of_nat (c0 + k))).
  { intros k Hk. unfold x, sublist. rewrite <- N by lia.
    rewrite nth_firstn_lt by auto. apply nth_skipn_add. }
  split; [exact Lx|]. split; [|split; [|exact Nx]].
  - replace (hd 0 x) with (nth 0 x 0) by (destruct x; reflexivity). rewrite Nx by lia. f_equal. lia.
  - replace (last x 0) with (nth (length x - 1) x 0).
    + rewrite Lx, Nx by lia. f_equal. lia.
    + clear. induction x as [|a [|b r] IH]; auto. change (last (a :: b :: r) 0) with (last (b :: r) 0). rewrite <- IH.
      cbn [length]. replace (S (S (length r)) - 1)%nat with (S (S (length r) - 1)) by lia. reflexivity.
Qed.
Lemma center_edges a k : center a k + - / 2 * dcell a = edge a k /\ center a k + / 2 * dcell a = edge a (k + 1).
Proof. unfold center, edge. rewrite !at_cells_eq, plus_IZR. split; field. Qed.
Lemma edge_ne a i j : axis_ok a -> i <> j -> edge a i <> edge a j.
Proof. intros H N E. apply N. apply at_cells_inj in E; auto. apply eq_IZR. exact E. Qed.

Theorem crop_to_data_spec s : base s ->
  ((forall r c, ~ has_data s r c) -> crop_to_data s = Err ValueError) /\
  ((exists r c, has_data s r c) -> exists s' r0 r1 c0 c1, crop_to_data s = Ok s' /\ base s' /\ rzf s' = None
     /\ tight s r0 r1 c0 c1 /\ window s s' r0 (r1 - 1) c0 (c1 - 1)).
Proof.
  intros B. destruct (data_extent_spec s) as [Hn Hd]. split; intros H.
  - unfold crop_to_data. rewrite (Hn H). reflexivity.
  - destruct (Hd H) as (r0 & r1 & c0 & c1 & E & T). clear Hn Hd H.
    unfold crop_to_data. rewrite E. cbn [bind fst snd].
    destruct (get_x_spec s B) as (px & s1 & -> & Ex & B1 & Eg1 & F1 & F2 & F3 & F4 & F5 & F6 & F7 & F8 & F9 & _). cbn [bind].
    destruct (get_y_spec s1 B1) as (py & s2 & -> & Ey & B2 & Eg2 & G1 & G2 & G3 & G4 & G5 & G6 & G7 & G8 & G9 & _ & _ & (t & Gt)). cbn [bind].
    assert (T' := T). destruct T' as (Tr & Tc & _).
    assert (Qx := proj2 (b_x s1 B1 px Ex)). rewrite Eg1 in Qx. assert (Qy := proj2 (b_y s2 B2 py Ey)). rewrite Eg2, Eg1 in Qy.
    assert (Lx : length (xbuf s1 px) = rnx s) by (destruct Qx as [L _]; cbn in L; rewrite Nat2Z.id in L; exact L).
    assert (Ly : length (xbuf s2 py) = rny s) by (destruct Qy as [L _]; cbn in L; rewrite Nat2Z.id in L; exact L).
    destruct (sublist_centers _ _ c0 c1 Qx ltac:(lia)) as (Sx1 & Sx2 & Sx3 & Sx4).
    destruct (sublist_centers _ _ r0 r1 Qy ltac:(lia)) as (Sy1 & Sy2 & Sy3 & Sy4).
    set (x := sublist c0 c1 (xbuf s1 px)) in *. set (y := sublist r0 r1 (xbuf s2 py)) in *.
    assert (Egx : rgrid s2 = rgrid s) by congruence. rewrite Egx.
    rewrite Sx2, Sx3, Sy2, Sy3. destruct (b_ok s B) as [Ax Ay].
    rewrite (proj1 (center_edges (xaxis (rgrid s)) _)), (proj2 (center_edges (xaxis (rgrid s)) _)).
    replace (Z.of_nat c1 - 1 + 1)%Z with (Z.of_nat c1) by lia.
    destruct (set_xlim [edge (xaxis (rgrid s)) (Z.of_nat c0); edge (xaxis (rgrid s)) (Z.of_nat c1)] true s2) as [s3|] eqn:E3.
    2:{ exfalso. unfold set_xlim in E3. rewrite parse_limits_ne in E3 by (apply edge_ne; auto; lia). cbn [bind] in E3. destruct (Req2b _ _) in E3; discriminate. }
    cbn [bind]. destruct (set_xlim_base _ _ _ _ B2 E3) as (B3 & H1 & H2 & H3 & H4 & H5 & H6 & H7). cbn [nth] in H1.
    assert (Yax : yaxis (rgrid s3) = yaxis (rgrid s)).
    { rewrite H1. unfold yaxis. cbn [gylim gny]. f_equal; [|rewrite G4, F4; reflexivity]. change (rylim s2) with (gylim (rgrid s2)). rewrite Egx. reflexivity. }
    rewrite Yax.
    rewrite (proj1 (center_edges (yaxis (rgrid s)) _)), (proj2 (center_edges (yaxis (rgrid s)) _)).
    replace (Z.of_nat r1 - 1 + 1)%Z with (Z.of_nat r1) by lia.
    destruct (set_ylim [edge (yaxis (rgrid s)) (Z.of_nat r0); edge (yaxis (rgrid s)) (Z.of_nat r1)] true s3) as [s4|] eqn:E4.
    2:{ exfalso. unfold set_ylim in E4. rewrite parse_limits_ne in E4 by (apply edge_ne; auto; lia). cbn [bind] in E4. destruct (Req2b _ _) in E4; discriminate. }
    cbn [bind]. destruct (set_ylim_base _ _ _ _ B3 E4) as (B4 & I1 & I2 & I3 & I4 & I5 & I6 & I7). cbn [nth] in I1.
    assert (Cell : forall r c, cellv s4 r c = cellv s r c).
    { intros r c. unfold cellv, rvalues, abuf. rewrite I5, H5, G5, F5, I3, H3, G1, F1, I2, H2, G2, F2. reflexivity. }
    destruct (set_array_base (r1 - r0) (c1 - c0) (subarray s4 r0 r1 c0 c1) (raflt s4) s4 B4) as (B5 & J1 & J2 & J3 & J4 & J5 & J6); try lia.
    { apply subarray_length. }
    remember (set_array (r1 - r0) (c1 - c0) (subarray s4 r0 r1 c0 c1) (raflt s4) s4) as s5 eqn:Es5 in *. clear Es5. cbv zeta. set (s6 := upd_y _ _ _).
    assert (Gr6 : rgrid s6 = rgrid s5) by reflexivity.
    assert (V6 : rvalues s6 = rvalues s5) by reflexivity.
    assert (Exa : xaxis (rgrid s5) = ((edge (xaxis (rgrid s)) (Z.of_nat c0), edge (xaxis (rgrid s)) (Z.of_nat (c1 - 1) + 1)), (Z.of_nat (c1 - 1) - Z.of_nat c0 + 1)%Z)).
    { rewrite J1. unfold xaxis at 1. cbn [gxlim gnx]. change (rxlim s4) with (gxlim (rgrid s4)). rewrite I1. cbn [gxlim].
      change (rxlim s3) with (gxlim (rgrid s3)). rewrite H1. cbn [gxlim]. f_equal; [f_equal; f_equal; lia|lia]. }
    assert (Eya : yaxis (rgrid s5) = ((edge (yaxis (rgrid s)) (Z.of_nat r0), edge (yaxis (rgrid s)) (Z.of_nat (r1 - 1) + 1)), (Z.of_nat (r1 - 1) - Z.of_nat r0 + 1)%Z)).
    { rewrite J1. unfold yaxis at 1. cbn [gylim gny]. change (rylim s4) with (gylim (rgrid s4)). rewrite I1. cbn [gylim]. f_equal; [f_equal; f_equal; lia|lia]. }
    assert (Wx : forall k, center (xaxis (rgrid s6)) k = center (xaxis (rgrid s)) (Z.of_nat c0 + k)).
    { intros k. rewrite Gr6, Exa. apply crop_axis_center; auto. lia. }
    assert (Wy : forall k, center (yaxis (rgrid s6)) k = center (yaxis (rgrid s)) (Z.of_nat r0 + k)).
    { intros k. rewrite Gr6, Eya. apply crop_axis_center; auto. lia. }
    assert (Bx : xbuf s6 (length (xh s5)) = x).
    { unfold xbuf. cbn. rewrite app_nth1 by (rewrite app_length; cbn; lia). apply nth_snoc. }
    assert (By : xbuf s6 (length (xh s5 ++ [x])) = y) by apply nth_snoc.
    assert (Ix : is_centers (xaxis (rgrid s6)) x).
    { split. { rewrite Gr6, Exa. cbn [snd]. lia. } intros k Hk. rewrite Sx4 by lia. rewrite Wx. f_equal. lia. }
    assert (Iy : is_centers (yaxis (rgrid s6)) y).
    { split. { rewrite Gr6, Eya. cbn [snd]. lia. } intros k Hk. rewrite Sy4 by lia. rewrite Wy. f_equal. lia. }
    exists s6, r0, r1, c0, c1. split; [reflexivity|]. split; [|split; [exact J3|split; [exact T|]]].
    + destruct B5 as [C1 C2 C3 C4 C5 C6 C7 C8]. constructor; auto.
      * intros p Hp. assert (p = length (xh s5)) as -> by (injection Hp as <-; reflexivity). rewrite Bx. split; [cbn; rewrite !app_length; cbn; lia|exact Ix].
      * intros p Hp. assert (p = length (xh s5 ++ [x])) as -> by (injection Hp as <-; reflexivity). rewrite By. split; [cbn; rewrite !app_length; cbn; lia|exact Iy].
      * intros p q Hp Hq. assert (p = length (xh s5)) as -> by (injection Hp as <-; reflexivity). assert (q = length (xh s5 ++ [x])) as -> by (injection Hq as <-; reflexivity). rewrite app_length. cbn. lia.
    + split; [lia|]. split; [lia|]. split; [change (rny s6) with (rny s5); lia|]. split; [change (rnx s6) with (rnx s5); lia|].
      split; [exact Wx|]. split; [exact Wy|].
      intros r c Hr Hc. change (rny s6) with (rny s5) in Hr. change (rnx s6) with (rnx s5) in Hc. rewrite J4 in Hc. rewrite J5 in Hr.
      unfold cellv at 1. rewrite V6, J2. change (rnx s6) with (rnx s5). rewrite J4. rewrite subarray_nth by auto. apply Cell.
Qed.

Lemma crop_z_spec z0 z1 s s' : base s -> crop_z z0 z1 s = Ok s' ->
  base s' /\ rvalues s' = map (zcrop z0 z1) (rvalues s) /\ rgrid s' = rgrid s /\ (zinv s -> zinv s').
Proof.
  intros B H. unfold crop_z in H. destruct (raflt s) eqn:F; [|discriminate]. cbn [negb] in H. injection H as H.
  set (v := map (zcrop z0 z1) (rvalues s)). change (upd_ah s (set_nth (rarr s) v (ah s)) = s') in H. subst s'.
  destruct B as [C1 C2 C3 C4 C5 C6 C7 C8].
  assert (V : rvalues (upd_ah s (set_nth (rarr s) v (ah s))) = v) by (apply nth_set_nth_eq; auto).
  split; [|split; [exact V|split; [reflexivity|]]].
  - constructor; auto. { cbn. rewrite set_nth_length. auto. } rewrite V. unfold v. rewrite map_length. auto.
  - intros Zi z Hz. destruct (Zi z Hz) as (A1 & A2 & A3 & A4 & A5 & A6 & A7 & A8 & A9 & A10 & A11).
    unfold zf_ok. rewrite V. cbn [upd_ah raflt rarr ah]. rewrite set_nth_length. rewrite (A11 F) in *.
    split; [exact A1|]. split; [exact A2|]. split; [exact A3|]. repeat split; auto; try apply A8; try apply A9.
Qed.
