From Coq Require Import Lia Lra.
From Verif Require Import Base BaseLemmas HelpersModel HelpersSpec BoxProofs GridModel GridSpec GridProofs GridProofs2 RasterModel RasterSpec RasterProofs.
Open Scope R_scope.

(** ** limits *)
Lemma parse_limits_ok l p : parse_limits l = Ok p -> l = [fst p; snd p] /\ fst p <> snd p.
Proof.
  unfold parse_limits. destruct l as [|a [|b [|]]]; try discriminate. destruct (Reqb a b) eqn:E; [discriminate|].
  intros H. injection H as <-. split; [reflexivity|]. apply Reqb_false. exact E.
Qed.
Lemma parse_limits_ne a b : a <> b -> parse_limits [a; b] = Ok (a, b).
Proof.
  intros H. unfold parse_limits. destruct (Reqb a b) eqn:E; [|reflexivity]. apply Reqb_true in E. contradiction.
Qed.
Lemma Req2b_eq a b : Req2b a b = true -> a = b.
Proof. unfold Req2b. intros H. apply andb_prop in H as [H1 H2]. apply Reqb_true in H1, H2. destruct a, b; cbn in *; congruence. Qed.

Lemma set_xlim_base l f s s' : base s -> set_xlim l f s = Ok s' ->
  base s' /\ rgrid s' = mkgrid (Z.of_nat (rnx s)) (Z.of_nat (rny s)) (nth 0 l 0, nth 1 l 0) (rylim s)
  /\ rarr s' = rarr s /\ ah s' = ah s /\ rzf s' = rzf s /\ rnx s' = rnx s /\ rny s' = rny s /\ raflt s' = raflt s.
Proof.
  intros B H. unfold set_xlim in H. destruct (parse_limits l) as [p|] eqn:E; [|discriminate]. cbn [bind] in H.
  apply parse_limits_ok in E as [-> Hp]. destruct (Req2b (rxlim s) p) eqn:Q.
  - apply Req2b_eq in Q. injection H as <-. split; [exact B|]. repeat split; auto. unfold rgrid. rewrite Q. cbn. destruct p; reflexivity.
  - injection H as <-. destruct B as [C1 C2 C3 C4 C5 C6 C7 C8]. split; [|repeat split; auto; unfold rgrid; cbn; destruct p; reflexivity].
    constructor; auto; try (cbn; discriminate; fail).
    split; [split; [exact Hp|apply C1]|apply C1].
Qed.
Lemma set_ylim_base l f s s' : base s -> set_ylim l f s = Ok s' ->
  base s' /\ rgrid s' = mkgrid (Z.of_nat (rnx s)) (Z.of_nat (rny s)) (rxlim s) (nth 0 l 0, nth 1 l 0)
  /\ rarr s' = rarr s /\ ah s' = ah s /\ rzf s' = rzf s /\ rnx s' = rnx s /\ rny s' = rny s /\ raflt s' = raflt s.
Proof.
  intros B H. unfold set_ylim in H. destruct (parse_limits l) as [p|] eqn:E; [|discriminate]. cbn [bind] in H.
  apply parse_limits_ok in E as [-> Hp]. destruct (Req2b (rylim s) p) eqn:Q.
  - apply Req2b_eq in Q. injection H as <-. split; [exact B|]. repeat split; auto. unfold rgrid. rewrite Q. cbn. destruct p; reflexivity.
  - injection H as <-. destruct B as [C1 C2 C3 C4 C5 C6 C7 C8]. split; [|repeat split; auto; unfold rgrid; cbn; destruct p; reflexivity].
    constructor; auto; try (cbn; discriminate; fail).
    split; [apply C1|split; [exact Hp|apply C1]].
Qed.

(** ** array *)
Lemma set_array_base ny nx v f s : base s -> (1 <= ny)%nat -> (1 <= nx)%nat -> length v = (ny * nx)%nat ->
  let s' := set_array ny nx v f s in
  base s' /\ rgrid s' = mkgrid (Z.of_nat nx) (Z.of_nat ny) (rxlim s) (rylim s) /\ rvalues s' = v /\ rzf s' = None
  /\ rnx s' = nx /\ rny s' = ny /\ raflt s' = f.
Proof.
  intros B Hy Hx Hl s'. unfold s', set_array. cbv zeta. clear s'. set (s1 := upd_zf s None).
  assert (B1 : base s1) by (destruct B; constructor; auto).
  set (s2 := if (Nat.eqb ny (rny s1) && Nat.eqb nx (rnx s1))%bool then s1 else upd_y (upd_x s1 None None) None None).
  assert (V : abuf (upd_arr (upd_ah s2 (ah s2 ++ [v])) ny nx (length (ah s2)) f) (length (ah s2)) = v) by apply nth_snoc.
  split; [|split; [unfold s2; destruct (Nat.eqb ny (rny s1) && Nat.eqb nx (rnx s1))%bool; reflexivity|split; [exact V|]]].
  2:{ repeat split; auto. unfold s2; destruct (Nat.eqb ny (rny s1) && Nat.eqb nx (rnx s1))%bool; reflexivity. }
  destruct B1 as [C1 C2 C3 C4 C5 C6 C7 C8].
  assert (G : grid_ok (rgrid (upd_arr (upd_ah s2 (ah s2 ++ [v])) ny nx (length (ah s2)) f))).
  { unfold s2. destruct C1 as [[D1 D2] [D3 D4]]. destruct (Nat.eqb ny (rny s1) && Nat.eqb nx (rnx s1))%bool; split; split; cbn; auto; try lia; try apply D1; try apply D3. }
  constructor; auto.
  - cbn. rewrite app_length. cbn. lia.
  - unfold rvalues. change (rarr _) with (length (ah s2)). rewrite V. exact Hl.
  - unfold s2. destruct (Nat.eqb ny (rny s1) && Nat.eqb nx (rnx s1))%bool eqn:Q; cbn; [|discriminate]. apply andb_prop in Q as [Q1 Q2]. apply Nat.eqb_eq in Q1, Q2. subst ny nx. exact C4.
  - unfold s2. destruct (Nat.eqb ny (rny s1) && Nat.eqb nx (rnx s1))%bool eqn:Q; cbn; [|discriminate]. apply andb_prop in Q as [Q1 Q2]. apply Nat.eqb_eq in Q1, Q2. subst ny nx. exact C5.
  - unfold s2. destruct (Nat.eqb ny (rny s1) && Nat.eqb nx (rnx s1))%bool eqn:Q; cbn; [exact C6|discriminate].
  - unfold s2. destruct (Nat.eqb ny (rny s1) && Nat.eqb nx (rnx s1))%bool eqn:Q; cbn; [|discriminate]. apply andb_prop in Q as [Q1 Q2]. apply Nat.eqb_eq in Q1, Q2. subst ny nx. exact C7.
  - unfold s2. destruct (Nat.eqb ny (rny s1) && Nat.eqb nx (rnx s1))%bool eqn:Q; cbn; [|discriminate]. apply andb_prop in Q as [Q1 Q2]. apply Nat.eqb_eq in Q1, Q2. subst ny nx. exact C8.
Qed.

(** ** shift *)
Definition shift_axis (d : R) (a : axis) : axis := ((fst (fst a) + d, snd (fst a) + d), snd a).
Lemma shift_axis_ok d a : axis_ok a -> axis_ok (shift_axis d a).
Proof. intros [H1 H2]. split; cbn; auto. lra. Qed.
Lemma shift_center d a k : center (shift_axis d a) k = center a k + d.
Proof. unfold center, at_cells, shift_axis. cbn. replace (snd (fst a) + d - (fst (fst a) + d)) with (snd (fst a) - fst (fst a)) by ring. ring. Qed.
Lemma shift_dcell d a : dcell (shift_axis d a) = dcell a.
Proof. unfold dcell, shift_axis. cbn. replace (snd (fst a) + d - (fst (fst a) + d)) with (snd (fst a) - fst (fst a)) by ring. reflexivity. Qed.
Lemma shift_centers d a v : is_centers a v -> is_centers (shift_axis d a) (map (fun x => x + d) v).
Proof.
  intros [L N]. split; [rewrite map_length; exact L|]. rewrite map_length. intros k Hk.
  rewrite (nth_indep _ 0 (0 + d)) by (rewrite map_length; auto). rewrite (map_nth (fun x => x + d)), N by auto.
  symmetry. apply shift_center.
Qed.
Lemma map_repeat' {A B} (f : A -> B) x n : map f (repeat x n) = repeat (f x) n.
Proof. induction n; cbn; congruence. Qed.
Lemma shift_is_X d a ny X : is_X a ny X -> is_X (shift_axis d a) ny (map (map (fun x => x + d)) X).
Proof. intros (v & C & ->). exists (map (fun x => x + d) v). split; [apply shift_centers; auto|apply map_repeat']. Qed.
Lemma shift_is_Y d a nx Y : is_Y a nx Y -> is_Y (shift_axis d a) nx (map (map (fun x => x + d)) Y).
Proof.
  intros (v & C & ->). exists (map (fun x => x + d) v). split; [apply shift_centers; auto|].
  rewrite !map_map. apply map_ext. intros y. rewrite map_repeat'. reflexivity.
Qed.

Lemma shift_x_spec d s : base s -> (rxflt s = true \/ nfloat d = false) -> exists s', shift_x (Some d) s = Ok s' /\ base s'
  /\ rxlim s' = (fst (rxlim s) + nval d, snd (rxlim s) + nval d) /\ rylim s' = rylim s /\ ah s' = ah s /\ rarr s' = rarr s
  /\ raflt s' = raflt s /\ rny s' = rny s /\ rnx s' = rnx s /\ rzf s' = rzf s /\ rxflt s' = rxflt s /\ ryflt s' = ryflt s.
Proof.
  intros B F. unfold shift_x. replace (negb (rxflt s) && nfloat d) with false by (destruct F as [-> | ->]; destruct (rxflt s); auto).
  cbv beta iota zeta. cbn [rx upd_xlim].
  destruct B as [C1 C2 C3 C4 C5 C6 C7 C8].
  assert (G : grid_ok (mkgrid (Z.of_nat (rnx s)) (Z.of_nat (rny s)) (fst (rxlim s) + nval d, snd (rxlim s) + nval d) (rylim s))).
  { destruct C1 as [[D1 D2] D]. split; [|exact D]. apply (shift_axis_ok (nval d) (xaxis (rgrid s))). split; auto. }
  destruct (rx s) as [p|] eqn:Ep.
  - destruct (C4 p eq_refl) as [Lp Qp].
    assert (BX : forall h, nth p (set_nth p h (xh s)) [] = h) by (intros; apply nth_set_nth_eq; auto).
    cbn [rX add_xbuf upd_xh upd_xlim].
    destruct (rX s) as [X|] eqn:EX; eexists; (split; [reflexivity|]); (split; [|repeat split; auto]).
    + constructor; auto.
      * intros q Hq. cbn in Hq. rewrite Ep in Hq. injection Hq as <-. split; [cbn; rewrite set_nth_length; auto|]. unfold xbuf at 1. cbn. rewrite BX.
        apply (shift_centers (nval d) (xaxis (rgrid s))). exact Qp.
      * intros q Hq. cbn in Hq. destruct (C5 q Hq) as [Lq Qq]. split; [cbn; rewrite set_nth_length; auto|].
        unfold xbuf. cbn. rewrite nth_set_nth_neq by (apply (C6 p q); auto). exact Qq.
      * cbn. intros a b Ha Hb. rewrite Ep in Ha. apply C6; auto.
      * intros Y HY. cbn in HY. injection HY as <-. apply (shift_is_X (nval d) (xaxis (rgrid s))). apply C7. auto.
    + constructor; auto.
      * intros q Hq. cbn in Hq. rewrite Ep in Hq. injection Hq as <-. split; [cbn; rewrite set_nth_length; auto|]. unfold xbuf at 1. cbn. rewrite BX.
        apply (shift_centers (nval d) (xaxis (rgrid s))). exact Qp.
      * intros q Hq. cbn in Hq. destruct (C5 q Hq) as [Lq Qq]. split; [cbn; rewrite set_nth_length; auto|].
        unfold xbuf. cbn. rewrite nth_set_nth_neq by (apply (C6 p q); auto). exact Qq.
      * cbn. intros a b Ha Hb. rewrite Ep in Ha. apply C6; auto.
      * intros Y HY. cbn in HY. congruence.
  - cbn [rX upd_xlim]. destruct (rX s) as [X|] eqn:EX; eexists; (split; [reflexivity|]); (split; [|repeat split; auto]).
    + constructor; auto.
      * intros q Hq. cbn in Hq. congruence.
      * intros a b Ha Hb. cbn in Ha. congruence.
      * intros Y HY. cbn in HY. injection HY as <-. apply (shift_is_X (nval d) (xaxis (rgrid s))). apply C7. auto.
    + constructor; auto.
      * intros q Hq. cbn in Hq. congruence.
      * intros a b Ha Hb. cbn in Ha. congruence.
      * intros Y HY. cbn in HY. congruence.
Qed.
Lemma shift_y_spec d s : base s -> (ryflt s = true \/ nfloat d = false) -> exists s', shift_y (Some d) s = Ok s' /\ base s'
  /\ rylim s' = (fst (rylim s) + nval d, snd (rylim s) + nval d) /\ rxlim s' = rxlim s /\ ah s' = ah s /\ rarr s' = rarr s
  /\ raflt s' = raflt s /\ rny s' = rny s /\ rnx s' = rnx s /\ rzf s' = rzf s /\ rxflt s' = rxflt s /\ ryflt s' = ryflt s.
Proof.
  intros B F. unfold shift_y. replace (negb (ryflt s) && nfloat d) with false by (destruct F as [-> | ->]; destruct (ryflt s); auto).
  cbv beta iota zeta. cbn [ry upd_ylim].
  destruct B as [C1 C2 C3 C4 C5 C6 C7 C8].
  assert (G : grid_ok (mkgrid (Z.of_nat (rnx s)) (Z.of_nat (rny s)) (rxlim s) (fst (rylim s) + nval d, snd (rylim s) + nval d))).
  { destruct C1 as [D [D1 D2]]. split; [exact D|]. apply (shift_axis_ok (nval d) (yaxis (rgrid s))). split; auto. }
  destruct (ry s) as [p|] eqn:Ep.
  - destruct (C5 p eq_refl) as [Lp Qp].
    assert (BX : forall h, nth p (set_nth p h (xh s)) [] = h) by (intros; apply nth_set_nth_eq; auto).
    cbn [rY add_xbuf upd_xh upd_ylim].
    destruct (rY s) as [X|] eqn:EX; eexists; (split; [reflexivity|]); (split; [|repeat split; auto]).
    + constructor; auto.
      * intros q Hq. cbn in Hq. destruct (C4 q Hq) as [Lq Qq]. split; [cbn; rewrite set_nth_length; auto|].
        unfold xbuf. cbn. rewrite nth_set_nth_neq by (apply not_eq_sym; apply (C6 q p); auto). exact Qq.
      * intros q Hq. cbn in Hq. rewrite Ep in Hq. injection Hq as <-. split; [cbn; rewrite set_nth_length; auto|]. unfold xbuf at 1. cbn. rewrite BX.
        apply (shift_centers (nval d) (yaxis (rgrid s))). exact Qp.
      * cbn. intros a b Ha Hb. rewrite Ep in Hb. apply C6; auto.
      * intros Y HY. cbn in HY. injection HY as <-. apply (shift_is_Y (nval d) (yaxis (rgrid s))). apply C8. auto.
    + constructor; auto.
      * intros q Hq. cbn in Hq. destruct (C4 q Hq) as [Lq Qq]. split; [cbn; rewrite set_nth_length; auto|].
        unfold xbuf. cbn. rewrite nth_set_nth_neq by (apply not_eq_sym; apply (C6 q p); auto). exact Qq.
      * intros q Hq. cbn in Hq. rewrite Ep in Hq. injection Hq as <-. split; [cbn; rewrite set_nth_length; auto|]. unfold xbuf at 1. cbn. rewrite BX.
        apply (shift_centers (nval d) (yaxis (rgrid s))). exact Qp.
      * cbn. intros a b Ha Hb. rewrite Ep in Hb. apply C6; auto.
      * intros Y HY. cbn in HY. congruence.
  - cbn [rY upd_ylim]. destruct (rY s) as [X|] eqn:EX; eexists; (split; [reflexivity|]); (split; [|repeat split; auto]).
    + constructor; auto.
      * intros q Hq. cbn in Hq. congruence.
      * intros a b Ha Hb. cbn in Hb. congruence.
      * intros Y HY. cbn in HY. injection HY as <-. apply (shift_is_Y (nval d) (yaxis (rgrid s))). apply C8. auto.
    + constructor; auto.
      * intros q Hq. cbn in Hq. congruence.
      * intros a b Ha Hb. cbn in Hb. congruence.
      * intros Y HY. cbn in HY. congruence.
Qed.
Lemma shift_spec dx dy dz s : base s -> rzf s = None ->
  (addable (rxflt s) dx && addable (ryflt s) dy && addable (raflt s) dz = false -> shift dx dy dz s = Err TypeError) /\
  (addable (rxflt s) dx && addable (ryflt s) dy && addable (raflt s) dz = true ->
   exists s', shift dx dy dz s = Ok s' /\ base s' /\ rzf s' = None
     /\ rxlim s' = (fst (rxlim s) + amount dx, snd (rxlim s) + amount dx)
     /\ rylim s' = (fst (rylim s) + amount dy, snd (rylim s) + amount dy)
     /\ rvalues s' = map (oplus (amount dz)) (rvalues s)
     /\ rny s' = rny s /\ rnx s' = rnx s /\ raflt s' = raflt s).
Proof.
  intros B Z.
  assert (HX : addable (rxflt s) dx = true -> exists s', shift_x dx s = Ok s' /\ base s'
    /\ rxlim s' = (fst (rxlim s) + amount dx, snd (rxlim s) + amount dx) /\ rylim s' = rylim s /\ ah s' = ah s /\ rarr s' = rarr s
    /\ raflt s' = raflt s /\ rny s' = rny s /\ rnx s' = rnx s /\ rzf s' = rzf s /\ ryflt s' = ryflt s).
  { destruct dx as [d|]; cbn [addable amount]; intros H.
    - destruct (shift_x_spec d s B) as (s' & E & H1 & H2 & H3 & H4 & H5 & H6 & H7 & H8 & H9 & H10 & H11).
      { destruct (rxflt s); auto. right. destruct (nfloat d); auto; discriminate. }
      exists s'. auto 20.
    - exists s. cbn. rewrite !Rplus_0_r. destruct (rxlim s); auto 20. }
  split.
  - intros H. unfold shift. destruct (addable (rxflt s) dx) eqn:Hx.
    + destruct (HX eq_refl) as (s1 & E & B1 & F1 & F2 & F3 & F4 & F5 & F6 & F7 & F8 & F9). rewrite E. cbn [bind].
      rewrite <- F9, <- F5 in H. cbn [andb] in H.
      destruct (addable (ryflt s1) dy) eqn:Hy.
      * cbn [andb] in H. destruct dz as [n|]; [|discriminate]. cbn [addable] in H.
        assert (Hn : negb (raflt s1) && nfloat n = true) by (destruct (raflt s1), (nfloat n); auto; discriminate).
        destruct dy as [d|].
        -- destruct (shift_y_spec d s1 B1) as (s2 & E2 & _ & _ & _ & _ & _ & G5 & _).
           { cbn in Hy. destruct (ryflt s1); auto. right. destruct (nfloat d); auto; discriminate. }
           rewrite E2. cbn [bind]. rewrite G5, Hn. reflexivity.
        -- cbn [shift_y bind]. rewrite Hn. reflexivity.
      * destruct dy as [d|]; [|discriminate]. cbn in Hy.
        assert (Hn : negb (ryflt s1) && nfloat d = true) by (destruct (ryflt s1), (nfloat d); auto; discriminate).
        unfold shift_y. rewrite Hn. reflexivity.
    + destruct dx as [d|]; [|discriminate]. cbn in Hx.
      assert (Hn : negb (rxflt s) && nfloat d = true) by (destruct (rxflt s), (nfloat d); auto; discriminate).
      unfold shift_x. rewrite Hn. reflexivity.
  - intros H. apply andb_prop in H as [H Ha]. apply andb_prop in H as [Hx Hy]. unfold shift.
    destruct (HX Hx) as (s1 & E & B1 & F1 & F2 & F3 & F4 & F5 & F6 & F7 & F8 & F9). rewrite E. cbn [bind].
    assert (HY : exists s2, shift_y dy s1 = Ok s2 /\ base s2 /\ rxlim s2 = rxlim s1 /\ rylim s2 = (fst (rylim s1) + amount dy, snd (rylim s1) + amount dy)
       /\ ah s2 = ah s1 /\ rarr s2 = rarr s1 /\ raflt s2 = raflt s1 /\ rny s2 = rny s1 /\ rnx s2 = rnx s1 /\ rzf s2 = rzf s1).
    { rewrite <- F9 in Hy. destruct dy as [d|]; cbn [addable amount] in *.
      - destruct (shift_y_spec d s1 B1) as (s2 & E2 & G1 & G2 & G3 & G4 & G5 & G6 & G7 & G8 & G9 & _).
        { destruct (ryflt s1); auto. right. destruct (nfloat d); auto; discriminate. }
        exists s2. auto 20.
      - exists s1. cbn. rewrite !Rplus_0_r. destruct (rylim s1); auto 20. }
    destruct HY as (s2 & -> & B2 & G1 & G2 & G3 & G4 & G5 & G6 & G7 & G8). cbn [bind].
    assert (V2 : rvalues s2 = rvalues s) by (unfold rvalues, abuf; congruence).
    destruct dz as [n|]; cbn [addable amount] in *.
    + rewrite G5, F5. replace (negb (raflt s) && nfloat n) with false by (destruct (raflt s), (nfloat n); auto; discriminate).
      cbn [bind]. set (s3 := add_abuf _ _ _).
      assert (Z3 : rzf s3 = None) by (unfold s3; cbn; congruence). rewrite Z3.
      assert (V3 : rvalues s3 = map (oplus (nval n)) (rvalues s)).
      { unfold s3, rvalues at 1, abuf. cbn. rewrite nth_set_nth_eq by apply (b_arr s2 B2). rewrite <- V2. reflexivity. }
      exists s3. split; [reflexivity|]. split.
      { destruct B2 as [C1 C2 C3 C4 C5 C6 C7 C8]. constructor; auto.
        - cbn. rewrite set_nth_length. exact C2.
        - rewrite V3, map_length, <- V2. exact C3. }
      split; [exact Z3|]. split; [cbn; congruence|]. split; [cbn; rewrite G2, F2; reflexivity|].
      split; [exact V3|]. cbn. repeat split; congruence.
    + cbn [bind]. rewrite G8, F8, Z. exists s2. split; [reflexivity|]. split; [exact B2|].
      split; [congruence|]. split; [congruence|]. split; [rewrite G2, F2; reflexivity|].
      split. { rewrite V2. symmetry. erewrite map_ext; [apply map_id|]. intros [v|]; cbn; f_equal. ring. }
      repeat split; congruence.
Qed.
