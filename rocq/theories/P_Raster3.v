(** C31: the exact effect of Raster.shift on a raster that was sampled in two dimensions, src/glimpse/raster.py. *)
From Coq Require Import Lia Lra.
From Verif Require Import Base BaseLemmas HelpersModel GridModel GridSpec GridProofs GridProofs2 RasterModel RasterSpec
  RasterProofs RasterProofs2 RasterProofs3 RasterProofs4 RasterProofs5 RasterProofs6 RasterProofs7 P_Raster.
Open Scope R_scope.

(** ** the cached interpolator refers to the cached vectors x and y; its values are the array unless the array is of integers *)
Definition zptr (s : raster) : Prop := forall z, rzf s = Some z ->
  rx s = Some (zx z) /\ ry s = Some (zy z) /\ (1 < rnx s)%nat /\ (1 < rny s)%nat /\ (raflt s = false -> zv z <> rarr s).
Lemma get_x_zptr s p s1 : get_x s = Ok (p, s1) -> zptr s -> zptr s1.
Proof.
  unfold get_x. destruct (rx s) as [q|] eqn:E; intros H Z; [injection H as <- <-; exact Z|].
  destruct (centers _) as [v|]; [|discriminate]. cbn [bind] in H. injection H as <- <-. intros z Hz. destruct (Z z Hz) as [Hx _]. congruence.
Qed.
Lemma get_y_zptr s p s1 : get_y s = Ok (p, s1) -> zptr s -> zptr s1.
Proof.
  unfold get_y. destruct (ry s) as [q|] eqn:E; intros H Z; [injection H as <- <-; exact Z|].
  destruct (centers _) as [v|]; [|discriminate]. cbn [bind] in H. injection H as <- <-. intros z Hz. destruct (Z z Hz) as [_ [Hx _]]. congruence.
Qed.
Lemma get_zf_zptr s z s1 : base s -> (1 < rnx s)%nat -> (1 < rny s)%nat -> get_zf s = Ok (z, s1) -> zptr s -> zptr s1.
Proof.
  intros B Nx Ny. unfold get_zf. destruct (rzf s) as [z0|] eqn:E; intros H Z; [injection H as <- <-; exact Z|].
  destruct (get_x_spec s B) as (p & t1 & Ex & Q1 & B1 & Eg & F1 & F2 & F3 & F4 & F5 & F6 & F7 & F8 & F9 & _). rewrite Ex in H. cbn [bind] in H.
  destruct (get_y_spec t1 B1) as (q & t2 & Ey & R1 & B2 & Eg2 & G1 & G2 & G3 & G4 & G5 & G6 & G7 & G8 & G9 & _). rewrite Ey in H. cbn [bind] in H.
  assert (Ra := b_arr t2 B2).
  destruct (raflt t2) eqn:Rf; injection H as <- <-; intros z Hz; cbn in Hz; injection Hz as <-; cbn [zx zy zv];
    (split; [cbn; congruence|]; split; [cbn; congruence|]; split; [cbn; lia|]; split; [cbn; lia|]); cbn.
  - congruence.
  - intros _. lia.
Qed.
Lemma sample_value_zptr s x y v s1 : base s -> sample_value true x y s = Ok (v, s1) -> zptr s -> zptr s1.
Proof.
  intros B. unfold sample_value. destruct (Nat.ltb_spec 1 (rnx s)) as [Nx|Nx]; destruct (Nat.ltb_spec 1 (rny s)) as [Ny|Ny]; cbn [andb].
  - destruct (get_zf s) as [[z t]|] eqn:E; [|discriminate]. cbn [bind]. intros H. injection H as _ <-. eapply get_zf_zptr; eauto.
  - destruct (get_x s) as [[p t]|] eqn:E; [|discriminate]. cbn [bind]. intros H. injection H as _ <-. eapply get_x_zptr; eauto.
  - destruct (get_y s) as [[p t]|] eqn:E; [|discriminate]. cbn [bind]. intros H. injection H as _ <-. eapply get_y_zptr; eauto.
  - intros H. injection H as _ <-. auto.
Qed.
Lemma none_zptr s : rzf s = None -> zptr s.
Proof. intros H z Hz. congruence. Qed.
Lemma rstep_zptr o s s' : base s -> op_ok o -> rstep o s = Ok s' -> zsafe_op o s -> zptr s -> zptr s'.
Proof.
  intros B O H S Z. destruct o as [| | | |x y|l f|l f|ny nx v f|dx dy dz|xo yo|z0 z1|]; cbn [rstep] in H; cbn [zsafe_op] in S.
  - destruct (get_x s) as [[p t]|] eqn:E; [|discriminate]. injection H as <-. eapply get_x_zptr; eauto.
  - destruct (get_y s) as [[p t]|] eqn:E; [|discriminate]. injection H as <-. eapply get_y_zptr; eauto.
  - unfold get_X in H. destruct (rX s); [injection H as <-; exact Z|]. destruct (get_x s) as [[p t]|] eqn:E; [|discriminate].
    cbn [bind] in H. injection H as <-. assert (Z1 := get_x_zptr _ _ _ E Z). exact Z1.
  - unfold get_Y in H. destruct (rY s); [injection H as <-; exact Z|]. destruct (get_y s) as [[p t]|] eqn:E; [|discriminate].
    cbn [bind] in H. injection H as <-. assert (Z1 := get_y_zptr _ _ _ E Z). exact Z1.
  - unfold sample in H. destruct (sample_value true x y s) as [[w t]|] eqn:E; [|discriminate]. cbn [bind] in H. injection H as <-.
    eapply sample_value_zptr; eauto.
  - destruct (set_xlim_base _ _ _ _ B H) as (B1 & G1 & R1 & A1 & Z1 & _). apply none_zptr. congruence.
  - destruct (set_ylim_base _ _ _ _ B H) as (B1 & G1 & R1 & A1 & Z1 & _). apply none_zptr. congruence.
  - injection H as <-. apply none_zptr. unfold set_array. destruct (_ && _); reflexivity.
  - destruct (shift_spec dx dy dz s B S) as [Hb Ho]. destruct (_ && _) in Hb, Ho; [|rewrite Hb in H by auto; discriminate].
    destruct (Ho eq_refl) as (s1 & E & B1 & Z1 & _). rewrite E in H. injection H as <-. apply none_zptr. exact Z1.
  - assert (N : (xo = None /\ yo = None) \/ (xo <> None \/ yo <> None)).
    { destruct xo; [right; left; discriminate|]. destruct yo; [right; right; discriminate|]. auto. }
    destruct N as [[-> ->]|N]; [assert (s' = s) as -> by (cbn in H; congruence); exact Z|].
    destruct (crop_spec xo yo s B N) as [Hb Ho].
    destruct (Classical_Prop.classic (overlaps (request xo (xaxis (rgrid s))) (xaxis (rgrid s)) /\ overlaps (request yo (yaxis (rgrid s))) (yaxis (rgrid s)))) as [D|D].
    + destruct (Ho D) as (s1 & r0 & r1 & c0 & c1 & E & B1 & Z1 & _). rewrite E in H. injection H as <-. apply none_zptr. exact Z1.
    + rewrite (Hb D) in H. discriminate.
  - unfold crop_z in H. destruct (raflt s) eqn:Rf; [|discriminate]. cbn [negb] in H. injection H as <-. intros z Hz.
    destruct (Z z Hz) as (Z1 & Z2 & Z3 & Z4 & Z5). cbn. auto.
  - destruct (crop_to_data_spec s B) as [Hb Ho].
    destruct (Classical_Prop.classic (exists r c, has_data s r c)) as [D|D].
    + destruct (Ho D) as (s1 & r0 & r1 & c0 & c1 & E & B1 & Z1 & _). rewrite E in H. injection H as <-. apply none_zptr. exact Z1.
    + rewrite Hb in H; [discriminate|]. intros r c Hrc. apply D. eauto.
Qed.
Lemma reached_zptr s : reached s -> zptr s.
Proof.
  intros (s0 & ops & F & H). destruct (fresh_base s0 F) as (B & Zi & N). apply none_zptr in N. clear F.
  induction H as [s|s o s1 os s2 O E S H IH]; auto.
  assert (S' : safe_op o s) by (destruct o; auto). destruct (rstep_base o s s1 B O E S') as [B1 Z1].
  apply IH; [exact B1|exact (Z1 Zi S)|exact (rstep_zptr o s s1 B O E S N)].
Qed.

(** ** buffers *)
Definition moved (d : R) (v : list R) : list R := map (fun x => x + d) v.
Lemma moved0 v : moved 0 v = v.
Proof. unfold moved. rewrite <- (map_id v) at 2. apply map_ext. intros. ring. Qed.
Lemma moved_moved a b v : moved a (moved b v) = moved (b + a) v.
Proof. unfold moved. rewrite map_map. apply map_ext. intros. ring. Qed.
Lemma oplus0 v : map (oplus 0) v = v.
Proof. rewrite <- (map_id v) at 2. apply map_ext. intros [a|]; cbn; [f_equal; ring|reflexivity]. Qed.
(** [p]: buffer number q of the vectors moves by d; nothing else changes *)
Definition same (s s' : raster) : Prop :=
  ah s' = ah s /\ rarr s' = rarr s /\ raflt s' = raflt s /\ rny s' = rny s /\ rnx s' = rnx s /\ rx s' = rx s /\ ry s' = ry s
  /\ rzf s' = rzf s /\ rxflt s' = rxflt s /\ ryflt s' = ryflt s /\ length (xh s') = length (xh s).
Definition xmoves (s s' : raster) (p : nat) (d : R) : Prop :=
  forall q, xbuf s' q = if Nat.eqb q p then moved d (xbuf s q) else xbuf s q.
Lemma same_trans a b c : same a b -> same b c -> same a c.
Proof. unfold same. intuition congruence. Qed.
Lemma xmoves0 s p : xmoves s s p 0.
Proof. intros q. rewrite moved0. destruct (Nat.eqb q p); reflexivity. Qed.
Lemma add_xbuf_moves s p d : (p < length (xh s))%nat -> xmoves s (add_xbuf p d s) p d.
Proof.
  intros L q. unfold add_xbuf, xbuf. cbn [xh upd_xh]. destruct (Nat.eqb_spec q p) as [->|N].
  - rewrite nth_set_nth_eq by auto. reflexivity.
  - rewrite nth_set_nth_neq by auto. reflexivity.
Qed.
Lemma add_xbuf_same s p d : same s (add_xbuf p d s).
Proof. unfold same, add_xbuf. cbn. rewrite set_nth_length. auto 20. Qed.
Lemma add_abuf_at p d s q : (p < length (ah s))%nat ->
  abuf (add_abuf p d s) q = if Nat.eqb q p then map (oplus d) (abuf s q) else abuf s q.
Proof.
  intros L. unfold add_abuf, abuf. cbn [ah upd_ah]. destruct (Nat.eqb_spec q p) as [->|N].
  - rewrite nth_set_nth_eq by auto. reflexivity.
  - rewrite nth_set_nth_neq by auto. reflexivity.
Qed.
Lemma amount_addable f d : addable f (Some d) = true -> negb f && nfloat d = false.
Proof. cbn. destruct f, (nfloat d); auto; discriminate. Qed.
Lemma shift_x_exact dx s p : rx s = Some p -> (p < length (xh s))%nat -> addable (rxflt s) dx = true ->
  exists s', shift_x dx s = Ok s' /\ same s s' /\ rxlim s' = (fst (rxlim s) + amount dx, snd (rxlim s) + amount dx)
    /\ rylim s' = rylim s /\ xmoves s s' p (amount dx) /\ rX s' = option_map (map (moved (amount dx))) (rX s) /\ rY s' = rY s.
Proof.
  intros Hp L A. destruct dx as [d|]; cbn [shift_x amount].
  - rewrite (amount_addable _ _ A). cbn [rx upd_xlim]. rewrite Hp. cbn [rX add_xbuf upd_xh upd_xlim].
    destruct (rX s) as [X|] eqn:EX; eexists; (split; [reflexivity|]).
    + split; [unfold same; cbn; rewrite set_nth_length; auto 20|]. split; [reflexivity|]. split; [reflexivity|].
      split; [intros q; apply (add_xbuf_moves s p (nval d) L q)|]. split; reflexivity.
    + split; [unfold same; cbn; rewrite set_nth_length; auto 20|]. split; [reflexivity|]. split; [reflexivity|].
      split; [intros q; apply (add_xbuf_moves s p (nval d) L q)|]. split; [exact EX|reflexivity].
  - exists s. split; [reflexivity|]. split; [unfold same; auto 20|]. rewrite !Rplus_0_r. split; [destruct (rxlim s); reflexivity|].
    split; [reflexivity|]. split; [apply xmoves0|]. split; [|reflexivity]. destruct (rX s) as [X|]; [|reflexivity]. cbn. f_equal.
    rewrite <- (map_id X) at 1. apply map_ext. intros. symmetry. apply moved0.
Qed.
Lemma shift_y_exact dy s p : ry s = Some p -> (p < length (xh s))%nat -> addable (ryflt s) dy = true ->
  exists s', shift_y dy s = Ok s' /\ same s s' /\ rylim s' = (fst (rylim s) + amount dy, snd (rylim s) + amount dy)
    /\ rxlim s' = rxlim s /\ xmoves s s' p (amount dy) /\ rY s' = option_map (map (moved (amount dy))) (rY s) /\ rX s' = rX s.
Proof.
  intros Hp L A. destruct dy as [d|]; cbn [shift_y amount].
  - rewrite (amount_addable _ _ A). cbn [ry upd_ylim]. rewrite Hp. cbn [rY add_xbuf upd_xh upd_ylim].
    destruct (rY s) as [X|] eqn:EX; eexists; (split; [reflexivity|]).
    + split; [unfold same; cbn; rewrite set_nth_length; auto 20|]. split; [reflexivity|]. split; [reflexivity|].
      split; [intros q; apply (add_xbuf_moves s p (nval d) L q)|]. split; reflexivity.
    + split; [unfold same; cbn; rewrite set_nth_length; auto 20|]. split; [reflexivity|]. split; [reflexivity|].
      split; [intros q; apply (add_xbuf_moves s p (nval d) L q)|]. split; [exact EX|reflexivity].
  - exists s. split; [reflexivity|]. split; [unfold same; auto 20|]. rewrite !Rplus_0_r. split; [destruct (rylim s); reflexivity|].
    split; [reflexivity|]. split; [apply xmoves0|]. split; [|reflexivity]. destruct (rY s) as [X|]; [|reflexivity]. cbn. f_equal.
    rewrite <- (map_id X) at 1. apply map_ext. intros. symmetry. apply moved0.
Qed.
(** optional move of a buffer *)
Lemma opt_add_xbuf d p s : (p < length (xh s))%nat ->
  let s' := match d with Some n => add_xbuf p (nval n) s | None => s end in same s s' /\ xmoves s s' p (amount d)
    /\ rxlim s' = rxlim s /\ rylim s' = rylim s /\ rX s' = rX s /\ rY s' = rY s.
Proof.
  intros L. destruct d as [n|]; cbn [amount].
  - split; [apply add_xbuf_same|]. split; [apply add_xbuf_moves; exact L|]. repeat split.
  - split; [unfold same; auto 20|]. split; [apply xmoves0|]. repeat split.
Qed.

(** interpolation moves with the coordinates and the values *)
Lemma oriented_nth_len {A} r (l : list A) : length (oriented r l) = length l.
Proof. destruct r; cbn; [apply rev_length|reflexivity]. Qed.
Lemma rgi_moves (linear : bool) gx gy v w x y dx dy e : (2 <= length gx)%nat -> (2 <= length gy)%nat -> (forall a b, w a b = oplus e (v a b)) ->
  (if linear then rgi_linear else rgi_nearest) (moved dx gx) (moved dy gy) w (x + dx) (y + dy)
  = oplus e ((if linear then rgi_linear else rgi_nearest) gx gy v x y).
Proof.
  intros L1 L2 W. destruct linear.
  - unfold rgi_linear, moved. rewrite !locate_shift by auto. destruct (rgi_locate gx x), (rgi_locate gy y). rewrite !W. apply bilinear_shift.
  - unfold rgi_nearest, moved. rewrite !locate_shift by auto. destruct (rgi_locate gx x), (rgi_locate gy y). apply W.
Qed.
Definition given (d : option num) : bool := match d with Some _ => true | None => false end.
(** what shift adds to the values of the array, and to the values seen by the interpolator *)
Definition array_gain (s : raster) (dy dz : option num) : R := amount dz + (if raflt s && given dy then amount dz else 0).
Definition sampled_gain (s : raster) (dy dz : option num) : R :=
  (if raflt s then amount dz else 0) + (if given dy then amount dz else 0).

(** C31: shift of a raster with a cached interpolator (sampled in two dimensions since its array was last assigned).
    It raises TypeError when some amount cannot be added to its integer limits or array, and whenever dy is given without dz.
    Otherwise the limits move by (dx, dy) and the array by dz, but the coordinates x, y and the sampled surface move by twice
    (dx, dy), and the values by dz or not or twice depending on whether the array is of floats and dy is given. *)
Theorem raster_shift_sampled : forall s z dx dy dz, reached s -> rzf s = Some z ->
  let ok := addable (rxflt s) dx && addable (ryflt s) dy && addable (raflt s) dz && (negb (given dy) || given dz) in
  (ok = false -> shift dx dy dz s = Err TypeError) /\
  (ok = true -> exists s', shift dx dy dz s = Ok s' /\ rny s' = rny s /\ rnx s' = rnx s
     /\ rxlim s' = (fst (rxlim s) + amount dx, snd (rxlim s) + amount dx)
     /\ rylim s' = (fst (rylim s) + amount dy, snd (rylim s) + amount dy)
     /\ (forall r c, cellv s' r c = option_map (fun v => v + array_gain s dy dz) (cellv s r c))
     /\ (exists p, get_x s' = Ok (p, s') /\ length (xbuf s' p) = rnx s
           /\ forall k, (k < rnx s)%nat -> nth k (xbuf s' p) 0 = center (xaxis (rgrid s)) (Z.of_nat k) + 2 * amount dx)
     /\ (exists p, get_y s' = Ok (p, s') /\ length (xbuf s' p) = rny s
           /\ forall k, (k < rny s)%nat -> nth k (xbuf s' p) 0 = center (yaxis (rgrid s)) (Z.of_nat k) + 2 * amount dy)
     /\ forall linear x y, sampled (sample linear false None (x + 2 * amount dx) (y + 2 * amount dy) s')
          = result_map (option_map (fun v => v + sampled_gain s dy dz)) (sampled (sample linear false None x y s))).
Proof.
  intros s z dx dy dz R Hz ok. destruct (reached_base s R) as [B Zi]. destruct (reached_zptr s R z Hz) as (Px & Py & Nx & Ny & Pv).
  destruct (Zi z Hz) as (Lx & Ly & Lv & Znx & Zny & Zxr & Zyr & Cx & Cy & Av & Af).
  assert (Nxy : zx z <> zy z) by (apply (b_xy s B); auto).
  unfold ok, shift. clear ok.
  destruct (addable (rxflt s) dx) eqn:Ax.
  2:{ split; [intros _|discriminate]. destruct dx as [d|]; [|discriminate]. cbn in Ax. cbn [shift_x].
      replace (negb (rxflt s) && nfloat d) with true by (destruct (rxflt s), (nfloat d); auto; discriminate). reflexivity. }
  destruct (shift_x_exact dx s (zx z) Px Lx Ax) as (s1 & E1 & S1 & X1 & Y1 & M1 & _). rewrite E1. cbn [bind andb].
  pose proof S1 as (A1 & A2 & A3 & A4 & A5 & A6 & A7 & A8 & A9 & A10 & A11).
  destruct (addable (ryflt s) dy) eqn:Ay.
  2:{ split; [intros _|discriminate]. destruct dy as [d|]; [|discriminate]. cbn in Ay. cbn [shift_y]. rewrite A10.
      replace (negb (ryflt s) && nfloat d) with true by (destruct (ryflt s), (nfloat d); auto; discriminate). reflexivity. }
  destruct (shift_y_exact dy s1 (zy z)) as (s2 & E2 & S2 & Y2 & X2 & M2 & _); [congruence|congruence|congruence|]. rewrite E2. cbn [bind andb].
  pose proof (same_trans _ _ _ S1 S2) as (B1 & B2 & B3 & B4 & B5 & B6 & B7 & B8 & B9 & B10 & B11).
  destruct (addable (raflt s) dz) eqn:Az.
  2:{ split; [intros _|discriminate]. destruct dz as [d|]; [|discriminate]. cbn in Az. rewrite B3.
      replace (negb (raflt s) && nfloat d) with true by (destruct (raflt s), (nfloat d); auto; discriminate). reflexivity. }
  cbn [andb].
  set (s3 := match dz with Some d => add_abuf (rarr s2) (nval d) s2 | None => s2 end).
  assert (E3 : match dz with None => Ok s2 | Some d => if negb (raflt s2) && nfloat d then Err TypeError else Ok (add_abuf (rarr s2) (nval d) s2) end = Ok s3).
  { unfold s3. destruct dz as [d|]; [|reflexivity]. rewrite B3, (amount_addable _ _ Az). reflexivity. }
  rewrite E3. cbn [bind].
  assert (V3 : forall q, abuf s3 q = if Nat.eqb q (rarr s) then map (oplus (amount dz)) (abuf s q) else abuf s q).
  { intros q. unfold s3. destruct dz as [d|]; cbn [amount].
    - unfold add_abuf, abuf. cbn [ah upd_ah]. rewrite B1, B2. destruct (Nat.eqb_spec q (rarr s)) as [->|N].
      + rewrite nth_set_nth_eq by (apply (b_arr s B)). reflexivity.
      + rewrite nth_set_nth_neq by auto. reflexivity.
    - unfold abuf. rewrite B1. destruct (Nat.eqb q (rarr s)); [rewrite oplus0|]; reflexivity. }
  assert (S3 : xh s3 = xh s2 /\ rarr s3 = rarr s /\ raflt s3 = raflt s /\ rny s3 = rny s /\ rnx s3 = rnx s /\ rx s3 = rx s /\ ry s3 = ry s
     /\ rzf s3 = rzf s /\ rxlim s3 = rxlim s2 /\ rylim s3 = rylim s2 /\ length (ah s3) = length (ah s)).
  { unfold s3. destruct dz as [d|]; cbn; rewrite ?set_nth_length, ?B1; auto 20. }
  clearbody s3. destruct S3 as (C1 & C2 & C3 & C4 & C5 & C6 & C7 & C8 & C9 & C10 & C11). rewrite C8, Hz.
  assert (Lx3 : (zx z < length (xh s3))%nat) by (rewrite C1, B11; exact Lx).
  destruct (opt_add_xbuf dx (zx z) s3 Lx3) as (S4 & M4 & X4 & Y4 & _). set (s4 := match dx with Some d => add_xbuf (zx z) (nval d) s3 | None => s3 end) in *.
  clearbody s4. pose proof S4 as (D1 & D2 & D3 & D4 & D5 & D6 & D7 & D8 & D9 & D10 & D11).
  assert (Ly4 : (zy z < length (xh s4))%nat) by (rewrite D11, C1, B11; exact Ly).
  destruct (opt_add_xbuf dy (zy z) s4 Ly4) as (S5 & M5 & X5 & Y5 & _). set (s5 := match dy with Some d => add_xbuf (zy z) (nval d) s4 | None => s4 end) in *.
  clearbody s5. pose proof S5 as (F1 & F2 & F3 & F4 & F5 & F6 & F7 & F8 & F9 & F10 & F11).
  cbv zeta.
  (* the vectors of coordinates *)
  assert (BX : xbuf s5 (zx z) = moved (2 * amount dx) (xbuf s (zx z))).
  { rewrite M5. destruct (Nat.eqb_spec (zx z) (zy z)); [contradiction|]. rewrite M4, Nat.eqb_refl. unfold xbuf at 1. rewrite C1. fold (xbuf s2 (zx z)).
    rewrite M2. destruct (Nat.eqb_spec (zx z) (zy z)); [contradiction|]. rewrite M1, Nat.eqb_refl, moved_moved. f_equal. ring. }
  assert (BY : xbuf s5 (zy z) = moved (2 * amount dy) (xbuf s (zy z))).
  { rewrite M5, Nat.eqb_refl. rewrite M4. destruct (Nat.eqb_spec (zy z) (zx z)); [congruence|]. unfold xbuf at 1. rewrite C1. fold (xbuf s2 (zy z)).
    rewrite M2, Nat.eqb_refl, M1. destruct (Nat.eqb_spec (zy z) (zx z)); [congruence|]. rewrite moved_moved. f_equal. ring. }
  (* the final state *)
  set (fin := match dy, dz with None, _ => Ok s5 | Some _, None => Err TypeError | Some _, Some d => Ok (add_abuf (zv z) (nval d) s5) end).
  split.
  { intros H. unfold fin. destruct dy as [n|]; [|destruct dz; discriminate]. destruct dz as [m|]; [discriminate|reflexivity]. }
  intros Hok.
  assert (HF : exists s6, fin = Ok s6 /\ xh s6 = xh s5 /\ rny s6 = rny s /\ rnx s6 = rnx s /\ rx s6 = rx s /\ ry s6 = ry s /\ rzf s6 = rzf s
     /\ rarr s6 = rarr s /\ rxlim s6 = rxlim s5 /\ rylim s6 = rylim s5
     /\ forall q, (q < length (ah s))%nat -> abuf s6 q = if (Nat.eqb q (zv z) && given dy)%bool then map (oplus (amount dz)) (abuf s3 q) else abuf s3 q).
  { assert (Q : forall q, abuf s5 q = abuf s3 q) by (intros q; unfold abuf; congruence). unfold fin. destruct dy as [n|]; cbn [given].
    - destruct dz as [m|]; [|discriminate]. eexists. split; [reflexivity|]. split; [reflexivity|]. unfold add_abuf at 1 2 3 4 5 6 7 8. cbn [rny rnx rx ry rzf rarr rxlim rylim upd_ah].
      do 6 (split; [congruence|]). split; [reflexivity|]. split; [reflexivity|]. intros q Hq. rewrite Bool.andb_true_r. cbn [amount].
      rewrite add_abuf_at by (rewrite F1, D1, C11; exact Lv). rewrite Q. reflexivity.
    - exists s5. split; [reflexivity|]. split; [reflexivity|]. do 6 (split; [congruence|]). split; [reflexivity|]. split; [reflexivity|].
      intros q Hq. rewrite Bool.andb_false_r. apply Q. }
  destruct HF as (s6 & Ef & H1 & H2 & H3 & H4 & H5 & H6 & H7 & H8 & H9 & H10). exists s6.
  split; [exact Ef|]. split; [exact H2|]. split; [exact H3|].
  split; [rewrite H8, X5, X4, C9, X2; exact X1|]. split; [rewrite H9, Y5, Y4, C10, Y2, Y1; reflexivity|].
  assert (OO : forall a b v, oplus a (oplus b v) = oplus (b + a) v) by (intros a b [v|]; cbn; [f_equal; ring|reflexivity]).
  assert (VA : abuf s6 (rarr s) = map (oplus (array_gain s dy dz)) (rvalues s)).
  { rewrite H10 by apply (b_arr s B). rewrite V3, Nat.eqb_refl. unfold array_gain. destruct (raflt s) eqn:Rf; cbn [andb].
    - rewrite (Af eq_refl), Nat.eqb_refl. cbn [andb]. destruct (given dy).
      + rewrite map_map. apply map_ext. intros v. apply OO.
      + rewrite Rplus_0_r. reflexivity.
    - destruct (Nat.eqb_spec (rarr s) (zv z)) as [Q|Q]; [exfalso; apply (Pv eq_refl); auto|]. cbn [andb]. rewrite Rplus_0_r. reflexivity. }
  assert (VZ : abuf s6 (zv z) = map (oplus (sampled_gain s dy dz)) (abuf s (zv z))).
  { rewrite H10 by exact Lv. rewrite Nat.eqb_refl. cbn [andb]. rewrite V3. unfold sampled_gain. destruct (raflt s) eqn:Rf.
    - rewrite (Af eq_refl), Nat.eqb_refl. destruct (given dy); [|rewrite Rplus_0_r; reflexivity].
      rewrite map_map. apply map_ext. intros v. apply OO.
    - destruct (Nat.eqb_spec (zv z) (rarr s)) as [Q|Q]; [exfalso; apply (Pv eq_refl); auto|]. rewrite Rplus_0_l.
      destruct (given dy); [reflexivity|]. rewrite oplus0. reflexivity. }
  assert (GX : xbuf s6 (zx z) = moved (2 * amount dx) (xbuf s (zx z))) by (unfold xbuf at 1; rewrite H1; exact BX).
  assert (GY : xbuf s6 (zy z) = moved (2 * amount dy) (xbuf s (zy z))) by (unfold xbuf at 1; rewrite H1; exact BY).
  assert (LX : length (xbuf s (zx z)) = rnx s) by (rewrite (proj1 Cx); cbn; apply Nat2Z.id).
  assert (LY : length (xbuf s (zy z)) = rny s) by (rewrite (proj1 Cy); cbn; apply Nat2Z.id).
  split.
  { intros r c. unfold cellv, rvalues at 1. rewrite H7, VA, H3. change (@None Rdefinitions.R) with (oplus (array_gain s dy dz) None) at 1. apply map_nth. }
  split.
  { exists (zx z). split; [unfold get_x; rewrite H4, Px; reflexivity|]. rewrite GX. unfold moved. split; [rewrite map_length; exact LX|].
    intros k Hk. rewrite nth_map_shift by (rewrite LX; exact Hk). f_equal. apply (proj2 Cx). rewrite LX. exact Hk. }
  split.
  { exists (zy z). split; [unfold get_y; rewrite H5, Py; reflexivity|]. rewrite GY. unfold moved. split; [rewrite map_length; exact LY|].
    intros k Hk. rewrite nth_map_shift by (rewrite LY; exact Hk). f_equal. apply (proj2 Cy). rewrite LY. exact Hk. }
  intros linear x y. unfold sample, sample_value. rewrite H2, H3.
  replace ((1 <? rnx s)%nat && (1 <? rny s)%nat) with true.
  2:{ symmetry. apply andb_true_intro. split; apply Nat.ltb_lt; auto. }
  unfold get_zf. rewrite H6, Hz. cbn [bind sampled result_map]. f_equal. unfold zgrid_x, zgrid_y. rewrite GX, GY. unfold moved at 1 2.
  rewrite !oriented_map. apply rgi_moves; [rewrite oriented_nth_len, LX; exact Nx|rewrite oriented_nth_len, LY; exact Ny|].
  intros a b. unfold zvalue. rewrite VZ. change (@None Rdefinitions.R) with (oplus (sampled_gain s dy dz) None) at 1. apply map_nth.
Qed.
Print Assumptions raster_shift_sampled.
Example raster_shift_sampled_ex : reached r22s /\ rzf r22s = Some z22 /\ rxflt r22s = true /\ ryflt r22s = true /\ raflt r22s = true
  /\ array_gain r22s (Some (mknum true 1)) (Some (mknum true 3)) = 6 /\ sampled_gain r22s None (Some (mknum true 3)) = 3.
Proof.
  split; [apply r22_reached|]. do 4 (split; [reflexivity|]). unfold array_gain, sampled_gain. cbn [raflt r22s given andb amount nval]. split; lra.
Qed.
(** C30: setting the limits of a raster with a cached interpolator: the limits and the coordinates change, the sampled
    values do not move: every sample is the one of the raster before the limits were set. *)
Theorem raster_limits_sampled : forall s z l f s', reached s -> rzf s = Some z -> set_xlim l f s = Ok s' \/ set_ylim l f s = Ok s' ->
  coords_coherent s' /\ forall linear x y, sampled (sample linear false None x y s') = sampled (sample linear false None x y s).
Proof.
  intros s z l f s' R Hz H. destruct (reached_base s R) as [B _]. destruct (reached_zptr s R z Hz) as (_ & _ & Nx & Ny & _).
  assert (F : base s' /\ xh s' = xh s /\ ah s' = ah s /\ rzf s' = rzf s /\ rnx s' = rnx s /\ rny s' = rny s).
  { destruct H as [H|H].
    - destruct (set_xlim_base _ _ _ _ B H) as (B1 & _ & _ & A1 & Z1 & N1 & N2 & _). split; [exact B1|]. split; [|auto].
      unfold set_xlim in H. destruct (parse_limits l); [|discriminate]. cbn [bind] in H. destruct (Req2b _ _); injection H as <-; reflexivity.
    - destruct (set_ylim_base _ _ _ _ B H) as (B1 & _ & _ & A1 & Z1 & N1 & N2 & _). split; [exact B1|]. split; [|auto].
      unfold set_ylim in H. destruct (parse_limits l); [|discriminate]. cbn [bind] in H. destruct (Req2b _ _); injection H as <-; reflexivity. }
  destruct F as (B1 & F1 & F2 & F3 & F4 & F5). split; [apply base_coherent; exact B1|]. intros linear x y.
  unfold sample, sample_value. rewrite F4, F5. replace ((1 <? rnx s)%nat && (1 <? rny s)%nat) with true.
  2:{ symmetry. apply andb_true_intro. split; apply Nat.ltb_lt; auto. }
  unfold get_zf. rewrite F3, Hz. cbn [bind sampled]. unfold zgrid_x, zgrid_y, xbuf. rewrite F1.
  assert (V : forall a b, zvalue s' z a b = zvalue s z a b) by (intros; unfold zvalue, abuf; rewrite F2; reflexivity).
  destruct linear; f_equal; [apply rgi_linear_ext|apply rgi_nearest_ext]; exact V.
Qed.
Print Assumptions raster_limits_sampled.
Example raster_limits_sampled_ex : reached r22s /\ rzf r22s = Some z22 /\ set_xlim [10; 12] true r22s = Ok r22l.
Proof. split; [apply r22_reached|]. split; [reflexivity|]. exact r22_limits. Qed.
