(** C30, for a Grid and every history: which coordinates each read returns. *)
From Coq Require Import Lia Lra.
From Verif Require Import Base BaseLemmas HelpersModel GridModel GridSpec GridProofs GridProofs2 RasterModel RasterSpec
  RasterProofs RasterProofs2 RasterProofs3 RasterProofs4 RasterProofs5 RasterProofs6 RasterProofs7 P_Raster.
Open Scope R_scope.

(** ** specification: the number of cells with which each of x, y, X (columns, rows), Y (rows, columns) was first read
    since the limits of its axis last changed *)
Record seen := mkseen { sx : option Z; sy : option Z; sX : option (Z * Z); sY : option (Z * Z) }.
Definition nothing : seen := mkseen None None None None.
Definition first {A} (o : option A) (now : A) : A := match o with Some a => a | None => now end.
(** one action of the user: g, g' are the limits and the size before and after it *)
Definition note (o : gop) (g g' : grid) (f : seen) : seen :=
  match o with
  | GX => mkseen (Some (first (sx f) (gnx g))) (sy f) (sX f) (sY f)
  | GY => mkseen (sx f) (Some (first (sy f) (gny g))) (sX f) (sY f)
  | GXX => match sX f with Some _ => f
           | None => let n := first (sx f) (gnx g) in mkseen (Some n) (sy f) (Some (n, gny g)) (sY f) end
  | GYY => match sY f with Some _ => f
           | None => let n := first (sy f) (gny g) in mkseen (sx f) (Some n) (sX f) (Some (n, gnx g)) end
  | GSetX _ => if Req2b (gxlim g) (gxlim g') then f else mkseen None (sy f) None (sY f)
  | GSetY _ => if Req2b (gylim g) (gylim g') then f else mkseen (sx f) None (sX f) None
  | GSetSize _ | GShift _ _ => f
  end.
Inductive history : gobj -> seen -> list gop -> gobj -> seen -> Prop :=
| h_nil s f : history s f [] s f
| h_cons s f o s1 os s2 f2 : gstep o s = Ok s1 -> history s1 (note o (og s) (og s1) f) os s2 f2 -> history s f (o :: os) s2 f2.
(** every history of actions that raise nothing has exactly one such record *)
Lemma gsteps_history os : forall s f s', gsteps os s = Ok s' -> exists f', history s f os s' f'.
Proof.
  induction os as [|o os IH]; intros s f s' H; cbn [gsteps] in H.
  - injection H as <-. exists f. constructor.
  - destruct (gstep o s) as [s1|] eqn:E; [|discriminate]. cbn [bind] in H. destruct (IH s1 (note o (og s) (og s1) f) s' H) as [f' K].
    exists f'. econstructor; eauto.
Qed.

(** ** invariant *)
Definition matches {A B} (P : A -> B -> Prop) (a : option A) (b : option B) : Prop :=
  match a, b with Some x, Some y => P x y | None, None => True | _, _ => False end.
Record ginv (s : gobj) (f : seen) : Prop := {
  i_ok : grid_ok (og s);
  i_x : matches (fun v n => (1 <= n)%Z /\ is_centers (gxlim (og s), n) v) (ox s) (sx f);
  i_y : matches (fun v n => (1 <= n)%Z /\ is_centers (gylim (og s), n) v) (oy s) (sy f);
  i_X : matches (fun v n => (1 <= fst n)%Z /\ (1 <= snd n)%Z /\ is_X (gxlim (og s), fst n) (Z.to_nat (snd n)) v) (oX s) (sX f);
  i_Y : matches (fun v n => (1 <= fst n)%Z /\ (1 <= snd n)%Z /\ is_Y (gylim (og s), fst n) (Z.to_nat (snd n)) v) (oY s) (sY f) }.

Lemma gx_read s f : ginv s f -> exists v s', gget_x s = Ok (v, s') /\ og s' = og s
  /\ (1 <= first (sx f) (gnx (og s)))%Z /\ is_centers (gxlim (og s), first (sx f) (gnx (og s))) v
  /\ ginv s' (note GX (og s) (og s') f).
Proof.
  intros [K Ix Iy IX IY]. unfold gget_x. cbn [note]. destruct (ox s) as [v|] eqn:E; destruct (sx f) as [n|] eqn:F; cbn in Ix; try contradiction.
  - exists v, s. cbn [first]. split; [reflexivity|]. split; [reflexivity|]. split; [tauto|]. split; [tauto|]. constructor; cbn [sx sy sX sY]; auto. rewrite E. exact Ix.
  - destruct K as [K1 K2]. destruct (centers_is (xaxis (og s)) K1) as (v & -> & C). cbn [bind first].
    assert (N : (1 <= gnx (og s))%Z) by (destruct K1 as [_ K1]; exact K1).
    eexists v, _. split; [reflexivity|]. split; [reflexivity|]. split; [exact N|]. split; [exact C|].
    constructor; cbn [og ox oy oX oY sx sy sX sY]; auto. { split; auto. } split; [exact N|exact C].
Qed.
Lemma gy_read s f : ginv s f -> exists v s', gget_y s = Ok (v, s') /\ og s' = og s
  /\ (1 <= first (sy f) (gny (og s)))%Z /\ is_centers (gylim (og s), first (sy f) (gny (og s))) v
  /\ ginv s' (note GY (og s) (og s') f).
Proof.
  intros [K Ix Iy IX IY]. unfold gget_y. cbn [note]. destruct (oy s) as [v|] eqn:E; destruct (sy f) as [n|] eqn:F; cbn in Iy; try contradiction.
  - exists v, s. cbn [first]. split; [reflexivity|]. split; [reflexivity|]. split; [tauto|]. split; [tauto|]. constructor; cbn [sx sy sX sY]; auto. rewrite E. exact Iy.
  - destruct K as [K1 K2]. destruct (centers_is (yaxis (og s)) K2) as (v & -> & C). cbn [bind first].
    assert (N : (1 <= gny (og s))%Z) by (destruct K2 as [_ K2]; exact K2).
    eexists v, _. split; [reflexivity|]. split; [reflexivity|]. split; [exact N|]. split; [exact C|].
    constructor; cbn [og ox oy oX oY sx sy sX sY]; auto. { split; auto. } split; [exact N|exact C].
Qed.
(** the size X stands for, when read *)
Definition sizeX (f : seen) (g : grid) : Z * Z := first (sX f) (first (sx f) (gnx g), gny g).
Definition sizeY (f : seen) (g : grid) : Z * Z := first (sY f) (first (sy f) (gny g), gnx g).
Lemma gX_read s f : ginv s f -> exists v s', gget_X s = Ok (v, s') /\ og s' = og s
  /\ (1 <= fst (sizeX f (og s)))%Z /\ (1 <= snd (sizeX f (og s)))%Z
  /\ is_X (gxlim (og s), fst (sizeX f (og s))) (Z.to_nat (snd (sizeX f (og s)))) v
  /\ ginv s' (note GXX (og s) (og s') f).
Proof.
  intros I0. pose proof I0 as [K Ix Iy IX IY]. unfold gget_X, sizeX. cbn [note].
  destruct (oX s) as [v|] eqn:E; destruct (sX f) as [n|] eqn:F; cbn in IX; try contradiction.
  - exists v, s. cbn [first]. split; [reflexivity|]. split; [reflexivity|]. split; [tauto|]. split; [tauto|]. split; [tauto|]. exact I0.
  - destruct (gx_read s f I0) as (v & s1 & E1 & G & N & C & I1). rewrite E1. cbn [bind first fst snd]. cbv zeta. rewrite G.
    eexists _, _. split; [reflexivity|]. cbn [og]. split; [reflexivity|]. split; [exact N|].
    assert (N2 : (1 <= gny (og s))%Z) by (destruct K as [_ [_ K2]]; exact K2). split; [exact N2|].
    split; [exists v; split; [exact C|reflexivity]|]. rewrite <- G.
    destruct I1 as [J Jx Jy JX JY]. cbn [note sx sy sX sY] in Jx, Jy, JX, JY.
    constructor; cbn [og ox oy oX oY sx sy sX sY]; rewrite ?G in *; auto.
    cbn. split; [exact N|]. split; [exact N2|]. exists v. split; [exact C|reflexivity].
Qed.
Lemma gY_read s f : ginv s f -> exists v s', gget_Y s = Ok (v, s') /\ og s' = og s
  /\ (1 <= fst (sizeY f (og s)))%Z /\ (1 <= snd (sizeY f (og s)))%Z
  /\ is_Y (gylim (og s), fst (sizeY f (og s))) (Z.to_nat (snd (sizeY f (og s)))) v
  /\ ginv s' (note GYY (og s) (og s') f).
Proof.
  intros I0. pose proof I0 as [K Ix Iy IX IY]. unfold gget_Y, sizeY. cbn [note].
  destruct (oY s) as [v|] eqn:E; destruct (sY f) as [n|] eqn:F; cbn in IY; try contradiction.
  - exists v, s. cbn [first]. split; [reflexivity|]. split; [reflexivity|]. split; [tauto|]. split; [tauto|]. split; [tauto|]. exact I0.
  - destruct (gy_read s f I0) as (v & s1 & E1 & G & N & C & I1). rewrite E1. cbn [bind first fst snd]. cbv zeta. rewrite G.
    eexists _, _. split; [reflexivity|]. cbn [og]. split; [reflexivity|]. split; [exact N|].
    assert (N2 : (1 <= gnx (og s))%Z) by (destruct K as [[_ K2] _]; exact K2). split; [exact N2|].
    split; [exists v; split; [exact C|reflexivity]|]. rewrite <- G.
    destruct I1 as [J Jx Jy JX JY]. cbn [note sx sy sX sY] in Jx, Jy, JX, JY.
    constructor; cbn [og ox oy oX oY sx sy sX sY]; rewrite ?G in *; auto.
    cbn. split; [exact N|]. split; [exact N2|]. exists v. split; [exact C|reflexivity].
Qed.
Lemma Req2b_refl p : Req2b p p = true.
Proof. unfold Req2b. rewrite !(proj2 (Reqb_true _ _)); auto. Qed.
Lemma matches_map {A B} (P Q : A -> B -> Prop) (h : A -> A) a b :
  (forall x y, P x y -> Q (h x) y) -> matches P a b -> matches Q (option_map h a) b.
Proof. intros H. destruct a, b; cbn; auto. Qed.
Lemma gstep_inv o s f s' : ginv s f -> gstep o s = Ok s' -> ginv s' (note o (og s) (og s') f).
Proof.
  intros I0 H. destruct o as [| | | |l|l|n|dx dy]; cbn [gstep] in H.
  - destruct (gx_read s f I0) as (v & s1 & E & G & _ & _ & I1). rewrite E in H. injection H as <-. exact I1.
  - destruct (gy_read s f I0) as (v & s1 & E & G & _ & _ & I1). rewrite E in H. injection H as <-. exact I1.
  - destruct (gX_read s f I0) as (v & s1 & E & G & _ & _ & _ & I1). rewrite E in H. injection H as <-. exact I1.
  - destruct (gY_read s f I0) as (v & s1 & E & G & _ & _ & _ & I1). rewrite E in H. injection H as <-. exact I1.
  - destruct (parse_limits l) as [p|] eqn:E; [|discriminate]. cbn [bind] in H. apply parse_limits_ok in E as [_ E]. cbn [note].
    destruct (Req2b (gxlim (og s)) p) eqn:Q; injection H as <-.
    + rewrite Req2b_refl. exact I0.
    + cbn [og gxlim]. rewrite Q. destruct I0 as [[[G1 G2] G3] Ix Iy IX IY].
      constructor; cbn [og ox oy oX oY sx sy sX sY gxlim gylim]; auto; [|exact I|exact I]. split; [split|]; auto.
  - destruct (parse_limits l) as [p|] eqn:E; [|discriminate]. cbn [bind] in H. apply parse_limits_ok in E as [_ E]. cbn [note].
    destruct (Req2b (gylim (og s)) p) eqn:Q; injection H as <-.
    + rewrite Req2b_refl. exact I0.
    + cbn [og gylim]. rewrite Q. destruct I0 as [[G3 [G1 G2]] Ix Iy IX IY].
      constructor; cbn [og ox oy oX oY sx sy sX sY gxlim gylim]; auto; [|exact I|exact I]. split; [|split]; auto.
  - destruct (parse_size n) as [p|] eqn:E; [|discriminate]. cbn [bind] in H. apply parse_size_ok in E as [E1 E2]. injection H as <-.
    destruct I0 as [[[G1 G2] [G3 G4]] Ix Iy IX IY]. constructor; cbn [og ox oy oX oY note gxlim gylim]; auto. split; split; auto.
  - cbn [note]. set (s1 := match dx with None => s | Some d =>
        mkgobj (mkgrid (gnx (og s)) (gny (og s)) (fst (gxlim (og s)) + d, snd (gxlim (og s)) + d) (gylim (og s)))
          (option_map (map (fun x => x + d)) (ox s)) (oy s) (option_map (map (map (fun x => x + d))) (oX s)) (oY s) end).
    assert (Bx : ginv s1 f).
    { subst s1. destruct dx as [d|]; [|exact I0]. destruct I0 as [[G1 G3] Ix Iy IX IY]. constructor; cbn [og ox oy oX oY gxlim gylim].
      - split; [apply (shift_axis_ok d (xaxis (og s))); auto|exact G3].
      - eapply matches_map; [|exact Ix]. intros v n [N C]. split; [exact N|]. apply (shift_centers d (gxlim (og s), n)). exact C.
      - exact Iy.
      - eapply matches_map; [|exact IX]. intros v n (N & M & C). split; [exact N|]. split; [exact M|]. apply (shift_is_X d (gxlim (og s), fst n)). exact C.
      - exact IY. }
    cbv zeta in H. injection H as H. fold s1 in H. clearbody s1. subst s'.
    destruct dy as [d|]; [|exact Bx]. destruct Bx as [[G1 G3] Ix Iy IX IY]. constructor; cbn [og ox oy oX oY gxlim gylim].
    + split; [exact G1|apply (shift_axis_ok d (yaxis (og s1))); auto].
    + exact Ix.
    + eapply matches_map; [|exact Iy]. intros v n [N C]. split; [exact N|]. apply (shift_centers d (gylim (og s1), n)). exact C.
    + exact IX.
    + eapply matches_map; [|exact IY]. intros v n (N & M & C). split; [exact N|]. split; [exact M|]. apply (shift_is_Y d (gylim (og s1), fst n)). exact C.
Qed.
Lemma history_inv s f ops s' f' : ginv s f -> history s f ops s' f' -> ginv s' f'.
Proof. intros I0 H. induction H as [|s f o s1 os s2 f2 E H IH]; auto. apply IH. eapply gstep_inv; eauto. Qed.
Lemma new_grid_inv size xl yl s : (1 <= fst size)%Z -> (1 <= snd size)%Z -> new_grid size xl yl = Ok s -> ginv s nothing.
Proof.
  intros H1 H2 H. unfold new_grid in H. destruct (parse_limits xl) as [px|] eqn:Ex; [|discriminate]. cbn [bind] in H.
  destruct (parse_limits yl) as [py|] eqn:Ey; [|discriminate]. cbn [bind] in H. injection H as <-.
  apply parse_limits_ok in Ex as [_ Nx]. apply parse_limits_ok in Ey as [_ Ny].
  constructor; try exact I. split; split; auto.
Qed.
Lemma is_centers_size p n m v : (1 <= n)%Z -> (1 <= m)%Z -> is_centers (p, n) v -> is_centers (p, m) v -> n = m.
Proof. intros H1 H2 [L1 _] [L2 _]. cbn [snd] in *. lia. Qed.

(** C30, Grid, every history: after any sequence of actions, the coordinates returned are the cell centers of the current
    limits divided into the number of cells the axis had when these coordinates were first read since the limits of the
    axis last changed; hence the coordinates agree with the size exactly when the size is still that one. *)
Theorem grid_caches : forall size xl yl s0 ops s f, (1 <= fst size)%Z -> (1 <= snd size)%Z ->
  new_grid size xl yl = Ok s0 -> history s0 nothing ops s f ->
  let g := og s in
  (exists v s', gget_x s = Ok (v, s') /\ is_centers (gxlim g, first (sx f) (gnx g)) v) /\
  (exists v s', gget_y s = Ok (v, s') /\ is_centers (gylim g, first (sy f) (gny g)) v) /\
  (exists v s', gget_X s = Ok (v, s') /\ is_X (gxlim g, fst (sizeX f g)) (Z.to_nat (snd (sizeX f g))) v) /\
  (exists v s', gget_Y s = Ok (v, s') /\ is_Y (gylim g, fst (sizeY f g)) (Z.to_nat (snd (sizeY f g))) v) /\
  (gcoherent s <-> first (sx f) (gnx g) = gnx g /\ first (sy f) (gny g) = gny g
                   /\ sizeX f g = (gnx g, gny g) /\ sizeY f g = (gny g, gnx g)).
Proof.
  intros size xl yl s0 ops s f H1 H2 E H g. assert (I0 := history_inv _ _ _ _ _ (new_grid_inv _ _ _ _ H1 H2 E) H).
  destruct (gx_read s f I0) as (v1 & s1 & E1 & _ & N1 & C1 & _). destruct (gy_read s f I0) as (v2 & s2 & E2 & _ & N2 & C2 & _).
  destruct (gX_read s f I0) as (v3 & s3 & E3 & _ & N3 & M3 & C3 & _). destruct (gY_read s f I0) as (v4 & s4 & E4 & _ & N4 & M4 & C4 & _).
  fold g in N1, C1, N2, C2, N3, M3, C3, N4, M4, C4.
  split; [eauto|]. split; [eauto|]. split; [eauto|]. split; [eauto|].
  destruct (i_ok s f I0) as [[_ Kx] [_ Ky]]. cbn [snd xaxis yaxis] in Kx, Ky. fold g in Kx, Ky. split.
  - intros ((w1 & t1 & F1 & D1) & (w2 & t2 & F2 & D2) & (w3 & t3 & F3 & D3) & (w4 & t4 & F4 & D4)).
    rewrite E1 in F1. injection F1 as <- <-. rewrite E2 in F2. injection F2 as <- <-.
    rewrite E3 in F3. injection F3 as <- <-. rewrite E4 in F4. injection F4 as <- <-.
    split; [eapply is_centers_size; [exact N1|exact Kx|exact C1|exact D1]|].
    split; [eapply is_centers_size; [exact N2|exact Ky|exact C2|exact D2]|].
    split.
    + destruct C3 as (a & Ca & Ea), D3 as (b & Cb & Eb). rewrite Ea in Eb.
      assert (L := f_equal (@length _) Eb). rewrite !repeat_length in L. fold g in L.
      assert (La : a = b).
      { assert (L1 := f_equal (hd nil) Eb). destruct (Z.to_nat (snd (sizeX f g))) eqn:Z1; [lia|]. fold g in L1. destruct (Z.to_nat (gny g)) eqn:Z2; [lia|]. exact L1. }
      subst b. rewrite (surjective_pairing (sizeX f g)). f_equal; [|lia]. eapply is_centers_size; [exact N3|exact Kx|exact Ca|exact Cb].
    + destruct C4 as (a & Ca & Ea), D4 as (b & Cb & Eb). rewrite Ea in Eb.
      assert (L := f_equal (@length _) Eb). rewrite !map_length in L.
      assert (F : fst (sizeY f g) = gny g). { destruct Ca as [L1 _], Cb as [L2 _]. cbn [snd xaxis yaxis] in L1, L2. fold g in L2. lia. }
      rewrite (surjective_pairing (sizeY f g)). f_equal; [exact F|].
      destruct a as [|a0 a]; [destruct Ca as [La _]; cbn [snd length] in La; lia|]. destruct b as [|b0 b]; [discriminate|].
      cbn [map] in Eb. injection Eb as Eb _. assert (L1 := f_equal (@length _) Eb). rewrite !repeat_length in L1. fold g in L1. lia.
  - intros (F1 & F2 & F3 & F4). rewrite F1 in C1. rewrite F2 in C2. rewrite F3 in C3. rewrite F4 in C4. cbn [fst snd] in C3, C4.
    split; [eauto|]. split; [eauto|]. split; eauto.
Qed.
Print Assumptions grid_caches.
(** the hypotheses hold of the refuting history: x read, then the size set to 4: x still has 2 cells *)
Example grid_caches_history_ex : exists s f, history g22 nothing [GX; GSetSize [4%Z]; GShift (Some 1) None; GXX] s f
  /\ gnx (og s) = 4%Z /\ sx f = Some 2%Z /\ sX f = Some (2, 4)%Z.
Proof.
  eexists _, _. split.
  - eapply h_cons. { cbn [gstep]. unfold gget_x. cbn [ox g22]. change (xaxis (og g22)) with ((0, 2), 2%Z). rewrite centers02. reflexivity. }
    eapply h_cons; [reflexivity|]. eapply h_cons; [reflexivity|]. eapply h_cons; [reflexivity|]. constructor.
  - cbn. auto.
Qed.
