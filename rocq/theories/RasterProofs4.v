From Coq Require Import Lia Lra.
From Verif Require Import Base BaseLemmas HelpersModel HelpersSpec BoxProofs GridModel GridSpec GridProofs GridProofs2 RasterModel RasterSpec RasterProofs RasterProofs2 RasterProofs3.
Open Scope R_scope.

(** ** sampling keeps the invariant *)
Lemma sample_value_base linear x y s : base s -> exists v s', sample_value linear x y s = Ok (v, s') /\ base s' /\ rgrid s' = rgrid s
  /\ (zinv s -> zinv s').
Proof.
  intros B. unfold sample_value. destruct (_ && _) eqn:E1.
  - destruct (rzf s) as [z0|] eqn:Ez.
    + assert (G : get_zf s = Ok (z0, s)) by (unfold get_zf; rewrite Ez; reflexivity). rewrite G. cbn [bind]. eexists _, s. auto.
    + destruct (get_zf_spec s B) as (z & s' & -> & H2 & H3 & H4 & H5 & _); [intros z; congruence|]. cbn [bind].
      eexists _, s'. split; [reflexivity|]. auto.
  - destruct (1 <? rnx s)%nat.
    + destruct (get_x_spec s B) as (p & s' & -> & Q1 & Q2 & Eg & F1 & F2 & F3 & F4 & F5 & F6 & F7 & F8 & F9 & _ & _ & (t & Ft)). cbn [bind].
      eexists _, s'. split; [reflexivity|]. split; [auto|]. split; [auto|]. intros Zi z Hz. rewrite F9 in Hz.
      apply (zf_ok_grow s s' z t); auto.
    + destruct (1 <? rny s)%nat; [|eexists _, s; split; [reflexivity|auto]].
      destruct (get_y_spec s B) as (p & s' & -> & Q1 & Q2 & Eg & F1 & F2 & F3 & F4 & F5 & F6 & F7 & F8 & F9 & _ & _ & (t & Ft)). cbn [bind].
      eexists _, s'. split; [reflexivity|]. split; [auto|]. split; [auto|]. intros Zi z Hz. rewrite F9 in Hz.
      apply (zf_ok_grow s s' z t); auto.
Qed.

(** ** one operation *)
Definition safe_op (o : rop) (s : raster) : Prop :=
  match o with RShift _ _ _ => rzf s = None | _ => True end.
Definition zsafe_op (o : rop) (s : raster) : Prop :=
  match o with RShift _ _ _ | RSetX _ _ | RSetY _ _ => rzf s = None | _ => True end.
Lemma rstep_base o s s' : base s -> op_ok o -> rstep o s = Ok s' -> safe_op o s -> base s' /\ (zinv s -> zsafe_op o s -> zinv s').
Proof.
  intros B O H S. destruct o as [| | | |x y|l f|l f|ny nx v f|dx dy dz|xo yo|z0 z1|]; cbn [rstep] in H.
  - destruct (get_x_spec s B) as (p & s1 & E & Q1 & Q2 & Eg & F1 & F2 & F3 & F4 & F5 & F6 & F7 & F8 & F9 & _ & _ & (t & Ft)).
    rewrite E in H. injection H as <-. split; [auto|]. intros Zi _ z Hz. rewrite F9 in Hz. apply (zf_ok_grow s s1 z t); auto.
  - destruct (get_y_spec s B) as (p & s1 & E & Q1 & Q2 & Eg & F1 & F2 & F3 & F4 & F5 & F6 & F7 & F8 & F9 & _ & _ & (t & Ft)).
    rewrite E in H. injection H as <-. split; [auto|]. intros Zi _ z Hz. rewrite F9 in Hz. apply (zf_ok_grow s s1 z t); auto.
  - destruct (get_X_spec s B) as (X & s1 & E & Q1 & Q2 & Eg & F1 & F2 & F3 & F4 & F5 & F6 & (t & Ft)).
    rewrite E in H. injection H as <-. split; [auto|]. intros Zi _ z Hz. rewrite F6 in Hz. apply (zf_ok_grow s s1 z t); auto.
  - destruct (get_Y_spec s B) as (X & s1 & E & Q1 & Q2 & Eg & F1 & F2 & F3 & F4 & F5 & F6 & (t & Ft)).
    rewrite E in H. injection H as <-. split; [auto|]. intros Zi _ z Hz. rewrite F6 in Hz. apply (zf_ok_grow s s1 z t); auto.
  - unfold sample in H. destruct (sample_value_base true x y s B) as (v & s1 & E & Q1 & Q2 & Q3). rewrite E in H. injection H as <-. auto.
  - destruct (set_xlim_base _ _ _ _ B H) as (B1 & G1 & R1 & A1 & Z1 & _). split; [auto|]. intros Zi Hz z E. cbn in Hz. congruence.
  - destruct (set_ylim_base _ _ _ _ B H) as (B1 & G1 & R1 & A1 & Z1 & _). split; [auto|]. intros Zi Hz z E. cbn in Hz. congruence.
  - cbn in O. destruct O as (O1 & O2 & O3). destruct (set_array_base ny nx v f s B O1 O2 O3) as (B1 & _ & _ & Z1 & _).
    injection H as <-. split; [auto|]. intros _ _ z E. congruence.
  - cbn in S. destruct (shift_spec dx dy dz s B S) as [Hb Ho]. destruct (_ && _) in Hb, Ho; [|rewrite Hb in H by auto; discriminate].
    destruct (Ho eq_refl) as (s1 & E & B1 & Z1 & _). rewrite E in H. injection H as <-. split; [auto|]. intros _ _ z E'. congruence.
  - assert (N : (xo = None /\ yo = None) \/ (xo <> None \/ yo <> None)).
    { destruct xo; [right; left; discriminate|]. destruct yo; [right; right; discriminate|]. auto. }
    destruct N as [[-> ->]|N]; [assert (s' = s) as -> by (cbn in H; congruence); split; [exact B|auto]|].
    destruct (crop_spec xo yo s B N) as [Hb Ho].
    destruct (Classical_Prop.classic (overlaps (request xo (xaxis (rgrid s))) (xaxis (rgrid s)) /\ overlaps (request yo (yaxis (rgrid s))) (yaxis (rgrid s)))) as [D|D].
    + destruct (Ho D) as (s1 & r0 & r1 & c0 & c1 & E & B1 & Z1 & _). rewrite E in H. injection H as <-. split; [auto|]. intros _ _ z E'; congruence.
    + rewrite (Hb D) in H. discriminate.
  - destruct (crop_z_spec z0 z1 s s' B H) as (B1 & V & G & Q). auto.
  - destruct (crop_to_data_spec s B) as [Hb Ho].
    destruct (Classical_Prop.classic (exists r c, has_data s r c)) as [D|D].
    + destruct (Ho D) as (s1 & r0 & r1 & c0 & c1 & E & B1 & Z1 & _). rewrite E in H. injection H as <-. split; [auto|]. intros _ _ z E'; congruence.
    + rewrite Hb in H; [discriminate|]. intros r c Hrc. apply D. eauto.
Qed.

Theorem shift_safe_base s ops s' : base s -> shift_safe s ops s' -> base s'.
Proof.
  intros B H. induction H as [s|s o s1 os s2 O E S H IH]; auto. apply IH. apply (rstep_base o s s1 B O E). destruct o; auto.
Qed.
Theorem sample_safe_inv s ops s' : base s -> zinv s -> sample_safe s ops s' -> base s' /\ zinv s'.
Proof.
  intros B Z H. induction H as [s|s o s1 os s2 O E S H IH]; auto.
  destruct (rstep_base o s s1 B O E) as [B1 Z1]. { destruct o; auto. } apply IH; [auto|]. apply Z1; auto.
Qed.
Lemma new_raster_base ny nx v aflt xl yl xflt yflt s : new_raster ny nx v aflt xl yl xflt yflt = Ok s ->
  (1 <= ny)%nat -> (1 <= nx)%nat -> length v = (ny * nx)%nat -> base s /\ zinv s /\ rzf s = None.
Proof.
  intros H Hy Hx Hl. unfold new_raster in H. destruct (parse_limits xl) as [px|] eqn:Ex; [|discriminate]. cbn [bind] in H.
  destruct (parse_limits yl) as [py|] eqn:Ey; [|discriminate]. cbn [bind] in H. injection H as <-.
  apply parse_limits_ok in Ex as [_ Nx]. apply parse_limits_ok in Ey as [_ Ny].
  split; [|split; [intros z; discriminate|reflexivity]]. constructor; try discriminate.
  - split; split; cbn; auto; lia.
  - cbn. lia.
  - exact Hl.
Qed.

(** ** regular increasing coordinates *)
Definition regular (g : list R) (p h : R) : Prop := 0 < h /\ forall k, (k < length g)%nat -> nth k g 0 = p + INR k * h.
Lemma regular_lt g p h i j : regular g p h -> (i < j < length g)%nat -> nth i g 0 < nth j g 0.
Proof. intros [H N] L. rewrite !N by lia. apply Rplus_lt_compat_l, Rmult_lt_compat_r; auto. apply lt_INR. lia. Qed.
Lemma count_lt g x : (forall i j, (i < j < length g)%nat -> nth i g 0 < nth j g 0) ->
  let m := length (filter (fun v => Rltb v x) g) in (m <= length g)%nat /\ (forall k, (k < m)%nat -> nth k g 0 < x)
  /\ (forall k, (m <= k < length g)%nat -> x <= nth k g 0).
Proof.
  induction g as [|a g IH]; intros S; [cbn; repeat split; intros; lia|].
  assert (S' : forall i j, (i < j < length g)%nat -> nth i g 0 < nth j g 0) by (intros i j H; apply (S (Datatypes.S i) (Datatypes.S j)); cbn; lia).
  destruct (IH S') as (A & B & C). cbn [filter]. destruct (Rltb a x) eqn:E.
  - apply Rltb_true in E. cbn [length]. split; [lia|]. split.
    + intros [|k] Hk; [exact E|]. apply B. lia.
    + intros [|k] Hk; [lia|]. apply C. lia.
  - apply Rltb_false in E. assert (Z : length (filter (fun v => Rltb v x) g) = 0%nat).
    { destruct (length (filter (fun v => Rltb v x) g)) as [|m] eqn:M; auto. exfalso. specialize (B 0%nat ltac:(lia)).
      specialize (S 0%nat 1%nat ltac:(cbn; lia)). cbn in S. lra. }
    cbn. rewrite Z. split; [lia|]. split; [intros; lia|]. intros [|k] Hk; [exact E|]. cbn. apply C. lia.
Qed.
Lemma locate_spec g p h x : regular g p h -> (2 <= length g)%nat ->
  let '(i, t) := rgi_locate g x in (S i < length g)%nat /\ x = nth i g 0 + t * h /\ nth (S i) g 0 = nth i g 0 + h
    /\ (nth 0 g 0 <= x -> 0 <= t) /\ (x <= nth (length g - 1) g 0 -> t <= 1)
    /\ (t < 0 -> i = 0%nat) /\ (1 < t -> i = (length g - 2)%nat).
Proof.
  intros Rg L. assert (Rg' := Rg). destruct Rg' as [Hh N]. unfold rgi_locate.
  destruct (count_lt g x) as (A & B & C). { intros; apply (regular_lt g p h); auto. }
  set (m := length (filter (fun v => Rltb v x) g)) in *.
  set (i := Nat.min (m - 1) (length g - 2)). assert (Hi : (S i < length g)%nat) by (unfold i; lia).
  assert (St : nth (S i) g 0 = nth i g 0 + h) by (rewrite !N, S_INR by lia; ring).
  replace (nth (S i) g 0 - nth i g 0) with h by lra.
  set (t := (x - nth i g 0) / h). assert (Et : x = nth i g 0 + t * h) by (unfold t; field; lra).
  assert (T0 : nth i g 0 <= x -> 0 <= t). { intros H. unfold t. apply Rle_mult_inv_pos; lra. }
  assert (T1 : x <= nth (S i) g 0 -> t <= 1). { intros H. apply Rmult_le_reg_r with h; lra. }
  split; [exact Hi|]. split; [exact Et|]. split; [exact St|].
  destruct (Nat.eq_dec m 0) as [M0|M0].
  - assert (i = 0%nat) by (unfold i; lia). specialize (C 0%nat ltac:(lia)).
    split; [intros; apply T0; replace i with 0%nat by auto; auto|].
    split; [intros; apply T1; replace i with 0%nat in * by auto; specialize (regular_lt g p h 0 1 Rg ltac:(lia)); lra|].
    split; [auto|]. intros Q. exfalso. assert (t <= 1); [|lra]. apply T1. replace i with 0%nat by auto.
    specialize (regular_lt g p h 0 1 Rg ltac:(lia)). lra.
  - assert (G0 : nth i g 0 < x) by (apply B; unfold i; lia).
    split; [intros; apply T0; lra|]. destruct (Nat.eq_dec m (length g)) as [Mn|Mn].
    + assert (Hi2 : i = (length g - 2)%nat) by (unfold i; lia).
      split; [intros; apply T1; replace (S i) with (length g - 1)%nat by lia; auto|]. split; [|auto]. intros. exfalso. assert (0 <= t) by (apply T0; lra). lra.
    + assert (C' := C m ltac:(lia)). assert (S i = m) by (unfold i; lia).
      assert (t <= 1) by (apply T1; replace (S i) with m by auto; auto).
      split; [auto|]. split; [|intros; lra]. intros. exfalso. assert (0 <= t) by (apply T0; lra). lra.
Qed.
Lemma INR_le1 a b : (a < b)%nat -> INR a + 1 <= INR b.
Proof. intros H. rewrite <- S_INR. apply le_INR. lia. Qed.
(** the nearest node of the two *)
Lemma locate_nearest g p h x : regular g p h -> (2 <= length g)%nat ->
  let '(i, t) := rgi_locate g x in let m := if Rleb t (/ 2) then i else S i in
  (m < length g)%nat /\ forall k, (k < length g)%nat -> Rabs (x - nth m g 0) <= Rabs (x - nth k g 0).
Proof.
  intros Rg L. pose proof (locate_spec g p h x Rg L) as H. destruct (rgi_locate g x) as [i t].
  destruct H as (Hi & Ex & St & _ & _ & T0 & T1). destruct Rg as [Hh N]. cbv zeta.
  assert (D : forall k, (k < length g)%nat -> x - nth k g 0 = (INR i + t - INR k) * h).
  { intros k Hk. rewrite Ex at 1. rewrite !N by lia. ring. }
  assert (AB : forall k, (k < length g)%nat -> Rabs (x - nth k g 0) = Rabs (INR i + t - INR k) * h).
  { intros k Hk. rewrite D by auto. rewrite Rabs_mult, (Rabs_right h) by lra. reflexivity. }
  destruct (Rleb t (/ 2)) eqn:E; [apply Rleb_true in E|apply Rleb_false in E]; (split; [lia|]); intros k Hk;
    rewrite !AB by lia; apply Rmult_le_compat_r; try lra.
  - replace (INR i + t - INR i) with t by ring.
    destruct (Rle_dec 0 t) as [Ht|Ht].
    + rewrite (Rabs_right t) by lra. destruct (le_lt_dec k i) as [K|K].
      * apply le_INR in K. rewrite Rabs_right; lra.
      * apply INR_le1 in K. rewrite Rabs_left1; lra.
    + rewrite T0 by lra. cbn [INR]. rewrite Rabs_left by lra. pose proof (pos_INR k). rewrite Rabs_left1; lra.
  - rewrite S_INR. replace (INR i + t - (INR i + 1)) with (t - 1) by ring.
    destruct (Rle_dec t 1) as [Ht|Ht].
    + rewrite (Rabs_left1 (t - 1)) by lra. destruct (le_lt_dec k i) as [K|K].
      * apply le_INR in K. rewrite Rabs_right; lra.
      * apply INR_le1 in K. rewrite Rabs_left1; lra.
    + rewrite (Rabs_right (t - 1)) by lra. assert (K : (k <= S i)%nat) by (rewrite T1 in * by lra; lia).
      apply le_INR in K. rewrite S_INR in K. rewrite Rabs_right; lra.
Qed.

(** the position of cell k in the increasing order of coordinates (its own inverse) *)
Definition opos (r : bool) (n k : nat) : nat := if r then (n - 1 - k)%nat else k.
Lemma opos_inv r n k : (k < n)%nat -> (opos r n k < n)%nat /\ opos r n (opos r n k) = k.
Proof. unfold opos. destruct r; lia. Qed.
Lemma oriented_nth {A} r (v : list A) k d : (k < length v)%nat -> nth k (oriented r v) d = nth (opos r (length v) k) v d.
Proof. intros H. unfold oriented, opos. destruct r; auto. rewrite rev_nth by auto. f_equal. lia. Qed.
Lemma oriented_length {A} r (v : list A) : length (oriented r v) = length v.
Proof. destruct r; cbn; auto. apply rev_length. Qed.
Lemma center_INR a k : center a (Z.of_nat k) = fst (fst a) + (INR k + / 2) * dcell a.
Proof. unfold center. rewrite at_cells_eq, INR_IZR_INZ. ring. Qed.
Lemma centers_regular a v : axis_ok a -> is_centers a v ->
  let r := Rltb (dcell a) 0 in
  regular (oriented r v) (fst (fst a) + (if r then INR (length v) - / 2 else / 2) * dcell a) (Rabs (dcell a))
  /\ forall k, (k < length v)%nat -> nth (opos r (length v) k) (oriented r v) 0 = center a (Z.of_nat k).
Proof.
  intros Ok [L N] r. pose proof (dcell_nz a Ok) as Nz.
  assert (F : forall k, (k < length v)%nat -> nth (opos r (length v) k) (oriented r v) 0 = center a (Z.of_nat k)).
  { intros k Hk. destruct (opos_inv r _ k Hk) as [H1 H2]. rewrite oriented_nth, H2 by auto. apply N. auto. }
  split; [|exact F]. split; [apply Rabs_pos_lt; auto|]. rewrite oriented_length. intros k Hk.
  rewrite oriented_nth, N by (auto; apply opos_inv; auto). rewrite center_INR. unfold opos, r.
  destruct (Rltb (dcell a) 0) eqn:E; [apply Rltb_true in E|apply Rltb_false in E].
  - rewrite Rabs_left by auto. rewrite minus_INR, minus_INR by lia. change (INR 1) with 1. field.
  - rewrite Rabs_right by lra. ring.
Qed.

(** ** the value seen by the interpolator *)
Lemma zvalue_cell s z a b : zf_ok s z -> zvalue s z a b = cellv s (opos (zyrev z) (rny s) b) (opos (zxrev z) (rnx s) a).
Proof.
  intros (A1 & A2 & A3 & A4 & A5 & A6 & A7 & A8 & A9 & A10 & A11). unfold zvalue, cellv, opos. rewrite A10, A4, A5. reflexivity.
Qed.
