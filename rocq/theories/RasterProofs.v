From Coq Require Import Lia Lra.
From Verif Require Import Base BaseLemmas HelpersModel HelpersSpec BoxProofs GridModel GridSpec GridProofs GridProofs2 RasterModel RasterSpec.
Open Scope R_scope.

(** ** heaps *)
Lemma nth_snoc {A} (l : list A) v d : nth (length l) (l ++ [v]) d = v.
Proof. rewrite app_nth2, Nat.sub_diag by lia. reflexivity. Qed.
Lemma nth_snoc_lt {A} (l : list A) v d p : (p < length l)%nat -> nth p (l ++ [v]) d = nth p l d.
Proof. intros. apply app_nth1. auto. Qed.
Lemma nth_set_nth_eq {A} n (v : A) l d : (n < length l)%nat -> nth n (set_nth n v l) d = v.
Proof. intros H. apply nth_error_nth. apply nth_error_set_nth_eq. auto. Qed.
Lemma nth_set_nth_neq {A} n m (v : A) l d : n <> m -> nth m (set_nth n v l) d = nth m l d.
Proof.
  intros H. destruct (nth_error l m) eqn:E.
  - rewrite (nth_error_nth l m d E). apply nth_error_nth. rewrite nth_error_set_nth_neq by auto. exact E.
  - apply nth_error_None in E. rewrite !nth_overflow; auto. rewrite set_nth_length. auto.
Qed.

(** ** centers of valid axes *)
Lemma centers_is a : axis_ok a -> exists v, centers a = Ok v /\ is_centers a v.
Proof.
  intros H. destruct (centers_spec a H) as (v & E & L & N). exists v. split; [exact E|]. split; [lia|].
  intros k Hk. specialize (N (Z.of_nat k) ltac:(lia)). rewrite Nat2Z.id in N. apply (nth_error_nth v k 0 N).
Qed.
Lemma is_centers_unique a v w : is_centers a v -> is_centers a w -> v = w.
Proof.
  intros [L1 N1] [L2 N2]. apply (nth_ext v w 0 0); [lia|]. intros k Hk. rewrite N1, N2 by lia. reflexivity.
Qed.

(** ** the invariant *)
Record base (s : raster) : Prop := {
  b_ok : grid_ok (rgrid s);
  b_arr : (rarr s < length (ah s))%nat;
  b_len : length (rvalues s) = (rny s * rnx s)%nat;
  b_x : forall p, rx s = Some p -> (p < length (xh s))%nat /\ is_centers (xaxis (rgrid s)) (xbuf s p);
  b_y : forall p, ry s = Some p -> (p < length (xh s))%nat /\ is_centers (yaxis (rgrid s)) (xbuf s p);
  b_xy : forall p q, rx s = Some p -> ry s = Some q -> p <> q;
  b_X : forall X, rX s = Some X -> is_X (xaxis (rgrid s)) (rny s) X;
  b_Y : forall Y, rY s = Some Y -> is_Y (yaxis (rgrid s)) (rnx s) Y }.

(** the interpolator agrees with the limits and the array *)
Definition zf_ok (s : raster) (z : interp) : Prop :=
  (zx z < length (xh s))%nat /\ (zy z < length (xh s))%nat /\ (zv z < length (ah s))%nat /\
  znx z = rnx s /\ zny z = rny s /\
  zxrev z = Rltb (dcell (xaxis (rgrid s))) 0 /\ zyrev z = Rltb (dcell (yaxis (rgrid s))) 0 /\
  is_centers (xaxis (rgrid s)) (xbuf s (zx z)) /\ is_centers (yaxis (rgrid s)) (xbuf s (zy z)) /\
  abuf s (zv z) = rvalues s /\ (raflt s = true -> zv z = rarr s).
Definition zinv (s : raster) : Prop := forall z, rzf s = Some z -> zf_ok s z.

Lemma grid_dims s : grid_ok (rgrid s) -> (1 <= rnx s)%nat /\ (1 <= rny s)%nat.
Proof. intros [[_ A] [_ B]]. cbn [xaxis yaxis rgrid snd gnx gny] in A, B. lia. Qed.

(** getters *)
Lemma get_x_spec s : base s -> exists p s', get_x s = Ok (p, s') /\ rx s' = Some p /\ base s'
  /\ rgrid s' = rgrid s /\ ah s' = ah s /\ rarr s' = rarr s /\ raflt s' = raflt s /\ rny s' = rny s /\ rnx s' = rnx s
  /\ ry s' = ry s /\ rX s' = rX s /\ rY s' = rY s /\ rzf s' = rzf s /\ rxflt s' = rxflt s /\ ryflt s' = ryflt s
  /\ (exists t, xh s' = xh s ++ t).
Proof.
  intros B. unfold get_x. destruct (rx s) as [p|] eqn:E.
  - exists p, s. split; [reflexivity|]. split; [exact E|]. split; [exact B|]. repeat split; auto. exists []. rewrite app_nil_r. reflexivity.
  - destruct (centers_is (xaxis (rgrid s)) (proj1 (b_ok s B))) as (v & -> & C). cbn [bind].
    set (p := length (xh s)). set (s' := upd_x _ _ _). exists p, s'. split; [reflexivity|]. split; [reflexivity|].
    assert (Gr : rgrid s' = rgrid s) by reflexivity.
    assert (Bp : xbuf s' p = v) by apply nth_snoc.
    split; [|repeat split; auto; exists [v]; reflexivity].
    constructor.
    + exact (b_ok s B).
    + exact (b_arr s B).
    + exact (b_len s B).
    + intros q Hq. cbn in Hq. injection Hq as <-. rewrite Bp. split; [cbn; rewrite app_length; cbn; unfold p; lia|exact C].
    + intros q Hq. destruct (b_y s B q Hq) as [L Q]. split; [cbn; rewrite app_length; lia|].
      unfold xbuf. cbn. rewrite nth_snoc_lt by auto. exact Q.
    + intros a b Ha Hb. cbn in Ha, Hb. injection Ha as <-. destruct (b_y s B b Hb) as [L _]. unfold p. lia.
    + exact (b_X s B).
    + exact (b_Y s B).
Qed.
Lemma get_y_spec s : base s -> exists p s', get_y s = Ok (p, s') /\ ry s' = Some p /\ base s'
  /\ rgrid s' = rgrid s /\ ah s' = ah s /\ rarr s' = rarr s /\ raflt s' = raflt s /\ rny s' = rny s /\ rnx s' = rnx s
  /\ rx s' = rx s /\ rX s' = rX s /\ rY s' = rY s /\ rzf s' = rzf s /\ rxflt s' = rxflt s /\ ryflt s' = ryflt s
  /\ (exists t, xh s' = xh s ++ t).
Proof.
  intros B. unfold get_y. destruct (ry s) as [p|] eqn:E.
  - exists p, s. split; [reflexivity|]. split; [exact E|]. split; [exact B|]. repeat split; auto. exists []. rewrite app_nil_r. reflexivity.
  - destruct (centers_is (yaxis (rgrid s)) (proj2 (b_ok s B))) as (v & -> & C). cbn [bind].
    set (p := length (xh s)). set (s' := upd_y _ _ _). exists p, s'. split; [reflexivity|]. split; [reflexivity|].
    assert (Bp : xbuf s' p = v) by apply nth_snoc.
    split; [|repeat split; auto; exists [v]; reflexivity].
    constructor.
    + exact (b_ok s B).
    + exact (b_arr s B).
    + exact (b_len s B).
    + intros q Hq. destruct (b_x s B q Hq) as [L Q]. split; [cbn; rewrite app_length; lia|].
      unfold xbuf. cbn. rewrite nth_snoc_lt by auto. exact Q.
    + intros q Hq. cbn in Hq. injection Hq as <-. rewrite Bp. split; [cbn; rewrite app_length; cbn; unfold p; lia|exact C].
    + intros a b Ha Hb. cbn in Ha, Hb. injection Hb as <-. destruct (b_x s B a Ha) as [L _]. unfold p. lia.
    + exact (b_X s B).
    + exact (b_Y s B).
Qed.

Lemma get_X_spec s : base s -> exists X s', get_X s = Ok (X, s') /\ is_X (xaxis (rgrid s)) (rny s) X /\ base s'
  /\ rgrid s' = rgrid s /\ ah s' = ah s /\ rarr s' = rarr s /\ raflt s' = raflt s /\ rny s' = rny s /\ rnx s' = rnx s
  /\ rzf s' = rzf s /\ (exists t, xh s' = xh s ++ t).
Proof.
  intros B. unfold get_X. destruct (rX s) as [X|] eqn:E.
  - exists X, s. split; [reflexivity|]. split; [apply (b_X s B); auto|]. split; [exact B|]. repeat split; auto. exists []. rewrite app_nil_r. reflexivity.
  - destruct (get_x_spec s B) as (p & s1 & -> & E1 & B1 & Eg & F1 & F2 & F3 & F4 & F5 & F6 & F7 & F8 & F9 & _ & _ & F10). cbn [bind].
    set (X := repeat _ _). eexists X, _. split; [reflexivity|].
    assert (HX : is_X (xaxis (rgrid s)) (rny s) X).
    { exists (xbuf s1 p). split; [rewrite <- Eg; apply (b_x s1 B1 p E1)|]. unfold X. rewrite F4. reflexivity. }
    split; [exact HX|]. split; [|repeat split; auto].
    destruct B1 as [C1 C2 C3 C4 C5 C6 C7 C8]. constructor; auto.
    intros X' HX'. cbn in HX'. injection HX' as <-. change (rgrid (upd_x s1 (rx s1) (Some X))) with (rgrid s1).
    change (rny (upd_x s1 (rx s1) (Some X))) with (rny s1). rewrite Eg, F4. exact HX.
Qed.
Lemma get_Y_spec s : base s -> exists Y s', get_Y s = Ok (Y, s') /\ is_Y (yaxis (rgrid s)) (rnx s) Y /\ base s'
  /\ rgrid s' = rgrid s /\ ah s' = ah s /\ rarr s' = rarr s /\ raflt s' = raflt s /\ rny s' = rny s /\ rnx s' = rnx s
  /\ rzf s' = rzf s /\ (exists t, xh s' = xh s ++ t).
Proof.
  intros B. unfold get_Y. destruct (rY s) as [Y|] eqn:E.
  - exists Y, s. split; [reflexivity|]. split; [apply (b_Y s B); auto|]. split; [exact B|]. repeat split; auto. exists []. rewrite app_nil_r. reflexivity.
  - destruct (get_y_spec s B) as (p & s1 & -> & E1 & B1 & Eg & F1 & F2 & F3 & F4 & F5 & F6 & F7 & F8 & F9 & _ & _ & F10). cbn [bind].
    set (Y := map _ _). eexists Y, _. split; [reflexivity|].
    assert (HY : is_Y (yaxis (rgrid s)) (rnx s) Y).
    { exists (xbuf s1 p). split; [rewrite <- Eg; apply (b_y s1 B1 p E1)|]. unfold Y. rewrite F5. reflexivity. }
    split; [exact HY|]. split; [|repeat split; auto].
    destruct B1 as [C1 C2 C3 C4 C5 C6 C7 C8]. constructor; auto.
    intros Y' HY'. cbn in HY'. injection HY' as <-. change (rgrid (upd_y s1 (ry s1) (Some Y))) with (rgrid s1).
    change (rnx (upd_y s1 (ry s1) (Some Y))) with (rnx s1). rewrite Eg, F5. exact HY.
Qed.

Theorem base_coherent s : base s -> coords_coherent s.
Proof.
  intros B. split; [|split; [|split]].
  - destruct (get_x_spec s B) as (q & s1 & E & E1 & B1 & Eg & _). exists q, s1. split; [exact E|]. rewrite <- Eg. apply (b_x s1 B1 q E1).
  - destruct (get_y_spec s B) as (q & s1 & E & E1 & B1 & Eg & _). exists q, s1. split; [exact E|]. rewrite <- Eg. apply (b_y s1 B1 q E1).
  - destruct (get_X_spec s B) as (X1 & s1 & E & Q & _). exists X1, s1. auto.
  - destruct (get_Y_spec s B) as (Y1 & s1 & E & Q & _). exists Y1, s1. auto.
Qed.

(** zf_ok survives growth of the heap *)
Lemma zf_ok_grow s s' z t : zf_ok s z -> rgrid s' = rgrid s -> ah s' = ah s -> rarr s' = rarr s -> raflt s' = raflt s ->
  rny s' = rny s -> rnx s' = rnx s -> xh s' = xh s ++ t -> zf_ok s' z.
Proof.
  intros (A1 & A2 & A3 & A4 & A5 & A6 & A7 & A8 & A9 & A10 & A11) Eg Ea Er Ef En Em Ex.
  unfold zf_ok, xbuf, abuf, rvalues, abuf in *. rewrite Eg, Ea, Er, Ef, En, Em, Ex, app_length.
  rewrite !app_nth1 by auto. repeat split; auto; try lia; try apply A8; try apply A9.
Qed.

Lemma get_zf_spec s : base s -> zinv s -> exists z s', get_zf s = Ok (z, s') /\ rzf s' = Some z /\ base s' /\ zinv s'
  /\ rgrid s' = rgrid s /\ rvalues s' = rvalues s /\ raflt s' = raflt s.
Proof.
  intros B Zi. unfold get_zf. destruct (rzf s) as [z|] eqn:E.
  - exists z, s. split; [reflexivity|]. split; [exact E|]. split; [exact B|]. split; [exact Zi|]. auto.
  - destruct (get_x_spec s B) as (px & s1 & -> & E1 & B1 & Eg1 & F1 & F2 & F3 & F4 & F5 & F6 & F7 & F8 & F9 & Fa & Fb & (t1 & Ft1)). cbn [bind].
    destruct (get_y_spec s1 B1) as (py & s2 & -> & E2 & B2 & Eg2 & G1 & G2 & G3 & G4 & G5 & G6 & G7 & G8 & G9 & Ga & Gb & (t2 & Gt2)). cbn [bind].
    assert (Gx : rx s2 = Some px) by congruence.
    assert (Eg : rgrid s2 = rgrid s) by congruence.
    destruct (raflt s2) eqn:Ef.
    + set (z := mkinterp _ _ _ _ _ _ _). exists z, (upd_zf s2 (Some z)).
      split; [reflexivity|]. split; [reflexivity|].
      split; [destruct B2 as [C1 C2 C3 C4 C5 C6 C7 C8]; constructor; auto|]. split; [|split; [exact Eg|split; [|cbn; congruence]]].
      * intros z' Hz'. cbn in Hz'. injection Hz' as <-. 
        assert (Qx := b_x s2 B2 px Gx). assert (Qy := b_y s2 B2 py E2). assert (Ar := b_arr s2 B2).
        unfold zf_ok. cbn [z zx zy zv znx zny zxrev zyrev]. change (rgrid (upd_zf s2 (Some z))) with (rgrid s2). rewrite Eg in *.
        repeat split; auto; try apply Qx; try apply Qy.
      * unfold rvalues, abuf. cbn. rewrite G1, G2, F1, F2. reflexivity.
    + set (z := mkinterp _ _ _ _ _ _ _). set (s3 := upd_ah s2 (ah s2 ++ [rvalues s2])). exists z, (upd_zf s3 (Some z)).
      split; [reflexivity|]. split; [reflexivity|].
      assert (Ar := b_arr s2 B2).
      assert (V : forall zz, rvalues (upd_zf s3 zz) = rvalues s2).
      { intros zz. unfold rvalues, abuf. cbn. apply nth_snoc_lt. exact Ar. }
      split; [destruct B2 as [C1 C2 C3 C4 C5 C6 C7 C8]; constructor; auto|].
      { cbn. rewrite app_length. cbn. lia. }
      { rewrite V. exact C3. }
      split; [|split; [exact Eg|split; [|cbn; congruence]]].
      * intros z' Hz'. cbn in Hz'. injection Hz' as <-. 
        assert (Qx := b_x s2 B2 px Gx). assert (Qy := b_y s2 B2 py E2).
        unfold zf_ok. rewrite V. cbn [z zx zy zv znx zny zxrev zyrev]. change (rgrid (upd_zf s3 (Some z))) with (rgrid s2). rewrite Eg in *.
        repeat split; auto; try apply Qx; try apply Qy.
        -- cbn. rewrite app_length. cbn. lia.
        -- unfold abuf. cbn. rewrite nth_snoc. reflexivity.
        -- cbn. congruence.
      * rewrite V. unfold rvalues, abuf. rewrite G1, G2, F1, F2. reflexivity.
Qed.

(** base without zinv also survives building the interpolator *)
Lemma get_zf_base s : base s -> exists z s', get_zf s = Ok (z, s') /\ base s' /\ rgrid s' = rgrid s.
Proof.
  intros B. destruct (rzf s) as [z|] eqn:E.
  - exists z, s. unfold get_zf. rewrite E. auto.
  - destruct (get_zf_spec s B) as (z & s' & H1 & H2 & H3 & H4 & H5 & _); [intros z; congruence|]. exists z, s'. auto.
Qed.
