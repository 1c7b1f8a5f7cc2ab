(** Property theorems about rasters in files (C93). *)
From Coq Require Import Lia Lra.
From Verif Require Import Base BaseLemmas HelpersModel GridModel GridSpec GridProofs GridProofs2 ImageModel ImageSpec ImageProofs RasterFileModel RasterFileProofs CameraStateProofs P_Image.
Open Scope Z_scope.

(** ** Vocabulary *)
(** at least one cell, and cells of non-zero size *)
Definition file_ok (f : rfile) : Prop := proper (rf_pic f) /\ let '(t0, t1, t3, t5) := rf_transform f in t1 <> 0%R /\ t5 <> 0%R.
(** the grid of the whole file: t0 + t1 * column, t3 + t5 * row *)
Definition fgrid (f : rfile) : grid :=
  let '(t0, t1, t3, t5) := rf_transform f in
  mkgrid (pw (rf_pic f)) (ph (rf_pic f)) (t0, t0 + t1 * IZR (pw (rf_pic f)))%R (t3, t3 + t5 * IZR (ph (rf_pic f)))%R.
(** rows r0 to r1 and columns c0 to c1 are those that overlap the requested limits *)
Definition cropped (g : grid) (xo yo : option (R * R)) (r0 r1 c0 c1 : Z) : Prop :=
  0 <= r0 <= r1 /\ r1 < gny g /\ 0 <= c0 <= c1 /\ c1 < gnx g
  /\ (forall c, c0 <= c <= c1 <-> cell_hit (request xo (xaxis g)) (xaxis g) c) /\ (forall r, r0 <= r <= r1 <-> cell_hit (request yo (yaxis g)) (yaxis g) r).
(** n cells replace k cells of size c: as few as are not larger than |d|; none or zero: the same *)
Definition resized (d : option R) (c : R) (k n : Z) : Prop :=
  match d with
  | Some d => (d = 0%R /\ n = k) \/ (d <> 0%R /\ 1 <= n /\ (IZR k * Rabs c <= IZR n * Rabs d)%R /\ (IZR (n - 1) * Rabs d < IZR k * Rabs c)%R)
  | None => n = k
  end.
Definition native (d : option R) : Prop := d = None \/ d = Some 0%R.
(** the value that means missing: the one given, or the no-data value of a float raster unless it is zero (see raster_nodata_zero_refuted) *)
Definition missing (f : rfile) (nan : option R) (v : R) : Prop :=
  nan = Some v \/ nan = None /\ rf_float f = true /\ rf_nodata f = Some v /\ v <> 0%R.
(** [b] is cell [a] of the file with missing values made nan *)
Definition becomes (f : rfile) (nan : option R) (a b : cell) : Prop :=
  match a with None => b = None | Some v => (missing f nan v /\ b = None) \/ (~ missing f nan v /\ b = Some v) end.

Lemma fgrid_ok f : file_ok f -> grid_ok (fgrid f) /\ file_grid f = Ok (fgrid f).
Proof.
  intros [(W & H & _) T]. unfold fgrid, file_grid. destruct (rf_transform f) as [[[t0 t1] t3] t5]. destruct T as [T1 T5].
  assert (EX : (t0 + t1 * 0)%R <> (t0 + t1 * IZR (pw (rf_pic f)))%R). { intros E. apply T1. apply (IZR_lt 0) in W. nra. }
  assert (EY : (t3 + t5 * 0)%R <> (t3 + t5 * IZR (ph (rf_pic f)))%R). { intros E. apply T5. apply (IZR_lt 0) in H. nra. }
  unfold parse_limits. destruct (Reqb_spec (t0 + t1 * 0) (t0 + t1 * IZR (pw (rf_pic f)))); [contradiction|]. destruct (Reqb_spec (t3 + t5 * 0) (t3 + t5 * IZR (ph (rf_pic f)))); [contradiction|]. cbn [bind].
  rewrite !Rmult_0_r, !Rplus_0_r in *. split; [|reflexivity]. split; split; cbn; auto; lia.
Qed.
Lemma fgrid_d f : file_ok f -> gd (fgrid f) = let '(t0, t1, t3, t5) := rf_transform f in (t1, t5).
Proof.
  intros [(W & H & _) T]. unfold fgrid, gd, dcell. destruct (rf_transform f) as [[[t0 t1] t3] t5]. cbn. apply (IZR_lt 0) in W, H. f_equal; field; lra.
Qed.
Definition cellsize (f : rfile) : R * R := let '(t0, t1, t3, t5) := rf_transform f in (t1, t5).

Lemma buffer_resized d c k : c <> 0%R -> 1 <= k -> resized d c k (buffer k c d) /\ 1 <= buffer k c d.
Proof.
  intros C K. unfold resized, buffer. destruct d as [d|]; [|split; [reflexivity|exact K]]. destruct (Reqb_spec d 0) as [->|N]; [split; [left; auto|exact K]|].
  assert (KP : (1 <= IZR k)%R) by (apply (IZR_le 1); exact K). assert (DP := Rabs_pos_lt d N). assert (CP := Rabs_pos_lt c C).
  assert (E : (Rabs (IZR k * c / d) * Rabs d = IZR k * Rabs c)%R).
  { rewrite <- Rabs_mult. replace (IZR k * c / d * d)%R with (IZR k * c)%R by (field; exact N). rewrite Rabs_mult, (Rabs_pos_eq (IZR k)) by lra. reflexivity. }
  assert (P : (0 < Rabs (IZR k * c / d))%R) by nra.
  pose proof (Rceil_ub (Rabs (IZR k * c / d))) as U. pose proof (Rceil_lb (Rabs (IZR k * c / d))) as L.
  assert (G1 : 1 <= Rceil (Rabs (IZR k * c / d))). { assert (0 < Rceil (Rabs (IZR k * c / d))); [apply lt_IZR; lra|lia]. }
  split; [|exact G1]. right. split; [exact N|]. split; [exact G1|]. rewrite minus_IZR. split; nra.
Qed.

Lemma edge_ne a i j : axis_ok a -> i < j -> edge a i <> edge a j.
Proof. intros A H E. apply at_cells_inj in E; [|exact A]. apply eq_IZR in E. lia. Qed.

(** what open returns *)
Lemma open_spec f d xo yo nan : file_ok f -> let g := fgrid f in
  (~ (overlaps (request xo (xaxis g)) (xaxis g) /\ overlaps (request yo (yaxis g)) (yaxis g)) -> open f d xo yo nan = Err ValueError) /\
  (overlaps (request xo (xaxis g)) (xaxis g) /\ overlaps (request yo (yaxis g)) (yaxis g) -> exists r0 r1 c0 c1 mv,
    cropped g xo yo r0 r1 c0 c1 /\ (forall v, becomes f nan v (blank1 mv v))
    /\ open f d xo yo nan = Ok (mkfraster None (edge (xaxis g) c0, edge (xaxis g) (c1 + 1)) (edge (yaxis g) r0, edge (yaxis g) (r1 + 1)) mv
         (mkkwargs c0 r0 (c1 - c0 + 1) (r1 - r0 + 1) (buffer (c1 - c0 + 1) (fst (cellsize f)) d) (buffer (r1 - r0 + 1) (snd (cellsize f)) d)))).
Proof.
  intros FO g. destruct (fgrid_ok f FO) as [GO FG]. fold g in GO. destruct (crop_extent_spec g xo yo GO) as [NO OV].
  unfold open. rewrite FG. cbn [bind]. fold g. split; [intros N; rewrite (NO N); reflexivity|]. intros O. destruct (OV O) as (r0 & r1 & c0 & c1 & E & R0 & R1 & C0 & C1 & HC & HR).
  exists r0, r1, c0, c1. rewrite E. cbn [bind fst snd]. assert (GD : gd g = cellsize f) by exact (fgrid_d f FO). rewrite GD.
  assert (PX : parse_limits [edge (xaxis g) c0; edge (xaxis g) (c1 + 1)] = Ok (edge (xaxis g) c0, edge (xaxis g) (c1 + 1))).
  { unfold parse_limits. destruct (Reqb_spec (edge (xaxis g) c0) (edge (xaxis g) (c1 + 1))) as [Q|Q]; [|reflexivity]. exfalso. revert Q. apply edge_ne; [exact (proj1 GO)|lia]. }
  assert (PY : parse_limits [edge (yaxis g) r0; edge (yaxis g) (r1 + 1)] = Ok (edge (yaxis g) r0, edge (yaxis g) (r1 + 1))).
  { unfold parse_limits. destruct (Reqb_spec (edge (yaxis g) r0) (edge (yaxis g) (r1 + 1))) as [Q|Q]; [|reflexivity]. exfalso. revert Q. apply edge_ne; [exact (proj2 GO)|lia]. }
  rewrite PX, PY. cbn [bind]. eexists. split; [exact (conj R0 (conj R1 (conj C0 (conj C1 (conj HC HR)))))|]. split; [|reflexivity].
  intros [v|]; [|reflexivity]. unfold becomes, blank1, missing. destruct nan as [m|].
  - destruct (Reqb_spec v m) as [->|N]; [left; auto|right]. split; [|reflexivity]. intros [Q|(Q & _)]; congruence.
  - destruct (rf_nodata f) as [n|]; [|right; split; [intros [Q|(_ & _ & Q & _)]; discriminate|reflexivity]].
    destruct (rf_float f); cbn [andb].
    + destruct (Reqb_spec n 0) as [->|NZ]; cbn [negb].
      * right. split; [|reflexivity]. intros [Q|(_ & _ & Q & NN)]; [discriminate|]. apply NN. congruence.
      * destruct (Reqb_spec v n) as [->|NV]; [left; split; [right; auto|reflexivity]|right; split; [|reflexivity]]. intros [Q|(_ & _ & Q & _)]; congruence.
    + right. split; [|reflexivity]. intros [Q|(_ & Q & _)]; congruence.
Qed.

Section Opened.
  Variable rescale : pic cell -> Z * Z -> pic cell.
  Hypothesis GR : good_rescale rescale.
  Variables (f : rfile) (xl yl : R * R) (mv : option R) (x y wx wy bx by_ : Z).
  Hypothesis PF : proper (rf_pic f).
  Hypothesis BI : box_inside (pw (rf_pic f)) (ph (rf_pic f)) (x, y, x + wx, y + wy).
  Hypotheses (HBX : 0 < bx) (HBY : 0 < by_).
  Definition st (a : option (pic cell)) : fraster := mkfraster a xl yl mv (mkkwargs x y wx wy bx by_).
  Variables (w : pic cell).
  Hypothesis HW : tile_of (rf_pic f) (x, y, x + wx, y + wy) w.
  Let full := blank mv (rescale w (bx, by_)).

  Lemma full_ok : proper full /\ psize full = (bx, by_).
  Proof. destruct HW as (P & W & H & _). destruct (proj2 GR w bx by_ P HBX HBY) as [P1 P2]. split; [apply blank_proper; exact P1|]. unfold full, blank, psize in *. cbn [pw ph]. exact P2. Qed.
  Lemma gdal_full_window : gdal_read rescale (rf_pic f) (Some (x, y, wx, wy)) (Some (bx, by_)) = Ok (rescale w (bx, by_)).
  Proof. destruct (gdal_window rescale GR (rf_pic f) PF x y wx wy bx by_ BI HBX HBY) as (w' & T & E & _). rewrite E, (tile_unique _ _ _ _ T HW). reflexivity. Qed.
  Lemma fread_none a cache : a = None \/ a = Some full -> fread rescale f None cache (st a) = Ok (full, st (if cache then Some full else a)).
  Proof.
    intros [->| ->]; unfold fread, st; cbn [f_array f_kw f_nan f_xlim f_ylim bind xoff yoff win_x win_y buf_x buf_y].
    - rewrite gdal_full_window. cbn [bind]. destruct cache; reflexivity.
    - destruct cache; reflexivity.
  Qed.
  Lemma farray_st a : a = None \/ a = Some full -> farray rescale f (st a) = Ok (full, st (Some full)).
  Proof. intros [->| ->]; unfold farray; cbn [f_array st]; [|reflexivity]. fold (st None). rewrite (fread_none None true (or_introl eq_refl)). reflexivity. Qed.
  Lemma in_bounds b : box_inside bx by_ b -> forall a, a = None \/ a = Some full ->
    (let '(l, t, rt, bt) := b in let '(ww, hh) := fsize (st a) in ((0 <=? l) && (l <=? ww) && (0 <=? t) && (t <=? hh) && (0 <=? rt) && (rt <=? ww) && (0 <=? bt) && (bt <=? hh))%bool) = true.
  Proof.
    destruct b as [[[l t] rt] bt]. intros (B1 & B2 & B3 & B4) a Ha.
    assert (FS : fsize (st a) = (bx, by_)) by (destruct Ha as [->| ->]; unfold fsize, st; cbn [f_array f_kw buf_x buf_y]; [reflexivity|exact (proj2 full_ok)]).
    rewrite FS. repeat (apply andb_true_iff; split); apply Z.leb_le; lia.
  Qed.
  Lemma fread_cached b cache : box_inside bx by_ b -> exists t, fread rescale f (Some b) cache (st (Some full)) = Ok (t, st (Some full)) /\ tile_of full b t.
  Proof.
    intros B. pose proof (in_bounds b B (Some full) (or_intror eq_refl)) as IB. exists (subset b full). split.
    - destruct b as [[[l t] rt] bt]. unfold fread. destruct (fsize (st (Some full))) as [ww hh]. rewrite IB. cbn [bind f_array st]. destruct cache; reflexivity.
    - destruct full_ok as [P S]. apply subset_tile; [exact P|]. change (pw full) with (fst (psize full)). change (ph full) with (snd (psize full)). rewrite S. exact B.
  Qed.
  Lemma native_region b : (bx, by_) = (wx, wy) -> box_inside bx by_ b -> exists t, tile_of full b t /\ forall cache, fread rescale f (Some b) cache (st None) = (if cache then Ok (subset b t, st (Some t)) else Ok (t, st None)).
  Proof.
    intros EN B. pose proof (in_bounds b B None (or_introl eq_refl)) as IB. destruct b as [[[l t] rt] bt]. injection EN as E1 E2. destruct B as (B1 & B2 & B3 & B4). destruct BI as (I1 & I2 & I3 & I4).
    assert (BB : box_inside (pw (rf_pic f)) (ph (rf_pic f)) (x + l, y + t, (x + l) + (rt - l), (y + t) + (bt - t))) by (unfold box_inside; lia).
    destruct (gdal_window rescale GR (rf_pic f) PF (x + l) (y + t) (rt - l) (bt - t) (rt - l) (bt - t) BB) as (u & TU & EU & NU & _); [lia|lia|].
    rewrite (NU eq_refl) in EU. exists (blank mv u). split.
    - unfold full. apply blank_tile. assert (RW : rescale w (bx, by_) = w).
      { destruct HW as (PW & WW & HH & _). rewrite <- (proj1 GR w PW) at 2. f_equal. unfold psize. rewrite WW, HH. f_equal; lia. }
      rewrite RW. apply (tile_tile (rf_pic f) x y wx wy (l, t, rt, bt) w u HW); [unfold box_inside; lia|]. cbv beta iota.
      replace (x + l + (rt - l)) with (x + rt) in TU by lia. replace (y + t + (bt - t)) with (y + bt) in TU by lia. exact TU.
    - intros cache. unfold fread. destruct (fsize (st None)) as [ww hh]. rewrite IB. cbn [bind f_array st f_kw f_nan xoff yoff win_x win_y buf_x buf_y].
      assert (PX : forall v, (IZR v * (IZR wx / IZR bx) + IZR x)%R = IZR (x + v)). { intros v. rewrite E1, plus_IZR. field. apply not_0_IZR. lia. }
      assert (PY : forall v, (IZR v * (IZR wy / IZR by_) + IZR y)%R = IZR (y + v)). { intros v. rewrite E2, plus_IZR. field. apply not_0_IZR. lia. }
      rewrite !PX, !PY, <- !minus_IZR, !Rtrunc_IZR. replace (x + rt - (x + l)) with (rt - l) by lia. replace (y + bt - (y + t)) with (bt - t) by lia.
      rewrite EU. cbn [bind]. destruct cache; reflexivity.
  Qed.
End Opened.

(** no read of a box with caching while nothing is cached (see raster_read_box_first_refuted) *)
Fixpoint safe (rescale : pic cell -> Z * Z -> pic cell) (f : rfile) (r : fraster) (os : list fop) : Prop :=
  match os with
  | [] => True
  | o :: os => (match o with FRead (Some _) true => f_array r <> None | _ => True end) /\ safe rescale f (fstep rescale f o r) os
  end.
(** the picture that reading gives: the window of the file, resampled to nx * ny, missing values nan *)
Definition contents (rescale : pic cell -> Z * Z -> pic cell) (f : rfile) (nan : option R) (r0 r1 c0 c1 nx ny : Z) (full : pic cell) : Prop :=
  proper full /\ psize full = (nx, ny) /\
  exists w, tile_of (rf_pic f) (c0, r0, c1 + 1, r1 + 1) w
    /\ (forall i j, 0 <= i < ny -> 0 <= j < nx -> exists a b, pixel (rescale w (nx, ny)) i j = Some a /\ pixel full i j = Some b /\ becomes f nan a b)
    /\ ((nx, ny) = (c1 - c0 + 1, r1 - r0 + 1) -> rescale w (nx, ny) = w).

Lemma frun_st rescale f xl yl mv x y wx wy bx by_ w (GR : good_rescale rescale) (PF : proper (rf_pic f)) (BI : box_inside (pw (rf_pic f)) (ph (rf_pic f)) (x, y, x + wx, y + wy)) (HBX : 0 < bx) (HBY : 0 < by_)
    (HW : tile_of (rf_pic f) (x, y, x + wx, y + wy) w) : let full := blank mv (rescale w (bx, by_)) in
  forall os a, a = None \/ a = Some full -> safe rescale f (st xl yl mv x y wx wy bx by_ a) os ->
    exists a', (a' = None \/ a' = Some full) /\ frun rescale f os (st xl yl mv x y wx wy bx by_ a) = st xl yl mv x y wx wy bx by_ a'.
Proof.
  intros full os. induction os as [|o os IH]; intros a Ha S; [exists a; split; [exact Ha|reflexivity]|].
  destruct S as [S1 S2]. unfold frun. cbn [fold_left]. fold (frun rescale f os).
  assert (NX : exists a1, (a1 = None \/ a1 = Some full) /\ fstep rescale f o (st xl yl mv x y wx wy bx by_ a) = st xl yl mv x y wx wy bx by_ a1).
  { destruct o as [[b|] cache| |]; cbn [fstep].
    - destruct Ha as [->| ->].
      + destruct cache; [exfalso; apply S1; reflexivity|]. exists None. split; [left; reflexivity|]. unfold fread. destruct b as [[[l t] rt] bt]. destruct (fsize _) as [ww hh].
        destruct (_ && _)%bool; cbn [bind]; [|reflexivity]. cbn [f_array st]. match goal with |- context [gdal_read ?A ?B ?C ?D] => destruct (gdal_read A B C D) end; reflexivity.
      + exists (Some full). split; [right; reflexivity|]. unfold fread. destruct b as [[[l t] rt] bt]. destruct (fsize _) as [ww hh].
        destruct (_ && _)%bool; cbn [bind]; [|reflexivity]. cbn [f_array st bind]. destruct cache; reflexivity.
    - rewrite (fread_none rescale GR f xl yl mv x y wx wy bx by_ PF BI HBX HBY w HW a cache Ha). exists (if cache then Some full else a). split; [destruct cache; [right; reflexivity|exact Ha]|reflexivity].
    - rewrite (farray_st rescale GR f xl yl mv x y wx wy bx by_ PF BI HBX HBY w HW a Ha). exists (Some full). split; [right; reflexivity|reflexivity].
    - exists None. split; [left; reflexivity|reflexivity]. }
  destruct NX as (a1 & Ha1 & E1). rewrite E1 in *. exact (IH a1 Ha1 S2).
Qed.

Lemma contents_full rescale f nan mv r0 r1 c0 c1 nx ny w : good_rescale rescale -> (forall v, becomes f nan v (blank1 mv v)) -> 0 < nx -> 0 < ny -> tile_of (rf_pic f) (c0, r0, c1 + 1, r1 + 1) w ->
  contents rescale f nan r0 r1 c0 c1 nx ny (blank mv (rescale w (nx, ny))).
Proof.
  intros GR HB HX HY HW. destruct HW as (P & W & H & Q). destruct (proj2 GR w nx ny P HX HY) as [P1 P2]. split; [apply blank_proper; exact P1|]. split; [exact P2|].
  exists w. split; [exact (conj P (conj W (conj H Q)))|]. split.
  - intros i j Hi Hj. destruct P1 as (_ & _ & L & RL). unfold psize in P2. injection P2 as PW PH.
    assert (Hp : exists v, pixel (rescale w (nx, ny)) i j = Some v).
    { unfold pixel. destruct (nth_error (rows (rescale w (nx, ny))) (Z.to_nat i)) as [row|] eqn:E; [|apply nth_error_None in E; lia].
      destruct (nth_error row (Z.to_nat j)) as [v|] eqn:E2; [exists v; reflexivity|]. apply nth_error_None in E2. apply nth_error_In in E. specialize (RL _ E). lia. }
    destruct Hp as [v Hv]. exists v, (blank1 mv v). split; [exact Hv|]. split; [rewrite blank_pixel, Hv; reflexivity|exact (HB v)].
  - intros E. rewrite E. rewrite <- (proj1 GR w P) at 2. f_equal. unfold psize. rewrite W, H. f_equal; lia.
Qed.

(** Opening a file: the limits are the outer edges of the cells that overlap the requested limits; with a target cell size the cells are resized, otherwise kept; the size is known before anything is read.  After any safe history of reads, uses of the array and clearings of the cache, reading gives the same picture, of that size; reading a box gives that part of it (if nothing is cached: provided that cells are not resized). *)
Theorem raster_open_read : forall f d xo yo nan, file_ok f -> let g := fgrid f in
  (~ (overlaps (request xo (xaxis g)) (xaxis g) /\ overlaps (request yo (yaxis g)) (yaxis g)) -> open f d xo yo nan = Err ValueError) /\
  (overlaps (request xo (xaxis g)) (xaxis g) /\ overlaps (request yo (yaxis g)) (yaxis g) ->
   exists r r0 r1 c0 c1 nx ny, open f d xo yo nan = Ok r /\ cropped g xo yo r0 r1 c0 c1
    /\ resized d (fst (cellsize f)) (c1 - c0 + 1) nx /\ resized d (snd (cellsize f)) (r1 - r0 + 1) ny
    /\ forall rescale, good_rescale rescale -> exists full, contents rescale f nan r0 r1 c0 c1 nx ny full
    /\ forall os, safe rescale f r os -> let s := frun rescale f os r in
       f_xlim s = (edge (xaxis g) c0, edge (xaxis g) (c1 + 1)) /\ f_ylim s = (edge (yaxis g) r0, edge (yaxis g) (r1 + 1)) /\ fsize s = (nx, ny)
       /\ (forall cache, exists s', fread rescale f None cache s = Ok (full, s') /\ (cache = true -> f_array s' = Some full))
       /\ (exists s', farray rescale f s = Ok (full, s') /\ f_array s' = Some full)
       /\ forall b, box_inside nx ny b ->
            (f_array s <> None -> forall cache, exists t, fread rescale f (Some b) cache s = Ok (t, s) /\ tile_of full b t)
            /\ (native d -> exists t, fread rescale f (Some b) false s = Ok (t, s) /\ tile_of full b t)).
Proof.
  intros f d xo yo nan FO g. destruct (open_spec f d xo yo nan FO) as [NO OV]. fold g in NO, OV. split; [exact NO|]. intros O. destruct (OV O) as (r0 & r1 & c0 & c1 & mv & HC & HB & EO).
  assert (CN : fst (cellsize f) <> 0%R /\ snd (cellsize f) <> 0%R). { destruct FO as [_ T]. unfold cellsize. destruct (rf_transform f) as [[[t0 t1] t3] t5]. exact T. }
  assert (HC0 := HC). destruct HC0 as (R0 & R1 & C0 & C1 & _).
  assert (GN : gnx g = pw (rf_pic f) /\ gny g = ph (rf_pic f)). { unfold g, fgrid. destruct (rf_transform f) as [[[t0 t1] t3] t5]. split; reflexivity. }
  destruct GN as [GX GY]. rewrite GX in C1. rewrite GY in R1.
  destruct (buffer_resized d (fst (cellsize f)) (c1 - c0 + 1) (proj1 CN)) as [BX BX1]; [lia|]. destruct (buffer_resized d (snd (cellsize f)) (r1 - r0 + 1) (proj2 CN)) as [BY BY1]; [lia|].
  set (nx := buffer (c1 - c0 + 1) (fst (cellsize f)) d) in *. set (ny := buffer (r1 - r0 + 1) (snd (cellsize f)) d) in *.
  exists (st (edge (xaxis g) c0, edge (xaxis g) (c1 + 1)) (edge (yaxis g) r0, edge (yaxis g) (r1 + 1)) mv c0 r0 (c1 - c0 + 1) (r1 - r0 + 1) nx ny None), r0, r1, c0, c1, nx, ny.
  split; [exact EO|]. split; [exact HC|]. split; [exact BX|]. split; [exact BY|]. intros rescale GR.
  assert (PF : proper (rf_pic f)) by exact (proj1 FO).
  assert (BI : box_inside (pw (rf_pic f)) (ph (rf_pic f)) (c0, r0, c0 + (c1 - c0 + 1), r0 + (r1 - r0 + 1))) by (unfold box_inside; lia).
  assert (HX : 0 < nx) by lia. assert (HY : 0 < ny) by lia.
  pose proof (subset_tile (rf_pic f) _ PF BI) as HW. set (w := subset (c0, r0, c0 + (c1 - c0 + 1), r0 + (r1 - r0 + 1)) (rf_pic f)) in *.
  set (full := blank mv (rescale w (nx, ny))). exists full. split.
  { apply contents_full; auto. replace (c1 + 1) with (c0 + (c1 - c0 + 1)) by lia. replace (r1 + 1) with (r0 + (r1 - r0 + 1)) by lia. exact HW. }
  intros os S s. destruct (frun_st rescale f _ _ mv c0 r0 (c1 - c0 + 1) (r1 - r0 + 1) nx ny w GR PF BI HX HY HW os None (or_introl eq_refl) S) as (a & Ha & ES). fold s in ES. fold full in Ha. rewrite ES. clear ES.
  split; [reflexivity|]. split; [reflexivity|]. split.
  { destruct Ha as [->| ->]; [reflexivity|]. unfold fsize. cbn [f_array st]. exact (proj2 (full_ok rescale GR f mv c0 r0 (c1 - c0 + 1) (r1 - r0 + 1) nx ny HX HY w HW)). }
  split; [intros cache; rewrite (fread_none rescale GR f _ _ mv c0 r0 _ _ nx ny PF BI HX HY w HW a cache Ha); eexists; split; [reflexivity|intros ->; reflexivity]|].
  split; [rewrite (farray_st rescale GR f _ _ mv c0 r0 _ _ nx ny PF BI HX HY w HW a Ha); eexists; split; [reflexivity|reflexivity]|].
  intros b B. split.
  - intros NN cache. destruct Ha as [->| ->]; [exfalso; apply NN; reflexivity|]. exact (fread_cached rescale GR f _ _ mv c0 r0 _ _ nx ny HX HY w HW b cache B).
  - intros N. destruct Ha as [->| ->]; [|exact (fread_cached rescale GR f _ _ mv c0 r0 _ _ nx ny HX HY w HW b false B)].
    destruct (native_region rescale GR f (edge (xaxis g) c0, edge (xaxis g) (c1 + 1)) (edge (yaxis g) r0, edge (yaxis g) (r1 + 1)) mv c0 r0 (c1 - c0 + 1) (r1 - r0 + 1) nx ny PF BI HX HY w HW b) as (t & T & E); [|exact B|exists t; split; [exact (E false)|exact T]].
    unfold nx, ny, buffer. destruct N as [->| ->]; [reflexivity|]. destruct (Reqb_spec 0 0); [reflexivity|congruence].
Qed.
Print Assumptions raster_open_read.

(** A box out of bounds is refused, whatever the raster. *)
Theorem raster_read_box_refused : forall rescale f r l t rt b cache, let '(w, h) := fsize r in
  ~ (0 <= l <= w /\ 0 <= rt <= w /\ 0 <= t <= h /\ 0 <= b <= h) -> fread rescale f (Some (l, t, rt, b)) cache r = Err ValueError.
Proof.
  intros. unfold fread. destruct (fsize r) as [w h]. intros N. destruct (_ && _)%bool eqn:E; [|reflexivity]. exfalso. apply N. repeat (apply andb_true_iff in E; destruct E as [E ?]). rewrite !Z.leb_le in *. lia.
Qed.
Print Assumptions raster_read_box_refused.

(** Finding: reading a box with caching (the default) while nothing is cached caches the box as if it was the whole raster, of which the limits stay, and returns the part of it that the box denotes: too small, unless the box starts at the top left. *)
Theorem raster_read_box_first_refuted : forall rescale f d xo yo nan r l t rt b, file_ok f -> good_rescale rescale -> native d -> open f d xo yo nan = Ok r -> box_inside (fst (fsize r)) (snd (fsize r)) (l, t, rt, b) ->
  exists region out r', fread rescale f (Some (l, t, rt, b)) false r = Ok (region, r)
    /\ fread rescale f (Some (l, t, rt, b)) true r = Ok (out, r') /\ f_array r' = Some region /\ fsize r' = (rt - l, b - t) /\ f_xlim r' = f_xlim r /\ f_ylim r' = f_ylim r
    /\ fread rescale f None true r' = Ok (region, r') /\ psize out = (Z.max 0 (rt - l - l), Z.max 0 (b - t - t)).
Proof.
  intros rescale f d xo yo nan r l t rt b FO GR N EO B. destruct (open_spec f d xo yo nan FO) as [NO OV]. cbv zeta in NO, OV. set (g := fgrid f) in *.
  assert (O : overlaps (request xo (xaxis g)) (xaxis g) /\ overlaps (request yo (yaxis g)) (yaxis g)).
  { destruct (Classical_Prop.classic (overlaps (request xo (xaxis g)) (xaxis g) /\ overlaps (request yo (yaxis g)) (yaxis g))) as [O|O]; [exact O|]. rewrite (NO O) in EO. discriminate. }
  destruct (OV O) as (r0 & r1 & c0 & c1 & mv & HC & HB & E). rewrite EO in E. injection E as E.
  destruct HC as (R0 & R1 & C0 & C1 & _).
  assert (GN : gnx g = pw (rf_pic f) /\ gny g = ph (rf_pic f)). { unfold g, fgrid. destruct (rf_transform f) as [[[t0 t1] t3] t5]. split; reflexivity. }
  destruct GN as [GX GY]. rewrite GX in C1. rewrite GY in R1.
  assert (BE : forall k c, buffer k c d = k). { intros k c. unfold buffer. destruct N as [->| ->]; [reflexivity|]. destruct (Reqb_spec 0 0); [reflexivity|congruence]. }
  rewrite !BE in E. set (xl := (edge (xaxis g) c0, edge (xaxis g) (c1 + 1))) in *. set (yl := (edge (yaxis g) r0, edge (yaxis g) (r1 + 1))) in *.
  set (wx := c1 - c0 + 1) in *. set (wy := r1 - r0 + 1) in *. change (r = st xl yl mv c0 r0 wx wy wx wy None) in E. subst r. cbn [fsize st f_array f_kw buf_x buf_y fst snd] in B.
  assert (PF : proper (rf_pic f)) by exact (proj1 FO).
  assert (BI : box_inside (pw (rf_pic f)) (ph (rf_pic f)) (c0, r0, c0 + wx, r0 + wy)) by (unfold box_inside; lia).
  assert (HX : 0 < wx) by lia. assert (HY : 0 < wy) by lia.
  pose proof (subset_tile (rf_pic f) _ PF BI) as HW. set (w := subset (c0, r0, c0 + wx, r0 + wy) (rf_pic f)) in *.
  destruct (native_region rescale GR f xl yl mv c0 r0 wx wy wx wy PF BI HX HY w HW (l, t, rt, b) eq_refl B) as (region & (TP & TW & TH & _) & EF).
  exists region, (subset (l, t, rt, b) region), (st xl yl mv c0 r0 wx wy wx wy (Some region)). split; [exact (EF false)|]. split; [exact (EF true)|]. split; [reflexivity|].
  split; [unfold fsize, psize; cbn [f_array st]; rewrite TW, TH; reflexivity|]. split; [reflexivity|]. split; [reflexivity|]. split; [reflexivity|].
  unfold subset, psize. cbn [pw ph]. rewrite TW, TH. unfold slice_len, slice_bound. destruct B as (B1 & B2 & B3 & B4). f_equal; repeat match goal with |- context [?a <? 0] => destruct (Z.ltb_spec a 0) end; lia.
Qed.
Print Assumptions raster_read_box_first_refuted.

(** Finding: with a target cell size, an uncached read of a box that covers less than one cell of the file in x fails. *)
Theorem raster_read_finer_refuted : forall rescale f r l t rt b, f_array r = None -> box_inside (fst (fsize r)) (snd (fsize r)) (l, t, rt, b) ->
  (rt - l) * win_x (f_kw r) < buf_x (f_kw r) -> 0 <= win_x (f_kw r) -> exists e, fread rescale f (Some (l, t, rt, b)) false r = Err e.
Proof.
  intros rescale f r l t rt b EA (B1 & B2 & B3 & B4) S WP. unfold fread. destruct (fsize r) as [w h] eqn:FS. cbn [fst snd] in *.
  destruct (_ && _)%bool; cbn [bind]; [|eexists; reflexivity]. rewrite EA. cbn [xoff yoff win_x win_y buf_x buf_y].
  assert (BP : (0 < IZR (buf_x (f_kw r)))%R) by (apply (IZR_lt 0); nia).
  replace (Rtrunc (IZR rt * (IZR (win_x (f_kw r)) / IZR (buf_x (f_kw r))) + IZR (xoff (f_kw r)) - (IZR l * (IZR (win_x (f_kw r)) / IZR (buf_x (f_kw r))) + IZR (xoff (f_kw r))))) with 0.
  - unfold gdal_read. rewrite Z.leb_refl, !orb_true_r. cbn [orb bind]. eexists; reflexivity.
  - symmetry. set (v := (_ - _)%R). assert (V : (v = IZR ((rt - l) * win_x (f_kw r)) / IZR (buf_x (f_kw r)))%R) by (unfold v; rewrite mult_IZR, minus_IZR; field; lra).
    assert (P : (0 <= IZR ((rt - l) * win_x (f_kw r)))%R) by (apply (IZR_le 0); nia). apply IZR_lt in S.
    assert (V0 : (0 <= v)%R) by (rewrite V; apply Rmult_le_pos; [exact P|left; apply Rinv_0_lt_compat; exact BP]).
    assert (V1 : (v < 1)%R). { rewrite V. apply Rmult_lt_reg_r with (IZR (buf_x (f_kw r))); [exact BP|]. unfold Rdiv. rewrite Rmult_assoc, Rinv_l by lra. lra. }
    unfold Rtrunc. destruct (Rltb_spec v 0); [lra|]. apply Rfloor_imp. lra.
Qed.
Print Assumptions raster_read_finer_refuted.

(** Finding: a no-data value of zero is not replaced by nan, although the raster is float: the cells are those of the file. *)
Theorem raster_nodata_zero_refuted : forall rescale f xo yo r a r', file_ok f -> good_rescale rescale -> rf_float f = true -> rf_nodata f = Some 0%R ->
  open f None xo yo None = Ok r -> fread rescale f None true r = Ok (a, r') ->
  exists r0 c0, forall i j, 0 <= i < ph a -> 0 <= j < pw a -> pixel a i j = pixel (rf_pic f) (r0 + i) (c0 + j).
Proof.
  intros rescale f xo yo r a r' FO GR HF HN EO ER. destruct (raster_open_read f None xo yo None FO) as [NO OV]. cbv zeta in NO, OV. set (g := fgrid f) in *.
  assert (O : overlaps (request xo (xaxis g)) (xaxis g) /\ overlaps (request yo (yaxis g)) (yaxis g)).
  { destruct (Classical_Prop.classic (overlaps (request xo (xaxis g)) (xaxis g) /\ overlaps (request yo (yaxis g)) (yaxis g))) as [O|O]; [exact O|]. rewrite (NO O) in EO. discriminate. }
  destruct (OV O) as (r2 & r0 & r1 & c0 & c1 & nx & ny & E & HC & BX & BY & HR). rewrite EO in E. injection E as <-.
  destruct (HR rescale GR) as (full & (PF & PS & w & TW & HB & HNat) & HO). specialize (HO [] I). cbv zeta in HO. cbn [frun fold_left] in HO. destruct HO as (_ & _ & _ & HR1 & _).
  destruct (HR1 true) as (s' & E' & _). unfold frun in E'. cbn [fold_left] in E'. rewrite ER in E'. injection E' as -> ->. exists r0, c0. intros i j Hi Hj. unfold psize in PS. injection PS as PW PH.
  destruct (HB i j ltac:(lia) ltac:(lia)) as (u & v & Eu & Ev & BC). cbn in BX, BY. rewrite HNat in Eu by congruence. destruct TW as (_ & TW & TH & TQ). destruct (TQ i j ltac:(lia) ltac:(lia)) as [Q _].
  rewrite Ev, <- Q, Eu. f_equal. destruct u as [u|]; cbn in BC; [|exact BC]. destruct BC as [[M _]|[_ ->]]; [|reflexivity]. exfalso. destruct M as [M|(_ & _ & M & NZ)]; [discriminate|]. rewrite HN in M. congruence.
Qed.
Print Assumptions raster_nodata_zero_refuted.

(** Finding: Grid.read sets the limits of the crop but keeps the size of the file, whatever the target cell size: the cells of the grid are smaller than those of the file if the crop leaves any out. *)
Theorem grid_read_refuted : forall f d xo yo, file_ok f -> let g := fgrid f in
  (overlaps (request xo (xaxis g)) (xaxis g) /\ overlaps (request yo (yaxis g)) (yaxis g)) ->
  exists g' n r0 r1 c0 c1, grid_read f d xo yo = Ok (g', n) /\ cropped g xo yo r0 r1 c0 c1 /\ (gnx g', gny g') = psize (rf_pic f)
    /\ gxlim g' = (edge (xaxis g) c0, edge (xaxis g) (c1 + 1)) /\ gylim g' = (edge (yaxis g) r0, edge (yaxis g) (r1 + 1))
    /\ gd g' = (IZR (c1 - c0 + 1) / IZR (gnx g) * fst (cellsize f), IZR (r1 - r0 + 1) / IZR (gny g) * snd (cellsize f))%R.
Proof.
  intros f d xo yo FO g O. destruct (fgrid_ok f FO) as [GO FG]. fold g in GO. destruct (crop_extent_spec g xo yo GO) as [_ OV]. destruct (OV O) as (r0 & r1 & c0 & c1 & E & R0 & R1 & C0 & C1 & HC & HR).
  unfold grid_read. rewrite FG. cbn [bind]. fold g. rewrite E. cbn [bind fst snd].
  assert (PX : parse_limits [edge (xaxis g) c0; edge (xaxis g) (c1 + 1)] = Ok (edge (xaxis g) c0, edge (xaxis g) (c1 + 1))).
  { unfold parse_limits. destruct (Reqb_spec (edge (xaxis g) c0) (edge (xaxis g) (c1 + 1))) as [Q|Q]; [|reflexivity]. exfalso. revert Q. apply edge_ne; [exact (proj1 GO)|lia]. }
  assert (PY : parse_limits [edge (yaxis g) r0; edge (yaxis g) (r1 + 1)] = Ok (edge (yaxis g) r0, edge (yaxis g) (r1 + 1))).
  { unfold parse_limits. destruct (Reqb_spec (edge (yaxis g) r0) (edge (yaxis g) (r1 + 1))) as [Q|Q]; [|reflexivity]. exfalso. revert Q. apply edge_ne; [exact (proj2 GO)|lia]. }
  rewrite PX, PY. cbn [bind]. eexists _, _, r0, r1, c0, c1. split; [reflexivity|]. split; [exact (conj R0 (conj R1 (conj C0 (conj C1 (conj HC HR)))))|].
  split; [cbn [gnx gny]; unfold g, fgrid, psize; destruct (rf_transform f) as [[[t0 t1] t3] t5]; reflexivity|]. split; [reflexivity|]. split; [reflexivity|].
  assert (GD : gd g = cellsize f) by exact (fgrid_d f FO). rewrite <- GD. unfold gd. cbn [fst snd]. unfold dcell at 1 2. cbn [xaxis yaxis fst snd gxlim gylim gnx gny].
  unfold edge. rewrite !at_cells_eq. rewrite !plus_IZR, !minus_IZR. unfold Rdiv. f_equal; ring.
Qed.
Print Assumptions grid_read_refuted.

(** a file of 2 rows and 3 columns, and a resampling that is good *)
Definition exfile : rfile := mkrfile (mkpic 3 2 [[Some 1%R; Some 0%R; Some 2%R]; [Some 5%R; Some (-9999)%R; Some 4%R]]) (0%R, 2%R, 4%R, (-2)%R) true (Some (-9999)%R).
Example raster_file_ex : file_ok exfile /\ good_rescale (nearest (@None R)) /\ (exists r, open exfile None None None None = Ok r /\ fsize r = (3, 2)).
Proof.
  assert (FO : file_ok exfile).
  { split; [|cbn; split; lra]. repeat split; cbn; try lia. intros r [<-|[<-|[]]]; reflexivity. }
  split; [exact FO|]. split.
  - split.
    + intros [w h rs] (W & H & L & Rw). cbn [pw ph rows] in *. unfold nearest, psize. cbn [pw ph rows fst snd]. f_equal.
      transitivity (map (fun i => nth i rs []) (seq 0 (length rs))); [|apply map_nth_seq]. rewrite L. apply map_ext_in. intros i Hi. apply in_seq in Hi.
      rewrite Z.div_mul by lia. rewrite Nat2Z.id. set (r := nth i rs []). assert (Lr : length r = Z.to_nat w) by (apply Rw; apply nth_In; lia).
      transitivity (map (fun j => nth j r None) (seq 0 (length r))); [|apply map_nth_seq]. rewrite Lr. apply map_ext. intros j. rewrite Z.div_mul by lia. now rewrite Nat2Z.id.
    + intros a w h _ W H. split; [|reflexivity]. unfold proper, nearest. cbn [pw ph rows fst snd]. split; [lia|]. split; [lia|]. split; [now rewrite map_length, seq_length|].
      intros r Hr. apply in_map_iff in Hr. destruct Hr as (i & <- & _). now rewrite map_length, seq_length.
  - destruct (raster_open_read exfile None None None None FO) as [_ OV]. destruct OV as (r & r0 & r1 & c0 & c1 & nx & ny & E & HC & BX & BY & HR).
    + assert (A : forall (a : axis), axis_ok a -> overlaps (request None a) a). { intros a [N _]. exists ((fst (fst a) + snd (fst a)) / 2)%R. unfold requested, request, Rmin, Rmax. destruct (Rle_dec (fst (fst a)) (snd (fst a))); lra. }
      destruct (fgrid_ok exfile FO) as [[GX GY] _]. split; apply A; assumption.
    + exists r. split; [exact E|]. destruct (HR (fun a n => if size_eqb n (psize a) then a else mkpic (fst n) (snd n) (repeat (repeat None (Z.to_nat (fst n))) (Z.to_nat (snd n))))) as (full & _ & HO).
      { split; [intros a _; replace (size_eqb (psize a) (psize a)) with true by (symmetry; apply size_eqb_true; reflexivity); reflexivity|]. intros a w h P W H. destruct (size_eqb (w, h) (psize a)) eqn:Q; [apply size_eqb_true in Q; split; [exact P|symmetry; exact Q]|]. split; [|reflexivity].
        unfold proper. cbn [pw ph rows fst snd]. rewrite repeat_length. repeat split; try lia. intros q Hq. apply repeat_spec in Hq. subst q. apply repeat_length. }
      destruct (HO [] I) as (_ & _ & FS & _). unfold frun in FS. cbn [fold_left] in FS. rewrite FS. cbn in BX, BY. subst nx ny.
      assert (HH : forall a k, axis_ok a -> 0 <= k < snd a -> cell_hit (request None a) a k).
      { intros a k A K. unfold cell_hit. split; [exact K|]. exists (center a k). split.
        - apply inside_cell_at; [exact A|]. lra.
        - unfold requested, request, center.
          pose proof (strict_at a 0 (IZR (snd a)) (IZR k + / 2) A) as SA. rewrite (at_cells_first a), (at_cells_last a A) in SA. assert (K0 : (0 < IZR (snd a))%R) by (apply (IZR_lt 0); lia). assert (K1 : (0 <= IZR k)%R) by (apply (IZR_le 0); lia).
          assert (K3 : (IZR k + 1 <= IZR (snd a))%R) by (rewrite <- plus_IZR; apply IZR_le; lia). apply (proj2 (SA K0)). lra. }
      destruct (fgrid_ok exfile FO) as [[GX GY] _]. destruct HC as (A1 & A2 & A3 & A4 & A5 & A6). cbn in A2, A4.
      assert (K0 := proj2 (A5 0) (HH _ 0 GX ltac:(cbn; lia))). assert (K2 := proj2 (A5 2) (HH _ 2 GX ltac:(cbn; lia))). assert (L0 := proj2 (A6 0) (HH _ 0 GY ltac:(cbn; lia))). assert (L1 := proj2 (A6 1) (HH _ 1 GY ltac:(cbn; lia))). f_equal; lia.
Qed.
