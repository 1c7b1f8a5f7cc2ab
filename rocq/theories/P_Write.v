(** C100: writing rasters. *)
From Coq Require Import Ascii String.
From Verif Require Import Base BaseLemmas HelpersModel GridModel GridSpec GridProofs GridProofs2 ImageModel ImageSpec ImageProofs RasterFileModel RasterFileProofs P_RasterFile PathModel P_Path WriteModel.
Notation length := List.length.
Open Scope R_scope.

(** ** The driver *)
(** [d] is the first driver (in order of registration) that handles rasters and lists the extension *)
Definition lists (ext : str) (d : driver) : Prop := exists es, d_ext d = Some es /\ In ext es.
Definition considered (raster vector : bool) (d : driver) : Prop := (raster = true /\ d_raster d = true) \/ (vector = true /\ d_vector d = true).
Definition first_for (drivers : list driver) (raster vector : bool) (ext : str) (d : driver) : Prop :=
  exists pre post, drivers = pre ++ d :: post /\ considered raster vector d /\ lists ext d /\ forall d', In d' pre -> ~ (considered raster vector d' /\ lists ext d').
Lemma first_driver_spec ext ra ve ds : match first_driver ext ra ve ds with Some d => first_for ds ra ve ext d | None => forall d, In d ds -> ~ (considered ra ve d /\ lists ext d) end.
Proof.
  assert (B : forall d, ((ra && d_raster d) || (ve && d_vector d))%bool = true <-> considered ra ve d) by (intros d; unfold considered; rewrite orb_true_iff, !andb_true_iff; tauto).
  induction ds as [|d ds IH]; cbn [first_driver]; [intros d []|]. specialize (B d).
  assert (SK : ~ (considered ra ve d /\ lists ext d) -> match first_driver ext ra ve ds with Some d' => first_for (d :: ds) ra ve ext d' | None => forall d', In d' (d :: ds) -> ~ (considered ra ve d' /\ lists ext d') end).
  { intros N. destruct (first_driver ext ra ve ds) as [d'|].
    - destruct IH as (pre & post & -> & C & L & F). exists (d :: pre), post. split; [reflexivity|]. split; [exact C|]. split; [exact L|]. intros x [<-|I]; [exact N|apply F; exact I].
    - intros x [<-|I]; [exact N|apply IH; exact I]. }
  destruct ((ra && d_raster d) || (ve && d_vector d))%bool eqn:E.
  - destruct (d_ext d) as [[|e0 es]|] eqn:X.
    + apply SK. intros [_ (es & Y & I)]. rewrite X in Y. injection Y as <-. destruct I.
    + destruct (existsb (str_eqb ext) (e0 :: es)) eqn:Q.
      * exists [], ds. split; [reflexivity|]. split; [apply B; reflexivity|]. split; [|intros x []]. exists (e0 :: es). split; [exact X|]. apply existsb_exists in Q as (y & I & Y). destruct (str_eqb_spec ext y) as [<-|]; [exact I|discriminate].
      * apply SK. intros [_ (es' & Y & I)]. rewrite X in Y. injection Y as <-. apply not_true_iff_false in Q. apply Q. apply existsb_exists. exists ext. split; [exact I|]. destruct (str_eqb_spec ext ext); congruence.
    + apply SK. intros [_ (es & Y & _)]. congruence.
  - apply SK. intros [C _]. apply B in C. discriminate C.
Qed.
(** The driver of a path is the first one registered that lists its extension (in lower case), None if there is none. *)
Theorem driver_from_path : forall drivers path b root ext raster vector, last_component path b -> b = root ++ dot :: ext -> without dot ext -> (exists c, In c root /\ c <> dot) ->
  (forall d, gdal_driver_from_path drivers path raster vector = Some d <-> first_for drivers raster vector (map lower ext) d) /\
  (gdal_driver_from_path drivers path raster vector = None <-> forall d, In d drivers -> ~ (considered raster vector d /\ lists (map lower ext) d)).
Proof.
  intros drivers path b root ext ra ve LC EB W NR. unfold gdal_driver_from_path. destruct (file_extension path b LC) as (_ & FE & _). rewrite (FE root ext EB W NR). cbn [skipn].
  pose proof (first_driver_spec (map lower ext) ra ve drivers) as S'. destruct (first_driver (map lower ext) ra ve drivers) as [d0|].
  - assert (U : forall d, first_for drivers ra ve (map lower ext) d -> d = d0).
    { intros d (pre & post & E & C & L & F). destruct S' as (pre' & post' & E' & C' & L' & F'). rewrite E in E'. clear - E' C L C' L' F F'. revert pre' E' F'. induction pre as [|x pre IH]; intros [|y pre'] E F'; cbn in E; injection E as E1 E2.
      - exact E1. - subst y. destruct (F' d (or_introl eq_refl) (conj C L)). - subst x. destruct (F d0 (or_introl eq_refl) (conj C' L')).
      - apply (IH (fun z Z => F z (or_intror Z)) pre' E2 (fun z Z => F' z (or_intror Z))). }
    split; [intros d; split; [intros E; injection E as <-; exact S'|intros H; f_equal; symmetry; apply U; exact H]|]. split; [discriminate|]. intros N. destruct S' as (pre & post & E & C & L & _). destruct (N d0); [rewrite E; apply in_or_app; right; left; reflexivity|split; assumption].
  - split; [|split; [intros _; exact S'|reflexivity]]. intros d. split; [discriminate|]. intros (pre & post & E & C & L & _). destruct (S' d); [rewrite E; apply in_or_app; right; left; reflexivity|split; assumption].
Qed.
Print Assumptions driver_from_path.

(** ** Writing *)
(** the driver used: the first of the given name, or that of the path *)
Definition uses (drivers : list driver) (path : str) (drv : option str) (o : option driver) : Prop :=
  match drv with
  | Some ((_ :: _) as n) => match o with Some d => exists pre post, drivers = pre ++ d :: post /\ d_name d = n /\ forall d', In d' pre -> d_name d' <> n | None => forall d, In d drivers -> d_name d <> n end
  | _ => gdal_driver_from_path drivers path true false = o
  end.
Lemma uses_find drivers path drv o : uses drivers path drv o -> match drv with Some ((_ :: _) as n) => find (fun d => str_eqb (d_name d) n) drivers | _ => gdal_driver_from_path drivers path true false end = o.
Proof.
  unfold uses. destruct drv as [[|c n]|]; [intros H; exact H| |intros H; exact H]. destruct o as [d|].
  - intros (pre & post & -> & N & F). induction pre as [|x pre IH]; cbn [app find].
    + destruct (str_eqb_spec (d_name d) (c :: n)); [reflexivity|contradiction].
    + destruct (str_eqb_spec (d_name x) (c :: n)) as [E|E]; [destruct (F x (or_introl eq_refl) E)|]. apply IH. intros y Y. apply F. right. exact Y.
  - intros H. induction drivers as [|x l IH]; [reflexivity|]. cbn [find]. destruct (str_eqb_spec (d_name x) (c :: n)) as [E|E]; [destruct (H x (or_introl eq_refl) E)|]. apply IH. intros y Y. apply H. right. exact Y.
Qed.
(** a crs that is used: not missing, zero or empty *)
Definition crs_given (c : option crs) : Prop := match c with None => False | Some (CInt n) => n <> 0%Z | Some (CStr s) => s <> [] | Some COther => True end.
(** int, WKT (with a bracket) or Proj4 (with a plus) *)
Definition crs_valid (c : crs) : Prop := match c with CInt _ => True | CStr s => In "["%char s \/ In "+"%char s | COther => False end.
Section Gdal.
  Variables (drivers : list driver) (wkt_epsg : Z -> str) (wkt_wkt wkt_proj4 : str -> str) (copied : driver -> dataset -> dataset).
  Notation write := (write_raster drivers wkt_epsg wkt_wkt wkt_proj4 copied).
  Notation rwrite := (raster_write drivers wkt_epsg wkt_wkt wkt_proj4 copied).
  (** the text of a crs *)
  Definition wkt_is (c : option crs) (w : option str) : Prop :=
    (~ crs_given c /\ w = None) \/ (crs_given c /\ exists v, w = Some v /\ match c with Some (CInt n) => v = wkt_epsg n | Some (CStr s) => (In "["%char s /\ v = wkt_wkt s) \/ (~ In "["%char s /\ In "+"%char s /\ v = wkt_proj4 s) | _ => False end).
  Lemma existsb_char ch (s : str) : existsb (Ascii.eqb ch) s = true <-> In ch s.
  Proof. rewrite existsb_exists. split; [intros (x & I & E); apply Ascii.eqb_eq in E; subst; exact I|intros I; exists ch; split; [exact I|apply Ascii.eqb_refl]]. Qed.
  Lemma crs_cases c : (exists w, (match crs_true c with Some c => let* w := crs_to_wkt wkt_epsg wkt_wkt wkt_proj4 c in Ok (Some w) | None => Ok None end) = Ok w /\ wkt_is c w) \/
    (crs_given c /\ (forall c', c = Some c' -> ~ crs_valid c') /\ (match crs_true c with Some c => let* w := crs_to_wkt wkt_epsg wkt_wkt wkt_proj4 c in Ok (Some w) | None => Ok None end) = Err ValueError).
  Proof.
    destruct c as [[n|s|]|]; cbn [crs_true].
    - destruct (Z.eqb_spec n 0) as [->|N]; [left; exists None; split; [reflexivity|left; split; [intros H; apply H; reflexivity|reflexivity]]|]. left. exists (Some (wkt_epsg n)). split; [reflexivity|]. right. split; [exact N|]. exists (wkt_epsg n). split; reflexivity.
    - destruct s as [|a s]; [left; exists None; split; [reflexivity|left; split; [intros H; apply H; reflexivity|reflexivity]]|]. cbn [crs_to_wkt].
      destruct (existsb (Ascii.eqb "["%char) (a :: s)) eqn:E1; [left; exists (Some (wkt_wkt (a :: s))); split; [reflexivity|]; right; split; [discriminate|]; exists (wkt_wkt (a :: s)); split; [reflexivity|left; split; [apply existsb_char; exact E1|reflexivity]]|].
      assert (N1 : ~ In "["%char (a :: s)) by (intros I; apply existsb_char in I; congruence).
      destruct (existsb (Ascii.eqb "+"%char) (a :: s)) eqn:E2; [left; exists (Some (wkt_proj4 (a :: s))); split; [reflexivity|]; right; split; [discriminate|]; exists (wkt_proj4 (a :: s)); split; [reflexivity|right; split; [exact N1|split; [apply existsb_char; exact E2|reflexivity]]]|].
      right. split; [discriminate|]. split; [|reflexivity]. intros c' E; injection E as <-; intros [I|I]; [exact (N1 I)|apply existsb_char in I; congruence].
    - right. split; [exact I|]. split; [intros c' E; injection E as <-; intros H; exact H|reflexivity].
    - left. exists None. split; [reflexivity|left; split; [intros H; exact H|reflexivity]].
  Qed.
  Lemma put_same p d f : put p d f p = Some d.
  Proof. unfold put. destruct (str_eqb_spec p p); congruence. Qed.
  Lemma put_other p d f q : q <> p -> put p d f q = f q.
  Proof. intros N. unfold put. destruct (str_eqb_spec q p); congruence. Qed.

  (** Unsupported types, unknown drivers, paths without a driver and drivers that cannot write: ValueError, and no file is changed. *)
  Theorem write_refused : forall a flt supported path drv nan c t f o, uses drivers path drv o ->
    (supported = false \/ o = None \/ exists d, o = Some d /\ d_create d = false /\ d_copy d = false) -> write a flt supported path drv nan c t f = (Err ValueError, f).
  Proof.
    intros a flt su path drv nan c t f o U H. unfold write_raster. destruct su; cbn [negb]; [|reflexivity]. rewrite (uses_find _ _ _ _ U). destruct H as [H|[->|(d & -> & H1 & H2)]]; [discriminate|reflexivity|]. rewrite H1, H2. reflexivity.
  Qed.
  (** Otherwise, unless the crs is invalid, the file is the dataset of the bands, transform, projection and no-data value (or what CreateCopy makes of it), and no other file is changed. *)
  Theorem write_file : forall a flt path drv nan c t f d, uses drivers path drv (Some d) -> d_create d = true \/ d_copy d = true -> (crs_given c -> exists c', c = Some c' /\ crs_valid c') ->
    exists f' w, write a flt true path drv nan c t f = (Ok tt, f') /\ wkt_is c w /\ f' path = Some (if d_create d then mkds a flt t w nan else copied d (mkds a flt t w nan)) /\ forall p, p <> path -> f' p = f p.
  Proof.
    intros a flt path drv nan c t f d U W CV. unfold write_raster. cbn [negb]. rewrite (uses_find _ _ _ _ U). replace (negb (d_create d) && negb (d_copy d))%bool with false by (destruct W as [-> | ->]; rewrite ?andb_false_r; reflexivity). cbv zeta.
    destruct (crs_cases c) as [(w & E & WI)|(G & NV & _)]; [|exfalso; destruct (CV G) as (c' & E & V); exact (NV c' E V)].
    rewrite E. eexists; exists w. split; [reflexivity|]. split; [exact WI|]. destruct (d_create d).
    - split; [apply put_same|]. intros p N. rewrite !put_other by exact N. reflexivity.
    - split; [apply put_same|]. intros p N. apply put_other. exact N.
  Qed.
  (** Finding: an invalid crs is noticed only after the file has been created: ValueError, but what was in the file before is gone, replaced by zeros (if the driver writes files directly). *)
  Theorem write_crs_refuted : forall a flt path drv nan c t f d, uses drivers path drv (Some d) -> d_create d = true -> crs_given c -> (forall c', c = Some c' -> ~ crs_valid c') ->
    exists f' ds, write a flt true path drv nan c t f = (Err ValueError, f') /\ f' path = Some ds /\ (forall p, p <> path -> f' p = f p) /\
    length (ds_bands ds) = length a /\ forall b i j v, In b (ds_bands ds) -> pixel b i j = Some v -> v = Some 0.
  Proof.
    intros a flt path drv nan c t f d U W G NV. unfold write_raster. cbn [negb]. rewrite (uses_find _ _ _ _ U), W. cbn [negb andb]. cbv zeta.
    destruct (crs_cases c) as [(w & _ & [[N _]|(_ & v & _ & X)])|(_ & _ & ->)].
    - contradiction.
    - exfalso. destruct c as [c|]; [|exact G]. apply (NV c eq_refl). destruct c as [n|s|]; [exact I| |destruct X]. destruct X as [[X _]|(_ & X & _)]; [left|right]; exact X.
    - eexists; eexists. split; [reflexivity|]. split; [apply put_same|]. split; [intros p N; apply put_other; exact N|]. cbn [ds_bands]. split; [apply map_length|].
      intros b i j v I P. apply in_map_iff in I as (q & <- & _). unfold pixel, zero_pic in P. cbn [rows] in P. rewrite nth_error_map in P. destruct (nth_error (rows q) (Z.to_nat i)) as [row|]; [|discriminate]. cbn [option_map] in P. rewrite nth_error_map in P. destruct (nth_error row (Z.to_nat j)); [|discriminate]. cbn [option_map] in P. injection P as <-. reflexivity.
  Qed.

  (** Writing a raster and opening the file: same limits and size; the values are the same, except those that equal the no-data value (given to write, or to open), which become nan. *)
  Theorem write_open_round_trip : forall g a flt own path drv nan f d onan rescale, grid_ok g -> proper a -> psize a = (gnx g, gny g) -> good_rescale rescale ->
    uses drivers path drv (Some d) -> d_create d = true -> (crs_given own -> exists c, own = Some c /\ crs_valid c) ->
    exists f' ds file r r' full, rwrite g a flt true own path drv nan None None f = (Ok tt, f') /\ f' path = Some ds /\ wkt_is own (ds_wkt ds) /\ file_of ds 0 file /\
      open file None None None onan = Ok r /\ f_xlim r = gxlim g /\ f_ylim r = gylim g /\ fsize r = (gnx g, gny g) /\ fread rescale file None true r = Ok (full, r') /\ psize full = psize a /\
      forall i j, (0 <= i < gny g)%Z -> (0 <= j < gnx g)%Z -> exists v u, pixel a i j = Some v /\ pixel full i j = Some u /\
        ((exists x, v = Some x /\ (onan = Some x \/ (onan = None /\ flt = true /\ nan = Some x /\ x <> 0)) /\ u = None) \/
         ((forall x, v = Some x -> ~ (onan = Some x \/ (onan = None /\ flt = true /\ nan = Some x /\ x <> 0))) /\ u = v)).
  Proof.
    intros g a flt own path drv nan f d onan rescale G PA SA GR U W CV. unfold raster_write.
    destruct (write_file [a] flt path drv nan own (Some (fst (gxlim g), dcell (xaxis g), 0, fst (gylim g), 0, dcell (yaxis g))) f d U (or_introl W) CV) as (f' & w & EW & WI & EP & _). rewrite W in EP.
    set (ds := mkds [a] flt (Some (fst (gxlim g), dcell (xaxis g), 0, fst (gylim g), 0, dcell (yaxis g))) w nan) in *.
    set (file := mkrfile a (fst (gxlim g), dcell (xaxis g), fst (gylim g), dcell (yaxis g)) flt nan).
    assert (FO : file_ok file) by (split; [exact PA|]; cbn; split; [apply dcell_nz, G|apply dcell_nz, G]).
    assert (FG : fgrid file = g).
    { unfold fgrid, file. cbn. unfold psize in SA. injection SA as -> ->. destruct g as [nx ny [x0 x1] [y0 y1]]. destruct G as [[Gx1 Gx2] [Gy1 Gy2]]. unfold dcell, xaxis, yaxis. cbn in *. apply IZR_le in Gx2, Gy2. f_equal; f_equal; field; lra. }
    destruct (raster_open_read file None None None onan FO) as [_ OV]. cbv zeta in OV. rewrite FG in OV. destruct G as [Gx Gy].
    assert (OX : forall ax, axis_ok ax -> overlaps (request None ax) ax).
    { intros ax [A _]. unfold request, overlaps. exists ((fst (fst ax) + snd (fst ax)) / 2). unfold requested, Rmin, Rmax. destruct (Rle_dec (fst (fst ax)) (snd (fst ax))); split; lra. }
    destruct (OV (conj (OX _ Gx) (OX _ Gy))) as (r & r0 & r1 & c0 & c1 & nx & ny & EO & HC & HX & HY & HR). cbn [resized] in HX, HY.
    destruct (HR rescale GR) as (full & (PF & PS & wn & TW & HB & HN) & HO). specialize (HO [] I). cbv zeta in HO. cbn [frun fold_left] in HO. destruct HO as (XL & YL & FS & RD & _). destruct (RD true) as (r' & ER & _).
    destruct HC as (R0 & R1 & C0 & C1 & HCc & HCr).
    assert (HIT : forall ax k, axis_ok ax -> (0 <= k < snd ax)%Z -> cell_hit (request None ax) ax k).
    { intros ax k A K. split; [exact K|]. exists (center ax k). pose proof (IZR_le 0 k ltac:(lia)). pose proof (IZR_le (k + 1) (snd ax) ltac:(lia)) as Q. rewrite plus_IZR in Q. split.
      - unfold center. apply inside_cell_at; [exact A|lra].
      - unfold request, requested, center, at_cells. destruct A as [A1 A2]. apply IZR_le in A2. set (ww := (IZR k + / 2) / IZR (snd ax)). assert (WB : 0 < ww < 1) by (unfold ww; split; [apply Rdiv_lt_0_compat; lra|apply Rmult_lt_reg_r with (IZR (snd ax)); [lra|]; unfold Rdiv; rewrite Rmult_assoc, Rinv_l by lra; lra]).
        replace ((IZR k + / 2) * ((snd (fst ax) - fst (fst ax)) / IZR (snd ax))) with (ww * (snd (fst ax) - fst (fst ax))) by (unfold ww; field; lra). unfold Rmin, Rmax. apply Rdichotomy in A1. destruct (Rle_dec (fst (fst ax)) (snd (fst ax))); split; nra. }
    assert (C00 : c0 = 0%Z) by (assert (H : (c0 <= 0 <= c1)%Z) by (apply HCc, HIT; [exact Gx|destruct Gx; lia]); lia).
    assert (R00 : r0 = 0%Z) by (assert (H : (r0 <= 0 <= r1)%Z) by (apply HCr, HIT; [exact Gy|destruct Gy; lia]); lia).
    assert (C11 : c1 = (gnx g - 1)%Z) by (assert (H : (c0 <= gnx g - 1 <= c1)%Z) by (apply HCc, HIT; [exact Gx|destruct Gx as [_ Gx2]; cbn [xaxis snd] in *; lia]); lia).
    assert (R11 : r1 = (gny g - 1)%Z) by (assert (H : (r0 <= gny g - 1 <= r1)%Z) by (apply HCr, HIT; [exact Gy|destruct Gy as [_ Gy2]; cbn [yaxis snd] in *; lia]); lia).
    assert (NX : nx = gnx g) by lia. assert (NY : ny = gny g) by lia. subst nx ny. subst c0 r0 c1 r1.
    exists f', ds, file, r, r', full. split; [exact EW|]. split; [exact EP|]. split; [exact WI|]. split; [exists a; split; reflexivity|]. split; [exact EO|].
    assert (EG : forall ax n, axis_ok ax -> snd ax = n -> (edge ax 0, edge ax (n - 1 + 1)) = fst ax).
    { intros ax n A <-. unfold edge. replace (snd ax - 1 + 1)%Z with (snd ax) by lia. rewrite (at_cells_first ax), (at_cells_last ax A). destruct ax as [[? ?] ?]; reflexivity. }
    split; [rewrite XL; apply (EG (xaxis g) (gnx g) Gx eq_refl)|]. split; [rewrite YL; apply (EG (yaxis g) (gny g) Gy eq_refl)|]. split; [rewrite FS; f_equal; lia|]. split; [exact ER|]. split; [rewrite PS, SA; f_equal; lia|].
    intros i j Hi Hj. destruct (HB i j ltac:(lia) ltac:(lia)) as (v & u & Ev & Eu & BC). rewrite HN in Ev by (f_equal; lia). destruct TW as (_ & TW & TH & TQ). destruct (TQ i j ltac:(lia) ltac:(lia)) as [Q _]. rewrite Ev, !Z.add_0_l in Q. cbn [rf_pic file] in Q.
    exists v, u. split; [symmetry; exact Q|]. split; [exact Eu|]. unfold becomes, missing in BC. cbn [rf_float rf_nodata file] in BC. destruct v as [x|].
    - destruct BC as [[M ->]|[M ->]]; [left; exists x; split; [reflexivity|split; [exact M|reflexivity]]|right; split; [|reflexivity]]. intros y E. injection E as <-. exact M.
    - right. split; [intros x E; discriminate E|exact BC].
  Qed.
  (** Finding: the nan argument of write is documented as the value to use in the file for NaN, but NaN cells are written as NaN whatever it is; only the no-data value of the file is set. *)
  Theorem write_nan_refuted : forall g a flt own path drv nan f d, uses drivers path drv (Some d) -> d_create d = true -> (crs_given own -> exists c, own = Some c /\ crs_valid c) ->
    exists f' ds, rwrite g a flt true own path drv nan None None f = (Ok tt, f') /\ f' path = Some ds /\ ds_nodata ds = nan /\ ds_bands ds = [a].
  Proof.
    intros g a flt own path drv nan f d U W CV. unfold raster_write. destruct (write_file [a] flt path drv nan own (Some (fst (gxlim g), dcell (xaxis g), 0, fst (gylim g), 0, dcell (yaxis g))) f d U (or_introl W) CV) as (f' & w & EW & _ & EP & _). rewrite W in EP.
    exists f'. eexists. split; [exact EW|]. split; [exact EP|]. split; reflexivity.
  Qed.
  (** Image.write: the bands given, without transform, projection and no-data value; other files are not changed. *)
  Theorem image_write_file : forall a flt path drv f d, uses drivers path drv (Some d) -> d_create d = true \/ d_copy d = true ->
    exists f', image_write drivers wkt_epsg wkt_wkt wkt_proj4 copied a flt true path drv f = (Ok tt, f') /\ f' path = Some (if d_create d then mkds a flt None None None else copied d (mkds a flt None None None)) /\ forall p, p <> path -> f' p = f p.
  Proof.
    intros a flt path drv f d U W. unfold image_write. destruct (write_file a flt path drv None None None f d U W) as (f' & w & EW & WI & EP & EO); [intros []|].
    exists f'. destruct WI as [[_ ->]|[[] _]]. split; [exact EW|]. split; [exact EP|exact EO].
  Qed.
End Gdal.
Print Assumptions image_write_file.
Print Assumptions write_refused.
Print Assumptions write_file.
Print Assumptions write_crs_refuted.
Print Assumptions write_open_round_trip.
Print Assumptions write_nan_refuted.
(** a registry with a driver that only copies and one that creates *)
Definition ex_drivers : list driver := [mkdriver (list_ascii_of_string "PNG") true false (Some [list_ascii_of_string "png"]) false true; mkdriver (list_ascii_of_string "GTiff") true false (Some [list_ascii_of_string "tif"; list_ascii_of_string "tiff"]) true true].
Example write_ex : exists d, uses ex_drivers (list_ascii_of_string "out/dem.TIF") None (Some d) /\ d_create d = true /\ uses ex_drivers (list_ascii_of_string "x") (Some (list_ascii_of_string "GTiff")) (Some d) /\ uses ex_drivers (list_ascii_of_string "out/dem") None None /\ crs_given (Some (CStr (list_ascii_of_string "EPSG:4326"))) /\ ~ crs_valid (CStr (list_ascii_of_string "EPSG:4326")).
Proof.
  eexists. split; [cbn; reflexivity|]. split; [reflexivity|]. split; [exists [mkdriver (list_ascii_of_string "PNG") true false (Some [list_ascii_of_string "png"]) false true], []; split; [reflexivity|split; [reflexivity|]]; intros d' [<-|[]]; discriminate|]. split; [reflexivity|]. split; [discriminate|].
  intros [I|I]; cbn in I; repeat (destruct I as [I|I]; [discriminate I|]); exact I.
Qed.
