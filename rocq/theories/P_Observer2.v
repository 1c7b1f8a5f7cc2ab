(** C113: shifted tiles. *)
From Verif Require Import Base BaseLemmas HelpersModel CameraModel ImageModel ImageSpec ImageProofs TemplateModel ObserverModel ObserverSpec ObserverProofs ObserverProofs2 ObserverProofs3 P_Observer.
Open Scope Z_scope.

Lemma pic_ext {V} (a b : pic V) : proper a -> proper b -> psize a = psize b -> (forall i j, 0 <= i < ph a -> 0 <= j < pw a -> pixel a i j = pixel b i j) -> a = b.
Proof.
  destruct a as [w h ra], b as [w' h' rb]. intros (A1 & A2 & A3 & A4) (B1 & B2 & B3 & B4) S H. unfold psize in S. cbn [pw ph rows] in *. injection S as <- <-. f_equal.
  apply nth_error_ext. intros n. destruct (Nat.lt_ge_cases n (Z.to_nat h)) as [L|L].
  2:{ rewrite (proj2 (nth_error_None ra n)) by lia. rewrite (proj2 (nth_error_None rb n)) by lia. reflexivity. }
  destruct (nth_error ra n) as [x|] eqn:Ex; [|apply nth_error_None in Ex; lia]. destruct (nth_error rb n) as [y|] eqn:Ey; [|apply nth_error_None in Ey; lia]. apply (f_equal Some).
  apply nth_error_In in Ex as Ix. apply nth_error_In in Ey as Iy. specialize (A4 x Ix). specialize (B4 y Iy).
  apply nth_error_ext. intros m. destruct (Nat.lt_ge_cases m (Z.to_nat w)) as [M|M].
  2:{ rewrite (proj2 (nth_error_None x m)) by lia. rewrite (proj2 (nth_error_None y m)) by lia. reflexivity. }
  specialize (H (Z.of_nat n) (Z.of_nat m) ltac:(lia) ltac:(lia)). unfold pixel in H. cbn [rows] in H. now rewrite !Nat2Z.id, Ex, Ey in H.
Qed.

(** what is asked of the spline, on a tile with [w] columns and [h] rows: it passes through the values of the pixels ... *)
Definition of_size (h w : Z) (a : tile) : Prop := length a = Z.to_nat h /\ forall r, In r a -> length r = Z.to_nat w.
Definition value (a : tile) (i j : Z) : R := nth (Z.to_nat j) (nth (Z.to_nat i) a []) 0%R.
Definition nodes (n : Z) : list R := map (fun k => INR k + / 2)%R (seq 0 (Z.to_nat n)).
Definition interpolates (spline : list R -> list R -> tile -> R -> R -> R) (h w : Z) : Prop :=
  forall a i j, of_size h w a -> 0 <= i < h -> 0 <= j < w -> spline (nodes h) (nodes w) a (IZR i + / 2)%R (IZR j + / 2)%R = value a i j.
(** ... and through planes, and it is evaluated at the nearest point of the range of the pixel centers *)
Definition to_range (n : Z) (x : R) : R := Rmax (/ 2) (Rmin (IZR n - / 2) x).
Definition exact_on_planes (spline : list R -> list R -> tile -> R -> R -> R) (h w : Z) : Prop :=
  forall a al be ga, of_size h w a -> (forall i j, 0 <= i < h -> 0 <= j < w -> value a i j = (al + be * (IZR j + / 2) + ga * (IZR i + / 2))%R) ->
  forall v u, (spline (nodes h) (nodes w) a v u = al + be * to_range w u + ga * to_range h v)%R.

Lemma band_size k t : proper t -> of_size (ph t) (pw t) (band k t).
Proof. intros (W & H & L & Rw). unfold band. split; [now rewrite map_length|]. intros r Q. apply in_map_iff in Q. destruct Q as (q & <- & Iq). rewrite map_length. now apply Rw. Qed.
Lemma band_value k t i j px : proper t -> 0 <= i < ph t -> 0 <= j < pw t -> pixel t i j = Some px -> value (band k t) i j = nth k px 0%R.
Proof.
  intros (W & H & L & Rw) Hi Hj E. unfold pixel in E. destruct (nth_error (rows t) (Z.to_nat i)) as [r|] eqn:Er; [|discriminate].
  unfold value, band. erewrite (nth_error_nth (map _ (rows t))) by (rewrite nth_error_map, Er; reflexivity). erewrite nth_error_nth by (rewrite nth_error_map, E; reflexivity). reflexivity.
Qed.
Lemma pixel_some {V} (t : pic V) i j : proper t -> 0 <= i < ph t -> 0 <= j < pw t -> exists px, pixel t i j = Some px.
Proof.
  intros (W & H & L & Rw) Hi Hj. unfold pixel. destruct (nth_error (rows t) (Z.to_nat i)) as [r|] eqn:Er; [|apply nth_error_None in Er; lia].
  specialize (Rw r (nth_error_In _ _ Er)). destruct (nth_error r (Z.to_nat j)) as [p|] eqn:E; [eauto|apply nth_error_None in E; lia].
Qed.
Lemma centers_nodes n : 0 < n -> centers n = nodes n.
Proof. intros H. rewrite centers_eq by exact H. apply map_ext. intros. ring. Qed.

(** A shift by nothing returns the tile, if the spline passes through the values and the type of the tile holds its values. *)
Theorem observer_shift_none : forall spline cast kx ky t, proper t -> kx < ph t -> ky < pw t -> interpolates spline (ph t) (pw t) ->
  (forall i j px, pixel t i j = Some px -> length px = nbands t /\ forall x, In x px -> cast x = x) ->
  shift_tile spline cast kx ky (0, 0)%R t = Ok t.
Proof.
  intros spline cast kx ky t Pt Hk Hk' IN PX.
  assert (Q : is_ok (shift_tile spline cast kx ky (0, 0)%R t) = true) by (apply shift_ok; cbn [fst snd]; rewrite Rabs_R0; repeat split; (lra || assumption)).
  destruct (shift_tile spline cast kx ky (0, 0)%R t) as [w|] eqn:E; [|discriminate]. f_equal.
  destruct (shift_pixels _ _ _ _ _ _ _ Pt E) as (Pw & Sz & H). apply pic_ext; [exact Pw|exact Pt|exact Sz|]. intros i j Hi Hj. unfold psize in Sz. injection Sz as S1 S2. rewrite S1 in Hj. rewrite S2 in Hi.
  rewrite (H i j Hi Hj). cbn [fst snd]. destruct (pixel_some t i j Pt Hi Hj) as [px Ep]. rewrite Ep. destruct (PX i j px Ep) as [L C]. apply (f_equal Some).
  pose proof Pt as (W & Hh & _). rewrite !centers_nodes by assumption.
  transitivity (map (fun k => nth k px 0%R) (seq 0 (length px))).
  - rewrite L. apply map_ext_in. intros k Ik. apply in_seq in Ik. rewrite !Rplus_0_r. rewrite IN by (try assumption; now apply band_size). rewrite (band_value k t i j px) by assumption. apply C. apply nth_In. lia.
  - clear. induction px as [|x px IH]; [reflexivity|]. cbn [length seq map nth]. f_equal. rewrite <- seq_shift, map_map. exact IH.
Qed.
Print Assumptions observer_shift_none.
(** A band that is a plane is moved exactly: pixels whose shifted center lies between the outermost centers get the value of the plane there, the
    other ones that at the nearest such point. *)
Theorem observer_shift_plane : forall spline cast kx ky duv t w al be ga k, proper t -> exact_on_planes spline (ph t) (pw t) ->
  shift_tile spline cast kx ky duv t = Ok w -> (k < nbands t)%nat ->
  (forall i j px, 0 <= i < ph t -> 0 <= j < pw t -> pixel t i j = Some px -> nth k px 0%R = (al + be * (IZR j + / 2) + ga * (IZR i + / 2))%R) ->
  forall i j, 0 <= i < ph t -> 0 <= j < pw t -> exists px, pixel w i j = Some px /\
    (nth k px 0 = cast (al + be * to_range (pw t) (IZR j + / 2 + fst duv) + ga * to_range (ph t) (IZR i + / 2 + snd duv)))%R.
Proof.
  intros spline cast kx ky duv t w al be ga k Pt EX E Hk PL i j Hi Hj. destruct (shift_pixels _ _ _ _ _ _ _ Pt E) as (Pw & Sz & H). rewrite (H i j Hi Hj).
  eexists. split; [reflexivity|]. set (g := fun k0 => cast _). rewrite (nth_indep _ 0%R (g 0%nat)) by (rewrite map_length, seq_length; exact Hk). rewrite map_nth, seq_nth by exact Hk. cbn [Nat.add]. unfold g.
  pose proof Pt as (W & Hh & _). rewrite !centers_nodes by assumption. f_equal. apply EX; [now apply band_size|].
  intros i' j' Hi' Hj'. destruct (pixel_some t i' j' Pt Hi' Hj') as [px Ep]. rewrite (band_value k t i' j' px) by assumption. now apply (PL i' j').
Qed.
Print Assumptions observer_shift_plane.

Lemma subset_write {V} (p w : pic V) b : proper p -> proper w -> box_inside (pw p) (ph p) b -> (let '(l, t, r, d) := b in psize w = (r - l, d - t)) -> subset b (write_view (Some b) w p) = w.
Proof.
  intros Pp Pw B S. destruct (write_view_pixels p w b Pp Pw B S) as (Pq & Sq & H). set (q := write_view (Some b) w p) in *.
  assert (S1 : pw q = pw p /\ ph q = ph p) by (unfold psize in Sq; injection Sq; auto). destruct S1 as [S1 S2].
  assert (Bq : box_inside (pw q) (ph q) b) by (rewrite S1, S2; exact B). pose proof (subset_tile q b Pq Bq) as T. destruct b as [[[l t] r] d]. destruct T as (Ps & W & Hh & HP). unfold psize in S. injection S as SW SH. destruct B as (B1 & B2 & B3 & B4).
  apply pic_ext; [exact Ps|exact Pw|unfold psize; congruence|]. intros i j Hi Hj. destruct (HP i j Hi Hj) as [-> _]. rewrite W in Hj. rewrite Hh in Hi.
  destruct (H (t + i) (l + j) ltac:(lia) ltac:(lia)) as [HI _]. unfold in_zbox, corner in HI. cbn [fst snd] in HI. rewrite HI by lia. f_equal; lia.
Qed.

(** Finding: shift_tile writes its result into its argument, and a tile extracted with caching is a view of the cached image.  After any history
    as in observer_tiles, shifting a tile just extracted with caching returns the shifted tile and changes the image: every tile extracted from
    then on with caching shows the shifted pixels where it overlaps the box and the picture elsewhere -- until clear_images, after which the picture is read
    from the file again.  What the other images hold does not change. *)
Theorem observer_shift_cached_refuted : forall rescale spline cast files obs s, good_rescale rescale -> good_files files -> (forall o i, In o obs -> In i (o_images o) -> (i < length files)%nat) ->
  clean_run rescale spline cast (pstart files obs) s ->
  forall ob img i im b a st t kx ky duv w, In ob (p_obs s) -> py_get (o_images ob) img = Ok i -> nth_error (imgs (p_store s)) i = Some im ->
  box_inside (fst (hi_cam im)) (snd (hi_cam im)) b -> o_cache ob = true ->
  extract_tile rescale ob b img (p_store s) = Ok (a, st) -> contents st a = Some t -> shift_tile spline cast kx ky duv t = Ok w ->
  let st' := write_array a w st in
  contents st' a = Some w /\
  (forall j jm, j <> i -> nth_error (imgs st') j = Some jm -> held st' jm = held (p_store s) jm) /\
  forall l2 t2 r2 d2, box_inside (fst (hi_cam im)) (snd (hi_cam im)) (l2, t2, r2, d2) ->
  (exists a2 st2 q, extract_tile rescale ob (l2, t2, r2, d2) img st' = Ok (a2, st2) /\ contents st2 a2 = Some q /\ psize q = (r2 - l2, d2 - t2) /\
    forall row col, in_zbox (l2, t2, r2, d2) row col ->
      (in_zbox b row col -> pixel q (row - t2) (col - l2) = pixel w (row - fst (corner b)) (col - snd (corner b))) /\
      (~ in_zbox b row col -> pixel q (row - t2) (col - l2) = pixel (picture rescale im) row col)) /\
  (exists st3 a3 st4 q, clear_images ob (IInts [img]) st' = (st3, Ok tt) /\ extract_tile rescale ob (l2, t2, r2, d2) img st3 = Ok (a3, st4) /\ contents st4 a3 = Some q /\
    tile_of (picture rescale im) (l2, t2, r2, d2) q).
Proof.
  intros rescale spline cast files obs s GR Gf O Rn ob img i im b a st t kx ky duv w Io Eg E B OC EX C SH st'.
  destruct (observer_tiles rescale spline cast files obs s GR Gf O Rn ob img i Io Eg) as (im0 & E0 & _ & H). rewrite E in E0. injection E0 as <-.
  destruct (H b B (or_introl OC)) as (a0 & st0 & t0 & EX0 & C0 & TL & _ & HO). rewrite EX in EX0. injection EX0 as <- <-. rewrite C in C0. injection C0 as <-.
  rewrite OC in HO. destruct HO as (im' & Ei' & Ha & Hd).
  destruct (reach_img _ _ _ _ _ _ GR Gf O Rn) as (Gd & Ds & Fl & Ar & Ob).
  unfold extract_tile in EX. rewrite Eg in EX. cbn [bind] in EX. rewrite OC in EX.
  destruct (read_facts rescale GR _ i im (Some b) true a st Gd Ds E EX) as (p0 & sh & s2 & im2 & ext & ER & C2 & Bf & Im & F & Cm & Hh & SHd & Lt & Gd1 & Ds1).
  assert (Li : (i < length (imgs (p_store s)))%nat) by (apply nth_error_Some; congruence).
  assert (im2 = im') by (rewrite Im, nth_error_set_nth_eq in Ei' by exact Li; congruence). subst im2.
  destruct (Gd i im E) as (PF & PC & _). destruct (rescale_psize rescale GR (hi_file im) PF _ PC) as [PS PR]. set (p := picture rescale im) in *.
  change (rescale (hi_file im) (hi_cam im)) with p in PS, PR.
  assert (Np : nth_error (bufs st) (a_buf a) = Some p) by (unfold held in Hd; rewrite Ha in Hd; exact Hd).
  assert (Bp : box_inside (pw p) (ph p) b) by (unfold psize in PS; rewrite <- PS in B; exact B).
  assert (AB : a_box a = Some b).
  { unfold read_image in EX. rewrite E in EX. cbv zeta in EX. destruct b as [[[l t1] r] d]. destruct (hi_array im); destruct (negb _); try (injection EX as <- <-; reflexivity);
    (destruct (gdal_read _ _ _ _); cbn [bind] in EX; [|discriminate]; injection EX as <- <-; reflexivity). }
  assert (Pt : proper t /\ psize t = (let '(l, t, r, d) := b in (r - l, d - t))) by (destruct b as [[[l tt] r] d]; destruct TL as (T1 & T2 & T3 & _); split; [exact T1|unfold psize; congruence]).
  destruct Pt as [Pt St]. destruct (shift_pixels spline cast kx ky duv t w Pt SH) as (Pw & Sw & _).
  assert (Szw : let '(l, t, r, d) := b in psize w = (r - l, d - t)) by (destruct b as [[[l tt] r] d]; congruence).
  destruct (write_view_pixels p w b PR Pw Bp Szw) as (Pq & Sq & HQ). set (q := write_view (Some b) w p) in *.
  assert (ST : st' = mk_store (set_nth (a_buf a) q (bufs st)) (imgs st)) by (unfold st', write_array; rewrite Np, AB; reflexivity).
  assert (Nq : nth_error (bufs st') (a_buf a) = Some q) by (rewrite ST; cbn [bufs]; apply nth_error_set_nth_eq; exact Lt).
  split; [unfold contents; rewrite Nq, AB; cbn [option_map view]; f_equal; now apply subset_write|].
  split.
  - intros j jm Nj Ej. rewrite ST in Ej. cbn [imgs] in Ej. assert (Ej0 : nth_error (imgs (p_store s)) j = Some jm) by (rewrite Im, nth_error_set_nth_neq in Ej by congruence; exact Ej).
    unfold held. destruct (hi_array jm) as [k|] eqn:Ak; [|reflexivity]. rewrite ST. cbn [bufs].
    assert (a_buf a <> k) by (intros <-; apply Nj; exact (Ds1 j i jm im' (a_buf a) Ej Ei' Ak Ha)).
    rewrite nth_error_set_nth_neq by assumption. rewrite Bf. apply nth_error_app1. destruct (good_inv rescale _ jm (Gd j jm Ej0)) as [_ KK]. now apply KK.
  - intros l2 t2 r2 d2 B2. assert (Sq2 : pw q = pw p /\ ph q = ph p) by (unfold psize in Sq; injection Sq; auto). destruct Sq2 as [Sq1 Sq2].
    assert (Sp : hi_cam im = psize p) by congruence. 
    assert (B2q : box_inside (pw q) (ph q) (l2, t2, r2, d2)) by (rewrite Sq1, Sq2; rewrite Sp in B2; exact B2).
    assert (Eis : nth_error (imgs st') i = Some im') by (rewrite ST; exact Ei').
    assert (Hs : held st' im' = Some q) by (unfold held; rewrite Ha; exact Nq).
    split.
    + exists (mk_arr (a_buf a) (Some (l2, t2, r2, d2))), st', (subset (l2, t2, r2, d2) q).
      pose proof (subset_tile q (l2, t2, r2, d2) Pq B2q) as (T1 & T2 & T3 & T4).
      split; [|split; [|split]].
      * unfold extract_tile. rewrite Eg. cbn [bind]. unfold read_image. rewrite Eis, Hs, Ha. cbv zeta. replace (size_eqb (hi_cam im') (psize q)) with true by (symmetry; apply size_eqb_true; congruence). reflexivity.
      * unfold contents. cbn [a_buf a_box]. rewrite Nq. reflexivity.
      * unfold psize. congruence.
      * intros row col IB. cbn [in_zbox] in IB. destruct (T4 (row - t2) (col - l2) ltac:(lia) ltac:(lia)) as [T5 _]. rewrite T5. replace (t2 + (row - t2)) with row by lia. replace (l2 + (col - l2)) with col by lia.
        destruct B2q as (Q1 & Q2 & Q3 & Q4). rewrite Sq1 in Q2. rewrite Sq2 in Q4. apply HQ; lia.
    + set (st3 := clear_image i st'). assert (CL : clear_images ob (IInts [img]) st' = (st3, Ok tt)) by (unfold clear_images; cbn [pick mapM]; rewrite Eg; cbn [bind fold_left]; reflexivity).
      set (im3 := mk_himage (hi_file im') (hi_cam im') None).
      assert (E3 : nth_error (imgs st3) i = Some im3) by (unfold st3; rewrite clear_image_at, Eis; cbn [option_map]; destruct (Nat.eq_dec i i); [reflexivity|congruence]).
      assert (I3 : inv rescale (hi_file im3) (sees st3 im3)) by (split; [cbn; congruence|exact Logic.I]).
      assert (PF3 : proper (hi_file im3)) by (cbn [im3 hi_file]; congruence).
      assert (P3 : picture rescale im3 = p) by (unfold picture, p, picture, im3; cbn [hi_file hi_cam]; congruence).
      destruct (read_full rescale GR (hi_file im3) PF3 (Some (l2, t2, r2, d2)) true (sees st3 im3) I3 (or_intror eq_refl)) as (sh3 & s3 & ER3 & _).
      pose proof (refines rescale st3 i im3 (Some (l2, t2, r2, d2)) true E3 ltac:(discriminate)) as RF. rewrite ER3 in RF. destruct RF as (a3 & st4 & im4 & ext4 & R4 & C4 & _).
      exists st3, a3, st4, (subset (l2, t2, r2, d2) p). split; [exact CL|]. split; [unfold extract_tile; rewrite Eg; cbn [bind]; rewrite OC; exact R4|].
      split; [rewrite C4; cbn [sees camsz]; change (rescale (hi_file im3) (hi_cam im3)) with (picture rescale im3); now rewrite P3|]. apply subset_tile; [exact PR|]. rewrite Sp in B2. exact B2.
Qed.
Print Assumptions observer_shift_cached_refuted.
