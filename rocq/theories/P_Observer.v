(** C113: tiles of observers, whatever was cached, cleared, shared, tracked or shifted before. *)
From Verif Require Import Base BaseLemmas HelpersModel CameraModel ImageModel ImageSpec ImageProofs TemplateModel ObserverModel ObserverSpec ObserverProofs ObserverProofs2 ObserverProofs3.
Open Scope Z_scope.

Lemma read_box_uncached {V} rescale i b (st : store V) a st' : read_image rescale i (Some b) false st = Ok (a, st') -> imgs st' = imgs st.
Proof.
  unfold read_image. destruct (nth_error (imgs st) i) as [im|]; [|discriminate]. cbv zeta. destruct b as [[[l t] r] d].
  destruct (hi_array im); destruct (negb _); try (intros Q; now injection Q as <- <-);
    (destruct (gdal_read _ _ _ _); cbn [bind]; [|discriminate]; intros Q; now injection Q as <- <-).
Qed.
Lemma py_get_err {A} (l : list A) i e : py_get l i = Err e -> e = IndexError.
Proof.
  unfold py_get, py_index. destruct (i <? _); cbn [bind]; [intros Q; now injection Q|].
  destruct (i <? 0); cbn [bind]; [destruct (nth_error l _); [discriminate|intros Q; now injection Q]|].
  destruct (i <? _); cbn [bind]; [destruct (nth_error l _); [discriminate|intros Q; now injection Q]|intros Q; now injection Q].
Qed.
Lemma reach_img rescale spline cast files obs s : good_rescale rescale -> good_files files -> (forall o i, In o obs -> In i (o_images o) -> (i < length files)%nat) ->
  clean_run rescale spline cast (pstart files obs) s -> pinv rescale (map fst files) s.
Proof. intros GR Gf O Rn. apply (pinv_run rescale spline cast GR (map fst files) _ s Rn). now apply pinv_start. Qed.

(** After any history of extracting tiles, reading images, caching and clearing images, switching the cache on or off, making subsets of observers
    (which share the images), resizing cameras, tracking, and shifting tiles that are not views of a cached array: a tile extracted with caching,
    or at the size of the cached array (else file), is the part in the box of the file at the camera's size; all arrays got before keep their
    contents.  With caching the image then holds its picture and the tile is a view of it; without, the images are as they were, and the tile is
    a view of what the image holds if it holds something of that size, and otherwise an array of its own. *)
Theorem observer_tiles : forall rescale spline cast files obs s, good_rescale rescale -> good_files files -> (forall o i, In o obs -> In i (o_images o) -> (i < length files)%nat) ->
  clean_run rescale spline cast (pstart files obs) s ->
  forall ob img i, In ob (p_obs s) -> py_get (o_images ob) img = Ok i ->
  exists im, nth_error (imgs (p_store s)) i = Some im /\ nth_error (map fst files) i = Some (hi_file im) /\
  forall b, box_inside (fst (hi_cam im)) (snd (hi_cam im)) b -> o_cache ob = true \/ hi_cam im = known_size (p_store s) im ->
  exists a st' t, extract_tile rescale ob b img (p_store s) = Ok (a, st') /\ contents st' a = Some t /\ tile_of (picture rescale im) b t /\
    (forall a', In a' (p_arrays s) -> contents st' a' = contents (p_store s) a') /\
    (if o_cache ob then exists im', nth_error (imgs st') i = Some im' /\ hi_array im' = Some (a_buf a) /\ held st' im' = Some (picture rescale im)
     else imgs st' = imgs (p_store s) /\ match hi_array im with Some k => a = mk_arr k (Some b) | None => unheld st' a end).
Proof.
  intros rescale spline cast files obs s GR Gf O Rn ob img i Io Eg. destruct (reach_img _ _ _ _ _ _ GR Gf O Rn) as (Gd & Ds & Fl & Ar & Ob).
  assert (Li : (i < length (imgs (p_store s)))%nat) by (apply (Ob ob); [exact Io|now apply py_get_in in Eg]).
  destruct (nth_error (imgs (p_store s)) i) as [im|] eqn:E; [|apply nth_error_None in E; lia]. exists im. split; [reflexivity|].
  split; [rewrite <- Fl; rewrite nth_error_map, E; reflexivity|]. intros b B HC.
  destruct (good_inv rescale (p_store s) im (Gd i im E)) as [I K]. pose proof (Gd i im E) as (PF & PC & _).
  destruct (rescale_psize rescale GR (hi_file im) PF _ PC) as [PS PR].
  assert (TL : tile_of (picture rescale im) b (subset b (picture rescale im))).
  { apply subset_tile; [exact PR|]. unfold psize in PS. unfold picture. rewrite <- PS in B. exact B. }
  unfold extract_tile. rewrite Eg. cbn [bind]. destruct (o_cache ob) eqn:OC.
  - destruct (read_full rescale GR (hi_file im) PF (Some b) true (sees (p_store s) im) I (or_intror eq_refl)) as (sh & s' & ER & _ & _ & HH).
    pose proof (refines rescale (p_store s) i im (Some b) true E K) as RF. rewrite ER in RF. destruct RF as (a & st' & im0 & ext & R2 & _).
    destruct (read_facts rescale GR _ i im (Some b) true a st' Gd Ds E R2) as (p & sh2 & s2 & im' & ext' & ER2 & C & Bf & Im & F & Cm & H & SH & Lt & Gd' & Ds').
    rewrite ER in ER2. injection ER2 as <- <- <-. destruct (HH eq_refl) as [H1 H2]. subst sh.
    exists a, st', (subset b (picture rescale im)). split; [exact R2|]. split; [exact C|]. split; [exact TL|]. split.
    + intros a' Ia. apply (contents_ext _ _ ext' a' Bf). now apply Ar.
    + exists im'. split; [rewrite Im; apply nth_error_set_nth_eq; exact Li|]. split; [exact SH|]. rewrite H. exact H1.
  - destruct HC as [HC|HC]; [discriminate|].
    destruct (hi_array im) as [k|] eqn:Ak.
    + pose proof (Gd i im E) as (_ & _ & A). rewrite Ak in A. destruct A as (p & Np & Pp & Ep).
      assert (Hh : held (p_store s) im = Some p) by (unfold held; now rewrite Ak). unfold known_size in HC. rewrite Hh in HC.
      assert (Pe : p = picture rescale im) by (unfold picture; congruence).
      exists (mk_arr k (Some b)), (p_store s), (subset b (picture rescale im)). split.
      * unfold read_image. rewrite E, Hh, Ak, HC. replace (size_eqb (psize p) (psize p)) with true by (symmetry; now apply size_eqb_true). reflexivity.
      * split; [unfold contents; cbn [a_buf a_box]; rewrite Np; cbn [option_map view]; now rewrite <- Pe|]. split; [exact TL|]. split; [reflexivity|]. split; reflexivity.
    + assert (Hh : held (p_store s) im = None) by (unfold held; now rewrite Ak). unfold known_size in HC. rewrite Hh in HC.
      assert (Cs : cached (sees (p_store s) im) = None) by exact Hh.
      assert (Bx : box_inside (pw (hi_file im)) (ph (hi_file im)) b) by (rewrite HC in B; exact B).
      pose proof (read_uncached_native rescale GR (hi_file im) PF b (sees (p_store s) im) I Cs HC Bx) as ER.
      pose proof (refines rescale (p_store s) i im (Some b) false E (fun k Q => K k (eq_trans (eq_sym Ak) Q))) as RF. rewrite ER in RF. destruct RF as (a & st' & im0 & ext & R2 & _).
      destruct (read_facts rescale GR _ i im (Some b) false a st' Gd Ds E R2) as (p & sh2 & s2 & im' & ext' & ER2 & C & Bf & Im & F & Cm & H & SH & Lt & Gd' & Ds').
      rewrite ER in ER2. injection ER2 as <- <- <-.
      assert (Pf : picture rescale im = hi_file im) by (unfold picture; rewrite HC; now apply (proj1 GR)).
      exists a, st', (subset b (hi_file im)). split; [exact R2|]. split; [exact C|]. split; [rewrite Pf in *; exact TL|]. split.
      * intros a' Ia. apply (contents_ext _ _ ext' a' Bf). now apply Ar.
      * pose proof (read_box_uncached _ _ _ _ _ _ R2) as Ie. split; [exact Ie|]. destruct SH as [SA _]. intros jm Jm. rewrite Ie in Jm. apply In_nth_error in Jm. destruct Jm as [j Ej].
        intros Hj. destruct (good_inv rescale (p_store s) jm (Gd j jm Ej)) as [_ KK]. specialize (KK _ Hj). lia.
Qed.
Print Assumptions observer_tiles.

(** cache_images(index): with an index out of range nothing happens but IndexError; otherwise exactly the images of the index then hold their
    picture (the file at the camera's size), the others hold what they held, and no array got before changes.  The same for clear_images, after
    which exactly the images of the index hold nothing. *)
Theorem observer_cache_images : forall rescale spline cast files obs s, good_rescale rescale -> good_files files -> (forall o i, In o obs -> In i (o_images o) -> (i < length files)%nat) ->
  clean_run rescale spline cast (pstart files obs) s -> forall ob ix, In ob (p_obs s) ->
  match pick ob ix with
  | Err e => e = IndexError /\ cache_images rescale ob ix (p_store s) = (p_store s, Err e) /\ clear_images ob ix (p_store s) = (p_store s, Err e)
  | Ok l => exists st1 st2, cache_images rescale ob ix (p_store s) = (st1, Ok tt) /\ clear_images ob ix (p_store s) = (st2, Ok tt) /\
      (forall a, In a (p_arrays s) -> contents st1 a = contents (p_store s) a /\ contents st2 a = contents (p_store s) a) /\
      forall i im, nth_error (imgs (p_store s)) i = Some im -> exists im1 im2, nth_error (imgs st1) i = Some im1 /\ nth_error (imgs st2) i = Some im2 /\
        hi_file im1 = hi_file im /\ hi_cam im1 = hi_cam im /\ hi_file im2 = hi_file im /\ hi_cam im2 = hi_cam im /\
        (In i l -> held st1 im1 = Some (picture rescale im) /\ held st2 im2 = None) /\
        (~ In i l -> held st1 im1 = held (p_store s) im /\ held st2 im2 = held (p_store s) im)
  end.
Proof.
  intros rescale spline cast files obs s GR Gf O Rn ob ix Io. destruct (reach_img _ _ _ _ _ _ GR Gf O Rn) as (Gd & Ds & Fl & Ar & Ob).
  unfold cache_images, clear_images. destruct (pick ob ix) as [l|e] eqn:Ep.
  - destruct (cache_all_facts rescale GR l (p_store s) Gd Ds) as (st1 & E1 & Gw & Gd' & Ds' & H1).
    { apply Forall_forall. intros i Ii. apply (Ob ob); [exact Io|now apply (pick_in ob ix l)]. }
    destruct (clear_all_facts l (p_store s)) as [B H2]. set (st2 := fold_left (fun st i => clear_image i st) l (p_store s)) in *.
    exists st1, st2. split; [exact E1|]. split; [reflexivity|]. split.
    + intros a Ia. split; [apply (grown_contents _ _ a Gw); now apply Ar|]. unfold contents. now rewrite B.
    + intros i im E. destruct (H1 i im E) as (im1 & N1 & F1 & C1 & Hd). specialize (H2 i). rewrite E in H2. cbn [option_map] in H2.
      eexists im1, _. split; [exact N1|]. split; [exact H2|]. split; [exact F1|]. split; [exact C1|].
      rewrite Hd. destruct (in_dec Nat.eq_dec i l) as [Y|N]; cbn [hi_file hi_cam].
      * split; [reflexivity|]. split; [reflexivity|]. split; [intros _; split; reflexivity|contradiction].
      * split; [reflexivity|]. split; [reflexivity|]. split; [contradiction|]. intros _. split; [reflexivity|]. unfold held. now rewrite B.
  - split; [|split; reflexivity]. destruct ix as [lo hi|z]; cbn [pick] in Ep; [discriminate|]. clear - Ep. induction z as [|x z IH]; cbn [mapM] in Ep; [discriminate|].
    destruct (py_get (o_images ob) x) as [y|e'] eqn:G; cbn [bind] in Ep; [|injection Ep as <-; exact (py_get_err _ _ _ G)].
    destruct (mapM (py_get (o_images ob)) z); cbn [bind] in Ep; [discriminate|]. apply IH. exact Ep.
Qed.
Print Assumptions observer_cache_images.
(** which images an index picks: l[i] with negative i counting from the end, and slices *)
Theorem observer_index : forall ob,
  pick ob (ISlice None None) = Ok (o_images ob) /\
  (forall z, (exists l, pick ob (IInts z) = Ok l) <-> Forall (fun i => - Z.of_nat (length (o_images ob)) <= i < Z.of_nat (length (o_images ob))) z) /\
  (forall z l, pick ob (IInts z) = Ok l -> length l = length z /\ forall j i, nth_error z j = Some i ->
     nth_error l j = nth_error (o_images ob) (Z.to_nat (if i <? 0 then Z.of_nat (length (o_images ob)) + i else i))).
Proof.
  intros ob. set (im := o_images ob).
  assert (PG : forall i, if ((- Z.of_nat (length im) <=? i) && (i <? Z.of_nat (length im)))%bool
     then exists x, py_get im i = Ok x /\ nth_error im (Z.to_nat (if i <? 0 then Z.of_nat (length im) + i else i)) = Some x else py_get im i = Err IndexError).
  { intros i. unfold py_get, py_index. destruct (Z.leb_spec (- Z.of_nat (length im)) i) as [Q|Q]; cbn [andb].
    - rewrite (proj2 (Z.ltb_ge i (- Z.of_nat (length im)))) by lia. destruct (Z.ltb_spec i 0) as [N|N].
      + rewrite (proj2 (Z.ltb_lt i (Z.of_nat (length im)))) by lia. cbn [bind].
        destruct (nth_error im (Z.to_nat (Z.of_nat (length im) + i))) as [x|] eqn:E; [now exists x|]. apply nth_error_None in E. lia.
      + destruct (Z.ltb_spec i (Z.of_nat (length im))); [|reflexivity]. cbn [bind].
        destruct (nth_error im (Z.to_nat i)) as [x|] eqn:E; [now exists x|]. apply nth_error_None in E. lia.
    - rewrite (proj2 (Z.ltb_lt i (- Z.of_nat (length im)))) by lia. reflexivity. }
  split; [|split].
  - cbn [pick]. fold im. unfold py_slice, slice_bound. cbn [Z.ltb Z.compare]. rewrite (proj2 (Z.ltb_ge _ 0)) by lia. rewrite Z.min_id, Z.min_l by lia. rewrite Z.sub_0_r, Nat2Z.id. cbn [Z.to_nat skipn]. now rewrite firstn_all.
  - intros z. cbn [pick]. fold im. induction z as [|i z [IH1 IH2]]; cbn [mapM]; [split; [constructor|eauto]|]. specialize (PG i). split.
    + intros [l E]. destruct (_ && _)%bool eqn:W in PG; [|rewrite PG in E; discriminate]. destruct PG as (x & PG & _). rewrite PG in E. cbn [bind] in E. destruct (mapM (py_get im) z) as [ys|] eqn:M; [|discriminate].
      constructor; [lia|]. apply IH1. now exists ys.
    + intros Fz. inversion Fz as [|? ? Hi Fz']; subst. replace (_ && _)%bool with true in PG by lia. destruct PG as (x & PG & _). rewrite PG. destruct (IH2 Fz') as [ys M]. rewrite M. cbn [bind]. eauto.
  - intros z. cbn [pick]. fold im. induction z as [|i z IH]; intros l; cbn [mapM]; [intros Q; injection Q as <-; split; [reflexivity|intros [|j]; discriminate]|]. specialize (PG i).
    destruct (_ && _)%bool in PG; [|rewrite PG; discriminate]. destruct PG as (x & PG & N). rewrite PG. cbn [bind]. destruct (mapM (py_get im) z) as [ys|] eqn:M; [|discriminate]. cbn [bind]. intros Q. injection Q as <-.
    destruct (IH ys eq_refl) as [L H]. split; [cbn [length]; now rewrite L|]. intros [|j] k; cbn [nth_error]; [intros Q; injection Q as <-; now rewrite N|apply H].
Qed.
Print Assumptions observer_index.

(** ** shift_tile *)
(** shift_tile raises ValueError exactly if the shift is larger than half a pixel, or a size of the tile does not exceed the degree of the spline;
    otherwise each band of each pixel is the spline of the band at the shifted center of the pixel, in the type of the tile. *)
Theorem observer_shift_tile : forall spline cast kx ky duv t, proper t ->
  ((exists w, shift_tile spline cast kx ky duv t = Ok w) <-> (Rabs (fst duv) <= / 2 /\ Rabs (snd duv) <= / 2)%R /\ kx < ph t /\ ky < pw t) /\
  (forall e, shift_tile spline cast kx ky duv t = Err e -> e = ValueError) /\
  (forall w, shift_tile spline cast kx ky duv t = Ok w -> proper w /\ psize w = psize t /\
     forall i j, 0 <= i < ph t -> 0 <= j < pw t -> exists px, pixel w i j = Some px /\ length px = nbands t /\
     forall k, (k < nbands t)%nat -> nth k px 0%R =
       cast (spline (map (fun n => INR n + / 2) (seq 0 (Z.to_nat (ph t)))) (map (fun n => INR n + / 2) (seq 0 (Z.to_nat (pw t)))) (map (map (fun q => nth k q 0)) (rows t))
         (IZR i + / 2 + snd duv) (IZR j + / 2 + fst duv))%R).
Proof.
  intros spline cast kx ky duv t Pt. split; [|split].
  - pose proof (shift_ok spline cast kx ky duv t) as H. split.
    + intros [w E]. rewrite E in H. destruct (proj1 H eq_refl) as (A & B & C & D). repeat split; assumption.
    + intros ((A & B) & C & D). assert (Q : is_ok (shift_tile spline cast kx ky duv t) = true) by (apply H; auto). destruct (shift_tile spline cast kx ky duv t); [eauto|discriminate].
  - intros e. apply shift_err.
  - intros w E. destruct (shift_pixels spline cast kx ky duv t w Pt E) as (Pw & Sz & H). split; [exact Pw|]. split; [exact Sz|]. intros i j Hi Hj. rewrite (H i j Hi Hj).
    eexists. split; [reflexivity|]. split; [now rewrite map_length, seq_length|]. intros k Hk. set (g := fun k0 => cast _). rewrite (nth_indep _ 0%R (g 0%nat)) by (rewrite map_length, seq_length; exact Hk). rewrite map_nth, seq_nth by exact Hk. cbn [Nat.add]. unfold g.
    destruct Pt as (P1 & P2 & _). unfold band. rewrite !centers_eq by assumption.
    assert (Q : forall n, map (fun i => / 2 + INR i)%R (seq 0 n) = map (fun i => INR i + / 2)%R (seq 0 n)) by (intros n; apply map_ext; intros; ring). now rewrite !Q.
Qed.
Print Assumptions observer_shift_tile.
