(** C46, C47: reading and constructing images. *)
From Verif Require Import Base BaseLemmas HelpersModel CameraModel CameraSpec ImageModel ImageSpec ImageProofs CameraStateProofs.
Open Scope Z_scope.

(** After any history of reads (with any boxes and flags), camera resizes and clearings of the cache: a cached read of a box gives
    that part of the picture at the camera's size, a read without box the picture, and caching reads leave the picture in the cache. *)
Theorem image_read_history : forall V rescale (file : pic V) s b cache, good_rescale rescale -> proper file -> reached rescale file s ->
  box_inside (fst (camsz s)) (snd (camsz s)) b ->
  psize (rescale file (camsz s)) = camsz s /\
  (exists t sh s', read rescale file (Some b) true s = Ok (t, sh, s') /\ tile_of (rescale file (camsz s)) b t /\ cached s' = Some (rescale file (camsz s))) /\
  (exists sh s', read rescale file None cache s = Ok (rescale file (camsz s), sh, s') /\ (cache = true -> cached s' = Some (rescale file (camsz s)))) /\
  (camsz s = psize file -> rescale file (camsz s) = file).
Proof.
  intros V rescale file s b cache G F Rd B. pose proof (inv_reached rescale G file F s Rd) as I.
  destruct (rescale_psize rescale G file F _ (proj1 I)) as [PS PR]. split; [exact PS|]. split; [|split].
  - destruct (read_full rescale G file F (Some b) true s I (or_intror eq_refl)) as (sh & s' & E & _ & _ & C). eexists _, _, _. split; [exact E|]. split; [|now apply C].
    apply subset_tile; [exact PR|]. destruct (camsz s) as [w h]. unfold psize in PS. injection PS as -> ->. exact B.
  - destruct (read_full rescale G file F None cache s I (or_introl eq_refl)) as (sh & s' & E & _ & _ & C). eexists _, _. split; [exact E|]. intros Q. now apply C.
  - intros ->. now apply (proj1 G).
Qed.
Print Assumptions image_read_history.
(** Reading a box without caching gives the same part, provided the camera has the size of the cached picture, or nothing is cached and it has the
    size of the file; the image is left as it was. *)
Theorem image_read_uncached : forall V rescale (file : pic V) s b, good_rescale rescale -> proper file -> reached rescale file s ->
  box_inside (fst (camsz s)) (snd (camsz s)) b ->
  camsz s = match cached s with Some a => psize a | None => psize file end ->
  exists t sh, read rescale file (Some b) false s = Ok (t, sh, s) /\ tile_of (rescale file (camsz s)) b t.
Proof.
  intros V rescale file s b G F Rd B E. pose proof (inv_reached rescale G file F s Rd) as I.
  destruct (rescale_psize rescale G file F _ (proj1 I)) as [PS PR]. destruct (cached s) as [a|] eqn:C.
  - destruct I as [P I]. rewrite C in I. destruct I as [Pa Ea]. exists (subset b a), true. split.
    + unfold read. rewrite C, E. replace (size_eqb (psize a) (psize a)) with true by (symmetry; now apply size_eqb_true). destruct b as [[[l t] r] d]. reflexivity.
    + rewrite E, <- Ea. apply subset_tile; [rewrite Ea, <- E; exact PR|]. rewrite E in B. exact B.
  - exists (subset b file), false. split.
    + apply read_uncached_native; auto. rewrite E in B. exact B.
    + rewrite E, (proj1 G) by assumption. apply subset_tile; [exact F|]. rewrite E in B. exact B.
Qed.
Print Assumptions image_read_uncached.
(** Otherwise (the camera was resized, or the cached picture is from before a resize) the array has the size of the whole camera image instead of the
    size of the box. *)
Theorem image_read_uncached_refuted : forall V rescale (file : pic V) s b t sh s', good_rescale rescale -> proper file -> reached rescale file s ->
  camsz s <> match cached s with Some a => psize a | None => psize file end ->
  read rescale file (Some b) false s = Ok (t, sh, s') -> psize t = camsz s.
Proof.
  intros V rescale file s [[[l tp] r] d] t sh s' G F Rd NE E. pose proof (inv_reached rescale G file F s Rd) as I. destruct I as [P _].
  unfold read in E. cbv zeta in E.
  set (size := match cached s with Some a => psize a | None => psize file end) in *. 
  assert (NB : size_eqb (camsz s) size = false) by (destruct (size_eqb (camsz s) size) eqn:Q; [apply size_eqb_true in Q; contradiction|reflexivity]).
  rewrite NB in E. cbn [negb] in E.
  assert (K : forall win a, gdal_read rescale file (Some win) (Some (camsz s)) = Ok a -> psize a = camsz s).
  { intros [[[x y] wx] wy] a. unfold gdal_read. destruct (_ || _)%bool eqn:O; [discriminate|]. intros Q. injection Q as <-.
    repeat (apply orb_false_iff in O; destruct O as [O ?]). rewrite ?Z.ltb_ge, ?Z.leb_gt in *.
    destruct (camsz s) as [w h]. destruct P as [P1 P2]. cbn [fst snd] in P1, P2. apply (proj2 G); auto.
    pose proof (subset_tile file (x, y, x + wx, y + wy)) as T. apply T; [exact F|]. unfold box_inside. lia. }
  destruct (cached s) as [a|];
  (match type of E with context [gdal_read ?r ?f ?w ?b] => destruct (gdal_read r f w b) as [a0|] eqn:GR; [|discriminate] end;
   cbn [bind orb negb] in E; injection E as <- _ _; now apply K in GR).
Qed.
Print Assumptions image_read_uncached_refuted.
(** Exactly what is returned then: the box, scaled by the ratio of the size of the cached array (or of the file, if nothing is cached) to that of
    the camera and rounded, is used as a window of the file, and that window is resampled to the size of the whole camera image (so the pixels
    are not those of the box, and if something is cached not even those of its part of the file); if the window is empty or leaves the file the
    read fails. The image is left as it was. *)
Theorem image_read_uncached_resized : forall V rescale (file : pic V) s l t r d, good_rescale rescale -> proper file -> reached rescale file s ->
  let size := match cached s with Some a => psize a | None => psize file end in
  camsz s <> size ->
  let sx v := Rround (IZR v * (IZR (fst size) / IZR (fst (camsz s)))) in let sy v := Rround (IZR v * (IZR (snd size) / IZR (snd (camsz s)))) in
  let w := (sx l, sy t, sx l + sx (r - l), sy t + sy (d - t))%Z in
  (box_inside (pw file) (ph file) w ->
     exists win, tile_of file w win /\ read rescale file (Some (l, t, r, d)) false s = Ok (rescale win (camsz s), false, s)) /\
  (~ box_inside (pw file) (ph file) w -> exists e, read rescale file (Some (l, t, r, d)) false s = Err e).
Proof.
  intros V rescale file s l tp r d G F Rd size NE sx sy w.
  assert (E : read rescale file (Some (l, tp, r, d)) false s
    = let* a := gdal_read rescale file (Some (sx l, sy tp, sx (r - l)%Z, sy (d - tp)%Z)) (Some (camsz s)) in Ok (a, false, s)).
  { unfold read. fold size.
    assert (NB : size_eqb (camsz s) size = false) by (destruct (size_eqb (camsz s) size) eqn:Q; [apply size_eqb_true in Q; contradiction|reflexivity]).
    rewrite NB. cbn [negb]. unfold to_file. fold (sx l) (sy tp) (sx (r - l)%Z) (sy (d - tp)%Z).
    destruct (cached s); (destruct (gdal_read _ _ _ _) as [a0|]; [reflexivity|reflexivity]). }
  rewrite E. unfold gdal_read. unfold w, box_inside. split.
  - intros B.
    assert (O : ((sx l <? 0) || (sy tp <? 0) || (sx (r - l) <=? 0) || (sy (d - tp) <=? 0) || (pw file <? sx l + sx (r - l)) || (ph file <? sy tp + sy (d - tp)))%Z%bool = false).
    { repeat (apply orb_false_iff; split); rewrite ?Z.ltb_ge, ?Z.leb_gt; lia. }
    rewrite O. cbn [bind]. eexists. split; [|reflexivity].
    apply (subset_tile file (sx l, sy tp, sx l + sx (r - l), sy tp + sy (d - tp))%Z F). unfold box_inside. lia.
  - intros N.
    destruct (_ || _)%bool eqn:O; [eexists; reflexivity|]. exfalso. apply N.
    repeat (apply orb_false_iff in O; destruct O as [O ?]). rewrite ?Z.ltb_ge, ?Z.leb_gt in *. lia.
Qed.
Print Assumptions image_read_uncached_resized.
(** The array returned by a caching read is the cached one: after writing into it (here: replacing it by [p'] of the same size), the next read
    gives what was written. *)
Theorem image_read_shared_refuted : forall V rescale (file : pic V) s p sh s', good_rescale rescale -> proper file -> reached rescale file s ->
  read rescale file None true s = Ok (p, sh, s') ->
  sh = true /\ cached s' = Some p /\
  forall p' cache, psize p' = psize p -> exists s'', read rescale file None cache (mk_istate (Some p') (camsz s')) = Ok (p', true, s'').
Proof.
  intros V rescale file s p sh s' G F Rd E. pose proof (inv_reached rescale G file F s Rd) as I.
  destruct (rescale_psize rescale G file F _ (proj1 I)) as [PS PR].
  destruct (read_full rescale G file F None true s I (or_introl eq_refl)) as (sh2 & s2 & E2 & _ & CZ & C). rewrite E in E2. injection E2 as -> -> <-.
  destruct (C eq_refl) as [C1 C2]. split; [exact C2|]. split; [exact C1|]. intros p' cache Q.
  unfold read. cbn [cached camsz]. rewrite CZ, Q, PS. replace (size_eqb (camsz s) (camsz s)) with true by (symmetry; now apply size_eqb_true). cbn [negb bind].
  destruct cache; eexists; reflexivity.
Qed.
Print Assumptions image_read_shared_refuted.

(** nearest neighbour rescaling is one of the rescalings covered *)
Definition nearest {V} (d : V) (a : pic V) (n : Z * Z) : pic V :=
  mkpic (fst n) (snd n) (map (fun i => map (fun j => nth (Z.to_nat (Z.of_nat j * pw a / fst n)) (nth (Z.to_nat (Z.of_nat i * ph a / snd n)) (rows a) []) d)
    (seq 0 (Z.to_nat (fst n)))) (seq 0 (Z.to_nat (snd n)))).
Lemma map_nth_seq {A} (l : list A) d : map (fun i => nth i l d) (seq 0 (length l)) = l.
Proof. induction l as [|x l IH]; [reflexivity|]. cbn [length seq map nth]. f_equal. rewrite <- seq_shift, map_map. exact IH. Qed.
Example image_read_ex : good_rescale (nearest 0%nat).
Proof.
  split.
  - intros [w h rs] (W & H & L & Rw). cbn [pw ph rows] in *. unfold nearest, psize. cbn [pw ph rows fst snd]. f_equal.
    transitivity (map (fun i => nth i rs []) (seq 0 (length rs))); [|apply map_nth_seq]. rewrite L. apply map_ext_in. intros i Hi. apply in_seq in Hi.
    rewrite Z.div_mul by lia. rewrite Nat2Z.id. set (r := nth i rs []). assert (Lr : length r = Z.to_nat w) by (apply Rw; apply nth_In; lia).
    transitivity (map (fun j => nth j r 0%nat) (seq 0 (length r))); [|apply map_nth_seq]. rewrite Lr. apply map_ext. intros j. rewrite Z.div_mul by lia. now rewrite Nat2Z.id.
  - intros a w h _ W H. split; [|reflexivity]. unfold proper, nearest. cbn [pw ph rows fst snd]. split; [lia|]. split; [lia|]. split; [now rewrite map_length, seq_length|].
    intros r Hr. apply in_map_iff in Hr. destruct Hr as (i & <- & _). now rewrite map_length, seq_length.
Qed.
(** a camera at half size: without caching the tile has the wrong size *)
Example image_read_uncached_ex : let file := mkpic 4 2 [[1;2;3;4];[5;6;7;8]]%nat in
  proper file /\ (exists s, read (nearest 0%nat) file (Some (0, 0, 1, 1)) true (fresh (2, 1)) = Ok (mkpic 1 1 [[1%nat]], true, s)) /\
  (exists s, read (nearest 0%nat) file (Some (0, 0, 1, 1)) false (fresh (2, 1)) = Ok (mkpic 2 1 [[1%nat; 2%nat]], false, s)).
Proof.
  cbv zeta. split; [|split].
  - repeat split; cbn; try lia. intros r [<-|[<-|[]]]; reflexivity.
  - eexists. reflexivity.
  - eexists. unfold read. cbv zeta. cbn [cached fresh camsz psize pw ph fst snd negb size_eqb].
    assert (T : forall v n c k, (IZR v * (IZR n / IZR c) = IZR k)%R -> to_file v n c = k) by (intros v n c k Q; unfold to_file; rewrite Q; apply Rround_IZR).
    rewrite !(T 0 _ _ 0) by (cbn; field). rewrite (T (1 - 0) 4 2 2) by (cbn; field). rewrite (T (1 - 0) 2 1 2) by (cbn; field). reflexivity.
Qed.

(** ** Constructor (C47) *)
(** With an image size and a focal length in pixels, or with image size, sensor size and focal length in millimetres, the camera is exactly
    Camera with these arguments, whatever the metadata; if a datetime is given too, metadata is not even read. *)
Theorem image_complete_arguments : forall load d datetime ex,
  (has (d_imgsz d) = true /\ has (d_f d) = true) \/ (has (d_imgsz d) = true /\ has (d_fmm d) = true /\ has (d_sensorsz d) = true) ->
  (forall t, datetime = Some t -> new_image load (CDict d) datetime ex = let* c := camera_of d in Ok (mk_img c (Some t) ex)) /\
  (forall i, new_image load (CDict d) datetime ex = Ok i -> camera_of d = Ok (i_cam i)).
Proof.
  intros load d datetime ex H.
  assert (B : negb ((has (d_imgsz d) && has (d_f d)) || (has (d_fmm d) && has (d_sensorsz d)))%bool = false).
  { destruct H as [[-> ->]|(_ & -> & ->)]; [reflexivity|]. now rewrite orb_true_r. }
  unfold new_image. rewrite B. cbn [bind]. split.
  - intros t ->. destruct (camera_of d); reflexivity.
  - intros i. destruct (camera_of d) as [c|]; cbn [bind]; [|discriminate]. destruct datetime as [t|]; cbn [bind].
    + intros Q. injection Q as <-. reflexivity.
    + destruct ex as [x|]; cbn [bind]; [intros Q; injection Q as <-; reflexivity|]. destruct load as [x|]; cbn [bind]; [|discriminate]. intros Q. injection Q as <-. reflexivity.
Qed.
Print Assumptions image_complete_arguments.
(** Without those, if the focal length in pixels is not given, arguments override and supplement the metadata: the camera is Camera(imgsz, sensorsz, fmm, ...)
    with each of these taken from the arguments where present and from the metadata otherwise. *)
Theorem image_supplemented_arguments : forall x d t imgsz fmm,
  d_f d = None -> ~ (has (d_fmm d) = true /\ has (d_sensorsz d) = true) ->
  exif_imgsz x = Ok imgsz -> exif_fmm x = Ok fmm ->
  new_image (Ok x) (CDict d) (Some t) None =
  let* c := camera_of (mk_dict (Some (match d_imgsz d with Some v => v | None => imgsz end)) None (d_c d)
     (Some (match d_sensorsz d with Some v => v | None => x_sensor x end)) (Some (match d_fmm d with Some v => v | None => fmm end))
     (d_cmm d) (d_k d) (d_p d) (d_xyz d) (d_viewdir d) (d_correction d)) in Ok (mk_img c (Some t) (Some x)).
Proof.
  intros x d t imgsz fmm Ff NS E1 E2. unfold new_image. rewrite Ff.
  assert (B : negb ((has (d_imgsz d) && @has (option (list R)) None) || (has (d_fmm d) && has (d_sensorsz d)))%bool = true).
  { destruct (has (d_fmm d)), (has (d_sensorsz d)); try (exfalso; now apply NS); rewrite ?andb_false_r; reflexivity. }
  rewrite B. cbn [bind]. rewrite E1, E2. cbn [bind]. unfold supplement, dflt. rewrite Ff. destruct (camera_of _); reflexivity.
Qed.
Print Assumptions image_supplemented_arguments.
(** Generally: unless (image size and focal length in pixels) or (focal length in millimetres and sensor size) are among the arguments, image
    size, focal length in millimetres and sensor size that are not among the arguments are taken from the metadata (given, or else
    read from the file), also when the metadata does not have them; everything else is as passed. A metadata file that cannot be read, or whose
    sizes or focal length are not numbers, makes the constructor raise. Without camera arguments all three are taken from the metadata. *)
Theorem image_metadata_arguments : forall load a d datetime ex, a = CDict d \/ (a = CNone /\ d = empty_dict) ->
  ~ (has (d_imgsz d) = true /\ has (d_f d) = true) -> ~ (has (d_fmm d) = true /\ has (d_sensorsz d) = true) ->
  let meta := match ex with Some x => Ok x | None => load end in
  (forall e, meta = Err e -> new_image load a datetime ex = Err e) /\
  (forall x, meta = Ok x ->
     (forall e, exif_imgsz x = Err e -> new_image load a datetime ex = Err e) /\
     (forall imgsz e, exif_imgsz x = Ok imgsz -> exif_fmm x = Err e -> new_image load a datetime ex = Err e) /\
     (forall imgsz fmm, exif_imgsz x = Ok imgsz -> exif_fmm x = Ok fmm ->
        new_image load a datetime ex =
        let* c := camera_of (mk_dict (Some (match d_imgsz d with Some v => v | None => imgsz end)) (d_f d) (d_c d)
          (Some (match d_sensorsz d with Some v => v | None => x_sensor x end)) (Some (match d_fmm d with Some v => v | None => fmm end))
          (d_cmm d) (d_k d) (d_p d) (d_xyz d) (d_viewdir d) (d_correction d)) in
        Ok (mk_img c (match datetime with Some t => Some t | None => x_datetime x end) (Some x)))).
Proof.
  intros load a d datetime ex A N1 N2 meta.
  assert (B : negb ((has (d_imgsz d) && has (d_f d)) || (has (d_fmm d) && has (d_sensorsz d)))%bool = true).
  { destruct (has (d_imgsz d)), (has (d_f d)), (has (d_fmm d)), (has (d_sensorsz d)); try reflexivity; exfalso; solve [now apply N1|now apply N2]. }
  assert (E : new_image load a datetime ex
    = let* (c, ex) := (let* (d, ex) := (let* x := meta in let* s := exif_imgsz x in let* f := exif_fmm x in Ok (supplement s f (x_sensor x) d, Some x)) in
                       let* c := camera_of d in Ok (c, ex)) in
      let* (dt, ex) := match datetime with Some t => Ok (Some t, ex) | None => let* x := match ex with Some x => Ok x | None => load end in Ok (x_datetime x, Some x) end in
      Ok (mk_img c dt ex)).
  { destruct A as [->|[-> ->]]; unfold new_image; rewrite B; reflexivity. }
  rewrite E. split.
  - intros e ->. reflexivity.
  - intros x ->. cbn [bind]. split; [|split].
    + intros e ->. reflexivity.
    + intros s e -> ->. reflexivity.
    + intros s f -> ->. cbn [bind]. unfold supplement, dflt. destruct (camera_of _); cbn [bind]; [|reflexivity]. destruct datetime; reflexivity.
Qed.
Print Assumptions image_metadata_arguments.
(** A camera object is used as it is. *)
Theorem image_camera_argument : forall load c t ex,
  new_image load (CCam c) (Some t) ex = Ok (mk_img (MadeCam c) (Some t) ex) /\
  new_image load (CCam c) None ex = let* x := match ex with Some x => Ok x | None => load end in Ok (mk_img (MadeCam c) (x_datetime x) (Some x)).
Proof.
  intros load c t ex. split; [reflexivity|]. unfold new_image. cbn [bind]. destruct ex as [x|]; [reflexivity|]. destruct load; reflexivity.
Qed.
Print Assumptions image_camera_argument.
(** Refuted: a focal length in pixels does not override the metadata's focal length; the constructor raises ... *)
Theorem image_f_argument_refuted : forall x d t imgsz fmm f,
  d_f d = Some (Some f) -> d_imgsz d = None -> d_fmm d = None -> exif_imgsz x = Ok imgsz -> exif_fmm x = Ok (Some fmm) ->
  new_image (Ok x) (CDict d) (Some t) None = Err ValueError.
Proof.
  intros x d t imgsz fmm f Ff Fi Fm E1 E2. unfold new_image. rewrite Fi, Fm. cbn [has andb orb negb bind]. rewrite E1, E2. cbn [bind].
  unfold camera_of, supplement, dflt. cbn [d_imgsz d_f d_c d_sensorsz d_fmm d_cmm]. rewrite Fi, Fm, Ff.
  assert (K : forall s, construct (args_of (mk_dict (Some imgsz) (Some (Some f)) (d_c d) (Some match d_sensorsz d with Some a => a | None => x_sensor x end) (Some (Some fmm)) (d_cmm d)
      (d_k d) (d_p d) (d_xyz d) (d_viewdir d) (d_correction d)) s) = Err ValueError).
  { intros s. unfold construct, args_of, dflt. cbn [a_fmm a_cmm a_sensorsz a_f d_f d_fmm d_sensorsz d_cmm given orb andb]. destruct (negb _); reflexivity. }
  destruct imgsz as [s|]; rewrite K; reflexivity.
Qed.
Print Assumptions image_f_argument_refuted.
(** ... an image size is not taken from the metadata when focal length in millimetres and sensor size are given ... *)
Theorem image_missing_size_refuted : forall load d datetime ex, has (d_fmm d) = true -> has (d_sensorsz d) = true -> d_imgsz d = None ->
  new_image load (CDict d) datetime ex = Err TypeError.
Proof. intros load d datetime ex H1 H2 H3. unfold new_image. rewrite H1, H2, H3, orb_true_r. cbn [negb bind]. unfold camera_of. rewrite H3. reflexivity. Qed.
Print Assumptions image_missing_size_refuted.
(** ... and metadata without an image size, like a focal length recorded as 0/0, does not give the expected error: the camera silently has no
    size, and the constructor raises ZeroDivisionError. *)
Theorem image_bad_metadata_refuted : forall x t fmm sensor,
  x_width x = None -> exif_fmm x = Ok (Some [fmm]) -> x_sensor x = Some sensor -> length sensor = 2%nat ->
  (x_height x = None -> new_image (Ok x) CNone (Some t) None = Ok (mk_img MadeNanSize (Some t) (Some x))) /\
  (forall a, new_image (Ok (mk_exif (x_width x) None (Some (TPair a 0)) (x_sensor x) (x_datetime x))) CNone (Some t) None = Err ZeroDivisionError).
Proof.
  intros x t fmm sensor W Fm Sn L. split.
  - intros H. unfold new_image. cbn [has d_imgsz d_f d_fmm empty_dict andb orb negb bind]. unfold exif_imgsz. rewrite W, H. cbn [parse_tag truthy_num bind]. rewrite Fm. cbn [bind].
    unfold camera_of, supplement. cbn [dflt d_imgsz empty_dict]. rewrite Sn. destruct sensor as [|s0 [|s1 [|]]]; try discriminate.
    match goal with |- context [construct ?a] => assert (E : exists c, construct a = Ok c) end.
    { match goal with |- exists c, construct ?a = Ok c => destruct (construct_spec a) as [_ H0] end; try (cbn; unfold nonempty; congruence).
      destruct H0 as (c & E & _); [|now exists c]. unfold rejected. cbn. intros [[[A|A] B]|[[A B]|[[A B]|[[A B]|A]]]]; try congruence. apply A.
      repeat constructor; eexists; reflexivity. }
    destruct E as [c ->]. reflexivity.
  - intros a. unfold new_image. cbn [has d_imgsz d_f d_fmm empty_dict andb orb negb bind]. unfold exif_imgsz, exif_fmm. cbn [x_width x_height x_focal]. rewrite W. reflexivity.
Qed.
Print Assumptions image_bad_metadata_refuted.
Example image_arguments_ex :
  let x := mk_exif (Some (TInt 800)) (Some (TInt 536)) (Some (TPair 200 10)) (Some [23; 15]%R) (Some 7) in
  exif_imgsz x = Ok (Some [IZR 800; IZR 536]) /\ exif_fmm x = Ok (Some [IZR 200 / IZR 10]%R).
Proof.
  cbv zeta. unfold exif_imgsz, exif_fmm. cbn [x_width x_height x_focal parse_tag bind truthy_num Z.eqb].
  assert (N : forall z, z <> 0 -> Reqb (IZR z) 0 = false) by (intros z Hz; apply Reqb_false; now apply not_0_IZR).
  rewrite !N by lia. cbn [bind]. rewrite !CameraStateProofs.Rtrunc_IZR. split; [reflexivity|].
  assert (Q : Reqb (IZR 200 / IZR 10) 0 = false) by (apply Reqb_false; lra). rewrite Q. reflexivity.
Qed.
