(** Property theorems about the animations of observers: C116 (src/glimpse/track/observer.py). *)
From Verif Require Import Base BaseLemmas HelpersModel GridModel TemplateModel TemplateSpec TemplateProofs P_Template ImageModel ObserverModel MeshModel CameraModel AnimateModel.
Open Scope R_scope.

(** ** Specification: one axis of an image of n pixels and a tile of w pixels about x *)
Definition from (x : R) (w : Z) : R := x - IZR w / 2.
Definition upto (x : R) (w : Z) : R := x + IZR w / 2.
(** the tile has an end in the image *)
Definition end_inside (n w : Z) (x : R) : Prop := 0 <= from x w <= IZR n \/ 0 <= upto x w <= IZR n.
(** the tile and the image overlap *)
Definition overlap (n w : Z) (x : R) : Prop := Rmax 0 (from x w) < Rmin (IZR n) (upto x w).
(** a range of whole pixels: in the image, and its ends within half a pixel of the overlap's *)
Definition nearest_pixels (n w : Z) (x : R) (a b : Z) : Prop :=
  (0 <= a <= b)%Z /\ (b <= n)%Z /\ Rabs (IZR a - Rmax 0 (from x w)) <= / 2 /\ Rabs (IZR b - Rmin (IZR n) (upto x w)) <= / 2.

Definition inb (n : Z) (x : R) : bool := (Rleb 0 x && Rleb x (IZR n))%bool.
Lemma inb_true n x : inb n x = true <-> 0 <= x <= IZR n.
Proof. unfold inb, Rleb. destruct (Rle_dec 0 x), (Rle_dec x (IZR n)); cbn; split; intros; try discriminate; try reflexivity; lra. Qed.
Lemma inb_false n x : inb n x = false <-> ~ (0 <= x <= IZR n).
Proof. rewrite <- (inb_true n x). destruct (inb n x); split; congruence. Qed.
Definition snapped (n w : Z) (x : R) : Z * Z := (Rfloor (Rmax 0 (from x w) + / 2), Rfloor (Rmin (IZR n) (upto x w) + / 2)).
Lemma snapped_nearest n w x : (0 < n)%Z -> overlap n w x -> nearest_pixels n w x (fst (snapped n w x)) (snd (snapped n w x)).
Proof.
  intros N O. unfold overlap in O. unfold snapped, nearest_pixels. cbn [fst snd]. pose proof (Rmax_l 0 (from x w)) as A. pose proof (Rmin_l (IZR n) (upto x w)) as B.
  pose proof (Rfloor_lb (Rmax 0 (from x w) + / 2)). pose proof (Rfloor_ub (Rmax 0 (from x w) + / 2)). pose proof (Rfloor_lb (Rmin (IZR n) (upto x w) + / 2)). pose proof (Rfloor_ub (Rmin (IZR n) (upto x w) + / 2)).
  split; [split|split; [|split]].
  - apply Rfloor_le. lra.
  - apply Rfloor_mono. lra.
  - apply Z.lt_succ_r. apply Rfloor_lt. rewrite succ_IZR. lra.
  - apply Rabs_le. lra.
  - apply Rabs_le. lra.
Qed.
Lemma ends_or n w x : end_inside n w x <-> (inb n (from x w) || inb n (upto x w))%bool = true.
Proof. unfold end_inside. rewrite Bool.orb_true_iff, !inb_true. reflexivity. Qed.

Lemma frame_box_eq nx ny uv w h : (0 < nx)%Z -> (0 < ny)%Z -> (0 < w)%Z -> (0 < h)%Z ->
  let corner := end_inside nx w (fst uv) /\ end_inside ny h (snd uv) in
  let over := overlap nx w (fst uv) /\ overlap ny h (snd uv) in
  (~ corner -> frame_box nx ny uv (w, h) = Ok None) /\
  (corner -> over -> frame_box nx ny uv (w, h) = Ok (Some (IZR (fst (snapped nx w (fst uv))), IZR (fst (snapped ny h (snd uv))), IZR (snd (snapped nx w (fst uv))), IZR (snd (snapped ny h (snd uv)))))) /\
  (corner -> ~ over -> frame_box nx ny uv (w, h) = Err ValueError).
Proof.
  intros Nx Ny W H corner over. destruct uv as [u v]. cbn [fst snd] in *. apply IZR_lt in W. apply IZR_lt in H.
  assert (E : frame_box nx ny (u, v) (w, h) =
    let l := from u w in let r := upto u w in let t := from v h in let d := upto v h in
    if ((inb nx l || inb nx r) && (inb ny t || inb ny d))%bool then
      let* (lo, hi) := (if ((inb nx l && inb nx r) && (inb ny t && inb ny d))%bool then Ok ((l, t), (r, d))
        else if (Rleb (Rmin r (IZR nx) - Rmax l 0) 0 || Rleb (Rmin d (IZR ny) - Rmax t 0) 0)%bool then Err ValueError
        else Ok ((Rmax l 0, Rmax t 0), (Rmin r (IZR nx), Rmin d (IZR ny)))) in
      let* a := snap_xy (image_grid nx ny) false true true lo in
      let* b := snap_xy (image_grid nx ny) false true true hi in
      Ok (Some (fst a, snd a, fst b, snd b))
    else Ok None).
  { unfold frame_box, wanted_box, halfsize. cbn [fst snd]. unfold box_to_polygon, unravel_box. cbn [length Nat.odd Nat.even negb Nat.div Nat.divmod fst snd firstn skipn bind nth map].
    unfold in_image. cbn [fst snd]. change (u - IZR w * / 2) with (from u w). change (u + IZR w * / 2) with (upto u w). change (v - IZR h * / 2) with (from v h). change (v + IZR h * / 2) with (upto v h).
    fold (inb nx (from u w)). fold (inb nx (upto u w)). fold (inb ny (from v h)). fold (inb ny (upto v h)). cbv zeta.
    unfold intersect_boxes, some_box. cbn [length Nat.odd Nat.even negb Nat.div Nat.divmod fst snd firstn skipn bind nth map fold_left map2 nanop existsb app].
    destruct (inb nx (from u w)), (inb nx (upto u w)), (inb ny (from v h)), (inb ny (upto v h)); cbn [andb orb existsb forallb]; try reflexivity;
      destruct (Rleb (Rmin (upto u w) (IZR nx) - Rmax (from u w) 0) 0), (Rleb (Rmin (upto v h) (IZR ny) - Rmax (from v h) 0) 0); reflexivity. }
  assert (C : corner <-> ((inb nx (from u w) || inb nx (upto u w)) && (inb ny (from v h) || inb ny (upto v h)))%bool = true).
  { unfold corner. rewrite Bool.andb_true_iff, !ends_or. reflexivity. }
  assert (Sn : forall x y, snap_xy (image_grid nx ny) false true true (x, y) = Ok (IZR (Rfloor (x + / 2)), IZR (Rfloor (y + / 2)))).
  { intros x y. unfold snap_xy, image_grid, xaxis, yaxis. cbn [negb andb fst snd gnx gny gxlim gylim]. rewrite !snap_edge by assumption. reflexivity. }
  assert (Oe : over <-> (Rleb (Rmin (upto u w) (IZR nx) - Rmax (from u w) 0) 0 || Rleb (Rmin (upto v h) (IZR ny) - Rmax (from v h) 0) 0)%bool = false).
  { unfold over, overlap. rewrite Bool.orb_false_iff, (Rmax_comm 0 (from u w)), (Rmax_comm 0 (from v h)), (Rmin_comm (IZR nx)), (Rmin_comm (IZR ny)). unfold Rleb.
    destruct (Rle_dec (Rmin (upto u w) (IZR nx) - Rmax (from u w) 0) 0), (Rle_dec (Rmin (upto v h) (IZR ny) - Rmax (from v h) 0) 0); split; intros [? ?]; split; try discriminate; try reflexivity; lra. }
  rewrite E. cbv zeta. unfold snapped. cbn [fst snd]. rewrite (Rmax_comm 0 (from u w)), (Rmax_comm 0 (from v h)), (Rmin_comm (IZR nx)), (Rmin_comm (IZR ny)). split; [|split].
  - intros Nc. destruct (_ && _)%bool eqn:Eb; [exfalso; apply Nc, C, eq_refl|reflexivity].
  - intros Hc Ho. apply C in Hc. rewrite Hc. apply Oe in Ho. rewrite Ho.
    destruct ((inb nx (from u w) && inb nx (upto u w)) && (inb ny (from v h) && inb ny (upto v h)))%bool eqn:Ea.
    + rewrite !Bool.andb_true_iff, !inb_true in Ea. cbn [bind]. rewrite !Sn. cbn [bind fst snd]. rewrite !Rmax_left, !Rmin_left by lra. reflexivity.
    + cbn [bind]. rewrite !Sn. reflexivity.
  - intros Hc Ho. apply C in Hc. rewrite Hc.
    destruct ((inb nx (from u w) && inb nx (upto u w)) && (inb ny (from v h) && inb ny (upto v h)))%bool eqn:Ea.
    + exfalso. apply Ho. rewrite !Bool.andb_true_iff, !inb_true in Ea. unfold over, overlap. rewrite !Rmax_right, !Rmin_right by lra. unfold from, upto. lra.
    + destruct (Rleb (Rmin (upto u w) (IZR nx) - Rmax (from u w) 0) 0 || Rleb (Rmin (upto v h) (IZR ny) - Rmax (from v h) 0) 0)%bool; [reflexivity|]. exfalso. apply Ho, Oe. reflexivity.
Qed.

Section Images.
Context {V : Type}.
Variable rescale : pic V -> Z * Z -> pic V.

(** C116: a frame of animate for an observer that does not cache, and an image without a cached array.  Where a corner of the
    tile about the projected point is in the image, the frame shows the overlap of tile and image to the nearest whole pixels, where it
    is in the image, and what Image.read returns for these pixels; the view and the marked point are those of the projected point *)
Theorem animate_shows : forall (o : observer) i k im size puv u v (st : store V), py_get (o_images o) i = Ok k -> nth_error (imgs st) k = Some im ->
  (0 < fst (hi_cam im))%Z -> (0 < snd (hi_cam im))%Z -> (0 < fst size)%Z -> (0 < snd size)%Z ->
  o_cache o = false -> hi_array im = None -> puv k = Some (u, v) ->
  end_inside (fst (hi_cam im)) (fst size) u -> end_inside (snd (hi_cam im)) (snd size) v ->
  overlap (fst (hi_cam im)) (fst size) u -> overlap (snd (hi_cam im)) (snd size) v ->
  exists l t r d, nearest_pixels (fst (hi_cam im)) (fst size) u l r /\ nearest_pixels (snd (hi_cam im)) (snd size) v t d /\
  animate_frame rescale o i size puv st =
    let* (a, st') := read_image rescale k (Some (l, t, r, d)) false st in
    Ok (mk_frame (Some a) [IZR l; IZR r; IZR d; IZR t] [Some (u, v)] (from u (fst size), upto u (fst size)) (upto v (snd size), from v (fst size)), st').
Proof.
  intros o i k im [w h] puv u v st Hk Hi Nx Ny W H Hc Ha Hp C1 C2 O1 O2. cbn [fst snd] in *.
  exists (fst (snapped (fst (hi_cam im)) w u)), (fst (snapped (snd (hi_cam im)) h v)), (snd (snapped (fst (hi_cam im)) w u)), (snd (snapped (snd (hi_cam im)) h v)).
  split; [apply snapped_nearest; assumption|]. split; [apply snapped_nearest; assumption|].
  destruct (frame_box_eq (fst (hi_cam im)) (snd (hi_cam im)) (u, v) w h Nx Ny W H) as (_ & F & _). cbn [fst snd] in F.
  unfold animate_frame. rewrite Hk. cbn [bind]. rewrite Hi, Hp, (F (conj C1 C2) (conj O1 O2)). cbn [bind]. unfold limits, halfsize. cbn [fst snd].
  unfold read_floats, read_image. rewrite Hi, Hc, Ha. cbn [orb]. unfold held. rewrite Ha. unfold to_file. rewrite !minus_IZR.
  set (g := gdal_read rescale _ _ _). destruct g as [a|e]; reflexivity.
Qed.

(** C116 finding: animate raises TypeError at every such frame if the observer caches its images (the default), because the array is
    sliced by floats *)
Theorem animate_cached_refuted : forall (o : observer) i k im size puv u v (st : store V), py_get (o_images o) i = Ok k -> nth_error (imgs st) k = Some im ->
  (0 < fst (hi_cam im))%Z -> (0 < snd (hi_cam im))%Z -> (0 < fst size)%Z -> (0 < snd size)%Z ->
  o_cache o = true -> puv k = Some (u, v) ->
  end_inside (fst (hi_cam im)) (fst size) u -> end_inside (snd (hi_cam im)) (snd size) v ->
  overlap (fst (hi_cam im)) (fst size) u -> overlap (snd (hi_cam im)) (snd size) v ->
  animate_frame rescale o i size puv st = Err TypeError.
Proof.
  intros o i k im [w h] puv u v st Hk Hi Nx Ny W H Hc Hp C1 C2 O1 O2. cbn [fst snd] in *.
  destruct (frame_box_eq (fst (hi_cam im)) (snd (hi_cam im)) (u, v) w h Nx Ny W H) as (_ & F & _). cbn [fst snd] in F.
  unfold animate_frame. rewrite Hk. cbn [bind]. rewrite Hi, Hp, (F (conj C1 C2) (conj O1 O2)). cbn [bind]. unfold limits, halfsize. cbn [fst snd].
  unfold read_floats. rewrite Hi, Hc. reflexivity.
Qed.

(** C116: the tile is white exactly when no corner of it is in the image; finding: also where tile and image overlap, namely
    when the tile reaches beyond both sides of the image; and a tile that only touches the image raises ValueError *)
Theorem animate_white : forall (o : observer) i k im size puv u v (st : store V), py_get (o_images o) i = Ok k -> nth_error (imgs st) k = Some im ->
  (0 < fst (hi_cam im))%Z -> (0 < snd (hi_cam im))%Z -> (0 < fst size)%Z -> (0 < snd size)%Z -> puv k = Some (u, v) ->
  let white f := fr_tile f = None /\ fr_extent f = [from u (fst size); upto u (fst size); upto v (snd size); from v (snd size)] /\ fr_points f = [Some (u, v)] in
  let beyond n w x := from x w < 0 /\ IZR n < upto x w in
  let over := overlap (fst (hi_cam im)) (fst size) u /\ overlap (snd (hi_cam im)) (snd size) v in
  let corner := end_inside (fst (hi_cam im)) (fst size) u /\ end_inside (snd (hi_cam im)) (snd size) v in
  (~ corner -> exists f, animate_frame rescale o i size puv st = Ok (f, st) /\ white f) /\
  (forall f st', animate_frame rescale o i size puv st = Ok (f, st') -> fr_tile f = None -> ~ corner) /\
  (over -> (~ corner <-> beyond (fst (hi_cam im)) (fst size) u \/ beyond (snd (hi_cam im)) (snd size) v)) /\
  (corner -> ~ over -> animate_frame rescale o i size puv st = Err ValueError).
Proof.
  intros o i k im [w h] puv u v st Hk Hi Nx Ny W H Hp white beyond over corner. cbn [fst snd] in *.
  destruct (frame_box_eq (fst (hi_cam im)) (snd (hi_cam im)) (u, v) w h Nx Ny W H) as (F1 & F2 & F3). cbn [fst snd] in F1, F2, F3. fold corner over in F1, F2, F3.
  unfold animate_frame. rewrite Hk. cbn [bind]. rewrite Hi, Hp. unfold limits. cbn [fst snd].
  assert (D : corner \/ ~ corner).
  { unfold corner. rewrite !ends_or. destruct (_ || _)%bool, (_ || _)%bool; [left; auto|right; intros [? ?]; discriminate|right; intros [? ?]; discriminate|right; intros [? ?]; discriminate]. }
  split; [|split; [|split]].
  - intros N. rewrite (F1 N). cbn [bind]. eexists. split; [reflexivity|]. unfold white. cbn [fr_tile fr_extent fr_points]. split; [reflexivity|]. split; reflexivity.
  - intros f st' E T N. destruct (frame_box (fst (hi_cam im)) (snd (hi_cam im)) (u, v) (w, h)) as [[b|]|e] eqn:Eb; cbn [bind] in E; [|exfalso|discriminate].
    + destruct (read_floats rescale k b (o_cache o) st) as [[a s2]|e]; cbn [bind] in E; [|discriminate]. injection E as <- _. discriminate T.
    + assert (Do : over \/ ~ over).
      { unfold over, overlap. destruct (Rlt_dec (Rmax 0 (from u w)) (Rmin (IZR (fst (hi_cam im))) (upto u w))), (Rlt_dec (Rmax 0 (from v h)) (Rmin (IZR (snd (hi_cam im))) (upto v h))); tauto. }
      destruct Do as [Ho|Ho]; [specialize (F2 N Ho); discriminate F2|specialize (F3 N Ho); discriminate F3].
  - apply IZR_lt in W, H, Nx, Ny.
    assert (A : forall n z x, 0 < IZR n -> 0 < IZR z -> overlap n z x -> (~ end_inside n z x <-> beyond n z x)).
    { intros n z x N Z0 O. unfold overlap in O. assert (K : 0 < upto x z /\ from x z < IZR n).
      { pose proof (Rmax_l 0 (from x z)). pose proof (Rmax_r 0 (from x z)). pose proof (Rmin_l (IZR n) (upto x z)). pose proof (Rmin_r (IZR n) (upto x z)). lra. }
      unfold end_inside, beyond. split.
      - intros Ne. assert (~ 0 <= from x z) by (intros ?; apply Ne; left; lra). assert (~ upto x z <= IZR n) by (intros ?; apply Ne; right; lra). lra.
      - intros [B1 B2] [[E1 E2]|[E1 E2]]; lra. }
    intros [O1 O2]. rewrite <- (A _ _ u Nx W O1), <- (A _ _ v Ny H O2). unfold corner. rewrite !ends_or.
    destruct (inb _ (from u w) || inb _ (upto u w))%bool, (inb _ (from v h) || inb _ (upto v h))%bool; split; intros Q.
    + exfalso. apply Q. split; reflexivity.
    + intros _. destruct Q as [Q|Q]; apply Q; reflexivity.
    + right. intros Q'. discriminate Q'.
    + intros [_ Q']. discriminate Q'.
    + left. intros Q'. discriminate Q'.
    + intros [Q' _]. discriminate Q'.
    + left. intros Q'. discriminate Q'.
    + intros [Q' _]. discriminate Q'.
  - intros Hc Ho. rewrite (F3 Hc Ho). reflexivity.
Qed.

(** C116: the view of each frame spans the tile's width, but (finding) from half a width above the point to half a height below it:
    the tile's height exactly for square tiles *)
Theorem animate_view_refuted : forall (o : observer) i k size puv u v (st : store V) f st', py_get (o_images o) i = Ok k -> puv k = Some (u, v) ->
  animate_frame rescale o i size puv st = Ok (f, st') ->
  fr_xlim f = (from u (fst size), upto u (fst size)) /\ fr_ylim f = (upto v (snd size), from v (fst size)) /\ fr_points f = [Some (u, v)] /\
  (fr_ylim f = (upto v (snd size), from v (snd size)) <-> fst size = snd size).
Proof.
  intros o i k [w h] puv u v st f st' Hk Hp E. unfold animate_frame in E. rewrite Hk in E. cbn [bind] in E. destruct (nth_error (imgs st) k) as [im|]; [|discriminate]. rewrite Hp in E.
  unfold limits, halfsize in E. cbn [fst snd] in *. assert (G : fr_xlim f = (from u w, upto u w) /\ fr_ylim f = (upto v h, from v w) /\ fr_points f = [Some (u, v)]).
  { destruct (frame_box _ _ _ _) as [[b|]|e]; cbn [bind] in E; [|injection E as <- _; repeat split|discriminate].
    destruct (read_floats rescale k b (o_cache o) st) as [[a s2]|e]; cbn [bind] in E; [|discriminate]. injection E as <- _. repeat split. }
  destruct G as (G1 & G2 & G3). split; [exact G1|]. split; [exact G2|]. split; [exact G3|]. rewrite G2. split.
  - intros Q. apply (f_equal snd) in Q. cbn [snd] in Q. unfold from in Q. apply eq_IZR. lra.
  - intros ->. reflexivity.
Qed.

Lemma frame_index_spec frames i : forall j, nth_error frames j = Some i -> (forall j', (j' < j)%nat -> nth_error frames j' <> Some i) -> frame_index true frames i = Ok j.
Proof.
  unfold frame_index. assert (G : forall l a j, nth_error l j = Some i -> (forall j', (j' < j)%nat -> nth_error l j' <> Some i) ->
    (fix go (l : list Z) (j : nat) := match l with [] => Err IndexError | x :: l => if (x =? i)%Z then Ok j else go l (S j) end) l a = Ok (a + j)%nat).
  { induction l as [|x l IH]; intros a j E F; [destruct j; discriminate|]. destruct (Z.eqb_spec x i) as [->|Ne].
    - destruct j as [|j]; [rewrite Nat.add_0_r; reflexivity|]. exfalso. apply (F 0%nat); [lia|reflexivity].
    - destruct j as [|j]; [cbn in E; congruence|]. cbn in E. rewrite (IH (S a) j E); [f_equal; lia|]. intros j' L. apply (F (S j')). lia. }
  intros j E F. rewrite (G frames 0%nat j E F). reflexivity.
Qed.
Lemma py_get_last {A} (l : list A) x : py_get (l ++ [x]) (-1) = Ok x.
Proof.
  unfold py_get, py_index. rewrite app_length. cbn [length]. destruct (Z.ltb_spec (-1) (- Z.of_nat (length l + 1))); [lia|]. cbn [bind Z.ltb Z.compare].
  replace (Z.to_nat (Z.of_nat (length l + 1) + -1)) with (length l) by lia. rewrite nth_error_app2, Nat.sub_diag by lia. reflexivity.
Qed.
Lemma firstn_last {A} (l : list A) : forall j x, nth_error l j = Some x -> firstn (S j) l = firstn j l ++ [x].
Proof. induction l as [|y l IH]; intros [|j] x E; cbn in E; try discriminate; [injection E as ->; reflexivity|]. cbn [firstn app]. f_equal. apply IH, E. Qed.

(** C116: the frame of track for the j-th of different frames (in an array) shows image frames[j]: the positions up to the j-th as seen in that
    image, and its tile of the requested size about the j-th; it raises IndexError exactly when this is not in the image (or not in front of it) *)
Theorem track_shows : forall (o : observer) frames size xyz (proj : nat -> vec3 -> option pt2) i j k im p (st : store V), NoDup frames -> nth_error frames j = Some i -> nth_error xyz j = Some p ->
  py_get (o_images o) i = Ok k -> nth_error (imgs st) k = Some im ->
  (0 < fst (hi_cam im))%Z -> (0 < snd (hi_cam im))%Z -> (0 < fst size)%Z -> (0 < snd size)%Z ->
  let fits uv := (0 <= from (fst uv) (fst size) /\ upto (fst uv) (fst size) <= IZR (fst (hi_cam im))) /\ (0 <= from (snd uv) (snd size) /\ upto (snd uv) (snd size) <= IZR (snd (hi_cam im))) in
  (forall uv, proj k p = Some uv -> fits uv -> exists b, inside_image (fst (hi_cam im)) (snd (hi_cam im)) b /\ box_w b = fst size /\ box_h b = snd size /\
     nearest_pixels (fst (hi_cam im)) (fst size) (fst uv) (fst (fst (fst b))) (snd (fst b)) /\ nearest_pixels (snd (hi_cam im)) (snd size) (snd uv) (snd (fst (fst b))) (snd b) /\
     track_frame rescale o true frames size xyz proj i st =
       let* (a, st') := read_image rescale k (Some b) (o_cache o) st in Ok (map (proj k) (firstn (S j) xyz), b, a, st')) /\
  ((forall uv, proj k p = Some uv -> ~ fits uv) -> track_frame rescale o true frames size xyz proj i st = Err IndexError).
Proof.
  intros o frames [w h] xyz proj i j k im p st ND Ej Ep Hk Hi Nx Ny W H fits. cbn [fst snd] in *.
  assert (E : track_frame rescale o true frames (w, h) xyz proj i st =
    match proj k p with None => Err IndexError | Some uv =>
      let* b := tile_box (fst (hi_cam im)) (snd (hi_cam im)) uv (w, h) in
      let* (a, st') := read_image rescale k (Some b) (o_cache o) st in Ok (map (proj k) (firstn (S j) xyz), b, a, st') end).
  { unfold track_frame. rewrite (frame_index_spec frames i j Ej).
    2:{ intros j' L Q. rewrite NoDup_nth_error in ND. assert (j' = j); [|lia]. apply ND; [|congruence]. apply nth_error_Some. congruence. }
    cbn [bind]. rewrite Hk. cbn [bind]. set (track := map (proj k) (firstn (S j) xyz)).
    assert (Et : @py_get (option pt2) track (-1) = Ok (proj k p)) by (unfold track; rewrite (firstn_last _ _ _ Ep), map_app; apply py_get_last). rewrite Et. cbn [bind]. rewrite Hi.
    destruct (proj k p) as [uv|]; [|reflexivity]. destruct (tile_box _ _ uv (w, h)) as [b|e]; [|reflexivity]. cbn [bind]. unfold extract_tile. rewrite Hk. reflexivity. }
  rewrite E. clear E. split.
  - intros uv Hp F. rewrite Hp. pose proof F as [F1 F2].
    destruct (tile_box_eq (fst (hi_cam im)) (snd (hi_cam im)) uv w h Nx Ny ltac:(lia) ltac:(lia) F1 F2) as (Eb & L0 & L1 & T0 & T1). cbv zeta in *. rewrite Eb. cbn [bind].
    eexists. split; [|split; [|split; [|split; [|split; [|reflexivity]]]]]; unfold inside_image, box_w, box_h; cbn [fst snd].
    + lia.
    + lia.
    + lia.
    + assert (O : overlap (fst (hi_cam im)) w (fst uv)). { unfold overlap. rewrite Rmax_right, Rmin_right by lra. unfold from, upto. apply IZR_lt in W. lra. }
      pose proof (snapped_nearest _ _ _ Nx O) as S0. unfold snapped in S0. rewrite Rmax_right, Rmin_right in S0 by lra. cbn [fst snd] in S0. change (upto (fst uv) w) with (fst uv + IZR w * / 2) in S0. rewrite Rfloor_half_shift in S0. exact S0.
    + assert (O : overlap (snd (hi_cam im)) h (snd uv)). { unfold overlap. rewrite Rmax_right, Rmin_right by lra. unfold from, upto. apply IZR_lt in H. lra. }
      pose proof (snapped_nearest _ _ _ Ny O) as S0. unfold snapped in S0. rewrite Rmax_right, Rmin_right in S0 by lra. cbn [fst snd] in S0. change (upto (snd uv) h) with (snd uv + IZR h * / 2) in S0. rewrite Rfloor_half_shift in S0. exact S0.
  - intros F. destruct (proj k p) as [uv|] eqn:Hp; [|reflexivity]. specialize (F uv eq_refl).
    destruct (tile_box_contract (fst (hi_cam im)) (snd (hi_cam im)) uv w h Nx Ny ltac:(lia) ltac:(lia)) as [_ G]. rewrite G; [reflexivity|]. exact F.
Qed.

(** C116 findings: frames given as a list (not an array) raise IndexError at every frame; and when there are more frames than positions
    the later frames show the last position *)
Theorem track_frames_refuted : forall (o : observer) frames size xyz proj i j k (st : store V),
  track_frame rescale o false frames size xyz proj i st = Err IndexError /\
  (NoDup frames -> nth_error frames j = Some i -> (length xyz <= j)%nat -> py_get (o_images o) i = Ok k ->
   forall track b a st', track_frame rescale o true frames size xyz proj i st = Ok (track, b, a, st') -> track = map (proj k) xyz).
Proof.
  intros o frames size xyz proj i j k st. split; [reflexivity|]. intros ND Ej L Hk track b a st' E. unfold track_frame in E. rewrite (frame_index_spec frames i j Ej) in E.
  2:{ intros j' L' Q. rewrite NoDup_nth_error in ND. assert (j' = j); [|lia]. apply ND; [|congruence]. apply nth_error_Some. congruence. }
  cbn [bind] in E. rewrite Hk in E. cbn [bind] in E. rewrite firstn_all2 in E by lia.
  destruct (py_get (map (proj k) xyz) (-1)) as [uv|e]; cbn [bind] in E; [|discriminate]. destruct (nth_error (imgs st) k); [|discriminate]. destruct uv; [|discriminate].
  destruct (tile_box _ _ _ _) as [bb|]; cbn [bind] in E; [|discriminate]. destruct (extract_tile rescale o bb i st) as [[a2 s2]|]; cbn [bind] in E; [|discriminate]. congruence.
Qed.
End Images.
Print Assumptions animate_shows.
Print Assumptions animate_cached_refuted.
Print Assumptions animate_white.
Print Assumptions animate_view_refuted.
Print Assumptions track_shows.
Print Assumptions track_frames_refuted.

(** C116: tiles are plotted in their box; finding: a tile without a box is plotted with width and height exchanged *)
Theorem plot_tile_box_refuted : forall w h,
  (forall l t r d, plot_tile_extent (Some [l; t; r; d]) w h = [l; r; d; t]) /\
  plot_tile_extent None w h = [0; IZR h; IZR w; 0] /\
  (plot_tile_extent None w h = plot_image_extent w h <-> w = h).
Proof.
  intros w h. split; [reflexivity|]. split; [reflexivity|]. unfold plot_tile_extent, plot_image_extent, extent. cbn [nth]. split; [|intros ->; reflexivity].
  intros E. injection E as E1 E2. apply eq_IZR. lra.
Qed.
Print Assumptions plot_tile_box_refuted.
(** an image of 10 * 8 pixels; a tile of 4 * 6 about (1, 3) is partly outside *)
Example animate_ex : end_inside 10 4 1 /\ end_inside 8 6 3 /\ overlap 10 4 1 /\ overlap 8 6 3 /\ snapped 10 4 1 = (0, 3)%Z.
Proof.
  assert (A : Rmax 0 (from 1 4) = 0) by (unfold from; apply Rmax_left; lra). assert (B : Rmin (IZR 10) (upto 1 4) = 3) by (unfold upto; rewrite Rmin_right; lra).
  assert (C : Rmax 0 (from 3 6) = 0) by (unfold from; rewrite Rmax_right; lra). assert (D : Rmin (IZR 8) (upto 3 6) = 6) by (unfold upto; rewrite Rmin_right; lra).
  unfold overlap, snapped. rewrite A, B, C, D. unfold end_inside, from, upto. split; [right; lra|]. split; [left; lra|]. split; [lra|]. split; [lra|].
  f_equal; apply Rfloor_imp; lra.
Qed.
Example animate_cached_ex : let pic0 : pic nat := mkpic 10 8 (repeat (repeat 7%nat 10) 8) in
  animate_frame (fun a _ => a) (mk_observer [0%nat] true) 0 (4, 6)%Z (fun _ => Some (1, 3)) (mk_store [] [mk_himage pic0 (10, 8)%Z None]) = Err TypeError.
Proof.
  intros pic0. destruct animate_ex as (A & B & C & D & _). apply (animate_cached_refuted _ _ _ 0%nat (mk_himage pic0 (10, 8)%Z None) _ _ 1 3); try reflexivity; assumption.
Qed.
Example animate_tile_ex : let pic0 : pic nat := mkpic 10 8 (repeat (repeat 7%nat 10) 8) in
  exists f st, animate_frame (fun a _ => a) (mk_observer [0%nat] false) 0 (4, 6)%Z (fun _ => Some (1, 3)) (mk_store [] [mk_himage pic0 (10, 8)%Z None]) = Ok (f, st) /\
  fr_extent f = [0; 3; 6; 0].
Proof.
  intros pic0. destruct animate_ex as (A & B & C & D & _).
  assert (E : frame_box 10 8 (1, 3) (4, 6)%Z = Ok (Some (0, 0, 3, 6))).
  { destruct (frame_box_eq 10 8 (1, 3) 4 6) as (_ & F & _); try lia. cbn [fst snd] in F. rewrite (F (conj A B) (conj C D)). destruct animate_ex as (_ & _ & _ & _ & S1). rewrite S1.
    assert (C' : Rmax 0 (from 3 6) = 0) by (unfold from; rewrite Rmax_right; lra). assert (D' : Rmin (IZR 8) (upto 3 6) = 6) by (unfold upto; rewrite Rmin_right; lra).
    unfold snapped. rewrite C', D'. cbn [fst snd]. rewrite (Rfloor_imp 0 (0 + / 2)), (Rfloor_imp 6 (6 + / 2)) by lra. reflexivity. }
  unfold animate_frame. cbn [o_images py_get py_index length bind Z.ltb Z.compare Z.of_nat Z.opp Z.to_nat nth_error imgs hi_cam fst snd]. rewrite E. cbn [bind]. unfold limits. unfold read_floats, held.
  cbn [imgs nth_error hi_array hi_file hi_cam psize pw ph pic0 size_eqb fst snd o_cache orb]. unfold size_eqb. cbn [fst snd Z.eqb Pos.eqb andb negb].
  assert (R1 : forall z n, (0 < n)%Z -> Rround (IZR z * (IZR n / IZR n)) = z). { intros z n N. apply IZR_lt in N. replace (IZR z * (IZR n / IZR n)) with (IZR z) by (field; lra). apply Rround_IZR. }
  replace (3 - 0) with (IZR 3) by lra. replace (6 - 0) with (IZR 6) by lra. change (0 * (10 / 10)) with (IZR 0 * (IZR 10 / IZR 10)). change (0 * (8 / 8)) with (IZR 0 * (IZR 8 / IZR 8)).
  change (IZR 3 * (10 / 10)) with (IZR 3 * (IZR 10 / IZR 10)). change (IZR 6 * (8 / 8)) with (IZR 6 * (IZR 8 / IZR 8)). rewrite !R1 by lia.
  eexists. eexists. split; [reflexivity|]. reflexivity.
Qed.
