(** C89: images of elevation models. *)
From Coq Require Import Permutation.
From Verif Require Import Base BaseLemmas HelpersModel HelpersSpec GridModel GridSpec GridProofs RasterModel RasterSpec RasterProofs CameraModel CameraStateProofs CameraProofs GetitemModel P_Getitem AggregateProofs CameraProofs4 TileProofs DemModel DemProofs.
Open Scope R_scope.

(** cell rc is selected by the mask and its center is seen in pixel (row r, column q) *)
Definition falls (c : cam) (dem : sraster) (mask : list (list bool)) (r q : Z) (rc : Z * Z) : Prop :=
  at2 false mask (fst rc) (snd rc) = true /\ exists u v, cell_uv c dem rc = Some (u, v) /\ IZR q <= u < IZR q + 1 /\ IZR r <= v < IZR r + 1.
(** the mask in effect *)
Definition mask_of (dem : sraster) (mask : option (list (list bool))) : list (list bool) :=
  match mask with Some m => m | None => map (map (fun z : option R => match z with Some _ => true | None => false end)) (s_rows dem) end.
(** the layers of the image *)
Definition layers (values : option (list (list (list R)))) (return_depth : bool) : list band :=
  match values with Some vs => map BValue vs | None => [] end ++ (if return_depth then [BDepth] else []).
Definition shaped {A} (g : grid) (m : list (list A)) : Prop := length m = Z.to_nat (gny g) /\ forall row, In row m -> length row = Z.to_nat (gnx g).
Definition valid_values (g : grid) (values : option (list (list (list R)))) (return_depth : bool) : Prop := match values with Some vs => forall v, In v vs -> shaped g v | None => return_depth = true end.
Definition mean_of (c : cam) (dem : sraster) (b : band) (cells : list (Z * Z)) : R := sumR (map (cell_value c dem b) cells) / IZR (Z.of_nat (length cells)).

Lemma shaped_b {A} g (m : list (list A)) : has_shape g m = true <-> shaped g m.
Proof.
  unfold has_shape, shaped. rewrite andb_true_iff, Nat.eqb_eq, forallb_forall. split; intros [H1 H2]; (split; [exact H1|]); intros row I; specialize (H2 row I); now apply Nat.eqb_eq.
Qed.
Lemma falls_spec c dem mask r q rc : falls_b c dem mask r q rc = true <-> falls c dem mask r q rc.
Proof.
  unfold falls_b, falls. rewrite andb_true_iff. split; intros [M H]; (split; [exact M|]).
  - destruct (cell_uv c dem rc) as [[u v]|]; [|discriminate]. exists u, v. split; [reflexivity|]. apply andb_true_iff in H as [H1 H2]. apply Z.eqb_eq in H1, H2. subst r q. pose proof (Rfloor_lb u). pose proof (Rfloor_ub u). pose proof (Rfloor_lb v). pose proof (Rfloor_ub v). lra.
  - destruct H as (u & v & -> & U & V). rewrite (Rfloor_imp r v), (Rfloor_imp q u), !Z.eqb_refl by lra. reflexivity.
Qed.
Lemma sumR_perm (l m : list R) : Permutation l m -> sumR l = sumR m.
Proof. unfold sumR. induction 1; cbn [fold_right]; lra. Qed.

Lemma here_cells c dem mask r q t cells : coherent dem -> NoDup cells -> (forall x y, In (x, y) cells <-> tile_covers (s_grid dem) t x y /\ falls c dem mask r q (x, y)) ->
  Permutation cells (filter (falls_b c dem mask r q) (tile_cells dem t)).
Proof.
  intros CO ND H. apply NoDup_Permutation; [exact ND|apply NoDup_filter; now apply tile_cells_nodup|]. intros [x y]. rewrite H, filter_In, tile_cells_in by exact CO. rewrite falls_spec. tauto.
Qed.
Lemma here_mean c dem mask b r q t cells : coherent dem -> NoDup cells -> (forall x y, In (x, y) cells <-> tile_covers (s_grid dem) t x y /\ falls c dem mask r q (x, y)) ->
  sumR (here c dem mask b r q t) / IZR (Z.of_nat (length (here c dem mask b r q t))) = mean_of c dem b cells.
Proof.
  intros CO ND H. pose proof (here_cells c dem mask r q t cells CO ND H) as P. unfold here, mean_of. rewrite map_length. rewrite <- (Permutation_length P). f_equal. apply sumR_perm, Permutation_map, Permutation_sym, P.
Qed.
Lemma here_nil c dem mask b r q t : coherent dem -> here c dem mask b r q t = [] <-> forall x y, tile_covers (s_grid dem) t x y -> ~ falls c dem mask r q (x, y).
Proof.
  intros CO. unfold here. split.
  - intros E x y T F. assert (I : In (x, y) (filter (falls_b c dem mask r q) (tile_cells dem t))) by (apply filter_In; split; [now apply tile_cells_in|now apply falls_spec]). apply (in_map (cell_value c dem b)) in I. rewrite E in I. destruct I.
  - intros H. destruct (filter (falls_b c dem mask r q) (tile_cells dem t)) as [|[x y] l] eqn:E; [reflexivity|]. exfalso. assert (I : In (x, y) (filter (falls_b c dem mask r q) (tile_cells dem t))) by (rewrite E; left; reflexivity). apply filter_In in I as [I1 I2]. apply tile_cells_in in I1; [|exact CO]. apply falls_spec in I2. exact (H x y I1 I2).
Qed.

(** value [v] of pixel (r, q) of layer b, if the tiles are done in the order [ts]: nan if no selected cell of the tiles is seen in it, otherwise the mean of those of the last tile that has any *)
Definition pixel_is (c : cam) (dem : sraster) (mask : list (list bool)) (ts : list ((Z * Z) * (Z * Z))) (b : band) (r q : Z) (v : option R) : Prop :=
  (v = None <-> forall t x y, In t ts -> tile_covers (s_grid dem) t x y -> ~ falls c dem mask r q (x, y)) /\
  (forall pre t post, ts = pre ++ t :: post -> (exists x y, tile_covers (s_grid dem) t x y /\ falls c dem mask r q (x, y)) -> (forall t' x y, In t' post -> tile_covers (s_grid dem) t' x y -> ~ falls c dem mask r q (x, y)) ->
    forall cells, NoDup cells -> (forall x y, In (x, y) cells <-> tile_covers (s_grid dem) t x y /\ falls c dem mask r q (x, y)) -> v = Some (mean_of c dem b cells)).

Lemma layers_ok g values depth : valid_values g values depth -> match values with Some vs => if forallb (has_shape g) vs then Ok (map BValue vs ++ (if depth then [BDepth] else [])) else Err ValueError | None => if depth then Ok [BDepth] else Err ValueError end = Ok (layers values depth).
Proof.
  unfold valid_values, layers. destruct values as [vs|]; intros H; [|subst; reflexivity]. replace (forallb (has_shape g) vs) with true; [reflexivity|]. symmetry. apply forallb_forall. intros v I. apply shaped_b. auto.
Qed.

Theorem project_dem_pixels : forall c nx ny dem values mask size ov scale depth tiles arrival, coherent dem -> get_imgsz c = [nx; ny] -> (0 <= nx)%Z -> (0 <= ny)%Z ->
  valid_values (s_grid dem) values depth -> shaped (s_grid dem) (mask_of dem mask) ->
  tile_indices (s_grid dem) size ov = Ok tiles -> Permutation arrival (seq 0 (length tiles)) ->
  (forall t x y, In t tiles -> tile_covers (s_grid dem) t x y -> ~ on_border nx ny c dem (mask_of dem mask) (x, y)) ->
  exists imgs, project_dem c dem values mask size ov scale (1, 1) depth arrival = Ok imgs /\ length imgs = length (layers values depth) /\
    forall k b img, nth_error (layers values depth) k = Some b -> nth_error imgs k = Some img ->
      Z.of_nat (length img) = (ny * nx)%Z /\ forall r q, (0 <= r < ny)%Z -> (0 <= q < nx)%Z ->
        exists v, nth_error img (Z.to_nat (r * nx + q)) = Some v /\ pixel_is c dem (mask_of dem mask) (map (fun k => nth k tiles (0, 0, (0, 0))%Z) arrival) b r q v.
Proof.
  intros c nx ny dem values mask size ov scale depth tiles arrival CO Hi Hnx Hny VV SM ET PA NB. unfold project_dem. rewrite (layers_ok _ _ _ VV). cbn [bind]. fold (mask_of dem mask). set (m := mask_of dem mask) in *.
  rewrite (proj2 (shaped_b _ _) SM). cbn [negb]. rewrite ET. cbn [bind]. rewrite Hi. cbn [nth]. set (blank := repeat (@None R) (Z.to_nat (ny * nx))).
  assert (LB : Z.of_nat (length blank) = (ny * nx)%Z) by (unfold blank; rewrite repeat_length; nia).
  set (res := fun b t => match process c dem m scale (1, 1) b t with Ok r => r | Err _ => None end).
  assert (PS : forall b t, In t tiles -> process c dem m scale (1, 1) b t = Ok (res b t) /\ forall acc, Z.of_nat (length acc) = (ny * nx)%Z -> length (reduce acc (res b t)) = length acc /\
     forall r q, (0 <= r < ny)%Z -> (0 <= q < nx)%Z -> nth_error (reduce acc (res b t)) (Z.to_nat (r * nx + q)) = match here c dem m b r q t with [] => nth_error acc (Z.to_nat (r * nx + q)) | h => Some (Some (sumR h / IZR (Z.of_nat (length h)))) end).
  { intros b t It. destruct (process_spec nx ny c dem m scale b t CO Hi Hnx Hny) as [_ P]. destruct P as (rs & E & S). { intros [x y] I. apply (NB t); [exact It|]. now apply tile_cells_in. }
    unfold res. rewrite E. split; [reflexivity|]. exact S. }
  assert (DN : forall b, mapM (process c dem m scale (1, 1) b) tiles = Ok (map (res b) tiles)) by (intros b; apply mapM_all_ok; intros t It; apply PS, It).
  set (img := fun b => fold_left reduce (map (fun k => nth k (map (res b) tiles) None) arrival) blank).
  exists (map img (layers values depth)). split.
  { apply mapM_all_ok. intros b _. rewrite DN. reflexivity. }
  split; [apply map_length|]. intros k b im Eb Ei. rewrite nth_error_map, Eb in Ei. injection Ei as <-.
  set (ts := map (fun k => nth k tiles (0, 0, (0, 0))%Z) arrival).
  assert (TI : forall t, In t ts <-> In t tiles).
  { intros t. unfold ts. rewrite in_map_iff. split.
    - intros (j & <- & Ij). apply (Permutation_in _ PA), in_seq in Ij. apply nth_In. lia.
    - intros I. apply In_nth with (d := (0, 0, (0, 0))%Z) in I as (j & Lj & Ej). exists j. split; [exact Ej|]. apply (Permutation_in _ (Permutation_sym PA)), in_seq. lia. }
  assert (IM : img b = fold_left reduce (map (res b) ts) blank).
  { unfold img, ts. rewrite map_map. f_equal. apply map_ext_in. intros j Ij. apply (Permutation_in _ PA), in_seq in Ij. rewrite (nth_indep _ None (res b (0, 0, (0, 0))%Z)) by (rewrite map_length; lia). apply map_nth. }
  destruct (fold_reduce_in (res b) (here c dem m b) nx ny ts) with (acc := blank) as [LI SI]; [|exact LB|].
  { intros t It. apply PS. now apply TI. }
  rewrite IM. split; [rewrite LI; exact LB|]. intros r q Hr Hq. destruct (SI r q Hr Hq) as [N M]. set (i := Z.to_nat (r * nx + q)) in *.
  assert (Bi : nth_error blank i = Some None) by (unfold blank; apply nth_error_repeat; unfold i; nia).
  destruct (Classical_Prop.classic (exists t, In t ts /\ here c dem m b r q t <> [])) as [EX|NX].
  - destruct (last_split (fun t => here c dem m b r q t <> []) ts ltac:(intros; apply Classical_Prop.classic) EX) as (pre & t & post & E1 & H1 & H2).
    assert (H2' : forall t', In t' post -> here c dem m b r q t' = []) by (intros t' I; specialize (H2 t' I); destruct (here c dem m b r q t'); [reflexivity|exfalso; apply H2; discriminate]).
    rewrite (M pre t post E1 H1 H2'). eexists. split; [reflexivity|]. split.
    + split; [discriminate|]. intros A. exfalso. apply H1. apply here_nil; [exact CO|]. intros x y. apply A. rewrite E1. apply in_elt.
    + intros pre' t' post' E2 (x & y & TC & FA) A cells ND HC.
      assert (Nt' : here c dem m b r q t' <> []) by (intros Q; exact (proj1 (here_nil c dem m b r q t' CO) Q x y TC FA)).
      assert (A' : forall t0, In t0 post' -> here c dem m b r q t0 = []) by (intros t0 I0; apply here_nil; [exact CO|]; intros x0 y0; now apply A).
      pose proof (M pre' t' post' E2 Nt' A') as M'. rewrite (M pre t post E1 H1 H2') in M'. injection M' as M'. rewrite M'. f_equal. now apply here_mean.
  - rewrite N, Bi by (intros t It; destruct (here c dem m b r q t) eqn:E; [reflexivity|exfalso; apply NX; exists t; rewrite E; split; [exact It|discriminate]]). eexists. split; [reflexivity|]. split.
    + split; [|reflexivity]. intros _ t x y It TC FA. apply NX. exists t. split; [exact It|]. intros Q. exact (proj1 (here_nil c dem m b r q t CO) Q x y TC FA).
    + intros pre t post E1 (x & y & TC & FA) _ cells _ _. exfalso. apply NX. exists t. split; [rewrite E1; apply in_elt|]. intros Q. exact (proj1 (here_nil c dem m b r q t CO) Q x y TC FA).
Qed.
Print Assumptions project_dem_pixels.

(** ** The image and the whole raster *)
Definition in_raster (dem : sraster) (x y : Z) : Prop := (0 <= x < gny (s_grid dem))%Z /\ (0 <= y < gnx (s_grid dem))%Z.
Definition fair (size ov : Z * Z) : Prop := (1 <= fst size)%Z /\ (1 <= snd size)%Z /\ (0 <= fst ov)%Z /\ (0 <= snd ov)%Z /\ (4 * fst ov <= 3 * fst size)%Z /\ (4 * snd ov <= 3 * snd size)%Z.

Lemma covers_in_raster dem t x y : coherent dem -> tile_covers (s_grid dem) t x y -> in_raster dem x y.
Proof.
  intros CO [H1 H2]. assert (NY : (0 <= gny (s_grid dem))%Z) by (destruct CO as ([_ [_ Q]] & _); cbn in Q; lia). assert (NX : (0 <= gnx (s_grid dem))%Z) by (destruct CO as ([[_ Q] _] & _); cbn in Q; lia).
  assert (G : forall n s k, (0 <= n)%Z -> in_slice n s k -> (0 <= k < n)%Z) by (intros n s k N; unfold in_slice, slice_bound; destruct (Z.ltb_spec (fst s) 0), (Z.ltb_spec (snd s) 0); lia).
  split; [exact (G _ _ _ NY H1)|exact (G _ _ _ NX H2)].
Qed.
Lemma fair_tiles dem size ov : coherent dem -> fair size ov -> exists tiles, tile_indices (s_grid dem) size ov = Ok tiles /\ forall x y, in_raster dem x y -> exists t, In t tiles /\ tile_covers (s_grid dem) t x y.
Proof.
  intros (G & _) (S1 & S2 & O1 & O2 & O3 & O4). destruct (tiles_partition _ _ G S1 S2) as (tiles & E & _ & CV & OV). destruct (OV ov O1 O2 O3 O4) as [E' EX]. eexists. split; [exact E'|].
  intros x y [X Y]. destruct (CV x y X Y) as (i & t & Ei & Ct & _). apply nth_error_In in Ei. exists (extend (snd ov) (fst t), extend (fst ov) (snd t)). split; [exact (in_map (fun t => (extend (snd ov) (fst t), extend (fst ov) (snd t))) _ _ Ei)|]. now apply (EX t Ei).
Qed.

Lemma mean_bounds (l : list R) lo hi : l <> [] -> (forall x, In x l -> lo <= x <= hi) -> lo <= sumR l / IZR (Z.of_nat (length l)) <= hi.
Proof.
  intros N H. assert (P : 0 < IZR (Z.of_nat (length l))) by (apply IZR_lt; destruct l; [congruence|cbn [length]; lia]).
  assert (S : IZR (Z.of_nat (length l)) * lo <= sumR l <= IZR (Z.of_nat (length l)) * hi).
  { clear N P. unfold sumR. induction l as [|x l IH]; [cbn; lra|]. cbn [fold_right length]. rewrite Nat2Z.inj_succ, succ_IZR. specialize (IH (fun y I => H y (or_intror I))). specialize (H x (or_introl eq_refl)). lra. }
  split; [apply Rmult_le_reg_r with (IZR (Z.of_nat (length l)))|apply Rmult_le_reg_r with (IZR (Z.of_nat (length l)))]; try exact P; unfold Rdiv; rewrite Rmult_assoc, Rinv_l by lra; lra.
Qed.

(** For tiles that overlap by no more than 3/4 of their size (defaults: 256 and 1) and any order of processing: a pixel is nan exactly if no selected cell of the elevation model is seen in it; otherwise its value is within the range of the values of these cells, and their mean if each tile has all of them or none. *)
Theorem project_dem_image : forall c nx ny dem values mask size ov scale depth, coherent dem -> get_imgsz c = [nx; ny] -> (0 <= nx)%Z -> (0 <= ny)%Z ->
  valid_values (s_grid dem) values depth -> shaped (s_grid dem) (mask_of dem mask) -> fair size ov ->
  (forall x y, in_raster dem x y -> ~ on_border nx ny c dem (mask_of dem mask) (x, y)) ->
  exists tiles, tile_indices (s_grid dem) size ov = Ok tiles /\ forall arrival, Permutation arrival (seq 0 (length tiles)) ->
  exists imgs, project_dem c dem values mask size ov scale (1, 1) depth arrival = Ok imgs /\ length imgs = length (layers values depth) /\
    forall k b img, nth_error (layers values depth) k = Some b -> nth_error imgs k = Some img ->
      Z.of_nat (length img) = (ny * nx)%Z /\ forall r q, (0 <= r < ny)%Z -> (0 <= q < nx)%Z ->
        exists v, nth_error img (Z.to_nat (r * nx + q)) = Some v /\
          (v = None <-> forall x y, in_raster dem x y -> ~ falls c dem (mask_of dem mask) r q (x, y)) /\
          (forall m lo hi, v = Some m -> (forall x y, in_raster dem x y -> falls c dem (mask_of dem mask) r q (x, y) -> lo <= cell_value c dem b (x, y) <= hi) -> lo <= m <= hi) /\
          (forall cells, NoDup cells -> cells <> [] -> (forall x y, In (x, y) cells <-> in_raster dem x y /\ falls c dem (mask_of dem mask) r q (x, y)) ->
             (forall t, In t tiles -> (forall x y, In (x, y) cells -> tile_covers (s_grid dem) t x y) \/ (forall x y, In (x, y) cells -> ~ tile_covers (s_grid dem) t x y)) -> v = Some (mean_of c dem b cells)).
Proof.
  intros c nx ny dem values mask size ov scale depth CO Hi Hnx Hny VV SM FA NB. destruct (fair_tiles dem size ov CO FA) as (tiles & ET & CV). exists tiles. split; [exact ET|]. intros arrival PA.
  destruct (project_dem_pixels c nx ny dem values mask size ov scale depth tiles arrival CO Hi Hnx Hny VV SM ET PA) as (imgs & EI & LI & SI).
  { intros t x y _ TC. apply NB. exact (covers_in_raster dem _ _ _ CO TC). }
  exists imgs. split; [exact EI|]. split; [exact LI|]. intros k b img Eb Ei. destruct (SI k b img Eb Ei) as [L1 S1]. split; [exact L1|]. intros r q Hr Hq. destruct (S1 r q Hr Hq) as (v & Ev & V1 & V2). clear SI S1. exists v. split; [exact Ev|].
  set (m := mask_of dem mask) in *. set (ts := map (fun k => nth k tiles (0, 0, (0, 0))%Z) arrival) in *.
  assert (TI : forall t, In t ts <-> In t tiles).
  { intros t. unfold ts. rewrite in_map_iff. split.
    - intros (j & <- & Ij). apply (Permutation_in _ PA), in_seq in Ij. apply nth_In. lia.
    - intros I. apply In_nth with (d := (0, 0, (0, 0))%Z) in I as (j & Lj & Ej). exists j. split; [exact Ej|]. apply (Permutation_in _ (Permutation_sym PA)), in_seq. lia. }
  assert (V1' : v = None <-> forall x y, in_raster dem x y -> ~ falls c dem m r q (x, y)).
  { rewrite V1. split.
    - intros A x y IR. destruct (CV x y IR) as (t & It & Ct). apply (A t x y); [now apply TI|exact Ct].
    - intros A t x y _ TC. apply A. exact (covers_in_raster dem _ _ _ CO TC). }
  assert (LAST : v <> None -> exists pre t post, ts = pre ++ t :: post /\ (exists x y, tile_covers (s_grid dem) t x y /\ falls c dem m r q (x, y)) /\ (forall t' x y, In t' post -> tile_covers (s_grid dem) t' x y -> ~ falls c dem m r q (x, y))).
  { intros NV. destruct (last_split (fun t => exists x y, tile_covers (s_grid dem) t x y /\ falls c dem m r q (x, y)) ts ltac:(intros; apply Classical_Prop.classic)) as (pre & t & post & E1 & P1 & Q1).
    - apply Classical_Prop.NNPP. intros Q. apply NV, V1. intros t x y It TC F. apply Q. exists t. split; [exact It|]. exists x, y. auto.
    - exists pre, t, post. split; [exact E1|]. split; [exact P1|]. intros t' x y I TC F. apply (Q1 t' I). exists x, y. auto. }
  split; [exact V1'|]. split.
  - intros mv lo hi Em BD. destruct (LAST ltac:(congruence)) as (pre & t & post & E1 & P1 & Q1).
    set (cells := filter (falls_b c dem m r q) (tile_cells dem t)).
    assert (HC : forall x y, In (x, y) cells <-> tile_covers (s_grid dem) t x y /\ falls c dem m r q (x, y)) by (intros x y; unfold cells; rewrite filter_In, tile_cells_in, falls_spec by exact CO; tauto).
    pose proof (V2 pre t post E1 P1 Q1 cells (NoDup_filter _ (tile_cells_nodup dem t CO)) HC) as EV. rewrite Em in EV. injection EV as ->. unfold mean_of. replace (length cells) with (length (map (cell_value c dem b) cells)) by apply map_length. apply mean_bounds.
    + destruct P1 as (x & y & TC & F). intros Q. assert (I : In (x, y) cells) by (apply HC; auto). apply (in_map (cell_value c dem b)) in I. rewrite Q in I. destruct I.
    + intros w Iw. apply in_map_iff in Iw as ([x y] & <- & I). apply HC in I as [TC F]. apply BD; [exact (covers_in_raster dem _ _ _ CO TC)|exact F].
  - intros cells ND NE HC AT. destruct cells as [|[x0 y0] cells0] eqn:Ecells; [congruence|]. rewrite <- Ecells in *. assert (I0 : In (x0, y0) cells) by (rewrite Ecells; left; reflexivity).
    destruct LAST as (pre & t & post & E1 & P1 & Q1). { intros Q. destruct (proj1 (HC x0 y0) I0) as [IR F]. exact (proj1 V1' Q x0 y0 IR F). }
    assert (It : In t tiles) by (apply TI; rewrite E1; apply in_elt).
    apply (V2 pre t post E1 P1 Q1 cells ND). intros x y. rewrite HC. split; [|intros [TC F]; split; [exact (covers_in_raster dem _ _ _ CO TC)|exact F]]. intros [IR F]. split; [|exact F].
    destruct (AT t It) as [A|A]; [apply A, HC; auto|]. exfalso. destruct P1 as (x1 & y1 & TC & F1). apply (A x1 y1); [apply HC; split; [exact (covers_in_raster dem _ _ _ CO TC)|exact F1]|exact TC].
Qed.
Print Assumptions project_dem_image.

(** It raises ValueError if the center of a selected cell is seen exactly on the right or bottom border of the image (finding), values or mask do not have the shape of the elevation model, or there is nothing to compute. *)
Theorem project_dem_raises : forall c nx ny dem values mask size ov scale depth arrival, coherent dem -> get_imgsz c = [nx; ny] -> (0 <= nx)%Z -> (0 <= ny)%Z -> fair size ov ->
  (~ valid_values (s_grid dem) values depth \/ ~ shaped (s_grid dem) (mask_of dem mask) \/ (layers values depth <> [] /\ exists x y, in_raster dem x y /\ on_border nx ny c dem (mask_of dem mask) (x, y)) ->
   project_dem c dem values mask size ov scale (1, 1) depth arrival = Err ValueError).
Proof.
  intros c nx ny dem values mask size ov scale depth arrival CO Hi Hnx Hny FA H. destruct (Classical_Prop.classic (valid_values (s_grid dem) values depth)) as [VV|NV].
  2:{ unfold project_dem. unfold valid_values in NV. destruct values as [vs|]; [|destruct depth; [exfalso; now apply NV|reflexivity]]. destruct (forallb (has_shape (s_grid dem)) vs) eqn:E; [|reflexivity]. exfalso. apply NV. intros v Iv. apply shaped_b. rewrite forallb_forall in E. now apply E. }
  unfold project_dem. rewrite (layers_ok _ _ _ VV). cbn [bind]. fold (mask_of dem mask). destruct (has_shape (s_grid dem) (mask_of dem mask)) eqn:ES; [|reflexivity]. apply shaped_b in ES. cbn [negb]. destruct H as [H|[H|H]]; [contradiction|contradiction|]. destruct H as (NL & x & y & IR & OB).
  destruct (fair_tiles dem size ov CO FA) as (tiles & ET & CV). rewrite ET. cbn [bind]. destruct (layers values depth) as [|b bs]; [congruence|]. cbn [mapM].
  assert (E : mapM (process c dem (mask_of dem mask) scale (1, 1) b) tiles = Err ValueError).
  { destruct (CV x y IR) as (t & It & Ct). clear ET CV.
    assert (D : forall t, process c dem (mask_of dem mask) scale (1, 1) b t = Err ValueError \/ exists r, process c dem (mask_of dem mask) scale (1, 1) b t = Ok r).
    { intros t'. destruct (process_spec nx ny c dem (mask_of dem mask) scale b t' CO Hi Hnx Hny) as [P1 P2]. destruct (Classical_Prop.classic (exists rc, In rc (tile_cells dem t') /\ on_border nx ny c dem (mask_of dem mask) rc)) as [Q|Q]; [left; auto|]. right. destruct P2 as (r & Er & _); [intros rc I O; apply Q; exists rc; auto|]. eauto. }
    induction tiles as [|t' tiles IH]; [destruct It|]. cbn [mapM]. destruct It as [->|It].
    - destruct (process_spec nx ny c dem (mask_of dem mask) scale b t CO Hi Hnx Hny) as [P1 _]. rewrite P1; [reflexivity|]. exists (x, y). split; [now apply tile_cells_in|exact OB].
    - destruct (D t') as [->|(r & ->)]; [reflexivity|]. cbn [bind]. rewrite IH by exact It. reflexivity. }
  rewrite E. reflexivity.
Qed.
Print Assumptions project_dem_raises.

(** ** An example
    A camera at the origin that looks north, and an elevation model of one row and two columns, 2 units north, both seen in pixel (1, 2) of a 4 x 2 image. *)
Definition dem_vec : list R := [0; 0; 0; 0; 0; 0; 4; 2; 1; 1; 0; 0; 0; 0; 0; 0; 0; 0; 0; 0].
Definition dem_cam : cam := mkcam dem_vec dem_vec None None.
Definition dem_ex : sraster := mksraster [[Some 0; Some 0]] (mkgrid 2 1 (0, 1) (3, 1)) None None None None.
Lemma dem_ex_coherent : coherent dem_ex.
Proof. split; [split; (split; [cbn; lra|cbn; lia])|]. split; [reflexivity|]. split; [intros row [<-|[]]; reflexivity|]. split; intros v Q; discriminate Q. Qed.
Lemma dem_cam_imgsz : get_imgsz dem_cam = [4%Z; 2%Z].
Proof. unfold get_imgsz. cbn [dem_cam vec dem_vec slice skipn firstn map]. rewrite !Rtrunc_IZR. reflexivity. Qed.
Lemma dem_cam_uv x : xyz_to_uv dem_cam false (x, 2, 0) = Some (x / 2 + 2, 1).
Proof.
  assert (ER : Rm dem_cam = ((1, 0, 0), (0, 0, -1), (0, 1, 0))).
  { unfold Rm, get_viewdir, slice, v3. cbn [dem_cam vec dem_vec skipn firstn nth]. unfold rotation. cbv zeta. unfold deg2rad. rewrite Rmult_0_l, cos_0, sin_0. f_equal; [f_equal|]; repeat f_equal; ring. }
  unfold xyz_to_uv, xyz_to_xy, offset. cbv zeta. rewrite ER. unfold get_xyz, slice, v3. cbn [vec dem_cam dem_vec skipn firstn nth sub3 correction fst snd row dot3].
  match goal with |- context [Rleb ?e 0] => replace e with 2 by ring; destruct (Rleb_spec 2 0) as [H|H]; [lra|] end. cbn [option_map]. f_equal. unfold xy_to_uv. rewrite distort_none by (split; reflexivity). unfold f_, center, imgszR. rewrite dem_cam_imgsz. cbn. f_equal; field.
Qed.
Lemma dem_ex_uv y : (0 <= y < 2)%Z -> cell_uv dem_cam dem_ex (0%Z, y) = Some ((IZR y / 2 + / 4) / 2 + 2, 1).
Proof.
  intros Y. unfold cell_uv, cell_point. assert (y = 0 \/ y = 1)%Z as [-> | ->] by lia; cbn [fst snd]; [change (at2 None (s_rows dem_ex) 0 0) with (Some 0)|change (at2 None (s_rows dem_ex) 0 1) with (Some 0)]; cbn [option_map];
  unfold GridSpec.center, at_cells; cbn [xaxis yaxis s_grid dem_ex gxlim gylim gnx gny fst snd]; replace (3 + (0 + / 2) * ((1 - 3) / 1)) with 2 by field; rewrite dem_cam_uv; do 2 f_equal; field.
Qed.
Lemma dem_ex_falls m y : (0 <= y < 2)%Z -> at2 false m 0 y = true -> falls dem_cam dem_ex m 1 2 (0%Z, y).
Proof.
  intros Y M. split; [exact M|]. rewrite dem_ex_uv by exact Y. do 2 eexists. split; [reflexivity|]. destruct Y as [Y1 Y2]. assert (Y3 : (y <= 1)%Z) by lia. apply IZR_le in Y1, Y3. lra.
Qed.

(** Finding: a pixel seen by several tiles gets the mean of the last tile only, so that the image depends on the tiles and, in parallel, on the order in which they are done.  In the example, the values 1 and 3 give 2 with one tile, 1 or 3 with tiles of one cell. *)
Theorem project_dem_tiles_refuted : exists c dem values, (exists imgs, project_dem c dem (Some [values]) None (2, 1)%Z (0, 0)%Z 1 (1, 1) false [0%nat] = Ok [imgs] /\ nth_error imgs 6 = Some (Some 2)) /\
  (exists imgs, project_dem c dem (Some [values]) None (1, 1)%Z (0, 0)%Z 1 (1, 1) false [0%nat; 1%nat] = Ok [imgs] /\ nth_error imgs 6 = Some (Some 3)) /\
  (exists imgs, project_dem c dem (Some [values]) None (1, 1)%Z (0, 0)%Z 1 (1, 1) false [1%nat; 0%nat] = Ok [imgs] /\ nth_error imgs 6 = Some (Some 1)).
Proof.
  exists dem_cam, dem_ex, [[1; 3]].
  assert (GEN : forall size tiles arrival, tile_indices (s_grid dem_ex) size (0, 0)%Z = Ok tiles -> Permutation arrival (seq 0 (length tiles)) ->
    exists img v, project_dem dem_cam dem_ex (Some [[[1; 3]]]) None size (0, 0)%Z 1 (1, 1) false arrival = Ok [img] /\ nth_error img 6 = Some v /\
      pixel_is dem_cam dem_ex (mask_of dem_ex None) (map (fun k => nth k tiles (0, 0, (0, 0))%Z) arrival) (BValue [[1; 3]]) 1 2 v).
  { intros size tiles arrival ET PA. destruct (project_dem_pixels dem_cam 4 2 dem_ex (Some [[[1; 3]]]) None size (0, 0)%Z 1 false tiles arrival dem_ex_coherent dem_cam_imgsz) as (imgs & E & L & S); try assumption; try lia.
    - intros v [<-|[]]. split; [reflexivity|intros row [<-|[]]; reflexivity].
    - split; [reflexivity|intros row [<-|[]]; reflexivity].
    - intros t x y _ TC (_ & u & v & Eu & F & B). apply (covers_in_raster _ _ _ _ dem_ex_coherent) in TC as [X Y]. cbn in X, Y. assert (x = 0%Z) by lia. subst x. rewrite dem_ex_uv in Eu by exact Y. injection Eu as <- <-. destruct Y as [Y1 Y2]. assert (Y3 : (y <= 1)%Z) by lia. apply IZR_le in Y1, Y3. lra.
    - cbn in L. destruct imgs as [|img [|]]; try discriminate L. destruct (S 0%nat _ img eq_refl eq_refl) as [_ SS]. destruct (SS 1%Z 2%Z ltac:(lia) ltac:(lia)) as (v & Ev & Pv). exists img, v. auto. }
  assert (TM : Rround (1 / 1) = 1%Z) by (apply Rround_imp; apply Rabs_def1; lra).
  assert (W1 : tile_w 1 1 = 1%Z) by (unfold tile_w; rewrite TM; cbn; apply Rceil_imp; lra).
  assert (K21 : Rround (2 / 1) = 2%Z) by (apply Rround_imp; apply Rabs_def1; lra). assert (K22 : Rround (2 / 2) = 1%Z) by (apply Rround_imp; apply Rabs_def1; lra).
  assert (W21 : tile_w 2 1 = 1%Z) by (unfold tile_w; rewrite K21; cbn; apply Rceil_imp; lra). assert (W22 : tile_w 2 2 = 2%Z) by (unfold tile_w; rewrite K22; cbn; apply Rceil_imp; lra).
  assert (T1 : tile_indices (s_grid dem_ex) (2, 1)%Z (0, 0)%Z = Ok [((0, 1), (0, 2))]%Z) by (unfold tile_indices; cbn [s_grid dem_ex gnx gny fst snd]; rewrite !tile_axis_eq by lia; unfold tile_m; rewrite W22, W1; reflexivity).
  assert (T2 : tile_indices (s_grid dem_ex) (1, 1)%Z (0, 0)%Z = Ok [((0, 1), (0, 1)); ((0, 1), (1, 2))]%Z) by (unfold tile_indices; cbn [s_grid dem_ex gnx gny fst snd]; rewrite !tile_axis_eq by lia; unfold tile_m; rewrite W21, W1; reflexivity).
  assert (CVR : forall t x y, tile_covers (s_grid dem_ex) t x y -> x = 0%Z /\ (0 <= y < 2)%Z) by (intros t x y TC; apply (covers_in_raster _ _ _ _ dem_ex_coherent) in TC as [X Y]; cbn in X, Y; lia).
  assert (MF : forall y, (0 <= y < 2)%Z -> falls dem_cam dem_ex (mask_of dem_ex None) 1 2 (0%Z, y)) by (intros y Y; apply dem_ex_falls; [exact Y|]; assert (y = 0 \/ y = 1)%Z as [-> | ->] by lia; reflexivity).
  assert (CV0 : cell_value dem_cam dem_ex (BValue [[1; 3]]) (0, 0)%Z = 1) by reflexivity. assert (CV1 : cell_value dem_cam dem_ex (BValue [[1; 3]]) (0, 1)%Z = 3) by reflexivity.
  split; [|split].
  - destruct (GEN _ _ [0%nat] T1 (Permutation_refl _)) as (img & v & E & Ev & _ & P). exists img. split; [exact E|]. rewrite Ev. f_equal.
    rewrite (P [] ((0, 1), (0, 2))%Z [] eq_refl) with (cells := [(0, 0); (0, 1)]%Z).
    + unfold mean_of, sumR. cbn [map length fold_right]. rewrite ?CV0, ?CV1. cbn [Z.of_nat Pos.of_succ_nat Pos.succ]. f_equal. field.
    + exists 0%Z, 0%Z. split; [|apply MF; lia]. split; unfold in_slice, slice_bound; cbn; lia.
    + intros t' x y [].
    + repeat constructor; cbn; intuition discriminate.
    + intros x y. split; [intros [Q|[Q|[]]]; injection Q as <- <-; (split; [split; unfold in_slice, slice_bound; cbn; lia|apply MF; lia])|]. intros [TC _]. destruct (CVR _ _ _ TC) as [-> Y]. assert (y = 0 \/ y = 1)%Z as [-> | ->] by lia; cbn; auto.
  - destruct (GEN _ _ [0; 1]%nat T2 (Permutation_refl _)) as (img & v & E & Ev & _ & P). exists img. split; [exact E|]. rewrite Ev. f_equal.
    rewrite (P [((0, 1), (0, 1))]%Z ((0, 1), (1, 2))%Z [] eq_refl) with (cells := [(0, 1)]%Z).
    + unfold mean_of, sumR. cbn [map length fold_right]. rewrite ?CV0, ?CV1. cbn [Z.of_nat Pos.of_succ_nat Pos.succ]. f_equal. field.
    + exists 0%Z, 1%Z. split; [|apply MF; lia]. split; unfold in_slice, slice_bound; cbn; lia.
    + intros t' x y [].
    + repeat constructor; cbn; intuition discriminate.
    + intros x y. split; [intros [Q|[]]; injection Q as <- <-; (split; [split; unfold in_slice, slice_bound; cbn; lia|apply MF; lia])|]. intros [TC _]. destruct (CVR _ _ _ TC) as [-> Y]. destruct TC as [_ TC]. unfold in_slice, slice_bound in TC. cbn in TC. assert (y = 1)%Z as -> by lia. cbn. auto.
  - destruct (GEN _ _ [1; 0]%nat T2 (perm_swap _ _ _)) as (img & v & E & Ev & _ & P). exists img. split; [exact E|]. rewrite Ev. f_equal.
    rewrite (P [((0, 1), (1, 2))]%Z ((0, 1), (0, 1))%Z [] eq_refl) with (cells := [(0, 0)]%Z).
    + unfold mean_of, sumR. cbn [map length fold_right]. rewrite ?CV0, ?CV1. cbn [Z.of_nat Pos.of_succ_nat Pos.succ]. f_equal. field.
    + exists 0%Z, 0%Z. split; [|apply MF; lia]. split; unfold in_slice, slice_bound; cbn; lia.
    + intros t' x y [].
    + repeat constructor; cbn; intuition discriminate.
    + intros x y. split; [intros [Q|[]]; injection Q as <- <-; (split; [split; unfold in_slice, slice_bound; cbn; lia|apply MF; lia])|]. intros [TC _]. destruct (CVR _ _ _ TC) as [-> Y]. destruct TC as [_ TC]. unfold in_slice, slice_bound in TC. cbn in TC. assert (y = 0)%Z as -> by lia. cbn. auto.
Qed.
Print Assumptions project_dem_tiles_refuted.
Example project_dem_ex : coherent dem_ex /\ get_imgsz dem_cam = [4; 2]%Z /\ fair (256, 256)%Z (1, 1)%Z /\ falls dem_cam dem_ex (mask_of dem_ex None) 1 2 (0, 1)%Z.
Proof. split; [exact dem_ex_coherent|]. split; [exact dem_cam_imgsz|]. split; [cbv [fair fst snd]; lia|]. apply dem_ex_falls; [lia|reflexivity]. Qed.
