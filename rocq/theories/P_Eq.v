(** C101: equality and copies of grids and rasters. *)
From Verif Require Import Base BaseLemmas HelpersModel GridModel GridSpec ImageModel ImageSpec ImageProofs RasterFileModel PathModel WriteModel EqModel.
Open Scope R_scope.

Lemma lim_eqb_true a b : lim_eqb a b = true <-> a = b.
Proof. destruct a as [a1 a2], b as [b1 b2]. unfold lim_eqb. cbn [fst snd]. rewrite andb_true_iff, !Reqb_true. split; [intros [-> ->]; reflexivity|intros E; injection E as -> ->; split; reflexivity]. Qed.
(** ** Grids *)
(** Equal grids have the same size and limits (the crs is not compared); equality is an equivalence. *)
Theorem grid_equality : forall a b, grid_eq a b = true <-> eg a = eg b.
Proof.
  intros [[nx ny xl yl] t c] [[nx' ny' xl' yl'] t' c']. unfold grid_eq. cbn [eg gnx gny gxlim gylim]. rewrite !andb_true_iff, !Z.eqb_eq, !lim_eqb_true. split; [intros [[[-> ->] ->] ->]; reflexivity|intros E; injection E as -> -> -> ->; repeat split].
Qed.
Print Assumptions grid_equality.
(** A copy of a grid with an array as size is an equal grid, without crs. *)
Theorem grid_copy_equal : forall a, grid_ok (eg a) -> eg_array a = true -> exists b, grid_copy a = Ok b /\ grid_eq a b = true /\ eg_crs b = None.
Proof.
  intros [[nx ny [x0 x1] [y0 y1]] t c] [[Gx _] [Gy _]] T. cbn in *. subst t. unfold grid_copy, parse_limits. cbn [eg eg_array negb gxlim gylim gnx gny fst snd].
  destruct (Reqb_spec x0 x1); [contradiction|]. destruct (Reqb_spec y0 y1); [contradiction|]. cbn [bind]. eexists. split; [reflexivity|]. split; [apply grid_equality; reflexivity|reflexivity].
Qed.
Print Assumptions grid_copy_equal.
(** Finding: a grid made with a tuple as size (as documented) cannot be copied. *)
Theorem grid_copy_tuple_refuted : forall a, eg_array a = false -> grid_copy a = Err AttributeError.
Proof. intros a H. unfold grid_copy. rewrite H. reflexivity. Qed.
Print Assumptions grid_copy_tuple_refuted.
Example grid_ex : grid_ok (eg (mkegrid (mkgrid 3 2 (0, 3) (2, 0)) false (Some (CInt 4326)))).
Proof. split; split; cbn; try lra; lia. Qed.

(** ** Rasters *)
Lemma bget_same a i j : proper a -> (0 <= i < ph a)%Z -> (0 <= j < pw a)%Z -> bget a i j = pixel a i j.
Proof. intros P Hi Hj. unfold bget, pixel. destruct (Z.eqb_spec (ph a) 1), (Z.eqb_spec (pw a) 1); repeat match goal with H : ph a = 1%Z |- _ => replace i with 0%Z by lia; clear H | H : pw a = 1%Z |- _ => replace j with 0%Z by lia; clear H end; reflexivity. Qed.
Lemma cell_eqb_true a b : cell_eqb a b = true <-> exists x, a = Some (Some x) /\ b = Some (Some x).
Proof. destruct a as [[x|]|], b as [[y|]|]; cbn; split; try discriminate; try (intros (z & E1 & E2); discriminate). - intros E. apply Reqb_true in E. subst. exists y. split; reflexivity. - intros (z & E1 & E2). injection E1 as ->. injection E2 as ->. apply Reqb_true. reflexivity. Qed.
Lemma In_Zrange n i : In i (Zrange n) <-> (0 <= i < n)%Z.
Proof. unfold Zrange. rewrite in_map_iff. split; [intros (k & <- & I); apply in_seq in I; lia|intros H; exists (Z.to_nat i); split; [lia|apply in_seq; lia]]. Qed.
(** Rasters of the same size are equal exactly if their limits are the same and all their cells are the same numbers, none of them nan. *)
Theorem raster_equality : forall a b, proper (er_array a) -> proper (er_array b) -> psize (er_array a) = psize (er_array b) ->
  (raster_eq a b = true <-> er_xlim a = er_xlim b /\ er_ylim a = er_ylim b /\
   forall i j, (0 <= i < ph (er_array a))%Z -> (0 <= j < pw (er_array a))%Z -> exists x, pixel (er_array a) i j = Some (Some x) /\ pixel (er_array b) i j = Some (Some x)).
Proof.
  intros a b PA PB S'. unfold raster_eq. rewrite !andb_true_iff, !lim_eqb_true. unfold psize in S'. injection S' as SW SH.
  unfold array_equiv, bdim. rewrite SW, SH, !Z.eqb_refl.
  assert (E : forallb (fun i => forallb (fun j => cell_eqb (bget (er_array a) i j) (bget (er_array b) i j)) (Zrange (pw (er_array b)))) (Zrange (ph (er_array b))) = true <->
    forall i j, (0 <= i < ph (er_array b))%Z -> (0 <= j < pw (er_array b))%Z -> exists x, pixel (er_array a) i j = Some (Some x) /\ pixel (er_array b) i j = Some (Some x)).
  { rewrite forallb_forall. split.
    - intros H i j Hi Hj. specialize (H i (proj2 (In_Zrange _ _) Hi)). rewrite forallb_forall in H. specialize (H j (proj2 (In_Zrange _ _) Hj)). rewrite !bget_same in H by (assumption || lia). apply cell_eqb_true. exact H.
    - intros H i Hi. apply In_Zrange in Hi. apply forallb_forall. intros j Hj. apply In_Zrange in Hj. rewrite !bget_same by (assumption || lia). apply cell_eqb_true. apply H; assumption. }
  rewrite E. split; [intros [[A B] C]; split; [exact B|split; [exact C|exact A]]|intros [B [C A]]; split; [split; [exact A|exact B]|exact C]].
Qed.
Print Assumptions raster_equality.
Definition has_nan (a : pic cell) : Prop := exists i j, (0 <= i < ph a)%Z /\ (0 <= j < pw a)%Z /\ pixel a i j = Some None.
(** A copy has the same values, limits and datetime, and no crs; it is equal to the raster exactly if no value is nan. *)
Theorem raster_copy_equal : forall a, proper (er_array a) -> fst (er_xlim a) <> snd (er_xlim a) -> fst (er_ylim a) <> snd (er_ylim a) ->
  exists b, raster_copy a = Ok b /\ er_array b = er_array a /\ er_xlim b = er_xlim a /\ er_ylim b = er_ylim a /\ er_datetime b = er_datetime a /\ er_crs b = None /\ (raster_eq a b = true <-> ~ has_nan (er_array a)).
Proof.
  intros [ar [x0 x1] [y0 y1] dt c] PA NX NY. cbn [er_array er_xlim er_ylim fst snd] in *. unfold raster_copy, parse_limits. cbn [er_xlim er_ylim fst snd]. destruct (Reqb_spec x0 x1); [contradiction|]. destruct (Reqb_spec y0 y1); [contradiction|]. cbn [bind].
  eexists. split; [reflexivity|]. cbn [er_array er_xlim er_ylim er_datetime er_crs]. repeat (split; [reflexivity|]). rewrite raster_equality by (cbn [er_array]; assumption || reflexivity). cbn [er_array er_xlim er_ylim]. split.
  - intros (_ & _ & H) (i & j & Hi & Hj & E). destruct (H i j Hi Hj) as (x & E' & _). congruence.
  - intros N. split; [reflexivity|split; [reflexivity|]]. intros i j Hi Hj. destruct (pixel ar i j) as [[x|]|] eqn:E; [exists x; split; reflexivity| |].
    + exfalso. apply N. exists i, j. split; [exact Hi|split; [exact Hj|exact E]].
    + exfalso. destruct PA as (_ & _ & L & RL). unfold pixel in E. destruct (nth_error (rows ar) (Z.to_nat i)) as [r|] eqn:ER.
      * apply nth_error_None in E. specialize (RL r (nth_error_In _ _ ER)). lia.
      * apply nth_error_None in ER. lia.
Qed.
Print Assumptions raster_copy_equal.
(** Finding: a raster with a nan value is not equal to any raster of its size, not to its copy and not to itself. *)
Theorem raster_nan_refuted : forall a b, proper (er_array a) -> proper (er_array b) -> psize (er_array a) = psize (er_array b) -> has_nan (er_array a) -> raster_eq a b = false.
Proof.
  intros a b PA PB S' (i & j & Hi & Hj & E). apply not_true_iff_false. intros T. apply raster_equality in T; try assumption. destruct T as (_ & _ & T). destruct (T i j Hi Hj) as (x & E' & _). congruence.
Qed.
Print Assumptions raster_nan_refuted.
(** Finding: rasters of different sizes can be equal: a raster of one cell is equal to every raster with the same limits all of whose cells have its value. *)
Theorem raster_broadcast_refuted : forall v h w xl yl d c d' c', (1 <= h)%nat -> (1 <= w)%nat ->
  raster_eq (mkeraster (mkpic 1 1 [[Some v]]) xl yl d c) (mkeraster (mkpic (Z.of_nat w) (Z.of_nat h) (repeat (repeat (Some v) w) h)) xl yl d' c') = true.
Proof.
  intros v h w xl yl d c d' c' H W. unfold raster_eq. cbn [er_array er_xlim er_ylim]. rewrite (proj2 (lim_eqb_true xl xl) eq_refl), (proj2 (lim_eqb_true yl yl) eq_refl), !andb_true_r. unfold array_equiv. cbn [ph pw].
  assert (BD : forall n, bdim 1 n = Some n) by (intros n; unfold bdim; destruct (Z.eqb_spec 1 n) as [<-|]; reflexivity). rewrite !BD. apply forallb_forall. intros i Hi. apply In_Zrange in Hi. apply forallb_forall. intros j Hj. apply In_Zrange in Hj. apply cell_eqb_true. exists v. split; [reflexivity|].
  unfold bget. cbn [ph pw rows]. rewrite (nth_error_nth' _ (repeat (Some v) w)) by (rewrite repeat_length; destruct (Z.eqb_spec (Z.of_nat h) 1); lia). rewrite nth_repeat. rewrite (nth_error_nth' _ (Some v)) by (rewrite repeat_length; destruct (Z.eqb_spec (Z.of_nat w) 1); lia). rewrite nth_repeat. reflexivity.
Qed.
Print Assumptions raster_broadcast_refuted.
(** Equality of rasters is symmetric. *)
Theorem raster_symmetric : forall a b, raster_eq a b = raster_eq b a.
Proof.
  assert (D : forall n m, bdim n m = bdim m n).
  { intros n m. unfold bdim. destruct (Z.eqb_spec n m) as [E|E]; destruct (Z.eqb_spec m n) as [F|F]; try lia; [rewrite E; reflexivity|]. destruct (Z.eqb_spec n 1), (Z.eqb_spec m 1); try reflexivity; lia. }
  assert (C : forall x y, cell_eqb x y = cell_eqb y x) by (intros x y; apply eq_true_iff_eq; rewrite !cell_eqb_true; split; intros (z & E1 & E2); exists z; split; assumption).
  assert (L : forall x y, lim_eqb x y = lim_eqb y x) by (intros x y; apply eq_true_iff_eq; rewrite !lim_eqb_true; split; congruence).
  intros a b. unfold raster_eq. rewrite (L (er_xlim a)), (L (er_ylim a)). do 2 f_equal. unfold array_equiv. rewrite (D (ph (er_array a))), (D (pw (er_array a))).
  destruct (bdim (ph (er_array b)) (ph (er_array a))) as [h|]; [|reflexivity]. destruct (bdim (pw (er_array b)) (pw (er_array a))) as [w|]; [|reflexivity].
  apply eq_true_iff_eq. rewrite !forallb_forall. split; intros H i I; specialize (H i I); rewrite forallb_forall in *; intros j J; specialize (H j J); apply cell_eqb_true in H as (x & E1 & E2); apply cell_eqb_true; exists x; split; assumption.
Qed.
Print Assumptions raster_symmetric.
(** Finding: so that equality is not transitive. *)
Theorem raster_transitive_refuted : exists a b c, proper (er_array a) /\ proper (er_array b) /\ proper (er_array c) /\ raster_eq a b = true /\ raster_eq b c = true /\ raster_eq a c = false.
Proof.
  exists (mkeraster (mkpic 1 2 [[Some 1]; [Some 1]]) (0, 1) (0, 1) None None), (mkeraster (mkpic 1 1 [[Some 1]]) (0, 1) (0, 1) None None), (mkeraster (mkpic 1 3 [[Some 1]; [Some 1]; [Some 1]]) (0, 1) (0, 1) None None).
  assert (PR : forall n r, (1 <= n)%nat -> r = repeat [Some 1] n -> proper (mkpic 1 (Z.of_nat n) r)) by (intros n r N ->; repeat split; cbn [pw ph rows]; try lia; [rewrite repeat_length; lia|intros x X; apply repeat_spec in X; subst; reflexivity]).
  split; [apply (PR 2%nat); [lia|reflexivity]|]. split; [apply (PR 1%nat); [lia|reflexivity]|]. split; [apply (PR 3%nat); [lia|reflexivity]|]. split; [|split].
  - rewrite raster_symmetric. exact (raster_broadcast_refuted 1 2 1 (0, 1) (0, 1) None None None None ltac:(lia) ltac:(lia)).
  - exact (raster_broadcast_refuted 1 3 1 (0, 1) (0, 1) None None None None ltac:(lia) ltac:(lia)).
  - reflexivity.
Qed.
Print Assumptions raster_transitive_refuted.
(** The grid of a raster has its size and limits. *)
Theorem raster_grid_spec : forall a, fst (er_xlim a) <> snd (er_xlim a) -> fst (er_ylim a) <> snd (er_ylim a) ->
  exists g, raster_grid a = Ok g /\ eg g = mkgrid (pw (er_array a)) (ph (er_array a)) (er_xlim a) (er_ylim a) /\ grid_copy g = Ok g.
Proof.
  intros [ar [x0 x1] [y0 y1] dt c] NX NY. cbn [er_array er_xlim er_ylim fst snd] in *. unfold raster_grid, grid_copy, parse_limits. cbn [er_xlim er_ylim fst snd]. destruct (Reqb_spec x0 x1); [contradiction|]. destruct (Reqb_spec y0 y1); [contradiction|]. cbn [bind].
  eexists. split; [reflexivity|]. split; [reflexivity|]. cbn [eg eg_array negb gxlim gylim fst snd gnx gny]. destruct (Reqb_spec x0 x1); [contradiction|]. destruct (Reqb_spec y0 y1); [contradiction|]. reflexivity.
Qed.
Print Assumptions raster_grid_spec.
Example raster_ex : proper (mkpic 2 1 [[Some 1; None]]) /\ has_nan (mkpic 2 1 [[Some 1; None]]) /\ ~ has_nan (mkpic 2 1 [[Some 1; Some 2]]).
Proof.
  split; [repeat split; cbn [pw ph rows length]; try lia; intros r [<-|[]]; reflexivity|]. split; [exists 0%Z, 1%Z; cbn; repeat split; lia|]. intros (i & j & Hi & Hj & E). cbn [ph pw] in Hi, Hj. assert (i = 0%Z) by lia. assert (J : j = 0%Z \/ j = 1%Z) by lia. subst i. destruct J as [-> | ->]; discriminate E.
Qed.
