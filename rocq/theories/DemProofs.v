(** Proofs about Camera.project_dem. *)
From Verif Require Import Base BaseLemmas HelpersModel HelpersSpec GridModel GridSpec GridProofs RasterModel RasterSpec RasterProofs CameraModel CameraStateProofs GetitemModel P_Getitem AggregateProofs CameraProofs4 DemModel.
Open Scope R_scope.

(** ** The cells of a raster seen by a camera *)
(** center of cell (row, column) of the elevation model; None if the elevation is nan *)
Definition cell_point (dem : sraster) (rc : Z * Z) : option vec3 :=
  option_map (fun z => (GridSpec.center (xaxis (s_grid dem)) (snd rc), GridSpec.center (yaxis (s_grid dem)) (fst rc), z)) (at2 None (s_rows dem) (fst rc) (snd rc)).
(** where the camera sees it *)
Definition cell_uv (c : cam) (dem : sraster) (rc : Z * Z) : option vec2 := match cell_point dem rc with Some p => xyz_to_uv c false p | None => None end.
(** its value in a layer of the image *)
Definition cell_value (c : cam) (dem : sraster) (b : band) (rc : Z * Z) : R :=
  match b with
  | BValue v => at2 0 v (fst rc) (snd rc)
  | BDepth => match cell_point dem rc with Some p => snd (xyz_to_xy c false p) | None => 0 end
  end.
Definition falls_b (c : cam) (dem : sraster) (mask : list (list bool)) (r q : Z) (rc : Z * Z) : bool :=
  (at2 false mask (fst rc) (snd rc) && match cell_uv c dem rc with Some (u, v) => (Rfloor v =? r) && (Rfloor u =? q) | None => false end)%Z%bool.

Lemma zat_all {A} (d : A) l : map (zat d l) (Zrange (Z.of_nat (length l))) = l.
Proof.
  unfold Zrange. rewrite Nat2Z.id, map_map. unfold zat. apply (nth_ext _ _ d d); [now rewrite map_length, seq_length|]. intros k K. rewrite map_length, seq_length in K.
  rewrite (nth_indep _ d (nth (Z.to_nat (Z.of_nat 0)) l d)) by (now rewrite map_length, seq_length). rewrite (map_nth (fun x => nth (Z.to_nat (Z.of_nat x)) l d)), seq_nth by exact K. now rewrite Nat2Z.id.
Qed.
Lemma pairs_map (f g : Z -> Z) rs cs : map (fun p => (f (fst p), g (snd p))) (pairs rs cs) = pairs (map f rs) (map g cs).
Proof. unfold pairs. induction rs as [|r rs IH]; [reflexivity|]. cbn [flat_map map]. rewrite map_app, IH. f_equal. rewrite !map_map. reflexivity. Qed.
Lemma pairs_in rs cs r c : In (r, c) (pairs rs cs) <-> In r rs /\ In c cs.
Proof.
  unfold pairs. rewrite in_flat_map. split.
  - intros (r' & Ir & H). apply in_map_iff in H as (c' & E & Ic). injection E as -> ->. auto.
  - intros [Ir Ic]. exists r. split; [exact Ir|]. apply in_map_iff. exists c. auto.
Qed.
Lemma zrange_in n k : In k (Zrange n) <-> (0 <= k < n)%Z.
Proof. unfold Zrange. rewrite in_map_iff. split; [intros (m & <- & Im); apply in_seq in Im; lia|]. intros K. exists (Z.to_nat k). split; [lia|]. apply in_seq. lia. Qed.
Lemma somes_nil {A} (l : list (option A)) : somes l = [] -> forall x, In x l -> x = None.
Proof. induction l as [|[a|] l IH]; cbn; intros E x I; [destruct I|discriminate|]. destruct I as [<-|I]; auto. Qed.

(** values of the selected points of a pixel *)
Lemma pixel_cells {P} (c : cam) nx ny (uv : P -> option vec2) (value : P -> R) (sel : list P) r q :
  get_imgsz c = [nx; ny] -> (0 <= r < ny)%Z -> (0 <= q < nx)%Z ->
  let is_in := filter (fun p => inframe c (uv p)) sel in
  cell_values (map (fun p => match uv p with Some (u, v) => Rtrunc v | None => 0%Z end) is_in) (map (fun p => match uv p with Some (u, v) => Rtrunc u | None => 0%Z end) is_in) (map value is_in) r q =
  map value (filter (fun p => match uv p with Some (u, v) => (Rfloor v =? r) && (Rfloor u =? q) | None => false end)%Z%bool sel).
Proof.
  intros Hi Hr Hq is_in. unfold cell_values. rewrite combine_map_same, combine_map_same, filter_map_comm, map_map. cbn [fst snd]. unfold is_in. rewrite filter_filter. f_equal. apply filter_ext_in.
  intros p _. cbv beta. destruct (uv p) as [[u v]|]; [|reflexivity].
  assert (Hfr : inframe c (Some (u, v)) = true <-> 0 <= u <= IZR nx /\ 0 <= v <= IZR ny) by (unfold inframe, imgszR; rewrite Hi; cbn [map nth]; rewrite !andb_true_iff, !Rleb_true; tauto).
  match goal with |- context [inframe c ?o && _] => change o with (Some (u, v)); destruct (inframe c (Some (u, v))) eqn:Ef end; cbn [andb].
  - apply proj1 in Hfr. specialize (Hfr eq_refl). rewrite !Rtrunc_floor by lra. rewrite ?Ef. reflexivity.
  - symmetry. apply andb_false_iff. destruct (Z.eqb_spec (Rfloor v) r); [right|auto]. destruct (Z.eqb_spec (Rfloor u) q); [exfalso|auto]. subst. enough (false = true) by discriminate. apply Hfr.
    pose proof (Rfloor_lb u). pose proof (Rfloor_ub u). pose proof (Rfloor_lb v). pose proof (Rfloor_ub v). destruct Hr as [R1 R2], Hq as [Q1 Q2]. apply IZR_le in R1, Q1.
    assert (R3 : (Rfloor v + 1 <= ny)%Z) by lia. assert (Q3 : (Rfloor u + 1 <= nx)%Z) by lia. apply IZR_le in R3, Q3. rewrite plus_IZR in R3, Q3. lra.
Qed.

(** ** One tile *)
Definition tile_cells (dem : sraster) (t : (Z * Z) * (Z * Z)) : list (Z * Z) :=
  match positions (gny (s_grid dem)) (Some (fst (fst t))) (Some (snd (fst t))) None, positions (gnx (s_grid dem)) (Some (fst (snd t))) (Some (snd (snd t))) None with
  | Ok rows, Ok cols => pairs rows cols
  | _, _ => []
  end.
Definition on_border (nx ny : Z) (c : cam) (dem : sraster) (mask : list (list bool)) (rc : Z * Z) : Prop :=
  at2 false mask (fst rc) (snd rc) = true /\ exists u v, cell_uv c dem rc = Some (u, v) /\ inframe c (Some (u, v)) = true /\ (u = IZR nx \/ v = IZR ny).

Lemma tile_scale_one c scale tile m : tile_scale c scale (1, 1) tile m = 1.
Proof. unfold tile_scale. cbv zeta. cbn [fst snd]. rewrite (Rmin_left 1 1), (Rmax_left 1 1) by lra. unfold Rmin, Rmax. repeat destruct (Rle_dec _ _); lra. Qed.

Lemma positions_ok n a b : (0 <= n)%Z -> exists ps, positions n (Some a) (Some b) None = Ok ps.
Proof. intros N. destruct (getitem_slice n (Some a) (Some b) None N) as [_ H]. destruct (H ltac:(lia)) as (ps & E & _). eauto. Qed.
Lemma at2_tile {A} (d : A) (m : list (list A)) rows cols p : (0 <= fst p < Z.of_nat (length rows))%Z -> (0 <= snd p < Z.of_nat (length cols))%Z ->
  at2 d (map (fun q => map (zat d (zat [] m q)) cols) rows) (fst p) (snd p) = at2 d m (zat 0%Z rows (fst p)) (zat 0%Z cols (snd p)).
Proof. intros H1 H2. unfold at2 at 1. rewrite (zat_map _ _ 0%Z) by exact H1. rewrite (zat_map _ _ 0%Z) by exact H2. reflexivity. Qed.

Lemma process_spec nx ny c dem mask scale b t : coherent dem -> get_imgsz c = [nx; ny] -> (0 <= nx)%Z -> (0 <= ny)%Z ->
  ((exists rc, In rc (tile_cells dem t) /\ on_border nx ny c dem mask rc) -> process c dem mask scale (1, 1) b t = Err ValueError) /\
  ((forall rc, In rc (tile_cells dem t) -> ~ on_border nx ny c dem mask rc) ->
   exists res, process c dem mask scale (1, 1) b t = Ok res /\ forall acc, Z.of_nat (length acc) = (ny * nx)%Z -> length (reduce acc res) = length acc /\
     forall r q, (0 <= r < ny)%Z -> (0 <= q < nx)%Z -> nth_error (reduce acc res) (Z.to_nat (r * nx + q)) =
       match map (cell_value c dem b) (filter (falls_b c dem mask r q) (tile_cells dem t)) with
       | [] => nth_error acc (Z.to_nat (r * nx + q))
       | here => Some (Some (sumR here / IZR (Z.of_nat (length here))))
       end).
Proof.
  intros CO Hi Hnx Hny. destruct t as [[r0 r1] [c0 c1]].
  assert (NY : (0 <= gny (s_grid dem))%Z) by (destruct CO as ([_ [_ Q]] & _); cbn in Q; lia). assert (NX : (0 <= gnx (s_grid dem))%Z) by (destruct CO as ([[_ Q] _] & _); cbn in Q; lia).
  destruct (positions_ok _ r0 r1 NY) as (rows & Er). destruct (positions_ok _ c0 c1 NX) as (cols & Ec).
  unfold tile_cells, process. cbn [fst snd]. rewrite Er, Ec. cbn [bind].
  set (orig := fun p : Z * Z => (zat 0%Z rows (fst p), zat 0%Z cols (snd p))). set (idx := pairs (Zrange (Z.of_nat (length rows))) (Zrange (Z.of_nat (length cols)))).
  assert (OR : pairs rows cols = map orig idx) by (unfold orig, idx; rewrite pairs_map, !zat_all; reflexivity).
  assert (IX : forall p, In p idx -> (0 <= fst p < Z.of_nat (length rows))%Z /\ (0 <= snd p < Z.of_nat (length cols))%Z) by (intros [a e] H; apply pairs_in in H as [H1 H2]; apply zrange_in in H1, H2; auto).
  rewrite OR. clear OR.
  assert (FE : filter (fun p => at2 false (map (fun q => map (zat false (zat [] mask q)) cols) rows) (fst p) (snd p)) idx = filter (fun p => at2 false mask (fst (orig p)) (snd (orig p))) idx).
  { apply filter_ext_in. intros p Ip. destruct (IX p Ip). now apply at2_tile. }
  rewrite FE. clear FE. set (sel := filter (fun p => at2 false mask (fst (orig p)) (snd (orig p))) idx).
  assert (SI : forall p, In p sel -> In p idx) by (intros p Ip; apply filter_In in Ip; tauto).
  assert (SM : forall p, In p sel -> In p idx /\ at2 false mask (fst (orig p)) (snd (orig p)) = true) by (intros p Ip; apply filter_In in Ip; tauto).
  assert (SM' : forall p, In p idx -> at2 false mask (fst (orig p)) (snd (orig p)) = true -> In p sel) by (intros p Ip M; apply filter_In; auto).
  assert (HERE : forall r q, map (cell_value c dem b) (filter (falls_b c dem mask r q) (map orig idx)) = map (fun p => cell_value c dem b (orig p)) (filter (fun p => match cell_uv c dem (orig p) with Some (u, v) => (Rfloor v =? r) && (Rfloor u =? q) | None => false end)%Z%bool sel)).
  { intros r q. rewrite filter_map_comm, map_map. unfold sel. rewrite filter_filter. reflexivity. }
  (* nothing visible *)
  assert (NONE : (forall p, In p sel -> inframe c (cell_uv c dem (orig p)) = false) -> forall (X : result (option (list Z * list R))), X = Ok None ->
    ((exists rc, In rc (map orig idx) /\ on_border nx ny c dem mask rc) -> X = Err ValueError) /\
    ((forall rc, In rc (map orig idx) -> ~ on_border nx ny c dem mask rc) ->
     exists res, X = Ok res /\ forall acc, Z.of_nat (length acc) = (ny * nx)%Z -> length (reduce acc res) = length acc /\
       forall r q, (0 <= r < ny)%Z -> (0 <= q < nx)%Z -> nth_error (reduce acc res) (Z.to_nat (r * nx + q)) =
         match map (cell_value c dem b) (filter (falls_b c dem mask r q) (map orig idx)) with
         | [] => nth_error acc (Z.to_nat (r * nx + q))
         | here => Some (Some (sumR here / IZR (Z.of_nat (length here))))
         end)).
  { intros NF X ->. split.
    - intros (rc & Irc & M & u & v & Eu & F & _). exfalso. apply in_map_iff in Irc as (p & <- & Ip). assert (Ps : In p sel) by (apply filter_In; split; [exact Ip|exact M]). specialize (NF p Ps). rewrite Eu in NF. congruence.
    - intros _. exists None. split; [reflexivity|]. intros acc La. split; [reflexivity|]. intros r q Hr Hq. cbn [reduce]. rewrite HERE.
      pose proof (pixel_cells c nx ny (fun p => cell_uv c dem (orig p)) (fun p => cell_value c dem b (orig p)) sel r q Hi Hr Hq) as PC. cbv beta zeta in PC. rewrite <- PC.
      replace (filter (fun p : Z * Z => inframe c (cell_uv c dem (orig p))) sel) with (@nil (Z * Z)); [reflexivity|]. symmetry. clear - NF. induction sel as [|p sel IH]; [reflexivity|]. cbn [filter]. rewrite (NF p) by (left; reflexivity). apply IH. intros p' I. apply NF. now right. }
  destruct sel as [|p0 sel0] eqn:Esel; [apply NONE; [intros p []|reflexivity]|]. rewrite <- Esel in *. clearbody sel.
  assert (NEr : rows <> []) by (intros ->; assert (I0 : In p0 idx) by (apply SI; rewrite Esel; left; reflexivity); destruct (IX _ I0) as [[Q1 Q2] _]; cbn in Q2; lia).
  assert (NEc : cols <> []) by (intros ->; assert (I0 : In p0 idx) by (apply SI; rewrite Esel; left; reflexivity); destruct (IX _ I0) as [_ [Q1 Q2]]; cbn in Q2; lia).
  destruct (raster_getitem dem (ISlice (Some r0) (Some r1) None) (ISlice (Some c0) (Some c1) None) rows cols CO Er Ec) as [_ GI].
  destruct (GI NEr NEc (or_introl eq_refl) (or_introl eq_refl)) as (tile & ET & CT & Ny & Nx & _ & _ & CV & CY & CX & _). rewrite ET. cbn [bind].
  destruct (sx_centers tile CT) as (x & Ex & Cx). destruct (sy_centers tile CT) as (y & Ey & Cy).
  assert (XV : forall k, (0 <= k < Z.of_nat (length cols))%Z -> zat 0 x k = GridSpec.center (xaxis (s_grid dem)) (zat 0%Z cols k)).
  { intros k K. rewrite <- CX by lia. unfold zat. destruct Cx as [IL IV]. cbn [xaxis snd] in IL. rewrite IV by lia. now rewrite Z2Nat.id by lia. }
  assert (YV : forall k, (0 <= k < Z.of_nat (length rows))%Z -> zat 0 y k = GridSpec.center (yaxis (s_grid dem)) (zat 0%Z rows k)).
  { intros k K. rewrite <- CY by lia. unfold zat. destruct Cy as [IL IV]. cbn [yaxis snd] in IL. rewrite IV by lia. now rewrite Z2Nat.id by lia. }
  assert (ZV : forall p, In p idx -> at2 None (s_rows tile) (fst p) (snd p) = at2 None (s_rows dem) (fst (orig p)) (snd (orig p))).
  { intros p Ip. destruct (IX p Ip) as [H1 H2]. unfold at2. apply CV; lia. }
  set (xyz := fun p : Z * Z => option_map (fun z => (zat 0 x (snd p), zat 0 y (fst p), z)) (at2 None (s_rows tile) (fst p) (snd p))).
  assert (PV : forall p, In p idx -> xyz p = cell_point dem (orig p)).
  { intros p Ip. unfold xyz, cell_point. rewrite ZV by exact Ip. destruct (IX p Ip) as [H1 H2]. rewrite XV, YV by assumption. reflexivity. }
  set (uv := fun p : Z * Z => match xyz p with Some q => xyz_to_uv c false q | None => None end).
  assert (UV : forall p, In p idx -> uv p = cell_uv c dem (orig p)) by (intros p Ip; unfold uv, cell_uv; now rewrite PV).
  destruct (somes (map (fun p : Z * Z => at2 None (s_rows tile) (fst p) (snd p)) sel)) as [|z0 zs] eqn:Ez.
  { apply NONE; [|reflexivity]. intros p Ip. unfold cell_uv, cell_point. rewrite <- ZV by auto. rewrite (somes_nil _ Ez (at2 None (s_rows tile) (fst p) (snd p))) by (apply (in_map (fun p : Z * Z => at2 None (s_rows tile) (fst p) (snd p))); exact Ip). reflexivity. }
  rewrite tile_scale_one, (proj2 (Reqb_true 1 1) eq_refl). cbn [negb]. rewrite Ex. cbn [bind]. rewrite Ey. cbn [bind]. cbv zeta.
  change (fun p : Z * Z => inframe c match option_map (fun z : R => (zat 0 x (snd p), zat 0 y (fst p), z)) (at2 None (s_rows tile) (fst p) (snd p)) with Some q => xyz_to_uv c false q | None => None end) with (fun p => inframe c (uv p)).
  set (value := fun p : Z * Z => match b with BValue v => at2 0 (map (fun q => map (zat 0 (zat [] v q)) cols) rows) (fst p) (snd p) | BDepth => match xyz p with Some q => snd (xyz_to_xy c false q) | None => 0 end end).
  assert (VV : forall p, In p idx -> value p = cell_value c dem b (orig p)).
  { intros p Ip. unfold value, cell_value. destruct b; [destruct (IX p Ip); now apply at2_tile|now rewrite PV]. }
  change (map (fun p : Z * Z => match option_map (fun z : R => (zat 0 x (snd p), zat 0 y (fst p), z)) (at2 None (s_rows tile) (fst p) (snd p)) with Some q => xyz_to_uv c false q | None => None end)) with (map uv).
  assert (FU : filter (fun p => inframe c (uv p)) sel = filter (fun p => inframe c (cell_uv c dem (orig p))) sel) by (apply filter_ext_in; intros p Ip; rewrite UV by auto; reflexivity).
  destruct (filter (fun p => inframe c (uv p)) sel) as [|p1 is0] eqn:Ei.
  { apply NONE; [|reflexivity]. intros p Ip. destruct (inframe c (cell_uv c dem (orig p))) eqn:F; [|reflexivity]. exfalso. assert (I : In p (filter (fun p => inframe c (cell_uv c dem (orig p))) sel)) by (apply filter_In; auto). rewrite <- FU in I. destruct I. }
  rewrite FU. clear NONE. set (is_in := filter (fun p => inframe c (cell_uv c dem (orig p))) sel).
  assert (II : forall p, In p is_in -> In p idx /\ inframe c (cell_uv c dem (orig p)) = true /\ at2 false mask (fst (orig p)) (snd (orig p)) = true).
  { intros p Ip. apply filter_In in Ip as [I1 I2]. split; [auto|]. split; [exact I2|]. destruct (SM p I1) as [_ M]. exact M. }
  rewrite Hi. cbn [nth]. match goal with |- context [rasterize_points ?a ?b ?v] => set (RR := a); set (CC := b); set (WW := v) end.
  assert (ERR : RR = map (fun p => match cell_uv c dem (orig p) with Some (u, v) => Rtrunc v | None => 0%Z end) is_in) by (apply map_ext_in; intros p Ip; rewrite <- UV by (apply II; exact Ip); reflexivity).
  assert (ECC : CC = map (fun p => match cell_uv c dem (orig p) with Some (u, v) => Rtrunc u | None => 0%Z end) is_in) by (apply map_ext_in; intros p Ip; rewrite <- UV by (apply II; exact Ip); reflexivity).
  assert (EWW : WW = map (fun p => cell_value c dem b (orig p)) is_in) by (apply map_ext_in; intros p Ip; rewrite <- VV by (apply II; exact Ip); reflexivity).
  clearbody RR CC WW.
  assert (Hfr : forall u v, inframe c (Some (u, v)) = true <-> 0 <= u <= IZR nx /\ 0 <= v <= IZR ny) by (intros u v; unfold inframe, imgszR; rewrite Hi; cbn [map nth]; rewrite !andb_true_iff, !Rleb_true; tauto).
  assert (L1 : length RR = length CC) by (rewrite ERR, ECC, !map_length; reflexivity). assert (L2 : length WW = length RR) by (rewrite ERR, EWW, !map_length; reflexivity).
  split.
  - intros (rc & Irc & M & u & v & Eu & F & B). apply in_map_iff in Irc as (p & <- & Ip). rewrite rasterize_points_oob; [reflexivity|exact L1|].
    intros Sh. specialize (Sh (Rtrunc v) (Rtrunc u)). rewrite ERR, ECC, combine_map_same in Sh.
    assert (Pi : In p is_in) by (apply filter_In; split; [apply SM'; [exact Ip|exact M]|rewrite Eu; exact F]).
    assert (P : In (Rtrunc v, Rtrunc u) (map (fun p => (match cell_uv c dem (orig p) with Some (_, v0) => Rtrunc v0 | None => 0%Z end, match cell_uv c dem (orig p) with Some (u0, _) => Rtrunc u0 | None => 0%Z end)) is_in)) by (apply in_map_iff; exists p; split; [rewrite Eu; reflexivity|exact Pi]).
    specialize (Sh P). destruct B as [-> | ->]; rewrite Rtrunc_IZR in Sh; lia.
  - intros NB.
    assert (IS : in_shape ny nx RR CC).
    { intros r q Hrq. rewrite ERR, ECC, combine_map_same in Hrq. apply in_map_iff in Hrq as (p & Ep & Ip). destruct (II p Ip) as (I1 & F & M).
      destruct (cell_uv c dem (orig p)) as [[u v]|] eqn:Eu; [|discriminate F]. injection Ep as <- <-. pose proof (proj1 (Hfr u v) F) as B.
      assert (NBp : ~ (u = IZR nx \/ v = IZR ny)) by (intros Q; apply (NB (orig p)); [now apply in_map|split; [exact M|]; exists u, v; auto]).
      rewrite !Rtrunc_floor by lra. split; split; try (apply Rfloor_le; lra); apply Rfloor_lt; lra. }
    assert (RI : forall acc, Z.of_nat (length acc) = (ny * nx)%Z -> _) by (intros acc La; exact (rasterize_into_spec (@Some R) ny nx RR CC WW acc L1 L2 IS Hnx La)).
    destruct (rasterize_points_spec ny nx RR CC WW L1 L2 IS) as (uidx & means & EP & _). rewrite EP. cbn [bind]. exists (Some (uidx, means)). split; [reflexivity|].
    intros acc La. destruct (RI acc La) as (a' & Ea & Lna & Ha). unfold rasterize_into in Ea. rewrite EP in Ea. cbn [bind] in Ea. injection Ea as Ea. cbn [reduce]. rewrite Ea. split; [exact Lna|].
    intros r q Hr Hq. rewrite (Ha r q Hr Hq). cbv zeta. rewrite ERR, ECC, EWW. rewrite HERE.
    pose proof (pixel_cells c nx ny (fun p => cell_uv c dem (orig p)) (fun p => cell_value c dem b (orig p)) sel r q Hi Hr Hq) as PC. cbv beta zeta in PC. fold is_in in PC. rewrite PC. destruct (map _ (filter _ sel)); reflexivity.
Qed.

(** ** All tiles *)
Definition here (c : cam) (dem : sraster) (mask : list (list bool)) (b : band) (r q : Z) (t : (Z * Z) * (Z * Z)) : list R := map (cell_value c dem b) (filter (falls_b c dem mask r q) (tile_cells dem t)).

Lemma fold_reduce_in {T} (res : T -> option (list Z * list R)) (h : Z -> Z -> T -> list R) nx ny ts :
  (forall t, In t ts -> forall acc, Z.of_nat (length acc) = (ny * nx)%Z -> length (reduce acc (res t)) = length acc /\
     forall r q, (0 <= r < ny)%Z -> (0 <= q < nx)%Z -> nth_error (reduce acc (res t)) (Z.to_nat (r * nx + q)) = match h r q t with [] => nth_error acc (Z.to_nat (r * nx + q)) | here => Some (Some (sumR here / IZR (Z.of_nat (length here)))) end) ->
  forall acc, Z.of_nat (length acc) = (ny * nx)%Z -> let a := fold_left reduce (map res ts) acc in length a = length acc /\
    forall r q, (0 <= r < ny)%Z -> (0 <= q < nx)%Z ->
      ((forall t, In t ts -> h r q t = []) -> nth_error a (Z.to_nat (r * nx + q)) = nth_error acc (Z.to_nat (r * nx + q))) /\
      (forall pre t post, ts = pre ++ t :: post -> h r q t <> [] -> (forall t', In t' post -> h r q t' = []) -> nth_error a (Z.to_nat (r * nx + q)) = Some (Some (sumR (h r q t) / IZR (Z.of_nat (length (h r q t)))))).
Proof.
  induction ts as [|t ts IH]; intros ST acc La; cbn [map fold_left]; cbv zeta.
  - split; [reflexivity|]. intros r q Hr Hq. split; [reflexivity|]. intros pre t post E. destruct pre; discriminate E.
  - destruct (ST t (or_introl eq_refl) acc La) as [L1 S1]. destruct (IH (fun t' I => ST t' (or_intror I)) (reduce acc (res t)) ltac:(lia)) as [L2 S2]. split; [lia|]. intros r q Hr Hq. destruct (S2 r q Hr Hq) as [N M]. split.
    + intros A. rewrite N by (intros t' I; apply A; now right). rewrite S1 by assumption. rewrite (A t) by (left; reflexivity). reflexivity.
    + intros pre t1 post E H1 H2. destruct pre as [|p pre].
      * injection E as <- <-. rewrite N by exact H2. rewrite S1 by assumption. destruct (h r q t); [congruence|reflexivity].
      * injection E as <- ->. apply (M pre t1 post); auto.
Qed.

Lemma last_split {T} (P : T -> Prop) (ts : list T) : (forall t, In t ts -> P t \/ ~ P t) -> (exists t, In t ts /\ P t) -> exists pre t post, ts = pre ++ t :: post /\ P t /\ forall t', In t' post -> ~ P t'.
Proof.
  induction ts as [|t ts IH]; intros D (t0 & I & Pt); [destruct I|].
  assert (DD : (exists t', In t' ts /\ P t') \/ forall t', In t' ts -> ~ P t').
  { clear I t0 Pt IH. assert (D' : forall t', In t' ts -> P t' \/ ~ P t') by (intros; apply D; now right). clear D. induction ts as [|a ts IH]; [right; intros t' []|]. destruct (D' a (or_introl eq_refl)) as [Pa|Na]; [left; exists a; split; [left|]; auto|].
    destruct IH as [(t' & I & Pt)|N]; [intros; apply D'; now right|left; exists t'; split; [right|]; auto|]. right. intros t' [<-|I]; auto. }
  destruct DD as [E|N].
  - destruct IH as (pre & t1 & post & E1 & P1 & Q1); [intros; apply D; now right|exact E|]. exists (t :: pre), t1, post. rewrite E1. auto.
  - exists [], t, ts. split; [reflexivity|]. split; [|exact N]. destruct I as [->|I]; [exact Pt|]. exfalso. apply (N t0); assumption.
Qed.

(** ** Cells of a tile *)
Lemma positions_in n a b ps : (0 <= n)%Z -> positions n (Some a) (Some b) None = Ok ps -> forall k, In k ps <-> in_slice n (a, b) k.
Proof.
  intros N E. destruct (getitem_slice n (Some a) (Some b) None N) as [_ H]. destruct (H ltac:(lia)) as (ps' & E' & NT & RG & IP). rewrite E in E'. injection E' as <-. cbn [slice_first slice_end Z.ltb Z.compare] in *.
  set (lo := Z.max 0 (Z.min n (if (a <? 0)%Z then (n + a)%Z else a))) in *. set (hi := Z.max 0 (Z.min n (if (b <? 0)%Z then (n + b)%Z else b))) in *.
  assert (LO : lo = Z.max 0 (slice_bound n a)) by (unfold lo, slice_bound; destruct (Z.ltb_spec a 0); lia). assert (HI : hi = Z.max 0 (slice_bound n b)) by (unfold hi, slice_bound; destruct (Z.ltb_spec b 0); lia).
  assert (B : (0 <= slice_bound n a)%Z) by (unfold slice_bound; destruct (Z.ltb_spec a 0); lia).
  intros k. unfold in_slice. cbn [fst snd]. split.
  - intros I. pose proof I as I'. apply In_nth with (d := 0%Z) in I' as (m & Lm & Em). rewrite (NT m Lm) in Em. specialize (IP (Z.of_nat m) ltac:(lia)). cbv zeta in IP. rewrite Em in IP. apply IP in I. lia.
  - intros [K1 K2]. specialize (IP (k - lo)%Z ltac:(lia)). cbv zeta in IP. replace (lo + (k - lo) * 1)%Z with k in IP by lia. apply IP. lia.
Qed.
Lemma arithmetic_nodup n a b ps : (0 <= n)%Z -> positions n (Some a) (Some b) None = Ok ps -> NoDup ps.
Proof.
  intros N E. destruct (getitem_slice n (Some a) (Some b) None N) as [_ H]. destruct (H ltac:(lia)) as (ps' & E' & NT & _). rewrite E in E'. injection E' as <-. apply (NoDup_nth ps 0%Z). intros i j Hi Hj Q. rewrite (NT i Hi), (NT j Hj) in Q. lia.
Qed.
Lemma pairs_nodup rs cs : NoDup rs -> NoDup cs -> NoDup (pairs rs cs).
Proof.
  intros Nr Nc. unfold pairs. induction rs as [|r rs IH]; [constructor|]. cbn [flat_map]. inversion Nr as [|? ? Hn Nr']; subst.
  assert (G : forall (l m : list (Z * Z)), NoDup l -> NoDup m -> (forall x, In x l -> ~ In x m) -> NoDup (l ++ m)).
  { induction l as [|x l IHl]; intros m Nl Nm D; [exact Nm|]. inversion Nl; subst. cbn. constructor; [rewrite in_app_iff; intros [Q|Q]; [contradiction|apply (D x); [left; reflexivity|exact Q]]|]. apply IHl; auto. intros y Iy. apply D. now right. }
  apply G; [|now apply IH|].
  - clear - Nc. induction Nc; [constructor|]. cbn [map]. constructor; [|assumption]. intros Q. apply in_map_iff in Q as (y & E & Iy). injection E as ->. contradiction.
  - intros [r' c'] I1 I2. apply in_map_iff in I1 as (y & E & _). injection E as <- <-. apply (pairs_in rs cs) in I2 as [I2 _]. contradiction.
Qed.
Lemma tile_cells_in dem t r c : coherent dem -> In (r, c) (tile_cells dem t) <-> tile_covers (s_grid dem) t r c.
Proof.
  intros CO. assert (NY : (0 <= gny (s_grid dem))%Z) by (destruct CO as ([_ [_ Q]] & _); cbn in Q; lia). assert (NX : (0 <= gnx (s_grid dem))%Z) by (destruct CO as ([[_ Q] _] & _); cbn in Q; lia).
  destruct t as [[r0 r1] [c0 c1]]. unfold tile_cells, tile_covers. cbn [fst snd]. destruct (positions_ok _ r0 r1 NY) as (rows & Er). destruct (positions_ok _ c0 c1 NX) as (cols & Ec). rewrite Er, Ec, pairs_in.
  rewrite (positions_in _ _ _ _ NY Er), (positions_in _ _ _ _ NX Ec). tauto.
Qed.
Lemma tile_cells_nodup dem t : coherent dem -> NoDup (tile_cells dem t).
Proof.
  intros CO. assert (NY : (0 <= gny (s_grid dem))%Z) by (destruct CO as ([_ [_ Q]] & _); cbn in Q; lia). assert (NX : (0 <= gnx (s_grid dem))%Z) by (destruct CO as ([[_ Q] _] & _); cbn in Q; lia).
  destruct t as [[r0 r1] [c0 c1]]. unfold tile_cells. cbn [fst snd]. destruct (positions_ok _ r0 r1 NY) as (rows & Er). destruct (positions_ok _ c0 c1 NX) as (cols & Ec). rewrite Er, Ec. apply pairs_nodup; [exact (arithmetic_nodup _ _ _ _ NY Er)|exact (arithmetic_nodup _ _ _ _ NX Ec)].
Qed.
