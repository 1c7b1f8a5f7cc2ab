(** Proofs about camera resizing, k1 undistortion, rasterizing, millimetre units. *)
From Verif Require Import Base BaseLemmas HelpersModel CameraModel CameraSpec CameraStateProofs CameraProofs.
Open Scope R_scope.

Definition rmat (a b c d e f g h i : R) : mat3 := ((a, b, c), (d, e, f), (g, h, i)).
Lemma rotation_product y p r :
  let C t := cos (deg2rad t) in let S t := sin (deg2rad t) in
  let ri := rmat 1 0 0  0 0 (-1)  0 1 0 in
  let ry := rmat (C y) 0 (- S y)  0 1 0  (S y) 0 (C y) in
  let rp := rmat 1 0 0  0 (C p) (S p)  0 (- S p) (C p) in
  let rr := rmat (C r) (S r) 0  (- S r) (C r) 0  0 0 1 in
  rotation (y, p, r) = matmul rr (matmul rp (matmul ry ri)).
Proof. cbv zeta. unfold rotation, matmul, entry, rmat. cbn [row comp]. tup; ring. Qed.

(** ** Millimetre units *)
Lemma px_mm a n s : n <> 0 -> s <> 0 -> a * n / s * s / n = a.
Proof. intros. field. auto. Qed.
Lemma px_to_mm_inv m n s c : length m = 2%nat -> length n = 2%nat -> length s = 2%nat ->
  (forall x, In x n -> x <> 0) -> (forall x, In x s -> x <> 0) ->
  sensorsz c = Some s -> imgszR c = n ->
  px_to_mm (map2 Rdiv (map2 Rmult m n) s) c = Some (Ok m).
Proof.
  intros Lm Ln Ls Hn Hs Es En. unfold px_to_mm. rewrite Es, En.
  destruct m as [|m0 [|m1 [|? m]]]; cbn in Lm; try lia.
  destruct n as [|n0 [|n1 [|? n]]]; cbn in Ln; try lia.
  destruct s as [|s0 [|s1 [|? s]]]; cbn in Ls; try lia.
  unfold zip_op. cbn. rewrite !px_mm; auto; first [solve [apply Hn; cbn; auto] | solve [apply Hs; cbn; auto]].
Qed.

Theorem construct_mm a c : a_imgsz a <> [] -> nonempty (a_f a) -> nonempty (a_fmm a) -> nonempty (a_cmm a) -> nonempty (a_sensorsz a) ->
  construct a = Ok c ->
  (forall s, a_sensorsz a = Some s -> (forall x, In x (pair_of s) -> x <> 0)) ->
  (forall x, In x (pair_of (a_imgsz a)) -> x <> 0) ->
  (forall m, a_fmm a = Some m -> get_fmm c = Some (Ok (pair_of m)))
  /\ (forall m, a_cmm a = Some m -> get_cmm c = Some (Ok (pair_of m))).
Proof.
  intros Hi Hf Hfm Hcm Hs Hc Hs0 Hi0.
  destruct (construct_spec a Hi Hf Hfm Hcm Hs) as [Hrej Hok].
  assert (Nr : ~ rejected a) by (intros Hr; rewrite Hrej in Hc by auto; discriminate).
  destruct (Hok Nr) as (c2 & E & W & _ & _ & Z & _ & _ & I & I2 & _ & _ & _ & _ & _ & F & C).
  rewrite E in Hc. injection Hc as ->.
  assert (Im : Forall integral (pair_of (a_imgsz a))).
  { destruct (Forall_integral_dec (pair_of (a_imgsz a))); auto. exfalso. apply Nr. unfold rejected. tauto. }
  assert (IR : imgszR c = pair_of (a_imgsz a)) by (apply imgszR_of; auto).
  split; intros m Hm.
  - destruct (a_sensorsz a) as [s|] eqn:Es; [|exfalso; apply Nr; left; rewrite Hm; split; [left; congruence|auto]].
    unfold get_fmm. change (get_f c) with (cget Foc (vec c)). rewrite (F m s Hm eq_refl).
    apply px_to_mm_inv; auto; [apply pair_of_length..|].
    + intros ->. apply Hfm. auto.
    + auto.
    + intros ->. apply Hs. auto.
    + apply Hs0. reflexivity.
  - destruct (a_sensorsz a) as [s|] eqn:Es; [|exfalso; apply Nr; left; rewrite Hm; split; [right; congruence|auto]].
    unfold get_cmm. change (get_c c) with (cget Cen (vec c)). rewrite (C m s Hm eq_refl).
    apply px_to_mm_inv; auto; [apply pair_of_length..|].
    + intros ->. apply Hcm. auto.
    + auto.
    + intros ->. apply Hs. auto.
    + apply Hs0. reflexivity.
Qed.

(** ** Resizing *)
(** component-wise relation between the state and the original state *)
Definition scaled_from (c : cam) : Prop :=
  exists w h w0 h0 fx fy fx0 fy0 cx cy cx0 cy0,
    cget Imgsz (vec c) = [IZR w; IZR h] /\ cget Imgsz (orig c) = [IZR w0; IZR h0] /\
    cget Foc (vec c) = [fx; fy] /\ cget Foc (orig c) = [fx0; fy0] /\
    cget Cen (vec c) = [cx; cy] /\ cget Cen (orig c) = [cx0; cy0] /\
    fx * IZR w0 = fx0 * IZR w /\ fy * IZR h0 = fy0 * IZR h /\
    cx * IZR w0 = cx0 * IZR w /\ cy * IZR h0 = cy0 * IZR h.

Definition integral_request (s : list R) (force : bool) : Prop :=
  force = true -> (1 < length s)%nat -> Forall integral s.

Lemma resize_target_integral s force de c new w0 h0 : cget Imgsz (orig c) = [IZR w0; IZR h0] ->
  integral_request s force -> resize_target s force de c = Ok new -> length new = 2%nat ->
  exists w h, new = [IZR w; IZR h].
Proof.
  intros Ho Hi H Hl. unfold resize_target in H. change (slice 6 2 (orig c)) with (cget Imgsz (orig c)) in H. rewrite Ho in H.
  destruct ((1 <? length s)%nat && force)%bool eqn:E.
  - apply andb_prop in E. destruct E as [E1 ->]. apply Nat.ltb_lt in E1. injection H as <-.
    specialize (Hi eq_refl E1). destruct s as [|a [|b [|? ?]]]; cbn in Hl; try lia.
    inversion Hi as [|? ? [n Hn] Hi2]; subst. inversion Hi2 as [|? ? [m Hm] _]; subst. eauto.
  - match type of H with bind ?e _ = _ => destruct e as [t|]; [|discriminate] end.
    cbn [bind map] in H. injection H as <-. eauto.
Qed.

Lemma resize_step s force de c c' : wf c -> scaled_from c -> integral_request s force ->
  resize s force de c = Ok c' ->
  scaled_from c' /\ wf c' /\ orig c' = orig c
  /\ (forall q, ~ In q [Imgsz; Foc; Cen] -> cget q (vec c') = cget q (vec c))
  /\ sensorsz c' = sensorsz c /\ correction c' = correction c
  /\ exists w h w' h', cget Imgsz (vec c) = [IZR w; IZR h] /\ w <> 0%Z /\ h <> 0%Z
      /\ resize_target s force de c = Ok [IZR w'; IZR h']
      /\ cget Imgsz (vec c') = [IZR w'; IZR h']
      /\ (forall fx fy, cget Foc (vec c) = [fx; fy] -> cget Foc (vec c') = [fx * (IZR w' / IZR w); fy * (IZR h' / IZR h)])
      /\ (forall cx cy, cget Cen (vec c) = [cx; cy] -> cget Cen (vec c') = [cx * (IZR w' / IZR w); cy * (IZR h' / IZR h)]).
Proof.
  intros Hw Hsc Hi H.
  destruct (cam_step_frame (OResize s force de) c c' Hw H) as (W' & O' & K' & F'). cbn [touches] in F'.
  destruct (resize_inv s force de c c' Hw H) as (new & c1 & c2 & fs & cs & Et & Ln & Nz & S1 & Efs & S2 & Ecs & S3).
  destruct Hsc as (w & h & w0 & h0 & fx & fy & fx0 & fy0 & cx & cy & cx0 & cy0 & A1 & A2 & A3 & A4 & A5 & A6 & B1 & B2 & B3 & B4).
  destruct (resize_target_integral s force de c new w0 h0 A2 Hi Et Ln) as (w' & h' & ->).
  assert (IR : imgszR c = [IZR w; IZR h]).
  { apply imgszR_of; [exact A1|]. repeat constructor; eexists; reflexivity. }
  assert (GI : get_imgsz c = [w; h]).
  { unfold get_imgsz. change (slice 6 2 (vec c)) with (cget Imgsz (vec c)). rewrite A1. cbn. rewrite !Rtrunc_IZR. reflexivity. }
  rewrite GI in Nz.
  assert (Hw0 : w <> 0%Z) by (apply Nz; cbn; auto). assert (Hh0 : h <> 0%Z) by (apply Nz; cbn; auto).
  change (get_f c) with (cget Foc (vec c)) in Efs. change (get_c c) with (cget Cen (vec c)) in Ecs.
  rewrite A3, IR in Efs. rewrite A5, IR in Ecs. cbn [map2] in Efs, Ecs.
  cbn [map] in S1. rewrite !Rround_IZR in S1.
  destruct S1 as (_ & _ & Z1 & _ & G1 & F1), S2 as (_ & _ & Z2 & _ & G2 & F2), S3 as (_ & _ & Z3 & _ & G3 & F3).
  assert (I' : cget Imgsz (vec c') = [IZR w'; IZR h']).
  { change (cgetc Imgsz c' = [IZR w'; IZR h']). rewrite F3, F2 by congruence. exact G1. }
  assert (Fo' : cget Foc (vec c') = fs).
  { change (cgetc Foc c' = fs). rewrite F3 by congruence. exact G2. }
  assert (Ce' : cget Cen (vec c') = cs) by exact G3.
  assert (IZR w <> 0) by (apply not_0_IZR; auto). assert (IZR h <> 0) by (apply not_0_IZR; auto).
  split.
  { exists w', h', w0, h0. eexists. eexists. exists fx0, fy0. eexists. eexists. exists cx0, cy0. rewrite O'.
    split; [exact I'|]. split; [exact A2|]. split; [rewrite Fo', Efs; reflexivity|]. split; [exact A4|].
    split; [rewrite Ce', Ecs; reflexivity|]. split; [exact A6|].
    assert (G : forall a n0 a0 n n', n <> 0 -> a * n0 = a0 * n -> a * (n' / n) * n0 = a0 * n').
    { intros a n0 a0 n n' Hn E. transitivity (a * n0 * (n' / n)); [ring|]. rewrite E. field. auto. }
    repeat split; apply G; auto. }
  split; [exact W'|]. split; [exact O'|]. split; [exact F'|].
  split; [congruence|]. split; [exact K'|].
  exists w, h, w', h'. rewrite Fo', Ce', Efs, Ecs, A3, A5. split; [exact A1|]. split; [auto|]. split; [auto|]. split; [exact Et|].
  split; [exact I'|]. split; intros ? ? E; injection E as <- <-; reflexivity.
Qed.

Inductive resized : cam -> cam -> Prop :=
| resized_refl c : resized c c
| resized_step c c1 c2 s force de : resized c c1 -> integral_request s force -> resize s force de c1 = Ok c2 -> resized c c2.

Lemma scaled_init c : wf c -> vec c = orig c -> Forall integral (cget Imgsz (vec c)) -> scaled_from c.
Proof.
  intros [Hv Ho] E Hi.
  assert (L : forall q, length (cget q (vec c)) = clen q).
  { intros q. unfold cget. rewrite firstn_length, skipn_length, Hv. destruct q; reflexivity. }
  pose proof (L Imgsz) as L1. pose proof (L Foc) as L2. pose proof (L Cen) as L3. unfold scaled_from. rewrite <- E.
  destruct (cget Imgsz (vec c)) as [|w [|h [|? ?]]]; cbn in L1; try lia.
  destruct (cget Foc (vec c)) as [|fx [|fy [|? ?]]]; cbn in L2; try lia.
  destruct (cget Cen (vec c)) as [|cx [|cy [|? ?]]]; cbn in L3; try lia.
  inversion Hi as [|? ? [n Hn] Hi2]; subst. inversion Hi2 as [|? ? [m Hm] _]; subst.
  exists n, m, n, m, fx, fy, fx, fy, cx, cy, cx, cy. auto 20.
Qed.

Lemma resized_inv c c' : resized c c' -> wf c -> scaled_from c ->
  wf c' /\ scaled_from c' /\ orig c' = orig c /\ sensorsz c' = sensorsz c /\ correction c' = correction c
  /\ (forall q, ~ In q [Imgsz; Foc; Cen] -> cget q (vec c') = cget q (vec c)).
Proof.
  induction 1 as [c|c c1 c2 s force de H IH Hi Hr]; intros W S; [auto 10|].
  destruct (IH W S) as (W1 & S1 & O1 & Z1 & K1 & F1).
  destruct (resize_step s force de c1 c2 W1 S1 Hi Hr) as (S2 & W2 & O2 & F2 & Z2 & K2 & _).
  repeat split; auto; try congruence; try apply W2.
  intros q Hq. rewrite F2, F1; auto.
Qed.

(** the vector is determined by its components *)
Lemma vec_by_components v v' : length v = 20%nat -> length v' = 20%nat ->
  (forall q, cget q v = cget q v') -> v = v'.
Proof.
  intros L L' H.
  assert (E : forall u : list R, length u = 20%nat -> u = cget Xyz u ++ cget Viewdir u ++ cget Imgsz u ++ cget Foc u ++ cget Cen u ++ cget Krad u ++ cget Ptan u).
  { intros u Hu. do 20 (destruct u as [|? u]; [discriminate|]). destruct u; [reflexivity|discriminate]. }
  rewrite (E v L), (E v' L'), !H. reflexivity.
Qed.

Theorem resize_one_restores c c1 c2 force de : wf c -> vec c = orig c ->
  (exists w h, cget Imgsz (vec c) = [IZR w; IZR h] /\ w <> 0%Z /\ h <> 0%Z) ->
  resized c c1 -> resize [1] force de c1 = Ok c2 -> vec c2 = vec c.
Proof.
  intros W E (w & h & Ew & Hw & Hh) Hr H.
  assert (Sc : scaled_from c).
  { apply scaled_init; auto. rewrite Ew. repeat constructor; eexists; reflexivity. }
  destruct (resized_inv c c1 Hr W Sc) as (W1 & S1 & O1 & _ & _ & F1).
  destruct (resize_step [1] force de c1 c2 W1 S1 ltac:(intros ? ?; cbn in *; lia) H)
    as (S2 & W2 & O2 & F2 & _ & _ & w1 & h1 & w' & h' & _ & _ & _ & Et & Ei & _).
  assert (Ew' : [IZR w'; IZR h'] = [IZR w; IZR h]).
  { unfold resize_target in Et. change (slice 6 2 (orig c1)) with (cget Imgsz (orig c1)) in Et.
    rewrite O1, <- E, Ew in Et. cbn in Et. injection Et as <- <-.
    replace (1 * IZR w + / 2) with (/ 2 + IZR w) by ring. replace (1 * IZR h + / 2) with (/ 2 + IZR h) by ring.
    rewrite !Rfloor_plus_IZR. replace (Rfloor (/ 2)) with 0%Z by (symmetry; apply Rfloor_imp; lra). reflexivity. }
  apply vec_by_components; [apply W2|apply W|].
  destruct S2 as (w2 & h2 & w0 & h0 & fx & fy & fx0 & fy0 & cx & cy & cx0 & cy0 & A1 & A2 & A3 & A4 & A5 & A6 & B1 & B2 & B3 & B4).
  rewrite O2, O1, <- E in A2, A4, A6. rewrite Ew in A2. rewrite Ei, Ew' in A1.
  assert (N1 : IZR w <> 0) by (apply not_0_IZR; auto). assert (N2 : IZR h <> 0) by (apply not_0_IZR; auto).
  injection A1 as X1 X2. injection A2 as X3 X4. rewrite <- X1, <- X3 in *. rewrite <- X2, <- X4 in *.
  apply Rmult_eq_reg_r in B1, B2, B3, B4; auto. subst fx fy cx cy.
  intros q. destruct q.
  - rewrite F2, F1 by (cbn; intuition congruence). reflexivity.
  - rewrite F2, F1 by (cbn; intuition congruence). reflexivity.
  - congruence.
  - congruence.
  - congruence.
  - rewrite F2, F1 by (cbn; intuition congruence). reflexivity.
  - rewrite F2, F1 by (cbn; intuition congruence). reflexivity.
Qed.

Theorem resize_scales_projection s force de c c' w h w' h' : wf c -> scaled_from c -> integral_request s force ->
  resize s force de c = Ok c' ->
  cget Imgsz (vec c) = [w; h] -> cget Imgsz (vec c') = [w'; h'] ->
  forall dirs p, xyz_to_uv c' dirs p =
    option_map (fun uv => (fst uv * (w' / w), snd uv * (h' / h))) (xyz_to_uv c dirs p).
Proof.
  intros W S Hi H Ew Ew' dirs p.
  destruct (resize_step s force de c c' W S Hi H)
    as (S2 & W2 & O2 & F2 & _ & Cor & w1 & h1 & w1' & h1' & Ei & Nw & Nh & Et & Ei' & Ff & Fc).
  rewrite Ew in Ei. injection Ei as -> ->. rewrite Ew' in Ei'. injection Ei' as -> ->.
  assert (Exyz : get_xyz c' = get_xyz c) by (apply (F2 Xyz); cbn; intuition congruence).
  assert (Evd : get_viewdir c' = get_viewdir c) by (apply (F2 Viewdir); cbn; intuition congruence).
  assert (Ek : get_k c' = get_k c) by (apply (F2 Krad); cbn; intuition congruence).
  assert (Ep : get_p c' = get_p c) by (apply (F2 Ptan); cbn; intuition congruence).
  assert (Exy : xyz_to_xy c' dirs p = xyz_to_xy c dirs p).
  { unfold xyz_to_xy, offset, Rm. rewrite Exyz, Evd, Cor. reflexivity. }
  assert (Ed : forall xy, distort c' xy = distort c xy).
  { intros [x y]. unfold distort, radial_distortion, tangential_distortion, kk, pp. rewrite Ek, Ep. reflexivity. }
  unfold xyz_to_uv. rewrite Exy. destruct (fst (xyz_to_xy c dirs p)) as [xy|]; [|reflexivity]. cbn [option_map]. f_equal.
  unfold xy_to_uv. rewrite Ed. destruct (distort c xy) as [x y]. cbn [fst snd].
  destruct S as (w2 & h2 & w0 & h0 & fx & fy & fx0 & fy0 & cx & cy & cx0 & cy0 & A1 & A2 & A3 & A4 & A5 & A6 & _).
  unfold f_, center.
  change (get_f c) with (cget Foc (vec c)). change (get_c c) with (cget Cen (vec c)).
  change (get_f c') with (cget Foc (vec c')). change (get_c c') with (cget Cen (vec c')).
  rewrite (Ff _ _ A3), (Fc _ _ A5), A3, A5.
  rewrite (imgszR_of c [IZR w1; IZR h1]), (imgszR_of c' [IZR w1'; IZR h1']); try assumption;
    try (repeat constructor; eexists; reflexivity).
  cbn [nth]. assert (IZR w1 <> 0) by (apply not_0_IZR; auto). assert (IZR h1 <> 0) by (apply not_0_IZR; auto).
  f_equal; field; auto.
Qed.

Theorem resize_keeps_fmm s force de c c' ss : wf c -> scaled_from c -> integral_request s force ->
  resize s force de c = Ok c' -> sensorsz c = Some ss -> length ss = 2%nat ->
  ~ In 0 (cget Imgsz (vec c')) -> get_fmm c' = get_fmm c /\ get_cmm c' = get_cmm c.
Proof.
  intros W S Hi H Es Ls Hnz.
  destruct (resize_step s force de c c' W S Hi H)
    as (S2 & W2 & O2 & F2 & Z2 & Cor & w1 & h1 & w1' & h1' & Ei & Nw & Nh & Et & Ei' & Ff & Fc).
  destruct S as (w2 & h2 & w0 & h0 & fx & fy & fx0 & fy0 & cx & cy & cx0 & cy0 & A1 & A2 & A3 & A4 & A5 & A6 & _).
  unfold get_fmm, get_cmm, px_to_mm. rewrite Z2, Es.
  rewrite (imgszR_of c [IZR w1; IZR h1]), (imgszR_of c' [IZR w1'; IZR h1']); try assumption;
    try (repeat constructor; eexists; reflexivity).
  change (get_f c) with (cget Foc (vec c)). change (get_c c) with (cget Cen (vec c)).
  change (get_f c') with (cget Foc (vec c')). change (get_c c') with (cget Cen (vec c')).
  rewrite (Ff _ _ A3), (Fc _ _ A5), A3, A5. rewrite Ei' in Hnz.
  destruct ss as [|s0 [|s1 [|? ?]]]; cbn in Ls; try lia.
  assert (IZR w1 <> 0) by (apply not_0_IZR; auto). assert (IZR h1 <> 0) by (apply not_0_IZR; auto).
  assert (IZR w1' <> 0) by (intros E; apply Hnz; rewrite E; cbn; auto).
  assert (IZR h1' <> 0) by (intros E; apply Hnz; rewrite E; cbn; auto).
  unfold zip_op. cbn. split; do 2 f_equal; (apply f_equal2; [field; auto|apply f_equal2; [field; auto|reflexivity]]).
Qed.

(** the target size *)
Theorem resize_factor_target t force de c w0 h0 : cget Imgsz (orig c) = [IZR w0; IZR h0] ->
  resize_target [t] force de c = Ok [IZR (Rfloor (t * IZR w0 + / 2)); IZR (Rfloor (t * IZR h0 + / 2))].
Proof. intros H. unfold resize_target. change (slice 6 2 (orig c)) with (cget Imgsz (orig c)). rewrite H. reflexivity. Qed.

Definition not_half (x : R) : Prop := forall n : Z, x <> IZR n + / 2.
Lemma floor_half_round x : not_half x -> Rfloor (x + / 2) = Rround x.
Proof.
  intros H. assert (Rabs (x - IZR (Rfloor (x + / 2))) < / 2).
  { pose proof (Rfloor_lb (x + / 2)). pose proof (Rfloor_ub (x + / 2)).
    assert (x <> IZR (Rfloor (x + / 2)) - / 2).
    { intros E. apply (H (Rfloor (x + / 2) - 1)%Z). rewrite minus_IZR. lra. }
    apply Rabs_def1; lra. }
  symmetry. apply Rround_imp. auto.
Qed.
Lemma sumR_abs_zero l : sumR (map Rabs l) = 0 -> forall x, In x l -> x = 0.
Proof.
  assert (P : forall l, 0 <= sumR (map Rabs l)).
  { induction l0 as [|a l0 IH]; [apply Rle_refl|]. change (0 <= Rabs a + sumR (map Rabs l0)). pose proof (Rabs_pos a). lra. }
  induction l as [|a l IH]; intros H x Hx; [destruct Hx|]. change (Rabs a + sumR (map Rabs l) = 0) in H. pose proof (Rabs_pos a). pose proof (P l).
  assert (Ha : Rabs a = 0) by lra. destruct Hx as [<-|Hx].
  - destruct (Req_dec a 0); auto. exfalso. apply (Rabs_no_R0 a); auto.
  - apply IH; auto. lra.
Qed.

(** a two-element size that is accepted without force is obtained, except that a
    scale factor landing exactly on half pixels is rounded differently by the check. *)
Theorem resize_size_target n m de c new w0 h0 : cget Imgsz (orig c) = [IZR w0; IZR h0] -> w0 <> 0%Z -> h0 <> 0%Z ->
  not_half (de * IZR w0) -> not_half (de * IZR h0) ->
  resize_target [IZR n; IZR m] false de c = Ok new -> new = [IZR n; IZR m].
Proof.
  intros Ho Hw Hh Hd1 Hd2 H. unfold resize_target in H.
  change (slice 6 2 (orig c)) with (cget Imgsz (orig c)) in H. rewrite Ho in H.
  cbn [length Nat.ltb Nat.leb andb] in H. unfold get_scale_from_size in H. cbn [map2 forallb hd] in H.
  assert (Nw : IZR w0 <> 0) by (apply not_0_IZR; auto). assert (Nh : IZR h0 <> 0) by (apply not_0_IZR; auto).
  assert (F : forall k, Rfloor (IZR k + / 2) = k) by (intros; apply Rfloor_imp; lra).
  destruct (Reqb_spec (IZR n) (IZR w0)) as [E1|E1], (Reqb_spec (IZR m) (IZR h0)) as [E2|E2]; cbn [andb] in H;
  [cbn [bind map] in H; injection H as <-; rewrite !Rmult_1_l, !F; congruence|..];
  (destruct (Reqb_spec (IZR n / IZR w0) (IZR n / IZR w0)) as [_|K]; [|congruence]; cbn [andb] in H;
   destruct (Reqb_spec (IZR n / IZR w0) (IZR m / IZR h0)) as [K|K]; cbn [andb] in H;
   [cbn [bind map] in H; injection H as <-;
    replace (IZR n / IZR w0 * IZR w0) with (IZR n) by (field; auto);
    rewrite K; replace (IZR m / IZR h0 * IZR h0) with (IZR m) by (field; auto); rewrite !F; reflexivity
   |destruct (Reqb_spec (sumR [Rabs (IZR (Rround (de * IZR w0)) - IZR n); Rabs (IZR (Rround (de * IZR h0)) - IZR m)]) 0) as [Z|Z];
    [|discriminate]; cbn [bind map] in H; injection H as <-;
    pose proof (sumR_abs_zero [IZR (Rround (de * IZR w0)) - IZR n; IZR (Rround (de * IZR h0)) - IZR m] Z) as ZZ;
    rewrite !floor_half_round by auto;
    pose proof (ZZ _ (or_introl eq_refl)) as Z1; pose proof (ZZ _ (or_intror (or_introl eq_refl))) as Z2;
    apply Rminus_diag_uniq in Z1; apply Rminus_diag_uniq in Z2; rewrite Z1, Z2; reflexivity]).
Qed.
