(** C112: world lines as control: the points predicted by optimize.Lines. *)
From Coq Require Import Lia Lra.
From Verif Require Import Base BaseLemmas HelpersModel HelpersSpec RayModel RayProofs BoxProofs ClipProofs LineModel LineSpec LineProofs P_Line CameraModel CameraProofs CameraStateProofs ControlModel P_Control P_Camera LinesModel LinesProofs LinesProofs2.
Open Scope R_scope.

(** ** Specification *)
Definition lerp3 (a b : vec3) (s : R) : vec3 := add3 (scale3 (1 - s) a) (scale3 s b).
(** q is on the line with the given vertices *)
Definition on_world_line (line : list vec3) (q : vec3) : Prop := In q line \/ exists a b s, adj line a b /\ 0 <= s <= 1 /\ q = lerp3 a b s.
Definition straight (c : cam) (dirs : bool) : Prop := dirs = true \/ correction c = None.
Definition focal (c : cam) : Prop := 0 < f_ c 0 /\ 0 < f_ c 1.
Definition image_size (c : cam) : Prop := 0 < nth 0 (imgszR c) 0 /\ 0 < nth 1 (imgszR c) 0.
Definition pixels (p q : vec2) : R := dist_euc (fst p) (snd p) (fst q) (snd q).
Definition vertex_inframe (c : cam) (dirs : bool) (line : list vec3) : Prop := exists v, In v line /\ inframe c (xyz_to_uv c dirs v) = true.

(** ** Segments in the world and in the camera *)
Definition lerp2 (p q : vec2) (t : R) : vec2 := ((1 - t) * fst p + t * fst q, (1 - t) * snd p + t * snd q).
Lemma offset_lerp c dirs a b s : straight c dirs -> offset c dirs (lerp3 a b s) = lerp3 (offset c dirs a) (offset c dirs b) s.
Proof.
  intros H. unfold offset. destruct dirs; [reflexivity|]. destruct H as [H|H]; [discriminate|]. rewrite H. destruct a as [[a0 a1] a2]. destruct b as [[b0 b1] b2]. destruct (v3 (get_xyz c)) as [[x y] z]. unfold lerp3, scale3, add3, sub3. cbn. f_equal; [f_equal|]; ring.
Qed.
Lemma dot_lerp r a b s : dot3 r (lerp3 a b s) = (1 - s) * dot3 r a + s * dot3 r b.
Proof. destruct r as [[r0 r1] r2]. destruct a as [[a0 a1] a2]. destruct b as [[b0 b1] b2]. unfold lerp3, scale3, add3, dot3. cbn. ring. Qed.
Lemma xy_cases c dirs p : exists x y z, xyz_to_xy c dirs p = ((if Rleb z 0 then None else Some (x / z, y / z)), z) /\ x = dot3 (row 0 (Rm c)) (offset c dirs p) /\ y = dot3 (row 1 (Rm c)) (offset c dirs p) /\ z = dot3 (row 2 (Rm c)) (offset c dirs p).
Proof. unfold xyz_to_xy. do 3 eexists. split; [reflexivity|]. split; [reflexivity|]. split; reflexivity. Qed.
Lemma world_segment c dirs a b pa pb : straight c dirs -> fst (xyz_to_xy c dirs a) = Some pa -> fst (xyz_to_xy c dirs b) = Some pb ->
  (forall t, 0 <= t <= 1 -> exists s, 0 <= s <= 1 /\ fst (xyz_to_xy c dirs (lerp3 a b s)) = Some (lerp2 pa pb t)) /\
  (forall s, 0 <= s <= 1 -> exists t, 0 <= t <= 1 /\ fst (xyz_to_xy c dirs (lerp3 a b s)) = Some (lerp2 pa pb t)).
Proof.
  intros S A B. destruct (xy_cases c dirs a) as (xa & ya & za & EA & -> & -> & Za). destruct (xy_cases c dirs b) as (xb & yb & zb & EB & -> & -> & Zb).
  rewrite EA in A. rewrite EB in B. cbn [fst] in A, B. destruct (Rleb za 0) eqn:Qa; [discriminate|]. destruct (Rleb zb 0) eqn:Qb; [discriminate|]. apply Rleb_false in Qa, Qb. injection A as <-. injection B as <-.
  assert (L : forall s, 0 <= s <= 1 -> let z := (1 - s) * za + s * zb in 0 < z /\ fst (xyz_to_xy c dirs (lerp3 a b s)) = Some (lerp2 (dot3 (row 0 (Rm c)) (offset c dirs a) / za, dot3 (row 1 (Rm c)) (offset c dirs a) / za) (dot3 (row 0 (Rm c)) (offset c dirs b) / zb, dot3 (row 1 (Rm c)) (offset c dirs b) / zb) (s * zb / z))).
  { intros s Hs z. assert (Z : 0 < z) by (unfold z; destruct (Req_dec s 0) as [->|]; [lra|]; nra). split; [exact Z|]. destruct (xy_cases c dirs (lerp3 a b s)) as (x & y & z' & E & -> & -> & Ez). rewrite E. cbn [fst]. rewrite (offset_lerp c dirs a b s S), !dot_lerp in *. rewrite <- Za, <- Zb in Ez. fold z in Ez. subst z'. destruct (Rleb z 0) eqn:Q; [apply Rleb_true in Q; lra|]. unfold lerp2. cbn [fst snd]. unfold z in *. apply (f_equal Some). apply (f_equal2 pair); field; lra. }
  split.
  - intros t Ht. set (w := (1 - t) * zb + t * za). assert (W : 0 < w) by (unfold w; destruct (Req_dec t 0) as [->|]; [lra|]; nra). exists (t * za / w). assert (HS : 0 <= t * za / w <= 1).
    { split; [apply Rmult_le_pos; [nra|left; apply Rinv_0_lt_compat; exact W]|]. apply Rmult_le_reg_r with w; [exact W|]. unfold Rdiv. rewrite Rmult_assoc, Rinv_l by lra. unfold w. nra. }
    split; [exact HS|]. destruct (L _ HS) as [Z ->]. apply (f_equal Some). apply (f_equal (lerp2 _ _)). assert (EZ : (1 - t * za / w) * za + t * za / w * zb = za * zb / w) by (unfold w in *; field; lra). rewrite EZ. field. split; [lra|]. split; lra.
  - intros s Hs. destruct (L s Hs) as [Z ->]. eexists. split; [|reflexivity]. split; [apply Rmult_le_pos; [nra|left; apply Rinv_0_lt_compat; exact Z]|]. apply Rmult_le_reg_r with ((1 - s) * za + s * zb); [exact Z|]. unfold Rdiv. rewrite Rmult_assoc, Rinv_l by lra. nra.
Qed.

(** ** The parts of the projection *)
Lemma edges8 c : image_size c -> let W := nth 0 (imgszR c) 0 in let H := nth 1 (imgszR c) 0 in
  edges c (W / 2) (H / 2) = Ok [(0, 0); (W / 2, 0); (W, 0); (W, H / 2); (W, H); (W / 2, H); (0, H); (0, H / 2)].
Proof.
  intros [HW HH] W H. fold W in HW. fold H in HH. unfold edges. fold W H. assert (T : forall w, 0 < w -> linspace 0 w (Rtrunc (w / (w / 2) + 1)) = Ok [0; w / 2; w]).
  { intros w Hw. replace (w / (w / 2) + 1) with 3 by (field; lra). assert (Q : Rtrunc 3 = 3%Z) by (unfold Rtrunc; rewrite (proj2 (Rltb_false 3 0)) by lra; apply Rfloor_imp; lra). rewrite Q. unfold linspace. change (3 <? 0)%Z with false. change (3 =? 1)%Z with false. change (3 - 1)%Z with 2%Z. change (Zrange 3) with [0; 1; 2]%Z. cbn [map]. apply (f_equal Ok). apply (f_equal2 cons); [lra|]. apply (f_equal2 cons); [lra|]. apply (f_equal2 cons); [lra|reflexivity]. }
  rewrite (T W HW), (T H HH). cbn [bind length Nat.eqb Nat.ltb Nat.leb orb map app tl removelast last rev]. reflexivity.
Qed.
Lemma box_ok c : image_size c -> exists lo hi, lines_box c = Ok (lo, hi) /\ length lo = 2%nat /\ length hi = 2%nat.
Proof. intros HI. unfold lines_box. rewrite (edges8 c HI). cbn [bind map colwise]. eexists _, _. split; [reflexivity|]. split; reflexivity. Qed.
Lemma box_frame c lo hi x y : no_distortion c -> image_size c -> focal c -> lines_box c = Ok (lo, hi) -> (in_closed_box 2 lo hi [x; y] <-> inframe c (Some (xy_to_uv c (x, y))) = true).
Proof.
  intros ND HI [F0 F1] E. unfold lines_box in E. rewrite (edges8 c HI) in E. cbn [bind map] in E. destruct HI as [HW HH]. set (W := nth 0 (imgszR c) 0) in *. set (H := nth 1 (imgszR c) 0) in *.
  unfold uv_to_xy, list_of2 in E. rewrite !undistort_none in E by exact ND. cbn [fst snd colwise bind fold_left map2] in E.
  set (a := (0 - center c 0) * (1 / f_ c 0)) in *. set (b := (W / 2 - center c 0) * (1 / f_ c 0)) in *. set (d := (W - center c 0) * (1 / f_ c 0)) in *.
  set (a' := (0 - center c 1) * (1 / f_ c 1)) in *. set (b' := (H / 2 - center c 1) * (1 / f_ c 1)) in *. set (d' := (H - center c 1) * (1 / f_ c 1)) in *.
  assert (I0 : 0 < 1 / f_ c 0) by (apply Rmult_lt_0_compat; [lra|apply Rinv_0_lt_compat; exact F0]). assert (I1 : 0 < 1 / f_ c 1) by (apply Rmult_lt_0_compat; [lra|apply Rinv_0_lt_compat; exact F1]).
  assert (O1 : a < b < d) by (unfold a, b, d; split; apply Rmult_lt_compat_r; lra). assert (O2 : a' < b' < d') by (unfold a', b', d'; split; apply Rmult_lt_compat_r; lra).
  repeat (rewrite (Rmin_left a) in E by lra). repeat (rewrite (Rmin_left a') in E by lra).
  rewrite (Rmax_right a b) in E by lra. rewrite (Rmax_right b d) in E by lra. repeat (rewrite (Rmax_left d) in E by lra). repeat (rewrite (Rmax_left a' a') in E by lra). rewrite (Rmax_right a' b') in E by lra. rewrite (Rmax_right b' d') in E by lra. repeat (rewrite (Rmax_left d') in E by lra).
  injection E as <- <-. unfold inframe, xy_to_uv. rewrite distort_none by exact ND. fold W H. rewrite !Bool.andb_true_iff, !Rleb_true.
  assert (Q0 : (a <= x <-> 0 <= x * f_ c 0 + center c 0) /\ (x <= d <-> x * f_ c 0 + center c 0 <= W)).
  { assert (Ea : a * f_ c 0 = 0 - center c 0) by (unfold a; field; lra). assert (Ed : d * f_ c 0 = W - center c 0) by (unfold d; field; lra). split; split; intros K; [| | |].
    - apply (Rmult_le_compat_r (f_ c 0)) in K; lra.
    - apply Rmult_le_reg_r with (f_ c 0); lra.
    - apply (Rmult_le_compat_r (f_ c 0)) in K; lra.
    - apply Rmult_le_reg_r with (f_ c 0); lra. }
  assert (Q1 : (a' <= y <-> 0 <= y * f_ c 1 + center c 1) /\ (y <= d' <-> y * f_ c 1 + center c 1 <= H)).
  { assert (Ea : a' * f_ c 1 = 0 - center c 1) by (unfold a'; field; lra). assert (Ed : d' * f_ c 1 = H - center c 1) by (unfold d'; field; lra). split; split; intros K; [| | |].
    - apply (Rmult_le_compat_r (f_ c 1)) in K; lra.
    - apply Rmult_le_reg_r with (f_ c 1); lra.
    - apply (Rmult_le_compat_r (f_ c 1)) in K; lra.
    - apply Rmult_le_reg_r with (f_ c 1); lra. }
  destruct Q0 as [Q0 Q0']. destruct Q1 as [Q1 Q1']. rewrite <- Q0, <- Q0', <- Q1, <- Q1'. unfold in_closed_box. split.
  - intros K. pose proof (K 0%nat ltac:(lia)) as K0. pose proof (K 1%nat ltac:(lia)) as K1. cbn [nth] in K0, K1. lra.
  - intros [[K0 K0'] [K1 K1']] [|[|i]] Hi; cbn [nth]; [lra|lra|lia].
Qed.
Definition xy_of (c : cam) (dirs : bool) (p : vec3) : option vec2 := fst (xyz_to_xy c dirs p).
Lemma front_ok c dirs xyz : xyz <> [] -> exists runs, front_lines c dirs xyz = Ok runs /\ concat runs = somes (map (xy_of c dirs) xyz) /\ (forall r, In r runs -> r <> []) /\
  (forall r a b, In r runs -> adj r a b -> adj (map (xy_of c dirs) xyz) (Some a) (Some b)) /\ (forall a b, adj (map (xy_of c dirs) xyz) (Some a) (Some b) -> exists r, In r runs /\ adj r a b).
Proof.
  intros N. unfold front_lines. fold (xy_of c dirs). change (map (fun p => fst (xyz_to_xy c dirs p)) xyz) with (map (xy_of c dirs) xyz). destruct (split_none (map (xy_of c dirs) xyz)) as (runs & -> & C & R1 & R2 & R3); [destruct xyz; [contradiction|discriminate]|].
  cbn [bind]. exists (map somes runs). split; [reflexivity|]. split; [exact C|]. split; [intros r I; apply in_map_iff in I as (q & <- & I); apply R1; exact I|]. split.
  - intros r a b I Ad. apply in_map_iff in I as (q & <- & I). apply (R2 q); assumption.
  - intros a b Ad. destruct (R3 a b Ad) as (r & I & Q). exists (somes r). split; [apply in_map; exact I|exact Q].
Qed.
Lemma matrix_of2 line : matrix 2 (map list_of2 line).
Proof. intros r I. apply in_map_iff in I as (q & <- & _). reflexivity. Qed.
Lemma of2_pair p : length p = 2%nat -> list_of2 (pair_of p) = p.
Proof. intros L. destruct p as [|x [|y [|]]]; try discriminate. reflexivity. Qed.
Lemma between_lerp x y p s : length x = 2%nat -> length y = 2%nat -> length p = 2%nat -> lerp x y p s -> p = along x (vsub y x) s.
Proof. intros Lx Ly Lp [H0 H1]. destruct x as [|x0 [|x1 [|]]]; try discriminate. destruct y as [|y0 [|y1 [|]]]; try discriminate. destruct p as [|p0 [|p1 [|]]]; try discriminate. cbn in *. rewrite H0, H1. apply (f_equal2 cons); [ring|]. apply (f_equal2 cons); [ring|reflexivity]. Qed.
Lemma lerp_between x y s : length x = 2%nat -> length y = 2%nat -> lerp x y (along x (vsub y x) s) s.
Proof. intros Lx Ly. destruct x as [|x0 [|x1 [|]]]; try discriminate. destruct y as [|y0 [|y1 [|]]]; try discriminate. split; cbn; ring. Qed.
(** the points of a part in front: on the part, and in the box; near every point between two vertices in the box *)
Lemma points_ok argsort c step lo hi line : sorts argsort -> step <> 0 -> length lo = 2%nat -> length hi = 2%nat -> line <> [] -> exists out, line_points argsort c step lo hi line = Ok out /\
  (forall uv, In uv (concat out) -> exists p, uv = xy_to_uv c p /\ in_closed_box 2 lo hi (list_of2 p) /\ (In p line \/ exists a b t, adj line a b /\ 0 <= t <= 1 /\ p = lerp2 a b t)) /\
  ((forall p, In p line -> ~ in_closed_box 2 lo hi (list_of2 p)) -> out = []) /\ ((exists p, In p line /\ in_closed_box 2 lo hi (list_of2 p)) -> out <> []) /\
  (forall a b t, adj line a b -> in_closed_box 2 lo hi (list_of2 a) -> in_closed_box 2 lo hi (list_of2 b) -> 0 <= t <= 1 -> 0 < step -> step / 2 < gap (list_of2 a) (list_of2 b) ->
    exists p, In (xy_to_uv c p) (concat out) /\ gap (list_of2 (lerp2 a b t)) (list_of2 p) <= 3 / 2 * step).
Proof.
  intros So Ds Ll Lh Ne. unfold line_points. destruct (clip_pieces lo hi (map list_of2 line)) as (cl & -> & P1 & P2 & P3 & P4); [destruct line; [contradiction|discriminate]|exact Ll|exact Lh|apply matrix_of2|]. cbn [bind].
  set (f := fun cline => let* pts := interpolate_line argsort 2 cline None None None (Some step) true Endpoints in Ok (map (fun p => xy_to_uv c (pair_of p)) pts)).
  assert (Q : exists out, mapM f cl = Ok out /\ Forall2 (fun cline o => f cline = Ok o) cl out).
  { clear P2 P3 P4. induction cl as [|cline cl IH]; [exists []; split; [reflexivity|constructor]|]. destruct IH as (out & E & F); [intros p I; apply P1; right; exact I|]. destruct (P1 cline (or_introl eq_refl)) as [q1 q2 _ _ _]. destruct (interp_piece argsort cline step So q1 q2 Ds) as (pts & Ep & _). assert (Ef : f cline = Ok (map (fun p => xy_to_uv c (pair_of p)) pts)) by (unfold f; rewrite Ep; reflexivity).
    eexists. cbn [mapM]. rewrite Ef, E. cbn [bind]. split; [reflexivity|]. constructor; assumption. }
  destruct Q as (out & E & F2). exists out. split; [exact E|].
  assert (In_out : forall o, In o out -> exists cline pts, In cline cl /\ interpolate_line argsort 2 cline None None None (Some step) true Endpoints = Ok pts /\ o = map (fun p => xy_to_uv c (pair_of p)) pts).
  { intros o I. clear -F2 I. induction F2 as [|cline q cl out E F IH]; [destruct I|]. destruct I as [<-|I].
    - unfold f in E. destruct (interpolate_line _ _ _ _ _ _ _ _ _) as [pts|] eqn:Ep; [|discriminate]. injection E as <-. exists cline, pts. split; [left; reflexivity|]. split; [exact Ep|reflexivity].
    - destruct (IH I) as (k & pts & Ik & H). exists k, pts. split; [right; exact Ik|exact H]. }
  assert (Of_cl : forall cline, In cline cl -> exists pts, interpolate_line argsort 2 cline None None None (Some step) true Endpoints = Ok pts /\ In (map (fun p => xy_to_uv c (pair_of p)) pts) out).
  { intros cline I. clear -F2 I. induction F2 as [|k q cl out E F IH]; [destruct I|]. destruct I as [<-|I].
    - unfold f in E. destruct (interpolate_line _ _ _ _ _ _ _ _ _) as [pts|] eqn:Ep; [|discriminate]. injection E as <-. exists pts. split; [reflexivity|left; reflexivity].
    - destruct (IH I) as (pts & Ep & J). exists pts. split; [exact Ep|right; exact J]. }
  split; [|split; [|split]].
  - intros uv I. apply in_concat in I as (o & Io & I). destruct (In_out o Io) as (cline & pts & Ic & Ep & ->). apply in_map_iff in I as (p & <- & Ip). destruct (P1 cline Ic) as [q1 q2 q3 q4 q5]. destruct (interp_piece argsort cline step So q1 q2 Ds) as (pts' & Ep' & H & _). rewrite Ep in Ep'. injection Ep' as <-. destruct (H p Ip) as [Lp C].
    exists (pair_of p). split; [reflexivity|]. rewrite (of2_pair p Lp). destruct C as [(x & -> & ->)|(x & y & s & Ad & Hs & Le)].
    + split; [apply q3; left; reflexivity|]. left. specialize (q5 x eq_refl). apply in_map_iff in q5 as (v & <- & Iv). destruct v as [v0 v1]. exact Iv.
    + destruct (adj_in _ _ _ Ad) as [Ix Iy]. split.
      * pose proof (q3 x Ix) as Bx. pose proof (q3 y Iy) as By. destruct Le as [L0 L1]. intros [|[|i]] Hi; [| |lia].
        -- rewrite L0. specialize (Bx 0%nat ltac:(lia)). specialize (By 0%nat ltac:(lia)). split; nra.
        -- rewrite L1. specialize (Bx 1%nat ltac:(lia)). specialize (By 1%nat ltac:(lia)). split; nra.
      * right. destruct (q4 x y Ad) as (a' & b' & Ad' & (sx & Hx & Ex) & (sy & Hy & Ey)). destruct (adj_unmap _ _ _ _ Ad') as (a & b & Ab & <- & <-). exists a, b, ((1 - s) * sx + s * sy). split; [exact Ab|]. split; [split; nra|].
        pose proof (lerp_between (list_of2 a) (list_of2 b) sx eq_refl eq_refl) as [X0 X1]. pose proof (lerp_between (list_of2 a) (list_of2 b) sy eq_refl eq_refl) as [Y0 Y1]. rewrite <- Ex in X0, X1. rewrite <- Ey in Y0, Y1. destruct Le as [L0 L1]. unfold pair_of, lerp2. rewrite L0, L1, X0, X1, Y0, Y1. cbn [nth list_of2]. apply (f_equal2 pair); ring.
  - intros Out. assert (Ec : cl = []) by (apply P4; intros a I; apply in_map_iff in I as (q & <- & I); apply Out; exact I). rewrite Ec in E. cbn in E. injection E as <-. reflexivity.
  - intros (p & I & B) Eo. subst out. destruct (P3 (list_of2 p) (in_map _ _ _ I) B) as (k & Ik & _). destruct (Of_cl k Ik) as (pts & _ & []).
  - intros a b t Ad Ba Bb Ht Hs HG. destruct (P2 _ _ (adj_map list_of2 _ _ _ Ad) Ba Bb) as (k & Ik & Ak). destruct (P1 k Ik) as [q1 q2 q3 q4 q5]. destruct (Of_cl k Ik) as (pts & Ep & Io). destruct (interp_piece argsort k step So q1 q2 Ds) as (pts' & Ep' & H & Nr & _). rewrite Ep in Ep'. injection Ep' as <-.
    assert (LL : step / 2 < line_len k). { destruct (adj_index k _ _ [] Ak) as (j & J & Ej & Ej'). pose proof (arc_chord k j (S j) q2 ltac:(lia)) as AC. rewrite Ej, Ej' in AC. unfold line_len. pose proof (arc_mono k 0 j ltac:(lia)) as A0. change (arc k 0) with 0 in A0. pose proof (arc_mono k (S j) (length k - 1) ltac:(lia)). lra. }
    destruct (Nr Hs LL _ _ (list_of2 (lerp2 a b t)) t Ak Ht) as (p & Ip & G); [split; reflexivity|]. destruct (H p Ip) as [Lp _]. exists (pair_of p). split; [|rewrite (of2_pair p Lp); exact G]. apply in_concat. eexists. split; [exact Io|]. apply (in_map (fun p => xy_to_uv c (pair_of p))). exact Ip.
Qed.

Lemma mapM_F2 {A B} (f : A -> result B) l : (forall x, In x l -> exists y, f x = Ok y) -> exists l', mapM f l = Ok l' /\ Forall2 (fun x y => f x = Ok y) l l'.
Proof. induction l as [|x l IH]; intros H; [exists []; split; [reflexivity|constructor]|]. destruct (H x (or_introl eq_refl)) as (y & E). destruct IH as (l' & E' & F); [intros z I; apply H; right; exact I|]. exists (y :: l'). cbn [mapM]. rewrite E, E'. split; [reflexivity|]. constructor; assumption. Qed.
Lemma F2_in_l {A B} (P : A -> B -> Prop) l l' x : Forall2 P l l' -> In x l -> exists y, In y l' /\ P x y.
Proof. induction 1 as [|a b l l' H F IH]; [intros []|]. intros [<-|I]; [exists b; split; [left; reflexivity|exact H]|]. destruct (IH I) as (y & J & Q). exists y. split; [right; exact J|exact Q]. Qed.
Lemma F2_in_r {A B} (P : A -> B -> Prop) l l' y : Forall2 P l l' -> In y l' -> exists x, In x l /\ P x y.
Proof. induction 1 as [|a b l l' H F IH]; [intros []|]. intros [<-|I]; [exists a; split; [left; reflexivity|exact H]|]. destruct (IH I) as (x & J & Q). exists x. split; [right; exact J|exact Q]. Qed.

(** ** Errors: only for a density of 0 and for lines without vertices (all lines behind the camera: no points) *)
Record parts (argsort : list R -> list nat) (c : cam) (dirs : bool) (density : R) (xyzs : list (list vec3)) (dx : R) (lo hi : list R) (fronts : list (list (list vec2))) (pp : list (list (list vec2))) (puvs : list (list vec2)) : Prop := {
  pt_dx : dx = 1 / density / Rmax (f_ c 0) (f_ c 1);
  pt_dx0 : dx <> 0;
  pt_box : lines_box c = Ok (lo, hi);
  pt_lo : length lo = 2%nat;
  pt_hi : length hi = 2%nat;
  pt_f : Forall2 (fun l f => front_lines c dirs l = Ok f) xyzs fronts;
  pt_p : Forall2 (fun l o => line_points argsort c dx lo hi l = Ok o) (concat fronts) pp;
  pt_uv : puvs = match concat pp with [] => map (map (xy_to_uv c)) (concat fronts) | q => q end
}.
Lemma project_parts argsort c dirs density xyzs : sorts argsort -> focal c -> image_size c -> density <> 0 -> (forall l, In l xyzs -> l <> []) ->
  exists dx lo hi fronts pp puvs, lines_project argsort c dirs density xyzs = Ok puvs /\ parts argsort c dirs density xyzs dx lo hi fronts pp puvs.
Proof.
  intros So [F0 F1] HI D Ne. destruct (box_ok c HI) as (lo & hi & EB & Ll & Lh). set (dx := 1 / density / Rmax (f_ c 0) (f_ c 1)).
  assert (FM : 0 < Rmax (f_ c 0) (f_ c 1)) by (apply Rlt_le_trans with (f_ c 0); [exact F0|apply Rmax_l]).
  assert (Dx : dx <> 0) by (unfold dx, Rdiv; apply Rmult_integral_contrapositive_currified; [apply Rmult_integral_contrapositive_currified; [lra|apply Rinv_neq_0_compat; exact D]|apply Rinv_neq_0_compat; lra]).
  destruct (mapM_F2 (front_lines c dirs) xyzs) as (fronts & EF & FF); [intros l I; destruct (front_ok c dirs l (Ne l I)) as (r & E & _); exists r; exact E|].
  destruct (mapM_F2 (line_points argsort c dx lo hi) (concat fronts)) as (pp & EP & FP).
  { intros l I. apply in_concat in I as (fr & Ifr & I). destruct (F2_in_r _ _ _ _ FF Ifr) as (x & Ix & Ex). destruct (front_ok c dirs x (Ne x Ix)) as (r & E & _ & Nr & _). rewrite E in Ex. injection Ex as ->. destruct (points_ok argsort c dx lo hi l So Dx Ll Lh (Nr l I)) as (o & Eo & _). exists o. exact Eo. }
  exists dx, lo, hi, fronts, pp. eexists. split; [|constructor; try eassumption; reflexivity].
  unfold lines_project, lines_step. rewrite (proj2 (Reqb_false density 0) D). cbn [bind]. rewrite EB. cbn [bind]. rewrite EF. cbn [bind]. fold dx. rewrite EP. cbn [bind]. destruct (concat pp); reflexivity.
Qed.
Theorem lines_project_total : forall argsort c dirs density xyzs, sorts argsort -> focal c -> image_size c ->
  (exists puvs, lines_project argsort c dirs density xyzs = Ok puvs) <-> density <> 0 /\ forall l, In l xyzs -> l <> [].
Proof.
  intros argsort c dirs density xyzs So HF HI. split; [|intros [D Ne]; destruct (project_parts argsort c dirs density xyzs So HF HI D Ne) as (dx & lo & hi & fr & pp & puvs & E & _); exists puvs; exact E].
  intros (puvs & E). unfold lines_project, lines_step in E. destruct (Reqb_spec density 0) as [|D]; [discriminate|]. split; [exact D|]. cbn [bind] in E. destruct (box_ok c HI) as (lo & hi & EB & _). rewrite EB in E. cbn [bind] in E.
  destruct (mapM (front_lines c dirs) xyzs) as [fronts|] eqn:EF; [|discriminate]. intros l I ->. apply In_nth_error in I as (i & I). destruct (mapM_ok_nth _ _ _ EF i [] I) as (y & Ey & _). discriminate.
Qed.
Print Assumptions lines_project_total.

Lemma project_inv argsort c dirs density xyzs puvs : sorts argsort -> focal c -> image_size c -> lines_project argsort c dirs density xyzs = Ok puvs ->
  (forall l, In l xyzs -> l <> []) /\ exists dx lo hi fronts pp, parts argsort c dirs density xyzs dx lo hi fronts pp puvs.
Proof.
  intros So HF HI E. destruct (proj1 (lines_project_total argsort c dirs density xyzs So HF HI)) as [D Ne]; [exists puvs; exact E|]. split; [exact Ne|]. destruct (project_parts argsort c dirs density xyzs So HF HI D Ne) as (dx & lo & hi & fr & pp & puvs' & E' & P). rewrite E in E'. injection E' as <-. exists dx, lo, hi, fr, pp. exact P.
Qed.
(** vertices of the parts are projected vertices *)
Lemma front_in c dirs xyzs fronts : Forall2 (fun l f => front_lines c dirs l = Ok f) xyzs fronts -> (forall l, In l xyzs -> l <> []) ->
  concat (concat fronts) = somes (map (xy_of c dirs) (concat xyzs)) /\
  (forall l, In l (concat fronts) -> exists line, In line xyzs /\ l <> [] /\ (forall p, In p l -> exists v, In v line /\ xy_of c dirs v = Some p) /\ (forall a b, adj l a b -> exists v w, adj line v w /\ xy_of c dirs v = Some a /\ xy_of c dirs w = Some b)) /\
  (forall line v w a b, In line xyzs -> adj line v w -> xy_of c dirs v = Some a -> xy_of c dirs w = Some b -> exists l, In l (concat fronts) /\ adj l a b).
Proof.
  intros F. induction F as [|x f xyzs fronts E F IH]; intros Ne; [split; [reflexivity|]; split; [intros l []|intros line v w a b []]|]. destruct IH as (I0 & I1 & I2); [intros l I; apply Ne; right; exact I|]. destruct (front_ok c dirs x (Ne x (or_introl eq_refl))) as (r & E' & C & Nr & A1 & A2). rewrite E in E'. injection E' as ->.
  split; [|split].
  - cbn [concat]. rewrite concat_app, C, I0, map_app, somes_app. reflexivity.
  - intros l I. cbn [concat] in I. apply in_app_iff in I as [I|I].
    + exists x. split; [left; reflexivity|]. split; [apply Nr; exact I|]. split.
      * intros p Ip. assert (J : In p (concat r)) by (apply in_concat; exists l; split; assumption). rewrite C, somes_in in J. apply in_map_iff in J as (v & Ev & Iv). exists v. split; assumption.
      * intros a b Ad. destruct (adj_unmap _ _ _ _ (A1 l a b I Ad)) as (v & w & Q & E1 & E2). exists v, w. split; [exact Q|split; assumption].
    + destruct (I1 l I) as (line & Il & H). exists line. split; [right; exact Il|exact H].
  - intros line v w a b [<-|I] Ad Ea Eb.
    + pose proof (adj_map (xy_of c dirs) _ _ _ Ad) as Q. rewrite Ea, Eb in Q. destruct (A2 a b Q) as (l & Il & Al). exists l. split; [cbn [concat]; apply in_app_iff; left; exact Il|exact Al].
    + destruct (I2 line v w a b I Ad Ea Eb) as (l & Il & Al). exists l. split; [cbn [concat]; apply in_app_iff; right; exact Il|exact Al].
Qed.
Lemma uv_of_xy c dirs v p : xy_of c dirs v = Some p -> xyz_to_uv c dirs v = Some (xy_to_uv c p).
Proof. unfold xyz_to_uv, xy_of. intros ->. reflexivity. Qed.

(** ** Every predicted point is the projection of a point of one of the world lines. *)
Theorem lines_on_lines : forall argsort c dirs density xyzs puvs uv, sorts argsort -> focal c -> image_size c -> straight c dirs ->
  lines_project argsort c dirs density xyzs = Ok puvs -> In uv (concat puvs) -> exists line q, In line xyzs /\ on_world_line line q /\ xyz_to_uv c dirs q = Some uv.
Proof.
  intros argsort c dirs density xyzs puvs uv So HF HI St E I. destruct (project_inv _ _ _ _ _ _ So HF HI E) as (Ne & dx & lo & hi & fr & pp & [D D0 EB Ll Lh FF FP EU]). destruct (front_in c dirs xyzs fr FF Ne) as (_ & FI & _).
  assert (Gen : forall l p, In l (concat fr) -> (In p l \/ exists a b t, adj l a b /\ 0 <= t <= 1 /\ p = lerp2 a b t) -> exists line q, In line xyzs /\ on_world_line line q /\ xyz_to_uv c dirs q = Some (xy_to_uv c p)).
  { intros l p Il H. destruct (FI l Il) as (line & Iline & _ & V & A). exists line. destruct H as [Ip|(a & b & t & Ad & Ht & ->)].
    - destruct (V p Ip) as (v & Iv & Ev). exists v. split; [exact Iline|]. split; [left; exact Iv|]. apply uv_of_xy. exact Ev.
    - destruct (A a b Ad) as (v & w & Avw & Ev & Ew). destruct (world_segment c dirs v w a b St Ev Ew) as [W _]. destruct (W t Ht) as (s & Hs & Es). exists (lerp3 v w s). split; [exact Iline|]. split; [right; exists v, w, s; split; [exact Avw|split; [exact Hs|reflexivity]]|]. apply uv_of_xy. exact Es. }
  destruct (concat pp) as [|q0 qs] eqn:Epp.
  - subst puvs. apply in_concat in I as (m & Im & I). apply in_map_iff in Im as (l & <- & Il). apply in_map_iff in I as (p & <- & Ip). apply (Gen l p Il). left. exact Ip.
  - subst puvs. rewrite <- Epp in I. apply in_concat in I as (m & Im & I). apply in_concat in Im as (o & Io & Im). destruct (F2_in_r _ _ _ _ FP Io) as (l & Il & El). destruct (FI l Il) as (_ & _ & Nl & _).
    destruct (points_ok argsort c dx lo hi l So D0 Ll Lh Nl) as (out & Eo & P & _). rewrite El in Eo. injection Eo as <-. destruct (P uv) as (p & -> & _ & H); [apply in_concat; exists m; split; assumption|]. apply (Gen l p Il H).
Qed.
Print Assumptions lines_on_lines.

(** ** In or out of the frame (camera without distortion): if some vertex is in the frame, all predicted points are; if none is, the predicted points are the projected vertices. *)
Theorem lines_inframe : forall argsort c dirs density xyzs puvs, sorts argsort -> focal c -> image_size c -> no_distortion c -> lines_project argsort c dirs density xyzs = Ok puvs ->
  ((exists line, In line xyzs /\ vertex_inframe c dirs line) -> forall uv, In uv (concat puvs) -> inframe c (Some uv) = true) /\
  ((forall line, In line xyzs -> ~ vertex_inframe c dirs line) -> concat puvs = somes (map (xyz_to_uv c dirs) (concat xyzs))).
Proof.
  intros argsort c dirs density xyzs puvs So HF HI ND E. destruct (project_inv _ _ _ _ _ _ So HF HI E) as (Ne & dx & lo & hi & fr & pp & [D D0 EB Ll Lh FF FP EU]). destruct (front_in c dirs xyzs fr FF Ne) as (CC & FI & _).
  assert (BF : forall p, in_closed_box 2 lo hi (list_of2 p) <-> inframe c (Some (xy_to_uv c p)) = true) by (intros [x y]; apply (box_frame c lo hi x y ND HI HF EB)).
  split.
  - intros (line & Iline & v & Iv & Fv) uv I. assert (Npp : concat pp <> []).
    { unfold xyz_to_uv in Fv. destruct (fst (xyz_to_xy c dirs v)) as [p|] eqn:Ev; [|discriminate]. cbn [option_map] in Fv. apply BF in Fv.
      assert (Ip : In p (concat (concat fr))) by (rewrite CC, somes_in; apply in_map_iff; exists v; split; [exact Ev|apply in_concat; exists line; split; assumption]). apply in_concat in Ip as (l & Il & Ip).
      destruct (F2_in_l _ _ _ _ FP Il) as (o & Io & Eo). destruct (FI l Il) as (_ & _ & Nl & _). destruct (points_ok argsort c dx lo hi l So D0 Ll Lh Nl) as (out & Eo' & _ & _ & P & _). rewrite Eo in Eo'. injection Eo' as <-. specialize (P ltac:(exists p; split; assumption)).
      intros K. destruct o as [|o0 o]; [congruence|]. assert (J : In o0 (concat pp)) by (apply in_concat; exists (o0 :: o); split; [exact Io|left; reflexivity]). rewrite K in J. destruct J. }
    assert (EU' : puvs = concat pp) by (destruct (concat pp); [congruence|exact EU]). rewrite EU' in I. apply in_concat in I as (m & Im & I). apply in_concat in Im as (o & Io & Im). destruct (F2_in_r _ _ _ _ FP Io) as (l & Il & El). destruct (FI l Il) as (_ & _ & Nl & _).
    destruct (points_ok argsort c dx lo hi l So D0 Ll Lh Nl) as (out & Eo & P & _). rewrite El in Eo. injection Eo as <-. destruct (P uv) as (p & -> & B & _); [apply in_concat; exists m; split; assumption|]. apply BF. exact B.
  - intros Out. assert (Z : concat pp = []).
    { assert (ZZ : forall o, In o pp -> o = []).
      { intros o Io. destruct (F2_in_r _ _ _ _ FP Io) as (l & Il & El). destruct (FI l Il) as (line & Iline & Nl & V & _). destruct (points_ok argsort c dx lo hi l So D0 Ll Lh Nl) as (out & Eo & _ & P & _). rewrite El in Eo. injection Eo as <-. apply P. intros p Ip B. destruct (V p Ip) as (v & Iv & Ev). apply (Out line Iline). exists v. split; [exact Iv|]. rewrite (uv_of_xy c dirs v p Ev). apply BF. exact B. }
      clear -ZZ. induction pp as [|o pp IH]; [reflexivity|]. cbn [concat]. rewrite (ZZ o (or_introl eq_refl)). apply IH. intros q I. apply ZZ. right. exact I. }
    rewrite Z in EU. subst puvs. transitivity (map (xy_to_uv c) (concat (concat fr))); [symmetry; apply concat_map|]. rewrite CC. generalize (concat xyzs). intros vs. clear. induction vs as [|v vs IH]; [reflexivity|]. cbn [map]. unfold xyz_to_uv, xy_of in *. destruct (fst (xyz_to_xy c dirs v)); cbn [somes map option_map]; [f_equal|]; exact IH.
Qed.
Print Assumptions lines_inframe.

(** ** Distances.  Between neighbouring vertices in the frame whose images are more than half a step (1 / density pixels) apart, every point of the line is at most 1.5 steps from a predicted point; hence an observed point is matched to one at most 1.5 steps further away than the line itself. *)
Lemma pixels_gap c p q : no_distortion c -> focal c -> pixels (xy_to_uv c p) (xy_to_uv c q) <= Rmax (f_ c 0) (f_ c 1) * gap (list_of2 p) (list_of2 q).
Proof.
  intros ND [F0 F1]. destruct p as [px py]. destruct q as [qx qy]. unfold xy_to_uv. rewrite !distort_none by exact ND. unfold pixels, gap, dist_euc, list_of2. cbn [fst snd nth]. set (m := Rmax (f_ c 0) (f_ c 1)). assert (M0 : f_ c 0 <= m) by apply Rmax_l. assert (M1 : f_ c 1 <= m) by apply Rmax_r.
  rewrite <- (sqrt_Rsqr m) by lra. rewrite <- sqrt_mult by (first [apply Rle_0_sqr|apply Rplus_le_le_0_compat; apply Rle_0_sqr]). apply sqrt_le_1_alt. unfold Rsqr.
  replace ((px * f_ c 0 + center c 0 - (qx * f_ c 0 + center c 0)) * (px * f_ c 0 + center c 0 - (qx * f_ c 0 + center c 0))) with ((f_ c 0 * f_ c 0) * ((px - qx) * (px - qx))) by ring.
  replace ((py * f_ c 1 + center c 1 - (qy * f_ c 1 + center c 1)) * (py * f_ c 1 + center c 1 - (qy * f_ c 1 + center c 1))) with ((f_ c 1 * f_ c 1) * ((py - qy) * (py - qy))) by ring.
  assert (S0 : f_ c 0 * f_ c 0 <= m * m) by nra. assert (S1 : f_ c 1 * f_ c 1 <= m * m) by nra. pose proof (Rle_0_sqr (px - qx)) as X. pose proof (Rle_0_sqr (py - qy)) as Y. unfold Rsqr in X, Y. nra.
Qed.
Theorem lines_close : forall argsort c dirs density xyzs puvs line a b ua ub s, sorts argsort -> focal c -> image_size c -> no_distortion c -> straight c dirs -> 0 < density ->
  lines_project argsort c dirs density xyzs = Ok puvs -> In line xyzs -> adj line a b -> xyz_to_uv c dirs a = Some ua -> xyz_to_uv c dirs b = Some ub -> inframe c (Some ua) = true -> inframe c (Some ub) = true ->
  1 / (2 * density) < pixels ua ub -> 0 <= s <= 1 ->
  exists uq uv, xyz_to_uv c dirs (lerp3 a b s) = Some uq /\ In uv (concat puvs) /\ pixels uq uv <= 3 / (2 * density).
Proof.
  intros argsort c dirs density xyzs puvs line a b ua ub s So HF HI ND St Dn E Iline Ad Ea Eb Fa Fb Far Hs. destruct (project_inv _ _ _ _ _ _ So HF HI E) as (Ne & dx & lo & hi & fr & pp & [D D0 EB Ll Lh FF FP EU]). destruct (front_in c dirs xyzs fr FF Ne) as (CC & FI & FA).
  assert (BF : forall p, in_closed_box 2 lo hi (list_of2 p) <-> inframe c (Some (xy_to_uv c p)) = true) by (intros [x y]; apply (box_frame c lo hi x y ND HI HF EB)).
  unfold xyz_to_uv in Ea, Eb. destruct (fst (xyz_to_xy c dirs a)) as [pa|] eqn:Xa; [|discriminate]. destruct (fst (xyz_to_xy c dirs b)) as [pb|] eqn:Xb; [|discriminate]. cbn [option_map] in Ea, Eb. injection Ea as <-. injection Eb as <-. apply BF in Fa, Fb.
  set (m := Rmax (f_ c 0) (f_ c 1)) in *. assert (Hm : 0 < m) by (destruct HF as [F0 _]; apply Rlt_le_trans with (f_ c 0); [exact F0|apply Rmax_l]).
  assert (Dx : 0 < dx) by (rewrite D; unfold Rdiv; apply Rmult_lt_0_compat; [apply Rmult_lt_0_compat; [lra|apply Rinv_0_lt_compat; lra]|apply Rinv_0_lt_compat; exact Hm]). assert (EDx : m * dx = 1 / density) by (rewrite D; field; lra).
  assert (HG : dx / 2 < gap (list_of2 pa) (list_of2 pb)). { pose proof (pixels_gap c pa pb ND HF) as G. fold m in G. apply Rmult_lt_reg_l with m; [exact Hm|]. replace (m * (dx / 2)) with (1 / (2 * density)); [lra|]. transitivity (m * dx / 2); [rewrite EDx; field; lra|field]. }
  destruct (world_segment c dirs a b pa pb St Xa Xb) as [_ W]. destruct (W s Hs) as (t & Ht & Et). destruct (FA line a b pa pb Iline Ad Xa Xb) as (l & Il & Al). destruct (F2_in_l _ _ _ _ FP Il) as (o & Io & Eo). destruct (FI l Il) as (_ & _ & Nl & _).
  destruct (points_ok argsort c dx lo hi l So D0 Ll Lh Nl) as (out & Eo' & _ & _ & _ & P). rewrite Eo in Eo'. injection Eo' as <-. destruct (P pa pb t Al Fa Fb Ht Dx HG) as (p & Ip & G).
  exists (xy_to_uv c (lerp2 pa pb t)), (xy_to_uv c p). split; [apply uv_of_xy; exact Et|]. split.
  - assert (J : In (xy_to_uv c p) (concat (concat pp))) by (apply in_concat in Ip as (q & Iq & Ip); apply in_concat; exists q; split; [apply in_concat; exists o; split; assumption|exact Ip]). destruct (concat pp); [destruct J|]. rewrite EU. exact J.
  - eapply Rle_trans; [apply (pixels_gap c _ _ ND HF)|]. fold m. replace (3 / (2 * density)) with (m * (3 / 2 * dx)); [apply Rmult_le_compat_l; lra|]. transitivity (3 / 2 * (m * dx)); [ring|]. rewrite EDx. field. lra.
Qed.
Print Assumptions lines_close.
Theorem lines_predict_close : forall argsort c position dirs density xyzs l r, sorts argsort -> focal c -> image_size c -> no_distortion c -> straight c dirs -> 0 < density ->
  lines_predict argsort c position dirs density xyzs l = Ok r -> length r = length (l_uv l) /\
  forall i o line a b ua ub s uq, nth_error (l_uv l) i = Some o -> In line xyzs -> adj line a b -> xyz_to_uv c dirs a = Some ua -> xyz_to_uv c dirs b = Some ub -> inframe c (Some ua) = true -> inframe c (Some ub) = true ->
    1 / (2 * density) < pixels ua ub -> 0 <= s <= 1 -> xyz_to_uv c dirs (lerp3 a b s) = Some uq ->
    exists p, nth_error r i = Some p /\ pixels o p <= pixels o uq + 3 / (2 * density).
Proof.
  intros argsort c position dirs density xyzs l r So HF HI ND St Dn E. unfold lines_predict in E. destruct (_ && _)%bool; [discriminate|]. destruct (lines_project argsort c dirs density xyzs) as [puvs|] eqn:EP; [|discriminate]. cbn [bind] in E. pose proof (lines_predicted_nearest l (concat puvs) r E) as F.
  split; [clear -F; induction F; cbn; congruence|]. intros i o line a b ua ub s uq Eo Il Ad Ea Eb Fa Fb Far Hs Eq. destruct (lines_close argsort c dirs density xyzs puvs line a b ua ub s So HF HI ND St Dn EP Il Ad Ea Eb Fa Fb Far Hs) as (uq' & uv & Eq' & Iuv & G). rewrite Eq in Eq'. injection Eq' as <-.
  assert (N : exists p, nth_error r i = Some p /\ forall x, In x (concat puvs) -> sqdist o p <= sqdist o x).
  { clear -F Eo. revert i Eo. induction F as [|x y lx ly H F IH]; intros [|i] Eo; try discriminate; [injection Eo as <-; exists y; split; [reflexivity|apply H]|]. exact (IH i Eo). }
  destruct N as (p & Ep & Nr). exists p. split; [exact Ep|]. specialize (Nr uv Iuv). assert (SQ : forall x, pixels o x = sqrt (sqdist o x)) by (intros x; unfold pixels, dist_euc, sqdist, Rsqr; reflexivity).
  assert (G2 : pixels o p <= pixels o uv) by (rewrite !SQ; apply sqrt_le_1_alt; exact Nr). pose proof (triangle (fst o) (snd o) (fst uv) (snd uv) (fst uq) (snd uq)) as T. unfold pixels in *. lra.
Qed.
Print Assumptions lines_predict_close.

(** ** Finding: a line is lost if all its vertices are outside the frame, although it may cross the image, as soon as another line has a vertex in the frame. *)
Lemma mapM_app {A B} (f : A -> result B) l l' : mapM f (l ++ l') = let* a := mapM f l in let* b := mapM f l' in Ok (a ++ b).
Proof. induction l as [|x l IH]; cbn [app mapM bind]; [destruct (mapM f l'); reflexivity|]. destruct (f x); [|reflexivity]. cbn [bind]. rewrite IH. destruct (mapM f l); [|reflexivity]. cbn [bind]. destruct (mapM f l'); reflexivity. Qed.
Theorem lines_crossing_refuted : forall argsort c dirs density before line after puvs, sorts argsort -> focal c -> image_size c -> no_distortion c ->
  line <> [] -> ~ vertex_inframe c dirs line -> (exists other, In other (before ++ after) /\ vertex_inframe c dirs other) ->
  lines_project argsort c dirs density (before ++ after) = Ok puvs -> lines_project argsort c dirs density (before ++ line :: after) = Ok puvs.
Proof.
  intros argsort c dirs density before line after puvs So HF HI ND Nl Out (other & Io & v & Iv & Fv) E. destruct (project_inv _ _ _ _ _ _ So HF HI E) as (Ne & dx & lo & hi & fr & pp & [D D0 EB Ll Lh FF FP EU]). destruct (front_in c dirs _ fr FF Ne) as (CC & FI & _).
  assert (BF : forall p, in_closed_box 2 lo hi (list_of2 p) <-> inframe c (Some (xy_to_uv c p)) = true) by (intros [x y]; apply (box_frame c lo hi x y ND HI HF EB)).
  assert (Npp : concat pp <> []).
  { unfold xyz_to_uv in Fv. destruct (fst (xyz_to_xy c dirs v)) as [p|] eqn:Ev; [|discriminate]. cbn [option_map] in Fv. apply BF in Fv.
    assert (Ip : In p (concat (concat fr))) by (rewrite CC, somes_in; apply in_map_iff; exists v; split; [exact Ev|apply in_concat; exists other; split; assumption]). apply in_concat in Ip as (l & Il & Ip).
    destruct (F2_in_l _ _ _ _ FP Il) as (o & Jo & Eo). destruct (FI l Il) as (_ & _ & Nl' & _). destruct (points_ok argsort c dx lo hi l So D0 Ll Lh Nl') as (out & Eo' & _ & _ & P & _). rewrite Eo in Eo'. injection Eo' as <-. specialize (P ltac:(exists p; split; assumption)).
    intros K. destruct o as [|o0 o]; [congruence|]. assert (J : In o0 (concat pp)) by (apply in_concat; exists (o0 :: o); split; [exact Jo|left; reflexivity]). rewrite K in J. destruct J. }
  unfold lines_project in E |- *. destruct (lines_step c density) as [dx'|] eqn:Edx; [|discriminate]. cbn [bind] in E |- *. assert (Ed : dx' = dx) by (unfold lines_step in Edx; destruct (Reqb density 0); [discriminate|]; injection Edx as <-; symmetry; exact D). subst dx'. rewrite EB in E |- *. cbn [bind] in E |- *.
  rewrite mapM_app in E |- *. destruct (mapM (front_lines c dirs) before) as [f1|] eqn:E1; [|discriminate]. cbn [bind] in E |- *. cbn [mapM]. destruct (front_ok c dirs line Nl) as (r & Er & Cr & Nr & _ & _). rewrite Er. cbn [bind]. destruct (mapM (front_lines c dirs) after) as [f2|] eqn:E2; [|discriminate]. cbn [bind] in E |- *.
  rewrite !concat_app in *. cbn [concat]. rewrite !mapM_app in *. destruct (mapM (line_points argsort c dx lo hi) (concat f1)) as [p1|] eqn:E3; [|discriminate]. cbn [bind] in E |- *. destruct (mapM (line_points argsort c dx lo hi) (concat f2)) as [p2|] eqn:E4; [|discriminate]. cbn [bind] in E |- *.
  assert (ER : exists pr, mapM (line_points argsort c dx lo hi) r = Ok pr /\ concat pr = []).
  { assert (K : forall l, In l r -> line_points argsort c dx lo hi l = Ok []).
    { intros l Il. destruct (points_ok argsort c dx lo hi l So D0 Ll Lh (Nr l Il)) as (out & Eo & _ & P & _). rewrite Eo. f_equal. apply P. intros p Ip B. apply Out. assert (J : In p (concat r)) by (apply in_concat; exists l; split; assumption). rewrite Cr, somes_in in J. apply in_map_iff in J as (w & Ew & Iw). exists w. split; [exact Iw|]. rewrite (uv_of_xy c dirs w p Ew). apply BF. exact B. }
    exists (map (fun _ => []) r). split; [apply (mapM_all_ok _ (fun _ => [])); exact K|]. clear. induction r as [|l r IH]; [reflexivity|exact IH]. }
  destruct ER as (pr & -> & Zr). cbn [bind]. rewrite !concat_app in *. rewrite Zr. cbn [app]. 
  assert (EP : concat p1 ++ concat p2 = concat pp).
  { assert (Q : p1 ++ p2 = pp).
    { assert (EF : fr = f1 ++ f2). { assert (F1 : Forall2 (fun l f => front_lines c dirs l = Ok f) (before ++ after) (f1 ++ f2)).
        { apply Forall2_app; [clear -E1; revert f1 E1; induction before as [|x l IH]; intros f1 E1; cbn [mapM] in E1; [injection E1 as <-; constructor|]; destruct (front_lines c dirs x) eqn:Ex; [|discriminate]; cbn [bind] in E1; destruct (mapM (front_lines c dirs) l); [|discriminate]; injection E1 as <-; constructor; [exact Ex|apply IH; reflexivity]|].
          clear -E2; revert f2 E2; induction after as [|x l IH]; intros f1 E1; cbn [mapM] in E1; [injection E1 as <-; constructor|]; destruct (front_lines c dirs x) eqn:Ex; [|discriminate]; cbn [bind] in E1; destruct (mapM (front_lines c dirs) l); [|discriminate]; injection E1 as <-; constructor; [exact Ex|apply IH; reflexivity]. }
        clear -F1 FF. revert F1. generalize (f1 ++ f2). induction FF as [|x y l l' H F IH]; intros g F1; inversion F1; subst; [reflexivity|]. f_equal; [congruence|apply IH; assumption]. }
      assert (MP : mapM (line_points argsort c dx lo hi) (concat fr) = Ok (p1 ++ p2)) by (rewrite EF, concat_app, mapM_app, E3; cbn [bind]; rewrite E4; reflexivity).
      clear -FP MP. revert MP. generalize (p1 ++ p2). induction FP as [|x y l l' H F IH]; intros g MP; cbn [mapM] in MP; [injection MP as <-; reflexivity|]. rewrite H in MP. cbn [bind] in MP. destruct (mapM _ l) as [g'|]; [|discriminate]. injection MP as <-. f_equal. apply IH. reflexivity. }
    rewrite <- concat_app, Q. reflexivity. }
  rewrite EP in *. destruct (concat pp); [congruence|exact E].
Qed.
Print Assumptions lines_crossing_refuted.

(** ** Finding: a line in the frame whose image is shorter than half a step gives no point at all; alone, it makes the prediction fail. *)
Theorem lines_short_refuted : forall argsort c dirs density a b ua ub l, sorts argsort -> focal c -> f_ c 0 = f_ c 1 -> image_size c -> no_distortion c -> 0 < density ->
  xyz_to_uv c dirs a = Some ua -> xyz_to_uv c dirs b = Some ub -> inframe c (Some ua) = true -> inframe c (Some ub) = true -> 0 < pixels ua ub < 1 / (2 * density) ->
  lines_project argsort c dirs density [[a; b]] = Ok [[]] /\ lines_predict argsort c (get_xyz c) dirs density [[a; b]] l = Err ValueError.
Proof.
  intros argsort c dirs density a b ua ub l So HF Ef HI ND Dn Ea Eb Fa Fb Short. assert (HP : lines_project argsort c dirs density [[a; b]] = Ok [[]]).
  { unfold xyz_to_uv in Ea, Eb. destruct (fst (xyz_to_xy c dirs a)) as [pa|] eqn:Xa; [|discriminate]. destruct (fst (xyz_to_xy c dirs b)) as [pb|] eqn:Xb; [|discriminate]. cbn [option_map] in Ea, Eb. injection Ea as <-. injection Eb as <-.
    destruct (box_ok c HI) as (lo & hi & EB & Ll & Lh). assert (BF : forall p, in_closed_box 2 lo hi (list_of2 p) <-> inframe c (Some (xy_to_uv c p)) = true) by (intros [x y]; apply (box_frame c lo hi x y ND HI HF EB)). apply BF in Fa, Fb.
    unfold lines_project, lines_step. rewrite (proj2 (Reqb_false density 0)) by lra. cbn [bind]. rewrite EB. cbn [bind mapM]. unfold front_lines. cbn [map]. rewrite Xa, Xb. cbn [isnone].
    change (boolean_split [Some pa; Some pb] [false; false] false IncFalse) with (Ok [[Some pa; Some pb]]). cbn [bind map somes concat app mapM]. unfold line_points. cbn [map].
    assert (EC : clip_polyline_box false [list_of2 pa; list_of2 pb] lo hi = Ok [[list_of2 pa; list_of2 pb]]).
    { unfold clip_polyline_box. cbn [mapM cols]. destruct (in_box1_iff 2 (list_of2 pa) lo hi eq_refl Ll Lh) as (ba & -> & Ba). destruct (in_box1_iff 2 (list_of2 pb) lo hi eq_refl Ll Lh) as (bb & -> & Bb). cbn [bind]. rewrite (proj2 Ba Fa), (proj2 Bb Fb). reflexivity. }
    rewrite EC. cbn [bind mapM]. set (dx := 1 / density / Rmax (f_ c 0) (f_ c 1)). destruct HF as [F0 F1]. assert (FM : Rmax (f_ c 0) (f_ c 1) = f_ c 0) by (rewrite <- Ef; apply Rmax_left; lra).
    assert (EDx : f_ c 0 * dx = 1 / density) by (unfold dx; rewrite FM; field; lra). assert (Dx : 0 < dx) by (apply Rmult_lt_reg_l with (f_ c 0); [exact F0|]; rewrite EDx, Rmult_0_r; apply Rmult_lt_0_compat; [lra|apply Rinv_0_lt_compat; exact Dn]).
    destruct (interp_piece argsort [list_of2 pa; list_of2 pb] dx So) as (out & -> & _ & _ & Z); [discriminate|intros r [<-|[<-|[]]]; reflexivity|lra|].
    assert (GE : pixels (xy_to_uv c pa) (xy_to_uv c pb) = f_ c 0 * gap (list_of2 pa) (list_of2 pb)).
    { destruct pa as [px py]. destruct pb as [qx qy]. unfold xy_to_uv. rewrite !distort_none by exact ND. unfold pixels, gap, dist_euc, list_of2. cbn [fst snd nth]. rewrite <- Ef. rewrite <- (sqrt_Rsqr (f_ c 0)) at 5 by lra. rewrite <- sqrt_mult by (first [apply Rle_0_sqr|apply Rplus_le_le_0_compat; apply Rle_0_sqr]). f_equal. unfold Rsqr. ring. }
    rewrite GE in Short. assert (LE : line_len [list_of2 pa; list_of2 pb] = gap (list_of2 pa) (list_of2 pb)) by (unfold line_len; cbn [length Nat.sub arc nth]; rewrite gap_sq by reflexivity; ring).
    rewrite Z; [reflexivity|]. rewrite LE. split; apply Rmult_lt_reg_l with (f_ c 0); try exact F0; [lra|]. replace (f_ c 0 * (dx / 2)) with (1 / (2 * density)); [lra|]. transitivity (f_ c 0 * dx / 2); [rewrite EDx; field; lra|field]. }
  split; [exact HP|]. unfold lines_predict. assert (ED : differ (get_xyz c) (get_xyz c) = false). { unfold differ. generalize (get_xyz c). intros q. induction q as [|x q IH]; [reflexivity|]. cbn [map2 existsb]. rewrite IH. destruct (Reqb_spec x x); [reflexivity|congruence]. }
  rewrite ED, Bool.andb_false_r, HP. cbn [bind]. reflexivity.
Qed.
Print Assumptions lines_short_refuted.

(** ** The camera at the origin facing north, with an image of 4 by 2 pixels *)
Lemma ex_imgsz : imgszR excam = [4; 2].
Proof. unfold imgszR, get_imgsz. cbn [excam vec excam_vec slice skipn firstn map]. rewrite !CameraStateProofs.Rtrunc_IZR. reflexivity. Qed.
Lemma ex_uv x y z : 0 < y -> xyz_to_uv excam false (x, y, z) = Some (x / y + 2, - z / y + 1).
Proof.
  intros Y. unfold xyz_to_uv, xyz_to_xy, offset, Rm. change (get_viewdir excam) with [0; 0; 0]. change (get_xyz excam) with [0; 0; 0]. change (correction excam) with (@None (R * R)). unfold v3. cbn [nth]. unfold rotation, deg2rad. rewrite !Rmult_0_l, cos_0, sin_0. unfold row, dot3, sub3. cbn [fst snd].
  match goal with |- option_map _ (if Rleb ?z 0 then _ else _) = _ => destruct (Rleb_spec z 0) as [L|L]; [exfalso; lra|] end. cbn [option_map]. apply (f_equal (@Some _)). unfold xy_to_uv. rewrite distort_none by (split; reflexivity). unfold center. rewrite ex_imgsz. unfold f_. cbn. apply (f_equal2 pair); field; lra.
Qed.
Lemma ex_frame u v : inframe excam (Some (u, v)) = true <-> 0 <= u <= 4 /\ 0 <= v <= 2.
Proof. unfold inframe. rewrite ex_imgsz. cbn [nth]. rewrite !Bool.andb_true_iff, !Rleb_true. tauto. Qed.
Lemma ex_camera : focal excam /\ image_size excam /\ no_distortion excam /\ straight excam false.
Proof. split; [split; unfold f_; cbn; lra|]. split; [unfold image_size; rewrite ex_imgsz; cbn; lra|]. split; [split; reflexivity|right; reflexivity]. Qed.
(** two vertices in the frame, two pixels apart *)
Example lines_close_ex : exists ua ub, xyz_to_uv excam false (-1, 1, 0) = Some ua /\ xyz_to_uv excam false (1, 1, 0) = Some ub /\ inframe excam (Some ua) = true /\ inframe excam (Some ub) = true /\ 1 / (2 * 1) < pixels ua ub.
Proof.
  eexists _, _. split; [apply ex_uv; lra|]. split; [apply ex_uv; lra|]. split; [apply ex_frame; lra|]. split; [apply ex_frame; lra|]. unfold pixels, dist_euc. cbn [fst snd]. apply Rlt_le_trans with (sqrt 4); [rewrite sqrt_lem_1 with (y := 2); lra|]. apply sqrt_le_1_alt. unfold Rsqr. lra.
Qed.
(** a line that crosses the image from far left to far right, through its center *)
Example lines_crossing_ex : ~ vertex_inframe excam false [(-10, 1, 0); (10, 1, 0)] /\ (exists q uv, on_world_line [(-10, 1, 0); (10, 1, 0)] q /\ xyz_to_uv excam false q = Some uv /\ inframe excam (Some uv) = true) /\ vertex_inframe excam false [(1, 1, 0)].
Proof.
  split; [|split].
  - intros (v & [<-|[<-|[]]] & F); rewrite ex_uv in F by lra; apply ex_frame in F; lra.
  - exists (0, 1, 0), (0 / 1 + 2, - 0 / 1 + 1). split; [|split; [apply ex_uv; lra|apply ex_frame; lra]]. right. exists (-10, 1, 0), (10, 1, 0), (/ 2). split; [apply adj_head|]. split; [lra|]. unfold lerp3, add3, scale3. apply (f_equal2 pair); [apply (f_equal2 pair)|]; lra.
  - exists (1, 1, 0). split; [left; reflexivity|]. rewrite ex_uv by lra. apply ex_frame. lra.
Qed.
Example lines_short_ex : exists ua ub, xyz_to_uv excam false (0, 1, 0) = Some ua /\ xyz_to_uv excam false (/ 4, 1, 0) = Some ub /\ inframe excam (Some ua) = true /\ inframe excam (Some ub) = true /\ 0 < pixels ua ub < 1 / (2 * 1) /\ f_ excam 0 = f_ excam 1.
Proof.
  eexists _, _. split; [apply ex_uv; lra|]. split; [apply ex_uv; lra|]. split; [apply ex_frame; lra|]. split; [apply ex_frame; lra|]. split; [|reflexivity]. unfold pixels, dist_euc. cbn [fst snd]. unfold Rsqr. replace (_ + _) with (/ 4 * / 4) by lra. rewrite sqrt_square by lra. lra.
Qed.
