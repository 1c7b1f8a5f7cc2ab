(** Property C76: Image.project. *)
From Coq Require Import Lia Lra.
From Verif Require Import Base BaseLemmas HelpersModel CameraModel CameraSpec CameraStateProofs CameraProofs CameraProofs2 ControlModel P_Control P_Camera P_Control2 RasterModel RasterProofs4 ProjectModel.
Open Scope R_scope.

(** ** Specification *)
Definition pixel (r c : nat) : vec2 := (INR c + / 2, INR r + / 2).
(** the image size is w x h *)
Definition has_size (c : cam) (w h : nat) : Prop := get_imgsz c = [Z.of_nat w; Z.of_nat h] /\ (2 <= w)%nat /\ (2 <= h)%nat.
(** the value at (u, v) by nearest pixel, and by bilinear interpolation between pixel centers *)
Definition nearest_value (img : nat -> nat -> R) (w h : nat) (p : vec2) (x : R) : Prop :=
  exists r c, (r < h)%nat /\ (c < w)%nat /\ Rabs (fst p - fst (pixel r c)) <= / 2 /\ Rabs (snd p - snd (pixel r c)) <= / 2 /\ x = img r c.
Definition linear_value (img : nat -> nat -> R) (w h : nat) (p : vec2) (x : R) : Prop :=
  exists r c s t, (S r < h)%nat /\ (S c < w)%nat /\ 0 <= s <= 1 /\ 0 <= t <= 1 /\ fst p = fst (pixel r c) + s /\ snd p = snd (pixel r c) + t /\
    x = (1 - t) * ((1 - s) * img r c + s * img r (S c)) + t * ((1 - s) * img (S r) c + s * img (S r) (S c)).
Definition interpolated (linear : bool) := if linear then linear_value else nearest_value.
(** within the rectangle of pixel centers *)
Definition within (w h : nat) (p : vec2) : Prop := / 2 <= fst p <= INR w - / 2 /\ / 2 <= snd p <= INR h - / 2.
(** row r, column c of an array *)
Definition at_ {A} (a : list (list A)) (r c : nat) : option A := match nth_error a r with Some row => nth_error row c | None => None end.

(** ** Proofs *)
Lemma grid_regular n g : (2 <= n)%nat -> pixel_grid (Z.of_nat n) = Ok g -> length g = n /\ regular g (/ 2) 1 /\ (forall k, (k < n)%nat -> nth_error g k = Some (INR k + / 2)).
Proof.
  intros L E. unfold pixel_grid, linspace in E. destruct (Z.ltb_spec (Z.of_nat n) 0); [lia|]. injection E as <-.
  assert (Len : length (Zrange (Z.of_nat n)) = n) by (unfold Zrange; now rewrite map_length, seq_length, Nat2Z.id).
  assert (N : forall k, (k < n)%nat -> nth_error (map (fun i => if (Z.of_nat n =? 1)%Z then / 2 else / 2 + IZR i * ((IZR (Z.of_nat n) - / 2 - / 2) / IZR (Z.of_nat n - 1))) (Zrange (Z.of_nat n))) k = Some (INR k + / 2)).
  { intros k Hk. unfold Zrange. rewrite map_map, nth_error_map, Nat2Z.id. rewrite (nth_error_nth' _ 0%nat) by (now rewrite seq_length). rewrite seq_nth by exact Hk. cbn [option_map Nat.add]. destruct (Z.eqb_spec (Z.of_nat n) 1); [lia|]. apply (f_equal (@Some _)). rewrite minus_IZR, <- !INR_IZR_INZ. assert (INR 2 <= INR n) by (now apply le_INR). cbn in H0. field. lra. }
  split; [now rewrite map_length|]. split; [|exact N]. split; [lra|]. rewrite map_length, Len. intros k Hk. rewrite (nth_error_nth _ _ _ (N k Hk)). lra.
Qed.
Lemma sample_inside linear w h pu pv img p : (2 <= w)%nat -> (2 <= h)%nat -> pixel_grid (Z.of_nat w) = Ok pu -> pixel_grid (Z.of_nat h) = Ok pv -> within w h p ->
  exists x, sample_image linear pu pv img (Some p) = Some x /\ interpolated linear img w h p x.
Proof.
  intros Lw Lh Eu Ev [[U1 U2] [V1 V2]]. destruct p as [u v]. cbn [fst snd] in *. destruct (grid_regular w pu Lw Eu) as (Lu & Ru & Nu). destruct (grid_regular h pv Lh Ev) as (Lv & Rv & Nv).
  pose proof (nth_error_nth _ _ 0 (Nu 0%nat ltac:(lia))) as U0. pose proof (nth_error_nth _ _ 0 (Nv 0%nat ltac:(lia))) as V0. pose proof (nth_error_nth _ _ 0 (Nu (w - 1)%nat ltac:(lia))) as Un. pose proof (nth_error_nth _ _ 0 (Nv (h - 1)%nat ltac:(lia))) as Vn.
  rewrite minus_INR in Un, Vn by lia. change (INR 0) with 0 in U0, V0. change (INR 1) with 1 in Un, Vn.
  unfold sample_image, below, above. rewrite Lu, Lv, U0, V0, Un, Vn.
  destruct (Rltb_spec u (0 + / 2)); [lra|]. destruct (Rltb_spec (INR w - 1 + / 2) u); [lra|]. destruct (Rltb_spec v (0 + / 2)); [lra|]. destruct (Rltb_spec (INR h - 1 + / 2) v); [lra|]. cbn [orb].
  pose proof (locate_spec pv (/ 2) 1 v Rv ltac:(lia)) as SV. pose proof (locate_spec pu (/ 2) 1 u Ru ltac:(lia)) as SU.
  assert (RE : (if linear then rgi_linear else rgi_nearest) pv pu (fun r c => Some (img r c)) v u = if linear then rgi_linear pv pu (fun r c => Some (img r c)) v u else rgi_nearest pv pu (fun r c => Some (img r c)) v u) by (destruct linear; reflexivity). rewrite RE. clear RE.
  unfold rgi_linear, rgi_nearest. destruct (rgi_locate pv v) as [r t]. destruct (rgi_locate pu u) as [c s].
  destruct SV as (Sr & Er & Fr & Gr & Hr & _). destruct SU as (Sc & Ec & Fc & Gc & Hc & _). rewrite Lu in *. rewrite Lv in *.
  rewrite (nth_error_nth _ _ 0 (Nv r ltac:(lia))) in Er. rewrite (nth_error_nth _ _ 0 (Nu c ltac:(lia))) in Ec. rewrite U0, Un in *. rewrite V0, Vn in *.
  assert (T : 0 <= t <= 1) by (split; [apply Gr|apply Hr]; lra). assert (Q : 0 <= s <= 1) by (split; [apply Gc|apply Hc]; lra).
  destruct linear; cbn [interpolated].
  - eexists. split; [reflexivity|]. exists r, c, s, t. unfold pixel. cbn [fst snd]. repeat split; try lia; try lra; try ring.
  - eexists. split; [reflexivity|]. exists (if Rleb t (/ 2) then r else S r), (if Rleb s (/ 2) then c else S c). unfold pixel. cbn [fst snd].
    assert (A : Rabs (v - (INR (if Rleb t (/ 2) then r else S r) + / 2)) <= / 2) by (rewrite Er; apply Rabs_le; destruct (Rleb_spec t (/ 2)); rewrite ?S_INR; lra).
    assert (B : Rabs (u - (INR (if Rleb s (/ 2) then c else S c) + / 2)) <= / 2) by (rewrite Ec; apply Rabs_le; destruct (Rleb_spec s (/ 2)); rewrite ?S_INR; lra).
    split; [destruct (Rleb t (/ 2)); lia|]. split; [destruct (Rleb s (/ 2)); lia|]. auto.
Qed.
Lemma sample_outside linear w h pu pv img p : (2 <= w)%nat -> (2 <= h)%nat -> pixel_grid (Z.of_nat w) = Ok pu -> pixel_grid (Z.of_nat h) = Ok pv -> ~ within w h p -> sample_image linear pu pv img (Some p) = None.
Proof.
  intros Lw Lh Eu Ev O. destruct p as [u v]. destruct (grid_regular w pu Lw Eu) as (Lu & Ru & Nu). destruct (grid_regular h pv Lh Ev) as (Lv & Rv & Nv).
  pose proof (nth_error_nth _ _ 0 (Nu 0%nat ltac:(lia))) as U0. pose proof (nth_error_nth _ _ 0 (Nv 0%nat ltac:(lia))) as V0. pose proof (nth_error_nth _ _ 0 (Nu (w - 1)%nat ltac:(lia))) as Un. pose proof (nth_error_nth _ _ 0 (Nv (h - 1)%nat ltac:(lia))) as Vn.
  rewrite minus_INR in Un, Vn by lia. change (INR 0) with 0 in U0, V0. change (INR 1) with 1 in Un, Vn.
  unfold sample_image, below, above. rewrite Lu, Lv, U0, V0, Un, Vn.
  destruct (Rltb_spec u (0 + / 2)); [reflexivity|]. destruct (Rltb_spec (INR w - 1 + / 2) u); [reflexivity|]. destruct (Rltb_spec v (0 + / 2)); [reflexivity|]. destruct (Rltb_spec (INR h - 1 + / 2) v); [reflexivity|]. exfalso. apply O. unfold within. cbn [fst snd]. lra.
Qed.
Lemma sample_center linear w h pu pv img r c : (2 <= w)%nat -> (2 <= h)%nat -> pixel_grid (Z.of_nat w) = Ok pu -> pixel_grid (Z.of_nat h) = Ok pv -> (r < h)%nat -> (c < w)%nat -> sample_image linear pu pv img (Some (pixel r c)) = Some (img r c).
Proof.
  intros Lw Lh Eu Ev Hr Hc. destruct (sample_inside linear w h pu pv img (pixel r c) Lw Lh Eu Ev) as (x & -> & I).
  { unfold within, pixel. cbn [fst snd]. pose proof (pos_INR r). pose proof (pos_INR c). assert (INR r + 1 <= INR h) by (rewrite <- S_INR; apply le_INR; lia). assert (INR c + 1 <= INR w) by (rewrite <- S_INR; apply le_INR; lia). lra. }
  apply (f_equal (@Some _)). destruct linear; cbn [interpolated] in I.
  - destruct I as (r' & c' & s & t & R' & C' & S' & T' & E1 & E2 & ->). unfold pixel in E1, E2. cbn [fst snd] in E1, E2. assert (U : INR c = INR c' + s) by lra. assert (V : INR r = INR r' + t) by lra.
    assert (K : forall (a b : nat) x, 0 <= x <= 1 -> INR a = INR b + x -> (x = 0 /\ a = b) \/ (x = 1 /\ a = S b)).
    { intros a b y Y E. destruct (lt_eq_lt_dec a b) as [[L|L]|L].
      - assert (INR a + 1 <= INR b) by (rewrite <- S_INR; apply le_INR; lia). lra.
      - left. subst. split; [lra|reflexivity].
      - right. assert (INR (S b) <= INR a) by (apply le_INR; lia). rewrite S_INR in H. assert (y = 1) by lra. split; [lra|]. apply INR_eq. rewrite S_INR. lra. }
    destruct (K _ _ _ S' U) as [[-> ->]|[-> ->]], (K _ _ _ T' V) as [[-> ->]|[-> ->]]; ring.
  - destruct I as (r' & c' & R' & C' & E1 & E2 & ->). unfold pixel in E1, E2. cbn [fst snd] in E1, E2.
    assert (K : forall a b : nat, Rabs (INR a + / 2 - (INR b + / 2)) <= / 2 -> a = b).
    { intros a b E. assert (E' : - / 2 <= INR a + / 2 - (INR b + / 2) <= / 2) by (revert E; unfold Rabs; destruct (Rcase_abs _); lra). destruct (lt_eq_lt_dec a b) as [[L|L]|L]; [|exact L|].
      - assert (INR a + 1 <= INR b) by (rewrite <- S_INR; apply le_INR; lia). lra.
      - assert (INR b + 1 <= INR a) by (rewrite <- S_INR; apply le_INR; lia). lra. }
    now rewrite (K _ _ E1), (K _ _ E2).
Qed.
Lemma pixel_grid_ok n : exists g, pixel_grid (Z.of_nat n) = Ok g.
Proof. unfold pixel_grid, linspace. destruct (Z.ltb_spec (Z.of_nat n) 0); [lia|]. eauto. Qed.
Lemma project_at src dst linear d img w h w' h' : has_size src w h -> has_size dst w' h' -> get_xyz dst = get_xyz src ->
  exists a pu pv, project src dst linear d img = Ok a /\ pixel_grid (Z.of_nat w) = Ok pu /\ pixel_grid (Z.of_nat h) = Ok pv /\ length a = h' /\ Forall (fun row => length row = w') a /\
  forall r c, (r < h')%nat -> (c < w')%nat -> at_ a r c = Some (cast d (sample_image linear pu pv img (look src dst (pixel r c)))).
Proof.
  intros (Es & Lw & Lh) (Ed & Lw' & Lh') X. unfold project. rewrite X, differ_refl, Es, Ed. cbn [nth].
  destruct (pixel_grid_ok w) as (pu & Eu). destruct (pixel_grid_ok h) as (pv & Ev). destruct (pixel_grid_ok w') as (u & Eu'). destruct (pixel_grid_ok h') as (v & Ev'). rewrite Eu, Ev, Eu', Ev'. cbn [bind].
  destruct (grid_regular w' u Lw' Eu') as (Lu & _ & Nu). destruct (grid_regular h' v Lh' Ev') as (Lv & _ & Nv).
  eexists; exists pu, pv. split; [reflexivity|]. split; [reflexivity|]. split; [reflexivity|]. split; [now rewrite map_length|]. split; [apply Forall_map, Forall_forall; intros; now rewrite map_length|].
  intros r c Hr Hc. unfold at_. rewrite nth_error_map, (Nv r Hr). cbn [option_map]. rewrite nth_error_map, (Nu c Hc). reflexivity.
Qed.

(** ** Theorems *)
(** Every target pixel whose center is the image of a world point in front of the source camera gets the interpolated value of the source image at the image of the same point there; nan outside the pixel centers. *)
Theorem project_point src dst linear img w h w' h' a r c p q : same_place src dst -> has_size src w h -> has_size dst w' h' -> project src dst linear DFloat img = Ok a ->
  (r < h')%nat -> (c < w')%nat -> exact_lens dst p -> xyz_to_uv dst false p = Some (pixel r c) -> xyz_to_uv src false p = Some q ->
  (within w h q -> exists x, at_ a r c = Some (Some x) /\ interpolated linear img w h q x) /\ (~ within w h q -> at_ a r c = Some None).
Proof.
  intros S Hs Hd E Hr Hc L Ed Es. destruct (project_at src dst linear DFloat img w h w' h' Hs Hd (eq_sym (proj1 S))) as (a' & pu & pv & E' & Eu & Ev & _ & _ & N). rewrite E in E'. injection E' as <-. rewrite (N r c Hr Hc). unfold look. rewrite (predict_true src dst p _ S L Ed), Es. cbn [cast]. destruct Hs as (_ & Lw & Lh). split.
  - intros W. destruct (sample_inside linear w h pu pv img q Lw Lh Eu Ev W) as (x & -> & I). eauto.
  - intros W. now rewrite (sample_outside linear w h pu pv img q Lw Lh Eu Ev W).
Qed.
(** The size is that of the target camera. *)
Theorem project_size src dst linear d img w h w' h' a : has_size src w h -> has_size dst w' h' -> project src dst linear d img = Ok a -> length a = h' /\ Forall (fun row => length row = w') a.
Proof.
  intros Hs Hd E. destruct (differ (get_xyz dst) (get_xyz src)) eqn:D; [unfold project in E; rewrite D in E; discriminate|].
  assert (X : exists pu pv u v, Ok a = Ok (map (fun y => map (fun x => cast d (sample_image linear pu pv img (look src dst (x, y)))) u) v) /\ length u = w' /\ length v = h').
  { destruct Hs as (Es & Lw & Lh), Hd as (Ed & Lw' & Lh'). unfold project in E. rewrite D, Es, Ed in E. cbn [nth] in E. destruct (pixel_grid_ok w) as (pu & Eu). destruct (pixel_grid_ok h) as (pv & Ev). destruct (pixel_grid_ok w') as (u & Eu'). destruct (pixel_grid_ok h') as (v & Ev'). rewrite Eu, Ev, Eu', Ev' in E. cbn [bind] in E. exists pu, pv, u, v. split; [now symmetry|]. split; [apply (grid_regular w' u Lw' Eu')|apply (grid_regular h' v Lh' Ev')]. }
  destruct X as (pu & pv & u & v & X & Lu & Lv). injection X as ->. split; [now rewrite map_length|]. apply Forall_map, Forall_forall. intros. now rewrite map_length.
Qed.
(** Into a camera with the same view, the image stays as it is, with either method and for any type of numbers of which it consists. *)
Theorem project_identity c linear img w h : has_size c w h -> (forall r k, (r < h)%nat -> (k < w)%nat -> look c c (pixel r k) = Some (pixel r k)) ->
  exists a, project c c linear DFloat img = Ok a /\ forall r k, (r < h)%nat -> (k < w)%nat -> at_ a r k = Some (Some (img r k)).
Proof.
  intros Hs I. destruct (project_at c c linear DFloat img w h w h Hs Hs eq_refl) as (a & pu & pv & E & Eu & Ev & _ & _ & N). exists a. split; [exact E|]. intros r k Hr Hk. rewrite (N r k Hr Hk), (I r k Hr Hk). destruct Hs as (_ & Lw & Lh). now rewrite (sample_center linear w h pu pv img r k).
Qed.
Theorem project_identity_int c linear img (z : nat -> nat -> Z) n w h : has_size c w h -> (forall r k, img r k = IZR (z r k)) -> (forall r k, (r < h)%nat -> (k < w)%nat -> look c c (pixel r k) = Some (pixel r k)) ->
  exists a, project c c linear (DInt n) img = Ok a /\ forall r k, (r < h)%nat -> (k < w)%nat -> at_ a r k = Some (Some (img r k)).
Proof.
  intros Hs Iz I. destruct (project_at c c linear (DInt n) img w h w h Hs Hs eq_refl) as (a & pu & pv & E & Eu & Ev & _ & _ & N). exists a. split; [exact E|]. intros r k Hr Hk. rewrite (N r k Hr Hk), (I r k Hr Hk). destruct Hs as (_ & Lw & Lh). rewrite (sample_center linear w h pu pv img r k) by auto. cbn [cast]. now rewrite Iz, Rtrunc_IZR.
Qed.
(** ... which is the case for cameras without distortion. *)
Theorem project_identity_lens c uv : no_distortion c -> f_ c 0 <> 0 -> f_ c 1 <> 0 -> look c c uv = Some uv.
Proof. intros D F0 F1. unfold look. apply (camera_unproject_project c true 1 uv D (or_introl eq_refl) ltac:(lra) F0 F1). Qed.
(** Values never leave the range of the image. *)
Lemma linear_range img w h p x lo hi : (forall r c, (r < h)%nat -> (c < w)%nat -> lo <= img r c <= hi) -> linear_value img w h p x -> lo <= x <= hi.
Proof.
  intros B (r & c & s & t & Hr & Hc & S & T & _ & _ & ->). pose proof (B r c ltac:(lia) ltac:(lia)) as B1. pose proof (B r (Datatypes.S c) ltac:(lia) ltac:(lia)) as B2. pose proof (B (Datatypes.S r) c ltac:(lia) ltac:(lia)) as B3. pose proof (B (Datatypes.S r) (Datatypes.S c) ltac:(lia) ltac:(lia)) as B4.
  assert (C : forall y a b, 0 <= y <= 1 -> lo <= a <= hi -> lo <= b <= hi -> lo <= (1 - y) * a + y * b <= hi) by (intros y a0 b0 Y A0 B0; split; nra).
  apply (C t); [exact T| |]; apply (C s); auto.
Qed.
Theorem project_range src dst linear img w h w' h' a r c x lo hi : has_size src w h -> has_size dst w' h' -> get_xyz dst = get_xyz src -> project src dst linear DFloat img = Ok a ->
  (forall r c, (r < h)%nat -> (c < w)%nat -> lo <= img r c <= hi) -> (r < h')%nat -> (c < w')%nat -> at_ a r c = Some (Some x) -> lo <= x <= hi.
Proof.
  intros Hs Hd X E B Hr Hc A. destruct (project_at src dst linear DFloat img w h w' h' Hs Hd X) as (a' & pu & pv & E' & Eu & Ev & _ & _ & N). rewrite E in E'. injection E' as <-. rewrite (N r c Hr Hc) in A. cbn [cast] in A. injection A as A. destruct Hs as (_ & Lw & Lh).
  destruct (look src dst (pixel r c)) as [q|].
  - destruct (Rle_lt_dec (/ 2) (fst q)), (Rle_lt_dec (fst q) (INR w - / 2)), (Rle_lt_dec (/ 2) (snd q)), (Rle_lt_dec (snd q) (INR h - / 2)); try (rewrite (sample_outside linear w h pu pv img q Lw Lh Eu Ev) in A by (unfold within; lra); discriminate).
    destruct (sample_inside linear w h pu pv img q Lw Lh Eu Ev) as (y & Ey & I); [unfold within; lra|]. rewrite Ey in A. injection A as <-. destruct linear; [now apply (linear_range img w h q y)|]. destruct I as (r' & c' & Hr' & Hc' & _ & _ & ->). auto.
  - cbn in A. destruct linear; [discriminate|]. injection A as <-. apply B; [destruct (grid_regular h pv Lh Ev); lia|destruct (grid_regular w pu Lw Eu); lia].
Qed.
Theorem project_refused src dst linear d img : wf src -> wf dst -> project src dst linear d img = Err ValueError \/ get_xyz dst = get_xyz src.
Proof.
  intros Ws Wd. unfold project. destruct (differ (get_xyz dst) (get_xyz src)) eqn:D; [now left|right]. apply differ_iff; [|exact D]. destruct Ws as [Ws _], Wd as [Wd _]. unfold get_xyz, slice. rewrite !firstn_length, !skipn_length, Ws, Wd. reflexivity.
Qed.
(** Refuted: a pixel of the target that looks behind the source camera is not part of the source image, but with the method "nearest" it gets the bottom right pixel. *)
Theorem project_behind src dst linear img w h w' h' a r c : has_size src w h -> has_size dst w' h' -> get_xyz dst = get_xyz src -> project src dst linear DFloat img = Ok a ->
  (r < h')%nat -> (c < w')%nat -> look src dst (pixel r c) = None -> at_ a r c = Some (if linear then None else Some (img (h - 1)%nat (w - 1)%nat)).
Proof.
  intros Hs Hd X E Hr Hc N0. destruct (project_at src dst linear DFloat img w h w' h' Hs Hd X) as (a' & pu & pv & E' & Eu & Ev & _ & _ & N). rewrite E in E'. injection E' as <-. rewrite (N r c Hr Hc), N0. cbn [sample_image cast]. destruct Hs as (_ & Lw & Lh). destruct (grid_regular w pu Lw Eu) as (-> & _). destruct (grid_regular h pv Lh Ev) as (-> & _). reflexivity.
Qed.
(** Refuted: with images of integers, pixels outside the source image cannot be told: there is no nan, and linear interpolation is truncated, not rounded. *)
Theorem project_integers_refuted src dst linear n img w h w' h' a r c q : has_size src w h -> has_size dst w' h' -> get_xyz dst = get_xyz src -> project src dst linear (DInt n) img = Ok a ->
  (r < h')%nat -> (c < w')%nat -> look src dst (pixel r c) = Some q -> ~ within w h q -> at_ a r c = Some (Some (IZR n)).
Proof.
  intros Hs Hd X E Hr Hc N0 O. destruct (project_at src dst linear (DInt n) img w h w' h' Hs Hd X) as (a' & pu & pv & E' & Eu & Ev & _ & _ & N). rewrite E in E'. injection E' as <-. rewrite (N r c Hr Hc), N0. destruct Hs as (_ & Lw & Lh). now rewrite (sample_outside linear w h pu pv img q Lw Lh Eu Ev O).
Qed.
Print Assumptions project_point. Print Assumptions project_identity. Print Assumptions project_identity_int. Print Assumptions project_range. Print Assumptions project_behind.

(** Non-vacuity: excam (4 x 2 pixels, no distortion) projected into itself, and into a camera that looks the other way. *)
Lemma excam_size c v : vec c = v -> skipn 6 v = 4 :: 2 :: skipn 8 v -> has_size c 4 2.
Proof. intros E F. split; [|lia]. unfold get_imgsz, slice. rewrite E, F. cbn [firstn map]. rewrite !Rtrunc_IZR. reflexivity. Qed.
Example project_identity_ex img : exists a, project excam excam true DFloat img = Ok a /\ at_ a 1 3 = Some (Some (img 1%nat 3%nat)).
Proof.
  destruct (project_identity excam true img 4 2) as (a & E & A).
  - now apply (excam_size excam excam_vec).
  - intros r k _ _. apply project_identity_lens; [split; reflexivity|unfold f_; cbn; lra..].
  - exists a. split; [exact E|apply A; lia].
Qed.
Definition backcam : cam := mkcam [0; 0; 0; 180; 0; 0; 4; 2; 1; 1; 0; 0; 0; 0; 0; 0; 0; 0; 0; 0] [] None None.
Example project_behind_ex img : exists a, project excam backcam false DFloat img = Ok a /\ at_ a 0 0 = Some (Some (img 1%nat 3%nat)).
Proof.
  assert (Hs : has_size excam 4 2) by (now apply (excam_size excam excam_vec)). assert (Hd : has_size backcam 4 2) by (now apply (excam_size backcam (vec backcam))).
  destruct (project_at excam backcam false DFloat img 4 2 4 2 Hs Hd eq_refl) as (a & _ & _ & E & _). exists a. split; [exact E|].
  apply (project_behind excam backcam false img 4 2 4 2 a 0 0 Hs Hd eq_refl E); try lia. unfold look. destruct (uv_to_xy backcam (pixel 0 0)) as [x y].
  unfold xy_to_xyz, xyz_to_uv, xyz_to_xy, offset, Rm. change (get_viewdir excam) with [0; 0; 0]. change (get_viewdir backcam) with [180; 0; 0]. unfold v3. cbn [nth]. unfold rotation, deg2rad. replace (180 * (PI / 180)) with PI by field. rewrite !Rmult_0_l, cos_0, sin_0, cos_PI, sin_PI. destruct (Reqb_spec 1 1); [|contradiction].
  unfold row, dot3, add3, scale3. cbn [fst snd]. match goal with |- option_map _ (if Rleb ?z 0 then _ else _) = _ => destruct (Rleb_spec z 0) as [L|L]; [reflexivity|exfalso; apply L; lra] end.
Qed.
