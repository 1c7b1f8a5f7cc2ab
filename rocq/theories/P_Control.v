(** Property C73: image coordinates of Points, Lines and Matches follow the image size of their cameras. *)
From Verif Require Import Base BaseLemmas HelpersModel CameraModel CameraSpec CameraStateProofs CameraProofs CameraProofs2 ControlModel P_Camera.
Open Scope R_scope.

Definition sized (c : cam) : Prop := width c <> 0 /\ height c <> 0.
Definition ratio (new old : cam) : vec2 := (width new / width old, height new / height old).
Definition times (s p : vec2) : vec2 := (fst p * fst s, snd p * snd s).

Lemma mul2_times s p : mul2 s p = times s p. Proof. reflexivity. Qed.
Lemma rescale_any s (uv : list vec2) : (if any_scale s then map (mul2 s) uv else uv) = map (mul2 s) uv.
Proof.
  unfold any_scale. destruct s as [a b]. cbn [fst snd]. destruct (Reqb_spec a 1) as [->|]; [|reflexivity]. destruct (Reqb_spec b 1) as [->|]; [|reflexivity]. cbn. rewrite <- (map_id uv) at 1. apply map_ext. intros [x y]. unfold mul2. cbn [fst snd]. f_equal; ring.
Qed.

(** ** Points *)
(** Anything done to the camera, and resizes of the points, one after the other; failed calls change nothing. *)
Inductive points_op := PCam (o : cam_op) | PResize (size : option (list R * bool * R)).
Definition points_do (p : points) (o : points_op) : points :=
  match o with
  | PCam o => match cam_step o (p_cam p) with Ok c => with_cam p c | Err _ => p end
  | PResize s => match points_resize s p with Ok p' => p' | Err _ => p end
  end.
Inductive points_history : points -> points -> Prop :=
| ph_refl p : points_history p p
| ph_step p q o : points_history p q -> sized (p_cam (points_do q o)) -> points_history p (points_do q o).
Definition tracks (c0 : cam) (uv0 : list vec2) (q : points) : Prop :=
  sized (p_cam q) /\ fst (p_imgsz q) <> 0 /\ snd (p_imgsz q) <> 0 /\ p_uv q = map (times (fst (p_imgsz q) / width c0, snd (p_imgsz q) / height c0)) uv0.
Lemma tracks_rescale c0 uv0 q c : sized c0 -> sized c -> tracks c0 uv0 q ->
  tracks c0 uv0 (points_rescale (with_cam q c)) /\ p_uv (points_rescale (with_cam q c)) = map (times (ratio c c0)) uv0.
Proof.
  intros [W0 H0] [W H] (_ & N1 & N2 & E). unfold points_rescale. cbn [with_cam p_cam p_imgsz p_uv]. rewrite rescale_any, E, map_map.
  assert (U : map (fun x => mul2 (div2 (size2 c) (p_imgsz q)) (times (fst (p_imgsz q) / width c0, snd (p_imgsz q) / height c0) x)) uv0 = map (times (ratio c c0)) uv0).
  { apply map_ext. intros [x y]. unfold mul2, div2, times, ratio, size2. cbn [fst snd]. f_equal; field; auto. }
  rewrite U. split; [|reflexivity]. unfold tracks. cbn [p_cam p_imgsz p_uv size2 fst snd]. repeat split; auto.
Qed.
Lemma tracks_history c0 uv0 p q : sized c0 -> points_history p q -> tracks c0 uv0 p -> tracks c0 uv0 q.
Proof.
  intros S0 H. induction H as [p|p q o H IH S]; intros T0; [exact T0|]. specialize (IH T0). destruct o as [o|s]; cbn [points_do] in *.
  - destruct (cam_step o (p_cam q)) as [c|]; [|exact IH]. destruct IH as (_ & N1 & N2 & E). exact (conj S (conj N1 (conj N2 E))).
  - destruct s as [[[s force] de]|]; cbn [points_resize] in *.
    + destruct (resize s force de (p_cam q)) as [c|]; cbn [bind] in *; [|exact IH]. cbn in S. apply tracks_rescale; auto.
    + pose proof (tracks_rescale c0 uv0 q (p_cam q) S0 (proj1 IH) IH) as [K _]. destruct q; exact K.
Qed.
(** Whatever was done to the camera and the points before, resizing the points makes their image coordinates those at construction times the ratio of the image sizes. *)
Theorem points_resize_ratio c0 uv xyz dirs p q size q' : new_points c0 uv xyz dirs = Ok p -> sized c0 -> points_history p q -> points_resize size q = Ok q' -> sized (p_cam q') ->
  points_observed q' = map (times (ratio (p_cam q') c0)) uv /\ length (points_observed q') = length xyz.
Proof.
  intros E S0 H R S. unfold new_points in E. destruct (Nat.eqb_spec (length uv) (length xyz)) as [L|]; [|discriminate]. injection E as <-.
  assert (T0 : tracks c0 uv (mkpoints c0 uv xyz dirs (get_xyz c0) (size2 c0))).
  { destruct S0 as [W H0]. unfold tracks. cbn. repeat split; auto. rewrite <- (map_id uv) at 1. apply map_ext. intros [x y]. unfold times. cbn. f_equal; field; auto. }
  pose proof (tracks_history c0 uv _ q S0 H T0) as T1. assert (U : points_observed q' = map (times (ratio (p_cam q') c0)) uv).
  { unfold points_observed. destruct size as [[[s force] de]|]; cbn [points_resize] in R.
    - destruct (resize s force de (p_cam q)) as [c|]; cbn [bind] in R; [|discriminate]. injection R as <-. apply tracks_rescale; auto.
    - injection R as <-. pose proof (tracks_rescale c0 uv q (p_cam q) S0 (proj1 T1) T1) as [_ K]. destruct q; exact K. }
  split; [exact U|]. now rewrite U, map_length.
Qed.

(** ** Resizing scales residuals *)
Lemma imgsz_size c w h : cget Imgsz (vec c) = [IZR w; IZR h] -> width c = IZR w /\ height c = IZR h.
Proof. intros E. unfold width, height. rewrite (imgszR_of c [IZR w; IZR h] E) by (repeat constructor; eexists; reflexivity). split; reflexivity. Qed.
(** projection by a camera resized any number of times *)
Inductive resized_ok : cam -> cam -> Prop :=
| ro_refl c : sized c -> resized_ok c c
| ro_step c c1 c2 s force de : resized_ok c c1 -> integral_request s force -> resize s force de c1 = Ok c2 -> sized c2 -> resized_ok c c2.
Theorem resized_projection c c' dirs p : resized_ok c c' -> wf c -> scaled_from c -> xyz_to_uv c' dirs p = option_map (times (ratio c' c)) (xyz_to_uv c dirs p) /\ wf c' /\ scaled_from c' /\ sized c /\ sized c'.
Proof.
  induction 1 as [c [N1 N2]|c c1 c2 s force de H IH Hi Hr S2]; intros W S.
  - split; [|repeat split; auto; apply W]. unfold ratio. destruct (xyz_to_uv c dirs p) as [[u v]|]; [|reflexivity]. cbn. f_equal. unfold times. cbn. f_equal; field; auto.
  - destruct (IH W S) as (E & W1 & S1 & N0 & N1). destruct (resize_step s force de c1 c2 W1 S1 Hi Hr) as (Sc2 & W2 & _).
    assert (Ew : exists w h, cget Imgsz (vec c1) = [IZR w; IZR h]) by (destruct S1 as (w & h & ? & ? & ? & ? & ? & ? & ? & ? & ? & ? & A & _); eauto). destruct Ew as (w & h & Ew).
    assert (Ew2 : exists w2 h2, cget Imgsz (vec c2) = [IZR w2; IZR h2]) by (destruct Sc2 as (w2 & h2 & ? & ? & ? & ? & ? & ? & ? & ? & ? & ? & A & _); eauto). destruct Ew2 as (w2 & h2 & Ew2).
    rewrite (resize_scales_projection s force de c1 c2 _ _ _ _ W1 S1 Hi Hr Ew Ew2 dirs p), E. destruct (imgsz_size c1 w h Ew) as [A1 A2]. destruct (imgsz_size c2 w2 h2 Ew2) as [B1 B2]. rewrite <- A1, <- A2, <- B1, <- B2.
    split; [|repeat split; auto; apply W2 || apply N0 || apply S2]. destruct (xyz_to_uv c dirs p) as [[u v]|]; [|reflexivity]. cbn [option_map]. apply (f_equal (@Some _)). unfold times, ratio. cbn [fst snd]. destruct N0, N1. apply (f_equal2 pair); field; auto.
Qed.

Lemma history_keeps p q : points_history p q -> p_xyz q = p_xyz p /\ p_directions q = p_directions p /\ p_position q = p_position p.
Proof.
  induction 1 as [p|p q o H IH S]; [auto|]. destruct IH as (A & B & C). destruct o as [o|s]; cbn [points_do].
  - destruct (cam_step o (p_cam q)); [cbn|]; auto.
  - destruct s as [[[s force] de]|]; cbn [points_resize]; [destruct (resize s force de (p_cam q)); cbn [bind]; [cbn|]; auto|cbn; auto].
Qed.
(** If nothing but resizing happened, then predicted and observed coordinates, and so their differences, are those at construction scaled alike. *)
Theorem points_resize_residuals c0 uv xyz dirs p q size q' : new_points c0 uv xyz dirs = Ok p -> wf c0 -> scaled_from c0 -> points_history p q -> points_resize size q = Ok q' ->
  resized_ok c0 (p_cam q') ->
  points_observed q' = map (times (ratio (p_cam q') c0)) (points_observed p) /\
  (exists a b, points_predicted p = Ok a /\ points_predicted q' = Ok b /\ b = map (option_map (times (ratio (p_cam q') c0))) a).
Proof.
  intros E W S H R K. destruct (history_keeps p q H) as (X0 & D0 & P0).
  assert (Q : p_xyz q' = p_xyz p /\ p_directions q' = p_directions p /\ p_position q' = p_position p) by (destruct size as [[[s force] de]|]; cbn [points_resize] in R; [destruct (resize s force de (p_cam q)); cbn [bind] in R; [|discriminate]|]; injection R as <-; cbn; auto). destruct Q as (X & D & P). clear X0 D0 P0.
  destruct (resized_projection c0 (p_cam q') true (0, 0, 0) K W S) as (_ & W' & S' & N0 & N1). destruct (points_resize_ratio c0 uv xyz dirs p q size q' E N0 H R N1) as [U _].
  unfold new_points in E. destruct (length uv =? length xyz)%nat; [|discriminate]. injection E as <-. split; [exact U|]. unfold points_predicted. rewrite X, D, P. cbn [p_directions p_cam p_position p_xyz].
  assert (Id : forall a, differ a a = false) by (intros a; unfold differ; induction a as [|x a IH]; [reflexivity|]; cbn; destruct (Reqb_spec x x); [exact IH|contradiction]).
  assert (Ex : get_xyz (p_cam q') = get_xyz c0). { clear -K W S. induction K as [c N|c c1 c2 s force de K IH Hi Hr N]; [reflexivity|]. rewrite <- (IH W S). destruct (resized_projection c c1 true (0, 0, 0) K W S) as (_ & W1 & S1 & _). destruct (resize_step s force de c1 c2 W1 S1 Hi Hr) as (_ & _ & _ & F & _). apply (F Xyz). cbn. intuition congruence. }
  rewrite Ex, Id, andb_false_r. eexists; eexists; split; [reflexivity|]. split; [reflexivity|]. rewrite map_map. apply map_ext. intros x. apply (resized_projection c0 (p_cam q') dirs x K W S).
Qed.
(** Predictions from ray directions are refused after the camera has moved, and never otherwise. *)
Theorem points_predicted_moved p : points_predicted p = Err ValueError <-> p_directions p = true /\ exists i x y, nth_error (get_xyz (p_cam p)) i = Some x /\ nth_error (p_position p) i = Some y /\ x <> y.
Proof.
  assert (D : forall a b, differ a b = true <-> exists i x y, nth_error a i = Some x /\ nth_error b i = Some y /\ x <> y).
  { unfold differ. intros a. induction a as [|x a IH]; intros b.
    - split; [discriminate|]. intros (i & x & y & E & _). destruct i; discriminate.
    - destruct b as [|y b]; [split; [discriminate|intros (i & u & v & _ & E & _); destruct i; discriminate]|]. cbn [map2 existsb]. rewrite orb_true_iff, IH. split.
      + intros [N|(i & u & v & Q)]; [exists 0%nat, x, y; destruct (Reqb_spec x y); [discriminate|]; auto|exists (S i), u, v; exact Q].
      + intros ([|i] & u & v & E1 & E2 & N); [left; injection E1 as <-; injection E2 as <-; destruct (Reqb_spec x y); [contradiction|reflexivity]|right; exists i, u, v; auto]. }
  unfold points_predicted. rewrite <- D. destruct (p_directions p); cbn [andb]; [|split; [discriminate|intros [? _]; discriminate]]. destruct (differ (get_xyz (p_cam p)) (p_position p)); split; try discriminate; auto. intros [_ ?]; discriminate.
Qed.
Print Assumptions points_resize_residuals.

(** ** Lines *)
Inductive lines_history : lines -> lines -> Prop := lh_refl l : lines_history l l | lh_step l l1 s : lines_history l l1 -> lines_history l (lines_scale s l1).
(** The merged image points stay the concatenation of the image lines. *)
Theorem lines_merged uvs l l' : new_lines uvs = Ok l -> lines_history l l' -> l_uv l' = concat (l_uvs l') /\ map (@length _) (l_uvs l') = map (@length _) uvs.
Proof.
  intros E H. induction H as [l|l l1 s H IH].
  - destruct uvs; [discriminate|]. injection E as <-. auto.
  - destruct (IH E) as [A B]. unfold lines_scale. destruct (any_scale s); [|auto]. cbn [l_uv l_uvs]. rewrite A, concat_map. split; [reflexivity|]. rewrite map_map, <- B. apply map_ext. intros x. apply map_length.
Qed.
Lemma nearest_spec q l : forall best, (In (nearest q best l) (best :: l)) /\ forall x, In x (best :: l) -> sqdist q (nearest q best l) <= sqdist q x.
Proof.
  induction l as [|y l IH]; intros best; cbn [nearest]; [split; [now left|intros x [<-|[]]; lra]|].
  destruct (IH (if Rltb (sqdist q y) (sqdist q best) then y else best)) as [A B]. split.
  - destruct A as [A|A]; [|right; now right]. rewrite <- A. destruct (Rltb _ _); [right; now left|now left].
  - intros x Hx. destruct (Rltb_spec (sqdist q y) (sqdist q best)) as [L|L].
    + destruct Hx as [<-|[<-|Hx]]; [apply Rle_trans with (sqdist q y); [apply B; now left|lra]|apply B; now left|apply B; now right].
    + destruct Hx as [<-|[<-|Hx]]; [apply B; now left|apply Rle_trans with (sqdist q best); [apply B; now left|lra]|apply B; now right].
Qed.
(** Every image point is matched with a nearest projected world point; without any projected point, an error is raised. *)
Theorem lines_predicted_nearest l puv r : lines_predicted l puv = Ok r -> Forall2 (fun q p => In p puv /\ forall x, In x puv -> sqdist q p <= sqdist q x) (l_uv l) r.
Proof.
  unfold lines_predicted. destruct puv as [|p0 puv]; [discriminate|]. intros E. injection E as <-. induction (l_uv l) as [|q uv IH]; cbn [map]; constructor; [apply nearest_spec|exact IH].
Qed.
Theorem lines_predicted_none l : lines_predicted l [] = Err ValueError. Proof. reflexivity. Qed.

(** Non-vacuity: a camera of 4 x 2 pixels is doubled. *)
Example points_resize_ex : exists p q', new_points P_Camera.excam [(3, 1)] [(1, 1, 0)] false = Ok p /\ points_resize (Some ([2], false, 0)) p = Ok q' /\ points_observed q' = [(6, 2)].
Proof.
  destruct P_Camera.camera_resize_ex as (_ & _ & c' & R & I). assert (W : width c' = 8 /\ height c' = 4) by (apply (imgsz_size c' 8 4); exact I).
  assert (W0 : width P_Camera.excam = 4 /\ height P_Camera.excam = 2) by (apply (imgsz_size P_Camera.excam 4 2); reflexivity).
  assert (N : new_points P_Camera.excam [(3, 1)] [(1, 1, 0)] false = Ok (mkpoints P_Camera.excam [(3, 1)] [(1, 1, 0)] false (get_xyz P_Camera.excam) (size2 P_Camera.excam))) by reflexivity.
  assert (Q : exists q', points_resize (Some ([2], false, 0)) (mkpoints P_Camera.excam [(3, 1)] [(1, 1, 0)] false (get_xyz P_Camera.excam) (size2 P_Camera.excam)) = Ok q' /\ p_cam q' = c') by (unfold points_resize; cbn [p_cam]; rewrite R; cbn [bind]; eexists; split; reflexivity).
  destruct Q as (q' & Q & C). eexists; exists q'. split; [exact N|]. split; [exact Q|].
  destruct (points_resize_ratio _ _ _ _ _ _ _ _ N ltac:(unfold sized; lra) (ph_refl _) Q) as [O _]; [rewrite C; unfold sized; lra|]. rewrite O, C. unfold ratio. destruct W as [-> ->], W0 as [-> ->]. cbn. unfold times. cbn. repeat (f_equal; try lra).
Qed.
