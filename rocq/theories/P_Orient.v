(** Property theorems about ObserverCameras (C95): its specification (rays, total, gradients) is in OrientProofs. *)
From Coq Require Import Lia Lra.
From Verif Require Import Base BaseLemmas HelpersModel CameraModel CameraSpec CameraStateProofs CameraProofs ControlModel OrientModel OrientProofs OrientProofs2.
Open Scope R_scope.

(** [ray v xy] is the unit vector whose coordinates in a camera with view direction v are proportional to (x, y, 1). *)
Theorem orient_ray : forall v xy, let r := ray v xy in
  dot3 r r = 1 /\ 0 < dot3 (row 2 (rotation v)) r /\ dot3 (row 0 (rotation v)) r = fst xy * dot3 (row 2 (rotation v)) r /\ dot3 (row 1 (rotation v)) r = snd xy * dot3 (row 2 (rotation v)) r.
Proof.
  intros v xy. cbv zeta. pose proof (len_pos xy) as P. pose proof (to_world_dot v xy) as T.
  assert (L2 : len xy * len xy = fst xy * fst xy + snd xy * snd xy + 1) by (unfold len; apply sqrt_sqrt; nra).
  assert (S : forall a t b, dot3 a (scale3 t b) = t * dot3 a b) by (intros [[? ?] ?] t [[? ?] ?]; cbn; ring).
  assert (S' : forall a t b, dot3 (scale3 t a) b = t * dot3 a b) by (intros [[? ?] ?] t [[? ?] ?]; cbn; ring).
  assert (AD : forall a b c, dot3 a (add3 b c) = dot3 a b + dot3 a c) by (intros [[? ?] ?] [[? ?] ?] [[? ?] ?]; cbn; ring).
  assert (Q : forall i, (i < 3)%nat -> dot3 (row i (rotation v)) (ray v xy) = / len xy * (fst xy * (if (i =? 0)%nat then 1 else 0) + snd xy * (if (i =? 1)%nat then 1 else 0) + (if (i =? 2)%nat then 1 else 0))).
  { intros i I. unfold ray, to_world. rewrite S, !AD, !S. rewrite !(rotation_orthonormal v i) by lia. reflexivity. }
  split. { unfold ray. rewrite S, S', T, <- L2. field. lra. }
  rewrite !Q by lia. cbn [Nat.eqb]. pose proof (Rinv_0_lt_compat _ P). split; [|split]; lra.
Qed.
Print Assumptions orient_ray.

(** Evaluating the objective sets the view directions of the cameras, and nothing else, and returns the sum of the penalty for moving the anchors and the absolute differences between the rays of matched points, and [returned_gradient]. *)
Theorem orient_objective : forall w s vs, consistent s -> length vs = length (oc_cams s) ->
  exists s' g, objective w s vs = (s', Ok (total w (oc_viewdirs s) (oc_anchors s) (oc_matches s) vs, g))
    /\ map viewdir3 (oc_cams s') = vs /\ reoriented (oc_cams s) (oc_cams s') /\ oc_viewdirs s' = oc_viewdirs s /\ oc_anchors s' = oc_anchors s /\ oc_matches s' = oc_matches s
    /\ length g = length vs /\ forall c k, (c < length vs)%nat -> (k < 3)%nat -> comp k (nth c g zero3) = returned_gradient w (oc_viewdirs s) (oc_anchors s) (oc_matches s) vs c k.
Proof.
  intros w s vs C L. destruct (objective_eq w s vs C L) as (g & E & LG & H). eexists _, g. split; [exact E|]. destruct C as (W & _). cbn [with_cams oc_cams oc_viewdirs oc_anchors oc_matches]. split; [|split; [|repeat split]].
  - clear - W L. revert vs L. induction W as [|c cs Wc W IH]; intros [|v vs] L; try discriminate; [reflexivity|]. cbn [map2 map]. rewrite (with_viewdir_view c v Wc). f_equal. apply IH. cbn in L. lia.
  - pose proof (set_each_reoriented (oc_cams s) W vs) as R. rewrite (set_each_eq _ _ L) in R. exact R.
  - lia.
  - intros c k Hc Hk. apply H; lia.
Qed.
Print Assumptions orient_objective.
(** An object made without anchors keeps the first image at its view direction; with anchors, those images. *)
Theorem orient_anchors : forall w cs ms anchors vs, consistent (new_ocams cs ms anchors) -> length vs = length cs ->
  exists s' g, objective w (new_ocams cs ms anchors) vs = (s', Ok (sumR (map (fun i => w / 2 * dist2 (view vs i) (view (map viewdir3 cs) i)) (match anchors with Some a => a | None => [0%nat] end)) + sumR (map (mismatch vs) ms), g)).
Proof.
  intros w cs ms anchors vs C L. destruct (orient_objective w _ vs C L) as (s' & g & E & _). exists s', g. rewrite E. destruct anchors; reflexivity.
Qed.
Print Assumptions orient_anchors.

(** It is never negative, and zero exactly if the anchors have their original directions and the rays of all matched points agree. *)
Lemma sum_nonneg {A} (f : A -> R) l : (forall x, In x l -> 0 <= f x) -> 0 <= sumR (map f l).
Proof. induction l as [|x l IH]; intros H; cbn [map sumR fold_right]; [lra|]. pose proof (H x (or_introl eq_refl)). pose proof (IH (fun y Hy => H y (or_intror Hy))). unfold sumR in *. lra. Qed.
Lemma sum_nonneg_zero {A} (f : A -> R) l : (forall x, In x l -> 0 <= f x) -> (sumR (map f l) = 0 <-> forall x, In x l -> f x = 0).
Proof.
  induction l as [|x l IH]; intros H; cbn [map sumR fold_right]; [split; [intros _ y []|reflexivity]|].
  pose proof (H x (or_introl eq_refl)) as H0. pose proof (sum_nonneg f l (fun y Hy => H y (or_intror Hy))) as H1. specialize (IH (fun y Hy => H y (or_intror Hy))). unfold sumR in *. split.
  - intros E y [<-|Hy]; [lra|]. apply IH; [lra|exact Hy].
  - intros E. pose proof (proj2 IH (fun y Hy => E y (or_intror Hy))). pose proof (E x (or_introl eq_refl)). lra.
Qed.
Lemma l1_nonneg d : 0 <= l1 d. Proof. unfold l1. pose proof (Rabs_pos (comp 0 d)). pose proof (Rabs_pos (comp 1 d)). pose proof (Rabs_pos (comp 2 d)). lra. Qed.
Lemma l1_zero a b : l1 (sub3 a b) = 0 <-> a = b.
Proof.
  split; [|intros ->; destruct b as [[? ?] ?]; unfold l1, sub3; cbn; rewrite !Rminus_diag_eq, Rabs_R0 by reflexivity; ring]. intros E. unfold l1 in E. rewrite !comp_sub3 in E.
  apply vec3_ext. intros k K. pose proof (Rabs_pos (comp 0 a - comp 0 b)). pose proof (Rabs_pos (comp 1 a - comp 1 b)). pose proof (Rabs_pos (comp 2 a - comp 2 b)).
  assert (Z : forall x, Rabs x = 0 -> x = 0) by (intros x Hx; destruct (Req_dec x 0) as [|Q]; [assumption|apply Rabs_no_R0 in Q; contradiction]).
  destruct k as [|[|[|]]]; try lia; apply Rminus_diag_uniq, Z; lra.
Qed.
Lemma dist2_nonneg a b : 0 <= dist2 a b. Proof. unfold dist2. pose proof (pow2_ge_0 (comp 0 a - comp 0 b)). pose proof (pow2_ge_0 (comp 1 a - comp 1 b)). pose proof (pow2_ge_0 (comp 2 a - comp 2 b)). lra. Qed.
Lemma dist2_zero a b : dist2 a b = 0 <-> a = b.
Proof.
  split; [|intros ->; unfold dist2; ring]. intros E. unfold dist2 in E. apply vec3_ext. intros k K.
  pose proof (pow2_ge_0 (comp 0 a - comp 0 b)). pose proof (pow2_ge_0 (comp 1 a - comp 1 b)). pose proof (pow2_ge_0 (comp 2 a - comp 2 b)).
  assert (Z : forall x, x ^ 2 = 0 -> x = 0) by (intros x Hx; apply Rsqr_0_uniq; rewrite Rsqr_pow2; exact Hx).
  destruct k as [|[|[|]]]; try lia; apply Rminus_diag_uniq, Z; lra.
Qed.
Theorem orient_minimum : forall w vs0 anchors ms vs, 0 < w ->
  0 <= total w vs0 anchors ms vs /\
  (total w vs0 anchors ms vs = 0 <-> (forall i, In i anchors -> view vs i = view vs0 i) /\ forall m p q, In m ms -> In (p, q) (pairs m) -> ray (view vs (mx_i m)) p = ray (view vs (mx_j m)) q).
Proof.
  intros w vs0 anchors ms vs Hw. unfold total.
  assert (A : forall i, In i anchors -> 0 <= w / 2 * dist2 (view vs i) (view vs0 i)) by (intros i _; pose proof (dist2_nonneg (view vs i) (view vs0 i)); nra).
  assert (B : forall m, In m ms -> 0 <= mismatch vs m) by (intros m _; apply sum_nonneg; intros pq _; apply l1_nonneg).
  pose proof (sum_nonneg _ _ A) as A0. pose proof (sum_nonneg _ _ B) as B0. split; [lra|]. split.
  - intros E. split.
    + intros i I. assert (E1 : sumR (map (fun i => w / 2 * dist2 (view vs i) (view vs0 i)) anchors) = 0) by lra. pose proof (proj1 (sum_nonneg_zero _ _ A) E1 i I) as Z. apply dist2_zero. nra.
    + intros m p q M P. assert (E2 : sumR (map (mismatch vs) ms) = 0) by lra. pose proof (proj1 (sum_nonneg_zero _ _ B) E2 m M) as Z. unfold mismatch in Z. pose proof (proj1 (sum_nonneg_zero _ _ (fun pq _ => l1_nonneg (gap vs m pq))) Z (p, q) P) as Y. unfold gap in Y. cbn [fst snd] in Y. apply l1_zero. exact Y.
  - intros [E1 E2]. rewrite (proj2 (sum_nonneg_zero _ _ A)), (proj2 (sum_nonneg_zero _ _ B)); [lra| |].
    + intros m M. unfold mismatch. apply (sum_nonneg_zero _ _ (fun pq _ => l1_nonneg (gap vs m pq))). intros [p q] P. unfold gap. cbn [fst snd]. apply l1_zero. exact (E2 m p q M P).
    + intros i I. rewrite (proj2 (dist2_zero (view vs i) (view vs0 i)) (E1 i I)). ring.
Qed.
Print Assumptions orient_minimum.

(** Where it is differentiable, its derivative by angle k of image c is [true_gradient], which differs from what is returned. *)
Theorem orient_derivative : forall w vs0 anchors ms vs c k, Forall (fun i => (i < length vs)%nat) anchors -> (k < 3)%nat ->
  Forall (fun m => (mx_i m < length vs)%nat /\ (mx_j m < length vs)%nat /\ mx_i m <> mx_j m /\ (c = mx_i m \/ c = mx_j m -> forall pq e, In pq (pairs m) -> (e < 3)%nat -> comp e (gap vs m pq) <> 0)) ms ->
  derivable_pt_lim (fun t => total w vs0 anchors ms (turned vs c k t)) (comp k (view vs c)) (true_gradient w vs0 anchors ms vs c k).
Proof. exact d_total. Qed.
Print Assumptions orient_derivative.
(** The gradient returned for images without matches is right. *)
Theorem orient_gradient_anchors : forall w vs0 anchors ms vs c k, Forall (fun i => (i < length vs)%nat) anchors -> (k < 3)%nat ->
  Forall (fun m => (mx_i m < length vs)%nat /\ (mx_j m < length vs)%nat /\ mx_i m <> mx_j m /\ c <> mx_i m /\ c <> mx_j m) ms ->
  derivable_pt_lim (fun t => total w vs0 anchors ms (turned vs c k t)) (comp k (view vs c)) (returned_gradient w vs0 anchors ms vs c k).
Proof.
  intros w vs0 anchors ms vs c k FA K FM. replace (returned_gradient w vs0 anchors ms vs c k) with (true_gradient w vs0 anchors ms vs c k).
  - apply d_total; [exact FA|exact K|]. eapply Forall_impl; [|exact FM]. cbv beta. intros m (I & J & N & C1 & C2). repeat split; [exact I|exact J|exact N|]. intros [C|C]; contradiction.
  - unfold true_gradient, returned_gradient. f_equal. apply (f_equal sumR). apply map_ext_in. intros m IN. destruct (proj1 (Forall_forall _ _) FM m IN) as (_ & _ & _ & C1 & C2). destruct (Nat.eqb_spec (mx_i m) c); [congruence|]. destruct (Nat.eqb_spec (mx_j m) c); [congruence|]. reflexivity.
Qed.
Print Assumptions orient_gradient_anchors.

(** ** Fitting *)
(** an optimiser that evaluates only lists of n view directions, and does not raise *)
Inductive proper (n : nat) : optimizer -> Prop :=
  | proper_done x : proper n (Done x)
  | proper_eval x next : length x = n -> (forall v, proper n (next v)) -> proper n (Evaluate x next).
Lemma objective_reoriented w s vs cs : Forall wf cs -> reoriented cs (oc_cams s) ->
  reoriented cs (oc_cams (fst (objective w s vs))) /\ oc_viewdirs (fst (objective w s vs)) = oc_viewdirs s /\ oc_anchors (fst (objective w s vs)) = oc_anchors s /\ oc_matches (fst (objective w s vs)) = oc_matches s.
Proof.
  intros W R. unfold objective, set_cameras. pose proof (set_each_reoriented (oc_cams s) (reoriented_wf _ _ W R) vs) as Q. destruct (set_each (oc_cams s) vs) as [cs' e]. cbn [fst] in *. repeat split. exact (reoriented_trans cs _ _ W R Q).
Qed.
Lemma run_reoriented w cs o : Forall wf cs -> forall s, reoriented cs (oc_cams s) ->
  let s' := fst (run w s o) in reoriented cs (oc_cams s') /\ oc_viewdirs s' = oc_viewdirs s /\ oc_anchors s' = oc_anchors s /\ oc_matches s' = oc_matches s.
Proof.
  intros W. induction o as [x|e|x next IH]; intros s R; cbv zeta; cbn [run]; [repeat split; exact R|repeat split; exact R|].
  pose proof (objective_reoriented w s x cs W R) as (R1 & E1 & E2 & E3). destruct (objective w s x) as [s1 [v|e]]; cbn [fst] in *; [|repeat split; assumption].
  specialize (IH v s1 R1). cbv zeta in IH. rewrite E1, E2, E3 in IH. exact IH.
Qed.
(** Whatever the optimiser evaluates, a fit that returns leaves the cameras as they were when the object was made, even if view directions were set in between. *)
Theorem orient_fit_restores : forall w cs ms anchors s minimize s' x, Forall wf cs -> reoriented cs (oc_cams s) -> s = with_cams (new_ocams cs ms anchors) (oc_cams s) ->
  fit w s minimize = (s', Ok x) -> s' = new_ocams cs ms anchors.
Proof.
  intros w cs ms anchors s minimize s' x W R Es E. unfold fit in E. pose proof (run_reoriented w cs (minimize (map viewdir3 (oc_cams s))) W s R) as Q. cbv zeta in Q.
  destruct (run w s (minimize (map viewdir3 (oc_cams s)))) as [s1 [y|e]]; cbn [fst] in Q; [|discriminate]. destruct Q as (R1 & E1 & E2 & E3).
  assert (V : oc_viewdirs s = map viewdir3 cs /\ oc_anchors s = oc_anchors (new_ocams cs ms anchors) /\ oc_matches s = ms) by (rewrite Es; repeat split). destruct V as (V1 & V2 & V3).
  unfold reset_cameras, set_cameras in E. rewrite E1, V1 in E. rewrite (set_each_restores cs (oc_cams s1) W R1) in E. cbn [bind] in E. injection E as <- _. unfold with_cams. rewrite E1, E2, E3, V1, V2, V3. reflexivity.
Qed.
Print Assumptions orient_fit_restores.
(** With consistent matches and an optimiser that evaluates lists of as many directions as there are images, it returns. *)
Lemma match_ok_reoriented cs cs' m : Forall wf cs -> reoriented cs cs' -> match_ok cs m -> match_ok cs' m.
Proof.
  intros W R (ci & cj & Ei & Ej & P & I & L).
  assert (F : forall i c, nth_error cs i = Some c -> exists v, nth_error cs' i = Some (with_viewdir c v)). { clear - R. induction R as [|c c' cs cs' (v & ->) R IH]; intros [|i] d H; try discriminate; [injection H as ->; exists v; reflexivity|]. exact (IH i d H). }
  destruct (F _ _ Ei) as (vi & Fi). destruct (F _ _ Ej) as (vj & Fj).
  assert (Wi : wf ci) by exact (proj1 (Forall_forall _ _) W ci (nth_error_In _ _ Ei)). assert (Wj : wf cj) by exact (proj1 (Forall_forall _ _) W cj (nth_error_In _ _ Ej)).
  exists (with_viewdir ci vi), (with_viewdir cj vj). rewrite !with_viewdir_xyz, !with_viewdir_internals by assumption. auto.
Qed.
Lemma reoriented_length cs cs' : reoriented cs cs' -> length cs' = length cs. Proof. intros R. induction R; cbn; lia. Qed.
Lemma consistent_next w s vs : consistent s -> consistent (fst (objective w s vs)).
Proof.
  intros (W & L & FA & FM). destruct (objective_reoriented w s vs (oc_cams s) W (reoriented_refl _ W)) as (R & E1 & E2 & E3). pose proof (reoriented_length _ _ R) as LR.
  unfold consistent. rewrite E1, E2, E3, LR. split; [exact (reoriented_wf _ _ W R)|]. split; [exact L|]. split; [exact FA|]. eapply Forall_impl; [|exact FM]. intros m M. exact (match_ok_reoriented _ _ m W R M).
Qed.
Theorem orient_fit_returns : forall w s minimize, consistent s -> (forall x0, length x0 = length (oc_cams s) -> proper (length (oc_cams s)) (minimize x0)) -> exists s' x, fit w s minimize = (s', Ok x).
Proof.
  intros w s minimize C P. unfold fit. specialize (P (map viewdir3 (oc_cams s)) (map_length _ _)).
  assert (G : forall n o, proper n o -> forall s, consistent s -> length (oc_cams s) = n -> exists s' x, run w s o = (s', Ok x) /\ consistent s').
  { clear. intros n o Po. induction Po as [x|x next Lx Pn IH]; intros s C Ln; cbn [run]; [exists s, x; auto|].
    destruct (objective_eq w s x C ltac:(lia)) as (g & E & _). pose proof (consistent_next w s x C) as C'. pose proof (objective_reoriented w s x (oc_cams s) (proj1 C) (reoriented_refl _ (proj1 C))) as (R & _).
    rewrite E in *. cbn [fst] in *. apply (IH _ _ C'). rewrite (reoriented_length _ _ R). exact Ln. }
  destruct (G _ _ P s C eq_refl) as (s1 & x & E & (W1 & L1 & _)). rewrite E. unfold reset_cameras, set_cameras. rewrite (set_each_eq _ _ L1). cbn [bind]. eexists _, _. reflexivity.
Qed.
Print Assumptions orient_fit_returns.
(** Finding: if the optimiser is interrupted or raises, the cameras keep the directions evaluated last. *)
Theorem orient_fit_interrupted_refuted : forall w s vs e, consistent s -> length vs = length (oc_cams s) ->
  exists s', fit w s (fun _ => Evaluate vs (fun _ => Raise e)) = (s', Err e) /\ map viewdir3 (oc_cams s') = vs.
Proof.
  intros w s vs e C L. destruct (orient_objective w s vs C L) as (s' & g & E & V & _). exists s'. unfold fit. cbn [run]. rewrite E. auto.
Qed.
Print Assumptions orient_fit_interrupted_refuted.

(** ** Examples *)
Definition ocam : cam := mkcam [0;0;0; 0;0;0; 100;100; 100;100; 0;0; 0;0;0;0;0;0; 0;0] [0;0;0; 0;0;0; 100;100; 100;100; 0;0; 0;0;0;0;0;0; 0;0] None None.
Definition omatch : mxyz := mkmxyz 0 1 ([(1, 1)], [(0, 0)]) (internals ocam, internals ocam).
Definition obs : ocams := new_ocams [ocam; ocam] [omatch] None.
Example obs_consistent : consistent obs.
Proof. split; [repeat constructor|]. split; [reflexivity|]. split; [repeat constructor|]. constructor; [|constructor]. exists ocam, ocam. repeat split. Qed.
Lemma rot0 : rotation (0, 0, 0) = ((1, 0, 0), (0, 0, -1), (0, 1, 0)).
Proof. unfold rotation, deg2rad. rewrite Rmult_0_l, sin_0, cos_0. repeat (apply (f_equal2 pair)); ring. Qed.
Lemma gap0 : gap [zero3; zero3] omatch ((1, 1), (0, 0)) = (/ sqrt 3, / sqrt 3 - 1, - / sqrt 3).
Proof.
  unfold gap, view, omatch, ray, to_world, len. cbn [mx_i mx_j nth fst snd]. unfold zero3. rewrite rot0. cbn [row scale3 add3 sub3]. replace (1 * 1 + 1 * 1 + 1) with 3 by ring. replace (0 * 0 + 0 * 0 + 1) with 1 by ring. rewrite sqrt_1, Rinv_1. repeat (apply (f_equal2 pair)); ring.
Qed.
Lemma sqrt3 : 1 < sqrt 3. Proof. rewrite <- sqrt_1 at 1. apply sqrt_lt_1; lra. Qed.
Lemma sign_pos x : 0 < x -> sign x = 1. Proof. intros H. unfold sign. destruct (Rltb_spec 0 x); [reflexivity|lra]. Qed.
Lemma sign_neg x : x < 0 -> sign x = -1. Proof. intros H. unfold sign. destruct (Rltb_spec 0 x); [lra|]. destruct (Rltb_spec x 0); [reflexivity|lra]. Qed.
(** Finding: the gradient returned is not the gradient of the objective.  Two cameras that look north and one match, seen at (1, 1) by the first and (0, 0) by the second: the derivatives by yaw are PI / 90 / sqrt 3 and - PI / 180; PI / 90 and - PI / 90 are returned. *)
Theorem orient_gradient_refuted : exists g, snd (objective 1 obs [zero3; zero3]) = Ok (total 1 (oc_viewdirs obs) (oc_anchors obs) (oc_matches obs) [zero3; zero3], g) /\
  comp 0 (nth 0 g zero3) = PI / 90 /\ comp 0 (nth 1 g zero3) = - (PI / 90) /\
  derivable_pt_lim (fun t => total 1 (oc_viewdirs obs) (oc_anchors obs) (oc_matches obs) [(t, 0, 0); zero3]) 0 (PI / 90 / sqrt 3) /\
  derivable_pt_lim (fun t => total 1 (oc_viewdirs obs) (oc_anchors obs) (oc_matches obs) [zero3; (t, 0, 0)]) 0 (- (PI / 180)).
Proof.
  destruct (objective_eq 1 obs [zero3; zero3] obs_consistent eq_refl) as (g & E & L & H). exists g. rewrite E. cbn [snd]. split; [reflexivity|].
  pose proof sqrt3 as S3. pose proof (Rinv_0_lt_compat (sqrt 3) ltac:(lra)) as I3. assert (I1 : / sqrt 3 < 1) by (rewrite <- Rinv_1; apply Rinv_lt_contravar; lra).
  rewrite (H 0%nat 0%nat), (H 1%nat 0%nat) by (cbn; lia).
  assert (RP : forall e, rprime zero3 e 0 0 = (if (e =? 1)%nat then -1 else 0) * (PI / 180) /\ rprime zero3 e 0 1 = 0 /\ rprime zero3 e 0 2 = (if (e =? 0)%nat then 1 else 0) * (PI / 180)).
  { intros e. unfold rprime, zero3, rprime_literal, entry, deg2rad. rewrite Rmult_0_l, sin_0, cos_0. destruct e as [|[|e]]; cbn [row comp Nat.eqb]; repeat split; ring. }
  assert (AL1 : along zero3 (1, 1) (/ sqrt 3, / sqrt 3 - 1, - / sqrt 3) 0 = PI / 90).
  { unfold along, turn. cbn [fst snd comp]. rewrite (sign_pos (/ sqrt 3) I3), (sign_neg (/ sqrt 3 - 1)), (sign_neg (- / sqrt 3)) by lra. destruct (RP 0%nat) as (-> & -> & ->), (RP 1%nat) as (-> & -> & ->), (RP 2%nat) as (-> & -> & ->). cbn [Nat.eqb]. field. }
  assert (AL2 : along zero3 (0, 0) (/ sqrt 3, / sqrt 3 - 1, - / sqrt 3) 0 = PI / 180).
  { unfold along, turn. cbn [fst snd comp]. rewrite (sign_pos (/ sqrt 3) I3), (sign_neg (/ sqrt 3 - 1)), (sign_neg (- / sqrt 3)) by lra. destruct (RP 0%nat) as (-> & -> & ->), (RP 1%nat) as (-> & -> & ->), (RP 2%nat) as (-> & -> & ->). cbn [Nat.eqb]. field. }
  assert (VD : oc_viewdirs obs = [zero3; zero3]) by reflexivity.
  assert (AP : forall c, anchor_part 1 (oc_viewdirs obs) (oc_anchors obs) [zero3; zero3] c 0 = 0). { intros c. rewrite VD. unfold anchor_part, obs, new_ocams. cbn [oc_anchors map sumR fold_right view nth]. destruct (0 =? c)%nat; unfold zero3, comp; ring. }
  assert (PA : pairs omatch = [((1, 1), (0, 0))]) by reflexivity. assert (VW : forall i, view [zero3; zero3] i = zero3) by (intros [|[|[|i]]]; reflexivity).
  assert (SM : Forall (fun m => (mx_i m < 2)%nat /\ (mx_j m < 2)%nat /\ mx_i m <> mx_j m /\ smooth_at [zero3; zero3] m) (oc_matches obs)).
  { constructor; [|constructor]. repeat split; [cbn; lia|cbn; lia|cbn; lia|]. intros pq e IN He. rewrite PA in IN. destruct IN as [<-|[]]. rewrite gap0. destruct e as [|[|[|]]]; try lia; cbn [comp]; lra. }
  split; [|split; [|split]].
  - unfold returned_gradient. rewrite AP. cbn [obs new_ocams oc_matches map sumR fold_right]. rewrite PA. change (mx_i omatch) with 0%nat; change (mx_j omatch) with 1%nat; cbn [map sumR fold_right fst snd Nat.eqb]. rewrite gap0, VW, AL1. ring.
  - unfold returned_gradient. rewrite AP. cbn [obs new_ocams oc_matches map sumR fold_right]. rewrite PA. change (mx_i omatch) with 0%nat; change (mx_j omatch) with 1%nat; cbn [map sumR fold_right fst snd Nat.eqb]. rewrite gap0, VW, AL1. ring.
  - pose proof (d_total 1 (oc_viewdirs obs) (oc_anchors obs) (oc_matches obs) [zero3; zero3] 0 0 ltac:(repeat constructor) ltac:(lia)) as D. cbn [length] in D.
    apply (d_eq _ _ (true_gradient 1 (oc_viewdirs obs) (oc_anchors obs) (oc_matches obs) [zero3; zero3] 0 0)).
    { unfold true_gradient. rewrite AP. cbn [obs new_ocams oc_matches map sumR fold_right]. rewrite PA. change (mx_i omatch) with 0%nat; change (mx_j omatch) with 1%nat; cbn [map sumR fold_right fst snd Nat.eqb]. rewrite gap0, VW, AL1. unfold len. cbn [fst snd]. replace (1 * 1 + 1 * 1 + 1) with 3 by ring. ring. }
    refine (D _). eapply Forall_impl; [|exact SM]. cbv beta. intros m (A & B & C & F). auto.
  - pose proof (d_total 1 (oc_viewdirs obs) (oc_anchors obs) (oc_matches obs) [zero3; zero3] 1 0 ltac:(repeat constructor) ltac:(lia)) as D. cbn [length] in D.
    apply (d_eq _ _ (true_gradient 1 (oc_viewdirs obs) (oc_anchors obs) (oc_matches obs) [zero3; zero3] 1 0)).
    { unfold true_gradient. rewrite AP. cbn [obs new_ocams oc_matches map sumR fold_right]. rewrite PA. change (mx_i omatch) with 0%nat; change (mx_j omatch) with 1%nat; cbn [map sumR fold_right fst snd Nat.eqb]. rewrite gap0, VW, AL2. unfold len. cbn [fst snd]. replace (0 * 0 + 0 * 0 + 1) with 1 by ring. rewrite sqrt_1. field. }
    refine (D _). eapply Forall_impl; [|exact SM]. cbv beta. intros m (A & B & C & F). auto.
Qed.
Print Assumptions orient_gradient_refuted.
