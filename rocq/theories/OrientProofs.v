(** Proofs about ObserverCameras. *)
From Coq Require Import Lia Lra.
From Verif Require Import Base BaseLemmas HelpersModel CameraModel CameraSpec CameraStateProofs CameraProofs ControlModel OrientModel.
Open Scope R_scope.

(** ** Setting view directions *)
Definition with_viewdir (c : cam) (v : vec3) : cam := let '(a, b, g) := v in mkcam (splice 3 [a; b; g] (vec c)) (orig c) (sensorsz c) (correction c).
Lemma set_viewdir_eq a b g c : set_viewdir [a; b; g] c = Ok (with_viewdir c (a, b, g)).
Proof. unfold set_viewdir. rewrite fmt_pad by lia. reflexivity. Qed.
Lemma vec_split c : wf c -> exists a b d e f g r, vec c = a :: b :: d :: e :: f :: g :: r.
Proof. intros [H _]. destruct (vec c) as [|a [|b [|d [|e [|f [|g r]]]]]]; try discriminate. now exists a, b, d, e, f, g, r. Qed.
Lemma with_viewdir_view c v : wf c -> viewdir3 (with_viewdir c v) = v.
Proof. intros W. destruct (vec_split c W) as (a & b & d & e & f & g & r & E). destruct v as [[x y] z]. unfold viewdir3, get_viewdir, with_viewdir, splice. cbn [vec]. rewrite E. reflexivity. Qed.
Lemma with_viewdir_xyz c v : wf c -> get_xyz (with_viewdir c v) = get_xyz c.
Proof. intros W. destruct (vec_split c W) as (a & b & d & e & f & g & r & E). destruct v as [[x y] z]. unfold get_xyz, with_viewdir, splice. cbn [vec]. rewrite E. reflexivity. Qed.
Lemma with_viewdir_internals c v : wf c -> internals (with_viewdir c v) = internals c.
Proof. intros W. destruct (vec_split c W) as (a & b & d & e & f & g & r & E). destruct v as [[x y] z]. unfold internals, with_viewdir, splice. cbn [vec]. rewrite E. reflexivity. Qed.
Lemma with_viewdir_wf c v : wf c -> wf (with_viewdir c v).
Proof. intros W. destruct (vec_split c W) as (a & b & d & e & f & g & r & E). destruct v as [[x y] z], W as [W1 W2]. split; [|exact W2]. unfold with_viewdir, splice. cbn [vec]. rewrite E in *. cbn [firstn skipn app length Nat.add] in *. lia. Qed.
Lemma with_viewdir_twice c v v' : wf c -> with_viewdir (with_viewdir c v) v' = with_viewdir c v'.
Proof. intros W. destruct (vec_split c W) as (a & b & d & e & f & g & r & E). destruct v as [[x y] z], v' as [[x' y'] z']. unfold with_viewdir, splice. cbn [vec orig sensorsz correction]. rewrite E. reflexivity. Qed.
Lemma with_viewdir_same c : wf c -> with_viewdir c (viewdir3 c) = c.
Proof. intros W. destruct (vec_split c W) as (a & b & d & e & f & g & r & E). unfold with_viewdir, viewdir3, get_viewdir, splice. rewrite E. cbn. rewrite <- E. destruct c. reflexivity. Qed.

(** cameras that differ at most in their view directions *)
Definition reoriented (cs cs' : list cam) : Prop := Forall2 (fun c c' => exists v, c' = with_viewdir c v) cs cs'.
Lemma reoriented_refl cs : Forall wf cs -> reoriented cs cs.
Proof. intros W. induction W as [|c cs Wc W IH]; constructor; [|exact IH]. exists (viewdir3 c). symmetry. exact (with_viewdir_same c Wc). Qed.
Lemma reoriented_wf cs cs' : Forall wf cs -> reoriented cs cs' -> Forall wf cs'.
Proof. intros W R. induction R as [|c c' cs cs' (v & ->) R IH]; [constructor|]. inversion W; subst. constructor; [now apply with_viewdir_wf|now apply IH]. Qed.
Lemma reoriented_trans cs cs' cs'' : Forall wf cs -> reoriented cs cs' -> reoriented cs' cs'' -> reoriented cs cs''.
Proof.
  intros W R. revert cs''. induction R as [|c c' cs cs' (v & ->) R IH]; intros cs'' Q; inversion Q; subst; [constructor|]. inversion W; subst. match goal with H : exists _, _ |- _ => destruct H as (v' & ->) end.
  constructor; [exists v'; now apply with_viewdir_twice|]. apply IH; assumption.
Qed.
Lemma set_each_eq cs : forall vs, length vs = length cs -> set_each cs vs = (map2 with_viewdir cs vs, Ok tt).
Proof.
  induction cs as [|c cs IH]; intros [|v vs] H; try discriminate; [reflexivity|]. destruct v as [[a b] g]. cbn [set_each map2]. rewrite set_viewdir_eq. cbn [length] in H. rewrite (IH vs) by lia. reflexivity.
Qed.
Lemma set_each_reoriented cs : Forall wf cs -> forall vs, reoriented cs (fst (set_each cs vs)).
Proof.
  intros W. induction W as [|c cs Wc W IH]; intros vs; [constructor|]. destruct vs as [|[[a b] g] vs]; cbn [set_each]; [exact (reoriented_refl (c :: cs) (Forall_cons c Wc W))|].
  rewrite set_viewdir_eq. specialize (IH vs). destruct (set_each cs vs) as [cs' e]. cbn [fst] in *. constructor; [now eexists|exact IH].
Qed.
Lemma set_each_restores cs cs' : Forall wf cs -> reoriented cs cs' -> set_each cs' (map viewdir3 cs) = (cs, Ok tt).
Proof.
  intros W R. induction R as [|c c' cs cs' (v & ->) R IH]; [reflexivity|]. inversion W as [|? ? Wc W']; subst. cbn [map]. destruct (viewdir3 c) as [[a b] g] eqn:Ev. cbn [set_each]. rewrite set_viewdir_eq, (IH W'), (with_viewdir_twice c v _ Wc), <- Ev, (with_viewdir_same c Wc). reflexivity.
Qed.

(** ** Accumulators *)
Lemma upd_length {A} n f (l : list A) : length (upd n f l) = length l.
Proof. revert n. induction l as [|x l IH]; intros [|n]; cbn; try reflexivity. now rewrite IH. Qed.
Lemma nth_upd {A} n f (l : list A) c d : (c < length l)%nat -> nth c (upd n f l) d = if (n =? c)%nat then f (nth c l d) else nth c l d.
Proof. revert n c. induction l as [|x l IH]; intros [|n] [|c] H; cbn in *; try lia; try reflexivity. apply IH. lia. Qed.
Lemma at_nth {A} (l : list A) i d : (i < length l)%nat -> at_ l i = Ok (nth i l d).
Proof. intros H. unfold at_. rewrite (nth_error_nth' l d H). reflexivity. Qed.
Lemma comp_add3 k a b : comp k (add3 a b) = comp k a + comp k b. Proof. destruct a as [[? ?] ?], b as [[? ?] ?]. destruct k as [|[|k]]; reflexivity. Qed.
Lemma comp_sub3 k a b : comp k (sub3 a b) = comp k a - comp k b. Proof. destruct a as [[? ?] ?], b as [[? ?] ?]. destruct k as [|[|k]]; reflexivity. Qed.
Lemma comp_scale3 k t a : comp k (scale3 t a) = t * comp k a. Proof. destruct a as [[? ?] ?]. destruct k as [|[|k]]; reflexivity. Qed.
Lemma vec3_ext a b : (forall k, (k < 3)%nat -> comp k a = comp k b) -> a = b.
Proof. intros H. destruct a as [[a0 a1] a2], b as [[b0 b1] b2]. pose proof (H 0%nat ltac:(lia)) as H0. pose proof (H 1%nat ltac:(lia)) as H1. pose proof (H 2%nat ltac:(lia)) as H2. cbn in H0, H1, H2. congruence. Qed.

(** ** The specification *)
Definition zero3 : vec3 := (0, 0, 0).
(** the length of (x, y, 1), and the unit vector, in the world, along camera coordinates (x, y, 1) *)
Definition len (xy : vec2) : R := sqrt (fst xy * fst xy + snd xy * snd xy + 1).
Definition to_world (v : vec3) (xy : vec2) : vec3 := add3 (add3 (scale3 (fst xy) (row 0 (rotation v))) (scale3 (snd xy) (row 1 (rotation v)))) (row 2 (rotation v)).
Definition ray (v : vec3) (xy : vec2) : vec3 := scale3 (/ len xy) (to_world v xy).
Definition l1 (d : vec3) : R := Rabs (comp 0 d) + Rabs (comp 1 d) + Rabs (comp 2 d).
Definition dist2 (a b : vec3) : R := (comp 0 a - comp 0 b) ^ 2 + (comp 1 a - comp 1 b) ^ 2 + (comp 2 a - comp 2 b) ^ 2.
Definition view (vs : list vec3) (i : nat) : vec3 := nth i vs zero3.
Definition pairs (m : mxyz) : list (vec2 * vec2) := combine (fst (mx_xys m)) (snd (mx_xys m)).
Definition gap (vs : list vec3) (m : mxyz) (pq : vec2 * vec2) : vec3 := sub3 (ray (view vs (mx_i m)) (fst pq)) (ray (view vs (mx_j m)) (snd pq)).
Definition mismatch (vs : list vec3) (m : mxyz) : R := sumR (map (fun pq => l1 (gap vs m pq)) (pairs m)).
(** what is minimised *)
Definition total (w : R) (vs0 : list vec3) (anchors : list nat) (ms : list mxyz) (vs : list vec3) : R :=
  sumR (map (fun i => w / 2 * dist2 (view vs i) (view vs0 i)) anchors) + sumR (map (mismatch vs) ms).

(** the derivative of world axis e of to_world by angle k: camera_rprime_is_derivative *)
Definition turn (v : vec3) (xy : vec2) (e k : nat) : R := rprime v e k 0 * fst xy + rprime v e k 1 * snd xy + rprime v e k 2.
Definition along (v : vec3) (xy : vec2) (d : vec3) (k : nat) : R := turn v xy 0 k * sign (comp 0 d) + turn v xy 1 k * sign (comp 1 d) + turn v xy 2 k * sign (comp 2 d).
Definition anchor_part (w : R) (vs0 : list vec3) (anchors : list nat) (vs : list vec3) (c k : nat) : R :=
  sumR (map (fun i => if (i =? c)%nat then w * (comp k (view vs i) - comp k (view vs0 i)) else 0) anchors).
(** what is returned as the gradient *)
Definition returned_gradient (w : R) (vs0 : list vec3) (anchors : list nat) (ms : list mxyz) (vs : list vec3) (c k : nat) : R :=
  anchor_part w vs0 anchors vs c k + sumR (map (fun m => let g := sumR (map (fun pq => along (view vs (mx_i m)) (fst pq) (gap vs m pq) k) (pairs m)) in
    (if (mx_i m =? c)%nat then g else 0) - (if (mx_j m =? c)%nat then g else 0)) ms).
(** what the gradient is *)
Definition true_gradient (w : R) (vs0 : list vec3) (anchors : list nat) (ms : list mxyz) (vs : list vec3) (c k : nat) : R :=
  anchor_part w vs0 anchors vs c k + sumR (map (fun m =>
    (if (mx_i m =? c)%nat then sumR (map (fun pq => along (view vs (mx_i m)) (fst pq) (gap vs m pq) k / len (fst pq)) (pairs m)) else 0)
    - (if (mx_j m =? c)%nat then sumR (map (fun pq => along (view vs (mx_j m)) (snd pq) (gap vs m pq) k / len (snd pq)) (pairs m)) else 0)) ms).

(** the observer's cameras, the anchors and the matches belong together; the cameras of a match have the same position and their lenses since it was made *)
Definition match_ok (cs : list cam) (m : mxyz) : Prop :=
  exists ci cj, nth_error cs (mx_i m) = Some ci /\ nth_error cs (mx_j m) = Some cj /\ get_xyz ci = get_xyz cj /\ mx_internals m = (internals ci, internals cj)
    /\ length (fst (mx_xys m)) = length (snd (mx_xys m)).
Definition consistent (s : ocams) : Prop :=
  Forall wf (oc_cams s) /\ length (oc_viewdirs s) = length (oc_cams s) /\ Forall (fun i => (i < length (oc_cams s))%nat) (oc_anchors s) /\ Forall (match_ok (oc_cams s)) (oc_matches s).

Lemma to_world_dot v xy : dot3 (to_world v xy) (to_world v xy) = fst xy * fst xy + snd xy * snd xy + 1.
Proof.
  unfold to_world. destruct xy as [x y]. cbn [fst snd].
  pose proof (rotation_orthonormal v 0 0 ltac:(lia) ltac:(lia)) as H00. pose proof (rotation_orthonormal v 1 1 ltac:(lia) ltac:(lia)) as H11. pose proof (rotation_orthonormal v 2 2 ltac:(lia) ltac:(lia)) as H22.
  pose proof (rotation_orthonormal v 0 1 ltac:(lia) ltac:(lia)) as H01. pose proof (rotation_orthonormal v 0 2 ltac:(lia) ltac:(lia)) as H02. pose proof (rotation_orthonormal v 1 2 ltac:(lia) ltac:(lia)) as H12.
  cbn [Nat.eqb] in *. destruct (row 0 (rotation v)) as [[a0 a1] a2], (row 1 (rotation v)) as [[b0 b1] b2], (row 2 (rotation v)) as [[c0 c1] c2]. unfold dot3, add3, scale3 in *.
  transitivity (x * x * (a0 * a0 + a1 * a1 + a2 * a2) + y * y * (b0 * b0 + b1 * b1 + b2 * b2) + (c0 * c0 + c1 * c1 + c2 * c2) + 2 * x * y * (a0 * b0 + a1 * b1 + a2 * b2) + 2 * x * (a0 * c0 + a1 * c1 + a2 * c2) + 2 * y * (b0 * c0 + b1 * c1 + b2 * c2)); [ring|]. rewrite H00, H11, H22, H01, H02, H12. ring.
Qed.
Lemma ray_eq c v xy : viewdir3 c = v -> unit3 (xy_to_xyz c true 1 xy) = ray v xy.
Proof.
  intros E. unfold unit3, ray, len. rewrite <- (to_world_dot v xy).
  assert (X : xy_to_xyz c true 1 xy = to_world v xy). { unfold xy_to_xyz, to_world, Rm. unfold viewdir3 in E. rewrite E. destruct xy as [x y]. unfold Reqb. destruct (Req_EM_T 1 1); [reflexivity|congruence]. }
  rewrite X. reflexivity.
Qed.
Lemma len_pos xy : 0 < len xy. Proof. unfold len. apply sqrt_lt_R0. nra. Qed.

(** ** Evaluation *)
Lemma differ_refl l : differ l l = false.
Proof. unfold differ. induction l as [|x l IH]; [reflexivity|]. cbn. destruct (Reqb_spec x x); [exact IH|congruence]. Qed.
Lemma nth_map2 {A B C} (f : A -> B -> C) l : forall m i a b, length l = length m -> (i < length l)%nat -> nth_error (map2 f l m) i = Some (f (nth i l a) (nth i m b)).
Proof. induction l as [|x l IH]; intros [|y m] i a b E H; cbn in *; try lia. destruct i; [reflexivity|]. apply IH; lia. Qed.
Lemma anchors_eq w vs0 vs : length vs0 = length vs -> forall l o g, length g = length vs -> Forall (fun i => (i < length vs)%nat) l ->
  exists g', foldM (anchor_step w vs0 vs) (o, g) l = Ok (o + sumR (map (fun i => w / 2 * dist2 (view vs i) (view vs0 i)) l), g') /\ length g' = length vs
    /\ forall c k, (c < length vs)%nat -> comp k (nth c g' zero3) = comp k (nth c g zero3) + anchor_part w vs0 l vs c k.
Proof.
  intros L0 l. induction l as [|i l IH]; intros o g Lg F.
  - exists g. split; [cbn; rewrite Rplus_0_r; reflexivity|]. split; [exact Lg|]. intros c k _. unfold anchor_part. cbn. ring.
  - inversion F as [|? ? Hi F']; subst. cbn [foldM]. unfold anchor_step at 1. rewrite (at_nth vs i zero3) by exact Hi. rewrite (at_nth vs0 i zero3) by lia. cbn [bind fst snd].
    destruct (IH (o + w / 2 * dot3 (sub3 (nth i vs zero3) (nth i vs0 zero3)) (sub3 (nth i vs zero3) (nth i vs0 zero3))) (upd i (fun g => add3 g (scale3 w (sub3 (nth i vs zero3) (nth i vs0 zero3)))) g)) as (g' & E & Lg' & H); [rewrite upd_length; exact Lg|exact F'|].
    exists g'. split; [|split; [exact Lg'|]].
    + rewrite E. apply (f_equal (@Ok _)), (f_equal2 pair); [|reflexivity]. cbn [map sumR fold_right]. fold (sumR (map (fun i => w / 2 * dist2 (view vs i) (view vs0 i)) l)).
      replace (dot3 (sub3 (nth i vs zero3) (nth i vs0 zero3)) (sub3 (nth i vs zero3) (nth i vs0 zero3))) with (dist2 (view vs i) (view vs0 i)); [ring|].
      unfold dist2, view. destruct (nth i vs zero3) as [[a b] c], (nth i vs0 zero3) as [[a' b'] c']. cbn. ring.
    + intros c k Hc. rewrite (H c k Hc), nth_upd by lia. unfold anchor_part. cbn [map sumR fold_right]. unfold sumR. destruct (Nat.eqb_spec i c) as [->|N]; [|ring]. rewrite comp_add3, comp_scale3, comp_sub3. unfold view. ring.
Qed.
Lemma point_gradient_eq v xy d k : point_gradient v xy d k = along v xy d k.
Proof. unfold point_gradient, along, dD_dw, turn. rewrite !Rmult_1_r. reflexivity. Qed.
Lemma map2_combine {A B C} (f : A -> B -> C) l : forall m, map2 f l m = map (fun p => f (fst p) (snd p)) (combine l m).
Proof. induction l as [|x l IH]; intros [|y m]; cbn; [reflexivity..|]. now rewrite IH. Qed.
Lemma comp_gradient3 v xys ds k : (k < 3)%nat -> comp k (gradient3 v xys ds) = sumR (map2 (fun xy d => point_gradient v xy d k) xys ds).
Proof. intros K. unfold gradient3. destruct k as [|[|[|]]]; try lia; reflexivity. Qed.
Lemma map2_map_r {A B C D} (f : A -> C -> D) (g : A -> B -> C) l : forall m, map2 f l (map2 g l m) = map (fun p => f (fst p) (g (fst p) (snd p))) (combine l m).
Proof. induction l as [|x l IH]; intros [|y m]; cbn; [reflexivity..|]. now rewrite IH. Qed.
Lemma map2_map_map {A B C D E} (f : C -> D -> E) (g : A -> C) (h : B -> D) l : forall m, map2 f (map g l) (map h m) = map2 (fun a b => f (g a) (h b)) l m.
Proof. induction l as [|x l IH]; intros [|y m]; cbn; [reflexivity..|]. now rewrite IH. Qed.

Lemma match_step_eq cs vs o g m : Forall wf cs -> length vs = length cs -> length g = length cs -> match_ok cs m ->
  exists g', match_step (map2 with_viewdir cs vs) (o, g) m = Ok (o + mismatch vs m, g') /\ length g' = length cs
    /\ forall c k, (c < length cs)%nat -> (k < 3)%nat -> comp k (nth c g' zero3) = comp k (nth c g zero3) +
      (let G := sumR (map (fun pq => along (view vs (mx_i m)) (fst pq) (gap vs m pq) k) (pairs m)) in (if (mx_i m =? c)%nat then G else 0) - (if (mx_j m =? c)%nat then G else 0)).
Proof.
  intros W Lv Lg (ci & cj & Ei & Ej & P & I & LL).
  assert (Hi : (mx_i m < length cs)%nat) by (apply nth_error_Some; congruence). assert (Hj : (mx_j m < length cs)%nat) by (apply nth_error_Some; congruence).
  assert (Wi : wf ci) by exact (proj1 (Forall_forall _ _) W ci (nth_error_In _ _ Ei)). assert (Wj : wf cj) by exact (proj1 (Forall_forall _ _) W cj (nth_error_In _ _ Ej)).
  unfold match_step, at_. rewrite (nth_map2 with_viewdir cs vs (mx_i m) ci zero3), (nth_map2 with_viewdir cs vs (mx_j m) cj zero3) by lia.
  rewrite (nth_error_nth _ _ ci Ei), (nth_error_nth _ _ cj Ej). cbn [bind].
  change (nth (mx_i m) vs zero3) with (view vs (mx_i m)). change (nth (mx_j m) vs zero3) with (view vs (mx_j m)).
  unfold m_rays. cbn [m_a m_b m_xys m_cam sel].
  assert (TP : test_position (with_viewdir ci (view vs (mx_i m))) (with_viewdir cj (view vs (mx_j m))) = Ok tt). { unfold test_position. rewrite !with_viewdir_xyz by assumption. rewrite P, differ_refl. reflexivity. }
  rewrite TP. cbn [bind]. unfold test_internals. cbn [m_internals m_a m_b]. rewrite I. rewrite !with_viewdir_internals by assumption. rewrite !differ_refl. cbn [orb bind]. rewrite !map_length, LL, Nat.eqb_refl. cbn [negb].
  rewrite map2_map_map. 
  rewrite (with_viewdir_view ci _ Wi).
  assert (EQ : map2 (fun a b => sub3 (unit3 (xy_to_xyz (with_viewdir ci (view vs (mx_i m))) true 1 a)) (unit3 (xy_to_xyz (with_viewdir cj (view vs (mx_j m))) true 1 b))) (fst (mx_xys m)) (snd (mx_xys m)) = map2 (fun a b => gap vs m (a, b)) (fst (mx_xys m)) (snd (mx_xys m))).
  { rewrite !map2_combine. apply map_ext. intros [a b]. cbn [fst snd]. unfold gap. cbn [fst snd]. rewrite (ray_eq _ _ a (with_viewdir_view ci (view vs (mx_i m)) Wi)), (ray_eq _ _ b (with_viewdir_view cj (view vs (mx_j m)) Wj)). reflexivity. }
  rewrite EQ. eexists. split; [|split].
  - apply (f_equal (@Ok _)), (f_equal2 pair); [|reflexivity]. cbn [fst]. f_equal. unfold mismatch, pairs. rewrite map2_combine, map_map. apply (f_equal sumR), map_ext. intros [a b]. reflexivity.
  - cbn [snd]. rewrite !upd_length. exact Lg.
  - intros c k Hc Hk. cbn [snd]. rewrite nth_upd by (rewrite upd_length; lia). rewrite nth_upd by lia. cbv zeta.
    assert (G : comp k (gradient3 (view vs (mx_i m)) (fst (mx_xys m)) (map2 (fun a b => gap vs m (a, b)) (fst (mx_xys m)) (snd (mx_xys m)))) = sumR (map (fun pq => along (view vs (mx_i m)) (fst pq) (gap vs m pq) k) (pairs m))).
    { rewrite comp_gradient3 by exact Hk. rewrite (map2_map_r (fun xy d => point_gradient (view vs (mx_i m)) xy d k)). unfold pairs. apply (f_equal sumR), map_ext. intros [a b]. cbn [fst snd]. apply point_gradient_eq. }
    destruct (mx_i m =? c)%nat, (mx_j m =? c)%nat; rewrite ?comp_sub3, ?comp_add3, ?G; ring.
Qed.
Lemma matches_eq cs vs : Forall wf cs -> length vs = length cs -> forall ms o g, length g = length cs -> Forall (match_ok cs) ms ->
  exists g', foldM (match_step (map2 with_viewdir cs vs)) (o, g) ms = Ok (o + sumR (map (mismatch vs) ms), g') /\ length g' = length cs
    /\ forall c k, (c < length cs)%nat -> (k < 3)%nat -> comp k (nth c g' zero3) = comp k (nth c g zero3) +
      sumR (map (fun m => let G := sumR (map (fun pq => along (view vs (mx_i m)) (fst pq) (gap vs m pq) k) (pairs m)) in (if (mx_i m =? c)%nat then G else 0) - (if (mx_j m =? c)%nat then G else 0)) ms).
Proof.
  intros W Lv ms. induction ms as [|m ms IH]; intros o g Lg F.
  - exists g. split; [cbn; rewrite Rplus_0_r; reflexivity|]. split; [exact Lg|]. intros c k _ _. cbn. ring.
  - inversion F as [|? ? Hm F']; subst. destruct (match_step_eq cs vs o g m W Lv Lg Hm) as (g1 & E1 & L1 & H1). destruct (IH (o + mismatch vs m) g1 L1 F') as (g2 & E2 & L2 & H2).
    exists g2. cbn [foldM]. rewrite E1. cbn [bind]. rewrite E2. split; [apply (f_equal (@Ok _)), (f_equal2 pair); [cbn; unfold sumR; ring|reflexivity]|]. split; [exact L2|].
    intros c k Hc Hk. rewrite (H2 c k Hc Hk), (H1 c k Hc Hk). cbn [map sumR fold_right]. unfold sumR. ring.
Qed.
Lemma objective_eq w s vs : consistent s -> length vs = length (oc_cams s) ->
  exists g, objective w s vs = (with_cams s (map2 with_viewdir (oc_cams s) vs), Ok (total w (oc_viewdirs s) (oc_anchors s) (oc_matches s) vs, g)) /\ length g = length (oc_cams s)
    /\ forall c k, (c < length (oc_cams s))%nat -> (k < 3)%nat -> comp k (nth c g zero3) = returned_gradient w (oc_viewdirs s) (oc_anchors s) (oc_matches s) vs c k.
Proof.
  intros (W & L0 & FA & FM) Lv. unfold objective, set_cameras. rewrite (set_each_eq (oc_cams s) vs Lv). cbn [bind].
  destruct (anchors_eq w (oc_viewdirs s) vs ltac:(lia) (oc_anchors s) 0 (map (fun _ : vec3 => zero3) vs)) as (g1 & E1 & L1 & H1); [apply map_length|rewrite Lv; exact FA|]. 
  match goal with |- context [foldM ?F ?a ?l] => change (foldM F a l) with (foldM (anchor_step w (oc_viewdirs s) vs) (0, map (fun _ : vec3 => zero3) vs) (oc_anchors s)) end. rewrite E1. cbn [bind with_cams oc_cams].
  destruct (matches_eq (oc_cams s) vs W Lv (oc_matches s) (0 + sumR (map (fun i => w / 2 * dist2 (view vs i) (view (oc_viewdirs s) i)) (oc_anchors s))) g1 ltac:(lia) FM) as (g2 & E2 & L2 & H2). rewrite E2.
  exists g2. split; [apply (f_equal2 pair); [reflexivity|]; apply (f_equal (@Ok _)), (f_equal2 pair); [unfold total; ring|reflexivity]|]. split; [exact L2|].
  intros c k Hc Hk. rewrite (H2 c k Hc Hk), (H1 c k) by lia. unfold returned_gradient.
  replace (comp k (nth c (map (fun _ : vec3 => zero3) vs) zero3)) with 0; [ring|]. rewrite (map_nth (fun _ : vec3 => zero3) vs zero3 c). unfold zero3. destruct k as [|[|k]]; reflexivity.
Qed.
