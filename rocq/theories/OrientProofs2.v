(** The gradient of the objective of ObserverCameras. *)
From Coq Require Import Lia Lra.
From Verif Require Import Base BaseLemmas HelpersModel CameraModel CameraSpec CameraStateProofs CameraProofs ControlModel OrientModel OrientProofs.
Open Scope R_scope.

Lemma d_ext f g x d : (forall t, f t = g t) -> derivable_pt_lim g x d -> derivable_pt_lim f x d.
Proof. intros E D eps He. destruct (D eps He) as [del H]. exists del. intros h Hh Hd. rewrite !E. exact (H h Hh Hd). Qed.
Lemma d_eq f x d d' : d = d' -> derivable_pt_lim f x d -> derivable_pt_lim f x d'. Proof. intros ->. trivial. Qed.
Lemma d_sum {A} (f : A -> R -> R) (f' : A -> R) t l : (forall x, In x l -> derivable_pt_lim (f x) t (f' x)) -> derivable_pt_lim (fun t => sumR (map (fun x => f x t) l)) t (sumR (map f' l)).
Proof.
  induction l as [|x l IH]; intros H; [apply derivable_pt_lim_const|]. cbn [map sumR fold_right].
  apply (derivable_pt_lim_plus (f x) (fun t => sumR (map (fun x => f x t) l))); [apply H; left; reflexivity|]. apply IH. intros y Hy. apply H. right. exact Hy.
Qed.
Lemma d_abs f x d : f x <> 0 -> derivable_pt_lim f x d -> derivable_pt_lim (fun t => Rabs (f t)) x (d * sign (f x)).
Proof.
  intros N D. apply (d_eq _ _ (sign (f x) * d)); [ring|]. apply (derivable_pt_lim_comp f Rabs x); [exact D|]. unfold sign.
  destruct (Rltb_spec 0 (f x)) as [P|P]; [exact (Rabs_derive_1 _ P)|]. destruct (Rltb_spec (f x) 0) as [Q|Q]; [exact (Rabs_derive_2 _ Q)|]. exfalso. lra.
Qed.
Lemma d_scal a f x d : derivable_pt_lim f x d -> derivable_pt_lim (fun t => a * f t) x (a * d).
Proof. intros D. exact (derivable_pt_lim_scal f a x d D). Qed.

Lemma comp_ray v xy e : (e < 3)%nat -> comp e (ray v xy) = / len xy * (fst xy * entry (rotation v) 0 e + snd xy * entry (rotation v) 1 e + entry (rotation v) 2 e).
Proof. intros E. unfold ray, to_world. rewrite comp_scale3, !comp_add3, !comp_scale3. unfold entry. reflexivity. Qed.
Lemma d_ray v xy e k : (e < 3)%nat -> (k < 3)%nat -> derivable_pt_lim (fun t => comp e (ray (set_angle v k t) xy)) (comp k v) (turn v xy e k / len xy).
Proof.
  intros E K. apply (d_ext _ (fun t => / len xy * (fst xy * entry (rotation (set_angle v k t)) 0 e + snd xy * entry (rotation (set_angle v k t)) 1 e + entry (rotation (set_angle v k t)) 2 e))); [intros t; apply comp_ray; exact E|].
  apply (d_eq _ _ (/ len xy * (fst xy * rprime v e k 0 + snd xy * rprime v e k 1 + rprime v e k 2))); [unfold turn, Rdiv; ring|]. apply d_scal.
  apply (derivable_pt_lim_plus (fun t => fst xy * entry (rotation (set_angle v k t)) 0 e + snd xy * entry (rotation (set_angle v k t)) 1 e) (fun t => entry (rotation (set_angle v k t)) 2 e)); [|apply rprime_derivative; lia].
  apply (derivable_pt_lim_plus (fun t => fst xy * entry (rotation (set_angle v k t)) 0 e) (fun t => snd xy * entry (rotation (set_angle v k t)) 1 e)); apply d_scal; apply rprime_derivative; lia.
Qed.

(** the view directions vs with angle k of image c set to t *)
Definition turned (vs : list vec3) (c k : nat) (t : R) : list vec3 := upd c (fun v => set_angle v k t) vs.
Lemma view_turned vs c k t i : (i < length vs)%nat -> view (turned vs c k t) i = if (c =? i)%nat then set_angle (view vs i) k t else view vs i.
Proof. intros H. unfold view, turned. exact (nth_upd c _ vs i zero3 H). Qed.
Lemma set_angle_id v k : set_angle v k (comp k v) = v. Proof. destruct v as [[a b] g]. destruct k as [|[|k]]; reflexivity. Qed.
Lemma view_turned_id vs c k i : (i < length vs)%nat -> view (turned vs c k (comp k (view vs c))) i = view vs i.
Proof. intros H. rewrite view_turned by exact H. destruct (Nat.eqb_spec c i) as [->|]; [apply set_angle_id|reflexivity]. Qed.

Lemma d_comp_angle v k e : (k < 3)%nat -> (e < 3)%nat -> derivable_pt_lim (fun t => comp e (set_angle v k t)) (comp k v) (if (e =? k)%nat then 1 else 0).
Proof.
  intros K E. destruct v as [[a b] g]. destruct k as [|[|[|]]]; try lia; destruct e as [|[|[|]]]; try lia; cbn [set_angle comp Nat.eqb]; first [apply derivable_pt_lim_id|apply derivable_pt_lim_const].
Qed.
Lemma d_sq f x d a : derivable_pt_lim f x d -> derivable_pt_lim (fun t => (f t - a) ^ 2) x (2 * (f x - a) * d).
Proof.
  intros D. apply (d_ext _ (fun t => (f t - a) * (f t - a))); [intros t; ring|]. assert (D1 : derivable_pt_lim (fun t => f t - a) x d).
  { apply (d_eq _ _ (d - 0)); [ring|]. apply (derivable_pt_lim_minus f (fun _ => a)); [exact D|apply derivable_pt_lim_const]. }
  apply (d_eq _ _ (d * (f x - a) + (f x - a) * d)); [ring|]. exact (derivable_pt_lim_mult _ _ x d d D1 D1).
Qed.
Lemma d_anchor w vs0 vs c k i : (i < length vs)%nat -> (k < 3)%nat ->
  derivable_pt_lim (fun t => w / 2 * dist2 (view (turned vs c k t) i) (view vs0 i)) (comp k (view vs c)) (if (i =? c)%nat then w * (comp k (view vs i) - comp k (view vs0 i)) else 0).
Proof.
  intros I K. apply (d_ext _ (fun t => w / 2 * dist2 (if (c =? i)%nat then set_angle (view vs i) k t else view vs i) (view vs0 i))). { intros t. rewrite view_turned by exact I. reflexivity. }
  destruct (Nat.eqb_spec c i) as [->|N].
  - rewrite Nat.eqb_refl. set (v := view vs i). set (u := view vs0 i). unfold dist2.
    apply (d_eq _ _ (w / 2 * (2 * (comp 0 (set_angle v k (comp k v)) - comp 0 u) * (if (0 =? k)%nat then 1 else 0) + 2 * (comp 1 (set_angle v k (comp k v)) - comp 1 u) * (if (1 =? k)%nat then 1 else 0) + 2 * (comp 2 (set_angle v k (comp k v)) - comp 2 u) * (if (2 =? k)%nat then 1 else 0)))).
    { rewrite set_angle_id. destruct k as [|[|[|]]]; try lia; cbn [Nat.eqb]; field. }
    apply d_scal. apply (derivable_pt_lim_plus (fun t => (comp 0 (set_angle v k t) - comp 0 u) ^ 2 + (comp 1 (set_angle v k t) - comp 1 u) ^ 2) (fun t => (comp 2 (set_angle v k t) - comp 2 u) ^ 2)).
    + apply (derivable_pt_lim_plus (fun t => (comp 0 (set_angle v k t) - comp 0 u) ^ 2) (fun t => (comp 1 (set_angle v k t) - comp 1 u) ^ 2)); apply (d_sq (fun t => comp _ (set_angle v k t))); apply d_comp_angle; lia.
    + apply (d_sq (fun t => comp 2 (set_angle v k t))). apply d_comp_angle; lia.
  - destruct (Nat.eqb_spec i c) as [->|_]; [congruence|]. apply derivable_pt_lim_const.
Qed.

Definition smooth_at (vs : list vec3) (m : mxyz) : Prop := forall pq e, In pq (pairs m) -> (e < 3)%nat -> comp e (gap vs m pq) <> 0.
Lemma d_gap vs c k m pq e : (mx_i m < length vs)%nat -> (mx_j m < length vs)%nat -> mx_i m <> mx_j m -> (k < 3)%nat -> (e < 3)%nat ->
  derivable_pt_lim (fun t => comp e (gap (turned vs c k t) m pq)) (comp k (view vs c))
    ((if (mx_i m =? c)%nat then turn (view vs (mx_i m)) (fst pq) e k / len (fst pq) else 0) - (if (mx_j m =? c)%nat then turn (view vs (mx_j m)) (snd pq) e k / len (snd pq) else 0)).
Proof.
  intros I J N K E. apply (d_ext _ (fun t => comp e (ray (if (c =? mx_i m)%nat then set_angle (view vs (mx_i m)) k t else view vs (mx_i m)) (fst pq)) - comp e (ray (if (c =? mx_j m)%nat then set_angle (view vs (mx_j m)) k t else view vs (mx_j m)) (snd pq)))).
  { intros t. unfold gap. rewrite comp_sub3, !view_turned by assumption. reflexivity. }
  apply (derivable_pt_lim_minus (fun t => comp e (ray (if (c =? mx_i m)%nat then set_angle (view vs (mx_i m)) k t else view vs (mx_i m)) (fst pq))) (fun t => comp e (ray (if (c =? mx_j m)%nat then set_angle (view vs (mx_j m)) k t else view vs (mx_j m)) (snd pq)))).
  - rewrite (Nat.eqb_sym (mx_i m) c). destruct (Nat.eqb_spec c (mx_i m)) as [->|]; [apply d_ray; assumption|apply derivable_pt_lim_const].
  - rewrite (Nat.eqb_sym (mx_j m) c). destruct (Nat.eqb_spec c (mx_j m)) as [->|]; [apply d_ray; assumption|apply derivable_pt_lim_const].
Qed.
Lemma gap_id vs c k m pq : (mx_i m < length vs)%nat -> (mx_j m < length vs)%nat -> gap (turned vs c k (comp k (view vs c))) m pq = gap vs m pq.
Proof. intros I J. unfold gap. rewrite !view_turned_id by assumption. reflexivity. Qed.
Lemma sum_minus {A} (f g : A -> R) l : sumR (map (fun x => f x - g x) l) = sumR (map f l) - sumR (map g l).
Proof. induction l as [|x l IH]; cbn [map sumR fold_right]; [ring|]. unfold sumR in *. rewrite IH. ring. Qed.
Lemma sum_zero {A} (l : list A) : sumR (map (fun _ => 0) l) = 0. Proof. induction l; cbn [map sumR fold_right]; [reflexivity|]. unfold sumR in *. lra. Qed.
Lemma d_l1 vs c k m pq : (mx_i m < length vs)%nat -> (mx_j m < length vs)%nat -> mx_i m <> mx_j m -> (k < 3)%nat -> smooth_at vs m -> In pq (pairs m) ->
  derivable_pt_lim (fun t => l1 (gap (turned vs c k t) m pq)) (comp k (view vs c))
    ((if (mx_i m =? c)%nat then along (view vs (mx_i m)) (fst pq) (gap vs m pq) k / len (fst pq) else 0) - (if (mx_j m =? c)%nat then along (view vs (mx_j m)) (snd pq) (gap vs m pq) k / len (snd pq) else 0)).
Proof.
  intros I J N K SM IN.
  assert (D : forall e, (e < 3)%nat -> derivable_pt_lim (fun t => Rabs (comp e (gap (turned vs c k t) m pq))) (comp k (view vs c)) (((if (mx_i m =? c)%nat then turn (view vs (mx_i m)) (fst pq) e k / len (fst pq) else 0) - (if (mx_j m =? c)%nat then turn (view vs (mx_j m)) (snd pq) e k / len (snd pq) else 0)) * sign (comp e (gap vs m pq)))).
  { intros e E. assert (NZ : (fun t => comp e (gap (turned vs c k t) m pq)) (comp k (view vs c)) <> 0) by (cbv beta; rewrite gap_id by assumption; exact (SM pq e IN E)).
    pose proof (d_abs (fun t => comp e (gap (turned vs c k t) m pq)) (comp k (view vs c)) _ NZ (d_gap vs c k m pq e I J N K E)) as DD. cbv beta in DD. rewrite gap_id in DD by assumption. exact DD. }
  pose proof (derivable_pt_lim_plus _ _ _ _ _ (derivable_pt_lim_plus _ _ _ _ _ (D 0%nat ltac:(lia)) (D 1%nat ltac:(lia))) (D 2%nat ltac:(lia))) as DS.
  refine (d_eq _ _ _ _ _ DS). unfold along, Rdiv. destruct (mx_i m =? c)%nat, (mx_j m =? c)%nat; ring.
Qed.
Lemma d_mismatch vs c k m : (mx_i m < length vs)%nat -> (mx_j m < length vs)%nat -> mx_i m <> mx_j m -> (k < 3)%nat -> (c = mx_i m \/ c = mx_j m -> smooth_at vs m) ->
  derivable_pt_lim (fun t => mismatch (turned vs c k t) m) (comp k (view vs c))
    ((if (mx_i m =? c)%nat then sumR (map (fun pq => along (view vs (mx_i m)) (fst pq) (gap vs m pq) k / len (fst pq)) (pairs m)) else 0)
     - (if (mx_j m =? c)%nat then sumR (map (fun pq => along (view vs (mx_j m)) (snd pq) (gap vs m pq) k / len (snd pq)) (pairs m)) else 0)).
Proof.
  intros I J N K SM. assert (C : (c = mx_i m \/ c = mx_j m) \/ (c <> mx_i m /\ c <> mx_j m)) by lia. destruct C as [C|[Ci Cj]].
  - specialize (SM C). pose proof (d_sum (fun pq t => l1 (gap (turned vs c k t) m pq)) _ _ (pairs m) (fun pq IN => d_l1 vs c k m pq I J N K SM IN)) as DS.
    refine (d_eq _ _ _ _ _ DS). rewrite sum_minus. destruct (mx_i m =? c)%nat, (mx_j m =? c)%nat; rewrite ?sum_zero; reflexivity.
  - destruct (Nat.eqb_spec (mx_i m) c); [congruence|]. destruct (Nat.eqb_spec (mx_j m) c); [congruence|]. apply (d_ext _ (fun _ => mismatch vs m)); [|apply (d_eq _ _ 0); [ring|apply derivable_pt_lim_const]].
    intros t. unfold mismatch, gap. rewrite !view_turned by assumption. destruct (Nat.eqb_spec c (mx_i m)); [congruence|]. destruct (Nat.eqb_spec c (mx_j m)); [congruence|]. reflexivity.
Qed.
Lemma d_total w vs0 anchors ms vs c k : Forall (fun i => (i < length vs)%nat) anchors -> (k < 3)%nat ->
  Forall (fun m => (mx_i m < length vs)%nat /\ (mx_j m < length vs)%nat /\ mx_i m <> mx_j m /\ (c = mx_i m \/ c = mx_j m -> smooth_at vs m)) ms ->
  derivable_pt_lim (fun t => total w vs0 anchors ms (turned vs c k t)) (comp k (view vs c)) (true_gradient w vs0 anchors ms vs c k).
Proof.
  intros FA K FM. unfold total, true_gradient, anchor_part.
  apply (derivable_pt_lim_plus (fun t => sumR (map (fun i => w / 2 * dist2 (view (turned vs c k t) i) (view vs0 i)) anchors)) (fun t => sumR (map (mismatch (turned vs c k t)) ms))).
  - apply (d_sum (fun i t => w / 2 * dist2 (view (turned vs c k t) i) (view vs0 i))). intros i IN. apply d_anchor; [exact (proj1 (Forall_forall _ _) FA i IN)|exact K].
  - apply (d_sum (fun m t => mismatch (turned vs c k t) m)). intros m IN. destruct (proj1 (Forall_forall _ _) FM m IN) as (I & J & N & SM). apply d_mismatch; assumption.
Qed.
