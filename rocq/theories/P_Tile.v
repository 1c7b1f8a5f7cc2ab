(** C82: tiles do not depend on exposure (helpers.normalize, Tracker.extract_tile). *)
From Verif Require Import Base BaseLemmas HelpersModel AggregateProofs TileModel.
Open Scope R_scope.

(** * Specification *)
(** average, sum of squares about it *)
Definition total (l : list R) : R := fold_right Rplus 0 l.
Definition constant (l : list R) : Prop := exists c, forall x, In x l -> x = c.
(** f keeps the order of the values of l *)
Definition brighter (f : R -> R) (l : list R) : Prop := forall x y, In x l -> In y l -> x < y -> f x < f y.
(** the same pixels, exposed differently: values changed by f, the same for all bands *)
Definition exposed (f : R -> R) (r : raw) : raw := match r with Gray l => Gray (map f l) | Color l => Color (map (map f) l) end.

(** ** Means *)
Lemma len_pos {A} (l : list A) : l <> [] -> 0 < INR (length l).
Proof. intros H. apply (lt_INR 0). destruct l; [contradiction|cbn; lia]. Qed.
Lemma sumR_affine g o l : sumR (map (fun x => g * x + o) l) = g * sumR l + INR (length l) * o.
Proof. induction l as [|a l IH]; cbn [map sumR fold_right length]; [cbn; ring|]. rewrite S_INR. unfold sumR in IH. rewrite IH. ring. Qed.
Lemma sumR_scale {A} k (h : A -> R) l : sumR (map (fun x => k * h x) l) = k * sumR (map h l).
Proof. induction l as [|a l IH]; cbn [map sumR fold_right]; [ring|]. unfold sumR in IH. rewrite IH. ring. Qed.
Lemma mean_eq l : mean l = total l / INR (length l).
Proof. unfold mean. rewrite <- INR_IZR_INZ. unfold Rdiv. rewrite Rmult_1_l. reflexivity. Qed.
Lemma mean_affine g o l : l <> [] -> mean (map (fun x => g * x + o) l) = g * mean l + o.
Proof. intros N. pose proof (len_pos l N). rewrite !mean_eq, map_length. change total with sumR. rewrite sumR_affine. field. lra. Qed.
Lemma sumR_nonneg l : (forall x, In x l -> 0 <= x) -> 0 <= sumR l.
Proof. induction l as [|a l IH]; intros H; cbn [sumR fold_right]; [lra|]. assert (0 <= a) by (apply H; left; reflexivity). assert (0 <= sumR l) by (apply IH; intros; apply H; right; assumption). unfold sumR in H1. lra. Qed.
Lemma sumR_zero l : (forall x, In x l -> 0 <= x) -> sumR l = 0 -> forall x, In x l -> x = 0.
Proof.
  induction l as [|a l IH]; intros H E x I; [destruct I|]. cbn [sumR fold_right] in E. assert (0 <= a) by (apply H; left; reflexivity).
  assert (P : forall x, In x l -> 0 <= x) by (intros; apply H; right; assumption). pose proof (sumR_nonneg l P) as Q. unfold sumR in Q. destruct I as [<-|I]; [lra|]. apply (IH P); [unfold sumR; lra|exact I].
Qed.
Lemma variance_eq l : variance l = sumR (map (fun x => (x - mean l) ^ 2) l) / INR (length l).
Proof. unfold variance. rewrite mean_eq, map_length. reflexivity. Qed.
Lemma sq_terms l : forall y, In y (map (fun x => (x - mean l) ^ 2) l) -> 0 <= y.
Proof. intros y H. apply in_map_iff in H as (x & <- & _). apply pow2_ge_0. Qed.
Lemma variance_nonneg l : 0 <= variance l.
Proof.
  rewrite variance_eq. destruct l as [|a l]; [cbn; lra|]. apply Rmult_le_pos; [apply sumR_nonneg, sq_terms|]. left. apply Rinv_0_lt_compat, len_pos. discriminate.
Qed.
Lemma std_zero l : std l = 0 <-> constant l.
Proof.
  assert (S : std l = 0 <-> variance l = 0). { unfold std. split; intros H; [apply sqrt_eq_0 in H; [exact H|apply variance_nonneg]|rewrite H; apply sqrt_0]. }
  rewrite S. clear S. destruct (list_eq_dec Req_EM_T l []) as [->|N]; [split; [intros _; exists 0; intros x []|intros _; rewrite variance_eq; cbn; lra]|].
  pose proof (len_pos l N) as P. rewrite variance_eq. split.
  - intros H. exists (mean l). intros x I. assert (Z : sumR (map (fun x => (x - mean l) ^ 2) l) = 0) by (apply (Rmult_eq_reg_r (/ INR (length l))); [unfold Rdiv in H; lra|apply Rinv_neq_0_compat; lra]).
    pose proof (sumR_zero _ (sq_terms l) Z ((x - mean l) ^ 2)) as Q. assert ((x - mean l) ^ 2 = 0) by (apply Q, in_map_iff; exists x; auto). nra.
  - intros [c H]. assert (M : mean l = c).
    { rewrite <- (map_id l). rewrite (map_ext_in _ (fun x => 0 * x + c)) by (intros x I; rewrite (H x I); ring). rewrite mean_affine by exact N. ring. }
    rewrite M. rewrite (map_ext_in _ (fun x => 0 * x + 0)) by (intros x I; rewrite (H x I); ring). rewrite sumR_affine. field. lra.
Qed.
Lemma std_pos l : ~ constant l -> 0 < std l.
Proof. intros H. pose proof (sqrt_pos (variance l)). assert (std l <> 0) by (intros E; apply H, std_zero, E). unfold std in *. lra. Qed.
Lemma std_affine g o l : 0 < g -> std (map (fun x => g * x + o) l) = g * std l.
Proof.
  intros G. destruct (list_eq_dec Req_EM_T l []) as [->|N]; [assert (Z : std [] = 0) by (apply std_zero; exists 0; intros x []); cbn [map]; rewrite Z; ring|].
  unfold std. replace (g * sqrt (variance l)) with (sqrt (Rsqr g) * sqrt (variance l)) by (rewrite sqrt_Rsqr by lra; reflexivity). rewrite <- sqrt_mult by (first [apply variance_nonneg|unfold Rsqr; nra]). f_equal.
  rewrite !variance_eq, map_length, map_map.
  replace (map (fun x => (g * x + o - mean (map (fun x => g * x + o) l)) ^ 2) l) with (map (fun x => Rsqr g * (x - mean l) ^ 2) l)
    by (apply map_ext; intros; rewrite mean_affine by exact N; unfold Rsqr; ring).
  rewrite (sumR_scale (Rsqr g) (fun x => (x - mean l) ^ 2)). unfold Rsqr. pose proof (len_pos l N). field. lra.
Qed.

(** * Theorems *)
(** C82: normalize gives an average of 0 and a variance of 1, by one increasing linear map; nan exactly for arrays whose values are all the same *)
Theorem normalize_laws : forall a,
  (normalize a = None <-> constant a) /\
  forall t, normalize a = Some t -> length t = length a /\ total t = 0 /\ total (map (fun x => x ^ 2) t) = INR (length t) /\
    exists g o, 0 < g /\ t = map (fun x => g * x + o) a.
Proof.
  intros a. split.
  - unfold normalize. destruct (Reqb (std a) 0) eqn:Q; [apply Reqb_true in Q|apply Reqb_false in Q]; rewrite <- std_zero; split; intros H; try discriminate; try reflexivity; try assumption. contradiction.
  - intros t E. unfold normalize in E. destruct (Reqb (std a) 0) eqn:Q; [discriminate|]. apply Reqb_false in Q. injection E as <-.
    assert (C : ~ constant a) by (rewrite <- std_zero; exact Q). pose proof (std_pos a C) as P.
    assert (N : a <> []) by (intros ->; apply C; exists 0; intros x []). pose proof (len_pos a N) as PL.
    assert (E : map (fun x => (x - mean a) * (1 / std a)) a = map (fun x => / std a * x + - mean a * / std a) a) by (apply map_ext; intros; field; lra).
    rewrite E. split; [apply map_length|]. split; [|split].
    + change total with sumR. rewrite sumR_affine, mean_eq. change total with sumR. field. lra.
    + rewrite map_map, map_length. change total with sumR.
      replace (map (fun x => (/ std a * x + - mean a * / std a) ^ 2) a) with (map (fun x => / std a ^ 2 * (x - mean a) ^ 2) a) by (apply map_ext; intros; field; lra).
      rewrite (sumR_scale (/ std a ^ 2) (fun x => (x - mean a) ^ 2)).
      assert (V : std a ^ 2 = variance a) by (unfold std; rewrite <- Rsqr_pow2; apply Rsqr_sqrt, variance_nonneg).
      rewrite V, variance_eq. rewrite variance_eq in V. set (s := sumR (map (fun x => (x - mean a) ^ 2) a)) in *.
      assert (s <> 0). { intros Z. rewrite Z in V. assert (std a ^ 2 = 0) by (rewrite V; field; lra). nra. } field. split; lra.
    + exists (/ std a), (- mean a * / std a). split; [apply Rinv_0_lt_compat; exact P|reflexivity].
Qed.
Print Assumptions normalize_laws.

Lemma normalize_affine g o l : 0 < g -> normalize (map (fun x => g * x + o) l) = normalize l.
Proof.
  intros G. unfold normalize. rewrite std_affine by exact G. destruct (Reqb (std l) 0) eqn:Q.
  - apply Reqb_true in Q. rewrite Q, Rmult_0_r. destruct (Reqb 0 0) eqn:Z; [reflexivity|]. apply Reqb_false in Z. contradiction.
  - apply Reqb_false in Q. destruct (Reqb (g * std l) 0) eqn:Z; [apply Reqb_true in Z; apply Rmult_integral in Z; lra|]. f_equal. rewrite map_map. apply map_ext_in. intros x I.
    rewrite mean_affine by (intros ->; destruct I). field. split; lra.
Qed.
(** C82: a change of exposure that is linear (gain g > 0, offset o, the same for all bands) changes neither tile nor histogram, with or without histogram matching *)
Theorem tile_gain : forall median histogram r g o, 0 < g ->
  (forall l b, r = Color l -> In b l -> b <> []) ->
  extract_tile median histogram (exposed (fun x => g * x + o) r) = extract_tile median histogram r.
Proof.
  intros median histogram r g o G B. unfold extract_tile.
  assert (E : gray (exposed (fun x => g * x + o) r) = map (fun x => g * x + o) (gray r)).
  { destruct r as [l|l]; [reflexivity|]. cbn [exposed gray]. rewrite !map_map. apply map_ext_in. intros b I. apply mean_affine. apply (B l b eq_refl I). }
  rewrite E, normalize_affine by exact G. reflexivity.
Qed.
Print Assumptions tile_gain.

(** ** Ranks *)
Lemma brighter_lt f a x y : brighter f a -> In x a -> In y a -> Rltb (f x) (f y) = Rltb x y.
Proof.
  intros B X Y. destruct (Rltb x y) eqn:Q; [apply Rltb_true in Q; apply Rltb_true; auto|]. apply Rltb_false in Q. apply Rltb_false. destruct Q as [Q|Q]; [left; auto|right; congruence].
Qed.
Lemma brighter_eq f a x y : brighter f a -> In x a -> In y a -> Reqb (f x) (f y) = Reqb x y.
Proof.
  intros B X Y. destruct (Reqb x y) eqn:Q; [apply Reqb_true in Q; apply Reqb_true; congruence|]. apply Reqb_false in Q. apply Reqb_false. intros E.
  destruct (Rtotal_order x y) as [L|[L|L]]; [pose proof (B x y X Y L)|contradiction|pose proof (B y x Y X L)]; lra.
Qed.
Lemma unique_R_map f a : brighter f a -> forall l, (forall x, In x l -> In x a) -> unique_R (map f l) = map f (unique_R l).
Proof.
  intros B. assert (I : forall l x, (forall x, In x l -> In x a) -> In x a -> insert_uniqueR (f x) (map f l) = map f (insert_uniqueR x l)).
  { induction l as [|y l IH]; intros x H X; [reflexivity|]. cbn [map insert_uniqueR]. assert (Y : In y a) by (apply H; left; reflexivity).
    rewrite (brighter_lt f a x y B X Y), (brighter_eq f a x y B X Y). destruct (Rltb x y); [reflexivity|]. destruct (Reqb x y); [reflexivity|]. cbn [map]. f_equal. apply IH; [intros; apply H; right; assumption|exact X]. }
  induction l as [|x l IH]; intros H; [reflexivity|]. cbn [map unique_R fold_right]. change (insert_uniqueR (f x) (unique_R (map f l)) = map f (insert_uniqueR x (unique_R l))).
  rewrite IH by (intros; apply H; right; assumption). apply I; [|apply H; left; reflexivity]. intros y Hy. apply H. right. apply unique_R_in, Hy.
Qed.
Lemma count_R_map f a x : brighter f a -> In x a -> forall l, (forall x, In x l -> In x a) -> count_R (f x) (map f l) = count_R x l.
Proof.
  intros B X l H. unfold count_R. f_equal. f_equal. induction l as [|y l IH]; [reflexivity|]. cbn [map filter].
  rewrite (brighter_eq f a y x B (H y (or_introl eq_refl)) X). destruct (Reqb y x); cbn [length]; rewrite IH by (intros; apply H; right; assumption); reflexivity.
Qed.
Lemma index_of_map f a x : brighter f a -> In x a -> forall l, (forall x, In x l -> In x a) -> index_of (f x) (map f l) = index_of x l.
Proof.
  intros B X l H. induction l as [|y l IH]; [reflexivity|]. cbn [map index_of]. rewrite (brighter_eq f a x y B X (H y (or_introl eq_refl))). destruct (Reqb x y); [reflexivity|]. f_equal. apply IH. intros; apply H; right; assumption.
Qed.
(** ranks and frequencies do not depend on exposure *)
Lemma compute_cdf_map f a : brighter f a -> compute_cdf (map f a) = let '(v, q, i) := compute_cdf a in (map f v, q, i).
Proof.
  intros B. unfold compute_cdf. assert (U : forall x, In x (unique_R a) -> In x a) by (intros x; apply unique_R_in). rewrite (unique_R_map f a B a (fun x H => H)), map_length, !map_map.
  rewrite (map_ext_in (fun x => count_R (f x) (map f a)) (fun v => count_R v a)) by (intros x I; apply (count_R_map f a x B (U x I) a (fun x H => H))).
  rewrite (map_ext_in (fun x => index_of (f x) (map f (unique_R a))) (fun x => index_of x (unique_R a))) by (intros x I; apply (index_of_map f a x B I _ U)). reflexivity.
Qed.
Lemma match_cdf_map f a h : brighter f a -> match_cdf (map f a) h = match_cdf a h.
Proof. intros B. unfold match_cdf. rewrite compute_cdf_map by exact B. destruct (compute_cdf a) as [[v q] i]. reflexivity. Qed.
Lemma constant_map f a : brighter f a -> constant (map f a) -> constant a.
Proof.
  intros B [c H]. destruct a as [|x a]; [exists 0; intros y []|]. exists x. intros y I.
  assert (E : f y = f x) by (rewrite (H (f y)), (H (f x)); [reflexivity|left; reflexivity|apply in_map, I]).
  destruct (Rtotal_order x y) as [L|[L|L]]; [pose proof (B x y (or_introl eq_refl) I L)|congruence|pose proof (B y x I (or_introl eq_refl) L)]; lra.
Qed.
(** C82: with histogram matching, no increasing change of the gray values changes the tile *)
Theorem tile_monotone : forall median h l f, brighter f l -> extract_tile median (Some h) (Gray (map f l)) = extract_tile median (Some h) (Gray l).
Proof.
  intros median h l f B. unfold extract_tile. cbn [gray].
  destruct (normalize_laws l) as [N1 S1]. destruct (normalize_laws (map f l)) as [N2 S2].
  destruct (normalize l) as [t|] eqn:E1; destruct (normalize (map f l)) as [u|] eqn:E2.
  - destruct (S1 t eq_refl) as (_ & _ & _ & g & o & G & ->). destruct (S2 u eq_refl) as (_ & _ & _ & g' & o' & G' & ->).
    rewrite match_cdf_map by (intros x y _ _ L; nra). rewrite match_cdf_map by exact B. rewrite match_cdf_map by (intros x y _ _ L; nra). reflexivity.
  - exfalso. assert (C : constant (map f l)) by (apply N2; reflexivity). apply constant_map in C; [|exact B]. apply N1 in C. discriminate.
  - exfalso. assert (C : constant l) by (apply N1; reflexivity). destruct C as [c C]. assert (C' : constant (map f l)) by (exists (f c); intros y I; apply in_map_iff in I as (x & <- & I); rewrite (C x I); reflexivity). apply N2 in C'. discriminate.
  - reflexivity.
Qed.
Print Assumptions tile_monotone.

(** C82: the same scene under another exposure (any increasing change of the gray values), matched to the histogram of the template, is the template *)
Theorem tile_recognised : forall median l f tile histogram, brighter f l ->
  extract_tile median None (Gray l) = Ok (Some (tile, histogram)) ->
  extract_tile median (Some histogram) (Gray (map f l)) = Ok (Some (tile, histogram)).
Proof.
  intros median l f tile histogram B E. rewrite tile_monotone by exact B. unfold extract_tile in *. cbn [gray] in *.
  destruct (normalize l) as [t|] eqn:N; [|discriminate]. cbn [bind] in E. injection E as E1 E2.
  assert (Nt : t <> []).
  { intros ->. destruct (normalize_laws l) as [N1 S1]. destruct (S1 [] N) as (L & _). destruct l; [|discriminate]. assert (Z : normalize [] = None) by (apply (normalize_laws []); exists 0; intros x []). rewrite Z in N. discriminate. }
  destruct (match_cdf_spec t t Nt Nt) as (r & Er & _ & _ & _ & Z). specialize (Z eq_refl). subst r.
  assert (M : match_cdf t histogram = Ok t). { rewrite <- E2. unfold match_cdf_array in Er. unfold cdf_of. destruct (compute_cdf t) as [[v q] i]. exact Er. }
  rewrite M. cbn [bind]. rewrite E1, E2. reflexivity.
Qed.
Print Assumptions tile_recognised.

(** C82: the tile has the size of the image part, is nan exactly if this is uniform, and is what the median filter removes from the normalized values *)
Theorem tile_plain : forall median r, (extract_tile median None r = Ok None <-> constant (gray r)) /\
  forall tile histogram, extract_tile median None r = Ok (Some (tile, histogram)) -> exists t, normalize (gray r) = Some t /\
    tile = map2 Rminus t (median t) /\ histogram = cdf_of t.
Proof.
  intros median r. unfold extract_tile. destruct (normalize_laws (gray r)) as [N _]. destruct (normalize (gray r)) as [t|].
  - cbn [bind]. split; [rewrite <- N; split; discriminate|]. intros tile histogram E. injection E as <- <-. exists t. auto.
  - split; [rewrite <- N; split; reflexivity|]. discriminate.
Qed.
Print Assumptions tile_plain.

(** ** The hypotheses are met: a tile of three values, and its negative exponential (any contrast curve) *)
Example tile_applies : exists tile histogram, extract_tile (fun t => t) None (Gray [1; 2; 5]) = Ok (Some (tile, histogram)) /\
  extract_tile (fun t => t) (Some histogram) (Gray (map exp [1; 2; 5])) = Ok (Some (tile, histogram)).
Proof.
  assert (C : ~ constant [1; 2; 5]) by (intros [c H]; pose proof (H 1 (or_introl eq_refl)); pose proof (H 2 (or_intror (or_introl eq_refl))); lra).
  destruct (extract_tile (fun t => t) None (Gray [1; 2; 5])) as [[[tile h]|]|] eqn:E.
  - exists tile, h. split; [reflexivity|]. apply tile_recognised; [|exact E]. intros x y _ _ L. apply exp_increasing, L.
  - exfalso. apply C. apply (tile_plain (fun t => t) (Gray [1; 2; 5])). exact E.
  - exfalso. unfold extract_tile in E. destruct (normalize (gray (Gray [1; 2; 5]))); discriminate.
Qed.
