(** Property theorems about detected keypoints: C119 (src/glimpse/optimize.py:2191-2228). *)
From Verif Require Import Base BaseLemmas DetectModel.
Open Scope R_scope.

(** ** Specification *)
Definition total (l : list R) : R := fold_right Rplus 0 l.
Definition products (a b : list R) : list R := map (fun p => fst p * snd p) (combine a b).
(** Euclidean norm and distance, squared *)
Definition norm_sq (a : list R) : R := total (map (fun x => x * x) a).
Definition dist_sq (a b : list R) : R := total (map (fun p => (fst p - snd p) * (fst p - snd p)) (combine a b)).
Definition eps : R := / 10000000.
(** a row [r] is the square root of the normalised row [d] *)
Definition rooted (d r : list R) : Prop := Forall2 (fun x y => 0 <= y /\ y * y = x / (total d + eps)) d r.

Lemma total_nonneg l : Forall (fun x => 0 <= x) l -> 0 <= total l.
Proof. induction 1 as [|x l H F IH]; cbn; [lra|]. fold (total l). lra. Qed.
Lemma eps_pos : 0 < eps. Proof. unfold eps. lra. Qed.
Lemma total_scale (c : R) l : total (map (fun x => x / c) l) = total l / c.
Proof. induction l as [|x l IH]; cbn; [unfold Rdiv; ring|]. fold (total (map (fun x => x / c) l)). rewrite IH. fold (total l). unfold Rdiv. ring. Qed.
Lemma root_rooted d : Forall (fun x => 0 <= x) d -> rooted d (root_row d).
Proof.
  intros N. unfold rooted, root_row. pose proof (total_nonneg d N) as T. fold eps. change (sum_row d) with (total d). pose proof eps_pos as E. revert T. generalize (total d) as S. intros S T.
  induction N as [|x d H N IH]; cbn; constructor; [|exact IH]. split; [apply sqrt_pos|]. apply sqrt_sqrt. apply Rmult_le_pos; [exact H|]. left. apply Rinv_0_lt_compat. lra.
Qed.
Lemma rooted_norm d r : rooted d r -> norm_sq r = total d / (total d + eps).
Proof.
  unfold rooted, norm_sq. generalize (total d + eps) as c. intros c. induction 1 as [|x y d r [H E] F IH]; cbn; [unfold Rdiv; ring|]. fold (total (map (fun x => x * x) r)). rewrite IH, E. fold (total d). unfold Rdiv. ring.
Qed.
Lemma rooted_unique d r r' : rooted d r -> rooted d r' -> r = r'.
Proof.
  unfold rooted. generalize (total d + eps) as c. intros c H. revert r'. induction H as [|x y d r [Py E] F IH]; intros r' H'; inversion H' as [|? y' ? r2 [Py' E'] F']; subst; [reflexivity|]. f_equal; [|now apply IH].
  apply Rsqr_inj; [exact Py|exact Py'|]. unfold Rsqr. congruence.
Qed.

(** C119: without root the result is that of the detector for the image and mask cast to bytes; with root only the descriptors change, and
    no keypoints stay no keypoints *)
Theorem detect_result : forall {K} (detect : list Z -> option (list Z) -> list K * option (list (list R))) array mask,
  detect_keypoints detect array mask false = detect (map to_byte array) (option_map (map to_byte) mask) /\
  forall keypoints descriptors, detect (map to_byte array) (option_map (map to_byte) mask) = (keypoints, descriptors) ->
    (descriptors = None -> detect_keypoints detect array mask true = (keypoints, None)) /\
    (forall rows, descriptors = Some rows -> Forall (Forall (fun x => 0 <= x)) rows -> exists rows', detect_keypoints detect array mask true = (keypoints, Some rows') /\ Forall2 rooted rows rows').
Proof.
  intros K detect array mask. unfold detect_keypoints. destruct (detect (map to_byte array) (option_map (map to_byte) mask)) as [k ds]. split; [reflexivity|]. intros keypoints descriptors E. injection E as <- <-. split; [intros ->; reflexivity|].
  intros rows -> N. exists (map root_row rows). split; [reflexivity|]. clear - N. induction N as [|d rows H N IH]; cbn; constructor; [now apply root_rooted|exact IH].
Qed.

(** C119: an image of bytes (as whole numbers or with decimals, which are dropped) is detected as it is; a mask selects a pixel unless its
    whole part is a multiple of 256 *)
Theorem detect_bytes : forall x, 0 <= x < 256 -> IZR (to_byte x) <= x < IZR (to_byte x) + 1.
Proof.
  intros x H. unfold to_byte, Rtrunc. destruct (Rltb_spec x 0); [lra|]. pose proof (Rfloor_lb x). pose proof (Rfloor_ub x).
  rewrite Z.mod_small; [lra|]. split; [apply Rfloor_le; lra|]. apply Rfloor_lt. lra.
Qed.
Theorem detect_bytes_refuted : forall k, to_byte (IZR (256 * k)) = 0%Z.
Proof.
  intros k. unfold to_byte. replace (Rtrunc (IZR (256 * k))) with (256 * k)%Z; [rewrite Z.mul_comm; apply Z_mod_mult|]. unfold Rtrunc. symmetry. destruct (Rltb_spec (IZR (256 * k)) 0); [apply Rceil_imp|apply Rfloor_imp]; lra.
Qed.

Lemma Forall2_in_bound (c : R) d r : Forall2 (fun x y => 0 <= y /\ y * y = x / c) d r -> (forall x y, In x d -> 0 <= y -> y * y = x / c -> 0 <= y < 1) -> Forall (fun y => 0 <= y < 1) r.
Proof.
  induction 1 as [|x y d2 r2 [Py Ey] F IH]; intros G; [constructor|]. constructor; [apply (G x y (or_introl eq_refl) Py Ey)|]. apply IH. intros x' y' I'. apply G. now right.
Qed.
(** C119: rooted descriptors have entries between 0 and 1 and a norm below 1 (0 for a row of zeros), nearly 1 if the descriptor is not
    tiny *)
Theorem rooted_bounds : forall d r, Forall (fun x => 0 <= x) d -> rooted d r ->
  Forall (fun y => 0 <= y < 1) r /\ norm_sq r = 1 - eps / (total d + eps) /\ 0 <= norm_sq r < 1 /\ (1 <= total d -> 1 - eps <= norm_sq r).
Proof.
  intros d r N H. pose proof (total_nonneg d N) as T. pose proof eps_pos as E. rewrite (rooted_norm d r H).
  assert (Q : total d / (total d + eps) = 1 - eps / (total d + eps)) by (field; lra). assert (P : 0 < / (total d + eps)) by (apply Rinv_0_lt_compat; lra).
  assert (Lt : total d / (total d + eps) < 1). { rewrite Q. unfold Rdiv. pose proof (Rmult_lt_0_compat _ _ E P). lra. }
  split; [|split; [exact Q|split; [split|]]].
  - assert (B : forall x, In x d -> x <= total d). { clear - N. induction N as [|x l Hx N IH]; intros y I; [destruct I|]. cbn. fold (total l). pose proof (total_nonneg l N). destruct I as [->|I]; [lra|specialize (IH y I); lra]. }
    unfold rooted in H. revert H B Lt P. generalize (total d + eps) as c. intros c H B Lt P. assert (G : forall x y, In x d -> 0 <= y -> y * y = x / c -> 0 <= y < 1).
    { intros x y I Py Ey. split; [exact Py|]. assert (L : y * y < 1 * 1). { rewrite Ey. specialize (B x I). unfold Rdiv in *. assert (x * / c <= total d * / c) by (apply Rmult_le_compat_r; lra). lra. }
      apply Rnot_le_lt. intros Ge. assert (1 * 1 <= y * y) by (apply Rmult_le_compat; lra). lra. }
    now apply (Forall2_in_bound c d r H).
  - unfold Rdiv. apply Rmult_le_pos; [exact T|lra].
  - exact Lt.
  - intros G. rewrite Q. assert (I1 : / (total d + eps) <= 1). { rewrite <- Rinv_1. apply Rinv_le_contravar; lra. } unfold Rdiv. assert (eps * / (total d + eps) <= eps * 1) by (apply Rmult_le_compat_l; lra). lra.
Qed.

(** C119: the squared distance of two rooted descriptors is at most 2, and measures what the normalised descriptors have in common (the sum
    of the square roots of their products) *)
Lemma dist_expand : forall a b, length a = length b -> dist_sq a b = norm_sq a + norm_sq b - 2 * total (products a b).
Proof.
  induction a as [|x a IH]; intros [|y b] L; try discriminate; [cbn; ring|]. injection L as L. unfold dist_sq, norm_sq, products in *. cbn. specialize (IH b L).
  unfold total in *. rewrite IH. ring.
Qed.
Lemma rooted_length d r : rooted d r -> length r = length d. Proof. intros H. unfold rooted in H. revert H. generalize (total d + eps) as c. induction 1; cbn; congruence. Qed.
Lemma products_rooted : forall d r d' r' c c', Forall2 (fun x y => 0 <= y /\ y * y = x / c) d r -> Forall2 (fun x y => 0 <= y /\ y * y = x / c') d' r' -> 0 < c -> 0 < c' ->
  Forall (fun x => 0 <= x) d -> Forall (fun x => 0 <= x) d' ->
  total (products r r') = total (map (fun p => sqrt (fst p * snd p)) (combine d d')) / sqrt (c * c').
Proof.
  intros d r d' r' c c' H H' C C' N N'. assert (Sp : 0 < sqrt (c * c')) by (apply sqrt_lt_R0, Rmult_lt_0_compat; assumption).
  revert d' r' H' N'. induction H as [|x y d r [Py E] F IH]; intros d' r' H' N'; [cbn; unfold Rdiv; ring|]. inversion H' as [|x' y' d2 r2 [Py' E'] F' Q1 Q2]; subst; [cbn; unfold Rdiv; ring|].
  inversion N as [|? ? Nx Nd]; subst. inversion N' as [|? ? Nx' Nd']; subst. specialize (IH Nd d2 r2 F' Nd'). unfold products in *. cbn. unfold total in *. rewrite IH.
  assert (K : y * y' = sqrt (x * x') / sqrt (c * c')).
  { apply Rsqr_inj; [now apply Rmult_le_pos|unfold Rdiv; apply Rmult_le_pos; [apply sqrt_pos|left; now apply Rinv_0_lt_compat]|]. unfold Rsqr.
    replace (sqrt (x * x') / sqrt (c * c') * (sqrt (x * x') / sqrt (c * c'))) with ((sqrt (x * x') * sqrt (x * x')) / (sqrt (c * c') * sqrt (c * c'))) by (field; lra).
    rewrite !sqrt_sqrt by (try (left; now apply Rmult_lt_0_compat); now apply Rmult_le_pos). replace (y * y' * (y * y')) with ((y * y) * (y' * y')) by ring. rewrite E, E'. field. split; lra. }
  rewrite K. unfold Rdiv. ring.
Qed.
Theorem rooted_distance : forall d d' r r', Forall (fun x => 0 <= x) d -> Forall (fun x => 0 <= x) d' -> length d = length d' -> rooted d r -> rooted d' r' ->
  dist_sq r r' = total d / (total d + eps) + total d' / (total d' + eps) - 2 * (total (map (fun p => sqrt (fst p * snd p)) (combine d d')) / sqrt ((total d + eps) * (total d' + eps))) /\
  0 <= dist_sq r r' <= 2.
Proof.
  intros d d' r r' N N' L H H'. pose proof (rooted_length _ _ H) as L1. pose proof (rooted_length _ _ H') as L2. pose proof (total_nonneg d N). pose proof (total_nonneg d' N'). pose proof eps_pos.
  pose proof (dist_expand r r' ltac:(congruence)) as D. rewrite (rooted_norm _ _ H), (rooted_norm _ _ H') in D.
  pose proof (products_rooted d r d' r' (total d + eps) (total d' + eps) H H' ltac:(lra) ltac:(lra) N N') as P.
  split; [rewrite D, P; reflexivity|]. split.
  - unfold dist_sq. apply total_nonneg. apply Forall_forall. intros x I. apply in_map_iff in I as (p & <- & _). apply Rle_0_sqr.
  - assert (Pn : 0 <= total (products r r')). { apply total_nonneg. apply Forall_forall. intros x I. unfold products in I. apply in_map_iff in I as (p & <- & I). destruct p as [u v]. pose proof (in_combine_l _ _ _ _ I) as Iu. pose proof (in_combine_r _ _ _ _ I) as Iv. destruct (rooted_bounds d r N H) as (B & _). destruct (rooted_bounds d' r' N' H') as (B' & _). rewrite Forall_forall in B, B'. specialize (B u Iu). specialize (B' v Iv). cbn. apply Rmult_le_pos; lra. }
    destruct (rooted_bounds d r N H) as (_ & _ & [_ B] & _). destruct (rooted_bounds d' r' N' H') as (_ & _ & [_ B'] & _). rewrite (rooted_norm _ _ H) in B. rewrite (rooted_norm _ _ H') in B'. lra.
Qed.
(** C119: two descriptors that differ only in scale are at a distance below 1e-7 unless they are tiny *)
Lemma root_scaled : forall d r r' c c' k, Forall2 (fun x y => 0 <= y /\ y * y = x / c) d r -> Forall2 (fun x y => 0 <= y /\ y * y = x / c') (map (Rmult k) d) r' -> 0 < c -> 0 < c' -> 0 <= k -> Forall (fun x => 0 <= x) d ->
  r' = map (Rmult (sqrt (k * c / c'))) r.
Proof.
  intros d r r' c c' k H. revert r'. induction H as [|x y d r [Py E] F IH]; intros r' H' C C' K N; cbn in H'; inversion H' as [|? y' ? r2 [Py' E'] F']; subst; [reflexivity|]. inversion N; subst. cbn. f_equal; [|apply IH; assumption].
  assert (Kc : 0 <= k * c / c') by (unfold Rdiv; apply Rmult_le_pos; [apply Rmult_le_pos; lra|left; now apply Rinv_0_lt_compat]).
  apply Rsqr_inj; [exact Py'|apply Rmult_le_pos; [apply sqrt_pos|exact Py]|]. unfold Rsqr. rewrite E'. replace (sqrt (k * c / c') * y * (sqrt (k * c / c') * y)) with ((sqrt (k * c / c') * sqrt (k * c / c')) * (y * y)) by ring. rewrite sqrt_sqrt by exact Kc. rewrite E. field. split; lra.
Qed.
Lemma total_mult k l : total (map (Rmult k) l) = k * total l.
Proof. induction l as [|x l IH]; cbn; [ring|]. fold (total (map (Rmult k) l)). rewrite IH. fold (total l). ring. Qed.
Theorem rooted_scale : forall d r r' k, Forall (fun x => 0 <= x) d -> 0 < k -> rooted d r -> rooted (map (Rmult k) d) r' -> 1 <= total d -> 1 <= k * total d -> sqrt (dist_sq r r') <= eps.
Proof.
  intros d r r' k N K H H' T1 T2. pose proof eps_pos as E. pose proof (rooted_norm _ _ H) as Nr. unfold rooted in H, H'. rewrite total_mult in H'.
  pose proof (root_scaled d r r' _ _ k H H' ltac:(lra) ltac:(lra) ltac:(lra) N) as Q. set (q := k * (total d + eps) / (k * total d + eps)) in *. set (s := sqrt q) in *.
  assert (D : dist_sq r r' = (1 - s) * (1 - s) * norm_sq r). { rewrite Q. unfold dist_sq, norm_sq. clear. induction r as [|x r IH]; cbn; [ring|]. unfold total in *. rewrite IH. ring. }
  assert (Eq : q = 1 + eps * (k - 1) / (k * total d + eps)) by (unfold q; field; lra).
  assert (Ed : Rabs (eps * (k - 1) / (k * total d + eps)) <= eps).
  { unfold Rdiv. rewrite Rabs_mult, Rabs_mult, (Rabs_right eps) by lra. rewrite (Rabs_right (/ _)) by (left; apply Rinv_0_lt_compat; lra). rewrite Rmult_assoc. rewrite <- (Rmult_1_r eps) at 3. apply Rmult_le_compat_l; [lra|].
    apply Rmult_le_reg_r with (k * total d + eps); [lra|]. rewrite Rmult_assoc, Rinv_l, Rmult_1_r, Rmult_1_l by lra. unfold Rabs. destruct (Rcase_abs (k - 1)); [lra|].
    assert (k * 1 <= k * total d) by (apply Rmult_le_compat_l; lra). lra. }
  assert (Qp : 0 <= q) by (rewrite Eq; assert (eps <= 1) by (unfold eps; lra); apply Rabs_def2_le in Ed || idtac; unfold Rabs in Ed; destruct (Rcase_abs _) in Ed; lra).
  assert (Sp : 0 <= s) by apply sqrt_pos. assert (Sq : s * s = q) by (apply sqrt_sqrt; exact Qp).
  assert (Ds : Rabs (1 - s) <= eps).
  { assert (Rabs (1 - s) * (1 + s) <= eps). { rewrite <- (Rabs_right (1 + s)) at 1 by lra. rewrite <- Rabs_mult. replace ((1 - s) * (1 + s)) with (- (eps * (k - 1) / (k * total d + eps))) by lra. now rewrite Rabs_Ropp. }
    pose proof (Rabs_pos (1 - s)). assert (Rabs (1 - s) * 1 <= Rabs (1 - s) * (1 + s)) by (apply Rmult_le_compat_l; lra). lra. }
  assert (Nb : 0 <= norm_sq r <= 1). { rewrite Nr. unfold Rdiv. assert (P : 0 < / (total d + eps)) by (apply Rinv_0_lt_compat; lra). split; [apply Rmult_le_pos; lra|]. apply Rmult_le_reg_r with (total d + eps); [lra|]. rewrite Rmult_assoc, Rinv_l by lra. lra. }
  rewrite D. apply Rle_trans with (sqrt (eps * eps)); [|rewrite sqrt_square; lra]. apply sqrt_le_1_alt.
  assert (A : (1 - s) * (1 - s) <= eps * eps). { change ((1 - s) * (1 - s)) with (Rsqr (1 - s)). rewrite Rsqr_abs. unfold Rsqr. pose proof (Rabs_pos (1 - s)). apply Rmult_le_compat; lra. }
  assert (B : 0 <= (1 - s) * (1 - s)) by apply Rle_0_sqr. assert ((1 - s) * (1 - s) * norm_sq r <= (1 - s) * (1 - s) * 1) by (apply Rmult_le_compat_l; lra). lra.
Qed.
Print Assumptions detect_result.
Print Assumptions detect_bytes.
Print Assumptions detect_bytes_refuted.
Print Assumptions rooted_bounds.
Print Assumptions rooted_distance.
Print Assumptions rooted_scale.
(** A descriptor and its double *)
Example detect_ex : exists r r', rooted [1; 2] r /\ rooted (map (Rmult 2) [1; 2]) r' /\ 1 <= total [1; 2] /\ 1 <= 2 * total [1; 2] /\
  detect_keypoints (fun _ _ => ([tt], Some [[1; 2]])) [7] None true = ([tt], Some [r]).
Proof.
  exists (root_row [1; 2]), (root_row (map (Rmult 2) [1; 2])). split; [apply root_rooted; repeat constructor; lra|]. split; [apply root_rooted; cbn; repeat constructor; lra|]. cbn. split; [lra|]. split; [lra|reflexivity].
Qed.
