(** Particle weights and statistics. *)
From Verif Require Import Base BaseLemmas XReal ResampleModel ResampleSpec ResampleProofs ResampleProofs2 ResampleProofs3.
From Coq Require Import Sorting.Sorted.
Open Scope R_scope.

(** ** update_weights *)
Lemma update_weights_none fexp tiny logs ws : Forall (fun o => o = None) logs -> update_weights fexp tiny logs ws = ws.
Proof.
  intros F. unfold update_weights. replace (flat_map _ logs) with (@nil (list R)); [reflexivity|]. induction F as [|o logs H F IH]; [reflexivity|]. subst o. exact IH.
Qed.
(** the total log likelihood of particle k *)
Definition total_log (logs : list (option (list R))) (k : nat) : R := sumR (map (fun o => match o with Some l => nth k l 0 | None => 0 end) logs).
Lemma fold_map2_length n ls : forall a, length a = n -> Forall (fun l => length l = n) ls -> length (fold_left (map2 Rplus) ls a) = n.
Proof.
  induction ls as [|l ls IH]; intros a La F; cbn; [exact La|]. inversion F; subst. apply IH; [|assumption]. rewrite map2_length. lia.
Qed.
Lemma map2_nth_R f (l m : list R) k : (k < length l)%nat -> (k < length m)%nat -> nth k (map2 f l m) 0 = f (nth k l 0) (nth k m 0).
Proof. revert m k. induction l as [|x l IH]; intros [|y m] [|k]; cbn; intros H1 H2; try lia; [reflexivity|]. apply IH; lia. Qed.
Lemma fold_map2_nth n ls k : (k < n)%nat -> forall a, length a = n -> Forall (fun l => length l = n) ls ->
  nth k (fold_left (map2 Rplus) ls a) 0 = nth k a 0 + sumR (map (fun l => nth k l 0) ls).
Proof.
  intros K. induction ls as [|l ls IH]; intros a La F; cbn [fold_left map]; [cbn; lra|]. inversion F; subst. rewrite IH; [|rewrite map2_length; lia|assumption].
  rewrite map2_nth_R by lia. change (sumR (nth k l 0 :: map (fun l0 => nth k l0 0) ls)) with (nth k l 0 + sumR (map (fun l0 => nth k l0 0) ls)). lra.
Qed.
Lemma update_weights_some fexp tiny logs ws n : Forall (fun o => match o with Some l => length l = n | None => True end) logs -> Exists (fun o => o <> None) logs ->
  length (update_weights fexp tiny logs ws) = n /\ forall k, (k < n)%nat -> nth k (update_weights fexp tiny logs ws) 0 = fexp (- total_log logs k) + tiny.
Proof.
  intros F E. set (present := flat_map (fun o : option (list R) => match o with Some l => [l] | None => [] end) logs).
  assert (Fp : Forall (fun l => length l = n) present).
  { unfold present. clear E. induction F as [|[l|] logs H F IH]; cbn; [constructor|constructor; auto|exact IH]. }
  assert (Tot : forall k, total_log logs k = sumR (map (fun l => nth k l 0) present)).
  { intros k. unfold present, total_log. clear. induction logs as [|[l|] logs IH]; cbn; [reflexivity| |]; unfold sumR in *; cbn in *; rewrite ?IH; [reflexivity|lra]. }
  assert (Ne : present <> []). { unfold present. clear F Fp Tot. induction E as [[l|] logs H|[l|] logs E IH]; cbn; try congruence; exact IH. }
  unfold update_weights. fold present. destruct present as [|l ls]; [congruence|]. inversion Fp as [|? ? H1 H2]; subst.
  assert (L : length (fold_left (map2 Rplus) ls (map (fun x => 0 + x) l)) = length l) by (apply fold_map2_length; [apply map_length|assumption]).
  split; [rewrite map_length; exact L|]. intros k K.
  rewrite (nth_indep _ 0 (fexp (- 0) + tiny)) by (rewrite map_length, L; exact K). rewrite (map_nth (fun s => fexp (- s) + tiny)). do 2 f_equal.
  rewrite (fold_map2_nth (length l) ls k K) by (rewrite ?map_length; auto). rewrite Tot. cbn [map].
  rewrite (nth_indep _ 0 (0 + 0)) by (rewrite map_length; exact K). rewrite (map_nth (fun x => 0 + x)).
  change (sumR (nth k l 0 :: map (fun l0 => nth k l0 0) ls)) with (nth k l 0 + sumR (map (fun l0 => nth k l0 0) ls)). lra.
Qed.
Lemma Forall_nth_R (P : R -> Prop) l : (forall k, (k < length l)%nat -> P (nth k l 0)) -> Forall P l.
Proof. intros H. apply Forall_forall. intros x Hx. destruct (In_nth l x 0 Hx) as (k & K & <-). auto. Qed.
Lemma sumR_pos l : Forall (fun w => 0 < w) l -> l <> [] -> 0 < sumR l.
Proof.
  intros F N. destruct F as [|x l Hx F]; [congruence|]. assert (0 <= sumR l) by (apply sumR_nonneg; eapply Forall_impl; [|exact F]; cbn; intros; lra). cbn. unfold sumR in H. lra.
Qed.

(** ** weighted averages *)
Lemma average_ok a ws : 0 < sumR ws -> average a ws = Ok (sumR (map2 Rmult a ws) / sumR ws).
Proof. intros H. unfold average. replace (Reqb (sumR ws) 0) with false by (symmetry; apply Reqb_false; lra). reflexivity. Qed.
Lemma dot_bounds a ws lo hi : length a = length ws -> Forall (fun w => 0 <= w) ws -> Forall (fun x => lo <= x <= hi) a ->
  lo * sumR ws <= sumR (map2 Rmult a ws) <= hi * sumR ws.
Proof.
  intros L F. revert a L. induction F as [|w ws Hw F IH]; intros [|x a] L B; cbn in L; try lia; [cbn; lra|]. inversion B as [|? ? Bx B']; subst.
  specialize (IH a ltac:(lia) B'). change (sumR (w :: ws)) with (w + sumR ws). change (sumR (map2 Rmult (x :: a) (w :: ws))) with (x * w + sumR (map2 Rmult a ws)).
  assert (lo * w <= x * w <= hi * w) by (split; apply Rmult_le_compat_r; lra). lra.
Qed.
Lemma average_between a ws lo hi : length a = length ws -> weights_ok ws -> Forall (fun x => lo <= x <= hi) a -> exists m, average a ws = Ok m /\ lo <= m <= hi.
Proof.
  intros L [F S] B. rewrite average_ok by exact S. eexists. split; [reflexivity|]. destruct (dot_bounds a ws lo hi L F B) as [B1 B2].
  split; apply Rmult_le_reg_r with (sumR ws); auto; unfold Rdiv; rewrite Rmult_assoc, Rinv_l by lra; lra.
Qed.
Lemma dot_affine a ws c d : length a = length ws -> sumR (map2 Rmult (map (fun x => c * x + d) a) ws) = c * sumR (map2 Rmult a ws) + d * sumR ws.
Proof.
  revert a. induction ws as [|w ws IH]; intros [|x a] L; cbn in L; try lia; [cbn; ring|]. cbn [map map2].
  change (sumR (w :: ws)) with (w + sumR ws). change (sumR (x * w :: map2 Rmult a ws)) with (x * w + sumR (map2 Rmult a ws)).
  change (sumR ((c * x + d) * w :: map2 Rmult (map (fun x0 => c * x0 + d) a) ws)) with ((c * x + d) * w + sumR (map2 Rmult (map (fun x0 => c * x0 + d) a) ws)). rewrite IH by lia. ring.
Qed.
Lemma average_affine a ws c d m : length a = length ws -> weights_ok ws -> average a ws = Ok m -> average (map (fun x => c * x + d) a) ws = Ok (c * m + d).
Proof.
  intros L [F S] E. rewrite average_ok in * by exact S. injection E as <-. f_equal. rewrite dot_affine by exact L. field. lra.
Qed.
Lemma dot_scale a ws k : sumR (map2 Rmult a (map (fun w => k * w) ws)) = k * sumR (map2 Rmult a ws).
Proof. revert a. induction ws as [|w ws IH]; intros [|x a]; cbn; try ring. unfold sumR in *. rewrite IH. ring. Qed.
Lemma sumR_scale ws k : sumR (map (fun w => k * w) ws) = k * sumR ws.
Proof. induction ws as [|w ws IH]; cbn; [ring|]. unfold sumR in *. rewrite IH. ring. Qed.
Lemma average_scale a ws k : 0 < k -> weights_ok ws -> average a (map (fun w => k * w) ws) = average a ws.
Proof.
  intros K [F S]. assert (0 < k * sumR ws) by (apply Rmult_lt_0_compat; lra). rewrite !average_ok; [|exact S|rewrite sumR_scale; exact H]. f_equal. rewrite dot_scale, sumR_scale. field. lra.
Qed.
(** ** covariance *)
Definition dotw (ws a b : list R) : R := sumR (map2 Rmult a (map2 Rmult b ws)).
Lemma dotw_nil_r ws a : dotw ws a [] = 0. Proof. unfold dotw. destruct a; reflexivity. Qed.
Lemma dotw_sym ws a b : dotw ws a b = dotw ws b a.
Proof.
  unfold dotw. revert a b. induction ws as [|w ws IH]; intros [|x a] [|y b]; cbn; try reflexivity. unfold sumR in *. rewrite IH. ring.
Qed.
Definition axpy (c : R) (a b : list R) : list R := map2 (fun x y => c * x + y) a b.
Lemma dotw_axpy ws c a b y : length b = length a -> dotw ws y (axpy c a b) = c * dotw ws y a + dotw ws y b.
Proof.
  unfold dotw, axpy. revert ws b y. induction a as [|x a IH]; intros ws [|z b] [|u y] L; cbn in L; try lia; destruct ws as [|w ws]; cbn; try ring.
  unfold sumR in *. rewrite IH by lia. ring.
Qed.
Fixpoint comb (n : nat) (vs : list R) (X : list (list R)) : list R :=
  match vs, X with v :: vs', a :: X' => axpy v a (comb n vs' X') | _, _ => repeat 0 n end.
Lemma comb_length n vs X : Forall (fun a => length a = n) X -> length (comb n vs X) = n.
Proof. intros F. revert vs. induction F as [|a X H F IH]; intros [|v vs]; cbn; try apply repeat_length. unfold axpy. rewrite map2_length, IH. lia. Qed.
Lemma dotw_zero ws y n : dotw ws y (repeat 0 n) = 0.
Proof. unfold dotw. revert ws y. induction n as [|n IH]; intros [|w ws] [|u y]; cbn; try reflexivity. unfold sumR in *. rewrite IH. ring. Qed.
Lemma dotw_comb ws n X y : Forall (fun a => length a = n) X -> forall vs, dotw ws y (comb n vs X) = sumR (map2 (fun v a => v * dotw ws y a) vs X).
Proof.
  intros F. induction F as [|a X H F IH]; intros [|v vs]; cbn [comb map2]; try apply dotw_zero.
  rewrite dotw_axpy by (rewrite comb_length by exact F; auto). rewrite IH. reflexivity.
Qed.
Lemma dotw_nonneg ws a : Forall (fun w => 0 <= w) ws -> 0 <= dotw ws a a.
Proof.
  intros F. unfold dotw. revert a. induction F as [|w ws Hw F IH]; intros [|x a]; cbn; try lra. specialize (IH a). unfold sumR in IH. assert (0 <= x * (x * w)) by (replace (x * (x * w)) with (x ^ 2 * w) by ring; apply Rmult_le_pos; [apply pow2_ge_0|exact Hw]). lra.
Qed.
Lemma dotw_sq ws a : dotw ws a a = sumR (map2 Rmult (map (fun x => x ^ 2) a) ws).
Proof. unfold dotw. revert a. induction ws as [|w ws IH]; intros [|x a]; cbn [map map2]; try reflexivity. change (sumR (?a :: ?l)) with (a + sumR l). rewrite IH. ring. Qed.
(** the deviations from the means *)
Definition deviations (cols : list (list R)) (means : list R) : list (list R) := map2 (fun a m => map (fun x => x - m) a) cols means.
Lemma covariance_eq cols ws means : particle_mean cols ws = Ok means -> particle_covariance cols ws =
  Ok (map (fun a => map (fun b => dotw ws a b * (1 / sumR ws)) (deviations cols means)) (deviations cols means)).
Proof. intros E. unfold particle_covariance. rewrite E. reflexivity. Qed.
Lemma particle_mean_ok cols ws : 0 < sumR ws -> particle_mean cols ws = Ok (map (fun a => sumR (map2 Rmult a ws) / sumR ws) cols).
Proof. intros S. unfold particle_mean. apply mapM_all_ok. intros a _. apply average_ok, S. Qed.
Lemma quad_form ws n X vs : Forall (fun a => length a = n) X ->
  sumR (map2 (fun v a => v * sumR (map2 (fun u b => u * dotw ws a b) vs X)) vs X) = dotw ws (comb n vs X) (comb n vs X).
Proof.
  intros F. rewrite (dotw_comb ws n X (comb n vs X) F vs). f_equal. assert (G : forall vs' X', Forall (fun a => In a X) X' ->
    map2 (fun v a => v * sumR (map2 (fun u b => u * dotw ws a b) vs X)) vs' X' = map2 (fun v a => v * dotw ws (comb n vs X) a) vs' X').
  { induction vs' as [|v vs' IH]; intros [|a X'] FX; cbn; try reflexivity. inversion FX; subst. rewrite IH by assumption. f_equal.
    rewrite (dotw_sym ws (comb n vs X) a), (dotw_comb ws n X a F vs). reflexivity. }
  apply G. apply Forall_forall. auto.
Qed.
(** ** sums over resampled particles *)
Lemma sumR_map_plus {A} (f g : A -> R) l : sumR (map (fun a => f a + g a) l) = sumR (map f l) + sumR (map g l).
Proof. induction l as [|a l IH]; cbn; [ring|]. unfold sumR in *. rewrite IH. ring. Qed.
Lemma sumR_indicator f i n : (i < n)%nat -> sumR (map (fun j => if Nat.eq_dec i j then f j else 0) (seq 0 n)) = f i.
Proof.
  intros H. assert (G : forall n m, sumR (map (fun j => if Nat.eq_dec i j then f j else 0) (seq m n)) = if (m <=? i)%nat && (i <? m + n)%nat then f i else 0).
  { clear H. intros k. induction k as [|k IH]; intros m; cbn [seq map].
    - change (0 = (if (m <=? i)%nat && (i <? m + 0)%nat then f i else 0)). destruct (Nat.leb_spec m i), (Nat.ltb_spec i (m + 0)); cbn [andb]; try reflexivity; lia.
    - change (sumR (?a :: ?l)) with (a + sumR l). rewrite IH. destruct (Nat.eq_dec i m) as [->|N].
      + replace (S m <=? m)%nat with false by (symmetry; apply Nat.leb_gt; lia). replace (m <=? m)%nat with true by (symmetry; apply Nat.leb_le; lia).
        replace (m <? m + S k)%nat with true by (symmetry; apply Nat.ltb_lt; lia). cbn. lra.
      + destruct (Nat.leb_spec (S m) i), (Nat.leb_spec m i), (Nat.ltb_spec i (S m + k)), (Nat.ltb_spec i (m + S k)); cbn; try lia; lra. }
  rewrite G. replace (0 <=? i)%nat with true by reflexivity. replace (i <? 0 + n)%nat with true by (symmetry; apply Nat.ltb_lt; lia). reflexivity.
Qed.
Lemma sumR_by_copies (f : nat -> R) idx n : Forall (fun i => (i < n)%nat) idx -> sumR (map f idx) = sumR (map (fun i => IZR (copies idx i) * f i) (seq 0 n)).
Proof.
  induction 1 as [|i idx Hi F IH].
  - cbn. rewrite (map_ext _ (fun _ => 0)) by (intros; unfold copies; cbn; ring). clear. induction (seq 0 n) as [|a l IH]; cbn; [reflexivity|]. unfold sumR in IH. rewrite <- IH. ring.
  - cbn [map]. change (sumR (f i :: map f idx)) with (f i + sumR (map f idx)). rewrite IH, <- (sumR_indicator f i n Hi), <- sumR_map_plus. f_equal. apply map_ext. intros j.
    unfold copies. cbn [count_occ]. destruct (Nat.eq_dec i j) as [->|N]; [rewrite Nat2Z.inj_succ, succ_IZR; ring|ring].
Qed.
Lemma map2_map_same {A} (f g : A -> R) l : map2 Rmult (map f l) (map g l) = map (fun a => f a * g a) l.
Proof. induction l as [|a l IH]; cbn; [reflexivity|]. rewrite IH. reflexivity. Qed.
Lemma seq_map_nth l : map (fun i => nth i l 0) (seq 0 (length l)) = l.
Proof.
  apply nth_ext with (d := 0) (d' := 0); [rewrite map_length, seq_length; reflexivity|]. intros k K. rewrite map_length, seq_length in K.
  rewrite (nth_indep _ 0 (nth 0 l 0)) by (rewrite map_length, seq_length; exact K). rewrite (map_nth (fun i => nth i l 0)), seq_nth by exact K. reflexivity.
Qed.
Theorem resampled_average xs ws idx (c : R) : length xs = length ws -> weights_ok ws -> Forall (fun i => (i < length ws)%nat) idx ->
  (forall i, (i < length ws)%nat -> IZR (copies idx i) = c * nth i ws 0) -> 0 < c ->
  average (map (fun i => nth i xs 0) idx) (map (fun i => nth i ws 0) idx)
  = average xs (map (fun w => w * w) ws).
Proof.
  intros L W F C P. set (n := length ws).
  assert (N1 : sumR (map2 Rmult (map (fun i => nth i xs 0) idx) (map (fun i => nth i ws 0) idx)) = c * sumR (map2 Rmult xs (map (fun w => w * w) ws))).
  { rewrite map2_map_same, (sumR_by_copies _ idx n F). rewrite (map_ext_in _ (fun i => c * (nth i xs 0 * (nth i ws 0 * nth i ws 0)))).
    - rewrite <- (map_map (fun i => nth i xs 0 * (nth i ws 0 * nth i ws 0)) (fun x => c * x)), sumR_scale.
      assert (Q : map2 Rmult xs (map (fun w => w * w) ws) = map (fun i => nth i xs 0 * (nth i ws 0 * nth i ws 0)) (seq 0 n)).
      { transitivity (map2 Rmult (map (fun i => nth i xs 0) (seq 0 (length xs))) (map (fun w => w * w) (map (fun i => nth i ws 0) (seq 0 (length ws))))); [rewrite !seq_map_nth; reflexivity|].
        rewrite map_map, L. fold n. apply map2_map_same. }
      rewrite Q. reflexivity.
    - intros i Hi. apply in_seq in Hi. rewrite C by (unfold n in Hi; lia). ring. }
  assert (N2 : sumR (map (fun i => nth i ws 0) idx) = c * sumR (map (fun w => w * w) ws)).
  { rewrite (sumR_by_copies _ idx n F). rewrite (map_ext_in _ (fun i => c * (nth i ws 0 * nth i ws 0))).
    - rewrite <- (map_map (fun i => nth i ws 0 * nth i ws 0) (fun x => c * x)), sumR_scale.
      assert (Q : map (fun w => w * w) ws = map (fun i => nth i ws 0 * nth i ws 0) (seq 0 n)).
      { transitivity (map (fun w => w * w) (map (fun i => nth i ws 0) (seq 0 (length ws)))); [rewrite seq_map_nth; reflexivity|]. rewrite map_map. reflexivity. }
      rewrite Q. reflexivity.
    - intros i Hi. apply in_seq in Hi. rewrite C by (unfold n in Hi; lia). ring. }
  assert (Sq : 0 < sumR (map (fun w => w * w) ws)).
  { destruct W as [Fw S]. clear - Fw S. induction Fw as [|w ws Hw Fw IH]; [cbn in S; lra|]. cbn [map]. change (sumR (w :: ws)) with (w + sumR ws) in S.
    change (sumR (w * w :: map (fun w0 => w0 * w0) ws)) with (w * w + sumR (map (fun w0 => w0 * w0) ws)).
    assert (N : 0 <= sumR (map (fun w0 => w0 * w0) ws)) by (apply sumR_nonneg, Forall_map, Forall_forall; intros; nra).
    destruct (Rle_lt_or_eq_dec _ _ Hw) as [Q|<-]; [nra|]. rewrite Rplus_0_l in S. specialize (IH S). lra. }
  rewrite !average_ok; [|exact Sq|rewrite N2; apply Rmult_lt_0_compat; lra]. f_equal. rewrite N1, N2. field. lra.
Qed.
