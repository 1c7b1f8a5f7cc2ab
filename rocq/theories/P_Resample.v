(** Property theorems about particle weights, resampling and statistics (C35-C38, C59), src/glimpse/track/tracker.py:73-223. *)
From Verif Require Import Base BaseLemmas XReal ResampleModel ResampleSpec ResampleProofs ResampleProofs2 ResampleProofs3 ResampleProofs4.
From Coq Require Import Sorting.Sorted.
Open Scope R_scope.

(** C35, systematic: n particles, in order, each copied floor or ceil of n times its share *)
Theorem resample_systematic : forall {P} (d : P) ps ws u, length ps = length ws -> weights_ok ws -> unit_draw u ->
  exists idx ps' ws', resample_particles (Systematic u) ps ws = Ok (ps', ws') /\ selects d ps ws idx ps' ws' /\
    length idx = length ps /\ StronglySorted le idx /\
    forall i, (i < length ps)%nat ->
      (Rfloor (INR (length ps) * share ws i) <= copies idx i <= Rceil (INR (length ps) * share ws i))%Z.
Proof.
  intros P d ps ws u L W U. exists (systematic (length ps) ws u). rewrite L.
  destruct (resample_ok d (Systematic u) ps ws L) as (ps' & ws' & E & S).
  { cbn [resample_indexes]. rewrite L. apply (strata_range ws _ _ (systematic_strata ws u W U)). }
  exists ps', ws'. split; [exact E|]. cbn [resample_indexes] in S. rewrite L in S. split; [exact S|].
  split; [apply systematic_length|]. split; [apply systematic_sorted; auto|]. intros i Hi. apply systematic_copies; auto.
Qed.
Print Assumptions resample_systematic.
Example resample_systematic_ex : weights_ok [1; 0; 3] /\ unit_draw (/ 2) /\ share [1; 0; 3] 2 = 3 / 4.
Proof. split; [|split]; [split; [repeat (constructor; [lra|]); constructor|cbn; lra]|split; lra|unfold share; cbn; field]. Qed.
(** the boundary draw u = 0 always copies the first particle, even one of weight zero *)
Theorem resample_systematic_zero_draw_refuted : forall ws, weights_ok ws -> hd 1%nat (systematic (length ws) ws 0) = 0%nat.
Proof.
  intros ws W. pose proof (weights_nonempty ws W) as N. unfold systematic.
  assert (Q := searchsorted_all_spec Rltb Rltb 0 ltac:(intros a l k E1 E2; apply Rltb_true in E1, E2; apply Rltb_true; lra)
    ltac:(intros a l k E1 E2; apply Rltb_false in E1, E2; apply Rltb_false; lra) (cumsum (normalize ws))
    (map (fun k => (INR k + 0) * (1 / INR (length ws))) (seq 0 (length ws))) (fun k _ => cum_mono ws W k)).
  revert Q. generalize (searchsorted_all Rltb Rltb 0 (cumsum (normalize ws)) (map (fun k => (INR k + 0) * (1 / INR (length ws))) (seq 0 (length ws)))).
  intros idx Q. assert (Es : seq 0 (length ws) = 0%nat :: seq 1 (length ws - 1)) by (destruct ws; [cbn in N; lia|cbn; rewrite Nat.sub_0_r; reflexivity]).
  rewrite Es in Q. cbn [map] in Q.
  assert (G : forall A B (P : A -> B -> Prop) x xs l, Forall2 P (x :: xs) l -> exists i l', l = i :: l' /\ P x i) by (clear; intros A B P x xs l H; inversion H; subst; eauto).
  apply G in Q. destruct Q as (i0 & l0 & -> & H1 & H2 & H3). cbn [hd].
  destruct i0 as [|i0]; [reflexivity|]. exfalso. specialize (H2 0%nat ltac:(lia)). rewrite cum_norm_nth in H2 by lia. apply Rltb_true in H2. cbn [INR] in H2.
  pose proof (share_before_mono ws 0 1 W ltac:(lia)) as M. rewrite share_before_0 in M. lra.
Qed.
Print Assumptions resample_systematic_zero_draw_refuted.
Example resample_systematic_zero_draw_ex : weights_ok [0; 1] /\ share [0; 1] 0 = 0.
Proof. split; [split; [repeat (constructor; [lra|]); constructor|cbn; lra]|unfold share; cbn; field]. Qed.

(** C35, stratified: n particles, in order, each copied less than 2 more or fewer times than n times its share; none of weight zero *)
Theorem resample_stratified : forall {P} (d : P) ps ws us, length ps = length ws -> weights_ok ws -> length us = length ps -> Forall unit_draw us ->
  exists idx ps' ws', resample_particles (Stratified us) ps ws = Ok (ps', ws') /\ selects d ps ws idx ps' ws' /\
    length idx = length ps /\ StronglySorted le idx /\
    (forall i, (i < length ps)%nat -> Rabs (IZR (copies idx i) - INR (length ps) * share ws i) < 2) /\
    Forall (fun i => 0 < share ws i) idx.
Proof.
  intros P d ps ws us L W Lu U. exists (stratified (length ps) ws us). rewrite L in *.
  destruct (resample_ok d (Stratified us) ps ws L) as (ps' & ws' & E & S).
  { cbn [resample_indexes]. rewrite L. apply (strata_range ws _ _ (stratified_strata ws us W Lu U)). }
  exists ps', ws'. split; [exact E|]. cbn [resample_indexes] in S. rewrite L in S. split; [exact S|].
  split; [apply stratified_length; auto|]. split; [apply stratified_sorted; auto|]. split; [intros i Hi; apply stratified_copies; auto|].
  apply (strata_positive ws _ _ (stratified_strata ws us W Lu U)).
Qed.
Print Assumptions resample_stratified.
Example resample_stratified_ex : weights_ok [1; 3] /\ Forall unit_draw [/ 2; / 3].
Proof. split; [split; [repeat (constructor; [lra|]); constructor|cbn; lra]|]. repeat (constructor; [split; lra|]). constructor. Qed.
(** C35, choice: the draw u selects the particle whose share of [0, 1) contains it *)
Theorem resample_choice : forall {P} (d : P) ps ws us, length ps = length ws -> weights_ok ws -> length us = length ps -> Forall (fun u => 0 <= u < 1) us ->
  exists idx ps' ws', resample_particles (Choice us) ps ws = Ok (ps', ws') /\ selects d ps ws idx ps' ws' /\ length idx = length ps /\
    Forall2 (fun u i => share_before ws i <= u < share_before ws i + share ws i) us idx.
Proof.
  intros P d ps ws us L W Lu U. exists (choice (length ps) ws us). rewrite L in *. pose proof (choice_strata ws us W U) as S.
  destruct (resample_ok d (Choice us) ps ws L) as (ps' & ws' & E & Q).
  { cbn [resample_indexes]. rewrite L. clear - S. induction S as [|u i us idx [H _] _ IH]; constructor; auto. }
  exists ps', ws'. split; [exact E|]. cbn [resample_indexes] in Q. rewrite L in Q. split; [exact Q|].
  split; [unfold choice; rewrite searchsorted_all_length; exact Lu|].
  clear - S. induction S as [|u i us idx [H1 H2] _ IH]; constructor; auto. rewrite <- share_before_S by exact H1. exact H2.
Qed.
Print Assumptions resample_choice.

(** C36: n particles, none out of range, each copied at least floor (n share) times *)
Theorem resample_residual_counts : forall {P} (d : P) ps ws us, length ps = length ws -> weights_ok ws -> Forall (fun u => 0 <= u < 1) us ->
  length us = residual_draws (length ps) ws ->
  exists idx ps' ws', resample_particles (Residual us) ps ws = Ok (ps', ws') /\ selects d ps ws idx ps' ws' /\ length idx = length ps /\
    forall i, (i < length ps)%nat -> (Rfloor (INR (length ps) * share ws i) <= copies idx i)%Z.
Proof.
  intros P d ps ws us L W U Lu. exists (residual (length ps) ws us). rewrite L in *.
  destruct (resample_ok d (Residual us) ps ws L) as (ps' & ws' & E & Q).
  { cbn [resample_indexes]. rewrite L. apply residual_range; auto. }
  exists ps', ws'. split; [exact E|]. cbn [resample_indexes] in Q. rewrite L in Q. split; [exact Q|].
  split; [apply residual_length; auto|]. intros i Hi. apply residual_at_least; auto.
Qed.
Print Assumptions resample_residual_counts.
(** Finding: the remaining draws are not in proportion to n share - floor (n share).
    When the first particle is due two or more copies and no other is due one, every
    remaining draw, whatever it is, copies the first particle: all others are lost,
    however large their residuals. *)
Theorem resample_residual_refuted : forall {P} (p : P) (ps : list P) w ws us, length ps = length ws -> weights_ok (w :: ws) -> Forall (fun u => 0 <= u < 1) us ->
  length us = residual_draws (length (p :: ps)) (w :: ws) ->
  2 <= INR (length (p :: ps)) * share (w :: ws) 0 ->
  (forall i, (0 < i <= length ps)%nat -> INR (length (p :: ps)) * share (w :: ws) i < 1) ->
  resample_particles (Residual us) (p :: ps) (w :: ws) = Ok (repeat p (length (p :: ps)), repeat w (length (p :: ps))).
Proof.
  intros P p ps w ws us L W U Lu H2 H1. assert (E : length (p :: ps) = length (w :: ws)) by (cbn [length]; lia). rewrite E in *.
  unfold resample_particles. rewrite E. cbn [resample_indexes]. rewrite (residual_dominant w ws us W U H2); [|intros; apply H1; lia|exact Lu].
  rewrite (take_ok (p :: ps) p), (take_ok (w :: ws) 0).
  - cbn [bind]. f_equal. clear. assert (G : forall {A} (f : nat -> A) n, map f (repeat 0%nat n) = repeat (f 0%nat) n) by (intros A f n; induction n; cbn; congruence). rewrite !G. reflexivity.
  - apply Forall_forall. intros i Hi. apply repeat_spec in Hi. subst. cbn. lia.
  - apply Forall_forall. intros i Hi. apply repeat_spec in Hi. subst. cbn. lia.
Qed.
Print Assumptions resample_residual_refuted.
(** 7 : 2 : 1 with three particles: the residuals are 0.1, 0.6 and 0.3 *)
Example resample_residual_ex : weights_ok [7; 2; 1] /\ 2 <= INR 3 * share [7; 2; 1] 0 /\
  (forall i, (0 < i <= 2)%nat -> INR 3 * share [7; 2; 1] i < 1) /\ INR 3 * share [7; 2; 1] 1 = 6 / 10.
Proof.
  split; [split; [repeat (constructor; [lra|]); constructor|cbn; lra]|]. unfold share. split; [cbn; lra|]. split; [|cbn; field].
  intros i Hi. destruct i as [|[|[|i]]]; try lia; cbn; lra.
Qed.

(** C37: weights are strictly positive, whatever the likelihoods, even if the exponential underflows to 0 *)
Theorem update_weights_positive : forall fexp tiny logs ws n, (forall x, 0 <= fexp x) -> 0 < tiny ->
  Forall (fun o => match o with Some l => length l = n | None => True end) logs -> Exists (fun o => o <> None) logs ->
  length (update_weights fexp tiny logs ws) = n /\ Forall (fun w => 0 < w) (update_weights fexp tiny logs ws) /\
  ((0 < n)%nat -> weights_ok (update_weights fexp tiny logs ws)) /\
  (forall k, (k < n)%nat -> nth k (update_weights fexp tiny logs ws) 0 = fexp (- total_log logs k) + tiny) /\
  ((forall x y, x <= y -> fexp x <= fexp y) -> forall j k, (j < n)%nat -> (k < n)%nat -> total_log logs j <= total_log logs k ->
    nth k (update_weights fexp tiny logs ws) 0 <= nth j (update_weights fexp tiny logs ws) 0).
Proof.
  intros fexp tiny logs ws n Fe T F E. destruct (update_weights_some fexp tiny logs ws n F E) as [L N].
  assert (Pos : Forall (fun w => 0 < w) (update_weights fexp tiny logs ws)).
  { apply Forall_nth_R. intros k K. rewrite L in K. rewrite N by exact K. specialize (Fe (- total_log logs k)). lra. }
  split; [exact L|]. split; [exact Pos|]. split; [|split; [exact N|]].
  - intros P. split; [eapply Forall_impl; [|exact Pos]; cbn; intros; lra|]. apply sumR_pos; [exact Pos|]. intros Q. rewrite Q in L. cbn in L. lia.
  - intros M j k Hj Hk H. rewrite !N by auto. assert (fexp (- total_log logs k) <= fexp (- total_log logs j)) by (apply M; lra). lra.
Qed.
Print Assumptions update_weights_positive.
Theorem update_weights_unchanged : forall fexp tiny logs ws, Forall (fun o => o = None) logs -> update_weights fexp tiny logs ws = ws.
Proof. exact update_weights_none. Qed.
Print Assumptions update_weights_unchanged.
Example update_weights_ex : (forall x, 0 <= exp x) /\ Forall (fun o => match o with Some l => length l = 2%nat | None => True end) [None; Some [1; 1000]] /\
  Exists (fun o : option (list R) => o <> None) [None; Some [1; 1000]].
Proof.
  split; [intros x; left; apply exp_pos|]. split; [constructor; [exact I|]; constructor; [reflexivity|constructor]|]. apply Exists_cons_tl, Exists_cons_hd. discriminate.
Qed.

(** C38: each component of the mean is between the extremes of the particles, and moves and scales with them *)
Theorem particle_mean_bounds : forall cols ws, weights_ok ws -> Forall (fun a => length a = length ws) cols ->
  exists means, particle_mean cols ws = Ok means /\ length means = length cols /\
   forall c, (c < length cols)%nat ->
     (forall lo hi, Forall (fun x => lo <= x <= hi) (nth c cols []) -> lo <= nth c means 0 <= hi) /\
     (forall x, Forall (fun y => y = x) (nth c cols []) -> nth c means 0 = x) /\
     nth c means 0 * sumR ws = sumR (map2 Rmult (nth c cols []) ws).
Proof.
  intros cols ws W F. rewrite particle_mean_ok by apply W. eexists. split; [reflexivity|]. split; [apply map_length|]. intros c C.
  assert (E : nth c (map (fun a => sumR (map2 Rmult a ws) / sumR ws) cols) 0 = sumR (map2 Rmult (nth c cols []) ws) / sumR ws).
  { rewrite (nth_indep _ 0 (sumR (map2 Rmult [] ws) / sumR ws)) by (rewrite map_length; exact C). rewrite (map_nth (fun a => sumR (map2 Rmult a ws) / sumR ws)). reflexivity. }
  assert (La : length (nth c cols []) = length ws) by (rewrite Forall_forall in F; apply F, nth_In; exact C).
  assert (B : forall lo hi, Forall (fun x => lo <= x <= hi) (nth c cols []) -> lo <= nth c (map (fun a => sumR (map2 Rmult a ws) / sumR ws) cols) 0 <= hi).
  { intros lo hi B. destruct (average_between (nth c cols []) ws lo hi La W B) as (m & Em & Bm). rewrite average_ok in Em by apply W. injection Em as <-. rewrite E. exact Bm. }
  split; [exact B|]. split.
  - intros x H. assert (Hx : Forall (fun y => x <= y <= x) (nth c cols [])) by (eapply Forall_impl; [|exact H]; cbn; intros; lra).
    specialize (B x x Hx). lra.
  - rewrite E. destruct W as [_ S]. field. lra.
Qed.
Print Assumptions particle_mean_bounds.
Theorem particle_mean_affine : forall a ws c d m, length a = length ws -> weights_ok ws -> average a ws = Ok m ->
  average (map (fun x => c * x + d) a) ws = Ok (c * m + d).
Proof. exact average_affine. Qed.
Print Assumptions particle_mean_affine.
(** only the proportions of the weights matter *)
Theorem particle_mean_scale : forall cols ws k, 0 < k -> weights_ok ws -> particle_mean cols (map (fun w => k * w) ws) = particle_mean cols ws.
Proof.
  intros cols ws k K W. unfold particle_mean. induction cols as [|a cols IH]; [reflexivity|]. cbn [mapM]. rewrite average_scale by auto. rewrite IH. reflexivity.
Qed.
Print Assumptions particle_mean_scale.

(** C38: the reported standard deviations are the roots of the diagonal of the
    covariance matrix, which is symmetric and positive semidefinite *)
Theorem particle_covariance_psd : forall cols ws, weights_ok ws -> Forall (fun a => length a = length ws) cols ->
  exists C sd, particle_covariance cols ws = Ok C /\ compute_particle_sigma cols ws = Ok sd /\
   length C = length cols /\ Forall (fun r => length r = length cols) C /\ length sd = length cols /\
   (forall i j, (i < length cols)%nat -> (j < length cols)%nat -> nth j (nth i C []) 0 = nth i (nth j C []) 0) /\
   (forall i, (i < length cols)%nat -> 0 <= nth i sd 0 /\ (nth i sd 0) ^ 2 = nth i (nth i C []) 0) /\
   (forall v, length v = length cols -> 0 <= sumR (map2 (fun vi row => vi * sumR (map2 (fun vj c => vj * c) v row)) v C)).
Proof.
  intros cols ws W F. pose proof (particle_mean_ok cols ws (proj2 W)) as Em. set (means := map _ cols) in Em.
  rewrite (covariance_eq cols ws means Em). set (X := deviations cols means).
  assert (LX : length X = length cols) by (unfold X, deviations; rewrite map2_length; unfold means; rewrite map_length; lia).
  assert (FX : Forall (fun a => length a = length ws) X).
  { unfold X, deviations, means. clear -F. assert (G : forall m l, Forall (fun a : list R => length a = length ws) l -> Forall (fun a => length a = length ws) (map2 (fun a m => map (fun x => x - m) a) l m)).
    { intros m l H. revert m. induction H as [|a l H F' IH]; intros [|y m]; cbn; constructor; [rewrite map_length; exact H|apply IH]. }
    apply G, F. }
  assert (NX : forall i, (i < length cols)%nat -> nth i X [] = map (fun x => x - nth i means 0) (nth i cols [])).
  { unfold X, deviations, means. clear. induction cols as [|a cols IH]; intros i H; cbn in H; [lia|]. cbn [map map2]. destruct i as [|i]; [reflexivity|]. cbn [nth]. apply IH. lia. }
  set (C := map (fun a => map (fun b => dotw ws a b * (1 / sumR ws)) X) X).
  assert (NC : forall i j, (i < length cols)%nat -> (j < length cols)%nat -> nth j (nth i C []) 0 = dotw ws (nth i X []) (nth j X []) * (1 / sumR ws)).
  { intros i j Hi Hj. unfold C. rewrite (nth_indep _ [] (map (fun b => dotw ws [] b * (1 / sumR ws)) X)) by (rewrite map_length; lia).
    rewrite (map_nth (fun a => map (fun b => dotw ws a b * (1 / sumR ws)) X)).
    rewrite (nth_indep _ 0 (dotw ws (nth i X []) [] * (1 / sumR ws))) by (rewrite map_length; lia). rewrite (map_nth (fun b => dotw ws (nth i X []) b * (1 / sumR ws))). reflexivity. }
  set (sd := map (fun am => sqrt (sumR (map2 Rmult (map (fun x => (x - snd am) ^ 2) (fst am)) ws) / sumR ws)) (combine cols means)).
  assert (Lm : length means = length cols) by apply map_length.
  exists C, sd. split; [reflexivity|]. split.
  { unfold compute_particle_sigma. rewrite Em. cbn [bind]. apply (mapM_all_ok _ (fun am => sqrt (sumR (map2 Rmult (map (fun x => (x - snd am) ^ 2) (fst am)) ws) / sumR ws))).
    intros am _. rewrite average_ok by apply W. reflexivity. }
  assert (Nn : forall a, 0 <= dotw ws a a * (1 / sumR ws)).
  { intros a. destruct W as [Fw S]. apply Rmult_le_pos; [apply dotw_nonneg; exact Fw|]. unfold Rdiv. rewrite Rmult_1_l. left. apply Rinv_0_lt_compat. exact S. }
  split; [unfold C; rewrite map_length; exact LX|]. split; [unfold C; apply Forall_map, Forall_forall; intros a _; rewrite map_length; exact LX|].
  split; [unfold sd; rewrite map_length, combine_length; lia|]. split; [|split].
  - intros i j Hi Hj. rewrite !NC by auto. rewrite dotw_sym. reflexivity.
  - intros i Hi. assert (En : nth i sd 0 = sqrt (dotw ws (nth i X []) (nth i X []) * (1 / sumR ws))).
    { unfold sd. rewrite (nth_indep _ 0 (sqrt (sumR (map2 Rmult (map (fun x => (x - snd (([] : list R), 0)) ^ 2) (fst (([] : list R), 0))) ws) / sumR ws))) by (rewrite map_length, combine_length; lia).
      rewrite (map_nth (fun am : list R * R => sqrt (sumR (map2 Rmult (map (fun x => (x - snd am) ^ 2) (fst am)) ws) / sumR ws))). rewrite combine_nth by lia. cbn [fst snd].
      rewrite dotw_sq, NX by exact Hi. rewrite map_map. f_equal. unfold Rdiv. ring. }
    rewrite En, NC by auto. split; [apply sqrt_pos|]. apply pow2_sqrt. apply Nn.
  - intros v Lv. assert (Q : sumR (map2 (fun vi row => vi * sumR (map2 (fun vj c => vj * c) v row)) v C) = dotw ws (comb (length ws) v X) (comb (length ws) v X) * (1 / sumR ws)).
    { rewrite <- quad_form by exact FX. set (k := 1 / sumR ws). unfold C. fold k.
      assert (G1 : forall a v' X', sumR (map2 (fun vj c => vj * c) v' (map (fun b => dotw ws a b * k) X')) = sumR (map2 (fun u b => u * dotw ws a b) v' X') * k).
      { intros a. induction v' as [|x v' IH]; intros [|b X']; cbn; try ring. unfold sumR in *. rewrite IH. ring. }
      assert (G2 : forall v' X', sumR (map2 (fun vi row => vi * sumR (map2 (fun vj c => vj * c) v row)) v' (map (fun a => map (fun b => dotw ws a b * k) X) X'))
        = sumR (map2 (fun v0 a => v0 * sumR (map2 (fun u b => u * dotw ws a b) v X)) v' X') * k).
      { induction v' as [|x v' IH]; intros [|b X']; cbn; try ring. rewrite G1. unfold sumR in *. rewrite IH. ring. }
      apply G2. }
    rewrite Q. apply Nn.
Qed.
Print Assumptions particle_covariance_psd.
Example particle_covariance_ex : weights_ok [1; 2] /\ Forall (fun a : list R => length a = 2%nat) [[0; 1]; [3; 5]].
Proof. split; [split; [repeat (constructor; [lra|]); constructor|cbn; lra]|repeat constructor]. Qed.

(** C59: resampling should leave the estimate unchanged when copies are exactly
    proportional to weights.  Finding: the weights are kept with the resampled
    particles, so they count twice: the mean reported after resampling is the
    mean weighted by the squared weights. *)
Theorem resample_double_weight_refuted : forall xs ws u, length xs = length ws -> weights_ok ws -> unit_draw u ->
  (forall i, (i < length ws)%nat -> exists c, INR (length ws) * share ws i = IZR c) ->
  exists xs' ws', resample_particles (Systematic u) xs ws = Ok (xs', ws') /\
    average xs' ws' = average xs (map (fun w => w * w) ws) /\
    average xs' (initialize_weights xs') = average xs ws.
Proof.
  intros xs ws u L W U I. destruct (resample_systematic 0 xs ws u L W U) as (idx & xs' & ws' & E & (S1 & S2 & S3) & Ln & _ & Cp).
  exists xs', ws'. split; [exact E|]. rewrite L in *. pose proof (weights_nonempty ws W) as N. apply lt_0_INR in N. destruct W as [Fw Sw].
  assert (C : forall i, (i < length ws)%nat -> IZR (copies idx i) = INR (length ws) / sumR ws * nth i ws 0).
  { intros i Hi. destruct (I i Hi) as [c Ec]. specialize (Cp i Hi). rewrite Ec, Rfloor_IZR, Rceil_IZR in Cp. replace (copies idx i) with c by lia. rewrite <- Ec. unfold share. field. lra. }
  split.
  - rewrite S1, S2. apply (resampled_average xs ws idx (INR (length ws) / sumR ws)); auto; [split; auto|]. apply Rdiv_lt_0_compat; lra.
  - unfold initialize_weights. rewrite S1, map_length, Ln.
    assert (One : sumR (repeat 1 (length ws)) = INR (length ws)).
    { clear. induction (length ws) as [|n IH]; [reflexivity|]. rewrite S_INR. cbn [repeat]. change (sumR (1 :: repeat 1 n)) with (1 + sumR (repeat 1 n)). rewrite IH. ring. }
    rewrite !average_ok; [|exact Sw|rewrite One; exact N]. f_equal. rewrite One.
    assert (D : sumR (map2 Rmult (map (fun i => nth i xs 0) idx) (repeat 1 (length ws))) = sumR (map (fun i => nth i xs 0) idx)).
    { rewrite <- Ln. clear. induction idx as [|i idx IH]; [reflexivity|]. cbn [map repeat length map2]. change (sumR (?a :: ?l)) with (a + sumR l). rewrite IH. ring. }
    rewrite D, (sumR_by_copies _ idx (length ws) S3). rewrite (map_ext_in _ (fun i => INR (length ws) / sumR ws * (nth i xs 0 * nth i ws 0))).
    + rewrite <- (map_map (fun i => nth i xs 0 * nth i ws 0) (fun x => INR (length ws) / sumR ws * x)), sumR_scale, <- map2_map_same.
      rewrite seq_map_nth. rewrite <- L at 2. rewrite seq_map_nth. field. lra.
    + intros i Hi. apply in_seq in Hi. rewrite C by lia. ring.
Qed.
Print Assumptions resample_double_weight_refuted.
(** weights 2 : 1 : 0 on three particles at 3, 0, 0: the mean should be 2 but 2.4 is reported *)
Example resample_double_weight_ex : let ws := [2; 1; 0] in
  weights_ok ws /\ (forall i, (i < 3)%nat -> exists c, INR 3 * share ws i = IZR c) /\
  average [3; 0; 0] ws = Ok 2 /\ average [3; 0; 0] (map (fun w => w * w) ws) = Ok (12 / 5).
Proof.
  intros ws. split; [split; [repeat (constructor; [lra|]); constructor|cbn; lra]|]. split; [|split].
  - intros i Hi. unfold share. destruct i as [|[|[|i]]]; [exists 2%Z|exists 1%Z|exists 0%Z|lia]; cbn; field.
  - rewrite average_ok by (cbn; lra). f_equal. cbn. field.
  - rewrite average_ok by (cbn; lra). f_equal. cbn. field.
Qed.
