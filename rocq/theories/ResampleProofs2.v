(** Systematic, stratified and random-choice resampling. *)
From Verif Require Import Base BaseLemmas XReal ResampleModel ResampleSpec ResampleProofs.
From Coq Require Import Sorting.Sorted.
Open Scope R_scope.

Lemma weights_nonempty ws : weights_ok ws -> (0 < length ws)%nat.
Proof. intros [_ H]. destruct ws; [cbn in H; lra|cbn; lia]. Qed.
Lemma position_iff n k u c : (0 < n)%nat -> Rleb ((INR k + u) * (1 / INR n)) c = Rleb (INR k) (INR n * c - u).
Proof.
  intros H. apply lt_0_INR in H. assert (E : (INR k + u) * (1 / INR n) = (INR k + u) / INR n) by (unfold Rdiv; ring). rewrite E.
  destruct (Rleb_spec ((INR k + u) / INR n) c) as [L|L]; symmetry.
  - apply Rleb_true. apply Rmult_le_compat_r with (r := INR n) in L; [|lra]. unfold Rdiv in L. rewrite Rmult_assoc, Rinv_l in L by lra. lra.
  - apply Rnot_le_lt in L. apply Rleb_false. apply Rmult_lt_compat_r with (r := INR n) in L; [|lra]. unfold Rdiv in L. rewrite Rmult_assoc, Rinv_l in L by lra. lra.
Qed.
Lemma position_range n k u : (k < n)%nat -> unit_draw u -> 0 < (INR k + u) * (1 / INR n) < 1.
Proof.
  intros H [U1 U2]. assert (N : 0 < INR n) by (apply lt_0_INR; lia). assert (K : INR k + 1 <= INR n) by (rewrite <- S_INR; apply le_INR; lia).
  pose proof (pos_INR k). pose proof (Rinv_0_lt_compat _ N). unfold Rdiv. rewrite Rmult_1_l. split; [apply Rmult_lt_0_compat; lra|].
  apply Rmult_lt_reg_r with (INR n); [exact N|]. rewrite Rmult_assoc, Rinv_l by lra. lra.
Qed.

(** ** systematic *)
Lemma systematic_strata ws u : weights_ok ws -> unit_draw u ->
  Forall2 (in_stratum ws) (map (fun k => (INR k + u) * (1 / INR (length ws))) (seq 0 (length ws))) (systematic (length ws) ws u).
Proof.
  intros W U. unfold systematic. apply search_strata; [exact W|]. apply Forall_map, Forall_forall. intros k Hk. apply in_seq in Hk. apply position_range; [lia|exact U].
Qed.
Lemma systematic_length n ws u : length (systematic n ws u) = n.
Proof. unfold systematic. rewrite searchsorted_all_length, map_length, seq_length. reflexivity. Qed.
Lemma systematic_before ws u i : weights_ok ws -> unit_draw u -> (i <= length ws)%nat ->
  Z.of_nat (length (filter (fun x => Rleb x (share_before ws i)) (map (fun k => (INR k + u) * (1 / INR (length ws))) (seq 0 (length ws)))))
  = (Rfloor (INR (length ws) * share_before ws i - u) + 1)%Z.
Proof.
  intros W U L. rewrite filter_map_length. pose proof (weights_nonempty ws W) as N.
  rewrite (filter_ext _ (fun k => Rleb (INR k) (INR (length ws) * share_before ws i - u))) by (intros; apply position_iff; exact N).
  fold (cnt (fun k => Rleb (INR k) (INR (length ws) * share_before ws i - u)) (length ws)). rewrite cnt_le_floor.
  destruct U as [U1 U2]. pose proof (share_before_mono ws 0 i W ltac:(lia)) as S0. rewrite share_before_0 in S0.
  pose proof (share_before_mono ws i (length ws) W ltac:(lia)) as S1. rewrite share_before_all in S1 by apply W. apply lt_0_INR in N.
  assert (A : (-1 <= Rfloor (INR (length ws) * share_before ws i - u))%Z). { apply Rfloor_le. assert (0 <= INR (length ws) * share_before ws i) by (apply Rmult_le_pos; lra). lra. }
  assert (B : (Rfloor (INR (length ws) * share_before ws i - u) < Z.of_nat (length ws))%Z).
  { apply Rfloor_lt. rewrite <- INR_IZR_INZ. assert (INR (length ws) * share_before ws i <= INR (length ws) * 1) by (apply Rmult_le_compat_l; lra). lra. }
  lia.
Qed.
Theorem systematic_copies ws u i : weights_ok ws -> unit_draw u -> (i < length ws)%nat ->
  (Rfloor (INR (length ws) * share ws i) <= copies (systematic (length ws) ws u) i <= Rceil (INR (length ws) * share ws i))%Z.
Proof.
  intros W U L. rewrite (copies_diff ws _ _ i W (systematic_strata ws u W U) L). rewrite !systematic_before by (auto; lia).
  rewrite share_before_S by exact L. pose proof (Rfloor_diff (INR (length ws) * share_before ws i - u) (INR (length ws) * share ws i)) as Q.
  replace (INR (length ws) * (share_before ws i + share ws i) - u) with (INR (length ws) * share_before ws i - u + INR (length ws) * share ws i) by ring. lia.
Qed.
(** indexes found for increasing positions are in order *)
Lemma strata_sorted ws ps idx : weights_ok ws -> Forall2 (in_stratum ws) ps idx -> StronglySorted Rle ps -> StronglySorted le idx.
Proof.
  intros W H. induction H as [|p i ps idx Hp H IH]; intros S; [constructor|]. inversion S as [|? ? S1 S2]; subst. constructor; [auto|].
  clear IH S S1. induction H as [|q j ps idx Hq H IH]; [constructor|]. inversion S2 as [|? ? S3 S4]; subst. constructor; [|auto].
  destruct (le_lt_dec i j) as [L|L]; [exact L|]. exfalso. destruct Hp as [L1 H1], Hq as [L2 H2].
  pose proof (share_before_mono ws (S j) i W ltac:(lia)). lra.
Qed.
Lemma StronglySorted_positions {A} (f : nat -> A) (Rel : A -> A -> Prop) n m : (forall i j, (i < j)%nat -> Rel (f i) (f j)) -> StronglySorted Rel (map f (seq m n)).
Proof.
  intros H. revert m. induction n as [|n IH]; intros m; cbn; constructor; [apply IH|]. apply Forall_map, Forall_forall. intros k Hk. apply in_seq in Hk. apply H. lia.
Qed.
Lemma systematic_sorted ws u : weights_ok ws -> unit_draw u -> StronglySorted le (systematic (length ws) ws u).
Proof.
  intros W U. apply (strata_sorted ws _ _ W (systematic_strata ws u W U)). apply StronglySorted_positions. intros i j H. apply lt_INR in H.
  pose proof (weights_nonempty ws W) as N. apply lt_0_INR in N. pose proof (Rinv_0_lt_compat _ N). unfold Rdiv. rewrite Rmult_1_l. apply Rmult_le_compat_r; lra.
Qed.
Lemma strata_range ws ps idx : Forall2 (in_stratum ws) ps idx -> Forall (fun i => (i < length ws)%nat) idx.
Proof. induction 1 as [|p i ps idx [H _] _ IH]; constructor; auto. Qed.

(** ** stratified *)
Lemma map2_seq {B} (f : nat -> R -> B) us : forall m, map2 f (seq m (length us)) us = map (fun k => f k (nth (k - m) us 0)) (seq m (length us)).
Proof.
  induction us as [|u us IH]; intros m; cbn; [reflexivity|]. rewrite Nat.sub_diag. f_equal. rewrite IH. apply map_ext_in. intros k Hk. apply in_seq in Hk.
  replace (k - m)%nat with (S (k - S m)) by lia. reflexivity.
Qed.
Definition pos_of (us : list R) (k : nat) : R := (INR k + nth k us 0) * (1 / INR (length us)).
Lemma stratified_eq ws us : length us = length ws -> stratified (length ws) ws us = searchsorted_all Rltb Rltb 0 (cumsum (normalize ws)) (map (pos_of us) (seq 0 (length us))).
Proof.
  intros E. unfold stratified. rewrite <- E. rewrite map2_seq. f_equal. apply map_ext. intros k. rewrite Nat.sub_0_r. reflexivity.
Qed.
Lemma stratified_strata ws us : weights_ok ws -> length us = length ws -> Forall unit_draw us ->
  Forall2 (in_stratum ws) (map (pos_of us) (seq 0 (length us))) (stratified (length ws) ws us).
Proof.
  intros W E U. rewrite stratified_eq by exact E. apply search_strata; [exact W|]. apply Forall_map, Forall_forall. intros k Hk. apply in_seq in Hk.
  apply position_range; [lia|]. rewrite Forall_forall in U. apply U, nth_In. lia.
Qed.
Lemma stratified_before ws us i : weights_ok ws -> length us = length ws -> Forall unit_draw us -> (i <= length ws)%nat ->
  (Rfloor (INR (length ws) * share_before ws i) <=
   Z.of_nat (length (filter (fun x => Rleb x (share_before ws i)) (map (pos_of us) (seq 0 (length us)))))
   <= Rceil (INR (length ws) * share_before ws i))%Z.
Proof.
  intros W E U L. pose proof (weights_nonempty ws W) as N. rewrite filter_map_length. unfold pos_of. rewrite E.
  rewrite (filter_ext _ (fun k => Rleb (INR k) (INR (length ws) * share_before ws i - nth k us 0))) by (intros; apply position_iff; exact N).
  set (x := INR (length ws) * share_before ws i). rewrite Forall_forall in U.
  pose proof (share_before_mono ws 0 i W ltac:(lia)) as S0. rewrite share_before_0 in S0.
  pose proof (share_before_mono ws i (length ws) W ltac:(lia)) as S1. rewrite share_before_all in S1 by apply W. apply lt_0_INR in N.
  assert (X : 0 <= x <= INR (length ws)). { unfold x. split; [apply Rmult_le_pos; lra|]. assert (INR (length ws) * share_before ws i <= INR (length ws) * 1) by (apply Rmult_le_compat_l; lra). lra. }
  pose proof (Rfloor_le 0 x (proj1 X)) as F0. assert (F1 : (Rfloor x <= Z.of_nat (length ws))%Z) by (apply le_IZR; rewrite <- INR_IZR_INZ; pose proof (Rfloor_lb x); lra).
  split.
  - assert (Q : (cnt (fun k => Rleb (INR k) (x - 1)) (length ws) <= length (filter (fun k => Rleb (INR k) (x - nth k us 0%R)) (seq 0 (length ws))))%nat).
    { apply filter_length_le. intros k Hk H. apply in_seq in Hk. apply Rleb_true in H. apply Rleb_true. destruct (U (nth k us 0)) as [U1 U2]; [apply nth_In; lia|]. lra. }
    apply inj_le in Q. rewrite cnt_le_floor in Q. replace (x - 1) with (x + IZR (-1)) in Q by lra. rewrite Rfloor_plus_IZR in Q. lia.
  - (* k < x is necessary *)
    assert (Q : (length (filter (fun k => Rleb (INR k) (x - nth k us 0%R)) (seq 0 (length ws))) <= cnt (fun k => Rleb (INR k) (IZR (Rceil x - 1))) (length ws))%nat).
    { apply filter_length_le. intros k Hk H. apply in_seq in Hk. apply Rleb_true in H. apply Rleb_true. destruct (U (nth k us 0)) as [U1 U2]; [apply nth_In; lia|].
      rewrite INR_IZR_INZ in *. apply IZR_le. pose proof (Rceil_ub x). assert (K : IZR (Z.of_nat k) < IZR (Rceil x)) by lra. apply lt_IZR in K. lia. }
    apply inj_le in Q. rewrite cnt_le_floor, Rfloor_IZR in Q. assert (0 <= Rceil x)%Z by (apply le_IZR; pose proof (Rceil_ub x); lra). lia.
Qed.
Theorem stratified_copies ws us i : weights_ok ws -> length us = length ws -> Forall unit_draw us -> (i < length ws)%nat ->
  Rabs (IZR (copies (stratified (length ws) ws us) i) - INR (length ws) * share ws i) < 2.
Proof.
  intros W E U L. rewrite (copies_diff ws _ _ i W (stratified_strata ws us W E U) L).
  pose proof (stratified_before ws us i W E U ltac:(lia)) as A. pose proof (stratified_before ws us (S i) W E U ltac:(lia)) as B.
  rewrite minus_IZR. destruct A as [A1 A2], B as [B1 B2]. apply IZR_le in A1, A2, B1, B2.
  assert (EQ : INR (length ws) * share_before ws (S i) = INR (length ws) * share_before ws i + INR (length ws) * share ws i) by (rewrite share_before_S by exact L; ring).
  pose proof (Rfloor_ub (INR (length ws) * share_before ws i)). pose proof (Rceil_lb (INR (length ws) * share_before ws i)).
  pose proof (Rfloor_ub (INR (length ws) * share_before ws (S i))). pose proof (Rceil_lb (INR (length ws) * share_before ws (S i))).
  apply Rabs_def1; lra.
Qed.
Lemma stratified_sorted ws us : weights_ok ws -> length us = length ws -> Forall unit_draw us -> StronglySorted le (stratified (length ws) ws us).
Proof.
  intros W E U. apply (strata_sorted ws _ _ W (stratified_strata ws us W E U)). rewrite Forall_forall in U.
  assert (G : forall n m, (m + n <= length us)%nat -> StronglySorted Rle (map (pos_of us) (seq m n))).
  { induction n as [|n IH]; intros m Hm; cbn; constructor; [apply IH; lia|]. apply Forall_map, Forall_forall. intros k Hk. apply in_seq in Hk.
    unfold pos_of. pose proof (weights_nonempty ws W) as N. rewrite <- E in N. apply lt_0_INR in N. pose proof (Rinv_0_lt_compat _ N). unfold Rdiv. rewrite Rmult_1_l. apply Rmult_le_compat_r; [lra|].
    destruct (U (nth m us 0)) as [U1 U2]; [apply nth_In; lia|]. destruct (U (nth k us 0)) as [V1 V2]; [apply nth_In; lia|].
    assert (INR m + 1 <= INR k) by (rewrite <- S_INR; apply le_INR; lia). lra. }
  apply G. lia.
Qed.
Lemma stratified_length ws us : length us = length ws -> length (stratified (length ws) ws us) = length ws.
Proof. intros E. rewrite stratified_eq by exact E. rewrite searchsorted_all_length, map_length, seq_length. exact E. Qed.
(** a copied particle has positive weight *)
Lemma strata_positive ws ps idx : Forall2 (in_stratum ws) ps idx -> Forall (fun i => 0 < share ws i) idx.
Proof. induction 1 as [|p i ps idx [H1 H2] _ IH]; constructor; auto. rewrite share_before_S in H2 by exact H1. lra. Qed.

(** ** choice *)
Lemma cdf_nth ws i : weights_ok ws -> (i < length ws)%nat ->
  nth i (map (fun c => c / last (cumsum (normalize ws)) 0) (cumsum (normalize ws))) 0 = share_before ws (S i).
Proof.
  intros W L. rewrite (nth_indep _ 0 (0 / last (cumsum (normalize ws)) 0)) by (rewrite map_length, cum_norm_length; exact L).
  rewrite (map_nth (fun c => c / last (cumsum (normalize ws)) 0)), cum_norm_nth by exact L.
  assert (E : last (cumsum (normalize ws)) 0 = 1).
  { assert (G : forall (l : list R), last l 0 = nth (length l - 1) l 0). { induction l as [|a [|b l] IH]; [reflexivity..|]. cbn [last length] in *. rewrite IH. cbn. rewrite Nat.sub_0_r. reflexivity. }
    rewrite G, cum_norm_length, cum_norm_nth by lia. replace (S (length ws - 1)) with (length ws) by lia. apply share_before_all, W. }
  rewrite E. field.
Qed.
Theorem choice_strata ws us : weights_ok ws -> Forall (fun u => 0 <= u < 1) us ->
  Forall2 (fun u i => (i < length ws)%nat /\ share_before ws i <= u < share_before ws (S i)) us (choice (length ws) ws us).
Proof.
  intros W F. unfold choice. set (cdf := map _ (cumsum (normalize ws))).
  assert (Lc : length cdf = length ws) by (unfold cdf; rewrite map_length, cum_norm_length; reflexivity).
  assert (Nc : forall i, (i < length ws)%nat -> nth i cdf 0 = share_before ws (S i)) by (intros; apply cdf_nth; auto).
  assert (Q := searchsorted_all_spec Rltb Rleb 0 ltac:(intros a l k E1 E2; apply Rltb_true in E1; apply Rleb_true in E2; apply Rleb_true; lra)
    ltac:(intros a l k E1 E2; apply Rltb_false in E1; apply Rleb_false in E2; apply Rleb_false; lra) cdf us
    ltac:(intros k _ i j H E; rewrite Lc in H; rewrite Nc in * by lia; apply Rleb_true in E; apply Rleb_true; pose proof (share_before_mono ws (S i) (S j) W ltac:(lia)); lra)).
  revert F Q. generalize (searchsorted_all Rltb Rleb 0 cdf us). induction us as [|p us IH]; intros l F Q; inversion Q as [|? i ? l' Q1 Q2]; subst; [constructor|].
  inversion F as [|? ? Fp F']; subst. constructor; [|apply IH; auto].
  destruct Q1 as (L & B & A). rewrite Lc in L, A.
  assert (Hi : (i < length ws)%nat).
  { destruct (Nat.eq_dec i (length ws)) as [->|]; [|lia]. exfalso. pose proof (weights_nonempty ws W) as N.
    specialize (B (length ws - 1)%nat ltac:(lia)). rewrite Nc in B by lia. replace (S (length ws - 1)) with (length ws) in B by lia.
    rewrite share_before_all in B by apply W. apply Rleb_true in B. lra. }
  split; [exact Hi|]. specialize (A Hi). rewrite Nc in A by exact Hi. apply Rleb_false in A. split; [|exact A].
  destruct i as [|i]; [rewrite share_before_0; lra|]. specialize (B i ltac:(lia)). rewrite Nc in B by lia. apply Rleb_true in B. exact B.
Qed.

(** ** fancy indexing *)
Lemma take_ok {A} (l : list A) d idx : Forall (fun i => (i < length l)%nat) idx -> take l idx = Ok (map (fun i => nth i l d) idx).
Proof.
  intros F. unfold take. induction F as [|i idx H F IH]; [reflexivity|]. cbn [mapM map]. rewrite (nth_error_nth' l d H). cbn [bind]. rewrite IH. reflexivity.
Qed.
Lemma resample_ok {P} (d : P) m ps ws : length ps = length ws -> Forall (fun i => (i < length ws)%nat) (resample_indexes m (length ps) ws) ->
  exists ps' ws', resample_particles m ps ws = Ok (ps', ws') /\ selects d ps ws (resample_indexes m (length ps) ws) ps' ws'.
Proof.
  intros E F. assert (F' : Forall (fun i => (i < length ps)%nat) (resample_indexes m (length ps) ws)) by (eapply Forall_impl; [|exact F]; cbn; intros; lia).
  unfold resample_particles. rewrite (take_ok ps d) by exact F'. cbn [bind]. rewrite (take_ok ws 0) by exact F. cbn [bind].
  do 2 eexists. split; [reflexivity|]. split; [reflexivity|]. split; [reflexivity|]. exact F'.
Qed.
