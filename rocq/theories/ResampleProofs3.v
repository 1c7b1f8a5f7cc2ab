(** Residual resampling; weights; statistics. *)
From Verif Require Import Base BaseLemmas XReal ResampleModel ResampleSpec ResampleProofs ResampleProofs2.
From Coq Require Import Sorting.Sorted.
Open Scope R_scope.

Lemma count_occ_repeat_nat k r i : count_occ Nat.eq_dec (repeat k r) i = if Nat.eq_dec k i then r else 0%nat.
Proof. induction r as [|r IH]; cbn; [destruct (Nat.eq_dec k i); reflexivity|]. rewrite IH. destruct (Nat.eq_dec k i); reflexivity. Qed.
Lemma repeat_each_copies reps i : (i < length reps)%nat -> count_occ Nat.eq_dec (repeat_each reps) i = nth i reps 0%nat.
Proof.
  unfold repeat_each. assert (G : forall reps m, count_occ Nat.eq_dec (concat (map2 (fun k r => repeat k r) (seq m (length reps)) reps)) i
    = if (i <? m)%nat then 0%nat else nth (i - m) reps 0%nat).
  { clear. induction reps as [|r reps IH]; intros m; cbn [length seq map2 concat count_occ nth].
    - destruct (i <? m)%nat; [reflexivity|]. destruct (i - m)%nat; reflexivity.
    - rewrite count_occ_app, count_occ_repeat_nat, IH. destruct (Nat.eq_dec m i) as [->|N].
      + rewrite Nat.ltb_irrefl, Nat.sub_diag. replace (i <? S i)%nat with true by (symmetry; apply Nat.ltb_lt; lia). lia.
      + destruct (Nat.ltb_spec i m), (Nat.ltb_spec i (S m)); try lia. replace (i - m)%nat with (S (i - S m)) by lia. reflexivity. }
  intros H. rewrite G. cbn. rewrite Nat.sub_0_r. reflexivity.
Qed.
Lemma repeat_each_range reps : Forall (fun i => (i < length reps)%nat) (repeat_each reps).
Proof.
  unfold repeat_each. assert (G : forall reps m, Forall (fun i => (i < m + length reps)%nat) (concat (map2 (fun k r => repeat k r) (seq m (length reps)) reps))).
  { clear. induction reps as [|r reps IH]; intros m; cbn; [constructor|]. apply Forall_app. split.
    - apply Forall_forall. intros x Hx. apply repeat_spec in Hx. lia.
    - specialize (IH (S m)). eapply Forall_impl; [|exact IH]. cbn. intros; lia. }
  apply (G reps 0%nat).
Qed.
Definition reps_of (n : nat) (ws : list R) : list nat := map (fun w => Z.to_nat (Rtrunc (INR n * w))) (normalize ws).
Lemma normalize_nth ws i : (i < length ws)%nat -> nth i (normalize ws) 0 = share ws i.
Proof.
  intros H. unfold normalize. rewrite (nth_indep _ 0 (0 / sumR ws)) by (rewrite map_length; exact H). rewrite (map_nth (fun w => w / sumR ws)). reflexivity.
Qed.
Lemma reps_nth n ws i : weights_ok ws -> (i < length ws)%nat -> Z.of_nat (nth i (reps_of n ws) 0%nat) = Rfloor (INR n * share ws i).
Proof.
  intros W H. unfold reps_of. rewrite (nth_indep _ 0%nat (Z.to_nat (Rtrunc (INR n * 0)))) by (rewrite map_length; unfold normalize; rewrite map_length; exact H).
  rewrite (map_nth (fun w => Z.to_nat (Rtrunc (INR n * w)))), normalize_nth by exact H.
  assert (P : 0 <= INR n * share ws i) by (apply Rmult_le_pos; [apply pos_INR|apply share_nonneg; exact W]).
  unfold Rtrunc. replace (Rltb _ 0) with false by (symmetry; apply Rltb_false; exact P). rewrite Z2Nat.id; [reflexivity|]. apply Rfloor_le. exact P.
Qed.
Lemma reps_length n ws : length (reps_of n ws) = length ws.
Proof. unfold reps_of, normalize. rewrite !map_length. reflexivity. Qed.
Definition sumN (l : list nat) : nat := fold_right Nat.add 0%nat l.
Lemma repeat_each_length reps : length (repeat_each reps) = sumN reps.
Proof.
  unfold repeat_each. assert (G : forall reps m, length (concat (map2 (fun k r => repeat k r) (seq m (length reps)) reps)) = sumN reps).
  { clear. induction reps as [|r reps IH]; intros m; cbn; [reflexivity|]. rewrite app_length, repeat_length, IH. reflexivity. }
  apply G.
Qed.
Lemma sumN_le n ws : weights_ok ws -> INR (sumN (reps_of n ws)) <= INR n.
Proof.
  intros [F S]. unfold reps_of, normalize. rewrite map_map. assert (G : forall l, Forall (fun w => 0 <= w) l ->
    INR (sumN (map (fun w => Z.to_nat (Rtrunc (INR n * (w / sumR ws)))) l)) <= INR n * (sumR l / sumR ws)).
  { induction 1 as [|x l Hx H IH]; cbn [map sumN fold_right].
    - cbn. unfold Rdiv. lra.
    - rewrite plus_INR. change (sumR (x :: l)) with (x + sumR l).
      assert (P : 0 <= INR n * (x / sumR ws)) by (apply Rmult_le_pos; [apply pos_INR|apply Rdiv_nonneg; lra]).
      assert (Q : INR (Z.to_nat (Rtrunc (INR n * (x / sumR ws)))) <= INR n * (x / sumR ws)).
      { unfold Rtrunc. replace (Rltb _ 0) with false by (symmetry; apply Rltb_false; exact P). rewrite INR_IZR_INZ, Z2Nat.id by (apply Rfloor_le; exact P). apply Rfloor_lb. }
      replace (INR n * ((x + sumR l) / sumR ws)) with (INR n * (x / sumR ws) + INR n * (sumR l / sumR ws)) by (unfold Rdiv; ring). unfold sumN in *. lra. }
  specialize (G ws F). replace (sumR ws / sumR ws) with 1 in G by (field; lra). lra.
Qed.
Lemma xcumsum_length l : forall s, length (xcumsum_from s l) = length l.
Proof. induction l as [|x l IH]; intros s; cbn; [reflexivity|]. rewrite IH. reflexivity. Qed.
Lemma residual_length ws us : weights_ok ws -> length us = residual_draws (length ws) ws -> length (residual (length ws) ws us) = length ws.
Proof.
  intros W E. unfold residual. rewrite app_length, searchsorted_all_length, map_length, E. unfold residual_draws.
  fold (reps_of (length ws) ws). rewrite repeat_each_length. pose proof (sumN_le (length ws) ws W) as H. apply INR_le in H. lia.
Qed.
Lemma residual_range ws us : weights_ok ws -> Forall (fun u => 0 <= u < 1) us -> Forall (fun i => (i < length ws)%nat) (residual (length ws) ws us).
Proof.
  intros W U. pose proof (weights_nonempty ws W) as N. unfold residual. fold (reps_of (length ws) ws). apply Forall_app. split.
  - pose proof (repeat_each_range (reps_of (length ws) ws)) as H. rewrite reps_length in H. exact H.
  - set (cum := set_last _ _). assert (L : length cum = length ws).
    { unfold cum, set_last. rewrite set_nth_length, xcumsum_length, map_length, map2_length, reps_length. unfold normalize. rewrite map_length. lia. }
    rewrite <- L. apply searchsorted_all_range; [lia|]. intros k Hk. apply in_map_iff in Hk. destruct Hk as (u & <- & Hu). rewrite Forall_forall in U. specialize (U u Hu).
    assert (Q : nth (length cum - 1) cum (Fin 0) = Fin 1).
    { unfold cum, set_last. rewrite set_nth_length. apply nth_error_nth. apply nth_error_set_nth_eq. unfold cum, set_last in L. rewrite set_nth_length in L. lia. }
    rewrite Q. cbn. apply Rltb_false. lra.
Qed.
Lemma residual_at_least ws us i : weights_ok ws -> (i < length ws)%nat -> (Rfloor (INR (length ws) * share ws i) <= copies (residual (length ws) ws us) i)%Z.
Proof.
  intros W H. unfold residual, copies. fold (reps_of (length ws) ws). rewrite count_occ_app, repeat_each_copies by (rewrite reps_length; exact H).
  rewrite Nat2Z.inj_add, reps_nth by auto. lia.
Qed.
(** ** the remaining draws when one particle dominates *)
Lemma bsearch_all_false {T} (cmp : T -> T -> bool) d arr k : (forall j, (j < length arr)%nat -> cmp (nth j arr d) k = false) -> forall fuel hi, (hi <= fuel)%nat -> (hi <= length arr)%nat -> bsearch cmp d arr k fuel 0 hi = 0%nat.
Proof.
  intros H. induction fuel as [|f IH]; intros hi L L2; cbn [bsearch]; [reflexivity|]. destruct (Nat.ltb_spec 0 hi) as [Q|Q]; [|reflexivity].
  pose proof (Nat.div_lt (hi - 0) 2 ltac:(lia) ltac:(lia)) as D. rewrite H by lia. apply IH; lia.
Qed.
Lemma searchsorted_all_false {T} (lt cmp : T -> T -> bool) d arr keys : (forall k j, In k keys -> (j < length arr)%nat -> cmp (nth j arr d) k = false) ->
  searchsorted_all lt cmp d arr keys = repeat 0%nat (length keys).
Proof.
  intros H. destruct keys as [|k0 r]; [reflexivity|]. unfold searchsorted_all. generalize k0 at 1. revert H. generalize (k0 :: r) as keys. clear.
  intros keys H l. assert (G : forall keys hi l, (forall k j, In k keys -> (j < length arr)%nat -> cmp (nth j arr d) k = false) -> (hi <= length arr)%nat ->
    searchsorted_from lt cmp d arr 0 hi l keys = repeat 0%nat (length keys)).
  { clear. induction keys as [|k r IH]; intros hi l H Hh; cbn [searchsorted_from length repeat]; [reflexivity|].
    assert (E : bsearch cmp d arr k (S (length arr)) (if lt l k then 0%nat else 0%nat) (if lt l k then length arr else if (hi <? length arr)%nat then S hi else length arr) = 0%nat).
    { replace (if lt l k then 0%nat else 0%nat) with 0%nat by (destruct (lt l k); reflexivity). apply bsearch_all_false; [intros; apply H; [left; reflexivity|assumption]| |]; (destruct (lt l k); [lia|]; destruct (Nat.ltb_spec hi (length arr)); lia). }
    rewrite E. f_equal. apply IH; [intros k1 j I1 I2; apply H; [right; exact I1|exact I2]|lia]. }
  apply G; [exact H|lia].
Qed.
Lemma xcumsum_fin l : forall s, xcumsum_from (Fin s) (map Fin l) = map Fin (cumsum_from s l).
Proof. induction l as [|x l IH]; intros s; cbn; [reflexivity|]. rewrite IH. reflexivity. Qed.
Theorem residual_dominant w ws us : weights_ok (w :: ws) -> Forall (fun u => 0 <= u < 1) us ->
  2 <= INR (length (w :: ws)) * share (w :: ws) 0 -> (forall i, (0 < i <= length ws)%nat -> INR (length (w :: ws)) * share (w :: ws) i < 1) ->
  length us = residual_draws (length (w :: ws)) (w :: ws) ->
  residual (length (w :: ws)) (w :: ws) us = repeat 0%nat (length (w :: ws)).
Proof.
  intros W U H2 H1 Lu. set (n := length (w :: ws)) in *. set (all := w :: ws) in *.
  set (r0 := Z.to_nat (Rfloor (INR n * share all 0))).
  assert (R0 : (2 <= Rfloor (INR n * share all 0))%Z) by (apply Rfloor_le; exact H2).
  assert (ER : reps_of n all = r0 :: repeat 0%nat (length ws)).
  { apply nth_ext with (d := 0%nat) (d' := 0%nat); [rewrite reps_length; cbn; rewrite repeat_length; reflexivity|]. intros i Hi. rewrite reps_length in Hi.
    apply Nat2Z.inj. rewrite reps_nth by auto. destruct i as [|i]; [cbn [nth]; unfold r0; rewrite Z2Nat.id by lia; reflexivity|].
    cbn [nth]. rewrite nth_repeat. unfold all in Hi; cbn in Hi. specialize (H1 (S i) ltac:(lia)). apply Rfloor_imp. cbn [Z.of_nat]. rewrite Rplus_0_l. split; [|exact H1].
    apply Rmult_le_pos; [apply pos_INR|apply share_nonneg; exact W]. }
  assert (Draws : length us = (n - r0)%nat).
  { rewrite Lu. unfold residual_draws. fold (reps_of n all). rewrite repeat_each_length, ER. cbn [sumN fold_right].
    assert (Q : forall m, fold_right Nat.add 0%nat (repeat 0%nat m) = 0%nat) by (induction m; cbn; auto). rewrite Q. lia. }
  assert (Sr : (r0 <= n)%nat).
  { pose proof (sumN_le n all W) as Q. rewrite ER in Q. apply INR_le in Q. cbn [sumN fold_right] in Q. lia. }
  unfold residual. fold (reps_of n all). rewrite ER. unfold repeat_each. cbn [length seq map2 concat]. 
  assert (Z0 : forall m k, concat (map2 (fun k r : nat => repeat k r) (seq k (length (repeat 0%nat m))) (repeat 0%nat m)) = []).
  { induction m as [|m IH]; intros k; cbn; [reflexivity|]. apply IH. }
  rewrite Z0, app_nil_r. rewrite searchsorted_all_false.
  - rewrite map_length, Draws, <- repeat_app. f_equal. lia.
  - intros k j Hk Hj. apply in_map_iff in Hk. destruct Hk as (u & <- & Hu). rewrite Forall_forall in U. specialize (U u Hu).
    (* residuals *)
    set (res := map2 (fun w r => w - INR r) (normalize all) (r0 :: repeat 0%nat (length ws))).
    assert (Er : res = (share all 0 - INR r0) :: map (fun w => w / sumR all) ws).
    { unfold res, normalize, all. cbn [map map2]. f_equal. clear. induction ws as [|x l IH]; [reflexivity|]. cbn [length repeat]. cbn [map map2]. unfold all.
      assert (G : forall s l, map2 (fun w0 r => w0 - INR r) (map (fun w => w / s) l) (repeat 0%nat (length l)) = map (fun w => w / s) l).
      { clear. intros s. induction l as [|x l IH]; cbn; [reflexivity|]. rewrite IH. f_equal. ring. }
      f_equal; [cbn; ring|apply G]. }
    assert (Es : sumR res = 1 - INR r0).
    { rewrite Er. change (sumR (share all 0 - INR r0 :: map (fun w => w / sumR all) ws)) with (share all 0 - INR r0 + sumR (map (fun w => w / sumR all) ws)).
      rewrite sumR_map_div. pose proof (share_before_all all (proj2 W)) as Q. unfold share_before in Q. rewrite firstn_all in Q.
      unfold all in Q at 1. change (sumR (w :: ws)) with (w + sumR ws) in Q. unfold share. change (nth 0 all 0) with w. unfold Rdiv in *. lra. }
    assert (Hr : 2 <= INR r0). { unfold r0. rewrite INR_IZR_INZ, Z2Nat.id by lia. apply IZR_le in R0. exact R0. }
    fold res. unfold xinv. rewrite Es. replace (Reqb (1 - INR r0) 0) with false by (symmetry; apply Reqb_false; lra).
    assert (Em : map (fun r => xmul (Fin r) (Fin (/ (1 - INR r0)))) res = map Fin (map (fun r => r * / (1 - INR r0)) res)) by (rewrite map_map; reflexivity).
    rewrite Em, xcumsum_fin. set (cs := cumsum_from 0 (map (fun r => r * / (1 - INR r0)) res)).
    assert (Lc : length cs = n). { unfold cs. rewrite cumsum_from_length, map_length, Er. cbn. rewrite map_length. reflexivity. }
    assert (Ge : forall i, (i < n)%nat -> 1 <= nth i cs 0).
    { intros i Hi. unfold cs. rewrite cumsum_from_nth by (rewrite map_length, Er; cbn; rewrite map_length; exact Hi).
      change (fun r : R => r * / (1 - INR r0)) with (fun r : R => r / (1 - INR r0)). rewrite firstn_map', sumR_map_div, Er. cbn [firstn].
      change (sumR (share all 0 - INR r0 :: firstn i (map (fun w0 => w0 / sumR all) ws))) with (share all 0 - INR r0 + sumR (firstn i (map (fun w0 => w0 / sumR all) ws))).
      rewrite firstn_map', sumR_map_div. pose proof (share_before_mono all (S i) n W ltac:(unfold n in *; lia)) as Q. rewrite share_before_all in Q by apply W.
      unfold share_before in Q. unfold all in Q at 1. cbn [firstn] in Q. change (sumR (w :: firstn i ws)) with (w + sumR (firstn i ws)) in Q.
      unfold share. change (nth 0 all 0) with w.
      assert (T : w / sumR all + sumR (firstn i ws) / sumR all <= 1) by (unfold Rdiv in *; lra).
      replace (0 + (w / sumR all - INR r0 + sumR (firstn i ws) / sumR all) / (1 - INR r0)) with ((INR r0 - (w / sumR all + sumR (firstn i ws) / sumR all)) / (INR r0 - 1)) by (field; split; [destruct W; lra|split; lra]).
      apply Rmult_le_reg_r with (INR r0 - 1); [lra|]. unfold Rdiv. rewrite Rmult_assoc, Rinv_l by lra. unfold Rdiv in T. lra. }
    unfold set_last in *. rewrite map_length. assert (Hjn : (j < n)%nat). { rewrite set_nth_length, xcumsum_length, map_length in Hj. fold res in Hj. rewrite Er in Hj. cbn [length] in Hj. rewrite map_length in Hj. exact Hj. }
    destruct (Nat.eq_dec j (length cs - 1)) as [->|Nj].
    + rewrite (nth_error_nth (set_nth (length cs - 1) (Fin 1) (map Fin cs)) (length cs - 1) (Fin 0) (x := Fin 1)) by (apply nth_error_set_nth_eq; rewrite map_length; pose proof (weights_nonempty all W) as NN; fold n in NN; lia).
      cbn. apply Rltb_false. lra.
    + assert (En : nth j (set_nth (length cs - 1) (Fin 1) (map Fin cs)) (Fin 0) = Fin (nth j cs 0)).
      { assert (G : forall (l : list xr) a b, a <> b -> nth b (set_nth a (Fin 1) l) (Fin 0) = nth b l (Fin 0)).
        { clear. induction l as [|x l IH]; intros [|a] [|b] N; cbn; auto; congruence. }
        rewrite G by lia. apply map_nth. }
      rewrite En. change (Rltb (nth j cs 0) u = false). apply Rltb_false. specialize (Ge j Hjn). lra.
Qed.
