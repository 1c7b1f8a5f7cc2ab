(** C36: residual resampling: which particles receive the remaining copies, src/glimpse/track/tracker.py:188-203. *)
From Verif Require Import Base BaseLemmas XReal ResampleModel ResampleSpec ResampleProofs ResampleProofs2 ResampleProofs3 ResampleProofs4.
From Coq Require Import Sorting.Sorted.
Open Scope R_scope.

(** ** specification *)
(** whole copies particle j is due, and the number of all whole copies *)
Definition due (ws : list R) (j : nat) : Z := Rfloor (INR (length ws) * share ws j).
Definition upto (f : nat -> R) (i : nat) : R := sumR (map f (seq 0 i)).
Definition all_due (ws : list R) : R := upto (fun j => IZR (due ws j)) (length ws).
(** the table the code searches: 0 at 0, 1 at n; it rises by (due - share) / (all_due - 1) at each particle,
    so it falls at every particle that is due no whole copy *)
Definition level (ws : list R) (i : nat) : R := upto (fun j => IZR (due ws j) - share ws j) i / (all_due ws - 1).

(** ** a binary search in any table ends where the table crosses the key *)
Section Cross.
  Context {T : Type} (lt cmp : T -> T -> bool) (d : T).
  Definition crossing (arr : list T) (k : T) (i : nat) : Prop :=
    (i <= length arr)%nat /\ (i = 0%nat \/ cmp (nth (i - 1) arr d) k = true) /\ (i = length arr \/ cmp (nth i arr d) k = false).
  Lemma bsearch_cross arr k : forall fuel lo hi, (hi - lo < fuel)%nat -> (lo <= hi)%nat ->
    let i := bsearch cmp d arr k fuel lo hi in (lo <= i <= hi)%nat /\ (i = lo \/ cmp (nth (i - 1) arr d) k = true) /\ (i = hi \/ cmp (nth i arr d) k = false).
  Proof.
    induction fuel as [|f IH]; intros lo hi F B; [lia|]. cbn [bsearch]. destruct (Nat.ltb_spec lo hi) as [LT|GE].
    - set (mid := (lo + (hi - lo) / 2)%nat).
      assert (Hm : (lo <= mid < hi)%nat). { unfold mid. pose proof (Nat.div_lt (hi - lo) 2). destruct (Nat.eq_dec (hi - lo) 0); lia. }
      destruct (cmp (nth mid arr d) k) eqn:E.
      + destruct (IH (S mid) hi ltac:(lia) ltac:(lia)) as (A1 & A2 & A3). cbv zeta. split; [lia|]. split; [|exact A3].
        destruct A2 as [A2|A2]; [|auto]. right. rewrite A2. replace (S mid - 1)%nat with mid by lia. exact E.
      + destruct (IH lo mid ltac:(lia) ltac:(lia)) as (A1 & A2 & A3). cbv zeta. split; [lia|]. split; [exact A2|].
        destruct A3 as [A3|A3]; [|auto]. right. rewrite A3. exact E.
    - assert (lo = hi) by lia. subst hi. cbv zeta. auto.
  Qed.
  Hypothesis H1 : forall a l k, lt l k = true -> cmp a l = true -> cmp a k = true.
  Variable good : T -> Prop.
  Hypothesis H2 : forall a l k, good l -> good k -> lt l k = false -> cmp a l = false -> cmp a k = false.
  Lemma searchsorted_from_cross arr keys : Forall good keys -> forall lo hi l, good l -> (lo <= hi <= length arr)%nat ->
    (lo = 0%nat \/ cmp (nth (lo - 1) arr d) l = true) -> (hi = length arr \/ cmp (nth hi arr d) l = false) ->
    Forall2 (crossing arr) keys (searchsorted_from lt cmp d arr lo hi l keys).
  Proof.
    induction keys as [|k r IH]; intros Gk lo hi l Gl B L H; cbn [searchsorted_from]; [constructor|]. inversion Gk as [|? ? Gk1 Gk2]; subst.
    set (lo' := if lt l k then lo else 0%nat). set (hi' := if lt l k then _ else _).
    assert (Bd : (lo' <= hi' <= length arr)%nat). { subst lo' hi'. destruct (lt l k); [lia|]. destruct (Nat.ltb_spec hi (length arr)); lia. }
    assert (C : crossing arr k (bsearch cmp d arr k (S (length arr)) lo' hi')).
    { destruct (bsearch_cross arr k (S (length arr)) lo' hi' ltac:(lia) ltac:(lia)) as (A1 & A2 & A3).
      set (i := bsearch cmp d arr k (S (length arr)) lo' hi') in *. clearbody i. split; [lia|]. subst lo' hi'. destruct (lt l k) eqn:E.
      - split; [|exact A3]. destruct A2 as [->|A2]; [|auto]. destruct L as [->|L]; [auto|]. right. eapply H1; eauto.
      - split; [exact A2|]. destruct A3 as [A3|A3]; [|auto]. destruct (Nat.ltb_spec hi (length arr)) as [Q|Q]; [|left; lia].
        destruct H as [H|H]; [lia|]. destruct A2 as [A2|A2]; [lia|]. rewrite A3 in A2. replace (S hi - 1)%nat with hi in A2 by lia.
        rewrite (H2 _ _ _ Gl Gk1 E H) in A2. discriminate. }
    constructor; [exact C|]. destruct C as (C1 & C2 & C3). apply IH; [exact Gk2|exact Gk1|lia|exact C2|exact C3].
  Qed.
  Lemma searchsorted_all_cross arr keys : Forall good keys -> Forall2 (crossing arr) keys (searchsorted_all lt cmp d arr keys).
  Proof.
    intros G. destruct keys as [|k r]; cbn [searchsorted_all]; [constructor|]. apply searchsorted_from_cross; [exact G|inversion G; auto|lia|auto|auto].
  Qed.
End Cross.
Lemma xlt_H1 a l k : xlt l k = true -> xlt a l = true -> xlt a k = true.
Proof. destruct a, l, k; cbn; try discriminate; auto. intros A B. apply Rltb_true in A, B. apply Rltb_true. lra. Qed.
Definition finite (a : xr) : Prop := match a with Fin _ => True | _ => False end.
Lemma xlt_H2 a l k : finite l -> finite k -> xlt l k = false -> xlt a l = false -> xlt a k = false.
Proof.
  destruct a, l, k; cbn; try tauto; try discriminate. intros _ _ A B. apply Rltb_false in A, B. apply Rltb_false. lra.
Qed.

(** ** the table *)
Lemma upto_S f i : upto f (S i) = upto f i + f i.
Proof. unfold upto. rewrite seq_S, map_app, sumR_app. cbn. lra. Qed.
Lemma upto_0 f : upto f 0 = 0.
Proof. reflexivity. Qed.
Lemma upto_ext f g i : (forall j, (j < i)%nat -> f j = g j) -> upto f i = upto g i.
Proof. induction i as [|i IH]; intros H; [reflexivity|]. rewrite !upto_S, IH by (intros; apply H; lia). rewrite H by lia. reflexivity. Qed.
Lemma upto_minus f g i : upto (fun j => f j - g j) i = upto f i - upto g i.
Proof. induction i as [|i IH]; [rewrite !upto_0; lra|]. rewrite !upto_S, IH. lra. Qed.
Lemma upto_opp f i : upto (fun j => - f j) i = - upto f i.
Proof. induction i as [|i IH]; [rewrite !upto_0; lra|]. rewrite !upto_S, IH. lra. Qed.
Lemma sumR_firstn_upto l i : (i <= length l)%nat -> sumR (firstn i l) = upto (fun j => nth j l 0) i.
Proof.
  induction i as [|i IH]; intros H; [reflexivity|]. rewrite sumR_firstn_S by lia. rewrite upto_S, IH by lia. reflexivity.
Qed.
Lemma share_sum ws : weights_ok ws -> upto (share ws) (length ws) = 1.
Proof.
  intros [_ S]. replace (upto (share ws) (length ws)) with (sumR (normalize ws)).
  - unfold normalize. rewrite sumR_map_div. field. lra.
  - rewrite <- (firstn_all (normalize ws)) at 1. rewrite sumR_firstn_upto by lia. unfold normalize at 2. rewrite map_length.
    apply upto_ext. intros j Hj. apply normalize_nth. exact Hj.
Qed.
Lemma residuals_nth ws j : weights_ok ws -> (j < length ws)%nat ->
  nth j (map2 (fun w r => w - INR r) (normalize ws) (reps_of (length ws) ws)) 0 = - (IZR (due ws j) - share ws j).
Proof.
  intros W H.
  assert (G : forall (l : list R) (m : list nat) j, (j < length l)%nat -> (j < length m)%nat -> nth j (map2 (fun w r => w - INR r) l m) 0 = nth j l 0 - INR (nth j m 0%nat)).
  { clear. induction l as [|a l IH]; intros [|b m] [|j] H1 H2; cbn in *; try lia; auto. apply IH; lia. }
  rewrite G by (rewrite ?reps_length; unfold normalize; rewrite ?map_length; exact H). rewrite normalize_nth by exact H.
  rewrite INR_IZR_INZ, reps_nth by auto. unfold due. ring.
Qed.
Lemma all_due_count ws : weights_ok ws -> all_due ws = INR (sumN (reps_of (length ws) ws)).
Proof.
  intros W. unfold all_due. assert (G : forall l : list nat, INR (sumN l) = upto (fun j => INR (nth j l 0%nat)) (length l)).
  { induction l as [|a l IH] using rev_ind; [reflexivity|]. rewrite app_length. cbn [length]. rewrite Nat.add_1_r, upto_S.
    rewrite app_nth2, Nat.sub_diag by lia. cbn [nth]. assert (E : sumN (l ++ [a]) = (sumN l + a)%nat).
    { clear. unfold sumN. induction l as [|b l IH]; cbn; [lia|]. rewrite IH. lia. }
    rewrite E, plus_INR, IH. f_equal. apply upto_ext. intros j Hj. rewrite app_nth1 by lia. reflexivity. }
  rewrite G, reps_length. apply upto_ext. intros j Hj. rewrite INR_IZR_INZ, reps_nth by auto. reflexivity.
Qed.
Lemma level_end ws : weights_ok ws -> all_due ws <> 1 -> level ws (length ws) = 1.
Proof. intros W N. unfold level. rewrite upto_minus, share_sum by exact W. fold (all_due ws). field. lra. Qed.
Definition table (ws : list R) : list xr :=
  set_last (Fin 1) (xcumsum_from (Fin 0) (map (fun r => xmul (Fin r) (xinv (sumR (map2 (fun w r => w - INR r) (normalize ws) (reps_of (length ws) ws)))))
    (map2 (fun w r => w - INR r) (normalize ws) (reps_of (length ws) ws)))).
Lemma residuals_length ws : length (map2 (fun w r => w - INR r) (normalize ws) (reps_of (length ws) ws)) = length ws.
Proof. rewrite map2_length, reps_length. unfold normalize. rewrite map_length. lia. Qed.
Lemma residuals_sum ws : weights_ok ws -> sumR (map2 (fun w r => w - INR r) (normalize ws) (reps_of (length ws) ws)) = 1 - all_due ws.
Proof.
  intros W. rewrite <- (firstn_all (map2 _ _ _)). rewrite sumR_firstn_upto by lia. rewrite residuals_length.
  rewrite (upto_ext _ (fun j => - (IZR (due ws j) - share ws j))) by (intros j Hj; apply residuals_nth; auto).
  rewrite upto_opp, upto_minus, share_sum by exact W. fold (all_due ws). lra.
Qed.
Lemma table_length ws : length (table ws) = length ws.
Proof. unfold table, set_last. rewrite set_nth_length, xcumsum_length, map_length. apply residuals_length. Qed.
Lemma table_nth ws i : weights_ok ws -> all_due ws <> 1 -> (i < length ws)%nat -> nth i (table ws) (Fin 0) = Fin (level ws (S i)).
Proof.
  intros W N H. unfold table. rewrite residuals_sum by exact W. unfold xinv.
  replace (Reqb (1 - all_due ws) 0) with false by (symmetry; apply Reqb_false; lra).
  set (res := map2 _ _ _). assert (Lr : length res = length ws) by apply residuals_length.
  assert (Em : map (fun r => xmul (Fin r) (Fin (/ (1 - all_due ws)))) res = map Fin (map (fun r => r / (1 - all_due ws)) res)) by (rewrite map_map; reflexivity).
  rewrite Em, xcumsum_fin. set (cs := cumsum_from 0 _). assert (Lc : length cs = length ws) by (unfold cs; rewrite cumsum_from_length, map_length; exact Lr).
  unfold set_last. rewrite map_length, Lc. destruct (Nat.eq_dec i (length ws - 1)) as [->|Ni].
  - rewrite (nth_error_nth (set_nth (length ws - 1) (Fin 1) (map Fin cs)) (length ws - 1) (Fin 0) (x := Fin 1)) by (apply nth_error_set_nth_eq; rewrite map_length; lia).
    replace (S (length ws - 1)) with (length ws) by lia. rewrite level_end by auto. reflexivity.
  - assert (G : forall (l : list xr) a b, a <> b -> nth b (set_nth a (Fin 1) l) (Fin 0) = nth b l (Fin 0)).
    { clear. induction l as [|x l IH]; intros [|a] [|b] N; cbn; auto; congruence. }
    rewrite G by lia. rewrite map_nth. f_equal. unfold cs. rewrite cumsum_from_nth by (rewrite map_length, Lr; exact H).
    rewrite firstn_map', sumR_map_div. rewrite sumR_firstn_upto by lia. unfold level.
    rewrite (upto_ext _ (fun j => - (IZR (due ws j) - share ws j))) by (intros j Hj; unfold res; apply residuals_nth; [exact W|lia]).
    rewrite upto_opp. field. split; lra.
Qed.
Lemma due_nonneg ws j : weights_ok ws -> (0 <= due ws j)%Z.
Proof. intros W. unfold due. apply Rfloor_le. apply Rmult_le_pos; [apply pos_INR|apply share_nonneg; exact W]. Qed.

(** C36: the n particles are floor(n share) copies of each, plus one more for each draw u: the particle i at which the
    table crosses u, level i < u <= level (i + 1).  Because the table falls at every particle due no whole copy, none of the
    remaining copies goes to such a particle, although only residuals n share - floor(n share) should matter. *)
Theorem resample_residual : forall {P} (d : P) ps ws us, length ps = length ws -> weights_ok ws -> Forall unit_draw us ->
  length us = residual_draws (length ps) ws ->
  exists base extra ps' ws', resample_particles (Residual us) ps ws = Ok (ps', ws') /\ selects d ps ws (base ++ extra) ps' ws' /\
    length (base ++ extra) = length ps /\ (forall i, (i < length ps)%nat -> copies base i = due ws i) /\
    (2 <= all_due ws -> Forall2 (fun u i => (i < length ps)%nat /\ level ws i < u <= level ws (S i) /\ (1 <= due ws i)%Z) us extra).
Proof.
  intros P d ps ws us L W U Lu. rewrite L in *.
  assert (U' : Forall (fun u => 0 <= u < 1) us) by (eapply Forall_impl; [|exact U]; unfold unit_draw; intros; lra).
  set (base := repeat_each (reps_of (length ws) ws)). set (extra := searchsorted_all xlt xlt (Fin 0) (table ws) (map Fin us)).
  assert (Er : residual (length ws) ws us = base ++ extra) by reflexivity.
  destruct (resample_ok d (Residual us) ps ws L) as (ps' & ws' & E & Q).
  { cbn [resample_indexes]. rewrite L. apply residual_range; auto. }
  exists base, extra, ps', ws'. split; [exact E|]. cbn [resample_indexes] in Q. rewrite L, Er in Q. split; [exact Q|].
  split; [rewrite <- Er; apply residual_length; auto|]. split.
  { intros i Hi. unfold copies, base. rewrite repeat_each_copies by (rewrite reps_length; exact Hi). apply reps_nth; auto. }
  intros K. assert (N : all_due ws <> 1) by lra.
  assert (X : Forall2 (crossing xlt (Fin 0) (table ws)) (map Fin us) extra).
  { unfold extra. apply (searchsorted_all_cross xlt xlt (Fin 0) xlt_H1 finite xlt_H2). apply Forall_map. apply Forall_forall. intros; exact I. }
  assert (R := searchsorted_all_range xlt xlt (Fin 0) (table ws) (map Fin us)). fold extra in R. rewrite table_length in R.
  pose proof (weights_nonempty ws W) as Ne. specialize (R Ne).
  assert (R' : Forall (fun i => (i < length ws)%nat) extra).
  { apply R. intros k Hk. apply in_map_iff in Hk. destruct Hk as (u & <- & Hu). rewrite table_nth by (auto; lia).
    replace (S (length ws - 1)) with (length ws) by lia. rewrite level_end by auto. cbn. apply Rltb_false. rewrite Forall_forall in U'. specialize (U' u Hu). lra. }
  clear R Q E Er. clearbody extra. clear Lu. revert U X R'. clear U'. revert extra. induction us as [|u us IH]; intros extra U X R'; inversion X as [|? i ? ext X1 X2]; subst; [constructor|].
  inversion U as [|? ? U1 U2]; subst. inversion R' as [|? ? R1 R2]; subst. constructor; [|apply IH; auto].
  destruct X1 as (_ & X1 & X3). rewrite table_length in X3. destruct X3 as [X3|X3]; [lia|]. rewrite table_nth in X3 by auto. cbn in X3. apply Rltb_false in X3.
  split; [exact R1|]. assert (Lo : level ws i < u).
  { destruct X1 as [-> |X1]; [unfold level; rewrite upto_0; unfold Rdiv; rewrite Rmult_0_l; apply U1|].
    destruct i as [|i]; [unfold level; rewrite upto_0; unfold Rdiv; rewrite Rmult_0_l; apply U1|].
    replace (S i - 1)%nat with i in X1 by lia. rewrite table_nth in X1 by (auto; lia). cbn in X1. apply Rltb_true in X1. exact X1. }
  split; [split; [exact Lo|exact X3]|].
  assert (Up : level ws i < level ws (S i)) by lra. unfold level in Up. rewrite upto_S in Up.
  apply Rmult_lt_reg_r in Up; [|apply Rinv_0_lt_compat; lra].
  pose proof (share_nonneg ws i W) as Sh. assert (0 < IZR (due ws i)) by lra. apply lt_IZR in H. lia.
Qed.
Print Assumptions resample_residual.
Lemma Rfloor_is x z : IZR z <= x < IZR z + 1 -> Rfloor x = z.
Proof. intros H. apply Rfloor_imp. lra. Qed.
(** four particles of weights 7, 1, 1, 1: due 2, 0, 0, 0 whole copies, and two draws *)
Example resample_residual_ex : weights_ok [7; 1; 1; 1] /\ all_due [7; 1; 1; 1] = 2 /\ due [7; 1; 1; 1] 1 = 0%Z /\ level [7; 1; 1; 1] 1 = 13 / 10.
Proof.
  assert (D0 : due [7; 1; 1; 1] 0 = 2%Z) by (unfold due, share; cbn; apply Rfloor_is; lra).
  assert (D1 : due [7; 1; 1; 1] 1 = 0%Z) by (unfold due, share; cbn; apply Rfloor_is; lra).
  assert (D2 : due [7; 1; 1; 1] 2 = 0%Z) by (unfold due, share; cbn; apply Rfloor_is; lra).
  assert (D3 : due [7; 1; 1; 1] 3 = 0%Z) by (unfold due, share; cbn; apply Rfloor_is; lra).
  assert (K : all_due [7; 1; 1; 1] = 2) by (unfold all_due, upto; cbn [length seq map sumR fold_right]; rewrite D0, D1, D2, D3; lra).
  split; [split; [repeat (constructor; [lra|]); constructor|cbn; lra]|]. split; [exact K|]. split; [exact D1|].
  unfold level, upto. cbn [seq map sumR fold_right]. rewrite D0, K. unfold share. cbn. lra.
Qed.

(** ** the case of a single whole copy, where the code divides by zero (exact reals: floats may divide by a rounding error) *)
Lemma xcumsum_nan l : forall j, (j < length l)%nat -> nth j (xcumsum_from NaN l) (Fin 0) = NaN.
Proof. induction l as [|x l IH]; intros j H; [cbn in H; lia|]. destruct j as [|j]; [reflexivity|]. cbn [xcumsum_from nth]. apply IH. cbn in H. lia. Qed.
Lemma xcumsum_high l : forall s, s = PInf \/ s = NaN -> Forall (fun x => is_nan x = false -> finite x -> False) l ->
  forall j, (j < length l)%nat -> nth j (xcumsum_from s l) (Fin 0) = PInf \/ nth j (xcumsum_from s l) (Fin 0) = NaN.
Proof.
  induction l as [|x l IH]; intros s Hs F j H; [cbn in H; lia|]. inversion F as [|? ? F1 F2]; subst.
  assert (Hx : xadd s x = PInf \/ xadd s x = NaN).
  { destruct Hs as [-> | ->]; destruct x; cbn in *; auto. }
  destruct j as [|j]; cbn [xcumsum_from nth]; [exact Hx|]. apply IH; auto. cbn in H. lia.
Qed.
Lemma inf_scaled r : let x := xmul (Fin r) PInf in is_nan x = false -> finite x -> False.
Proof. cbn. destruct (Rltb 0 r); [intros _ []|]. destruct (Rltb r 0); [intros _ []|discriminate]. Qed.
Lemma nth_set_last_neq (l : list xr) j : (j < length l - 1)%nat -> nth j (set_last (Fin 1) l) (Fin 0) = nth j l (Fin 0).
Proof.
  unfold set_last. intros H. assert (G : forall (l : list xr) a b, a <> b -> nth b (set_nth a (Fin 1) l) (Fin 0) = nth b l (Fin 0)).
  { clear. induction l as [|x l IH]; intros [|a] [|b] N; cbn; auto; congruence. }
  apply G. lia.
Qed.
Lemma nth_set_last_eq (l : list xr) : (0 < length l)%nat -> nth (length l - 1) (set_last (Fin 1) l) (Fin 0) = Fin 1.
Proof. intros H. unfold set_last. apply nth_error_nth. apply nth_error_set_nth_eq. lia. Qed.
Lemma upto_nonneg f n : (forall j, (j < n)%nat -> 0 <= f j) -> 0 <= upto f n.
Proof. induction n as [|n IH]; intros H; [rewrite upto_0; lra|]. rewrite upto_S. pose proof (H n ltac:(lia)). pose proof (IH ltac:(intros; apply H; lia)). lra. Qed.
Lemma upto_ge1 f n : (0 < n)%nat -> (forall j, (j < n)%nat -> 0 <= f j) -> f 0%nat <= upto f n.
Proof.
  induction n as [|n IH]; intros L H; [lia|]. rewrite upto_S. destruct n as [|n]; [rewrite upto_0; lra|].
  pose proof (H (S n) ltac:(lia)). pose proof (IH ltac:(lia) ltac:(intros; apply H; lia)). lra.
Qed.
Lemma upto_ge2 f n j : (forall j, (j < n)%nat -> 0 <= f j) -> (0 < j < n)%nat -> f 0%nat + f j <= upto f n.
Proof.
  induction n as [|n IH]; intros H L; [lia|]. rewrite upto_S. destruct (Nat.eq_dec j n) as [->|Nj].
  - pose proof (upto_ge1 f n ltac:(lia) ltac:(intros; apply H; lia)). lra.
  - pose proof (IH ltac:(intros; apply H; lia) ltac:(lia)). pose proof (H n ltac:(lia)). lra.
Qed.
Theorem resample_residual_single : forall {P} (d : P) ps ws us, length ps = length ws -> weights_ok ws -> Forall unit_draw us ->
  length us = residual_draws (length ps) ws -> (2 <= length ws)%nat -> all_due ws = 1 ->
  exists base ps' ws', resample_particles (Residual us) ps ws = Ok (ps', ws') /\
    selects d ps ws (base ++ repeat (if Z.eqb (due ws 0) 0 then 0 else 1)%nat (length us)) ps' ws' /\ (forall i, (i < length ps)%nat -> copies base i = due ws i).
Proof.
  intros P d ps ws us L W U Lu N K. rewrite L in *.
  assert (U' : Forall (fun u => 0 <= u < 1) us) by (eapply Forall_impl; [|exact U]; unfold unit_draw; intros; lra).
  set (base := repeat_each (reps_of (length ws) ws)). set (extra := searchsorted_all xlt xlt (Fin 0) (table ws) (map Fin us)).
  assert (Er : residual (length ws) ws us = base ++ extra) by reflexivity.
  destruct (resample_ok d (Residual us) ps ws L) as (ps' & ws' & E & Q).
  { cbn [resample_indexes]. rewrite L. apply residual_range; auto. }
  exists base, ps', ws'. split; [exact E|]. cbn [resample_indexes] in Q. rewrite L, Er in Q.
  assert (Bc : forall i, (i < length ws)%nat -> copies base i = due ws i).
  { intros i Hi. unfold copies, base. rewrite repeat_each_copies by (rewrite reps_length; exact Hi). apply reps_nth; auto. }
  split; [|exact Bc]. replace (repeat _ _) with extra; [exact Q|]. clear Q E Er Bc base.
  unfold extra. rewrite <- (map_length Fin us). unfold table. rewrite residuals_sum, K by exact W. replace (1 - 1) with 0 by ring.
  unfold xinv. replace (Reqb 0 0) with true by (symmetry; apply Reqb_true; reflexivity).
  set (res := map2 _ _ _). assert (Lr : length res = length ws) by apply residuals_length.
  assert (R0 : nth 0 res 0 = share ws 0 - IZR (due ws 0)) by (unfold res; rewrite residuals_nth by (auto; lia); ring).
  assert (Rj : forall j, (j < length ws)%nat -> nth j res 0 = share ws j - IZR (due ws j)) by (intros j Hj; unfold res; rewrite residuals_nth by auto; ring).
  clearbody res. destruct res as [|r0 res]; [cbn in Lr; lia|]. cbn [nth] in R0.
  set (l := map (fun r => xmul (Fin r) PInf) res). set (c := xcumsum_from (Fin 0) (map (fun r => xmul (Fin r) PInf) (r0 :: res))).
  assert (Ec : c = xadd (Fin 0) (xmul (Fin r0) PInf) :: xcumsum_from (xadd (Fin 0) (xmul (Fin r0) PInf)) l) by reflexivity.
  assert (Lc : length c = length ws) by (rewrite Ec; cbn [length]; rewrite xcumsum_length; unfold l; rewrite map_length; cbn in Lr; lia).
  assert (Ll : length l = (length ws - 1)%nat) by (unfold l; rewrite map_length; cbn in Lr; lia).
  assert (Fl : Forall (fun x => is_nan x = false -> finite x -> False) l).
  { unfold l. apply Forall_map. apply Forall_forall. intros r _. apply inf_scaled. }
  assert (Ne : (0 < length c)%nat) by lia.
  assert (Hlast : forall k, In k (map Fin us) -> xlt (nth (length c - 1) (set_last (Fin 1) c) (Fin 0)) k = false).
  { intros k Hk. rewrite nth_set_last_eq by exact Ne. apply in_map_iff in Hk. destruct Hk as (u & <- & Hu). rewrite Forall_forall in U'. specialize (U' u Hu). cbn. apply Rltb_false. lra. }
  assert (Lset : length (set_last (Fin 1) c) = length ws) by (unfold set_last; rewrite set_nth_length; exact Lc).
  pose proof (share_nonneg ws 0 W) as S0. pose proof (due_nonneg ws 0 W) as D0.
  destruct (Z.eqb_spec (due ws 0) 0) as [Z0|Z0].
  - rewrite Z0 in R0. apply searchsorted_all_false. intros k j Hk Hj. rewrite Lset in Hj.
    destruct (Nat.eq_dec j (length c - 1)) as [->|Nj]; [apply Hlast; exact Hk|]. rewrite nth_set_last_neq by lia.
    assert (H0 : xadd (Fin 0) (xmul (Fin r0) PInf) = PInf \/ xadd (Fin 0) (xmul (Fin r0) PInf) = NaN).
    { cbn. destruct (Rltb 0 r0); [left; reflexivity|]. replace (Rltb r0 0) with false by (symmetry; apply Rltb_false; lra). right. reflexivity. }
    assert (Hn : nth j c (Fin 0) = PInf \/ nth j c (Fin 0) = NaN).
    { rewrite Ec. destruct j as [|j]; [exact H0|]. cbn [nth]. apply xcumsum_high; auto. lia. }
    destruct Hn as [-> | ->]; destruct k; reflexivity.
  - assert (D1 : 1 <= IZR (due ws 0)) by (apply IZR_le; lia).
    assert (Dn : forall j, (0 < j < length ws)%nat -> due ws j = 0%Z).
    { intros j Hj. assert (G := upto_ge2 (fun j => IZR (due ws j)) (length ws) j ltac:(intros i _; apply IZR_le, due_nonneg; exact W) Hj). cbn beta in G.
      fold (all_due ws) in G. rewrite K in G. pose proof (due_nonneg ws j W). assert (IZR (due ws j) <= 0) by lra. apply le_IZR in H0. lia. }
    assert (Sh : share ws 0 < 1).
    { assert (De : IZR (due ws 0) <= 1).
      { rewrite <- K. unfold all_due. pose proof (upto_ge2 (fun j => IZR (due ws j)) (length ws) 1 ltac:(intros i _; apply IZR_le, due_nonneg; exact W) ltac:(lia)) as G. cbn beta in G.
        pose proof (due_nonneg ws 1 W) as H. apply IZR_le in H. lra. }
      pose proof (Rfloor_ub (INR (length ws) * share ws 0)) as F2. fold (due ws 0) in F2.
      assert (2 <= INR (length ws)) by (apply le_INR in N; exact N). nra. }
    assert (Rn : r0 < 0) by lra.
    assert (C0 : xadd (Fin 0) (xmul (Fin r0) PInf) = NInf).
    { cbn. replace (Rltb 0 r0) with false by (symmetry; apply Rltb_false; lra). replace (Rltb r0 0) with true by (symmetry; apply Rltb_true; lra). reflexivity. }
    rewrite C0 in Ec.
    assert (Hl : Forall (fun x => x = PInf \/ x = NaN) l).
    { unfold l. apply Forall_map. apply Forall_forall. intros r Hr. apply (In_nth _ _ 0) in Hr. destruct Hr as (j & Hj & <-). cbn [length] in Lr.
      specialize (Rj (S j) ltac:(lia)). cbn [nth] in Rj. rewrite Dn in Rj by lia. pose proof (share_nonneg ws (S j) W). cbn.
      destruct (Rltb 0 (nth j res 0)); [auto|]. replace (Rltb (nth j res 0) 0) with false by (symmetry; apply Rltb_false; lra). auto. }
    assert (Nan : forall j, (0 < j < length c - 1)%nat -> nth j (set_last (Fin 1) c) (Fin 0) = NaN).
    { intros j Hj. rewrite nth_set_last_neq by lia. rewrite Ec. destruct j as [|j]; [lia|]. cbn [nth]. clearbody l. destruct l as [|x l']; [cbn in Ll; lia|].
      cbn [xcumsum_from]. inversion Hl as [|? ? F1 F2]; subst. replace (xadd NInf x) with NaN by (destruct F1 as [-> | ->]; reflexivity).
      destruct j as [|j]; [reflexivity|]. cbn [nth]. apply xcumsum_nan. cbn in Ll. lia. }
    assert (First : nth 0 (set_last (Fin 1) c) (Fin 0) = NInf) by (rewrite nth_set_last_neq by lia; rewrite Ec; reflexivity).
    assert (X : Forall2 (crossing xlt (Fin 0) (set_last (Fin 1) c)) (map Fin us) (searchsorted_all xlt xlt (Fin 0) (set_last (Fin 1) c) (map Fin us))).
    { apply (searchsorted_all_cross xlt xlt (Fin 0) xlt_H1 finite xlt_H2). apply Forall_map. apply Forall_forall. intros; exact I. }
    assert (Pt : forall u i, unit_draw u -> crossing xlt (Fin 0) (set_last (Fin 1) c) (Fin u) i -> i = 1%nat).
    { intros u i Hu (C1 & C2 & C3). rewrite Lset in C1, C3. destruct i as [|i].
      - destruct C3 as [C3|C3]; [lia|]. rewrite First in C3. cbn in C3. discriminate.
      - destruct C2 as [C2|C2]; [lia|]. replace (S i - 1)%nat with i in C2 by lia. destruct i as [|i]; [reflexivity|]. exfalso.
        destruct (Nat.eq_dec (S i) (length c - 1)) as [Ei|Ei].
        + rewrite Ei, nth_set_last_eq in C2 by exact Ne. cbn in C2. apply Rltb_true in C2. unfold unit_draw in Hu. lra.
        + rewrite Nan in C2 by lia. discriminate. }
    clear - X Pt U. revert X. generalize (searchsorted_all xlt xlt (Fin 0) (set_last (Fin 1) c) (map Fin us)).
    induction us as [|u us IH]; intros idx X; inversion X as [|? i ? idx' X1 X2]; subst; [reflexivity|]. inversion U; subst. cbn [length map repeat].
    rewrite (Pt u i) by assumption. f_equal. apply IH; assumption.
Qed.
Print Assumptions resample_residual_single.
Example resample_residual_single_ex : weights_ok [3; 1] /\ all_due [3; 1] = 1 /\ due [3; 1] 0 = 1%Z.
Proof.
  assert (D0 : due [3; 1] 0 = 1%Z) by (unfold due, share; cbn; apply Rfloor_is; lra).
  assert (D1 : due [3; 1] 1 = 0%Z) by (unfold due, share; cbn; apply Rfloor_is; lra).
  split; [split; [repeat (constructor; [lra|]); constructor|cbn; lra]|]. split; [|exact D0].
  unfold all_due, upto. cbn [length seq map sumR fold_right]. rewrite D0, D1. lra.
Qed.
