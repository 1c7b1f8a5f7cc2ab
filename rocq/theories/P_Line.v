(** C81: points along a line (helpers.interpolate_line). *)
From Verif Require Import Base BaseLemmas HelpersModel LineModel LineSpec LineProofs GridProofs InterpModel InterpProofs.
From Coq Require Import Permutation Sorted.
Open Scope R_scope.

(** ** The interpolated rows *)
Lemma column_length i m : length (column i m) = length m.
Proof. apply map_length. Qed.
Lemma at_row_within d x m t : length x = length m -> (2 <= length m)%nat -> nth 0 x 0 <= t <= last x 0 -> on_line d x m t (at_row d x m t).
Proof.
  intros L N [H1 H2]. split; [apply at_row_length; intros ->; cbn in L; lia|]. destruct x as [|x0 xs]; [cbn in L; lia|]. cbn [nth] in H1.
  destruct (seg t x0 xs) as [j|] eqn:E.
  - destruct (seg_some _ _ _ _ H1 E) as [Lj B]. cbn [length] in L. exists j, ((t - nth j (x0 :: xs) 0) / (nth (S j) (x0 :: xs) 0 - nth j (x0 :: xs) 0)).
    set (a := nth j (x0 :: xs) 0) in *. set (b := nth (S j) (x0 :: xs) 0) in *. split; [lia|]. split; [|split].
    + split; [apply Rmult_le_pos; [lra|left; apply Rinv_0_lt_compat; lra]|]. apply Rmult_le_reg_r with (b - a); [lra|]. unfold Rdiv. rewrite Rmult_assoc, Rinv_l, Rmult_1_r by lra. lra.
    + field. lra.
    + intros i Hi. rewrite at_row_nth by exact Hi. destruct (Rltb t x0) eqn:Q; [apply Rltb_true in Q; lra|]. rewrite E. fold a b.
      rewrite !column_nth by lia. field. lra.
  - pose proof (seg_none _ _ _ H1 E) as H3. assert (t = last (x0 :: xs) 0) by lra. exists (length m - 2)%nat, 1. split; [lia|]. split; [lra|]. replace (S (length m - 2)) with (length m - 1)%nat by lia. split.
    + rewrite H, last_nth, L. ring.
    + intros i Hi. rewrite at_row_nth by exact Hi. destruct (Rltb t x0) eqn:Q; [apply Rltb_true in Q; lra|]. rewrite E.
      rewrite last_nth, column_length, column_nth by lia. ring.
Qed.
Lemma at_row_before d x m t : matrix d m -> length x = length m -> m <> [] -> t < nth 0 x 0 -> at_row d x m t = nth 0 m [].
Proof.
  intros M L N H. destruct m as [|r m]; [contradiction|]. destruct x as [|x0 xs]; [discriminate|]. cbn [nth] in *.
  apply (row_ext d); [apply at_row_length; discriminate|apply M; left; reflexivity|]. intros i Hi. rewrite at_row_nth by exact Hi.
  assert (Q : Rltb t x0 = true) by (apply Rltb_true; exact H). rewrite Q. reflexivity.
Qed.
Lemma last_In {A} (l : list A) d : l <> [] -> In (last l d) l.
Proof. intros N. rewrite last_nth. apply nth_In. destruct l; [contradiction|cbn; lia]. Qed.
Lemma at_row_after d x m t : matrix d m -> length x = length m -> m <> [] -> nth 0 x 0 <= t -> last x 0 <= t -> rising x -> at_row d x m t = last m [].
Proof.
  intros M L N H H2 Ri. apply (row_ext d); [apply at_row_length; intros ->; destruct m; [contradiction|discriminate]|apply M, last_In, N|].
  intros i Hi. destruct x as [|x0 xs]; [destruct m; [contradiction|discriminate]|]. rewrite at_row_nth by exact Hi. destruct (Rltb t x0) eqn:Q; [apply Rltb_true in Q; cbn [nth] in H; lra|].
  destruct (seg t x0 xs) as [j|] eqn:E.
  - exfalso. destruct (seg_some _ _ _ _ H E) as [Lj B]. change (nth 0 (x0 :: xs) 0) with x0 in B. rewrite last_nth in H2. cbn [length] in H2. replace (S (length xs) - 1)%nat with (length xs) in H2 by lia.
    destruct (Nat.eq_dec (S j) (length xs)) as [Ej|Nj]; [rewrite Ej in B; lra|]. pose proof (Ri (S j) (length xs) ltac:(cbn [length]; lia)). lra.
  - rewrite last_nth, column_length. rewrite column_nth by (destruct m; [contradiction|cbn; lia]). rewrite <- last_nth. reflexivity.
Qed.
(** the line read backwards *)
Lemma on_line_rev d x m t p : length x = length m -> on_line d (rev x) (rev m) t p -> on_line d x m t p.
Proof.
  intros L (Lp & j & s & Hj & Hs & Et & Ep). split; [exact Lp|]. rewrite rev_length in Hj. exists (length m - 2 - j)%nat, (1 - s). split; [lia|]. split; [lra|].
  rewrite !rev_nth in Et by lia. rewrite L in Et. replace (length m - S (S j))%nat with (length m - 2 - j)%nat in Et by lia. replace (length m - S j)%nat with (S (length m - 2 - j)) in Et by lia. split; [lra|].
  intros i Hi. rewrite (Ep i Hi), !rev_nth by lia. replace (length m - S (S j))%nat with (length m - 2 - j)%nat by lia. replace (length m - S j)%nat with (S (length m - 2 - j)) by lia. ring.
Qed.
Lemma last_rev {A} (l : list A) d : last (rev l) d = nth 0 l d.
Proof. destruct l as [|a l]; [reflexivity|]. cbn [rev nth]. apply last_last. Qed.
Lemma nth0_rev {A} (l : list A) d : nth 0 (rev l) d = last l d.
Proof. rewrite <- last_rev, rev_involutive. reflexivity. Qed.

(** ** The function, up to the order *)
Lemma bools_exists (f : R -> bool) l : existsb (fun b => b) (map f l) = existsb f l.
Proof. induction l; cbn; [reflexivity|]. rewrite IHl. reflexivity. Qed.
Lemma map2_map {A B} (f : A -> bool) (g h : A -> B) l : map2 (fun (b : bool) r => if b then r else r) (map f l) (map g l) = map g l.
Proof. induction l; cbn; [reflexivity|]. rewrite IHl. destruct (f a); reflexivity. Qed.
Lemma map2_fill {A B} (f : A -> bool) (v : B) (g : A -> B) l : map2 (fun (b : bool) r => if b then v else r) (map f l) (map g l) = map (fun t => if f t then v else g t) l.
Proof. induction l; cbn; [reflexivity|]. rewrite IHl. reflexivity. Qed.
(** result for sorted distances *)
Definition sorted_result (d : nat) (x : list R) (m : list row) (error : bool) (fill : fill_value) (xi : list R) : result (list row) :=
  match fill, error with
  | Endpoints, false => Ok (map (at_row d x m) xi)
  | _, _ =>
    if (error && (existsb (fun t => Rltb t (nth 0 x 0)) xi || existsb (fun t => Rltb (last x 0) t) xi))%bool then Err ValueError else
    Ok (map (fun t => if Rltb (last x 0) t then match fill with Endpoints => last m [] | Fill _ b => b end else
                      if Rltb t (nth 0 x 0) then match fill with Endpoints => nth 0 m [] | Fill a _ => a end else at_row d x m t) xi)
  end.
Lemma rising_ends x : rising x -> nth 0 x 0 <= last x 0.
Proof. intros H. rewrite last_nth. destruct (length x) as [|[|n]] eqn:E; [destruct x; [cbn; lra|discriminate]|cbn; lra|]. apply H. lia. Qed.
Lemma line_rising argsort d m x xi n dx error fill : length x = length m -> x <> [] -> rising x ->
  interpolate_line argsort d m (Some x) (Some xi) n dx error fill = sorted_result d x m error fill xi.
Proof.
  intros L N Ri. unfold interpolate_line, want. cbn [bind]. destruct x as [|x0 xs] eqn:Ex; [contradiction|]. rewrite <- Ex in *. clear N.
  assert (Q : ((1 <? length x)%nat && Rltb (nth 1 x 0) (nth 0 x 0))%bool = false).
  { destruct (Nat.ltb_spec 1 (length x)); [|reflexivity]. cbn [andb]. apply Rltb_false. apply Ri. lia. }
  rewrite Q. rewrite interp_rows_ok by (first [exact L|subst x; discriminate]). cbn [bind]. unfold sorted_result.
  assert (Q2 : Rltb (last x 0) (head x) = false) by (apply Rltb_false, rising_ends, Ri). rewrite Q2. unfold head. rewrite !bools_exists.
  destruct fill as [|a b], error; try reflexivity; rewrite !map2_fill; reflexivity.
Qed.
Lemma falling_second x : (2 <= length x)%nat -> falling x -> ((1 <? length x)%nat && Rltb (nth 1 x 0) (nth 0 x 0))%bool = true.
Proof. intros L F. destruct (Nat.ltb_spec 1 (length x)); [|lia]. cbn [andb]. apply Rltb_true. apply F. lia. Qed.
Lemma line_falling argsort d m x xi n dx error fill : sorts argsort -> length x = length m -> (2 <= length x)%nat -> falling x ->
  interpolate_line argsort d m (Some x) (Some xi) n dx error fill = sorted_result d (rev x) (rev m) error fill xi.
Proof.
  intros So L N F. unfold interpolate_line, want. cbn [bind]. destruct x as [|x0 xs] eqn:Ex; [cbn in N; lia|]. rewrite <- Ex in *.
  rewrite falling_second by assumption. cbn zeta. rewrite argsort_falling by assumption. rewrite map_nth_rev. rewrite L, map_nth_rev.
  assert (Ri : rising (rev x)) by (apply rev_rising, F).
  rewrite interp_rows_ok by (first [rewrite !rev_length; exact L|intros Z; apply (f_equal (@length _)) in Z; rewrite rev_length in Z; cbn in Z; lia]). cbn [bind]. unfold sorted_result.
  assert (Q2 : Rltb (last (rev x) 0) (head (rev x)) = false) by (apply Rltb_false, rising_ends, Ri). rewrite Q2. unfold head. rewrite !bools_exists.
  destruct fill as [|a b], error; try reflexivity; rewrite !map2_fill; reflexivity.
Qed.

Definition good (d : nat) (x : list R) (m : list (list R)) : Prop := matrix d m /\ length x = length m /\ (2 <= length m)%nat.
Lemma existsb_false {A} (f : A -> bool) l : existsb f l = false <-> forall t, In t l -> f t = false.
Proof.
  split.
  - intros H t Ht. destruct (f t) eqn:E; [|reflexivity]. rewrite <- H. symmetry. apply existsb_exists. eauto.
  - intros H. destruct (existsb f l) eqn:E; [|reflexivity]. apply existsb_exists in E as (t & I & T). rewrite (H t I) in T. discriminate.
Qed.
(** everything about sorted distances *)
Lemma sorted_result_spec d x m error fill xi : good d x m -> rising x ->
  (sorted_result d x m error fill xi = Err ValueError /\ error = true /\ exists t, In t xi /\ ~ nth 0 x 0 <= t <= last x 0) \/
  (exists f, sorted_result d x m error fill xi = Ok (map f xi) /\ (error = true -> forall t, In t xi -> nth 0 x 0 <= t <= last x 0) /\
   forall t, (nth 0 x 0 <= t <= last x 0 -> on_line d x m t (f t)) /\
             (t < nth 0 x 0 -> f t = match fill with Endpoints => nth 0 m [] | Fill a _ => a end) /\
             (last x 0 < t -> f t = match fill with Endpoints => last m [] | Fill _ b => b end)).
Proof.
  intros (M & L & N) Ri. pose proof (rising_ends x Ri) as RE. assert (Nm : m <> []) by (intros ->; cbn in N; lia).
  assert (G : forall t, (if Rltb (last x 0) t then match fill with Endpoints => last m [] | Fill _ b => b end else
                      if Rltb t (nth 0 x 0) then match fill with Endpoints => nth 0 m [] | Fill a _ => a end else at_row d x m t) = 
     (if Rltb (last x 0) t then match fill with Endpoints => last m [] | Fill _ b => b end else
                      if Rltb t (nth 0 x 0) then match fill with Endpoints => nth 0 m [] | Fill a _ => a end else at_row d x m t)) by reflexivity.
  set (f := fun t => if Rltb (last x 0) t then match fill with Endpoints => last m [] | Fill _ b => b end else
                      if Rltb t (nth 0 x 0) then match fill with Endpoints => nth 0 m [] | Fill a _ => a end else at_row d x m t).
  assert (F : forall t, (nth 0 x 0 <= t <= last x 0 -> on_line d x m t (f t)) /\
             (t < nth 0 x 0 -> f t = match fill with Endpoints => nth 0 m [] | Fill a _ => a end) /\
             (last x 0 < t -> f t = match fill with Endpoints => last m [] | Fill _ b => b end)).
  { clear G. intros t. unfold f. destruct (Rltb (last x 0) t) eqn:Q1; [apply Rltb_true in Q1|apply Rltb_false in Q1]; (split; [|split]); intros H; try lra; try reflexivity;
    destruct (Rltb t (nth 0 x 0)) eqn:Q2; [apply Rltb_true in Q2|apply Rltb_false in Q2|apply Rltb_true in Q2|apply Rltb_false in Q2]; try lra; try reflexivity.
    apply at_row_within; assumption. }
  clear G. unfold sorted_result. fold f.
  destruct fill as [|a b]; [destruct error|].
  - cbn [andb]. destruct (existsb _ xi || existsb _ xi)%bool eqn:Q.
    + left. split; [reflexivity|]. split; [reflexivity|]. apply orb_true_iff in Q as [Q|Q]; apply existsb_exists in Q as (t & I & T); apply Rltb_true in T; exists t; (split; [exact I|]); lra.
    + right. exists f. split; [reflexivity|]. split; [|exact F]. intros _ t I. apply orb_false_iff in Q as [Q1 Q2]. rewrite existsb_false in Q1, Q2. specialize (Q1 t I). specialize (Q2 t I). apply Rltb_false in Q1, Q2. lra.
  - right. exists (at_row d x m). split; [reflexivity|]. split; [discriminate|]. intros t. split; [|split]; intros H.
    + apply at_row_within; assumption.
    + apply at_row_before; assumption.
    + apply at_row_after; try assumption; lra.
  - cbn [andb]. destruct error; cbn [andb].
    + destruct (existsb _ xi || existsb _ xi)%bool eqn:Q.
      * left. split; [reflexivity|]. split; [reflexivity|]. apply orb_true_iff in Q as [Q|Q]; apply existsb_exists in Q as (t & I & T); apply Rltb_true in T; exists t; (split; [exact I|]); lra.
      * right. exists f. split; [reflexivity|]. split; [|exact F]. intros _ t I. apply orb_false_iff in Q as [Q1 Q2]. rewrite existsb_false in Q1, Q2. specialize (Q1 t I). specialize (Q2 t I). apply Rltb_false in Q1, Q2. lra.
    + right. exists f. split; [reflexivity|]. split; [discriminate|exact F].
Qed.
Lemma good_rev d x m : good d x m -> good d (rev x) (rev m).
Proof. intros (M & L & N). unfold good. rewrite !rev_length. split; [intros r H; apply M, in_rev, H|auto]. Qed.
Lemma falling_ends x : (2 <= length x)%nat -> falling x -> last x 0 < nth 0 x 0.
Proof. intros L F. rewrite last_nth. apply F. lia. Qed.
Lemma nth_error_map' {A B} (f : A -> B) l k t d : nth_error l k = Some t -> nth k (map f l) d = f t.
Proof. intros H. apply nth_error_nth. rewrite nth_error_map, H. reflexivity. Qed.

(** * Theorems *)
(** C81: every requested distance within the line gives the point of the line at this distance, whatever else is requested *)
Theorem line_points : forall argsort d m x xi n dx error fill out, sorts argsort -> matrix d m -> length x = length m -> (2 <= length m)%nat ->
  rising x \/ falling x -> interpolate_line argsort d m (Some x) (Some xi) n dx error fill = Ok out ->
  length out = length xi /\ forall k t, nth_error xi k = Some t -> within x t -> on_line d x m t (nth k out []).
Proof.
  intros argsort d m x xi n dx error fill out So M L N [Ri|F] E.
  - rewrite line_rising in E by (first [assumption|intros ->; cbn in L; lia]).
    destruct (sorted_result_spec d x m error fill xi (conj M (conj L N)) Ri) as [(Z & _)|(f & Z & _ & H)]; rewrite Z in E; [discriminate|]. injection E as <-.
    split; [apply map_length|]. intros k t K W. rewrite (nth_error_map' f _ _ _ _ K). apply H. pose proof (rising_ends x Ri). unfold within in W. lra.
  - rewrite line_falling in E by (first [assumption|lia]).
    destruct (sorted_result_spec d (rev x) (rev m) error fill xi (good_rev _ _ _ (conj M (conj L N))) (rev_rising x F)) as [(Z & _)|(f & Z & _ & H)]; rewrite Z in E; [discriminate|]. injection E as <-.
    split; [apply map_length|]. intros k t K W. rewrite (nth_error_map' f _ _ _ _ K). apply on_line_rev; [exact L|]. apply H. rewrite nth0_rev, last_rev.
    pose proof (falling_ends x ltac:(lia) F). unfold within in W. lra.
Qed.
Print Assumptions line_points.

(** C81: with error=True the call succeeds exactly if all distances are within the line (ValueError otherwise), with error=False always *)
Theorem line_error : forall argsort d m x xi n dx error fill, sorts argsort -> matrix d m -> length x = length m -> (2 <= length m)%nat ->
  rising x \/ falling x ->
  let out := interpolate_line argsort d m (Some x) (Some xi) n dx error fill in
  ((error = true -> forall t, In t xi -> within x t) -> exists l, out = Ok l) /\
  (~ (error = true -> forall t, In t xi -> within x t) -> out = Err ValueError).
Proof.
  intros argsort d m x xi n dx error fill So M L N RF. cbv zeta. destruct RF as [Ri|F].
  - rewrite line_rising by (first [assumption|intros ->; cbn in L; lia]). pose proof (rising_ends x Ri) as RE.
    destruct (sorted_result_spec d x m error fill xi (conj M (conj L N)) Ri) as [(Z & -> & t & I & T)|(f & Z & W & _)]; rewrite Z; split; intros H; try reflexivity.
    + exfalso. apply T. specialize (H eq_refl t I). unfold within in H. lra.
    + eauto.
    + exfalso. apply H. intros E t I. left. apply (W E t I).
  - rewrite line_falling by (first [assumption|lia]). pose proof (falling_ends x ltac:(lia) F) as RE.
    destruct (sorted_result_spec d (rev x) (rev m) error fill xi (good_rev _ _ _ (conj M (conj L N))) (rev_rising x F)) as [(Z & -> & t & I & T)|(f & Z & W & _)]; rewrite Z; rewrite ?nth0_rev, ?last_rev in *; split; intros H; try reflexivity.
    + exfalso. apply T. specialize (H eq_refl t I). unfold within in H. lra.
    + eauto.
    + exfalso. apply H. intros E t I. right. exact (W E t I).
Qed.
Print Assumptions line_error.

(** C81: distances beyond an end of the line give the vertex at this end, or, for rising distances, the fill value of this end *)
Theorem line_beyond : forall argsort d m x xi n dx fill out k t, sorts argsort -> matrix d m -> length x = length m -> (2 <= length m)%nat ->
  rising x \/ falling x -> interpolate_line argsort d m (Some x) (Some xi) n dx false fill = Ok out -> nth_error xi k = Some t ->
  (fill = Endpoints -> (rising x /\ t < nth 0 x 0 \/ falling x /\ nth 0 x 0 < t -> nth k out [] = nth 0 m []) /\
                       (rising x /\ last x 0 < t \/ falling x /\ t < last x 0 -> nth k out [] = last m [])) /\
  (forall a b, fill = Fill a b -> rising x -> (t < nth 0 x 0 -> nth k out [] = a) /\ (last x 0 < t -> nth k out [] = b)).
Proof.
  intros argsort d m x xi n dx fill out k t So M L N RF E K.
  assert (X : rising x -> falling x -> False).
  { intros Ri F. pose proof (rising_ends x Ri). pose proof (falling_ends x ltac:(lia) F). lra. }
  destruct RF as [Ri|F].
  - rewrite line_rising in E by (first [assumption|intros ->; cbn in L; lia]).
    destruct (sorted_result_spec d x m false fill xi (conj M (conj L N)) Ri) as [(Z & _)|(f & Z & _ & H)]; rewrite Z in E; [discriminate|]. injection E as <-. rewrite (nth_error_map' f _ _ _ _ K).
    destruct (H t) as (_ & H1 & H2). split.
    + intros ->. split; intros [[_ A]|[A _]]; auto; exfalso; auto.
    + intros a b -> _. auto.
  - rewrite line_falling in E by (first [assumption|lia]).
    destruct (sorted_result_spec d (rev x) (rev m) false fill xi (good_rev _ _ _ (conj M (conj L N))) (rev_rising x F)) as [(Z & _)|(f & Z & _ & H)]; rewrite Z in E; [discriminate|]. injection E as <-. rewrite (nth_error_map' f _ _ _ _ K).
    destruct (H t) as (_ & H1 & H2). rewrite !nth0_rev, !last_rev in *. split.
    + intros ->. split; intros [[A _]|[_ A]]; auto; exfalso; auto.
    + intros a b -> Ri. exfalso. auto.
Qed.
Print Assumptions line_beyond.

(** C81, refuted: for falling distances the two fill values are exchanged: distances beyond x[0] get the value documented for those beyond x[-1] *)
Theorem line_fill_refuted : forall argsort d m x xi n dx a b out k t, sorts argsort -> matrix d m -> length x = length m -> (2 <= length m)%nat ->
  falling x -> interpolate_line argsort d m (Some x) (Some xi) n dx false (Fill a b) = Ok out -> nth_error xi k = Some t ->
  (nth 0 x 0 < t -> nth k out [] = b) /\ (t < last x 0 -> nth k out [] = a).
Proof.
  intros argsort d m x xi n dx a b out k t So M L N F E K.
  rewrite line_falling in E by (first [assumption|lia]).
  destruct (sorted_result_spec d (rev x) (rev m) false (Fill a b) xi (good_rev _ _ _ (conj M (conj L N))) (rev_rising x F)) as [(Z & _)|(f & Z & _ & H)]; rewrite Z in E; [discriminate|]. injection E as <-. rewrite (nth_error_map' f _ _ _ _ K).
  destruct (H t) as (_ & H1 & H2). rewrite !nth0_rev, !last_rev in *. auto.
Qed.
Print Assumptions line_fill_refuted.

(** ** Default distances *)
Lemma sum_sq a b : sumR (map (fun v => v ^ 2) (map2 (fun x y => y - x) a b)) = sq_diff a b.
Proof. revert b; induction a as [|x a IH]; intros [|y b]; cbn [map2 map sumR fold_right sq_diff]; try reflexivity. change (fold_right Rplus 0 (map (fun v => v ^ 2) (map2 (fun x y => y - x) a b))) with (sumR (map (fun v => v ^ 2) (map2 (fun x y => y - x) a b))). rewrite IH. reflexivity. Qed.
Lemma row_diffs_length m : length (row_diffs m) = (length m - 1)%nat.
Proof. induction m as [|a [|b m] IH]; [reflexivity|reflexivity|]. cbn [row_diffs length] in *. rewrite IH. lia. Qed.
Lemma cumsum_shift s l : cumsum_from s l = map (Rplus s) (cumsum_from 0 l).
Proof. revert s; induction l as [|a l IH]; intros s; [reflexivity|]. cbn [cumsum_from map]. rewrite Rplus_0_l. f_equal. rewrite IH, (IH a), map_map. apply map_ext. intros; ring. Qed.
Lemma arc_tail a m j : arc (a :: m) (S j) = sqrt (sq_diff a (nth 0 m [])) + arc m j.
Proof. induction j as [|j IH]; [cbn [arc nth]; ring|]. change (arc (a :: m) (S (S j))) with (arc (a :: m) (S j) + sqrt (sq_diff (nth j m []) (nth (S j) m []))). rewrite IH. cbn [arc]. ring. Qed.
Lemma distances_arcs m : m <> [] -> distances m = arcs m.
Proof.
  intros N. induction m as [|a m IH]; [contradiction|]. unfold arcs. cbn [length seq map arc]. unfold distances. f_equal.
  destruct m as [|b m]; [reflexivity|]. specialize (IH ltac:(discriminate)). unfold distances, arcs in IH. 
  change (row_diffs (a :: b :: m)) with (map2 (fun x y => y - x) a b :: row_diffs (b :: m)). cbn [map]. rewrite sum_sq. unfold cumsum. cbn [cumsum_from]. rewrite Rplus_0_l. rewrite <- seq_shift, map_map. cbn [length seq map].
  f_equal; [rewrite arc_tail; cbn [arc nth]; ring|]. rewrite cumsum_shift.
  rewrite (map_ext (fun k => arc (a :: b :: m) (S k)) (fun k => sqrt (sq_diff a b) + arc (b :: m) k)) by (intros k; rewrite arc_tail; reflexivity).
  cbn [length seq map] in IH. apply (f_equal (@tl R)) in IH. cbn [tl] in IH. unfold cumsum in IH. rewrite IH, map_map. reflexivity.
Qed.
Lemma arcs_length m : length (arcs m) = length m.
Proof. unfold arcs. rewrite map_length, seq_length. reflexivity. Qed.
Lemma arc_mono m i j : (i <= j)%nat -> arc m i <= arc m j.
Proof. induction 1 as [|j H IH]; [lra|]. cbn [arc]. pose proof (sqrt_pos (sq_diff (nth j m []) (nth (S j) m []))). lra. Qed.
Lemma arcs_rising m : rising (arcs m).
Proof. intros i j H. rewrite arcs_length in H. unfold arcs. rewrite !nth_map_seq by lia. apply arc_mono. lia. Qed.

(** C81: without x, distances are measured along the line, from its first vertex *)
Theorem line_default : forall argsort d m xi n dx error fill, (1 <= length m)%nat ->
  interpolate_line argsort d m None xi n dx error fill = interpolate_line argsort d m (Some (arcs m)) xi n dx error fill /\
  rising (arcs m) /\ length (arcs m) = length m.
Proof.
  intros argsort d m xi n dx error fill N. split; [|split; [apply arcs_rising|apply arcs_length]].
  unfold interpolate_line. rewrite distances_arcs by (intros ->; cbn in N; lia). reflexivity.
Qed.
Print Assumptions line_default.

(** ** Evenly spaced points *)
Definition even_places (x : list R) (n : Z) : list R := map (fun k => if (n =? 1)%Z then nth 0 x 0 else nth 0 x 0 + IZR k * ((last x 0 - nth 0 x 0) / IZR (n - 1))) (Zrange n).
Lemma line_count_eq argsort d m x n dx error fill : x <> [] -> (0 <= n)%Z ->
  interpolate_line argsort d m (Some x) None (Some n) dx error fill = interpolate_line argsort d m (Some x) (Some (even_places x n)) None None false Endpoints.
Proof.
  intros N Hn. unfold interpolate_line, want. cbn [bind]. destruct x as [|x0 xs]; [contradiction|]. rewrite linspace_ok by exact Hn. cbn [bind]. reflexivity.
Qed.
Lemma Zrange_length n : length (Zrange n) = Z.to_nat n.
Proof. unfold Zrange. rewrite map_length, seq_length. reflexivity. Qed.
Lemma Zrange_nth_error n k : (k < Z.to_nat n)%nat -> nth_error (Zrange n) k = Some (Z.of_nat k).
Proof. intros H. unfold Zrange. rewrite nth_error_map. rewrite (nth_error_nth' _ 0%nat) by (rewrite seq_length; exact H). rewrite seq_nth by exact H. reflexivity. Qed.
Lemma part_within (a b : R) (k n : Z) : (0 <= k < n)%Z -> (2 <= n)%Z -> let t := a + IZR k * ((b - a) / IZR (n - 1)) in a <= t <= b \/ b <= t <= a.
Proof.
  intros Hk Hn t. assert (P : 1 <= IZR (n - 1)) by (apply (IZR_le 1); lia). assert (Q : 0 <= IZR k <= IZR (n - 1)) by (split; [apply (IZR_le 0)|apply IZR_le]; lia).
  set (s := IZR k / IZR (n - 1)). assert (Et : t = a + s * (b - a)) by (unfold t, s; field; lra).
  assert (S : 0 <= s <= 1). { unfold s. split; [apply Rmult_le_pos; [lra|left; apply Rinv_0_lt_compat; lra]|]. apply Rmult_le_reg_r with (IZR (n - 1)); [lra|]. unfold Rdiv. rewrite Rmult_assoc, Rinv_l, Rmult_1_r by lra. lra. }
  rewrite Et. clearbody s. destruct (Rle_dec a b); [left|right]; nra.
Qed.
Lemma even_within x n t : (0 <= n)%Z -> (rising x \/ (2 <= length x)%nat /\ falling x) -> In t (even_places x n) -> within x t.
Proof.
  intros Hn RF I. unfold even_places in I. apply in_map_iff in I as (k & Et & Ik). unfold Zrange in Ik. apply in_map_iff in Ik as (q & <- & Iq). apply in_seq in Iq. unfold within.
  destruct (Z.eqb_spec n 1) as [->|N1].
  - subst t. destruct RF as [Ri|[L F]]; [pose proof (rising_ends x Ri)|pose proof (falling_ends x L F)]; lra.
  - subst t. apply part_within; lia.
Qed.
(** C81: n gives n points, spaced evenly from the first to the last vertex *)
Theorem line_count : forall argsort d m x n dx error fill, sorts argsort -> matrix d m -> length x = length m -> (2 <= length m)%nat ->
  rising x \/ falling x -> (0 <= n)%Z -> exists out,
  interpolate_line argsort d m (Some x) None (Some n) dx error fill = Ok out /\ Z.of_nat (length out) = n /\
  (forall k, (0 <= k < n)%Z -> (2 <= n)%Z -> on_line d x m (nth 0 x 0 + IZR k / IZR (n - 1) * (last x 0 - nth 0 x 0)) (nth (Z.to_nat k) out [])) /\
  ((1 <= n)%Z -> on_line d x m (nth 0 x 0) (nth 0 out [])).
Proof.
  intros argsort d m x n dx error fill So M L N RF Hn. rewrite line_count_eq by (first [exact Hn|intros ->; cbn in L; lia]).
  destruct (line_error argsort d m x (even_places x n) None None false Endpoints So M L N RF) as [[out E] _]; [discriminate|].
  exists out. split; [exact E|]. destruct (line_points _ _ _ _ _ _ _ _ _ _ So M L N RF E) as [Lo H].
  assert (W : forall t, In t (even_places x n) -> within x t) by (intros t; apply even_within; [exact Hn|destruct RF; [left; assumption|right; split; [lia|assumption]]]).
  assert (K : forall k, (0 <= k < n)%Z -> nth_error (even_places x n) (Z.to_nat k) = Some (if (n =? 1)%Z then nth 0 x 0 else nth 0 x 0 + IZR k * ((last x 0 - nth 0 x 0) / IZR (n - 1)))).
  { intros k Hk. unfold even_places. rewrite nth_error_map, Zrange_nth_error by lia. rewrite Z2Nat.id by lia. reflexivity. }
  split; [rewrite Lo; unfold even_places; rewrite map_length, Zrange_length; lia|]. split.
  - intros k Hk H2. pose proof (K k Hk) as Kk. destruct (Z.eqb_spec n 1); [lia|].
    replace (nth 0 x 0 + IZR k / IZR (n - 1) * (last x 0 - nth 0 x 0)) with (nth 0 x 0 + IZR k * ((last x 0 - nth 0 x 0) / IZR (n - 1))).
    + apply H; [exact Kk|]. apply W. apply (nth_error_In _ _ Kk).
    + field. apply not_0_IZR. lia.
  - intros H1. pose proof (K 0%Z ltac:(lia)) as K0. cbn [Z.to_nat] in K0.
    replace (if (n =? 1)%Z then nth 0 x 0 else nth 0 x 0 + 0 * ((last x 0 - nth 0 x 0) / IZR (n - 1))) with (nth 0 x 0) in K0 by (destruct (n =? 1)%Z; ring).
    apply H; [exact K0|]. apply W. apply (nth_error_In _ _ K0).
Qed.
Print Assumptions line_count.

(** C81: dx is as n: one point more than there are steps of dx, if these fit, otherwise their number rounded to an integer *)
Theorem line_step : forall argsort d m x dx error fill, x <> [] -> dx <> 0 -> exists n,
  interpolate_line argsort d m (Some x) None None (Some dx) error fill = interpolate_line argsort d m (Some x) None (Some n) None error fill /\
  let steps := Rabs ((last x 0 - nth 0 x 0) / dx) in
  (forall k, steps = IZR k -> n = (k + 1)%Z) /\ ((forall k, steps <> IZR k) -> Rabs (IZR n - steps) <= / 2).
Proof.
  intros argsort d m x dx error fill N D. set (steps := Rabs ((last x 0 - nth 0 x 0) / dx)).
  exists (Rround (if Reqb steps (IZR (Rtrunc steps)) then steps + 1 else steps)). split.
  - unfold interpolate_line, want. cbn [bind]. destruct x as [|x0 xs]; [contradiction|]. unfold count_from_dx. destruct (Reqb dx 0) eqn:Q; [apply Reqb_true in Q; contradiction|]. cbn [bind]. reflexivity.
  - cbv zeta. assert (P : 0 <= steps) by apply Rabs_pos. assert (T : Rtrunc steps = Rfloor steps) by (unfold Rtrunc; destruct (Rltb steps 0) eqn:Q; [apply Rltb_true in Q; lra|reflexivity]). split.
    + intros k Ek. assert (F : Rfloor steps = k) by (rewrite Ek; apply Rfloor_imp; lra).
      destruct (Reqb steps (IZR (Rtrunc steps))) eqn:Q; [|apply Reqb_false in Q; rewrite T, F in Q; contradiction]. rewrite Ek. rewrite <- plus_IZR. apply Rround_IZR.
    + intros H. destruct (Reqb steps (IZR (Rtrunc steps))) eqn:Q; [apply Reqb_true in Q; exfalso; apply (H _ Q)|]. rewrite Rabs_minus_sym. apply Rround_near.
Qed.
Print Assumptions line_step.

(** C81, refuted: for a dx that does not divide the length, the ends are not always included: no point for a dx of more than twice the length, the first vertex
    only for a dx between 2/3 and 2 times the length; otherwise the points are further apart than dx *)
Theorem line_step_refuted : forall argsort d m x dx error fill, sorts argsort -> matrix d m -> length x = length m -> (2 <= length m)%nat -> rising x -> 0 < dx ->
  let steps := (last x 0 - nth 0 x 0) / dx in (forall k, steps <> IZR k) -> exists out,
  interpolate_line argsort d m (Some x) None None (Some dx) error fill = Ok out /\
  (steps < / 2 -> out = []) /\
  (/ 2 < steps < 3 / 2 -> length out = 1%nat) /\
  (3 / 2 < steps -> (2 <= length out)%nat /\ (last x 0 - nth 0 x 0) / IZR (Z.of_nat (length out) - 1) > dx).
Proof.
  intros argsort d m x dx error fill So M L N Ri D steps H.
  destruct (line_step argsort d m x dx error fill) as (n & E & _ & R); [intros ->; cbn in L; lia|lra|]. cbv zeta in R. fold steps in R.
  pose proof (rising_ends x Ri) as RE. assert (P : 0 <= steps) by (unfold steps; apply Rmult_le_pos; [lra|left; apply Rinv_0_lt_compat; exact D]).
  rewrite (Rabs_right steps) in R by lra. specialize (R H).
  assert (R1 : IZR n - / 2 <= steps <= IZR n + / 2) by (revert R; unfold Rabs; destruct (Rcase_abs _); lra).
  assert (Hn : (0 <= n)%Z). { apply le_IZR. assert (-1 < IZR n) by lra. apply lt_IZR in H0. apply IZR_le. lia. }
  destruct (line_count argsort d m x n None error fill So M L N (or_introl Ri) Hn) as (out & E2 & Lo & _).
  exists out. rewrite E. split; [exact E2|]. split; [|split].
  - intros S. assert (IZR n < 1) by lra. apply lt_IZR in H0. assert (n = 0%Z) by lia. destruct out; [reflexivity|cbn in Lo; lia].
  - intros S. assert (H0 : IZR n < 2) by lra. apply lt_IZR in H0. assert (H1 : 0 < IZR n) by lra. apply lt_IZR in H1. lia.
  - intros S. assert (H0 : 1 < IZR n) by lra. apply lt_IZR in H0. split; [lia|]. rewrite Lo. assert (H1 : 2 <= IZR n) by (apply IZR_le; lia).
    assert (St : last x 0 - nth 0 x 0 = steps * dx) by (unfold steps; field; lra). rewrite St, minus_IZR. apply Rlt_gt, Rmult_lt_reg_r with (IZR n - 1); [lra|]. unfold Rdiv. rewrite Rmult_assoc, Rinv_l, Rmult_1_r by lra. nra.
Qed.
Print Assumptions line_step_refuted.
(** C81: one of xi, n, dx is required *)
Theorem line_required : forall argsort d m x error fill, interpolate_line argsort d m x None None None error fill = Err ValueError.
Proof. reflexivity. Qed.

(** ** The hypotheses are met *)
Lemma argsort_sorts : sorts argsort.
Proof.
  intros l. destruct (argsort_spec l) as [S P]. split; [exact P|]. clear P. induction S as [|k s S IH F]; [constructor|]. cbn [map]. constructor; [exact IH|].
  rewrite Forall_forall in *. intros y Hy. apply in_map_iff in Hy as (q & <- & Hq). apply (F q Hq).
Qed.
Definition bent : list (list R) := [[0; 0]; [1; 0]; [1; 1]].
Lemma bent_matrix : matrix 2 bent.
Proof. intros r H. repeat destruct H as [<-|H]; try reflexivity. destruct H. Qed.
Lemma bent_falling : falling [2; 1; 0].
Proof. intros i j H. cbn [length] in H. assert (C : i = 0%nat /\ j = 1%nat \/ i = 0%nat /\ j = 2%nat \/ i = 1%nat /\ j = 2%nat) by lia. destruct C as [[-> ->]|[[-> ->]|[-> ->]]]; cbn; lra. Qed.
Example line_applies : exists out, interpolate_line argsort 2 bent (Some [2; 1; 0]) (Some [3; / 2]) None None false (Fill [7; 7] [9; 9]) = Ok out /\
  nth 0 out [] = [9; 9] /\ on_line 2 [2; 1; 0] bent (/ 2) (nth 1 out []).
Proof.
  destruct (line_error argsort 2 bent [2; 1; 0] [3; / 2] None None false (Fill [7; 7] [9; 9]) argsort_sorts bent_matrix eq_refl ltac:(cbn; lia) (or_intror bent_falling)) as [[out E] _]; [discriminate|].
  exists out. split; [exact E|]. split.
  - apply (line_fill_refuted argsort 2 bent [2; 1; 0] [3; / 2] None None [7; 7] [9; 9] out 0%nat 3 argsort_sorts bent_matrix eq_refl ltac:(cbn; lia) bent_falling E eq_refl). cbn. lra.
  - apply (line_points argsort 2 bent [2; 1; 0] [3; / 2] None None false (Fill [7; 7] [9; 9]) out argsort_sorts bent_matrix eq_refl ltac:(cbn; lia) (or_intror bent_falling) E); [reflexivity|]. right. cbn. lra.
Qed.
Example line_step_applies : exists out, interpolate_line argsort 2 bent None None None (Some 5) true Endpoints = Ok out /\ out = [].
Proof.
  rewrite (proj1 (line_default argsort 2 bent None None (Some 5) true Endpoints ltac:(cbn; lia))).
  assert (A : arcs bent = [0; 1; 2]).
  { unfold arcs. cbn [bent length seq map arc nth sq_diff]. replace ((1 - 0) ^ 2 + ((0 - 0) ^ 2 + 0)) with 1 by ring. replace ((1 - 1) ^ 2 + ((1 - 0) ^ 2 + 0)) with 1 by ring. rewrite sqrt_1. repeat f_equal; ring. }
  destruct (line_default argsort 2 bent None None None true Endpoints ltac:(cbn; lia)) as (_ & Ri & Le).
  destruct (line_step_refuted argsort 2 bent (arcs bent) 5 true Endpoints argsort_sorts bent_matrix Le ltac:(cbn; lia) Ri ltac:(lra)) as (out & E & Z & _).
  { rewrite A. cbn [last nth]. intros k Hk. assert (0 < IZR k < 1) by lra. destruct H as [H1 H2]. apply lt_IZR in H1. apply lt_IZR in H2. lia. }
  exists out. split; [exact E|]. apply Z. rewrite A. cbn [last nth]. lra.
Qed.
