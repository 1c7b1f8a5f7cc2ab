From Coq Require Import Lia Lra.
From Verif Require Import Base BaseLemmas HelpersModel HelpersSpec BoxProofs GridModel GridSpec GridProofs GridProofs2 RasterModel RasterSpec RasterProofs RasterProofs2 RasterProofs3 RasterProofs4 RasterProofs5 RasterProofs6 RasterProofs7 GridSampleModel GridSampleProofs P_Raster.
Open Scope R_scope.

Lemma nan_min_some l m : nan_min l = Some m -> In (Some m) l /\ forall w, In (Some w) l -> m <= w.
Proof.
  revert m. induction l as [|[x|] l IH]; intros m E; cbn in E; [discriminate| |].
  - destruct (nan_min l) as [k|] eqn:K; injection E as <-.
    + destruct (IH k eq_refl) as [I L]. split.
      * destruct (Rle_dec x k); [left; rewrite Rmin_left by assumption; reflexivity|right; rewrite Rmin_right by lra; exact I].
      * intros w [Hw|Hw]; [injection Hw as <-; apply Rmin_l|]. eapply Rle_trans; [apply Rmin_r|apply L; exact Hw].
    + split; [left; reflexivity|]. intros w [Hw|Hw]; [injection Hw as <-; lra|]. exfalso. clear IH. induction l as [|[y|] l IHl]; cbn in *; [tauto| |].
      * destruct (nan_min l); discriminate.
      * destruct Hw as [Hw|Hw]; [discriminate|]. apply IHl; assumption.
  - destruct (IH m E) as [I L]. split; [right; exact I|]. intros w [Hw|Hw]; [discriminate|apply L; exact Hw].
Qed.
Lemma nan_min_none l : nan_min l = None -> forall w, ~ In (Some w) l.
Proof.
  induction l as [|[x|] l IH]; cbn; intros E w; [tauto| |].
  - destruct (nan_min l); discriminate.
  - intros [H|H]; [discriminate|]. exact (IH E w H).
Qed.
Lemma cell_in s r c w : cellv s r c = Some w -> In (Some w) (rvalues s).
Proof.
  unfold cellv. intros E. destruct (lt_dec (r * rnx s + c) (length (rvalues s))) as [L|L]; [|rewrite nth_overflow in E by lia; discriminate].
  rewrite <- E. apply nth_In. exact L.
Qed.
Lemma in_cell_ex s w : base s -> In (Some w) (rvalues s) -> exists r c, (r < rny s)%nat /\ (c < rnx s)%nat /\ cellv s r c = Some w.
Proof.
  intros B I. destruct (In_nth _ _ None I) as (k & K & E). rewrite (b_len s B) in K. destruct (grid_dims s (b_ok s B)) as [Dx Dy].
  exists (k / rnx s)%nat, (k mod rnx s)%nat. split; [apply Nat.div_lt_upper_bound; nia|]. split; [apply Nat.mod_upper_bound; lia|].
  unfold cellv. replace (k / rnx s * rnx s + k mod rnx s)%nat with k; [exact E|]. rewrite (Nat.div_mod_eq k (rnx s)) at 1. lia.
Qed.
Lemma to_range_in l x : between (fst l) (snd l) x -> to_range l x = x.
Proof. unfold between, to_range. intros [A B]. rewrite (Rmin_right (Rmax (fst l) (snd l)) x) by exact B. apply Rmax_right. exact A. Qed.
Lemma to_range_between l x : between (fst l) (snd l) (to_range l x).
Proof. unfold between, to_range. split; [apply Rmax_l|]. apply Rmax_lub; [|apply Rmin_l]. unfold Rmin, Rmax. destruct (Rle_dec (fst l) (snd l)); lra. Qed.
Lemma to_range_nearest l x z : between (fst l) (snd l) z -> Rabs (x - to_range l x) <= Rabs (x - z).
Proof. unfold between, to_range. intros H. unfold Rabs, Rmin, Rmax in *. repeat destruct (Rcase_abs _); repeat destruct (Rle_dec _ _); lra. Qed.

Lemma nth_grid {A} (f : R -> R -> A) xs ys i j d : (i < length xs)%nat -> (j < length ys)%nat ->
  nth i (nth j (map (fun y => map (fun x => f x y) xs) ys) []) d = f (nth i xs 0) (nth j ys 0).
Proof.
  intros I J. rewrite (nth_indep _ [] (map (fun x => f x 0) xs)) by (rewrite map_length; exact J). rewrite (map_nth (fun y => map (fun x => f x y) xs)).
  rewrite (nth_indep _ d (f 0 (nth j ys 0))) by (rewrite map_length; exact I). apply (map_nth (fun x => f x (nth j ys 0))).
Qed.
Lemma map2_nth {A B C} (f : A -> B -> C) l1 l2 k a b c : (k < length l1)%nat -> (k < length l2)%nat -> nth k (map2 f l1 l2) c = f (nth k l1 a) (nth k l2 b).
Proof. revert l2 k. induction l1 as [|x l1 IH]; intros [|y l2] [|k] H1 H2; cbn in *; try lia; [reflexivity|]. apply IH; lia. Qed.
Lemma forallb_map_id {A} (f : A -> bool) l : forallb (fun b => b) (map f l) = true <-> forall x, In x l -> f x = true.
Proof. induction l as [|x l IH]; cbn; [split; [tauto|reflexivity]|]. rewrite Bool.andb_true_iff, IH. split; [intros [A1 A2] y [->|I]; auto|intros H; split; auto]. Qed.

Section Lowest.
Variable lo : R.
Variable s : raster.
Hypothesis B : base s.
Hypothesis Nx : (1 < rnx s)%nat.
Hypothesis Ny : (1 < rny s)%nat.
Let ax := xaxis (rgrid s).
Let ay := yaxis (rgrid s).

Lemma grid_values_2d xs ys : grid_values lo xs ys s = sample_2d lo xs ys s.
Proof. unfold grid_values. rewrite (proj2 (Nat.ltb_lt _ _) Nx), (proj2 (Nat.ltb_lt _ _) Ny). reflexivity. Qed.

Lemma refl_and (a b : bool) : (a && b)%bool = true -> a = true /\ b = true. Proof. apply Bool.andb_true_iff. Qed.

(** what a sample that returns has done *)
Lemma sample_grid_returned be fill xs ys s' rows : sample_grid lo be fill xs ys s = (s', Ok rows) ->
  base s' /\ (zinv s -> zinv s') /\ rgrid s' = rgrid s /\ ah s' = ah s /\ rarr s' = rarr s /\ raflt s' = raflt s /\ rzf s' = rzf s /\
  length rows = length ys /\ (forall row, In row rows -> length row = length xs) /\
  forall i j, (i < length xs)%nat -> (j < length ys)%nat ->
    nth i (nth j rows []) None =
      match fill with
      | Some f => if (be || inbounds1 ax (nth i xs 0) && inbounds1 ay (nth j ys 0))%bool then entry lo s (nth i xs 0) (nth j ys 0) else f
      | None => entry lo s (nth i xs 0) (nth j ys 0)
      end /\ (be = true -> inbounds1 ax (nth i xs 0) = true /\ inbounds1 ay (nth j ys 0) = true).
Proof.
  unfold sample_grid. rewrite grid_values_2d. destruct (sample_2d_core lo xs ys s B) as (s3 & B3 & Z3 & G3 & A3 & R3 & L3 & F3 & E). rewrite E. clear E.
  destruct (negb (accepted xs ys) && _)%bool.
  { destruct be; [destruct (_ && _)%bool; discriminate|]. destruct fill; discriminate. }
  set (full := map (fun y => map (fun x => entry lo s x y) xs) ys).
  assert (Lf : length full = length ys) by apply map_length. assert (Lr : forall row, In row full -> length row = length xs). { intros row I. apply in_map_iff in I. destruct I as (y & <- & _). apply map_length. }
  destruct be.
  - intros E0. destruct (refl_and (forallb (fun b : bool => b) (map (inbounds1 (xaxis (rgrid s))) xs)) (forallb (fun b : bool => b) (map (inbounds1 (yaxis (rgrid s))) ys))) as [Ix Iy].
    { destruct (_ && _)%bool; [reflexivity|discriminate]. }
    rewrite Ix, Iy in E0. cbn [andb] in E0. injection E0 as <- <-. repeat (split; [assumption|]). intros i j I J. split.
    + unfold full. rewrite nth_grid by assumption. destruct fill; reflexivity.
    + intros _. rewrite forallb_map_id in Ix, Iy. split; [apply Ix|apply Iy]; apply nth_In; assumption.
  - destruct fill as [f|].
    + cbn [bind]. unfold fill_out. rewrite !map_length. destruct (_ && _)%bool; [|discriminate]. intros E. injection E as <- <-. repeat (split; [assumption|]).
      split; [rewrite map2_length, map_length, Lf; lia|]. split.
      * intros row I. destruct (In_nth _ _ [] I) as (k & K & <-). rewrite map2_length, map_length, Lf in K. rewrite (map2_nth _ _ _ k false []) by (rewrite ?map_length; lia).
        rewrite map2_length, map_length, (Lr (nth k full [])) by (apply nth_In; lia). lia.
      * intros i j I J. split; [|discriminate]. rewrite (map2_nth _ _ _ j false []) by (rewrite ?map_length; lia).
        rewrite (map2_nth _ _ _ i false None) by (rewrite ?map_length; try lia; rewrite (Lr (nth j full [])) by (apply nth_In; lia); lia).
        unfold full. rewrite nth_grid by assumption. rewrite (nth_indep _ false (inbounds1 ax 0)) by (rewrite map_length; lia). rewrite (map_nth (inbounds1 (xaxis (rgrid s)))).
        rewrite (nth_indep _ false (inbounds1 ay 0)) by (rewrite map_length; lia). rewrite (map_nth (inbounds1 (yaxis (rgrid s)))). reflexivity.
    + intros E. injection E as <- <-. repeat (split; [assumption|]). intros i j I J. split; [|discriminate]. unfold full. apply nth_grid; assumption.
Qed.
Lemma sample_grid_returns be fill xs ys : accepted xs ys = true -> (be = true -> (forall x, In x xs -> in_axis ax x) /\ (forall y, In y ys -> in_axis ay y)) ->
  exists s' rows, sample_grid lo be fill xs ys s = (s', Ok rows).
Proof.
  intros A I. unfold sample_grid. rewrite grid_values_2d. destruct (sample_2d_core lo xs ys s B) as (s3 & B3 & Z3 & G3 & A3 & R3 & L3 & F3 & E). rewrite E. clear E. rewrite A. cbn [negb andb].
  destruct be.
  - destruct (I eq_refl) as [Ix Iy]. rewrite (proj2 (forallb_map_id _ xs)) by (intros x Hx; apply inbounds1_spec, Ix; exact Hx).
    rewrite (proj2 (forallb_map_id _ ys)) by (intros x Hx; apply inbounds1_spec, Iy; exact Hx). cbn [andb]. eauto.
  - destruct fill as [f|]; [|eauto]. cbn [bind]. unfold fill_out. rewrite !map_length, Nat.eqb_refl. cbn [andb].
    destruct ys as [|y ys]; cbn [map]; [rewrite ?map_length, Nat.eqb_refl; eauto|]. rewrite ?map_length, Nat.eqb_refl. eauto.
Qed.

(** values *)
Lemma hide_shown z w v : nan_min (rvalues s) = Some z -> In (Some w) (rvalues s) -> w <= v -> hide_low (nan_min (rvalues s)) v = Some v.
Proof. intros E I L. rewrite E. cbn. rewrite (proj2 (Rltb_false _ _)); [reflexivity|]. destruct (nan_min_some _ _ E) as [_ H]. specialize (H w I). lra. Qed.
Lemma shown w v : In (Some w) (rvalues s) -> w <= v -> hide_low (nan_min (rvalues s)) v = Some v.
Proof. intros I L. destruct (nan_min (rvalues s)) as [z|] eqn:E; [|reflexivity]. rewrite <- E. apply (hide_shown z w); assumption. Qed.
Lemma hidden w v : In (Some w) (rvalues s) -> (forall w, In (Some w) (rvalues s) -> v < w) -> hide_low (nan_min (rvalues s)) v = None.
Proof.
  intros I L. destruct (nan_min (rvalues s)) as [z|] eqn:E; [|exfalso; exact (nan_min_none _ E w I)]. cbn. destruct (nan_min_some _ _ E) as [H _]. rewrite (proj2 (Rltb_true _ _)); [reflexivity|]. apply L. exact H.
Qed.
Lemma entry_inside x y : in_axis ax x -> in_axis ay y -> entry lo s x y = hide_low (nan_min (rvalues s)) (surface lo s x y).
Proof. intros Hx Hy. unfold entry. rewrite !to_range_in by assumption. reflexivity. Qed.
Lemma sampled_canon be fill x y v : zinv s -> in_axis ax x -> in_axis ay y -> sampled (sample true be fill x y s) = Ok v ->
  v = canon true ax ay (rnx s) (rny s) (cellv s) x y.
Proof.
  intros Z Hx Hy E. destruct (sample_canon true x y s B Z) as (s' & E' & _). unfold sample in E. rewrite E' in E.
  assert (I : inbounds_xy (rgrid s) (x, y) = true) by (unfold inbounds_xy; cbn [fst snd]; rewrite !(proj2 (inbounds1_spec _ _)); auto). rewrite I in E. cbn in E.
  destruct be; [cbn in E; injection E as <-; reflexivity|]. destruct fill; cbn in E; injection E as <-; reflexivity.
Qed.
End Lowest.
