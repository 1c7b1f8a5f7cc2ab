(** C98: rasterizing points and polygons. *)
From Verif Require Import Base BaseLemmas HelpersModel HelpersSpec AggregateProofs GridModel GridSpec GridProofs GridProofs2 RasterizeModel.
Open Scope R_scope.

(** ** Points *)
(** the cell of an axis to which a coordinate belongs: each cell includes its first edge (in the direction of the axis), the last cell also the limit of the axis *)
Definition owns (a : axis) (k : Z) (x : R) : Prop :=
  exists t, x = at_cells a t /\ (IZR k <= t < IZR k + 1 \/ (k = (snd a - 1)%Z /\ t = IZR (snd a))).
(** the elements of a list that have a property, in order *)
Inductive picked {A} (P : A -> Prop) : list A -> list A -> Prop :=
| picked_nil : picked P [] []
| picked_yes x l m : P x -> picked P l m -> picked P (x :: l) (x :: m)
| picked_no x l m : ~ P x -> picked P l m -> picked P (x :: l) m.
Lemma picked_filter {A} (P : A -> Prop) (f : A -> bool) l m : (forall x, In x l -> (f x = true <-> P x)) -> picked P l m -> m = filter f l.
Proof.
  intros H Q. induction Q as [|x l m Px Q IH|x l m Px Q IH]; [reflexivity| |]; cbn [filter].
  - rewrite (proj2 (H x (or_introl eq_refl)) Px). f_equal. apply IH. intros y Y. apply H. right. exact Y.
  - destruct (f x) eqn:E; [destruct (Px (proj1 (H x (or_introl eq_refl)) E))|]. apply IH. intros y Y. apply H. right. exact Y.
Qed.
Lemma filter_picked {A} (P : A -> Prop) (f : A -> bool) l : (forall x, In x l -> (f x = true <-> P x)) -> picked P l (filter f l).
Proof.
  induction l as [|x l IH]; intros H; [constructor|]. cbn [filter]. assert (H' : forall y, In y l -> (f y = true <-> P y)) by (intros y Y; apply H; right; exact Y).
  destruct (f x) eqn:E; [apply picked_yes|apply picked_no]; try (apply IH; exact H').
  - apply H; [left; reflexivity|exact E].
  - intros C. apply (H x (or_introl eq_refl)) in C. rewrite C in E. discriminate E.
Qed.

Lemma owns_snapped a k x : axis_ok a -> (0 <= k < snd a)%Z -> (in_axis a x /\ snapped_cell (snd a) true (tc a x) = k <-> owns a k x).
Proof.
  intros A K. assert (X := at_tc a x A). set (t := tc a x) in *. unfold snapped_cell. cbn [andb]. split.
  - intros [I E]. exists t. split; [symmetry; exact X|]. destruct (Reqb_spec t (IZR (snd a))) as [T|T].
    + right. rewrite T, Rfloor_IZR in E. split; [lia|exact T].
    + left. subst k. pose proof (Rfloor_lb t). pose proof (Rfloor_ub t). lra.
  - intros (s & E & H). assert (TS : t = s) by (apply (at_cells_inj a); [exact A|congruence]). rewrite <- TS in *. rewrite <- X, in_axis_at by exact A. pose proof (IZR_le 0 k ltac:(lia)). pose proof (IZR_le (k + 1) (snd a) ltac:(lia)) as KN. rewrite plus_IZR in KN.
    destruct H as [H|[H1 H2]].
    + split; [lra|]. destruct (Reqb_spec t (IZR (snd a))) as [T|T]; [lra|]. apply Rfloor_imp. exact H.
    + rewrite H2. split; [pose proof (IZR_le 0 (snd a) ltac:(lia)); lra|]. destruct (Reqb_spec (IZR (snd a)) (IZR (snd a))) as [_|N]; [|congruence]. rewrite Rfloor_IZR. lia.
Qed.

(** Each cell that points belong to holds the mean of their values (truncated if the raster holds integers); points outside of the raster are ignored and all other cells are unchanged. *)
Theorem rasterize_means : forall g flt a xy values, grid_ok g -> Z.of_nat (length a) = (gny g * gnx g)%Z -> length values = length xy ->
  exists a', raster_rasterize g flt a xy values = Ok a' /\ length a' = length a /\
  forall r c here, (0 <= r < gny g)%Z -> (0 <= c < gnx g)%Z ->
    picked (fun p : (R * R) * R => owns (xaxis g) c (fst (fst p)) /\ owns (yaxis g) r (snd (fst p))) (combine xy values) here ->
    let cell := Z.to_nat (r * gnx g + c) in
    let m := sumR (map snd here) / INR (length here) in
    (here = [] -> nth_error a' cell = nth_error a cell) /\
    (here <> [] -> nth_error a' cell = Some (Some (if flt then m else IZR (Rtrunc m)))).
Proof.
  intros g flt a xy values G La Lv. unfold raster_rasterize. rewrite Lv, Nat.eqb_refl. cbn [negb]. cbv zeta.
  set (sel := filter (fun p => inbounds_xy g (fst p)) (combine xy values)).
  set (rc := fun p : (R * R) * R => (snapped_cell (gny g) true (tc (yaxis g) (snd (fst p))), snapped_cell (gnx g) true (tc (xaxis g) (fst (fst p))))).
  assert (EM : mapM (fun p : (R * R) * R => xy_to_rowcol_snap g true (fst p)) sel = Ok (map rc sel)).
  { apply mapM_all_ok. intros [[x y] v] _. cbn [fst]. rewrite (xy_to_rowcol_snap_eq' g true x y G). reflexivity. }
  rewrite EM. cbn [bind]. destruct G as [Gx Gy].
  assert (SB : forall p, In p sel -> (0 <= fst (rc p) < gny g)%Z /\ (0 <= snd (rc p) < gnx g)%Z).
  { intros p I. apply filter_In in I as [_ I]. unfold inbounds_xy in I. apply andb_true_iff in I as [I1 I2]. apply inbounds1_spec in I1, I2.
    rewrite <- (at_tc _ _ Gx) in I1. rewrite <- (at_tc _ _ Gy) in I2. apply in_axis_at in I1; [|exact Gx]. apply in_axis_at in I2; [|exact Gy].
    split; apply snapped_cell_in; [apply Gy|exact I2|apply Gx|exact I1]. }
  assert (CB : forall r c, In (r, c) (combine (map fst (map rc sel)) (map snd (map rc sel))) -> (0 <= r < gny g)%Z /\ (0 <= c < gnx g)%Z).
  { assert (CM : forall l : list (Z * Z), combine (map fst l) (map snd l) = l) by (induction l as [|[u v] l IHl]; [reflexivity|cbn; rewrite IHl; reflexivity]).
    intros r c I. rewrite CM in I. apply in_map_iff in I as (p & E & I). specialize (SB p I). rewrite E in SB. exact SB. }
  destruct (rasterize_into_spec (cast_mean flt) (gny g) (gnx g) (map fst (map rc sel)) (map snd (map rc sel)) (map snd sel) a) as (a' & Ea & L' & S').
  { rewrite !map_length. reflexivity. } { rewrite !map_length. reflexivity. } { exact CB. } { destruct Gx as [_ Gx]. cbn [xaxis snd] in Gx. lia. } { exact La. }
  exists a'. split; [exact Ea|]. split; [exact L'|]. intros r c here Hr Hc PK. cbv zeta. specialize (S' r c Hr Hc). cbv zeta in S'.
  assert (CV : cell_values (map fst (map rc sel)) (map snd (map rc sel)) (map snd sel) r c = map snd here).
  { rewrite (picked_filter (fun p : (R * R) * R => owns (xaxis g) c (fst (fst p)) /\ owns (yaxis g) r (snd (fst p))) (fun p => (inbounds_xy g (fst p) && ((fst (rc p) =? r)%Z && (snd (rc p) =? c)%Z))%bool) (combine xy values) here); [| |exact PK].
    - unfold cell_values, sel. generalize (combine xy values). intros l. induction l as [|p l IH]; [reflexivity|]. cbn [filter]. destruct (inbounds_xy g (fst p)); cbn [andb]; [|exact IH].
      cbn [map combine filter fst snd]. destruct ((fst (rc p) =? r)%Z && (snd (rc p) =? c)%Z)%bool; cbn [map]; [f_equal; exact IH|exact IH].
    - intros p _. unfold inbounds_xy. rewrite !andb_true_iff, !Z.eqb_eq, !inbounds1_spec. unfold rc. cbn [fst snd]. rewrite <- (owns_snapped (xaxis g) c (fst (fst p)) Gx Hc), <- (owns_snapped (yaxis g) r (snd (fst p)) Gy Hr). cbn [xaxis yaxis snd]. tauto. }
  rewrite CV in S'. rewrite INR_IZR_INZ. destruct here as [|p here]; cbn [map] in S'.
  - split; [intros _; exact S'|intros N; destruct (N eq_refl)].
  - split; [discriminate|]. intros _. rewrite S'. cbn [length map]. rewrite map_length. reflexivity.
Qed.
Print Assumptions rasterize_means.
(** the values of a cell are always determined *)
Lemma picked_exists g xy values r c : grid_ok g -> (0 <= r < gny g)%Z -> (0 <= c < gnx g)%Z ->
  exists here, picked (fun p : (R * R) * R => owns (xaxis g) c (fst (fst p)) /\ owns (yaxis g) r (snd (fst p))) (combine xy values) here.
Proof.
  intros [Gx Gy] Hr Hc. induction (combine xy values) as [|p l (m & M)]; [exists []; constructor|].
  destruct (Classical_Prop.classic (owns (xaxis g) c (fst (fst p)) /\ owns (yaxis g) r (snd (fst p)))); [exists (p :: m)|exists m]; constructor; assumption.
Qed.
Theorem rasterize_length : forall g flt a xy values, length values <> length xy -> raster_rasterize g flt a xy values = Err IndexError.
Proof. intros. unfold raster_rasterize. destruct (Nat.eqb_spec (length values) (length xy)); [contradiction|reflexivity]. Qed.
Print Assumptions rasterize_length.

(** Finding: the documentation says that pixels without points are NaN; they keep the values of the raster. *)
Theorem rasterize_nan_refuted : forall g flt a, grid_ok g -> Z.of_nat (length a) = (gny g * gnx g)%Z -> raster_rasterize g flt a [] [] = Ok a.
Proof. intros g flt a G L. unfold raster_rasterize. cbn. reflexivity. Qed.
Print Assumptions rasterize_nan_refuted.
(** Finding: and the result is not always an array of floats with the means: in a raster of integers the means are truncated. *)
Theorem rasterize_integer_refuted : exists g a xy values a', grid_ok g /\ raster_rasterize g false a xy values = Ok a' /\ sumR values / INR (length values) = / 2 /\ a' = [Some 0].
Proof.
  exists (mkgrid 1 1 (0, 1) (0, 1)), [None], [(/ 2, / 2); (/ 2, / 2)], [0; 1]. assert (G : grid_ok (mkgrid 1 1 (0, 1) (0, 1))) by (split; split; cbn; try lra; lia).
  destruct (rasterize_means _ false [None] [(/ 2, / 2); (/ 2, / 2)] [0; 1] G eq_refl eq_refl) as (a' & E & L & H). exists a'. split; [exact G|]. split; [exact E|]. split; [cbn; lra|].
  assert (O : owns (xaxis (mkgrid 1 1 (0, 1) (0, 1))) 0 (/ 2) /\ owns (yaxis (mkgrid 1 1 (0, 1) (0, 1))) 0 (/ 2)) by (split; exists (/ 2); (split; [unfold at_cells; cbn; field|left; lra])).
  destruct (H 0%Z 0%Z [((/ 2, / 2), 0); ((/ 2, / 2), 1)]) as [_ H2]; [cbn; lia|cbn; lia| |].
  { cbn [combine]. apply picked_yes; [exact O|]. apply picked_yes; [exact O|]. constructor. }
  specialize (H2 ltac:(discriminate)). cbn [map snd length] in H2. replace (sumR [0; 1] / INR 2) with (/ 2) in H2 by (cbn; lra).
  assert (T : Rtrunc (/ 2) = 0%Z) by (unfold Rtrunc; destruct (Rltb_spec (/ 2) 0); [lra|apply Rfloor_imp; lra]). rewrite T in H2.
  destruct a' as [|v [|? ?]]; try discriminate L. cbn in H2. injection H2 as ->. reflexivity.
Qed.
Print Assumptions rasterize_integer_refuted.

(** ** Polygons *)
(** Specification: a point is inside a polygon if the ray from it towards larger x crosses an odd number of sides. *)
Notation point := (R * R)%type.
Definition sides (p : list point) : list (point * point) := map (fun i => (nth i p (0, 0), nth (S i mod length p) p (0, 0))) (seq 0 (length p)).
Definition straddles (y : R) (e : point * point) : Prop := snd (fst e) < y < snd (snd e) \/ snd (snd e) < y < snd (fst e).
(** where the line of a side is at y *)
Definition side_x (y : R) (e : point * point) : R := fst (fst e) + (y - snd (fst e)) * (fst (snd e) - fst (fst e)) / (snd (snd e) - snd (fst e)).
Definition inside (p : list point) (q : point) : Prop :=
  exists hits, picked (fun e => straddles (snd q) e /\ fst q < side_x (snd q) e) (sides p) hits /\ Nat.Odd (length hits).
(** general position: no vertex at the level of the point, and the point is not on a side *)
Definition clear_of (p : list point) (q : point) : Prop :=
  (forall v, In v p -> snd v <> snd q) /\ (forall e, In e (sides p) -> straddles (snd q) e -> side_x (snd q) e <> fst q).

Lemma ring_edges_sides p : ring_edges p = sides p.
Proof.
  destruct p as [|v r]; [reflexivity|]. unfold ring_edges, sides. apply nth_ext with (d := ((0, 0), (0, 0))) (d' := ((0, 0), (0, 0))).
  - rewrite combine_length, map_length, seq_length, app_length. cbn [length]. lia.
  - intros i Hi. rewrite combine_length, app_length in Hi. cbn [length] in Hi.
    rewrite combine_nth by (rewrite app_length; cbn [length]; lia).
    rewrite (nth_indep (map _ _) _ ((fun i => (nth i (v :: r) (0, 0), nth (S i mod length (v :: r)) (v :: r) (0, 0))) 0%nat)) by (rewrite map_length, seq_length; cbn [length]; lia).
    rewrite (map_nth (fun i => (nth i (v :: r) (0, 0), nth (S i mod length (v :: r)) (v :: r) (0, 0)))), seq_nth by (cbn [length]; lia). cbn [Nat.add]. f_equal. cbn [length].
    destruct (Nat.eq_dec i (length r)) as [->|N].
    + rewrite app_nth2 by lia. rewrite Nat.sub_diag, Nat.mod_same by lia. reflexivity.
    + rewrite app_nth1 by lia. rewrite Nat.mod_small by lia. reflexivity.
Qed.
Lemma count_changes {A} (b : A -> bool) z : forall l a, Nat.odd (length (filter (fun e : A * A => xorb (b (fst e)) (b (snd e))) (combine (a :: l) (l ++ [z])))) = xorb (b a) (b z).
Proof.
  induction l as [|x l IH]; intros a.
  - cbn [app combine filter fst snd]. destruct (b a), (b z); reflexivity.
  - change (combine (a :: x :: l) ((x :: l) ++ [z])) with ((a, x) :: combine (x :: l) (l ++ [z])). cbn [filter fst snd]. specialize (IH x).
    destruct (b a) eqn:Ea, (b x) eqn:Ex; cbn [xorb] in *; cbn [length]; rewrite ?Nat.odd_succ, <- ?Nat.negb_odd, IH; destruct (b z); reflexivity.
Qed.
Lemma even_crossings {A} (b : A -> bool) p : Nat.odd (length (filter (fun e : A * A => xorb (b (fst e)) (b (snd e))) (match p with [] => [] | v :: r => combine p (r ++ [v]) end))) = false.
Proof. destruct p as [|v r]; [reflexivity|]. rewrite count_changes. apply xorb_nilpotent. Qed.
Lemma odd_split {A} (f g h : A -> bool) l : (forall x, In x l -> (f x || g x)%bool = h x /\ (f x && g x)%bool = false) -> Nat.odd (length (filter h l)) = false -> Nat.odd (length (filter f l)) = Nat.odd (length (filter g l)).
Proof.
  intros H O. enough (E : Nat.odd (length (filter h l)) = xorb (Nat.odd (length (filter f l))) (Nat.odd (length (filter g l)))) by (rewrite O in E; destruct (Nat.odd (length (filter f l))), (Nat.odd (length (filter g l))); try reflexivity; discriminate E).
  clear O. induction l as [|x l IH]; [reflexivity|]. specialize (IH (fun y Y => H y (or_intror Y))). destruct (H x (or_introl eq_refl)) as [H1 H2]. cbn [filter]. rewrite <- H1.
  destruct (f x), (g x); try discriminate H2; cbn [orb]; cbn [length]; rewrite ?Nat.odd_succ, <- ?Nat.negb_odd, IH; destruct (Nat.odd (length (filter f l))), (Nat.odd (length (filter g l))); reflexivity.
Qed.

(** ** One polygon *)
Definition left_b (q : point) (e : point * point) : bool :=
  let '((x1, y1), (x2, y2)) := e in
  let '((xa, ya), (xb, yb)) := if Rltb y1 y2 then ((x1, y1), (x2, y2)) else ((x2, y2), (x1, y1)) in
  (Rleb ya (snd q) && Rltb (snd q) yb && Rltb ((snd q - ya) * (xb - xa) / (yb - ya) + xa) (fst q))%bool.
Lemma left_b_spec q e : snd (fst e) <> snd q -> snd (snd e) <> snd q -> (left_b q e = true <-> straddles (snd q) e /\ side_x (snd q) e < fst q).
Proof.
  destruct e as [[x1 y1] [x2 y2]], q as [x y]. unfold left_b, straddles, side_x. cbn [fst snd]. intros N1 N2. apply Rdichotomy in N1, N2. destruct (Rltb_spec y1 y2) as [L|L]; rewrite !andb_true_iff, Rleb_true, !Rltb_true.
  - replace (x1 + (y - y1) * (x2 - x1) / (y2 - y1)) with ((y - y1) * (x2 - x1) / (y2 - y1) + x1) by ring. split; [intros [[A B] C]; split; [lra|exact C]|intros [[A|A] C]; [split; [lra|exact C]|lra]].
  - split.
    + intros [[A B] C]. split; [lra|]. replace (x1 + (y - y1) * (x2 - x1) / (y2 - y1)) with ((y - y2) * (x1 - x2) / (y1 - y2) + x2) by (field; lra). exact C.
    + intros [[A|A] C]; [lra|]. split; [lra|]. replace ((y - y2) * (x1 - x2) / (y1 - y2) + x2) with (x1 + (y - y1) * (x2 - x1) / (y2 - y1)) by (field; lra). exact C.
Qed.
Definition scale_pt (x0 y0 dx dy : R) (q : point) : point := ((fst q - x0) / dx, (snd q - y0) / dy).
Lemma sides_map f p : sides (map f p) = map (fun e => (f (fst e), f (snd e))) (sides p).
Proof.
  unfold sides. rewrite map_length, map_map. apply map_ext_in. intros i Hi. apply in_seq in Hi. cbn [fst snd].
  assert (E : forall j, (j < length p)%nat -> nth j (map f p) (0, 0) = f (nth j p (0, 0))) by (intros j J; rewrite (nth_indep _ (0, 0) (f (0, 0))) by (rewrite map_length; exact J); apply map_nth).
  rewrite !E; [reflexivity|apply Nat.mod_upper_bound; lia|lia].
Qed.
Lemma sides_in p e : In e (sides p) -> In (fst e) p /\ In (snd e) p.
Proof. unfold sides. intros I. apply in_map_iff in I as (i & <- & I). apply in_seq in I. cbn [fst snd]. split; apply nth_In; [lia|apply Nat.mod_upper_bound; lia]. Qed.
Lemma filter_map {A B} (f : B -> bool) (g : A -> B) l : filter f (map g l) = map g (filter (fun x => f (g x)) l).
Proof. induction l as [|x l IH]; [reflexivity|]. cbn. destruct (f (g x)); cbn; rewrite IH; reflexivity. Qed.
Lemma Rdiv_lt_iff a b d : d <> 0 -> (a / d < b / d <-> (0 < d /\ a < b) \/ (d < 0 /\ b < a)).
Proof.
  intros N. split.
  - intros H. destruct (Rtotal_order d 0) as [L|[E|G]]; [right|contradiction|left]; (split; [lra|]).
    + apply Rmult_lt_gt_compat_neg_l with (r := d) in H; [|exact L]. replace (d * (a / d)) with a in H by (field; exact N). replace (d * (b / d)) with b in H by (field; exact N). lra.
    + apply Rmult_lt_compat_l with (r := d) in H; [|exact G]. replace (d * (a / d)) with a in H by (field; exact N). replace (d * (b / d)) with b in H by (field; exact N). exact H.
  - intros [[D H]|[D H]]; unfold Rdiv; [apply Rmult_lt_compat_r; [apply Rinv_0_lt_compat; exact D|exact H]|]. apply Ropp_lt_cancel. rewrite <- !Ropp_mult_distr_r_reverse. apply Rmult_lt_compat_r; [apply Ropp_0_gt_lt_contravar, Rinv_lt_0_compat; exact D|exact H].
Qed.
Lemma straddles_scale x0 y0 dx dy y e : dy <> 0 -> (straddles ((y - y0) / dy) (scale_pt x0 y0 dx dy (fst e), scale_pt x0 y0 dx dy (snd e)) <-> straddles y e).
Proof. intros N. unfold straddles, scale_pt. cbn [fst snd]. rewrite !Rdiv_lt_iff by exact N. split; [lra|]. intros H. destruct (Rtotal_order dy 0) as [L|[E|G]]; lra. Qed.
Lemma side_x_scale x0 y0 dx dy y e : dx <> 0 -> dy <> 0 -> straddles y e -> side_x ((y - y0) / dy) (scale_pt x0 y0 dx dy (fst e), scale_pt x0 y0 dx dy (snd e)) = (side_x y e - x0) / dx.
Proof. intros Nx Ny H. unfold side_x, scale_pt. cbn [fst snd]. field. repeat split; try assumption. unfold straddles in H. lra. Qed.

Lemma Odd_picked {A} (P : A -> Prop) f l : (forall x, In x l -> (f x = true <-> P x)) -> ((exists hits, picked P l hits /\ Nat.Odd (length hits)) <-> Nat.odd (length (filter f l)) = true).
Proof.
  intros H. rewrite Nat.odd_spec. split.
  - intros (h & Q & O). rewrite (picked_filter P f l h H Q) in O. exact O.
  - intros O. exists (filter f l). split; [apply filter_picked; exact H|exact O].
Qed.
Definition right_b (q : point) (e : point * point) : bool := left_b (- fst q, snd q) ((- fst (fst e), snd (fst e)), (- fst (snd e), snd (snd e))).
Lemma right_b_spec q e : snd (fst e) <> snd q -> snd (snd e) <> snd q -> (right_b q e = true <-> straddles (snd q) e /\ fst q < side_x (snd q) e).
Proof.
  intros N1 N2. unfold right_b. rewrite left_b_spec by assumption. unfold straddles, side_x. cbn [fst snd]. split; intros [H1 H2]; (split; [exact H1|]).
  - replace (- fst (fst e) + (snd q - snd (fst e)) * (- fst (snd e) - - fst (fst e)) / (snd (snd e) - snd (fst e))) with (- (fst (fst e) + (snd q - snd (fst e)) * (fst (snd e) - fst (fst e)) / (snd (snd e) - snd (fst e)))) in H2 by (field; lra). lra.
  - replace (- fst (fst e) + (snd q - snd (fst e)) * (- fst (snd e) - - fst (fst e)) / (snd (snd e) - snd (fst e))) with (- (fst (fst e) + (snd q - snd (fst e)) * (fst (snd e) - fst (fst e)) / (snd (snd e) - snd (fst e)))) by (field; lra). lra.
Qed.
Lemma left_right p q : clear_of p q -> Nat.odd (length (filter (left_b q) (sides p))) = Nat.odd (length (filter (right_b q) (sides p))).
Proof.
  intros [C1 C2]. apply (odd_split _ _ (fun e => xorb (Rltb (snd (fst e)) (snd q)) (Rltb (snd (snd e)) (snd q)))).
  - intros e I. destruct (sides_in _ _ I) as [I1 I2]. pose proof (C1 _ I1) as N1. pose proof (C1 _ I2) as N2. pose proof (left_b_spec q e N1 N2) as L. pose proof (right_b_spec q e N1 N2) as Rr. specialize (C2 e I).
    assert (X : xorb (Rltb (snd (fst e)) (snd q)) (Rltb (snd (snd e)) (snd q)) = true <-> straddles (snd q) e) by (unfold straddles; destruct (Rltb_spec (snd (fst e)) (snd q)), (Rltb_spec (snd (snd e)) (snd q)); cbn [xorb]; split; intros; try lra; try reflexivity; discriminate).
    destruct (left_b q e) eqn:EL, (right_b q e) eqn:ER; cbn [orb andb].
    + destruct (proj1 L eq_refl), (proj1 Rr eq_refl). lra.
    + split; [|reflexivity]. symmetry. apply X. apply L. reflexivity.
    + split; [|reflexivity]. symmetry. apply X. apply Rr. reflexivity.
    + split; [|reflexivity]. symmetry. apply not_true_iff_false. intros T. apply X in T. specialize (C2 T). destruct (Rtotal_order (side_x (snd q) e) (fst q)) as [Q|[Q|Q]]; [|contradiction|].
      * assert (F : false = true) by (apply L; split; assumption). discriminate F.
      * assert (F : false = true) by (apply Rr; split; [exact T|exact Q]). discriminate F.
  - rewrite <- ring_edges_sides. exact (even_crossings (fun v : point => Rltb (snd v) (snd q)) p).
Qed.
Lemma left_scale x0 y0 dx dy p q : dx <> 0 -> dy <> 0 -> clear_of p q ->
  Nat.odd (length (filter (left_b (scale_pt x0 y0 dx dy q)) (sides (map (scale_pt x0 y0 dx dy) p)))) = true <-> inside p q.
Proof.
  intros Nx Ny C. unfold inside. rewrite (Odd_picked _ (right_b q)).
  2:{ intros e I. destruct (sides_in _ _ I) as [I1 I2]. apply right_b_spec; apply C; assumption. }
  rewrite sides_map, filter_map, map_length.
  assert (LS : forall e, In e (sides p) -> (left_b (scale_pt x0 y0 dx dy q) (scale_pt x0 y0 dx dy (fst e), scale_pt x0 y0 dx dy (snd e)) = true <-> straddles (snd q) e /\ ((0 < dx /\ side_x (snd q) e < fst q) \/ (dx < 0 /\ fst q < side_x (snd q) e)))).
  { intros e I. destruct (sides_in _ _ I) as [I1 I2]. assert (NS : forall v, In v p -> snd (scale_pt x0 y0 dx dy v) <> snd (scale_pt x0 y0 dx dy q)) by (intros v V E; apply (proj1 C v V); unfold scale_pt in E; cbn [snd] in E; apply (Rmult_eq_compat_r dy) in E; unfold Rdiv in E; rewrite !Rmult_assoc, !Rinv_l in E by exact Ny; lra).
    rewrite left_b_spec; [|apply NS; exact I1|apply NS; exact I2]. change (snd (scale_pt x0 y0 dx dy q)) with ((snd q - y0) / dy). change (fst (scale_pt x0 y0 dx dy q)) with ((fst q - x0) / dx). rewrite (straddles_scale x0 y0 dx dy (snd q) e Ny). split; intros [H1 H2]; (split; [exact H1|]).
    - rewrite side_x_scale in H2 by assumption. apply Rdiv_lt_iff in H2; [|exact Nx]. destruct H2 as [[A B]|[A B]]; [left|right]; (split; [exact A|lra]).
    - rewrite side_x_scale by assumption. apply Rdiv_lt_iff; [exact Nx|]. destruct H2 as [[A B]|[A B]]; [left|right]; (split; [exact A|lra]). }
  destruct (Rtotal_order dx 0) as [L|[E|G]]; [|contradiction|].
  - rewrite (filter_ext_in (fun e => left_b (scale_pt x0 y0 dx dy q) (scale_pt x0 y0 dx dy (fst e), scale_pt x0 y0 dx dy (snd e))) (right_b q)); [reflexivity|].
    intros e I. destruct (sides_in _ _ I) as [I1 I2]. apply eq_true_iff_eq. rewrite LS by exact I. rewrite right_b_spec; [|apply C; exact I1|apply C; exact I2]. split; [intros [H1 H2]|intros [H1 H2]]; (split; [exact H1|lra]).
  - rewrite (filter_ext_in (fun e => left_b (scale_pt x0 y0 dx dy q) (scale_pt x0 y0 dx dy (fst e), scale_pt x0 y0 dx dy (snd e))) (left_b q)); [rewrite left_right by exact C; reflexivity|].
    intros e I. destruct (sides_in _ _ I) as [I1 I2]. apply eq_true_iff_eq. rewrite LS by exact I. rewrite left_b_spec; [|apply C; exact I1|apply C; exact I2]. split; [intros [H1 H2]|intros [H1 H2]]; (split; [exact H1|lra]).
Qed.

(** ** The mask *)
Definition mask_shape {A} (m : list (list A)) (ny nx : Z) : Prop := length m = Z.to_nat ny /\ forall row, In row m -> length row = Z.to_nat nx.
Lemma nth_indexed {A B} (f : Z * A -> B) l i d d' : (i < length l)%nat -> nth i (map f (combine (Zrange (Z.of_nat (length l))) l)) d' = f (Z.of_nat i, nth i l d).
Proof.
  intros H. assert (LZ : length (Zrange (Z.of_nat (length l))) = length l) by (unfold Zrange; rewrite map_length, seq_length; lia).
  rewrite (nth_indep _ d' (f (0%Z, d))) by (rewrite map_length, combine_length, LZ; lia). rewrite (map_nth f), combine_nth by exact LZ. f_equal. f_equal. unfold Zrange. rewrite (nth_indep _ 0%Z (Z.of_nat 0)) by (rewrite map_length, seq_length; lia). rewrite (map_nth Z.of_nat), seq_nth by lia. reflexivity.
Qed.
Lemma length_indexed {A B} (f : Z * A -> B) l : length (map f (combine (Zrange (Z.of_nat (length l))) l)) = length l.
Proof. rewrite map_length, combine_length. unfold Zrange. rewrite map_length, seq_length. lia. Qed.
Lemma layer_shape rings v a ny nx : mask_shape a ny nx -> mask_shape (rasterize_layer rings v a) ny nx.
Proof.
  intros [H1 H2]. unfold rasterize_layer. split; [rewrite length_indexed; exact H1|]. intros row I. apply in_map_iff in I as ((k & w) & <- & I). cbn [fst snd]. rewrite length_indexed. apply H2. apply in_combine_r in I. exact I.
Qed.
Lemma layer_nth rings v a ny nx r c : mask_shape a ny nx -> (0 <= r < ny)%Z -> (0 <= c < nx)%Z ->
  nth (Z.to_nat c) (nth (Z.to_nat r) (rasterize_layer rings v a) []) 0%Z = if existsb (fun p => gdal_burns p r c) rings then v else nth (Z.to_nat c) (nth (Z.to_nat r) a []) 0%Z.
Proof.
  intros [H1 H2] Hr Hc. unfold rasterize_layer. rewrite (nth_indexed _ a (Z.to_nat r) [] []) by lia. cbn [fst snd].
  rewrite (nth_indexed _ (nth (Z.to_nat r) a []) (Z.to_nat c) 0%Z 0%Z) by (rewrite (H2 (nth (Z.to_nat r) a [])) by (apply nth_In; lia); lia). cbn [fst snd]. rewrite !Z2Nat.id by lia. reflexivity.
Qed.
Lemma burns_inside g p r c : grid_ok g -> clear_of p (center (xaxis g) c, center (yaxis g) r) -> (gdal_burns (to_uv g p) r c = true <-> inside p (center (xaxis g) c, center (yaxis g) r)).
Proof.
  intros [Gx Gy] C. pose proof (dcell_nz _ Gx) as Nx. pose proof (dcell_nz _ Gy) as Ny.
  assert (T : to_uv g p = map (scale_pt (fst (gxlim g)) (fst (gylim g)) (dcell (xaxis g)) (dcell (yaxis g))) p).
  { unfold to_uv. apply map_ext. intros [x y]. unfold xy_to_rowcol, scale_pt. cbn [fst snd]. f_equal; ring. }
  assert (Q : scale_pt (fst (gxlim g)) (fst (gylim g)) (dcell (xaxis g)) (dcell (yaxis g)) (center (xaxis g) c, center (yaxis g) r) = (IZR c + / 2, IZR r + / 2)).
  { unfold scale_pt, center. cbn [fst snd]. change (fst (gxlim g)) with (fst (fst (xaxis g))). change (fst (gylim g)) with (fst (fst (yaxis g))). rewrite !at_cells_inv by assumption. reflexivity. }
  rewrite <- (left_scale (fst (gxlim g)) (fst (gylim g)) _ _ p (center (xaxis g) c, center (yaxis g) r) Nx Ny C), T, Q. unfold gdal_burns. cbv zeta. rewrite ring_edges_sides. reflexivity.
Qed.

(** The mask has the shape of the raster; a cell is True exactly if its center is inside one of the polygons and not inside one of the holes (for centers in general position with the polygons), for either direction of the axes. *)
Theorem polygons_mask : forall g polygons holes, grid_ok g ->
  mask_shape (rasterize_polygons g polygons holes) (gny g) (gnx g) /\
  forall r c, (0 <= r < gny g)%Z -> (0 <= c < gnx g)%Z ->
    let hs := match holes with Some h => h | None => [] end in
    let q := (center (xaxis g) c, center (yaxis g) r) in
    (forall p, In p (polygons ++ hs) -> clear_of p q) ->
    (nth (Z.to_nat c) (nth (Z.to_nat r) (rasterize_polygons g polygons holes) []) false = true <->
     (exists p, In p polygons /\ inside p q) /\ ~ (exists h, In h hs /\ inside h q)).
Proof.
  intros g polygons holes G. unfold rasterize_polygons, polygons_to_mask. cbn [fst snd]. cbv zeta.
  set (a0 := repeat (repeat 0%Z (Z.to_nat (gnx g))) (Z.to_nat (gny g))). assert (S0 : mask_shape a0 (gny g) (gnx g)) by (split; [apply repeat_length|intros row I; apply repeat_spec in I; subst row; apply repeat_length]).
  set (a1 := rasterize_layer (map (to_uv g) polygons) 1%Z a0). assert (S1 : mask_shape a1 (gny g) (gnx g)) by (apply layer_shape; exact S0).
  set (hs := match holes with Some h => h | None => [] end).
  set (a2 := match match holes with Some h => Some (map (to_uv g) h) | None => None end with Some ((_ :: _) as h) => rasterize_layer h 0%Z a1 | _ => a1 end).
  assert (S2 : mask_shape a2 (gny g) (gnx g)) by (unfold a2; destruct holes as [[|h hh]|]; [exact S1|apply layer_shape; exact S1|exact S1]).
  split.
  - destruct S2 as [L1 L2]. split; [rewrite map_length; exact L1|]. intros row I. apply in_map_iff in I as (w & <- & I). rewrite map_length. apply L2. exact I.
  - intros r c Hr Hc C. destruct S2 as [L1 L2].
    rewrite (nth_indep (map (map (fun v : Z => negb (v =? 0)%Z)) a2) [] (map (fun v : Z => negb (v =? 0)%Z) [])) by (rewrite map_length; lia). rewrite (map_nth (map (fun v : Z => negb (v =? 0)%Z))).
    rewrite (nth_indep _ false (negb (0 =? 0)%Z)) by (rewrite map_length, (L2 (nth (Z.to_nat r) a2 [])) by (apply nth_In; lia); lia). rewrite (map_nth (fun v : Z => negb (v =? 0)%Z)).
    assert (B : forall l, (forall p, In p l -> clear_of p (center (xaxis g) c, center (yaxis g) r)) -> (existsb (fun p => gdal_burns p r c) (map (to_uv g) l) = true <-> exists p, In p l /\ inside p (center (xaxis g) c, center (yaxis g) r))).
    { intros l Cl. rewrite existsb_exists. split.
      - intros (u & I & E). apply in_map_iff in I as (p & <- & I). exists p. split; [exact I|]. apply (burns_inside g p r c G (Cl p I)). exact E.
      - intros (p & I & E). exists (to_uv g p). split; [apply in_map; exact I|]. apply (burns_inside g p r c G (Cl p I)). exact E. }
    assert (E2 : nth (Z.to_nat c) (nth (Z.to_nat r) a2 []) 0%Z = if existsb (fun p => gdal_burns p r c) (map (to_uv g) hs) then 0%Z else nth (Z.to_nat c) (nth (Z.to_nat r) a1 []) 0%Z).
    { unfold a2, hs. destruct holes as [[|h hh]|]; [reflexivity| |reflexivity]. apply (layer_nth _ 0%Z a1 (gny g) (gnx g) r c S1 Hr Hc). }
    assert (E1 : nth (Z.to_nat c) (nth (Z.to_nat r) a1 []) 0%Z = if existsb (fun p => gdal_burns p r c) (map (to_uv g) polygons) then 1%Z else 0%Z).
    { unfold a1. rewrite (layer_nth _ 1%Z a0 (gny g) (gnx g) r c S0 Hr Hc). destruct (existsb (fun p => gdal_burns p r c) (map (to_uv g) polygons)); [reflexivity|]. unfold a0.
      rewrite (nth_indep _ [] (repeat 0%Z (Z.to_nat (gnx g)))) by (rewrite repeat_length; lia). rewrite nth_repeat, nth_repeat. reflexivity. }
    rewrite E2, E1. pose proof (B polygons (fun p I => C p (in_or_app _ _ _ (or_introl I)))) as B1. pose proof (B hs (fun p I => C p (in_or_app _ _ _ (or_intror I)))) as B2.
    destruct (existsb (fun p => gdal_burns p r c) (map (to_uv g) hs)).
    + split; [intros F; discriminate F|]. intros [_ N]. destruct (N (proj1 B2 eq_refl)).
    + assert (NH : ~ (exists h, In h hs /\ inside h (center (xaxis g) c, center (yaxis g) r))) by (intros X; apply B2 in X; discriminate X).
      destruct (existsb (fun p => gdal_burns p r c) (map (to_uv g) polygons)).
      * split; [intros _; split; [apply B1; reflexivity|exact NH]|reflexivity].
      * split; [intros F; discriminate F|]. intros [X _]. apply B1 in X. discriminate X.
Qed.
Print Assumptions polygons_mask.
(** Finding: a hole applies to all polygons: of two polygons, of which the second lies within the hole of the first (an island), the cells of the second are False although their centers are inside a polygon and a hole only of the other. *)
Corollary polygons_island_refuted : forall g polygons h p r c, grid_ok g -> (0 <= r < gny g)%Z -> (0 <= c < gnx g)%Z ->
  let q := (center (xaxis g) c, center (yaxis g) r) in (forall p, In p (polygons ++ [h]) -> clear_of p q) ->
  In p polygons -> inside p q -> inside h q -> nth (Z.to_nat c) (nth (Z.to_nat r) (rasterize_polygons g polygons (Some [h])) []) false = false.
Proof.
  intros g polygons h p r c G Hr Hc q C I1 I2 I3. apply not_true_iff_false. intros T. apply (proj2 (polygons_mask g polygons (Some [h]) G) r c Hr Hc C) in T. destruct T as [_ T]. apply T. exists h. split; [left; reflexivity|exact I3].
Qed.
Print Assumptions polygons_island_refuted.
(** a square around a cell center, on a grid with decreasing y *)
Example polygons_ex : let g := mkgrid 2 2 (0, 2) (2, 0) in let sq := [(0, 1); (1, 1); (1, 2); (0, 2)] in
  grid_ok g /\ (forall r c, (0 <= r < 2)%Z -> (0 <= c < 2)%Z -> clear_of sq (center (xaxis g) c, center (yaxis g) r)) /\ inside sq (center (xaxis g) 0, center (yaxis g) 0) /\ ~ inside sq (center (xaxis g) 1, center (yaxis g) 0).
Proof.
  intros g sq. assert (G : grid_ok g) by (split; split; cbn; try lra; lia). split; [exact G|].
  assert (CX : forall k, center (xaxis g) k = IZR k + / 2) by (intros k; unfold center, at_cells; cbn; lra). assert (CY : forall k, center (yaxis g) k = 3 / 2 - IZR k) by (intros k; unfold center, at_cells; cbn; lra).
  assert (SD : sides sq = [((0, 1), (1, 1)); ((1, 1), (1, 2)); ((1, 2), (0, 2)); ((0, 2), (0, 1))]) by reflexivity.
  split; [|split].
  - intros r c Hr Hc. rewrite CX, CY. assert (Hr' : r = 0%Z \/ r = 1%Z) by lia. assert (Hc' : c = 0%Z \/ c = 1%Z) by lia. split.
    + intros v I. cbn [snd]. cbn in I. destruct I as [<-|[<-|[<-|[<-|[]]]]]; cbn [snd]; destruct Hr' as [-> | ->]; lra.
    + intros e I. rewrite SD in I. unfold straddles, side_x. destruct I as [<-|[<-|[<-|[<-|[]]]]]; cbn [fst snd]; destruct Hr' as [-> | ->], Hc' as [-> | ->]; lra.
  - rewrite CX, CY. exists [((1, 1), (1, 2))]. rewrite SD. split; [|exists 0%nat; reflexivity]. apply picked_no; [unfold straddles; cbn [fst snd]; lra|]. apply picked_yes; [unfold straddles, side_x; cbn [fst snd]; lra|]. apply picked_no; [unfold straddles; cbn [fst snd]; lra|]. apply picked_no; [unfold straddles, side_x; cbn [fst snd]; lra|]. constructor.
  - rewrite CX, CY. intros (h & P & (k & O)). rewrite SD in P. apply picked_filter with (f := fun _ => false) in P; [subst h; cbn in O; lia|]. intros e I. split; [discriminate|]. unfold straddles, side_x. destruct I as [<-|[<-|[<-|[<-|[]]]]]; cbn [fst snd]; lra.
Qed.
