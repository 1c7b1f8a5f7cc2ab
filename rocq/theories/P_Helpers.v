(** Property theorems about src/glimpse/helpers.py (C01-C14). *)
From Coq Require Import Sorting.Sorted.
From Verif Require Import Base BaseLemmas XReal HelpersModel RayModel HelpersSpec.
From Verif Require Import BresenhamProofs SplitProofs NearestProofs BoxProofs AggregateProofs RayProofs ClipProofs.

Open Scope Z_scope.
(** C01.  [M] is the length of the segment in the major coordinate; the last
    but one conjunct bounds the distance to the exact segment (in the minor
    coordinate) by half a cell. *)
Theorem bresenham_line_path : forall x1 y1 x2 y2 : Z,
  let pts := bresenham_line (x1, y1) (x2, y2) in
  let dx := x2 - x1 in let dy := y2 - y1 in
  let M := Z.max (Z.abs dx) (Z.abs dy) in
  Z.of_nat (length pts) = M + 1
  /\ nth_error pts 0 = Some (x1, y1)
  /\ nth_error pts (length pts - 1) = Some (x2, y2)
  /\ NoDup pts
  /\ (forall i px py, nth_error pts i = Some (px, py) ->
        (if Z.abs dx <? Z.abs dy then py = y1 + Z.of_nat i * Z.sgn dy
         else px = x1 + Z.of_nat i * Z.sgn dx)
        /\ 2 * Z.abs ((py - y1) * dx - (px - x1) * dy) <= M)
  /\ (forall i px py qx qy,
        nth_error pts i = Some (px, py) -> nth_error pts (S i) = Some (qx, qy) ->
        Z.max (Z.abs (qx - px)) (Z.abs (qy - py)) = 1).
Proof. exact bresenham_line_spec. Qed.
Print Assumptions bresenham_line_path.
Example bresenham_line_ex : bresenham_line (0, 0) (3, -1) = [(0, 0); (1, 0); (2, -1); (3, -1)].
Proof. vm_compute. reflexivity. Qed.

(** C02 *)
Theorem bresenham_line_symmetric : forall a b : Z * Z,
  bresenham_line b a = rev (bresenham_line a b).
Proof. exact bresenham_line_reverse. Qed.
Print Assumptions bresenham_line_symmetric.
Example bresenham_line_symmetric_ex :
  bresenham_line (0, 0) (5, 2) <> [] /\ bresenham_line (5, 2) (0, 0) = rev (bresenham_line (0, 0) (5, 2)).
Proof. split; [vm_compute; congruence|vm_compute; reflexivity]. Qed.

(** C03 *)
Theorem boolean_split_lossless_maximal : forall (A : Type) (a : list A) (mask : list bool),
  length a = length mask -> mask <> [] ->
  exists runs : list (bool * list A),
    concat (map snd runs) = a
    /\ concat (map (fun r => repeat (fst r) (length (snd r))) runs) = mask
    /\ (forall r, In r runs -> snd r <> [])
    /\ (forall i r s, nth_error runs i = Some r -> nth_error runs (S i) = Some s ->
          fst r = negb (fst s))
    /\ (forall inc, boolean_split a mask false inc = Ok (select inc runs))
    /\ (forall m p mid q, runs = (m, p) :: mid ++ [(m, q)] ->
          forall inc, boolean_split a mask true inc = Ok (select inc ((m, q ++ p) :: mid)))
    /\ ((forall m p mid q, runs <> (m, p) :: mid ++ [(m, q)]) ->
          forall inc, boolean_split a mask true inc = Ok (select inc runs)).
Proof. exact @boolean_split_spec. Qed.
Print Assumptions boolean_split_lossless_maximal.
Example boolean_split_ex :
  boolean_split [1; 2; 3; 4] [true; true; false; true] false IncAll = Ok [[1; 2]; [3]; [4]]
  /\ boolean_split [1; 2; 3; 4] [true; true; false; true] true IncTrue = Ok [[4; 1; 2]].
Proof. split; vm_compute; reflexivity. Qed.

(** C04 *)
Theorem format_list_contract : forall (A : Type) (x : fl_arg A) (len : option Z) (d : option A),
  x <> FNone ->
  let l := arg_items x in
  (len = None \/ len = Some 0 -> format_list x len d = Ok (Some l, x)) /\
  forall n, len = Some n -> 0 < n ->
    (* too long: truncated *)
    (n < Z.of_nat (length l) -> format_list x len d = Ok (Some (firstn (Z.to_nat n) l), x)) /\
    (* exact *)
    (Z.of_nat (length l) = n -> format_list x len d = Ok (Some l, x)) /\
    (* padded *)
    (Z.of_nat (length l) < n -> forall dv, d = Some dv ->
       exists y, format_list x len d = Ok (Some (l ++ repeat dv (Z.to_nat n - length l)), y)) /\
    (* repeated *)
    (Z.of_nat (length l) < n -> d = None -> l <> [] ->
       (n mod Z.of_nat (length l) <> 0 -> format_list x len d = Err ValueError) /\
       (n mod Z.of_nat (length l) = 0 ->
          exists r y, format_list x len d = Ok (Some r, y) /\ Z.of_nat (length r) = n /\
             forall i, (i < length r)%nat -> nth_error r i = nth_error l (i mod length l)%nat)) /\
    (* nothing to repeat *)
    (d = None -> l = [] -> format_list x len d = Ok (Some [], x)).
Proof. exact @format_list_spec. Qed.
Print Assumptions format_list_contract.
Theorem format_list_none : forall (A : Type) (len : option Z) (d : option A),
  format_list FNone len d = Ok (None, FNone).
Proof. reflexivity. Qed.
Print Assumptions format_list_none.
Example format_list_ex :
  format_list (FIter [1; 2]) (Some 6) None = Ok (Some [1; 2; 1; 2; 1; 2], FIter [1; 2])
  /\ format_list (FIter [1; 2]) (Some 5) None = Err ValueError
  /\ format_list (FScalar 7) (Some 3) (Some 0) = Ok (Some [7; 0; 0], FScalar 7).
Proof. repeat split; vm_compute; reflexivity. Qed.
(** Finding: the caller's own list object is modified when it is extended. *)
Theorem format_list_argument_unchanged_refuted : forall (A : Type) (x : fl_arg A) len d r y, format_list x len d = Ok (r, y) ->
  (forall l, x = FList l -> exists r', r = Some r' /\
     ((length l < length r')%nat -> y = FList r') /\ ((length r' <= length l)%nat -> y = FList l)) /\
  ((forall l, x <> FList l) -> y = x).
Proof.
  intros A x len d r y H.
  assert (Ln : forall (l : list A) n, Z.of_nat (length l) > n -> (length (py_upto l n) <= length l)%nat).
  { intros l n _. unfold py_upto. destruct (n <? 0)%Z; rewrite firstn_length; lia. }
  destruct x as [| a | l | l]; cbn [format_list] in H.
  - injection H as <- <-. split; [discriminate | reflexivity].
  - split; [discriminate |]. intros _. destruct len as [n |]; [| now injection H as <- <-].
    repeat match type of H with context [if ?b then _ else _] => destruct b | context [match d with _ => _ end] => destruct d end; try discriminate; now injection H as <- <-.
  - split; [| intros F; exfalso; apply (F l); reflexivity]. intros l0 E. injection E as <-.
    destruct len as [n |]; [| injection H as <- <-; eexists; split; [reflexivity | split; [lia | reflexivity]]].
    destruct (n =? 0)%Z eqn:E0; [injection H as <- <-; eexists; split; [reflexivity | split; [lia | reflexivity]] |].
    destruct (n <? Z.of_nat (length l))%Z eqn:E1. { apply Z.ltb_lt in E1. injection H as <- <-. eexists; split; [reflexivity |]. split; [| reflexivity]. pose proof (Ln l n ltac:(lia)). lia. }
    destruct (Z.of_nat (length l) <? n)%Z eqn:E2; [| injection H as <- <-; eexists; split; [reflexivity | split; [lia | reflexivity]]].
    apply Z.ltb_lt in E2. destruct d as [d |].
    + injection H as <- <-. eexists; split; [reflexivity |]. split; [reflexivity |]. rewrite app_length, repeat_length. lia.
    + destruct (0 <? Z.of_nat (length l))%Z eqn:E3; [| injection H as <- <-; eexists; split; [reflexivity | split; [lia | reflexivity]]].
      apply Z.ltb_lt in E3. destruct (negb (n mod Z.of_nat (length l) =? 0)) eqn:E4; [discriminate |]. apply negb_false_iff, Z.eqb_eq in E4.
      injection H as <- <-. eexists; split; [reflexivity |]. split; [reflexivity |]. intros G. exfalso.
      rewrite repeat_list_length in G. assert (1 < n / Z.of_nat (length l))%Z by (rewrite (Z.div_mod n (Z.of_nat (length l))) in E2 by lia; nia). nia.
  - split; [discriminate |]. intros _. destruct len as [n |]; [| now injection H as <- <-].
    repeat match type of H with context [if ?b then _ else _] => destruct b | context [match d with _ => _ end] => destruct d end; try discriminate; now injection H as <- <-.
Qed.
Example format_list_argument_ex : format_list (FList [1; 2]) (Some 4) None = Ok (Some [1; 2; 1; 2], FList [1; 2; 1; 2]).
Proof. reflexivity. Qed.
Print Assumptions format_list_argument_unchanged_refuted.

(** C05 *)
Theorem sorted_nearest_is_nearest : forall (x ys : list R),
  StronglySorted Rle x -> (2 <= length x)%nat ->
  exists idx, sorted_nearest Rltb (fun a b => Rabs (a - b)) x ys = Ok idx /\ length idx = length ys /\
    forall k y, nth_error ys k = Some y ->
      exists i xi, nth_error idx k = Some (Z.of_nat i) /\ nth_error x i = Some xi /\
        forall j xj, nth_error x j = Some xj -> (Rabs (y - xi) <= Rabs (y - xj))%R.
Proof. exact sorted_nearest_R. Qed.
Print Assumptions sorted_nearest_is_nearest.
Example sorted_nearest_ex : StronglySorted Rle [1; 1; 3]%R /\ (2 <= length [1; 1; 3]%R)%nat.
Proof. split; [repeat constructor; lra|simpl; lia]. Qed.
(** Finding: with a single element the function may fail. *)
Theorem sorted_nearest_singleton_refuted : forall (x : R) (ys : list R),
  sorted_nearest Rltb (fun a b => Rabs (a - b)) [x] ys = if forallb (fun y => Rltb x y) ys then Ok (map (fun _ => (-1)%Z) ys) else Err IndexError.
Proof.
  intros x ys. unfold sorted_nearest. induction ys as [| y ys IH]; [reflexivity |]. cbn [mapM forallb map]. rewrite sorted_nearest1_singleton.
  destruct (Rltb x y); cbn [bind andb]; [| reflexivity]. rewrite IH. now destruct (forallb (fun y => Rltb x y) ys).
Qed.
Example sorted_nearest_singleton_ex : sorted_nearest Rltb (fun a b => Rabs (a - b)) [1%R] [2%R; 1%R] = Err IndexError /\ sorted_nearest Rltb (fun a b => Rabs (a - b)) [1%R] [2%R] = Ok [-1].
Proof. rewrite !sorted_nearest_singleton_refuted. cbn [forallb map]. rewrite (proj2 (Rltb_false 1 1)) by lra. rewrite (proj2 (Rltb_true 1 2)) by lra. split; reflexivity. Qed.
Print Assumptions sorted_nearest_singleton_refuted.

Open Scope R_scope.
(** C06.  A nan bound ([None]) is no constraint. *)
Theorem intersect_boxes_greatest : forall n (boxes : list (list (option R))),
  boxes <> [] -> rect (2 * n) boxes ->
  let disjoint := exists i b1 b2 l h, (i < n)%nat /\ In b1 boxes /\ In b2 boxes /\
        nth i b1 None = Some l /\ nth (n + i) b2 None = Some h /\ h <= l in
  (disjoint -> intersect_boxes boxes = Err ValueError) /\
  (~ disjoint -> exists lo hi, intersect_boxes boxes = Ok (lo ++ hi) /\ length lo = n /\ length hi = n /\
     forall i x, (i < n)%nat ->
       (ge_opt (nth i lo None) x /\ le_opt (nth i hi None) x <->
        forall b, In b boxes -> ge_opt (nth i b None) x /\ le_opt (nth (n + i) b None) x)).
Proof. exact intersect_boxes_spec. Qed.
Print Assumptions intersect_boxes_greatest.
Theorem intersect_boxes_odd_raises : forall b bs, Nat.odd (length b) = true ->
  intersect_boxes (b :: bs) = Err ValueError.
Proof. exact intersect_boxes_odd. Qed.
Print Assumptions intersect_boxes_odd_raises.
Example intersect_boxes_ex :
  rect 4 [[Some 0; Some 0; Some 10; Some 10]; [Some 5; None; Some 20; Some 5]] /\
  ~ (exists i b1 b2 l h, (i < 2)%nat /\ In b1 [[Some 0; Some 0; Some 10; Some 10]; [Some 5; None; Some 20; Some 5]]
      /\ In b2 [[Some 0; Some 0; Some 10; Some 10]; [Some 5; None; Some 20; Some 5]] /\
        nth i b1 None = Some l /\ nth (2 + i) b2 None = Some h /\ h <= l).
Proof.
  split.
  - intros r [<-|[<-|[]]]; reflexivity.
  - intros (i & b1 & b2 & l & h & Hi & H1 & H2 & H3 & H4 & H5).
    destruct i as [|[|]]; [| |lia]; destruct H1 as [<-|[<-|[]]], H2 as [<-|[<-|[]]]; cbn in *;
      try discriminate; injection H3 as <-; injection H4 as <-; lra.
Qed.

(** C07 *)
Theorem bounding_box_tightest : forall n (points : list (list R)), points <> [] -> rect n points ->
  exists lo hi, bounding_box points = Ok (lo ++ hi) /\ length lo = n /\ length hi = n /\
    forall i, (i < n)%nat ->
      (forall p, In p points -> nth i lo 0 <= nth i p 0 <= nth i hi 0) /\
      (exists p, In p points /\ nth i p 0 = nth i lo 0) /\
      (exists p, In p points /\ nth i p 0 = nth i hi 0).
Proof. exact bounding_box_spec. Qed.
Print Assumptions bounding_box_tightest.
Theorem bounding_box_in_box : forall n points p, points <> [] -> rect n points -> In p points ->
  exists box, bounding_box points = Ok box /\ in_box1 p box = Ok true.
Proof. exact bounding_box_contains. Qed.
Print Assumptions bounding_box_in_box.
Example bounding_box_ex : [[0; 1]; [2; -1]] <> [] /\ rect 2 [[0; 1]; [2; -1]].
Proof. split; [congruence|]. intros r [<-|[<-|[]]]; reflexivity. Qed.

(** C08 *)
Theorem box_to_grid_exact : forall n (lo hi step : list R) (snap : option (list R)),
  length lo = n -> length hi = n -> length step = n ->
  (forall s, snap = Some s -> length s = n) ->
  (forall i, (i < n)%nat -> nth i lo 0 <= nth i hi 0 /\ 0 < nth i step 0) ->
  exists axes, box_to_grid_vectors (lo ++ hi) step snap = Ok axes /\ length axes = n /\
    forall i, (i < n)%nat ->
      StronglySorted Rlt (nth i axes []) /\
      forall x, In x (nth i axes []) <->
        nth i lo 0 <= x <= nth i hi 0 /\
        exists k : Z, x = nth i (match snap with Some s => s | None => lo end) 0 + IZR k * nth i step 0.
Proof. exact box_to_grid_spec. Qed.
Print Assumptions box_to_grid_exact.
Example box_to_grid_ex : forall i, (i < 2)%nat -> nth i [0; 0] 0 <= nth i [3; 3] 0 /\ 0 < nth i [1; 2] 0.
Proof. intros [|[|]] Hi; cbn; try lra; lia. Qed.

(** C09.  The rays left out here (d_x = 0, origin in the plane of an x face, where the code computes 0 * inf) are in P_Ray2.v. *)
Theorem ray_box_slab : forall n o d lo hi,
  (n = 2 \/ n = 3)%nat -> length d = n ->
  (forall i, (i < n)%nat -> nth i lo 0 <= nth i hi 0) ->
  (exists i, (i < n)%nat /\ nth i d 0 <> 0) ->
  (nth 0 d 0 = 0 -> nth 0 o 0 <> nth 0 lo 0 /\ nth 0 o 0 <> nth 0 hi 0) ->
  let inside := ray_in_box n o d lo hi in
  let '(entry, exit) := ray_box o d lo hi in
  (* miss *)
  (entry = NaN /\ exit = NaN /\ (forall t, 0 <= t -> ~ inside t)) \/
  (* the origin is inside (and the line already was before it) *)
  (exists b, entry = NaN /\ exit = Fin b /\ 0 <= b /\ (exists a, a < 0 /\ inside a) /\
             (forall t, 0 <= t -> (inside t <-> t <= b))) \/
  (* entry and exit *)
  (exists a b, entry = Fin a /\ exit = Fin b /\ 0 <= a <= b /\ (forall t, inside t <-> a <= t <= b)).
Proof. exact ray_box_cases. Qed.
Print Assumptions ray_box_slab.
Example ray_box_ex :
  (forall i, (i < 2)%nat -> nth i [1; -1] 0 <= nth i [2; 2] 0) /\
  (exists i, (i < 2)%nat /\ nth i [1; 1] 0 <> 0) /\
  (nth 0 [1; 1] 0 = 0 -> nth 0 [0; 0] 0 <> nth 0 [1; -1] 0 /\ nth 0 [0; 0] 0 <> nth 0 [2; 2] 0).
Proof.
  split; [intros [|[|]] Hi; cbn; try lra; lia|]. split; [exists 0%nat; cbn; split; [lia|lra]|].
  cbn. intros; lra.
Qed.
(** Findings: entry is nan although the origin is outside; exit is nan although the ray hits. *)
Theorem ray_box_entry_refuted : exists o d lo hi t,
  ~ in_closed_box 2 lo hi o /\ 0 <= t /\ ray_in_box 2 o d lo hi t /\ fst (ray_box o d lo hi) = NaN.
Proof.
  exists [1; -5], [0; 1], [1; -1], [2; 2], 4. destruct ray_box_entry_lost as (H1 & H2 & H3).
  repeat split; auto; lra || apply H2; auto.
Qed.
Print Assumptions ray_box_entry_refuted.
Theorem ray_box_exit_refuted : exists o d lo hi t,
  0 <= t /\ ray_in_box 2 o d lo hi t /\ snd (ray_box o d lo hi) = NaN.
Proof.
  exists [2; -5], [0; 1], [1; -1], [2; 2], 4. destruct ray_box_exit_lost as (H2 & H3).
  repeat split; auto; lra || apply H2; auto.
Qed.
Print Assumptions ray_box_exit_refuted.

Open Scope Z_scope.
(** C11 *)
Theorem datetime_range_complete : forall start stop step, 0 < step ->
  exists l, datetime_range start stop step = Ok l
    /\ StronglySorted Z.lt l
    /\ (forall t, In t l <-> exists k, 0 <= k /\ t = start + k * step /\ t <= stop)
    /\ (forall i t, nth_error l i = Some t -> t = start + Z.of_nat i * step)
    /\ (stop < start -> l = []).
Proof. exact datetime_range_spec. Qed.
Print Assumptions datetime_range_complete.
Example datetime_range_ex : datetime_range 0 7 2 = Ok [0; 2; 4; 6].
Proof. vm_compute. reflexivity. Qed.

(** C12 *)
Theorem select_datetimes_bounds : forall ts start stop maxdt origin, ts <> [] ->
  let s := match start with Some s => s | None => hd 0 ts end in
  let e := match stop with Some e => e | None => last ts 0 end in
  select_datetimes ts start stop None maxdt origin =
    if e <? s then Err ValueError
    else Ok (map (fun t => opt_ge start t && opt_le stop t) ts).
Proof. exact select_datetimes_nosnap. Qed.
Print Assumptions select_datetimes_bounds.
Theorem select_datetimes_snapped : forall ts start stop d maxdt origin,
  StronglySorted Z.lt ts -> (2 <= length ts)%nat -> 0 < d ->
  let tol := match maxdt with Some m => m | None => half_even d end in
  (eff_stop ts stop d < eff_start ts start d ->
     select_datetimes ts start stop (Some d) maxdt origin = Err ValueError) /\
  (eff_start ts start d <= eff_stop ts stop d ->
     exists mask, select_datetimes ts start stop (Some d) maxdt origin = Ok mask /\
       length mask = length ts /\
       forall i b, nth_error mask i = Some b ->
         (b = true <-> snap_selected ts start stop d tol origin i)).
Proof. exact select_datetimes_snap. Qed.
Print Assumptions select_datetimes_snapped.
(** Without start and end, every lattice point counts as a target. *)
Theorem select_datetimes_unbounded_targets : forall ts d tol origin i,
  StronglySorted Z.lt ts -> (2 <= length ts)%nat -> 0 < d ->
  (snap_selected ts None None d tol origin i <->
   exists t g, nth_error ts i = Some t /\ (g - origin) mod d = 0 /\ first_nearest ts g i /\ Z.abs (g - t) <= tol).
Proof. exact snap_selected_unbounded. Qed.
Print Assumptions select_datetimes_unbounded_targets.
Example select_datetimes_ex :
  StronglySorted Z.lt [1; 9; 13; 21] /\
  select_datetimes [1; 9; 13; 21] (Some 2) None (Some 10) (Some 1) 0 = Ok [false; true; false; true].
Proof. split; [repeat constructor|vm_compute; reflexivity]. Qed.
(** Finding: a single datetime with a snap interval fails. *)
Theorem select_datetimes_singleton_refuted : exists t d,
  select_datetimes [t] None None (Some d) None 0 = Err IndexError.
Proof. exists 0, 10. vm_compute. reflexivity. Qed.
Print Assumptions select_datetimes_singleton_refuted.

Open Scope R_scope.
(** C13 *)
Theorem rasterize_points_means : forall nr nc rows cols values,
  length rows = length cols -> length values = length rows -> in_shape nr nc rows cols ->
  exists uidx means, rasterize_points rows cols values (nr, nc) = Ok (uidx, means) /\
    StronglySorted Z.lt uidx /\ length means = length uidx /\
    (forall u, In u uidx <-> exists r c, In (r, c) (combine rows cols) /\ u = (r * nc + c)%Z) /\
    (forall k r c, (0 <= r < nr)%Z -> (0 <= c < nc)%Z -> nth_error uidx k = Some (r * nc + c)%Z ->
       nth_error means k =
         Some (sumR (cell_values rows cols values r c) / IZR (Z.of_nat (length (cell_values rows cols values r c))))).
Proof. exact rasterize_points_spec. Qed.
Print Assumptions rasterize_points_means.
Theorem rasterize_points_out_of_range : forall nr nc rows cols values, length rows = length cols ->
  ~ in_shape nr nc rows cols -> rasterize_points rows cols values (nr, nc) = Err ValueError.
Proof. exact rasterize_points_oob. Qed.
Print Assumptions rasterize_points_out_of_range.
Theorem rasterize_points_in_place : forall (V : Type) (inj : R -> V) nr nc rows cols values (a : list V),
  length rows = length cols -> length values = length rows -> in_shape nr nc rows cols ->
  (0 <= nc)%Z -> Z.of_nat (length a) = (nr * nc)%Z ->
  exists a', rasterize_into inj rows cols values (nr, nc) a = Ok a' /\ length a' = length a /\
    forall r c, (0 <= r < nr)%Z -> (0 <= c < nc)%Z ->
      let here := cell_values rows cols values r c in
      nth_error a' (Z.to_nat (r * nc + c)) =
        match here with
        | [] => nth_error a (Z.to_nat (r * nc + c))
        | _ => Some (inj (sumR here / IZR (Z.of_nat (length here))))
        end.
Proof. exact @rasterize_into_spec. Qed.
Print Assumptions rasterize_points_in_place.
Example rasterize_points_ex : in_shape 2 2 [0; 0; 1]%Z [1; 1; 0]%Z /\ cell_values [0; 0; 1]%Z [1; 1; 0]%Z [1; 3; 5] 0 1 = [1; 3].
Proof. split; [|reflexivity]. intros r c [H|[H|[H|[]]]]; injection H as <- <-; lia. Qed.

(** C14 *)
Theorem compute_cdf_laws : forall a, a <> [] ->
  let '(values, quantiles, inverse) := compute_cdf a in
  let n := IZR (Z.of_nat (length a)) in
  StronglySorted Rlt values /\ (forall v, In v values <-> In v a) /\
  length quantiles = length values /\ length inverse = length a /\
  (forall i x, nth_error a i = Some x ->
     exists k, nth_error inverse i = Some k /\ nth_error values k = Some x) /\
  (forall k v, nth_error values k = Some v ->
     nth_error quantiles k = Some (IZR (Z.of_nat (length (filter (fun y => Rleb y v) a))) / n)) /\
  StronglySorted Rlt quantiles /\ (forall q, In q quantiles -> 0 < q <= 1) /\ last quantiles 0 = 1.
Proof. exact compute_cdf_spec. Qed.
Print Assumptions compute_cdf_laws.
Theorem match_cdf_laws : forall a b, a <> [] -> b <> [] ->
  exists r, match_cdf_array a b = Ok r /\ length r = length a /\
    (forall i j x y u v, nth_error a i = Some x -> nth_error a j = Some y -> nth_error r i = Some u ->
       nth_error r j = Some v -> x <= y -> u <= v) /\
    (forall lo hi, (forall z, In z b -> lo <= z <= hi) -> forall u, In u r -> lo <= u <= hi) /\
    (b = a -> r = a).
Proof. exact match_cdf_spec. Qed.
Print Assumptions match_cdf_laws.
Example match_cdf_ex : [3; 1; 3] <> [] /\ forall z, In z [3; 1; 3] -> 1 <= z <= 3.
Proof. split; [congruence|]. intros z [<-|[<-|[<-|[]]]]; lra. Qed.
