(** Model of src/glimpse/helpers.py (pure helper functions). *)
From Verif Require Import Base.
Open Scope Z_scope.

(* ------------------------------------------------------------------ *)
(** * bresenham_line -- helpers.py:865-939 *)

(** The two [for x in range(x1, x2 + 1)] loops (helpers.py:922-935), which
    differ only in the order of the appended pair.  [n] is the number of
    remaining iterations, i.e. [len(range(x, x2 + 1))]. *)
Fixpoint bres_loop (n : nat) (steep : bool) (x y dx abs_dy ystep error : Z)
  : list (Z * Z) :=
  match n with
  | O => []
  | S n' =>
    let pt := if steep then (y, x) else (x, y) in
    let error := error - abs_dy in
    pt :: (if error <? 0
           then bres_loop n' steep (x + 1) (y + ystep) dx abs_dy ystep (error + dx)
           else bres_loop n' steep (x + 1) y dx abs_dy ystep error)
  end.

(** helpers.py:898-939.  [int(dx / 2)] with dx >= 0 is floor division (the
    float quotient is exact for |dx| < 2^53). *)
Definition bresenham_line (start stop : Z * Z) : list (Z * Z) :=
  let '(x1, y1) := start in
  let '(x2, y2) := stop in
  let is_steep := Z.abs (x2 - x1) <? Z.abs (y2 - y1) in
  let '(x1, y1, x2, y2) := if is_steep then (y1, x1, y2, x2) else (x1, y1, x2, y2) in
  let swapped := x2 <? x1 in
  let '(x1, y1, x2, y2) := if swapped then (x2, y2, x1, y1) else (x1, y1, x2, y2) in
  let dx := x2 - x1 in
  let abs_dy := Z.abs (y2 - y1) in
  let error := dx / 2 in
  let ystep := if y1 <? y2 then 1 else -1 in
  let points := bres_loop (Z.to_nat (x2 + 1 - x1)) is_steep x1 y1 dx abs_dy ystep error in
  if swapped then rev points else points.

(* ------------------------------------------------------------------ *)
(** * boolean_split -- helpers.py:621-671 *)

Inductive include_mode := IncAll | IncTrue | IncFalse | IncOther.

(** [np.nonzero(mask[1:] != mask[:-1])[0] + 1] (helpers.py:658): positions
    [i >= 1] where the mask differs from its predecessor.  [i] is the position
    of the second element of the remaining mask. *)
Fixpoint mask_cuts (i : nat) (mask : list bool) : list nat :=
  match mask with
  | a :: ((b :: _) as r) =>
    if Bool.eqb a b then mask_cuts (S i) r else i :: mask_cuts (S i) r
  | _ => []
  end.

(** [np.split(a, cuts)]: the slices a[0:c1], a[c1:c2], ..., a[ck:]. *)
Fixpoint np_split {A} (from : nat) (a : list A) (cuts : list nat) : list (list A) :=
  match cuts with
  | [] => [skipn from a]
  | c :: r => firstn (c - from) (skipn from a) :: np_split c a r
  end.

(** Slices [::2] and [1::2] of a list. *)
Fixpoint evens {A} (l : list A) : list A :=
  match l with [] => [] | [x] => [x] | x :: _ :: r => x :: evens r end.
Definition odds {A} (l : list A) : list A := evens (tl l).

(** helpers.py:658-671.  numpy booleans are singletons, so
    [mask[0] is mask[-1]] is equality of the two values. *)
Definition boolean_split {A} (a : list A) (mask : list bool) (circular : bool)
  (include : include_mode) : result (list (list A)) :=
  let cuts := mask_cuts 1 mask in
  let splits := np_split 0 a cuts in
  let* splits :=
    if circular && (1 <? Z.of_nat (length splits))
    then let* m0 := py_get mask 0 in
         let* m1 := py_get mask (-1) in
         if Bool.eqb m0 m1
         then Ok (removelast ((last splits [] ++ hd [] splits) :: tl splits))
         else Ok splits
    else Ok splits in
  match include with
  | IncAll => Ok splits
  | IncTrue => let* m0 := py_get mask 0 in
               Ok (if m0 then evens splits else odds splits)
  | IncFalse => let* m0 := py_get mask 0 in
                Ok (if m0 then odds splits else evens splits)
  | IncOther => Ok []
  end.

(* ------------------------------------------------------------------ *)
(** * format_list -- helpers.py:23-81 *)

Inductive fl_arg (A : Type) :=
| FNone                       (* x is None *)
| FScalar (a : A)             (* not iterable *)
| FList (l : list A)          (* a python list: aliased *)
| FIter (l : list A).         (* another iterable: copied by list() *)
Arguments FNone {A}.
Arguments FScalar {A}.
Arguments FList {A}.
Arguments FIter {A}.

(** Slice [x[0:n]], negative n counting from the end. *)
Definition py_upto {A} (l : list A) (n : Z) : list A :=
  if n <? 0 then firstn (Z.to_nat (Z.of_nat (length l) + n)) l
  else firstn (Z.to_nat n) l.

Fixpoint repeat_list {A} (n : nat) (l : list A) : list A :=
  match n with O => [] | S k => l ++ repeat_list k l end.

(** helpers.py:61-81 without [dtype].  Result: the returned value
    ([None] for None) and the value of the caller's argument list afterwards
    (the list object is extended in place by [+=] and [*=], lines 73 and 78). *)
Definition format_list {A} (x : fl_arg A) (len : option Z) (default : option A)
  : result (option (list A) * fl_arg A) :=
  match x with
  | FNone => Ok (None, FNone)
  | _ =>
    let l := match x with FScalar a => [a] | FList l | FIter l => l | FNone => [] end in
    let back (l' : list A) := match x with FList _ => FList l' | _ => x end in
    match len with
    | None => Ok (Some l, x)
    | Some n =>
      if n =? 0 then Ok (Some l, x) else
      let nx := Z.of_nat (length l) in
      if n <? nx then Ok (Some (py_upto l n), x)
      else if nx <? n then
        match default with
        | Some d => let l' := l ++ repeat d (Z.to_nat (n - nx)) in Ok (Some l', back l')
        | None =>
          if 0 <? nx then
            if negb (n mod nx =? 0) then Err ValueError
            else let l' := repeat_list (Z.to_nat (n / nx)) l in Ok (Some l', back l')
          else Ok (Some l, x)
        end
      else Ok (Some l, x)
    end
  end.

(* ------------------------------------------------------------------ *)
(** * sorted_nearest -- helpers.py:160-201 *)

Section SortedNearest.
  Context {T : Type} (ltb : T -> T -> bool) (dist : T -> T -> T).

  (** numpy.searchsorted(x, y), side 'left', for ascending x. *)
  Definition searchsorted (x : list T) (y : T) : Z :=
    Z.of_nat (length (filter (fun xi => ltb xi y) x)).

  (** helpers.py:160-177, for one element of [y]. *)
  Definition sorted_neighbors (x : list T) (y : T) : Z * Z :=
    let n := Z.of_nat (length x) in
    let index := searchsorted x y in
    let index := if (0 <? index) && (index <? n) then index - 1 else index in
    let index := if index =? n then index - 2 else index in
    (index, index + 1).

  (** helpers.py:198-201, for one element of [y]; [dist a b] is [|a - b|].
      argmin of two values: the first unless the second is smaller. *)
  Definition sorted_nearest1 (x : list T) (y : T) : result Z :=
    let '(i, j) := sorted_neighbors x y in
    let* xi := py_get x i in
    let* xj := py_get x j in
    Ok (if ltb (dist y xj) (dist y xi) then j else i).

  Definition sorted_nearest (x ys : list T) : result (list Z) :=
    mapM (sorted_nearest1 x) ys.
End SortedNearest.

(* ------------------------------------------------------------------ *)
(** * datetimes -- helpers.py:1581-1676.  Microseconds as Z. *)

(** datetime_range, helpers.py:1603-1604 *)
Definition datetime_range (start stop step : Z) : result (list Z) :=
  if step =? 0 then Err ZeroDivisionError
  else let max_steps := (stop - start) / step in
       Ok (map (fun n => start + n * step) (Zrange (max_steps + 1))).

(** [snap * 0.5] for timedeltas: rounded half to even in microseconds
    (helpers.py:1670). *)
Definition half_even (s : Z) : Z :=
  if Z.even s then s / 2
  else if Z.even (s / 2) then s / 2 else s / 2 + 1.

Definition Zdist (a b : Z) : Z := Z.abs (a - b).

(** A timedelta argument is falsy when None or zero ([if snap:]). *)
Definition truthy (s : option Z) : option Z :=
  match s with Some v => if v =? 0 then None else Some v | None => None end.

(** Membership of a (normalised) index list. *)
Definition mem_index (n : Z) (i : Z) (l : list Z) : bool :=
  existsb (fun k => (if k <? 0 then n + k else k) =? i) l.

(** helpers.py:1648-1676; returns the boolean mask. *)
Definition select_datetimes (ts : list Z) (start stop snap maxdt : option Z)
  (origin : Z) : result (list bool) :=
  let snap := truthy snap in
  let selected := map (fun _ => true) ts in
  (* if start / else, 1650-1655 *)
  let* (selected, s) :=
    match start with
    | Some s => Ok (map2 andb selected (map (fun t => s <=? t) ts), s)
    | None => let* t0 := py_get ts 0 in
              Ok (selected, match snap with Some d => t0 - d | None => t0 end)
    end in
  (* if end / else, 1656-1661 *)
  let* (selected, e) :=
    match stop with
    | Some e => Ok (map2 andb selected (map (fun t => t <=? e) ts), e)
    | None => let* t1 := py_get ts (-1) in
              Ok (selected, match snap with Some d => t1 + d | None => t1 end)
    end in
  if e <? s then Err ValueError else
  match snap with
  | None => Ok selected
  | Some d =>
    let shift := (origin - s) mod d in
    let* targets := datetime_range (s + shift) e d in
    let* nearest := sorted_nearest Z.ltb Zdist ts targets in
    let maxdt := match maxdt with Some m => m | None => half_even d end in
    let* near_t := mapM (py_get ts) nearest in
    let distances := map2 Zdist targets near_t in
    let kept := map fst (filter (fun p => snd p <=? maxdt) (combine nearest distances)) in
    let n := Z.of_nat (length ts) in
    let temp := map (fun i => mem_index n i kept) (Zrange n) in
    Ok (map2 andb selected temp)
  end.

(** * boxes *)
Open Scope R_scope.

(** unravel_box, helpers.py:1192-1195 *)
Definition unravel_box (box : list R) : result (list R * list R) :=
  if Nat.odd (length box) then Err ValueError
  else let n := Nat.div (length box) 2 in Ok (firstn n box, skipn n box).

(** in_box, helpers.py:690-691, for one point. *)
Definition in_box1 (point : list R) (box : list R) : result bool :=
  let* (lo, hi) := unravel_box box in
  Ok (forallb (fun b => b)
        (map2 andb (map2 (fun p l => Rleb l p) point lo) (map2 (fun p h => Rleb p h) point hi))).

(** numpy min/max along axis 0 of a rectangular list of points. *)
Definition colwise (f : R -> R -> R) (rows : list (list R)) : result (list R) :=
  match rows with
  | [] => Err ValueError
  | r :: rs => Ok (fold_left (map2 f) rs r)
  end.

(** helpers.py:1198-1214 *)
Definition bounding_box (points : list (list R)) : result (list R) :=
  let* lo := colwise Rmin points in
  let* hi := colwise Rmax points in
  Ok (lo ++ hi).

(** numpy.fmax / fmin behaviour of nanmax/nanmin on one column: nan ignored. *)
Definition nanop (f : R -> R -> R) (a b : option R) : option R :=
  match a, b with
  | Some x, Some y => Some (f x y)
  | Some x, None => Some x
  | None, o => o
  end.

(** helpers.py:1042-1050.  Coordinates are [option R], [None] = nan.
    [boxes.shape[1]] of an empty collection is an IndexError. *)
Definition intersect_boxes (boxes : list (list (option R))) : result (list (option R)) :=
  match boxes with
  | [] => Err IndexError
  | b :: bs =>
    if Nat.odd (length b) then Err ValueError else
    let ndim := Nat.div (length b) 2 in
    let boxmin := fold_left (map2 (nanop Rmax)) (map (firstn ndim) bs) (firstn ndim b) in
    let boxmax := fold_left (map2 (nanop Rmin)) (map (skipn ndim) bs) (skipn ndim b) in
    let bad := map2 (fun hi lo => match hi, lo with
                                  | Some h, Some l => Rleb (h - l) 0
                                  | _, _ => false (* nan <= 0 is False *)
                                  end) boxmax boxmin in
    if existsb (fun b => b) bad then Err ValueError else Ok (boxmin ++ boxmax)
  end.

(** numpy.linspace(start, stop, num) *)
Definition linspace (start stop : R) (num : Z) : result (list R) :=
  if (num <? 0)%Z then Err ValueError
  else Ok (map (fun i => if (num =? 1)%Z then start
                         else start + IZR i * ((stop - start) / IZR (num - 1)))
               (Zrange num)).

(** helpers.py:1295-1302, one axis of box_to_grid. *)
Definition box_to_grid_axis (lo hi step snap : R) : result (list R) :=
  let shift := Rmod (snap - lo) step in
  let n := Rfloor ((hi - lo - shift) / step) in
  linspace (lo + shift) (lo + shift + IZR n * step) (n + 1).

(** helpers.py:1290-1304 with mode='vectors': one coordinate vector per axis.
    [snap = None] aligns to the box minimum. *)
Definition box_to_grid_vectors (box : list R) (step : list R) (snap : option (list R))
  : result (list (list R)) :=
  let* (lo, hi) := unravel_box box in
  let snap := match snap with Some s => s | None => lo end in
  mapM (fun a => let '(l, h, st, sn) := a in box_to_grid_axis l h st sn)
       (combine (combine (combine lo hi) step) snap).

(* ------------------------------------------------------------------ *)
(** * rasterize_points -- helpers.py:1376-1457 (values of shape (n, )) *)

(** numpy.ravel_multi_index((rows, cols), shape): raises when out of range. *)
Definition ravel_index (shape : Z * Z) (rc : Z * Z) : result Z :=
  let '(nr, nc) := shape in
  let '(r, c) := rc in
  if ((0 <=? r) && (r <? nr) && (0 <=? c) && (c <? nc))%Z
  then Ok (r * nc + c)%Z else Err ValueError.

(** numpy.unique on integers: insertion into a sorted duplicate-free list. *)
Fixpoint insert_unique (x : Z) (l : list Z) : list Z :=
  match l with
  | [] => [x]
  | y :: r => if (x <? y)%Z then x :: l
              else if (x =? y)%Z then l else y :: insert_unique x r
  end.
Definition unique_Z (l : list Z) : list Z := fold_right insert_unique [] l.

Definition mean (l : list R) : R := sumR l * (1 / IZR (Z.of_nat (length l))).

(** Values of the points whose label is [u]: [bincount] sums and counts. *)
Definition values_at (u : Z) (idx : list Z) (values : list R) : list R :=
  map snd (filter (fun p => (fst p =? u)%Z) (combine idx values)).

(** helpers.py:1436-1451, returning branch ([a is None]). *)
Definition rasterize_points (rows cols : list Z) (values : list R) (shape : Z * Z)
  : result (list Z * list R) :=
  if negb (Nat.eqb (length rows) (length cols)) then Err ValueError else
  let* idx := mapM (ravel_index shape) (combine rows cols) in
  if negb (Nat.eqb (length values) (length idx)) then Err ValueError else
  let uidx := unique_Z idx in
  Ok (uidx, map (fun u => mean (values_at u idx values)) uidx).

(** helpers.py:1452-1453, in-place branch on a 2-d array, held row-major as a
    flat list: [a.flat[uidx] = means]. *)
Definition rasterize_into {V} (inj : R -> V) (rows cols : list Z) (values : list R)
  (shape : Z * Z) (a : list V) : result (list V) :=
  let* (uidx, means) := rasterize_points rows cols values shape in
  Ok (fold_left (fun acc p => set_nth (Z.to_nat (fst p)) (inj (snd p)) acc)
                (combine uidx means) a).

(* ------------------------------------------------------------------ *)
(** * compute_cdf / match_cdf -- helpers.py:420-480 *)

Fixpoint insert_uniqueR (x : R) (l : list R) : list R :=
  match l with
  | [] => [x]
  | y :: r => if Rltb x y then x :: l
              else if Reqb x y then l else y :: insert_uniqueR x r
  end.
Definition unique_R (l : list R) : list R := fold_right insert_uniqueR [] l.

Fixpoint index_of (x : R) (l : list R) : nat :=
  match l with [] => O | y :: r => if Reqb x y then O else S (index_of x r) end.

Definition count_R (x : R) (l : list R) : R :=
  IZR (Z.of_nat (length (filter (fun y => Reqb y x) l))).

(** values, quantiles, inverse (helpers.py:446-451) *)
Definition compute_cdf (a : list R) : list R * list R * list nat :=
  let values := unique_R a in
  let counts := map (fun v => count_R v a) values in
  let quantiles := map (fun s => s / IZR (Z.of_nat (length a))) (cumsum counts) in
  (values, quantiles, map (fun x => index_of x values) a).

(** numpy.interp(x, xp, fp) for increasing xp: clamped piecewise-linear. *)
Fixpoint interp_in (x x0 f0 : R) (pts : list (R * R)) : R :=
  match pts with
  | [] => f0
  | (x1, f1) :: r =>
    if Rleb x1 x then interp_in x x1 f1 r
    else if Reqb x x0 then f0
    else f0 + (f1 - f0) / (x1 - x0) * (x - x0)
  end.
Definition np_interp (x : R) (xp fp : list R) : result R :=
  match combine xp fp with
  | [] => Err ValueError
  | (x0, f0) :: r => Ok (if Rltb x x0 then f0 else interp_in x x0 f0 r)
  end.

(** helpers.py:476-480; [cdf] given as (values, probabilities). *)
Definition match_cdf (a : list R) (cdf : list R * list R) : result (list R) :=
  let '(_, quantiles, inverse) := compute_cdf a in
  let* values := mapM (fun q => np_interp q (snd cdf) (fst cdf)) quantiles in
  Ok (map (fun i => nth i values 0) inverse).
Definition match_cdf_array (a b : list R) : result (list R) :=
  let '(v, q, _) := compute_cdf b in match_cdf a (v, q).

(** helpers.py:1530-1549 *)
Definition elevation_corrections (d2 radius refraction : R) : R :=
  (refraction - 1) * d2 / (2 * radius).
