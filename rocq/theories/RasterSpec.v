(** Specification vocabulary for the stateful part of Grid and Raster. *)
From Verif Require Import Base GridModel GridSpec RasterModel.
Open Scope R_scope.

(** [v] is the vector of the cell centers of axis [a] *)
Definition is_centers (a : axis) (v : list R) : Prop :=
  length v = Z.to_nat (snd a) /\ forall k, (k < length v)%nat -> nth k v 0 = center a (Z.of_nat k).
(** coordinate matrices, row by row *)
Definition is_X (a : axis) (ny : nat) (X : list (list R)) : Prop :=
  exists v, is_centers a v /\ X = repeat v ny.
Definition is_Y (a : axis) (nx : nat) (Y : list (list R)) : Prop :=
  exists v, is_centers a v /\ Y = map (fun y => repeat y nx) v.

(** Everything a user reads from the raster agrees with its limits and its array shape. *)
Definition coords_coherent (s : raster) : Prop :=
  (exists p s', get_x s = Ok (p, s') /\ is_centers (xaxis (rgrid s)) (xbuf s' p)) /\
  (exists p s', get_y s = Ok (p, s') /\ is_centers (yaxis (rgrid s)) (xbuf s' p)) /\
  (exists X s', get_X s = Ok (X, s') /\ is_X (xaxis (rgrid s)) (rny s) X) /\
  (exists Y s', get_Y s = Ok (Y, s') /\ is_Y (yaxis (rgrid s)) (rnx s) Y).

(** a raster as constructed from a (non-empty) array and limits *)
Definition fresh (s : raster) : Prop :=
  exists ny nx v aflt xl yl xflt yflt, new_raster ny nx v aflt xl yl xflt yflt = Ok s /\
    (1 <= ny)%nat /\ (1 <= nx)%nat /\ length v = (ny * nx)%nat.

(** The array assigned by an operation is not empty and has its shape. *)
Definition op_ok (o : rop) : Prop :=
  match o with
  | RSetArray ny nx v _ => (1 <= ny)%nat /\ (1 <= nx)%nat /\ length v = (ny * nx)%nat
  | _ => True
  end.
(** Histories in which [shift] is never called while the raster holds a cached
    interpolator (that is after a two-dimensional sample, until the array is next assigned). *)
Inductive shift_safe : raster -> list rop -> raster -> Prop :=
| ss_nil s : shift_safe s [] s
| ss_cons s o s1 os s2 : op_ok o -> rstep o s = Ok s1 ->
    (match o with RShift _ _ _ => rzf s = None | _ => True end) ->
    shift_safe s1 os s2 -> shift_safe s (o :: os) s2.
(** ... nor are the limits set *)
Inductive sample_safe : raster -> list rop -> raster -> Prop :=
| sm_nil s : sample_safe s [] s
| sm_cons s o s1 os s2 : op_ok o -> rstep o s = Ok s1 ->
    (match o with RShift _ _ _ | RSetX _ _ | RSetY _ _ => rzf s = None | _ => True end) ->
    sample_safe s1 os s2 -> sample_safe s (o :: os) s2.

(** the value of cell (r, c), of a raster shifted by dz *)
Definition amount (d : option num) : R := match d with Some n => nval n | None => 0 end.

(** ** sampling *)
(** x = (1 - t) * center of cell k + t * center of cell k', k and k' neighbours among the n cells;
    within the range of the centers, t is between 0 and 1 *)
Definition brackets (a : axis) (n : nat) (x : R) (k k' : nat) (t : R) : Prop :=
  (k < n)%nat /\ (k' < n)%nat /\ (k' = S k \/ k = S k') /\
  x = (1 - t) * center a (Z.of_nat k) + t * center a (Z.of_nat k') /\
  (between (center a 0) (center a (Z.of_nat (n - 1))) x -> 0 <= t <= 1).
(** cell k is (one of) the nearest of n cells *)
Definition nearest_cell (a : axis) (n : nat) (x : R) (k : nat) : Prop :=
  (k < n)%nat /\ forall j, (j < n)%nat -> Rabs (x - center a (Z.of_nat k)) <= Rabs (x - center a (Z.of_nat j)).
(** no cell is nan *)
Definition no_nan (s : raster) : Prop := forall r c, (r < rny s)%nat -> (c < rnx s)%nat -> cellv s r c <> None.
(** the value part of a sample *)
Definition sampled (r : result (option R * raster)) : result (option R) := let* (v, _) := r in Ok v.
Definition result_map {A B} (f : A -> B) (r : result A) : result B := let* v := r in Ok (f v).
(** raster s' consists of the cells (r0..r1, c0..c1) of raster s, each with its coordinates and its value *)
Definition window (s s' : raster) (r0 r1 c0 c1 : nat) : Prop :=
  (r0 <= r1 < rny s)%nat /\ (c0 <= c1 < rnx s)%nat /\ rny s' = (r1 - r0 + 1)%nat /\ rnx s' = (c1 - c0 + 1)%nat
  /\ (forall k, center (xaxis (rgrid s')) k = center (xaxis (rgrid s)) (Z.of_nat c0 + k))
  /\ (forall k, center (yaxis (rgrid s')) k = center (yaxis (rgrid s)) (Z.of_nat r0 + k))
  /\ (forall r c, (r < rny s')%nat -> (c < rnx s')%nat -> cellv s' r c = cellv s (r0 + r) (c0 + c)).
Definition has_data (s : raster) (r c : nat) : Prop := (r < rny s)%nat /\ (c < rnx s)%nat /\ cellv s r c <> None.
(** ranges r0 <= r < r1, c0 <= c < c1 are the smallest that contain every data cell *)
Definition tight (s : raster) (r0 r1 c0 c1 : nat) : Prop :=
  (r0 < r1 <= rny s)%nat /\ (c0 < c1 <= rnx s)%nat /\
  (forall r c, has_data s r c -> (r0 <= r < r1)%nat /\ (c0 <= c < c1)%nat) /\
  (exists c, has_data s r0 c) /\ (exists c, has_data s (r1 - 1) c) /\ (exists r, has_data s r c0) /\ (exists r, has_data s r (c1 - 1)).
(** numpy refuses to add a float in place to an array of integers *)
Definition addable (flt : bool) (d : option num) : bool := match d with Some n => flt || negb (nfloat n) | None => true end.
(** the effect of the z limits of a crop on a value *)
Definition zcrop (z0 z1 : R) (v : option R) : option R :=
  match v with
  | Some x => if Rltb x (Rmin z0 z1) || Rltb (Rmax z0 z1) x then None else Some x
  | None => None
  end.

(** ** Grid objects *)
Definition gcoherent (s : gobj) : Prop :=
  (exists v s', gget_x s = Ok (v, s') /\ is_centers (xaxis (og s)) v) /\
  (exists v s', gget_y s = Ok (v, s') /\ is_centers (yaxis (og s)) v) /\
  (exists v s', gget_X s = Ok (v, s') /\ is_X (xaxis (og s)) (Z.to_nat (gny (og s))) v) /\
  (exists v s', gget_Y s = Ok (v, s') /\ is_Y (yaxis (og s)) (Z.to_nat (gnx (og s))) v).
(** histories in which the size is only set while no coordinates are cached *)
Inductive size_safe : gobj -> list gop -> gobj -> Prop :=
| gs_nil s : size_safe s [] s
| gs_cons s o s1 os s2 : gstep o s = Ok s1 ->
    (match o with GSetSize _ => ox s = None /\ oy s = None /\ oX s = None /\ oY s = None | _ => True end) ->
    size_safe s1 os s2 -> size_safe s (o :: os) s2.

(** ** reachable rasters: built from an array and limits, then used in any way allowed by [sample_safe] *)
Definition reached (s : raster) : Prop := exists s0 ops, fresh s0 /\ sample_safe s0 ops s.
(** shift, without the cache of the interpolator *)
Definition translated (s s' : raster) (dx dy dz : option num) : Prop :=
  rxlim s' = (fst (rxlim s) + amount dx, snd (rxlim s) + amount dx)
  /\ rylim s' = (fst (rylim s) + amount dy, snd (rylim s) + amount dy)
  /\ rny s' = rny s /\ rnx s' = rnx s
  /\ (forall r c, cellv s' r c = option_map (fun v => v + amount dz) (cellv s r c)).
