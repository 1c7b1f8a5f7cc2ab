(** Specification vocabulary used in the statements about helpers.py.  Only
    argument types and the vector operations [along o d t = o + t d] and
    [vsub a b = a - b] are taken from the model files. *)
From Coq Require Import Sorting.Sorted.
From Verif Require Import Base HelpersModel RayModel.
Open Scope Z_scope.

(** ** boolean_split, format_list *)
(** What each [include] mode returns, given the maximal runs tagged with their mask value. *)
Definition select {A} (inc : include_mode) (runs : list (bool * list A)) : list (list A) :=
  match inc with
  | IncAll => map snd runs
  | IncTrue => map snd (filter (fun r => fst r) runs)
  | IncFalse => map snd (filter (fun r => negb (fst r)) runs)
  | IncOther => []
  end.

(** the list denoted by an argument *)
Definition arg_items {A} (x : fl_arg A) : list A :=
  match x with FNone => [] | FScalar a => [a] | FList l => l | FIter l => l end.

(** ** datetimes *)
(** Element [i] is nearest to [g]; ties go to the earliest. *)
Definition first_nearest (ts : list Z) (g : Z) (i : nat) : Prop :=
  exists t, nth_error ts i = Some t /\
    (forall j u, nth_error ts j = Some u -> Z.abs (g - t) <= Z.abs (g - u)) /\
    (forall j u, (j < i)%nat -> nth_error ts j = Some u -> Z.abs (g - t) < Z.abs (g - u)).

(** optional start / end bounds *)
Definition opt_ge (s : option Z) (t : Z) : bool := match s with Some s => s <=? t | None => true end.

Definition opt_le (e : option Z) (t : Z) : bool := match e with Some e => t <=? e | None => true end.

(** range of the snap targets *)
Definition eff_start (ts : list Z) (start : option Z) (d : Z) : Z :=
  match start with Some s => s | None => hd 0 ts - d end.

Definition eff_stop (ts : list Z) (stop : option Z) (d : Z) : Z :=
  match stop with Some e => e | None => last ts 0 + d end.

(** Datetime [i] is within the bounds, and is the nearest to a target
    (origin + k d) in range, at most [tol] away. *)
Definition snap_selected (ts : list Z) (start stop : option Z) (d tol origin : Z) (i : nat) : Prop :=
  exists t, nth_error ts i = Some t /\ opt_ge start t = true /\ opt_le stop t = true /\
  exists g, (g - origin) mod d = 0 /\ eff_start ts start d <= g <= eff_stop ts stop d /\
    first_nearest ts g i /\ Z.abs (g - t) <= tol.

Open Scope R_scope.
(** ** boxes *)
(** every row has [n] elements *)
Definition rect {A} (n : nat) (rows : list (list A)) : Prop := forall r, In r rows -> length r = n.

(** bounds of a box; a nan bound is no bound *)
Definition ge_opt (lo : option R) (x : R) : Prop := match lo with Some l => l <= x | None => True end.

Definition le_opt (hi : option R) (x : R) : Prop := match hi with Some h => x <= h | None => True end.

Definition in_shape (nr nc : Z) (rows cols : list Z) : Prop :=
  forall r c, In (r, c) (combine rows cols) -> (0 <= r < nr)%Z /\ (0 <= c < nc)%Z.

(** the values of the points at row [r], column [c], in order *)
Definition cell_values (rows cols : list Z) (values : list R) (r c : Z) : list R :=
  map snd (filter (fun p => (fst (fst p) =? r)%Z && (snd (fst p) =? c)%Z)
                  (combine (combine rows cols) values)).

(** ** rays and clipping *)
Definition in_closed_box (n : nat) (lo hi p : list R) : Prop :=
  forall i, (i < n)%nat -> nth i lo 0 <= nth i p 0 <= nth i hi 0.

Definition in_open_box (n : nat) (lo hi p : list R) : Prop :=
  forall i, (i < n)%nat -> nth i lo 0 < nth i p 0 < nth i hi 0.

(** the point o + t d is in the closed box *)
Definition ray_in_box (n : nat) (o d lo hi : list R) (t : R) : Prop :=
  forall i, (i < n)%nat -> nth i lo 0 <= nth i o 0 + t * nth i d 0 <= nth i hi 0.

(** [t] is where the segment from the outside point [o] to [h] enters the box. *)
Definition enters_at (n : nat) (lo hi o h : list R) (t : R) : Prop :=
  0 < t < 1 /\ in_closed_box n lo hi (along o (vsub h o) t)
  /\ (forall s, 0 <= s < t -> ~ in_closed_box n lo hi (along o (vsub h o) s)).

(** [t] is where the segment from the inside point [o] to [e] leaves the box. *)
Definition leaves_at (n : nat) (lo hi o e : list R) (t : R) : Prop :=
  0 < t < 1 /\ in_closed_box n lo hi (along o (vsub e o) t)
  /\ (forall s, t < s <= 1 -> ~ in_closed_box n lo hi (along o (vsub e o) s)).

(** Specification of clipping: walk over the maximal runs of inside / outside vertices;
    every inside run appears in the output, preceded by [en] and followed by
    [ex], which are what [entry] allows between the vertex before the run (if any) and its
    first vertex, and [exit] between its last vertex and the vertex after it (if any). *)
Definition next_vertex (rest : list (bool * list (list R))) : option (list R) :=
  match rest with [] => None | r :: _ => Some (hd [] (snd r)) end.

Inductive clipped (entry : option (list R) -> list R -> list (list R) -> Prop) (exit : list R -> option (list R) -> list (list R) -> Prop) :
  option (list R) -> list (bool * list (list R)) -> list (list (list R)) -> Prop :=
| clipped_nil prev : clipped entry exit prev [] []
| clipped_out prev s rest out :
    clipped entry exit (Some (last s [])) rest out ->
    clipped entry exit prev ((false, s) :: rest) out
| clipped_in prev s rest out en ex :
    entry prev (hd [] s) en ->
    exit (last s []) (next_vertex rest) ex ->
    clipped entry exit (Some (last s [])) rest out ->
    clipped entry exit prev ((true, s) :: rest) ((en ++ s ++ ex) :: out).

(** As documented: the point where the line enters the box is inserted before, the one where it leaves after the run. *)
Definition entry_point (n : nat) (lo hi : list R) (prev : option (list R)) (h : list R) (en : list (list R)) : Prop :=
  match prev with
  | None => en = []
  | Some o => exists t, enters_at n lo hi o h t /\ en = [along o (vsub h o) t]
  end.
Definition exit_point (n : nat) (lo hi : list R) (l : list R) (next : option (list R)) (ex : list (list R)) : Prop :=
  match next with
  | None => ex = []
  | Some e => exists t, leaves_at n lo hi l e t /\ ex = [along l (vsub e l) t]
  end.

(** What is inserted for any vertices.  Entry: [a] is where the box is reached; nothing is inserted if that is at the vertex [h] itself
    or the edge lies in the plane of the lower x face. *)
Definition entry_inserted (n : nat) (lo hi : list R) (prev : option (list R)) (h : list R) (en : list (list R)) : Prop :=
  match prev with
  | None => en = []
  | Some o => exists a, 0 < a <= 1 /\ in_closed_box n lo hi (along o (vsub h o) a) /\
      (forall s, 0 <= s < a -> ~ in_closed_box n lo hi (along o (vsub h o) s)) /\
      let lost := nth 0 o 0 = nth 0 lo 0 /\ nth 0 h 0 = nth 0 lo 0 in
      ((a < 1 /\ ~ lost /\ en = [along o (vsub h o) a]) \/ ((a = 1 \/ lost) /\ en = []))
  end.
(** Exit: [b] is where the box is left; nothing is inserted if that is at the vertex [l] itself, if the line through the edge comes
    into the box at [l] (so that [l] is on the boundary) and the edge is not in the plane of the lower x face, or if the edge lies in the plane of the upper x face. *)
Definition exit_inserted (n : nat) (lo hi : list R) (l : list R) (next : option (list R)) (ex : list (list R)) : Prop :=
  match next with
  | None => ex = []
  | Some e => exists b, 0 <= b < 1 /\ in_closed_box n lo hi (along l (vsub e l) b) /\
      (forall s, b < s <= 1 -> ~ in_closed_box n lo hi (along l (vsub e l) s)) /\
      let lost := ((forall s, s < 0 -> ~ in_closed_box n lo hi (along l (vsub e l) s)) /\ ~ (nth 0 l 0 = nth 0 lo 0 /\ nth 0 e 0 = nth 0 lo 0)) \/
                  (nth 0 l 0 = nth 0 hi 0 /\ nth 0 e 0 = nth 0 hi 0) in
      ((0 < b /\ ~ lost /\ ex = [along l (vsub e l) b]) \/ ((b = 0 \/ lost) /\ ex = []))
  end.

