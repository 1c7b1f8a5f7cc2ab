(** Model of helpers.gaussian_filter, helpers.maximum_filter (helpers.py:334-418) and Raster.fill_crevasses (raster.py:1264-1289).

    Cells of an array are numbered 0 .. n - 1; a value is a number or nan (None, which also stands for inf).  scipy.ndimage's filters are given by
    parameters: the weight [w i j] of cell j in the gaussian average for cell i (not negative, positive in its window; scipy extends arrays
    beyond their borders by cells of the array, so that a weight sums up all copies of a cell), and the list [near i] of the cells in the window of the
    maximum filter. *)
From Verif Require Import Base.
Open Scope R_scope.

Definition array := nat -> option R.
(** nan times a weight is nan *)
Definition term (w : R) (v : option R) : option R := match v with Some x => Some (w * x) | None => if Reqb w 0 then Some 0 else None end.
Definition oplus (a b : option R) : option R := match a, b with Some x, Some y => Some (x + y) | _, _ => None end.
(** scipy.ndimage.filters.gaussian_filter: the result has the type of the array, so integers are truncated *)
Definition gauss (n : nat) (w : nat -> nat -> R) (integer : bool) (a : array) (i : nat) : option R :=
  match fold_right oplus (Some 0) (map (fun j => term (w i j) (a j)) (seq 0 n)) with
  | Some s => Some (if integer then IZR (Rtrunc s) else s)
  | None => None end.
Definition odiv (a b : option R) : option R := match a, b with Some x, Some y => if Reqb y 0 then None else Some (x / y) | _, _ => None end.
(** helpers.py:365-375.  Without mask all cells are included, and the filter is that of scipy *)
Definition gaussian_filter (n : nat) (w : nat -> nat -> R) (integer : bool) (mask : option (nat -> bool)) (fill : bool) (a : array) : array :=
  match mask with
  | None => gauss n w integer a
  | Some mask =>
    let xf := gauss n w integer (fun j => if mask j then a j else Some 0) in
    let xs := gauss n w integer (fun j => if mask j then Some 1 else Some 0) in
    fun i => if (negb fill && negb (mask i))%bool then a i else odiv (xf i) (xs i)
  end.

(** scipy.ndimage.filters.maximum_filter: the result is unspecified when there are nan in the window *)
Fixpoint all_some (l : list (option R)) : option (list R) :=
  match l with [] => Some [] | Some x :: r => option_map (cons x) (all_some r) | None :: _ => None end.
Definition maxf (near : nat -> list nat) (junk : nat -> option R) (a : array) (i : nat) : option R :=
  match all_some (map a (near i)) with Some (x :: r) => Some (fold_left Rmax r x) | _ => junk i end.
(** helpers.py:408-418; [low]: dtype_min, the least (finite) number of the data type *)
Definition is_low (low : R) (v : option R) : bool := match v with Some x => Reqb x low | None => false end.
Definition maximum_filter (near : nat -> list nat) (junk : nat -> option R) (low : R) (mask : option (nat -> bool)) (fill : bool) (a : array) : array :=
  match mask with
  | None => maxf near junk a
  | Some mask =>
    let x := maxf near junk (fun j => if mask j then a j else Some low) in
    let mask' := if fill then fun i => is_low low (x i) else fun i => negb (mask i) in
    fun i => if mask' i then a i else x i
  end.
(** raster.py:1282-1289 *)
Definition fill_crevasses (n : nat) (w : nat -> nat -> R) (near : nat -> list nat) (junk : nat -> option R) (low : R) (integer : bool)
    (mask : option (nat -> bool)) (fill : bool) (a : array) : array :=
  gaussian_filter n w integer mask fill (maximum_filter near junk low mask fill a).
