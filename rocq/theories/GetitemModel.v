(** Model of Raster.__getitem__ (src/glimpse/raster.py:669-692), of the constructor it calls and of what Raster.shift of the result does to the raster it was taken from.

    Arrays are lists of rows; nan is None.  Simplified: two-dimensional arrays in memory, limits as floats; coordinates that are cached in the raster are those that it would compute (C32 says when this holds). *)
From Verif Require Import Base HelpersModel GridModel.
Open Scope R_scope.

(** an index: an integer or a slice start:stop:step; other types raise IndexError (raster.py:674-675) *)
Inductive index := IInt (i : Z) | ISlice (start stop step : option Z) | IOther.

(** ** Slices of Python (PySlice_AdjustIndices of CPython; used by numpy for self.x[j] and self.array[i, j]) *)
Definition adjust (n : Z) (neg : bool) (i : Z) : Z :=
  if (i <? 0)%Z then (if (i + n <? 0)%Z then (if neg then -1 else 0)%Z else (i + n)%Z)
  else if (n <=? i)%Z then (if neg then n - 1 else n)%Z else i.
Definition positions (n : Z) (start stop step : option Z) : result (list Z) :=
  let s := match step with Some s => s | None => 1%Z end in
  if (s =? 0)%Z then Err ValueError else
  let neg := (s <? 0)%Z in
  let lo := match start with Some i => adjust n neg i | None => if neg then (n - 1)%Z else 0%Z end in
  let hi := match stop with Some i => adjust n neg i | None => if neg then (-1)%Z else n end in
  let count := if neg then (if (hi <? lo)%Z then ((lo - hi - 1) / - s + 1)%Z else 0%Z) else (if (lo <? hi)%Z then ((hi - lo - 1) / s + 1)%Z else 0%Z) in
  Ok (map (fun k => (lo + k * s)%Z) (Zrange count)).

(** raster.py:677-680: an integer i is the slice i:i+1 *)
Definition as_slice (ix : index) : result (option Z * option Z * option Z) :=
  match ix with IInt i => Ok (Some i, Some (i + 1)%Z, None) | ISlice a b s => Ok (a, b, s) | IOther => Err IndexError end.
(** raster.py:682-685: the cell size, multiplied by steps greater than 1 ([if step and step > 1]) *)
Definition step_size (d : R) (step : option Z) : R := match step with Some s => if (1 <? s)%Z then d * IZR s else d | None => d end.

Definition zat {A} (d : A) (l : list A) (k : Z) : A := nth (Z.to_nat k) l d.

(** raster.py:686-691: coordinates of one axis: self.x[j], and limits instead if these are fewer than 3.  [x]: self.x *)
Definition sub_coordinates (d : R) (x : list R) (ps : list Z) (step : option Z) : result (list R) :=
  let v := map (zat 0 x) ps in
  if (length v <? 3)%nat then
    match v with
    | [] => Err IndexError                    (* x[[0, -1]] *)
    | x0 :: _ => Ok [x0 - / 2 * step_size d step; last v 0 + / 2 * step_size d step]
    end
  else Ok v.

(** a raster: its rows, its grid and the coordinates that are cached *)
Record sraster := mksraster { s_rows : list (list (option R)); s_grid : grid; s_x : option (list R); s_y : option (list R); s_datetime : option Z; s_crs : option Z }.

(** property x (raster.py:138-151) *)
Definition sx (r : sraster) : result (list R) := match s_x r with Some v => Ok v | None => centers (xaxis (s_grid r)) end.
Definition sy (r : sraster) : result (list R) := match s_y r with Some v => Ok v | None => centers (yaxis (s_grid r)) end.

(** Raster(array, x=x, y=y, datetime=datetime) (raster.py:635-659) *)
Definition new_sraster (rows : list (list (option R))) (x y : list R) (datetime : option Z) : result sraster :=
  let ny := Z.of_nat (length rows) in let nx := Z.of_nat (length (hd [] rows)) in
  let* (xl, cx, _) := parse_xy nx ny (CVec x) false in
  let* (yl, cy, _) := parse_xy nx ny (CVec y) true in
  Ok (mksraster rows (mkgrid nx ny xl yl) cx cy datetime None).

(** raster.py:669-692, for a pair of indices; a single index i stands for the pair (i, slice(None)) *)
Definition getitem (r : sraster) (i j : index) : result sraster :=
  let* (i0, i1, istep) := as_slice i in
  let* (j0, j1, jstep) := as_slice j in
  let* x := sx r in
  let* cols := positions (gnx (s_grid r)) j0 j1 jstep in
  let* y := sy r in
  let* rows := positions (gny (s_grid r)) i0 i1 istep in
  let* cx := sub_coordinates (fst (gd (s_grid r))) x cols jstep in
  let* cy := sub_coordinates (snd (gd (s_grid r))) y rows istep in
  new_sraster (map (fun p => map (zat None (zat [] (s_rows r) p)) cols) rows) cx cy (s_datetime r).
Definition getitem1 (r : sraster) (i : index) : result sraster := getitem r i (ISlice None None None).

(** ** Memory
    self.x[j] is a view of the coordinates cached in the raster, and the constructor keeps it (raster.py:249-267) if it has 3 elements or more.  Raster.shift(dx) of the result adds to it in place (raster.py:269-276).  [parent_x_after]: the coordinates cached in the raster after this. *)
Definition add_at (dx : R) (ps : list Z) (x : list R) : list R := map (fun k => zat 0 x (Z.of_nat k) + (if existsb (Z.eqb (Z.of_nat k)) ps then dx else 0)) (seq 0 (length x)).
Definition parent_x_after (dx : R) (x : list R) (cols : list Z) : list R := if (length cols <? 3)%nat then x else add_at dx cols x.
