(** Model of bresenham_circle (helpers.py:942-1020) and Raster.fill_circle (raster.py:1219-1245).

    Radii are integers (fill_circle rounds them; they may be floats with integer values), centers are integer positions. *)
From Verif Require Import Base.
Open Scope Z_scope.

Definition zpt := (Z * Z)%type.
(** helpers.py:970 *)
Definition octant_size (r : Z) : Z := Rfloor ((sqrt 2 * (IZR r - 1) + 4) / 2).
(** one assignment [xy[k, :] = p]; [None] is a row of nan *)
Definition put (k : Z) (p : zpt) (xy : list (option zpt)) : list (option zpt) := set_nth (Z.to_nat k) (Some p) xy.
(** helpers.py:979-993 (i = 1) and 1001-1016: the eight octants, [m] = octant_size *)
Definition put8 (c : zpt) (m i x y : Z) (xy : list (option zpt)) : list (option zpt) :=
  let (x0, y0) := c in
  let xy := put (i - 1) (x0 + x, y0 + y) xy in
  let xy := put (8 * m - i) (x0 - x, y0 + y) xy in
  let xy := put (4 * m - i) (x0 + x, y0 - y) xy in
  let xy := put (4 * m + i - 1) (x0 - x, y0 - y) xy in
  let xy := put (2 * m - i) (x0 + y, y0 + x) xy in
  let xy := put (6 * m + i - 1) (x0 - y, y0 + x) xy in
  let xy := put (2 * m + i - 1) (x0 + y, y0 - x) xy in
  put (6 * m - i) (x0 - y, y0 - x) xy.
(** helpers.py:994-1016: [n] more passes, the next one is number [i] *)
Fixpoint circle_loop (n : nat) (c : zpt) (m i x y f dx dy : Z) (xy : list (option zpt)) : list (option zpt) :=
  match n with
  | O => xy
  | S n =>
    let '(y, dy, f) := if 0 <? f then (y - 1, dy + 2, f + (dy + 2)) else (y, dy, f) in
    let x := x + 1 in
    let dx := dx + 2 in
    let f := f + dx in
    circle_loop n c m (i + 1) x y f dx dy (put8 c m i x y xy)
  end.
(** helpers.py:1018: whether the coordinates of two rows differ by something that does not add up to 0 (nan does not) *)
Definition moved (p q : option zpt) : bool :=
  match p, q with Some (a, b), Some (c, d) => negb ((c - a) + (d - b) =? 0) | _, _ => true end.
(** helpers.py:1017-1019 *)
Fixpoint moves (p : option zpt) (l : list (option zpt)) : list (option zpt) :=
  match l with [] => [] | q :: r => if moved p q then q :: moves q r else moves q r end.
Definition drop_duplicates (l : list (option zpt)) : list (option zpt) := match l with [] => [] | p :: r => p :: moves p r end.
(** the array before duplicates are removed, helpers.py:968-1016: numpy.full refuses negative sizes *)
Definition circle_path (c : zpt) (r : Z) : result (list (option zpt)) :=
  let m := octant_size r in
  if 8 * m <? 0 then Err ValueError else
  if 8 * m =? 0 then Err IndexError else
  let xy := repeat None (Z.to_nat (8 * m)) in
  let xy := put8 c m 1 0 r xy in
  Ok (circle_loop (Z.to_nat (m - 1)) c m 2 0 r (1 - r) 1 (-2 * r) xy).
Definition bresenham_circle (c : zpt) (r : Z) : result (list (option zpt)) := let* l := circle_path c r in Ok (drop_duplicates l).

(** ** Raster.fill_circle.  [row], [col]: the cell of the center (raster.py:1231); [d]: cell size in x; arrays are rows of cells. *)
Definition filled (nx ny : Z) (xyi : list zpt) (row col : Z) : bool :=
  let xb := map fst (filter (fun p => snd p =? row) xyi) in
  match xb with
  | [] => false
  | a :: r => (Z.max (fold_left Z.min r a) 0 <=? col) && (col <=? Z.min (fold_left Z.max r a) (nx - 1)) && (-1 <? row) && (row <? ny)
  end%bool.
(** raster.py:1231-1245.  The rows of nan that [astype(int)] would turn into numbers do not occur (proved). *)
Definition fill_circle {V} (nx ny : Z) (row col : Z) (radius d : R) (value : V) (array : Z -> Z -> V) : result (Z -> Z -> V) :=
  if Reqb d 0 then Err OtherError else
  let* xy := bresenham_circle (col, row) (Rround (radius / d)) in
  let xyi := concat (map (fun p => match p with Some q => [q] | None => [] end) xy) in
  Ok (fun i j => if filled nx ny xyi i j then value else array i j).
