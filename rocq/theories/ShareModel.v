(** Model of memory shared between rasters and grids: Raster.__init__ (src/glimpse/raster.py:635-659), Raster.__getitem__ (669-692), Raster.grid (882-885), Raster.copy (902-909) and Grid.copy (286-288),
    Raster.resample (1070-1081), Raster.shift (1187-1217) and Grid.shift (302-310), and the setters of xlim, ylim (88-109) and array (844-858), for any number of objects.

    numpy arrays are references to buffers: limits, coordinate vectors and values are in three heaps; an array that is a slice of another is a view, the positions in the buffer of the other.
    Simplified: arrays of floats in memory; nan is None.  The cached matrices X and Y (always copies, numpy.tile) and the interpolator (C31) are left out: rasters are not sampled in two dimensions before they are shifted.
    What is sampled by resample is a parameter. *)
From Verif Require Import Base HelpersModel GridModel GetitemModel.
Open Scope R_scope.

Record view := mkview { v_buf : nat; v_pos : list nat }.
Record robj := mkrobj {
  o_nx : Z; o_ny : Z;                              (* size *)
  o_xl : nat; o_yl : nat;                          (* _xlim, _ylim: buffers of limits *)
  o_x : option view; o_y : option view;            (* _x, _y *)
  o_cells : option (nat * list (list nat))         (* _array: buffer and the positions of each row; None: a Grid *) }.
Record world := mkworld { w_lims : list (R * R); w_crds : list (list R); w_vals : list (list (option R)); w_objs : list robj }.

Definition set_o (w : world) (k : nat) (o : robj) : world := mkworld (w_lims w) (w_crds w) (w_vals w) (set_nth k o (w_objs w)).
Definition add_o (w : world) (o : robj) : world := mkworld (w_lims w) (w_crds w) (w_vals w) (w_objs w ++ [o]).
(** new buffers *)
Definition new_lim (w : world) (l : R * R) : nat * world := (length (w_lims w), mkworld (w_lims w ++ [l]) (w_crds w) (w_vals w) (w_objs w)).
Definition new_crd (w : world) (l : list R) : view * world := (mkview (length (w_crds w)) (seq 0 (length l)), mkworld (w_lims w) (w_crds w ++ [l]) (w_vals w) (w_objs w)).
(** rows of [n] cells each of a new array *)
Fixpoint row_positions {A} (from : nat) (rows : list (list A)) : list (list nat) :=
  match rows with [] => [] | r :: rest => seq from (length r) :: row_positions (from + length r) rest end.
Definition new_val (w : world) (rows : list (list (option R))) : (nat * list (list nat)) * world :=
  ((length (w_vals w), row_positions 0 rows), mkworld (w_lims w) (w_crds w) (w_vals w ++ [concat rows]) (w_objs w)).

(** What a view contains. *)
Definition lim_at (w : world) (b : nat) : R * R := nth b (w_lims w) (0, 0).
Definition crd_at (w : world) (v : view) : list R := map (fun p => nth p (nth (v_buf v) (w_crds w) []) 0) (v_pos v).
Definition val_at (w : world) (c : nat * list (list nat)) : list (list (option R)) := map (map (fun p => nth p (nth (fst c) (w_vals w) []) None)) (snd c).

Definition o_xaxis (w : world) (o : robj) : axis := (lim_at w (o_xl o), o_nx o).
Definition o_yaxis (w : world) (o : robj) : axis := (lim_at w (o_yl o), o_ny o).
(** properties x and y (raster.py:138-151, 160-173): [x] tells which *)
Definition cached (x : bool) (o : robj) : option view := if x then o_x o else o_y o.
Definition o_axis (x : bool) (w : world) (o : robj) : axis := if x then o_xaxis w o else o_yaxis w o.
Definition with_cached (x : bool) (o : robj) (v : option view) : robj :=
  if x then mkrobj (o_nx o) (o_ny o) (o_xl o) (o_yl o) v (o_y o) (o_cells o) else mkrobj (o_nx o) (o_ny o) (o_xl o) (o_yl o) (o_x o) v (o_cells o).
Definition get_c (x : bool) (k : nat) (w : world) : world * result view :=
  match nth_error (w_objs w) k with
  | None => (w, Err OtherError)
  | Some o =>
    match cached x o with
    | Some v => (w, Ok v)
    | None => match centers (o_axis x w o) with
              | Err e => (w, Err e)
              | Ok l => let (v, w) := new_crd w l in (set_o w k (with_cached x o (Some v)), Ok v)
              end
    end
  end.

(** ** In place addition *)
Definition at_positions {A} (f : A -> A) (ps : list nat) (l : list A) : list A :=
  map (fun q : nat * A => if existsb (Nat.eqb (fst q)) ps then f (snd q) else snd q) (combine (seq 0 (length l)) l).
Definition oplus (d : R) (v : option R) : option R := option_map (fun x => x + d) v.
Definition shift_lim (b : nat) (d : R) (w : world) : world :=
  mkworld (set_nth b (fst (lim_at w b) + d, snd (lim_at w b) + d) (w_lims w)) (w_crds w) (w_vals w) (w_objs w).
Definition shift_crd (v : view) (d : R) (w : world) : world :=
  mkworld (w_lims w) (set_nth (v_buf v) (at_positions (fun x => x + d) (v_pos v) (nth (v_buf v) (w_crds w) [])) (w_crds w)) (w_vals w) (w_objs w).
Definition change_val (f : option R -> option R) (b : nat) (ps : list nat) (w : world) : world :=
  mkworld (w_lims w) (w_crds w) (set_nth b (at_positions f ps (nth b (w_vals w) [])) (w_vals w)) (w_objs w).
(** raster.py:269-282, one axis *)
Definition shift_axis (x : bool) (o : robj) (d : option R) (w : world) : world :=
  match d with
  | None => w
  | Some d => let w := shift_lim (if x then o_xl o else o_yl o) d w in match cached x o with Some v => shift_crd v d w | None => w end
  end.

(** ** Operations on the object number k.  New objects get the next number. *)
Inductive op :=
| ONew (rows : list (list (option R))) (x y : list R)      (* Raster(rows, x, y), from arrays that nothing else refers to *)
| OWith (k : nat) (rows : list (list (option R)))          (* Raster(rows, x=k.xlim, y=k.ylim) *)
| OGrid (k : nat)                                          (* k.grid *)
| OCopy (k : nat)                                          (* k.copy() *)
| OSub (k : nat) (i j : index)                             (* k[i, j] *)
| ORead (k : nat) (x : bool)                               (* k.x, k.y *)
| OLim (k : nat) (x : bool) (l : list R)                   (* k.xlim = l, k.ylim = l *)
| OCells (k : nat) (rows : list (list (option R)))         (* k.array = rows *)
| OCell (k : nat) (r c : nat) (v : option R)               (* k.array[r, c] = v *)
| OShift (k : nat) (dx dy dz : option R)                   (* k.shift(dx, dy, dz) *)
| OResample (k g : nat) (rows : list (list (option R))).   (* k.resample(g); [rows]: what is sampled *)

Definition req2 (a b : R * R) : bool := Reqb (fst a) (fst b) && Reqb (snd a) (snd b).
Definition bare (o : robj) (xl yl : nat) (c : option (nat * list (list nat))) : robj := mkrobj (o_nx o) (o_ny o) xl yl None None c.
Definition size_x {A} (rows : list (list A)) : Z := Z.of_nat (length (hd [] rows)).
Definition size_y {A} (rows : list (list A)) : Z := Z.of_nat (length rows).
(** setter of xlim, ylim (raster.py:92-97, 104-109) with an array that may be that of another object: [b] is its buffer *)
Definition with_lim (x : bool) (o : robj) (b : nat) : robj :=
  if x then mkrobj (o_nx o) (o_ny o) b (o_yl o) None (o_y o) (o_cells o) else mkrobj (o_nx o) (o_ny o) (o_xl o) b (o_x o) None (o_cells o).
Definition bind_lim (x : bool) (o : robj) (w : world) (b : nat) : robj :=
  if req2 (lim_at w (if x then o_xl o else o_yl o)) (lim_at w b) then o else with_lim x o b.
(** setter of array (raster.py:844-858) *)
Definition with_cells (o : robj) (c : nat * list (list nat)) (nx ny : Z) : robj :=
  if ((nx =? o_nx o) && (ny =? o_ny o))%Z then mkrobj nx ny (o_xl o) (o_yl o) (o_x o) (o_y o) (Some c) else mkrobj nx ny (o_xl o) (o_yl o) None None (Some c).

(** the elements at positions (numpy checks that they exist: [positions] returns none that do not) *)
Definition picked {A} (ps : list Z) (l : list A) : list A := flat_map (fun p => match nth_error l (Z.to_nat p) with Some a => [a] | None => [] end) ps.
(** raster.py:669-692; the reads of x and y are kept if it fails later *)
Definition step_sub (k : nat) (i j : index) (w : world) : world * result unit :=
  match nth_error (w_objs w) k with
  | None => (w, Err OtherError)
  | Some o =>
    match o_cells o with
    | None => (w, Err TypeError)
    | Some c =>
      match as_slice i, as_slice j with
      | Ok (i0, i1, istep), Ok (j0, j1, jstep) =>
        let d := gd (mkgrid (o_nx o) (o_ny o) (lim_at w (o_xl o)) (lim_at w (o_yl o))) in
        let (w, vx) := get_c true k w in
        match vx with Err e => (w, Err e) | Ok vx =>
        match positions (o_nx o) j0 j1 jstep with Err e => (w, Err e) | Ok cols =>
        let (w, vy) := get_c false k w in
        match vy with Err e => (w, Err e) | Ok vy =>
        match positions (o_ny o) i0 i1 istep with Err e => (w, Err e) | Ok rows =>
        match sub_coordinates (fst d) (crd_at w vx) cols jstep, sub_coordinates (snd d) (crd_at w vy) rows istep with
        | Ok cx, Ok cy =>
          let nx := Z.of_nat (length cols) in let ny := Z.of_nat (length rows) in
          match parse_xy nx ny (CVec cx) false, parse_xy nx ny (CVec cy) true with
          | Ok (xl, kx, _), Ok (yl, ky, _) =>
            let (bx, w) := new_lim w xl in
            let (by_, w) := new_lim w yl in
            (* self.x[j] is a view, which the constructor keeps; limits are new *)
            let part (v : view) (ps : list Z) := mkview (v_buf v) (picked ps (v_pos v)) in
            let cells := map (fun r => picked cols (nth (Z.to_nat r) (snd c) [])) rows in
            (add_o w (mkrobj nx ny bx by_ (match kx with Some _ => Some (part vx cols) | None => None end) (match ky with Some _ => Some (part vy rows) | None => None end) (Some (fst c, cells))), Ok tt)
          | Err e, _ => (w, Err e)
          | _, Err e => (w, Err e)
          end
        | Err e, _ => (w, Err e)
        | _, Err e => (w, Err e)
        end end end end end
      | Err e, _ => (w, Err e)
      | _, Err e => (w, Err e)
      end
    end
  end.

Definition step_new (rows : list (list (option R))) (x y : list R) (w : world) : world * result unit :=
  match parse_xy (size_x rows) (size_y rows) (CVec x) false, parse_xy (size_x rows) (size_y rows) (CVec y) true with
  | Ok (xl, kx, _), Ok (yl, ky, _) =>
    let (c, w) := new_val w rows in
    let (bx, w) := new_lim w xl in
    let (by_, w) := new_lim w yl in
    let (vx, w) := match kx with Some l => let (v, w) := new_crd w l in (Some v, w) | None => (None, w) end in
    let (vy, w) := match ky with Some l => let (v, w) := new_crd w l in (Some v, w) | None => (None, w) end in
    (add_o w (mkrobj (size_x rows) (size_y rows) bx by_ vx vy (Some c)), Ok tt)
  | Err e, _ => (w, Err e)
  | _, Err e => (w, Err e)
  end.

(** raster.py:1079-1081, after the array is sampled *)
Definition step_resample (k g : nat) (rows : list (list (option R))) (w : world) : world * result unit :=
  let (w, _) := get_c true g w in
  let (w, _) := get_c false g w in
  match nth_error (w_objs w) k, nth_error (w_objs w) g with
  | Some o, Some og =>
    match o_cells o with
    | None => (w, Err AttributeError)
    | Some _ =>
      let (c, w) := new_val w rows in
      let w := set_o w k (bind_lim false (bind_lim true (with_cells o c (size_x rows) (size_y rows)) w (o_xl og)) w (o_yl og)) in
      let (w, vx) := get_c true g w in
      match vx with Err e => (w, Err e) | Ok vx =>
      let (w, vy) := get_c false g w in
      match vy with Err e => (w, Err e) | Ok vy =>
      match nth_error (w_objs w) k with
      | Some o => (set_o w k (with_cached false (with_cached true o (Some vx)) (Some vy)), Ok tt)
      | None => (w, Err OtherError)
      end end end
    end
  | _, _ => (w, Err OtherError)
  end.

Definition step (p : op) (w : world) : world * result unit :=
  match p with
  | ONew rows x y => step_new rows x y w
  | OResample k g rows => step_resample k g rows w
  | OSub k i j => step_sub k i j w
  | ORead k x => let (w, v) := get_c x k w in (w, match v with Ok _ => Ok tt | Err e => Err e end)
  | OWith k _ | OGrid k | OCopy k | OLim k _ _ | OCells k _ | OCell k _ _ _ | OShift k _ _ _ =>
    match nth_error (w_objs w) k with
    | None => (w, Err OtherError)
    | Some o =>
      match p, o_cells o with
      (* the arrays xlim and ylim of k are kept (raster.py:264-267, 230-239: numpy.atleast_1d of an array is the array) *)
      | OWith _ rows, _ => let (c, w) := new_val w rows in (add_o w (mkrobj (size_x rows) (size_y rows) (o_xl o) (o_yl o) None None (Some c)), Ok tt)
      | OGrid _, Some _ => (add_o w (bare o (o_xl o) (o_yl o) None), Ok tt)
      | OGrid _, None => (w, Err AttributeError)
      | OCopy _, c =>
        let (bx, w1) := new_lim w (lim_at w (o_xl o)) in
        let (by_, w2) := new_lim w1 (lim_at w (o_yl o)) in
        match c with
        | Some c => let (c, w3) := new_val w2 (val_at w c) in (add_o w3 (bare o bx by_ (Some c)), Ok tt)
        | None => (add_o w2 (bare o bx by_ None), Ok tt)
        end
      | OLim _ x l, _ =>
        match parse_limits l with
        | Err e => (w, Err e)
        | Ok l => if req2 (lim_at w (if x then o_xl o else o_yl o)) l then (w, Ok tt)
                  else let (b, w) := new_lim w l in (set_o w k (with_lim x o b), Ok tt)
        end
      | OCells _ _, None => (w, Err AttributeError)
      | OCells _ rows, Some _ => let (c, w) := new_val w rows in (set_o w k (with_cells o c (size_x rows) (size_y rows)), Ok tt)
      | OCell _ r q v, Some c =>
        match nth_error (nth r (snd c) []) q with
        | Some b => (change_val (fun _ => v) (fst c) [b] w, Ok tt)
        | None => (w, Err IndexError)
        end
      | OCell _ _ _ _, None => (w, Err AttributeError)
      | OShift _ _ _ (Some _), None => (w, Err TypeError)       (* Grid.shift has no dz *)
      | OShift _ dx dy dz, c =>
        let w := shift_axis false o dy (shift_axis true o dx w) in
        (match dz, c with Some d, Some c => change_val (oplus d) (fst c) (concat (snd c)) w | _, _ => w end, Ok tt)
      | _, _ => (w, Err OtherError)
      end
    end
  end.
Definition start : world := mkworld [] [] [] [].
Definition run (h : list op) : world := fold_left (fun w p => fst (step p w)) h start.

(** ** What is seen of the object number k *)
Definition limits (w : world) (k : nat) : option ((R * R) * (R * R)) := option_map (fun o => (lim_at w (o_xl o), lim_at w (o_yl o))) (nth_error (w_objs w) k).
(** k.x and k.y *)
Definition coordinates (x : bool) (w : world) (k : nat) : option (result (list R)) :=
  option_map (fun o => match cached x o with Some v => Ok (crd_at w v) | None => centers (o_axis x w o) end) (nth_error (w_objs w) k).
Definition values (w : world) (k : nat) : option (option (list (list (option R)))) := option_map (fun o => option_map (val_at w) (o_cells o)) (nth_error (w_objs w) k).
