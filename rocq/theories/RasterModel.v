(** Model of the stateful part of Raster (src/glimpse/raster.py): cached
    coordinates, cached interpolator, and the methods that modify them.

    Buffers.  Coordinate vectors and value arrays live in two heaps of
    mutable buffers, so that in-place operations ([+=]) are seen through every
    reference to the buffer.  The interpolator of scipy (1.4.1, poetry.lock:946)
    keeps [numpy.asarray(points)] and [values], that is references (views) and not
    copies, unless the values are integers, which it converts ([astype]).

    Simplified: two dimensional arrays in memory (no file, no colour bands);
    cached coordinate vectors are floats; limits are owned by the raster. *)
From Verif Require Import Base HelpersModel GridModel.
Open Scope R_scope.

(** a number together with its type: integers and floats differ when added in place *)
Record num := mknum { nfloat : bool; nval : R }.

(** the scipy interpolator: references to coordinate and value buffers, read in reverse when the axis decreases;
    [zny], [znx] is the shape of the array *)
Record interp := mkinterp { zx : nat; zxrev : bool; zy : nat; zyrev : bool; zv : nat; zny : nat; znx : nat }.

Record raster := mkraster {
  xh : list (list R);            (* heap of coordinate vectors *)
  ah : list (list (option R));   (* heap of value arrays, row-major, None = nan *)
  rxlim : R * R; rxflt : bool;   (* xlim and whether its dtype is float *)
  rylim : R * R; ryflt : bool;
  rny : nat; rnx : nat;          (* array.shape *)
  rarr : nat; raflt : bool;      (* _array and whether its dtype is float *)
  rx : option nat; ry : option nat;                            (* _x, _y *)
  rX : option (list (list R)); rY : option (list (list R));    (* _X, _Y *)
  rzf : option interp }.                                       (* _Zf *)

Definition rgrid (s : raster) : grid := mkgrid (Z.of_nat (rnx s)) (Z.of_nat (rny s)) (rxlim s) (rylim s).
Definition xbuf (s : raster) (p : nat) : list R := nth p (xh s) [].
Definition abuf (s : raster) (p : nat) : list (option R) := nth p (ah s) [].
Definition rvalues (s : raster) : list (option R) := abuf s (rarr s).
(** array[r, c] *)
Definition cellv (s : raster) (r c : nat) : option R := nth (r * rnx s + c) (rvalues s) None.

Definition upd_xh s h := mkraster h (ah s) (rxlim s) (rxflt s) (rylim s) (ryflt s) (rny s) (rnx s) (rarr s) (raflt s) (rx s) (ry s) (rX s) (rY s) (rzf s).
Definition upd_ah s h := mkraster (xh s) h (rxlim s) (rxflt s) (rylim s) (ryflt s) (rny s) (rnx s) (rarr s) (raflt s) (rx s) (ry s) (rX s) (rY s) (rzf s).
Definition upd_xlim s l f := mkraster (xh s) (ah s) l f (rylim s) (ryflt s) (rny s) (rnx s) (rarr s) (raflt s) (rx s) (ry s) (rX s) (rY s) (rzf s).
Definition upd_ylim s l f := mkraster (xh s) (ah s) (rxlim s) (rxflt s) l f (rny s) (rnx s) (rarr s) (raflt s) (rx s) (ry s) (rX s) (rY s) (rzf s).
Definition upd_arr s ny nx p f := mkraster (xh s) (ah s) (rxlim s) (rxflt s) (rylim s) (ryflt s) ny nx p f (rx s) (ry s) (rX s) (rY s) (rzf s).
Definition upd_x s p X := mkraster (xh s) (ah s) (rxlim s) (rxflt s) (rylim s) (ryflt s) (rny s) (rnx s) (rarr s) (raflt s) p (ry s) X (rY s) (rzf s).
Definition upd_y s p Y := mkraster (xh s) (ah s) (rxlim s) (rxflt s) (rylim s) (ryflt s) (rny s) (rnx s) (rarr s) (raflt s) (rx s) p (rX s) Y (rzf s).
Definition upd_zf s z := mkraster (xh s) (ah s) (rxlim s) (rxflt s) (rylim s) (ryflt s) (rny s) (rnx s) (rarr s) (raflt s) (rx s) (ry s) (rX s) (rY s) z.

(** raster.py:138-151: property x.  The result is the reference to the vector. *)
Definition get_x (s : raster) : result (nat * raster) :=
  match rx s with
  | Some p => Ok (p, s)
  | None => let* v := centers (xaxis (rgrid s)) in
            let p := length (xh s) in
            Ok (p, upd_x (upd_xh s (xh s ++ [v])) (Some p) (rX s))
  end.
(** raster.py:160-173 *)
Definition get_y (s : raster) : result (nat * raster) :=
  match ry s with
  | Some p => Ok (p, s)
  | None => let* v := centers (yaxis (rgrid s)) in
            let p := length (xh s) in
            Ok (p, upd_y (upd_xh s (xh s ++ [v])) (Some p) (rY s))
  end.
(** raster.py:153-158 (numpy.tile) *)
Definition get_X (s : raster) : result (list (list R) * raster) :=
  match rX s with
  | Some X => Ok (X, s)
  | None => let* (p, s) := get_x s in
            let X := repeat (xbuf s p) (rny s) in
            Ok (X, upd_x s (rx s) (Some X))
  end.
(** raster.py:175-180: numpy.tile(y, (nx, 1)).T *)
Definition get_Y (s : raster) : result (list (list R) * raster) :=
  match rY s with
  | Some Y => Ok (Y, s)
  | None => let* (p, s) := get_y s in
            let Y := map (fun v => repeat v (rnx s)) (xbuf s p) in
            Ok (Y, upd_y s (ry s) (Some Y))
  end.

Definition Req2b (a b : R * R) : bool := Reqb (fst a) (fst b) && Reqb (snd a) (snd b).
(** raster.py:92-97, 104-109: limit setters ([flt]: dtype of the new limits) *)
Definition set_xlim (l : list R) (flt : bool) (s : raster) : result raster :=
  let* l := parse_limits l in
  if Req2b (rxlim s) l then Ok s else Ok (upd_x (upd_xlim s l flt) None None).
Definition set_ylim (l : list R) (flt : bool) (s : raster) : result raster :=
  let* l := parse_limits l in
  if Req2b (rylim s) l then Ok s else Ok (upd_y (upd_ylim s l flt) None None).

(** raster.py:844-858: array setter with a two-dimensional array
    (ny, nx) given row-major *)
Definition set_array (ny nx : nat) (v : list (option R)) (flt : bool) (s : raster) : raster :=
  let s := upd_zf s None in
  let s := if (Nat.eqb ny (rny s) && Nat.eqb nx (rnx s))%bool then s else upd_y (upd_x s None None) None None in
  upd_arr (upd_ah s (ah s ++ [v])) ny nx (length (ah s)) flt.

(** raster.py:890-898: property Zf *)
Definition get_zf (s : raster) : result (interp * raster) :=
  match rzf s with
  | Some z => Ok (z, s)
  | None =>
    let xneg := Rltb (dcell (xaxis (rgrid s))) 0 in
    let yneg := Rltb (dcell (yaxis (rgrid s))) 0 in
    let* (px, s) := get_x s in
    let* (py, s) := get_y s in
    let '(pv, s) := if raflt s then (rarr s, s)
                    else (length (ah s), upd_ah s (ah s ++ [rvalues s])) in
    let z := mkinterp px xneg py yneg pv (rny s) (rnx s) in
    Ok (z, upd_zf s (Some z))
  end.

(** what the interpolator sees *)
Definition oriented {A} (r : bool) (l : list A) : list A := if r then rev l else l.
Definition zgrid_x (s : raster) (z : interp) : list R := oriented (zxrev z) (xbuf s (zx z)).
Definition zgrid_y (s : raster) (z : interp) : list R := oriented (zyrev z) (xbuf s (zy z)).
(** array.T[::sign x, ::sign y][a, b] *)
Definition zvalue (s : raster) (z : interp) (a b : nat) : option R :=
  let c := if zxrev z then (znx z - 1 - a)%nat else a in
  let r := if zyrev z then (zny z - 1 - b)%nat else b in
  nth (r * znx z + c) (abuf s (zv z)) None.

(** in-place addition to a buffer, raising when the buffer is integer and the
    number is not (numpy same-kind casting) *)
Definition oplus (d : R) (v : option R) : option R := option_map (fun x => x + d) v.
Definition add_xbuf (p : nat) (d : R) (s : raster) : raster :=
  upd_xh s (set_nth p (map (fun x => x + d) (xbuf s p)) (xh s)).
Definition add_abuf (p : nat) (d : R) (s : raster) : raster :=
  upd_ah s (set_nth p (map (oplus d) (abuf s p)) (ah s)).

(** raster.py:269-282: _shift_xy, one axis each *)
Definition shift_x (dx : option num) (s : raster) : result raster :=
  match dx with
  | None => Ok s
  | Some d =>
    if negb (rxflt s) && nfloat d then Err TypeError else
    let s := upd_xlim s (fst (rxlim s) + nval d, snd (rxlim s) + nval d) (rxflt s) in
    let s := match rx s with Some p => add_xbuf p (nval d) s | None => s end in
    Ok (match rX s with
        | Some X => upd_x s (rx s) (Some (map (map (fun x => x + nval d)) X))
        | None => s
        end)
  end.
Definition shift_y (dy : option num) (s : raster) : result raster :=
  match dy with
  | None => Ok s
  | Some d =>
    if negb (ryflt s) && nfloat d then Err TypeError else
    let s := upd_ylim s (fst (rylim s) + nval d, snd (rylim s) + nval d) (ryflt s) in
    let s := match ry s with Some p => add_xbuf p (nval d) s | None => s end in
    Ok (match rY s with
        | Some Y => upd_y s (ry s) (Some (map (map (fun x => x + nval d)) Y))
        | None => s
        end)
  end.
(** raster.py:1206-1217: shift *)
Definition shift (dx dy dz : option num) (s : raster) : result raster :=
  let* s := shift_x dx s in
  let* s := shift_y dy s in
  let* s := match dz with
            | None => Ok s
            | Some d => if negb (raflt s) && nfloat d then Err TypeError
                        else Ok (add_abuf (rarr s) (nval d) s)
            end in
  match rzf s with
  | None => Ok s
  | Some z =>
    let s := match dx with Some d => add_xbuf (zx z) (nval d) s | None => s end in
    let s := match dy with Some d => add_xbuf (zy z) (nval d) s | None => s end in
    match dy, dz with
    | None, _ => Ok s
    | Some _, None => Err TypeError          (* values += None *)
    | Some _, Some d => Ok (add_abuf (zv z) (nval d) s)
    end
  end.

(** array[r0:r1, c0:c1] with 0 <= r0 <= r1, 0 <= c0 <= c1, row-major *)
Definition subarray (s : raster) (r0 r1 c0 c1 : nat) : list (option R) :=
  flat_map (fun r => map (fun c => cellv s r c) (seq c0 (c1 - c0))) (seq r0 (r1 - r0)).
(** raster.py:1162-1166: crop with xlim and / or ylim *)
Definition crop (xo yo : option (R * R)) (s : raster) : result raster :=
  match xo, yo with
  | None, None => Ok s
  | _, _ =>
    let* (xl, yl, (r0, r1), (c0, c1)) := crop_extent (rgrid s) xo yo in
    let a := Z.to_nat r0 in let b := Z.to_nat (r1 + 1) in
    let c := Z.to_nat c0 in let d := Z.to_nat (c1 + 1) in
    let s := set_array (b - a) (d - c) (subarray s a b c d) (raflt s) s in
    let* s := set_xlim [fst xl; snd xl] true s in
    set_ylim [fst yl; snd yl] true s
  end.
(** raster.py:1167-1174: crop with zlim, for a float array: values out of
    bounds become nan, in the buffer of the array (so also in the cached
    interpolator).  Integer arrays, which are converted, are not modelled. *)
Definition crop_z (z0 z1 : R) (s : raster) : result raster :=
  if negb (raflt s) then Err OtherError else
  Ok (upd_ah s (set_nth (rarr s)
    (map (fun v => match v with
                   | Some x => if Rltb x (Rmin z0 z1) || Rltb (Rmax z0 z1) x then None else Some x
                   | None => None end) (rvalues s)) (ah s))).

(** raster.py:1502-1514: data_extent: half-open row and column ranges.
    [argmax] of booleans = index of the first True, 0 if there is none. *)
Fixpoint argmax_bool (l : list bool) : nat :=
  match l with
  | [] => 0
  | true :: _ => 0
  | false :: r => if existsb (fun b => b) r then S (argmax_bool r) else 0
  end.
Definition isdata (v : option R) : bool := match v with Some _ => true | None => false end.
Definition data_row (s : raster) : list bool :=
  map (fun r => existsb (fun c => isdata (cellv s r c)) (seq 0 (rnx s))) (seq 0 (rny s)).
Definition data_col (s : raster) : list bool :=
  map (fun c => existsb (fun r => isdata (cellv s r c)) (seq 0 (rny s))) (seq 0 (rnx s)).
Definition data_extent (s : raster) : result ((nat * nat) * (nat * nat)) :=
  let dr := data_row s in let dc := data_col s in
  let r0 := argmax_bool dr in
  if (Nat.eqb r0 0 && negb (nth 0 dr false))%bool then Err ValueError else
  let r1 := (length dr - argmax_bool (rev dr))%nat in
  let c0 := argmax_bool dc in
  let c1 := (length dc - argmax_bool (rev dc))%nat in
  Ok ((r0, r1), (c0, c1)).
(** l[a:b] *)
Definition sublist {A} (a b : nat) (l : list A) : list A := firstn (b - a) (skipn a l).
(** raster.py:1516-1525 *)
Definition crop_to_data (s : raster) : result raster :=
  let* (rows, cols) := data_extent s in
  let* (px, s) := get_x s in
  let x := sublist (fst cols) (snd cols) (xbuf s px) in
  let* (py, s) := get_y s in
  let y := sublist (fst rows) (snd rows) (xbuf s py) in
  let dx := dcell (xaxis (rgrid s)) in
  let* s := set_xlim [hd 0 x + - / 2 * dx; last x 0 + / 2 * dx] true s in
  let dy := dcell (yaxis (rgrid s)) in
  let* s := set_ylim [hd 0 y + - / 2 * dy; last y 0 + / 2 * dy] true s in
  let s := set_array (snd rows - fst rows) (snd cols - fst cols)
                     (subarray s (fst rows) (snd rows) (fst cols) (snd cols)) (raflt s) s in
  let s := upd_x (upd_xh s (xh s ++ [x])) (Some (length (xh s))) (rX s) in
  Ok (upd_y (upd_xh s (xh s ++ [y])) (Some (length (xh s))) (rY s)).

(** ** sampling (raster.py:911-1038), orders 0 and 1, at one point *)
(** scipy RegularGridInterpolator._find_indices (1.4.1) *)
Definition rgi_locate (g : list R) (x : R) : nat * R :=
  let i := (length (filter (fun v => Rltb v x) g) - 1)%nat in
  let i := Nat.min i (length g - 2) in
  (i, (x - nth i g 0) / (nth (S i) g 0 - nth i g 0)).
Definition oadd (a b : option R) : option R := match a, b with Some x, Some y => Some (x + y) | _, _ => None end.
Definition oscale (t : R) (a : option R) : option R := option_map (fun x => t * x) a.
(** scipy _evaluate_linear: weighted sum over the four corners *)
Definition rgi_linear (gx gy : list R) (v : nat -> nat -> option R) (x y : R) : option R :=
  let '(i, t) := rgi_locate gx x in let '(j, u) := rgi_locate gy y in
  oadd (oadd (oscale ((1 - t) * (1 - u)) (v i j)) (oscale ((1 - t) * u) (v i (S j))))
       (oadd (oscale (t * (1 - u)) (v (S i) j)) (oscale (t * u) (v (S i) (S j)))).
(** scipy _evaluate_nearest *)
Definition rgi_nearest (gx gy : list R) (v : nat -> nat -> option R) (x y : R) : option R :=
  let '(i, t) := rgi_locate gx x in let '(j, u) := rgi_locate gy y in
  v (if Rleb t (/ 2) then i else S i) (if Rleb u (/ 2) then j else S j).
(** scipy interp1d with fill_value="extrapolate", kind linear / nearest *)
Definition interp1_linear (g : list R) (v : nat -> option R) (x : R) : option R :=
  let '(i, t) := rgi_locate g x in oadd (oscale (1 - t) (v i)) (oscale t (v (S i))).
Definition interp1_nearest (g : list R) (v : nat -> option R) (x : R) : option R :=
  let bds := map2 (fun a b => (a + b) / 2) g (tl g) in
  v (Nat.min (length (filter (fun b => Rltb b x) bds)) (length g - 1)).

(** raster.py:999-1024 without the bounds handling: value at one point and the state after it. *)
Definition sample_value (linear : bool) (x y : R) (s : raster) : result (option R * raster) :=
  if (1 <? rnx s)%nat && (1 <? rny s)%nat then
    let* (z, s) := get_zf s in
    Ok ((if linear then rgi_linear else rgi_nearest) (zgrid_x s z) (zgrid_y s z) (zvalue s z) x y, s)
  else if (1 <? rnx s)%nat then
    let neg := Rltb (dcell (xaxis (rgrid s))) 0 in
    let* (p, s) := get_x s in
    let v := fun a => cellv s 0 (if neg then (rnx s - 1 - a)%nat else a) in
    Ok ((if linear then interp1_linear else interp1_nearest) (oriented neg (xbuf s p)) v x, s)
  else if (1 <? rny s)%nat then
    let neg := Rltb (dcell (yaxis (rgrid s))) 0 in
    let* (p, s) := get_y s in
    let v := fun a => cellv s (if neg then (rny s - 1 - a)%nat else a) 0 in
    Ok ((if linear then interp1_linear else interp1_nearest) (oriented neg (xbuf s p)) v y, s)
  else Ok (nth 0 (rvalues s) None, s).
(** raster.py:959-1025 for one point (grid=False).  [fill]: None = extrapolate. *)
Definition sample (linear bounds_error : bool) (fill : option (option R)) (x y : R) (s : raster)
  : result (option R * raster) :=
  let out := negb (inbounds_xy (rgrid s) (x, y)) in
  if bounds_error then if out then Err ValueError else sample_value linear x y s
  else match fill with
       | Some f => if out then Ok (f, s) else sample_value linear x y s
       | None => sample_value linear x y s
       end.

(** ** user actions on one raster *)
Inductive rop :=
| RX | RY | RXX | RYY | RSample (x y : R)
| RSetX (l : list R) (flt : bool) | RSetY (l : list R) (flt : bool)
| RSetArray (ny nx : nat) (v : list (option R)) (flt : bool)
| RShift (dx dy dz : option num)
| RCrop (xo yo : option (R * R)) | RCropZ (z0 z1 : R) | RCropData.
Definition rstep (o : rop) (s : raster) : result raster :=
  match o with
  | RX => let* (_, s) := get_x s in Ok s
  | RY => let* (_, s) := get_y s in Ok s
  | RXX => let* (_, s) := get_X s in Ok s
  | RYY => let* (_, s) := get_Y s in Ok s
  | RSample x y => let* (_, s) := sample true false None x y s in Ok s
  | RSetX l f => set_xlim l f s
  | RSetY l f => set_ylim l f s
  | RSetArray ny nx v f => Ok (set_array ny nx v f s)
  | RShift dx dy dz => shift dx dy dz s
  | RCrop xo yo => crop xo yo s
  | RCropZ a b => crop_z a b s
  | RCropData => crop_to_data s
  end.
(** an exception leaves the history without result *)
Fixpoint rsteps (os : list rop) (s : raster) : result raster :=
  match os with [] => Ok s | o :: r => let* s := rstep o s in rsteps r s end.

(** raster.py:635-659 with an array and limits *)
Definition new_raster (ny nx : nat) (v : list (option R)) (aflt : bool) (xl yl : list R) (xflt yflt : bool)
  : result raster :=
  let* xl := parse_limits xl in
  let* yl := parse_limits yl in
  Ok (mkraster [] [v] xl xflt yl yflt ny nx 0 aflt None None None None None).

(** ** Grid (not Raster): size is an attribute with its own setter *)
Record gobj := mkgobj { og : grid; ox : option (list R); oy : option (list R);
                        oX : option (list (list R)); oY : option (list (list R)) }.
Inductive gop := GX | GY | GXX | GYY | GSetX (l : list R) | GSetY (l : list R) | GSetSize (n : list Z)
| GShift (dx dy : option R).
Definition gget_x (s : gobj) : result (list R * gobj) :=
  match ox s with
  | Some v => Ok (v, s)
  | None => let* v := centers (xaxis (og s)) in Ok (v, mkgobj (og s) (Some v) (oy s) (oX s) (oY s))
  end.
Definition gget_y (s : gobj) : result (list R * gobj) :=
  match oy s with
  | Some v => Ok (v, s)
  | None => let* v := centers (yaxis (og s)) in Ok (v, mkgobj (og s) (ox s) (Some v) (oX s) (oY s))
  end.
Definition gget_X (s : gobj) : result (list (list R) * gobj) :=
  match oX s with
  | Some v => Ok (v, s)
  | None => let* (v, s) := gget_x s in let X := repeat v (Z.to_nat (gny (og s))) in
            Ok (X, mkgobj (og s) (ox s) (oy s) (Some X) (oY s))
  end.
Definition gget_Y (s : gobj) : result (list (list R) * gobj) :=
  match oY s with
  | Some v => Ok (v, s)
  | None => let* (v, s) := gget_y s in let Y := map (fun y => repeat y (Z.to_nat (gnx (og s)))) v in
            Ok (Y, mkgobj (og s) (ox s) (oy s) (oX s) (Some Y))
  end.
(** raster.py:92-97 / 104-109, 74-85 (the size setter keeps the caches), 269-282 *)
Definition gstep (o : gop) (s : gobj) : result gobj :=
  let g := og s in
  match o with
  | GX => let* (_, s) := gget_x s in Ok s
  | GY => let* (_, s) := gget_y s in Ok s
  | GXX => let* (_, s) := gget_X s in Ok s
  | GYY => let* (_, s) := gget_Y s in Ok s
  | GSetX l => let* l := parse_limits l in
      if Req2b (gxlim g) l then Ok s else Ok (mkgobj (mkgrid (gnx g) (gny g) l (gylim g)) None (oy s) None (oY s))
  | GSetY l => let* l := parse_limits l in
      if Req2b (gylim g) l then Ok s else Ok (mkgobj (mkgrid (gnx g) (gny g) (gxlim g) l) (ox s) None (oX s) None)
  | GSetSize n => let* n := parse_size n in
      Ok (mkgobj (mkgrid (fst n) (snd n) (gxlim g) (gylim g)) (ox s) (oy s) (oX s) (oY s))
  | GShift dx dy =>
      let add d := fun x => x + d in
      let s := match dx with None => s | Some d =>
        mkgobj (mkgrid (gnx g) (gny g) (fst (gxlim g) + d, snd (gxlim g) + d) (gylim g))
          (option_map (map (add d)) (ox s)) (oy s) (option_map (map (map (add d))) (oX s)) (oY s) end in
      let g := og s in
      Ok (match dy with None => s | Some d =>
        mkgobj (mkgrid (gnx g) (gny g) (gxlim g) (fst (gylim g) + d, snd (gylim g) + d))
          (ox s) (option_map (map (add d)) (oy s)) (oX s) (option_map (map (map (add d))) (oY s)) end)
  end.
Fixpoint gsteps (os : list gop) (s : gobj) : result gobj :=
  match os with [] => Ok s | o :: r => let* s := gstep o s in gsteps r s end.
(** raster.py:47-57 with limits *)
Definition new_grid (size : Z * Z) (xl yl : list R) : result gobj :=
  let* xl := parse_limits xl in
  let* yl := parse_limits yl in
  Ok (mkgobj (mkgrid (fst size) (snd size) xl yl) None None None None).
