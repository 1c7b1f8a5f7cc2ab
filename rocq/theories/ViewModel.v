(** Model of Raster.viewshed (src/glimpse/raster.py:1291-1387).

    Cells are numbered row by row (array.ravel()).  [cor d2] is the elevation
    correction at squared distance [d2] (constantly 0 when no correction is requested).
    Simplified: warnings are omitted; the coordinates x, y are the cell centers (C30). *)
From Verif Require Import Base HelpersModel CameraModel GridModel InterpModel.
Open Scope R_scope.

(** numpy.interp (1.19.5) for increasing coordinates, nan-propagating *)
Fixpoint interp_opt (x x0 : R) (f0 : option R) (pts : list (R * option R)) : option R :=
  match pts with
  | [] => f0
  | (x1, f1) :: r =>
    if Rleb x1 x then interp_opt x x1 f1 r
    else if Reqb x x0 then f0
    else olift2 Rplus (olift2 Rmult (olift2 Rdiv (olift2 Rminus f1 f0) (Some (x1 - x0))) (Some (x - x0))) f0
  end.
(** numpy.interp(x, xp, fp, period=P): coordinates modulo P, sorted, the last one repeated before the first and the first after the last *)
Definition interp_period (P x : R) (xp : list R) (fp : list (option R)) : option R :=
  let x := Rmod x P in
  let xp := map (fun v => Rmod v P) xp in
  let asort := argsort xp in
  let at_ k := (nth k xp 0, nth k fp None) in
  match asort with
  | [] => None
  | k0 :: _ =>
    let kl := last asort 0%nat in
    let pts := map at_ asort ++ [(nth k0 xp 0 + P, nth k0 fp None)] in
    if Rltb x (nth kl xp 0 - P) then nth kl fp None
    else interp_opt x (nth kl xp 0 - P) (nth kl fp None) pts
  end.

Definition isnan (v : option R) : bool := match v with Some _ => false | None => true end.
Definition gt_opt (a b : option R) : bool := match a, b with Some x, Some y => Rltb y x | _, _ => false end.
Definition count_true (l : list bool) : nat := length (filter (fun b => b) l).

(** raster.py:1359-1386, from the second ring on: one pair (cell, visible) per cell *)
Fixpoint view_loop (heading : nat -> R) (elev : nat -> option R) (prev : list R) (M : list (option R)) (has_nan : bool)
    (rings : list (list nat)) : list (nat * bool) :=
  match rings with
  | [] => []
  | rix :: rest =>
    let rheading := map heading rix in
    let relev := map elev rix in
    let Mi := map (fun h => interp_period (2 * PI) h prev M) rheading in
    let vis0 := map2 gt_opt relev Mi in
    let '(vis, has_nan) :=
      if has_nan then
        let nanM := map isnan Mi in
        let new := map2 (fun n e => n && negb (isnan e)) nanM relev in
        (map2 orb vis0 new, negb (Nat.eqb (count_true nanM) (count_true new)))
      else (vis0, false) in
    let M' := map2 (fun v em => if v : bool then fst em else snd em) vis (combine relev Mi) in
    combine rix vis ++ view_loop heading elev rheading M' has_nan rest
  end.
(** with the first ring (raster.py:1380-1384) *)
Definition view_rings (heading : nat -> R) (elev : nat -> option R) (rings : list (list nat)) : list (nat * bool) :=
  match rings with
  | [] => []
  | rix :: rest =>
    let relev := map elev rix in
    combine rix (map (fun e => negb (isnan e)) relev)
    ++ view_loop heading elev (map heading rix) relev (existsb isnan relev) rest
  end.

(** numpy.lexsort((heading, dxy_cell)), raster.py:1329 *)
Fixpoint lex_insert (ring : nat -> Z) (heading : nat -> R) (i : nat) (l : list nat) : list nat :=
  match l with
  | [] => [i]
  | j :: r => if (ring j <? ring i)%Z || ((ring j =? ring i)%Z && Rleb (heading j) (heading i))
              then j :: lex_insert ring heading i r else i :: l
  end.
Definition lexsort (ring : nat -> Z) (heading : nat -> R) (n : nat) : list nat :=
  fold_left (fun acc i => lex_insert ring heading i acc) (seq 0 n) [].
(** raster.py:1332, 1360: the sorted cells split where the ring number changes *)
Fixpoint ring_groups (ring : nat -> Z) (l : list nat) : list (list nat) :=
  match l with
  | [] => []
  | k :: r =>
    match ring_groups ring r with
    | (j :: g) :: gs => if (ring k =? ring j)%Z then (k :: j :: g) :: gs else [k] :: (j :: g) :: gs
    | gs => [k] :: gs
    end
  end.

(** raster.py:1316-1328: per cell *)
Section Cells.
  Variables (g : grid) (xs ys : list R) (vals : list (option R)) (ox oy oz : R) (cor : R -> R).
  Let nx := Z.to_nat (gnx g).
  Definition cell_dx : list R := flat_map (fun _ => map (fun x => x - ox) xs) (seq 0 (Z.to_nat (gny g))).
  Definition cell_dy : list R := flat_map (fun y => repeat (y - oy) nx) ys.
  Definition cell_d2 (k : nat) : R := nth k cell_dx 0 ^ 2 + nth k cell_dy 0 ^ 2.
  Definition cell_ring (k : nat) : Z := Rtrunc (sqrt (cell_d2 k) * (1 / Rabs (dcell (xaxis g))) + / 2).
  Definition cell_heading (k : nat) : R := atan2 (nth k cell_dy 0) (nth k cell_dx 0).
  (** raster.py:1318, 1323, 1346-1349: dz / dxy; division by zero (only at the center of the
      innermost ring, whose ratio is not used) is nan here *)
  Definition cell_elev (k : nat) : option R :=
    match nth k vals None with
    | Some z => if Reqb (sqrt (cell_d2 k)) 0 then None else Some ((z - oz + cor (cell_d2 k)) / sqrt (cell_d2 k))
    | None => None
    end.
  (** raster.py:1329-1387 *)
  Definition viewshed_flat : list bool :=
    let n := length vals in
    let vis := repeat false n in
    let assign := fold_left (fun acc p => set_nth (fst p) (snd p) acc) in
    match ring_groups cell_ring (lexsort cell_ring cell_heading n) with
    | [] => vis
    | [r] => if (cell_ring (hd 0%nat r) =? 0)%Z then repeat true n
             else assign (view_rings cell_heading cell_elev [r]) vis
    | r :: rest => if (cell_ring (hd 0%nat r) =? 0)%Z then assign (view_rings cell_heading cell_elev rest) vis
                   else assign (view_rings cell_heading cell_elev (r :: rest)) vis
    end.
End Cells.
Definition viewshed (g : grid) (vals : list (option R)) (origin : R * R * R) (cor : R -> R) : result (list bool) :=
  let '(ox, oy, oz) := origin in
  let* xs := centers (xaxis g) in
  let* ys := centers (yaxis g) in
  Ok (viewshed_flat g xs ys vals ox oy oz cor).
