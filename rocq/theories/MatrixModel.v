(** Model of grids and rasters made from matrices of coordinates, along one axis: Grid._parse_xy for X and Y (src/glimpse/raster.py:241-267), the properties xlim, x, X and ylim, y, Y (88-109, 138-188) and Grid.shift / Raster.shift (269-282, 302-310, 1208).

    X has the lines X[0], X[1], ... (its rows), Y the lines Y[:, 0], Y[:, 1], ... (its columns).  The matrix given is kept as X (not copied); the first line is a view of it, and so are x, or the limits, that are made from it.
    Simplified: an array of floats, rectangular. *)
From Verif Require Import Base HelpersModel GridModel.
Open Scope R_scope.

(** limits: own array, or the first line of X (two columns) *)
Inductive mlimits := LOwn (l : R * R) | LFirst.
(** x: not read yet, own array, or the first line of X *)
Inductive mcoord := XNone | XOwn (v : list R) | XFirst.
Record maxis := mkmaxis { m_n : Z; m_count : nat; m_lim : mlimits; m_x : mcoord; m_X : option (list (list R)) }.

(** xlim *)
Definition limits_of (a : maxis) : R * R :=
  match m_lim a with
  | LOwn l => l
  | LFirst => match m_X a with Some ((u :: v :: _) :: _) => (u, v) | _ => (0, 0) end
  end.
(** raster.py:250-267: [lines] are of m_n coordinates each *)
Definition make (lines : list (list R)) : result maxis :=
  match lines with
  | [] => Err ValueError
  | first :: _ =>
    let n := Z.of_nat (length first) in
    if (2 <? length first)%nat then
      match first with
      | u :: v :: _ => let* l := parse_limits [u - (v - u) / 2; last first 0 + (v - u) / 2] in Ok (mkmaxis n (length lines) (LOwn l) XFirst (Some lines))
      | _ => Err ValueError
      end
    else if (length first =? 2)%nat then let* _ := parse_limits first in Ok (mkmaxis n (length lines) LFirst XNone (Some lines))
    else Err ValueError
  end.

Inductive mop := MShift (d : R) | MLim (l : list R) | MReadx | MReadX.
(** raster.py:138-151 *)
Definition readx (a : maxis) : maxis * result (list R) :=
  match m_x a with
  | XOwn v => (a, Ok v)
  | XFirst => (a, match m_X a with Some (first :: _) => Ok first | _ => Err OtherError end)
  | XNone => match centers (limits_of a, m_n a) with Ok v => (mkmaxis (m_n a) (m_count a) (m_lim a) (XOwn v) (m_X a), Ok v) | Err e => (a, Err e) end
  end.
(** raster.py:153-158: numpy.tile copies *)
Definition readX (a : maxis) : maxis * result (list (list R)) :=
  match m_X a with
  | Some lines => (a, Ok lines)
  | None => match readx a with
            | (a, Ok v) => (mkmaxis (m_n a) (m_count a) (m_lim a) (m_x a) (Some (repeat v (m_count a))), Ok (repeat v (m_count a)))
            | (a, Err e) => (a, Err e)
            end
  end.
Definition plus_all (d : R) : list R -> list R := map (fun x => x + d).
Definition plus_first (d : R) (X : option (list (list R))) : option (list (list R)) := match X with Some (first :: rest) => Some (plus_all d first :: rest) | _ => X end.
(** raster.py:271-276: the three additions, one after the other *)
Definition mshift (d : R) (a : maxis) : maxis :=
  let a := match m_lim a with LOwn l => mkmaxis (m_n a) (m_count a) (LOwn (fst l + d, snd l + d)) (m_x a) (m_X a) | LFirst => mkmaxis (m_n a) (m_count a) LFirst (m_x a) (plus_first d (m_X a)) end in
  let a := match m_x a with XNone => a | XOwn v => mkmaxis (m_n a) (m_count a) (m_lim a) (XOwn (plus_all d v)) (m_X a) | XFirst => mkmaxis (m_n a) (m_count a) (m_lim a) XFirst (plus_first d (m_X a)) end in
  mkmaxis (m_n a) (m_count a) (m_lim a) (m_x a) (option_map (map (plus_all d)) (m_X a)).
Definition mstep (p : mop) (a : maxis) : maxis :=
  match p with
  | MShift d => mshift d a
  | MLim l => match parse_limits l with
              | Err _ => a
              (* raster.py:92-97 *)
              | Ok l => if (Reqb (fst l) (fst (limits_of a)) && Reqb (snd l) (snd (limits_of a)))%bool then a else mkmaxis (m_n a) (m_count a) (LOwn l) XNone None
              end
  | MReadx => fst (readx a)
  | MReadX => fst (readX a)
  end.
Definition mrun (h : list mop) (a : maxis) : maxis := fold_left (fun a p => mstep p a) h a.
Definition x_of (a : maxis) : result (list R) := snd (readx a).
Definition X_of (a : maxis) : result (list (list R)) := snd (readX a).
