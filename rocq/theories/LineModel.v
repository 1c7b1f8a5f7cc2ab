(** Model of helpers.interpolate_line (helpers.py:1081-1170).

    Vertices are a matrix: rows of [d] coordinates.  numpy.interp is the clamped piecewise-linear function of HelpersModel.  numpy.argsort is a
    parameter, of which the theorems assume only that it sorts. *)
From Verif Require Import Base HelpersModel.
Open Scope R_scope.

Notation row := (list R).
(** vertices[:, i] *)
Definition column (i : nat) (m : list row) : list R := map (fun r => nth i r 0) m.
(** helpers.py:1138: numpy.diff(vertices, axis=0) *)
Fixpoint row_diffs (m : list row) : list row :=
  match m with a :: ((b :: _) as r) => map2 (fun x y => y - x) a b :: row_diffs r | _ => [] end.
(** helpers.py:1136-1140 *)
Definition distances (m : list row) : list R := 0 :: cumsum (map (fun r => sqrt (sumR (map (fun v => v ^ 2) r))) (row_diffs m)).
(** helpers.py:1142-1146: x[-1] - x[0] = len; division by 0 gives inf or nan, which int() refuses *)
Definition count_from_dx (len dx : R) : result Z :=
  if Reqb dx 0 then Err OtherError else
  let n := Rabs (len / dx) in
  let n := if Reqb n (IZR (Rtrunc n)) then n + 1 else n in
  Ok (Rround n).
(** what is asked for: xi, n or dx (helpers.py:1134-1151, in this order of precedence) *)
Inductive wanted := At (xi : list R) | Count (n : Z) | Step (dx : R).
Definition want (xi : option (list R)) (n : option Z) (dx : option R) : result wanted :=
  match xi, n, dx with
  | Some xi, _, _ => Ok (At xi) | None, Some n, _ => Ok (Count n) | None, None, Some dx => Ok (Step dx) | None, None, None => Err ValueError
  end.
(** fill: the text 'endpoints', or two rows (a number or a row for both sides is repeated, helpers.py:1161-1162) *)
Inductive fill_value := Endpoints | Fill (before after : row).
(** helpers.py:1157-1160: numpy.interp raises ValueError for empty or unequal lengths (columns of a matrix without columns are not interpolated) *)
Definition interp_rows (d : nat) (x : list R) (m : list row) (xi : list R) : result (list row) :=
  if negb (Nat.eqb (length x) (length m)) then Err ValueError else
  mapM (fun t => mapM (fun i => np_interp t x (column i m)) (seq 0 d)) xi.
Definition head (l : list R) : R := nth 0 l 0.
(** helpers.py:1134-1170 *)
Definition interpolate_line (argsort : list R -> list nat) (d : nat) (m : list row) (x : option (list R))
    (xi : option (list R)) (n : option Z) (dx : option R) (error : bool) (fill : fill_value) : result (list row) :=
  let* w := want xi n dx in
  let x := match x with Some x => x | None => distances m end in
  match x with [] => Err IndexError | x0 :: _ =>
  let x1 := last x 0 in
  let* q :=
    match w with
    | At xi => Ok (xi, error, fill)
    | Count n => let* l := linspace x0 x1 n in Ok (l, false, Endpoints)
    | Step dx => let* n := count_from_dx (x1 - x0) dx in let* l := linspace x0 x1 n in Ok (l, false, Endpoints)
    end in
  let '(xi, error, fill) := q in
  (* helpers.py:1153-1156 *)
  let '(x, m) :=
    if ((1 <? length x)%nat && Rltb (nth 1 x 0) (nth 0 x 0))%bool
    then let s := argsort x in (map (fun k => nth k x 0) s, map (fun k => nth k m []) s)
    else (x, m) in
  let* result := interp_rows d x m xi in
  match fill, error with
  | Endpoints, false => Ok result
  | _, _ =>
    let '(before, after) := match fill with Endpoints => (nth 0 m [], last m []) | Fill a b => (a, b) end in
    let lo := map (fun t => Rltb t (head x)) xi in
    let hi := map (fun t => Rltb (last x 0) t) xi in
    (* helpers.py:1165-1166 *)
    let '(lo, hi) := if Rltb (last x 0) (head x) then (hi, lo) else (lo, hi) in
    if (error && (existsb (fun b => b) lo || existsb (fun b => b) hi))%bool then Err ValueError else
    let result := map2 (fun (b : bool) r => if b then before else r) lo result in
    Ok (map2 (fun (b : bool) r => if b then after else r) hi result)
  end end.
