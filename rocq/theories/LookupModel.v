(** Model of undistortion by table lookup, Camera._undistort with method = "lookup" (src/glimpse/camera.py:1199-1203, 1244-1281).

    scipy.interpolate.griddata(method="linear") is modelled by what it computes: a Delaunay triangulation of the points, linear interpolation in the triangle
    that holds the query, and nan outside of the convex hull.  Any Delaunay triangulation is allowed (a relation, not a function); the error raised for
    points that are all on one line, and rounding, are not modelled. *)
From Verif Require Import Base HelpersModel CameraModel.
Open Scope R_scope.

(** camera.py:1259-1261: corners and middles of the sides of the image, in image coordinates and normalized *)
Definition uv_edges (c : cam) : list vec2 :=
  map (fun ab => (nth 0 (imgszR c) 0 * fst ab, nth 1 (imgszR c) 0 * snd ab)) [(0, 0); (1 / 2, 0); (1, 0); (1, 1 / 2); (1, 1); (1 / 2, 1); (0, 1); (0, 1 / 2)].
(** camera.py:1262 *)
Definition normalized (c : cam) (uv : vec2) : vec2 := ((fst uv - center c 0) / f_ c 0, (snd uv - center c 1) / f_ c 1).
Definition xyu_edges (c : cam) : list vec2 := map (normalized c) (uv_edges c).
(** camera.py:1263 *)
Definition xyd_edges (c : cam) : list vec2 := map (distort c) (xyu_edges c).
(** numpy min and max *)
Definition least (l : list R) : R := fold_right Rmin (hd 0 l) l.
Definition greatest (l : list R) : R := fold_right Rmax (hd 0 l) l.
(** camera.py:1265-1274: one axis of the table *)
Definition table_axis (c : cam) (density : R) (i : nat) : result (list R) :=
  let get p := if (i =? 0)%nat then fst p else snd p : R in
  linspace (Rmin (least (map get (xyu_edges c))) (least (map get (xyd_edges c)))) (Rmax (greatest (map get (xyu_edges c))) (greatest (map get (xyd_edges c))))
    (Rtrunc (density * nth i (imgszR c) 0)).
(** camera.py:1275-1278: points of the table, distorted and not *)
Definition lookup_table (c : cam) (density : R) : result (list (vec2 * vec2)) :=
  let* ux := table_axis c density 0 in
  let* uy := table_axis c density 1 in
  Ok (map (fun u => (distort c u, u)) (concat (map (fun y => map (fun x => (x, y)) ux) uy))).

(** ** scipy.interpolate.griddata(points, values, q, method="linear") *)
(** the convex hull: what is on the same side of every line as all points *)
Definition in_hull (points : list vec2) (q : vec2) : Prop := forall a b e, Forall (fun p => a * fst p + b * snd p <= e) points -> a * fst q + b * snd q <= e.
Definition distance2 (p q : vec2) : R := (fst p - fst q) * (fst p - fst q) + (snd p - snd q) * (snd p - snd q).
Definition weighted (w1 w2 w3 : R) (p1 p2 p3 : vec2) : vec2 := (w1 * fst p1 + w2 * fst p2 + w3 * fst p3, w1 * snd p1 + w2 * snd p2 + w3 * snd p3).
(** a triangle of a Delaunay triangulation: three points not on a line and no point inside of the circle through them *)
Definition delaunay (points : list vec2) (p1 p2 p3 : vec2) : Prop :=
  (fst p2 - fst p1) * (snd p3 - snd p1) - (fst p3 - fst p1) * (snd p2 - snd p1) <> 0 /\
  exists o, distance2 p2 o = distance2 p1 o /\ distance2 p3 o = distance2 p1 o /\ Forall (fun p => distance2 p1 o <= distance2 p o) points.
Definition griddata (table : list (vec2 * vec2)) (q : vec2) (r : option vec2) : Prop :=
  match r with
  | None => ~ in_hull (map fst table) q
  | Some v => exists d1 u1 d2 u2 d3 u3 w1 w2 w3, In (d1, u1) table /\ In (d2, u2) table /\ In (d3, u3) table /\ delaunay (map fst table) d1 d2 d3 /\
      0 <= w1 /\ 0 <= w2 /\ 0 <= w3 /\ w1 + w2 + w3 = 1 /\ q = weighted w1 w2 w3 d1 d2 d3 /\ v = weighted w1 w2 w3 u1 u2 u3
  end.
(** camera.py:1281, for one point *)
Definition undistort_lookup (c : cam) (density : R) (q : vec2) (r : option vec2) : Prop := exists table, lookup_table c density = Ok table /\ griddata table q r.
