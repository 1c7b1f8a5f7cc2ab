(** Model of the box intersection helpers of src/glimpse/helpers.py
    (clip_polyline_box, intersect_edge_box, intersect_rays_box). *)
From Verif Require Import Base XReal HelpersModel.
Open Scope R_scope.

(** One axis of the slab test (helpers.py:817-832 and 842-847): the bound
    selected by the sign of 1/d, minus the origin, times 1/d. *)
Definition axis_slab (o d lo hi : R) : xr * xr :=
  let invdir := xinv d in
  let sign := xlt invdir (Fin 0) in
  let near := if sign then hi else lo in
  let far := if sign then lo else hi in
  (xmul (Fin (near - o)) invdir, xmul (Fin (far - o)) invdir).

(** Folding in a further axis (helpers.py:833-839, 848-854): misses become
    nan first, then the bounds are replaced where the new ones are tighter. *)
Definition slab_step (s a : xr * xr) : xr * xr :=
  let '(tmin, tmax) := s in
  let '(amin, amax) := a in
  let miss := (xlt amax tmin || xlt tmax amin)%bool in
  let tmin := if miss then NaN else tmin in
  let tmax := if miss then NaN else tmax in
  (if xlt tmin amin then amin else tmin, if xlt amax tmax then amax else tmax).

(** helpers.py:814-859 with [t=True] for one ray; [origin], [dir] have
    length ndims, the box is given as its two corners.  Axes beyond the third
    are ignored, as in the code. *)
Definition ray_box (origin dir lo hi : list R) : xr * xr :=
  let axis i := axis_slab (nth i origin 0) (nth i dir 0) (nth i lo 0) (nth i hi 0) in
  let s := slab_step (axis 0%nat) (axis 1%nat) in
  let s := if (2 <? Z.of_nat (length dir))%Z then slab_step s (axis 2%nat) else s in
  let '(tmin, tmax) := s in
  (if xlt tmin (Fin 0) then NaN else tmin, if xlt tmax (Fin 0) then NaN else tmax).

(** numpy.nanmin of two values. *)
Definition xnanmin (a b : xr) : xr :=
  match a, b with
  | NaN, b => b
  | a, NaN => a
  | _, _ => if xlt b a then b else a
  end.

(** helpers.py:771-775 *)
Definition edge_box (origin dist lo hi : list R) : option R :=
  let '(tmin, tmax) := ray_box origin dist lo hi in
  match xnanmin tmin tmax with
  | Fin t => if (Rltb 0 t && Rltb t 1)%bool then Some t else None
  | _ => None     (* nan and inf fail [t > 0 and t < 1] *)
  end.

(** origin + t * distance *)
Definition along (o d : list R) (t : R) : list R := map2 (fun a b => a + t * b) o d.
Definition vsub (a b : list R) : list R := map2 Rminus a b.

(** helpers.py:727: the coordinates of a vertex, without the trailing measure if [t]. *)
Definition cols (t : bool) (p : list R) : list R := if t then removelast p else p.

(** One run of inside vertices (helpers.py:734-745): [prev] is the last vertex
    of the preceding segment if any, [next] the first vertex of the following
    segment if any. *)
Definition clip_run (t : bool) (lo hi : list R) (prev next : option (list R)) (run : list (list R))
  : list (list R) :=
  let run :=
    match prev with
    | Some o =>
      let d := vsub (hd [] run) o in
      match edge_box (cols t o) (cols t d) lo hi with Some ti => along o d ti :: run | None => run end
    | None => run
    end in
  match next with
  | Some e =>
    let o := last run [] in
    let d := vsub e o in
    match edge_box (cols t o) (cols t d) lo hi with Some ti => run ++ [along o d ti] | None => run end
  | None => run
  end.

(** helpers.py:730-746: walk over the alternating segments; [inside] tells
    whether the current one is an inside segment.  Modified inside segments
    never influence each other: only outside neighbours are read. *)
Fixpoint clip_segments (t : bool) (lo hi : list R) (inside : bool) (prev : option (list R))
  (segs : list (list (list R))) : list (list (list R)) :=
  match segs with
  | [] => []
  | s :: rest =>
    let r := clip_segments t lo hi (negb inside) (Some (last s [])) rest in
    if inside
    then clip_run t lo hi prev (match rest with n :: _ => Some (hd [] n) | [] => None end) s :: r
    else r
  end.

(** helpers.py:727-746 *)
Definition clip_polyline_box (t : bool) (line : list (list R)) (lo hi : list R)
  : result (list (list (list R))) :=
  let* mask := mapM (fun p => in_box1 (cols t p) (lo ++ hi)) line in
  let* segs := boolean_split line mask false IncAll in
  let* m0 := py_get mask 0 in
  Ok (clip_segments t lo hi m0 None segs).
