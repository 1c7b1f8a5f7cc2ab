(** Model of Tracks.plot_xy, plot_vxy and plot_v1d (src/glimpse/track/tracks.py:154-291).

    A plot is what is given to matplotlib: a line per track, the start points as one line of markers, error bars, arrows, bands.  None = nan.  Not modelled:
    figures, styles beyond the arguments, and what was already drawn when an exception is raised. *)
From Coq Require Import String.
From Verif Require Import Base TrackModel TracksModel PlotModel.
Open Scope R_scope.

(** Arguments that are True, False or a dictionary; [if mean:] is also false for an empty dictionary *)
Inductive shown := Flag (b : bool) | Dict (d : kwargs).
Definition truthy (s : shown) : bool := match s with Flag b => b | Dict [] => false | Dict _ => true end.
(** [if mean is True: mean = {}] and [{**default, **mean}] *)
Definition with_default (default : kwargs) (s : shown) : kwargs := kmerge default (match s with Dict d => d | Flag _ => [] end).
(** The rows that an index of an axis of n entries selects: as for points, but a single integer selects one row *)
Definition rows (n : nat) (ix : pindex) : result (list nat) := match ix with One i => let* k := py_get (seq 0 n) i in Ok [k] | _ => chosen n ix end.
(** x[i, :, k] *)
Definition component (x : list (list (list (option R)))) (k i : nat) : list (option R) := map (fun m => nth k m None) (nth i x []).
Definition pt := (option R * option R)%type.
Definition path (x : list (list (list (option R)))) (i : nat) : list pt := combine (component x 0 i) (component x 1 i).
(** default["color"] = mean["color"], tracks.py:196-197, 207-208: the color of the means if they are drawn; [mean] as it is after line 187: a dictionary
    with a color if means are drawn, else False or an empty dictionary *)
Definition mean_color (mean : shown) (default : pvalue) : pvalue :=
  if truthy mean then match kget "color" (with_default [("color", PText "black")]%string mean) with Some c => c | None => default end else default.
Record xy_plot := mk_xy_plot {
  xp_mean : option (list (list pt) * kwargs);                                  (* a line per track *)
  xp_start : option (list pt * kwargs);
  xp_sigma : option (list (list pt * list pt) * kwargs)                        (* per track: points and error bars *)
}.
Definition when {A} (b : bool) (x : result A) : result (option A) := if b then let* a := x in Ok (Some a) else Ok None.
(** tracks.py:154-215.  [times]: as many as times of the means *)
Definition plot_xy (times : list R) (means : list (list mean6)) (sigmas : option (list (list mean6))) (covs : option (list (list (list mean6)))) (ix : pindex) (start mean sigma : shown) : result xy_plot :=
  let n := length means in
  let x := xyz means in
  let* m := when (truthy mean) (let* idx := rows n ix in Ok (map (path x) idx, with_default [("color", PText "black")]%string mean)) in
  let* s := when (truthy start) (
    let* idx := rows n ix in
    match times with
    | [] => Err IndexError
    | _ => Ok (map (fun i => nth 0 (path x i) (None, None)) idx,
               with_default [("color", mean_color mean (PText "black")); ("marker", PText "."); ("linestyle", PText "none")]%string start)
    end) in
  let* g := when (truthy sigma) (
    let* idx := rows n ix in
    let* l := mapM (fun i => match xyz_sigma sigmas covs with None => Err TypeError | Some s => Ok (path x i, path s i) end) idx in
    Ok (l, with_default [("color", mean_color mean (PText "black")); ("alpha", PNum (25 / 100))]%string sigma)) in
  Ok (mk_xy_plot m s g).
(** tracks.py:217-240: per track, points and vectors *)
Definition plot_vxy (means : list (list mean6)) (ix : pindex) (kw : kwargs) : result (list (list pt * list pt) * kwargs) :=
  let* idx := rows (length means) ix in
  Ok (map (fun i => (path (xyz means) i, path (vxyz means) i)) idx, kmerge [("angles", PText "xy")]%string kw).
Record v_plot := mk_v_plot {
  vp_mean : option (list (list (option R)) * kwargs);                          (* a line over time per track *)
  vp_sigma : option (list (list (option R) * list (option R)) * kwargs)        (* per track: two sides of a band *)
}.
Definition lift2 (f : R -> R -> R) (a b : option R) : option R := match a, b with Some x, Some y => Some (f x y) | _, _ => None end.
(** tracks.py:242-291.  [dim]: an index of the three components of velocity *)
Definition plot_v1d (means : list (list mean6)) (sigmas : option (list (list mean6))) (covs : option (list (list (list mean6)))) (dim : Z) (ix : pindex) (mean sigma : shown) : result v_plot :=
  let n := length means in
  let v := vxyz means in
  let* m := when (truthy mean) (let* idx := rows n ix in let* k := py_get (seq 0 3) dim in Ok (map (component v k) idx, with_default [("color", PText "black")]%string mean)) in
  let* g := when (truthy sigma) (
    let* idx := rows n ix in
    let* l := mapM (fun i => let* k := py_get (seq 0 3) dim in
                             match vxyz_sigma sigmas covs with
                             | None => Err TypeError
                             | Some s => Ok (map2 (lift2 Rplus) (component v k i) (component s k i), map2 (lift2 Rminus) (component v k i) (component s k i))
                             end) idx in
    Ok (l, with_default [("facecolor", mean_color mean (PText "black")); ("edgecolor", PText "none"); ("alpha", PNum (25 / 100))]%string sigma)) in
  Ok (mk_v_plot m g).
