(** Model of Tracks.animate, src/glimpse/track/tracks.py:293-491, on ObserverModel, TemplateModel and TracksModel.

    One track: its means over time (None = nan), the datetimes in microseconds, the particles and their weights at each time, and the
    column of the grid of images of the selected observer.  [proj k p] is where Observer.xyz_to_uv (observer.py:102-113) sees the world
    point p in image k (None = nan).  A frame is what is given to matplotlib.  Colors, line styles and the creation of figures are not
    modelled, and neither is that newer releases of matplotlib refuse to assign ax.collections. *)
From Verif Require Import Base HelpersModel GridModel TemplateModel ImageModel ObserverModel TrackModel TracksModel AnimateModel.
Open Scope R_scope.

(** tracks.py:339-343: the requested frames (all by default) in ascending order and once each, at which the track has a solution and the
    observer an image *)
Definition shown_frames (frames : option (list Z)) (means : list mean6) (images : list (option Z)) : list nat :=
  filter (fun i => (is_some (nth 0 (nth i means []) None) && is_some (nth i images None)
      && match frames with None => true | Some l => existsb (Z.eqb (Z.of_nat i)) l end)%bool) (seq 0 (length means)).
(** tracks.py:383-393: with particles or a tracker the times between shown frames in time units, else 1 *)
Definition frame_scales (timed : bool) (times : list Z) (unit_ : Z) (shown : list nat) : result (list R) :=
  if timed then
    if ((unit_ =? 0)%Z && (2 <=? length shown)%nat)%bool then Err ZeroDivisionError
    else Ok (map2 (fun a b => IZR (nth b times 0%Z - nth a times 0%Z) / IZR unit_) shown (tl shown))
  else Ok (repeat 1 (length shown - 1)).

Section Tracks.
Context {V : Type}.
Variable rescale : pic V -> Z * Z -> pic V.
Record tracker_view := mk_tracker { tv_observer : observer; tv_proj : nat -> list (option R) -> option pt2 }.
(** what animate reads *)
Record track_data := mk_track {
  td_means : list mean6; td_times : list Z; td_unit : Z;
  td_images : option (list (option Z));                          (* Tracks.images[:, obs] *)
  td_particles : option (list (list (list (option R))));        (* Tracks.particles[track] *)
  td_weights : option (list (list R));                          (* Tracks.weights[track] *)
  td_tracker : option tracker_view
}.
(** an arrow from (x, y) by (dx, dy), tracks.py:402-417, 448-459 *)
Definition arrow := (option R * option R * option R * option R)%type.
Definition arrow_of (p : list (option R)) (s : R) : arrow :=
  (nth 0 p None, nth 1 p None, option_map (fun v => v * s) (nth 3 p None), option_map (fun v => v * s) (nth 4 p None)).
(** the image plot: track, particles, marked point, limits of the axes, tile and its box *)
Record image_plot := mk_image_plot { ip_track : list (option pt2); ip_particles : option (list (option pt2)); ip_point : pt2;
  ip_xlim : R * R; ip_ylim : R * R; ip_box : zbox4; ip_tile : arr }.
Record tframe := mk_tframe { tf_track : list (option R * option R); tf_xlim : option (R * R); tf_ylim : option (R * R); tf_arrow : arrow;
  tf_particles : option (list (arrow * R)); tf_image : option image_plot; tf_label : nat }.
(** a window of size w about a coordinate, tracks.py:442-447 *)
Definition window (x : option R) (w : R) : option (R * R) := option_map (fun x => (x - w / 2, x + w / 2)) x.
(** limits of the axes of the image, tracks.py:464-470 *)
Definition track_limits (uv : pt2) (size : Z * Z) : (R * R) * (R * R) :=
  ((fst uv - IZR (fst size) / 2, fst uv + IZR (fst size) / 2), (snd uv + IZR (snd size) / 2, snd uv - IZR (snd size) / 2)).
(** tracks.py:352-371, 462-480: the track in image [img] of the observer, its last point and the tile about it *)
Definition draw_image (t : tracker_view) (img : Z) (xyz : list (list (option R))) (particles : option (list (list (option R)))) (size : Z * Z) (st : store V)
  : result (image_plot * store V) :=
  let* k := py_get (o_images (tv_observer t)) img in
  match nth_error (imgs st) k with
  | None => Err OtherError
  | Some im =>
    let track := map (tv_proj t k) xyz in
    let* uv := py_get track (-1) in
    match uv with
    | None => Err IndexError
    | Some uv =>
      let* box := tile_box (fst (hi_cam im)) (snd (hi_cam im)) uv size in
      let* (a, st) := extract_tile rescale (tv_observer t) box img st in
      let (xl, yl) := track_limits uv size in
      Ok (mk_image_plot track (option_map (map (tv_proj t k)) particles) uv xl yl box a, st)
    end
  end.
Record animation := mk_animation { an_frames : list nat; an_scales : list R }.
(** tracks.py:328-395: preparation; gives the frames to draw (the last shown one is discarded) and their scales *)
Definition animate_tracks (d : track_data) (frames : option (list Z)) (images particles : bool) (size : Z * Z) (st : store V) : result (animation * store V) :=
  match td_images d with
  | None => Err TypeError
  | Some column =>
    let shown := shown_frames frames (td_means d) column in
    match shown with
    | [] => Err IndexError
    | i :: _ =>
      let* st := if images then
          match td_tracker d, nth i column None with
          | None, _ => Err AttributeError
          | Some t, Some img => let* (_, st) := draw_image t img (map (firstn 3) (firstn (S i) (td_means d))) None size st in Ok st
          | Some _, None => Err OtherError
          end
        else Ok st in
      let* scales := frame_scales (particles || is_some (td_tracker d))%bool (td_times d) (td_unit d) shown in
      let* _ := if particles then match td_weights d with None => Err TypeError | Some _ => Ok tt end else Ok tt in
      Ok (mk_animation (removelast shown) scales, st)
    end
  end.
(** update_plot, tracks.py:397-487, for frame [i].  The label needs the tracker also without images (line 484) *)
Definition update_plot (d : track_data) (a : animation) (images particles : bool) (map_size : R * R) (size : Z * Z) (i : nat) (st : store V) : result (tframe * store V) :=
  match td_images d with
  | None => Err TypeError
  | Some column =>
    match nth i column None with
    | None => Err OtherError
    | Some img =>
      let scale := match nth_error (an_scales a) i with Some s => Ok s | None => Err IndexError end in
      let* drawn := if particles then
          match td_particles d, td_weights d with
          | Some ps, Some ws => let* s := scale in Ok (Some (combine (map (fun p => arrow_of p s) (nth i ps [])) (nth i ws [])))
          | _, _ => Err TypeError
          end
        else Ok None in
      let now := nth i (td_means d) [] in
      let xyz := map (firstn 3) (firstn (S i) (td_means d)) in
      let* s := scale in
      let* (plot, st) := if images then
          match td_tracker d with
          | None => Err AttributeError
          | Some t =>
            let* (p, st) := draw_image t img xyz (if particles then option_map (fun ps => map (firstn 3) (nth i ps [])) (td_particles d) else None) size st in
            Ok (Some p, st)
          end
        else Ok (None, st) in
      match td_tracker d with
      | None => Err AttributeError
      | Some t =>
        let* k := py_get (o_images (tv_observer t)) img in
        Ok (mk_tframe (map (fun p => (nth 0 p None, nth 1 p None)) xyz) (window (nth 0 now None) (fst map_size)) (window (nth 1 now None) (snd map_size))
              (arrow_of now s) drawn plot k, st)
      end
    end
  end.
(** FuncAnimation calls update_plot for each frame in turn (tracks.py:489-491) *)
Fixpoint play (d : track_data) (a : animation) (images particles : bool) (map_size : R * R) (size : Z * Z) (l : list nat) (st : store V) : result (list tframe * store V) :=
  match l with
  | [] => Ok ([], st)
  | i :: l =>
    let* (f, st) := update_plot d a images particles map_size size i st in
    let* (fs, st) := play d a images particles map_size size l st in
    Ok (f :: fs, st)
  end.
End Tracks.
