(** Model of template matching in the tracker: src/glimpse/track/tracker.py:536-625 and
    src/glimpse/track/observer.py:115-130, 178-214.

    Points are pairs of reals (no nan: with nan the code skips the image).  Not modelled: the
    contents of tiles ([Tracker.extract_tile], a parameter) and spline evaluation
    ([scipy.interpolate.RectBivariateSpline], a parameter whose constructor conditions are modelled). *)
From Verif Require Import Base HelpersModel GridModel.
Open Scope R_scope.

Definition pt2 := (R * R)%type.
Definition zbox := (Z * Z * Z * Z)%type.
Definition tile := list (list R).

(** Observer.tile_box, observer.py:115-130: Grid(size) has limits (0, nx), (0, ny) *)
Definition image_grid (nx ny : Z) : grid := mkgrid nx ny (0, IZR nx) (0, IZR ny).
Definition tile_box (nx ny : Z) (uv : pt2) (size : Z * Z) : result zbox :=
  let* (b, d) := snap_box (image_grid nx ny) uv (IZR (fst size), IZR (snd size)) false true true in
  let '(l, t, r) := b in Ok (Rtrunc l, Rtrunc t, Rtrunc r, Rtrunc d).

(** the parts of a template that matter here, tracker.py:552-560 *)
Record template := mk_template { t_box : zbox; t_duv : pt2; t_tile : tile; t_size : Z * Z }.
(** tracker.py:548-561; [uv] is the projected mean of the particles, [extract] is extract_tile *)
Definition make_template (nx ny : Z) (uv : pt2) (size : Z * Z) (extract : zbox -> result tile) : result template :=
  let* box := tile_box nx ny uv size in
  let '(l, t, r, b) := box in
  let duv := (fst uv - (IZR l + IZR r) / 2, snd uv - (IZR t + IZR b) / 2) in
  let* tl := extract box in
  Ok (mk_template box duv tl (Z.of_nat (length (hd [] tl)), Z.of_nat (length tl))).

(** one axis of the search box, tracker.py:582-595: [lo], [hi] least and greatest projected coordinate, [s] template
    size, [k] spline degree *)
Definition search_axis (s k : Z) (lo hi : R) : Z * Z :=
  let half := IZR s * / 2 in
  let b0 := lo - half in let b1 := hi + half in
  let n := IZR k - ((b1 - b0) - IZR s) in
  let '(b0, b1) := if Rltb 0 n then (b0 + - n * / 2, b1 + n * / 2) else (b0, b1) in
  (Rfloor b0, Rceil b1).
Definition min_of (l : list R) : R := fold_right Rmin (hd 0 l) l.
Definition max_of (l : list R) : R := fold_right Rmax (hd 0 l) l.
Definition search_box (size : Z * Z) (kx ky : Z) (uv : list pt2) : zbox :=
  let '(l, r) := search_axis (fst size) ky (min_of (map fst uv)) (max_of (map fst uv)) in
  let '(t, b) := search_axis (snd size) kx (min_of (map snd uv)) (max_of (map snd uv)) in
  (l, t, r, b).
(** Image.inbounds of the two corners, image.py:290-292 *)
Definition box_inbounds (nx ny : Z) (b : zbox) : bool :=
  let '(l, t, r, d) := b in ((0 <=? l) && (l <=? nx) && (0 <=? t) && (t <=? ny) && (0 <=? r) && (r <=? nx) && (0 <=? d) && (d <=? ny))%Z.

(** cv2.matchTemplate(image, templ, TM_SQDIFF): sum of squared differences at every placement of the template inside
    the image, divided by the template area (tracker.py:609-614) *)
Definition cell (a : tile) (r c : nat) : R := nth c (nth r a []) 0.
Definition sq_diff (a t : tile) (h w r c : nat) : R :=
  sumR (map (fun i => sumR (map (fun j => (cell a (r + i) (c + j) - cell t i j) ^ 2) (seq 0 w))) (seq 0 h)).
Definition match_template (a t : tile) : tile :=
  let ah := length a in let aw := length (hd [] a) in let h := length t in let w := length (hd [] t) in
  map (fun r => map (fun c => sq_diff a t h w r c * (1 / (INR w * INR h))) (seq 0 (aw - w + 1))) (seq 0 (ah - h + 1)).

(** the axis of the SSE box, tracker.py:617-620 *)
Definition sse_axis (s : Z) (duv : R) (b : Z * Z) : R * R :=
  let edge := IZR s * / 2 - / 2 in (IZR (fst b) + edge + duv, IZR (snd b) + - edge + duv).

(** numpy.arange(start, stop) *)
Definition arange (start stop : R) : list R := map (fun i => start + INR i) (seq 0 (Z.to_nat (Rceil (stop - start)))).
(** Observer.sample_tile with grid=False, observer.py:201-214.  [spline] is RectBivariateSpline(cv, cu, tile, kx, ky)(v, u):
    its constructor raises ValueError unless the sizes agree and exceed the degrees (scipy fitpack2: mx > kx, my > ky). *)
Definition sample_tile (spline : list R -> list R -> tile -> R -> R -> R) (kx ky : Z) (uv : list pt2) (a : tile) (bx by_ : R * R) : result (list R) :=
  let* ins := mapM (fun q => in_box1 [fst q; snd q] [fst bx; fst by_; snd bx; snd by_]) uv in
  if negb (forallb (fun b => b) ins) then Err ValueError else
  let nc := length (hd [] a) in let nr := length a in
  let du := (snd bx - fst bx) / INR nc in
  let dv := (snd by_ - fst by_) / INR nr in
  let cu := arange (fst bx + du * / 2) (snd bx) in
  let cv := arange (fst by_ + dv * / 2) (snd by_) in
  if negb (Nat.eqb (length cu) nc && Nat.eqb (length cv) nr) then Err ValueError else
  if negb (kx <? Z.of_nat nr)%Z || negb (ky <? Z.of_nat nc)%Z then Err ValueError else
  Ok (map (fun q => spline cv cu a (snd q) (fst q)) uv).

(** Tracker.compute_observer_log_likelihoods for an image of nx * ny pixels, tracker.py:579-625.
    None: the image is skipped, with a warning. *)
Definition log_likelihoods (spline : list R -> list R -> tile -> R -> R -> R) (nx ny kx ky : Z) (sigma : R)
    (t : template) (uv : list pt2) (extract : zbox -> result tile) : result (option (list R)) :=
  let box := search_box (t_size t) kx ky uv in
  if negb (box_inbounds nx ny box) then Ok None else
  let* search := extract box in
  let sse := match_template search (t_tile t) in
  let '(l, tp, r, b) := box in
  let* v := sample_tile spline kx ky uv sse (sse_axis (fst (t_size t)) (fst (t_duv t)) (l, r)) (sse_axis (snd (t_size t)) (snd (t_duv t)) (tp, b)) in
  Ok (Some (map (fun x => x * (1 / (2 * sigma ^ 2))) v)).
