(** Model of the images of observers and their cached arrays, with references: Image.read (src/glimpse/image.py:131-208) and
    Observer.extract_tile, shift_tile, cache_images, clear_images, subset (src/glimpse/track/observer.py:132-176, 260-278, 455-464).

    ImageModel.v says what reads return.  Here arrays are python objects: an array is a buffer or a view of a box of one, the array cached
    by an image is a buffer, and writing into an array changes its buffer, hence every view of it.
    A picture is its size and its rows of pixels; a pixel is the list of its bands.  Simplified as in ImageModel.v: sharedmem.copy makes a
    new array with the same content; GDAL's resampling is a parameter.  The datetimes of observers are in TimeModel.v. *)
From Verif Require Import Base HelpersModel TemplateModel ImageModel.
Open Scope R_scope.

Section Store.
Context {V : Type}.
Variable rescale : pic V -> Z * Z -> pic V.
(** an image: its file, the size of its camera and its attribute array (image.py:85-129) *)
Record himage := mk_himage { hi_file : pic V; hi_cam : Z * Z; hi_array : option nat }.
(** the buffers in memory and the images *)
Record store := mk_store { bufs : list (pic V); imgs : list himage }.
(** a numpy array: a buffer, or the view buffer[box[1]:box[3], box[0]:box[2]] *)
Record arr := mk_arr { a_buf : nat; a_box : option zbox4 }.
Definition view (b : option zbox4) (p : pic V) : pic V := match b with Some b => subset b p | None => p end.
(** what an array holds *)
Definition contents (st : store) (a : arr) : option (pic V) := option_map (view (a_box a)) (nth_error (bufs st) (a_buf a)).
(** what the attribute array of an image holds *)
Definition held (st : store) (im : himage) : option (pic V) := match hi_array im with Some k => nth_error (bufs st) k | None => None end.

(** Image.read of image [i], image.py:174-208 *)
Definition read_image (i : nat) (box : option zbox4) (cache : bool) (st : store) : result (arr * store) :=
  match nth_error (imgs st) i with
  | None => Err OtherError
  | Some im =>
    let size := match held st im with Some a => psize a | None => psize (hi_file im) end in
    let resize := negb (size_eqb (hi_cam im) size) in
    match hi_array im, resize with
    | Some k, false => Ok (mk_arr k box, st)
    | _, _ =>
      let buf := if resize then Some (hi_cam im) else None in
      let win :=
        match box, cache with
        | Some (l, t, r, d), false =>
          let fx v := to_file v (fst size) (fst (hi_cam im)) in
          let fy v := to_file v (snd size) (snd (hi_cam im)) in
          Some (fx l, fy t, fx (r - l)%Z, fy (d - t)%Z)
        | _, _ => None
        end in
      let* a := gdal_read rescale (hi_file im) win buf in
      let k := length (bufs st) in
      let st' := mk_store (bufs st ++ [a]) (imgs st) in
      if cache then Ok (mk_arr k box, mk_store (bufs st ++ [a]) (set_nth i (mk_himage (hi_file im) (hi_cam im) (Some k)) (imgs st)))
      else Ok (mk_arr k None, st')
    end
  end.
(** img.array = None, observer.py:278 *)
Definition clear_image (i : nat) (st : store) : store :=
  match nth_error (imgs st) i with
  | Some im => mk_store (bufs st) (set_nth i (mk_himage (hi_file im) (hi_cam im) None) (imgs st))
  | None => st
  end.
(** img.cam.resize *)
Definition resize_image (i : nat) (n : Z * Z) (st : store) : store :=
  match nth_error (imgs st) i with
  | Some im => mk_store (bufs st) (set_nth i (mk_himage (hi_file im) n (hi_array im)) (imgs st))
  | None => st
  end.

(** l[i:j] = new, for as many elements *)
Definition splice {A} (l : list A) (n i j : Z) (new : list A) : list A :=
  let lo := slice_bound n i in let hi := Z.max lo (slice_bound n j) in
  firstn (Z.to_nat lo) l ++ new ++ skipn (Z.to_nat hi) l.
(** view[...] = w for a view of buffer [p] and a picture of its size *)
Definition write_view (b : option zbox4) (w p : pic V) : pic V :=
  match b with
  | None => w
  | Some (l, t, r, d) =>
    mkpic (pw p) (ph p) (splice (rows p) (ph p) t d (map2 (fun row new => splice row (pw p) l r new) (py_slice (rows p) (ph p) t d) (rows w)))
  end.
Definition write_array (a : arr) (w : pic V) (st : store) : store :=
  match nth_error (bufs st) (a_buf a) with
  | Some p => mk_store (set_nth (a_buf a) (write_view (a_box a) w p) (bufs st)) (imgs st)
  | None => st
  end.
(** a new array *)
Definition new_array (w : pic V) (st : store) : arr * store := (mk_arr (length (bufs st)) None, mk_store (bufs st ++ [w]) (imgs st)).

(** an observer: its images and its attribute cache.  Observers made by subset or split share images. *)
Record observer := mk_observer { o_images : list nat; o_cache : bool }.
(** np.asarray(self.images)[index], observer.py:267, 277 *)
Inductive oindex := ISlice (lo hi : option Z) | IInts (l : list Z).
Definition pick (o : observer) (ix : oindex) : result (list nat) :=
  let n := Z.of_nat (length (o_images o)) in
  match ix with
  | ISlice lo hi => Ok (py_slice (o_images o) n (match lo with Some i => i | None => 0%Z end) (match hi with Some j => j | None => n end))
  | IInts l => mapM (py_get (o_images o)) l
  end.
(** Observer.extract_tile, observer.py:132-147 *)
Definition extract_tile (o : observer) (box : zbox4) (img : Z) (st : store) : result (arr * store) :=
  let* i := py_get (o_images o) img in read_image i (Some box) (o_cache o) st.
(** Observer.cache_images, observer.py:260-268; what was cached before an error stays *)
Fixpoint cache_all (l : list nat) (st : store) : store * result unit :=
  match l with
  | [] => (st, Ok tt)
  | i :: l => match read_image i None true st with Ok (_, st') => cache_all l st' | Err e => (st, Err e) end
  end.
Definition cache_images (o : observer) (ix : oindex) (st : store) : store * result unit :=
  match pick o ix with Ok l => cache_all l st | Err e => (st, Err e) end.
(** Observer.clear_images, observer.py:270-278 *)
Definition clear_images (o : observer) (ix : oindex) (st : store) : store * result unit :=
  match pick o ix with Ok l => (fold_left (fun st i => clear_image i st) l st, Ok tt) | Err e => (st, Err e) end.
(** Observer.subset, observer.py:455-464: the images selected by a mask, and Observer.__init__, observer.py:56-57 *)
Definition subset_observer (o : observer) (mask : list bool) : result observer :=
  let l := map fst (filter snd (combine (o_images o) mask)) in
  if (length l <? 2)%nat then Err ValueError else Ok (mk_observer l (o_cache o)).
End Store.
Arguments himage : clear implicits.
Arguments store : clear implicits.

(** ** Observer.shift_tile, observer.py:149-176 *)
(** tile[:, :, k] *)
Definition band (k : nat) (t : pic (list R)) : tile := map (map (fun px => nth k px 0)) (rows t).
Definition nbands (t : pic (list R)) : nat := length (hd [] (hd [] (rows t))).
Definition centers (n : Z) : list R := arange (/ 2) (IZR n).
(** The new content of the array, which is also what is returned (the loop over the bands writes into the argument, which np.atleast_3d does
    not copy).  [cast] is the assignment of a real to an element of the tile's type: the identity for floats, truncation for integers.
    [spline cv cu a v u] is RectBivariateSpline(cv, cu, a, kx, ky)(v, u); the constructor raises unless the sizes exceed the degrees. *)
Definition shift_tile (spline : list R -> list R -> tile -> R -> R -> R) (cast : R -> R) (kx ky : Z) (duv : pt2) (t : pic (list R)) : result (pic (list R)) :=
  if (Rltb (/ 2) (Rabs (fst duv)) || Rltb (/ 2) (Rabs (snd duv)))%bool then Err ValueError else
  if (negb (kx <? ph t) || negb (ky <? pw t))%Z%bool then Err ValueError else
  let cu := centers (pw t) in let cv := centers (ph t) in
  Ok (mkpic (pw t) (ph t)
    (map (fun v => map (fun u => map (fun k => cast (spline cv cu (band k t) (v + snd duv) (u + fst duv))) (seq 0 (nbands t))) cu) cv)).

(** ** What a program can do with observers and their images *)
Section Program.
Variable rescale : pic (list R) -> Z * Z -> pic (list R).
Variable spline : list R -> list R -> tile -> R -> R -> R.
Variable cast : R -> R.
(** the memory, the observers, and the arrays the program has got so far *)
Record pstate := mk_pstate { p_store : store (list R); p_obs : list observer; p_arrays : list arr }.
Inductive oop :=
| OExtract (o : nat) (box : zbox4) (img : Z)          (* observer.extract_tile *)
| ORead (i : nat) (box : option zbox4) (cache : bool) (* image.read *)
| OCache (o : nat) (ix : oindex) | OClear (o : nat) (ix : oindex) (* observer.cache_images, clear_images *)
| OFlag (o : nat) (cache : bool)                      (* observer.cache = ... *)
| OSubset (o : nat) (mask : list bool)                (* observer.subset, split *)
| OResize (i : nat) (n : Z * Z)                       (* image.cam.resize *)
| OTrack (o : nat) (box : zbox4) (img : Z) (f : pic (list R) -> pic (list R)) (* Tracker.extract_tile: the result is a new array (helpers.py:331, tracker.py:523-534) *)
| OShift (a : nat) (kx ky : Z) (duv : pt2).           (* observer.shift_tile of an array got before *)
Definition with_store (s : pstate) (st : store (list R)) : pstate := mk_pstate st (p_obs s) (p_arrays s).
Definition got (s : pstate) (r : result (arr * store (list R))) : pstate :=
  match r with Ok (a, st) => mk_pstate st (p_obs s) (p_arrays s ++ [a]) | Err _ => s end.
(** an exception leaves the rest as it is *)
Definition ostep (s : pstate) (x : oop) : pstate :=
  match x with
  | OExtract o box img => match nth_error (p_obs s) o with Some ob => got s (extract_tile rescale ob box img (p_store s)) | None => s end
  | ORead i box cache => got s (read_image rescale i box cache (p_store s))
  | OCache o ix => match nth_error (p_obs s) o with Some ob => with_store s (fst (cache_images rescale ob ix (p_store s))) | None => s end
  | OClear o ix => match nth_error (p_obs s) o with Some ob => with_store s (fst (clear_images ob ix (p_store s))) | None => s end
  | OFlag o c => match nth_error (p_obs s) o with Some ob => mk_pstate (p_store s) (set_nth o (mk_observer (o_images ob) c) (p_obs s)) (p_arrays s) | None => s end
  | OSubset o mask =>
    match nth_error (p_obs s) o with
    | Some ob => match subset_observer ob mask with Ok ob' => mk_pstate (p_store s) (p_obs s ++ [ob']) (p_arrays s) | Err _ => s end
    | None => s
    end
  | OResize i n => with_store s (resize_image i n (p_store s))
  | OTrack o box img f =>
    match nth_error (p_obs s) o with
    | Some ob =>
      match extract_tile rescale ob box img (p_store s) with
      | Ok (a, st) => match contents st a with Some p => got s (Ok (new_array (f p) st)) | None => with_store s st end
      | Err _ => s
      end
    | None => s
    end
  | OShift k kx ky duv =>
    match nth_error (p_arrays s) k with
    | Some a =>
      match contents (p_store s) a with
      | Some p => match shift_tile spline cast kx ky duv p with Ok w => with_store s (write_array a w (p_store s)) | Err _ => s end
      | None => s
      end
    | None => s
    end
  end.
(** a new program: images that hold nothing *)
Definition pstart (files : list (pic (list R) * (Z * Z))) (obs : list observer) : pstate :=
  mk_pstate (mk_store [] (map (fun fs => mk_himage (fst fs) (snd fs) None) files)) obs [].
End Program.
