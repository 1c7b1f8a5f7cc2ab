(** Model of Image: src/glimpse/image.py:85-129, 174-208, and of the parts of Exif it needs.

    Part 1 (reading).  A picture is its size and its rows of pixels; a pixel [V] holds all bands.
    GDAL is a parameter: [rescale a (w, h)] is what ReadAsArray gives for a window with
    pixels [a] and a buffer of w * h; nothing is assumed about it except (in theorems) that it
    keeps a window read at its own size, and gives the size asked for.
    Simplified: [sharedmem.copy] is the identity; a window outside the file is an error
    (GDAL reports one and returns None). *)
From Verif Require Import Base HelpersModel CameraModel.
Open Scope R_scope.

(** ** Reading *)
Section Read.
Context {V : Type}.
Record pic := mkpic { pw : Z; ph : Z; rows : list (list V) }.
Definition psize (a : pic) : Z * Z := (pw a, ph a).

(** python slice bounds: l[i:j] of a sequence of length n *)
Definition slice_bound (n i : Z) : Z := if (i <? 0)%Z then Z.max 0 (n + i) else Z.min i n.
Definition py_slice {A} (l : list A) (n i j : Z) : list A :=
  let lo := slice_bound n i in let hi := slice_bound n j in
  firstn (Z.to_nat (hi - lo)) (skipn (Z.to_nat lo) l).
Definition slice_len (n i j : Z) : Z := Z.max 0 (slice_bound n j - slice_bound n i).
(** array[box[1]:box[3], box[0]:box[2]] *)
Definition zbox4 := (Z * Z * Z * Z)%type.
Definition subset (b : zbox4) (a : pic) : pic :=
  let '(l, t, r, d) := b in
  mkpic (slice_len (pw a) l r) (slice_len (ph a) t d) (map (fun row => py_slice row (pw a) l r) (py_slice (rows a) (ph a) t d)).

Variable rescale : pic -> Z * Z -> pic.

(** band.ReadAsArray(xoff, yoff, win_xsize, win_ysize, buf_xsize, buf_ysize) *)
Definition gdal_read (file : pic) (win : option (Z * Z * Z * Z)) (buf : option (Z * Z)) : result pic :=
  let '(xoff, yoff, wx, wy) := match win with Some w => w | None => (0, 0, pw file, ph file)%Z end in
  if ((xoff <? 0) || (yoff <? 0) || (wx <=? 0) || (wy <=? 0) || (pw file <? xoff + wx) || (ph file <? yoff + wy))%Z%bool then Err OtherError else
  let w := subset (xoff, yoff, xoff + wx, yoff + wy)%Z file in
  Ok (rescale w (match buf with Some b => b | None => (wx, wy) end)).

(** self.array and self.cam.imgsz *)
Record istate := mk_istate { cached : option pic; camsz : Z * Z }.
Definition size_eqb (a b : Z * Z) : bool := ((fst a =? fst b) && (snd a =? snd b))%Z.

(** int(round(v * size / cam)) *)
Definition to_file (v size cam : Z) : Z := Rround (IZR v * (IZR size / IZR cam)).

(** Image.read, image.py:174-208.  Also whether the result is the cached array or a view of it. *)
Definition read (file : pic) (box : option zbox4) (cache : bool) (s : istate) : result (pic * bool * istate) :=
  let size := match cached s with Some a => psize a | None => psize file end in
  let resize := negb (size_eqb (camsz s) size) in
  let* (array, new_array, s) :=
    match cached s, resize with
    | Some a, false => Ok (a, false, s)
    | _, _ =>
      let buf := if resize then Some (camsz s) else None in
      let win :=
        match box, cache with
        | Some (l, t, r, d), false =>
          let fx v := to_file v (fst size) (fst (camsz s)) in
          let fy v := to_file v (snd size) (snd (camsz s)) in
          Some (fx l, fy t, fx (r - l)%Z, fy (d - t)%Z)
        | _, _ => None
        end in
      let* a := gdal_read file win buf in
      Ok (a, true, if cache then mk_istate (Some a) (camsz s) else s)
    end in
  let shared := (cache || negb new_array)%bool in
  match box with
  | Some b => if (cache || negb new_array)%bool then Ok (subset b array, shared, s) else Ok (array, shared, s)
  | None => Ok (array, shared, s)
  end.

(** what a user can do to an image, apart from writing into the arrays it gets *)
Inductive iop := IRead (box : option zbox4) (cache : bool) | IResize (size : Z * Z) | IClear.
(** cam.imgsz changes through cam.resize (or a new camera); an exception leaves the image as it was *)
Definition istep (file : pic) (o : iop) (s : istate) : istate :=
  match o with
  | IRead b c => match read file b c s with Ok (_, _, s') => s' | Err _ => s end
  | IResize n => mk_istate (cached s) n
  | IClear => mk_istate None (camsz s)
  end.
Definition irun (file : pic) (os : list iop) (s : istate) : istate := fold_left (fun s o => istep file o s) os s.
(** image.py:113 *)
Definition fresh (size : Z * Z) : istate := mk_istate None size.
End Read.
Arguments pic : clear implicits.
Arguments istate : clear implicits.

(** ** Exif, src/glimpse/exif.py *)
(** values piexif gives: bytes, a pair of integers, an integer, anything else *)
Inductive tag_value := TBytes (s : list nat) | TPair (a b : Z) | TInt (n : Z) | TOther.
Inductive parsed := PStr (s : list nat) | PNum (x : R) | POther.
(** exif.py:156-177 for a tag ([None]: not there).  value.decode() of invalid bytes is not modelled. *)
Definition parse_tag (v : option tag_value) : result (option parsed) :=
  match v with
  | None => Ok None
  | Some (TBytes s) => Ok (Some (PStr s))
  | Some (TPair a b) => if (b =? 0)%Z then Err ZeroDivisionError else Ok (Some (PNum (IZR a / IZR b)))
  | Some (TInt n) => Ok (Some (PNum (IZR n)))
  | Some TOther => Ok (Some POther)
  end.
(** [x if x else None] then float(x); strings and other values are outside the model *)
Definition truthy_num (p : option parsed) : result (option R) :=
  match p with
  | None => Ok None
  | Some (PNum x) => Ok (if Reqb x 0 then None else Some x)
  | Some _ => Err OtherError
  end.
(** tags of one image that matter for a camera *)
Record exif := mk_exif { x_width : option tag_value; x_height : option tag_value; x_focal : option tag_value;
                         x_sensor : option (list R);   (* SENSOR_SIZES.get(make + " " + model) or None *)
                         x_datetime : option Z }.      (* exif.datetime *)
(** exif.py:90-97 *)
Definition exif_imgsz (x : exif) : result (option (list R)) :=
  let* w := parse_tag (x_width x) in let* w := truthy_num w in
  let* h := parse_tag (x_height x) in let* h := truthy_num h in
  Ok (match w, h with Some w, Some h => Some [IZR (Rtrunc w); IZR (Rtrunc h)] | _, _ => None end).
(** exif.py:130-134 *)
Definition exif_fmm (x : exif) : result (option (list R)) :=
  let* f := parse_tag (x_focal x) in let* f := truthy_num f in
  Ok (option_map (fun f => [f]) f).

(** ** Constructor *)
(** the camera argument as a dictionary: a missing key is None, a key with value None is [Some None] *)
Record cam_dict := mk_dict { d_imgsz : option (option (list R)); d_f : option (option (list R)); d_c : option (option (list R));
  d_sensorsz : option (option (list R)); d_fmm : option (option (list R)); d_cmm : option (option (list R));
  d_k : option (list R); d_p : option (list R); d_xyz : option (list R); d_viewdir : option (list R); d_correction : option (option (R * R)) }.
Definition empty_dict := mk_dict None None None None None None None None None None None.
Definition dflt {A} (d : A) (o : option A) : A := match o with Some a => a | None => d end.
(** a camera, or one whose image size is nan ([self._vector[6:8] = None]) *)
Inductive made_cam := MadeCam (c : cam) | MadeNanSize.
Definition args_of (d : cam_dict) (imgsz : list R) : cam_args :=
  mkargs imgsz (dflt None (d_f d)) (dflt None (d_c d)) (dflt None (d_sensorsz d)) (dflt None (d_fmm d)) (dflt None (d_cmm d))
         (dflt (repeat 0 6) (d_k d)) (dflt (repeat 0 2) (d_p d)) (dflt (repeat 0 3) (d_xyz d)) (dflt (repeat 0 3) (d_viewdir d)) (dflt None (d_correction d)).
(** Camera( **cam ), camera.py:76-120: imgsz is a required argument.  With imgsz None the constructor
    checks its other arguments in the same way ([construct] with a size that cannot fail). *)
Definition camera_of (d : cam_dict) : result made_cam :=
  match d_imgsz d with
  | None => Err TypeError
  | Some (Some s) => let* c := construct (args_of d s) in Ok (MadeCam c)
  | Some None => let* _ := construct (args_of d [1; 1]) in Ok MadeNanSize
  end.
Definition has {A} (o : option A) : bool := match o with Some _ => true | None => false end.
(** {"imgsz": ..., "fmm": ..., "sensorsz": ..., **cam} *)
Definition supplement (imgsz fmm sensorsz : option (list R)) (d : cam_dict) : cam_dict :=
  mk_dict (Some (dflt imgsz (d_imgsz d))) (d_f d) (d_c d) (Some (dflt sensorsz (d_sensorsz d))) (Some (dflt fmm (d_fmm d))) (d_cmm d)
          (d_k d) (d_p d) (d_xyz d) (d_viewdir d) (d_correction d).
Inductive cam_arg := CNone | CDict (d : cam_dict) | CCam (c : cam).
Record image := mk_img { i_cam : made_cam; i_datetime : option Z; i_exif : option exif }.
(** Image.__init__, image.py:92-113; [load] is the outcome of Exif(path) *)
Definition new_image (load : result exif) (a : cam_arg) (datetime : option Z) (ex : option exif) : result image :=
  let* (c, ex) :=
    match a with
    | CCam c => Ok (MadeCam c, ex)
    | _ =>
      let d := match a with CDict d => d | _ => empty_dict end in
      let* (d, ex) :=
        if negb ((has (d_imgsz d) && has (d_f d)) || (has (d_fmm d) && has (d_sensorsz d)))%bool then
          let* x := match ex with Some x => Ok x | None => load end in
          let* s := exif_imgsz x in let* f := exif_fmm x in
          Ok (supplement s f (x_sensor x) d, Some x)
        else Ok (d, ex) in
      let* c := camera_of d in Ok (c, ex)
    end in
  let* (dt, ex) :=
    match datetime with
    | Some t => Ok (Some t, ex)
    | None => let* x := match ex with Some x => Ok x | None => load end in Ok (x_datetime x, Some x)
    end in
  Ok (mk_img c dt ex).
