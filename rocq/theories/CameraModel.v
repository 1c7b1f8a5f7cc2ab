(** Model of src/glimpse/camera.py.

    A camera is its 20-vector, the vector saved at construction, the sensor
    size and the elevation correction.  Elements are exact reals; nan and inf
    only appear where written out ([option] = nan for projected points).
    Iterable arguments are given as the list of their items (a scalar is a
    one-element list): format_list of helpers.py is reused for padding. *)
From Verif Require Import Base HelpersModel.
Open Scope R_scope.

Record cam := mkcam {
  vec : list R;                    (* _vector: xyz viewdir imgsz f c k p *)
  orig : list R;                   (* _original_vector *)
  sensorsz : option (list R);      (* _sensorsz *)
  correction : option (R * R)      (* None = False, Some (radius, refraction) *)
}.

(** numpy slices [v[i:i+n]] and [v[i:i+n] = w]. *)
Definition slice {A} (i n : nat) (v : list A) : list A := firstn n (skipn i v).
Definition splice {A} (i : nat) (w v : list A) : list A :=
  firstn i v ++ w ++ skipn (i + length w) v.

(** Getters, camera.py:124-195; imgsz is truncated to integers
    (camera.py:151). *)
Definition get_xyz (c : cam) := slice 0 3 (vec c).
Definition get_viewdir (c : cam) := slice 3 3 (vec c).
Definition get_imgsz (c : cam) : list Z := map Rtrunc (slice 6 2 (vec c)).
Definition get_f (c : cam) := slice 8 2 (vec c).
Definition get_c (c : cam) := slice 10 2 (vec c).
Definition get_k (c : cam) := slice 12 6 (vec c).
Definition get_p (c : cam) := slice 18 2 (vec c).

(** [helpers.format_list(value, length=n, default=d)] as a value. *)
Definition fmt (x : list R) (n : Z) (d : option R) : result (list R) :=
  let* (r, _) := format_list (FIter x) (Some n) d in
  match r with Some l => Ok l | None => Err TypeError end.

(** [self._vector[i:i+n] = values]: numpy raises when the sizes differ (a
    one-element value would broadcast, but format_list never yields one here). *)
Definition set_slice (i n : nat) (x : result (list R)) (c : cam) : result cam :=
  let* w := x in
  if (length w =? n)%nat then Ok (mkcam (splice i w (vec c)) (orig c) (sensorsz c) (correction c))
  else Err ValueError.

(** Setters, camera.py:129-131, 144-146, 166-168, 175-177, 184-186, 193-195. *)
Definition set_xyz (x : list R) (c : cam) := set_slice 0 3 (fmt x 3 (Some 0)) c.
Definition set_viewdir (x : list R) (c : cam) := set_slice 3 3 (fmt x 3 (Some 0)) c.
Definition set_f (x : list R) (c : cam) := set_slice 8 2 (fmt x 2 None) c.
Definition set_c (x : list R) (c : cam) := set_slice 10 2 (fmt x 2 (Some 0)) c.
Definition set_k (x : list R) (c : cam) := set_slice 12 6 (fmt x 6 (Some 0)) c.
Definition set_p (x : list R) (c : cam) := set_slice 18 2 (fmt x 2 (Some 0)) c.

(** camera.py:153-159: [int(i)] truncates; the list comparison
    [as_int != as_float] is element-wise equality of numbers. *)
Definition set_imgsz (x : list R) (c : cam) : result cam :=
  let* as_float := fmt x 2 None in
  let as_int := map (fun r => IZR (Rtrunc r)) as_float in
  if negb (forallb (fun b => b) (map2 Reqb as_int as_float)) then Err ValueError
  else set_slice 6 2 (Ok as_int) c.

(** camera.py:202-206 *)
Definition set_sensorsz (x : option (list R)) (c : cam) : result cam :=
  match x with
  | None => Ok (mkcam (vec c) (orig c) None (correction c))
  | Some l => let* w := fmt l 2 None in Ok (mkcam (vec c) (orig c) (Some w) (correction c))
  end.

(** element-wise arithmetic of two arrays of the same shape (anything else
    raises; broadcasting of one-element arrays does not occur here). *)
Definition zip_op (f : R -> R -> R) (a b : list R) : result (list R) :=
  if (length a =? length b)%nat then Ok (map2 f a b) else Err ValueError.

Definition imgszR (c : cam) : list R := map IZR (get_imgsz c).

(** [helpers.format_list(value, length=2, default=d) * self.imgsz / self.sensorsz]
    (camera.py:104, 109, 219, 233). *)
Definition mm_to_px (x : list R) (d : option R) (c : cam) : result (list R) :=
  match sensorsz c with
  | None => Err ValueError
  | Some s => let* w := fmt x 2 d in
              let* a := zip_op Rmult w (imgszR c) in
              zip_op Rdiv a s
  end.

(** fmm and cmm, camera.py:208-234.  The getters return None without sensorsz. *)
Definition px_to_mm (v : list R) (c : cam) : option (result (list R)) :=
  match sensorsz c with
  | None => None
  | Some s => Some (let* a := zip_op Rmult v s in zip_op Rdiv a (imgszR c))
  end.
Definition get_fmm (c : cam) := px_to_mm (get_f c) c.
Definition get_cmm (c : cam) := px_to_mm (get_c c) c.
Definition set_fmm (x : list R) (c : cam) : result cam := let* v := mm_to_px x None c in set_f v c.
Definition set_cmm (x : list R) (c : cam) : result cam := let* v := mm_to_px x (Some 0) c in set_c v c.

(** Constructor, camera.py:76-120.  The vector starts as 20 nans, all of which
    are overwritten; here it starts with zeros. *)
Record cam_args := mkargs {
  a_imgsz : list R; a_f : option (list R); a_c : option (list R);
  a_sensorsz : option (list R); a_fmm : option (list R); a_cmm : option (list R);
  a_k : list R; a_p : list R; a_xyz : list R; a_viewdir : list R;
  a_correction : option (R * R)
}.
Definition given {A} (x : option A) : bool := match x with Some _ => true | None => false end.

Definition construct (a : cam_args) : result cam :=
  if ((given (a_fmm a) || given (a_cmm a)) && negb (given (a_sensorsz a)))%bool then Err ValueError else
  if (given (a_f a) && given (a_fmm a))%bool then Err ValueError else
  if (given (a_c a) && given (a_cmm a))%bool then Err ValueError else
  let c := mkcam (repeat 0 20) (repeat 0 20) None (a_correction a) in
  let* c := set_xyz (a_xyz a) c in
  let* c := set_viewdir (a_viewdir a) c in
  let* c := set_imgsz (a_imgsz a) c in
  let* c := set_sensorsz (a_sensorsz a) c in
  let* f := match a_fmm a with
            | Some m => let* v := mm_to_px m None c in Ok (Some v)
            | None => Ok (a_f a)
            end in
  match f with
  | None => Err ValueError
  | Some f =>
    let* c := set_f f c in
    let* cc := match a_cmm a with
               | Some m => mm_to_px m None c
               | None => Ok (match a_c a with Some x => x | None => [0; 0] end)
               end in
    let* c := set_c cc c in
    let* c := set_k (a_k a) c in
    let* c := set_p (a_p a) c in
    Ok (mkcam (vec c) (vec c) (sensorsz c) (correction c))
  end.

(** camera.py:392-394, 407, 506-508 *)
Definition copy (c : cam) : cam := mkcam (vec c) (vec c) (sensorsz c) (correction c).
Definition reset (c : cam) : cam := mkcam (orig c) (orig c) (sensorsz c) (correction c).
Definition idealize (c : cam) : result cam :=
  let* c := set_k (repeat 0 6) c in
  let* c := set_p (repeat 0 2) c in
  set_c (repeat 0 2) c.

(** helpers.py:1355-1370.  [de] is the candidate returned by
    scipy.optimize.differential_evolution: it is accepted iff its error is 0. *)
Definition get_scale_from_size (old new : list R) (de : R) : option R :=
  if forallb (fun b => b) (map2 Reqb new old) then Some 1
  else
    let initial := map2 Rdiv new old in
    let first := hd 0 initial in
    if forallb (fun x => Reqb first x) initial then Some first
    else
      let err := sumR (map2 (fun o n => Rabs (IZR (Rround (de * o)) - n)) old new) in
      if Reqb err 0 then Some de else None.

(** camera.py:549-567.  [size] has one element (scale factor) or two (target
    size).  When the current image size has a zero component the code goes on
    with inf/nan: outside the model. *)
Definition resize_target (size : list R) (force : bool) (de : R) (c : cam) : result (list R) :=
  let original_size := slice 6 2 (orig c) in
  if ((1 <? length size)%nat && force)%bool then Ok size
  else
    let* s :=
      if (1 <? length size)%nat
      then match get_scale_from_size original_size size de with
           | Some s => Ok s | None => Err ValueError end
      else match size with s :: _ => Ok s | [] => Err ValueError end in
    Ok (map (fun o => IZR (Rfloor (s * o + / 2))) original_size).

Definition resize (size : list R) (force : bool) (de : R) (c : cam) : result cam :=
  let* new_size := resize_target size force de c in
  if existsb (fun z => (z =? 0)%Z) (get_imgsz c) then Err OtherError else
  let* scale2d := zip_op Rdiv new_size (imgszR c) in
  let* c := set_imgsz (map (fun r => IZR (Rround r)) new_size) c in
  let* f := zip_op Rmult (get_f c) scale2d in
  let* c := set_f f c in
  let* cc := zip_op Rmult (get_c c) scale2d in
  set_c cc c.

(** One user action on a camera object.  [OSetItem i v] is an assignment
    through a view returned by a getter, such as [cam.f[0] = 2]
    (docstring camera.py:369); imgsz returns a copy, so positions 6 and 7
    cannot be reached this way. *)
Inductive cam_op :=
| OXyz (x : list R) | OViewdir (x : list R) | OImgsz (x : list R) | OF (x : list R)
| OC (x : list R) | OK (x : list R) | OP (x : list R)
| OSensorsz (x : option (list R)) | OFmm (x : list R) | OCmm (x : list R)
| OSetItem (i : nat) (v : R)
| OIdealize | OResize (size : list R) (force : bool) (de : R) | OReset.

Definition cam_step (o : cam_op) (c : cam) : result cam :=
  match o with
  | OXyz x => set_xyz x c | OViewdir x => set_viewdir x c | OImgsz x => set_imgsz x c
  | OF x => set_f x c | OC x => set_c x c | OK x => set_k x c | OP x => set_p x c
  | OSensorsz x => set_sensorsz x c | OFmm x => set_fmm x c | OCmm x => set_cmm x c
  | OSetItem i v =>
    if ((i <? 20) && negb (i =? 6) && negb (i =? 7))%nat
    then Ok (mkcam (set_nth i v (vec c)) (orig c) (sensorsz c) (correction c))
    else Ok c
  | OIdealize => idealize c
  | OResize s f d => resize s f d c
  | OReset => Ok (reset c)
  end.

(** An action that raises leaves the object as it was: every exception above
    is raised before the first assignment to the object. *)
Definition cam_do (c : cam) (o : cam_op) : cam :=
  match cam_step o c with Ok c' => c' | Err _ => c end.
Definition cam_run (ops : list cam_op) (c : cam) : cam := fold_left cam_do ops c.

(* ------------------------------------------------------------------ *)
(** * Rotation *)
Definition vec3 : Type := R * R * R.
Definition mat3 : Type := vec3 * vec3 * vec3.   (* rows *)
Definition v3 (l : list R) : vec3 := (nth 0 l 0, nth 1 l 0, nth 2 l 0).
Definition dot3 (a b : vec3) : R :=
  let '(a0, a1, a2) := a in let '(b0, b1, b2) := b in a0 * b0 + a1 * b1 + a2 * b2.
Definition add3 (a b : vec3) : vec3 :=
  let '(a0, a1, a2) := a in let '(b0, b1, b2) := b in (a0 + b0, a1 + b1, a2 + b2).
Definition sub3 (a b : vec3) : vec3 :=
  let '(a0, a1, a2) := a in let '(b0, b1, b2) := b in (a0 - b0, a1 - b1, a2 - b2).
Definition scale3 (t : R) (a : vec3) : vec3 :=
  let '(a0, a1, a2) := a in (t * a0, t * a1, t * a2).
Definition row (i : nat) (m : mat3) : vec3 :=
  let '(r0, r1, r2) := m in match i with 0%nat => r0 | 1%nat => r1 | _ => r2 end.
Definition comp (i : nat) (v : vec3) : R :=
  let '(x, y, z) := v in match i with 0%nat => x | 1%nat => y | _ => z end.
Definition entry (m : mat3) (i j : nat) : R := comp j (row i m).

Definition deg2rad (d : R) : R := d * (PI / 180).

(** camera.py:260-277 *)
Definition rotation (viewdir : vec3) : mat3 :=
  let '(yaw, pitch, roll) := viewdir in
  let C0 := cos (deg2rad yaw) in let S0 := sin (deg2rad yaw) in
  let C1 := cos (deg2rad pitch) in let S1 := sin (deg2rad pitch) in
  let C2 := cos (deg2rad roll) in let S2 := sin (deg2rad roll) in
  ((C0 * C2 + S0 * S1 * S2, C0 * S1 * S2 - C2 * S0, - C1 * S2),
   (C2 * S0 * S1 - C0 * S2, S0 * S2 + C0 * C2 * S1, - C1 * C2),
   (C1 * S0, C0 * C1, S1)).

(** camera.py:287-326.  The three literal matrices (one per angle) are stacked
    along axis 1: element [i, j, k] is entry (i, k) of the j-th literal. *)
Definition rprime_literal (viewdir : vec3) (j : nat) : mat3 :=
  let '(yaw, pitch, roll) := viewdir in
  let C0 := cos (deg2rad yaw) in let S0 := sin (deg2rad yaw) in
  let C1 := cos (deg2rad pitch) in let S1 := sin (deg2rad pitch) in
  let C2 := cos (deg2rad roll) in let S2 := sin (deg2rad roll) in
  match j with
  | 0%nat => ((C0 * S1 * S2 - S0 * C2, S0 * S2 + C0 * S1 * C2, C0 * C1),
              (- S0 * S1 * S2 - C0 * C2, C0 * S2 - S0 * S1 * C2, - S0 * C1),
              (0, 0, 0))
  | 1%nat => ((S0 * C1 * S2, S0 * C1 * C2, - S0 * S1),
              (C0 * C1 * S2, C0 * C1 * C2, - C0 * S1),
              (S1 * S2, S1 * C2, C1))
  | _ => ((S0 * S1 * C2 - C0 * S2, - S0 * S1 * S2 - C0 * C2, 0),
          (S0 * S2 + C0 * S1 * C2, S0 * C2 - C0 * S1 * S2, 0),
          (- C1 * C2, C1 * S2, 0))
  end.
Definition rprime (viewdir : vec3) (i j k : nat) : R :=
  entry (rprime_literal viewdir j) i k * (PI / 180).

(* ------------------------------------------------------------------ *)
(** * Distortion (one point) *)
Definition vec2 : Type := R * R.
Definition kk (c : cam) (i : nat) : R := nth i (get_k c) 0.
Definition pp (c : cam) (i : nat) : R := nth i (get_p c) 0.
Definition nonzero (x : R) : bool := negb (Reqb x 0).
Definition anynz (l : list R) : bool := existsb nonzero l.

(** camera.py:1124-1139.  Division by a vanishing denominator (inf) is outside
    the model. *)
Definition radial_distortion (c : cam) (r2 : R) : R :=
  let dr := 1 in
  let dr := if nonzero (kk c 0) then dr + kk c 0 * r2 else dr in
  let dr := if nonzero (kk c 1) then dr + kk c 1 * r2 * r2 else dr in
  let dr := if nonzero (kk c 2) then dr + kk c 2 * r2 * r2 * r2 else dr in
  if anynz (slice 3 3 (get_k c)) then
    let temp := 1 in
    let temp := if nonzero (kk c 3) then temp + kk c 3 * r2 else temp in
    let temp := if nonzero (kk c 4) then temp + kk c 4 * r2 * r2 else temp in
    let temp := if nonzero (kk c 5) then temp + kk c 5 * r2 * r2 * r2 else temp in
    dr / temp
  else dr.

(** camera.py:1153-1156 *)
Definition tangential_distortion (c : cam) (xy : vec2) (r2 : R) : vec2 :=
  let '(x, y) := xy in
  let xty := x * y in
  (2 * xty * pp c 0 + pp c 1 * (r2 + 2 * (x * x)),
   pp c 0 * (r2 + 2 * (y * y)) + 2 * xty * pp c 1).

(** camera.py:1166-1174 *)
Definition distort (c : cam) (xy : vec2) : vec2 :=
  let '(x, y) := xy in
  if (negb (anynz (get_k c)) && negb (anynz (get_p c)))%bool then xy
  else
    let r2 := x * x + y * y in
    let '(dx, dy) :=
      if anynz (get_k c)
      then (x * radial_distortion c r2, y * radial_distortion c r2) else xy in
    if anynz (get_p c)
    then let '(tx, ty) := tangential_distortion c xy r2 in (dx + tx, dy + ty)
    else (dx, dy).

(** numpy.arctan2 for finite arguments (no signed zero: arctan2(0, 0) = 0). *)
Definition atan2 (y x : R) : R :=
  if Rltb 0 x then atan (y / x)
  else if Rltb x 0 then (if Rltb y 0 then atan (y / x) - PI else atan (y / x) + PI)
  else if Rltb 0 y then PI / 2 else if Rltb y 0 then - (PI / 2) else 0.

Definition sign (x : R) : R := if Rltb 0 x then 1 else if Rltb x 0 then -1 else 0.
(** [a ** b] for a >= 0, b > 0 *)
Definition npower (a b : R) : R := if Rltb 0 a then Rpower a b else 0.

(** camera.py:1224-1242.  [x / cos(phi)] with x = 0: the floating-point cosine of
    the nearest double to pi/2 is not zero, so the code gets 0; exact
    reals would have 0/0, hence the explicit case. *)
Definition undistort_k1 (c : cam) (xy : vec2) : vec2 :=
  let '(x, y) := xy in
  let k1 := kk c 0 in
  let phi := atan2 y x in
  let Q := - 1 / (3 * k1) in
  let Rr := if Reqb x 0 then 0 else - x / (2 * k1 * cos phi) in
  let r :=
    if Rltb (Rr * Rr) (Q * Q * Q) then
      let th := acos (Rr * / (Q * sqrt Q)) in
      - 2 * sqrt Q * cos ((th - 2 * PI) / 3)
    else
      let A := - sign Rr * npower (Rabs Rr + sqrt (Rr * Rr - Q * Q * Q)) (1 / 3) in
      let B := if Reqb A 0 then 0 else Q / A in
      A + B in
  (cos phi * r, sin phi * r).

(** One pass of the loop camera.py:1302-1310 *)
Definition oulu_step (c : cam) (xy u : vec2) : vec2 :=
  let '(x, y) := xy in
  let '(ux, uy) := u in
  let r2 := ux * ux + uy * uy in
  let '(tx, ty) := tangential_distortion c u r2 in
  if (anynz (get_p c) && negb (anynz (get_k c)))%bool then (x - tx, y - ty)
  else if (anynz (get_k c) && negb (anynz (get_k c)))%bool
  then (x * (1 / radial_distortion c r2), y * (1 / radial_distortion c r2))
  else ((x - tx) * (1 / radial_distortion c r2), (y - ty) * (1 / radial_distortion c r2)).

(** camera.py:1300-1315 with the default tolerance 0 (no early exit). *)
Definition undistort_oulu (c : cam) (iterations : nat) (xy : vec2) : vec2 :=
  Nat.iter iterations (oulu_step c xy) xy.

(** camera.py:1198-1208 with the default method. *)
Definition undistort (c : cam) (xy : vec2) : vec2 :=
  if (negb (anynz (get_k c)) && negb (anynz (get_p c)))%bool then xy
  else if (nonzero (kk c 0) && negb (anynz (tl (get_k c))) && negb (anynz (get_p c)))%bool
  then undistort_k1 c xy
  else undistort_oulu c 20 xy.

(* ------------------------------------------------------------------ *)
(** * Projection (one point) *)
Definition Rm (c : cam) : mat3 := rotation (v3 (get_viewdir c)).

(** camera.py:1426-1433: offset from the camera, with elevation correction. *)
Definition offset (c : cam) (directions : bool) (p : vec3) : vec3 :=
  if directions then p
  else
    let '(dx, dy, dz) := sub3 p (v3 (get_xyz c)) in
    match correction c with
    | Some (radius, refraction) =>
      (dx, dy, dz + elevation_corrections (dx * dx + dy * dy) radius refraction)
    | None => (dx, dy, dz)
    end.

(** camera.py:1434-1448: camera coordinates (None = nan) and depth. *)
Definition xyz_to_xy (c : cam) (directions : bool) (p : vec3) : option vec2 * R :=
  let d := offset c directions p in
  let xc := dot3 (row 0 (Rm c)) d in
  let yc := dot3 (row 1 (Rm c)) d in
  let zc := dot3 (row 2 (Rm c)) d in
  (if Rleb zc 0 then None else Some (xc / zc, yc / zc), zc).

(** camera.py:1484-1486 *)
Definition f_ (c : cam) (i : nat) : R := nth i (get_f c) 0.
Definition center (c : cam) (i : nat) : R := nth i (imgszR c) 0 / 2 + nth i (get_c c) 0.
Definition xy_to_uv (c : cam) (xy : vec2) : vec2 :=
  let '(x, y) := distort c xy in
  (x * f_ c 0 + center c 0, y * f_ c 1 + center c 1).

(** camera.py:600-606 *)
Definition xyz_to_uv (c : cam) (directions : bool) (p : vec3) : option vec2 :=
  option_map (xy_to_uv c) (fst (xyz_to_xy c directions p)).

(** camera.py:1495-1497 *)
Definition uv_to_xy (c : cam) (uv : vec2) : vec2 :=
  let '(u, v) := uv in
  undistort c ((u - center c 0) * (1 / f_ c 0), (v - center c 1) * (1 / f_ c 1)).

(** camera.py:1464-1475 for one point and its depth. *)
Definition xy_to_xyz (c : cam) (directions : bool) (depth : R) (xy : vec2) : vec3 :=
  let '(x, y) := xy in
  let ray := add3 (add3 (scale3 x (row 0 (Rm c))) (scale3 y (row 1 (Rm c)))) (row 2 (Rm c)) in
  let ray := if Reqb depth 1 then ray else scale3 depth ray in
  if directions then ray else add3 ray (v3 (get_xyz c)).

(** The depth argument of uv_to_xyz: python scalar, python sequence or numpy
    array.  [if depth != 1] (camera.py:1471) is the truth value of the
    comparison: True for a sequence, an error for an array with more than one element. *)
Inductive depth_arg := DScalar (d : R) | DSeq (d : list R) | DArray (d : list R).

(** camera.py:639-641 for a list of points. *)
Definition uv_to_xyz (c : cam) (directions : bool) (depth : depth_arg) (uv : list vec2)
  : result (list vec3) :=
  let xy := map (uv_to_xy c) uv in
  let each ds :=
    if (length ds =? length xy)%nat
    then Ok (map2 (fun d p => xy_to_xyz c directions d p) ds xy)
    else match ds with
         | [d] => Ok (map (xy_to_xyz c directions d) xy)
         | _ => Err ValueError
         end in
  match depth with
  | DScalar d => Ok (map (xy_to_xyz c directions d) xy)
  | DSeq ds => each ds
  | DArray ds => match ds with
                 | [d] => Ok (map (xy_to_xyz c directions d) xy)
                 | [] => Ok (map (xy_to_xyz c directions 1) xy)  (* empty array: False *)
                 | _ => Err ValueError   (* truth value is ambiguous *)
                 end
  end.

(** camera.py:674-676 *)
Definition infront (c : cam) (directions : bool) (p : vec3) : bool :=
  let d := if directions then p else sub3 p (v3 (get_xyz c)) in
  Rltb 0 (dot3 d (row 2 (Rm c))).

(** camera.py:695-696 (nan compares False). *)
Definition inframe (c : cam) (uv : option vec2) : bool :=
  match uv with
  | None => false
  | Some (u, v) => (Rleb 0 u && Rleb u (nth 0 (imgszR c) 0) && (Rleb 0 v && Rleb v (nth 1 (imgszR c) 0)))%bool
  end.

(** camera.py:856-861; the result is the flattened array (None = nan). *)
Definition rasterize (c : cam) (uv : list (option vec2)) (values : list R) : result (list (option R)) :=
  let nx := nth 0 (get_imgsz c) 0%Z in
  let ny := nth 1 (get_imgsz c) 0%Z in
  let sel := filter (fun p => inframe c (fst p)) (combine uv values) in
  let rows := map (fun p => match fst p with Some (u, v) => Rtrunc v | None => 0%Z end) sel in
  let cols := map (fun p => match fst p with Some (u, v) => Rtrunc u | None => 0%Z end) sel in
  rasterize_into Some rows cols (map snd sel) (ny, nx) (repeat None (Z.to_nat (ny * nx))).

(** camera.py:892-904 (one point, with distance) and 930-943. *)
Definition spherical_to_xyz (c : cam) (azimuth altitude : R) (distance : option R) : vec3 :=
  let az := Rmod (PI / 2 - azimuth * PI / 180) (2 * PI) in
  let al := Rmod (PI / 2 - altitude * PI / 180) (2 * PI) in
  let p := (sin al * cos az, sin al * sin az, cos al) in
  match distance with
  | Some d => add3 (scale3 d p) (v3 (get_xyz c))
  | None => p
  end.
Definition xyz_to_spherical (c : cam) (directions : bool) (p : vec3) : R * R * R :=
  let '(x, y, z) := if directions then p else sub3 p (v3 (get_xyz c)) in
  let r := sqrt (x * x + y * y + z * z) in
  let az := atan2 y x in
  let al := acos (z / r) in
  (Rmod (90 - az * 180 / PI) 360, 90 - al * 180 / PI, r).

(** camera.py:762-777 for a step of two numbers (a scalar is repeated). *)
Definition edges (c : cam) (su sv : R) : result (list vec2) :=
  let W := nth 0 (imgszR c) 0 in
  let H := nth 1 (imgszR c) 0 in
  let* u := linspace 0 W (Rtrunc (W / su + 1)) in
  let* v := linspace 0 H (Rtrunc (H / sv + 1)) in
  if ((length u =? 0) || (length v <? 2))%nat then Err ValueError else
  let inner := removelast (tl v) in
  Ok (map (fun a => (a, 0)) u
      ++ map (fun b => (last u 0, b)) inner
      ++ map (fun a => (a, last v 0)) (rev u)
      ++ map (fun b => (0, b)) (rev inner)).

Definition list_of3 (p : vec3) : list R := let '(x, y, z) := p in [x; y; z].
(** camera.py:797-800 *)
Definition viewbox (c : cam) (depth : R) : result (list R) :=
  let* uv := edges c 1 1 in
  let* dxyz := uv_to_xyz c false (DScalar depth) uv in
  bounding_box (map list_of3 (v3 (get_xyz c) :: dxyz)).
(** camera.py:832-835 *)
Definition viewpoly (c : cam) (depth : R) : result (list vec3) :=
  let cy := nth 1 (imgszR c) 0 / 2 + nth 1 (get_c c) 0 in
  let* xyz := uv_to_xyz c false (DScalar depth) [(0, cy); (nth 0 (imgszR c) 0, cy)] in
  Ok (v3 (get_xyz c) :: xyz ++ [v3 (get_xyz c)]).
