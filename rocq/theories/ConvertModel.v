(** Model of src/glimpse/convert: Converter (converter.py) and the external camera models
    (cameras/agisoft.py, matlab.py, opencv.py, photomodeler.py).

    Floats are exact reals.  scipy.optimize.least_squares is a parameter [solve] that is
    given the residual function and the start values and returns as many values.  Reading
    XML files and text reports is in CalibModel. *)
From Verif Require Import Base HelpersModel XReal CameraModel ParamsModel.
Open Scope R_scope.

(** The argument [optimize]: False, True or a dictionary (an empty one is false). *)
Inductive opt (D : Type) := ONo | OYes | ODict (d : list D).
Arguments ONo {D}. Arguments OYes {D}. Arguments ODict {D} d.
Definition falsy {D} (o : opt D) : bool :=
  match o with ONo => true | OYes => false | ODict d => (length d =? 0)%nat end.

(** The argument [uv]: number of points or points. *)
Inductive uvarg := UGrid (n : Z) | UPoints (l : list vec2).
Definition solver : Type := (list R -> list vec2) -> list R -> list R.

(** numpy.arange *)
Definition arange (start stop step : R) : list R :=
  map (fun i => start + INR i * step) (seq 0 (Z.to_nat (Rceil ((stop - start) / step)))).
(** converter.py:53-63.  imgsz[0] / 0 is inf, for which numpy.arange raises. *)
Definition grid (W H n : Z) : result (list vec2) :=
  let d := sqrt (IZR W * IZR H / IZR n) in
  let nu := Rround (IZR W / d) in
  let nv := Rround (IZR H / d) in
  if ((nu =? 0) || (nv =? 0))%Z%bool then Err ValueError else
  let dx := IZR W / IZR nu in
  let dy := IZR H / IZR nv in
  Ok (flat_map (fun y => map (fun x => (x, y)) (arange (/ 2 * dx) (IZR W) dx)) (arange (/ 2 * dy) (IZR H) dy)).

(** Converter.__init__, converter.py:42-51 *)
Definition converter (ximgsz : Z * Z) (c : cam) (uv : uvarg) : result (list vec2) :=
  match get_imgsz c with
  | [W; H] =>
    if ((fst ximgsz =? W) && (snd ximgsz =? H))%Z%bool then
      match uv with UGrid n => grid W H n | UPoints l => Ok l end
    else Err ValueError
  | _ => Err ValueError
  end.

(** Converter.residuals, converter.py:79-85: incoming and outgoing distortion models. *)
Definition sub2 (a b : vec2) : vec2 := (fst a - fst b, snd a - snd b).
Definition residuals_in (xproject : vec2 -> vec2) (c : cam) (uv : list vec2) : list vec2 :=
  map (fun p => sub2 (xy_to_uv c (uv_to_xy c p)) (xproject (uv_to_xy c p))) uv.
Definition residuals_out (xunproject : vec2 -> vec2) (c : cam) (uv : list vec2) : list vec2 :=
  map (fun p => sub2 (xy_to_uv c (xunproject p)) p) uv.

(** Converter.optimize_cam, converter.py:100-107.  The start values given to the solver are
    returned with the result. *)
Definition with_vec (c : cam) (v : list R) : cam := mkcam v (orig c) (sensorsz c) (correction c).
Definition optimize_cam (resid : cam -> list vec2) (params : list (attr * pval)) (solve : solver) (c : cam)
  : result (cam * option (list R)) :=
  let* (mask, _) := parse_params params None in
  let x0 := mget mask (vec c) in
  let x := solve (fun x => resid (with_vec c (mput mask x (vec c)))) x0 in
  let* v := mask_assign mask x (vec c) in
  Ok (with_vec c v, Some x0).

(** Converter.optimize_xcam, converter.py:117-138, for any external camera [X] with numeric
    attributes [K] of one or more values. *)
Section Xcam.
Variables (X K : Type) (getx : K -> X -> list R) (setx : K -> list R -> X -> X).

Definition truthy (s : sel) : bool :=
  match s with STrue => true | SFalse => false | SNone => false | SInt i => negb (i =? 0)%Z | SList l => negb (length l =? 0)%nat end.
(** [x0.extend(value[idx])]: an integer index gives a number, which cannot be iterated. *)
Definition extend_values (value : list R) (s : sel) : result (list R) :=
  match s with
  | STrue => Ok value
  | SInt i => let* _ := py_get value i in Err TypeError
  | SList l => mapM (py_get value) l
  | _ => Ok []
  end.
Fixpoint start_values (indices : list (K * sel)) (x : X) : result (list R) :=
  match indices with
  | [] => Ok []
  | (k, s) :: r => let* v := extend_values (getx k x) s in let* w := start_values r x in Ok (v ++ w)
  end.
(** [apply], converter.py:124-131 *)
Fixpoint apply_values (indices : list (K * sel)) (v : list R) (x : X) : result X :=
  match indices with
  | [] => Ok x
  | (k, s) :: r =>
    let value := getx k x in
    let ps := match s with STrue => Zrange (Z.of_nat (length value)) | SInt i => [i] | SList l => l | _ => [] end in
    let* value := put_at ps (firstn (length ps) v) value in
    apply_values r (skipn (length ps) v) (setx k value x)
  end.
Definition optimize_xcam (resid : X -> list vec2) (params : list (K * sel)) (solve : solver) (x : X)
  : result (X * option (list R)) :=
  let indices := filter (fun ks => truthy (snd ks)) params in
  let* x0 := start_values indices x in
  let* x' := apply_values indices (solve (fun v => match apply_values indices v x with Ok y => resid y | Err _ => [] end) x0) x in
  Ok (x', Some x0).
End Xcam.
Arguments optimize_xcam {X K}. Arguments start_values {X K}. Arguments apply_values {X K}.

(* ------------------------------------------------------------------ *)
(** * Agisoft *)
(** cameras/agisoft.py:35-56 *)
Record agisoft := mk_ag { ag_imgsz : Z * Z; ag_f : R; ag_cx : R; ag_cy : R; ag_k1 : R; ag_k2 : R; ag_k3 : R; ag_k4 : R;
  ag_p1 : R; ag_p2 : R; ag_b1 : R; ag_b2 : R }.
Definition ci (l : list R) (i : nat) : R := nth i l 0.
Definition wh (c : cam) : Z * Z := (nth 0 (get_imgsz c) 0%Z, nth 1 (get_imgsz c) 0%Z).
(** agisoft.py:97-110 *)
Definition ag_from_initial (c : cam) : agisoft :=
  mk_ag (wh c) (ci (get_f c) 1) (ci (get_c c) 0) (ci (get_c c) 1) (ci (get_k c) 0) (ci (get_k c) 1) (ci (get_k c) 2) 0
    (ci (get_p c) 1) (ci (get_p c) 0) (ci (get_f c) 0 - ci (get_f c) 1) 0.
(** agisoft.py:147-169 *)
Definition ag_xy_to_uv (a : agisoft) (xy : vec2) : vec2 :=
  let '(x, y) := xy in
  let r2 := x ^ 2 + y ^ 2 in
  let dr := ag_k1 a * r2 + ag_k2 a * r2 ^ 2 + ag_k3 a * r2 ^ 3 + ag_k4 a * r2 ^ 4 in
  let xty := x * y in
  let dtx := ag_p1 a * (r2 + 2 * x ^ 2) + 2 * ag_p2 a * xty in
  let dty := ag_p2 a * (r2 + 2 * y ^ 2) + 2 * ag_p1 a * xty in
  let dx := x + (x * dr + dtx) in
  let dy := y + (y * dr + dty) in
  (IZR (fst (ag_imgsz a)) * / 2 + ag_cx a + dx * (ag_f a + ag_b1 a) + dy * ag_b2 a,
   IZR (snd (ag_imgsz a)) * / 2 + ag_cy a + dy * ag_f a).
Inductive ag_key := AGf | AGcx | AGcy | AGk1 | AGk2 | AGk3 | AGk4 | AGp1 | AGp2 | AGb1 | AGb2.
Definition ag_get (k : ag_key) (a : agisoft) : list R :=
  [match k with AGf => ag_f a | AGcx => ag_cx a | AGcy => ag_cy a | AGk1 => ag_k1 a | AGk2 => ag_k2 a | AGk3 => ag_k3 a | AGk4 => ag_k4 a
   | AGp1 => ag_p1 a | AGp2 => ag_p2 a | AGb1 => ag_b1 a | AGb2 => ag_b2 a end].
Definition ag_set (k : ag_key) (v : list R) (a : agisoft) : agisoft :=
  let v := ci v 0 in
  match a with mk_ag sz f cx cy k1 k2 k3 k4 p1 p2 b1 b2 =>
    match k with
    | AGf => mk_ag sz v cx cy k1 k2 k3 k4 p1 p2 b1 b2 | AGcx => mk_ag sz f v cy k1 k2 k3 k4 p1 p2 b1 b2
    | AGcy => mk_ag sz f cx v k1 k2 k3 k4 p1 p2 b1 b2 | AGk1 => mk_ag sz f cx cy v k2 k3 k4 p1 p2 b1 b2
    | AGk2 => mk_ag sz f cx cy k1 v k3 k4 p1 p2 b1 b2 | AGk3 => mk_ag sz f cx cy k1 k2 v k4 p1 p2 b1 b2
    | AGk4 => mk_ag sz f cx cy k1 k2 k3 v p1 p2 b1 b2 | AGp1 => mk_ag sz f cx cy k1 k2 k3 k4 v p2 b1 b2
    | AGp2 => mk_ag sz f cx cy k1 k2 k3 k4 p1 v b1 b2 | AGb1 => mk_ag sz f cx cy k1 k2 k3 k4 p1 p2 v b2
    | AGb2 => mk_ag sz f cx cy k1 k2 k3 k4 p1 p2 b1 v
    end end.
Definition all0 (l : list R) : bool := forallb (fun x => Reqb x 0) l.
(** agisoft.py:138-145 *)
Definition ag_from_camera (c : cam) (o : opt (ag_key * sel)) (uv : uvarg) (solve : solver) : result (agisoft * option (list R)) :=
  let x := ag_from_initial c in
  if (falsy o || all0 (slice 3 3 (get_k c)))%bool then Ok (x, None) else
  let d := match o with ODict d => d | _ => [(AGk1, STrue); (AGk2, STrue); (AGk3, STrue)] end in
  let* pts := converter (ag_imgsz x) c uv in
  optimize_xcam ag_get ag_set (fun x => residuals_in (ag_xy_to_uv x) c pts) d solve x.
(** agisoft.py:171-178 *)
Definition ag_to_initial (a : agisoft) : result cam :=
  construct (mkargs [IZR (fst (ag_imgsz a)); IZR (snd (ag_imgsz a))] (Some [ag_f a + ag_b1 a; ag_f a]) (Some [ag_cx a; ag_cy a])
    None None None [ag_k1 a; ag_k2 a; ag_k3 a] [ag_p2 a; ag_p1 a] [0; 0; 0] [0; 0; 0] None).
(** agisoft.py:210-223 *)
Definition ag_to_camera (a : agisoft) (o : opt (attr * pval)) (uv : uvarg) (solve : solver) : result (cam * option (list R)) :=
  let* c := ag_to_initial a in
  if (falsy o || negb (anynz [ag_k4 a; ag_b2 a]))%bool then Ok (c, None) else
  let d := match o with
           | ODict d => d
           | _ => if nonzero (ag_b2 a)
                  then (if nonzero (ag_k4 a) then [(Ak, PSel STrue); (Af, PSel STrue); (Ac, PSel STrue)]
                        else [(Af, PSel STrue); (Ac, PSel STrue); (Ak, PSel STrue)])
                  else if nonzero (ag_k4 a) then [(Ak, PSel STrue)] else []
           end in
  let* pts := converter (ag_imgsz a) c uv in
  optimize_cam (fun c => residuals_in (ag_xy_to_uv a) c pts) d solve c.

(* ------------------------------------------------------------------ *)
(** * Matlab *)
(** cameras/matlab.py:30-44; kc = (k1, k2, p1, p2, k3) *)
Record matlab := mk_ml { ml_imgsz : Z * Z; ml_fc : R * R; ml_cc : R * R; ml_kc : list R; ml_alpha : R }.
(** matlab.py:38-44: default principal point and distortion *)
Definition ml_new (sz : Z * Z) (fc : R * R) (cc : option (R * R)) (kc : option (list R)) (alpha : R) : matlab :=
  mk_ml sz fc (match cc with Some x => x | None => ((IZR (fst sz) - 1) / 2, (IZR (snd sz) - 1) / 2) end)
    (match kc with Some k => k | None => [0; 0; 0; 0; 0] end) alpha.
(** matlab.py:84-94 *)
Definition ml_from_initial (c : cam) : matlab :=
  mk_ml (wh c) (ci (get_f c) 0, ci (get_f c) 1)
    (ci (get_c c) 0 + / 2 * IZR (fst (wh c)) - / 2, ci (get_c c) 1 + / 2 * IZR (snd (wh c)) - / 2)
    [ci (get_k c) 0; ci (get_k c) 1; ci (get_p c) 0; ci (get_p c) 1; ci (get_k c) 2] 0.
(** matlab.py:131-151 *)
Definition ml_xy_to_uv (m : matlab) (xy : vec2) : vec2 :=
  let '(x, y) := xy in
  let kc := ci (ml_kc m) in
  let r2 := x ^ 2 + y ^ 2 in
  let dr := kc 0%nat * r2 + kc 1%nat * r2 ^ 2 + kc 4%nat * r2 ^ 3 in
  let xty := x * y in
  let dtx := 2 * kc 2%nat * xty + kc 3%nat * (r2 + 2 * x ^ 2) in
  let dty := kc 2%nat * (r2 + 2 * y ^ 2) + 2 * kc 3%nat * xty in
  let dx := x + (x * dr + dtx) in
  let dy := y + (y * dr + dty) in
  (fst (ml_fc m) * (dx + ml_alpha m * dy) + fst (ml_cc m) + / 2,
   snd (ml_fc m) * dy + snd (ml_cc m) + / 2).
Inductive ml_key := MLfc | MLcc | MLkc | MLalpha.
Definition ml_get (k : ml_key) (m : matlab) : list R :=
  match k with MLfc => [fst (ml_fc m); snd (ml_fc m)] | MLcc => [fst (ml_cc m); snd (ml_cc m)] | MLkc => ml_kc m | MLalpha => [ml_alpha m] end.
Definition ml_set (k : ml_key) (v : list R) (m : matlab) : matlab :=
  match m with mk_ml sz fc cc kc al =>
    match k with MLfc => mk_ml sz (ci v 0, ci v 1) cc kc al | MLcc => mk_ml sz fc (ci v 0, ci v 1) kc al
    | MLkc => mk_ml sz fc cc v al | MLalpha => mk_ml sz fc cc kc (ci v 0) end end.
(** matlab.py:122-129 *)
Definition ml_from_camera (c : cam) (o : opt (ml_key * sel)) (uv : uvarg) (solve : solver) : result (matlab * option (list R)) :=
  let x := ml_from_initial c in
  if (falsy o || all0 (slice 3 3 (get_k c)))%bool then Ok (x, None) else
  let d := match o with ODict d => d | _ => [(MLkc, STrue)] end in
  let* pts := converter (ml_imgsz x) c uv in
  optimize_xcam ml_get ml_set (fun x => residuals_in (ml_xy_to_uv x) c pts) d solve x.
(** matlab.py:153-163 *)
Definition ml_to_initial (m : matlab) : result cam :=
  let kc := ci (ml_kc m) in
  construct (mkargs [IZR (fst (ml_imgsz m)); IZR (snd (ml_imgsz m))] (Some [fst (ml_fc m); snd (ml_fc m)])
    (Some [fst (ml_cc m) + / 2 - IZR (fst (ml_imgsz m)) / 2; snd (ml_cc m) + / 2 - IZR (snd (ml_imgsz m)) / 2])
    None None None [kc 0%nat; kc 1%nat; kc 4%nat] [kc 2%nat; kc 3%nat] [0; 0; 0] [0; 0; 0] None).
(** matlab.py:193-200 *)
Definition ml_to_camera (m : matlab) (o : opt (attr * pval)) (uv : uvarg) (solve : solver) : result (cam * option (list R)) :=
  let* c := ml_to_initial m in
  if (falsy o || negb (nonzero (ml_alpha m)))%bool then Ok (c, None) else
  let d := match o with ODict d => d | _ => [(Af, PSel STrue); (Ac, PSel STrue); (Ak, PSel STrue); (Ap, PSel STrue)] end in
  let* pts := converter (ml_imgsz m) c uv in
  optimize_cam (fun c => residuals_in (ml_xy_to_uv m) c pts) d solve c.

(* ------------------------------------------------------------------ *)
(** * OpenCV *)
(** cameras/opencv.py:43-70 *)
Record opencv := mk_cv { cv_imgsz : Z * Z; cv_fx : R; cv_fy : R; cv_cx : R; cv_cy : R;
  cv_k1 : R; cv_k2 : R; cv_k3 : R; cv_k4 : R; cv_k5 : R; cv_k6 : R; cv_p1 : R; cv_p2 : R; cv_s1 : R; cv_s2 : R; cv_s3 : R; cv_s4 : R }.
(** opencv.py:72-101 *)
Definition cv_matrix (v : opencv) : list (list R) := [[cv_fx v; 0; cv_cx v]; [0; cv_fy v; cv_cy v]; [0; 0; 1]].
Definition cv_coeffs (v : opencv) : list R :=
  [cv_k1 v; cv_k2 v; cv_p1 v; cv_p2 v; cv_k3 v; cv_k4 v; cv_k5 v; cv_k6 v; cv_s1 v; cv_s2 v; cv_s3 v; cv_s4 v].
(** opencv.py:103-137: missing coefficients are 0, coefficients past the twelfth are ignored. *)
Definition cv_from_arrays (m : list (list R)) (x : list R) (sz : Z * Z) : opencv :=
  let e i j := nth j (nth i m []) 0 in
  let k i := nth i (firstn 12 x) 0 in
  mk_cv sz (e 0 0)%nat (e 1 1)%nat (e 0 2)%nat (e 1 2)%nat
    (k 0%nat) (k 1%nat) (k 4%nat) (k 5%nat) (k 6%nat) (k 7%nat) (k 2%nat) (k 3%nat) (k 8%nat) (k 9%nat) (k 10%nat) (k 11%nat).
(** opencv.py:167-196 *)
Definition cv_from_camera (c : cam) : opencv :=
  let k := ci (get_k c) in
  mk_cv (wh c) (ci (get_f c) 0) (ci (get_f c) 1) (ci (get_c c) 0 + IZR (fst (wh c)) / 2) (ci (get_c c) 1 + IZR (snd (wh c)) / 2)
    (k 0%nat) (k 1%nat) (k 2%nat) (k 3%nat) (k 4%nat) (k 5%nat) (ci (get_p c) 0) (ci (get_p c) 1) 0 0 0 0.
(** opencv.py:198-217.  Division by a vanishing denominator (inf) is outside the model. *)
Definition cv_xy_to_uv (v : opencv) (xy : vec2) : vec2 :=
  let '(x, y) := xy in
  let r2 := x ^ 2 + y ^ 2 in
  let dr := (1 + cv_k1 v * r2 + cv_k2 v * r2 ^ 2 + cv_k3 v * r2 ^ 3) / (1 + cv_k4 v * r2 + cv_k5 v * r2 ^ 2 + cv_k6 v * r2 ^ 3) in
  let xty := x * y in
  let dtx := cv_p2 v * (r2 + 2 * x ^ 2) + 2 * cv_p1 v * xty in
  let dty := cv_p1 v * (r2 + 2 * y ^ 2) + 2 * cv_p2 v * xty in
  let dx := dr * x + dtx + cv_s1 v * r2 + cv_s2 v * r2 ^ 2 in
  let dy := dr * y + dty + cv_s3 v * r2 + cv_s4 v * r2 ^ 2 in
  (cv_fx v * dx + cv_cx v, cv_fy v * dy + cv_cy v).
(** opencv.py:219-226 *)
Definition cv_to_initial (v : opencv) : result cam :=
  construct (mkargs [IZR (fst (cv_imgsz v)); IZR (snd (cv_imgsz v))] (Some [cv_fx v; cv_fy v])
    (Some [cv_cx v - IZR (fst (cv_imgsz v)) / 2; cv_cy v - IZR (snd (cv_imgsz v)) / 2])
    None None None [cv_k1 v; cv_k2 v; cv_k3 v; cv_k4 v; cv_k5 v; cv_k6 v] [cv_p1 v; cv_p2 v] [0; 0; 0] [0; 0; 0] None).
(** opencv.py:256-263 *)
Definition cv_to_camera (v : opencv) (o : opt (attr * pval)) (uv : uvarg) (solve : solver) : result (cam * option (list R)) :=
  let* c := cv_to_initial v in
  if (falsy o || negb (anynz [cv_s1 v; cv_s2 v; cv_s3 v; cv_s4 v]))%bool then Ok (c, None) else
  let d := match o with ODict d => d | _ => [(Ak, PSel STrue); (Ap, PSel STrue)] end in
  let* pts := converter (cv_imgsz v) c uv in
  optimize_cam (fun c => residuals_in (cv_xy_to_uv v) c pts) d solve c.

(* ------------------------------------------------------------------ *)
(** * PhotoModeler *)
(** cameras/photomodeler.py:34-53 *)
Record photomodeler := mk_pm { pm_imgsz : Z * Z; pm_focal : R; pm_xp : R; pm_yp : R; pm_fw : R; pm_fh : R;
  pm_k1 : R; pm_k2 : R; pm_k3 : R; pm_p1 : R; pm_p2 : R }.
(** photomodeler.py:90-101 *)
Definition pm_from_initial (c : cam) : result photomodeler :=
  match sensorsz c, get_fmm c, get_cmm c with
  | Some s, Some f, Some m =>
    let* f := f in let* m := m in
    Ok (mk_pm (wh c) ((ci f 0 + ci f 1) / 2) (ci m 0 + ci s 0 / 2) (ci m 1 + ci s 1 / 2) (ci s 0) (ci s 1) 0 0 0 0 0)
  | _, _, _ => Err ValueError
  end.
(** photomodeler.py:162-185 *)
Definition pm_uv_to_xy (m : photomodeler) (uv : vec2) : vec2 :=
  let '(u, v) := uv in
  let x := u * pm_fw m / IZR (fst (pm_imgsz m)) - pm_xp m in
  let y := (v * pm_fh m / IZR (snd (pm_imgsz m)) - pm_yp m) * -1 in
  let r2 := x ^ 2 + y ^ 2 in
  let dr := pm_k1 m * r2 + pm_k2 m * r2 ^ 2 + pm_k3 m * r2 ^ 3 in
  let xty := x * y in
  let dtx := pm_p1 m * (r2 + 2 * x ^ 2) + 2 * pm_p2 m * xty in
  let dty := pm_p2 m * (r2 + 2 * y ^ 2) + 2 * pm_p1 m * xty in
  ((x + (x * dr + dtx)) * (1 / pm_focal m), (y + (y * dr + dty)) * -1 * (1 / pm_focal m)).
Inductive pm_key := PMfocal | PMxp | PMyp | PMfw | PMfh | PMk1 | PMk2 | PMk3 | PMp1 | PMp2.
Definition pm_get (k : pm_key) (m : photomodeler) : list R :=
  [match k with PMfocal => pm_focal m | PMxp => pm_xp m | PMyp => pm_yp m | PMfw => pm_fw m | PMfh => pm_fh m
   | PMk1 => pm_k1 m | PMk2 => pm_k2 m | PMk3 => pm_k3 m | PMp1 => pm_p1 m | PMp2 => pm_p2 m end].
Definition pm_set (k : pm_key) (v : list R) (m : photomodeler) : photomodeler :=
  let v := ci v 0 in
  match m with mk_pm sz f xp yp fw fh k1 k2 k3 p1 p2 =>
    match k with
    | PMfocal => mk_pm sz v xp yp fw fh k1 k2 k3 p1 p2 | PMxp => mk_pm sz f v yp fw fh k1 k2 k3 p1 p2
    | PMyp => mk_pm sz f xp v fw fh k1 k2 k3 p1 p2 | PMfw => mk_pm sz f xp yp v fh k1 k2 k3 p1 p2
    | PMfh => mk_pm sz f xp yp fw v k1 k2 k3 p1 p2 | PMk1 => mk_pm sz f xp yp fw fh v k2 k3 p1 p2
    | PMk2 => mk_pm sz f xp yp fw fh k1 v k3 p1 p2 | PMk3 => mk_pm sz f xp yp fw fh k1 k2 v p1 p2
    | PMp1 => mk_pm sz f xp yp fw fh k1 k2 k3 v p2 | PMp2 => mk_pm sz f xp yp fw fh k1 k2 k3 p1 v
    end end.
(** photomodeler.py:137-160 *)
Definition pm_from_camera (c : cam) (o : opt (pm_key * sel)) (uv : uvarg) (solve : solver) : result (photomodeler * option (list R)) :=
  let* x := pm_from_initial c in
  let* f := match get_fmm c with Some f => f | None => Err TypeError end in
  let same := Reqb (ci f 0) (ci f 1) in
  if (falsy o || (same && all0 (get_k c) && all0 (get_p c)))%bool then Ok (x, None) else
  let d := match o with
           | ODict d => d
           | _ => (if same then [] else [(PMfocal, STrue); (PMfw, STrue); (PMfh, STrue); (PMxp, STrue); (PMyp, STrue)])
                  ++ (if anynz (get_k c) then [(PMk1, STrue); (PMk2, STrue); (PMk3, STrue)] else [])
                  ++ (if anynz (get_p c) then [(PMp1, STrue); (PMp2, STrue)] else [])
           end in
  let* pts := converter (pm_imgsz x) c uv in
  optimize_xcam pm_get pm_set (fun x => residuals_out (pm_uv_to_xy x) c pts) d solve x.
(** photomodeler.py:187-193 *)
Definition pm_to_initial (m : photomodeler) : result cam :=
  construct (mkargs [IZR (fst (pm_imgsz m)); IZR (snd (pm_imgsz m))] None None (Some [pm_fw m; pm_fh m]) (Some [pm_focal m])
    (Some [pm_xp m - pm_fw m / 2; pm_yp m - pm_fh m / 2]) [0; 0; 0; 0; 0; 0] [0; 0] [0; 0; 0] [0; 0; 0] None).
(** photomodeler.py:225-238 *)
Definition pm_to_camera (m : photomodeler) (o : opt (attr * pval)) (uv : uvarg) (solve : solver) : result (cam * option (list R)) :=
  let* c := pm_to_initial m in
  let k := anynz [pm_k1 m; pm_k2 m; pm_k3 m] in
  let p := anynz [pm_p1 m; pm_p2 m] in
  if (falsy o || negb (k || p))%bool then Ok (c, None) else
  let d := match o with ODict d => d | _ => (if k then [(Ak, PSel STrue)] else []) ++ (if p then [(Ap, PSel STrue)] else []) end in
  let* pts := converter (pm_imgsz m) c uv in
  optimize_cam (fun c => residuals_out (pm_uv_to_xy m) c pts) d solve c.
