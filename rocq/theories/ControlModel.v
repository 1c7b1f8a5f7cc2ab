(** Model of the control objects of optimize.py:45-985 (Points, Lines, Matches, RotationMatches, RotationMatchesXY, RotationMatchesXYZ).

    Cameras are those of CameraModel.v; a control object and its user share its cameras, so operations on a camera are operations on the state.
    Image coordinates are pairs of reals, None = nan.  Not modelled: plot, indices (index = slice(None)); the projection of world lines is in LinesModel.v
    (_xyzs_to_uvs; here its result is a parameter), cameras of zero image size (division by zero). *)
From Verif Require Import Base HelpersModel CameraModel.
Open Scope R_scope.

Definition width (c : cam) : R := nth 0 (imgszR c) 0.
Definition height (c : cam) : R := nth 1 (imgszR c) 0.
Definition size2 (c : cam) : vec2 := (width c, height c).
Definition mul2 (s p : vec2) : vec2 := (fst p * fst s, snd p * snd s).
Definition div2 (a b : vec2) : vec2 := (fst a / fst b, snd a / snd b).
(** np.any(scale != 1) *)
Definition any_scale (s : vec2) : bool := negb (Reqb (fst s) 1 && Reqb (snd s) 1)%bool.

(** ** Points *)
Record points := mkpoints { p_cam : cam; p_uv : list vec2; p_xyz : list vec3; p_directions : bool; p_position : list R; p_imgsz : vec2 }.
(** optimize.py:103-113 *)
Definition new_points (c : cam) (uv : list vec2) (xyz : list vec3) (directions : bool) : result points :=
  if negb (length uv =? length xyz)%nat then Err ValueError else Ok (mkpoints c uv xyz directions (get_xyz c) (size2 c)).
(** any(a != b) of two positions *)
Definition differ (a b : list R) : bool := existsb negb (map2 Reqb a b).
(** optimize.py:120-153 *)
Definition points_observed (p : points) : list vec2 := p_uv p.
Definition points_predicted (p : points) : result (list (option vec2)) :=
  if (p_directions p && differ (get_xyz (p_cam p)) (p_position p))%bool then Err ValueError
  else Ok (map (xyz_to_uv (p_cam p) (p_directions p)) (p_xyz p)).
(** optimize.py:208-249 *)
Definition points_rescale (p : points) : points :=
  let scale := div2 (size2 (p_cam p)) (p_imgsz p) in
  mkpoints (p_cam p) (if any_scale scale then map (mul2 scale) (p_uv p) else p_uv p) (p_xyz p) (p_directions p) (p_position p) (size2 (p_cam p)).
Definition with_cam (p : points) (c : cam) : points := mkpoints c (p_uv p) (p_xyz p) (p_directions p) (p_position p) (p_imgsz p).
(** [size] = None, or the size, force and the parameter of Camera.resize *)
Definition points_resize (size : option (list R * bool * R)) (p : points) : result points :=
  match size with
  | None => Ok (points_rescale p)
  | Some (s, force, de) => let* c := resize s force de (p_cam p) in Ok (points_rescale (with_cam p c))
  end.

(** ** Lines, optimize.py:308-323, 356-381, 459-464: the merged points and their parts; the nearest of the projected points [puv] *)
Record lines := mklines { l_uvs : list (list vec2); l_uv : list vec2 }.
Definition new_lines (uvs : list (list vec2)) : result lines := match uvs with [] => Err ValueError | _ => Ok (mklines uvs (concat uvs)) end.
Definition lines_scale (s : vec2) (l : lines) : lines := if any_scale s then mklines (map (map (mul2 s)) (l_uvs l)) (map (mul2 s) (l_uv l)) else l.
Definition sqdist (a b : vec2) : R := (fst a - fst b) * (fst a - fst b) + (snd a - snd b) * (snd a - snd b).
(** np.argmin over a row of distances: the first minimum *)
Fixpoint nearest (q : vec2) (best : vec2) (l : list vec2) : vec2 :=
  match l with [] => best | x :: r => nearest q (if Rltb (sqdist q x) (sqdist q best) then x else best) r end.
Definition lines_predicted (l : lines) (puv : list vec2) : result (list vec2) :=
  match puv with [] => Err ValueError | p :: r => Ok (map (fun q => nearest q p r) (l_uv l)) end.

(** ** Matches *)
Inductive mtype := Matches | RotationMatches | RotationMatchesXY | RotationMatchesXYZ.
Record matches := mkmatches {
  m_type : mtype; m_a : cam; m_b : cam;
  m_uvs : option (list vec2 * list vec2);        (* None = None *)
  m_xys : option (list vec2 * list vec2);        (* only of the rotation types *)
  m_weights : option (list R);
  m_imgszs : option (vec2 * vec2);               (* _imgszs, only of Matches *)
  m_internals : option (list R * list R)         (* _internals, only of the rotation types *)
}.
Definition mtype_eqb (a b : mtype) : bool := match a, b with Matches, Matches | RotationMatches, RotationMatches | RotationMatchesXY, RotationMatchesXY | RotationMatchesXYZ, RotationMatchesXYZ => true | _, _ => false end.
(** [cam.to_array()[6:]] *)
Definition internals (c : cam) : list R := skipn 6 (vec c).
(** _test_matches, optimize.py:539-550: [same] if both cameras are the same object; uvs or xyzs: the attribute xyzs does not exist *)
Definition test_matches (same : bool) (uvs : option (list vec2 * list vec2)) : result unit :=
  if same then Err ValueError else
  match uvs with
  | None => Err AttributeError
  | Some (a, b) => if (length a =? length b)%nat then Ok tt else Err ValueError
  end.
Definition test_position (a b : cam) : result unit := if differ (get_xyz a) (get_xyz b) then Err ValueError else Ok tt.
(** optimize.py:520-532, 729-745, 828-843, 915-925.  [uvs] are two lists (other numbers of lists raise). *)
Definition new_matches (t : mtype) (same : bool) (a b : cam) (uvs xys : option (list vec2 * list vec2)) (weights : option (list R)) : result matches :=
  match t with
  | Matches =>
    match uvs with
    | None => Err TypeError
    | Some _ =>
      let* _ := test_matches same uvs in
      let* _ := test_position a b in
      Ok (mkmatches t a b uvs None weights (Some (size2 a, size2 b)) None)
    end
  | _ =>
    match uvs, xys with
    | None, None => Err ValueError
    | _, _ =>
      let uvs' := match t, uvs, xys with RotationMatches, None, Some (x, y) => Some (map (xy_to_uv a) x, map (xy_to_uv b) y) | _, _, _ => uvs end in
      let xys' := match xys, uvs' with None, Some (u, v) => Some (map (uv_to_xy a) u, map (uv_to_xy b) v) | _, _ => xys end in
      let* _ := test_matches same uvs' in
      Ok (mkmatches t a b uvs' xys' weights None (Some (internals a, internals b)))
    end
  end.
Definition sel {A} (first : bool) (p : A * A) : A := if first then fst p else snd p.
Definition m_cam (m : matches) (first : bool) : cam := if first then m_a m else m_b m.
(** optimize.py:762-770 *)
Definition test_internals (m : matches) : result unit :=
  match m_internals m with
  | Some (i, j) => if (differ (internals (m_a m)) i || differ (internals (m_b m)) j)%bool then Err ValueError else Ok tt
  | None => Err AttributeError
  end.
(** observed, optimize.py:563-572, 850-859, 946-948; [first] selects the first camera (cam=0) *)
Definition m_observed (first : bool) (m : matches) : result (list vec2) :=
  match m_type m with
  | Matches | RotationMatches => match m_uvs m with Some p => Ok (sel first p) | None => Err TypeError end
  | RotationMatchesXY => match m_xys m with Some p => Ok (sel first p) | None => Err TypeError end
  | RotationMatchesXYZ => Err TypeError
  end.
(** predicted, optimize.py:574-588, 772-789, 861-878, 928-944: pairs of coordinates, or unit vectors *)
Definition unit3 (v : vec3) : vec3 := scale3 (/ sqrt (dot3 v v)) v.
Definition m_predicted (first : bool) (m : matches) : result (list (option vec2)) :=
  match m_type m with
  | Matches =>
    let* _ := test_position (m_a m) (m_b m) in
    match m_uvs m with
    | Some p => Ok (map (fun uv => xyz_to_uv (m_cam m first) true (xy_to_xyz (m_cam m (negb first)) true 1 (uv_to_xy (m_cam m (negb first)) uv))) (sel (negb first) p))
    | None => Err TypeError
    end
  | RotationMatches | RotationMatchesXY =>
    let* _ := test_position (m_a m) (m_b m) in
    let* _ := test_internals m in
    match m_xys m with
    | Some p =>
      let dxyz := map (xy_to_xyz (m_cam m (negb first)) true 1) (sel (negb first) p) in
      Ok (match m_type m with RotationMatches => map (xyz_to_uv (m_cam m first) true) dxyz | _ => map (fun d => fst (xyz_to_xy (m_cam m first) true d)) dxyz end)
    | None => Err TypeError
    end
  | RotationMatchesXYZ => Err OtherError (* see m_rays *)
  end.
Definition m_rays (first : bool) (m : matches) : result (list vec3) :=
  let* _ := test_position (m_a m) (m_b m) in
  let* _ := test_internals m in
  match m_xys m with Some p => Ok (map (fun xy => unit3 (xy_to_xyz (m_cam m first) true 1 xy)) (sel first p)) | None => Err TypeError end.
(** to_type, optimize.py:637-641, 791-795, 880-887 *)
Definition to_type (t : mtype) (m : matches) : result matches :=
  if mtype_eqb t (m_type m) then Ok m else
  match m_type m with
  | Matches | RotationMatches => new_matches t false (m_a m) (m_b m) (m_uvs m) None (m_weights m)
  | _ =>
    match t with
    | Matches =>
      let uvs := match m_uvs m, m_xys m with None, Some (x, y) => Some (map (xy_to_uv (m_a m)) x, map (xy_to_uv (m_b m)) y) | u, _ => u end in
      new_matches t false (m_a m) (m_b m) uvs None (m_weights m)
    | _ => new_matches t false (m_a m) (m_b m) (m_uvs m) (m_xys m) (m_weights m)
    end
  end.
(** resize, optimize.py:643-666.  An exception leaves the first camera resized: the state after it is returned too. *)
Definition set_cams (m : matches) (a b : cam) : matches := mkmatches (m_type m) a b (m_uvs m) (m_xys m) (m_weights m) (m_imgszs m) (m_internals m).
Definition rescale (old new : vec2) (uv : list vec2) : list vec2 * vec2 :=
  let scale := div2 new old in if any_scale scale then (map (mul2 scale) uv, new) else (uv, old).
Definition resize_cam (size : option (list R * bool * R)) (c : cam) : result cam := match size with None => Ok c | Some (s, force, de) => resize s force de c end.
Definition m_resize (size : option (list R * bool * R)) (m : matches) : matches * result unit :=
  match resize_cam size (m_a m) with
  | Err e => (m, Err e)
  | Ok a =>
    let m := set_cams m a (m_b m) in
    match m_imgszs m, m_uvs m with
    | Some (sa, sb), Some (ua, ub) =>
      let (ua, sa) := rescale sa (size2 a) ua in
      let m := mkmatches (m_type m) a (m_b m) (Some (ua, ub)) (m_xys m) (m_weights m) (Some (sa, sb)) (m_internals m) in
      match resize_cam size (m_b m) with
      | Err e => (m, Err e)
      | Ok b =>
        let (ub, sb) := rescale sb (size2 b) ub in
        (mkmatches (m_type m) a b (Some (ua, ub)) (m_xys m) (m_weights m) (Some (sa, sb)) (m_internals m), Ok tt)
      end
    | None, _ => (m, Err AttributeError)
    | _, None => (m, Err TypeError)
    end
  end.

(** filter, optimize.py:668-741.  Zero is false: a zero or missing limit is not applied.
    [order] is np.argsort(-weights). *)
Definition keep {A} (mask : list bool) (l : list A) : list A := map snd (filter fst (combine mask l)).
Definition given (x : option R) : option R := match x with Some v => if Reqb v 0 then None else Some v | None => None end.
(** selected[order[n:]] = False *)
Definition best_mask (n : nat) (order : list nat) (size : nat) : list bool := map (fun i => negb (existsb (Nat.eqb i) (skipn n order))) (seq 0 size).
Definition and_mask (a b : list bool) : list bool := map2 andb a b.
(** selected[selected] &= test(of the selected items) *)
Definition refine (mask test : list bool) : list bool := and_mask mask test.
Definition norm2 (a b : vec2) : R := sqrt (sqdist a b).
(** norm(...) <= limit; false for nan *)
Definition near (limit : R) (a : vec2) (b : option vec2) : bool := match b with Some q => Rleb (norm2 a q) limit | None => false end.
Record filter_args := mkfilter { n_best : option nat; min_weight : option R; ref_first : bool; max_error : option R; max_distance : option R; scaled : bool }.
Definition m_filter (args : filter_args) (order : list nat) (m : matches) : result matches :=
  let* size := match m_type m with
               | Matches | RotationMatches => match m_uvs m with Some (u, _) => Ok (length u) | None => Err TypeError end
               | _ => match m_xys m with Some (x, _) => Ok (length x) | None => Err TypeError end
               end in
  let n := match n_best args with Some (S k) => Some (S k) | _ => None end in
  let* mask := match m_weights m, n, given (min_weight args) with
               | None, None, None => Ok (repeat true size)
               | None, _, _ => Err ValueError
               | Some w, _, _ =>
                 let mask := match n with Some k => best_mask k order size | None => repeat true size end in
                 Ok (match given (min_weight args) with Some lo => and_mask mask (map (fun x => Rleb lo x) w) | None => mask end)
               end in
  let first := ref_first args in
  let unit_ := if scaled args then width (m_cam m first) else 1 in
  let* mask := match given (max_error args) with
               | None => Ok mask
               | Some e =>
                 let* o := m_observed first m in
                 let* p := m_predicted first m in
                 Ok (refine mask (map2 (near (e * unit_)) o p))
               end in
  let* mask := match given (max_distance args), existsb (fun b => b) mask with
               | Some d, true =>
                 let* o := m_observed first m in
                 let* q := m_observed (negb first) m in
                 let scale := div2 (size2 (m_cam m first)) (size2 (m_cam m (negb first))) in
                 Ok (refine mask (map2 (fun o q => Rleb (norm2 (mul2 scale q) o) (d * unit_)) o q))
               | _, _ => Ok mask
               end in
  let keep2 p := (keep mask (fst p), keep mask (snd p)) in
  Ok (mkmatches (m_type m) (m_a m) (m_b m)
    (option_map keep2 (m_uvs m)) (match m_uvs m with None => option_map keep2 (m_xys m) | Some _ => m_xys m end)
    (option_map (keep mask) (m_weights m)) (m_imgszs m) (m_internals m)).
