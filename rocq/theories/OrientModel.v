(** Model of ObserverCameras (src/glimpse/optimize.py:1972-2082), on the cameras and matches of CameraModel and ControlModel.

    Simplified: the images of the observer have cameras of their own (no camera is shared), and the cameras of a match are those of the images it is for.  The matches are a list in the order of the sparse matrix; indices are not negative.  scipy.optimize.minimize is any strategy that evaluates the objective at points that may depend on earlier values and then returns or raises.  Not modelled: build_keypoints and build_matches (see MatcherModel), console output. *)
From Verif Require Import Base HelpersModel CameraModel ControlModel.
Open Scope R_scope.

(** RotationMatchesXYZ of images i and j: xys and _internals *)
Record mxyz := mkmxyz { mx_i : nat; mx_j : nat; mx_xys : list vec2 * list vec2; mx_internals : list R * list R }.
Record ocams := mkocams { oc_cams : list cam; oc_anchors : list nat; oc_matches : list mxyz; oc_viewdirs : list vec3 }.
Definition viewdir3 (c : cam) : vec3 := v3 (get_viewdir c).
(** optimize.py:1987-2002 *)
Definition new_ocams (cams : list cam) (ms : list mxyz) (anchors : option (list nat)) : ocams :=
  mkocams cams (match anchors with None => [0%nat] | Some a => a end) ms (map viewdir3 cams).
(** optimize.py:2004-2007: one camera after the other; an exception leaves the first ones changed *)
Fixpoint set_each (cams : list cam) (vs : list vec3) : list cam * result unit :=
  match cams with
  | [] => ([], Ok tt)
  | c :: cs =>
    match vs with
    | [] => (c :: cs, Err IndexError)
    | (a, b, g) :: r =>
      match set_viewdir [a; b; g] c with
      | Ok c' => let (cs', e) := set_each cs r in (c' :: cs', e)
      | Err e => (c :: cs, Err e)
      end
    end
  end.
Definition with_cams (s : ocams) (cs : list cam) : ocams := mkocams cs (oc_anchors s) (oc_matches s) (oc_viewdirs s).
Definition set_cameras (s : ocams) (vs : list vec3) : ocams * result unit := let (cs, e) := set_each (oc_cams s) vs in (with_cams s cs, e).
(** optimize.py:2009-2011 *)
Definition reset_cameras (s : ocams) : ocams * result unit := set_cameras s (oc_viewdirs s).

Fixpoint upd {A} (n : nat) (f : A -> A) (l : list A) : list A := match l, n with [] , _ => [] | x :: r, O => f x :: r | x :: r, S n => x :: upd n f r end.
Fixpoint foldM {A B} (f : B -> A -> result B) (acc : B) (l : list A) : result B := match l with [] => Ok acc | x :: r => let* acc := f acc x in foldM f acc r end.
Definition at_ {A} (l : list A) (i : nat) : result A := match nth_error l i with Some x => Ok x | None => Err IndexError end.

(** optimize.py:2053-2057 *)
Definition anchor_step (w : R) (vs0 vs : list vec3) (acc : R * list vec3) (i : nat) : result (R * list vec3) :=
  let* v := at_ vs i in let* v0 := at_ vs0 i in
  let d := sub3 v v0 in
  Ok (fst acc + w / 2 * dot3 d d, upd i (fun g => add3 g (scale3 w d)) (snd acc)).
(** np.sum(np.abs(d)) *)
Definition abs_sum (d : vec3) : R := Rabs (comp 0 d) + Rabs (comp 1 d) + Rabs (comp 2 d).
(** element (e, k, n) of dD_dw (optimize.py:2063-2064): Rprime times (x, y, 1) *)
Definition dD_dw (v : vec3) (xy : vec2) (e k : nat) : R := rprime v e k 0 * fst xy + rprime v e k 1 * snd xy + rprime v e k 2 * 1.
(** optimize.py:2065-2066: the sum over world axes and points *)
Definition point_gradient (v : vec3) (xy : vec2) (d : vec3) (k : nat) : R :=
  dD_dw v xy 0 k * sign (comp 0 d) + dD_dw v xy 1 k * sign (comp 1 d) + dD_dw v xy 2 k * sign (comp 2 d).
Definition gradient3 (v : vec3) (xys : list vec2) (ds : list vec3) : vec3 :=
  let g k := sumR (map2 (fun xy d => point_gradient v xy d k) xys ds) in (g 0%nat, g 1%nat, g 2%nat).
(** optimize.py:2058-2070 *)
Definition match_step (cams : list cam) (acc : R * list vec3) (m : mxyz) : result (R * list vec3) :=
  let* ci := at_ cams (mx_i m) in let* cj := at_ cams (mx_j m) in
  let mm := mkmatches RotationMatchesXYZ ci cj None (Some (mx_xys m)) None None (Some (mx_internals m)) in
  let* p := m_rays true mm in let* q := m_rays false mm in
  if negb (length p =? length q)%nat then Err ValueError else
  let dxyz := map2 sub3 p q in
  let gradient := gradient3 (viewdir3 ci) (fst (mx_xys m)) dxyz in
  Ok (fst acc + sumR (map abs_sum dxyz), upd (mx_j m) (fun g => sub3 g gradient) (upd (mx_i m) (fun g => add3 g gradient) (snd acc))).
(** optimize.py:2047-2075: sets the cameras; objective and gradients *)
Definition objective (w : R) (s : ocams) (vs : list vec3) : ocams * result (R * list vec3) :=
  let (s', e) := set_cameras s vs in
  (s', let* _ := e in
       let* acc := foldM (anchor_step w (oc_viewdirs s) vs) (0, map (fun _ => (0, 0, 0)) vs) (oc_anchors s) in
       foldM (match_step (oc_cams s')) acc (oc_matches s)).

(** an optimiser *)
Inductive optimizer :=
  | Done (x : list vec3)
  | Raise (e : exn)
  | Evaluate (x : list vec3) (next : R * list vec3 -> optimizer).
Fixpoint run (w : R) (s : ocams) (o : optimizer) : ocams * result (list vec3) :=
  match o with
  | Done x => (s, Ok x)
  | Raise e => (s, Err e)
  | Evaluate x next =>
    let (s', r) := objective w s x in
    match r with Ok v => run w s' (next v) | Err e => (s', Err e) end
  end.
(** optimize.py:2077-2082 *)
Definition fit (w : R) (s : ocams) (minimize : list vec3 -> optimizer) : ocams * result (list vec3) :=
  let (s', r) := run w s (minimize (map viewdir3 (oc_cams s))) in
  match r with
  | Ok x => let (s'', e) := reset_cameras s' in (s'', let* _ := e in Ok x)
  | Err e => (s', Err e)
  end.
