(** Model of the plots of reprojection errors: Points.plot, Lines.plot, Matches.plot, Polynomial.plot and Cameras.plot (src/glimpse/optimize.py) and Converter.plot
    (src/glimpse/convert/converter.py).

    A plot is what is given to matplotlib: positions, vectors and keyword arguments.  None = nan.  Not modelled: figures (only whether there are
    any), warnings, and what was already drawn when an exception is raised. *)
From Coq Require Import String.
From Verif Require Import Base HelpersModel CameraModel ControlModel LinesModel ParamsModel BuildModel.
From Verif Require GetitemModel.
Open Scope R_scope.

(** Values of keyword arguments; dictionaries as lists, of which the first entry of a name counts *)
Inductive pvalue := PNum (r : R) | PText (s : string) | POther (n : nat).
Definition kwargs := list (string * pvalue).
Definition kget (k : string) (d : kwargs) : option pvalue := option_map snd (find (fun p => String.eqb (fst p) k) d).
(** {**a, **b} *)
Definition kmerge (a b : kwargs) : kwargs := b ++ a.
(** ColorArgs, optimize.py:34: None, a color, or a dictionary *)
Inductive color_args := Hide | Color (v : pvalue) | Args (d : kwargs).
(** [if not isinstance(args, dict): args = {name: args}] *)
Definition as_args (name : string) (c : color_args) : kwargs := match c with Args d => d | Color v => [(name, v)] | Hide => [] end.

(** Indices: the default slice(None), an integer, integers, booleans, a slice *)
Inductive pindex := Whole | One (i : Z) | Several (l : list Z) | Mask (l : list bool) | Span (start stop step : option Z).
(** [full[index]] (optimize.py:170, 436, 626, 1109).  An integer gives a number, whose length is asked for later (line 184 etc.): TypeError. *)
Definition chosen (n : nat) (ix : pindex) : result (list nat) :=
  match ix with
  | Whole => Ok (seq 0 n)
  | One i => let* _ := py_get (seq 0 n) i in Err TypeError
  | Several l => mapM (py_get (seq 0 n)) l
  | Mask m => if (length m =? n)%nat then Ok (map fst (filter snd (combine (seq 0 n) m))) else Err IndexError
  | Span a b s => let* ps := GetitemModel.positions (Z.of_nat n) a b s in Ok (map Z.to_nat ps)
  end.
(** [np.delete(full, index)] *)
Definition others (n : nat) (idx : list nat) : list nat := filter (fun i => negb (existsb (Nat.eqb i) idx)) (seq 0 n).

(** pyplot.quiver(x, y, u, v, **args) *)
Record quiver := mk_quiver { q_at : list vec2; q_by : list (option vec2); q_args : kwargs }.
(** optimize.py:159-166: [w] is the width of the image *)
Definition quiver_defaults (w : R) (kw : kwargs) : kwargs :=
  kmerge [("scale", PNum 1); ("scale_units", PText "xy"); ("angles", PText "xy"); ("units", PText "xy"); ("width", PNum (w * (5 / 1000)))]%string kw.
(** optimize.py:168-193, 433-449, 623-641: the quivers of the other and of the selected points *)
Definition pick {A} (d : A) (l : list A) (idx : list nat) : list A := map (fun i => nth i l d) idx.
Definition one_quiver (uv : list vec2) (duv : list (option vec2)) (defaults : kwargs) (idx : list nat) (args : color_args) : option quiver :=
  match idx, args with
  | [], _ | _, Hide => None
  | _, _ => Some (mk_quiver (pick (0, 0) uv idx) (pick None duv idx) (kmerge defaults (as_args "color" args)))
  end.
Record errors_plot := mk_errors { ep_unselected : option quiver; ep_selected : option quiver }.
Definition plot_errors (uv : list vec2) (pred : list (option vec2)) (ix : pindex) (selected unselected : color_args) (w : R) (kw : kwargs) : result errors_plot :=
  let duv := map2 (fun p q => option_map (fun p => (fst p - fst q, snd p - snd q)) p) pred uv in
  let* idx := chosen (length uv) ix in
  let d := quiver_defaults w kw in
  Ok (mk_errors (one_quiver uv duv d (others (length uv) idx) unselected) (one_quiver uv duv d idx selected)).
(** camera.py:1109-1112: the limits of a new plot; [figures]: whether there are figures already *)
Definition plot_limits (figures : bool) (c : cam) : option ((R * R) * (R * R)) := if figures then None else Some ((0, ControlModel.width c), (height c, 0)).

(** Points.plot, optimize.py:145-196 *)
Definition points_plot (p : points) (ix : pindex) (selected unselected : color_args) (kw : kwargs) (figures : bool) : result (errors_plot * option ((R * R) * (R * R))) :=
  let* pred := points_predicted p in
  let* e := plot_errors (points_observed p) pred ix selected unselected (ControlModel.width (p_cam p)) kw in
  Ok (e, plot_limits figures (p_cam p)).
(** pyplot.plot(u, v, **args) for each line, optimize.py:411-423 *)
Definition plot_lines (l : list (list vec2)) (c : color_args) : option (list (list vec2 * kwargs)) :=
  match c with Hide => None | _ => Some (map (fun uv => (uv, as_args "color" c)) l) end.
Record lines_drawn := mk_lines_drawn { ld_observed : option (list (list vec2 * kwargs)); ld_predicted : option (list (list vec2 * kwargs)); ld_errors : errors_plot }.
(** Lines.plot, optimize.py:377-452.  [puvs]: self._xyzs_to_uvs(); [pred]: self.predicted() *)
Definition lines_plot (l : lines) (puvs : result (list (list vec2))) (pred : result (list vec2)) (c : cam) (ix : pindex) (selected unselected observed predicted : color_args) (kw : kwargs)
  (figures : bool) : result (lines_drawn * option ((R * R) * (R * R))) :=
  let* puvs := puvs in
  let* pred := pred in
  let* e := plot_errors (l_uv l) (map Some pred) ix selected unselected (ControlModel.width c) kw in
  Ok (mk_lines_drawn (plot_lines (l_uvs l) observed) (plot_lines puvs predicted) e, plot_limits figures c).
(** Matches.plot, optimize.py:591-644, 916-918.  In RotationMatchesXY and RotationMatchesXYZ plot has no parameters, not even self, so that a call
    raises TypeError and not NotImplementedError. *)
Definition matches_plot (m : matches) (first : bool) (ix : pindex) (selected unselected : color_args) (kw : kwargs) (figures : bool) : result (errors_plot * option ((R * R) * (R * R))) :=
  match m_type m with
  | Matches | RotationMatches =>
    let* uv := m_observed first m in
    let* pred := m_predicted first m in
    let* e := plot_errors uv pred ix selected unselected (ControlModel.width (m_cam m first)) kw in
    Ok (e, plot_limits figures (m_cam m first))
  | _ => Err TypeError
  end.

(** ** Polynomial.plot, optimize.py:1071-1124 *)
(** numpy.polyval *)
Definition polyval (params : list R) (x : R) : R := fold_left (fun acc p => acc * x + p) params 0.
(** scatter(x, y, **args) *)
Definition scatter := (list vec2 * kwargs)%type.
(** [result]: a dictionary, or None (line 1112) *)
Definition poly_step (xy : list vec2) (kw : kwargs) (r : option (list (string * scatter))) (idx : list nat) (args : color_args) (label : string)
  : result (option (list (string * scatter))) :=
  match idx, args with
  | [], _ | _, Hide => Ok None
  | _, _ => match r with
            | None => Err TypeError
            | Some d => Ok (Some (d ++ [(label, (pick (0, 0) xy idx, kmerge (as_args "c" args) kw))]))
            end
  end.
(** [fit]: numpy.polyfit of the points of an index *)
Definition poly_plot (xy : list vec2) (fit : pindex -> result (list R)) (params : option (list R)) (ix : pindex) (selected unselected predicted : color_args) (kw : kwargs)
  : result (list (string * scatter) * option scatter) :=
  let* params := match params with Some p => Ok p | None => fit ix end in
  let* idx := chosen (length xy) ix in
  let* r := poly_step xy kw (Some []) (others (length xy) idx) unselected "unselected" in
  let* r := poly_step xy kw r idx selected "selected" in
  match r with
  | None => Err TypeError
  | Some d => Ok (d, match predicted with Hide => None | _ => Some (map (fun p => (fst p, polyval params (fst p))) xy, as_args "color" predicted) end)
  end.

(** ** Converter.plot, convert/converter.py:140-164.  [residuals]: self.residuals() *)
Definition converter_plot (uv residuals : list vec2) (kw : kwargs) : result quiver :=
  let kw := kmerge [("scale", PNum 1); ("width", PNum 5); ("color", PText "red"); ("scale_units", PText "xy"); ("angles", PText "xy"); ("units", PText "xy")]%string kw in
  match kget "scale" kw with
  | Some (PNum s) => Ok (mk_quiver uv (map (fun d => Some (s * fst d, s * snd d)) residuals) kw)
  | _ => Err TypeError
  end.

(** ** Cameras.plot, optimize.py:1879-1954 *)
Section CamerasPlot.
Context {P : Type}.
(** What kind of index: slice(None), a numpy array of n elements, or another.  [index != slice(None)] (line 1917) compares arrays element by element,
    and an array of several results is neither true nor false: ValueError (an empty one is false) *)
Inductive index_kind := IsWhole | IsArray (n : nat) | IsOther.
Definition index_differs (k : index_kind) : result bool :=
  match k with IsWhole => Ok false | IsArray 0 => Ok false | IsArray 1 => Ok true | IsArray _ => Err ValueError | IsOther => Ok true end.
(** [draw c o h]: control.plot for the camera object o, in the state h of the cameras.
    [camera]: an integer is a position in cams, else the camera object itself (line 1925) *)
Context (draw : control -> nat -> heap -> result P).
Definition camera_of (m : model) (camera : Z + nat) : result nat := match camera with inl i => py_get (m_cams m) i | inr o => Ok o end.
Definition cameras_plot (m : model) (params : option (list R)) (camera : Z + nat) (kind : index_kind) (h : heap) : heap * result (list P) :=
  match (let* d := index_differs kind in if (d && (1 <? length (m_controls m))%nat)%bool then Err ValueError else Ok tt) with
  | Err e => (h, Err e)
  | Ok _ =>
  let vectors := map h (m_cams m) in
  let '(h', r) := match params with None => (h, Ok tt) | Some p => set_cameras m p h end in
  match r with
  | Err e => (h', Err e)
  | Ok _ =>
    match (let* o := camera_of m camera in mapM (fun c => draw c o h') (prune_controls (m_controls m) [o])) with
    | Err e => (h', Err e)
    | Ok l => (match params with None => h' | Some _ => put_vectors (m_cams m) vectors h' end, Ok l)
    end
  end
  end.
End CamerasPlot.
