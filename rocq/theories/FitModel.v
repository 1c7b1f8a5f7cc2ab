(** Model of optimize.Cameras.fit (src/glimpse/optimize.py:1780-1877) with index = slice(None) and method = 'least_squares' (the defaults), on ParamsModel and BuildModel.

    lmfit.minimize is any strategy that evaluates the residuals at parameter values which may depend on earlier residuals, and then returns success and values or raises; as scipy.optimize.least_squares does, it refuses (ValueError) an x_scale, or a jac_sparsity, for another number of parameters.  [scales_of]: the scale factors of a model, _build_scales (optimize.py:1568-1577), one for each parameter. *)
From Coq Require Import String.
From Verif Require Import Base XReal ParamsModel BuildModel.
Notation length := List.length.
Open Scope R_scope.

Inductive strategy :=
  | Stop (success : bool) (values : list R)
  | Fail (e : exn)
  | Try (p : list R) (next : list (R * R) -> strategy).
Record fobj := mk_fobj {
  fo_model : model; fo_cam_params : list (list (attr * pval)); fo_group_params : list (list (attr * pval));
  fo_params : list (string * lpar); fo_scales : option (list R); fo_columns : option nat (* of sparsity *) }.
(** the number of parameters *)
Definition count_params (m : model) : nat := last (cam_breaks m) 0%nat.

Section Fit.
Variable scales_of : model -> heap -> list R.

(** optimize.py:1173-1219 *)
Definition new_fobj (h : heap) (cams : list nat) (controls : list control) (cam_params : option (list (list (attr * pval)))) (group_indices : option (list (list nat)))
    (group_params : option (list (list (attr * pval)))) (weights : option (list R)) (scales sparsity : bool) : result fobj :=
  let* (m, d) := new_cameras h cams controls cam_params group_indices group_params weights in
  Ok (mk_fobj m (match cam_params with Some p => p | None => repeat [] (length cams) end)
        (match group_params with Some p => p | None => repeat [] (length (m_group_indices m)) end) d
        (if scales then Some (scales_of m h) else None) (if sparsity then Some (count_params m) else None)).
(** optimize.py:1614-1669 as a method: params and masks *)
Definition update (o : fobj) (h : heap) : result fobj :=
  let m := fo_model o in
  let* u := update_params (m_cams m) h (fo_cam_params o) (m_group_indices m) (fo_group_params o) in
  let '(cam_masks, group_masks, d) := u in
  Ok (mk_fobj (mk_model (m_cams m) (m_controls m) (m_group_indices m) group_masks cam_masks (m_weights m) (m_vectors m))
        (fo_cam_params o) (fo_group_params o) d (fo_scales o) (fo_columns o)).

Fixpoint pursue (m : model) (h : heap) (s : strategy) : heap * result (bool * list R) :=
  match s with
  | Stop b v => (h, Ok (b, v))
  | Fail e => (h, Err e)
  | Try p next => let (h', r) := residuals m (Some p) h in match r with Ok d => pursue m h' (next d) | Err e => (h', Err e) end
  end.
Variable optimizer : fobj -> strategy.
Definition wrong_size {A} (given : option (list A)) (n : nat) : bool := match given with Some l => negb (length l =? n)%nat | None => false end.
(** lmfit.minimize (optimize.py:1859-1866): None if it did not succeed (1872-1877, full = False) *)
Definition minimize (o : fobj) (h : heap) (x_scale : option (list R)) (columns : option nat) : heap * result (option (list R)) :=
  let n := length (fo_params o) in
  if (wrong_size x_scale n || match columns with Some c => negb (c =? n)%nat | None => false end)%bool then (h, Err ValueError) else
  let (h', r) := pursue (fo_model o) h (optimizer o) in
  (h', let* (success, values) := r in Ok (if success then Some values else None)).
(** kwargs (optimize.py:1819-1832): what was given, or else the object's own *)
Definition or_own {A} (given own : option A) : option A := match given with Some x => Some x | None => own end.
(** cam_params[n] if cam_params else self.cam_params *)
Definition round_params (given : list (list (list (attr * pval)))) (own : list (list (attr * pval))) (n : nat) : result (list (list (attr * pval))) :=
  match given with [] => Ok own | _ => at_index given n end.
(** one iteration, optimize.py:1845-1857 *)
Definition fit_round (o : fobj) (cam_params group_params : list (list (list (attr * pval)))) (n : nat) (h : heap) : heap * result unit :=
  match (let* cp := round_params cam_params (fo_cam_params o) n in
         let* gp := round_params group_params (fo_group_params o) n in
         new_fobj h (m_cams (fo_model o)) (m_controls (fo_model o)) (Some cp) None (Some gp) None true true) with
  | Err e => (h, Err e)
  | Ok i =>
    let (h', r) := minimize i h (or_own (fo_scales o) (fo_scales i)) (or_own (fo_columns o) (fo_columns i)) in
    match r with
    | Ok (Some values) => set_cameras (fo_model i) values h'
    | Ok None => (h', Ok tt)
    | Err e => (h', Err e)
    end
  end.
Fixpoint fit_rounds (o : fobj) (cam_params group_params : list (list (list (attr * pval)))) (ns : list nat) (h : heap) : heap * result unit :=
  match ns with [] => (h, Ok tt) | n :: r => andthen (fit_round o cam_params group_params n h) (fun h => fit_rounds o cam_params group_params r h) end.
(** optimize.py:1780-1877.  cam_params and group_params: [] = None *)
Definition fit (o : fobj) (cam_params group_params : list (list (list (attr * pval)))) (h : heap) : heap * fobj * result (option (list R)) :=
  let iterations := Nat.max (length cam_params) (length group_params) in
  if (iterations =? 0)%nat then let (h', r) := minimize o h (fo_scales o) (fo_columns o) in (h', o, r) else
  match fit_rounds o cam_params group_params (seq 0 iterations) h with
  | (h1, Err e) => (h1, o, Err e)
  | (h1, Ok _) =>
    match update o h1 with
    | Err e => (h1, o, Err e)
    | Ok o1 =>
      let (h2, r) := minimize o1 h1 (fo_scales o1) (fo_columns o1) in
      match r with
      | Err e => (h2, o1, Err e)
      | Ok v =>
        let h3 := reset_cameras (fo_model o1) h2 in
        match update o1 h3 with Err e => (h3, o1, Err e) | Ok o2 => (h3, o2, Ok v) end
      end
    end
  end.
End Fit.
