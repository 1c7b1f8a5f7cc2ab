(** Model of the parameter handling of optimize.Cameras (src/glimpse/optimize.py:1132-1778).

    Camera objects are the entries of a heap: object number -> 20-vector (the
    [_vector] of camera.py).  Optimisers (lmfit, scipy) are not modelled: only what
    they are given and what is done with their result. *)
From Verif Require Import Base HelpersModel XReal CameraModel.
Open Scope R_scope.

(* ------------------------------------------------------------------ *)
(** * Boolean masks (numpy boolean indexing) *)
Definition count_true (m : list bool) : nat := length (filter (fun b => b) m).
(** [v[m]] *)
Fixpoint mget {A} (m : list bool) (v : list A) : list A :=
  match m, v with
  | b :: m', x :: v' => if b then x :: mget m' v' else mget m' v'
  | _, _ => []
  end.
(** [v[m] = w] for as many values as selected entries *)
Fixpoint mput {A} (m : list bool) (w v : list A) : list A :=
  match m, v with
  | true :: m', x :: v' =>
    match w with y :: w' => y :: mput m' w' v' | [] => x :: mput m' w v' end
  | false :: m', x :: v' => x :: mput m' w v'
  | _, _ => v
  end.
(** [v[m] = w]: one value is broadcast, any other number of values raises. *)
Definition mask_assign {A} (m : list bool) (w v : list A) : result (list A) :=
  if (length w =? count_true m)%nat then Ok (mput m w v)
  else match w with
       | [y] => Ok (mput m (repeat y (count_true m)) v)
       | _ => Err ValueError
       end.

(* ------------------------------------------------------------------ *)
(** * parse_params, optimize.py:1457-1521 *)
Inductive attr := Axyz | Aviewdir | Aimgsz | Af | Ac | Ak | Ap.
(** optimize.py:1487-1488 *)
Definition attr_start (a : attr) : Z :=
  match a with Axyz => 0 | Aviewdir => 3 | Aimgsz => 6 | Af => 8 | Ac => 10 | Ak => 12 | Ap => 18 end.
Definition attr_stop (a : attr) : Z :=
  match a with Axyz => 3 | Aviewdir => 6 | Aimgsz => 8 | Af => 10 | Ac => 12 | Ak => 18 | Ap => 20 end.

(** A selection: True, False, None, an integer or a list of integers. *)
Inductive sel := STrue | SFalse | SNone | SInt (i : Z) | SList (l : list Z).
(** A value of the params dictionary: a selection, or a tuple (selection, min, max) of
    a selection and bounds (one or more; nan stands for nan and None). *)
Inductive pval := PSel (s : sel) | PBounded (s : sel) (lo hi : list xr).
Definition pval_sel (v : pval) : sel := match v with PSel s => s | PBounded s _ _ => s end.

(** [selection or selection == 0] (optimize.py:1497): False == 0 is True. *)
Definition selects (s : sel) : bool :=
  match s with
  | STrue => true | SFalse => true | SNone => false | SInt _ => true
  | SList l => negb (length l =? 0)%nat
  end.
(** optimize.py:1499-1502: False is the index 0. *)
Definition positions_of (a : attr) (s : sel) : list Z :=
  match s with
  | STrue => map (fun i => (attr_start a + i)%Z) (Zrange (attr_stop a - attr_start a))
  | SFalse => [attr_start a]
  | SNone => []
  | SInt i => [(attr_start a + i)%Z]
  | SList l => map (fun i => (attr_start a + i)%Z) l
  end.
(** [v[positions] = w] (fancy index: negative positions count from the end). *)
Fixpoint put_at {A} (ps : list Z) (w : list A) (v : list A) : result (list A) :=
  match ps, w with
  | p :: ps', y :: w' => let* k := py_index v p in put_at ps' w' (set_nth (Z.to_nat k) y v)
  | _, _ => Ok v
  end.

Record pstate := mk_pstate { ps_mask : list bool; ps_bounds : list (xr * xr); ps_positions : option (list Z) }.

Definition expand (l : list xr) (n : nat) : list xr := match l with [x] => repeat x n | _ => l end.

(** One pass of the loop, optimize.py:1491-1511.  [positions] keeps its value from an
    earlier pass when nothing is selected (and is unbound in the first pass). *)
Definition parse_step (s : pstate) (kv : attr * pval) : result pstate :=
  let '(a, v) := kv in
  let* s :=
    if selects (pval_sel v) then
      let ps := positions_of a (pval_sel v) in
      let* m := put_at ps (repeat true (length ps)) (ps_mask s) in
      Ok (mk_pstate m (ps_bounds s) (Some ps))
    else Ok s in
  match v with
  | PSel _ => Ok s
  | PBounded _ lo hi =>
    match ps_positions s with
    | None => Err OtherError (* UnboundLocalError *)
    | Some ps =>
      let lo := expand lo (length ps) in
      let hi := expand hi (length ps) in
      if ((length lo =? length hi) && (length lo =? length ps))%nat%bool
      then let* b := put_at ps (combine lo hi) (ps_bounds s) in Ok (mk_pstate (ps_mask s) b (ps_positions s))
      else Err ValueError
    end
  end.
Fixpoint parse_loop (s : pstate) (params : list (attr * pval)) : result pstate :=
  match params with [] => Ok s | kv :: r => let* s := parse_step s kv in parse_loop s r end.

Definition fill_min (b d : xr * xr) : xr * xr := (if is_nan (fst b) then fst d else fst b, snd b).
Definition fill_max (b d : xr * xr) : xr * xr := (fst b, if is_nan (snd b) then snd d else snd b).

(** optimize.py:1485-1521.  Keys that are not camera attributes are ignored by the code:
    here they cannot be written. *)
Definition parse_params (params : list (attr * pval)) (default_bounds : option (list (xr * xr)))
  : result (list bool * list (xr * xr)) :=
  let* s := parse_loop (mk_pstate (repeat false 20) (repeat (NaN, NaN) 20) None) params in
  let b := ps_bounds s in
  let b := match default_bounds with Some d => map2 (fun x y => fill_max (fill_min x y) y) b d | None => b end in
  Ok (ps_mask s, map (fun x => fill_max (fill_min x (NInf, PInf)) (NInf, PInf)) b).

(** optimize.py:1422-1455 *)
Definition camera_bounds (v : list R) : list (xr * xr) :=
  let fm := (nth 8 v 0 + nth 9 v 0) / 2 in
  let k := fm / 4000 in
  let p := fm / 40000 in
  let W := IZR (Rtrunc (nth 6 v 0)) in
  let H := IZR (Rtrunc (nth 7 v 0)) in
  repeat (NInf, PInf) 6 ++ repeat (Fin 0, PInf) 4
  ++ [(Fin (- (W / 2)), Fin (W / 2)); (Fin (- (H / 2)), Fin (H / 2))]
  ++ [(Fin (- k), Fin k); (Fin (- (k / 2)), Fin (k / 2)); (Fin (- (k / 2)), Fin (k / 2));
      (Fin (- k), Fin k); (Fin (- k), Fin k); (Fin (- k), Fin k)]
  ++ [(Fin (- p), Fin p); (Fin (- p), Fin p)].

(* ------------------------------------------------------------------ *)
(** * Cameras *)
Definition heap := nat -> list R.
Definition hset (o : nat) (v : list R) (h : heap) : heap := fun o' => if (o' =? o)%nat then v else h o'.

(** Control objects (Points, Lines, Matches: optimize.py:45-741): the camera objects
    they refer to, their number of points, the observed points, and the predicted points
    as a function of the cameras. *)
Record control := mk_control {
  ct_cams : list nat;
  ct_observed : list (R * R);
  ct_predict : heap -> result (list (R * R))
}.
Definition ct_size (c : control) : nat := length (ct_observed c).

Record model := mk_model {
  m_cams : list nat;                       (* cams: camera objects *)
  m_controls : list control;
  m_group_indices : list (list nat);
  m_group_masks : list (list bool);
  m_cam_masks : list (list bool);
  m_weights : option (list R);
  m_vectors : list (list R)                (* saved by the constructor or set_cameras(save=True) *)
}.

(** [np.cumsum([start] + counts)] *)
Fixpoint breaks (start : nat) (counts : list nat) : list nat :=
  start :: match counts with [] => [] | n :: r => breaks (start + n) r end.
(** optimize.py:1662-1669 *)
Definition group_breaks (m : model) : list nat := breaks 0 (map count_true (m_group_masks m)).
Definition cam_breaks (m : model) : list nat := breaks (last (group_breaks m) 0%nat) (map count_true (m_cam_masks m)).
(** [params[b[i] : b[i + 1]]] *)
Definition piece (b : list nat) (i : nat) (params : list R) : list R :=
  firstn (nth (S i) b 0%nat - nth i b 0%nat) (skipn (nth i b 0%nat) params).

(** One assignment [self.cams[j]._vector[mask] = values]; the heap as it is when an
    exception is raised is returned too. *)
Definition assign (m : model) (j : nat) (mask : list bool) (values : list R) (h : heap) : heap * result unit :=
  match nth_error (m_cams m) j with
  | None => (h, Err IndexError)
  | Some o => match mask_assign mask values (h o) with
              | Ok v => (hset o v h, Ok tt)
              | Err e => (h, Err e)
              end
  end.
Definition andthen (x : heap * result unit) (f : heap -> heap * result unit) : heap * result unit :=
  match x with (h, Ok _) => f h | (h, Err e) => (h, Err e) end.

(** optimize.py:1687-1693, inner loop *)
Fixpoint set_group (m : model) (params : list R) (i : nat) (idx : list nat) (h : heap) : heap * result unit :=
  match idx with
  | [] => (h, Ok tt)
  | j :: r =>
    andthen (assign m j (nth i (m_group_masks m) []) (piece (group_breaks m) i params) h) (fun h =>
    andthen (assign m j (nth j (m_cam_masks m) []) (piece (cam_breaks m) j params) h) (fun h =>
    set_group m params i r h))
  end.
(** optimize.py:1686-1693, outer loop *)
Fixpoint set_groups (m : model) (params : list R) (i : nat) (groups : list (list nat)) (h : heap) : heap * result unit :=
  match groups with
  | [] => (h, Ok tt)
  | idx :: r => andthen (set_group m params i idx h) (fun h => set_groups m params (S i) r h)
  end.
Definition set_cameras (m : model) (params : list R) (h : heap) : heap * result unit :=
  set_groups m params 0 (m_group_indices m) h.
(** optimize.py:1694-1695 *)
Definition save (m : model) (h : heap) : model :=
  mk_model (m_cams m) (m_controls m) (m_group_indices m) (m_group_masks m) (m_cam_masks m) (m_weights m) (map h (m_cams m)).
(** optimize.py:1697-1700, 1743-1744 *)
Fixpoint put_vectors (cams : list nat) (vectors : list (list R)) (h : heap) : heap :=
  match cams, vectors with
  | o :: r, v :: vs => put_vectors r vs (hset o v h)
  | _, _ => h
  end.
Definition reset_cameras (m : model) (h : heap) : heap := put_vectors (m_cams m) (m_vectors m) h.

(** [np.vstack([control.predicted() ...])], optimize.py:1735-1741 with index = slice(None). *)
Definition predict_now (m : model) (h : heap) : result (list (R * R)) :=
  let* l := mapM (fun c => ct_predict c h) (m_controls m) in Ok (concat l).
(** optimize.py:1732-1745 *)
Definition predicted (m : model) (params : option (list R)) (h : heap) : heap * result (list (R * R)) :=
  match params with
  | None => (h, predict_now m h)
  | Some p =>
    let vectors := map h (m_cams m) in
    match set_cameras m p h with
    | (h', Err e) => (h', Err e)
    | (h', Ok _) =>
      match predict_now m h' with
      | Err e => (h', Err e)
      | Ok r => (put_vectors (m_cams m) vectors h', Ok r)
      end
    end
  end.
Definition observed (m : model) : list (R * R) := concat (map ct_observed (m_controls m)).
(** optimize.py:1226-1232 *)
Definition normalize_weights (w : list R) : list R := map (fun x => x * INR (length w) / sumR w) w.
(** optimize.py:1760-1763; predictions and observations of different number raise. *)
Definition residuals (m : model) (params : option (list R)) (h : heap) : heap * result (list (R * R)) :=
  let '(h', r) := predicted m params h in
  (h', let* p := r in
       if (length p =? length (observed m))%nat then
         let d := map2 (fun a b => (fst a - fst b, snd a - snd b)) p (observed m) in
         match m_weights m with
         | None => Ok d
         | Some w => if (length w =? length d)%nat then Ok (map2 (fun w a => (fst a * w, snd a * w)) w d) else Err ValueError
         end
       else Err ValueError).

(** Initial parameter values, optimize.py:1629-1661: the mean over each group, then each
    camera's own values. *)
Definition mean_columns (rows : list (list R)) (n : nat) : list R :=
  map (fun q => sumR (map (fun r => nth q r 0) rows) / INR (length rows)) (seq 0 n).
Definition group_values (m : model) (h : heap) (mask : list bool) (idx : list nat) : list R :=
  mean_columns (map (fun j => mget mask (h (nth j (m_cams m) 0%nat))) idx) (count_true mask).
Definition initial_params (m : model) (h : heap) : list R :=
  concat (map2 (group_values m h) (m_group_masks m) (m_group_indices m))
  ++ concat (map2 (fun mask o => mget mask (h o)) (m_cam_masks m) (m_cams m)).

(** Jacobian sparsity, optimize.py:1579-1612: [sparse m row col] is S[row, col]. *)
Definition in_slice (b : list nat) (i col : nat) : bool :=
  ((nth i b 0 <=? col) && (col <? nth (S i) b 0))%nat%bool.
Definition find_index (o : nat) (l : list nat) : option nat :=
  (fix go i l := match l with [] => None | x :: r => if (x =? o)%nat then Some i else go (S i) r end) 0%nat l.
Definition sparse_control (m : model) (c : control) (col : nat) : bool :=
  existsb (fun o => match find_index o (m_cams m) with
                    | None => false
                    | Some j =>
                      in_slice (cam_breaks m) j col
                      || existsb (fun g => existsb (Nat.eqb j) (nth g (m_group_indices m) []) && in_slice (group_breaks m) g col)
                           (seq 0 (length (m_group_indices m)))
                    end%bool) (ct_cams c).
Definition sparse (m : model) (row col : nat) : bool :=
  existsb (fun i => in_slice (breaks 0 (map (fun c => 2 * ct_size c)%nat (m_controls m))) i row
                    && sparse_control m (nth i (m_controls m) (mk_control [] [] (fun _ => Ok []))) col)%bool
    (seq 0 (length (m_controls m))).

(** Overlap test, optimize.py:1538-1548: no camera is in two groups that select the same
    parameter (repetitions inside one group are found only when it shares a parameter with another). *)
Definition groups_with (m : model) (q : nat) : list nat :=
  filter (fun g => nth q (nth g (m_group_masks m) []) false) (seq 0 (length (m_group_masks m))).
(** numpy.unique finds fewer indices than there are *)
Definition has_duplicates (l : list nat) : bool := (length (nodup Nat.eq_dec l) <? length l)%nat.
Definition overlap_test (m : model) : result unit :=
  if existsb (fun q => (1 <? length (groups_with m q))%nat
                       && has_duplicates (concat (map (fun g => nth g (m_group_indices m) []) (groups_with m q))))%bool (seq 0 20)
  then Err ValueError else Ok tt.
