(** Model of the construction of optimize.Cameras: __init__ (optimize.py:1173-1219), _as_lists (1235-1262, lists only), _lmfit_labels (1264-1284),
    prune_controls (1290-1323), _test (1523-1564) and update_params (1614-1669), and of lmfit.Parameters.add (lmfit is not part of the repository).

    Indices of cameras in groups are not negative; camera parameters are finite. The scale factors are in ScalesModel. *)
From Coq Require Import String Ascii DecimalString.
From Verif Require Import Base XReal ParamsModel.
Open Scope R_scope.

Notation pdict := (list (attr * pval)) (only parsing).

(** lmfit.Parameter: its value and bounds *)
Record lpar := mk_lpar { lp_value : R; lp_min : xr; lp_max : xr }.
(** [isclose(min, max, atol=1e-13, rtol=1e-13)] *)
Definition isclose (a b : xr) : bool :=
  match a, b with
  | Fin x, Fin y => Rleb (Rabs (x - y)) (/ 10 ^ 13 + / 10 ^ 13 * Rabs y)
  | PInf, PInf | NInf, NInf => true
  | _, _ => false end.
(** lmfit.Parameter._init_bounds: bounds in the wrong order are exchanged, equal bounds raise, values are moved into the bounds.
    (After this test the upper bound is not -inf and the lower bound is not inf.) *)
Definition clip_max (hi : xr) (v : R) : R := match hi with Fin x => if Rltb x v then x else v | _ => v end.
Definition clip_min (lo : xr) (v : R) : R := match lo with Fin x => if Rltb v x then x else v | _ => v end.
Definition lmfit_parameter (v : R) (b : xr * xr) : result lpar :=
  let '(lo, hi) := if xlt (snd b) (fst b) then (snd b, fst b) else b in
  if isclose lo hi then Err ValueError else Ok (mk_lpar (clip_min lo (clip_max hi v)) lo hi).

(** A dictionary in order of insertion; an existing key is replaced *)
Fixpoint dict_put {A} (k : string) (v : A) (d : list (string * A)) : list (string * A) :=
  match d with [] => [(k, v)] | (k', v') :: r => if String.eqb k k' then (k, v) :: r else (k', v') :: dict_put k v r end.
(** lmfit.Parameters.add for [zip(labels, values, bounds)], optimize.py:1648-1651, 1655-1661 *)
Fixpoint add_all (labels : list string) (values : list R) (bounds : list (xr * xr)) (d : list (string * lpar)) : result (list (string * lpar)) :=
  match labels, values, bounds with
  | l :: ls, v :: vs, b :: bs => let* p := lmfit_parameter v b in add_all ls vs bs (dict_put l p d)
  | _, _, _ => Ok d
  end.

(** optimize.py:1268-1284 *)
Open Scope string_scope.
Definition str (n : nat) : string := NilEmpty.string_of_uint (Nat.to_uint n).
Definition base_labels : list string :=
  concat (map (fun al => map (fun i => fst al ++ str i) (seq 0 (snd al)))
    [("xyz", 3); ("viewdir", 3); ("imgsz", 2); ("f", 2); ("c", 2); ("k", 6); ("p", 2)]%nat).
Definition cam_labels (cam : nat) (mask : list bool) : list string := map (fun l => "cam" ++ str cam ++ "_" ++ l) (mget mask base_labels).
Definition group_labels (group : nat) (mask : list bool) : list string := map (fun l => "group" ++ str group ++ "_" ++ l) (mget mask base_labels).
Close Scope string_scope.

(** optimize.py:1635-1640: the greatest of the lower and the least of the upper bounds of the cameras *)
Definition xmax (a b : xr) : xr := if xlt a b then b else a.
Definition xmin (a b : xr) : xr := if xlt b a then b else a.
Definition group_default (bs : list (list (xr * xr))) : result (list (xr * xr)) :=
  match bs with
  | [] => Err ValueError
  | b :: r => Ok (fold_left (map2 (fun x y => (xmax (fst x) (fst y), xmin (snd x) (snd y)))) r b)
  end.
Definition at_index {A} (l : list A) (i : nat) : result A := match nth_error l i with Some x => Ok x | None => Err IndexError end.
(** optimize.py:1646-1648: mean over the cameras of the group *)
Definition group_start (cams : list nat) (h : heap) (mask : list bool) (idx : list nat) : list R :=
  mean_columns (map (fun j => mget mask (h (nth j cams 0%nat))) idx) (count_true mask).
(** optimize.py:1634-1652 *)
Fixpoint group_loop (cams : list nat) (h : heap) (cam_bounds : list (list (xr * xr))) (group_params : list pdict)
    (group : nat) (groups : list (list nat)) (d : list (string * lpar)) : result (list (list bool) * list (string * lpar)) :=
  match groups with
  | [] => Ok ([], d)
  | idx :: r =>
    let* bs := mapM (at_index cam_bounds) idx in
    let* default := group_default bs in
    let* params := at_index group_params group in
    let* mb := parse_params params (Some default) in
    let* d := add_all (group_labels group (fst mb)) (group_start cams h (fst mb) idx) (mget (fst mb) (snd mb)) d in
    let* rest := group_loop cams h cam_bounds group_params (S group) r d in
    Ok (fst mb :: fst rest, snd rest)
  end.
(** optimize.py:1654-1661; [cs]: mask and bounds of each camera *)
Fixpoint cam_loop (h : heap) (cs : list (list bool * list (xr * xr))) (i : nat) (cams : list nat) (d : list (string * lpar)) : result (list (string * lpar)) :=
  match cams with
  | [] => Ok d
  | o :: r =>
    let* mb := at_index cs i in
    let* d := add_all (cam_labels i (fst mb)) (mget (fst mb) (h o)) (mget (fst mb) (snd mb)) d in
    cam_loop h cs (S i) r d
  end.
(** optimize.py:1614-1669: masks of cameras and groups, and params *)
Definition update_params (cams : list nat) (h : heap) (cam_params : list pdict) (group_indices : list (list nat)) (group_params : list pdict)
  : result (list (list bool) * list (list bool) * list (string * lpar)) :=
  let* cs := mapM (fun po => parse_params (fst po) (Some (camera_bounds (h (snd po))))) (combine cam_params cams) in
  let* _ := match cs with [] => Err ValueError | _ => Ok tt end in
  let* g := group_loop cams h (map snd cs) group_params 0 group_indices [] in
  let* d := cam_loop h cs 0 cams (snd g) in
  Ok (map fst cs, fst g, d).

(** optimize.py:1319-1323 *)
Definition prune_controls (controls : list control) (cams : list nat) : list control :=
  filter (fun c => existsb (fun o => existsb (Nat.eqb o) cams) (ct_cams c)) controls.

Definition has_key (a : attr) (p : pdict) : bool :=
  existsb (fun kv => match a, fst kv with Axyz, Axyz | Aviewdir, Aviewdir | Aimgsz, Aimgsz | Af, Af | Ac, Ac | Ak, Ak | Ap, Ap => true | _, _ => false end) p.
Definition imgsz_of (h : heap) (o : nat) : Z * Z := (Rtrunc (nth 6 (h o) 0), Rtrunc (nth 7 (h o) 0)).
(** [len(np.unique(sizes, axis=0)) > 1] *)
Definition sizes_differ (h : heap) (cams : list nat) (idx : list nat) : bool :=
  match map (fun j => imgsz_of h (nth j cams 0%nat)) idx with
  | [] => false
  | s :: r => existsb (fun t => negb ((fst s =? fst t)%Z && (snd s =? snd t)%Z)) r
  end.
Definition empty_dict (p : pdict) : bool := match p with [] => true | _ => false end.
(** optimize.py:1525-1564 *)
Definition test_model (h : heap) (m : model) (cam_params group_params : list pdict) : result unit :=
  if (length (m_controls m) =? 0)%nat then Err ValueError else
  if existsb (fun ip => (has_key Af (snd ip) || has_key Ac (snd ip)) && sizes_differ h (m_cams m) (fst ip))%bool (combine (m_group_indices m) group_params)
  then Err ValueError else
  let* _ := overlap_test m in
  let with_params i := (negb (empty_dict (nth i cam_params []))
    || existsb (fun ip => existsb (Nat.eqb i) (fst ip) && negb (empty_dict (snd ip)))%bool (combine (m_group_indices m) group_params))%bool in
  if existsb (fun i => with_params i && negb (existsb (fun c => existsb (Nat.eqb (nth i (m_cams m) 0%nat)) (ct_cams c)) (m_controls m)))%bool
       (seq 0 (length (m_cams m)))
  then Err ValueError else Ok tt.

(** optimize.py:1173-1209 *)
Definition new_cameras (h : heap) (cams : list nat) (controls : list control) (cam_params : option (list pdict))
    (group_indices : option (list (list nat))) (group_params : option (list pdict)) (weights : option (list R)) : result (model * list (string * lpar)) :=
  let* group_indices := match group_indices with
    | Some [] => Err IndexError
    | Some g => Ok g
    | None => Ok [seq 0 (length cams)] end in
  let controls := prune_controls controls cams in
  let cam_params := match cam_params with Some p => p | None => repeat [] (length cams) end in
  let group_params := match group_params with Some p => p | None => repeat [] (length group_indices) end in
  let* u := update_params cams h cam_params group_indices group_params in
  let '(cam_masks, group_masks, d) := u in
  let m := mk_model cams controls group_indices group_masks cam_masks (option_map normalize_weights weights) (map h cams) in
  let* _ := test_model h m cam_params group_params in
  Ok (m, d).
