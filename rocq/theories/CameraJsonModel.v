(** Model of Camera.to_dict, Camera.to_json and Camera.from_json (camera.py:330-352, 428-487), of helpers.numpy_to_native (helpers.py:118-131) and, for the arguments that can come out of a JSON file, of the constructor (camera.py:76-120).

    Here the numbers of a camera may be nan or infinite (XReal.v), because JSON files written by Python can hold NaN and Infinity and because from_json itself turns null into nan.

    Simplifications: the text of the file is not modelled (json.dumps and json.load are taken to be inverse to each other, which holds for floats, nan and infinities); arrays in the file hold only numbers, booleans and null (no strings, no arrays of arrays); a string is read as a number by [parse_float], a parameter. *)
From Coq Require Import String.
From Verif Require Import Base XReal HelpersModel CameraModel.
Notation length := List.length.
Open Scope R_scope.

(** the keyword arguments of the constructor (camera.py:76-89); anything else is [Kother] *)
Inductive key := Kxyz | Kviewdir | Kimgsz | Kf | Kc | Kk | Kp | Ksensorsz | Kfmm | Kcmm | Kcorrection | Kother (name : nat).
Definition key_eq_dec (a b : key) : {a = b} + {a <> b}.
Proof. decide equality. apply Nat.eq_dec. Defined.

(** values in a JSON file *)
Inductive jitem := INull | IBool (b : bool) | INum (x : xr).
Inductive json := JNull | JBool (b : bool) | JNum (x : xr) | JStr (s : string) | JArr (l : list jitem) | JObj.

(** Python values: None, True/False, a number (or array without dimensions), a sequence (or array) of numbers, a dictionary of elevation corrections. *)
Inductive pyval := VNone | VBool (b : bool) | VNum (x : xr) | VArr (l : list xr) | VDict (radius refraction : xr).

(** A Python dictionary: the value of each key that it has. *)
Definition dict (A : Type) := key -> option A.

(** A camera (the attributes set by camera.py:98-120). *)
Record jcam := mkjcam { j_vec : list xr; j_orig : list xr; j_sensorsz : option (list xr); j_correction : pyval }.

(** ** Arithmetic of numpy *)
(** [a / b]; 0 has no sign here, so x / 0 is inf with the sign of x. *)
Definition xdiv (a b : xr) : xr :=
  match a, b with
  | NaN, _ | _, NaN => NaN
  | Fin x, Fin y => if Reqb y 0 then (if Rltb 0 x then PInf else if Rltb x 0 then NInf else NaN) else Fin (x / y)
  | Fin _, (PInf | NInf) => Fin 0
  | PInf, Fin y => if Rltb y 0 then NInf else PInf
  | NInf, Fin y => if Rltb y 0 then PInf else NInf
  | (PInf | NInf), (PInf | NInf) => NaN
  end.
(** [array.astype(int)]: nan and infinities become the smallest integer (numpy on x86-64) *)
Definition astype_int (x : xr) : Z := match x with Fin r => Rtrunc r | _ => (- 2 ^ 63)%Z end.
(** [int(x)]: ValueError for nan, OverflowError for infinities *)
Definition py_int (x : xr) : result Z := match x with Fin r => Ok (Rtrunc r) | NaN => Err ValueError | _ => Err OtherError end.
(** element-wise operation on arrays of the same length *)
Definition xzip (f : xr -> xr -> xr) (a b : list xr) : result (list xr) := if (length a =? length b)%nat then Ok (map2 f a b) else Err ValueError.

(** ** Setters *)
(** helpers.format_list(value, length=n, default=d) (helpers.py:23-81) of a value; None stays None *)
Definition as_arg (x : pyval) : fl_arg xr := match x with VNone => FNone | VNum a => FScalar a | VArr l => FIter l | VBool b => FScalar (Fin (if b then 1 else 0)) | VDict _ _ => FIter [] end.
Definition jfmt (x : pyval) (n : Z) (d : option xr) : result (option (list xr)) := let* (r, _) := format_list (as_arg x) (Some n) d in Ok r.
(** [self._vector[i:i+n] = w]: None is written as nan everywhere *)
Definition jput (i n : nat) (w : option (list xr)) (v : list xr) : result (list xr) :=
  match w with
  | None => Ok (splice i (repeat NaN n) v)
  | Some w => if (length w =? n)%nat then Ok (splice i w v) else Err ValueError
  end.
(** camera.py:129-131, 144-146, 166-168, 175-177, 184-186, 193-195 *)
Definition jset (i n : nat) (d : option xr) (x : pyval) (v : list xr) : result (list xr) := let* w := jfmt x (Z.of_nat n) d in jput i n w v.
(** camera.py:153-159: [None != None] is false, so None is not refused *)
Definition jset_imgsz (x : pyval) (v : list xr) : result (list xr) :=
  let* as_float := jfmt x 2 None in
  match as_float with
  | None => jput 6 2 None v
  | Some w => let* as_int := mapM py_int w in
      if negb (forallb (fun b => b) (map2 (fun i x => match x with Fin r => Reqb (IZR i) r | _ => false end) as_int w)) then Err ValueError
      else jput 6 2 (Some (map (fun i => Fin (IZR i)) as_int)) v
  end.
(** camera.py:202-206 *)
Definition jset_sensorsz (x : pyval) : result (option (list xr)) := jfmt x 2 None.

(** ** Getters (camera.py:124-231) *)
Definition jslice (i n : nat) (c : jcam) : list xr := firstn n (skipn i (j_vec c)).
Definition jimgsz (v : list xr) : list xr := map (fun x => Fin (IZR (astype_int x))) (firstn 2 (skipn 6 v)).
(** [v * sensorsz / imgsz], None without a sensor size *)
Definition jmm (v : list xr) (c : jcam) : result pyval :=
  match j_sensorsz c with
  | None => Ok VNone
  | Some s => let* a := xzip xmul v s in let* b := xzip xdiv a (jimgsz (j_vec c)) in Ok (VArr b)
  end.
(** getattr(self, key): AttributeError for names that are not attributes (the other attributes of a camera are not modelled) *)
Definition getattr (c : jcam) (k : key) : result pyval :=
  match k with
  | Kxyz => Ok (VArr (jslice 0 3 c)) | Kviewdir => Ok (VArr (jslice 3 3 c)) | Kimgsz => Ok (VArr (jimgsz (j_vec c)))
  | Kf => Ok (VArr (jslice 8 2 c)) | Kc => Ok (VArr (jslice 10 2 c)) | Kk => Ok (VArr (jslice 12 6 c)) | Kp => Ok (VArr (jslice 18 2 c))
  | Ksensorsz => Ok (match j_sensorsz c with None => VNone | Some s => VArr s end)
  | Kfmm => jmm (jslice 8 2 c) c | Kcmm => jmm (jslice 10 2 c) c
  | Kcorrection => Ok (j_correction c)
  | Kother _ => Err AttributeError
  end.

(** ** Constructor, camera.py:76-120, for a dictionary of keyword arguments *)
Definition or_default (x : option pyval) (d : pyval) : pyval := match x with Some v => v | None => d end.
Definition is_none (x : pyval) : bool := match x with VNone => true | _ => false end.
(** [helpers.format_list(value, length=2) * self.imgsz / self.sensorsz] *)
Definition jmm_to_px (x : pyval) (v : list xr) (s : option (list xr)) : result (list xr) :=
  let* w := jfmt x 2 None in
  match w, s with
  | Some w, Some s => let* a := xzip xmul w (jimgsz v) in xzip xdiv a s
  | _, _ => Err TypeError
  end.
(** camera.py:115-118 *)
Definition jcorrection (x : pyval) : pyval := match x with VBool true => VDict (Fin 6378100) (Fin (13 / 100)) | _ => x end.
Definition construct_j (a : dict pyval) (others : bool) : result jcam :=
  match others, a Kimgsz with
  | true, _ | _, None => Err TypeError          (* unknown or missing argument *)
  | false, Some imgsz =>
    let f := or_default (a Kf) VNone in let c := or_default (a Kc) VNone in
    let fmm := or_default (a Kfmm) VNone in let cmm := or_default (a Kcmm) VNone in
    let ss := or_default (a Ksensorsz) VNone in
    let zeros n := VArr (repeat (Fin 0) n) in
    if ((negb (is_none fmm) || negb (is_none cmm)) && is_none ss)%bool then Err ValueError else
    if (negb (is_none f) && negb (is_none fmm))%bool then Err ValueError else
    if (negb (is_none c) && negb (is_none cmm))%bool then Err ValueError else
    let* v := jset 0 3 (Some (Fin 0)) (or_default (a Kxyz) (zeros 3%nat)) (repeat NaN 20) in
    let* v := jset 3 3 (Some (Fin 0)) (or_default (a Kviewdir) (zeros 3%nat)) v in
    let* v := jset_imgsz imgsz v in
    let* s := jset_sensorsz ss in
    let* f := if is_none fmm then Ok f else let* w := jmm_to_px fmm v s in Ok (VArr w) in
    if is_none f then Err ValueError else
    let* v := jset 8 2 None f v in
    let* c := if is_none cmm then Ok c else let* w := jmm_to_px cmm v s in Ok (VArr w) in
    let* v := jset 10 2 (Some (Fin 0)) (if is_none c then zeros 2%nat else c) v in
    let* v := jset 12 6 (Some (Fin 0)) (or_default (a Kk) (zeros 6%nat)) v in
    let* v := jset 18 2 (Some (Fin 0)) (or_default (a Kp) (zeros 2%nat)) v in
    Ok (mkjcam v v s (jcorrection (or_default (a Kcorrection) (VBool false))))
  end.

(** ** Writing *)
(** numpy_to_native (helpers.py:118-131) and json.dumps of a value *)
Definition to_native (x : pyval) : json :=
  match x with VNone => JNull | VBool b => JBool b | VNum a => JNum a | VArr l => JArr (map INum l) | VDict _ _ => JObj end.
(** the attributes that are written, camera.py:428-447: a dictionary, so each once *)
Definition doc := list (key * json).
Fixpoint to_doc (c : jcam) (attributes : list key) : result doc :=
  match attributes with
  | [] => Ok []
  | k :: r => let* x := getattr c k in let* d := to_doc c r in Ok ((k, to_native x) :: d)
  end.
Definition default_attributes := [Kxyz; Kviewdir; Kimgsz; Kf; Kc; Kk; Kp].

(** ** Reading, camera.py:345-352 *)
Section Read.
Variable parse_float : string -> option xr.
Definition item_float (x : jitem) : xr := match x with INull => NaN | IBool b => Fin (if b then 1 else 0) | INum a => a end.
(** [np.array(value, dtype=float)] *)
Definition np_float (x : json) : result pyval :=
  match x with
  | JNull => Ok (VNum NaN) | JBool b => Ok (VNum (Fin (if b then 1 else 0))) | JNum a => Ok (VNum a)
  | JStr s => match parse_float s with Some a => Ok (VNum a) | None => Err ValueError end
  | JArr l => Ok (VArr (map item_float l))
  | JObj => Err TypeError
  end.
(** [np.isnan(value).all()], true for an empty array *)
Definition all_nan (x : pyval) : bool := match x with VNum a => is_nan a | VArr l => forallb is_nan l | _ => false end.
Definition read_value (x : json) : result pyval := let* v := np_float x in Ok (if all_nan v then VNone else v).
(** the loop over the keys: a dictionary keeps the last value of a key *)
Fixpoint read_doc (d : doc) : result (list (key * pyval)) :=
  match d with [] => Ok [] | (k, x) :: r => let* v := read_value x in let* l := read_doc r in Ok ((k, v) :: l) end.
Fixpoint lookup {A} (l : list (key * A)) (k : key) : option A :=
  match l with [] => None | (k', x) :: r => match lookup r k with Some y => Some y | None => if key_eq_dec k' k then Some x else None end end.
(** [{**json_args, **kwargs}]; a name that is no argument of the constructor makes it raise TypeError *)
Definition is_other (k : key) : bool := match k with Kother _ => true | _ => false end.
Definition from_json (d : doc) (kwargs : list (key * pyval)) : result jcam :=
  let* args := read_doc d in
  construct_j (lookup (args ++ kwargs)) (existsb is_other (map fst (args ++ kwargs))).
End Read.
