(** Model of the readers of camera calibration files (src/glimpse/convert/cameras/agisoft.py:58-95, matlab.py:47-82, opencv.py:140-165, photomodeler.py:56-88), on ConvertModel.

    Texts are lists of ASCII characters, lines end with "\n" (files are opened in text mode).  XML files are taken as the trees of elements they hold (SvgDocModel models the parser); an element without text has the empty text, which the code treats like None.  float of a text is a parameter; values that are not finite are outside the model. *)
From Coq Require Import String Ascii.
From Verif Require Import Base HelpersModel CameraModel ConvertModel SvgModel SvgDocModel.
Notation length := List.length.
Open Scope char_scope.

(** ** Regular expressions: a sequence of texts, single characters of a class, and greedy repetitions of characters of a class (zero or more, one or more; in a group or not) *)
Inductive ritem := Lit (t : text) | Chr (p : ascii -> bool) | Star (g : bool) (p : ascii -> bool) | Plus (g : bool) (p : ascii -> bool).
Fixpoint strip_prefix (t l : text) : option text :=
  match t, l with [], _ => Some l | c :: t, d :: l => if Ascii.eqb c d then strip_prefix t l else None | _ :: _, [] => None end.
(** Backtracking: from the longest repetition to the shortest *)
Fixpoint try_down {A} (f : nat -> option A) (n : nat) : option A :=
  match f n with Some a => Some a | None => match n with O => None | S n => try_down f n end end.
Definition group (g : bool) (t : text) (m : option (list text * text)) : option (list text * text) := option_map (fun x => (if g then t :: fst x else fst x, snd x)) m.
(** a match at the start of the text: its groups and the rest of the text *)
Fixpoint rmatch (r : list ritem) (l : text) : option (list text * text) :=
  match r with
  | [] => Some ([], l)
  | Lit t :: r => match strip_prefix t l with Some l => rmatch r l | None => None end
  | Chr p :: r => match l with c :: l => if p c then rmatch r l else None | [] => None end
  | Star g p :: r => try_down (fun n => group g (firstn n l) (rmatch r (skipn n l))) (length (fst (span p l)))
  | Plus g p :: r => match length (fst (span p l)) with O => None | S m => try_down (fun n => group g (firstn (S n) l) (rmatch r (skipn (S n) l))) m end
  end.
(** re.findall of a pattern that only matches texts with characters in them: the groups of each match *)
Definition refindall (r : list ritem) (l : text) : list (list text) := findall (rmatch r) l.
Definition nl : ascii := "010".
(** . *)
Definition dot (c : ascii) : bool := negb (Ascii.eqb c nl).
(** [0-9\-\.e\+] *)
Definition numchar (c : ascii) : bool := (digit c || sign c || Ascii.eqb c "." || Ascii.eqb c "e")%bool.

Section Readers.
Variable read_float : text -> result R.

(** ** Agisoft.from_xml, agisoft.py:58-95 *)
Definition ag_keys : list text := map T ["width"; "height"; "f"; "cx"; "cy"; "k1"; "k2"; "k3"; "k4"; "p1"; "p2"; "b1"; "b2"]%string.
Definition xtext (e : xelt) : text := match e with XElt _ _ t _ _ => t end.
Notation dict := (list (text * R)).
Fixpoint get_ (k : text) (d : dict) : option R := match d with [] => None | (k', v) :: r => if teqb k k' then Some v else get_ k r end.
(** kwargs[k] = v; the order of the keys is of no use here: the new key comes first *)
Definition set_ (k : text) (v : R) (d : dict) : dict := (k, v) :: d.
(** agisoft.py:73-92 *)
Definition ag_child (kwargs : dict) (child : xelt) : result dict :=
  if (teqb (xtag child) (T "projection") && negb (teqb (xtext child) (T "frame")))%bool then Err ValueError
  else if (match xtext child with [] => false | _ => true end && existsb (teqb (xtag child)) ag_keys)%bool
  then let* v := read_float (xtext child) in Ok (set_ (xtag child) v kwargs)
  else Ok kwargs.
Definition getd (k : string) (d : dict) : R := match get_ (T k) d with Some v => v | None => 0 end.
(** An element without children is false (agisoft.py:70).  [f] is the only required keyword argument besides imgsz. *)
Definition ag_from_xml (root : xelt) : result agisoft :=
  match find (fun e => teqb (xtag e) (T "calibration")) (xiter root) with
  | None | Some (XElt _ _ _ [] _) => Err ValueError
  | Some calibration =>
    let* kw := foldM ag_child (xkids calibration) [] in
    match get_ (T "width") kw, get_ (T "height") kw with
    | Some w, Some h =>
      match get_ (T "f") kw with
      | Some f => Ok (mk_ag (Rtrunc w, Rtrunc h) f (getd "cx" kw) (getd "cy" kw) (getd "k1" kw) (getd "k2" kw) (getd "k3" kw) (getd "k4" kw)
                        (getd "p1" kw) (getd "p2" kw) (getd "b1" kw) (getd "b2" kw))
      | None => Err TypeError
      end
    | _, _ => Err KeyError
    end
  end.

(** ** OpenCV.from_xml, opencv.py:140-165 *)
(** root.findall(".//tag/data"): in document order; the root itself is not searched for *)
Definition find_data (tag : string) (root : xelt) : list xelt :=
  concat (map (fun e => filter (fun d => teqb (xtag d) (T "data")) (xkids e)) (filter (fun e => teqb (xtag e) (T tag)) (tl (xiter root)))).
Definition numbers (t : text) : result (list R) := mapM read_float (concat (refindall [Plus true numchar] t)).
Definition first_text (l : list xelt) : option text := match l with e :: _ => match xtext e with [] => None | t => Some t end | [] => None end.
(** numpy.reshape(3, 3) *)
Definition reshape33 (x : list R) : result (list (list R)) :=
  match x with [a; b; c; d; e; f; g; h; i] => Ok [[a; b; c]; [d; e; f]; [g; h; i]] | _ => Err ValueError end.
Definition cv_from_xml (root : xelt) (imgsz : Z * Z) : result opencv :=
  match first_text (find_data "camera_matrix" root) with
  | None => Err ValueError
  | Some t =>
    let* x := numbers t in
    let* m := reshape33 x in
    let* k := match first_text (find_data "distortion_coefficients" root) with Some t => numbers t | None => Ok [] end in
    Ok (cv_from_arrays m k imgsz)
  end.

(** ** Matlab.from_report, matlab.py:47-82 *)
Fixpoint more_groups (n : nat) : list ritem := match n with O => [] | S n => Lit (T " ; ") :: Star true dot :: more_groups n end.
Definition ml_pattern (key : text) (n : nat) : list ritem :=
  match n with
  | S O => [Lit (key ++ T " = "); Star true dot; Lit [";"]]
  | _ => Lit (key ++ T " = [ ") :: Star true dot :: more_groups (n - 1) ++ [Lit (T " ];")]
  end.
(** [parse]: all matches for one value, the groups of the first match for several *)
Definition ml_parse (txt : text) (sigmas : bool) (key : string) (n : nat) : result (list R) :=
  let found := refindall (ml_pattern (T key) n) txt in
  let* values := if (1 <? n)%nat then match found with v :: _ => Ok v | [] => Err IndexError end else Ok (concat found) in
  mapM (fun x => let* v := read_float x in Ok (v * (if sigmas then 1 / 3 else 1))%R) values.
Definition head {A} (l : list A) : result A := match l with x :: _ => Ok x | [] => Err IndexError end.
Definition pair_of (l : list R) : R * R := (nth 0 l 0, nth 1 l 0)%R.
Definition ml_from_report (txt : text) (sigmas : bool) : result matlab :=
  let* sz := if sigmas then Ok (0, 0)%Z
             else let* x := ml_parse txt sigmas "nx" 1 in let* nx := head x in
                  let* y := ml_parse txt sigmas "ny" 1 in let* ny := head y in Ok (Rtrunc nx, Rtrunc ny) in
  let* fc := ml_parse txt sigmas (if sigmas then "fc_error" else "fc")%string 2 in
  let* cc := ml_parse txt sigmas (if sigmas then "cc_error" else "cc")%string 2 in
  let* kc := ml_parse txt sigmas (if sigmas then "kc_error" else "kc")%string 5 in
  let* a := ml_parse txt sigmas (if sigmas then "alpha_c_error" else "alpha_c")%string 1 in
  let* alpha := head a in
  Ok (mk_ml sz (pair_of fc) (pair_of cc) kc alpha).

(** ** PhotoModeler.from_report, photomodeler.py:56-88 *)
(** \s *)
Definition pm_pattern (sigmas : bool) (label : text) : list ritem :=
  if sigmas then [Lit label; Star false dot; Chr space; Star false dot; Star false space; Lit (T "Deviation: "); Star false dot; Lit (T ": "); Plus true numchar]
  else [Lit label; Star false dot; Star false space; Lit (T "Value: "); Plus true numchar].
Definition pm_value (txt : text) (sigmas : bool) (label : string) : result R :=
  match concat (refindall (pm_pattern sigmas (T label)) txt) with v :: _ => read_float v | [] => Ok 0%R end.
Definition pm_from_report (txt : text) (imgsz : Z * Z) (sigmas : bool) : result photomodeler :=
  let v := pm_value txt sigmas in
  let* focal := v "Focal Length"%string in
  let* xp := v "Xp"%string in let* yp := v "Yp"%string in
  let* fw := v "Fw"%string in let* fh := v "Fh"%string in
  let* k1 := v "K1"%string in let* k2 := v "K2"%string in let* k3 := v "K3"%string in
  let* p1 := v "P1"%string in let* p2 := v "P2"%string in
  Ok (mk_pm imgsz focal xp yp fw fh k1 k2 k3 p1 p2).
End Readers.
