(** Model of svg.py: coordinates of SVG elements, src/glimpse/svg.py.

    Texts are lists of characters.  The numbers are of any type [N] with a function [num] that reads one from a text
    (_num: int(x), else float(x)); for printing [show] (str(x)).
    Reading and writing XML, namespaces, indentation and element constructors are in SvgDocModel.  Not modelled: warnings. *)
From Coq Require Import String Ascii.
From Verif Require Import Base.
Open Scope char_scope.
Notation text := (list ascii).
Definition T (s : string) : text := list_ascii_of_string s.

Definition code (c : ascii) : nat := nat_of_ascii c.
Definition between (a b c : ascii) : bool := ((code a <=? code c) && (code c <=? code b))%nat%bool.
Definition digit (c : ascii) : bool := between "0" "9" c.
Definition sign (c : ascii) : bool := (Ascii.eqb c "+" || Ascii.eqb c "-")%bool.
Definition letter (c : ascii) : bool := (between "a" "z" c || between "A" "Z" c)%bool.
(** longest prefix of characters that satisfy p, and the rest *)
Fixpoint span (p : ascii -> bool) (l : text) : text * text :=
  match l with c :: r => if p c then let (a, b) := span p r in (c :: a, b) else ([], l) | [] => ([], []) end.
(** re.findall: [m l] matches at the start of l (a non-empty text) and gives a token and the rest *)
Fixpoint findall_ {A} (m : text -> option (A * text)) (fuel : nat) (l : text) : list A :=
  match fuel, l with
  | S n, c :: r => match m l with Some (t, rest) => t :: findall_ m n rest | None => findall_ m n r end
  | _, _ => []
  end.
Definition findall {A} (m : text -> option (A * text)) (l : text) : list A := findall_ m (length l) l.

(** COORD_REGEX, svg.py:24-26 *)
Definition m_exp (l : text) : text * text :=
  match l with
  | e :: r => if (Ascii.eqb e "e" || Ascii.eqb e "E")%bool then
                let (s, r) := match r with c :: r' => if sign c then ([c], r') else ([], r) | [] => ([], []) end in
                match span digit r with ([], _) => ([], l) | (d, rest) => (e :: s ++ d, rest) end
              else ([], l)
  | [] => ([], [])
  end.
Definition m_mantissa (l : text) : option (text * text) :=
  let (d, r) := span digit l in
  let whole := match d with [] => None | _ => Some (d, r) end in
  match r with
  | c :: r' => if Ascii.eqb c "." then match span digit r' with ([], _) => whole | (f, rest) => Some (d ++ c :: f, rest) end else whole
  | [] => whole
  end.
Definition m_coord (l : text) : option (text * text) :=
  let (s, r) := match l with c :: r => if sign c then ([c], r) else ([], l) | [] => ([], []) end in
  match m_mantissa r with
  | None => None
  | Some (d, r) => let (e, r) := m_exp r in Some (s ++ d ++ e, r)
  end.
(** Maximal runs of characters of a class: [class]+ *)
Definition m_run (p : ascii -> bool) (l : text) : option (text * text) := match span p l with ([], _) => None | r => Some r end.
(** [a-df-zA-DF-Z] *)
Definition cmd_char (c : ascii) : bool := (letter c && negb (Ascii.eqb c "e") && negb (Ascii.eqb c "E"))%bool.

(** _chunks, svg.py:176-191: n consecutive items at a time; an incomplete last chunk is ignored *)
Fixpoint chunks_ {A} (n fuel : nat) (l : list A) : list (list A) :=
  match fuel with
  | S k => if (n <=? length l)%nat then firstn n l :: chunks_ n k (skipn n l) else []
  | O => []
  end.
Definition chunks {A} (n : nat) (l : list A) : list (list A) := chunks_ n (length l) l.

Section Points.
Context {N : Type} (num : text -> N) (add sub : N -> N -> N) (eqb ltb : N -> N -> bool) (zero : N).
Notation pt := (N * N)%type.
Definition coords (l : text) : list N := map num (findall m_coord l).
Definition last_ (l : list pt) : result pt := match rev l with p :: _ => Ok p | [] => Err IndexError end.
Definition first_ (l : list pt) : result pt := match l with p :: _ => Ok p | [] => Err IndexError end.

(** Points.closed, svg.py:423-439 *)
Definition eqb_pt (p q : pt) : bool := (eqb (fst p) (fst q) && eqb (snd p) (snd q))%bool.
Definition closed (xy : list pt) : bool :=
  match xy with
  | p :: _ :: _ => match rev xy with q :: _ => eqb_pt p q | [] => true end
  | _ => true
  end.
(** Points.bbox, svg.py:441-459 *)
Definition min_ (x y : N) : N := if ltb y x then y else x.
Definition max_ (x y : N) : N := if ltb x y then y else x.
Definition bbox (xy : list pt) : option (N * N * N * N) :=
  match xy with
  | [] => None
  | p :: r =>
    let x := fold_left min_ (map fst r) (fst p) in let y := fold_left min_ (map snd r) (snd p) in
    Some (x, y, sub (fold_left max_ (map fst r) (fst p)) x, sub (fold_left max_ (map snd r) (snd p)) y)
  end.

(** svg.py:562-565 *)
Definition to_pairs (l : list N) : list pt := concat (map (fun c => match c with [x; y] => [(x, y)] | _ => [] end) (chunks 2 l)).
Definition points_to_xy (s : text) : list pt := to_pairs (coords s).
(** svg.py:571-585 *)
Definition from_polyline (s : text) : list pt := points_to_xy s.
Definition from_polygon (s : text) : list pt :=
  let xy := points_to_xy s in if closed xy then xy else match xy with p :: _ => xy ++ [p] | [] => xy end.
(** svg.py:591-596, 604-607, 614-620 *)
Definition from_line (x1 y1 x2 y2 : text) : list pt := [(num x1, num y1); (num x2, num y2)].
Definition from_circle (cx cy : text) : list pt := [(num cx, num cy)].
Definition rect (w h x y : N) : list pt := [(x, y); (add x w, y); (add x w, add y h); (x, add y h); (x, y)].
Definition from_rect (w h x y : text) : list pt := rect (num w) (num h) (num x) (num y).
(** svg.py:634-640: exactly four numbers *)
Definition from_svg (viewBox : text) : result (list pt) :=
  match viewBox with
  | [] => Ok []
  | _ => match findall m_coord viewBox with [x; y; w; h] => Ok (from_rect w h x y) | _ => Err ValueError end
  end.

(** Points._from_path, svg.py:658-732.  One command with its parameters, in upper case absolute, in lower case relative:
    the last two of every [k] parameters are the next vertex. *)
Definition next (rel : bool) (xy : list pt) (p : pt) : result (list pt) :=
  if rel then let* q := last_ xy in Ok (xy ++ [(add (fst q) (fst p), add (snd q) (snd p))]) else Ok (xy ++ [p]).
Definition vertices (k : nat) (params : list N) : list pt :=
  concat (map (fun c => match rev c with y :: x :: _ => [(x, y)] | _ => [] end) (chunks k params)).
Fixpoint foldM {A B} (f : A -> B -> result A) (l : list B) (a : A) : result A := match l with [] => Ok a | x :: r => let* a := f a x in foldM f r a end.
Definition command (cmd : text) (params : list N) (xy : list pt) : result (list pt) :=
  match cmd with
  | ["M"] | ["L"] | ["T"] => foldM (next false) (vertices 2 params) xy
  | ["m"] | ["l"] | ["t"] => foldM (fun xy p => match xy with [] => Ok [p] | _ => next true xy p end) (vertices 2 params) xy
  | ["H"] => foldM (fun xy x => let* q := last_ xy in Ok (xy ++ [(x, snd q)])) params xy
  | ["h"] => foldM (fun xy x => let* q := last_ xy in Ok (xy ++ [(add (fst q) x, snd q)])) params xy
  | ["V"] => foldM (fun xy y => let* q := last_ xy in Ok (xy ++ [(fst q, y)])) params xy
  | ["v"] => foldM (fun xy y => let* q := last_ xy in Ok (xy ++ [(fst q, add (snd q) y)])) params xy
  | ["C"] => foldM (next false) (vertices 6 params) xy
  | ["c"] => foldM (next true) (vertices 6 params) xy
  | ["S"] | ["Q"] => foldM (next false) (vertices 4 params) xy
  | ["s"] | ["q"] => foldM (next true) (vertices 4 params) xy
  | ["A"] => foldM (next false) (vertices 7 params) xy
  | ["a"] => foldM (next true) (vertices 7 params) xy
  | ["Z"] | ["z"] => let* p := first_ xy in Ok (xy ++ [p])
  | _ => Err ValueError
  end.
Definition ends_with_z (cmds : list text) : bool := match rev cmds with ["Z"] :: _ | ["z"] :: _ => true | _ => false end.
Definition from_path (d : text) : result (list pt) :=
  let cmds := findall (m_run cmd_char) d in
  let params := map coords (findall (m_run (fun c => negb (cmd_char c))) d) in
  let params := if ends_with_z cmds then params ++ [[]] else params in
  foldM (fun xy cp => command (fst cp) (snd cp) xy) (combine cmds params) [].

(* ---- printing ---- *)
Context (show : N -> text).
Fixpoint join (sep : text) (l : list text) : text := match l with [] => [] | [x] => x | x :: r => x ++ sep ++ join sep r end.
Definition show_pt (p : pt) : text := show (fst p) ++ [","] ++ show (snd p).
(** svg.py:567-569, 576-577, 587-589 *)
Definition xy_to_points (xy : list pt) : text := join [" "] (map show_pt xy).
Definition to_polyline (xy : list pt) : text := xy_to_points xy.
Definition to_polygon (xy : list pt) : text := xy_to_points (if closed xy then removelast xy else xy).
(** svg.py:598-602, 609-612 *)
Definition ends (xy : list pt) : pt * pt := (hd (zero, zero) xy, last xy (zero, zero)).
Definition to_line (xy : list pt) : text * text * text * text := let (p, q) := ends xy in (show (fst p), show (snd p), show (fst q), show (snd q)).
Definition to_circle (xy : list pt) : text * text := (show (fst (hd (zero, zero) xy)), show (snd (hd (zero, zero) xy))).
(** svg.py:622-632, 642-647: x, y, width, height *)
Definition to_rect (xy : list pt) : text * text * text * text :=
  let '(x, y, w, h) := match bbox xy with Some b => b | None => (zero, zero, zero, zero) end in (show x, show y, show w, show h).
Definition to_svg (xy : list pt) : text :=
  match bbox xy with Some (x, y, w, h) => join [" "] [show x; show y; show w; show h] | None => [] end.
(** svg.py:734-748 *)
Definition path_command (i : nat) (p : pt) : text := match i with O => T "M " | S O => T "L " | _ => [] end ++ show_pt p.
Definition to_path (xy : list pt) : text :=
  let ps := if closed xy then removelast xy else xy in
  join [" "] (map (fun ip => path_command (fst ip) (snd ip)) (combine (seq 0 (length ps)) ps) ++ if closed xy then [T "Z"] else []).
End Points.

(* ------------------------------------------------------------------ *)
(** ** Transforms *)
Open Scope R_scope.
Notation rpt := (R * R)%type.
Section Transform.
Context (num : text -> R).
(** svg.py:461-523 *)
Definition scale (x y : R) (xy : list rpt) : list rpt := map (fun p => (fst p * x, snd p * y)) xy.
Definition translate (x y : R) (xy : list rpt) : list rpt := map (fun p => (fst p + x, snd p + y)) xy.
Definition matrix (a b c d e f : R) (xy : list rpt) : list rpt := map (fun p => (a * fst p + c * snd p + e, b * fst p + d * snd p + f)) xy.
(** The regular expression of svg.py:554: a word, an opening parenthesis, other characters up to a closing parenthesis; gives the name and what is in the parentheses *)
Definition m_func (l : text) : option ((text * text) * text) :=
  match span letter l with
  | ([], _) => None
  | (name, "("%char :: r) => match span (fun c => negb (Ascii.eqb c ")")) r with
                             | (params, _ :: rest) => Some ((name, params), rest)
                             | (_, []) => None
                             end
  | _ => None
  end.
(** One function.  Other attributes of Points that could be called (closed, bbox, ...) are not modelled: OtherError. *)
Definition apply_func (f : text * text) (xy : list rpt) : result (list rpt) :=
  let args := map num (findall m_coord (snd f)) in
  let name := string_of_list_ascii (fst f) in
  if String.eqb name "translate" then match args with [x] => Ok (translate x 0 xy) | [x; y] => Ok (translate x y xy) | _ => Err TypeError end
  else if String.eqb name "scale" then match args with [x] => Ok (scale x x xy) | [x; y] => Ok (scale x y xy) | _ => Err TypeError end
  else if String.eqb name "matrix" then match args with [a; b; c; d; e; f] => Ok (matrix a b c d e f xy) | _ => Err TypeError end
  else if existsb (String.eqb name) ["xy"; "closed"; "bbox"; "transform"]%string then Err OtherError
  else Err ValueError.
Definition transform (tf : text) (xy : list rpt) : result (list rpt) := foldM (fun xy f => apply_func f xy) (findall m_func tf) xy.

(* ------------------------------------------------------------------ *)
(** ** read *)
Inductive elt := Elt (tag : string) (attrs : list (string * text)) (children : list elt).
Inductive value := Pts (xy : list rpt) | Dict (d : list (string * value)) | Lst (l : list value).
Definition get (k : string) (attrs : list (string * text)) : option text := option_map snd (find (fun p => String.eqb (fst p) k) attrs).
Definition get_ (k : string) (d : text) (attrs : list (string * text)) : text := match get k attrs with Some v => v | None => d end.
Definition box := (R * R * R * R)%type.
Definition rbbox (xy : list rpt) : option box := bbox Rminus Rltb xy.
(** Points.from_element, svg.py:750-791: width and height are required; numbers default to 0 *)
Definition from_element (tag : string) (attrs : list (string * text)) : result (list rpt) :=
  let zero := T "0" in
  if String.eqb tag "path" then from_path num Rplus (get_ "d" [] attrs)
  else if String.eqb tag "polyline" then Ok (from_polyline num (get_ "points" [] attrs))
  else if String.eqb tag "polygon" then Ok (from_polygon num Reqb (get_ "points" [] attrs))
  else if String.eqb tag "line" then Ok (from_line num (get_ "x1" zero attrs) (get_ "y1" zero attrs) (get_ "x2" zero attrs) (get_ "y2" zero attrs))
  else if String.eqb tag "circle" then Ok (from_circle num (get_ "cx" zero attrs) (get_ "cy" zero attrs))
  else if (String.eqb tag "rect" || String.eqb tag "image")%bool then
    match get "width" attrs, get "height" attrs with
    | Some w, Some h => Ok (from_rect num Rplus w h (get_ "x" zero attrs) (get_ "y" zero attrs))
    | _, _ => Err TypeError
    end
  else Err ValueError.
Definition has_points (tag : string) : bool := existsb (String.eqb tag) ["image"; "path"; "polyline"; "polygon"; "line"; "circle"; "rect"]%string.
Definition is_group (tag : string) : bool := (String.eqb tag "svg" || String.eqb tag "g")%bool.
(** Values grouped by name, in order of first appearance; several values of a name make a list, svg.py:138-143 *)
Fixpoint add_to (k : string) (v : value) (d : list (string * list value)) : list (string * list value) :=
  match d with [] => [(k, [v])] | (k', vs) :: r => if String.eqb k k' then (k', vs ++ [v]) :: r else (k', vs) :: add_to k v r end.
Definition group (l : list (string * value)) : value :=
  Dict (map (fun p => (fst p, match snd p with [v] => v | vs => Lst vs end)) (fold_left (fun d p => add_to (fst p) (snd p) d) l [])).
(** The name of an element: the value of its attribute [key], if not empty, else its tag; svg.py:126 *)
Definition elt_name (key : option string) (tag : string) (attrs : list (string * text)) : string :=
  match key with
  | Some k => match get k attrs with Some ((_ :: _) as v) => string_of_list_ascii v | _ => tag end
  | None => tag
  end.
(** parse_elements, svg.py:123-144: the value of an element, and the boxes of the last image before and after transforms *)
Fixpoint parse (key : option string) (tf : text) (img : option (box * box)) (e : elt) {struct e} : result ((string * value) * option (box * box)) :=
  match e with
  | Elt tag attrs children =>
    let name := elt_name key tag attrs in
    let tf := tf ++ get_ "transform" [] attrs in
    if has_points tag then
      let* xy := from_element tag attrs in
      let* xy' := transform tf xy in
      let img := if String.eqb tag "image" then match rbbox xy, rbbox xy' with Some o, Some t => Some (o, t) | _, _ => img end else img in
      Ok ((name, Pts xy'), img)
    else if is_group tag then
      (fix go (l : list elt) (acc : list (string * value)) (img : option (box * box)) :=
         match l with
         | [] => Ok ((name, group (rev acc)), img)
         | c :: r => let* x := parse key tf img c in go r (fst x :: acc) (snd x)
         end) children [] img
    else Ok ((name, Dict []), img)
  end.
(** svg.py:162-170: every list of points *)
Fixpoint map_points (f : list rpt -> list rpt) (v : value) : value :=
  match v with
  | Pts xy => Pts (f xy)
  | Dict d => Dict (map (fun p => (fst p, map_points f (snd p))) d)
  | Lst l => Lst (map (map_points f) l)
  end.
(** read, svg.py:104-173.  [imgsz] is the size to scale to; the elements svg and image are searched in the whole tree by the caller. *)
Fixpoint tags (e : elt) : list string := match e with Elt tag _ ch => tag :: concat (map tags ch) end.
Definition read (key : option string) (imgsz : option (R * R)) (svg : elt) : result value :=
  if (match imgsz with Some _ => true | None => false end && negb (existsb (String.eqb "image") (tags svg)))%bool then Err ValueError else
  let* r := parse key [] None svg in
  match snd r with
  | None => Ok (map_points (fun xy => scale 1 1 (translate 0 0 xy)) (snd (fst r)))
  | Some ((_, _, ow, oh), (x, y, w, h)) =>
    let (nx, ny) := match imgsz with Some s => s | None => (ow, oh) end in
    if (Reqb nx w && Reqb ny h)%bool then Ok (map_points (fun xy => scale 1 1 (translate (- x) (- y) xy)) (snd (fst r)))
    else if (Reqb w 0 || Reqb h 0)%bool then Err ZeroDivisionError
    else Ok (map_points (fun xy => scale (nx / w) (ny / h) (translate (- x) (- y) xy)) (snd (fst r)))
  end.
End Transform.
