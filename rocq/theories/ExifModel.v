(** Model of exif.py:87-232.

    Tags are those that piexif.load returned: groups of named values.  Texts are lists of bytes; [decode] is bytes.decode (UTF-8), of which only
    ASCII texts (unchanged) are assumed in theorems.  Values of other Python types than int, bytes and tuples of int (or of tuples) do not occur in piexif.
    Python's strptime is modelled by the regular expression it is translated to.
    Not modelled: piexif itself (reading, dump to bytes, insert into files), float and int of texts ([read_float], [read_int] are parameters). *)
From Coq Require Import String Ascii.
From Verif Require Import Base.
Open Scope char_scope.
Notation text := (list ascii).
Definition T (s : string) : text := list_ascii_of_string s.
Definition text_eqb (a b : text) : bool := if list_eq_dec ascii_dec a b then true else false.

Inductive value := VInt (z : Z) | VBytes (b : text) | VTuple (l : list Z) | VNested (l : list (list Z)).
(** a group is a dict of tags; "thumbnail" is bytes or None *)
Inductive gvalue := GDict (d : list (text * value)) | GBytes.
Definition tags := list (text * gvalue).
Fixpoint lookup {A} (k : text) (d : list (text * A)) : option A := match d with [] => None | (k', v) :: r => if text_eqb k k' then Some v else lookup k r end.

(** exif.py:87-91 *)
Definition remove {A} (k : text) (d : list (text * A)) : list (text * A) := filter (fun e => negb (text_eqb k (fst e))) d.
Definition new_exif (loaded : tags) (thumbnail : bool) : tags := if thumbnail then loaded else remove (T "1st") (remove (T "thumbnail") loaded).

(** ** parsed values *)
Inductive parsed := PInt (z : Z) | PFloat (x : R) | PStr (s : text) | PTuple (n : nat).
Definition truthy (p : parsed) : bool := match p with PInt z => negb (z =? 0)%Z | PFloat x => negb (Reqb x 0) | PStr s => match s with [] => false | _ => true end | PTuple n => (0 <? n)%nat end.

Section Exif.
Variable decode : text -> result text.
Variable read_float : text -> result R.
Variable read_int : text -> result Z.

(** exif.py:158-178 *)
Definition parse_tag (t : tags) (tag group : text) : result (option parsed) :=
  match lookup group t with
  | None => Ok None
  | Some GBytes => Err TypeError
  | Some (GDict d) =>
    match lookup tag d with
    | None => Ok None
    | Some (VBytes b) => let* s := decode b in Ok (Some (PStr s))
    | Some (VTuple [n; d]) => if (d =? 0)%Z then Err ZeroDivisionError else Ok (Some (PFloat (IZR n / IZR d)))
    | Some (VNested [_; _]) => Err TypeError
    | Some (VInt z) => Ok (Some (PInt z))
    | Some (VTuple l) => Ok (Some (PTuple (length l)))
    | Some (VNested l) => Ok (Some (PTuple (length l)))
    end
  end.
Definition to_float (p : parsed) : result R := match p with PInt z => Ok (IZR z) | PFloat x => Ok x | PStr s => read_float s | PTuple _ => Err TypeError end.
Definition to_int (p : parsed) : result Z := match p with PInt z => Ok z | PFloat x => Ok (Rtrunc x) | PStr s => read_int s | PTuple _ => Err TypeError end.
(** str of a text; that of numbers is not modelled *)
Definition to_str (p : parsed) : result text := match p with PStr s => Ok s | _ => Err OtherError end.
(** [f(value) if value else None] *)
Definition unless_false {A} (f : parsed -> result A) (p : option parsed) : result (option A) :=
  match p with Some v => if truthy v then let* x := f v in Ok (Some x) else Ok None | None => Ok None end.
Definition Exif_ := T "Exif". Definition Zeroth := T "0th".
(** exif.py:93-100 *)
Definition imgsz (t : tags) : result (option (Z * Z)) :=
  let* w := parse_tag t (T "PixelXDimension") Exif_ in
  let* h := parse_tag t (T "PixelYDimension") Exif_ in
  match w, h with
  | Some w, Some h => if (truthy w && truthy h)%bool then let* x := to_int w in let* y := to_int h in Ok (Some (x, y)) else Ok None
  | _, _ => Ok None
  end.
(** exif.py:116-144 *)
Definition exposure (t : tags) : result (option R) := let* v := parse_tag t (T "ExposureTime") Exif_ in unless_false to_float v.
Definition aperture (t : tags) : result (option R) := let* v := parse_tag t (T "FNumber") Exif_ in unless_false to_float v.
Definition iso (t : tags) : result (option Z) := let* v := parse_tag t (T "ISOSpeedRatings") Exif_ in unless_false to_int v.
Definition fmm (t : tags) : result (option R) := let* v := parse_tag t (T "FocalLength") Exif_ in unless_false to_float v.
Definition make (t : tags) : result (option text) := let* v := parse_tag t (T "Make") Zeroth in unless_false to_str v.
Definition model (t : tags) : result (option text) := let* v := parse_tag t (T "Model") Zeroth in unless_false to_str v.

(** str.strip (ASCII) *)
Definition space (c : ascii) : bool := let n := nat_of_ascii c in ((n =? 32) || ((9 <=? n) && (n <=? 13)) || ((28 <=? n) && (n <=? 31)))%nat%bool.
Fixpoint lstrip (s : text) : text := match s with c :: r => if space c then lstrip r else s | [] => [] end.
Definition strip (s : text) : text := rev (lstrip (rev (lstrip s))).
(** exif.py:8-22, in tenths of millimeters *)
Definition sensor_sizes : list (text * (Z * Z)) :=
  [(T "NIKON CORPORATION NIKON D2X", (237, 157)); (T "NIKON CORPORATION NIKON D200", (236, 158)); (T "NIKON CORPORATION NIKON D300S", (236, 158));
   (T "NIKON E8700", (88, 66)); (T "Canon Canon EOS 20D", (225, 150)); (T "Canon Canon EOS 40D", (222, 148))]%Z.
(** exif.py:146-152 *)
Definition sensorsz (t : tags) : result (option (Z * Z)) :=
  let* a := make t in
  match a with
  | None => Ok None
  | Some a => let* b := model t in
    match b with Some b => Ok (lookup (strip a ++ [" "] ++ strip b) sensor_sizes) | None => Ok None end
  end.

(** ** strptime: a regular expression as the list of its matches at the start of a text, in the order in which they are tried *)
Definition parser A := text -> list (A * text).
Definition digit_in (a b : nat) (c : ascii) : option nat := let n := (nat_of_ascii c - 48)%nat in if ((48 <=? nat_of_ascii c) && (a <=? n) && (n <=? b))%nat%bool then Some n else None.
Definition one (a b : nat) : parser nat := fun l => match l with c :: r => match digit_in a b c with Some x => [(x, r)] | None => [] end | [] => [] end.
Definition two (a b c d : nat) : parser nat := fun l => flat_map (fun x => map (fun y => ((10 * fst x + fst y)%nat, snd y)) (one c d (snd x))) (one a b l).
Definition alt {A} (p q : parser A) : parser A := fun l => p l ++ q l.
Definition lit (c : ascii) : parser unit := fun l => match l with x :: r => if Ascii.eqb x c then [(tt, r)] else [] | [] => [] end.
Definition andthen {A B} (p : parser A) (f : A -> parser B) : parser B := fun l => flat_map (fun x => f (fst x) (snd x)) (p l).
Definition ret {A} (a : A) : parser A := fun l => [(a, l)].
(** %Y %m %d %H %M %S of CPython's _strptime *)
Definition pY : parser nat := andthen (two 0 9 0 9) (fun a => andthen (two 0 9 0 9) (fun b => ret (100 * a + b)%nat)).
Definition pm : parser nat := alt (two 1 1 0 2) (alt (two 0 0 1 9) (one 1 9)).
Definition pd : parser nat := alt (two 3 3 0 1) (alt (two 1 2 0 9) (alt (two 0 0 1 9) (alt (one 1 9) (andthen (lit " ") (fun _ => one 1 9))))).
Definition pH : parser nat := alt (two 2 2 0 3) (alt (two 0 1 0 9) (one 0 9)).
Definition pM : parser nat := alt (two 0 5 0 9) (one 0 9).
Definition pS : parser nat := alt (two 6 6 0 1) (alt (two 0 5 0 9) (one 0 9)).
(** a blank in the format is \s+ *)
Fixpoint pspaces (l : text) : list (unit * text) := match l with c :: r => if space c then pspaces r ++ [(tt, r)] else [] | [] => [] end.
(** %f: [0-9]{1,6}, padded with zeros *)
Fixpoint digits_ (n : nat) (acc : list nat) (l : text) : list (list nat * text) :=
  match n, l with
  | S n, c :: r => match digit_in 0 9 c with Some x => digits_ n (x :: acc) r ++ [(rev (x :: acc), r)] | None => [] end
  | _, _ => []
  end.
Definition number (ds : list nat) : nat := fold_left (fun a d => 10 * a + d)%nat ds 0%nat.
Definition pf : parser nat := fun l => map (fun x => (number (fst x ++ repeat 0%nat (6 - length (fst x))), snd x)) (digits_ 6 [] l).
Record datetime := mkdt { dY : nat; dm : nat; dd : nat; dH : nat; dM : nat; dS : nat; df : nat }.
Definition pstamp : parser datetime :=
  andthen pY (fun y => andthen (lit ":") (fun _ => andthen pm (fun m => andthen (lit ":") (fun _ => andthen pd (fun d => andthen pspaces (fun _ =>
  andthen pH (fun h => andthen (lit ":") (fun _ => andthen pM (fun mi => andthen (lit ":") (fun _ => andthen pS (fun s => ret (mkdt y m d h mi s 0)))))))))))).
Definition pfraction : parser datetime := andthen pstamp (fun t => andthen (lit ".") (fun _ => andthen pf (fun f => ret (mkdt (dY t) (dm t) (dd t) (dH t) (dM t) (dS t) f)))).
Definition leap (y : nat) : bool := ((y mod 4 =? 0) && (negb (y mod 100 =? 0) || (y mod 400 =? 0)))%nat%bool.
Definition month_days (y m : nat) : nat := match m with 2 => if leap y then 29 else 28 | 4 | 6 | 9 | 11 => 30 | _ => 31 end%nat.
(** datetime(...) refuses other dates and times *)
Definition valid_dt (t : datetime) : bool := ((1 <=? dY t) && (1 <=? dm t) && (dm t <=? 12) && (1 <=? dd t) && (dd t <=? month_days (dY t) (dm t)) && (dH t <=? 23) && (dM t <=? 59) && (dS t <=? 59))%nat%bool.
Definition strptime (p : parser datetime) (s : text) : result datetime :=
  match p s with
  | (t, []) :: _ => if valid_dt t then Ok t else Err ValueError
  | _ => Err ValueError
  end.
(** exif.py:102-114 *)
Definition datetime_ (t : tags) : result (option datetime) :=
  let* v := parse_tag t (T "DateTimeOriginal") Exif_ in
  match v with
  | None => Ok None
  | Some v =>
    if negb (truthy v) then Ok None else
    let* f := parse_tag t (T "SubSecTimeOriginal") Exif_ in
    let* s := to_str v in
    match f with
    | Some f => if truthy f then let* ss := to_str f in let* x := strptime pfraction (s ++ ["."] ++ ss) in Ok (Some x) else let* x := strptime pstamp s in Ok (Some x)
    | None => let* x := strptime pstamp s in Ok (Some x)
    end
  end.
End Exif.

(** ** dump, exif.py:206-227: the tags with codes for names, given to piexif.dump.  [code_of ifd name] is getattr(piexif.<ifd>, name). *)
Inductive ifd := ImageIFD | ExifIFD | GPSIFD | InteropIFD.
Definition ifd_of (group : text) : option ifd :=
  if (text_eqb group (T "0th") || text_eqb group (T "1st"))%bool then Some ImageIFD
  else if text_eqb group (T "Exif") then Some ExifIFD else if text_eqb group (T "GPS") then Some GPSIFD else if text_eqb group (T "Interop") then Some InteropIFD else None.
Inductive key := Name (n : text) | Code (z : Z).
Definition key_eqb (a b : key) : bool := match a, b with Name x, Name y => text_eqb x y | Code x, Code y => (x =? y)%Z | _, _ => false end.
Fixpoint kget {A} (k : key) (d : list (key * A)) : option A := match d with [] => None | (k', v) :: r => if key_eqb k k' then Some v else kget k r end.
Definition kdel {A} (k : key) (d : list (key * A)) : list (key * A) := filter (fun e => negb (key_eqb k (fst e))) d.
Fixpoint kset {A} (k : key) (v : A) (d : list (key * A)) : list (key * A) := match d with [] => [(k, v)] | (k', w) :: r => if key_eqb k k' then (k', v) :: r else (k', w) :: kset k v r end.
Section Dump.
Variable code_of : ifd -> text -> option Z.
(** d[code] = d.pop(tag) for each tag *)
Fixpoint recode (i : ifd) (names : list text) (d : list (key * value)) : result (list (key * value)) :=
  match names with
  | [] => Ok d
  | n :: r => match code_of i n with
              | None => Err ValueError
              | Some z => match kget (Name n) d with Some v => recode i r (kset (Code z) v (kdel (Name n) d)) | None => Err KeyError end
              end
  end.
Inductive dumped := DDict (d : list (key * value)) | DBytes.
Fixpoint dump (t : tags) : result (list (text * dumped)) :=
  match t with
  | [] => Ok []
  | (g, v) :: r =>
    if text_eqb g (T "thumbnail") then let* rest := dump r in Ok ((g, match v with GDict d => DDict (map (fun e => (Name (fst e), snd e)) d) | GBytes => DBytes end) :: rest)
    else match ifd_of g with
         | None => Err ValueError
         | Some i => match v with
                     | GBytes => Err TypeError (* not made by piexif *)
                     | GDict d => let* d' := recode i (map fst d) (map (fun e => (Name (fst e), snd e)) d) in let* rest := dump r in Ok ((g, DDict d') :: rest)
                     end
         end
  end.
End Dump.
