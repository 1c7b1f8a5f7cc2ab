(** Model of observation times: src/glimpse/track/observer.py:50-100, 455-493 and
    src/glimpse/track/tracker.py:84-87, 425-492.

    Datetimes and timedeltas are integer microseconds (Z).  The code compares
    distances through float POSIX timestamps of local time
    (helpers.pairwise_distance_datetimes); rounding is not
    modelled, and local time is in ZoneModel: here the distance of x and y is |x - y|. *)
From Verif Require Import Base HelpersModel.
Open Scope Z_scope.

(** ** Observer *)
Record image := mk_image { im_id : nat; im_time : option Z }.
Record observer := mk_observer { ob_images : list image; ob_times : list Z }.

(** observer.py:58-62 *)
Fixpoint collect_times (imgs : list image) : result (list Z) :=
  match imgs with
  | [] => Ok []
  | i :: r => match im_time i with None => Err ValueError | Some t => let* ts := collect_times r in Ok (t :: ts) end
  end.
(** numpy.diff *)
Definition Zdiff (l : list Z) : list Z := map2 Z.sub (tl l) l.
(** Observer.__init__, observer.py:50-69 *)
Definition Observer (imgs : list image) : result observer :=
  if (length imgs <? 2)%nat then Err ValueError else
  let* ts := collect_times imgs in
  if existsb (fun d => d <=? 0) (Zdiff ts) then Err ValueError
  else Ok (mk_observer imgs ts).
(** Observer.index of a datetime, observer.py:92-99; [maxdt] None is no limit *)
Definition observer_index (o : observer) (value : Z) (maxdt : option Z) : result nat :=
  let dts := map (fun t => Z.abs (value - t)) (ob_times o) in
  let* index := argmin Z.ltb dts in
  match maxdt with
  | None => Ok index
  | Some m => if Z.abs m <? nth index dts 0 then Err ValueError else Ok index
  end.
(** numpy boolean indexing a[mask] *)
Definition mask_list {A} (l : list A) (mask : list bool) : list A := map fst (filter snd (combine l mask)).
(** Observer.subset(start, end), observer.py:455-464 *)
Definition observer_subset (o : observer) (start stop : Z) : result observer :=
  let* mask := select_datetimes (ob_times o) (Some start) (Some stop) None None 0 in
  Observer (mask_list (ob_images o) mask).
(** python timedelta / int: rounded half to even in microseconds *)
Definition td_div (d n : Z) : result Z :=
  if n =? 0 then Err ZeroDivisionError
  else let q := d / n in let r := d - q * n in
       (* q + r / n with 0 <= r / n < 1 *)
       let twice := 2 * Z.abs r in
       if twice <? Z.abs n then Ok q else if Z.abs n <? twice then Ok (q + 1)
       else if Z.even q then Ok q else Ok (q + 1).
(** numpy.unique: sorted without duplicates *)
Fixpoint zinsert (x : Z) (l : list Z) : list Z :=
  match l with
  | [] => [x]
  | y :: r => if x <? y then x :: y :: r else if x =? y then y :: r else y :: zinsert x r
  end.
Definition zunique (l : list Z) : list Z := fold_right zinsert [] l.
Inductive split_arg := SplitInt (n : Z) | SplitBreaks (bs : list Z).
(** observer.py:477-481 *)
Definition split_breaks (o : observer) (n : split_arg) : result (list Z) :=
  let* t0 := py_get (ob_times o) 0 in
  let* t1 := py_get (ob_times o) (-1) in
  match n with
  | SplitBreaks bs => Ok (zunique (bs ++ [t0; t1]))
  | SplitInt k => let* dt := td_div (t1 - t0) k in datetime_range t0 t1 dt
  end.
(** the loop, observer.py:484-492, over the breaks after the first *)
Fixpoint split_loop (o : observer) (overlap : nat) (start : Z) (ends : list Z) : result (list observer) :=
  match ends with
  | [] => Ok []
  | e :: r =>
    let* ob := observer_subset o start e in
    let* start' :=
      match overlap with
      | O => let* t := py_get (ob_times ob) (-1) in Ok (t + 1)
      | _ => let lag := Nat.min overlap (length (ob_times ob)) in py_get (ob_times ob) (- Z.of_nat lag)
      end in
    let* obs := split_loop o overlap start' r in
    Ok (ob :: obs)
  end.
(** Observer.split, observer.py:466-493 *)
Definition observer_split (o : observer) (n : split_arg) (overlap : nat) : result (list observer) :=
  let* breaks := split_breaks o n in
  let* start := py_get breaks 0 in
  split_loop o overlap start (tl breaks).

(** ** Tracker datetimes *)
(** Tracker.datetimes, tracker.py:84-87 (numpy.concatenate of no arrays raises ValueError) *)
Definition tracker_datetimes (obs : list (list Z)) : result (list Z) :=
  match obs with [] => Err ValueError | _ => Ok (zunique (concat obs)) end.
(** (datetimes[1:], datetimes[:-1]) *)
Definition neighbours (l : list Z) : list (Z * Z) := combine (tl l) l.
(** tracker.py:446-448 *)
Definition monotonic (l : list Z) : bool :=
  forallb (fun p => snd p <=? fst p) (neighbours l) || forallb (fun p => fst p <=? snd p) (neighbours l).
(** tracker.py:452-455 *)
Definition drop_duplicates (l : list Z) : list Z :=
  mask_list l (true :: map (fun p => negb (fst p =? snd p)) (neighbours l)).
Definition min_distance (d : Z) (ts : list Z) : result Z :=
  match map (fun t => Z.abs (d - t)) ts with [] => Err ValueError | x :: r => Ok (fold_left Z.min r x) end.
(** Tracker.parse_datetimes, tracker.py:425-464 *)
Definition parse_datetimes (obs : list (list Z)) (datetimes : list Z) (maxdt : Z) : result (list Z) :=
  if negb (monotonic datetimes) then Err ValueError else
  let datetimes := drop_duplicates datetimes in
  let* all := tracker_datetimes obs in
  let* distances := mapM (fun d => min_distance d all) datetimes in
  let datetimes := mask_list datetimes (map (fun x => x <=? Z.abs maxdt) distances) in
  if (length datetimes <? 2)%nat then Err ValueError else Ok datetimes.
(** Tracker.match_datetimes, tracker.py:466-492: one row per datetime, one column per observer *)
Definition match1 (d : Z) (ts : list Z) (maxdt : Z) : result (option nat) :=
  let distances := map (fun t => Z.abs (d - t)) ts in
  let* nearest := argmin Z.ltb distances in
  Ok (if Z.abs maxdt <? nth nearest distances 0 then None else Some nearest).
Definition match_datetimes (obs : list (list Z)) (datetimes : list Z) (maxdt : Z) : result (list (list (option nat))) :=
  mapM (fun d => mapM (fun ts => match1 d ts maxdt) obs) datetimes.
