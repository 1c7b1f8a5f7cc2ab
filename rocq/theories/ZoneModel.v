(** Model of matching images to tracking times as the code computes it, by
    POSIX timestamps: src/glimpse/helpers.py:1555-1578, src/glimpse/track/tracker.py:425-492.

    glimpse's datetimes are naive: datetime.timestamp() reads them in the time
    zone of the computer.  Here a datetime is its integer number of microseconds
    since 1970-01-01 00:00 (as in TimeModel), a timestamp is in microseconds, and the
    time zone is any function [off] giving the UTC offset in seconds at a second of
    UTC time.  Timestamps are exact (the code's are floats), and datetimes have
    fold = 0 (the default, and what glimpse's own parsing gives). *)
From Verif Require Import Base HelpersModel TimeModel.
Open Scope Z_scope.

(** time.localtime at second u of UTC time, as seconds since 1970-01-01 00:00 local *)
Definition local (off : Z -> Z) (u : Z) : Z := u + off u.
(** datetime._mktime of the standard library for fold = 0, called by datetime.timestamp in
    helpers.py:1575-1576: [t] is local time in whole seconds *)
Definition mktime (off : Z -> Z) (t : Z) : Z :=
  let a := local off t - t in
  let u1 := t - a in
  let t1 := local off u1 in
  let second b :=
    let u2 := t - b in
    if local off u2 =? t then u2 else if t1 =? t then u1 else Z.max u1 u2 in
  if t1 =? t then
    let u2 := u1 - 86400 in
    let b := local off u2 - u2 in
    if a =? b then u1 else second b
  else second (t1 - u1).
(** datetime.timestamp of a naive datetime, helpers.py:1575-1576, in microseconds *)
Definition stamp (off : Z -> Z) (t : Z) : Z := mktime off (t / 1000000) * 1000000 + t mod 1000000.
(** helpers.pairwise_distance_datetimes, helpers.py:1555-1578: one row per x *)
Definition pairwise_distance_datetimes (off : Z -> Z) (xs ys : list Z) : list (list Z) :=
  map (fun x => map (fun y => Z.abs (stamp off x - stamp off y)) ys) xs.
(** distances.min(axis=1), tracker.py:458 (numpy: ValueError for no columns) *)
Definition row_min (row : list Z) : result Z :=
  match row with [] => Err ValueError | x :: r => Ok (fold_left Z.min r x) end.
(** Tracker.parse_datetimes, tracker.py:425-464 *)
Definition zone_parse_datetimes (off : Z -> Z) (obs : list (list Z)) (datetimes : list Z) (maxdt : Z) : result (list Z) :=
  if negb (monotonic datetimes) then Err ValueError else
  let datetimes := drop_duplicates datetimes in
  let* all := tracker_datetimes obs in
  let* distances := mapM row_min (pairwise_distance_datetimes off datetimes all) in
  let datetimes := mask_list datetimes (map (fun x => x <=? Z.abs maxdt) distances) in
  if (length datetimes <? 2)%nat then Err ValueError else Ok datetimes.
(** one entry of Tracker.match_datetimes, tracker.py:484-491 *)
Definition zone_match1 (distances : list Z) (maxdt : Z) : result (option nat) :=
  let* nearest := argmin Z.ltb distances in
  Ok (if Z.abs maxdt <? nth nearest distances 0 then None else Some nearest).
(** Tracker.match_datetimes, tracker.py:466-492: one row per datetime, one column per observer *)
Definition zone_match_datetimes (off : Z -> Z) (obs : list (list Z)) (datetimes : list Z) (maxdt : Z) : result (list (list (option nat))) :=
  mapM (fun d => mapM (fun ts => zone_match1 (concat (pairwise_distance_datetimes off [d] ts)) maxdt) obs) datetimes.
