(** Model of KeypointMatcher and match_keypoints, src/glimpse/optimize.py:2231-2760.

    Keypoints, matches and images are of any type.  Files are functions from names to contents; a file whose
    writing was interrupted is [Partial] and cannot be read.  pool.map is sequential (parallel=False); parallel runs are in PoolModel.
    Not modelled: keypoint detection and descriptor matching themselves (OpenCV), CLAHE, printing, clearing cached
    images. *)
From Coq Require Import String.
From Verif Require Import Base.
Open Scope Z_scope.

(** numpy.unique *)
Fixpoint uinsert (x : Z) (l : list Z) : list Z :=
  match l with [] => [x] | y :: r => if x <? y then x :: l else if x =? y then l else y :: uinsert x r end.
Definition unique (l : list Z) : list Z := fold_right uinsert [] l.
(** numpy.sort *)
Fixpoint zinsert (x : Z) (l : list Z) : list Z := match l with [] => [x] | y :: r => if x <=? y then x :: l else y :: zinsert x r end.
Definition zsort (l : list Z) : list Z := fold_right zinsert [] l.
Definition zmem (x : Z) (l : list Z) : bool := existsb (Z.eqb x) l.
(** numpy.arange of integers *)
Definition zrange (a b : Z) : list Z := map (fun i => a + Z.of_nat i) (seq 0 (Z.to_nat (b - a))).
(** numpy.searchsorted of a sorted array, side="right" *)
Definition count_le (t : Z) (l : list Z) : Z := Z.of_nat (length (filter (fun x => x <=? t) l)).
Definition mapi {A B} (f : Z -> A -> B) (l : list A) : list B := map (fun p => f (Z.of_nat (fst p)) (snd p)) (combine (seq 0 (length l)) l).

(** optimize.py:2319-2325: images must be in ascending temporal order *)
Fixpoint ascending (l : list Z) : bool := match l with x :: (y :: _) as r => (x <=? y) && ascending r | _ => true end.
Definition new_matcher (times : list Z) : result (list Z) := if ascending times then Ok times else Err ValueError.

(** optimize.py:2492-2514.  An empty [seq] makes an array of floats, which cannot be used as indices (line 2539). *)
Definition matching_images (times : list Z) (maxdt : option Z) (sq : option (list Z)) (imgs : option (list Z)) : result (list (list Z)) :=
  let n := Z.of_nat (length times) in
  let m0 := match maxdt, sq with
            | None, None => mapi (fun i _ => zrange (i + 1) n) times
            | Some d, _ => mapi (fun i t => zrange (i + 1) (count_le (t + d) times)) times
            | None, Some _ => map (fun _ => []) times
            end in
  let m1 := match sq with
            | None => m0
            | Some s => let s := unique (filter (fun x => 0 <? x) s) in
                        mapi (fun i m => unique (m ++ filter (fun j => j <? n) (map (fun x => x + i) s))) m0
            end in
  let m2 := match imgs with None => m1 | Some l => map (filter (fun j => zmem j l)) m1 end in
  match sq with
  | Some [] => if existsb (fun m => negb (length m =? 0)%nat) m2 then Err IndexError else Ok m2
  | _ => Ok m2
  end.

(** A sparse matrix in coordinate format. *)
Record coo (M : Type) := mk_coo { coo_entries : list (Z * Z * M); coo_shape : Z * Z }.
Arguments mk_coo {M}. Arguments coo_entries {M}. Arguments coo_shape {M}.
Definition row {M} (e : Z * Z * M) : Z := fst (fst e).
Definition col {M} (e : Z * Z * M) : Z := snd (fst e).
Definition zmax (l : list Z) : Z := fold_right Z.max (-1) l.
(* ------------------------------------------------------------------ *)
(** ** Images and matches *)
Section Matcher.
Context {I K M : Type}.
(** self.images, self.keypoints, self.matches *)
Record matcher := mk_matcher { mt_images : list I; mt_keypoints : option (list (option K)); mt_matches : option (coo M) }.
(** optimize.py:2688-2692 *)
Definition touches (imgs : list Z) (e : Z * Z * M) : bool := (zmem (row e) imgs || zmem (col e) imgs)%bool.
(** numpy.unique(..., return_inverse=True): position of each element among the distinct ones *)
Definition position (x : Z) (l : list Z) : Z := Z.of_nat (length (filter (fun y => y <? x) l)).
(** optimize.py:2714-2737 *)
Definition drop_images (imgs : list Z) (s : matcher) : result matcher :=
  match mt_matches s with
  | None => Err ValueError
  | Some m =>
    let es := filter (fun e => negb (touches imgs e)) (coo_entries m) in
    let all := zrange 0 (Z.of_nat (length (mt_images s))) in
    let keep := unique (map row es ++ map col es) in
    let drop := filter (fun i => negb (zmem i keep)) all in
    let urow := unique (map row es ++ keep) in
    let ucol := unique (map col es ++ keep) in
    let n := Z.of_nat (length (mt_images s)) - Z.of_nat (length drop) in
    Ok (mk_matcher (map snd (filter (fun p => negb (zmem (Z.of_nat (fst p)) drop)) (combine (seq 0 (length (mt_images s))) (mt_images s))))
         (mt_keypoints s)
         (Some (mk_coo (map (fun e => (position (row e) urow, position (col e) ucol, snd e)) es) (n, n))))
  end.
(** optimize.py:2699-2712; [size] is the number of points of a match *)
Definition image_matches (m : coo M) (i : Z) : list M := map snd (filter (touches [i]) (coo_entries m)).
Definition matches_per_image (size : M -> Z) (s : matcher) : result (list Z) :=
  match mt_matches s with
  | None => Err ValueError
  | Some m => Ok (map (fun i => fold_right Z.add 0 (map size (image_matches m i))) (zrange 0 (Z.of_nat (length (mt_images s)))))
  end.
Definition images_per_image (size : M -> Z) (s : matcher) : result (list Z) :=
  match mt_matches s with
  | None => Err ValueError
  | Some m => Ok (map (fun i => Z.of_nat (length (filter (fun x => 0 <? size x) (image_matches m i)))) (zrange 0 (Z.of_nat (length (mt_images s)))))
  end.
(** optimize.py:2739-2753.  [counts < min_matches] compares arrays of lengths len(starts) and len(images). *)
Definition match_breaks (min_matches : Z) (s : matcher) : result (list Z) :=
  match mt_matches s with
  | None => Err ValueError
  | Some m =>
    let n := Z.of_nat (length (mt_images s)) in
    let starts := unique (map row (coo_entries m)) in
    let counts := map (fun i => Z.of_nat (length (filter (fun e => row e =? i) (coo_entries m)))) starts in
    let breaks := filter (fun i => negb (zmem i starts)) (zrange 0 (n - 1)) in
    if min_matches =? 0 then Ok breaks else
    let mins := map (fun i => Z.min min_matches (n - i)) (zrange 0 n) in
    let few := match counts, mins with
               | [c], _ => Ok (map (fun x => c <? x) mins)
               | _, [x] => Ok (map (fun c => c <? x) counts)
               | _, _ => if (length counts =? length mins)%nat then Ok (map2 Z.ltb counts mins) else Err ValueError
               end in
    let* few := few in
    Ok (zsort (breaks ++ map fst (filter snd (combine (zrange 0 n) few))))
  end.
End Matcher.
Arguments matcher : clear implicits.

(* ------------------------------------------------------------------ *)
(** ** Keypoint files *)
Inductive file (A : Type) := Missing | Partial | Written (a : A).
Arguments Missing {A}. Arguments Partial {A}. Arguments Written {A} a.
Definition exists_ {A} (f : file A) : bool := match f with Missing => false | _ => true end.
(** helpers.py:230-247: reading a truncated pickle raises (EOFError or UnpicklingError) *)
Definition read_pickle {A} (f : file A) : result A := match f with Written a => Ok a | _ => Err ValueError end.

Section Keypoints.
Context {K : Type}.
(** process, optimize.py:2397-2423, for one image: keypoints in memory, on file, and the result of detection;
    gives the keypoints in memory and on file. *)
Definition keypoints_step (path overwrite clear : bool) (detect : K) (mem : option K) (f : file K) : result (option K * file K) :=
  let written := (path && exists_ f)%bool in
  let read := match mem with Some _ => true | None => false end in
  let* r :=
    if (negb read && written && negb clear)%bool then let* k := read_pickle f in Ok (Some k, f)
    else match mem with
         | Some k => if (negb written && path)%bool then Ok (Some k, Written k)
                     else if overwrite then Ok (Some detect, if path then Written detect else f)
                     else Ok (mem, f)
         | None => if (negb written || overwrite)%bool then Ok (Some detect, if path then Written detect else f) else Ok (None, f)
         end in
  Ok (if clear then None else fst r, snd r).
(** the loop over images, optimize.py:2425-2429: [fs] are the files left, also after an exception *)
Fixpoint keypoints_loop (path overwrite clear : bool) (imgs : list (K * option K * file K)) : result (list (option K)) * list (file K) :=
  match imgs with
  | [] => (Ok [], [])
  | (d, m, f) :: r =>
    match keypoints_step path overwrite clear d m f with
    | Err e => (Err e, f :: map snd r)
    | Ok (k, f') => let (ks, fs) := keypoints_loop path overwrite clear r in (let* ks := ks in Ok (k :: ks), f' :: fs)
    end
  end.
(** optimize.py:2385-2396: [memory] is self.keypoints (None at first; an empty list is replaced too).  When an exception is raised
    self.keypoints keeps the list of before. *)
Definition build_keypoints (path overwrite clear : bool) (detected : list K) (memory : option (list (option K))) (files : list (file K))
  : result (list (option K)) * list (file K) :=
  if (clear && negb path)%bool then (Err ValueError, files) else
  let mem := match memory with Some ((_ :: _) as m) => m | _ => map (fun _ => None) detected end in
  keypoints_loop path overwrite clear (combine (combine detected mem) files).
End Keypoints.

(* ------------------------------------------------------------------ *)
(** ** build_matches *)
Section MatchFiles.
Context {K M : Type}.
(** Arguments path (given or not), overwrite, clear_keypoints, clear_matches, keypoints_path (given or not), mtype (to_type), filter. *)
Record match_args := mk_ma { ma_path : bool; ma_overwrite : bool; ma_clear_keypoints : bool; ma_clear_matches : bool; ma_keypoints_path : bool;
                             ma_type : option (M -> M); ma_filter : option (M -> M) }.
(** [make]: match_keypoints and Matches for two images (cameras are not modelled); [name i j]: basenames[i] + "-" + basenames[j] + ".pkl";
    [kfiles]: the keypoint files of the images. *)
Context (a : match_args) (make : K -> K -> M) (name : Z -> Z -> string) (kfiles : list (file K)).
(** What a run changes: self.keypoints and the match files *)
Record match_state := mk_ms { ms_keypoints : list (option K); ms_files : string -> file M }.
Definition put_file (f : string) (m : M) (fs : string -> file M) : string -> file M := fun g => if String.eqb g f then Written m else fs g.
Definition set_kp (i : Z) (k : option K) (l : list (option K)) : list (option K) := mapi (fun j x => if j =? i then k else x) l.
(** optimize.py:2530-2533, 2536-2539 *)
Definition load_kp (i : Z) (s : match_state) : result K * match_state :=
  match nth (Z.to_nat i) (ms_keypoints s) None with
  | Some k => (Ok k, s)
  | None => match read_pickle (nth (Z.to_nat i) kfiles Missing) with
            | Ok k => (Ok k, mk_ms (set_kp i (Some k) (ms_keypoints s)) (ms_files s))
            | Err e => (Err e, s)
            end
  end.
Definition convert (m : M) : M := match ma_type a with Some f => f m | None => m end.
(** optimize.py:2540-2569: the pair (i, j), keypoints of both being in memory *)
Definition match_pair (i j : Z) (ki kj : K) (s : match_state) : result (option M) * match_state :=
  if (ma_path a && negb (ma_overwrite a) && exists_ (ms_files s (name i j)))%bool then
    if ma_clear_matches a then (Ok None, s)
    else match read_pickle (ms_files s (name i j)) with Ok m => (Ok (Some (convert m)), s) | Err e => (Err e, s) end
  else
    let m := make ki kj in
    let s := if ma_path a then mk_ms (ms_keypoints s) (put_file (name i j) m (ms_files s)) else s in
    (Ok (if ma_clear_matches a then None else Some (convert m)), s).
Fixpoint match_row (i : Z) (ki : K) (js : list Z) (s : match_state) : result (list M) * match_state :=
  match js with
  | [] => (Ok [], s)
  | j :: js =>
    match load_kp j s with
    | (Err e, s) => (Err e, s)
    | (Ok kj, s) =>
      match match_pair i j ki kj s with
      | (Err e, s) => (Err e, s)
      | (Ok m, s) => match match_row i ki js s with
                     | (Err e, s) => (Err e, s)
                     | (Ok ms, s) => (Ok (match m with Some m => m :: ms | None => ms end), s)
                     end
      end
    end
  end.
(** process and reduce, optimize.py:2516-2521, 2527-2575: image i.  With clear_matches the result is None, which reduce cannot iterate. *)
Definition match_image (i : Z) (js : list Z) (s : match_state) : result (list M) * match_state :=
  match load_kp i s with
  | (Err e, s) => (Err e, s)
  | (Ok ki, s) =>
    match match_row i ki js s with
    | (Err e, s) => (Err e, s)
    | (Ok ms, s) =>
      let s := if ma_clear_keypoints a then mk_ms (set_kp i None (ms_keypoints s)) (ms_files s) else s in
      match ma_filter a with
      | Some f => if ma_clear_matches a then (Err TypeError, s) else (Ok (map f ms), s)
      | None => (Ok ms, s)
      end
    end
  end.
(** [i]: index of the first image of [rows] *)
Fixpoint match_images (i : Z) (rows : list (list Z)) (s : match_state) : result (list (list M)) * match_state :=
  match rows with
  | [] => (Ok [], s)
  | js :: rows =>
    match match_image i js s with
    | (Err e, s) => (Err e, s)
    | (Ok ms, s) => match match_images (i + 1) rows s with (Err e, s) => (Err e, s) | (Ok r, s) => (Ok (ms :: r), s) end
    end
  end.
(** optimize.py:2581-2594: scipy infers the shape and cannot for an empty matrix *)
Definition pairs_of (rows : list (list Z)) : list (Z * Z) := concat (mapi (fun i js => map (fun j => (i, j)) js) rows).
Definition build_coo (rows : list (list Z)) (data : list (list M)) : result (coo M) :=
  let ps := pairs_of rows in
  match ps with
  | [] => Err ValueError
  | _ => Ok (mk_coo (combine ps (concat data)) (zmax (map fst ps) + 1, zmax (map snd ps) + 1))
  end.
(** optimize.py:2480-2600: gives self.matches *)
Definition build_matches (times : list Z) (maxdt : option Z) (sq imgs : option (list Z)) (s : match_state) : result (option (coo M)) * match_state :=
  if (ma_clear_matches a && negb (ma_path a))%bool then (Err ValueError, s) else
  if (existsb (fun k => match k with None => true | Some _ => false end) (ms_keypoints s) && negb (ma_keypoints_path a))%bool then (Err ValueError, s) else
  match matching_images times maxdt sq imgs with
  | Err e => (Err e, s)
  | Ok rows =>
    match match_images 0 rows s with
    | (Err e, s) => (Err e, s)
    | (Ok data, s) => if ma_clear_matches a then (Ok None, s) else (let* m := build_coo rows data in Ok (Some m), s)
    end
  end.
End MatchFiles.
Arguments match_args : clear implicits. Arguments match_state : clear implicits.

(* ------------------------------------------------------------------ *)
(** ** match_keypoints *)
(** A match of the matcher: query index, train index, distance *)
Record dmatch := mk_dm { dm_query : nat; dm_train : nat; dm_distance : R }.
Open Scope R_scope.
Definition vec2 := (R * R)%type.
Definition dist2 (a b : vec2) : R := sqrt ((fst a - fst b) ^ 2 + (snd a - snd b) ^ 2).
(** falsy: None or 0 *)
Definition set_ (x : option R) : option R := match x with Some r => if Reqb r 0 then None else Some r | None => None end.
Fixpoint mfilter {A} (f : A -> result bool) (l : list A) : result (list A) :=
  match l with [] => Ok [] | x :: r => let* b := f x in let* r := mfilter f r in Ok (if b then x :: r else r) end.
Fixpoint mmap {A B} (f : A -> result B) (l : list A) : result (list B) :=
  match l with [] => Ok [] | x :: r => let* b := f x in let* r := mmap f r in Ok (b :: r) end.
(** m[0], m[1] of a result of knnMatch; m[0].distance / m[1].distance of Python floats *)
Definition best (m : list dmatch) : result dmatch := match m with x :: _ => Ok x | [] => Err IndexError end.
Definition ratio (m : list dmatch) : result R :=
  match m with x :: y :: _ => if Reqb (dm_distance y) 0 then Err ZeroDivisionError else Ok (dm_distance x / dm_distance y) | _ => Err IndexError end.
(** optimize.py:2272-2294.  [pa], [pb]: coordinates of the keypoints; [ab], [ba]: results of knnMatch in the two directions.
    Gives both coordinates and the ratios. *)
Definition match_keypoints (pa pb : list vec2) (ab ba : list (list dmatch)) (cross : bool) (max_ratio max_distance : option R) (return_ratios : bool)
  : result (list vec2 * list vec2 * option (list R)) :=
  let n := match set_ max_ratio with Some _ => 2%nat | None => if return_ratios then 2%nat else 1%nat end in
  if ((n <=? length pa) && (n <=? length pb))%nat%bool then
    let* ms := if cross then
                 let* pairs := mmap (fun m => let* d := best m in Ok (dm_train d, dm_query d)) ba in
                 mfilter (fun m => let* d := best m in Ok (existsb (fun p => (fst p =? dm_query d)%nat && (snd p =? dm_train d)%nat) pairs)) ab
               else Ok ab in
    let* ms := match set_ max_ratio with Some r => mfilter (fun m => let* q := ratio m in Ok (Rltb q r)) ms | None => Ok ms end in
    let* ds := mmap best ms in
    let* uva := mmap (fun d => match nth_error pa (dm_query d) with Some p => Ok p | None => Err IndexError end) ds in
    let* uvb := mmap (fun d => match nth_error pb (dm_train d) with Some p => Ok p | None => Err IndexError end) ds in
    let* ratios := if return_ratios then let* q := mmap ratio ms in Ok (Some q) else Ok None in
    match set_ max_distance with
    | None => Ok (uva, uvb, ratios)
    | Some d =>
      (* numpy.asarray([]) has one dimension: norm(axis=1) raises *)
      match uva with
      | [] => Err IndexError
      | _ => let keep := map2 (fun a b => Rltb (dist2 a b) d) uva uvb in
             let sel {A} (l : list A) := map fst (filter snd (combine l keep)) in
             Ok (sel uva, sel uvb, option_map sel ratios)
      end
    end
  else Ok ([], [], if return_ratios then Some [] else None).
