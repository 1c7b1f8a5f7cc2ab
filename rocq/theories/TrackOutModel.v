(** Model of what Tracker.track returns (src/glimpse/track/tracker.py:305-417): covariances, particles, weights, their reductions, and the stacking of the
    results of all tracks in Tracks (tracks.py:69-87).  The steps of a track are those of TrackModel.v, split into what moves the tracker and what is kept of it.

    Not modelled: warnings, the progress bar, worker processes (PoolModel). *)
From Verif Require Import Base ResampleModel TimeModel TrackModel.
Open Scope R_scope.

Section TrackOut.
Context {T B : Type} (E : @env T).
Notation "x <- m ;; f" := (bindM m (fun x => f)) (at level 61, m at next level, right associativity).
(** motion_model.n, which gives the size of the arrays of particles and weights *)
Context (size : motion -> nat).
(** [error.__class__(text)], tracker.py:366-368: the class of an exception may refuse to be made from a text alone *)
Context (rebuild : exn -> result exn).

Inductive spread := Sigma (sd : list R) | Cov (c : list (list R)).
Record kept := mk_kept {
  k_means : list (option (list R)); k_spread : list (option spread);
  k_particles : list (option (list particle)); k_weights : list (option (list R));
  k_error : option exn }.
Definition with_error (k : kept) (e : exn) : kept := mk_kept (k_means k) (k_spread k) (k_particles k) (k_weights k) (Some e).

Section WithMatches.
Context (matching : list (list (option nat))) (datetimes : list Z).
(** the body of the loop up to the statistics, tracker.py:327-349 *)
Definition advance (mm : motion) (mask : list bool) (first i : nat) : @M T unit :=
  _ <- (if Nat.eqb i first then
          ps <- lift (m_init mm) ;; _ <- set_particles ps ;;
          _ <- lift (e_test E ps) ;;
          set_weights (initialize_weights ps)
        else
          _ <- evolve_M i (nth i datetimes 0%Z - nth (i - 1) datetimes 0%Z)%Z mm ;;
          s <- get ;; lift (e_test E (st_particles s))) ;;
  let at_template := filter (fun o => nth o mask false && Nat.eqb (template_index matching o) i) (seq 0 (length mask)) in
  _ <- forM at_template (fun o => initialize_template E i o (img_at matching i o)) ;;
  (if Nat.ltb first i then
     _ <- update_weights_M E i (map2 (fun (img : option nat) m => if (m : bool) then img else None) (row matching i) mask) mm ;;
     resample_M i mm
   else ret tt).
(** tracker.py:350-357.  Assigning particles of another number than the array has raises ValueError (one particle would be repeated: not modelled) *)
Definition keep (cov particles : bool) (n i : nat) (s : @state T) (k : kept) : kept :=
  let cols := columns (st_particles s) in
  match particle_mean cols (st_weights s) with
  | Err e => with_error k e
  | Ok m =>
    let k := mk_kept (set_nth i (Some m) (k_means k)) (k_spread k) (k_particles k) (k_weights k) None in
    match (if cov then let* c := particle_covariance cols (st_weights s) in Ok (Cov c) else let* sd := compute_particle_sigma cols (st_weights s) in Ok (Sigma sd)) with
    | Err e => with_error k e
    | Ok sp =>
      let k := mk_kept (k_means k) (set_nth i (Some sp) (k_spread k)) (k_particles k) (k_weights k) None in
      if negb particles then k else
      if negb (length (st_particles s) =? n)%nat then with_error k ValueError else
      mk_kept (k_means k) (k_spread k) (set_nth i (Some (st_particles s)) (k_particles k)) (set_nth i (Some (st_weights s)) (k_weights k)) None
    end
  end.
Fixpoint loop_out (cov particles : bool) (mm : motion) (mask : list bool) (first : nat) (is : list nat) (k : kept) (s : @state T) : @state T * kept :=
  match is with
  | [] => (s, k)
  | i :: r =>
    match advance mm mask first i s with
    | (s', Err e) => (s', with_error k e)
    | (s', Ok _) =>
      let k := keep cov particles (size mm) i s' k in
      match k_error k with
      | None => loop_out cov particles mm mask first r k s'
      | Some _ => (s', k)
      end
    end
  end.
(** tracker.py:305-368: arrays of nan, and the loop *)
Definition process_out (cov particles : bool) (mm : motion) (mask : list bool) (s : @state T) : @state T * kept :=
  let none {A} := map (fun _ => @None A) datetimes in
  let k := mk_kept none none none none None in
  if existsb (fun r => negb (length r =? length mask)%nat) matching then (s, with_error k IndexError) else
  let first := first_index matching mask in
  loop_out cov particles mm mask first (seq first (S (last_index matching mask) - first)) k s.
(** tracker.py:358-387 for each track in turn: raise the error ([errors]), or keep it; then reduce, also after an error *)
Definition reduction := (list (option (list particle)) -> list (option (list R)) -> result B).
Definition finish (errors : bool) (reduce : option reduction) (k : kept) : result (kept * option B) :=
  let* err := match k_error k with
              | None => Ok None
              | Some e => if errors then Err e else let* e' := rebuild e in Ok (Some e')
              end in
  let* b := match reduce with None => Ok None | Some f => let* b := f (k_particles k) (k_weights k) in Ok (Some b) end in
  Ok (mk_kept (k_means k) (k_spread k) (k_particles k) (k_weights k) err, b).
Fixpoint run_out (errors cov particles : bool) (reduce : option reduction) (tracks : list (motion * list bool)) (s : @state T) : @state T * result (list (kept * option B)) :=
  match tracks with
  | [] => (s, Ok [])
  | (mm, mask) :: r =>
    let (s1, k) := process_out cov particles mm mask s in
    match finish errors reduce k with
    | Err e => (s1, Err e)
    | Ok x => let (s2, res) := run_out errors cov particles reduce r s1 in (s2, let* xs := res in Ok (x :: xs))
    end
  end.
End WithMatches.

(** Tracks: sigmas or covariances are in [o_spread]; particles and weights (tracker.py:388-396) only if they are returned; reduced as an attribute (415-416) *)
Record output := mk_output {
  o_datetimes : list Z; o_images : list (list (option nat));
  o_means : list (list (option (list R))); o_spread : list (list (option spread)); o_errors : list (option exn);
  o_particles : option (list (list (option (list particle)))); o_weights : option (list (list (option (list R)))); o_reduced : option (list B) }.
(** numpy.stack of arrays of particles (tracks.py:78-83): all of one shape *)
Definition same_sizes (models : list motion) : bool := match models with [] => true | m :: r => forallb (fun m' => size m' =? size m)%nat r end.
(** Tracker.track, tracker.py:268-293 and 376-417 *)
Definition track_out (cov particles : bool) (reduce : option reduction) (obs : list (list Z)) (models : list motion) (datetimes : option (list Z)) (maxdt : Z) (masks : option (list (list bool))) (s : @state T)
  : @state T * result output :=
  let particles := match reduce with Some _ => true | None => particles end in
  match models with
  | [] => (s, Err IndexError)
  | m0 :: rest =>
    if existsb (fun m => negb (Z.eqb (m_unit m) (m_unit m0))) rest then (s, Err ValueError) else
    let s := mk_state [] [] (fun _ => None) (st_log s) in
    let errors := (length models <? 2)%nat in
    match (match datetimes with None => tracker_datetimes obs | Some ds => parse_datetimes obs ds maxdt end) with
    | Err e => (s, Err e)
    | Ok ds =>
      let masks := match masks with Some m => m | None => repeat (repeat true (length obs)) (length models) end in
      match match_datetimes obs ds maxdt with
      | Err e => (s, Err e)
      | Ok matching =>
        let (s', res) := run_out matching ds errors cov particles reduce (combine models masks) s in
        (s', let* xs := res in
             let arrays := (particles && match reduce with Some _ => false | None => true end)%bool in
             if (arrays && negb (same_sizes (map fst (combine models masks))))%bool then Err ValueError else
             Ok (mk_output ds matching (map (fun x => k_means (fst x)) xs) (map (fun x => k_spread (fst x)) xs) (map (fun x => k_error (fst x)) xs)
                   (if arrays then Some (map (fun x => k_particles (fst x)) xs) else None) (if arrays then Some (map (fun x => k_weights (fst x)) xs) else None)
                   (match reduce with Some _ => Some (flat_map (fun x => match snd x with Some b => [b] | None => [] end) xs) | None => None end)))
      end
    end
  end.
End TrackOut.
