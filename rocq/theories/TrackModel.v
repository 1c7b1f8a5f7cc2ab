(** Model of Tracker.track, src/glimpse/track/tracker.py:225-417.

    The parts of the tracker that look at images and motion models are
    parameters ([env], [motion]); weights, resampling and statistics are the
    definitions of ResampleModel.v.  Random draws are part of the motion model
    of a track.  The tracker's attributes (particles, weights, templates) are a
    state that persists from one track to the next, also after an error, and
    operations return the new state together with a result or an exception.
    A log of template events (not in the code) makes the order of operations
    visible in theorems.

    Not modelled: warnings, the progress bar, image caching, return_particles
    and reduce_particles, worker processes (a worker is a tracker of its own:
    results are proved not to depend on the tracker's state). *)
From Verif Require Import Base ResampleModel TimeModel.
Open Scope R_scope.

Definition particle := list R.
(** particles[:, c] for the six components *)
Definition columns (ps : list particle) : list (list R) := map (fun c => map (fun p => nth c p 0) ps) (seq 0 6).

Section Tracker.
Context {T : Type}.

Inductive event :=
| Made (obs i : nat) (img : option nat) (t : T)   (** initialize_template at step i *)
| Used (obs i img : nat) (t : T).                 (** likelihood computed at step i *)

(** self.particles, self.weights, self.templates *)
Record state := mk_state { st_particles : list particle; st_weights : list R; st_templates : nat -> option T; st_log : list event }.

(** Observers and viewshed.  [e_test] is test_particles (tracker.py:106-119), [e_template] computes
    a template (547-560) from the image, the particles and the weights, [e_likelihood] the log
    likelihoods (579-625) from the image, the template and the particles. *)
Record env := {
  e_test : list particle -> result unit;
  e_template : nat -> option nat -> list particle -> list R -> result T;
  e_likelihood : nat -> nat -> T -> list particle -> result (option (list R));
  e_exp : R -> R; e_tiny : R }.
(** A motion model with its random draws, whose number can depend on the weights (residual resampling).  evolve_particles works in place: it gives the particles
    it leaves also when it raises. *)
Record motion := {
  m_unit : Z;
  m_init : result (list particle);
  m_evolve : nat -> Z -> list particle -> list particle * result unit;
  m_log : list particle -> result (option (list R));
  m_draws : nat -> list R -> method }.

Definition M A := state -> state * result A.
Definition ret {A} (a : A) : M A := fun s => (s, Ok a).
Definition lift {A} (r : result A) : M A := fun s => (s, r).
Definition bindM {A B} (m : M A) (f : A -> M B) : M B := fun s => match m s with (s', Ok a) => f a s' | (s', Err e) => (s', Err e) end.
Notation "x <- m ;; f" := (bindM m (fun x => f)) (at level 61, m at next level, right associativity).
Definition get : M state := fun s => (s, Ok s).
Definition set_particles (ps : list particle) : M unit := fun s => (mk_state ps (st_weights s) (st_templates s) (st_log s), Ok tt).
Definition set_weights (ws : list R) : M unit := fun s => (mk_state (st_particles s) ws (st_templates s) (st_log s), Ok tt).
Definition set_template (o : nat) (t : T) : M unit := fun s =>
  (mk_state (st_particles s) (st_weights s) (fun k => if Nat.eqb k o then Some t else st_templates s k) (st_log s), Ok tt).
Definition log (e : event) : M unit := fun s => (mk_state (st_particles s) (st_weights s) (st_templates s) (st_log s ++ [e]), Ok tt).
Fixpoint forM {A B} (l : list A) (f : A -> M B) : M (list B) :=
  match l with [] => ret [] | x :: r => y <- f x ;; ys <- forM r f ;; ret (y :: ys) end.

Section WithEnv.
Context (E : env).

(** tracker.py:536-561 *)
Definition initialize_template (i o : nat) (img : option nat) : M unit :=
  s <- get ;; t <- lift (e_template E o img (st_particles s) (st_weights s)) ;;
  _ <- set_template o t ;; log (Made o i img t).
(** tracker.py:563-625; reading a missing template raises TypeError *)
Definition observer_log_likelihoods (i o : nat) (img : option nat) : M (option (list R)) :=
  match img with
  | None => ret None
  | Some k =>
    s <- get ;;
    match st_templates s o with
    | None => lift (Err TypeError)
    | Some t => _ <- log (Used o i k t) ;; lift (e_likelihood E o k t (st_particles s))
    end
  end.
(** tracker.py:126-149 *)
Definition update_weights_M (i : nat) (imgs : list (option nat)) (mm : motion) : M unit :=
  logs <- forM (combine (seq 0 (length imgs)) imgs) (fun oi => observer_log_likelihoods i (fst oi) (snd oi)) ;;
  s <- get ;; ml <- lift (m_log mm (st_particles s)) ;;
  set_weights (update_weights (e_exp E) (e_tiny E) (logs ++ [ml]) (st_weights s)).
(** tracker.py:151-223 *)
Definition resample_M (i : nat) (mm : motion) : M unit :=
  s <- get ;; pw <- lift (resample_particles (m_draws mm i (st_weights s)) (st_particles s) (st_weights s)) ;;
  _ <- set_particles (fst pw) ;; set_weights (snd pw).
(** motion_model.evolve_particles(self.particles, dt) *)
Definition evolve_M (i : nat) (dt : Z) (mm : motion) : M unit :=
  s <- get ;; let (ps, r) := m_evolve mm i dt (st_particles s) in _ <- set_particles ps ;; lift r.

(** numpy argmax of booleans *)
Fixpoint argmaxb_from (i : nat) (l : list bool) : option nat := match l with [] => None | b :: r => if b then Some i else argmaxb_from (S i) r end.
Definition argmaxb (l : list bool) : nat := match argmaxb_from 0 l with Some i => i | None => 0%nat end.
Definition is_some {A} (o : option A) : bool := match o with Some _ => true | None => false end.

Section WithMatches.
(** matching_images, datetimes *)
Context (matching : list (list (option nat))) (datetimes : list Z).
Definition row (i : nat) : list (option nat) := nth i matching [].
Definition img_at (i o : nat) : option nat := nth o (row i) None.
(** tracker.py:293 *)
Definition template_index (o : nat) : nat := argmaxb (map (fun r => is_some (nth o r None)) matching).
(** tracker.py:321-325 *)
Definition observed (mask : list bool) : list bool := map (fun r => existsb (fun im => is_some (fst im) && snd im) (combine r mask)) matching.
Definition first_index (mask : list bool) : nat := argmaxb (observed mask).
Definition last_index (mask : list bool) : nat := (length (observed mask) - 1 - argmaxb (rev (observed mask)))%nat.

(** the body of the loop, tracker.py:327-354; gives the mean and the standard deviations *)
Definition step (mm : motion) (mask : list bool) (first i : nat) : M (list R * list R) :=
  _ <- (if Nat.eqb i first then
          ps <- lift (m_init mm) ;; _ <- set_particles ps ;;
          _ <- lift (e_test E ps) ;;
          set_weights (initialize_weights ps)
        else
          _ <- evolve_M i (nth i datetimes 0%Z - nth (i - 1) datetimes 0%Z)%Z mm ;;
          s <- get ;; lift (e_test E (st_particles s))) ;;
  let at_template := filter (fun o => nth o mask false && Nat.eqb (template_index o) i) (seq 0 (length mask)) in
  _ <- forM at_template (fun o => initialize_template i o (img_at i o)) ;;
  _ <- (if Nat.ltb first i then
          _ <- update_weights_M i (map2 (fun (img : option nat) m => if (m : bool) then img else None) (row i) mask) mm ;;
          resample_M i mm
        else ret tt) ;;
  s <- get ;;
  mean <- lift (particle_mean (columns (st_particles s)) (st_weights s)) ;;
  sigma <- lift (compute_particle_sigma (columns (st_particles s)) (st_weights s)) ;;
  ret (mean, sigma).

(** means, sigmas (None: a row of nan) and error of a track *)
Record track_result := mk_result { t_means : list (option (list R)); t_sigmas : list (option (list R)); t_error : option exn }.
(** the loop, tracker.py:326-357, leaving what was computed before an exception *)
Fixpoint loop (mm : motion) (mask : list bool) (first : nat) (is : list nat) (means sigmas : list (option (list R))) (s : state) : state * track_result :=
  match is with
  | [] => (s, mk_result means sigmas None)
  | i :: r =>
    match step mm mask first i s with
    | (s', Ok (m, sg)) => loop mm mask first r (set_nth i (Some m) means) (set_nth i (Some sg) sigmas) s'
    | (s', Err e) => (s', mk_result means sigmas (Some e))
    end
  end.
(** tracker.py:305-374: indexing with a mask of the wrong length raises IndexError *)
Definition process (mm : motion) (mask : list bool) (s : state) : state * track_result :=
  let none := map (fun _ => None) datetimes in
  if existsb (fun r => negb (length r =? length mask)%nat) matching then (s, mk_result none none (Some IndexError)) else
  let first := first_index mask in
  loop mm mask first (seq first (S (last_index mask) - first)) none none s.
(** tracker.py:380-387, 360-368: [errors] is whether exceptions are raised *)
Fixpoint run_tracks (errors : bool) (tracks : list (motion * list bool)) (s : state) : state * result (list track_result) :=
  match tracks with
  | [] => (s, Ok [])
  | (mm, mask) :: r =>
    let (s1, t) := process mm mask s in
    match errors, t_error t with
    | true, Some e => (s1, Err e)
    | _, _ => let (s2, res) := run_tracks errors r s1 in (s2, let* ts := res in Ok (t :: ts))
    end
  end.
End WithMatches.

(** Tracker.track, tracker.py:275-293 and 381-417; [obs] are the observers' datetimes.
    Gives the datetimes, matching images and results. *)
Definition track (obs : list (list Z)) (models : list motion) (datetimes : option (list Z)) (maxdt : Z) (masks : option (list (list bool))) (s : state)
  : state * result (list Z * list (list (option nat)) * list track_result) :=
  match models with
  | [] => (s, Err IndexError)
  | m0 :: rest =>
    if existsb (fun m => negb (Z.eqb (m_unit m) (m_unit m0))) rest then (s, Err ValueError) else
    let s := mk_state [] [] (fun _ => None) (st_log s) in
    let errors := (length models <? 2)%nat in
    match (match datetimes with None => tracker_datetimes obs | Some ds => parse_datetimes obs ds maxdt end) with
    | Err e => (s, Err e)
    | Ok ds =>
      let masks := match masks with Some m => m | None => repeat (repeat true (length obs)) (length models) end in
      match match_datetimes obs ds maxdt with
      | Err e => (s, Err e)
      | Ok matching =>
        let (s', res) := run_tracks matching ds errors (combine models masks) s in
        (s', let* ts := res in Ok (ds, matching, ts))
      end
    end
  end.
End WithEnv.
End Tracker.
