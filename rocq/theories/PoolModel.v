(** Model of parallel runs: config.backend(np=n).map (src/glimpse/config.py:4) as used by KeypointMatcher.build_keypoints (optimize.py:2392-2429), build_matches (2486-2602), convert_matches and filter_matches (2628-2687), and Tracker.track (track/tracker.py:308-396).

    sharedmem is not in /repo; MapReduce and MapReduceByThread are modelled after their source: the tasks are handed out in order, each to the first worker that asks; every worker does one task at a time and puts its result in a queue; the main process takes the results as they come, calls reduce, and returns them in the order of the tasks.  The body of [with pool.ordered] of a task waits for the bodies of all tasks before it.  Processes have their own copy of the memory as it was when the pool was started, threads share it; files are shared in both cases.  The first result that is an exception is raised by map and ends the pool. *)
From Coq Require Import String.
From Verif Require Import Base MatcherModel.
Open Scope nat_scope.

Section Pool.
(** [P]: where a task is in its code; [G]: what all workers share; [L]: the memory of a worker; [A]: results *)
Context {P G L A : Type}.
Inductive status := Todo | Running (w : nat) (p : P) | Finished (r : result A).
Record pool := mk_pool { pl_shared : G; pl_memory : list L; pl_next : nat; pl_task : nat -> status; pl_arrived : list nat }.
(** [n] tasks; [start i]: task i before its first step; [step i p g l]: its next step, None if it has to wait; [ended p]: its result *)
Context (n : nat) (start : nat -> P) (step : nat -> P -> G -> L -> option (P * G * L)) (ended : P -> option (result A)).
Definition set_task (i : nat) (x : status) (f : nat -> status) : nat -> status := fun j => if j =? i then x else f j.
Definition idle (c : pool) (w : nat) : Prop := w < length (pl_memory c) /\ forall i p, pl_task c i <> Running w p.
Inductive pool_step : pool -> pool -> Prop :=
| Take c w : idle c w -> pl_next c < n ->
    pool_step c (mk_pool (pl_shared c) (pl_memory c) (S (pl_next c)) (set_task (pl_next c) (Running w (start (pl_next c))) (pl_task c)) (pl_arrived c))
| Run c i w p l p' g' l' : pl_task c i = Running w p -> ended p = None -> nth_error (pl_memory c) w = Some l -> step i p (pl_shared c) l = Some (p', g', l') ->
    pool_step c (mk_pool g' (set_nth w l' (pl_memory c)) (pl_next c) (set_task i (Running w p') (pl_task c)) (pl_arrived c))
| Finish c i w p r : pl_task c i = Running w p -> ended p = Some r ->
    pool_step c (mk_pool (pl_shared c) (pl_memory c) (pl_next c) (set_task i (Finished r) (pl_task c)) (pl_arrived c ++ [i])).
(** [steps k c c']: c' is reached from c in k steps *)
Inductive pool_steps : nat -> pool -> pool -> Prop :=
| steps_0 c : pool_steps 0 c c
| steps_S k c c1 c2 : pool_steps k c c1 -> pool_step c1 c2 -> pool_steps (S k) c c2.
Definition pool_start (g : G) (ls : list L) : pool := mk_pool g ls 0 (fun _ => Todo) [].
(** map has returned: all results are there *)
Definition returned (c : pool) (l : list A) : Prop := length l = n /\ forall i a, nth_error l i = Some a -> pl_task c i = Finished (Ok a).
(** map raises [e] *)
Definition raised (c : pool) (e : exn) : Prop := exists i, i < n /\ pl_task c i = Finished (Err e).
End Pool.
Arguments status : clear implicits. Arguments pool : clear implicits.

(* ------------------------------------------------------------------ *)
(** ** build_keypoints, optimize.py:2397-2429 *)
Section KeyTask.
Context {K : Type} (path overwrite clear : bool) (detected : list K) (memory : list (option K)).
(** before the test for the file; after it; before reading; the file has been opened for writing; the end *)
Inductive key_at := KTest | KChoose (written : bool) | KRead | KWrite (k : K) | KClose (k : K) | KEnd (r : result (option K)).
Definition key_out (k : option K) : key_at := KEnd (Ok (if clear then None else k)).
(** one step of the task of image i; the memory self.keypoints[i] is only read.  Detection does not touch files or memory (the cached image is not modelled). *)
Definition key_step (i : nat) (p : key_at) (fs : nat -> file K) (l : unit) : option (key_at * (nat -> file K) * unit) :=
  let put x := fun j => if j =? i then x else fs j in
  match p with
  | KTest => Some (KChoose (path && exists_ (fs i))%bool, fs, l)
  | KChoose written =>
    let detect d := if path then KWrite d else key_out (Some d) in
    let p' := match nth i memory None, nth_error detected i with
              | None, Some d => if (written && negb clear)%bool then KRead else if (negb written || overwrite)%bool then detect d else key_out None
              | Some k, Some d => if (negb written && path)%bool then KWrite k else if overwrite then detect d else key_out (Some k)
              | _, None => KEnd (Err IndexError)
              end in
    Some (p', fs, l)
  | KRead => Some (match read_pickle (fs i) with Ok k => key_out (Some k) | Err e => KEnd (Err e) end, fs, l)
  | KWrite k => Some (KClose k, put Partial, l)
  | KClose k => Some (key_out (Some k), put (Written k), l)
  | KEnd r => None
  end.
Definition key_end (p : key_at) : option (result (option K)) := match p with KEnd r => Some r | _ => None end.
End KeyTask.
Arguments key_at : clear implicits.

(* ------------------------------------------------------------------ *)
(** ** build_matches, optimize.py:2486-2602 *)
Section MatchTask.
Context {K M : Type} (a : match_args M) (make : K -> K -> M) (name : Z -> Z -> string) (kfiles : list (file K)).
(** [threads]: workers share self.keypoints (config.backend = sharedmem.MapReduceByThread) *)
Context (threads : bool) (rows : list (list Z)).
Record match_shared := mk_msh { msh_files : string -> file M; msh_keypoints : list (option K); msh_turn : nat }.
Definition visible (g : match_shared) (l : list (option K)) : list (option K) := if threads then msh_keypoints g else l.
Definition assign (j : Z) (x : option K) (g : match_shared) (l : list (option K)) : match_shared * list (option K) :=
  if threads then (mk_msh (msh_files g) (set_kp j x (msh_keypoints g)) (msh_turn g), l) else (g, set_kp j x l).
Definition put (f : string) (x : file M) (g : match_shared) : match_shared := mk_msh (fun h => if String.eqb h f then x else msh_files g h) (msh_keypoints g) (msh_turn g).
(** Where the task of image i is, with the later images of pairs still to match and the matches found:
    2530 the test of self.keypoints[i]; 2531-2533 reading the file, and assigning; 2536 to 2539 likewise for j; 2544 the test for the match file; 2546 reading it; 2552-2554 the arguments self.keypoints[i] and self.keypoints[j]; 2561 the file is opened, and written; 2567-2572 clearing, in the order of the tasks *)
Inductive match_at :=
| TestI (js : list Z) | ReadI (js : list Z) | SetI (k : K) (js : list Z)
| Loop (js : list Z) (acc : list M)
| ReadJ (j : Z) (js : list Z) (acc : list M) | SetJ (j : Z) (k : K) (js : list Z) (acc : list M)
| TestOut (j : Z) (js : list Z) (acc : list M) | ReadOut (j : Z) (js : list Z) (acc : list M)
| GetI (j : Z) (js : list Z) (acc : list M) | GetJ (j : Z) (ki : K) (js : list Z) (acc : list M)
| OpenOut (j : Z) (m : M) (js : list Z) (acc : list M) | CloseOut (j : Z) (m : M) (js : list Z) (acc : list M)
| Enter (acc : list M) | Clearing (acc : list M) | Leave (acc : list M)
| End_ (r : result (list M)).
Definition found (m : M) (acc : list M) : list M := if ma_clear_matches a then acc else acc ++ [convert a m].
Definition match_step (i : nat) (p : match_at) (g : match_shared) (l : list (option K)) : option (match_at * match_shared * list (option K)) :=
  let zi := Z.of_nat i in
  let stay p := Some (p, g, l) in
  match p with
  | TestI js => stay (match nth i (visible g l) None with None => ReadI js | Some _ => Loop js [] end)
  | ReadI js => stay (match read_pickle (nth i kfiles Missing) with Ok k => SetI k js | Err e => End_ (Err e) end)
  | SetI k js => let (g, l) := assign zi (Some k) g l in Some (Loop js [], g, l)
  | Loop [] acc => stay (if ma_clear_keypoints a then Enter acc else End_ (Ok acc))
  | Loop (j :: js) acc => stay (match nth (Z.to_nat j) (visible g l) None with None => ReadJ j js acc | Some _ => TestOut j js acc end)
  | ReadJ j js acc => stay (match read_pickle (nth (Z.to_nat j) kfiles Missing) with Ok k => SetJ j k js acc | Err e => End_ (Err e) end)
  | SetJ j k js acc => let (g, l) := assign j (Some k) g l in Some (TestOut j js acc, g, l)
  | TestOut j js acc =>
    stay (if (ma_path a && negb (ma_overwrite a) && exists_ (msh_files g (name zi j)))%bool then (if ma_clear_matches a then Loop js acc else ReadOut j js acc) else GetI j js acc)
  | ReadOut j js acc => stay (match read_pickle (msh_files g (name zi j)) with Ok m => Loop js (found m acc) | Err e => End_ (Err e) end)
  | GetI j js acc => stay (match nth i (visible g l) None with Some k => GetJ j k js acc | None => End_ (Err TypeError) end)
  | GetJ j ki js acc => stay (match nth (Z.to_nat j) (visible g l) None with Some kj => let m := make ki kj in if ma_path a then OpenOut j m js acc else Loop js (found m acc) | None => End_ (Err TypeError) end)
  | OpenOut j m js acc => Some (CloseOut j m js acc, put (name zi j) Partial g, l)
  | CloseOut j m js acc => Some (Loop js (found m acc), put (name zi j) (Written m) g, l)
  | Enter acc => if msh_turn g =? i then stay (Clearing acc) else None
  | Clearing acc => let (g, l) := assign zi None g l in Some (Leave acc, g, l)
  | Leave acc => Some (End_ (Ok acc), mk_msh (msh_files g) (msh_keypoints g) (S (msh_turn g)), l)
  | End_ r => None
  end.
Definition match_end (p : match_at) : option (result (list M)) := match p with End_ r => Some r | _ => None end.
Definition match_start (i : nat) : match_at := TestI (nth i rows []).
(** the pool of build_matches with [np] workers *)
Definition matches_pool (np : nat) (s : match_state K M) : pool match_at match_shared (list (option K)) (list M) :=
  pool_start (mk_msh (ms_files s) (ms_keypoints s) 0) (repeat (ms_keypoints s) np).
(** reduce, 2516-2521, in the main process, and 2581-2602; with clear_matches the results are None, which reduce cannot iterate.  After that the cameras of the matches are set (not modelled). *)
Definition matches_return (data : list (list M)) : result (option (coo M)) :=
  let* data := mapM (fun ms => match ma_filter a with Some f => if ma_clear_matches a then Err TypeError else Ok (map f ms) | None => Ok ms end) data in
  if ma_clear_matches a then Ok None else let* m := build_coo rows data in Ok (Some m).
End MatchTask.
Arguments match_shared : clear implicits. Arguments match_at : clear implicits.

(* ------------------------------------------------------------------ *)
(** ** convert_matches and filter_matches, optimize.py:2628-2687: reduce(i, m) sets self.matches.data[i] in the main process as results come *)
Definition assign_arrived {M} (results : nat -> option M) (arrived : list nat) (data : list M) : list M :=
  fold_left (fun d i => match results i with Some m => set_nth i m d | None => d end) arrived data.

(* ------------------------------------------------------------------ *)
(** ** Tracker.track, track/tracker.py:308-396 *)
Section TrackTask.
(** [run m r]: tracks of one motion model with numpy's random generator in state r, and its state afterwards.  With processes, each worker has its own copy of the generator and the tracker. *)
Context {Mdl Rng Tr : Type} (run : Mdl -> Rng -> result Tr * Rng) (models : list Mdl).
Inductive track_at := TrackStart | TrackEnd (r : result Tr).
Definition track_step (i : nat) (p : track_at) (g : unit) (r : Rng) : option (track_at * unit * Rng) :=
  match p, nth_error models i with
  | TrackStart, Some m => let (t, r') := run m r in Some (TrackEnd t, g, r')
  | _, _ => None
  end.
Definition track_end (p : track_at) : option (result Tr) := match p with TrackEnd r => Some r | _ => None end.
(** np=0: one after the other, in the main process *)
Fixpoint track_sequential (ms : list Mdl) (r : Rng) : list (result Tr) * Rng :=
  match ms with [] => ([], r) | m :: ms => let (t, r) := run m r in let (ts, r) := track_sequential ms r in (t :: ts, r) end.
End TrackTask.
Arguments track_at : clear implicits.
Section TrackThreads.
(** With threads, self.particles is shared: a track sets it (tracker.py:333), and takes the means from it (353) *)
Context {Particles Mean : Type} (initialize : nat -> Particles) (mean : Particles -> Mean).
Inductive thread_at := ThreadStart | ThreadMean | ThreadEnd (m : Mean).
Definition thread_step (i : nat) (p : thread_at) (g : Particles) (l : unit) : option (thread_at * Particles * unit) :=
  match p with
  | ThreadStart => Some (ThreadMean, initialize i, l)
  | ThreadMean => Some (ThreadEnd (mean g), g, l)
  | ThreadEnd _ => None
  end.
Definition thread_end (p : thread_at) : option (result Mean) := match p with ThreadEnd m => Some (Ok m) | _ => None end.
End TrackThreads.
Arguments thread_at : clear implicits.
