(** Property theorems about Tracker.track: C41, C42, C61 (src/glimpse/track/tracker.py:225-417). *)
From Verif Require Import Base BaseLemmas ResampleModel TimeModel TimeSpec TimeProofs TrackModel TrackSpec TrackProofs TrackProofs2.
Open Scope nat_scope.

Lemma rows_check (matching : list (list (option nat))) (mask : list bool) : Forall (fun r => length r = length mask) matching -> existsb (fun r => negb (length r =? length mask)) matching = false.
Proof.
  intros F. destruct (existsb _ matching) eqn:Ex; [|reflexivity]. apply existsb_exists in Ex. destruct Ex as (r & I & H). rewrite Forall_forall in F. rewrite (F r I), Nat.eqb_refl in H. discriminate.
Qed.
Lemma process_eq {T} (E : @env T) matching datetimes mm mask s : Forall (fun r => length r = length mask) matching ->
  snd (process E matching datetimes mm mask s) = snd (loop E matching datetimes mm mask (first_index matching mask) (seq (first_index matching mask) (S (last_index matching mask) - first_index matching mask))
    (map (fun _ => None) datetimes) (map (fun _ => None) datetimes) s).
Proof. intros F. unfold process. rewrite (rows_check matching mask F). reflexivity. Qed.
Lemma filled_none {A} (ds : list Z) i : ~ filled (map (fun _ => @None A) ds) i.
Proof. intros [x H]. rewrite nth_error_map in H. destruct (nth_error ds i); discriminate. Qed.

(** C41: without an error, exactly the times between the first and the last time with
    a matching image have a mean and standard deviations; with an error, those before
    the error. *)
Theorem track_window : forall {T} (E : @env T) matching datetimes mm mask s,
  Forall (fun r => length r = length mask) matching -> length matching = length datetimes -> (exists i, sees matching mask i) ->
  let r := snd (process E matching datetimes mm mask s) in
  let inside i := (exists j, j <= i /\ sees matching mask j) /\ (exists j, i <= j /\ sees matching mask j) in
  length (t_means r) = length datetimes /\ length (t_sigmas r) = length datetimes /\
  exists stop,
    (t_error r = None -> forall i, inside i -> i < stop) /\
    (forall e, t_error r = Some e -> inside stop) /\
    forall i, (inside i /\ i < stop <-> exists m, nth_error (t_means r) i = Some (Some m)) /\
              (inside i /\ i < stop <-> exists m, nth_error (t_sigmas r) i = Some (Some m)).
Proof.
  intros T E matching datetimes mm mask s F L [i0 S0] r inside. pose proof (process_eq E matching datetimes mm mask s F) as Er. fold r in Er. clearbody r. subst r. set (r := snd (loop _ _ _ _ _ _ _ _ _ _)).
  destruct (first_le matching mask F i0 S0) as (A1 & A2 & A3). destruct (last_ge matching mask F i0 S0) as (B1 & B2 & B3).
  set (f := first_index matching mask) in *. set (l := last_index matching mask) in *.
  assert (In : forall i, inside i <-> f <= i <= l).
  { intros i. split.
    - intros [(j & J1 & J2) (k & K1 & K2)]. split.
      + destruct (le_lt_dec f j) as [Q|Q]; [lia|]. exfalso. exact (A3 j Q J2).
      + destruct (le_lt_dec k l) as [Q|Q]; [lia|]. exfalso. exact (B3 k Q K2).
    - intros [J K]. split; [exists f|exists l]; auto. }
  destruct (loop_filled E matching datetimes mm mask f (S l - f) f (map (fun _ => None) datetimes) (map (fun _ => None) datetimes) s) as (C1 & C2 & e & C3 & C4 & C5 & C6); [rewrite map_length; lia|rewrite map_length; lia|].
  fold r in C1, C2, C4, C5, C6. rewrite map_length in C1, C2. split; [exact C1|]. split; [exact C2|]. exists e. split; [|split].
  - intros H i Hi. apply C4 in H. apply In in Hi. lia.
  - intros err H. apply In. assert (e <> f + (S l - f)) by (intros Q; apply C4 in Q; congruence). lia.
  - assert (G : forall (q : list (option (list R))) , (forall j, filled q j <-> filled (map (fun _ => @None (list R)) datetimes) j \/ f <= j < e) -> forall i, inside i /\ i < e <-> exists m, nth_error q i = Some (Some m)).
    { intros q Hq i. rewrite In. specialize (Hq i). unfold filled at 1 in Hq. rewrite Hq. split; [intros; right; lia|]. intros [Q|Q]; [exfalso; apply (filled_none datetimes i Q)|lia]. }
    intros i. split; [apply (G (t_means r)), C5|apply (G (t_sigmas r)), C6].
Qed.
Print Assumptions track_window.

(** a small tracker to show that the hypotheses can be met: one particle, which stays; any template *)
Definition toy_env : @env nat := {| e_test := fun _ => Ok tt; e_template := fun o img _ _ => match img with Some k => Ok (10 * o + k) | None => Err TypeError end;
  e_likelihood := fun _ _ _ _ => Ok (Some [1%R]); e_exp := exp; e_tiny := 1%R |}.
Definition toy_motion : motion := {| m_unit := 1; m_init := Ok [[0; 0; 0; 0; 0; 0]%R]; m_evolve := fun _ _ ps => (ps, Ok tt); m_log := fun _ => Ok None; m_draws := fun _ _ => Systematic (/ 2) |}.
Example track_window_ex : let matching := [[None; None]; [Some 0; None]; [None; None]; [Some 1; Some 0]; [None; Some 1]] in let mask := [true; false] in
  Forall (fun r => length r = length mask) matching /\ sees matching mask 1 /\ sees matching mask 3 /\ ~ sees matching mask 4.
Proof.
  intros matching mask. split; [repeat constructor|]. split; [exists 0, 0; auto|]. split; [exists 0, 1; auto|]. intros (o & k & H1 & H2). destruct o as [|[|[|o]]]; cbn in *; discriminate.
Qed.

(** C41: when no observer used by the track ever has a matching image, the track should be
    empty.  Finding: every time is filled (or the error stops it) although nothing was observed. *)
Theorem track_unobserved_refuted : forall {T} (E : @env T) matching datetimes mm mask s,
  Forall (fun r => length r = length mask) matching -> length matching = length datetimes -> datetimes <> [] -> (forall i, ~ sees matching mask i) ->
  let r := snd (process E matching datetimes mm mask s) in
  t_error r = None -> forall i, i < length datetimes -> exists m, nth_error (t_means r) i = Some (Some m).
Proof.
  intros T E matching datetimes mm mask s F L N S r. pose proof (process_eq E matching datetimes mm mask s F) as Er. fold r in Er. clearbody r. subst r. set (r := snd (loop _ _ _ _ _ _ _ _ _ _)).
  assert (Ln : length (observed matching mask) = length matching) by apply map_length.
  assert (No : forall k, nth k (observed matching mask) false = false). { intros k. destruct (nth k (observed matching mask) false) eqn:Q; [|reflexivity]. exfalso. apply (S k). apply (observed_nth matching mask F). exact Q. }
  assert (Hf : first_index matching mask = 0) by (apply argmaxb_none, No).
  assert (Hl : last_index matching mask = length datetimes - 1).
  { unfold last_index. rewrite argmaxb_none; [lia|]. intros k. destruct (le_lt_dec (length (rev (observed matching mask))) k) as [G|G]; [apply nth_overflow, G|]. rewrite rev_length in G. rewrite rev_nth by exact G. apply No. }
  assert (Ld : 0 < length datetimes) by (destruct datetimes; [congruence|cbn; lia]).
  unfold r. rewrite Hf, Hl. clear r. set (r := snd _). destruct (loop_filled E matching datetimes mm mask 0 (Datatypes.S (length datetimes - 1) - 0) 0 (map (fun _ => None) datetimes) (map (fun _ => None) datetimes) s) as (C1 & C2 & e & C3 & C4 & C5 & C6); [rewrite map_length; lia|rewrite map_length; lia|].
  fold r in C4, C5. intros H i Hi. apply C4 in H. apply C5. right. lia.
Qed.
Print Assumptions track_unobserved_refuted.
Example track_unobserved_ex : let matching := [[Some 0]] in (forall i, ~ sees matching [false] i) /\
  t_error (snd (process toy_env matching [0%Z] toy_motion [false] (mk_state [] [] (fun _ => None) []))) = None.
Proof.
  intros matching. split; [intros i (o & k & H1 & H2); destruct o as [|[|o]]; discriminate|].
  assert (A : forall a, average a [1%R] = Ok (sumR (map2 Rmult a [1%R]) / sumR [1%R])%R).
  { intros a. unfold average. destruct (Reqb_spec (sumR [1%R]) 0) as [Q|Q]; [exfalso; cbn in Q; lra|reflexivity]. }
  assert (B : forall cols, exists m, particle_mean cols [1%R] = Ok m).
  { intros cols. unfold particle_mean. induction cols as [|a cols [m IH]]; [eexists; reflexivity|]. cbn [mapM]. rewrite A, IH. eexists; reflexivity. }
  assert (C : forall cols, exists m, compute_particle_sigma cols [1%R] = Ok m).
  { intros cols. unfold compute_particle_sigma. destruct (B cols) as [m ->]. cbn [bind]. generalize (combine cols m) as l. induction l as [|a l [y IH]]; [eexists; reflexivity|]. cbn [mapM]. rewrite A. cbn [bind] in *. rewrite IH. eexists; reflexivity. }
  unfold process. cbn -[step]. unfold step, bindM. cbn -[particle_mean compute_particle_sigma columns].
  destruct (B (columns [[0; 0; 0; 0; 0; 0]%R])) as [m ->]. cbn -[particle_mean compute_particle_sigma columns]. destruct (C (columns [[0; 0; 0; 0; 0; 0]%R])) as [sg ->]. reflexivity.
Qed.

(** C41: with two or more tracks no exception is raised: every track has its own result, the
    one it would have from any state of the tracker, so unaffected by the other tracks *)
Theorem track_errors_contained : forall {T} (E : @env T) matching datetimes tracks s,
  exists s' rs, run_tracks E matching datetimes false tracks s = (s', Ok rs) /\
  Forall2 (fun tr r => forall s0, r = snd (process E matching datetimes (fst tr) (snd tr) s0)) tracks rs.
Proof.
  intros T E matching datetimes tracks. induction tracks as [|[mm mask] tracks IH]; intros s; [exists s, []; split; [reflexivity|constructor]|].
  cbn [run_tracks]. destruct (process E matching datetimes mm mask s) as [s1 t] eqn:Ep. destruct (IH s1) as (s' & rs & Er & F). rewrite Er. exists s', (t :: rs). split; [reflexivity|].
  constructor; [|exact F]. intros s0. cbn [fst snd]. destruct (process_independent E matching datetimes mm mask s s0) as [Q _]. rewrite Ep in Q. exact Q.
Qed.
Print Assumptions track_errors_contained.
(** C41: a single track raises its error *)
Theorem track_single_raises : forall {T} (E : @env T) matching datetimes mm mask s,
  let r := snd (process E matching datetimes mm mask s) in
  snd (run_tracks E matching datetimes true [(mm, mask)] s) = match t_error r with Some e => Err e | None => Ok [r] end.
Proof.
  intros T E matching datetimes mm mask s r. unfold r. cbn [run_tracks]. destruct (process E matching datetimes mm mask s) as [s1 t]. cbn [snd]. destruct (t_error t); reflexivity.
Qed.
Print Assumptions track_single_raises.
Lemma Forall2_len {A B} (P : A -> B -> Prop) l m : Forall2 P l m -> length l = length m.
Proof. induction 1; cbn; congruence. Qed.
(** C41, the whole call: the results for two or more motion models *)
Theorem track_results : forall {T} (E : @env T) obs models datetimes maxdt masks s s' ds matching rs, 2 <= length models ->
  track E obs models datetimes maxdt masks s = (s', Ok (ds, matching, rs)) ->
  (match datetimes with Some req => parse_datetimes obs req maxdt = Ok ds | None => tracker_datetimes obs = Ok ds end) /\
  match_datetimes obs ds maxdt = Ok matching /\ length rs = match masks with Some m => Nat.min (length models) (length m) | None => length models end /\
  forall k mm r, nth_error models k = Some mm -> nth_error rs k = Some r ->
    exists mask, (match masks with Some m => nth_error m k = Some mask | None => mask = repeat true (length obs) end) /\
      forall s0, r = snd (process E matching ds mm mask s0).
Proof.
  intros T E obs models datetimes maxdt masks s s' ds matching rs L H. unfold track in H. destruct models as [|m0 rest]; [cbn in L; lia|].
  destruct (existsb _ rest); [discriminate|]. set (models := m0 :: rest) in *. replace (length models <? 2) with false in H by (symmetry; apply Nat.ltb_ge; exact L).
  destruct (match datetimes with None => tracker_datetimes obs | Some req => parse_datetimes obs req maxdt end) as [ds'|e] eqn:Ed; [|discriminate].
  destruct (match_datetimes obs ds' maxdt) as [mt|e] eqn:Em; [|discriminate].
  set (mk := match masks with Some m => m | None => _ end) in *.
  destruct (track_errors_contained E mt ds' (combine models mk) (mk_state [] [] (fun _ => None) (st_log s))) as (s1 & rs1 & Er & F). rewrite Er in H. cbn [bind] in H. injection H as <- <- <- <-.
  split; [destruct datetimes; exact Ed|]. split; [exact Em|]. split.
  - pose proof (Forall2_len _ _ _ F) as Q. rewrite <- Q, combine_length. unfold mk. destruct masks; [reflexivity|]. rewrite repeat_length. lia.
  - intros k mm r Hk Hr. assert (G : forall tr rr, nth_error (combine models mk) k = Some tr -> nth_error rs1 k = Some rr -> forall s0, rr = snd (process E mt ds' (fst tr) (snd tr) s0)).
    { clear -F. revert k. induction F as [|x y l l' Q F IH]; intros [|k] tr rr A B; cbn in *; try discriminate; [injection A as <-; injection B as <-; exact Q|apply (IH k); auto]. }
    destruct (nth_error (combine models mk) k) as [[m1 k1]|] eqn:Ec.
    + assert (C2 : nth_error models k = Some m1 /\ nth_error mk k = Some k1).
      { clear -Ec. generalize dependent k. generalize mk. generalize models. clear. intros l0. induction l0 as [|x l IH]; intros [|y m] [|k] Ec; cbn in *; try discriminate; [injection Ec as <- <-; auto|apply IH; exact Ec]. }
      destruct C2 as [C2 C3]. rewrite Hk in C2. injection C2 as <-. exists k1. split; [|apply (G (mm, k1)); auto]. unfold mk in C3. destruct masks as [m|]; [exact C3|].
      apply nth_error_In in C3. apply repeat_spec in C3. exact C3.
    + apply nth_error_None in Ec. exfalso. assert (k < length rs1) by (apply nth_error_Some; congruence). rewrite <- (Forall2_len _ _ _ F) in H. lia.
Qed.
Print Assumptions track_results.

(** C42 *)
Theorem track_templates_in_order : forall {T} (E : @env T) matching datetimes mm mask s,
  exists L, st_log (fst (process E matching datetimes mm mask s)) = st_log s ++ L /\ templates_in_order matching mask L /\
    forall s0, st_log (fst (process E matching datetimes mm mask s0)) = st_log s0 ++ L.
Proof.
  intros T E matching datetimes mm mask s.
  destruct (process_independent E matching datetimes mm mask s s) as [_ (L & EL & _)]. exists L. split; [exact EL|]. split.
  - unfold process in EL. destruct (existsb _ matching) eqn:Ex.
    + cbn in EL. rewrite <- (app_nil_r (st_log s)) in EL at 1. apply app_inv_head in EL. subst L. split; intros p; intros; destruct p; discriminate.
    + assert (rows : Forall (fun r => length r = length mask) matching).
      { apply Forall_forall. intros r Hr. destruct (Nat.eqb_spec (length r) (length mask)) as [Q|Q]; [exact Q|]. exfalso. assert (X : existsb (fun r => negb (length r =? length mask)) matching = true); [|congruence].
        apply existsb_exists. exists r. split; [exact Hr|]. destruct (Nat.eqb_spec (length r) (length mask)); [congruence|reflexivity]. }
      destruct (loop_ordered E matching datetimes mm mask rows (st_log s) (S (last_index matching mask) - first_index matching mask) (first_index matching mask) (map (fun _ => None) datetimes) (map (fun _ => None) datetimes) s) as (L' & E1 & E2); [lia| |].
      * exists []. rewrite app_nil_r. split; [reflexivity|]. split; [split; intros p; intros; destruct p; discriminate|]. split; [intros o i k t []|]. intros o (_ & H). lia.
      * rewrite E1 in EL. apply app_inv_head in EL. subst L'. exact E2.
  - intros s0. destruct (process_independent E matching datetimes mm mask s s0) as [_ (L' & E1 & E2)]. rewrite EL in E1. apply app_inv_head in E1. subst L'. exact E2.
Qed.
Print Assumptions track_templates_in_order.
(** C42 over all the tracks of a call: the log is made of the logs of the tracks, each in order *)
Theorem track_templates_all_tracks : forall {T} (E : @env T) matching datetimes errors tracks s,
  exists Ls, st_log (fst (run_tracks E matching datetimes errors tracks s)) = st_log s ++ concat Ls /\ length Ls <= length tracks /\
    forall k L tr, nth_error Ls k = Some L -> nth_error tracks k = Some tr -> templates_in_order matching (snd tr) L.
Proof.
  intros T E matching datetimes errors tracks. induction tracks as [|[mm mask] tracks IH]; intros s.
  - exists []. cbn. rewrite app_nil_r. split; [reflexivity|]. split; [lia|]. intros [|k]; discriminate.
  - cbn [run_tracks]. destruct (track_templates_in_order E matching datetimes mm mask s) as (L & E1 & O & _). destruct (process E matching datetimes mm mask s) as [s1 t]. cbn [fst] in E1.
    destruct (IH s1) as (Ls & E2 & Ln & O2). destruct (run_tracks E matching datetimes errors tracks s1) as [s2 res]. cbn [fst] in E2.
    assert (Cont : exists Ls0, st_log s2 = st_log s ++ concat Ls0 /\ length Ls0 <= length ((mm, mask) :: tracks) /\ forall k L tr, nth_error Ls0 k = Some L -> nth_error ((mm, mask) :: tracks) k = Some tr -> templates_in_order matching (snd tr) L).
    { exists (L :: Ls). cbn [concat length]. split; [rewrite E2, E1, app_assoc; reflexivity|]. split; [lia|]. intros [|k] L0 tr H1 H2; cbn in H1, H2; [injection H1 as <-; injection H2 as <-; exact O|apply (O2 k); auto]. }
    destruct errors; [destruct (t_error t) as [e|]|destruct (t_error t) as [e|]]; cbn [fst]; try exact Cont.
    exists [L]. cbn. rewrite app_nil_r. split; [exact E1|]. split; [lia|]. intros [|[|k]] L0 tr H1 H2; cbn in H1, H2; try discriminate. injection H1 as <-. injection H2 as <-. exact O.
Qed.
Print Assumptions track_templates_all_tracks.
