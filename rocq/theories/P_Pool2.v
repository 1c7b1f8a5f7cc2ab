(** Property C106: tracks computed in parallel. *)
From Coq Require Import String.
From Verif Require Import Base BaseLemmas MatcherModel PoolModel PoolProofs.
Open Scope nat_scope.
Notation length := List.length.

Section Track.
Context {Mdl Rng Tr : Type} (run : Mdl -> Rng -> result Tr * Rng) (models : list Mdl).
Notation n := (length models).
Notation tstep := (track_step run models).
Notation tsteps := (pool_steps n (fun _ => TrackStart) tstep track_end).
Notation tpool := (pool (track_at Tr) unit Rng Tr).
(** all workers start with copies of the same state *)
Definition track_pool (np : nat) (r : Rng) : tpool := pool_start tt (repeat r np).
(** the state after tracks [is], one after the other *)
Fixpoint after (r : Rng) (is : list nat) : Rng :=
  match is with [] => r | i :: is => after (match nth_error models i with Some m => snd (run m r) | None => r end) is end.
Lemma after_app r l l' : after r (l ++ l') = after (after r l) l'. Proof. revert r. induction l; intros r; cbn; auto. Qed.
(** [done_at i p r]: the task i is at p, on a worker that has state r *)
Record tinv (np : nat) (r0 : Rng) (c : tpool) : Prop := {
  ti_worker : forall w r, nth_error (pl_memory c) w = Some r -> exists is, r = after r0 is /\ forall i, In i is -> i < pl_next c /\ (pl_task c i = Running w TrackStart -> False);
  ti_end : forall i w t, pl_task c i = Running w (TrackEnd t) -> exists m is, nth_error models i = Some m /\ (forall i', In i' is -> i' < i) /\ t = fst (run m (after r0 is));
  ti_fin : forall i t, pl_task c i = Finished t -> exists m is, nth_error models i = Some m /\ (forall i', In i' is -> i' < i) /\ t = fst (run m (after r0 is));
  ti_order : forall i w, pl_task c i = Running w TrackStart -> forall r, nth_error (pl_memory c) w = Some r -> exists is, r = after r0 is /\ forall i', In i' is -> i' < i }.
Lemma tinv_steps np r0 k c : tsteps k (track_pool np r0) c -> wf n np c /\ tinv np r0 c.
Proof.
  apply steps_ind; [apply repeat_length| |].
  - constructor; try discriminate. intros w r E. apply nth_error_In, repeat_spec in E. subst r. exists []. split; [reflexivity|intros i []].
  - clear. intros c c' W [T1 T2 T3 T4] St. destruct St as [c w [I1 I2] Lt | c i w p l p' g' l' E Ne El Es | c i w p r E Er].
    + constructor; cbn [pl_memory pl_next pl_task].
      * intros w' r E. destruct (T1 w' r E) as (is & Q1 & Q2). exists is. split; [exact Q1|]. intros i I. destruct (Q2 i I) as [L _]. split; [lia|]. rewrite set_task_neq by lia. now apply Q2.
      * intros i w' t. destruct (Nat.eq_dec i (pl_next c)) as [->|N]; [rewrite set_task_eq; discriminate|rewrite set_task_neq by exact N; apply T2].
      * intros i t. destruct (Nat.eq_dec i (pl_next c)) as [->|N]; [rewrite set_task_eq; discriminate|rewrite set_task_neq by exact N; apply T3].
      * intros i w' E r Er. destruct (Nat.eq_dec i (pl_next c)) as [->|N]; [|rewrite set_task_neq in E by exact N; now apply (T4 i w' E)]. rewrite set_task_eq in E. injection E as <-. destruct (T1 w r Er) as (is & Q1 & Q2). exists is. split; [exact Q1|]. intros i' I. now apply Q2.
    + destruct p; [|discriminate]. cbn [track_step] in Es. destruct (nth_error models i) as [m|] eqn:Em; [|discriminate]. destruct (run m l) as [t r'] eqn:Erun. injection Es as <- <- <-.
      destruct (T4 i w E l El) as (is & -> & Q2). assert (Hw : w < length (pl_memory c)) by (apply nth_error_Some; congruence). assert (Hi : i < pl_next c). { destruct (Nat.lt_ge_cases i (pl_next c)) as [|Q]; [assumption|]. apply (wf_todo _ _ _ W) in Q. congruence. }
      constructor; cbn [pl_memory pl_next pl_task].
      * intros w' r E'. destruct (Nat.eq_dec w' w) as [->|N].
        -- rewrite nth_error_set_nth_eq in E' by exact Hw. injection E' as <-. exists (is ++ [i]). split; [rewrite after_app; cbn; now rewrite Em, Erun|]. intros i' I. apply in_app_iff in I as [I|[<-|[]]].
           ++ specialize (Q2 i' I). split; [lia|]. rewrite set_task_neq by lia. intros Q. assert (i' = i) by (eapply (wf_one _ _ _ W); eassumption). lia.
           ++ split; [exact Hi|]. rewrite set_task_eq. discriminate.
        -- rewrite nth_error_set_nth_neq in E' by auto. destruct (T1 w' r E') as (is' & Q1 & Q3). exists is'. split; [exact Q1|]. intros i' I. split; [now apply Q3|]. destruct (Nat.eq_dec i' i) as [->|N']; [rewrite set_task_eq; discriminate|rewrite set_task_neq by exact N'; now apply Q3].
      * intros i' w' t'. destruct (Nat.eq_dec i' i) as [->|N]; [|rewrite set_task_neq by exact N; apply T2]. rewrite set_task_eq. intros [= <- <-]. exists m, is. rewrite Erun. auto.
      * intros i' t'. destruct (Nat.eq_dec i' i) as [->|N]; [rewrite set_task_eq; discriminate|rewrite set_task_neq by exact N; apply T3].
      * intros i' w' E' r Er. destruct (Nat.eq_dec i' i) as [->|N]; [rewrite set_task_eq in E'; discriminate|rewrite set_task_neq in E' by exact N]. assert (w' <> w) by (intros ->; apply N; eapply (wf_one _ _ _ W); eassumption). rewrite nth_error_set_nth_neq in Er by auto. now apply (T4 i' w').
    + destruct p; [discriminate|]. cbn in Er. injection Er as ->. constructor; cbn [pl_memory pl_next pl_task].
      * intros w' r' E'. destruct (T1 w' r' E') as (is & Q1 & Q2). exists is. split; [exact Q1|]. intros i' I. split; [now apply Q2|]. destruct (Nat.eq_dec i' i) as [->|N]; [rewrite set_task_eq; discriminate|rewrite set_task_neq by exact N; now apply Q2].
      * intros i' w' t'. destruct (Nat.eq_dec i' i) as [->|N]; [rewrite set_task_eq; discriminate|rewrite set_task_neq by exact N; apply T2].
      * intros i' t'. destruct (Nat.eq_dec i' i) as [->|N]; [rewrite set_task_eq; intros [= <-]; now apply (T2 i w)|rewrite set_task_neq by exact N; apply T3].
      * intros i' w' E' r' Er'. destruct (Nat.eq_dec i' i) as [->|N]; [rewrite set_task_eq in E'; discriminate|rewrite set_task_neq in E' by exact N; now apply (T4 i' w')].
Qed.
Definition track_weight (i : nat) (p : track_at Tr) : nat := match p with TrackStart => 1 | TrackEnd _ => 0 end.
Lemma sequential_nth : forall ms r i m, nth_error ms i = Some m -> exists r', nth_error (fst (track_sequential run ms r)) i = Some (fst (run m r')).
Proof. induction ms as [|x ms IH]; intros r [|i] m; cbn; try discriminate; destruct (run x r) as [t r1] eqn:E; destruct (track_sequential run ms r1) as [ts r2] eqn:E2; cbn; [intros [= <-]; exists r; now rewrite E|]. intros Em. destruct (IH r1 i m Em) as [r' Q]. rewrite E2 in Q. eauto. Qed.
Lemma sequential_length : forall ms r, length (fst (track_sequential run ms r)) = length ms.
Proof. induction ms as [|x ms IH]; intros r; cbn; [reflexivity|]. destruct (run x r) as [t r1]. specialize (IH r1). destruct (track_sequential run ms r1). cbn in *. congruence. Qed.
End Track.

(** In any order of the steps of the workers (processes), at most 3 steps are made per track, and the run never gets stuck; each track that is done was computed by its motion model, in the state that a worker has after some of the tracks before it.
    So if tracks do not depend on that state (random numbers, templates), they are those of a run without workers. *)
Theorem track_parallel {Mdl Rng Tr} (run : Mdl -> Rng -> result Tr * Rng) models np r0 k c : 1 <= np ->
  pool_steps (length models) (fun _ => TrackStart) (track_step run models) track_end k (track_pool np r0) c ->
  k <= 3 * length models /\
  ((exists c', pool_step (length models) (fun _ => TrackStart) (track_step run models) track_end c c') \/ (forall i, i < length models -> exists t, pl_task c i = Finished t)) /\
  (forall i t, pl_task c i = Finished t -> exists m is, nth_error models i = Some m /\ (forall i', In i' is -> i' < i) /\ t = fst (run m (after run models r0 is))) /\
  ((forall m r r', fst (run m r) = fst (run m r')) -> forall i t, pl_task c i = Finished t -> nth_error (fst (track_sequential run models r0)) i = Some t).
Proof.
  intros Hn Hs. destruct (tinv_steps run models np r0 k c Hs) as [W [T1 T2 T3 T4]]. split; [|split; [|split]].
  - assert (Wt : forall i p (g : unit) l p' g' l', track_step run models i p g l = Some (p', g', l') -> track_weight i p' < track_weight i p). { intros i [|t] g l p' g' l'; cbn; [|destruct (nth_error models i); discriminate]. destruct (nth_error models i) as [m|]; [|discriminate]. destruct (run m l). intros [= <- _ _]. cbn. lia. }
    pose proof (total_steps (length models) (fun _ => TrackStart) _ track_end track_weight np _ _ k c (repeat_length _ _) Wt Hs) as B. rewrite (total_const (fun _ => TrackStart) track_weight (length models) (fun _ => 1)) in B by reflexivity.
    enough (Q : forall m, list_sum (map (fun _ => 1 + 2) (seq 0 m)) = 3 * m) by (rewrite Q in B; lia). clear. induction m as [|m IH]; [reflexivity|]. rewrite seq_S, map_app, list_sum_app, IH. cbn. lia.
  - apply (progress (length models) (fun _ => TrackStart) (track_step run models) track_end np c W Hn). intros i w p E. exists i, w, p. split; [exact E|]. destruct p as [|t]; [right|left; discriminate].
    assert (Hw : w < length (pl_memory c)) by (rewrite (wf_np _ _ _ W); eapply (wf_run _ _ _ W); eassumption). destruct (nth_error (pl_memory c) w) as [l|] eqn:El; [|apply nth_error_None in El; lia].
    assert (Hi : i < length models) by (apply (wf_lt _ _ _ _ W); congruence). exists l. cbn [track_step]. destruct (nth_error models i) as [m|] eqn:Em; [|apply nth_error_None in Em; lia]. destruct (run m l). eexists. split; reflexivity.
  - exact T3.
  - intros Ind i t E. destruct (T3 i t E) as (m & is & Em & _ & ->). destruct (sequential_nth run models r0 i m Em) as [r' ->]. f_equal. apply Ind.
Qed.
Print Assumptions track_parallel.

(** Finding.  Processes start with copies of the same random generator: if there are as many workers as tracks, it can happen that every track is computed with the same random numbers; then tracks of equal motion models are equal, although a run without workers draws them independently. *)
Theorem track_parallel_random_refuted {Mdl Rng Tr} (run : Mdl -> Rng -> result Tr * Rng) models np r0 : length models <= np ->
  exists k c, pool_steps (length models) (fun _ => TrackStart) (track_step run models) track_end k (track_pool np r0) c /\ forall i m, nth_error models i = Some m -> pl_task c i = Finished (fst (run m r0)).
Proof.
  intros Hn.
  enough (Gm : forall t, t <= length models -> exists k c, pool_steps (length models) (fun _ => TrackStart) (track_step run models) track_end k (track_pool np r0) c /\
     pl_next c = t /\ length (pl_memory c) = np /\ (forall w, t <= w < np -> nth_error (pl_memory c) w = Some r0) /\ (forall i w p, pl_task c i <> Running w p) /\ (forall i m, i < t -> nth_error models i = Some m -> pl_task c i = Finished (fst (run m r0)))).
  { destruct (Gm (length models) (le_n _)) as (k & c & Hs & _ & _ & _ & _ & H). exists k, c. split; [exact Hs|]. intros i m Em. apply H; [apply nth_error_Some; congruence|exact Em]. }
  induction t as [|t IH]; intros Ht.
  - exists 0, (track_pool np r0). split; [apply steps_0|]. split; [reflexivity|]. split; [apply repeat_length|]. split; [|split; [discriminate|lia]]. intros w Hw. cbn. apply nth_error_repeat. lia.
  - destruct (IH ltac:(lia)) as (k & c & Hs & Hx & Hl & Hm & Hr & Hf). destruct (nth_error models t) as [m|] eqn:Em; [|apply nth_error_None in Em; lia]. destruct (run m r0) as [tr r1] eqn:Erun.
    assert (S1 := Take (length models) (fun _ => TrackStart) (track_step run models) track_end c t ltac:(split; [lia|intros i p; apply Hr]) ltac:(lia)). rewrite Hx in S1.
    match type of S1 with pool_step _ _ _ _ _ ?x => set (c1 := x) in S1 end.
    assert (Q1 : pl_task c1 t = Running t TrackStart) by apply set_task_eq. assert (Q2 : nth_error (pl_memory c1) t = Some r0) by (apply Hm; lia). assert (Q3 : track_step run models t TrackStart (pl_shared c1) r0 = Some (TrackEnd tr, tt, r1)) by (cbn [track_step]; rewrite Em, Erun; now destruct (pl_shared c1)).
    assert (S2 := Run (length models) (fun _ => TrackStart) (track_step run models) track_end c1 t t TrackStart r0 (TrackEnd tr) tt r1 Q1 eq_refl Q2 Q3).
    match type of S2 with pool_step _ _ _ _ _ ?x => set (c2 := x) in S2 end.
    assert (Q4 : pl_task c2 t = Running t (TrackEnd tr)) by apply set_task_eq. assert (S3 := Finish (length models) (fun _ => TrackStart) (track_step run models) track_end c2 t t (TrackEnd tr) tr Q4 eq_refl).
    match type of S3 with pool_step _ _ _ _ _ ?x => set (c3 := x) in S3 end.
    exists (S (S (S k))), c3. split; [eapply steps_S; [eapply steps_S; [eapply steps_S; [exact Hs|exact S1]|exact S2]|exact S3]|]. subst c3 c2 c1. cbn [pl_next pl_memory pl_task]. split; [reflexivity|]. split; [now rewrite set_nth_length|]. split; [|split].
    + intros w Hw. rewrite nth_error_set_nth_neq by lia. apply Hm. lia.
    + intros i w p. destruct (Nat.eq_dec i t) as [->|N]; [rewrite set_task_eq; discriminate|]. rewrite !set_task_neq by exact N. apply Hr.
    + intros i m' Hi Em'. destruct (Nat.eq_dec i t) as [->|N]; [rewrite set_task_eq; assert (m' = m) by congruence; subst m'; now rewrite Erun|]. rewrite !set_task_neq by exact N. apply Hf; [lia|exact Em'].
Qed.
Print Assumptions track_parallel_random_refuted.
(** two equal motion models, which add the next random number: 5 and 6 without workers, 5 and 5 with two *)
Definition draw (m r : nat) : result nat * nat := (Ok (m + r), S r).
Example track_random_ex : fst (track_sequential draw [1; 1] 4) = [Ok 5; Ok 6] /\
  exists k c, pool_steps 2 (fun _ => TrackStart) (track_step draw [1; 1]) track_end k (track_pool 2 4) c /\ pl_task c 0 = Finished (Ok 5) /\ pl_task c 1 = Finished (Ok 5).
Proof. split; [reflexivity|]. destruct (track_parallel_random_refuted draw [1; 1] 2 4 (le_n _)) as (k & c & Hs & H). exists k, c. split; [exact Hs|]. split; [apply (H 0 1 eq_refl)|apply (H 1 1 eq_refl)]. Qed.

(** Finding.  With threads the particles of the tracker are shared: a track can report the particles of another. *)
Theorem track_threads_refuted {Particles Mean} (initialize : nat -> Particles) (mean : Particles -> Mean) g np : 2 <= np ->
  exists k c, pool_steps 2 (fun _ => ThreadStart) (thread_step initialize mean) thread_end k (pool_start g (repeat tt np)) c /\ returned 2 c [mean (initialize 1); mean (initialize 1)].
Proof.
  intros Hn. apply (play_run _ _ _ _ [CTake 0; CTake 1; CRun 0; CRun 1; CRun 0; CRun 1; CFinish 0; CFinish 1]). destruct np as [|[|np]]; [lia|lia|].
  cbn. split; [reflexivity|]. intros [|[|i]] x; cbn; intros E; try (injection E as <-); try reflexivity. destruct i; discriminate.
Qed.
Print Assumptions track_threads_refuted.
