(** Runs of a pool: what all of them have in common. *)
From Coq Require Import String.
From Verif Require Import Base BaseLemmas MatcherModel PoolModel.
Open Scope nat_scope.
Notation length := List.length.

Section Pool.
Context {P G L A : Type} (n : nat) (start : nat -> P) (step : nat -> P -> G -> L -> option (P * G * L)) (ended : P -> option (result A)).
Notation pool := (pool P G L A).
Notation pstep := (pool_step n start step ended).
Notation psteps := (pool_steps n start step ended).
Record wf (np : nat) (c : pool) : Prop := {
  wf_np : length (pl_memory c) = np;
  wf_next : pl_next c <= n;
  wf_todo : forall i, pl_task c i = Todo <-> pl_next c <= i;
  wf_run : forall i w p, pl_task c i = Running w p -> w < np;
  wf_one : forall i i' w p p', pl_task c i = Running w p -> pl_task c i' = Running w p' -> i = i' }.
Lemma set_task_eq i (x : status P A) f : set_task i x f i = x. Proof. unfold set_task. now rewrite Nat.eqb_refl. Qed.
Lemma set_task_neq i j (x : status P A) f : j <> i -> set_task i x f j = f j. Proof. intros N. unfold set_task. apply Nat.eqb_neq in N. now rewrite N. Qed.
Lemma wf_start np g ls : length ls = np -> wf np (pool_start g ls).
Proof. intros H. constructor; cbn; auto; try discriminate. - lia. - intros i. split; [lia|auto]. Qed.
Lemma wf_step np c c' : wf np c -> pstep c c' -> wf np c'.
Proof.
  intros [W1 W2 W3 W4 W5] St. destruct St as [c w [I1 I2] Lt | c i w p l p' g' l' E Ne El Es | c i w p r E Er].
  - constructor; cbn.
    + exact W1.
    + lia.
    + intros i. destruct (Nat.eq_dec i (pl_next c)) as [->|N]; [rewrite set_task_eq; split; [discriminate|lia]|]. rewrite set_task_neq by exact N. rewrite W3. lia.
    + intros i w' p. destruct (Nat.eq_dec i (pl_next c)) as [->|N]; [rewrite set_task_eq; intros [= <- _]; lia|]. rewrite set_task_neq by exact N. apply W4.
    + intros i i' w' p p'. destruct (Nat.eq_dec i (pl_next c)) as [->|N], (Nat.eq_dec i' (pl_next c)) as [->|N']; rewrite ?set_task_eq, ?set_task_neq by assumption; intros H1 H2.
      * reflexivity.
      * injection H1 as <- _. now apply I2 in H2.
      * injection H2 as <- _. now apply I2 in H1.
      * eapply W5; eassumption.
  - constructor; cbn.
    + now rewrite set_nth_length.
    + exact W2.
    + intros j. destruct (Nat.eq_dec j i) as [->|N]; [rewrite set_task_eq; split; [discriminate|]; intros Q; apply W3 in Q; congruence|]. rewrite set_task_neq by exact N. apply W3.
    + intros j w' q. destruct (Nat.eq_dec j i) as [->|N]; [rewrite set_task_eq; intros [= <- _]; now apply (W4 i w p)|]. rewrite set_task_neq by exact N. apply W4.
    + intros j j' w' q q'. destruct (Nat.eq_dec j i) as [->|N], (Nat.eq_dec j' i) as [->|N']; rewrite ?set_task_eq, ?set_task_neq by assumption; intros H1 H2.
      * reflexivity.
      * injection H1 as <- _. eapply W5; eassumption.
      * injection H2 as <- _. eapply W5; eassumption.
      * eapply W5; eassumption.
  - constructor; cbn.
    + exact W1.
    + exact W2.
    + intros j. destruct (Nat.eq_dec j i) as [->|N]; [rewrite set_task_eq; split; [discriminate|]; intros Q; apply W3 in Q; congruence|]. rewrite set_task_neq by exact N. apply W3.
    + intros j w' q. destruct (Nat.eq_dec j i) as [->|N]; [rewrite set_task_eq; discriminate|]. rewrite set_task_neq by exact N. apply W4.
    + intros j j' w' q q'. destruct (Nat.eq_dec j i) as [->|N], (Nat.eq_dec j' i) as [->|N']; rewrite ?set_task_eq, ?set_task_neq by assumption; intros H1 H2; try discriminate. eapply W5; eassumption.
Qed.
Lemma wf_lt np c i : wf np c -> pl_task c i <> Todo -> i < n.
Proof. intros W H. destruct (Nat.lt_ge_cases i (pl_next c)) as [Q|Q]; [pose proof (wf_next _ _ W); lia|]. apply (wf_todo _ _ W) in Q. now contradiction H. Qed.
(** Induction over the steps of a run *)
Lemma steps_ind np (Inv : pool -> Prop) g ls : length ls = np -> Inv (pool_start g ls) -> (forall c c', wf np c -> Inv c -> pstep c c' -> Inv c') ->
  forall k c, psteps k (pool_start g ls) c -> wf np c /\ Inv c.
Proof.
  intros Hl H0 H k c Hs. remember (pool_start g ls) as c0 eqn:E0. induction Hs as [c|k c c1 c2 Hs IH Hst]; subst.
  - split; [now apply wf_start|exact H0].
  - destruct (IH eq_refl H0) as [W I]. split; [eapply wf_step; eassumption|eapply H; eassumption].
Qed.
(** Runs end *)
Context (weight : nat -> P -> nat).
Definition status_weight (i : nat) (x : status P A) : nat := match x with Todo => weight i (start i) + 2 | Running _ p => weight i p + 1 | Finished _ => 0 end.
Fixpoint total (m : nat) (f : nat -> status P A) : nat := match m with 0 => 0 | S m => total m f + status_weight m (f m) end.
Lemma total_same i m (x : status P A) f : m <= i -> total m (set_task i x f) = total m f.
Proof. intros H. induction m as [|m IH]; cbn [total]; [reflexivity|]. rewrite IH by lia. now rewrite set_task_neq by lia. Qed.
Lemma total_set i m (x : status P A) f : i < m -> total m (set_task i x f) + status_weight i (f i) = total m f + status_weight i x.
Proof.
  induction m as [|m IH]; intros H; [lia|]. cbn [total]. destruct (Nat.eq_dec i m) as [->|N].
  - rewrite total_same by lia. rewrite set_task_eq. lia.
  - rewrite set_task_neq by lia. specialize (IH ltac:(lia)). lia.
Qed.
Lemma total_step np c c' : (forall i p g l p' g' l', step i p g l = Some (p', g', l') -> weight i p' < weight i p) -> wf np c -> pstep c c' -> total n (pl_task c') < total n (pl_task c).
Proof.
  intros D W St. destruct St as [c w I Lt | c i w p l p' g' l' E Ne El Es | c i w p r E Er]; cbn [pl_task].
  - assert (Q : pl_task c (pl_next c) = Todo) by (apply (wf_todo _ _ W); lia). pose proof (total_set (pl_next c) n (Running w (start (pl_next c))) (pl_task c) Lt) as T. rewrite Q in T. cbn [status_weight] in T. lia.
  - assert (Li : i < n) by (apply (wf_lt _ _ _ W); congruence). pose proof (total_set i n (Running w p') (pl_task c) Li) as T. rewrite E in T. cbn [status_weight] in T. apply D in Es. lia.
  - assert (Li : i < n) by (apply (wf_lt _ _ _ W); congruence). pose proof (total_set i n (Finished r) (pl_task c) Li) as T. rewrite E in T. cbn [status_weight] in T. lia.
Qed.
Lemma total_steps np g ls k c : length ls = np -> (forall i p g l p' g' l', step i p g l = Some (p', g', l') -> weight i p' < weight i p) -> psteps k (pool_start g ls) c -> k + total n (pl_task c) <= total n (fun _ => Todo).
Proof.
  intros Hl D Hs. remember (pool_start g ls) as c0 eqn:E0. induction Hs as [c|k c c1 c2 Hs IH Hst]; subst c; [cbn; lia|].
  assert (W : wf np c1) by (apply (steps_ind np (fun _ => True) g ls Hl I (fun _ _ _ _ _ => I) k c1 Hs)). pose proof (total_step np _ _ D W Hst). specialize (IH eq_refl). lia.
Qed.
Lemma total_const m b : (forall i, i < m -> weight i (start i) = b i) -> total m (fun _ => Todo) = list_sum (map (fun i => b i + 2) (seq 0 m)).
Proof.
  induction m as [|m IH]; intros H; [reflexivity|]. cbn [total]. rewrite seq_S, map_app, list_sum_app. cbn. rewrite IH by (intros; apply H; lia). rewrite H by lia. lia.
Qed.
(** A worker without a task *)
Lemma idle_or_busy np c w : wf np c -> w < np -> idle c w \/ exists i p, pl_task c i = Running w p.
Proof.
  intros W Hw. assert (Gm : forall m, (forall i p, i < m -> pl_task c i <> Running w p) \/ exists i p, pl_task c i = Running w p).
  { induction m as [|m [IH|IH]]; [left; lia| |now right]. destruct (pl_task c m) as [|w' p|r] eqn:E; [left|destruct (Nat.eq_dec w' w) as [->|N]; [right; eauto|left]|left]; intros i q Hi; (destruct (Nat.eq_dec i m) as [->|]; [rewrite E; congruence|apply IH; lia]). }
  destruct (Gm n) as [H|H]; [left|now right]. split; [now rewrite (wf_np _ _ W)|]. intros i p E. apply (H i p); [|exact E]. apply (wf_lt _ _ _ W). congruence.
Qed.
(** A run that cannot go on has finished all tasks, if some running task can go on whenever there is one. *)
Definition can_go (c : pool) (i : nat) : Prop := exists w p, pl_task c i = Running w p /\ (ended p <> None \/ exists l x, nth_error (pl_memory c) w = Some l /\ step i p (pl_shared c) l = Some x).
Lemma go_step c i : can_go c i -> exists c', pstep c c'.
Proof.
  intros (w & p & E & H). destruct (ended p) as [r|] eqn:Er; [eexists; now apply (Finish _ _ _ _ c i w p r)|]. destruct H as [H|(l & [[p' g'] l'] & El & Es)]; [congruence|]. eexists. now apply (Run _ _ _ _ c i w p l p' g' l').
Qed.
Lemma progress np c : wf np c -> 1 <= np -> (forall i w p, pl_task c i = Running w p -> exists i', can_go c i') -> (exists c', pstep c c') \/ (forall i, i < n -> exists r, pl_task c i = Finished r).
Proof.
  intros W Hn H. destruct (idle_or_busy np c 0 W ltac:(lia)) as [I|(i & p & E)]; [|left; destruct (H i 0 p E) as [i' Q]; now apply (go_step c i')].
  destruct (Nat.lt_ge_cases (pl_next c) n) as [Lt|Ge]; [left; eexists; now apply (Take _ _ _ _ c 0)|].
  assert (Gm : forall m, (exists c', pstep c c') \/ (forall i, i < m -> m <= n -> exists r, pl_task c i = Finished r)).
  { induction m as [|m [IH|IH]]; [right; lia|now left|]. destruct (pl_task c m) as [|w p|r] eqn:E.
    - right. intros i Hi Hm. apply (wf_todo _ _ W) in E. lia.
    - left. destruct (H m w p E) as [i' Q]. now apply (go_step c i').
    - right. intros i Hi Hm. destruct (Nat.eq_dec i m) as [->|]; [eauto|apply IH; lia]. }
  destruct (Gm n) as [Q|Q]; [now left|right]. intros i Hi. now apply Q.
Qed.
(** Runs given by who does the next step (for examples) *)
Inductive choice := CTake (w : nat) | CRun (i : nat) | CFinish (i : nat).
Definition play1 (c : pool) (x : choice) : option pool :=
  match x with
  | CTake w => if ((w <? length (pl_memory c)) && (pl_next c <? n) && forallb (fun i => match pl_task c i with Running w' _ => negb (w' =? w) | _ => true end) (seq 0 n))%bool
      then Some (mk_pool (pl_shared c) (pl_memory c) (S (pl_next c)) (set_task (pl_next c) (Running w (start (pl_next c))) (pl_task c)) (pl_arrived c)) else None
  | CRun i => match pl_task c i with
      | Running w p => match ended p, nth_error (pl_memory c) w with
          | None, Some l => match step i p (pl_shared c) l with Some (p', g', l') => Some (mk_pool g' (set_nth w l' (pl_memory c)) (pl_next c) (set_task i (Running w p') (pl_task c)) (pl_arrived c)) | None => None end
          | _, _ => None end
      | _ => None end
  | CFinish i => match pl_task c i with
      | Running w p => match ended p with Some r => Some (mk_pool (pl_shared c) (pl_memory c) (pl_next c) (set_task i (Finished r) (pl_task c)) (pl_arrived c ++ [i])) | None => None end
      | _ => None end
  end.
Fixpoint play (xs : list choice) (c : pool) : option pool := match xs with [] => Some c | x :: xs => match play1 c x with Some c => play xs c | None => None end end.
Lemma play1_step np c x c' : wf np c -> play1 c x = Some c' -> pstep c c'.
Proof.
  intros W. destruct x as [w|i|i]; cbn [play1].
  - destruct (_ && _)%bool eqn:E; [|discriminate]. intros [= <-]. apply andb_true_iff in E as [E E3]. apply andb_true_iff in E as [E1 E2]. apply Nat.ltb_lt in E1, E2. apply Take; [|exact E2]. split; [exact E1|].
    intros i p Q. assert (Hi : i < n) by (apply (wf_lt _ _ _ W); congruence). rewrite forallb_forall in E3. specialize (E3 i ltac:(apply in_seq; lia)). rewrite Q, Nat.eqb_refl in E3. discriminate.
  - destruct (pl_task c i) as [|w p|r] eqn:E; try discriminate. destruct (ended p) eqn:Er; [discriminate|]. destruct (nth_error (pl_memory c) w) as [l|] eqn:El; [|discriminate]. destruct (step i p (pl_shared c) l) as [[[p' g'] l']|] eqn:Es; [|discriminate]. intros [= <-]. eapply Run; eassumption.
  - destruct (pl_task c i) as [|w p|r] eqn:E; try discriminate. destruct (ended p) as [r|] eqn:Er; [|discriminate]. intros [= <-]. eapply Finish; eassumption.
Qed.
Lemma play_steps np xs : forall c0 k c c', wf np c -> psteps k c0 c -> play xs c = Some c' -> exists k', psteps k' c0 c'.
Proof.
  induction xs as [|x xs IH]; intros c0 k c c' W H; cbn [play]; [intros [= <-]; eauto|]. destruct (play1 c x) as [c1|] eqn:E; [|discriminate]. pose proof (play1_step np c x c1 W E) as St. apply (IH c0 (S k)); [eapply wf_step; eassumption|]. eapply steps_S; eassumption.
Qed.
(** ... leaving out steps that cannot be made *)
Fixpoint play_on (xs : list choice) (c : pool) : pool := match xs with [] => c | x :: xs => play_on xs (match play1 c x with Some c => c | None => c end) end.
Lemma play_on_run xs g ls (Q : pool -> Prop) : Q (play_on xs (pool_start g ls)) -> exists k c, psteps k (pool_start g ls) c /\ Q c.
Proof.
  intros H. enough (Gm : forall c k, wf (length ls) c -> psteps k (pool_start g ls) c -> exists k', psteps k' (pool_start g ls) (play_on xs c)) by (destruct (Gm (pool_start g ls) 0) as [k Hk]; [now apply wf_start|apply steps_0|eauto]).
  clear H. induction xs as [|x xs IH]; intros c k W H; cbn [play_on]; [eauto|]. destruct (play1 c x) as [c1|] eqn:E; [|now apply (IH c k)]. pose proof (play1_step (length ls) c x c1 W E) as St. apply (IH c1 (S k)); [eapply wf_step; eassumption|]. eapply steps_S; eassumption.
Qed.
Lemma play_run xs g ls (Q : pool -> Prop) : match play xs (pool_start g ls) with Some c => Q c | None => False end -> exists k c, psteps k (pool_start g ls) c /\ Q c.
Proof.
  destruct (play xs (pool_start g ls)) as [c|] eqn:E; [|intros []]. intros H. destruct (play_steps (length ls) xs (pool_start g ls) 0 (pool_start g ls) c) as [k Hk]; [now apply wf_start|apply steps_0|exact E|]. eauto.
Qed.
End Pool.
