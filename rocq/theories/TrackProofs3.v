(** Proofs: a track is a particle filter. *)
From Verif Require Import Base BaseLemmas ResampleModel TimeModel TrackModel TrackSpec TrackProofs.
Open Scope nat_scope.

Section Filter.
Context {T : Type} (E : @env T) (matching : list (list (option nat))) (datetimes : list Z) (mm : motion) (mask : list bool) (first : nat).

Lemma bindM_ok {A B} (m : @M T A) (f : A -> @M T B) s s' b : bindM m f s = (s', Ok b) -> exists s1 a, m s = (s1, Ok a) /\ f a s1 = (s', Ok b).
Proof. unfold bindM. destruct (m s) as [s1 [a|e]]; [|discriminate]. intros H. exists s1, a. auto. Qed.
Lemma lift_ok {A} (r : result A) (s s' : @state T) a : lift r s = (s', Ok a) -> s' = s /\ r = Ok a.
Proof. unfold lift. intros H. injection H as -> ->. auto. Qed.

Lemma templates_ok i l : NoDup l -> forall s s' u, forM l (fun o => initialize_template E i o (img_at matching i o)) s = (s', Ok u) ->
  st_particles s' = st_particles s /\ st_weights s' = st_weights s /\
  (forall o, In o l -> exists t, st_templates s' o = Some t /\ e_template E o (img_at matching i o) (st_particles s) (st_weights s) = Ok t) /\
  (forall o, ~ In o l -> st_templates s' o = st_templates s o).
Proof.
  induction l as [|o l IH]; intros N s s' u H.
  - injection H as <- _. repeat split; auto. intros o [].
  - cbn [forM] in H. apply bindM_ok in H. destruct H as (s1 & a & H1 & H). apply bindM_ok in H. destruct H as (s2 & b & H2 & H). injection H as -> _. inversion N as [|? ? No Nl]; subst.
    unfold initialize_template in H1. apply bindM_ok in H1. destruct H1 as (s3 & st & G & H1). injection G as <- <-. apply bindM_ok in H1. destruct H1 as (s4 & t & L & H1). apply lift_ok in L. destruct L as [-> Et].
    injection H1 as <- _. destruct (IH Nl _ _ _ H2) as (A & B & C & D). cbn [st_particles st_weights st_templates] in *. split; [exact A|]. split; [exact B|]. split.
    + intros o' [<-|I].
      * exists t. split; [|exact Et]. rewrite D by assumption. now rewrite Nat.eqb_refl.
      * destruct (C o' I) as (t' & C1 & C2). exists t'. auto.
    + intros o' Ho. rewrite D by (intros I; apply Ho; now right). destruct (Nat.eqb_spec o' o) as [->|]; [exfalso; apply Ho; now left|reflexivity].
Qed.

Lemma likelihoods_ok i : forall l s s' logs, forM l (fun oi => observer_log_likelihoods E i (fst oi) (snd oi)) s = (s', Ok logs) ->
  st_particles s' = st_particles s /\ st_weights s' = st_weights s /\ st_templates s' = st_templates s /\
  Forall2 (fun oi lg => match snd oi with None => lg = None | Some k => exists t, st_templates s (fst oi) = Some t /\ e_likelihood E (fst oi) k t (st_particles s) = Ok lg end) l logs.
Proof.
  induction l as [|[o img] l IH]; intros s s' logs H.
  - injection H as <- <-. repeat split; auto.
  - cbn [forM] in H. apply bindM_ok in H. destruct H as (s1 & a & H1 & H). apply bindM_ok in H. destruct H as (s2 & b & H2 & H). injection H as -> <-.
    cbn [fst snd] in H1. destruct (IH _ _ _ H2) as (A & B & C & D).
    assert (Q : st_particles s1 = st_particles s /\ st_weights s1 = st_weights s /\ st_templates s1 = st_templates s /\
      match img with None => a = None | Some k => exists t, st_templates s o = Some t /\ e_likelihood E o k t (st_particles s) = Ok a end).
    { unfold observer_log_likelihoods in H1. destruct img as [k|]; [|injection H1 as <- <-; auto].
      apply bindM_ok in H1. destruct H1 as (s3 & st & G & H1). injection G as <- <-. destruct (st_templates s o) as [t|] eqn:Et; [|discriminate].
      apply bindM_ok in H1. destruct H1 as (s4 & [] & G & H1). apply lift_ok in H1. destruct H1 as [-> H1]. injection G as <-. cbn. repeat split; auto. exists t. auto. }
    destruct Q as (Q1 & Q2 & Q3 & Q4). rewrite A, B, C, Q1, Q2, Q3. repeat split; auto. constructor; [exact Q4|]. rewrite Q1, Q3 in D. exact D.
Qed.

Definition masked_row (i : nat) : list (option nat) := map2 (fun (img : option nat) m => if (m : bool) then img else None) (row matching i) mask.

(** what a successful step does *)
Lemma step_ok i s s' m sg : step E matching datetimes mm mask first i s = (s', Ok (m, sg)) ->
  exists Q W0, 
  (i = first -> m_init mm = Ok Q /\ W0 = initialize_weights Q) /\
  (i <> first -> m_evolve mm i (nth i datetimes 0%Z - nth (i - 1) datetimes 0%Z)%Z (st_particles s) = (Q, Ok tt) /\ W0 = st_weights s) /\
  e_test E Q = Ok tt /\
  (forall o, o < length mask -> nth o mask false = true -> template_index matching o = i -> exists t, st_templates s' o = Some t /\ e_template E o (img_at matching i o) Q W0 = Ok t) /\
  (forall o, ~ (o < length mask /\ nth o mask false = true /\ template_index matching o = i) -> st_templates s' o = st_templates s o) /\
  (i <= first -> st_particles s' = Q /\ st_weights s' = W0) /\
  (first < i -> exists logs ml, Forall2 (fun oi lg => match snd oi with None => lg = None | Some k => exists t, st_templates s' (fst oi) = Some t /\ e_likelihood E (fst oi) k t Q = Ok lg end)
       (combine (seq 0 (length (masked_row i))) (masked_row i)) logs /\
     m_log mm Q = Ok ml /\ resample_particles (m_draws mm i (update_weights (e_exp E) (e_tiny E) (logs ++ [ml]) W0)) Q (update_weights (e_exp E) (e_tiny E) (logs ++ [ml]) W0) = Ok (st_particles s', st_weights s')) /\
  particle_mean (columns (st_particles s')) (st_weights s') = Ok m /\ compute_particle_sigma (columns (st_particles s')) (st_weights s') = Ok sg.
Proof.
  intros H. unfold step in H. apply bindM_ok in H. destruct H as (s1 & [] & H1 & H). apply bindM_ok in H. destruct H as (s2 & u & H2 & H). apply bindM_ok in H. destruct H as (s3 & [] & H3 & H).
  apply bindM_ok in H. destruct H as (s4 & st & G & H). injection G as <- <-. apply bindM_ok in H. destruct H as (s4 & m' & G & H). apply lift_ok in G. destruct G as [-> Em].
  apply bindM_ok in H. destruct H as (s4 & sg' & G & H). apply lift_ok in G. destruct G as [-> Es]. injection H as -> <- <-.
  assert (P1 : exists Q W0, st_particles s1 = Q /\ st_weights s1 = W0 /\ st_templates s1 = st_templates s /\ (i = first -> m_init mm = Ok Q /\ W0 = initialize_weights Q) /\
    (i <> first -> m_evolve mm i (nth i datetimes 0%Z - nth (i - 1) datetimes 0%Z)%Z (st_particles s) = (Q, Ok tt) /\ W0 = st_weights s) /\ e_test E Q = Ok tt).
  { destruct (Nat.eqb_spec i first) as [Ei|Ni].
    - apply bindM_ok in H1. destruct H1 as (s4 & ps & G & H1). apply lift_ok in G. destruct G as [-> Ei']. apply bindM_ok in H1. destruct H1 as (s5 & [] & G & H1). injection G as <-.
      apply bindM_ok in H1. destruct H1 as (s5 & [] & G & H1). apply lift_ok in G. destruct G as [-> Et]. injection H1 as <-. exists ps, (initialize_weights ps). cbn. repeat split; auto; contradiction.
    - apply bindM_ok in H1. destruct H1 as (s4 & [] & G & H1). unfold evolve_M in G. apply bindM_ok in G. destruct G as (s5 & st & G1 & G). injection G1 as <- <-.
      destruct (m_evolve mm i _ (st_particles s)) as [ps r] eqn:Ev. apply bindM_ok in G. destruct G as (s6 & [] & G1 & G). injection G1 as <-. apply lift_ok in G. destruct G as [-> ->].
      apply bindM_ok in H1. destruct H1 as (s7 & st & G1 & H1). injection G1 as <- <-. apply lift_ok in H1. destruct H1 as [-> Et]. cbn [st_particles st_weights st_templates] in *.
      exists ps, (st_weights s). repeat split; auto; contradiction. }
  destruct P1 as (Q & W0 & P1 & P2 & P3 & P4 & P5 & P6).
  destruct (templates_ok i _ (NoDup_filter _ (seq_NoDup (length mask) 0)) _ _ _ H2) as (A & B & C & D). rewrite P1, P2 in *.
  assert (Fi : forall o, In o (filter (fun o => nth o mask false && (template_index matching o =? i)) (seq 0 (length mask))) <-> o < length mask /\ nth o mask false = true /\ template_index matching o = i).
  { intros o. rewrite filter_In, in_seq, andb_true_iff, Nat.eqb_eq. intuition lia. }
  assert (P7 : st_templates s' = st_templates s2 /\ (i <= first -> st_particles s' = Q /\ st_weights s' = W0) /\ (first < i -> exists logs ml, Forall2 (fun oi lg => match snd oi with None => lg = None | Some k => exists t, st_templates s2 (fst oi) = Some t /\ e_likelihood E (fst oi) k t Q = Ok lg end)
       (combine (seq 0 (length (masked_row i))) (masked_row i)) logs /\
     m_log mm Q = Ok ml /\ resample_particles (m_draws mm i (update_weights (e_exp E) (e_tiny E) (logs ++ [ml]) W0)) Q (update_weights (e_exp E) (e_tiny E) (logs ++ [ml]) W0) = Ok (st_particles s', st_weights s'))).
  { destruct (Nat.ltb_spec first i) as [Lt|Ge].
    - fold (masked_row i) in H3. apply bindM_ok in H3. destruct H3 as (s4 & [] & H3 & H4). unfold update_weights_M in H3. apply bindM_ok in H3. destruct H3 as (s5 & logs & H5 & H3). destruct (likelihoods_ok i _ _ _ _ H5) as (L1 & L2 & L3 & L4).
      apply bindM_ok in H3. destruct H3 as (s6 & st & G & H3). injection G as <- <-. apply bindM_ok in H3. destruct H3 as (s6 & ml & G & H3). apply lift_ok in G. destruct G as [-> Eml]. injection H3 as <-.
      unfold resample_M in H4. apply bindM_ok in H4. destruct H4 as (s7 & st & G & H4). injection G as <- <-. apply bindM_ok in H4. destruct H4 as (s7 & pw & G & H4). apply lift_ok in G. destruct G as [-> Er].
      apply bindM_ok in H4. destruct H4 as (s8 & [] & G & H4). injection G as <-. injection H4 as <-. cbn [st_particles st_weights st_templates] in *. rewrite L1, L2, A, B in *.
      split; [exact L3|]. split; [lia|]. intros _. exists logs, ml. split; [exact L4|]. split; [exact Eml|]. rewrite Er. now destruct pw.
    - injection H3 as <-. split; [reflexivity|]. split; [intros _; auto|lia]. }
  destruct P7 as (T3 & P7 & P8). exists Q, W0. split; [exact P4|]. split; [exact P5|]. split; [exact P6|]. rewrite T3. split; [|split; [|split; [exact P7|split; [exact P8|auto]]]].
  - intros o Ho Hm Ht. apply C, Fi. auto.
  - intros o Ho. rewrite D, P3; [reflexivity|]. now rewrite Fi.
Qed.

(** the states of a run *)
Fixpoint trajectory (s : @state T) (n : nat) : @state T := match n with 0 => s | S n => fst (step E matching datetimes mm mask first (first + n) (trajectory s n)) end.
Lemma loop_steps : forall n k s0 means sigmas, length sigmas = length means -> first + k + n <= length means -> 
  t_error (snd (loop E matching datetimes mm mask first (seq (first + k) n) means sigmas (trajectory s0 k))) = None ->
  let r := snd (loop E matching datetimes mm mask first (seq (first + k) n) means sigmas (trajectory s0 k)) in
  (forall j, j < first + k \/ first + k + n <= j -> nth_error (t_means r) j = nth_error means j /\ nth_error (t_sigmas r) j = nth_error sigmas j) /\
  forall j, k <= j < k + n -> exists m sg, step E matching datetimes mm mask first (first + j) (trajectory s0 j) = (trajectory s0 (S j), Ok (m, sg)) /\
    nth_error (t_means r) (first + j) = Some (Some m) /\ nth_error (t_sigmas r) (first + j) = Some (Some sg).
Proof.
  induction n as [|n IH]; intros k s0 means sigmas L1 L2 H.
  - cbn. split; [auto|lia].
  - cbn [seq loop] in *. destruct (step E matching datetimes mm mask first (first + k) (trajectory s0 k)) as [s' [[m sg]|e]] eqn:Es; [|discriminate].
    assert (E1 : trajectory s0 (S k) = s') by (cbn [trajectory]; now rewrite Es). rewrite <- E1 in *. replace (S (first + k)) with (first + S k) in * by lia.
    specialize (IH (S k) s0 (set_nth (first + k) (Some m) means) (set_nth (first + k) (Some sg) sigmas)). rewrite !set_nth_length in IH. specialize (IH L1 ltac:(lia) H). cbv zeta in IH. destruct IH as (I1 & I2). split.
    + intros j Hj. destruct (I1 j) as [-> ->]; [lia|]. rewrite !nth_error_set_nth_neq by lia. auto.
    + intros j Hj. destruct (Nat.eq_dec j k) as [->|Nk]; [|apply I2; lia]. exists m, sg. split; [rewrite Es, E1; reflexivity|].
      destruct (I1 (first + k)) as [-> ->]; [lia|]. rewrite !nth_error_set_nth_eq by lia. auto.
Qed.
End Filter.
