(** Property C41, continued: what Tracker.track computes for a track. *)
From Verif Require Import Base BaseLemmas ResampleModel TimeModel TrackModel TrackSpec TrackProofs TrackProofs2 TrackProofs3 P_Track.
Open Scope nat_scope.

(** A particle filter over the times [first..last].
    [Q i], [W0 i]: predicted particles and their weights; [P i], [W i]: particles and weights after
    the observations; [tmpl o]: the template of observer [o]. *)
Record particle_filter {T} (E : @env T) (matching : list (list (option nat))) (datetimes : list Z) (mm : motion) (mask : list bool) (first last : nat)
    (Q P : nat -> list particle) (W0 W : nat -> list R) (tmpl : nat -> option T) : Prop := {
  (** the filter starts with the particles of the motion model, equally weighted *)
  pf_start : m_init mm = Ok (Q first) /\ W0 first = map (fun _ => 1%R) (Q first) /\ P first = Q first /\ W first = W0 first;
  (** particles evolve by the time elapsed since the previous time *)
  pf_predict : forall i, first < i <= last -> m_evolve mm i (nth i datetimes 0 - nth (i - 1) datetimes 0)%Z (P (i - 1)) = (Q i, Ok tt) /\ W0 i = W (i - 1);
  (** predicted particles are tested *)
  pf_test : forall i, first <= i <= last -> e_test E (Q i) = Ok tt;
  (** an observer's template is made from its first matching image and the predicted particles *)
  pf_template : forall o i0 k0, nth o mask false = true -> first_match matching o i0 k0 -> exists t, tmpl o = Some t /\ e_template E o (Some k0) (Q i0) (W0 i0) = Ok t;
  (** weights are updated with the log likelihoods of the observers that are used and have a matching image, then the particles are resampled *)
  pf_update : forall i, first < i <= last -> exists logs ml, length logs = length mask /\
    (forall o, o < length mask -> match (if nth o mask false then matched matching i o else None) with
       | None => nth o logs None = None
       | Some k => exists t, tmpl o = Some t /\ e_likelihood E o k t (Q i) = Ok (nth o logs None) end) /\
    m_log mm (Q i) = Ok ml /\
    resample_particles (m_draws mm i (update_weights (e_exp E) (e_tiny E) (logs ++ [ml]) (W0 i))) (Q i) (update_weights (e_exp E) (e_tiny E) (logs ++ [ml]) (W0 i)) = Ok (P i, W i) }.

Lemma first_match_fun matching o i1 k1 i2 k2 : first_match matching o i1 k1 -> first_match matching o i2 k2 -> i1 = i2 /\ k1 = k2.
Proof.
  intros [A1 A2] [B1 B2]. assert (i1 = i2). { destruct (Nat.lt_trichotomy i1 i2) as [L|[L|L]]; [rewrite (B2 _ L) in A1; discriminate|exact L|rewrite (A2 _ L) in B1; discriminate]. } subst. split; congruence.
Qed.
Lemma map2_nth_gen {A B C} (f : A -> B -> C) : forall l1 l2 n da db dc, n < length l1 -> n < length l2 -> nth n (map2 f l1 l2) dc = f (nth n l1 da) (nth n l2 db).
Proof. induction l1 as [|a l1 IH]; intros [|b l2] [|n] da db dc H1 H2; cbn in *; try lia; [reflexivity|apply IH; lia]. Qed.
Lemma map2_len {A B C} (f : A -> B -> C) : forall l1 l2, length l1 = length l2 -> length (map2 f l1 l2) = length l2.
Proof. induction l1 as [|a l1 IH]; intros [|b l2] H; cbn in *; try discriminate; [reflexivity|]. f_equal. apply IH. lia. Qed.
Lemma combine_seq_nth {A} (l : list A) d o : forall a, o < length l -> nth o (combine (seq a (length l)) l) (0, d) = (a + o, nth o l d).
Proof. revert o. induction l as [|x l IH]; intros [|o] a H; cbn in *; try lia; [now rewrite Nat.add_0_r|]. rewrite IH by lia. f_equal. lia. Qed.
Lemma Forall2_len {A B} (R : A -> B -> Prop) l1 l2 : Forall2 R l1 l2 -> length l1 = length l2.
Proof. induction 1; cbn; congruence. Qed.
Lemma Forall2_nth_gen {A B} (R : A -> B -> Prop) da db : forall l1 l2, Forall2 R l1 l2 -> forall n, n < length l1 -> R (nth n l1 da) (nth n l2 db).
Proof. induction 1; intros [|n] Hn; cbn in *; try lia; [assumption|apply IHForall2; lia]. Qed.

(** C41: a track that ends without an error is a particle filter from the first to the last
    time with a matching image, and the estimates are the weighted means and standard deviations of
    its particles. *)
Theorem track_filter : forall {T} (E : @env T) matching datetimes mm mask s first last,
  Forall (fun r => length r = length mask) matching -> length matching = length datetimes ->
  sees matching mask first -> (forall j, j < first -> ~ sees matching mask j) -> sees matching mask last -> (forall j, last < j -> ~ sees matching mask j) ->
  let r := snd (process E matching datetimes mm mask s) in
  t_error r = None ->
  exists Q P W0 W tmpl, particle_filter E matching datetimes mm mask first last Q P W0 W tmpl /\
    forall i, first <= i <= last -> exists m sg,
      nth_error (t_means r) i = Some (Some m) /\ particle_mean (columns (P i)) (W i) = Ok m /\
      nth_error (t_sigmas r) i = Some (Some sg) /\ compute_particle_sigma (columns (P i)) (W i) = Ok sg.
Proof.
  intros T E matching datetimes mm mask s first last F L Sf Nf Sl Nl r Hr. unfold r in *. clear r. rewrite (process_eq E matching datetimes mm mask s F) in *.
  assert (Ef : first_index matching mask = first).
  { destruct (first_le matching mask F _ Sf) as (A & B & _). destruct (Nat.eq_dec (first_index matching mask) first); [assumption|]. exfalso. apply (Nf (first_index matching mask)); [lia|assumption]. }
  destruct (last_ge matching mask F _ Sl) as (A1 & A2 & A3).
  assert (El : last_index matching mask = last) by (destruct (Nat.eq_dec (last_index matching mask) last); [assumption|]; exfalso; apply (Nl (last_index matching mask)); [lia|assumption]).
  rewrite Ef, El in *. assert (Le : first <= last). { destruct (le_lt_dec first last); [assumption|]. exfalso. now apply (Nf last). }
  set (none := map (fun _ => @None (list R)) datetimes) in *. assert (Ln : length none = length datetimes) by apply map_length.
  pose proof (loop_steps E matching datetimes mm mask first (S last - first) 0 s none none eq_refl) as LS. rewrite Nat.add_0_r in LS. specialize (LS ltac:(lia) Hr). cbv zeta in LS. change (trajectory E matching datetimes mm mask first s 0) with s in LS. destruct LS as [_ LS].
  set (r := snd (loop E matching datetimes mm mask first (seq first (S last - first)) none none s)) in *. set (tr := trajectory E matching datetimes mm mask first s) in *.
  set (P := fun i => st_particles (tr (S (i - first)))). set (W := fun i => st_weights (tr (S (i - first)))).
  set (Q := fun i => if i =? first then match m_init mm with Ok q => q | _ => [] end else fst (m_evolve mm i (nth i datetimes 0 - nth (i - 1) datetimes 0)%Z (P (i - 1)))).
  set (W0 := fun i => if i =? first then initialize_weights (Q i) else W (i - 1)). set (tmpl := fun o => st_templates (tr (S (last - first))) o).
  assert (ST : forall i, first <= i <= last -> exists m sg, nth_error (t_means r) i = Some (Some m) /\ nth_error (t_sigmas r) i = Some (Some sg) /\
    (i = first -> m_init mm = Ok (Q i) /\ W0 i = initialize_weights (Q i)) /\
    (i <> first -> m_evolve mm i (nth i datetimes 0%Z - nth (i - 1) datetimes 0%Z)%Z (P (i - 1)) = (Q i, Ok tt) /\ W0 i = W (i - 1)) /\ e_test E (Q i) = Ok tt /\
    (forall o, o < length mask -> nth o mask false = true -> template_index matching o = i -> exists t, st_templates (tr (S (i - first))) o = Some t /\ e_template E o (img_at matching i o) (Q i) (W0 i) = Ok t) /\
    (forall o, ~ (o < length mask /\ nth o mask false = true /\ template_index matching o = i) -> st_templates (tr (S (i - first))) o = st_templates (tr (i - first)) o) /\
    (i <= first -> P i = Q i /\ W i = W0 i) /\
    (first < i -> exists logs ml, Forall2 (fun oi lg => match snd oi with None => lg = None | Some k => exists t, st_templates (tr (S (i - first))) (fst oi) = Some t /\ e_likelihood E (fst oi) k t (Q i) = Ok lg end)
       (combine (seq 0 (length (masked_row matching mask i))) (masked_row matching mask i)) logs /\
     m_log mm (Q i) = Ok ml /\ resample_particles (m_draws mm i (update_weights (e_exp E) (e_tiny E) (logs ++ [ml]) (W0 i))) (Q i) (update_weights (e_exp E) (e_tiny E) (logs ++ [ml]) (W0 i)) = Ok (P i, W i)) /\
    particle_mean (columns (P i)) (W i) = Ok m /\ compute_particle_sigma (columns (P i)) (W i) = Ok sg).
  { intros i Hi. destruct (LS (i - first) ltac:(lia)) as (m & sg & S1 & S2 & S3). replace (first + (i - first)) with i in * by lia. exists m, sg. split; [exact S2|]. split; [exact S3|].
    destruct (step_ok E matching datetimes mm mask first i _ _ _ _ S1) as (Q' & W' & B1 & B2 & B3 & B4 & B5 & B6 & B7 & B8).
    assert (EQ : Q i = Q' /\ W0 i = W').
    { destruct (Nat.eq_dec i first) as [->|Ni].
      - destruct (B1 eq_refl) as [C1 C2]. assert (Q first = Q') by (unfold Q; rewrite Nat.eqb_refl, C1; reflexivity). split; [assumption|]. unfold W0. rewrite Nat.eqb_refl, H, C2. reflexivity.
      - destruct (B2 Ni) as [C1 C2]. unfold Q, W0. rewrite (proj2 (Nat.eqb_neq i first) Ni). unfold P, W. replace (S (i - 1 - first)) with (i - first) by lia. rewrite C1. auto. }
    destruct EQ as [EQ EW]. rewrite EQ, EW. split; [exact B1|]. split; [|split; [exact B3|split; [exact B4|split; [exact B5|split; [exact B6|split; [exact B7|exact B8]]]]]].
    intros Ni. unfold P, W. replace (S (i - 1 - first)) with (i - first) by lia. apply B2, Ni. }
  assert (Fm : forall o i0 k0, nth o mask false = true -> first_match matching o i0 k0 -> o < length mask /\ template_index matching o = i0 /\ first <= i0 <= last).
  { intros o i0 k0 Hm Fm. assert (Sm : sees matching mask i0) by (exists o, k0; split; [assumption|apply Fm]). split; [|split].
    - destruct (le_lt_dec (length mask) o); [rewrite nth_overflow in Hm by assumption; discriminate|assumption].
    - destruct (template_index_le matching i0 o k0 (proj1 Fm)) as (_ & k1 & F1). apply (first_match_fun _ _ _ _ _ _ F1 Fm).
    - split; [destruct (le_lt_dec first i0) as [|Q1]; [assumption|exfalso; exact (Nf _ Q1 Sm)]|destruct (le_lt_dec i0 last) as [|Q1]; [assumption|exfalso; exact (Nl _ Q1 Sm)]]. }
  assert (Stable : forall o k, first <= template_index matching o -> template_index matching o + k <= last -> st_templates (tr (S (template_index matching o + k - first))) o = st_templates (tr (S (template_index matching o - first))) o).
  { intros o k H1. induction k as [|k IH]; intros H2; [now rewrite Nat.add_0_r|]. rewrite <- IH by lia. destruct (ST (template_index matching o + S k)) as (m & sg & _ & _ & _ & _ & _ & _ & B & _); [lia|].
    rewrite B by lia. f_equal. f_equal. lia. }
  assert (Tm : forall o i, first <= template_index matching o <= i -> i <= last -> tmpl o = st_templates (tr (S (i - first))) o).
  { intros o i H1 H2. unfold tmpl. pose proof (Stable o (i - template_index matching o)) as Q1. pose proof (Stable o (last - template_index matching o)) as Q2.
    replace (template_index matching o + (i - template_index matching o)) with i in Q1 by lia. replace (template_index matching o + (last - template_index matching o)) with last in Q2 by lia. rewrite Q1, Q2 by lia. reflexivity. }
  exists Q, P, W0, W, tmpl. split.
  - split.
    + destruct (ST first ltac:(lia)) as (m & sg & _ & _ & B1 & _ & _ & _ & _ & B6 & _). destruct (B1 eq_refl) as [C1 C2]. destruct (B6 ltac:(lia)) as [C3 C4]. split; [exact C1|]. split; [|auto].
      rewrite C2. unfold initialize_weights. clear. induction (Q first); cbn; f_equal; assumption.
    + intros i Hi. destruct (ST i ltac:(lia)) as (m & sg & _ & _ & _ & B2 & _). apply B2. lia.
    + intros i Hi. destruct (ST i Hi) as (m & sg & _ & _ & _ & _ & B3 & _). exact B3.
    + intros o i0 k0 Hm F0. destruct (Fm o i0 k0 Hm F0) as (G1 & G2 & G3). destruct (ST i0 G3) as (m & sg & _ & _ & _ & _ & _ & B4 & _). destruct (B4 o G1 Hm G2) as (t & T1 & T2). exists t.
      split; [rewrite (Tm o i0) by lia; exact T1|]. change (img_at matching i0 o) with (matched matching i0 o) in T2. rewrite (proj1 F0) in T2. exact T2.
    + intros i Hi. destruct (ST i ltac:(lia)) as (m & sg & _ & _ & _ & _ & _ & _ & _ & _ & B7 & _). destruct (B7 ltac:(lia)) as (logs & ml & C1 & C2 & C3). exists logs, ml.
      assert (Lr : length (row matching i) = length mask). { rewrite Forall_forall in F. apply F. unfold row. apply nth_In. lia. }
      assert (Lm : length (masked_row matching mask i) = length mask) by (apply map2_len; assumption).
      assert (Ll : length logs = length mask). { pose proof (Forall2_len _ _ _ C1) as C4. rewrite combine_length, seq_length, Lm in C4. lia. }
      split; [exact Ll|]. split; [|split; [exact C2|exact C3]]. intros o Ho.
      pose proof (Forall2_nth_gen _ (0, None) None _ _ C1 o) as D. rewrite combine_length, seq_length, Nat.min_id in D. specialize (D ltac:(lia)). rewrite combine_seq_nth in D by lia. cbn [fst snd plus] in D.
      unfold masked_row in D at 1. rewrite (map2_nth_gen _ _ _ _ None false None) in D by lia. change (nth o (row matching i) None) with (matched matching i o) in D.
      destruct (nth o mask false) eqn:Hm; [|exact D]. destruct (matched matching i o) as [k|] eqn:Hk; [|exact D]. destruct D as (t & D1 & D2). exists t. split; [|exact D2].
      destruct (template_index_le matching i o k Hk) as (Le2 & k0 & F0). destruct (Fm o _ _ Hm F0) as (_ & _ & G3). rewrite (Tm o i) by lia. exact D1.
  - intros i Hi. destruct (ST i Hi) as (m & sg & S1 & S2 & B). exists m, sg. destruct B as (_ & _ & _ & _ & _ & _ & _ & B1 & B2). auto.
Qed.
Print Assumptions track_filter.
(** the hypotheses can be met: the toy tracker of P_Track.v over three times *)
Example track_filter_ex : let matching := [[None]; [Some 0]; [None]; [Some 1]] in let mask := [true] in let ds := [5; 7; 8; 20]%Z in
  Forall (fun r => length r = length mask) matching /\ length matching = length ds /\ sees matching mask 1 /\ (forall j, j < 1 -> ~ sees matching mask j) /\ sees matching mask 3 /\ (forall j, 3 < j -> ~ sees matching mask j).
Proof.
  intros matching mask ds. split; [repeat constructor|]. split; [reflexivity|]. split; [exists 0, 0; auto|]. split; [|split; [exists 0, 1; auto|]].
  - intros j Hj (o & k & H1 & H2). destruct j; [|lia]. destruct o as [|[|o]]; discriminate.
  - intros j Hj (o & k & H1 & H2). unfold matched in H2. rewrite (nth_overflow matching) in H2 by (cbn; lia). destruct o; discriminate.
Qed.
