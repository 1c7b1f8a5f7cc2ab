(** Proofs about Tracker.track: independence of the tracker's earlier state. *)
From Verif Require Import Base BaseLemmas ResampleModel TimeModel TrackModel TrackSpec.
Open Scope nat_scope.

(** ** argmax *)
Lemma argmaxb_from_spec l : forall i, match argmaxb_from i l with
  | Some k => i <= k < i + length l /\ nth (k - i) l false = true /\ forall j, i <= j < k -> nth (j - i) l false = false
  | None => forall j, nth j l false = false end.
Proof.
  induction l as [|b l IH]; intros i; cbn [argmaxb_from]; [intros []; reflexivity|]. destruct b.
  - rewrite Nat.sub_diag. cbn. split; [lia|]. split; [reflexivity|]. intros; lia.
  - specialize (IH (S i)). destruct (argmaxb_from (S i) l) as [k|].
    + destruct IH as (A & B & C). cbn [length]. split; [lia|]. split; [replace (k - i) with (S (k - S i)) by lia; exact B|].
      intros j Hj. destruct (Nat.eq_dec j i) as [->|N]; [rewrite Nat.sub_diag; reflexivity|]. replace (j - i) with (S (j - S i)) by lia. apply C. lia.
    + intros [|j]; [reflexivity|]. apply IH.
Qed.
Lemma argmaxb_some l k : nth k l false = true -> nth (argmaxb l) l false = true /\ argmaxb l <= k /\ forall j, j < argmaxb l -> nth j l false = false.
Proof.
  intros H. unfold argmaxb. pose proof (argmaxb_from_spec l 0) as S. destruct (argmaxb_from 0 l) as [m|].
  - destruct S as (A & B & C). rewrite Nat.sub_0_r in B. split; [exact B|]. assert (C' : forall j, j < m -> nth j l false = false).
    { intros j Hj. specialize (C j ltac:(lia)). rewrite Nat.sub_0_r in C. exact C. }
    split; [|exact C']. destruct (le_lt_dec m k) as [L|L]; [exact L|]. rewrite (C' k L) in H. discriminate.
  - rewrite S in H. discriminate.
Qed.
Lemma argmaxb_none l : (forall k, nth k l false = false) -> argmaxb l = 0.
Proof. intros H. unfold argmaxb. pose proof (argmaxb_from_spec l 0) as S. destruct (argmaxb_from 0 l) as [m|]; [|reflexivity]. destruct S as (_ & B & _). rewrite H in B. discriminate. Qed.

Section P.
Context {T : Type} (E : @env T) (matching : list (list (option nat))) (datetimes : list Z) (mm : motion) (mask : list bool).
Notation state := (@state T).
Notation template_index := (template_index matching).
Notation first := (first_index matching mask).

Hypothesis rows : Forall (fun r => length r = length mask) matching.

Lemma template_index_le i o k : matched matching i o = Some k -> template_index o <= i /\ exists k0, first_match matching o (template_index o) k0.
Proof.
  intros H. assert (L : i < length matching). { destruct (le_lt_dec (length matching) i) as [L|L]; [|exact L]. unfold matched in H. rewrite (nth_overflow matching []) in H by exact L. destruct o; discriminate. }
  assert (N : forall j, nth j (map (fun r => is_some (nth o r None)) matching) false = is_some (matched matching j o)).
  { intros j. unfold matched. destruct (le_lt_dec (length matching) j) as [G|G].
    - rewrite nth_overflow by (rewrite map_length; exact G). rewrite (nth_overflow matching []) by exact G. destruct o; reflexivity.
    - rewrite (nth_indep _ false (is_some (nth o ([] : list (option nat)) None))) by (rewrite map_length; exact G). rewrite (map_nth (fun r => is_some (nth o r None))). reflexivity. }
  destruct (argmaxb_some (map (fun r => is_some (nth o r None)) matching) i) as (A & B & C); [rewrite N, H; reflexivity|].
  fold (template_index o) in A, B, C. split; [exact B|]. rewrite N in A. destruct (matched matching (template_index o) o) as [k0|] eqn:Ek; [|discriminate]. exists k0. split; [exact Ek|].
  intros j Hj. specialize (C j Hj). rewrite N in C. destruct (matched matching j o); [discriminate|reflexivity].
Qed.
Lemma observed_nth i : nth i (observed matching mask) false = true <-> sees matching mask i.
Proof.
  unfold observed. destruct (le_lt_dec (length matching) i) as [G|G].
  - rewrite nth_overflow by (rewrite map_length; exact G). split; [discriminate|]. intros (o & k & _ & H). unfold matched in H. rewrite (nth_overflow matching []) in H by exact G. destruct o; discriminate.
  - rewrite (nth_indep _ false ((fun r => existsb (fun im => is_some (fst im) && snd im) (combine r mask)) ([] : list (option nat)))) by (rewrite map_length; exact G).
    rewrite (map_nth (fun r => existsb (fun im => is_some (fst im) && snd im) (combine r mask))). rewrite existsb_exists. unfold sees, matched.
    assert (Lr : length (nth i matching []) = length mask) by (rewrite Forall_forall in rows; apply rows, nth_In; exact G). set (r := nth i matching []) in *. split.
    + intros ([im m] & I & H). cbn in H. apply andb_true_iff in H. destruct H as [H1 H2]. apply (In_nth _ _ (None, false)) in I. destruct I as (o & Lo & Eo). rewrite combine_nth in Eo by exact Lr. injection Eo as Eo1 Eo2.
      destruct im as [k|]; [|discriminate]. exists o, k. rewrite Eo2. auto.
    + intros (o & k & H1 & H2). assert (Lo : o < length mask) by (destruct (le_lt_dec (length mask) o) as [L|L]; [rewrite nth_overflow in H1 by exact L; discriminate|exact L]).
      exists (Some k, true). split; [|reflexivity]. rewrite <- H1, <- H2, <- combine_nth by exact Lr. apply nth_In. rewrite combine_length. lia.
Qed.
Lemma first_le i : sees matching mask i -> first <= i /\ sees matching mask first /\ forall j, j < first -> ~ sees matching mask j.
Proof.
  intros H. apply observed_nth in H. destruct (argmaxb_some _ _ H) as (A & B & C). split; [exact B|]. split; [apply observed_nth; exact A|].
  intros j Hj Q. apply observed_nth in Q. specialize (C j Hj). congruence.
Qed.
Lemma last_ge i : sees matching mask i -> i <= last_index matching mask < length matching /\ sees matching mask (last_index matching mask) /\ forall j, last_index matching mask < j -> ~ sees matching mask j.
Proof.
  intros H. assert (Lobs : length (observed matching mask) = length matching) by apply map_length.
  assert (Li : i < length matching). { apply observed_nth in H. destruct (le_lt_dec (length matching) i) as [L|L]; [|exact L]. rewrite nth_overflow in H by lia. discriminate. }
  unfold last_index. rewrite Lobs in *. set (l := observed matching mask) in *. assert (N : forall j, j < length matching -> nth j (rev l) false = nth (length matching - 1 - j) l false).
  { intros j Hj. rewrite rev_nth by lia. f_equal. lia. }
  destruct (argmaxb_some (rev l) (length matching - 1 - i)) as (A & B & C).
  { rewrite N by lia. replace (length matching - 1 - (length matching - 1 - i)) with i by lia. apply observed_nth, H. }
  rewrite N in A by lia. split; [lia|]. split; [apply observed_nth; exact A|]. intros j Hj Q. apply observed_nth in Q. fold l in Q.
  assert (Lj : j < length matching) by (destruct (le_lt_dec (length matching) j) as [L|L]; [rewrite nth_overflow in Q by lia; discriminate|exact L]).
  specialize (C (length matching - 1 - j) ltac:(lia)). rewrite N in C by lia. replace (length matching - 1 - (length matching - 1 - j)) with j in C by lia. congruence.
Qed.

(** ** two runs side by side *)
Section Rel.
Context (b1 b2 : list (@event T)).
Definition logs (s1 s2 : state) : Prop := exists L, st_log s1 = b1 ++ L /\ st_log s2 = b2 ++ L.
Definition agree (D : nat -> Prop) (s1 s2 : state) : Prop :=
  logs s1 s2 /\ st_particles s1 = st_particles s2 /\ st_weights s1 = st_weights s2 /\ forall o, D o -> st_templates s1 o = st_templates s2 o.
Definition rel {A} (P : state -> state -> Prop) (m : M A) (Q : A -> state -> state -> Prop) : Prop := forall s1 s2, P s1 s2 ->
  snd (m s1) = snd (m s2) /\ logs (fst (m s1)) (fst (m s2)) /\ forall a, snd (m s1) = Ok a -> Q a (fst (m s1)) (fst (m s2)).
Lemma rel_bind {A B} P (m : M A) (f : A -> M B) Q Q' : rel P m Q -> (forall a, rel (Q a) (f a) Q') -> rel P (bindM m f) Q'.
Proof.
  intros Hm Hf s1 s2 H. destruct (Hm s1 s2 H) as (E1 & L1 & K1). unfold bindM. destruct (m s1) as [s1' r1], (m s2) as [s2' r2]. cbn [fst snd] in *. subst r2.
  destruct r1 as [a|e]; [apply Hf, K1; reflexivity|]. cbn [fst snd]. split; [reflexivity|]. split; [exact L1|]. discriminate.
Qed.
Lemma rel_weaken {A} (P P' : state -> state -> Prop) (m : M A) (Q Q' : A -> state -> state -> Prop) : rel P m Q -> (forall s1 s2, P' s1 s2 -> P s1 s2) -> (forall a s1 s2, Q a s1 s2 -> Q' a s1 s2) -> rel P' m Q'.
Proof. intros H W1 W2 s1 s2 HP. destruct (H s1 s2 (W1 _ _ HP)) as (A1 & A2 & A3). split; [exact A1|]. split; [exact A2|]. intros a Ha. apply W2, A3, Ha. Qed.
Lemma rel_lift {A} D (r : result A) : rel (agree D) (lift r) (fun a => fun s1 s2 => agree D s1 s2 /\ r = Ok a).
Proof. intros s1 s2 H. cbn. split; [reflexivity|]. split; [apply H|]. intros a Ha. auto. Qed.
Lemma rel_ret {A} D (a : A) : rel (agree D) (ret a) (fun _ => agree D).
Proof. intros s1 s2 H. cbn. split; [reflexivity|]. split; [apply H|]. auto. Qed.
Lemma rel_set_particles (D : nat -> Prop) ps : rel (agree D) (set_particles ps) (fun _ => agree D).
Proof. intros s1 s2 (L & P1 & W1 & T1). cbn. split; [reflexivity|]. split; [exact L|]. intros ? ?. split; [exact L|]. cbn. auto. Qed.
Lemma rel_set_weights (D : nat -> Prop) ws : rel (agree D) (set_weights ws) (fun _ => agree D).
Proof. intros s1 s2 (L & P1 & W1 & T1). cbn. split; [reflexivity|]. split; [exact L|]. intros ? ?. split; [exact L|]. cbn. auto. Qed.
Lemma rel_log (D : nat -> Prop) e : rel (agree D) (log e) (fun _ => agree D).
Proof.
  intros s1 s2 ((L & L1 & L2) & P1 & W1 & T1). assert (Lg : logs (fst (log e s1)) (fst (log e s2))). { exists (L ++ [e]). cbn. rewrite L1, L2, !app_assoc. auto. }
  cbn [snd log]. split; [reflexivity|]. split; [exact Lg|]. intros ? ?. split; [exact Lg|]. cbn. auto.
Qed.
Lemma rel_set_template (D : nat -> Prop) o t : rel (agree D) (set_template o t) (fun _ => agree (fun k => D k \/ k = o)).
Proof.
  intros s1 s2 (L & P1 & W1 & T1). cbn. split; [reflexivity|]. split; [exact L|]. intros ? ?. split; [exact L|]. cbn. split; [exact P1|]. split; [exact W1|].
  intros k Hk. destruct (Nat.eqb_spec k o) as [->|N]; [reflexivity|]. destruct Hk as [Hk|Hk]; [apply T1, Hk|congruence].
Qed.
(** a step that only depends on the particles and the weights *)
Lemma rel_read {A} D (f : list particle -> list R -> M A) Q : (forall ps ws, rel (agree D) (f ps ws) Q) ->
  rel (agree D) (bindM get (fun s => f (st_particles s) (st_weights s))) Q.
Proof. intros H s1 s2 A1. pose proof A1 as (_ & P1 & W1 & _). unfold bindM, get. rewrite P1, W1. apply H, A1. Qed.
Lemma rel_mono {A} (D D' : nat -> Prop) (m : M A) Q : (forall o, D' o -> D o) -> rel (agree D') m Q -> rel (agree D) m Q.
Proof. intros I H. eapply rel_weaken; [exact H| |auto]. intros s1 s2 (L & P1 & W1 & T1). split; [exact L|]. auto. Qed.

Lemma rel_init_template (D : nat -> Prop) i o img : rel (agree D) (initialize_template E i o img) (fun _ => agree (fun k => D k \/ k = o)).
Proof.
  unfold initialize_template. apply (rel_read D (fun ps ws => bindM (lift (e_template E o img ps ws)) (fun t => bindM (set_template o t) (fun _ => log (Made o i img t))))).
  intros ps ws. eapply rel_bind; [apply rel_lift|]. intros t. cbv beta.
  eapply rel_bind; [eapply rel_weaken; [apply (rel_set_template D o t)| |intros ? s1 s2 H; exact H]; intros s1 s2 [H _]; exact H|]. intros ?. apply rel_log.
Qed.
Lemma rel_forM_templates i : forall l D, rel (agree D) (forM l (fun o => initialize_template E i o (img_at matching i o))) (fun _ => agree (fun k => D k \/ In k l)).
Proof.
  induction l as [|o l IH]; intros D; cbn [forM].
  - eapply rel_weaken; [apply rel_ret|intros s1 s2 H; exact H|]. intros ? s1 s2 (L & P1 & W1 & T1). split; [exact L|]. split; [exact P1|]. split; [exact W1|]. intros k [Hk|[]]. apply T1, Hk.
  - eapply rel_bind; [apply rel_init_template|]. intros ?. eapply rel_bind; [apply IH|]. intros ys.
    eapply rel_weaken; [apply (rel_ret (fun k => D k \/ In k (o :: l)))| |intros ? s1 s2 H; exact H]. intros s1 s2 (L & P1 & W1 & T1). split; [exact L|]. split; [exact P1|]. split; [exact W1|].
    intros k Hk. apply T1. cbn in Hk. intuition.
Qed.
Lemma rel_likelihood (D : nat -> Prop) i o img : (img <> None -> D o) -> rel (agree D) (observer_log_likelihoods E i o img) (fun _ => agree D).
Proof.
  intros HD. unfold observer_log_likelihoods. destruct img as [k|]; [|apply rel_ret]. specialize (HD ltac:(discriminate)).
  intros s1 s2 A1. pose proof A1 as (L & P1 & W1 & T1). set (f := fun s => _). change (bindM get f s1) with (f s1 s1). change (bindM get f s2) with (f s2 s2). unfold f. clear f. specialize (T1 o HD). rewrite T1, P1.
  destruct (st_templates s2 o) as [t|].
  - assert (R1 : rel (agree D) (bindM (log (Used o i k t)) (fun _ => lift (e_likelihood E o k t (st_particles s2)))) (fun _ => agree D)).
    { eapply rel_bind; [apply rel_log|]. intros ?. eapply rel_weaken; [apply rel_lift|intros ? ? H; exact H|]. cbv beta. tauto. }
    destruct (R1 s1 s2 A1) as (Q1 & Q2 & Q3). split; [exact Q1|]. split; [exact Q2|exact Q3].
  - cbn. split; [reflexivity|]. split; [exact L|]. discriminate.
Qed.
Lemma rel_forM_likelihood (D : nat -> Prop) i : forall l, (forall o img, In (o, img) l -> img <> None -> D o) ->
  rel (agree D) (forM l (fun oi => observer_log_likelihoods E i (fst oi) (snd oi))) (fun _ => agree D).
Proof.
  induction l as [|[o img] l IH]; intros H; cbn [forM]; [apply rel_ret|]. eapply rel_bind; [apply rel_likelihood; intros N; apply (H o img); [left; reflexivity|exact N]|]. intros y.
  eapply rel_bind; [apply IH; intros o' img' I; apply (H o' img'); right; exact I|]. intros ys. apply rel_ret.
Qed.
Lemma rel_update (D : nat -> Prop) i imgs : (forall o img, nth_error imgs o = Some img -> img <> None -> D o) -> rel (agree D) (update_weights_M E i imgs mm) (fun _ => agree D).
Proof.
  intros H. unfold update_weights_M. eapply rel_bind.
  - apply rel_forM_likelihood. intros o img I N. apply In_nth_error in I. destruct I as [p Hp]. apply (H o img); [|exact N].
    assert (G : forall l s p, nth_error (combine (seq s (length l)) l) p = Some (o, img) -> s <= o /\ nth_error l (o - s) = Some img).
    { clear. induction l as [|x l IH]; intros s p Hp; [destruct p; discriminate|]. cbn in Hp. destruct p as [|p]; [injection Hp as <- <-; rewrite Nat.sub_diag; auto|].
      destruct (IH (S s) p Hp) as [A B]. split; [lia|]. replace (o - s) with (S (o - S s)) by lia. exact B. }
    apply G in Hp. rewrite Nat.sub_0_r in Hp. apply Hp.
  - intros ls. apply (rel_read D (fun ps ws => bindM (lift (m_log mm ps)) (fun ml => set_weights (update_weights (e_exp E) (e_tiny E) (ls ++ [ml]) ws)))).
    intros ps ws. eapply rel_bind; [apply rel_lift|]. intros ml. eapply rel_weaken; [apply (rel_set_weights D)|cbv beta; tauto|auto].
Qed.
Lemma rel_resample (D : nat -> Prop) i : rel (agree D) (resample_M i mm) (fun _ => agree D).
Proof.
  unfold resample_M. apply (rel_read D (fun ps ws => bindM (lift (resample_particles (m_draws mm i ws) ps ws)) (fun pw => bindM (set_particles (fst pw)) (fun _ => set_weights (snd pw))))).
  intros ps ws. eapply rel_bind; [apply rel_lift|]. intros pw. eapply rel_bind; [eapply rel_weaken; [apply (rel_set_particles D)|cbv beta; tauto|intros ? s1 s2 H; exact H]|]. intros ?. apply rel_set_weights.
Qed.
Lemma rel_evolve (D : nat -> Prop) i dt : rel (agree D) (evolve_M i dt mm) (fun _ => agree D).
Proof.
  unfold evolve_M. apply (rel_read D (fun ps ws => let (ps', r) := m_evolve mm i dt ps in bindM (set_particles ps') (fun _ => lift r))).
  intros ps ws. destruct (m_evolve mm i dt ps) as [ps' r]. eapply rel_bind; [apply rel_set_particles|]. intros ?. eapply rel_weaken; [apply rel_lift|intros s1 s2 H; exact H|cbv beta; tauto].
Qed.
(** observers whose template has been made up to step i *)
Definition Dset (i o : nat) : Prop := nth o mask false = true /\ first <= template_index o < i.
Lemma rel_step_body i : first <= i -> 
  rel (agree (Dset i)) 
   (bindM (forM (filter (fun o => nth o mask false && Nat.eqb (template_index o) i) (seq 0 (length mask))) (fun o => initialize_template E i o (img_at matching i o))) (fun _ =>
    bindM (if Nat.ltb first i then
          bindM (update_weights_M E i (map2 (fun (img : option nat) m => if (m : bool) then img else None) (row matching i) mask) mm) (fun _ => resample_M i mm)
        else ret tt) (fun _ =>
    bindM get (fun s => bindM (lift (particle_mean (columns (st_particles s)) (st_weights s))) (fun mean =>
    bindM (lift (compute_particle_sigma (columns (st_particles s)) (st_weights s))) (fun sigma => ret (mean, sigma)))))))
   (fun _ => agree (Dset (S i))).
Proof.
  intros Hi. eapply rel_bind; [apply rel_forM_templates|]. intros ?. cbv beta. match goal with |- rel (agree ?D) _ _ => set (D' := D) end.
  assert (DD : forall o, Dset (S i) o -> D' o).
  { intros o (H1 & H2). unfold D'. destruct (Nat.eq_dec (template_index o) i) as [Q|Q]; [right|left; split; [exact H1|lia]].
    apply filter_In. split; [apply in_seq; split; [lia|]|rewrite H1, Q, Nat.eqb_refl; reflexivity].
    destruct (le_lt_dec (length mask) o) as [L|L]; [rewrite nth_overflow in H1 by exact L; discriminate|lia]. }
  apply (rel_mono D' (Dset (S i))); [exact DD|]. eapply rel_bind with (Q := fun _ => agree (Dset (S i))).
  - destruct (Nat.ltb_spec first i) as [Lt|Ge]; [|apply rel_ret]. eapply rel_bind; [|intros ?; apply rel_resample]. apply rel_update.
    intros o img Ho N. rewrite nth_error_map2 in Ho. destruct (nth_error (row matching i) o) as [im|] eqn:E1; [|discriminate]. destruct (nth_error mask o) as [b|] eqn:E2; [|discriminate]. injection Ho as <-. destruct b; [|congruence].
    destruct im as [k|]; [|congruence]. assert (Mt : matched matching i o = Some k) by (unfold matched; apply (nth_error_nth _ _ None) in E1; exact E1).
    assert (Mk : nth o mask false = true) by (apply (nth_error_nth _ _ false) in E2; exact E2).
    destruct (template_index_le i o k Mt) as (A & k0 & B & _). split; [exact Mk|]. split; [|lia]. apply first_le. exists o, k0. auto.
  - intros ?. apply (rel_read (Dset (S i)) (fun ps ws => bindM (lift (particle_mean (columns ps) ws)) (fun mean => bindM (lift (compute_particle_sigma (columns ps) ws)) (fun sigma => ret (mean, sigma))))).
    intros ps ws. eapply rel_bind; [apply rel_lift|]. intros mean. eapply rel_bind; [eapply rel_weaken; [apply (rel_lift (Dset (S i)))|cbv beta; tauto|intros ? s1 s2 H; exact H]|]. intros sg.
    eapply rel_weaken; [apply (rel_ret (Dset (S i)))|cbv beta; tauto|auto].
Qed.
Lemma rel_step_first : rel logs (step E matching datetimes mm mask first first) (fun _ => agree (Dset (S first))).
Proof.
  unfold step. eapply rel_bind; [|intros ?; apply rel_step_body; lia].
  rewrite Nat.eqb_refl. intros s1 s2 L. unfold bindM, lift, set_particles, set_weights. destruct (m_init mm) as [ps|e]; [|cbn; split; [reflexivity|split; [exact L|discriminate]]].
  destruct (e_test E ps) as [u|e]; cbn; (split; [reflexivity|split; [exact L|]]); [|discriminate]. intros ? ?. split; [exact L|]. cbn. split; [reflexivity|]. split; [reflexivity|]. intros o (_ & HH). lia.
Qed.
Lemma rel_step_next i : first < i -> rel (agree (Dset i)) (step E matching datetimes mm mask first i) (fun _ => agree (Dset (S i))).
Proof.
  intros Hi. unfold step. eapply rel_bind; [|intros ?; apply rel_step_body; lia].
  destruct (Nat.eqb_spec i first); [lia|]. eapply rel_bind; [apply rel_evolve|]. intros ?.
  apply (rel_read (Dset i) (fun ps ws => lift (e_test E ps))). intros ps ws. eapply rel_weaken; [apply rel_lift|intros s1 s2 H; exact H|cbv beta; tauto].
Qed.
Lemma loop_agree : forall n i means sigmas s1 s2, first <= i -> (i = first -> logs s1 s2) -> (first < i -> agree (Dset i) s1 s2) ->
  snd (loop E matching datetimes mm mask first (seq i n) means sigmas s1) = snd (loop E matching datetimes mm mask first (seq i n) means sigmas s2) /\
  logs (fst (loop E matching datetimes mm mask first (seq i n) means sigmas s1)) (fst (loop E matching datetimes mm mask first (seq i n) means sigmas s2)).
Proof.
  induction n as [|n IH]; intros i means sigmas s1 s2 Hi H1 H2.
  - cbn. split; [reflexivity|]. destruct (Nat.eq_dec i first) as [Q|Q]; [apply H1, Q|apply H2; lia].
  - cbn [seq loop]. assert (R : snd (step E matching datetimes mm mask first i s1) = snd (step E matching datetimes mm mask first i s2) /\
      logs (fst (step E matching datetimes mm mask first i s1)) (fst (step E matching datetimes mm mask first i s2)) /\
      forall a, snd (step E matching datetimes mm mask first i s1) = Ok a -> agree (Dset (S i)) (fst (step E matching datetimes mm mask first i s1)) (fst (step E matching datetimes mm mask first i s2))).
    { destruct (Nat.eq_dec i first) as [Q|Q]; [subst i; apply rel_step_first, H1; reflexivity|apply rel_step_next; [lia|apply H2; lia]]. }
    destruct R as (R1 & R2 & R3). destruct (step E matching datetimes mm mask first i s1) as [s1' r1], (step E matching datetimes mm mask first i s2) as [s2' r2]. cbn [fst snd] in *. subst r2.
    destruct r1 as [[m sg]|e]; [|cbn; auto]. apply IH; [lia|lia|]. intros ?. apply (R3 _ eq_refl).
Qed.
End Rel.
End P.

(** results and events of a track do not depend on the state the tracker is in *)
Theorem process_independent {T} (E : @env T) matching datetimes mm mask s1 s2 :
  snd (process E matching datetimes mm mask s1) = snd (process E matching datetimes mm mask s2) /\
  exists L, st_log (fst (process E matching datetimes mm mask s1)) = st_log s1 ++ L /\ st_log (fst (process E matching datetimes mm mask s2)) = st_log s2 ++ L.
Proof.
  unfold process. destruct (existsb _ matching) eqn:Ex; [split; [reflexivity|]; exists []; cbn; rewrite !app_nil_r; auto|].
  assert (rows : Forall (fun r => length r = length mask) matching).
  { apply Forall_forall. intros r Hr. destruct (Nat.eqb_spec (length r) (length mask)) as [Q|Q]; [exact Q|]. exfalso. assert (X : existsb (fun r => negb (length r =? length mask)) matching = true); [|congruence].
    apply existsb_exists. exists r. split; [exact Hr|]. destruct (Nat.eqb_spec (length r) (length mask)); [congruence|reflexivity]. }
  apply (loop_agree E matching datetimes mm mask rows (st_log s1) (st_log s2)); [lia| |lia]. intros ?. exists []. rewrite !app_nil_r. auto.
Qed.
