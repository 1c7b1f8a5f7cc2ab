(** Proofs about Tracker.track: order of template events, and which times are filled. *)
From Verif Require Import Base BaseLemmas ResampleModel TimeModel TrackModel TrackSpec TrackProofs.
Open Scope nat_scope.

Section P.
Context {T : Type} (E : @env T) (matching : list (list (option nat))) (datetimes : list Z) (mm : motion) (mask : list bool).
Notation state := (@state T).
Notation template_index := (template_index matching).
Notation first := (first_index matching mask).
Hypothesis rows : Forall (fun r => length r = length mask) matching.
Context (b : list (@event T)).

Definition ordered (L : list (@event T)) : Prop := templates_in_order matching mask L.
Definition wflog (s : state) : Prop := exists L, st_log s = b ++ L /\ ordered L.
Definition inv (D : nat -> Prop) (s : state) : Prop := exists L, st_log s = b ++ L /\ ordered L /\
  (forall o i k t, In (Made o i k t) L -> D o /\ i = template_index o) /\
  (forall o, D o -> exists t, st_templates s o = Some t /\ In (Made o (template_index o) (img_at matching (template_index o) o) t) L).
Lemma inv_wf D s : inv D s -> wflog s.
Proof. intros (L & A & B & _). exists L. auto. Qed.
Lemma inv_iff D D' s : (forall o, D o <-> D' o) -> inv D s -> inv D' s.
Proof. intros I (L & A & B & C & F). exists L. split; [exact A|]. split; [exact B|]. split; [intros o i k t H; destruct (C o i k t H); rewrite <- I; auto|]. intros o H. apply F, I, H. Qed.
Definition hoare {A} (P : state -> Prop) (m : M A) (Q : A -> state -> Prop) : Prop := forall s, P s -> wflog (fst (m s)) /\ forall a, snd (m s) = Ok a -> Q a (fst (m s)).
Lemma h_bind {A B} P (m : M A) (f : A -> M B) Q Q' : hoare P m Q -> (forall a, hoare (Q a) (f a) Q') -> hoare P (bindM m f) Q'.
Proof.
  intros Hm Hf s H. destruct (Hm s H) as (W & K). unfold bindM. destruct (m s) as [s' r]. cbn [fst snd] in *. destruct r as [a|e]; [apply Hf, K; reflexivity|]. cbn. split; [exact W|discriminate].
Qed.
Lemma h_weaken {A} (P P' : state -> Prop) (m : M A) (Q Q' : A -> state -> Prop) : hoare P m Q -> (forall s, P' s -> P s) -> (forall a s, Q a s -> Q' a s) -> hoare P' m Q'.
Proof. intros H W1 W2 s HP. destruct (H s (W1 _ HP)) as (A1 & A2). split; [exact A1|]. intros a Ha. apply W2, A2, Ha. Qed.
Lemma h_lift {A} D (r : result A) : hoare (inv D) (lift r) (fun _ => inv D).
Proof. intros s H. cbn. split; [apply (inv_wf D), H|auto]. Qed.
Lemma h_ret {A} D (a : A) : hoare (inv D) (ret a) (fun _ => inv D).
Proof. intros s H. cbn. split; [apply (inv_wf D), H|auto]. Qed.
Lemma h_get D : hoare (inv D) get (fun _ => inv D).
Proof. intros s H. cbn. split; [apply (inv_wf D), H|auto]. Qed.
Lemma h_set_particles D ps : hoare (inv D) (set_particles ps) (fun _ => inv D).
Proof. intros s H. cbn. split; [apply (inv_wf D) in H; exact H|]. intros _ _. exact H. Qed.
Lemma h_set_weights D ws : hoare (inv D) (set_weights ws) (fun _ => inv D).
Proof. intros s H. cbn. split; [apply (inv_wf D) in H; exact H|]. intros _ _. exact H. Qed.

Lemma ordered_made L o i k t : ordered L -> (forall i1 k1 t1, ~ In (Made o i1 k1 t1) L) -> ordered (L ++ [Made o i k t]).
Proof.
  intros [A B] N. assert (Old : forall p e, nth_error (L ++ [Made o i k t]) p = Some e -> nth_error L p = Some e \/ (p = length L /\ e = Made o i k t)).
  { intros p e H. destruct (lt_eq_lt_dec p (length L)) as [[G|G]|G].
    - left. rewrite nth_error_app1 in H by exact G. exact H.
    - right. subst p. rewrite nth_error_app2, Nat.sub_diag in H by lia. injection H as <-. auto.
    - rewrite nth_error_app2 in H by lia. destruct (p - length L) as [|[|q]] eqn:Q; try lia; discriminate. }
  split.
  - intros p o' i' k' t' H. apply Old in H. destruct H as [H|[_ H]]; [|discriminate]. destruct (A p o' i' k' t' H) as (A1 & A2 & q & i0 & k0 & A3 & A4 & A5 & A6). split; [exact A1|]. split; [exact A2|].
    exists q, i0, k0. split; [exact A3|]. split; [exact A4|]. split; [exact A5|]. rewrite nth_error_app1; [exact A6|]. apply nth_error_Some. congruence.
  - intros p q o' i1 i2 k1 k2 t1 t2 H1 H2. apply Old in H1, H2. destruct H1 as [H1|[P1 H1]], H2 as [H2|[P2 H2]].
    + apply (B p q o' i1 i2 k1 k2 t1 t2); auto.
    + injection H2 as -> -> -> ->. exfalso. apply (N i1 k1 t1). eapply nth_error_In. exact H1.
    + injection H1 as -> -> -> ->. exfalso. apply (N i2 k2 t2). eapply nth_error_In. exact H2.
    + congruence.
Qed.
Lemma ordered_used L o i k t : ordered L -> nth o mask false = true -> matched matching i o = Some k ->
  (exists i0 k0, i0 <= i /\ first_match matching o i0 k0 /\ In (Made o i0 (Some k0) t) L) -> ordered (L ++ [Used o i k t]).
Proof.
  intros [A B] Hm Hk (i0 & k0 & H1 & H2 & H3). assert (Old : forall p e, nth_error (L ++ [Used o i k t]) p = Some e -> nth_error L p = Some e \/ (p = length L /\ e = Used o i k t)).
  { intros p e H. destruct (lt_eq_lt_dec p (length L)) as [[G|G]|G].
    - left. rewrite nth_error_app1 in H by exact G. exact H.
    - right. subst p. rewrite nth_error_app2, Nat.sub_diag in H by lia. injection H as <-. auto.
    - rewrite nth_error_app2 in H by lia. destruct (p - length L) as [|[|q]] eqn:Q; try lia; discriminate. }
  split.
  - intros p o' i' k' t' H. apply Old in H. destruct H as [H|[Pp H]].
    + destruct (A p o' i' k' t' H) as (A1 & A2 & q & i1 & k1 & A3 & A4 & A5 & A6). split; [exact A1|]. split; [exact A2|].
      exists q, i1, k1. split; [exact A3|]. split; [exact A4|]. split; [exact A5|]. rewrite nth_error_app1; [exact A6|]. apply nth_error_Some. congruence.
    + injection H as -> -> -> ->. split; [exact Hm|]. split; [exact Hk|]. apply In_nth_error in H3. destruct H3 as [q Hq]. assert (q < length L) by (apply nth_error_Some; congruence).
      exists q, i0, k0. split; [lia|]. split; [exact H1|]. split; [exact H2|]. rewrite nth_error_app1 by assumption. exact Hq.
  - intros p q o' i1 i2 k1 k2 t1 t2 G1 G2. apply Old in G1, G2. destruct G1 as [G1|[_ G1]]; [|discriminate]. destruct G2 as [G2|[_ G2]]; [|discriminate]. apply (B p q o' i1 i2 k1 k2 t1 t2); auto.
Qed.

Lemma h_init_template (D : nat -> Prop) o : ~ D o -> hoare (inv D) (initialize_template E (template_index o) o (img_at matching (template_index o) o)) (fun _ => inv (fun k => D k \/ k = o)).
Proof.
  intros N s H. unfold initialize_template, bindM, get, lift. destruct (e_template E o _ (st_particles s) (st_weights s)) as [t|e]; [|cbn; split; [apply (inv_wf D), H|discriminate]].
  destruct H as (L & A & B & C & F). cbn.
  assert (G : inv (fun k => D k \/ k = o) (mk_state (st_particles s) (st_weights s) (fun k => if Nat.eqb k o then Some t else st_templates s k) (st_log s ++ [Made o (template_index o) (img_at matching (template_index o) o) t]))).
  { exists (L ++ [Made o (template_index o) (img_at matching (template_index o) o) t]). cbn. split; [rewrite A, app_assoc; reflexivity|]. split; [|split].
    - apply ordered_made; [exact B|]. intros i1 k1 t1 I. apply N, (C o i1 k1 t1 I).
    - intros o' i k t' I. apply in_app_iff in I. destruct I as [I|[I|[]]]; [destruct (C o' i k t' I); auto|]. injection I as <- <- <- <-. auto.
    - intros o' Ho. destruct (Nat.eqb_spec o' o) as [->|Q]; [exists t; split; [reflexivity|]; apply in_app_iff; right; left; reflexivity|].
      destruct Ho as [Ho|Ho]; [|congruence]. destruct (F o' Ho) as (t' & F1 & F2). exists t'. split; [exact F1|]. apply in_app_iff. auto. }
  split; [apply (inv_wf _ _ G)|]. intros _ _. exact G.
Qed.
Lemma h_forM_templates i : forall l D, NoDup l -> (forall o, In o l -> ~ D o /\ template_index o = i) ->
  hoare (inv D) (forM l (fun o => initialize_template E i o (img_at matching i o))) (fun _ => inv (fun k => D k \/ In k l)).
Proof.
  induction l as [|o l IH]; intros D Nd H; cbn [forM].
  - eapply h_weaken; [apply h_ret|intros s Hs; exact Hs|]. intros a s Hs. apply (inv_iff D); [intros k; cbn; tauto|exact Hs].
  - inversion Nd as [|? ? No Nd']; subst. destruct (H o (or_introl eq_refl)) as [H1 H2]. eapply h_bind.
    + rewrite <- H2. apply h_init_template. exact H1.
    + intros u. eapply h_bind.
      * apply (IH (fun k => D k \/ k = o) Nd'). intros o' Ho'. destruct (H o' (or_intror Ho')) as [H3 H4]. split; [|exact H4]. intros [Q|Q]; [auto|subst; auto].
      * intros ys. eapply h_weaken; [apply (h_ret (fun k => D k \/ In k (o :: l)))| |intros a s Hs; exact Hs]. intros s. apply inv_iff. intros k. cbn. intuition.
Qed.
Lemma h_likelihood (D : nat -> Prop) i o img : (forall k, img = Some k -> D o /\ nth o mask false = true /\ matched matching i o = Some k) ->
  hoare (inv D) (observer_log_likelihoods E i o img) (fun _ => inv D).
Proof.
  intros HD. unfold observer_log_likelihoods. destruct img as [k|]; [|apply h_ret]. destruct (HD k eq_refl) as (H1 & H2 & H3).
  intros s Hs. pose proof Hs as (L & A & B & C & F). destruct (F o H1) as (t & F1 & F2). unfold bindM, get. rewrite F1. cbn.
  assert (G : inv D (mk_state (st_particles s) (st_weights s) (st_templates s) (st_log s ++ [Used o i k t]))).
  { exists (L ++ [Used o i k t]). cbn. split; [rewrite A, app_assoc; reflexivity|]. split; [|split].
    - destruct (template_index_le matching i o k H3) as (T1 & k0 & T2). apply ordered_used; auto. exists (template_index o), k0. split; [exact T1|]. split; [exact T2|].
      unfold img_at, row in F2. unfold first_match, matched in T2. destruct T2 as [T2 _]. rewrite T2 in F2. exact F2.
    - intros o' i' k' t' I. apply in_app_iff in I. destruct I as [I|[I|[]]]; [apply (C o' i' k' t' I)|discriminate].
    - intros o' Ho. destruct (F o' Ho) as (t' & G1 & G2). exists t'. split; [exact G1|]. apply in_app_iff. auto. }
  split; [apply (inv_wf D), G|]. intros _ _. exact G.
Qed.
Lemma h_forM_likelihood D i : forall l, (forall o k, In (o, Some k) l -> D o /\ nth o mask false = true /\ matched matching i o = Some k) ->
  hoare (inv D) (forM l (fun oi => observer_log_likelihoods E i (fst oi) (snd oi))) (fun _ => inv D).
Proof.
  induction l as [|[o img] l IH]; intros H; cbn [forM]; [apply h_ret|]. eapply h_bind; [apply h_likelihood; intros k Q; cbn in Q; subst; apply H; left; reflexivity|]. intros y.
  eapply h_bind; [apply IH; intros o' k' I; apply H; right; exact I|]. intros ys. apply h_ret.
Qed.
Lemma h_update D i imgs : (forall o k, nth_error imgs o = Some (Some k) -> D o /\ nth o mask false = true /\ matched matching i o = Some k) -> hoare (inv D) (update_weights_M E i imgs mm) (fun _ => inv D).
Proof.
  intros H. unfold update_weights_M. eapply h_bind.
  - apply h_forM_likelihood. intros o k I. apply In_nth_error in I. destruct I as [p Hp]. apply H.
    assert (G : forall l s p, nth_error (combine (seq s (length l)) l) p = Some (o, Some k) -> s <= o /\ nth_error l (o - s) = Some (Some k)).
    { clear. induction l as [|x l IH]; intros s p Hp; [destruct p; discriminate|]. cbn in Hp. destruct p as [|p]; [injection Hp as <- ->; rewrite Nat.sub_diag; auto|].
      destruct (IH (S s) p Hp) as [A B]. split; [lia|]. replace (o - s) with (S (o - S s)) by lia. exact B. }
    apply G in Hp. rewrite Nat.sub_0_r in Hp. apply Hp.
  - intros ls. eapply h_bind; [apply h_get|]. intros s. eapply h_bind; [apply h_lift|]. intros ml. apply h_set_weights.
Qed.
Lemma h_resample D i : hoare (inv D) (resample_M i mm) (fun _ => inv D).
Proof. unfold resample_M. eapply h_bind; [apply h_get|]. intros s. eapply h_bind; [apply h_lift|]. intros pw. eapply h_bind; [apply h_set_particles|]. intros ?. apply h_set_weights. Qed.
Lemma h_evolve D i dt : hoare (inv D) (evolve_M i dt mm) (fun _ => inv D).
Proof. unfold evolve_M. eapply h_bind; [apply h_get|]. intros s. destruct (m_evolve mm i dt (st_particles s)) as [ps r]. eapply h_bind; [apply h_set_particles|]. intros ?. apply h_lift. Qed.
Notation Dset := (Dset matching mask).
Lemma h_step i : first <= i -> hoare (inv (Dset i)) (step E matching datetimes mm mask first i) (fun _ => inv (Dset (S i))).
Proof.
  intros Hi. unfold step. eapply h_bind with (Q := fun _ => inv (Dset i)).
  { destruct (Nat.eqb_spec i first).
    - eapply h_bind; [apply h_lift|]. intros ps. eapply h_bind; [apply h_set_particles|]. intros ?. eapply h_bind; [apply h_lift|]. intros ?. apply h_set_weights.
    - eapply h_bind; [apply h_evolve|]. intros ?. eapply h_bind; [apply h_get|]. intros s. apply h_lift. }
  intros u. cbv beta zeta. eapply h_bind with (Q := fun _ => inv (Dset (S i))).
  { eapply h_weaken.
    - apply (h_forM_templates i _ (Dset i)); [apply NoDup_filter, seq_NoDup|]. intros o Ho. apply filter_In in Ho. destruct Ho as [_ Ho]. apply andb_true_iff in Ho. destruct Ho as [Ho1 Ho2]. apply Nat.eqb_eq in Ho2.
      split; [|exact Ho2]. unfold TrackProofs.Dset. intros (_ & Q). lia.
    - intros s Hs. exact Hs.
    - intros a s. apply inv_iff. intros o. rewrite filter_In, in_seq, andb_true_iff, Nat.eqb_eq. unfold TrackProofs.Dset. split.
      + intros [(Q1 & Q2)|(Q1 & Q2 & Q3)]; [split; [exact Q1|lia]|]. split; [exact Q2|]. rewrite Q3. lia.
      + intros (Q1 & Q2). destruct (Nat.eq_dec (template_index o) i) as [Q|Q]; [right|left; split; [exact Q1|lia]]. split; [|auto]. split; [lia|].
        destruct (le_lt_dec (length mask) o) as [L|L]; [rewrite nth_overflow in Q1 by exact L; discriminate|lia]. }
  intros us. cbv beta. eapply h_bind with (Q := fun _ => inv (Dset (S i))).
  { destruct (Nat.ltb_spec first i) as [Lt|Ge]; [|apply h_ret]. eapply h_bind; [|intros ?; apply h_resample]. apply h_update.
    intros o k Ho. rewrite nth_error_map2 in Ho. destruct (nth_error (row matching i) o) as [im|] eqn:E1; [|discriminate]. destruct (nth_error mask o) as [bb|] eqn:E2; [|discriminate]. injection Ho as Ho. destruct bb; [|discriminate]. subst im.
    assert (Mt : matched matching i o = Some k) by (unfold matched; apply (nth_error_nth _ _ None) in E1; exact E1).
    assert (Mk : nth o mask false = true) by (apply (nth_error_nth _ _ false) in E2; exact E2).
    split; [|auto]. destruct (template_index_le matching i o k Mt) as (A & k0 & B & _). split; [exact Mk|]. split; [|lia]. apply (first_le matching mask rows). exists o, k0. auto. }
  intros ?. eapply h_bind; [apply h_get|]. intros s. eapply h_bind; [apply h_lift|]. intros m. eapply h_bind; [apply h_lift|]. intros sg. apply h_ret.
Qed.
Lemma loop_ordered : forall n i means sigmas s, first <= i -> inv (Dset i) s -> wflog (fst (loop E matching datetimes mm mask first (seq i n) means sigmas s)).
Proof.
  induction n as [|n IH]; intros i means sigmas s Hi Hs; [cbn; apply (inv_wf _ _ Hs)|]. cbn [seq loop]. destruct (h_step i Hi s Hs) as [W K].
  destruct (step E matching datetimes mm mask first i s) as [s' [[m sg]|e]]; cbn [fst snd] in *; [|exact W]. apply IH; [lia|]. apply (K _ eq_refl).
Qed.

(** ** which times are filled *)
Definition filled {A} (l : list (option A)) (i : nat) : Prop := exists x, nth_error l i = Some (Some x).
Lemma filled_set {A} (l : list (option A)) k v i : k < length l -> filled (set_nth k (Some v) l) i <-> filled l i \/ i = k.
Proof.
  intros K. unfold filled. destruct (Nat.eq_dec i k) as [->|N].
  - rewrite nth_error_set_nth_eq by exact K. split; [auto|]. intros _. eauto.
  - rewrite nth_error_set_nth_neq by congruence. split; [auto|]. intros [H|H]; [exact H|congruence].
Qed.
Lemma loop_filled f : forall n i means sigmas s, i + n <= length means -> i + n <= length sigmas ->
  let r := snd (loop E matching datetimes mm mask f (seq i n) means sigmas s) in
  length (t_means r) = length means /\ length (t_sigmas r) = length sigmas /\
  exists e, i <= e <= i + n /\ (t_error r = None <-> e = i + n) /\
   (forall j, filled (t_means r) j <-> filled means j \/ i <= j < e) /\ (forall j, filled (t_sigmas r) j <-> filled sigmas j \/ i <= j < e).
Proof.
  induction n as [|n IH]; intros i means sigmas s L1 L2; cbn [seq loop].
  - cbn. split; [reflexivity|]. split; [reflexivity|]. exists i. split; [lia|]. split; [split; [lia|reflexivity]|]. split; intros j; (split; [auto|intros [H|H]; [exact H|lia]]).
  - destruct (step E matching datetimes mm mask f i s) as [s' [[m sg]|err]]; cbn [snd].
    + destruct (IH (S i) (set_nth i (Some m) means) (set_nth i (Some sg) sigmas) s') as (A & B & e & C & D & F & G); [rewrite set_nth_length; lia|rewrite set_nth_length; lia|].
      rewrite !set_nth_length in *. split; [exact A|]. split; [exact B|]. exists e. split; [lia|]. split; [rewrite D; lia|]. split; intros j.
      * rewrite F, filled_set by lia. intuition lia.
      * rewrite G, filled_set by lia. intuition lia.
    + cbn. split; [reflexivity|]. split; [reflexivity|]. exists i. split; [lia|]. split; [split; [discriminate|lia]|]. split; intros j; (split; [auto|intros [H|H]; [exact H|lia]]).
Qed.
End P.
