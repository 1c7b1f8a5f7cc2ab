(** Property C122: what Tracker.track returns. *)
From Verif Require Import Base BaseLemmas ResampleModel ResampleSpec ResampleProofs ResampleProofs2 ResampleProofs3 ResampleProofs4 P_Resample TimeModel TrackModel TrackProofs3 P_Track TrackOutModel.
Open Scope R_scope.

(** ** Specification *)
(** The weighted mean of particles, its standard deviations and covariances, component by component *)
Definition mean_of (ps : list particle) (ws : list R) (m : list R) : Prop :=
  sumR ws <> 0 /\ length m = 6%nat /\ forall a, (a < 6)%nat -> nth a m 0 * sumR ws = sumR (map2 (fun p w => nth a p 0 * w) ps ws).
Definition covariance (ps : list particle) (ws m : list R) (a b : nat) : R :=
  sumR (map2 (fun p w => (nth a p 0 - nth a m 0) * (nth b p 0 - nth b m 0) * w) ps ws) / sumR ws.
Definition spread_of (cov : bool) (ps : list particle) (ws m : list R) (sp : spread) : Prop :=
  match sp with
  | Sigma sd => cov = false /\ length sd = 6%nat /\ forall a, (a < 6)%nat -> nth a sd 0 = sqrt (covariance ps ws m a a)
  | Cov c => cov = true /\ length c = 6%nat /\ forall a, (a < 6)%nat -> length (nth a c []) = 6%nat /\ forall b, (b < 6)%nat -> nth b (nth a c []) 0 = covariance ps ws m a b
  end.
(** A motion model whose particles stay n in number, likelihoods and draws that are as many as asked for, and an exponential which is not negative *)
Definition keeps {T} (E : @env T) (mm : motion) (n : nat) : Prop :=
  (forall x, 0 <= e_exp E x) /\ 0 < e_tiny E /\ (forall o img t ps l, length ps = n -> e_likelihood E o img t ps = Ok (Some l) -> length l = n) /\
  (forall ps, m_init mm = Ok ps -> length ps = n) /\ (forall i dt ps, length ps = n -> length (fst (m_evolve mm i dt ps)) = n) /\
  (forall ps l, length ps = n -> m_log mm ps = Ok (Some l) -> length l = n) /\
  (forall i ws, length ws = n -> match m_draws mm i ws with Systematic _ => True | Stratified us => length us = n | Choice us => length us = n | Residual us => length us = residual_draws n ws end).
(** The standard deviations of a track with sigmas and what is kept of its spread: the same, or covariances with their squares on the diagonal *)
Definition same_spread (cov : bool) (sd : option (list R)) (sp : option spread) : Prop :=
  match sd, sp with
  | None, None => True
  | Some sd, Some (Sigma sd') => cov = false /\ sd' = sd
  | Some sd, Some (Cov c) => cov = true /\ forall a, (a < 6)%nat -> nth a sd 0 = sqrt (nth a (nth a c []) 0)
  | _, _ => False
  end.
(* ---------------------------------------------------------------- *)

(** draws of the usual numbers keep the number of particles *)
Lemma take_length {A} (l : list A) idx r : take l idx = Ok r -> length r = length idx.
Proof. unfold take. revert r. induction idx as [|i idx IH]; intros r; cbn [mapM]; [intros E; injection E as <-; reflexivity|]. destruct (nth_error l i); cbn [bind]; [|discriminate]. destruct (mapM _ idx) as [r'|]; [|discriminate]. cbn [bind]. intros E. injection E as <-. cbn. now rewrite IH. Qed.
Lemma take_all {A} (P : A -> Prop) (l : list A) idx r : Forall P l -> take l idx = Ok r -> Forall P r.
Proof. intros F. unfold take. revert r. induction idx as [|i idx IH]; intros r; cbn [mapM]; [intros E; injection E as <-; constructor|]. destruct (nth_error l i) eqn:N; cbn [bind]; [|discriminate]. destruct (mapM _ idx) as [r'|]; [|discriminate]. cbn [bind]. intros E. injection E as <-. constructor; [|now apply IH]. rewrite Forall_forall in F. eapply F, nth_error_In, N. Qed.
Lemma positive_ok ws : Forall (fun w => 0 < w) ws -> ws <> [] -> weights_ok ws.
Proof.
  intros F N. split; [eapply Forall_impl; [|exact F]; cbn; intros; lra|]. destruct F as [|w ws H F]; [congruence|]. unfold sumR. cbn.
  assert (G : 0 <= fold_right Rplus 0 ws) by (clear N; induction F; cbn; lra). lra.
Qed.
Lemma resample_keeps {P} m (ps : list P) ws ps' ws' : length ws = length ps -> Forall (fun w => 0 < w) ws ->
  match m with Systematic _ => True | Stratified us => length us = length ps | Choice us => length us = length ps | Residual us => length us = residual_draws (length ps) ws end ->
  resample_particles m ps ws = Ok (ps', ws') -> length ps' = length ps /\ length ws' = length ps /\ Forall (fun w => 0 < w) ws'.
Proof.
  intros L W D. unfold resample_particles. destruct (take ps _) as [p|] eqn:T; [|discriminate]. cbn [bind]. destruct (take ws _) as [w|] eqn:T'; [|discriminate]. cbn [bind]. intros E. injection E as <- <-.
  split; [|split; [|exact (take_all _ _ _ _ W T')]].
  all: apply take_length in T; apply take_length in T'; rewrite ?T, ?T'; clear T T'; (destruct m as [u|us|us|us]; cbn [resample_indexes];
    [apply systematic_length|unfold stratified; rewrite searchsorted_all_length, map2_length, seq_length; lia| |unfold choice; now rewrite searchsorted_all_length]).
  all: rewrite <- L; destruct ws as [|w0 ws]; [rewrite <- L in D; destruct us; [reflexivity|discriminate]|]; apply residual_length; [apply positive_ok; [exact W|discriminate]|rewrite L; exact D].
Qed.

Section Proofs.
Context {T B : Type} (E : @env T) (size : motion -> nat) (rebuild : exn -> result exn).

(** ** Statistics *)
Lemma average_inv a ws m : average a ws = Ok m -> sumR ws <> 0 /\ m = sumR (map2 Rmult a ws) / sumR ws.
Proof. unfold average. destruct (Reqb_spec (sumR ws) 0); [discriminate|]. intros Q. injection Q as <-. split; [assumption|reflexivity]. Qed.
Lemma average_nz a ws : sumR ws <> 0 -> average a ws = Ok (sumR (map2 Rmult a ws) / sumR ws).
Proof. intros N. unfold average. destruct (Reqb_spec (sumR ws) 0); [contradiction|reflexivity]. Qed.
Lemma columns_nth ps a : (a < 6)%nat -> nth a (columns ps) [] = map (fun p => nth a p 0) ps.
Proof. intros H. unfold columns. rewrite (nth_indep _ [] (map (fun p => nth 0%nat p 0) ps)) by (rewrite map_length, seq_length; exact H). rewrite (map_nth (fun c => map (fun p => nth c p 0) ps)). now rewrite seq_nth. Qed.
Lemma particle_mean_inv ps ws m : particle_mean (columns ps) ws = Ok m -> sumR ws <> 0 /\ m = map (fun a => sumR (map2 Rmult a ws) / sumR ws) (columns ps).
Proof.
  intros H. assert (N : sumR ws <> 0). { unfold particle_mean, columns in H. cbn [seq map mapM] in H. destruct (average _ ws) eqn:A in H; [|discriminate]. now apply average_inv in A. }
  split; [exact N|]. unfold particle_mean in H. revert m H. induction (columns ps) as [|a l IH]; intros m; cbn [mapM map]; [intros Q; now injection Q|]. rewrite average_nz by exact N. cbn [bind].
  destruct (mapM _ l) as [r|] eqn:R; [|discriminate]. cbn [bind]. intros Q. injection Q as <-. f_equal. now apply IH.
Qed.
Lemma map2_map_l {A A' B' C} (f : A' -> B' -> C) (g : A -> A') l l' : map2 f (map g l) l' = map2 (fun a b => f (g a) b) l l'.
Proof. revert l'. induction l as [|a l IH]; intros [|b l']; try reflexivity. cbn. now rewrite IH. Qed.
Lemma mean_spec ps ws m : particle_mean (columns ps) ws = Ok m -> mean_of ps ws m /\ forall a, (a < 6)%nat -> nth a m 0 = sumR (map2 (fun p w => nth a p 0 * w) ps ws) / sumR ws.
Proof.
  intros H. apply particle_mean_inv in H as [N ->].
  assert (G : forall a, (a < 6)%nat -> nth a (map (fun a => sumR (map2 Rmult a ws) / sumR ws) (columns ps)) 0 = sumR (map2 (fun p w => nth a p 0 * w) ps ws) / sumR ws).
  { intros a Ha. rewrite (nth_indep _ 0 (sumR (map2 Rmult [] ws) / sumR ws)) by (rewrite map_length; unfold columns; rewrite map_length, seq_length; exact Ha). rewrite (map_nth (fun a => sumR (map2 Rmult a ws) / sumR ws)), columns_nth by exact Ha. now rewrite map2_map_l. }
  split; [|exact G]. split; [exact N|]. split; [rewrite map_length; unfold columns; now rewrite map_length, seq_length|]. intros a Ha. rewrite G by exact Ha. field. exact N.
Qed.
Lemma sigma_spec ps ws m : particle_mean (columns ps) ws = Ok m -> exists sd, compute_particle_sigma (columns ps) ws = Ok sd /\ length sd = 6%nat /\ forall a, (a < 6)%nat -> nth a sd 0 = sqrt (covariance ps ws m a a).
Proof.
  intros H. unfold compute_particle_sigma. rewrite H. cbn [bind]. pose proof (mean_spec _ _ _ H) as [(N & L & _) G]. clear H G.
  destruct m as [|m0 [|m1 [|m2 [|m3 [|m4 [|m5 [|]]]]]]]; try discriminate. unfold columns. cbn [seq map combine mapM fst snd]. rewrite !average_nz by exact N. cbn [bind].
  eexists. split; [reflexivity|]. split; [reflexivity|].
  assert (Q : forall a mm, map2 Rmult (map (fun x => (x - mm) ^ 2) (map (fun p : particle => nth a p 0) ps)) ws = map2 (fun p w => (nth a p 0 - mm) * (nth a p 0 - mm) * w) ps ws).
  { intros a mm. rewrite map_map, map2_map_l. clear. revert ws. induction ps as [|p l IH]; intros [|w ws]; try reflexivity. cbn [map2]. rewrite IH. f_equal. ring. }
  intros a Ha. unfold covariance. destruct a as [|[|[|[|[|[|a]]]]]]; [..|lia]; cbn [nth]; now rewrite Q.
Qed.
Lemma cov_spec ps ws m : particle_mean (columns ps) ws = Ok m -> exists c, particle_covariance (columns ps) ws = Ok c /\ length c = 6%nat /\ forall a, (a < 6)%nat -> length (nth a c []) = 6%nat /\ forall b, (b < 6)%nat -> nth b (nth a c []) 0 = covariance ps ws m a b.
Proof.
  intros H. unfold particle_covariance. rewrite H. cbn [bind]. pose proof (mean_spec _ _ _ H) as [(N & L & _) G]. clear H G.
  destruct m as [|m0 [|m1 [|m2 [|m3 [|m4 [|m5 [|]]]]]]]; try discriminate. unfold columns. cbn [seq map map2].
  eexists. split; [reflexivity|]. split; [reflexivity|].
  assert (Q : forall a b ma mb, sumR (map2 Rmult (map (fun x => x - ma) (map (fun p : particle => nth a p 0) ps)) (map2 Rmult (map (fun x => x - mb) (map (fun p : particle => nth b p 0) ps)) ws)) * (1 / sumR ws) =
     sumR (map2 (fun p w => (nth a p 0 - ma) * (nth b p 0 - mb) * w) ps ws) / sumR ws).
  { intros a b ma mb. unfold Rdiv. rewrite Rmult_1_l. f_equal. f_equal. rewrite !map_map, !map2_map_l. clear. revert ws. induction ps as [|p l IH]; intros [|w ws]; try reflexivity. cbn [map2 map]. rewrite IH. f_equal. ring. }
  intros a Ha. unfold covariance. destruct a as [|[|[|[|[|[|a]]]]]]; [..|lia]; cbn [nth]; (split; [reflexivity|]); intros b Hb; (destruct b as [|[|[|[|[|[|b]]]]]]; [..|lia]); cbn [nth]; apply Q.
Qed.

(** ** Steps *)
Lemma bind3 {A1 A2 A3 A4} (X : @M T A1) (Y : @M T A2) (Z : @M T A3) (W : @M T A4) s :
  bindM X (fun _ => bindM Y (fun _ => bindM Z (fun _ => W))) s = match bindM X (fun _ => bindM Y (fun _ => Z)) s with (s', Ok _) => W s' | (s', Err e) => (s', Err e) end.
Proof. unfold bindM. destruct (X s) as [s1 [a1|e1]]; [|reflexivity]. destruct (Y s1) as [s2 [a2|e2]]; reflexivity. Qed.
Lemma step_advance matching datetimes mm mask first i s : step E matching datetimes mm mask first i s =
  match advance E matching datetimes mm mask first i s with
  | (s', Err e) => (s', Err e)
  | (s', Ok _) => match particle_mean (columns (st_particles s')) (st_weights s') with
                  | Err e => (s', Err e)
                  | Ok m => match compute_particle_sigma (columns (st_particles s')) (st_weights s') with Err e => (s', Err e) | Ok sd => (s', Ok (m, sd)) end
                  end
  end.
Proof.
  unfold step, advance. etransitivity; [apply bind3|]. match goal with |- match ?a with _ => _ end = _ => destruct a as [s' [u|e]] end; [|reflexivity].
  unfold bindM, get, lift. destruct (particle_mean _ _); [|reflexivity]. destruct (compute_particle_sigma _ _); reflexivity.
Qed.

(** what is kept of one time *)
Definition kept_at (cov particles : bool) (n : nat) (k : kept) (i : nat) : Prop :=
  match nth i (k_means k) None with
  | None => nth i (k_spread k) None = None /\ nth i (k_particles k) None = None /\ nth i (k_weights k) None = None
  | Some m => exists sp, nth i (k_spread k) None = Some sp /\
     if particles then exists ps ws, nth i (k_particles k) None = Some ps /\ nth i (k_weights k) None = Some ws /\ length ps = n /\ length ws = n /\ mean_of ps ws m /\ spread_of cov ps ws m sp
     else nth i (k_particles k) None = None /\ nth i (k_weights k) None = None
  end.
Definition kept_lengths (k : kept) (d : nat) := length (k_means k) = d /\ length (k_spread k) = d /\ length (k_particles k) = d /\ length (k_weights k) = d.
Lemma nth_set_nth {A} i j (x d : A) l : nth j (set_nth i x l) d = if Nat.eqb j i && (i <? length l)%nat then x else nth j l d.
Proof. revert i j. induction l as [|y l IH]; intros [|i] [|j]; cbn [set_nth nth length Nat.eqb andb]; try reflexivity; try (rewrite andb_false_r; reflexivity). rewrite IH. reflexivity. Qed.
Lemma same_spread_nth cov l l' : Forall2 (same_spread cov) l l' -> forall i sd sp, same_spread cov (Some sd) (Some sp) -> Forall2 (same_spread cov) (set_nth i (Some sd) l) (set_nth i (Some sp) l').
Proof. induction 1; intros [|i] sd sp S0; cbn [set_nth]; try constructor; auto. Qed.

Definition positive (ws : list R) (n : nat) : Prop := length ws = n /\ Forall (fun w => 0 < w) ws.
Lemma step_lengths matching datetimes mm mask first n i s s' m sg : keeps E mm n -> (i = first \/ first < i /\ length (st_particles s) = n /\ positive (st_weights s) n)%nat ->
  step E matching datetimes mm mask first i s = (s', Ok (m, sg)) -> length (st_particles s') = n /\ positive (st_weights s') n.
Proof.
  intros (K1 & K2 & K3 & K4 & K5 & K6 & K7) P H. apply step_ok in H. destruct H as (Q & W0 & H1 & H2 & _ & _ & _ & H3 & H4 & _).
  assert (G : length Q = n /\ positive W0 n).
  { destruct P as [P|(P & P1 & P2)].
    - destruct (H1 P) as (I1 & ->). rewrite (K4 _ I1). split; [reflexivity|]. unfold initialize_weights. rewrite (K4 _ I1). split; [apply repeat_length|]. clear. induction n; cbn; constructor; auto; lra.
    - destruct (H2 ltac:(lia)) as (I1 & ->). split; [|exact P2]. pose proof (K5 i (nth i datetimes 0%Z - nth (i - 1) datetimes 0%Z)%Z _ P1) as Q1. now rewrite I1 in Q1. }
  destruct G as [G1 G2]. destruct (Nat.le_gt_cases i first) as [Le|Lt]; [destruct (H3 Le) as [-> ->]; auto|].
  destruct (H4 Lt) as (logs & ml & F & Ml & R). set (W1 := update_weights (e_exp E) (e_tiny E) (logs ++ [ml]) W0) in *.
  assert (P1 : positive W1 n).
  { assert (Fl : Forall (fun o => match o with Some l => length l = n | None => True end) (logs ++ [ml])).
    { apply Forall_app. split.
      - clear - F K3 G1. induction F as [|[o img] lg ? ? H F IH]; constructor; auto. cbn [fst snd] in H. destruct img as [k|]; [|now subst]. destruct H as (t & _ & H). destruct lg; [exact (K3 _ _ _ _ _ G1 H)|exact I].
      - constructor; [|constructor]. destruct ml as [l|]; [exact (K6 _ _ G1 Ml)|exact I]. }
    destruct (Exists_dec (fun o => o <> None) (logs ++ [ml])) as [Ex|Nx].
    - intros [l|]; [left; discriminate|right; intros C; now apply C].
    - destruct (update_weights_positive (e_exp E) (e_tiny E) _ W0 n K1 K2 Fl Ex) as (U1 & U2 & _). split; [exact U1|exact U2].
    - unfold W1. rewrite update_weights_none; [exact G2|]. apply Forall_forall. intros o Io. destruct o as [l|]; [|reflexivity]. exfalso. apply Nx, Exists_exists. exists (Some l). split; [exact Io|discriminate]. }
  destruct P1 as [P1 P2]. specialize (K7 i W1 P1). rewrite <- G1 in K7. destruct (resample_keeps _ _ _ _ _ (eq_trans P1 (eq_sym G1)) P2 K7 R) as (R1 & R2 & R3). unfold positive. rewrite R1, R2, G1. auto.
Qed.
Lemma keep_ok cov particles n i (s : @state T) k m : particle_mean (columns (st_particles s)) (st_weights s) = Ok m -> length (st_particles s) = n ->
  exists sd sp, compute_particle_sigma (columns (st_particles s)) (st_weights s) = Ok sd /\ spread_of cov (st_particles s) (st_weights s) m sp /\ same_spread cov (Some sd) (Some sp) /\
    keep cov particles n i s k = mk_kept (set_nth i (Some m) (k_means k)) (set_nth i (Some sp) (k_spread k)) (if particles then set_nth i (Some (st_particles s)) (k_particles k) else k_particles k)
                                   (if particles then set_nth i (Some (st_weights s)) (k_weights k) else k_weights k) None.
Proof.
  intros Em L. destruct (sigma_spec _ _ _ Em) as (sd & Es & Ls & Ss). destruct (cov_spec _ _ _ Em) as (c & Ec & Lc & Sc). exists sd, (if cov then Cov c else Sigma sd). split; [exact Es|].
  split; [destruct cov; (split; [reflexivity|split; [assumption|assumption]])|]. split.
  - destruct cov; (split; [reflexivity|]); [|reflexivity]. intros b Hb. rewrite Ss by exact Hb. destruct (Sc b Hb) as [_ G]. now rewrite G.
  - unfold keep. rewrite Em. destruct cov; [rewrite Ec|rewrite Es]; cbn [bind]; (destruct particles; cbn [negb]; [|reflexivity]); rewrite L, Nat.eqb_refl; reflexivity.
Qed.
Lemma loop_same cov particles d matching datetimes mm mask first : keeps E mm (size mm) -> forall n a s k sigmas,
  (a = first \/ first < a /\ length (st_particles s) = size mm /\ positive (st_weights s) (size mm))%nat -> k_error k = None -> Forall2 (same_spread cov) sigmas (k_spread k) ->
  kept_lengths k d -> (forall i, kept_at cov particles (size mm) k i) ->
  let r := loop E matching datetimes mm mask first (seq a n) (k_means k) sigmas s in
  let r' := loop_out E size matching datetimes cov particles mm mask first (seq a n) k s in
  fst r = fst r' /\ t_means (snd r) = k_means (snd r') /\ Forall2 (same_spread cov) (t_sigmas (snd r)) (k_spread (snd r')) /\ t_error (snd r) = k_error (snd r') /\
  kept_lengths (snd r') d /\ forall i, kept_at cov particles (size mm) (snd r') i.
Proof.
  intros Kp. induction n as [|n IH]; intros a s k sigmas Ha Ke Fs Kl At; cbn [seq loop loop_out]; cbv zeta.
  { cbn. rewrite Ke. split; [reflexivity|]. split; [reflexivity|]. auto. }
  pose proof (step_lengths matching datetimes mm mask first (size mm) a s) as SL. rewrite step_advance in *. destruct (advance E matching datetimes mm mask first a s) as [s' [u|e]].
  2:{ cbn. split; [reflexivity|]. split; [reflexivity|]. auto. }
  destruct (particle_mean (columns (st_particles s')) (st_weights s')) as [m|e] eqn:Em.
  2:{ unfold keep. rewrite Em. cbn. split; [reflexivity|]. split; [reflexivity|]. auto. }
  destruct (sigma_spec _ _ _ Em) as (sd0 & Es0 & _). pose proof (mean_spec _ _ _ Em) as [Mo _]. rewrite Es0 in SL. destruct (SL _ _ _ Kp Ha eq_refl) as [L1 [L2 L3]]. clear SL sd0 Es0.
  destruct (keep_ok cov particles (size mm) a s' k m Em L1) as (sd & sp & Es & So & Sm & Ek). rewrite Es, Ek. cbn [k_error].
  match goal with |- context [loop_out E size matching datetimes cov particles mm mask first _ ?kk _] => set (k' := kk) end.
  change (set_nth a (Some m) (k_means k)) with (k_means k'). destruct Kl as (D1 & D2 & D3 & D4). apply IH; clear IH.
  - right. split; [destruct Ha as [->|[Ha _]]; lia|]. split; [exact L1|]. split; assumption.
  - reflexivity.
  - cbn [k_spread k']. now apply same_spread_nth.
  - unfold kept_lengths, k'. cbn. destruct particles; rewrite ?set_nth_length; auto.
  - intros i. specialize (At i). unfold kept_at in *. unfold k'. cbn [k_means k_spread k_particles k_weights].
    destruct particles; rewrite !nth_set_nth, ?D1, ?D2, ?D3, ?D4; destruct (Nat.eqb i a && (a <? d)%nat); try exact At.
    + exists sp. split; [reflexivity|]. exists (st_particles s'), (st_weights s'). auto 10.
    + exists sp. split; [reflexivity|]. destruct (nth i (k_means k) None); [destruct At as (? & _ & At); exact At|exact (proj2 At)].
Qed.
Lemma nth_none {A A'} (l : list A') i : nth i (map (fun _ => @None A) l) None = None.
Proof. revert i. induction l as [|x l IH]; intros [|i]; cbn; auto. Qed.
Lemma process_same cov particles matching datetimes mm mask s : keeps E mm (size mm) ->
  let r := process E matching datetimes mm mask s in
  let r' := process_out E size matching datetimes cov particles mm mask s in
  fst r = fst r' /\ t_means (snd r) = k_means (snd r') /\ Forall2 (same_spread cov) (t_sigmas (snd r)) (k_spread (snd r')) /\ t_error (snd r) = k_error (snd r') /\
  kept_lengths (snd r') (length datetimes) /\ forall i, kept_at cov particles (size mm) (snd r') i.
Proof.
  intros Kp. unfold process, process_out. cbv zeta.
  assert (F : Forall2 (same_spread cov) (map (fun _ : Z => None) datetimes) (map (fun _ : Z => None) datetimes)) by (induction datetimes; cbn; constructor; auto; exact I).
  assert (A : forall e i, kept_at cov particles (size mm) (mk_kept (map (fun _ : Z => None) datetimes) (map (fun _ : Z => None) datetimes) (map (fun _ : Z => None) datetimes) (map (fun _ : Z => None) datetimes) e) i).
  { intros e i. unfold kept_at. cbn. rewrite !nth_none. auto. }
  assert (Ln : forall e, kept_lengths (mk_kept (map (fun _ : Z => None) datetimes) (map (fun _ : Z => None) datetimes) (map (fun _ : Z => None) datetimes) (map (fun _ : Z => None) datetimes) e) (length datetimes)).
  { intros e. unfold kept_lengths. cbn. rewrite !map_length. auto. }
  destruct (existsb _ matching).
  - cbn. split; [reflexivity|]. split; [reflexivity|]. split; [exact F|]. split; [reflexivity|]. split; [apply Ln|]. intros i. apply A.
  - apply (loop_same cov particles (length datetimes) matching datetimes mm mask (first_index matching mask) Kp _ _ s (mk_kept (map (fun _ : Z => None) datetimes) (map (fun _ : Z => None) datetimes) (map (fun _ : Z => None) datetimes) (map (fun _ : Z => None) datetimes) None) (map (fun _ : Z => None) datetimes)); auto.
Qed.

(** particles are kept whatever the flag says of them: the rest does not depend on it *)
Definition blind (k k' : kept) : Prop := k_means k = k_means k' /\ k_spread k = k_spread k' /\ k_error k = k_error k'.

(** ** All tracks *)
Definition track_like (cov : bool) (t : track_result) (x : kept * option B) : Prop :=
  k_means (fst x) = t_means t /\ Forall2 (same_spread cov) (t_sigmas t) (k_spread (fst x)) /\ k_error (fst x) = t_error t.
Lemma run_same cov particles reduce matching datetimes errors : (forall e, rebuild e = Ok e) -> match reduce with None => True | Some f => forall ps ws, exists b, f ps ws = Ok b end ->
  forall tracks s, Forall (fun t => keeps E (fst t) (size (fst t))) tracks ->
  let r := run_tracks E matching datetimes errors tracks s in
  let r' := run_out (B := B) E size rebuild matching datetimes errors cov particles reduce tracks s in
  fst r = fst r' /\ match snd r, snd r' with
                   | Ok ts, Ok xs => Forall2 (track_like cov) ts xs /\
                       Forall2 (fun t x => kept_lengths (fst x) (length datetimes) /\ (forall i, kept_at cov particles (size (fst t)) (fst x) i) /\
                          match reduce with None => snd x = None | Some f => exists b, snd x = Some b /\ f (k_particles (fst x)) (k_weights (fst x)) = Ok b end) tracks xs
                   | Err e, Err e' => e = e'
                   | _, _ => False
                   end.
Proof.
  intros Hr Hf. induction tracks as [|[mm mask] tracks IH]; intros s F; cbn [run_tracks run_out]; cbv zeta; [cbn; repeat split; constructor|].
  inversion F as [|? ? F1 F2]; subst. cbn [fst] in F1. pose proof (process_same cov particles matching datetimes mm mask s F1) as P. cbv zeta in P.
  destruct (process E matching datetimes mm mask s) as [s1 t]. destruct (process_out E size matching datetimes cov particles mm mask s) as [s1' k]. cbn [fst snd] in P. destruct P as (<- & P2 & P3 & P4 & P5 & P6).
  rewrite P4. unfold finish.
  assert (G : forall err : option exn, err = t_error t ->
     let go := let (s2, res) := run_tracks E matching datetimes errors tracks s1 in (s2, let* ts := res in Ok (t :: ts)) in
     let go' := match (let* b := match reduce with None => Ok None | Some f => let* b := f (k_particles k) (k_weights k) in Ok (Some b) end in Ok (mk_kept (k_means k) (k_spread k) (k_particles k) (k_weights k) err, b)) with
                | Err e => (s1, Err e) | Ok x => let (s2, res) := run_out (B := B) E size rebuild matching datetimes errors cov particles reduce tracks s1 in (s2, let* xs := res in Ok (x :: xs)) end in
     fst go = fst go' /\ match snd go, snd go' with
                   | Ok ts, Ok xs => Forall2 (track_like cov) ts xs /\
                       Forall2 (fun t x => kept_lengths (fst x) (length datetimes) /\ (forall i, kept_at cov particles (size (fst t)) (fst x) i) /\
                          match reduce with None => snd x = None | Some f => exists b, snd x = Some b /\ f (k_particles (fst x)) (k_weights (fst x)) = Ok b end) ((mm, mask) :: tracks) xs
                   | Err e, Err e' => e = e'
                   | _, _ => False
                   end).
  { intros err Eerr go go'. unfold go, go'. clear go go'.
    assert (Eb : exists b, match reduce with None => Ok None | Some f => let* b := f (k_particles k) (k_weights k) in Ok (Some b) end = Ok b /\
       match reduce with None => b = None | Some f => exists b', b = Some b' /\ f (k_particles k) (k_weights k) = Ok b' end).
    { destruct reduce as [f|]; [|eauto]. destruct (Hf (k_particles k) (k_weights k)) as [b Hb]. rewrite Hb. cbn [bind]. eauto. }
    destruct Eb as (b & -> & Eb). cbn [bind]. specialize (IH s1 F2). cbv zeta in IH. destruct (run_tracks E matching datetimes errors tracks s1) as [s2 res]. destruct (run_out (B := B) E size rebuild matching datetimes errors cov particles reduce tracks s1) as [s2' res'].
    cbn [fst snd] in *. destruct IH as (<- & IH). split; [reflexivity|]. destruct res as [ts|e], res' as [xs|e']; cbn [bind]; try exact IH. destruct IH as [IH1 IH2]. split; constructor; auto.
    - unfold track_like. cbn [fst k_means k_spread k_error]. split; [congruence|]. split; [exact P3|exact Eerr].
    }
  destruct (k_error k) as [e|] eqn:Ek; [destruct errors|].
  - cbn. auto.
  - rewrite Hr. cbn [bind]. apply G. congruence.
  - cbn [bind]. destruct errors; apply G; congruence.
Qed.
(** what a run without a failure gives of each track *)
Lemma run_inv cov particles reduce matching datetimes errors tracks : forall s s' xs, run_out (B := B) E size rebuild matching datetimes errors cov particles reduce tracks s = (s', Ok xs) ->
  Forall2 (fun t x => exists s0, let k := snd (process_out E size matching datetimes cov particles (fst t) (snd t) s0) in
     k_means (fst x) = k_means k /\ k_spread (fst x) = k_spread k /\ k_particles (fst x) = k_particles k /\ k_weights (fst x) = k_weights k /\
     (k_error (fst x) = None <-> k_error k = None)) tracks xs.
Proof.
  induction tracks as [|[mm mask] tracks IH]; intros s s' xs; cbn [run_out]; [intros H; injection H as _ <-; constructor|].
  destruct (process_out E size matching datetimes cov particles mm mask s) as [s1 k] eqn:P. destruct (finish rebuild errors reduce k) as [x|] eqn:Fi; [|discriminate].
  destruct (run_out _ _ _ _ _ _ _ _ _ tracks s1) as [s2 res] eqn:R. destruct res as [xs'|]; cbn [bind]; [|discriminate]. intros H. injection H as _ <-. constructor; [|now apply IH with (1 := R)].
  exists s. cbn [fst snd]. rewrite P. cbn [snd]. unfold finish in Fi. destruct (k_error k) as [e|]; [destruct errors; [discriminate|]; destruct (rebuild e); [|discriminate]|]; cbn [bind] in Fi;
    (destruct reduce as [f|]; [destruct (f (k_particles k) (k_weights k)); [|discriminate]|]); cbn [bind] in Fi; injection Fi as <-; cbn; repeat split; congruence.
Qed.
Lemma run_reduce cov f matching datetimes errors tracks : forall s s' xs, run_out (B := B) E size rebuild matching datetimes errors cov true (Some f) tracks s = (s', Ok xs) ->
  exists xs0, run_out (B := B) E size rebuild matching datetimes errors cov true None tracks s = (s', Ok xs0) /\ map fst xs0 = map fst xs /\
    Forall2 (fun x x0 => exists b, snd x = Some b /\ f (k_particles (fst x0)) (k_weights (fst x0)) = Ok b) xs xs0.
Proof.
  induction tracks as [|[mm mask] tracks IH]; intros s s' xs; cbn [run_out]; [intros H; injection H as <- <-; exists []; repeat split; constructor|].
  destruct (process_out E size matching datetimes cov true mm mask s) as [s1 k] eqn:P. unfold finish.
  match goal with |- context [let* err := ?a in _] => destruct a as [err|]; cbn [bind]; [|discriminate] end.
  destruct (f (k_particles k) (k_weights k)) as [b|] eqn:Fb; cbn [bind]; [|discriminate].
  destruct (run_out _ _ _ _ _ _ _ _ (Some f) tracks s1) as [s2 res] eqn:R. destruct res as [xs'|]; cbn [bind]; [|discriminate]. intros H. injection H as <- <-.
  destruct (IH _ _ _ R) as (xs0 & R0 & M & F). rewrite R0. cbn [bind]. eexists. split; [reflexivity|]. cbn [map fst]. rewrite M. split; [reflexivity|]. constructor; [|exact F]. exists b. cbn. auto.
Qed.
Lemma run_rebuild cov particles reduce matching datetimes tracks : forall s s1 s2 ts xs, Forall (fun t => keeps E (fst t) (size (fst t))) tracks ->
  run_tracks E matching datetimes false tracks s = (s1, Ok ts) -> run_out (B := B) E size rebuild matching datetimes false cov particles reduce tracks s = (s2, Ok xs) ->
  Forall (fun t => forall e, t_error t = Some e -> exists e', rebuild e = Ok e') ts.
Proof.
  induction tracks as [|[mm mask] tracks IH]; intros s s1 s2 ts xs Fk; cbn [run_tracks run_out]; [intros H _; injection H as _ <-; constructor|].
  inversion Fk as [|? ? F1 F2]; subst. cbn [fst] in F1. pose proof (process_same cov particles matching datetimes mm mask s F1) as P. cbv zeta in P.
  destruct (process E matching datetimes mm mask s) as [s3 t]. destruct (process_out E size matching datetimes cov particles mm mask s) as [s3' k]. cbn [fst snd] in P. destruct P as (<- & _ & _ & P4 & _).
  destruct (run_tracks E matching datetimes false tracks s3) as [s4 r1] eqn:R1. intros H1 H2. destruct r1 as [ts'|]; [|discriminate]. cbn [bind] in H1. injection H1 as _ <-.
  destruct (finish rebuild false reduce k) as [x|] eqn:Fi; [|discriminate]. destruct (run_out (B := B) E size rebuild matching datetimes false cov particles reduce tracks s3) as [s5 r2] eqn:R2. destruct r2 as [xs'|]; [|discriminate].
  constructor; [|exact (IH _ _ _ _ _ F2 R1 R2)]. intros e He. rewrite P4 in He. unfold finish in Fi. rewrite He in Fi. destruct (rebuild e) as [e'|]; [eauto|discriminate].
Qed.
End Proofs.

Lemma combine_in {A A'} (l : list A) (l' : list A') x y : In (x, y) (combine l l') -> In x l.
Proof. apply in_combine_l. Qed.
Lemma combine_first {A A' A''} (P : A * A' -> A'' -> Prop) l l' xs : Forall2 P (combine l l') xs -> forall j a x, nth_error l j = Some a -> nth_error xs j = Some x -> exists b, P (a, b) x.
Proof. revert l' xs. induction l as [|y l IH]; intros [|y' l'] xs F [|j] a x Ha Hx; cbn in *; inversion F; subst; try discriminate. - injection Ha as <-. injection Hx as <-. eauto. - eauto. Qed.
Lemma same_sizes_true size (l : list motion) : (forall m m', In m l -> In m' l -> size m = size m') -> same_sizes size l = true.
Proof. destruct l as [|m l]; [reflexivity|]. intros H. cbn. apply forallb_forall. intros m' I. apply Nat.eqb_eq. apply H; cbn; auto. Qed.
Lemma same_sizes_inv size (l : list motion) : same_sizes size l = true -> forall m m', In m l -> In m' l -> size m = size m'.
Proof. destruct l as [|m0 l]; [contradiction|]. intros H. assert (G : forall m, In m (m0 :: l) -> size m = size m0). { intros m [<-|I]; [reflexivity|]. cbn in H. rewrite forallb_forall in H. apply Nat.eqb_eq, H, I. } intros m m' I I'. now rewrite (G m I), (G m' I'). Qed.

(** C122: asking for covariances, for particles or for a reduction of them changes
    nothing else of what is returned: the datetimes, images, means and errors are those of
    the plain call, and the covariances have the squares of its standard deviations on
    their diagonal. *)
Theorem track_output_same : forall {T B} (E : @env T) size rebuild cov particles (reduce : option (@reduction B)) obs models datetimes maxdt masks s,
  (forall mm, In mm models -> keeps E mm (size mm)) -> (forall e, rebuild e = Ok e) -> (forall f, reduce = Some f -> forall ps ws, exists b, f ps ws = Ok b) ->
  (particles = true -> reduce = None -> forall m m', In m models -> In m' models -> size m = size m') ->
  let plain := track E obs models datetimes maxdt masks s in
  let full := track_out E size rebuild cov particles reduce obs models datetimes maxdt masks s in
  fst full = fst plain /\
  match snd plain, snd full with
  | Ok (ds, images, ts), Ok o => o_datetimes o = ds /\ o_images o = images /\ o_means o = map t_means ts /\ o_errors o = map t_error ts /\
      Forall2 (Forall2 (same_spread cov)) (map t_sigmas ts) (o_spread o)
  | Err e, Err e' => e' = e
  | _, _ => False
  end.
Proof.
  intros T B E size rebuild cov particles reduce obs models datetimes maxdt masks s Hk Hr Hf Hs plain full. unfold plain, full. clear plain full. unfold track, track_out.
  destruct models as [|m0 rest]; [cbn; auto|]. destruct (existsb _ rest); [cbn; auto|]. destruct (match datetimes with None => _ | Some ds => _ end) as [ds|e]; [|cbn; auto].
  destruct (match_datetimes obs ds maxdt) as [matching|e]; [|cbn; auto].
  set (mk := match masks with Some m => m | None => _ end). set (s0 := mk_state [] [] _ _). set (errors := (length (m0 :: rest) <? 2)%nat). set (p := match reduce with Some _ => true | None => particles end).
  pose proof (run_same (B := B) E size rebuild cov p reduce matching ds errors Hr) as R. specialize (R ltac:(destruct reduce; [now apply Hf|exact I]) (combine (m0 :: rest) mk) s0).
  assert (F : Forall (fun t => keeps E (fst t) (size (fst t))) (combine (m0 :: rest) mk)). { apply Forall_forall. intros [m k] I. apply combine_in in I. now apply Hk. }
  specialize (R F). cbv zeta in R. destruct (run_tracks E matching ds errors (combine (m0 :: rest) mk) s0) as [s1 r1]. destruct (run_out (B := B) E size rebuild matching ds errors cov p reduce (combine (m0 :: rest) mk) s0) as [s2 r2].
  cbn [fst snd] in *. destruct R as [<- R]. split; [reflexivity|]. destruct r1 as [ts|e], r2 as [xs|e']; cbn [bind]; try contradiction; [|now symmetry].
  assert (Q : (p && match reduce with Some _ => false | None => true end && negb (same_sizes size (map fst (combine (m0 :: rest) mk))))%bool = false).
  { destruct reduce; [now rewrite andb_false_r|]. unfold p. destruct particles; [|reflexivity]. cbn [andb]. rewrite same_sizes_true; [reflexivity|]. intros m m' I I'. apply in_map_iff in I, I'. destruct I as ([? ?] & <- & I), I' as ([? ?] & <- & I'). apply combine_in in I, I'. now apply Hs. }
  rewrite Q. cbn [o_datetimes o_images o_means o_errors o_spread]. split; [reflexivity|]. split; [reflexivity|]. destruct R as [R _]. clear - R. induction R as [|t x ts xs (R1 & R2 & R3) R IH]; [repeat split; constructor|].
  destruct IH as (I1 & I2 & I3). cbn [map]. rewrite I1, I2, R1, R3. repeat split; auto. 
Qed.
Print Assumptions track_output_same.

(** C122: with return_particles, at every time of every track either everything is
    missing, or there are as many particles and weights as the motion model has, and the
    mean and the spread are those of these particles with these weights. *)
Theorem track_output_particles : forall {T B} (E : @env T) size rebuild cov obs models datetimes maxdt masks s o,
  (forall mm, In mm models -> keeps E mm (size mm)) ->
  snd (track_out (B := B) E size rebuild cov true None obs models datetimes maxdt masks s) = Ok o ->
  exists pss wss, o_particles o = Some pss /\ o_weights o = Some wss /\ o_reduced o = None /\ length pss = length (o_means o) /\ length wss = length (o_means o) /\
    forall j mm, nth_error models j = Some mm -> (j < length (o_means o))%nat -> forall i,
      match nth i (nth j (o_means o) []) None with
      | None => nth i (nth j (o_spread o) []) None = None /\ nth i (nth j pss []) None = None /\ nth i (nth j wss []) None = None
      | Some m => exists sp ps ws, nth i (nth j (o_spread o) []) None = Some sp /\ nth i (nth j pss []) None = Some ps /\ nth i (nth j wss []) None = Some ws /\
          length ps = size mm /\ length ws = size mm /\ mean_of ps ws m /\ spread_of cov ps ws m sp
      end.
Proof.
  intros T B E size rebuild cov obs models datetimes maxdt masks s o Hk. unfold track_out.
  destruct models as [|m0 rest]; [discriminate|]. destruct (existsb _ rest); [discriminate|]. destruct (match datetimes with None => _ | Some ds => _ end) as [ds|e]; [|discriminate].
  destruct (match_datetimes obs ds maxdt) as [matching|e]; [|discriminate]. set (mk := match masks with Some m => m | None => _ end).
  destruct (run_out (B := B) _ _ _ _ _ _ _ _ None _ _) as [s2 r2] eqn:R. cbn [snd]. destruct r2 as [xs|]; cbn [bind andb]; [|discriminate]. destruct (negb _); [discriminate|]. intros H. injection H as <-.
  cbn [o_particles o_weights o_reduced o_means o_spread]. exists (map (fun x => k_particles (fst x)) xs), (map (fun x => k_weights (fst x)) xs). rewrite !map_length. repeat (split; [reflexivity|]).
  intros j mm Hj Lj i. apply run_inv in R. destruct (nth_error xs j) as [x|] eqn:Ex; [|apply nth_error_None in Ex; lia].
  rewrite !(nth_error_nth _ _ _ (map_nth_error _ _ _ Ex)).
  destruct (combine_first _ _ _ _ R j mm x Hj Ex) as (mask & s0 & -> & -> & -> & -> & _). clear - Hk Hj. cbn [fst snd].
  assert (K : keeps E mm (size mm)) by (apply Hk; eapply nth_error_In, Hj).
  pose proof (process_same E size cov true matching ds mm mask s0 K) as P. cbv zeta in P. destruct P as (_ & _ & _ & _ & _ & P). specialize (P i). unfold kept_at in P.
  destruct (nth i (k_means _) None) as [m|]; [|exact P]. destruct P as (sp & P1 & ps & ws & P2). exists sp, ps, ws. tauto.
Qed.
Print Assumptions track_output_particles.

(** C122: with reduce_particles, no particles are returned, and reduced has for each track
    what the function gives for the particles and weights which return_particles would
    have returned; everything else is as with return_particles. *)
Theorem track_output_reduced : forall {T B} (E : @env T) size rebuild cov particles (f : @reduction B) obs models datetimes maxdt masks s s' o,
  (forall m m', In m models -> In m' models -> size m = size m') ->
  track_out E size rebuild cov particles (Some f) obs models datetimes maxdt masks s = (s', Ok o) ->
  exists o', track_out (B := B) E size rebuild cov true None obs models datetimes maxdt masks s = (s', Ok o') /\
    o_datetimes o = o_datetimes o' /\ o_images o = o_images o' /\ o_means o = o_means o' /\ o_spread o = o_spread o' /\ o_errors o = o_errors o' /\
    o_particles o = None /\ o_weights o = None /\
    exists pss wss bs, o_particles o' = Some pss /\ o_weights o' = Some wss /\ o_reduced o = Some bs /\ length bs = length (o_means o) /\ length pss = length bs /\ length wss = length bs /\
      forall j b, nth_error bs j = Some b -> f (nth j pss []) (nth j wss []) = Ok b.
Proof.
  intros T B E size rebuild cov particles f obs models datetimes maxdt masks s s' o Hs. unfold track_out.
  destruct models as [|m0 rest]; [discriminate|]. destruct (existsb _ rest); [discriminate|]. destruct (match datetimes with None => _ | Some ds => _ end) as [ds|e]; [|discriminate].
  destruct (match_datetimes obs ds maxdt) as [matching|e]; [|discriminate]. set (mk := match masks with Some m => m | None => _ end).
  destruct (run_out (B := B) _ _ _ _ _ _ _ _ (Some f) _ _) as [s2 r2] eqn:R. destruct r2 as [xs|]; cbn [bind andb]; [|discriminate]. intros H. injection H as <- <-.
  destruct (run_reduce _ _ _ _ _ _ _ _ _ _ _ _ R) as (xs0 & -> & M & F). cbn [bind]. rewrite same_sizes_true; cbn [negb].
  2:{ intros m m' I I'. apply in_map_iff in I, I'. destruct I as ([? ?] & <- & I), I' as ([? ?] & <- & I'). apply combine_in in I, I'. now apply Hs. }
  eexists. split; [reflexivity|]. cbn [o_datetimes o_images o_means o_spread o_errors o_particles o_weights o_reduced].
  assert (G : forall A (g : kept -> A), map (fun x : kept * option B => g (fst x)) xs = map (fun x => g (fst x)) xs0) by (intros A g; rewrite <- !(map_map fst g), M; reflexivity).
  rewrite !G. repeat (split; [reflexivity|]). exists (map (fun x => k_particles (fst x)) xs0), (map (fun x => k_weights (fst x)) xs0). eexists. split; [reflexivity|]. split; [reflexivity|]. split; [reflexivity|].
  clear - F. rewrite !map_length. induction F as [|x x0 xs xs0 (b & F1 & F2) F IH].
  - repeat split; auto. intros [|j] b Hb; discriminate.
  - cbn [flat_map map]. rewrite F1. cbn [length app]. destruct IH as (I1 & I2 & I3 & I4). repeat split; try (cbn; congruence). intros [|j] b' Hb; [cbn in *; congruence|]. apply (I4 j b' Hb).
Qed.
Print Assumptions track_output_reduced.

(** C122: tracks from motion models of any numbers of particles can be returned with their
    particles.  Finding: if the numbers differ the particles cannot be stacked, and
    ValueError is raised when every track has been made. *)
Theorem track_output_sizes_refuted : forall {T B} (E : @env T) size rebuild cov obs models datetimes maxdt s m m' r,
  (forall mm, In mm models -> keeps E mm (size mm)) -> (forall e, rebuild e = Ok e) -> In m models -> In m' models -> size m <> size m' ->
  snd (track E obs models datetimes maxdt None s) = Ok r ->
  snd (track_out (B := B) E size rebuild cov true None obs models datetimes maxdt None s) = Err ValueError.
Proof.
  intros T B E size rebuild cov obs models datetimes maxdt s m m' r Hk Hr I I' N. unfold track, track_out.
  destruct models as [|m0 rest]; [discriminate|]. destruct (existsb _ rest); [discriminate|]. destruct (match datetimes with None => _ | Some ds => _ end) as [ds|e]; [|discriminate].
  destruct (match_datetimes obs ds maxdt) as [matching|e]; [|discriminate].
  set (mk := repeat (repeat true (length obs)) _). set (s0 := mk_state [] [] _ _). set (errors := (length (m0 :: rest) <? 2)%nat).
  pose proof (run_same (B := B) E size rebuild cov true (@None (@reduction B)) matching ds errors Hr Logic.I (combine (m0 :: rest) mk) s0) as R.
  assert (F : Forall (fun t => keeps E (fst t) (size (fst t))) (combine (m0 :: rest) mk)). { apply Forall_forall. intros [q k] Iq. apply combine_in in Iq. now apply Hk. }
  specialize (R F). cbv zeta in R. destruct (run_tracks E matching ds errors (combine (m0 :: rest) mk) s0) as [s1 r1]. destruct (run_out (B := B) E size rebuild matching ds errors cov true (@None (@reduction B)) (combine (m0 :: rest) mk) s0) as [s2 r2].
  cbn [fst snd] in *. destruct R as [_ R]. destruct r1 as [ts|e]; [|discriminate]. destruct r2 as [xs|e']; [|contradiction]. intros _. cbn [bind andb].
  destruct (same_sizes size (map fst (combine (m0 :: rest) mk))) eqn:Q; [|reflexivity]. exfalso. apply N. apply (same_sizes_inv _ _ Q).
  all: replace (map fst (combine (m0 :: rest) mk)) with (m0 :: rest); [assumption|].
  all: unfold mk; generalize (repeat true (length obs)) as q; intros q; generalize (m0 :: rest) as l; induction l as [|a l IH]; [reflexivity|]; cbn; now rewrite <- IH.
Qed.
Print Assumptions track_output_sizes_refuted.

(** C122: an error of the reduction of one track is kept with this track.  Finding: it ends
    the call, so that the results of all tracks are lost; this includes tracks which
    stopped early, whose particles are missing. *)
Theorem track_output_reduce_refuted : forall {T B} (E : @env T) size rebuild cov particles (f : @reduction B) obs models datetimes maxdt masks s o pss wss j e,
  snd (track_out (B := B) E size rebuild cov true None obs models datetimes maxdt masks s) = Ok o ->
  (forall m m', In m models -> In m' models -> size m = size m') ->
  o_particles o = Some pss -> o_weights o = Some wss -> (j < length pss)%nat -> f (nth j pss []) (nth j wss []) = Err e ->
  exists e', snd (track_out E size rebuild cov particles (Some f) obs models datetimes maxdt masks s) = Err e'.
Proof.
  intros T B E size rebuild cov particles f obs models datetimes maxdt masks s o pss wss j e Ho Hs Hp Hw Lj Hf.
  destruct (track_out E size rebuild cov particles (Some f) obs models datetimes maxdt masks s) as [s' [o1|e1]] eqn:Q; [|exists e1; reflexivity]. exfalso.
  destruct (track_output_reduced _ _ _ _ _ _ _ _ _ _ _ _ _ _ Hs Q) as (o' & Eo & _ & _ & _ & _ & _ & _ & _ & pss' & wss' & bs & E1 & E2 & _ & _ & L1 & _ & G).
  rewrite Eo in Ho. cbn [snd] in Ho. injection Ho as ->. rewrite Hp in E1. rewrite Hw in E2. injection E1 as <-. injection E2 as <-.
  destruct (nth_error bs j) as [b|] eqn:Eb; [|apply nth_error_None in Eb; lia]. rewrite (G j b Eb) in Hf. discriminate.
Qed.
Print Assumptions track_output_reduce_refuted.

(** C122: an error in one of several tracks is kept with this track.  Finding: not if its
    class cannot be made from a text alone (UnicodeDecodeError, for example): then the
    call fails, and the results of all tracks are lost. *)
Theorem track_output_rebuild_refuted : forall {T B} (E : @env T) size rebuild cov particles (reduce : option (@reduction B)) obs models datetimes maxdt masks s ds images ts t e e',
  (forall mm, In mm models -> keeps E mm (size mm)) -> (2 <= length models)%nat ->
  snd (track E obs models datetimes maxdt masks s) = Ok (ds, images, ts) -> In t ts -> t_error t = Some e -> rebuild e = Err e' ->
  exists e2, snd (track_out E size rebuild cov particles reduce obs models datetimes maxdt masks s) = Err e2.
Proof.
  intros T B E size rebuild cov particles reduce obs models datetimes maxdt masks s ds images ts t e e' Hk L2 Hp It He Hr.
  destruct (snd (track_out E size rebuild cov particles reduce obs models datetimes maxdt masks s)) as [o|e2] eqn:Q; [|eauto]. exfalso. revert Hp Q. unfold track, track_out.
  destruct models as [|m0 rest]; [discriminate|]. destruct (existsb _ rest); [discriminate|]. destruct (match datetimes with None => _ | Some ds => _ end) as [ds'|e2]; [|discriminate].
  destruct (match_datetimes obs ds' maxdt) as [matching|e2]; [|discriminate]. set (mk := match masks with Some m => m | None => _ end). set (s0 := mk_state [] [] _ _).
  assert (F : Forall (fun t => keeps E (fst t) (size (fst t))) (combine (m0 :: rest) mk)). { apply Forall_forall. intros [m k] I. apply combine_in in I. now apply Hk. }
  replace (length (m0 :: rest) <? 2)%nat with false by (symmetry; apply Nat.ltb_ge; exact L2). set (p := match reduce with Some _ => true | None => particles end).
  destruct (run_tracks E matching ds' false (combine (m0 :: rest) mk) s0) as [s1 r1] eqn:R1. destruct (run_out (B := B) E size rebuild matching ds' false cov p reduce (combine (m0 :: rest) mk) s0) as [s2 r2] eqn:R2.
  cbn [snd]. destruct r1 as [ts'|]; [|discriminate]. destruct r2 as [xs|]; [|discriminate]. cbn [bind]. intros H _. injection H as _ _ ->.
  pose proof (run_rebuild E size rebuild cov p reduce matching ds' _ _ _ _ _ _ F R1 R2) as G. rewrite Forall_forall in G. destruct (G t It e He) as [x Hx]. congruence.
Qed.
Print Assumptions track_output_rebuild_refuted.

(** The hypotheses are met: three motion models of one particle, two particles, and none
    because they cannot be initialized. *)
Definition toy_env2 : @env nat := {| e_test := fun _ => Ok tt; e_template := fun o img _ _ => match img with Some k => Ok (10 * o + k)%nat | None => Err TypeError end;
  e_likelihood := fun _ _ _ ps => Ok (Some (repeat 1 (length ps))); e_exp := exp; e_tiny := 1 |}.
Definition toy_size (mm : motion) : nat := match m_init mm with Ok ps => length ps | Err _ => 0%nat end.
Definition toy_two : motion := {| m_unit := 1; m_init := Ok [[0; 0; 0; 0; 0; 0]; [2; 0; 0; 0; 0; 0]]; m_evolve := fun _ _ ps => (ps, Ok tt); m_log := fun _ => Ok None;
  m_draws := fun _ ws => Residual (repeat (/ 2) (residual_draws 2 ws)) |}.
Definition toy_none : motion := {| m_unit := 1; m_init := Err IndexError; m_evolve := fun _ _ ps => (ps, Ok tt); m_log := fun _ => Ok None; m_draws := fun _ _ => Systematic (/ 2) |}.
Lemma toy_keeps mm : In mm [toy_motion; toy_two; toy_none] -> keeps toy_env2 mm (toy_size mm).
Proof.
  intros H. split; [intros x; left; apply exp_pos|]. split; [cbn; lra|]. split; [cbn; intros; injection H1 as <-; rewrite repeat_length; exact H0|].
  split; [intros ps E; unfold toy_size; now rewrite E|]. split; [|split].
  - intros i dt ps L. destruct H as [<-|[<-|[<-|[]]]]; exact L.
  - intros ps l L E. destruct H as [<-|[<-|[<-|[]]]]; discriminate.
  - intros i ws L. destruct H as [<-|[<-|[<-|[]]]]; [exact I| |exact I]. cbn in L. cbn. rewrite repeat_length. reflexivity.
Qed.
Lemma toy_step mm ps s m : In mm [toy_motion; toy_two] -> m_init mm = Ok ps -> particle_mean (columns ps) (repeat 1 (length ps)) = Ok m ->
  exists s' sd, step toy_env2 [[Some 0%nat]] [0%Z] mm [true] 0 0 s = (s', Ok (m, sd)).
Proof.
  intros I Hi Hm. destruct (sigma_spec _ _ _ Hm) as (sd & Es & _). rewrite step_advance.
  assert (A : exists s', advance toy_env2 [[Some 0%nat]] [0%Z] mm [true] 0 0 s = (s', Ok tt) /\ st_particles s' = ps /\ st_weights s' = repeat 1 (length ps)).
  { destruct I as [<-|[<-|[]]]; injection Hi as <-; eexists; (split; [unfold advance, bindM; cbn; reflexivity|]); split; reflexivity. }
  destruct A as (s' & -> & -> & ->). rewrite Hm, Es. eauto.
Qed.
Example track_output_ex : exists ts, snd (track toy_env2 [[0%Z]] [toy_two; toy_none; toy_motion] None 0 None (mk_state [] [] (fun _ => None) [])) = Ok ([0%Z], [[Some 0%nat]], ts) /\
  map t_error ts = [None; Some IndexError; None] /\ nth 0 (map t_means ts) [] = [Some [1; 0; 0; 0; 0; 0]].
Proof.
  assert (M : particle_mean (columns [[0; 0; 0; 0; 0; 0]; [2; 0; 0; 0; 0; 0]]) (repeat 1 2) = Ok [1; 0; 0; 0; 0; 0]).
  { unfold particle_mean, columns. cbn [seq map nth mapM repeat]. rewrite !average_nz by (cbn; lra). cbn [bind map2]. unfold sumR. cbn. repeat (f_equal; try field). }
  assert (M1 : exists m, particle_mean (columns [[0; 0; 0; 0; 0; 0]]) (repeat 1 1) = Ok m).
  { unfold particle_mean, columns. cbn [seq map nth mapM repeat]. rewrite !average_nz by (cbn; lra). cbn [bind]. eauto. }
  destruct M1 as [m1 M1].
  assert (N : forall s, exists s', step toy_env2 [[Some 0%nat]] [0%Z] toy_none [true] 0 0 s = (s', Err IndexError)) by (intros s; eexists; unfold step, bindM; cbn; reflexivity).
  set (s0 := mk_state [] [] (fun _ : nat => @None nat) []).
  destruct (toy_step toy_two _ s0 _ (or_intror (or_introl eq_refl)) eq_refl M) as (s1 & sd & E1). destruct (N s1) as [s2 E2]. destruct (toy_step toy_motion _ s2 _ (or_introl eq_refl) eq_refl M1) as (s3 & sd3 & E3).
  exists [mk_result [Some [1; 0; 0; 0; 0; 0]] [Some sd] None; mk_result [None] [None] (Some IndexError); mk_result [Some m1] [Some sd3] None].
  split; [|split; reflexivity]. unfold track. cbn -[run_tracks]. unfold run_tracks, process. cbn -[step]. fold s0. rewrite E1. cbn -[step]. rewrite E2. cbn -[step]. rewrite E3. reflexivity.
Qed.
(** a text does not make every exception; the particles of two models have two sizes; a reduction can fail *)
Example track_output_refuted_ex : toy_size toy_motion <> toy_size toy_two /\ (forall mm, In mm [toy_motion; toy_two; toy_none] -> keeps toy_env2 mm (toy_size mm)) /\
  (exists rebuild : exn -> result exn, rebuild IndexError = Err TypeError /\ rebuild ValueError = Ok ValueError) /\
  exists f : @reduction nat, f [None] [None] = Err TypeError /\ f [Some [[0]]] [Some [1]] = Ok 1%nat.
Proof.
  split; [cbn; lia|]. split; [exact toy_keeps|]. split.
  - exists (fun e => match e with IndexError => Err TypeError | e => Ok e end). split; reflexivity.
  - exists (fun ps _ => match ps with Some p :: _ => Ok (length p) | _ => Err TypeError end). split; reflexivity.
Qed.
