(** Property theorems about observation times: C39, C40, C43, C60 (src/glimpse/track/observer.py, tracker.py). *)
From Verif Require Import Base BaseLemmas HelpersModel NearestProofs TimeModel TimeSpec TimeProofs TimeProofs2.
From Coq Require Import Sorting.Sorted.
Open Scope Z_scope.

(** C39 *)
Theorem parse_datetimes_spec : forall obs ds maxdt, obs <> [] -> Forall (fun ts => ts <> []) obs ->
  (forall r, parse_datetimes obs ds maxdt = Ok r ->
     (nondecreasing ds /\ increasing r \/ nonincreasing ds /\ decreasing r) /\ (2 <= length r)%nat /\
     (forall d, In d r <-> In d ds /\ has_image obs maxdt d)) /\
  (forall e, parse_datetimes obs ds maxdt = Err e -> e = ValueError) /\
  ((exists r, parse_datetimes obs ds maxdt = Ok r) <->
     (nondecreasing ds \/ nonincreasing ds) /\
     exists d1 d2, d1 <> d2 /\ In d1 ds /\ In d2 ds /\ has_image obs maxdt d1 /\ has_image obs maxdt d2).
Proof.
  intros obs ds maxdt N F. assert (Nc : concat obs <> []).
  { destruct obs as [|o obs]; [congruence|]. inversion F; subst. destruct o; [congruence|discriminate]. }
  rewrite (parse_eq obs ds maxdt N Nc). cbv zeta. set (r0 := filter _ _).
  assert (I0 : forall d, In d r0 <-> In d ds /\ has_image obs maxdt d).
  { intros d. unfold r0. rewrite filter_In, drop_dup_in, near_iff by auto. reflexivity. }
  assert (S0 : (nondecreasing ds -> increasing r0) /\ (nonincreasing ds -> decreasing r0)).
  { split; intros H; [apply filter_sorted, drop_dup_inc, H|apply filter_sorted, drop_dup_dec, H]. }
  destruct (monotonic ds) eqn:Em.
  - apply monotonic_iff in Em. destruct (Nat.ltb_spec (length r0) 2) as [L|L].
    + split; [discriminate|]. split; [intros e [= <-]; reflexivity|]. split; [intros [r E]; discriminate|].
      intros [_ (d1 & d2 & Nd & I1 & I2 & H1 & H2)]. exfalso. assert (J1 : In d1 r0) by (apply I0; auto). assert (J2 : In d2 r0) by (apply I0; auto).
      destruct r0 as [|x [|y r0]]; cbn in L; try lia; [contradiction|]. destruct J1 as [J1|[]], J2 as [J2|[]]. congruence.
    + split; [|split; [discriminate|]].
      * intros r [= <-]. split; [|split; [exact L|exact I0]]. destruct Em as [H|H]; [left|right]; split; auto; apply S0; auto.
      * split; [intros _; split; [exact Em|]|intros _; eauto]. destruct r0 as [|x [|y r1]] eqn:Er; cbn in L; try lia. exists x, y.
        assert (Nxy : x <> y). { destruct Em as [H|H]; apply S0 in H; inversion H as [|? ? ? Fa]; subst; inversion Fa; subst; lia. }
        destruct (proj1 (I0 x)) as [X1 X2]; [left; reflexivity|]. destruct (proj1 (I0 y)) as [Y1 Y2]; [right; left; reflexivity|]. auto 6.
  - split; [discriminate|]. split; [intros e [= <-]; reflexivity|]. split; [intros [r E]; discriminate|]. intros [H _]. apply monotonic_iff in H. congruence.
Qed.
Print Assumptions parse_datetimes_spec.
Example parse_datetimes_ex : parse_datetimes [[10; 20]; [15; 40]] [41; 30; 20; 20; 14] 1 = Ok [41; 20; 14].
Proof. reflexivity. Qed.
(** C39: by default, all times of all observers, in order *)
Theorem tracker_datetimes_spec : forall obs, obs <> [] -> exists r, tracker_datetimes obs = Ok r /\ increasing r /\
  forall t, In t r <-> exists ts, In ts obs /\ In t ts.
Proof.
  intros obs N. unfold tracker_datetimes. destruct obs as [|o obs]; [congruence|]. eexists. split; [reflexivity|]. split; [apply zunique_sorted|].
  intros t. rewrite zunique_in, in_concat. reflexivity.
Qed.
Print Assumptions tracker_datetimes_spec.

(** C40 *)
Theorem match_datetimes_nearest : forall obs ds maxdt, Forall (fun ts => ts <> []) obs ->
  exists M, match_datetimes obs ds maxdt = Ok M /\ length M = length ds /\
  forall i d j ts, nth_error ds i = Some d -> nth_error obs j = Some ts ->
   exists row m, nth_error M i = Some row /\ length row = length obs /\ nth_error row j = Some m /\
    (forall k, m = Some k <-> nearest_at d ts k /\ Z.abs (d - nth k ts 0) <= Z.abs maxdt) /\
    (m = None <-> forall t, In t ts -> Z.abs maxdt < Z.abs (d - t)).
Proof.
  intros obs ds maxdt F. destruct (match_datetimes_ok obs ds maxdt F) as (M & E & L & H). exists M. split; [exact E|]. split; [exact L|].
  intros i d j ts Hd Ht. destruct (H i d Hd) as (row & Er & Lr & Hr). destruct (Hr j ts Ht) as (m & Em & E1). exists row, m. split; [exact Er|]. split; [exact Lr|]. split; [exact Em|].
  rewrite Forall_forall in F. destruct (match1_spec d ts maxdt (F ts (nth_error_In _ _ Ht))) as (m' & E2 & P). rewrite E1 in E2. injection E2 as <-. exact P.
Qed.
Print Assumptions match_datetimes_nearest.
Example match_datetimes_ex : match_datetimes [[10; 20]; [14; 40]] [12; 15; 30] 2 = Ok [[Some 0; Some 0]; [None; Some 0]; [None; None]]%nat.
Proof. reflexivity. Qed.

(** C43 *)
Theorem observer_construction : forall imgs,
  ((exists o, Observer imgs = Ok o) <-> (2 <= length imgs)%nat /\ exists ts, map im_time imgs = map Some ts /\ increasing ts) /\
  (forall o, Observer imgs = Ok o -> ob_images o = imgs /\ map im_time imgs = map Some (ob_times o) /\ increasing (ob_times o)) /\
  (forall e, Observer imgs = Err e -> e = ValueError).
Proof.
  intros imgs. destruct (Observer_spec imgs) as (H1 & H2 & H3). split; [|split; [|exact H3]].
  - split; [intros [o E]; destruct (H2 o E) as (_ & L & M & S); eauto|]. intros (L & ts & M & S). eexists. apply (H1 ts); auto.
  - intros o E. destruct (H2 o E) as (A & L & M & S). auto.
Qed.
Print Assumptions observer_construction.
Theorem observer_index_nearest : forall imgs o value maxdt, Observer imgs = Ok o ->
  (forall k, observer_index o value maxdt = Ok k <->
     nearest_at value (ob_times o) k /\ match maxdt with None => True | Some m => Z.abs (value - nth k (ob_times o) 0) <= Z.abs m end) /\
  (forall e, observer_index o value maxdt = Err e -> e = ValueError /\ exists m, maxdt = Some m /\ forall t, In t (ob_times o) -> Z.abs m < Z.abs (value - t)).
Proof.
  intros imgs o value maxdt E. destruct (Observer_spec imgs) as (_ & H2 & _). destruct (H2 o E) as (_ & L & M & S).
  assert (N : ob_times o <> []). { intros Q. rewrite Q in M. destruct imgs; [cbn in L; lia|discriminate]. }
  unfold observer_index. destruct (argmin_nearest value (ob_times o) N) as (k & Ek & Hk). rewrite Ek. cbn [bind]. pose proof Hk as (Lk & A & B). rewrite nth_dist by exact Lk.
  destruct maxdt as [m|].
  - destruct (Z.ltb_spec (Z.abs m) (Z.abs (value - nth k (ob_times o) 0))) as [G|G].
    + split; [|intros e [= <-]; split; [reflexivity|]; exists m; split; [reflexivity|]; intros t Ht; specialize (A t Ht); lia].
      intros j. split; [discriminate|]. intros [Hj Gj]. rewrite (nearest_unique _ _ _ _ Hj Hk) in Gj. lia.
    + split; [|discriminate]. intros j. split; [intros [= <-]; auto|]. intros [Hj _]. f_equal. apply (nearest_unique _ _ _ _ Hk Hj).
  - split; [|discriminate]. intros j. split; [intros [= <-]; auto|]. intros [Hj _]. f_equal. apply (nearest_unique _ _ _ _ Hk Hj).
Qed.
Print Assumptions observer_index_nearest.
(** an image's own time finds that image *)
Theorem observer_index_self : forall imgs o k t, Observer imgs = Ok o -> nth_error (ob_times o) k = Some t -> observer_index o t (Some 0) = Ok k.
Proof.
  intros imgs o k t E Et. apply (observer_index_nearest imgs o t (Some 0) E). destruct (Observer_spec imgs) as (_ & H2 & _). destruct (H2 o E) as (_ & L & M & S).
  pose proof (nth_error_nth _ _ 0 Et) as En. assert (Lk : (k < length (ob_times o))%nat) by (apply nth_error_Some; congruence).
  rewrite En. split; [|lia]. split; [exact Lk|]. rewrite En. split; [intros; lia|]. intros j Hj.
  assert (nth j (ob_times o) 0 < t). { rewrite <- En. clear -S Hj Lk. unfold increasing in S. revert j k Hj Lk. induction S as [|x l S IH F]; intros j k Hj Lk; cbn in Lk; [lia|].
    destruct k as [|k]; [lia|]. destruct j as [|j]; cbn [nth]; [rewrite Forall_forall in F; apply F, nth_In; lia|apply IH; lia]. }
  lia.
Qed.
Print Assumptions observer_index_self.
Example observer_ex : Observer [mk_image 0 (Some 3); mk_image 1 (Some 7)] = Ok (mk_observer [mk_image 0 (Some 3); mk_image 1 (Some 7)] [3; 7]) /\
  observer_index (mk_observer [mk_image 0 (Some 3); mk_image 1 (Some 7)] [3; 7]) 6 (Some (-1)) = Ok 1%nat.
Proof. split; reflexivity. Qed.

(** C60: subset keeps exactly the images between the limits *)
Theorem observer_subset_spec : forall o s e, Observer (ob_images o) = Ok o ->
  let kept := filter (fun i => match im_time i with Some t => (s <=? t) && (t <=? e) | None => false end) (ob_images o) in
  (forall o', observer_subset o s e = Ok o' -> ob_images o' = kept) /\ ((exists o', observer_subset o s e = Ok o') <-> (2 <= length kept)%nat).
Proof.
  intros o s e V kept. rewrite (subset_spec o s e V). set (a := before (ob_times o) s). set (b := upto (ob_times o) e).
  destruct (valid_facts o V) as (L & M & S & Ln).
  assert (K : kept = slice a b (ob_images o)).
  { unfold a, b. rewrite <- (mask_slice (ob_times o) s e S) by auto. unfold kept. clear -M. revert M. generalize (ob_times o) as ts. induction (ob_images o) as [|i l IH]; intros [|t ts] M; try discriminate; [reflexivity|].
    cbn in M. injection M as M1 M2. cbn [filter map]. rewrite mask_cons, M1, (IH ts M2). reflexivity. }
  pose proof (upto_le (ob_times o) e) as Ub. fold b in Ub. rewrite K, slice_length by lia.
  destruct (Nat.leb_spec (a + 2) b) as [G|G].
  - split; [intros o' [= <-]; reflexivity|]. split; [intros; lia|eauto].
  - split; [discriminate|]. split; [intros [o' E]; discriminate|lia].
Qed.
Print Assumptions observer_subset_spec.

Lemma segments_first ts ov a ends : match segments ts ov a ends with [] => True | c :: _ => fst c = a end.
Proof. destruct ends; cbn; auto. Qed.
Lemma segments_last ts ov : forall ends a, ends <> [] -> snd (last (segments ts ov a ends) (0%nat, 0%nat)) = upto ts (last ends 0).
Proof.
  induction ends as [|e ends IH]; intros a N; [congruence|]. destruct ends as [|e2 ends]; [reflexivity|].
  change (segments ts ov a (e :: e2 :: ends)) with ((a, upto ts e) :: segments ts ov (upto ts e - Nat.min ov (upto ts e - a)) (e2 :: ends)).
  set (m := (upto ts e - Nat.min ov (upto ts e - a))%nat). specialize (IH m ltac:(discriminate)).
  destruct (segments ts ov m (e2 :: ends)) as [|x y] eqn:Ex; [discriminate|]. change (last ((a, upto ts e) :: x :: y) (0%nat, 0%nat)) with (last (x :: y) (0%nat, 0%nat)). exact IH.
Qed.
Lemma segments_chain ts ov : forall ends a j c c', nth_error (segments ts ov a ends) j = Some c -> nth_error (segments ts ov a ends) (S j) = Some c' ->
  fst c' = (snd c - Nat.min ov (snd c - fst c))%nat.
Proof.
  induction ends as [|e ends IH]; intros a j c c'; [destruct j; discriminate|]. cbn [segments]. destruct j as [|j].
  - cbn [nth_error]. intros [= <-]. destruct ends as [|e2 ends]; cbn; [discriminate|]. intros [= <-]. reflexivity.
  - cbn [nth_error]. apply IH.
Qed.
Lemma segments_end ts ov : forall ends a j c e, nth_error (segments ts ov a ends) j = Some c -> nth_error ends j = Some e -> snd c = upto ts e.
Proof. induction ends as [|e ends IH]; intros a [|j] c e'; cbn; try discriminate; [intros [= <-] [= <-]; reflexivity|apply IH]. Qed.
Lemma segments_length ts ov : forall ends a, length (segments ts ov a ends) = length ends.
Proof. induction ends; intros; cbn; auto. Qed.
Lemma upto_all ts e : Forall (fun t => t <= e) ts -> upto ts e = length ts.
Proof. intros F. unfold upto. rewrite filter_all_true; [reflexivity|]. eapply Forall_impl; [|exact F]. cbn; intros; lia. Qed.
Lemma times_bounds ts : increasing ts -> ts <> [] -> Forall (fun t => hd 0 ts <= t <= last ts 0) ts.
Proof.
  unfold increasing. induction 1 as [|x l S IH F]; intros N; [congruence|]. destruct l as [|y l]; [repeat constructor; cbn; lia|]. specialize (IH ltac:(discriminate)).
  change (last (x :: y :: l) 0) with (last (y :: l) 0). cbn [hd] in *. inversion F; subst. assert (B : y <= last (y :: l) 0) by (inversion IH; lia).
  constructor; [lia|]. eapply Forall_impl; [|exact IH]. cbn beta. intros; lia.
Qed.

(** what a split gives: contiguous segments that start with the first image,
    end with the last, and overlap as requested *)
Definition splits (o : observer) (overlap : nat) (ends : list Z) (obs : list observer) : Prop :=
  exists cuts, length cuts = length ends /\
   obs = map (fun c => mk_observer (slice (fst c) (snd c) (ob_images o)) (slice (fst c) (snd c) (ob_times o))) cuts /\
   Forall (fun c => fst c + 2 <= snd c <= length (ob_images o))%nat cuts /\
   (forall c, nth_error cuts 0 = Some c -> fst c = 0%nat) /\
   (forall j c c', nth_error cuts j = Some c -> nth_error cuts (S j) = Some c' -> fst c' = (snd c - Nat.min overlap (snd c - fst c))%nat) /\
   (forall j c e, nth_error cuts j = Some c -> nth_error ends j = Some e -> snd c = upto (ob_times o) e).
Lemma split_generic o ov b0 ends : Observer (ob_images o) = Ok o -> b0 <= hd 0 (ob_times o) ->
  (forall obs, split_loop o ov b0 ends = Ok obs -> splits o ov ends obs) /\
  (forall e, split_loop o ov b0 ends = Err e -> e = ValueError) /\
  ((exists obs, split_loop o ov b0 ends = Ok obs) <-> Forall (fun c => fst c + 2 <= snd c)%nat (segments (ob_times o) ov 0 ends)).
Proof.
  intros V H. rewrite (split_loop_spec o ov V). cbv zeta. destruct (valid_facts o V) as (L & M & S & Ln).
  assert (N : ob_times o <> []) by (intros E; rewrite E in Ln; cbn in Ln; lia).
  rewrite (before_gt (ob_times o) b0) by (eapply Forall_impl; [|apply times_bounds; auto]; cbn beta; intros; lia).
  assert (Bg : forall c, forallb big c = true <-> Forall (fun c => fst c + 2 <= snd c)%nat c).
  { intros c. rewrite forallb_forall, Forall_forall. unfold big. split; intros Q x Hx; specialize (Q x Hx); [apply Nat.leb_le in Q|apply Nat.leb_le]; exact Q. }
  destruct (forallb big _) eqn:Eb.
  - split; [|split; [discriminate|split; [intros _; apply Bg, Eb|eauto]]]. intros obs [= <-]. exists (segments (ob_times o) ov 0 ends). split; [apply segments_length|]. split; [reflexivity|].
    split.
    + apply Bg in Eb. rewrite Forall_forall in *. intros c Hc. split; [apply Eb, Hc|]. apply In_nth_error in Hc. destruct Hc as [j Hj].
      assert (J : (j < length ends)%nat) by (rewrite <- (segments_length (ob_times o) ov ends 0); apply nth_error_Some; congruence).
      destruct (nth_error ends j) as [e|] eqn:Ee; [|apply nth_error_None in Ee; lia]. rewrite (segments_end _ _ _ _ _ _ _ Hj Ee), <- Ln. apply upto_le.
    + split; [|split; [apply segments_chain|apply segments_end]]. intros c Hc. pose proof (segments_first (ob_times o) ov 0 ends) as Q. destruct (segments _ _ _ _); [discriminate|]. injection Hc as <-. exact Q.
  - split; [discriminate|]. split; [intros e [= <-]; reflexivity|]. split; [intros [x E]; discriminate|]. intros Q. apply Bg in Q. congruence.
Qed.

(** C60: splitting at given breaks: no image is lost, whatever the breaks *)
Theorem observer_split_breaks : forall o bs ov, Observer (ob_images o) = Ok o ->
  exists b0 ends, StronglySorted Z.lt (b0 :: ends) /\ ends <> [] /\
   (forall t, In t (b0 :: ends) <-> In t bs \/ t = hd 0 (ob_times o) \/ t = last (ob_times o) 0) /\
   (forall obs, observer_split o (SplitBreaks bs) ov = Ok obs -> splits o ov ends obs /\ upto (ob_times o) (last ends 0) = length (ob_images o)) /\
   (forall e, observer_split o (SplitBreaks bs) ov = Err e -> e = ValueError) /\
   ((exists obs, observer_split o (SplitBreaks bs) ov = Ok obs) <-> Forall (fun c => fst c + 2 <= snd c)%nat (segments (ob_times o) ov 0 ends)).
Proof.
  intros o bs ov V. destruct (valid_facts o V) as (L & M & S & Ln). assert (N : ob_times o <> []) by (intros E; rewrite E in Ln; cbn in Ln; lia).
  pose proof (times_bounds _ S N) as Bd. set (t0 := hd 0 (ob_times o)) in *. set (t1 := last (ob_times o) 0) in *.
  assert (T01 : t0 < t1).
  { unfold t0, t1. destruct (ob_times o) as [|x [|y l]]; cbn [length] in Ln; try lia. clear -S Bd. inversion S as [|? ? S' F]; subst. inversion Bd as [|? ? _ B2]; subst. inversion B2; subst. inversion F; subst. cbn [hd] in *. lia. }
  assert (Eb : split_breaks o (SplitBreaks bs) = Ok (zunique (bs ++ [t0; t1]))).
  { unfold split_breaks. rewrite (py_get_hd _ N), (py_get_last _ N). reflexivity. }
  pose proof (zunique_sorted (bs ++ [t0; t1])) as Su. pose proof (zunique_in (bs ++ [t0; t1])) as Iu.
  destruct (zunique (bs ++ [t0; t1])) as [|b0 ends] eqn:Ez. { exfalso. apply (proj2 (Iu t0)). apply in_or_app. right. left. reflexivity. }
  assert (In0 : In t0 (b0 :: ends)) by (apply Iu, in_or_app; right; left; reflexivity).
  assert (In1 : In t1 (b0 :: ends)) by (apply Iu, in_or_app; right; right; left; reflexivity).
  pose proof (times_bounds _ Su ltac:(discriminate)) as Be. rewrite Forall_forall in Be. pose proof (Be t0 In0) as H0. pose proof (Be t1 In1) as H1. cbn [hd] in H0, H1.
  assert (Ne : ends <> []). { intros ->. destruct In0 as [E0|[]], In1 as [E1|[]]. lia. }
  assert (Le : last (b0 :: ends) 0 = last ends 0) by (destruct ends; [congruence|reflexivity]). rewrite Le in *.
  exists b0, ends. split; [exact Su|]. split; [exact Ne|]. split.
  { intros t. rewrite Iu, in_app_iff. cbn. intuition. }
  unfold observer_split. rewrite Eb. cbn [bind]. rewrite (py_get_hd (b0 :: ends)) by discriminate. cbn [bind hd tl].
  destruct (split_generic o ov b0 ends V) as (G1 & G2 & G3); [fold t0; lia|]. split; [|split; auto].
  intros obs E. split; [auto|]. rewrite upto_all, Ln; [reflexivity|]. eapply Forall_impl; [|exact Bd]. cbn beta. intros; lia.
Qed.
Print Assumptions observer_split_breaks.
Example observer_split_breaks_ex : let img k := mk_image k (Some (Z.of_nat k * 10)) in let o := mk_observer [img 0; img 1; img 2; img 3]%nat [0; 10; 20; 30] in
  Observer (ob_images o) = Ok o /\ observer_split o (SplitBreaks [15]) 1 = Ok [mk_observer [img 0; img 1]%nat [0; 10]; mk_observer [img 1; img 2; img 3]%nat [10; 20; 30]].
Proof. split; reflexivity. Qed.

Lemma range_last t0 t1 dt l : 0 < dt -> t0 <= t1 -> datetime_range t0 t1 dt = Ok l -> length l = Z.to_nat ((t1 - t0) / dt + 1) /\ hd 0 l = t0 /\ last l 0 = t0 + (t1 - t0) / dt * dt.
Proof.
  intros D L E. unfold datetime_range in E. destruct (Z.eqb_spec dt 0); [lia|]. injection E as <-. pose proof (Z.div_pos (t1 - t0) dt ltac:(lia) D) as P. set (q := (t1 - t0) / dt) in *. unfold Zrange. 
  rewrite !map_length, seq_length. split; [reflexivity|]. replace (Z.to_nat (q + 1)) with (S (Z.to_nat q)) by lia. split; [cbn; lia|].
  rewrite seq_S, !map_app. cbn [map]. rewrite last_last. cbn [Nat.add]. rewrite Z2Nat.id by lia. reflexivity.
Qed.
Lemma td_div_near d n : 0 < n -> exists q, td_div d n = Ok q /\ 2 * Z.abs (n * q - d) <= n.
Proof.
  intros Hn. unfold td_div. destruct (Z.eqb_spec n 0); [lia|]. pose proof (Z.div_mod d n ltac:(lia)) as Dm. pose proof (Z.mod_pos_bound d n Hn) as Mb.
  set (q := d / n) in *. replace (d - q * n) with (d mod n) by lia. rewrite (Z.abs_eq (d mod n)), (Z.abs_eq n) by lia.
  destruct (Z.ltb_spec (2 * (d mod n)) n); [exists q; split; [reflexivity|]; nia|].
  destruct (Z.ltb_spec n (2 * (d mod n))); [exists (q + 1); split; [reflexivity|]; nia|].
  destruct (Z.even q); [exists q|exists (q + 1)]; (split; [reflexivity|]); nia.
Qed.
Lemma td_div_neg d n q : 0 < d -> n < 0 -> td_div d n = Ok q -> q <= 0.
Proof.
  intros Hd Hn. unfold td_div. destruct (Z.eqb_spec n 0); [lia|]. assert (Q : d / n <= -1) by (pose proof (Z.div_mod d n ltac:(lia)); pose proof (Z.mod_neg_bound d n Hn); nia).
  repeat match goal with |- context [if ?b then _ else _] => destruct b end; intros [= <-]; lia.
Qed.
(** C60: splitting into n: the segments end at the first time plus multiples of the duration over n, rounded to whole
    microseconds (half to even); as many as fit.  When n divides the duration these are n, and the last one ends with
    the last image. *)
Theorem observer_split_int : forall o n ov, Observer (ob_images o) = Ok o ->
  let span := last (ob_times o) 0 - hd 0 (ob_times o) in
  (n = 0 -> observer_split o (SplitInt n) ov = Err ZeroDivisionError) /\
  (n < 0 -> exists e, observer_split o (SplitInt n) ov = Err e) /\
  (0 < n -> exists dt, td_div span n = Ok dt /\ 2 * Z.abs (n * dt - span) <= n /\ (dt = 0 -> observer_split o (SplitInt n) ov = Err ZeroDivisionError) /\
    (dt <> 0 -> exists ends, length ends = Z.to_nat (span / dt) /\ (forall j e, nth_error ends j = Some e -> e = hd 0 (ob_times o) + Z.of_nat (S j) * dt) /\
      (forall obs, observer_split o (SplitInt n) ov = Ok obs -> length obs = Z.to_nat (span / dt) /\ splits o ov ends obs) /\
      (forall e, observer_split o (SplitInt n) ov = Err e -> e = ValueError) /\
      ((exists obs, observer_split o (SplitInt n) ov = Ok obs) <-> Forall (fun c => fst c + 2 <= snd c)%nat (segments (ob_times o) ov 0 ends)) /\
      ((dt | span) -> upto (ob_times o) (last ends 0) = length (ob_images o))) /\
    ((n | span) -> dt * n = span /\ Z.to_nat (span / dt) = Z.to_nat n)).
Proof.
  intros o n ov V span. destruct (valid_facts o V) as (L & M & S & Ln). assert (N : ob_times o <> []) by (intros E; rewrite E in Ln; cbn in Ln; lia).
  pose proof (times_bounds _ S N) as Bd. set (t0 := hd 0 (ob_times o)) in *. set (t1 := last (ob_times o) 0) in *.
  assert (T01 : t0 < t1).
  { unfold t0, t1. destruct (ob_times o) as [|x [|y l]]; cbn [length] in Ln; try lia. clear -S Bd. inversion S as [|? ? S' F]; subst. inversion Bd as [|? ? _ B2]; subst. inversion B2; subst. inversion F; subst. cbn [hd] in *. lia. }
  unfold observer_split, split_breaks. rewrite (py_get_hd _ N), (py_get_last _ N). cbn [bind]. fold t0 t1. fold span.
  split; [intros ->; reflexivity|]. split.
  { intros Hn. destruct (td_div span n) as [dt|e] eqn:Ed; cbn [bind]; [|eauto]. pose proof (td_div_neg span n dt ltac:(unfold span; lia) Hn Ed) as D0.
    unfold datetime_range. destruct (Z.eqb_spec dt 0) as [Z0|Z0]; cbn [bind]; [eauto|]. fold span.
    assert (Q : span / dt <= -1) by (unfold span; pose proof (Z.div_mod (t1 - t0) dt Z0); pose proof (Z.mod_neg_bound (t1 - t0) dt ltac:(lia)); nia).
    unfold Zrange. replace (Z.to_nat (span / dt + 1)) with 0%nat by lia. cbn. eauto. }
  intros Hn. destruct (td_div_near span n Hn) as (dt & Ed & Nr). exists dt. split; [exact Ed|]. split; [exact Nr|]. rewrite Ed. cbn [bind].
  split; [intros ->; reflexivity|]. split.
  2:{ intros [c Hc]. assert (Q : dt = c). { unfold td_div in Ed. destruct (Z.eqb_spec n 0); [lia|]. rewrite Hc, Z.div_mul in Ed by lia. replace (c * n - c * n) with 0 in Ed by lia. cbn [Z.abs Z.mul] in Ed. destruct (Z.ltb_spec 0 (Z.abs n)); [injection Ed as <-; reflexivity|lia]. }
      subst dt. split; [lia|]. rewrite Hc, Z.mul_comm, Z.div_mul; [reflexivity|]. intros ->. unfold span in Hc. lia. }
  intros Nz. assert (Dt : 0 < dt) by (unfold span in *; nia). destruct (datetime_range_spec t0 t1 dt Dt) as (l & El & Sl & Il & Nl & _).
  destruct (range_last t0 t1 dt l Dt ltac:(lia) El) as (Ll & Hl & La). fold span in Ll, La.
  pose proof (Z.div_pos span dt ltac:(unfold span; lia) Dt) as Pq.
  destruct l as [|b0 ends]; [cbn in Ll; lia|]. cbn [hd] in Hl. subst b0. cbn [length] in Ll. exists ends. split; [lia|]. split; [intros j e E; apply (Nl (Datatypes.S j)); exact E|].
  rewrite El. cbn [bind]. rewrite (py_get_hd (t0 :: ends)) by discriminate. cbn [bind hd tl].
  destruct (split_generic o ov t0 ends V) as (G1 & G2 & G3); [fold t0; lia|]. split; [|split; [exact G2|split; [exact G3|]]].
  - intros obs E. pose proof (G1 obs E) as (cuts & C1 & C2 & C3). split; [rewrite C2, map_length; lia|]. apply G1; exact E.
  - intros [c Hc]. rewrite upto_all, Ln; [reflexivity|]. assert (Q : span / dt = c) by (rewrite Hc; apply Z.div_mul; lia). assert (Ne : ends <> []) by (intros ->; cbn in Ll; unfold span in *; nia).
    destruct ends as [|e ends]; [congruence|]. change (last (t0 :: e :: ends) 0) with (last (e :: ends) 0) in La. rewrite La, Q.
    eapply Forall_impl; [|exact Bd]. cbn beta. intros. unfold span in *. lia.
Qed.
Print Assumptions observer_split_int.
(** Finding: when the rounded segment length does not divide the duration, the last
    image is in no segment; if it was rounded up, fewer than n segments are returned. *)
Theorem observer_split_int_refuted : forall o n dt ov obs, Observer (ob_images o) = Ok o ->
  let span := last (ob_times o) 0 - hd 0 (ob_times o) in
  td_div span n = Ok dt -> 0 < dt -> span mod dt <> 0 -> observer_split o (SplitInt n) ov = Ok obs ->
  length obs = Z.to_nat (span / dt) /\ (span < n * dt -> 0 < n -> (length obs < Z.to_nat n)%nat) /\
  Forall (fun ob => ~ In (last (ob_times o) 0) (ob_times ob)) obs.
Proof.
  intros o n dt ov obs V span Ed Dt Nz E. destruct (valid_facts o V) as (L & M & S & Ln). assert (N : ob_times o <> []) by (intros Q; rewrite Q in Ln; cbn in Ln; lia).
  pose proof (times_bounds _ S N) as Bd. unfold observer_split, split_breaks in E. rewrite (py_get_hd _ N), (py_get_last _ N) in E. cbn [bind] in E. fold span in E. rewrite Ed in E. cbn [bind] in E.
  set (t0 := hd 0 (ob_times o)) in *. set (t1 := last (ob_times o) 0) in *.
  assert (T01 : t0 <= t1) by (unfold t0, t1; destruct (ob_times o); [congruence|]; inversion Bd; cbn [hd] in *; lia).
  destruct (datetime_range_spec t0 t1 dt Dt) as (l & El & Sl & Il & Nl & _). destruct (range_last t0 t1 dt l Dt T01 El) as (Ll & Hl & La). fold span in Ll, La. rewrite El in E. cbn [bind] in E.
  pose proof (Z.div_pos span dt ltac:(unfold span; lia) Dt) as Pq. pose proof (Z.div_mod span dt ltac:(lia)) as Dm. pose proof (Z.mod_pos_bound span dt Dt) as Mb.
  destruct l as [|b0 ends]; [cbn in Ll; lia|]. cbn [hd] in Hl. subst b0. rewrite (py_get_hd (t0 :: ends)) in E by discriminate. cbn [bind hd tl] in E.
  destruct (split_generic o ov t0 ends V) as (G1 & _ & _); [fold t0; lia|]. destruct (G1 obs E) as (cuts & C1 & C2 & C3 & C4 & C5 & C6). cbn [length] in Ll.
  assert (Lo : length obs = Z.to_nat (span / dt)) by (rewrite C2, map_length; lia).
  split; [exact Lo|]. split.
  { intros H1 H2. rewrite Lo. assert (span / dt < n) by (apply Z.div_lt_upper_bound; lia). lia. }
  rewrite Forall_forall. intros ob Hob I. rewrite C2 in Hob. apply in_map_iff in Hob. destruct Hob as (c & <- & Hc). cbn [ob_times] in I.
  apply In_nth_error in Hc. destruct Hc as [j Hj]. assert (J : (j < length ends)%nat) by (rewrite <- C1; apply nth_error_Some; congruence).
  destruct (nth_error ends j) as [e|] eqn:Ee; [|apply nth_error_None in Ee; lia]. pose proof (C6 j c e Hj Ee) as Ec.
  assert (He : e < t1).
  { assert (In e (t0 :: ends)) by (right; eapply nth_error_In; exact Ee). apply Il in H. destruct H as (k & K & -> & Kl). assert (t0 + k * dt <> t1); [|lia]. intros Q. apply Nz. unfold span. replace (t1 - t0) with (k * dt) by lia. apply Z.mod_mul. lia. }
  assert (Sl2 : In t1 (firstn (snd c) (ob_times o))).
  { unfold slice in I. clear -I. generalize dependent t1. generalize (fst c) as a, (snd c) as b. intros a b t1 I. revert a b I. induction (ob_times o) as [|x l IH]; intros a b I; [destruct a, b; cbn in I; rewrite ?firstn_nil in I; contradiction|].
    destruct a as [|a]; [rewrite Nat.sub_0_r in I; exact I|]. cbn [skipn] in I. destruct b as [|b]; [cbn in I; contradiction|]. cbn [Nat.sub] in I. right. apply (IH a b I). }
  rewrite Ec in Sl2. clear -Sl2 S He. unfold increasing in S.
  assert (Q : firstn (upto (ob_times o) e) (ob_times o) = filter (fun t => t <=? e) (ob_times o)).
  { clear -S. induction S as [|x l S IH F]; [reflexivity|]. rewrite upto_cons. cbn [filter]. destruct (Z.leb_spec x e); [cbn; f_equal; exact IH|].
    rewrite upto_lt, filter_all_false; [reflexivity| |]; eapply Forall_impl; [|exact F| |exact F]; cbn beta; intros; lia. }
  rewrite Q in Sl2. apply filter_In in Sl2. lia.
Qed.
Print Assumptions observer_split_int_refuted.
(** 20 seconds in 3: segments of 6666667 microseconds, so two segments, and the images from 13.3 s are lost *)
Example observer_split_int_ex : let s k := 1000000 * k in let img k := mk_image (Z.to_nat k) (Some (s k)) in
  let o := mk_observer (map img [0; 2; 4; 6; 8; 10; 12; 14; 16; 18; 20]) (map s [0; 2; 4; 6; 8; 10; 12; 14; 16; 18; 20]) in
  Observer (ob_images o) = Ok o /\ td_div (s 20 - s 0) 3 = Ok 6666667 /\ s 20 mod 6666667 <> 0 /\
  exists ob1 ob2, observer_split o (SplitInt 3) 1 = Ok [ob1; ob2] /\ ob_times ob1 = map s [0; 2; 4; 6] /\ ob_times ob2 = map s [6; 8; 10; 12].
Proof. intros s img o. split; [reflexivity|]. split; [reflexivity|]. split; [discriminate|]. eexists _, _. split; [reflexivity|]. split; reflexivity. Qed.
