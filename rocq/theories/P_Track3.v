(** Observers without matching images: C41, C61 (src/glimpse/track/tracker.py:275-374). *)
From Verif Require Import Base BaseLemmas ResampleModel TimeModel TimeSpec TimeProofs TrackModel TrackSpec TrackProofs TrackProofs2 P_Time P_Track.
Open Scope nat_scope.

Lemma template_idle matching o : (forall i, matched matching i o = None) -> template_index matching o = 0.
Proof.
  intros No. apply argmaxb_none. intros k. destruct (le_lt_dec (length matching) k) as [G|G]; [apply nth_overflow; rewrite map_length; exact G|].
  rewrite (nth_indep _ false (is_some (nth o ([] : list (option nat)) None))) by (rewrite map_length; exact G). rewrite (map_nth (fun r => is_some (nth o r None))). specialize (No k). unfold matched in No. rewrite No. reflexivity.
Qed.
Lemma first_zero matching mask : Forall (fun r => length r = length mask) matching -> sees matching mask 0 \/ (forall i, ~ sees matching mask i) -> first_index matching mask = 0.
Proof.
  intros F [S0|N].
  - destruct (first_le matching mask F 0 S0) as (A1 & _ & _). lia.
  - apply argmaxb_none. intros k. destruct (nth k (observed matching mask) false) eqn:Q; [|reflexivity]. exfalso. apply (N k). apply (observed_nth matching mask F). exact Q.
Qed.

(** C41: a track with no matching image at all is computed at all times *)
Theorem track_unobserved : forall {T} (E : @env T) matching datetimes mm mask s,
  Forall (fun r => length r = length mask) matching -> length matching = length datetimes -> datetimes <> [] -> (forall i, ~ sees matching mask i) ->
  let r := snd (process E matching datetimes mm mask s) in
  length (t_means r) = length datetimes /\ length (t_sigmas r) = length datetimes /\
  exists stop, (t_error r = None -> stop = length datetimes) /\ (forall e, t_error r = Some e -> stop < length datetimes) /\
    forall i, (i < stop <-> exists m, nth_error (t_means r) i = Some (Some m)) /\ (i < stop <-> exists m, nth_error (t_sigmas r) i = Some (Some m)).
Proof.
  intros T E matching datetimes mm mask s F L N S r. pose proof (process_eq E matching datetimes mm mask s F) as Er. fold r in Er. clearbody r. subst r. set (r := snd (loop _ _ _ _ _ _ _ _ _ _)).
  assert (Ln : length (observed matching mask) = length matching) by apply map_length.
  assert (No : forall k, nth k (observed matching mask) false = false). { intros k. destruct (nth k (observed matching mask) false) eqn:Q; [|reflexivity]. exfalso. apply (S k). apply (observed_nth matching mask F). exact Q. }
  assert (Hf : first_index matching mask = 0) by (apply argmaxb_none, No).
  assert (Hl : last_index matching mask = length datetimes - 1).
  { unfold last_index. rewrite argmaxb_none; [lia|]. intros k. destruct (le_lt_dec (length (rev (observed matching mask))) k) as [G|G]; [apply nth_overflow, G|]. rewrite rev_length in G. rewrite rev_nth by exact G. apply No. }
  assert (Ld : 0 < length datetimes) by (destruct datetimes; [congruence|cbn; lia]).
  unfold r. rewrite Hf, Hl. clear r. set (r := snd _). destruct (loop_filled E matching datetimes mm mask 0 (Datatypes.S (length datetimes - 1) - 0) 0 (map (fun _ => None) datetimes) (map (fun _ => None) datetimes) s) as (C1 & C2 & e & C3 & C4 & C5 & C6); [rewrite map_length; lia|rewrite map_length; lia|].
  fold r in C1, C2, C4, C5, C6. rewrite map_length in C1, C2. split; [exact C1|]. split; [exact C2|]. exists e. split; [|split].
  - intros H. apply C4 in H. lia.
  - intros x H. assert (Q : e <> 0 + (Datatypes.S (length datetimes - 1) - 0)) by (intros Q; apply C4 in Q; congruence). lia.
  - intros i. split.
    + specialize (C5 i). unfold filled in C5. rewrite C5. split; [intros; right; lia|]. intros [H|H]; [exfalso; exact (filled_none _ _ H)|lia].
    + specialize (C6 i). unfold filled in C6. rewrite C6. split; [intros; right; lia|]. intros [H|H]; [exfalso; exact (filled_none _ _ H)|lia].
Qed.
Print Assumptions track_unobserved.
Example track_unobserved_all_ex : forall i, ~ sees [[Some 0]; [None]] [false] i.
Proof. intros i (o & k & H1 & H2). destruct o as [|[|o]]; discriminate. Qed.

(** ** an additional observer *)
(** the last column of the matching images when the observer added last has none *)
Definition with_idle (matching : list (list (option nat))) : list (list (option nat)) := map (fun r => r ++ [None]) matching.
Section Idle.
  Context {T : Type} (E : @env T) (matching : list (list (option nat))) (datetimes : list Z) (mm : motion) (mask : list bool) (b : bool).
  Hypothesis F : Forall (fun r => length r = length mask) matching.
  Lemma row_idle i : i < length matching -> row (with_idle matching) i = row matching i ++ [None].
  Proof. intros H. unfold row, with_idle. rewrite (nth_indep _ [] ([] ++ [None])) by (rewrite map_length; exact H). apply (map_nth (fun r => r ++ [None])). Qed.
  Lemma row_len i : i < length matching -> length (row matching i) = length mask.
  Proof. intros H. rewrite Forall_forall in F. apply F. apply nth_In. exact H. Qed.
  Lemma observed_idle : observed (with_idle matching) (mask ++ [b]) = observed matching mask.
  Proof.
    unfold observed, with_idle. rewrite map_map. apply map_ext_in. intros r Hr. rewrite Forall_forall in F. specialize (F r Hr). revert F. generalize mask. clear.
    induction r as [|x r IH]; intros [|m mask] L; cbn in L; try discriminate; [reflexivity|]. cbn. rewrite (IH mask) by lia. reflexivity.
  Qed.
  Lemma template_idle_other o : o < length mask -> template_index (with_idle matching) o = template_index matching o.
  Proof.
    intros H. unfold template_index, with_idle. rewrite map_map. f_equal. apply map_ext_in. intros r Hr. rewrite Forall_forall in F. specialize (F r Hr). rewrite app_nth1 by lia. reflexivity.
  Qed.
  Lemma template_idle_last : template_index (with_idle matching) (length mask) = 0.
  Proof.
    apply template_idle. intros i. unfold matched. destruct (le_lt_dec (length matching) i) as [G|G].
    - rewrite (nth_overflow (with_idle matching)); [destruct (length mask); reflexivity|]. unfold with_idle. rewrite map_length. exact G.
    - change (nth i (with_idle matching) []) with (row (with_idle matching) i). rewrite row_idle by exact G. rewrite app_nth2 by (rewrite row_len by exact G; lia). rewrite row_len, Nat.sub_diag by exact G. reflexivity.
  Qed.
  Lemma forM_ext {A B} (f g : A -> @M T B) l : (forall x, In x l -> f x = g x) -> forM l f = forM l g.
  Proof. induction l as [|x l IH]; intros H; [reflexivity|]. cbn [forM]. rewrite (H x) by (left; reflexivity). rewrite IH by (intros; apply H; right; assumption). reflexivity. Qed.
  Lemma forM_none {A} (f : A -> @M T (option (list R))) l x s : (forall s, f x s = (s, Ok None)) ->
    forM (l ++ [x]) f s = match forM l f s with (s', Ok ys) => (s', Ok (ys ++ [None])) | (s', Err e) => (s', Err e) end.
  Proof.
    intros Hx. revert s. induction l as [|y l IH]; intros s; cbn [app forM].
    - unfold bindM, ret. rewrite Hx. reflexivity.
    - unfold bindM at 1 3. destruct (f y s) as [s1 [v|e]]; [|reflexivity]. unfold bindM. rewrite IH. destruct (forM l f s1) as [s2 [vs|e]]; reflexivity.
  Qed.
  Lemma bindM_eq {A B} (m : @M T A) (f : A -> @M T B) s : bindM m f s = match m s with (s', Ok a) => f a s' | (s', Err e) => (s', Err e) end.
  Proof. reflexivity. Qed.
  Lemma update_idle i imgs s : update_weights_M E i (imgs ++ [None]) mm s = update_weights_M E i imgs mm s.
  Proof.
    unfold update_weights_M. rewrite app_length. cbn [length]. rewrite Nat.add_1_r, seq_S.
    assert (C : combine (seq 0 (length imgs) ++ [0 + length imgs]) (imgs ++ [None]) = combine (seq 0 (length imgs)) imgs ++ [(length imgs, None)]).
    { assert (G : forall (l : list nat) (m : list (option nat)) x y, length l = length m -> combine (l ++ [x]) (m ++ [y]) = combine l m ++ [(x, y)]).
      { clear. induction l as [|a l IH]; intros [|c m] x y H; cbn in *; try discriminate; [reflexivity|]. rewrite IH by lia. reflexivity. }
      rewrite G by (rewrite seq_length; reflexivity). reflexivity. }
    rewrite C, !bindM_eq. rewrite forM_none by reflexivity. destruct (forM _ _ s) as [s1 [logs|e]]; [|reflexivity].
    unfold bindM, get, lift. destruct (m_log mm (st_particles s1)) as [ml|e]; [|reflexivity]. unfold set_weights.
    replace (update_weights (e_exp E) (e_tiny E) ((logs ++ [None]) ++ [ml]) (st_weights s1)) with (update_weights (e_exp E) (e_tiny E) (logs ++ [ml]) (st_weights s1)); [reflexivity|].
    unfold update_weights. rewrite !flat_map_app. cbn [flat_map app]. rewrite !app_nil_r. reflexivity.
  Qed.
  Lemma step_idle first i s : i < length matching -> b = false \/ 0 < i -> step E (with_idle matching) datetimes mm (mask ++ [b]) first i s = step E matching datetimes mm mask first i s.
  Proof.
    intros Hi Hb. unfold step. rewrite app_length. cbn [length]. rewrite Nat.add_1_r, seq_S, filter_app. cbn [filter Nat.add].
    rewrite app_nth2, Nat.sub_diag by lia. cbn [nth]. rewrite template_idle_last.
    assert (Z : b && (0 =? i) = false) by (destruct Hb as [->|Q]; [reflexivity|]; destruct i; [lia|apply Bool.andb_false_r]). rewrite Z, app_nil_r.
    rewrite (filter_ext_in (fun o => nth o (mask ++ [b]) false && (template_index (with_idle matching) o =? i)) (fun o => nth o mask false && (template_index matching o =? i)) (seq 0 (length mask))).
    2:{ intros o Ho. apply in_seq in Ho. rewrite app_nth1 by lia. rewrite template_idle_other by lia. reflexivity. }
    set (l := filter _ _). assert (Il : forall o, In o l -> o < length mask) by (intros o Ho; apply filter_In in Ho; destruct Ho as [Ho _]; apply in_seq in Ho; lia).
    rewrite (forM_ext (fun o => initialize_template E i o (img_at (with_idle matching) i o)) (fun o => initialize_template E i o (img_at matching i o)) l).
    2:{ intros o Ho. f_equal. unfold img_at. rewrite row_idle by exact Hi. apply app_nth1. rewrite row_len by exact Hi. apply Il, Ho. }
    rewrite row_idle by exact Hi.
    assert (M2 : map2 (fun (img : option nat) (m : bool) => if m then img else None) (row matching i ++ [None]) (mask ++ [b]) = map2 (fun (img : option nat) (m : bool) => if m then img else None) (row matching i) mask ++ [None]).
    { pose proof (row_len i Hi) as Lr. revert Lr. generalize (row matching i). generalize mask. clear. intros mk. induction mk as [|m mk IH]; intros [|x r] L; cbn in L; try discriminate; [cbn; destruct b; reflexivity|]. cbn. rewrite IH by lia. reflexivity. }
    rewrite M2, !bindM_eq. match goal with |- match ?m with (_, _) => _ end = _ => destruct m as [s1 [u|e]]; [|reflexivity] end.
    rewrite !bindM_eq. destruct (forM l _ s1) as [s2 [us|e]]; [|reflexivity].
    rewrite !bindM_eq. destruct (first <? i); [|reflexivity]. rewrite !bindM_eq, update_idle. reflexivity.
  Qed.
  Lemma loop_idle first : forall is means sigmas s, (forall i, In i is -> i < length matching /\ (b = false \/ 0 < i)) ->
    loop E (with_idle matching) datetimes mm (mask ++ [b]) first is means sigmas s = loop E matching datetimes mm mask first is means sigmas s.
  Proof.
    induction is as [|i is IH]; intros means sigmas s H; [reflexivity|]. cbn [loop]. destruct (H i (or_introl eq_refl)) as [H1 H2]. rewrite step_idle by assumption.
    destruct (step E matching datetimes mm mask first i s) as [s1 [[m sg]|e]]; [|reflexivity]. apply IH. intros j Hj. apply H. right. exact Hj.
  Qed.
  Lemma process_idle s : matching <> [] -> b = false \/ 0 < first_index matching mask -> process E (with_idle matching) datetimes mm (mask ++ [b]) s = process E matching datetimes mm mask s.
  Proof.
    intros N Hb. unfold process. rewrite (rows_check matching mask F). rewrite rows_check.
    2:{ unfold with_idle. apply Forall_map. eapply Forall_impl; [|exact F]. cbv beta. intros r Hr. rewrite !app_length, Hr. reflexivity. }
    unfold first_index, last_index. rewrite observed_idle. fold (first_index matching mask). fold (last_index matching mask). apply loop_idle.
    intros i Hi. apply in_seq in Hi. assert (Lm : 0 < length matching) by (destruct matching; [congruence|cbn; lia]). assert (Lo : length (observed matching mask) = length matching) by apply map_length.
    split; [|destruct Hb as [->|Hb]; [left; reflexivity|right; lia]]. unfold last_index in Hi. lia.
  Qed.
End Idle.

(** C61: adding an observer that matches no tracked time, used or not (b), to a track: when another observer of the track is
    the first to see something at a time after the first, or when the new one is not used, nothing at all changes. *)
Theorem track_idle_observer : forall {T} (E : @env T) matching datetimes mm mask b s,
  Forall (fun r => length r = length mask) matching -> matching <> [] ->
  b = false \/ ((exists i, sees matching mask i) /\ ~ sees matching mask 0) ->
  process E (with_idle matching) datetimes mm (mask ++ [b]) s = process E matching datetimes mm mask s.
Proof.
  intros T E matching datetimes mm mask b s F N H. apply process_idle; [exact F|exact N|]. destruct H as [H|[[i Hi] H]]; [left; exact H|right].
  destruct (first_le matching mask F i Hi) as (_ & B & _). destruct (first_index matching mask); [contradiction|lia].
Qed.
Print Assumptions track_idle_observer.
Example track_idle_observer_late_ex : let matching := [[Some 0; None]; [None; Some 1]] in let mask := [false; true] in
  (exists i, sees matching mask i) /\ ~ sees matching mask 0.
Proof. intros matching mask. split; [exists 1, 1, 1; auto|]. intros (o & k & H1 & H2). destruct o as [|[|o]]; cbn in *; try discriminate. destruct o; discriminate. Qed.

(** Otherwise (the track starts at the first time) it fails at once, with nothing computed; [o] is the idle observer *)
Theorem track_idle_observer_fails : forall {T} (E : @env T) matching datetimes mm mask s o,
  Forall (fun r => length r = length mask) matching -> length matching = length datetimes ->
  sees matching mask 0 \/ (forall i, ~ sees matching mask i) ->
  nth o mask false = true -> (forall i, matched matching i o = None) ->
  (forall ps ws, is_ok (e_template E o None ps ws) = false) ->
  let r := snd (process E matching datetimes mm mask s) in
  t_error r <> None /\ t_means r = map (fun _ => None) datetimes /\ t_sigmas r = map (fun _ => None) datetimes.
Proof.
  intros T E matching datetimes mm mask s o F L S0 Mo No Te r. pose proof (process_eq E matching datetimes mm mask s F) as Er. fold r in Er. clearbody r. subst r. set (r := snd (loop _ _ _ _ _ _ _ _ _ _)).
  pose proof (first_zero matching mask F S0) as Hf. unfold r. rewrite Hf. clear r.
  set (n := S (last_index matching mask) - 0). assert (Hn : n = S (n - 1)) by (unfold n; lia). rewrite Hn. cbn [seq loop].
  pose proof (template_idle matching o No) as Et.
  assert (Lo : o < length mask) by (destruct (le_lt_dec (length mask) o) as [G|G]; [rewrite nth_overflow in Mo by exact G; discriminate|exact G]).
  assert (Fail : is_ok (snd (step E matching datetimes mm mask 0 0 s)) = false).
  { unfold step. rewrite bindM_eq. match goal with |- context [match ?m with (_, _) => _ end] => destruct m as [s1 [u|e]]; [|reflexivity] end.
    set (l := filter _ _). assert (Il : In o l). { apply filter_In. split; [apply in_seq; lia|]. rewrite Mo, Et. reflexivity. }
    rewrite bindM_eq. assert (Fm : is_ok (snd (forM l (fun o => initialize_template E 0 o (img_at matching 0 o)) s1)) = false).
    { clear -Il Te No. revert s1. induction l as [|x l IH]; intros s1; [contradiction|]. cbn [forM]. rewrite bindM_eq.
      destruct (Nat.eq_dec x o) as [->|N].
      - unfold initialize_template, bindM, get, lift. assert (Q : img_at matching 0 o = None) by exact (No 0). rewrite Q. specialize (Te (st_particles s1) (st_weights s1)). destruct (e_template E o None (st_particles s1) (st_weights s1)); [discriminate|reflexivity].
      - destruct Il as [Il|Il]; [congruence|]. destruct (initialize_template E 0 x (img_at matching 0 x) s1) as [s2 [u|e]]; [|reflexivity]. rewrite bindM_eq. specialize (IH Il s2). destruct (forM l _ s2) as [s3 [us|e]]; [discriminate|reflexivity]. }
    destruct (forM l _ s1) as [s2 [us|e]]; [discriminate|reflexivity]. }
  destruct (step E matching datetimes mm mask 0 0 s) as [s1 [[m sg]|e]]; [discriminate|]. cbn. split; [discriminate|auto].
Qed.
Print Assumptions track_idle_observer_fails.
Example track_idle_observer_ex : let matching := [[Some 0; None]; [Some 1; None]] in let mask := [true; true] in
  sees matching mask 0 /\ (forall i, matched matching i 1 = None) /\ (forall ps ws, is_ok (e_template toy_env 1 None ps ws) = false).
Proof. intros matching mask. split; [exists 0, 0; auto|]. split; [intros [|[|[|i]]]; reflexivity|reflexivity]. Qed.

(** ** the whole call *)
(** no image of the observer is within maxdt of a requested time *)
Definition idle (ob ds : list Z) (maxdt : Z) : Prop := forall d t, In d ds -> In t ob -> (Z.abs maxdt < Z.abs (d - t))%Z.
Lemma parse_idle obs ob ds maxdt : obs <> [] -> Forall (fun ts => ts <> []) obs -> idle ob ds maxdt -> parse_datetimes (obs ++ [ob]) ds maxdt = parse_datetimes obs ds maxdt.
Proof.
  intros N F I. assert (N1 : concat obs <> []) by (destruct obs as [|o obs]; [congruence|]; inversion F; subst; destruct o; [congruence|discriminate]).
  assert (N2 : concat (obs ++ [ob]) <> []) by (rewrite concat_app; destruct (concat obs); [congruence|discriminate]).
  assert (N3 : obs ++ [ob] <> []) by (destruct obs; discriminate).
  rewrite !parse_eq by assumption. destruct (monotonic ds); [|reflexivity]. cbv zeta.
  rewrite (filter_ext_in (near (zunique (concat (obs ++ [ob]))) maxdt) (near (zunique (concat obs)) maxdt) (drop_duplicates ds)); [reflexivity|].
  intros d Hd. apply (drop_dup_in ds d) in Hd. apply Bool.eq_iff_eq_true. rewrite !near_iff by assumption. unfold has_image. split.
  - intros (ts & t & H1 & H2 & H3). apply in_app_or in H1. destruct H1 as [H1|[<-|[]]]; [exists ts, t; auto|]. exfalso. specialize (I d t Hd H2). lia.
  - intros (ts & t & H1 & H2 & H3). exists ts, t. split; [apply in_or_app; left; exact H1|auto].
Qed.
Lemma mapM_app {A B} (f : A -> result B) l m : mapM f (l ++ m) = let* a := mapM f l in let* b := mapM f m in Ok (a ++ b).
Proof.
  induction l as [|x l IH]; cbn [app mapM]; [cbn [bind]; destruct (mapM f m); reflexivity|]. rewrite IH. destruct (f x); [|reflexivity]. cbn [bind]. destruct (mapM f l); [|reflexivity]. cbn [bind]. destruct (mapM f m); reflexivity.
Qed.
Lemma match_idle obs ob ds maxdt : ob <> [] -> idle ob ds maxdt -> match_datetimes (obs ++ [ob]) ds maxdt = let* M := match_datetimes obs ds maxdt in Ok (with_idle M).
Proof.
  intros N. unfold match_datetimes, with_idle. induction ds as [|d ds IH]; intros I; [reflexivity|]. cbn [mapM]. rewrite IH by (intros d' t H1 H2; apply I; [right; exact H1|exact H2]).
  rewrite mapM_app. cbn [mapM]. assert (Q : match1 d ob maxdt = Ok None).
  { destruct (match1_spec d ob maxdt N) as (m & E & _ & H). rewrite E. f_equal. apply H. intros t Ht. apply I; [left; reflexivity|exact Ht]. }
  rewrite Q. destruct (mapM (fun ts => match1 d ts maxdt) obs) as [row|e]; [|reflexivity]. cbn [bind]. destruct (mapM (fun d => mapM (fun ts => match1 d ts maxdt) obs) ds) as [rows|e]; reflexivity.
Qed.

Lemma Forall2_nth {A B} (P : A -> B -> Prop) l m k x y : Forall2 P l m -> nth_error l k = Some x -> nth_error m k = Some y -> P x y.
Proof. intros F. revert k. induction F as [|a b l m Q F IH]; intros [|k] A1 A2; cbn in *; try discriminate; [injection A1 as <-; injection A2 as <-; exact Q|apply (IH k); auto]. Qed.
Lemma combine_nth_error {A B} (l : list A) (m : list B) k x y : nth_error (combine l m) k = Some (x, y) <-> nth_error l k = Some x /\ nth_error m k = Some y.
Proof.
  revert m k. induction l as [|a l IH]; intros [|b m] [|k]; cbn; split; try discriminate; try (intros []; discriminate); try (intros [H1 H2]; discriminate).
  - intros [= -> ->]. auto.
  - intros [[= ->] [= ->]]. reflexivity.
  - apply IH.
  - apply IH.
Qed.
(** C61, the whole call for two or more motion models, with an observer added last that has no image within maxdt of a
    requested time: the same exceptions, datetimes and matching images; a track that uses the new observer is the same iff
    it starts after the first time, and otherwise fails with nothing computed. *)
Theorem track_idle_call : forall {T} (E : @env T) obs ob models req maxdt masks s, 2 <= length models ->
  obs <> [] -> Forall (fun ts => ts <> []) obs -> ob <> [] -> idle ob req maxdt ->
  (forall ms, masks = Some ms -> Forall (fun m => length m = length obs) ms) ->
  (forall ps ws, is_ok (e_template E (length obs) None ps ws) = false) ->
  match snd (track E obs models (Some req) maxdt masks s) with
  | Err e => snd (track E (obs ++ [ob]) models (Some req) maxdt (option_map (map (fun m => m ++ [true])) masks) s) = Err e
  | Ok (ds, matching, rs) => exists rs',
      snd (track E (obs ++ [ob]) models (Some req) maxdt (option_map (map (fun m => m ++ [true])) masks) s) = Ok (ds, with_idle matching, rs') /\
      length rs' = length rs /\
      forall k r r', nth_error rs k = Some r -> nth_error rs' k = Some r' ->
        exists mask, (match masks with Some m => nth_error m k = Some mask | None => mask = repeat true (length obs) end) /\
          ((exists i, sees matching mask i) /\ ~ sees matching mask 0 -> r' = r) /\
          (sees matching mask 0 \/ (forall i, ~ sees matching mask i) ->
             t_error r' <> None /\ t_means r' = map (fun _ => None) ds /\ t_sigmas r' = map (fun _ => None) ds)
  end.
Proof.
  intros T E obs ob models req maxdt masks s L N F No I Lm Te.
  unfold track. destruct models as [|m0 rest]; [cbn in L; lia|]. destruct (existsb _ rest); [reflexivity|]. set (models := m0 :: rest) in *.
  replace (length models <? 2) with false by (symmetry; apply Nat.ltb_ge; exact L).
  rewrite parse_idle by assumption. destruct (parse_datetimes obs req maxdt) as [ds|e] eqn:Ed; [|reflexivity].
  destruct (parse_datetimes_spec obs req maxdt N F) as (PS & _ & _). destruct (PS ds Ed) as (_ & Ld & Id).
  assert (I' : idle ob ds maxdt) by (intros d t H1 H2; apply I; [apply Id in H1; tauto|exact H2]).
  rewrite match_idle by assumption. destruct (match_datetimes_ok obs ds maxdt F) as (M & Em & LM & HM). rewrite Em. cbn [bind].
  assert (RM : Forall (fun r => length r = length obs) M).
  { apply Forall_forall. intros r Hr. apply In_nth_error in Hr. destruct Hr as [i Hi]. assert (i < length ds) by (rewrite <- LM; apply nth_error_Some; congruence).
    destruct (nth_error ds i) as [d|] eqn:Edi; [|apply nth_error_None in Edi; lia]. destruct (HM i d Edi) as (row & Er & Lr & _). rewrite Hi in Er. injection Er as ->. exact Lr. }
  assert (NM : M <> []) by (destruct M; [cbn in LM; lia|discriminate]).
  set (mk := match masks with Some m => m | None => repeat (repeat true (length obs)) (length models) end).
  set (mk' := match option_map (map (fun m => m ++ [true])) masks with Some m => m | None => repeat (repeat true (length (obs ++ [ob]))) (length models) end).
  assert (Emk : mk' = map (fun m => m ++ [true]) mk).
  { unfold mk', mk. destruct masks as [ms|]; [reflexivity|]. cbn [option_map]. rewrite app_length. cbn [length]. rewrite Nat.add_1_r.
    assert (G : repeat true (S (length obs)) = repeat true (length obs) ++ [true]) by (generalize (length obs); clear; induction n as [|n IH]; [reflexivity|]; cbn [repeat app] in *; rewrite <- IH; reflexivity).
    rewrite G. generalize (length models) as n. clear. induction n as [|n IH]; [reflexivity|]. cbn [repeat map]. rewrite IH. reflexivity. }
  assert (Lk : Forall (fun m => length m = length obs) mk).
  { unfold mk. destruct masks as [ms|]; [apply Lm; reflexivity|]. apply Forall_forall. intros m Hm. apply repeat_spec in Hm. subst m. apply repeat_length. }
  clearbody mk'. subst mk'. set (s0 := mk_state [] [] (fun _ => None) (st_log s)).
  destruct (track_errors_contained E M ds (combine models mk) s0) as (s1 & rs & Er & Fr). rewrite Er. cbn [bind snd].
  destruct (track_errors_contained E (with_idle M) ds (combine models (map (fun m => m ++ [true]) mk)) s0) as (s2 & rs' & Er' & Fr'). rewrite Er'. cbn [bind snd].
  exists rs'. split; [reflexivity|]. split.
  { rewrite <- (Forall2_len _ _ _ Fr), <- (Forall2_len _ _ _ Fr'), !combine_length, map_length. reflexivity. }
  intros k r r' Hr Hr'. destruct (nth_error (combine models mk) k) as [[mm mask]|] eqn:Ec.
  2:{ apply nth_error_None in Ec. exfalso. rewrite (Forall2_len _ _ _ Fr) in Ec. assert (k < length rs) by (apply nth_error_Some; congruence). lia. }
  pose proof (Forall2_nth _ _ _ _ _ _ Fr Ec Hr s0) as Pr. cbn [fst snd] in Pr. apply combine_nth_error in Ec. destruct Ec as [Ec1 Ec2].
  assert (Ec' : nth_error (combine models (map (fun m => m ++ [true]) mk)) k = Some (mm, mask ++ [true])).
  { apply combine_nth_error. split; [exact Ec1|]. rewrite nth_error_map, Ec2. reflexivity. }
  pose proof (Forall2_nth _ _ _ _ _ _ Fr' Ec' Hr' s0) as Pr'. cbn [fst snd] in Pr'.
  assert (Lmask : length mask = length obs) by (rewrite Forall_forall in Lk; apply Lk; eapply nth_error_In; exact Ec2).
  assert (Fm : Forall (fun r => length r = length mask) M) by (rewrite Lmask; exact RM).
  exists mask. split; [|split].
  - unfold mk in Ec2. destruct masks as [ms|]; [exact Ec2|]. apply nth_error_In, repeat_spec in Ec2. exact Ec2.
  - intros Hs. rewrite Pr, Pr'. rewrite track_idle_observer; [reflexivity|exact Fm|exact NM|right; exact Hs].
  - intros Hs. rewrite Pr'. apply (track_idle_observer_fails E (with_idle M) ds mm (mask ++ [true]) s0 (length obs)).
    + unfold with_idle. apply Forall_map. eapply Forall_impl; [|exact Fm]. cbv beta. intros x Hx. rewrite !app_length, Hx. reflexivity.
    + unfold with_idle. rewrite map_length. exact LM.
    + assert (Sq : forall i, sees (with_idle M) (mask ++ [true]) i <-> sees M mask i).
      { assert (Fw : Forall (fun r => length r = length (mask ++ [true])) (with_idle M)).
        { unfold with_idle. apply Forall_map. eapply Forall_impl; [|exact Fm]. cbv beta. intros x Hx. rewrite !app_length, Hx. reflexivity. }
        intros i. split; intros Hi.
        - apply (observed_nth M mask Fm). rewrite <- (observed_idle M mask true Fm). apply (observed_nth _ _ Fw), Hi.
        - apply (observed_nth _ _ Fw). rewrite (observed_idle M mask true Fm). apply (observed_nth M mask Fm), Hi. }
      destruct Hs as [Hs|Hs]; [left; apply Sq, Hs|right; intros i Hi; apply (Hs i), Sq, Hi].
    + rewrite app_nth2 by lia. rewrite Lmask, Nat.sub_diag. reflexivity.
    + intros i. unfold matched. change (nth i (with_idle M) []) with (row (with_idle M) i). destruct (le_lt_dec (length M) i) as [G|G].
      * unfold row. rewrite (nth_overflow (with_idle M)); [destruct (length obs); reflexivity|]. unfold with_idle. rewrite map_length. exact G.
      * rewrite row_idle by exact G. rewrite app_nth2; rewrite (row_len M mask Fm) by exact G; [|lia]. rewrite Lmask, Nat.sub_diag. reflexivity.
    + exact Te.
Qed.
Print Assumptions track_idle_call.

(** Finding: without observer masks the first tracked time always has an image, so one observer without images makes every
    track fail. *)
Theorem track_idle_default_refuted : forall {T} (E : @env T) obs ob models req maxdt s ds matching rs, 2 <= length models ->
  obs <> [] -> Forall (fun ts => ts <> []) obs -> ob <> [] -> idle ob req maxdt ->
  (forall ps ws, is_ok (e_template E (length obs) None ps ws) = false) ->
  snd (track E obs models (Some req) maxdt None s) = Ok (ds, matching, rs) ->
  exists rs', snd (track E (obs ++ [ob]) models (Some req) maxdt None s) = Ok (ds, with_idle matching, rs') /\
    length rs' = length rs /\ Forall (fun r => t_error r <> None /\ t_means r = map (fun _ => None) ds) rs'.
Proof.
  intros T E obs ob models req maxdt s ds matching rs L N F No I Te H.
  pose proof (track_idle_call E obs ob models req maxdt None s L N F No I ltac:(discriminate) Te) as Q. rewrite H in Q. destruct Q as (rs' & E' & Ln & Q).
  exists rs'. split; [exact E'|]. split; [exact Ln|]. apply Forall_forall. intros r' Hr'. apply In_nth_error in Hr'. destruct Hr' as [k Hk].
  assert (k < length rs) by (rewrite <- Ln; apply nth_error_Some; congruence). destruct (nth_error rs k) as [r|] eqn:Er; [|apply nth_error_None in Er; lia].
  destruct (Q k r r' Er Hk) as (mask & -> & _ & Q2). destruct Q2 as (A & B & _); [|auto]. left.
  destruct (track E obs models (Some req) maxdt None s) as [s1 res] eqn:Et. cbn [snd] in H. subst res.
  destruct (track_results E obs models (Some req) maxdt None s s1 ds matching rs L Et) as (Ed & Em & _). destruct (parse_datetimes_spec obs req maxdt N F) as (PS & _ & _).
  destruct (PS ds Ed) as (_ & L2 & Id). destruct ds as [|d ds]; [cbn in L2; lia|]. destruct (proj1 (Id d) (or_introl eq_refl)) as [_ (ts & t & H1 & H2 & H3)].
  apply In_nth_error in H1. destruct H1 as [o Ho]. destruct (match_datetimes_nearest obs (d :: ds) maxdt F) as (M & Em' & _ & HM). rewrite Em in Em'. injection Em' as <-.
  destruct (HM 0 d o ts eq_refl Ho) as (row & m & R1 & R2 & R3 & _ & R5). destruct m as [k0|].
  - exists o, k0. assert (Lo : o < length obs) by (apply nth_error_Some; congruence). split.
    + revert Lo. generalize (length obs). clear. intros n. revert o. induction n as [|n IH]; intros [|o] H; cbn; try lia; try reflexivity; apply IH; lia.
    + unfold matched. rewrite (nth_error_nth _ _ [] R1). apply nth_error_nth. exact R3.
  - exfalso. specialize (proj1 R5 eq_refl t H2). lia.
Qed.
Print Assumptions track_idle_default_refuted.
Example track_idle_default_ex : let obs := [[0; 10]]%Z in idle [100; 200]%Z [0; 10]%Z 1%Z /\
  parse_datetimes obs [0; 10]%Z 1 = Ok [0; 10]%Z /\ (forall ps ws, is_ok (e_template toy_env (length obs) None ps ws) = false).
Proof. split; [|split; reflexivity]. intros d t Hd Ht. cbn in Hd, Ht. lia. Qed.
