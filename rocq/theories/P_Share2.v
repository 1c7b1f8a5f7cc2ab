(** Property C123: what moves when an object that shares memory is shifted. *)
From Coq Require Import Lia Lra.
From Verif Require Import Base BaseLemmas HelpersModel GridModel GetitemModel ShareModel ShareProofs ShareProofs2 ShareProofs3 P_Share.
Open Scope R_scope.

(** ** The limits that an object refers to *)
Definition keeps_limits (k : nat) (p : op) : Prop := (forall x l, p <> OLim k x l) /\ (forall g rows, p <> OResample k g rows).
Definition o_l (x : bool) (o : robj) : nat := if x then o_xl o else o_yl o.
Lemma get_c_ref x k w w' r j o : get_c x k w = (w', r) -> nth_error (w_objs w) j = Some o -> exists o', nth_error (w_objs w') j = Some o' /\ (forall y, o_l y o' = o_l y o) /\ o_cells o' = o_cells o /\ forall y v, cached y o = Some v -> cached y o' = Some v.
Proof.
  unfold get_c. intros E Ej. destruct (nth_error (w_objs w) k) as [ok|] eqn:Ek; [|injection E as <- <-; eauto 10]. destruct (cached x ok) eqn:C; [injection E as <- <-; eauto 10|]. destruct (centers _); [|injection E as <- <-; eauto 10].
  cbn [new_crd] in E. injection E as <- <-. cbn [set_o w_objs]. destruct (Nat.eq_dec k j) as [<-|N].
  - rewrite Ej in Ek. injection Ek as <-. eexists. split; [apply nth_error_set_nth_eq, nth_error_Some; congruence|]. split; [intros y; destruct x, y; reflexivity|]. split; [destruct x; reflexivity|].
    intros y v Q. destruct x, y; cbn in *; congruence.
  - exists o. rewrite nth_error_set_nth_neq by exact N. auto.
Qed.
Lemma nth_app_some {A} (l m : list A) j a : nth_error l j = Some a -> nth_error (l ++ m) j = Some a.
Proof. intros E. rewrite nth_error_app1; [exact E|]. apply nth_error_Some. congruence. Qed.
(** what an object refers to is only changed by operations on it that assign *)
Lemma step_refs p w j o : nth_error (w_objs w) j = Some o -> exists o', nth_error (w_objs (fst (step p w))) j = Some o' /\
  (keeps_limits j p -> forall y, o_l y o' = o_l y o) /\
  (changes p <> Some j \/ in_place p = true -> (forall y, o_l y o' = o_l y o) /\ o_cells o' = o_cells o /\ forall y v, cached y o = Some v -> cached y o' = Some v).
Proof.
  intros Ej. assert (Same : exists o', nth_error (w_objs w) j = Some o' /\ (keeps_limits j p -> forall y, o_l y o' = o_l y o) /\ (changes p <> Some j \/ in_place p = true -> (forall y, o_l y o' = o_l y o) /\ o_cells o' = o_cells o /\ forall y v, cached y o = Some v -> cached y o' = Some v)) by (exists o; auto 10).
  assert (Set_ : forall k o', changes p = Some k -> in_place p = false -> (k = j -> keeps_limits j p -> forall y, o_l y o' = o_l y o) -> exists o1, nth_error (set_nth k o' (w_objs w)) j = Some o1 /\ (keeps_limits j p -> forall y, o_l y o1 = o_l y o) /\ (changes p <> Some j \/ in_place p = true -> (forall y, o_l y o1 = o_l y o) /\ o_cells o1 = o_cells o /\ forall y v, cached y o = Some v -> cached y o1 = Some v)).
  { intros k o' CH IP H. destruct (Nat.eq_dec k j) as [->|N].
    - exists o'. split; [apply nth_error_set_nth_eq, nth_error_Some; congruence|]. split; [auto|]. intros [Q|Q]; congruence.
    - exists o. rewrite nth_error_set_nth_neq by exact N. auto 10. }
  destruct p; cbn [step] in *.
  - unfold step_new. destruct (parse_xy _ _ _ _) as [[[xl kx] ?]|]; [|exact Same]. destruct (parse_xy _ _ _ _) as [[[yl ky] ?]|]; [|exact Same].
    destruct kx as [lx|], ky as [ly|]; cbn; (exists o; split; [now apply nth_app_some|auto 10]).
  - destruct (nth_error (w_objs w) k); [|exact Same]. cbn. exists o; split; [now apply nth_app_some|auto 10].
  - destruct (nth_error (w_objs w) k) as [ok|]; [|exact Same]. destruct (o_cells ok); [|exact Same]. cbn. exists o; split; [now apply nth_app_some|auto 10].
  - destruct (nth_error (w_objs w) k) as [ok|]; [|exact Same]. destruct (o_cells ok); cbn; (exists o; split; [now apply nth_app_some|auto 10]).
  - unfold step_sub. destruct (nth_error (w_objs w) k) as [ok|]; [|exact Same]. destruct (o_cells ok); [|exact Same]. destruct (as_slice i) as [[[i0 i1] istep]|]; [|exact Same]. destruct (as_slice j0) as [[[j1 j2] jstep]|]; [|exact Same].
    assert (Move : forall w' o', nth_error (w_objs w') j = Some o' /\ (forall y, o_l y o' = o_l y o) /\ o_cells o' = o_cells o /\ (forall y v, cached y o = Some v -> cached y o' = Some v) -> exists o', nth_error (w_objs w') j = Some o' /\ (keeps_limits j (OSub k i j0) -> forall y, o_l y o' = o_l y o) /\ (changes (OSub k i j0) <> Some j \/ in_place (OSub k i j0) = true -> (forall y, o_l y o' = o_l y o) /\ o_cells o' = o_cells o /\ forall y v, cached y o = Some v -> cached y o' = Some v)) by (intros w' o' (A & B & C & D); exists o'; auto 10).
    destruct (get_c true k w) as [w1 vx] eqn:G1. destruct (get_c_ref _ _ _ _ _ _ _ G1 Ej) as (o1 & E1 & L1 & C1 & D1).
    destruct vx as [vx|]; [|apply (Move w1 o1); auto]. destruct (positions _ j1 j2 jstep); [|apply (Move w1 o1); auto].
    destruct (get_c false k w1) as [w2 vy] eqn:G2. destruct (get_c_ref _ _ _ _ _ _ _ G2 E1) as (o2 & E2 & L2 & C2 & D2).
    assert (Q2 : nth_error (w_objs w2) j = Some o2 /\ (forall y, o_l y o2 = o_l y o) /\ o_cells o2 = o_cells o /\ (forall y v, cached y o = Some v -> cached y o2 = Some v)) by (split; [exact E2|]; split; [intros y; now rewrite L2|]; split; [congruence|auto]).
    destruct vy as [vy|]; [|now apply (Move w2 o2)]. destruct (positions _ i0 i1 istep); [|now apply (Move w2 o2)]. cbv zeta. destruct (sub_coordinates _ _ _ _); [|now apply (Move w2 o2)]. destruct (sub_coordinates _ _ _ _); [|now apply (Move w2 o2)].
    destruct (parse_xy _ _ _ _) as [[[xl kx] ?]|]; [|now apply (Move w2 o2)]. destruct (parse_xy _ _ _ _) as [[[yl ky] ?]|]; [|now apply (Move w2 o2)].
    apply (Move _ o2). cbn. destruct Q2 as [Q2 Q3]. split; [now apply nth_app_some|exact Q3].
  - destruct (get_c x k w) as [w1 r] eqn:G1. destruct (get_c_ref _ _ _ _ _ _ _ G1 Ej) as (o1 & E1 & L1 & C1 & D1). cbn. exists o1. auto 10.
  - destruct (nth_error (w_objs w) k) as [ok|] eqn:Ek; [|exact Same]. destruct (parse_limits l); [|exact Same]. destruct (req2 _ _); [exact Same|]. cbn. apply Set_; auto. intros -> [K _]. now contradiction (K x l).
  - destruct (nth_error (w_objs w) k) as [ok|] eqn:Ek; [|exact Same]. destruct (o_cells ok); [|exact Same]. cbn. apply Set_; auto. intros -> _ y. rewrite Ej in Ek. injection Ek as <-. unfold with_cells. destruct (_ && _)%bool; destruct y; reflexivity.
  - destruct (nth_error (w_objs w) k) as [ok|] eqn:Ek; [|exact Same]. pose proof (step_inplace (OCell k r c v) w k ok eq_refl eq_refl Ek) as [Q _]. cbn [step] in Q. rewrite Ek in Q. rewrite Q. exact Same.
  - destruct (nth_error (w_objs w) k) as [ok|] eqn:Ek; [|exact Same]. pose proof (step_inplace (OShift k dx dy dz) w k ok eq_refl eq_refl Ek) as [Q _]. cbn [step] in Q. rewrite Ek in Q. rewrite Q. exact Same.
  - unfold step_resample. destruct (get_c true g w) as [w1 r1] eqn:G1. destruct (get_c_ref _ _ _ _ _ _ _ G1 Ej) as (o1 & E1 & L1 & C1 & D1).
    destruct (get_c false g w1) as [w2 r2] eqn:G2. destruct (get_c_ref _ _ _ _ _ _ _ G2 E1) as (o2 & E2 & L2 & C2 & D2).
    assert (Move : forall w' o', nth_error (w_objs w') j = Some o' -> (k <> j -> (forall y, o_l y o' = o_l y o2) /\ o_cells o' = o_cells o2 /\ (forall y v, cached y o2 = Some v -> cached y o' = Some v)) -> exists o', nth_error (w_objs w') j = Some o' /\ (keeps_limits j (OResample k g rows) -> forall y, o_l y o' = o_l y o) /\ (changes (OResample k g rows) <> Some j \/ in_place (OResample k g rows) = true -> (forall y, o_l y o' = o_l y o) /\ o_cells o' = o_cells o /\ forall y v, cached y o = Some v -> cached y o' = Some v)).
    { intros w' o' A H. exists o'. split; [exact A|]. assert (F : k <> j -> (forall y, o_l y o' = o_l y o) /\ o_cells o' = o_cells o /\ forall y v, cached y o = Some v -> cached y o' = Some v) by (intros N; destruct (H N) as (B & C & D); split; [intros y; now rewrite B, L2, L1|]; split; [congruence|auto]).
      split; [intros [_ K]; apply F; intros ->; now contradiction (K g rows)|]. cbn [changes in_place]. intros [Q|Q]; [apply F; congruence|discriminate]. }
    assert (Refl : k <> j -> (forall y, o_l y o2 = o_l y o2) /\ o_cells o2 = o_cells o2 /\ (forall y v, cached y o2 = Some v -> cached y o2 = Some v)) by auto.
    destruct (nth_error (w_objs w2) k) as [ok|] eqn:Ek; [|now apply (Move w2 o2)]. destruct (nth_error (w_objs w2) g) as [og|] eqn:Eg; [|now apply (Move w2 o2)]. destruct (o_cells ok); [|now apply (Move w2 o2)].
    destruct (new_val w2 rows) as [c w3] eqn:N3. apply new_val_grows in N3. destruct N3 as (_ & EO & _).
    match goal with |- context [get_c true g ?z] => set (w4 := z) end.
    assert (E4 : exists o4, nth_error (w_objs w4) j = Some o4 /\ (k <> j -> o4 = o2)).
    { unfold w4. cbn [set_o w_objs]. rewrite EO. destruct (Nat.eq_dec k j) as [->|N]; [eexists; split; [apply nth_error_set_nth_eq, nth_error_Some; congruence|congruence]|]. exists o2. rewrite nth_error_set_nth_neq by exact N. auto. }
    destruct E4 as (o4 & E4 & S4).
    destruct (get_c true g w4) as [w5 r5] eqn:G5. destruct (get_c_ref _ _ _ _ _ _ _ G5 E4) as (o5 & E5 & L5 & C5 & D5).
    assert (F5 : k <> j -> (forall y, o_l y o5 = o_l y o2) /\ o_cells o5 = o_cells o2 /\ (forall y v, cached y o2 = Some v -> cached y o5 = Some v)) by (intros N; rewrite (S4 N) in *; auto).
    destruct r5; [|now apply (Move w5 o5)].
    destruct (get_c false g w5) as [w6 r6] eqn:G6. destruct (get_c_ref _ _ _ _ _ _ _ G6 E5) as (o6 & E6 & L6 & C6 & D6).
    assert (F6 : k <> j -> (forall y, o_l y o6 = o_l y o2) /\ o_cells o6 = o_cells o2 /\ (forall y v, cached y o2 = Some v -> cached y o6 = Some v)) by (intros N; destruct (F5 N) as (A & B & C); split; [intros y; now rewrite L6|]; split; [congruence|auto]).
    destruct r6; [|now apply (Move w6 o6)].
    destruct (nth_error (w_objs w6) k) as [o7|] eqn:E7; [|now apply (Move w6 o6)]. cbn [fst].
    destruct (Nat.eq_dec k j) as [->|N]; [eapply Move; [cbn; apply nth_error_set_nth_eq, nth_error_Some; congruence|congruence]|]. apply (Move _ o6); [cbn; now rewrite nth_error_set_nth_neq|exact F6].
Qed.

(** ** A shift along x ([true]) or y ([false]) *)
Definition push (i : nat) (x : bool) (d : R) : op := OShift i (if x then Some d else None) (if x then None else Some d) None.
Definition side (x : bool) {A} (p : A * A) : A := if x then fst p else snd p.
Definition moved (d : R) (l : R * R) : R * R := (fst l + d, snd l + d).
(** limits of the object i along an axis *)
Definition lim (x : bool) (w : world) (i : nat) : option (R * R) := option_map (side x) (limits w i).
Lemma lim_at_of x w i o : nth_error (w_objs w) i = Some o -> lim x w i = Some (lim_at w (o_l x o)).
Proof. intros E. unfold lim, limits. rewrite E. destruct x; reflexivity. Qed.
Lemma step_push i x d w o : nth_error (w_objs w) i = Some o -> step (push i x d) w = (shift_axis x o (Some d) w, Ok tt).
Proof. intros E. unfold push. cbn [step]. rewrite E. destruct (o_cells o), x; reflexivity. Qed.
Lemma shift_axis_lim x o d w b : (o_l x o < length (w_lims w))%nat -> lim_at (shift_axis x o (Some d) w) b = if (o_l x o =? b)%nat then moved d (lim_at w b) else lim_at w b.
Proof.
  intros L. unfold shift_axis. fold (o_l x o). assert (Q : lim_at (shift_lim (o_l x o) d w) b = if (o_l x o =? b)%nat then moved d (lim_at w b) else lim_at w b).
  { unfold lim_at at 1. cbn [shift_lim w_lims]. destruct (Nat.eqb_spec (o_l x o) b) as [<-|N]; [now rewrite nth_set_nth_eq|now rewrite nth_set_nth_neq]. }
  destruct (cached x o); exact Q.
Qed.
Lemma o_l_ref x o : In (o_l x o) (refs PLim o). Proof. destruct x; cbn; auto. Qed.
Lemma linspace_moved a b d n : linspace (a + d) (b + d) n = match linspace a b n with Ok l => Ok (map (fun x => x + d) l) | Err e => Err e end.
Proof.
  unfold linspace. destruct (n <? 0)%Z; [reflexivity|]. f_equal. rewrite map_map. apply map_ext. intros i. destruct (n =? 1)%Z; [reflexivity|]. replace (b + d - (a + d)) with (b - a) by ring. ring.
Qed.
Lemma Rmin_moved a b d : Rmin (a + d) (b + d) = Rmin a b + d.
Proof. unfold Rmin. destruct (Rle_dec (a + d) (b + d)), (Rle_dec a b); try reflexivity; lra. Qed.
Lemma Rmax_moved a b d : Rmax (a + d) (b + d) = Rmax a b + d.
Proof. unfold Rmax. destruct (Rle_dec (a + d) (b + d)), (Rle_dec a b); try reflexivity; lra. Qed.
Lemma centers_moved l d n : centers (moved d l, n) = match centers (l, n) with Ok v => Ok (map (fun x => x + d) v) | Err e => Err e end.
Proof.
  unfold centers, amin, amax, dcell, moved. cbn [fst snd]. rewrite Rmin_moved, Rmax_moved. replace (snd l + d - (fst l + d)) with (snd l - fst l) by ring. set (c := (snd l - fst l) / IZR n).
  replace (Rmin (fst l) (snd l) + d + Rabs c / 2) with (Rmin (fst l) (snd l) + Rabs c / 2 + d) by ring. replace (Rmax (fst l) (snd l) + d - Rabs c / 2) with (Rmax (fst l) (snd l) - Rabs c / 2 + d) by ring.
  rewrite linspace_moved. destruct (linspace _ _ n) as [v|e]; [|reflexivity]. cbn. f_equal. destruct (Rltb c 0); [now rewrite map_rev|reflexivity].
Qed.
(** A shift moves the limits, the coordinates (read before or not), and the values of the object. *)
Theorem share_shift_own h i x d l : coordinates x (run h) i = Some (Ok l) ->
  lim x (run (h ++ [push i x d])) i = option_map (moved d) (lim x (run h) i) /\ coordinates x (run (h ++ [push i x d])) i = Some (Ok (map (fun c => c + d) l)).
Proof.
  intros C. rewrite run_snoc. pose proof (valid_run h) as V. pose proof (run_wf h) as W. set (w := run h) in *. destruct (nth_error (w_objs w) i) as [o|] eqn:E; [|unfold coordinates in C; rewrite E in C; discriminate C].
  rewrite (step_push _ _ _ _ _ E). cbn [fst]. assert (E' : nth_error (w_objs (shift_axis x o (Some d) w)) i = Some o) by (rewrite (proj1 (shift_axis_objs _ _ _ _)); exact E).
  assert (B : (o_l x o < length (w_lims w))%nat) by (exact (V PLim i o _ E (o_l_ref x o))).
  assert (L : lim_at (shift_axis x o (Some d) w) (o_l x o) = moved d (lim_at w (o_l x o))) by (rewrite shift_axis_lim by exact B; now rewrite Nat.eqb_refl).
  split; [rewrite !(lim_at_of _ _ _ _ E), (lim_at_of _ _ _ _ E'), L; reflexivity|].
  unfold coordinates in *. rewrite E in C. rewrite E'. cbn [option_map] in *. f_equal. destruct (cached x o) as [v|] eqn:Q.
  - injection C as <-. f_equal. unfold shift_axis. rewrite Q. rewrite shift_crd_own; [reflexivity|]. exact (proj1 (W i o E) x v Q).
  - replace (o_axis x (shift_axis x o (Some d) w) o) with (moved d (lim_at w (o_l x o)), snd (o_axis x w o)) by (rewrite <- L; destruct x; reflexivity).
    rewrite centers_moved. replace (lim_at w (o_l x o), snd (o_axis x w o)) with (o_axis x w o) by (destruct x; reflexivity). injection C as C. rewrite C. reflexivity.
Qed.
Print Assumptions share_shift_own.
Theorem share_shift_values h i d v : values (run h) i = Some (Some v) -> values (run (h ++ [OShift i None None (Some d)])) i = Some (Some (map (map (oplus d)) v)).
Proof.
  intros C. rewrite run_snoc. pose proof (run_wf h) as W. set (w := run h) in *. unfold values in *. destruct (nth_error (w_objs w) i) as [o|] eqn:E; [|discriminate C]. destruct (o_cells o) as [c|] eqn:Q; [|cbn in C; rewrite Q in C; discriminate C].
  cbn [step]. rewrite E. cbn [option_map] in C. rewrite Q in C. cbn [option_map] in C. injection C as <-. rewrite Q. cbn [fst shift_axis change_val w_objs]. rewrite E. cbn [option_map]. rewrite Q. cbn [option_map]. f_equal. f_equal.
  change (val_at (change_val (oplus d) (fst c) (concat (snd c)) w) c = map (map (oplus d)) (val_at w c)). apply change_val_own. exact (proj2 (W i o E) c Q).
Qed.
Print Assumptions share_shift_values.

(** ** Limits kept by the new object: k.grid, and rasters made with x=k.xlim, y=k.ylim *)
Lemma run_refs h : forall w j o, nth_error (w_objs w) j = Some o -> Forall (keeps_limits j) h -> exists o', nth_error (w_objs (fold_left (fun w p => fst (step p w)) h w)) j = Some o' /\ forall y, o_l y o' = o_l y o.
Proof.
  induction h as [|p h IH]; intros w j o E F; [exists o; auto|]. inversion F; subst. cbn [fold_left]. destruct (step_refs p w j o E) as (o1 & E1 & L1 & _). destruct (IH _ _ _ E1 H2) as (o2 & E2 & L2). exists o2. split; [exact E2|]. intros y. rewrite L2. now apply L1.
Qed.
Lemma run_app h h' : run (h ++ h') = fold_left (fun w p => fst (step p w)) h' (run h).
Proof. unfold run. now rewrite fold_left_app. Qed.
Lemma same_limits h p k h' i j : source PLim p = Some k -> objects (run (h ++ [p])) = S (objects (run h)) -> Forall (keeps_limits k) h' -> Forall (keeps_limits (objects (run h))) h' ->
  (i = k \/ i = objects (run h)) -> (j = k \/ j = objects (run h)) ->
  exists oi oj, nth_error (w_objs (run (h ++ p :: h'))) i = Some oi /\ nth_error (w_objs (run (h ++ p :: h'))) j = Some oj /\ forall y, o_l y oi = o_l y oj.
Proof.
  intros S N K1 K2 I J. change (h ++ p :: h') with (h ++ [p] ++ h'). rewrite app_assoc, run_app. rewrite run_snoc in *. set (w := run h) in *.
  assert (Q : exists ok on, nth_error (w_objs (fst (step p w))) k = Some ok /\ nth_error (w_objs (fst (step p w))) (objects w) = Some on /\ forall y, o_l y on = o_l y ok).
  { destruct p; cbn [source] in S; try discriminate S; injection S as ->; cbn [step] in *; destruct (nth_error (w_objs w) k) as [o|] eqn:E; try (cbn [fst] in N; lia).
    - cbn. exists o. eexists. split; [now apply nth_app_some|]. unfold objects. rewrite nth_error_app2, Nat.sub_diag by lia. cbn [nth_error]. split; [reflexivity|intros []; reflexivity].
    - destruct (o_cells o); [|cbn [fst] in N; lia]. cbn. exists o. eexists. split; [now apply nth_app_some|]. unfold objects. rewrite nth_error_app2, Nat.sub_diag by lia. cbn [nth_error]. split; [reflexivity|intros []; reflexivity]. }
  destruct Q as (ok & on & Ek & En & L). destruct (run_refs h' _ _ _ Ek K1) as (ok' & Ek' & Lk). destruct (run_refs h' _ _ _ En K2) as (on' & En' & Ln).
  destruct I as [->| ->], J as [->| ->]; [exists ok', ok'|exists ok', on'|exists on', ok'|exists on', on']; repeat split; auto; intros y; congruence.
Qed.
(** Shifting either of the two moves the limits of both. *)
Theorem share_shift_limits h p k h' i j x d : source PLim p = Some k -> objects (run (h ++ [p])) = S (objects (run h)) -> Forall (keeps_limits k) h' -> Forall (keeps_limits (objects (run h))) h' ->
  (i = k \/ i = objects (run h)) -> (j = k \/ j = objects (run h)) ->
  lim x (run (h ++ p :: h')) j = lim x (run (h ++ p :: h')) i /\ lim x (run (h ++ p :: h' ++ [push i x d])) j = option_map (moved d) (lim x (run (h ++ p :: h')) j).
Proof.
  intros S N K1 K2 I J. destruct (same_limits h p k h' i j S N K1 K2 I J) as (oi & oj & Ei & Ej & L). pose proof (valid_run (h ++ p :: h')) as V. change (h ++ p :: h' ++ [push i x d]) with (h ++ (p :: h') ++ [push i x d]). rewrite app_assoc, run_snoc. set (w := run (h ++ p :: h')) in *.
  split; [now rewrite (lim_at_of _ _ _ _ Ei), (lim_at_of _ _ _ _ Ej), L|]. rewrite (step_push _ _ _ _ _ Ei). cbn [fst].
  assert (E' : nth_error (w_objs (shift_axis x oi (Some d) w)) j = Some oj) by (rewrite (proj1 (shift_axis_objs _ _ _ _)); exact Ej).
  rewrite (lim_at_of _ _ _ _ Ej), (lim_at_of _ _ _ _ E'), shift_axis_lim by (exact (V PLim i oi _ Ei (o_l_ref x oi))). rewrite L, Nat.eqb_refl. reflexivity.
Qed.
Print Assumptions share_shift_limits.
Lemma together_kept t h h' i j : (i < objects (run h))%nat -> (j < objects (run h))%nat -> Forall (fun q => forall k g rows, q <> OResample k g rows) h' -> together t (h ++ h') i j <-> together t h i j.
Proof.
  induction h' as [|q h' IH] using rev_ind; intros I J F; [now rewrite app_nil_r|]. apply Forall_app in F. destruct F as [F Q]. inversion Q; subst. rewrite app_assoc, share_kept; auto.
  - assert (M : forall g, (objects (run h) <= objects (run (h ++ g)))%nat) by (induction g as [|r g IHg] using rev_ind; [now rewrite app_nil_r|]; rewrite app_assoc, run_snoc; unfold objects in *; destruct (step_objects r (run (h ++ g))) as [->| ->]; lia). eapply Nat.lt_le_trans; [exact I|apply M].
  - assert (M : forall g, (objects (run h) <= objects (run (h ++ g)))%nat) by (induction g as [|r g IHg] using rev_ind; [now rewrite app_nil_r|]; rewrite app_assoc, run_snoc; unfold objects in *; destruct (step_objects r (run (h ++ g))) as [->| ->]; lia). eapply Nat.lt_le_trans; [exact J|apply M].
Qed.
(** But it does not move the coordinates of the other, if they were read before: then they are not those of its limits. *)
Theorem share_grid_shift_refuted h p k h' i j x d l : source PLim p = Some k -> (k < objects (run h))%nat -> objects (run (h ++ [p])) = S (objects (run h)) ->
  Forall (keeps_limits k) h' -> Forall (keeps_limits (objects (run h))) h' -> Forall (fun q => forall k g rows, q <> OResample k g rows) h' ->
  (i = k /\ j = objects (run h)) \/ (i = objects (run h) /\ j = k) ->
  let before := h ++ p :: h' ++ [ORead j x] in
  coordinates x (run before) j = Some (Ok l) ->
  lim x (run (before ++ [push i x d])) j = option_map (moved d) (lim x (run before) j) /\ coordinates x (run (before ++ [push i x d])) j = Some (Ok l).
Proof.
  intros S K N K1 K2 NR IJ before C.
  assert (KR : forall n, keeps_limits n (ORead j x)) by (intros n; split; congruence).
  destruct (share_shift_limits h p k (h' ++ [ORead j x]) i j x d S N) as [_ L]; [apply Forall_app; auto|apply Forall_app; auto|intuition|intuition|].
  split; [unfold before; rewrite <- app_assoc; exact L|]. clear L.
  assert (NT : ~ together PCrd before j i).
  { unfold before. change (h ++ p :: h' ++ [ORead j x]) with (h ++ [p] ++ h' ++ [ORead j x]). rewrite app_assoc. intros T.
    assert (F : Forall (fun q => forall k g rows, q <> OResample k g rows) (h' ++ [ORead j x])) by (apply Forall_app; split; [exact NR|constructor; [congruence|constructor]]).
    rewrite together_kept in T; [|intuition; subst; lia|intuition; subst; lia|exact F].
    assert (S' : source PCrd p = None) by (destruct p; try discriminate S; reflexivity).
    destruct IJ as [[-> ->]|[-> ->]]; [unfold together in T; symmetry in T|]; exact (share_fresh PCrd h p k N S' K T). }
  rewrite run_snoc. pose proof (run_owns PCrd before) as [own O].
  assert (RJ : exists o v, nth_error (w_objs (run before)) j = Some o /\ cached x o = Some v).
  { unfold before in C |- *. change (h ++ p :: h' ++ [ORead j x]) with (h ++ (p :: h') ++ [ORead j x]) in *. rewrite app_assoc, run_snoc in *. cbn [step] in *. destruct (get_c x j (run (h ++ p :: h'))) as [w1 r] eqn:G. cbn [fst] in *.
    destruct (get_c_unchanged _ _ _ _ _ (valid_run _) G) as (_ & _ & U & R & _). destruct r as [v|e]; [destruct (R v eq_refl) as (_ & o & A & B); eauto|].
    exfalso. unfold get_c in G. destruct (U j) as (_ & UC & _). rewrite UC in C. unfold coordinates in C. destruct (nth_error _ j) as [o|]; [|discriminate C]. cbn in C. destruct (cached x o); [discriminate G|]. destruct (centers _); [destruct (new_crd _ _) eqn:?; discriminate G|discriminate C]. }
  destruct RJ as (oj & v & Ej & Cj). destruct (nth_error (w_objs (run before)) i) as [oi|] eqn:Ei.
  - rewrite (step_push _ _ _ _ _ Ei). cbn [fst]. unfold coordinates in *. rewrite (proj1 (shift_axis_objs _ _ _ _)), Ej in *. cbn [option_map] in *. rewrite Cj in *. rewrite <- C.
    assert (B : same_buffer PCrd (run before) (shift_axis x oi (Some d) (run before)) (v_buf v)).
    { apply shift_axis_buffers. assert (IN : In (v_buf v) (refs PCrd oj)) by (cbn [refs]; apply in_or_app; unfold cached in Cj; destruct x; rewrite Cj; [left|right]; now left). apply (apart_refs PCrd (run before) (families PCrd before) own j i oj oi (v_buf v) O NT Ej Ei IN). }
    unfold same_buffer in B. unfold crd_at. now rewrite B.
  - unfold push. cbn [step]. rewrite Ei. exact C.
Qed.
Print Assumptions share_grid_shift_refuted.
