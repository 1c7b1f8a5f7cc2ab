(** Property C123: assignment and resampling. *)
From Coq Require Import Lia Lra.
From Verif Require Import Base BaseLemmas HelpersModel GridModel GetitemModel ShareModel ShareProofs ShareProofs2 ShareProofs3 ShareProofs4 P_Share P_Share2 P_Share3.
Open Scope R_scope.

Lemma positions_rows rows : forall pre : list (option R), map (map (fun p => nth p (pre ++ concat rows) None)) (row_positions (length pre) rows) = rows.
Proof.
  induction rows as [|r rows IH]; intros pre; [reflexivity|]. cbn [row_positions map concat]. f_equal.
  - assert (Z : forall (r post pre : list (option R)), map (fun p => nth p (pre ++ r ++ post) None) (seq (length pre) (length r)) = r); [|apply Z].
    clear. induction r as [|a r IH]; intros post pre; [reflexivity|]. cbn [length seq map]. f_equal; [rewrite app_nth2, Nat.sub_diag by lia; reflexivity|]. specialize (IH post (pre ++ [a])). rewrite app_length in IH. cbn [length] in IH. rewrite Nat.add_comm in IH. rewrite <- app_assoc in IH. exact IH.
  - specialize (IH (pre ++ r)). rewrite app_length, <- app_assoc in IH. exact IH.
Qed.
Lemma new_val_rows w rows c w1 : new_val w rows = (c, w1) -> val_at w1 c = rows.
Proof. intros E. unfold new_val in E. injection E as <- <-. unfold val_at. cbn [fst snd w_vals]. rewrite app_nth2, Nat.sub_diag by lia. exact (positions_rows rows []). Qed.
(** An array that is set is the array, ... *)
Theorem share_array_own h k rows : snd (step (OCells k rows) (run h)) = Ok tt -> values (run (h ++ [OCells k rows])) k = Some (Some rows) /\ limits (run (h ++ [OCells k rows])) k = limits (run h) k.
Proof.
  rewrite run_snoc. pose proof (valid_run h) as V. set (w := run h) in *. cbn [step]. destruct (nth_error (w_objs w) k) as [o|] eqn:Ek; [|discriminate]. destruct (o_cells o); [|discriminate]. destruct (new_val w rows) as [c w1] eqn:N. intros _. pose proof (new_val_rows _ _ _ _ N) as VR. apply new_val_grows in N. destruct N as (G & EO & _).
  cbn [fst]. set (o' := with_cells o c (size_x rows) (size_y rows)). assert (E' : nth_error (w_objs (set_o w1 k o')) k = Some o') by (apply nth_error_set_nth_eq; rewrite EO; apply nth_error_Some; congruence).
  assert (F : o_cells o' = Some c /\ o_xl o' = o_xl o /\ o_yl o' = o_yl o) by (unfold o', with_cells; destruct (_ && _)%bool; auto). destruct F as (F1 & F2 & F3). split.
  - unfold values. rewrite E'. cbn [option_map]. rewrite F1. cbn [option_map]. do 2 f_equal. exact VR.
  - apply (frame_limits w _ k o o'); auto. intros b I. apply (grows_lim w w1); [exact G|]. eapply V; eauto.
Qed.
Print Assumptions share_array_own.
(** the element in row r and column c *)
Definition at_cell {A} (a : list (list A)) (r c : nat) : option A := nth_error (nth r a []) c.
Lemma at_cell_map {A B} (f : A -> B) a r c : at_cell (map (map f) a) r c = option_map f (at_cell a r c).
Proof. unfold at_cell. pose proof (map_nth (map f) a [] r) as M. cbn [map] in M. rewrite M. apply nth_error_map. Qed.
Lemma at_cell_in {A} (a : list (list A)) r c p : at_cell a r c = Some p -> In (nth r a []) a /\ In p (nth r a []).
Proof. unfold at_cell. intros E. split; [|eapply nth_error_In; eauto]. destruct (Nat.lt_ge_cases r (length a)) as [L|G]; [now apply nth_In|]. rewrite nth_overflow in E by exact G. destruct c; discriminate E. Qed.
Lemma at_cell_unique {A} (a : list (list A)) r c r' c' p : NoDup (concat a) -> at_cell a r c = Some p -> at_cell a r' c' = Some p -> r = r' /\ c = c'.
Proof.
  intros N E F. assert (r = r') as <- by (eapply concat_nodup_rows; [exact N|apply (at_cell_in a r c p E)|apply (at_cell_in a r' c' p F)]). split; [reflexivity|].
  pose proof (concat_nodup_row a r N) as NR. apply (proj1 (NoDup_nth_error _) NR); [apply nth_error_Some; unfold at_cell in E; congruence|unfold at_cell in *; congruence].
Qed.
(** ... and a cell that is set has the value, and the others are as before. *)
Theorem share_cell_own h k r c v : snd (step (OCell k r c v) (run h)) = Ok tt -> exists a a', values (run h) k = Some (Some a) /\ values (run (h ++ [OCell k r c v])) k = Some (Some a') /\
  at_cell a' r c = Some v /\ forall r' c', (r', c') <> (r, c) -> at_cell a' r' c' = at_cell a r' c'.
Proof.
  rewrite run_snoc. pose proof (run_wf h) as W. pose proof (run_nd h) as ND. set (w := run h) in *. cbn [step]. destruct (nth_error (w_objs w) k) as [o|] eqn:Ek; [|discriminate]. destruct (o_cells o) as [cs|] eqn:C; [|discriminate]. destruct (nth_error (nth r (snd cs) []) c) as [b|] eqn:B; [|discriminate]. intros _. cbn [fst].
  exists (val_at w cs), (val_at (change_val (fun _ => v) (fst cs) [b] w) cs). unfold values. cbn [change_val w_objs]. rewrite Ek. cbn [option_map]. rewrite C. split; [reflexivity|]. split; [reflexivity|].
  assert (NV : forall p, In p (concat (snd cs)) -> nth p (nth (fst cs) (w_vals (change_val (fun _ => v) (fst cs) [b] w)) []) None = if (p =? b)%nat then v else nth p (nth (fst cs) (w_vals w) []) None).
  { intros p I. apply in_concat in I. destruct I as (row & I1 & I2). assert (L : (p < length (nth (fst cs) (w_vals w) []))%nat) by exact (proj2 (W k o Ek) cs C row p I1 I2).
    cbn [change_val w_vals]. rewrite nth_set_nth_eq by (eapply buffer_bound; eauto). rewrite at_positions_nth by exact L. cbn [existsb]. now rewrite orb_false_r. }
  unfold val_at. split.
  - rewrite at_cell_map. unfold at_cell at 1. rewrite B. cbn [option_map]. f_equal. rewrite NV, Nat.eqb_refl; [reflexivity|]. apply in_concat. destruct (at_cell_in (snd cs) r c b B) as [I J]. eauto.
  - intros r' c' NE. rewrite !at_cell_map. destruct (at_cell (snd cs) r' c') as [p|] eqn:P; [|reflexivity]. cbn [option_map]. f_equal. destruct (at_cell_in _ _ _ _ P) as [I J]. rewrite NV by (apply in_concat; eauto).
    destruct (Nat.eqb_spec p b) as [->|Q]; [|reflexivity]. exfalso. destruct (ND k o Ek) as (_ & _ & _ & NC). destruct (at_cell_unique _ _ _ _ _ _ (NC cs C) B P). congruence.
Qed.
Print Assumptions share_cell_own.
(** Limits that are set are the limits, and the coordinates are then those of the limits. *)
Theorem share_limits_own h k x l : snd (step (OLim k x l) (run h)) = Ok tt -> exists a b, l = [a; b] /\ a <> b /\ lim x (run (h ++ [OLim k x l])) k = Some (a, b) /\ lim (negb x) (run (h ++ [OLim k x l])) k = lim (negb x) (run h) k /\ values (run (h ++ [OLim k x l])) k = values (run h) k /\
  (lim x (run h) k <> Some (a, b) -> forall n, size x (run h) k = Some n -> coordinates x (run (h ++ [OLim k x l])) k = Some (centers ((a, b), n))).
Proof.
  rewrite run_snoc. pose proof (valid_run h) as V. set (w := run h) in *. cbn [step]. destruct (nth_error (w_objs w) k) as [o|] eqn:Ek; [|discriminate]. destruct (parse_limits l) as [[a b]|] eqn:P; [|discriminate].
  assert (L : l = [a; b] /\ a <> b) by (unfold parse_limits in P; destruct l as [|u [|v [|? ?]]]; try discriminate P; destruct (Reqb u v) eqn:Q; [discriminate P|]; injection P as <- <-; split; [reflexivity|now apply Reqb_false]). destruct L as [-> N]. intros _. exists a, b. split; [reflexivity|]. split; [exact N|].
  rewrite (lim_at_of x _ _ _ Ek). fold (o_l x o). destruct (req2 (lim_at w (o_l x o)) (a, b)) eqn:Q.
  - cbn [fst]. unfold req2 in Q. apply andb_prop in Q. destruct Q as [Q1 Q2]. apply Reqb_true in Q1, Q2. cbn [fst snd] in Q1, Q2. rewrite (lim_at_of x _ _ _ Ek). assert (E : lim_at w (o_l x o) = (a, b)) by (destruct (lim_at w (o_l x o)); cbn in *; congruence). rewrite E. repeat split; auto. intros NE. congruence.
  - destruct (new_lim w (a, b)) as [n w1] eqn:NL. apply new_lim_grows in NL. destruct NL as (G & EO & EB & EL). cbn [fst]. set (o' := with_lim x o n). assert (E' : nth_error (w_objs (set_o w1 k o')) k = Some o') by (apply nth_error_set_nth_eq; rewrite EO; apply nth_error_Some; congruence).
    assert (LX : lim_at (set_o w1 k o') (o_l x o') = (a, b)) by (replace (o_l x o') with n by (destruct x; reflexivity); exact EL). split; [now rewrite (lim_at_of x _ _ _ E'), LX|]. split; [|split].
    + rewrite (lim_at_of _ _ _ _ E'), (lim_at_of _ _ _ _ Ek). f_equal. replace (o_l (negb x) o') with (o_l (negb x) o) by (destruct x; reflexivity). unfold lim_at. apply (grows_lim w w1); [exact G|]. apply (V PLim k o); [exact Ek|apply o_l_ref].
    + apply (frame_values w _ k o o'); auto; [destruct x; reflexivity|]. intros m I. apply (grows_val w w1); [exact G|]. eapply V; eauto.
    + intros _ m M. unfold size in M. rewrite Ek in M. unfold coordinates. rewrite E'. cbn [option_map] in *. injection M as <-. f_equal. replace (cached x o') with (@None view) by (destruct x; reflexivity). unfold o_axis, o_xaxis, o_yaxis. destruct x; cbn [o_l] in LX; rewrite LX; reflexivity.
Qed.
Print Assumptions share_limits_own.

(** ** Shifting k[i, j] changes nothing else of k *)
Lemma picked_out {A} ps (l : list A) q a : NoDup l -> (forall p, In p ps -> (0 <= p)%Z) -> ~ In (Z.of_nat q) ps -> nth_error l q = Some a -> ~ In a (picked ps l).
Proof.
  intros N P NI E I. unfold picked in I. apply in_flat_map in I. destruct I as (p & IP & I). destruct (nth_error l (Z.to_nat p)) as [b|] eqn:F; [|destruct I]. destruct I as [->|[]].
  apply NI. replace (Z.of_nat q) with p; [exact IP|]. assert (q = Z.to_nat p) by (apply (proj1 (NoDup_nth_error l) N); [apply nth_error_Some; congruence|congruence]). specialize (P p IP). lia.
Qed.
Theorem share_sub_shift_only h k i j h' (x : bool) d : snd (step (OSub k i j) (run h)) = Ok tt -> Forall (keeps_arrays k) h' -> Forall (keeps_arrays (objects (run h))) h' ->
  let s := objects (run h) in let before := h ++ OSub k i j :: h' in
  exists cols rows, (forall n, size true (run h) k = Some n -> selects n j cols) /\ (forall n, size false (run h) k = Some n -> selects n i rows) /\
  ((2 < length (if x then cols else rows))%nat -> exists l l', coordinates x (run before) k = Some (Ok l) /\ coordinates x (run (before ++ [push s x d])) k = Some (Ok l') /\ forall q, ~ In (Z.of_nat q) (if x then cols else rows) -> nth_error l' q = nth_error l q) /\
  exists v v', values (run before) k = Some (Some v) /\ values (run (before ++ [OShift s None None (Some d)])) k = Some (Some v') /\
    forall r c, (In (Z.of_nat r) rows -> In (Z.of_nat c) cols -> at_cell v' r c = option_map (oplus d) (at_cell v r c)) /\ (~ In (Z.of_nat r) rows \/ ~ In (Z.of_nat c) cols -> at_cell v' r c = at_cell v r c).
Proof.
  intros R0 K1 K2 s before. destruct (sub_made h k i j R0) as (ok & os & c & cs & cols & rows & Ek & Es & _ & KL & S1 & S2 & V & HV & C & Cs & F1 & F2). exists cols, rows. split; [exact S1|]. split; [exact S2|].
  assert (PP : (forall p, In p cols -> (0 <= p)%Z) /\ (forall p, In p rows -> (0 <= p)%Z)).
  { destruct (nth_error (w_objs (run h)) k) as [o|] eqn:E; [|apply nth_error_None in E; unfold objects in KL; lia]. destruct (run_nd h k o E) as (NX & NY & _). unfold size in S1, S2. rewrite E in S1, S2. cbn [option_map] in S1, S2.
    destruct (S1 _ eq_refl) as (? & ? & ? & _ & P1). destruct (S2 _ eq_refl) as (? & ? & ? & _ & P2). split; intros p I; [apply (positions_set _ _ _ _ _ NX P1) in I|apply (positions_set _ _ _ _ _ NY P2) in I]; lia. }
  destruct PP as [PC PR].
  assert (EW : run before = fold_left (fun w p => fst (step p w)) h' (run (h ++ [OSub k i j]))) by (unfold before; change (h ++ OSub k i j :: h') with (h ++ [OSub k i j] ++ h'); now rewrite app_assoc, run_app).
  destruct (run_arrays h' _ _ _ Ek K1) as (ok' & Ek' & Ck & Vk). destruct (run_arrays h' _ _ _ Es K2) as (os' & Es' & Cos & Vs). rewrite <- EW in *. fold s in Es'. rewrite !run_snoc. pose proof (run_wf before) as W. pose proof (run_nd before) as ND. set (w := run before) in *. split.
  - intros L. destruct (HV x) as [v Q]. pose proof (Vs _ _ (V x v Q L)) as Qs. pose proof (Vk _ _ Q) as Qk. set (ps := if x then cols else rows) in *. exists (crd_at w v). rewrite (step_push _ _ _ _ _ Es'). cbn [fst]. unfold coordinates. rewrite (proj1 (shift_axis_objs _ _ _ _)), Ek'. cbn [option_map]. rewrite Qk. eexists. split; [reflexivity|]. split; [reflexivity|].
    intros q NI. unfold crd_at. rewrite !nth_error_map. destruct (nth_error (v_pos v) q) as [p|] eqn:P; [|reflexivity]. cbn [option_map]. f_equal. unfold shift_axis. rewrite Qs. cbn [shift_crd shift_lim w_crds v_buf v_pos].
    assert (B : (p < length (nth (v_buf v) (w_crds w) []))%nat) by (apply (proj1 (W k ok' Ek') x v Qk); eapply nth_error_In; eauto).
    rewrite nth_set_nth_eq by (eapply buffer_bound; eauto). rewrite at_positions_nth by exact B. destruct (existsb (Nat.eqb p) (picked ps (v_pos v))) eqn:X; [|reflexivity]. exfalso. apply existsb_exists in X. destruct X as (p' & I & X). apply Nat.eqb_eq in X. subst p'.
    revert I. apply (picked_out ps (v_pos v) q p); [|unfold ps; destruct x; assumption|exact NI|exact P]. destruct (ND k ok' Ek') as (_ & _ & NV & _). eauto.
  - exists (val_at w c), (val_at (change_val (oplus d) (fst cs) (concat (snd cs)) w) c). cbn [step]. rewrite Es'. rewrite Cos, Cs. cbn [fst shift_axis]. unfold values. cbn [change_val w_objs]. rewrite Ek'. cbn [option_map]. rewrite Ck, C. split; [reflexivity|]. split; [reflexivity|].
    assert (NC : NoDup (concat (snd c))) by (destruct (ND k ok' Ek') as (_ & _ & _ & NC); apply NC; congruence).
    assert (IN : forall r q p, at_cell (snd c) r q = Some p -> (In p (concat (snd cs)) <-> In (Z.of_nat r) rows /\ In (Z.of_nat q) cols)).
    { intros r q p P. rewrite F2. rewrite in_concat. split.
      - intros (row & I & J). apply in_map_iff in I. destruct I as (r' & <- & I). unfold picked in J. apply in_flat_map in J. destruct J as (q' & I' & J). destruct (nth_error (nth (Z.to_nat r') (snd c) []) (Z.to_nat q')) as [p'|] eqn:P'; [|destruct J]. destruct J as [->|[]].
        destruct (at_cell_unique (snd c) _ _ _ _ p NC P P') as [-> ->]. rewrite !Z2Nat.id by auto. auto.
      - intros [I J]. exists (picked cols (nth (Z.to_nat (Z.of_nat r)) (snd c) [])). split; [apply in_map_iff; eauto|]. unfold picked. apply in_flat_map. exists (Z.of_nat q). split; [exact J|]. rewrite !Nat2Z.id. unfold at_cell in P. rewrite P. now left. }
    intros r q. unfold val_at. rewrite !at_cell_map. destruct (at_cell (snd c) r q) as [p|] eqn:P; [|split; reflexivity]. cbn [option_map].
    assert (B : (p < length (nth (fst c) (w_vals w) []))%nat) by (destruct (at_cell_in _ _ _ _ P) as [I J]; apply (proj2 (W k ok' Ek') c) with (row := nth r (snd c) []); congruence || assumption).
    cbn [change_val w_vals]. rewrite F1. rewrite nth_set_nth_eq by (eapply buffer_bound; eauto). rewrite at_positions_nth by exact B. specialize (IN r q p P). split.
    + intros I J. rewrite in_existsb by (apply IN; auto). reflexivity.
    + intros NI. destruct (existsb (Nat.eqb p) (concat (snd cs))) eqn:X; [|reflexivity]. exfalso. apply existsb_exists in X. destruct X as (p' & I & X). apply Nat.eqb_eq in X. subst p'. apply IN in I. intuition.
Qed.
Print Assumptions share_sub_shift_only.

(** ** Resampling *)
Lemma bind_lim_l x o w b y : (o_l y (bind_lim x o w b) = if Bool.eqb x y then (if req2 (lim_at w (o_l x o)) (lim_at w b) then o_l x o else b) else o_l y o) /\ o_cells (bind_lim x o w b) = o_cells o.
Proof. unfold bind_lim. fold (o_l x o). destruct (req2 _ _), x, y; split; reflexivity. Qed.
Lemma req2_true a b : req2 a b = true -> a = b.
Proof. unfold req2. intros H. apply andb_prop in H. destruct H as [A B]. apply Reqb_true in A, B. destruct a, b; cbn in *; congruence. Qed.
(** what the state is after k.resample(g) *)
Lemma resample_made h k g rows : k <> g -> snd (step (OResample k g rows) (run h)) = Ok tt -> let w := run (h ++ [OResample k g rows]) in exists ok og c,
  nth_error (w_objs w) k = Some ok /\ nth_error (w_objs w) g = Some og /\ (forall x, lim_at w (o_l x ok) = lim_at w (o_l x og)) /\ (forall x, exists v, cached x ok = Some v /\ cached x og = Some v) /\ o_cells ok = Some c /\ val_at w c = rows.
Proof.
  intros NK. rewrite run_snoc. pose proof (valid_run h) as V. set (w := run h) in *. cbn [step]. unfold step_resample.
  destruct (get_c true g w) as [w1 r1] eqn:G1. destruct (get_c false g w1) as [w2 r2] eqn:G2. destruct (get_c_unchanged _ _ _ _ _ V G1) as (V1 & _). destruct (get_c_unchanged _ _ _ _ _ V1 G2) as (V2 & _).
  destruct (nth_error (w_objs w2) k) as [o|] eqn:Ek; [|discriminate]. destruct (nth_error (w_objs w2) g) as [og|] eqn:Eg; [|discriminate]. destruct (o_cells o) eqn:Co; [|discriminate].
  destruct (new_val w2 rows) as [c w3] eqn:N3. pose proof (new_val_rows _ _ _ _ N3) as VR. apply new_val_grows in N3. destruct N3 as (G3 & E3 & C3). pose proof (valid_grows _ _ V2 G3 E3) as V3.
  match goal with |- context [set_o w3 k ?z] => set (o4 := z) end. set (w4 := set_o w3 k o4).
  set (oc := with_cells o c (size_x rows) (size_y rows)) in *. assert (FC : o_cells oc = Some c) by (unfold oc, with_cells; destruct (_ && _)%bool; reflexivity).
  assert (F4 : o_cells o4 = Some c) by (unfold o4; rewrite !(proj2 (bind_lim_l _ _ _ _ true)); exact FC).
  assert (L4 : forall x, lim_at w3 (o_l x o4) = lim_at w3 (o_l x og)).
  { intros x. unfold o4. rewrite (proj1 (bind_lim_l _ _ _ _ x)). destruct x; cbn [Bool.eqb].
    - rewrite (proj1 (bind_lim_l _ _ _ _ true)). cbn [Bool.eqb]. destruct (req2 _ _) eqn:Q; [|reflexivity]. now apply req2_true in Q.
    - destruct (req2 _ _) eqn:Q; [|reflexivity]. now apply req2_true in Q. }
  assert (V4 : valid w4).
  { apply set_o_valid; [exact V3|]. intros t b I. unfold o4 in I. apply refs_bind_lim in I. destruct I as [[-> ->]|I]; [apply (V3 PLim g og); [congruence|cbn; auto]|]. apply refs_bind_lim in I. destruct I as [[-> ->]|I]; [apply (V3 PLim g og); [congruence|cbn; auto]|].
    apply refs_with_cells in I. destruct I as [[-> ->]|[_ I]]; [|apply (V3 t k o); [congruence|exact I]]. exact C3. }
  assert (Ek4 : nth_error (w_objs w4) k = Some o4) by (apply nth_error_set_nth_eq; rewrite E3; apply nth_error_Some; congruence).
  assert (Eg4 : nth_error (w_objs w4) g = Some og) by (unfold w4; cbn [set_o w_objs]; rewrite nth_error_set_nth_neq by exact NK; congruence).
  destruct (get_c true g w4) as [w5 r5] eqn:G5. destruct (get_c_unchanged _ _ _ _ _ V4 G5) as (V5 & H5 & _ & R5 & _). destruct (get_c_ref _ _ _ _ _ _ _ G5 Eg4) as (og5 & Eg5 & Lg5 & _ & _). destruct r5 as [vx|]; [|discriminate].
  destruct (get_c false g w5) as [w6 r6] eqn:G6. destruct (get_c_unchanged _ _ _ _ _ V5 G6) as (V6 & H6 & _ & R6 & _). destruct (get_c_ref _ _ _ _ _ _ _ G6 Eg5) as (og6 & Eg6 & Lg6 & _ & Dg6). destruct r6 as [vy|]; [|discriminate].
  destruct (get_c_objs _ _ _ _ _ G5) as [_ S5]. destruct (get_c_objs _ _ _ _ _ G6) as [_ S6]. assert (Ek6 : nth_error (w_objs w6) k = Some o4) by (rewrite S6, S5 by exact NK; exact Ek4). rewrite Ek6. intros _. cbn [fst].
  destruct (R5 vx eq_refl) as (_ & o5 & P5 & Q5). assert (o5 = og5) by congruence. subst o5. destruct (R6 vy eq_refl) as (_ & o6 & P6 & Q6). assert (o6 = og6) by congruence. subst o6.
  set (o7 := with_cached false (with_cached true o4 (Some vx)) (Some vy)). exists o7, og6, c. split; [apply nth_error_set_nth_eq, nth_error_Some; congruence|]. split; [cbn [set_o w_objs]; rewrite nth_error_set_nth_neq by exact NK; exact Eg6|].
  assert (GA : forall b, (b < hl PLim w3)%nat -> lim_at (set_o w6 k o7) b = lim_at w3 b).
  { intros b B. change (lim_at w6 b = lim_at w4 b). assert (B5 : (b < hl PLim w5)%nat) by (destruct H5 as (a5 & _ & _ & Q & _); cbn [hl] in *; rewrite Q, app_length; exact (Nat.lt_lt_add_r _ _ _ B)). unfold lim_at. rewrite (grows_lim w5 w6) by assumption. apply (grows_lim w4 w5); [exact H5|exact B]. }
  split; [|split; [|split]].
  - intros x. rewrite Lg6, Lg5. replace (o_l x o7) with (o_l x o4) by (destruct x; reflexivity). rewrite !GA; [apply L4|apply (V3 PLim g og); [congruence|apply o_l_ref]|]. exact (V4 PLim k o4 _ Ek4 (o_l_ref x o4)).
  - intros []; [exists vx; split; [reflexivity|apply Dg6, Q5]|exists vy; split; [reflexivity|exact Q6]].
  - exact F4.
  - change (val_at w6 c = rows). rewrite <- VR. unfold val_at. assert (GV : nth (fst c) (w_vals w6) [] = nth (fst c) (w_vals w3) []); [|now rewrite GV].
    rewrite (grows_val w4 w6); [reflexivity|eauto using grows_trans|exact C3].
Qed.
(** After k.resample(g), k has the limits and coordinates of g, which are those before, and the values that were sampled. *)
Theorem share_resample_own h k g rows : k <> g -> snd (step (OResample k g rows) (run h)) = Ok tt -> let w := run (h ++ [OResample k g rows]) in
  limits w k = limits (run h) g /\ (forall x, coordinates x w k = coordinates x (run h) g) /\ values w k = Some (Some rows) /\ unchanged (run h) w g.
Proof.
  intros N R0 w. destruct (resample_made h k g rows N R0) as (ok & og & c & Ek & Eg & HL & HC & C & VR). fold w in Ek, Eg, HL, VR.
  assert (U : unchanged (run h) w g).
  { apply share_quiet; [|reflexivity|cbn; congruence]. unfold w in Eg. rewrite run_snoc in Eg. assert (L : (g < length (w_objs (fst (step (OResample k g rows) (run h)))))%nat) by (apply nth_error_Some; congruence). rewrite resample_objects in L. exact L. }
  destruct U as (U1 & U2 & U3). split; [|split; [|split; [|repeat split; auto]]].
  - rewrite <- U1. unfold limits. rewrite Ek, Eg. cbn [option_map]. pose proof (HL true) as A. pose proof (HL false) as B. cbn [o_l] in A, B. now rewrite A, B.
  - intros x. rewrite <- U2. unfold coordinates. rewrite Ek, Eg. cbn [option_map]. destruct (HC x) as (v & A & B). now rewrite A, B.
  - unfold values. rewrite Ek. cbn [option_map]. rewrite C. cbn [option_map]. now rewrite VR.
Qed.
Print Assumptions share_resample_own.
(** Shifting either of them then moves the coordinates of the other. *)
Theorem share_resample_shift_refuted h k g rows h' i j x d : k <> g -> snd (step (OResample k g rows) (run h)) = Ok tt -> Forall (keeps_arrays k) h' -> Forall (keeps_arrays g) h' -> (i = k /\ j = g) \/ (i = g /\ j = k) ->
  let before := h ++ OResample k g rows :: h' in exists l, coordinates x (run before) j = Some (Ok l) /\ coordinates x (run (before ++ [push i x d])) j = Some (Ok (map (fun c => c + d) l)).
Proof.
  intros N R0 K1 K2 IJ before. destruct (resample_made h k g rows N R0) as (ok & og & c & Ek & Eg & _ & HC & _).
  assert (EW : run before = fold_left (fun w p => fst (step p w)) h' (run (h ++ [OResample k g rows]))) by (unfold before; change (h ++ OResample k g rows :: h') with (h ++ [OResample k g rows] ++ h'); now rewrite app_assoc, run_app).
  destruct (run_arrays h' _ _ _ Ek K1) as (ok' & Ek' & _ & Vk). destruct (run_arrays h' _ _ _ Eg K2) as (og' & Eg' & _ & Vg). rewrite <- EW in *. destruct (HC x) as (v & A & B). apply Vk in A. apply Vg in B.
  exists (crd_at (run before) v). rewrite run_snoc.
  assert (Q : forall a oa b ob, nth_error (w_objs (run before)) a = Some oa -> nth_error (w_objs (run before)) b = Some ob -> cached x oa = Some v -> cached x ob = Some v -> coordinates x (run before) b = Some (Ok (crd_at (run before) v)) /\ coordinates x (fst (step (push a x d) (run before))) b = Some (Ok (map (fun c => c + d) (crd_at (run before) v)))).
  { intros a oa b ob Ea Eb Ca Cb. rewrite (step_push _ _ _ _ _ Ea). cbn [fst]. unfold coordinates. rewrite (proj1 (shift_axis_objs _ _ _ _)), Eb. cbn [option_map]. rewrite Cb. split; [reflexivity|]. do 2 f_equal. unfold shift_axis. rewrite Ca. rewrite shift_crd_own; [reflexivity|]. exact (proj1 (run_wf before a oa Ea) x v Ca). }
  destruct IJ as [[-> ->]|[-> ->]]; [exact (Q k ok' g og' Ek' Eg' A B)|exact (Q g og' k ok' Eg' Ek' B A)].
Qed.
Print Assumptions share_resample_shift_refuted.
(** a second raster of two by two cells, resampled to the grid of the first *)
Definition ex_two : list op := ex_h ++ [ONew [[Some 0; Some 0]; [Some 0; Some 0]] [0; 2] [2; 0]].
Example share_resample_ex : snd (step (OResample 1 0 ex_rows) (run ex_two)) = Ok tt /\ snd (step (OCell 1 0 1 None) (run ex_two)) = Ok tt /\ snd (step (OLim 1 true [0; 4]) (run ex_two)) = Ok tt /\ snd (step (OCells 1 ex_rows) (run ex_two)) = Ok tt.
Proof.
  unfold ex_two. rewrite run_snoc, ex_run. cbn [step]. unfold step_new, parse_xy, parse_limits. cbn [length Nat.ltb Nat.leb last]. cbn. rewrite !Reqb_no by lra. cbn. unfold bind_lim, req2, lim_at. cbn.
  repeat match goal with |- context [Reqb ?a ?b] => destruct (Reqb a b) end; cbn; auto.
Qed.
